(** GoNum: strconv.ParseUint / ParseInt / FormatInt (base 10) and ParseBool of
    the Go standard library, as far as /repo uses them, and their specification. *)
From Coq Require Import List Ascii String Bool Arith ZArith Lia.
Import ListNotations.
From Verif Require Import GoStr.
Local Open Scope Z_scope.

(** ** Model *)

Inductive nerr := ESyntax | ERange.
(** a conversion returns a value and possibly an error *)
Definition conv (A : Type) : Type := (A * option nerr)%type.

(** value of a decimal digit *)
Definition digit_val (c : ascii) : option Z :=
  let n := code c in
  if (Nat.leb 48 n && Nat.leb n 57)%bool then Some (Z.of_nat (n - 48)) else None.

(** strconv/atoi.go ParseUint, base 10, the digit loop.  The Go test
    [n >= cutoff] (n*10 overflows 64 bits) and [n1 < n || n1 > maxVal] are one
    test over Z because maxVal < 2^64. *)
Fixpoint puint_loop (max n : Z) (s : bytes) : conv Z :=
  match s with
  | [] => (n, None)
  | c :: s' =>
      match digit_val c with
      | None => (0, Some ESyntax)
      | Some d => let n1 := n * 10 + d in
                  if n1 >? max then (max, Some ERange) else puint_loop max n1 s'
      end
  end.
Definition parse_uint (bits : Z) (s : bytes) : conv Z :=
  match s with
  | [] => (0, Some ESyntax)
  | _ => puint_loop (2 ^ bits - 1) 0 s
  end.

(** strconv/atoi.go ParseInt, base 10 *)
Definition parse_int (bits : Z) (s : bytes) : conv Z :=
  match s with
  | [] => (0, Some ESyntax)
  | c :: s' =>
      let '(neg, digits) :=
        if Ascii.eqb c "+"%char then (false, s')
        else if Ascii.eqb c "-"%char then (true, s') else (false, s) in
      let '(un, err) := parse_uint bits digits in
      match err with
      | Some ESyntax => (0, Some ESyntax)
      | _ =>
          let cutoff := 2 ^ (bits - 1) in
          if negb neg && (un >=? cutoff) then (cutoff - 1, Some ERange)
          else if neg && (un >? cutoff) then (- cutoff, Some ERange)
          else ((if neg then - un else un), None)
      end
  end.

(** strconv.ParseBool *)
Definition parse_bool (s : bytes) : conv bool :=
  if existsb (beq s) [bs "1"; bs "t"; bs "T"; bs "TRUE"; bs "true"; bs "True"] then (true, None)
  else if existsb (beq s) [bs "0"; bs "f"; bs "F"; bs "FALSE"; bs "false"; bs "False"] then (false, None)
  else (false, Some ESyntax).

(** strconv.FormatUint(n, 10): most significant digit first.  [fuel] bounds the
    number of digits; the number of bits of n is enough. *)
Definition digit_char (d : Z) : ascii := byte (48 + Z.to_nat d).
Fixpoint fmt_loop (fuel : nat) (n : Z) (acc : bytes) : bytes :=
  match fuel with
  | O => acc
  | S f => let acc' := digit_char (n mod 10) :: acc in
           if n <? 10 then acc' else fmt_loop f (n / 10) acc'
  end.
Definition format_uint (n : Z) : bytes := fmt_loop (S (Z.to_nat (Z.log2 n))) n [].
(** strconv.FormatInt(n, 10) *)
Definition format_int (n : Z) : bytes := if n <? 0 then "-"%char :: format_uint (- n) else format_uint n.

(** ** Specification: the number a decimal string denotes *)
Definition is_digit (c : ascii) : Prop := exists d, digit_val c = Some d.
(** d1 ... dk denotes d1*10^(k-1) + ... + dk *)
Inductive nat_denotes : bytes -> Z -> Prop :=
| nd_one : forall c d, digit_val c = Some d -> nat_denotes [c] d
| nd_more : forall s n c d, nat_denotes s n -> digit_val c = Some d -> nat_denotes (s ++ [c]) (n * 10 + d).
(** with an optional sign *)
Inductive int_denotes : bytes -> Z -> Prop :=
| id_plain : forall s n, nat_denotes s n -> int_denotes s n
| id_plus : forall s n, nat_denotes s n -> int_denotes ("+"%char :: s) n
| id_minus : forall s n, nat_denotes s n -> int_denotes ("-"%char :: s) (- n).

(** ** Facts *)
Lemma digit_val_range c d : digit_val c = Some d -> 0 <= d <= 9.
Proof.
  unfold digit_val. destruct (Nat.leb_spec 48 (code c)); [|discriminate].
  destruct (Nat.leb_spec (code c) 57); [|discriminate]. cbn [andb]. intros [= <-]. lia.
Qed.
Lemma digit_char_val d : 0 <= d <= 9 -> digit_val (digit_char d) = Some d.
Proof.
  intros H. unfold digit_val, digit_char. rewrite code_byte by lia.
  destruct (Nat.leb_spec 48 (48 + Z.to_nat d)); [|lia]. destruct (Nat.leb_spec (48 + Z.to_nat d) 57); [|lia].
  cbn [andb]. f_equal. lia.
Qed.

(** value of a digit list by folding *)
Fixpoint dval (n : Z) (s : bytes) : option Z :=
  match s with
  | [] => Some n
  | c :: s' => match digit_val c with None => None | Some d => dval (n * 10 + d) s' end
  end.
Lemma dval_app s : forall n t, dval n (s ++ t) = match dval n s with Some m => dval m t | None => None end.
Proof.
  induction s as [|c s IH]; intros n t; cbn [app dval]; [reflexivity|].
  destruct (digit_val c); [apply IH|reflexivity].
Qed.
Lemma nat_denotes_dval s n : nat_denotes s n <-> s <> [] /\ dval 0 s = Some n.
Proof.
  split.
  - induction 1 as [c d H|s n c d H IH Hc].
    + split; [discriminate|]. cbn. rewrite H. f_equal.
    + destruct IH as [_ IH]. split; [destruct s; discriminate|]. rewrite dval_app, IH. cbn. rewrite Hc. reflexivity.
  - revert n. induction s as [|c s IH] using rev_ind; intros n [Hn H]; [congruence|].
    rewrite dval_app in H. destruct (dval 0 s) as [m|] eqn:E; [|discriminate]. cbn in H.
    destruct (digit_val c) as [d|] eqn:Ed; [|discriminate]. injection H as <-.
    destruct s as [|c0 s0].
    + cbn in E. injection E as <-. cbn. constructor. exact Ed.
    + constructor; [apply IH; split; [discriminate|reflexivity]|exact Ed].
Qed.
Lemma nat_denotes_fun s n m : nat_denotes s n -> nat_denotes s m -> n = m.
Proof. rewrite !nat_denotes_dval. intros [_ H1] [_ H2]. congruence. Qed.
Lemma dval_ge s : forall n m, 0 <= n -> dval n s = Some m -> n <= m.
Proof.
  induction s as [|c s IH]; intros n m Hn; cbn [dval]; [intros [= <-]; lia|].
  destruct (digit_val c) as [d|] eqn:E; [|discriminate]. apply digit_val_range in E. intros H. apply IH in H; lia.
Qed.
Lemma nat_denotes_nonneg s n : nat_denotes s n -> 0 <= n.
Proof. rewrite nat_denotes_dval. intros [_ H]. apply dval_ge in H; lia. Qed.
Lemma nat_denotes_head s n : nat_denotes s n -> exists c s', s = c :: s' /\ is_digit c.
Proof.
  rewrite nat_denotes_dval. intros [Hn H]. destruct s as [|c s']; [congruence|]. exists c, s'. split; [reflexivity|].
  cbn in H. destruct (digit_val c) as [d|] eqn:E; [exists d; exact E|discriminate].
Qed.

Lemma puint_loop_ok max s : forall n m, 0 <= n <= max ->
  puint_loop max n s = (m, None) <-> dval n s = Some m /\ m <= max.
Proof.
  induction s as [|c s IH]; intros n m Hn; cbn [puint_loop dval].
  - split; [intros [= <-]; split; [reflexivity|lia]|intros [[= <-] _]; reflexivity].
  - destruct (digit_val c) as [d|] eqn:E; [|split; [discriminate|intros [? _]; discriminate]].
    pose proof (digit_val_range _ _ E). rewrite Z.gtb_ltb. destruct (Z.ltb_spec max (n * 10 + d)) as [Hlt|Hge].
    + split; [discriminate|]. intros [H1 H2]. apply dval_ge in H1; lia.
    + apply IH. lia.
Qed.
Lemma puint_loop_range max s : forall n r, 0 <= n <= max -> puint_loop max n s = (r, Some ERange) -> r = max.
Proof.
  induction s as [|c s IH]; intros n r Hn; cbn [puint_loop]; [discriminate|].
  destruct (digit_val c) as [d|] eqn:E; [|intros [= <-]].
  pose proof (digit_val_range _ _ E). rewrite Z.gtb_ltb. destruct (Z.ltb_spec max (n * 10 + d)).
  - intros [= <-]. reflexivity.
  - apply IH. lia.
Qed.
Lemma puint_loop_err max s : forall n r e, 0 <= n <= max -> puint_loop max n s = (r, Some e) ->
  (e = ESyntax /\ r = 0) \/ (e = ERange /\ r = max).
Proof.
  induction s as [|c s IH]; intros n r e Hn; cbn [puint_loop]; [discriminate|].
  destruct (digit_val c) as [d|] eqn:E; [|intros [= <- <-]; left; split; reflexivity].
  pose proof (digit_val_range _ _ E). rewrite Z.gtb_ltb. destruct (Z.ltb_spec max (n * 10 + d)).
  - intros [= <- <-]. right. split; reflexivity.
  - apply IH. lia.
Qed.
(** a digit string out of range is reported as a range error *)
Lemma puint_loop_over max s : forall n m, 0 <= n <= max -> dval n s = Some m -> max < m ->
  puint_loop max n s = (max, Some ERange).
Proof.
  intros n m Hn Hd Hm. revert n m Hn Hd Hm. induction s as [|c s IH]; intros n m Hn; cbn [puint_loop dval].
  - intros [= <-]. lia.
  - destruct (digit_val c) as [d|] eqn:E; [|discriminate]. pose proof (digit_val_range _ _ E).
    rewrite Z.gtb_ltb. destruct (Z.ltb_spec max (n * 10 + d)); [reflexivity|]. intros Hd Hm. eapply IH; eauto; lia.
Qed.

Lemma parse_uint_ok bits s n : 0 <= bits ->
  parse_uint bits s = (n, None) <-> nat_denotes s n /\ n < 2 ^ bits.
Proof.
  intros Hb. pose proof (Z.pow_pos_nonneg 2 bits ltac:(lia) Hb). rewrite nat_denotes_dval. destruct s as [|c s].
  - split; [discriminate|]. intros [[H1 _] _]. congruence.
  - unfold parse_uint. rewrite puint_loop_ok by lia. split; [intros [H1 H2]; split; [split; [discriminate|exact H1]|lia]|].
    intros [[_ H1] H2]. split; [exact H1|lia].
Qed.
Lemma parse_uint_err bits s n e : 0 <= bits -> parse_uint bits s = (n, Some e) ->
  (e = ESyntax /\ n = 0) \/ (e = ERange /\ n = 2 ^ bits - 1).
Proof.
  intros Hb. pose proof (Z.pow_pos_nonneg 2 bits ltac:(lia) Hb). unfold parse_uint. destruct s; [intros [= <- <-]; left; auto|].
  apply puint_loop_err. lia.
Qed.
Lemma parse_uint_range bits s m : 0 <= bits -> nat_denotes s m -> 2 ^ bits <= m -> parse_uint bits s = (2 ^ bits - 1, Some ERange).
Proof.
  intros Hb Hd Hm. pose proof (Z.pow_pos_nonneg 2 bits ltac:(lia) Hb). apply nat_denotes_dval in Hd as [Hn Hd].
  destruct s; [congruence|]. unfold parse_uint. eapply puint_loop_over; eauto; lia.
Qed.

Lemma digit_not_sign c : is_digit c -> Ascii.eqb c "+"%char = false /\ Ascii.eqb c "-"%char = false.
Proof.
  intros [d H]. unfold digit_val in H.
  destruct (Ascii.eqb_spec c "+"%char) as [->|]; [vm_compute in H; discriminate|].
  destruct (Ascii.eqb_spec c "-"%char) as [->|]; [vm_compute in H; discriminate|]. auto.
Qed.

Lemma parse_int_ok bits s n : 2 <= bits ->
  parse_int bits s = (n, None) <-> int_denotes s n /\ - 2 ^ (bits - 1) <= n < 2 ^ (bits - 1).
Proof.
  intros Hb. assert (Hp : 2 ^ bits = 2 * 2 ^ (bits - 1)).
  { rewrite <- Z.pow_succ_r by lia. f_equal. lia. }
  pose proof (Z.pow_pos_nonneg 2 (bits - 1) ltac:(lia) ltac:(lia)) as Hpos.
  (* outcome for the digits with a sign *)
  assert (G : forall (neg : bool) ds m,
    (let '(un, err) := parse_uint bits ds in
      match err with
      | Some ESyntax => (0, Some ESyntax)
      | _ =>
          let cutoff := 2 ^ (bits - 1) in
          if negb neg && (un >=? cutoff) then (cutoff - 1, Some ERange)
          else if neg && (un >? cutoff) then (- cutoff, Some ERange)
          else ((if neg then - un else un), None)
      end) = (m, None) <-> nat_denotes ds (if neg then - m else m) /\ - 2 ^ (bits - 1) <= m < 2 ^ (bits - 1)).
  { intros neg ds m. destruct (parse_uint bits ds) as [un [e|]] eqn:E.
    - assert (Hno : ~ (nat_denotes ds (if neg then - m else m) /\ - 2 ^ (bits - 1) <= m < 2 ^ (bits - 1))).
      { intros [Hd Hm]. pose proof (nat_denotes_nonneg _ _ Hd).
        assert (parse_uint bits ds = ((if neg then - m else m), None)) by (apply parse_uint_ok; [lia|]; split; [exact Hd|destruct neg; lia]).
        congruence. }
      destruct (parse_uint_err bits _ _ _ ltac:(lia) E) as [[-> ->]|[-> ->]]; [split; [discriminate|tauto]|].
      split; [|tauto]. cbv zeta. destruct neg; cbn [negb andb].
      + rewrite Z.gtb_ltb. destruct (Z.ltb_spec (2 ^ (bits - 1)) (2 ^ bits - 1)); [discriminate|].
        exfalso. assert (2 ^ 1 <= 2 ^ (bits - 1)) by (apply Z.pow_le_mono_r; lia). lia.
      + rewrite Z.geb_leb. destruct (Z.leb_spec (2 ^ (bits - 1)) (2 ^ bits - 1)); [discriminate|lia].
    - apply parse_uint_ok in E as [Hd Hlt]; [|lia]. pose proof (nat_denotes_nonneg _ _ Hd).
      cbv zeta. rewrite Z.geb_leb, Z.gtb_ltb. destruct neg; cbn [negb andb].
      + destruct (Z.ltb_spec (2 ^ (bits - 1)) un).
        * split; [discriminate|]. intros [Hd' Hm]. pose proof (nat_denotes_fun _ _ _ Hd Hd'). lia.
        * split; [intros [= <-]; rewrite Z.opp_involutive; split; [exact Hd|lia]|].
          intros [Hd' Hm]. pose proof (nat_denotes_fun _ _ _ Hd Hd'). f_equal. lia.
      + destruct (Z.leb_spec (2 ^ (bits - 1)) un).
        * split; [discriminate|]. intros [Hd' Hm]. pose proof (nat_denotes_fun _ _ _ Hd Hd'). lia.
        * split; [intros [= <-]; split; [exact Hd|lia]|].
          intros [Hd' Hm]. pose proof (nat_denotes_fun _ _ _ Hd Hd'). congruence. }
  destruct s as [|c s']; [split; [discriminate|]; intros [H _]; inversion H; subst; apply nat_denotes_head in H0 as (? & ? & ? & _); discriminate|].
  unfold parse_int. destruct (Ascii.eqb_spec c "+"%char) as [->|Hp1].
  - rewrite (G false). split; intros [H1 H2]; (split; [|exact H2]).
    + apply id_plus. exact H1.
    + inversion H1; subst; [|assumption]. apply nat_denotes_head in H as (c & s & [= <- <-] & Hc). apply digit_not_sign in Hc as [Hc _]. discriminate.
  - destruct (Ascii.eqb_spec c "-"%char) as [->|Hm1].
    + rewrite (G true). split; intros [H1 H2]; (split; [|exact H2]).
      * rewrite <- (Z.opp_involutive n). apply id_minus. exact H1.
      * inversion H1; subst; [|rewrite Z.opp_involutive; assumption].
        apply nat_denotes_head in H as (c & s & [= <- <-] & Hc). apply digit_not_sign in Hc as [_ Hc]. discriminate.
    + rewrite (G false). split; intros [H1 H2]; (split; [|exact H2]); [apply id_plain; exact H1|].
      inversion H1; subst; [assumption|congruence|congruence].
Qed.

(** errors carry the clamped value (range) or 0 (syntax) *)
Lemma parse_int_err bits s n e : 2 <= bits -> parse_int bits s = (n, Some e) ->
  (e = ESyntax /\ n = 0) \/ (e = ERange /\ (n = 2 ^ (bits - 1) - 1 \/ n = - 2 ^ (bits - 1))).
Proof.
  intros Hb. unfold parse_int. destruct s as [|c s']; [intros [= <- <-]; left; auto|].
  match goal with |- (let '(_, _) := ?x in _) = _ -> _ => destruct x as [neg ds] end.
  destruct (parse_uint bits ds) as [un err]. cbv zeta.
  destruct err as [[|]|]; [intros [= <- <-]; left; auto| |];
    destruct (negb neg && (un >=? 2 ^ (bits - 1)))%bool; try (intros [= <- <-]; right; auto);
    destruct (neg && (un >? 2 ^ (bits - 1)))%bool; try (intros [= <- <-]; right; auto); discriminate.
Qed.

(** out of range numbers are reported as range errors, with the nearest bound *)
Lemma parse_int_range bits s n : 2 <= bits -> int_denotes s n -> ~ (- 2 ^ (bits - 1) <= n < 2 ^ (bits - 1)) ->
  parse_int bits s = ((if n <? 0 then - 2 ^ (bits - 1) else 2 ^ (bits - 1) - 1), Some ERange).
Proof.
  intros Hb Hd Hn. assert (Hp : 2 ^ bits = 2 * 2 ^ (bits - 1)).
  { rewrite <- Z.pow_succ_r by lia. f_equal. lia. }
  assert (Hge : 2 ^ 1 <= 2 ^ (bits - 1)) by (apply Z.pow_le_mono_r; lia).
  assert (G : forall ds m, nat_denotes ds m -> 2 ^ (bits - 1) <= m ->
    exists un err, parse_uint bits ds = (un, err) /\ err <> Some ESyntax /\ 2 ^ (bits - 1) <= un /\ (2 ^ (bits - 1) < m -> 2 ^ (bits - 1) < un)).
  { intros ds m H1 H2. destruct (Z.lt_ge_cases m (2 ^ bits)).
    - exists m, None. split; [apply parse_uint_ok; [lia|auto]|]. split; [discriminate|]. split; [exact H2|auto].
    - exists (2 ^ bits - 1), (Some ERange). split; [eapply parse_uint_range; [lia|exact H1|exact H]|]. split; [discriminate|]. lia. }
  unfold parse_int. destruct Hd as [s n Hd|s n Hd|s n Hd]; pose proof (nat_denotes_nonneg _ _ Hd) as H0.
  - destruct (nat_denotes_head _ _ Hd) as (c & s' & -> & Hc). apply digit_not_sign in Hc as [-> ->].
    destruct (G _ _ Hd ltac:(lia)) as (un & err & -> & He & Hu & _).
    destruct (Z.ltb_spec n 0); [lia|]. cbv zeta. cbn [negb andb]. rewrite Z.geb_leb.
    destruct (Z.leb_spec (2 ^ (bits - 1)) un); [|lia]. destruct err as [[|]|]; congruence.
  - cbv [Ascii.eqb Bool.eqb].
    destruct (G _ _ Hd ltac:(lia)) as (un & err & -> & He & Hu & _).
    destruct (Z.ltb_spec n 0); [lia|]. cbv zeta. cbn [negb andb]. rewrite Z.geb_leb.
    destruct (Z.leb_spec (2 ^ (bits - 1)) un); [|lia]. destruct err as [[|]|]; congruence.
  - cbv [Ascii.eqb Bool.eqb].
    destruct (G _ _ Hd ltac:(lia)) as (un & err & -> & He & _ & Hu). specialize (Hu ltac:(lia)).
    destruct (Z.ltb_spec (- n) 0); [|lia]. cbv zeta. cbn [negb andb]. rewrite Z.gtb_ltb.
    destruct (Z.ltb_spec (2 ^ (bits - 1)) un); [|lia]. destruct err as [[|]|]; congruence.
Qed.

(** ** Formatting *)
Lemma fmt_loop_spec f : forall n acc, 0 <= n -> n < 2 ^ Z.of_nat f ->
  exists ds, fmt_loop f n acc = ds ++ acc /\ (0 < Z.of_nat f -> nat_denotes ds n) /\
    ((1 < List.length ds)%nat -> forall c ds', ds = c :: ds' -> digit_val c <> Some 0).
Proof.
  induction f as [|f IH]; intros n acc Hn Hlt.
  - cbn in Hlt. assert (n = 0) by lia. subst. exists []. split; [reflexivity|]. split; [lia|cbn; lia].
  - cbn [fmt_loop]. pose proof (Z.mod_pos_bound n 10 ltac:(lia)) as Hm.
    destruct (Z.ltb_spec n 10) as [H10|H10].
    + exists [digit_char (n mod 10)]. split; [reflexivity|]. rewrite Z.mod_small by lia.
      split; [intros _; constructor; apply digit_char_val; lia|cbn; lia].
    + assert (Hd : 0 <= n / 10 /\ n / 10 < 2 ^ Z.of_nat f).
      { split; [apply Z.div_pos; lia|]. apply Z.div_lt_upper_bound; [lia|].
        rewrite Nat2Z.inj_succ, Z.pow_succ_r in Hlt by lia. pose proof (Z.pow_pos_nonneg 2 (Z.of_nat f) ltac:(lia) ltac:(lia)). lia. }
      destruct (IH (n / 10) (digit_char (n mod 10) :: acc) (proj1 Hd) (proj2 Hd)) as (ds & E & D & L).
      exists (ds ++ [digit_char (n mod 10)]). rewrite <- app_assoc. split; [exact E|].
      assert (Hf : 0 < Z.of_nat f).
      { destruct f; [|lia]. cbn in Hd. assert (n / 10 = 0) by lia. pose proof (Z.div_mod n 10 ltac:(lia)). lia. }
      specialize (D Hf). split.
      * intros _. pose proof (Z.div_mod n 10 ltac:(lia)) as Hdm.
        replace n with ((n / 10) * 10 + n mod 10) at 2 by lia. constructor; [exact D|apply digit_char_val; lia].
      * intros _ c ds' Ec Hz. destruct ds as [|c0 ds0]; [inversion D; subst; destruct s; discriminate|].
        apply (f_equal (hd c)) in Ec. cbn [hd app] in Ec. subst c0.
        destruct ds0 as [|c1 ds1]; [|exact (L ltac:(cbn; lia) c _ eq_refl Hz)].
        apply nat_denotes_dval in D as [_ D]. cbn in D. rewrite Hz in D. injection D as D.
        pose proof (Z.div_mod n 10 ltac:(lia)). lia.
Qed.
Lemma format_uint_denotes n : 0 <= n -> nat_denotes (format_uint n) n.
Proof.
  intros Hn. unfold format_uint. destruct (fmt_loop_spec (S (Z.to_nat (Z.log2 n))) n [] Hn) as (ds & -> & D & _).
  - rewrite Nat2Z.inj_succ, Z2Nat.id by apply Z.log2_nonneg.
    destruct (Z.eq_dec n 0) as [->|]; [reflexivity|]. apply Z.log2_spec. lia.
  - rewrite app_nil_r. apply D. lia.
Qed.
Lemma format_uint_no_leading_zero n c ds : 0 <= n -> format_uint n = c :: ds -> ds <> [] -> digit_val c <> Some 0.
Proof.
  intros Hn. unfold format_uint. destruct (fmt_loop_spec (S (Z.to_nat (Z.log2 n))) n [] Hn) as (l & -> & _ & L).
  - rewrite Nat2Z.inj_succ, Z2Nat.id by apply Z.log2_nonneg.
    destruct (Z.eq_dec n 0) as [->|]; [reflexivity|]. apply Z.log2_spec. lia.
  - rewrite app_nil_r. intros -> Hd. apply (L ltac:(destruct ds; [congruence|cbn; lia]) c ds eq_refl).
Qed.
Lemma format_int_denotes n : int_denotes (format_int n) n.
Proof.
  unfold format_int. destruct (Z.ltb_spec n 0).
  - rewrite <- (Z.opp_involutive n) at 2. apply id_minus, format_uint_denotes. lia.
  - apply id_plain, format_uint_denotes. lia.
Qed.
Lemma format_int_nonneg n : 0 <= n -> format_int n = format_uint n.
Proof. intros H. unfold format_int. destruct (Z.ltb_spec n 0); [lia|reflexivity]. Qed.

Lemma parse_format_int bits n : 2 <= bits -> - 2 ^ (bits - 1) <= n < 2 ^ (bits - 1) -> parse_int bits (format_int n) = (n, None).
Proof. intros Hb Hn. apply parse_int_ok; [exact Hb|]. split; [apply format_int_denotes|exact Hn]. Qed.
Lemma parse_format_uint bits n : 0 <= bits -> 0 <= n < 2 ^ bits -> parse_uint bits (format_uint n) = (n, None).
Proof. intros Hb Hn. apply parse_uint_ok; [exact Hb|]. split; [apply format_uint_denotes; lia|lia]. Qed.

(** digits only *)
Lemma nat_denotes_digits s n : nat_denotes s n -> Forall is_digit s.
Proof.
  induction 1 as [c d H|s n c d H IH Hc].
  - constructor; [exists d; exact H|constructor].
  - apply Forall_app. split; [exact IH|]. constructor; [exists d; exact Hc|constructor].
Qed.
