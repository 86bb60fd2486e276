(** Props_ConvExact: exact forms of C15, C77, C78 and C79: what every conversion of
    every string yields, and exactly which struct actions are called, with what. *)
From Coq Require Import List Ascii String Bool Arith ZArith Lia.
Import ListNotations.
From Verif Require Import GoStr GoTy GoNum RouterModel RouterSpec RouterTree RouterRefine RouterTable RouterFacts
  Props_Router ConvModel ConvFacts Props_Conv Props_Action.
Local Open Scope Z_scope.

(** ** C77: StrTo of package utils *)
(** the nearest number of the width *)
Definition clamp (lo hi n : Z) : Z := Z.max lo (Z.min hi n).
Definition clamp_int (w : nat) := clamp (- 2 ^ (Z.of_nat w - 1)) (2 ^ (Z.of_nat w - 1) - 1).
Definition clamp_uint (w : nat) := clamp 0 (2 ^ Z.of_nat w - 1).
(** text that is no number but whose first digits p overflow w bits unsigned: the
    parser gives up before it sees the rest *)
Definition overflows (w : nat) (s p rest : bytes) (n : Z) : Prop :=
  s = (p ++ rest)%list /\ nat_denotes p n /\ 2 ^ Z.of_nat w <= n.
Inductive sign_of : bytes -> bytes -> bool -> Prop :=
| so_plus : forall s, sign_of ("+"%char :: s) s false
| so_minus : forall s, sign_of ("-"%char :: s) s true
| so_none : forall s, (forall c s', s = c :: s' -> c <> "+"%char /\ c <> "-"%char) -> sign_of s s false.
Inductive utils_uint_is (w : nat) (s : bytes) : conv Z -> Prop :=
| uu_number : forall n, nat_denotes s n -> utils_uint_is w s (clamp_uint w n, if n <? 2 ^ Z.of_nat w then None else Some ERange)
| uu_over : forall p rest n, (forall m, ~ nat_denotes s m) -> overflows w s p rest n -> utils_uint_is w s (2 ^ Z.of_nat w - 1, Some ERange)
| uu_bad : (forall m, ~ nat_denotes s m) -> (forall p rest n, ~ overflows w s p rest n) -> utils_uint_is w s (0, Some ESyntax).
Inductive utils_int_is (w : nat) (s : bytes) : conv Z -> Prop :=
| ui_number : forall n, int_denotes s n -> utils_int_is w s (clamp_int w n, if n =? clamp_int w n then None else Some ERange)
| ui_over : forall d neg p rest n, (forall m, ~ int_denotes s m) -> sign_of s d neg -> overflows w d p rest n ->
    utils_int_is w s (clamp_int w (if neg then - n else n), Some ERange)
| ui_bad : (forall m, ~ int_denotes s m) -> (forall d neg, sign_of s d neg -> forall p rest n, ~ overflows w d p rest n) ->
    utils_int_is w s (0, Some ESyntax).

Lemma puint_over_prefix max s : forall n r, 0 <= n <= max -> puint_loop max n s = (r, Some ERange) ->
  exists p rest m, s = (p ++ rest)%list /\ p <> [] /\ dval n p = Some m /\ max < m.
Proof.
  induction s as [|c s IH]; intros n r Hn; cbn [puint_loop]; [discriminate|].
  destruct (digit_val c) as [d|] eqn:E; [|discriminate]. pose proof (digit_val_range _ _ E).
  rewrite Z.gtb_ltb. destruct (Z.ltb_spec max (n * 10 + d)) as [L|L].
  - intros _. exists [c], s, (n * 10 + d). cbn [dval]. rewrite E. repeat split; [discriminate|exact L].
  - intros H1. destruct (IH (n * 10 + d) r ltac:(lia) H1) as (p & rest & m & -> & Hp & Hd & Hm).
    exists (c :: p), rest, m. cbn [dval]. rewrite E. repeat split; [discriminate|exact Hd|exact Hm].
Qed.
Lemma puint_prefix_over max p : forall n m rest, 0 <= n <= max -> dval n p = Some m -> max < m ->
  puint_loop max n (p ++ rest) = (max, Some ERange).
Proof.
  induction p as [|c p IH]; intros n m rest Hn; cbn [dval List.app puint_loop]; [intros [= <-]; lia|].
  destruct (digit_val c) as [d|] eqn:E; [|discriminate]. pose proof (digit_val_range _ _ E).
  rewrite Z.gtb_ltb. destruct (Z.ltb_spec max (n * 10 + d)) as [L|L]; [reflexivity|]. intros A B. eapply IH; eauto; lia.
Qed.
Lemma pow_pos w : 0 < 2 ^ Z.of_nat w.
Proof. apply Z.pow_pos_nonneg; lia. Qed.
Lemma parse_uint_range_iff w s : (exists r, parse_uint (Z.of_nat w) s = (r, Some ERange)) <-> exists p rest n, overflows w s p rest n.
Proof.
  pose proof (pow_pos w) as Hp. unfold parse_uint, overflows. split.
  - intros (r & H). destruct s as [|c s]; [discriminate H|].
    destruct (puint_over_prefix (2 ^ Z.of_nat w - 1) _ 0 r ltac:(lia) H) as (p & rest & m & E & Np & D & M).
    exists p, rest, m. split; [exact E|]. split; [apply nat_denotes_dval; auto|lia].
  - intros (p & rest & n & -> & D & L). apply nat_denotes_dval in D as (Np & D). exists (2 ^ Z.of_nat w - 1).
    destruct (p ++ rest)%list as [|c s] eqn:E; [destruct p; [congruence|discriminate E]|]. rewrite <- E.
    apply puint_prefix_over with (m := n); auto; lia.
Qed.
Theorem C77_utils_uint_exact w s c : utils_uint (Z.of_nat w) s = c <-> utils_uint_is w s c.
Proof.
  pose proof (pow_pos w) as Hp. unfold utils_uint. 
  assert (G : utils_uint_is w s (parse_uint (Z.of_nat w) s)).
  { destruct (parse_uint (Z.of_nat w) s) as (n & [[|]|]) eqn:E.
    - destruct (parse_uint_err (Z.of_nat w) _ _ _ ltac:(lia) E) as [(_ & ->)|(K & _)]; [|discriminate K].
      apply uu_bad.
      + intros m D. destruct (Z.lt_ge_cases m (2 ^ Z.of_nat w)) as [L|L].
        * pose proof (proj2 (parse_uint_ok (Z.of_nat w) s m ltac:(lia)) (conj D L)). congruence.
        * pose proof (parse_uint_range (Z.of_nat w) s m ltac:(lia) D L). congruence.
      + intros p rest m O. destruct (proj2 (parse_uint_range_iff w s)) as (r & K); [eauto|]. congruence.
    - destruct (parse_uint_err (Z.of_nat w) _ _ _ ltac:(lia) E) as [(K & _)|(_ & ->)]; [discriminate K|].
      destruct (dval 0 s) as [m|] eqn:D.
      + assert (ND : nat_denotes s m) by (apply nat_denotes_dval; split; [intros ->; discriminate E|exact D]).
        destruct (Z.lt_ge_cases m (2 ^ Z.of_nat w)) as [L|L].
        * pose proof (proj2 (parse_uint_ok (Z.of_nat w) s m ltac:(lia)) (conj ND L)). congruence.
        * assert (X := uu_number w s m ND). replace (m <? 2 ^ Z.of_nat w) with false in X by (symmetry; apply Z.ltb_ge; lia).
          replace (clamp_uint w m) with (2 ^ Z.of_nat w - 1) in X by (unfold clamp_uint, clamp; lia). exact X.
      + destruct (proj1 (parse_uint_range_iff w s) (ex_intro _ _ E)) as (p & rest & m & O).
        apply (uu_over w s p rest m); [|exact O]. intros x X. apply nat_denotes_dval in X as (_ & X). congruence.
    - apply parse_uint_ok in E; [|lia]. destruct E as (D & L). pose proof (nat_denotes_nonneg _ _ D).
      assert (X := uu_number w s n D). replace (n <? 2 ^ Z.of_nat w) with true in X by (symmetry; apply Z.ltb_lt; lia).
      replace (clamp_uint w n) with n in X by (unfold clamp_uint, clamp; lia). exact X. }
  split; [intros <-; exact G|]. intros H.
  assert (U : forall a b, utils_uint_is w s a -> utils_uint_is w s b -> a = b).
  { intros a b [n D|p rest n N O|N O] [n' D'|p' rest' n' N' O'|N' O']; try reflexivity; unfold not in *; try (exfalso; eauto; fail).
    now rewrite (nat_denotes_fun _ _ _ D D'). }
  exact (U _ _ G H).
Qed.
Lemma int_denotes_sign s d neg n : sign_of s d neg -> int_denotes s n <-> nat_denotes d (if neg then - n else n).
Proof.
  intros S. split.
  - intros D. destruct D as [s n D|s n D|s n D]; inversion S; subst; auto; try (rewrite Z.opp_involutive; assumption).
    + exfalso. destruct (nat_denotes_head _ _ D) as (c & s' & E & Hc). apply digit_not_sign in Hc as (Hc & _). injection E as <- <-. vm_compute in Hc. discriminate Hc.
    + exfalso. destruct (nat_denotes_head _ _ D) as (c & s' & E & Hc). apply digit_not_sign in Hc as (_ & Hc). injection E as <- <-. vm_compute in Hc. discriminate Hc.
    + exfalso. destruct (H _ _ eq_refl) as (K & _). now apply K.
    + exfalso. destruct (H _ _ eq_refl) as (_ & K). now apply K.
  - destruct S; intros D; [now constructor| |now constructor].
    rewrite <- (Z.opp_involutive n). now constructor.
Qed.
Lemma sign_exists s : exists d neg, sign_of s d neg.
Proof.
  destruct s as [|c s]; [exists [], false; constructor; intros c s' E; discriminate E|].
  destruct (ascii_dec c "+"%char) as [->|N1]; [eexists; eexists; apply so_plus|].
  destruct (ascii_dec c "-"%char) as [->|N2]; [eexists; eexists; apply so_minus|].
  exists (c :: s), false. constructor. intros c' s' [= <- <-]. auto.
Qed.
Lemma sign_fun s d neg d' neg' : sign_of s d neg -> sign_of s d' neg' -> d = d' /\ neg = neg'.
Proof.
  intros A B. destruct A as [s|s|s H]; inversion B as [x|x|x H']; subst; auto;
    exfalso; try (destruct (H' _ _ eq_refl) as (K1 & K2); congruence); destruct (H _ _ eq_refl) as (K1 & K2); congruence.
Qed.
Lemma parse_int_sign w s d neg : sign_of s d neg ->
  parse_int (Z.of_nat w) s =
  let '(un, err) := parse_uint (Z.of_nat w) d in
  match err with
  | Some ESyntax => (0, Some ESyntax)
  | _ => let cutoff := 2 ^ (Z.of_nat w - 1) in
         if negb neg && (un >=? cutoff) then (cutoff - 1, Some ERange)
         else if neg && (un >? cutoff) then (- cutoff, Some ERange)
         else ((if neg then - un else un), None)
  end.
Proof.
  intros S. destruct S as [s|s|s H]; [reflexivity|reflexivity|].
  destruct s as [|c s]; [reflexivity|]. destruct (H c s eq_refl) as (N1 & N2). unfold parse_int.
  apply Ascii.eqb_neq in N1, N2. now rewrite N1, N2.
Qed.
Theorem C77_utils_int_exact w s c : (2 <= w)%nat -> utils_int (Z.of_nat w) s = c <-> utils_int_is w s c.
Proof.
  intros Hw. assert (Hd : 2 ^ Z.of_nat w = 2 * 2 ^ (Z.of_nat w - 1)) by (rewrite <- Z.pow_succ_r by lia; f_equal; lia).
  assert (Hp : 2 ^ 1 <= 2 ^ (Z.of_nat w - 1)) by (apply Z.pow_le_mono_r; lia). change (2 ^ 1) with 2 in Hp.
  destruct (sign_exists s) as (d & neg & S). unfold utils_int. rewrite (parse_int_sign w s d neg S).
  set (P := 2 ^ (Z.of_nat w - 1)) in *.
  assert (G : utils_int_is w s (let '(un, err) := parse_uint (Z.of_nat w) d in
     match err with
     | Some ESyntax => (0, Some ESyntax)
     | _ => let cutoff := P in
         if negb neg && (un >=? cutoff) then (cutoff - 1, Some ERange)
         else if neg && (un >? cutoff) then (- cutoff, Some ERange)
         else ((if neg then - un else un), None)
     end)).
  { assert (NUM : forall n, nat_denotes d n -> utils_int_is w s (clamp_int w (if neg then - n else n), if (if neg then - n else n) =? clamp_int w (if neg then - n else n) then None else Some ERange)).
    { intros n D. apply ui_number. apply (int_denotes_sign s d neg _ S). destruct neg; [now rewrite Z.opp_involutive|exact D]. }
    pose proof (proj1 (C77_utils_uint_exact w d _) eq_refl) as U. unfold utils_uint in U.
    destruct (parse_uint (Z.of_nat w) d) as (un & err). inversion U as [n D E|p rest n N O E|N O E]; subst; clear U.
    - pose proof (nat_denotes_nonneg _ _ D) as Pos. specialize (NUM n D).
      unfold clamp_uint, clamp_int, clamp in *. fold P in NUM. cbv zeta.
      assert (K : (if n <? 2 ^ Z.of_nat w then @None nerr else Some ERange) <> Some ESyntax) by (destruct (n <? _); discriminate).
      destruct (if n <? 2 ^ Z.of_nat w then @None nerr else Some ERange) as [[|]|]; [congruence| |];
      (destruct neg; cbn [negb andb];
       [rewrite Z.gtb_ltb; destruct (Z.ltb_spec P (Z.max 0 (Z.min (2 ^ Z.of_nat w - 1) n))) as [L|L];
         [replace (Z.max (- P) (Z.min (P - 1) (- n))) with (- P) in NUM by lia; replace (- n =? - P) with false in NUM by (symmetry; apply Z.eqb_neq; lia); exact NUM
         |replace (Z.max (- P) (Z.min (P - 1) (- n))) with (- n) in NUM by lia; rewrite Z.eqb_refl in NUM; replace (Z.max 0 (Z.min (2 ^ Z.of_nat w - 1) n)) with n by lia; exact NUM]
       |rewrite Z.geb_leb; destruct (Z.leb_spec P (Z.max 0 (Z.min (2 ^ Z.of_nat w - 1) n))) as [L|L];
         [replace (Z.max (- P) (Z.min (P - 1) n)) with (P - 1) in NUM by lia; replace (n =? P - 1) with false in NUM by (symmetry; apply Z.eqb_neq; lia); exact NUM
         |replace (Z.max (- P) (Z.min (P - 1) n)) with n in NUM by lia; rewrite Z.eqb_refl in NUM; replace (Z.max 0 (Z.min (2 ^ Z.of_nat w - 1) n)) with n by lia; exact NUM]]).
    - assert (NI : forall m, ~ int_denotes s m) by (intros m K; apply (int_denotes_sign s d neg m S) in K; exact (N _ K)).
      pose proof (ui_over w s d neg p rest n NI S O) as X. destruct O as (_ & _ & L).
      unfold clamp_int, clamp in X. fold P in X. cbv zeta. destruct neg; cbn [negb andb].
      + rewrite Z.gtb_ltb. destruct (Z.ltb_spec P (2 ^ Z.of_nat w - 1)); [|lia]. replace (Z.max (- P) (Z.min (P - 1) (- n))) with (- P) in X by lia. exact X.
      + rewrite Z.geb_leb. destruct (Z.leb_spec P (2 ^ Z.of_nat w - 1)); [|lia]. replace (Z.max (- P) (Z.min (P - 1) n)) with (P - 1) in X by lia. exact X.
    - apply ui_bad.
      + intros m K. apply (int_denotes_sign s d neg m S) in K. exact (N _ K).
      + intros d' neg' S' p rest n O'. destruct (sign_fun _ _ _ _ _ S S') as (<- & _). exact (O _ _ _ O'). }
  split; [intros <-; exact G|]. intros H.
  assert (F : forall n m, int_denotes s n -> int_denotes s m -> n = m).
  { intros n m A B. apply (int_denotes_sign s d neg _ S) in A, B. pose proof (nat_denotes_fun _ _ _ A B). destruct neg; lia. }
  assert (U : forall a b, utils_int_is w s a -> utils_int_is w s b -> a = b).
  { assert (OV : forall d1 neg1 p n rest d2 neg2 p2 n2 rest2, sign_of s d1 neg1 -> overflows w d1 p rest n -> sign_of s d2 neg2 -> overflows w d2 p2 rest2 n2 ->
        clamp_int w (if neg1 then - n else n) = clamp_int w (if neg2 then - n2 else n2)).
    { intros d1 neg1 p n rest d2 neg2 p2 n2 rest2 S1 (_ & _ & L1) S2 (_ & _ & L2). destruct (sign_fun _ _ _ _ _ S1 S2) as (_ & <-).
      unfold clamp_int, clamp. fold P. destruct neg1; lia. }
    intros a b A B. destruct A as [n D|d1 neg1 p rest n N S1 O|N O], B as [n' D'|d2 neg2 p' rest' n' N' S2 O'|N' O']; try (exfalso; unfold not in *; eauto; fail).
    - now rewrite (F _ _ D D').
    - f_equal. eapply OV; eauto.
    - reflexivity. }
  exact (U _ _ G H).
Qed.
Example C77_exact_case :
  utils_int 8 (bs "300") = (127, Some ERange) /\ utils_int 8 (bs "-300") = (-128, Some ERange) /\ utils_int 8 (bs "-128") = (-128, None) /\
  utils_int 8 (bs "256 apples") = (127, Some ERange) /\ utils_int 8 (bs "255 apples") = (0, Some ESyntax) /\ utils_int 8 (bs "12") = (12, None).
Proof. repeat split; vm_compute; reflexivity. Qed.

(** ** C78 *)
(** exactly what utils.ToStr and strip.ToStr print *)
Theorem C78_exact : forall v,
  (forall n, v = AUint n -> 0 <= n) ->
  (prints v (utils_tostr v) <-> (forall s, v <> ANamedBytes s) /\ (forall p, v <> AOther p)) /\
  ((exists s, v = ANamedBytes s) \/ (exists p, v = AOther p) -> utils_tostr v = bs "[]byte(nil)").
Proof.
  intros v Hn. split; [split|].
  - intros H. inversion H; subst; split; intros; discriminate.
  - intros (A & B). pose proof (C78_tostr_prints_partial v) as X. destruct v; auto; exfalso; [apply (A s)|apply (B printed)]; reflexivity.
  - intros [(s & ->)|(p & ->)]; reflexivity.
Qed.
(** strip.ToStr prints every value; the empty byte slice as [] *)
Theorem C78_strip_exact : forall v,
  (forall n, v = AUint n -> 0 <= n) ->
  match v with
  | ABytes s | ANamedBytes s => strip_tostr v = if is_nil s then bs "[]" else s
  | AOther p => strip_tostr v = p
  | _ => prints v (strip_tostr v)
  end.
Proof.
  intros v Hn. pose proof (C78_tostr_prints_partial v) as X. destruct v; auto.
Qed.

(** ** C79 *)
Theorem C79_exact s n :
  (strip_uint_word s = (n, None) <-> nat_denotes s n /\ n < 2 ^ 32) /\
  (utils_uint_word s = (n, None) <-> nat_denotes s n /\ n < 2 ^ 64) /\
  (fst (strip_uint_word s) <> 0 -> snd (strip_uint_word s) = None) /\
  (forall v, v <> None -> value_uint_word false v = (n, None) <-> nat_denotes (value_string v) n /\ n < 2 ^ 32).
Proof.
  split; [|split; [|split]].
  - unfold strip_uint_word, strip_uint. rewrite <- parse_uint_ok by lia. destruct (parse_uint 32 s) as (v & [e|]); split; congruence.
  - apply parse_uint_ok. lia.
  - unfold strip_uint_word, strip_uint. destruct (parse_uint 32 s) as (v & [e|]); cbn; congruence.
  - intros v _. unfold value_uint_word. apply parse_uint_ok. lia.
Qed.

(** ** C15 *)
Section Args.
  Variable F : Type.
  Variable fzero : F.
  Variable parse_float : nat -> bytes -> option F.
  (** the argument made for a recorded type from the route parameter at its place,
      if there is one: it is the text read as the type without its pointers; the
      zero value for other types and for missing parameters; other slices cannot be
      made *)
  Inductive argument : gty -> option bytes -> gval F -> Prop :=
  | arg_missing : forall t, argument t None (zero_of F fzero t)
  | arg_read : forall t p v, indirect t <> TOther -> reads F fzero parse_float (indirect t) p v -> argument t (Some p) v
  | arg_other : forall t p, indirect t = TOther -> argument t (Some p) (zero_of F fzero t).
  Fixpoint widths (t : gty) : Prop := match t with TInt w | TUint w => (2 <= w)%nat | TPtr t => widths t | _ => True end.

  Lemma indirect_no_ptr t : forall t', indirect t <> TPtr t'.
  Proof using Type. induction t; intros t' E; try discriminate E. cbn in E. exact (IHt _ E). Qed.
  Lemma indirect_widths t : widths t -> widths (indirect t).
  Proof using Type. induction t; auto. Qed.
  Lemma reads_fun t p v v' : reads F fzero parse_float t p v -> reads F fzero parse_float t p v' -> v = v'.
  Proof using Type.
    intros A B. destruct A; inversion B; subst; try reflexivity; try congruence; try contradiction.
    all: repeat match goal with H1 : nat_denotes ?p ?n, H2 : nat_denotes ?p ?m |- _ => pose proof (nat_denotes_fun _ _ _ H1 H2); clear H2; subst end; try reflexivity.
    all: try (exfalso; match goal with H : forall n, _ -> ~ _, D : _ |- _ => eapply H; [exact D|assumption] end).
    all: match goal with H1 : int_denotes ?p ?n, H2 : int_denotes ?p ?m |- _ =>
      destruct (sign_exists p) as (d & neg & S);
      apply (int_denotes_sign p d neg _ S) in H1, H2; pose proof (nat_denotes_fun _ _ _ H1 H2); f_equal; destruct neg; lia end.
  Qed.
  Lemma convert_exact t p v : widths t ->
    (argument t (Some p) v <-> exists o, convert_as F fzero parse_float p t = Ok o /\ v = match o with Some x => x | None => zero_of F fzero t end).
  Proof using Type.
    intros W. apply indirect_widths in W. pose proof (indirect_no_ptr t) as NP.
    assert (C : convert_as F fzero parse_float p t = match indirect t with TOther => Ok None | TSliceOther => Panic | _ => convert_as F fzero parse_float p (indirect t) end).
    { unfold convert_as. destruct (indirect t) eqn:E; cbn [indirect]; try reflexivity. exfalso. exact (NP _ eq_refl). }
    rewrite C. destruct (gty_eq_dec (indirect t) TOther) as [E|E].
    { rewrite E. split; [intros A; inversion A; subst; [contradiction|eauto]|intros (o & [= <-] & ->); now apply arg_other]. }
    destruct (gty_eq_dec (indirect t) TSliceOther) as [E'|E'].
    { rewrite E'. split; [intros A; inversion A; subst; [rewrite E' in *; match goal with H : reads _ _ _ _ _ _ |- _ => inversion H end|contradiction]|intros (o & K & _); discriminate K]. }
    assert (P : plain (indirect t)) by (destruct (indirect t); cbn in *; auto; try congruence; exact (NP _ eq_refl)).
    destruct (convert_as_reads F fzero parse_float (indirect t) p P) as (o & Eo & R & _).
    assert (X : match indirect t with TOther => Ok None | TSliceOther => Panic | _ => convert_as F fzero parse_float p (indirect t) end = Ok o) by (destruct (indirect t); congruence).
    rewrite X.
    assert (So : exists x, o = Some x).
    { clear - Eo E E' NP. unfold convert_as in Eo. destruct (indirect t); cbn [indirect] in Eo; try congruence; try (injection Eo as <-; eauto; fail). }
    destruct So as (x & ->). split.
    - intros A. inversion A; subst; [|contradiction]. exists (Some x). split; [reflexivity|]. eapply reads_fun; eauto.
    - intros (o' & [= <-] & ->). now apply arg_read.
  Qed.
  Lemma call_args_exact tys : forall i ps args, Forall widths tys ->
    (call_args F fzero parse_float i tys ps = Ok args <->
     List.length args = List.length tys /\
     forall k t v, nth_error tys k = Some t -> nth_error args k = Some v -> argument t (option_map snd (nth_error ps (i + k))) v).
  Proof using Type.
    induction tys as [|t tys IH]; intros i ps args W; cbn [call_args].
    - split; [intros [= <-]; split; [reflexivity|intros [|k] t v E; discriminate E]|].
      intros (L & _). destruct args; [reflexivity|discriminate L].
    - inversion W as [|? ? Wt Wts]; subst.
      assert (O : forall v, argument t (option_map snd (nth_error ps i)) v <->
         exists o, match nth_error ps i with Some (_, p) => convert_as F fzero parse_float p t | None => Ok None end = Ok o /\ v = match o with Some x => x | None => zero_of F fzero t end).
      { intros v. destruct (nth_error ps i) as [(k & p)|]; cbn [option_map snd]; [now apply convert_exact|].
        split; [intros A; inversion A; subst; eauto|intros (o & [= <-] & ->); constructor]. }
      split.
      + intros H. destruct (match nth_error ps i with Some (_, p) => convert_as F fzero parse_float p t | None => Ok None end) as [o|] eqn:Eo; [|discriminate H].
        cbn [bind] in H. destruct (call_args F fzero parse_float (S i) tys ps) as [vs|] eqn:Ev; [|discriminate H]. cbn [bind] in H. injection H as <-.
        destruct (proj1 (IH (S i) ps vs Wts) Ev) as (L & A). split; [cbn; congruence|].
        intros [|k] t' v' Ht Hv; cbn [nth_error] in Ht, Hv.
        * injection Ht as <-. injection Hv as <-. rewrite Nat.add_0_r. apply O. eauto.
        * rewrite Nat.add_succ_r. exact (A k t' v' Ht Hv).
      + intros (L & A). destruct args as [|v vs]; [discriminate L|].
        pose proof (A 0%nat t v eq_refl eq_refl) as A0. rewrite Nat.add_0_r in A0. apply O in A0 as (o & -> & ->). cbn [bind].
        rewrite (proj2 (IH (S i) ps vs Wts)); [reflexivity|]. split; [cbn in L; lia|].
        intros k t' v' Ht Hv. specialize (A (S k) t' v' Ht Hv). now rewrite Nat.add_succ_r in A.
  Qed.
  Lemma all_types_iff args : forall tys, all_types F tys args = true <-> map (type_of F) args = tys.
  Proof using Type.
    intros tys. split; [|apply all_types_ok]. revert tys. induction args as [|a args IH]; intros [|t tys]; cbn; try discriminate; try reflexivity.
    unfold gty_eqb. destruct (gty_eq_dec (type_of F a) t) as [<-|]; [|discriminate]. intros H. f_equal. now apply IH.
  Qed.
  (** which calls happen, and with what: one argument for each type recorded at
      registration, and reflect accepts them if they have the types of the method
      called *)
  Theorem C15_call_exact ra act ps args : Forall widths (c_cached (ra_ctl ra)) ->
    (call_struct F fzero parse_float ra act ps = Ok args <->
     List.length args = List.length (c_cached (ra_ctl ra)) /\
     (forall k t v, nth_error (c_cached (ra_ctl ra)) k = Some t -> nth_error args k = Some v -> argument t (option_map snd (nth_error ps k)) v) /\
     aget (c_methods (ra_ctl ra)) act = Some (map (type_of F) args)).
  Proof using Type.
    intros W. unfold call_struct. split.
    - intros H. destruct (call_args F fzero parse_float 0 (c_cached (ra_ctl ra)) ps) as [vs|] eqn:E; [|discriminate H]. cbn [bind] in H.
      destruct (aget (c_methods (ra_ctl ra)) act) as [tys|] eqn:Et; [|discriminate H].
      destruct (all_types F tys vs) eqn:Ea; [|discriminate H]. injection H as <-.
      apply call_args_exact in E; [|exact W]. destruct E as (L & A). split; [exact L|]. split; [exact A|].
      apply all_types_iff in Ea. now rewrite Ea.
    - intros (L & A & T). rewrite (proj2 (call_args_exact _ 0 ps args W) (conj L A)). cbn [bind]. rewrite T.
      now rewrite (proj2 (all_types_iff args _) eq_refl).
  Qed.
  (** the types recorded are those of the action stored; without one, those the
      controller came with (none, for a fresh one).  The method called is the one
      stored or, for All, the one named like the request method. *)
  Lemma mk_raction_no_action fs c m os ra : mk_raction fs c m os = Ok ra -> c_kind (ra_ctl ra) = KStruct -> ra_action ra = [] ->
    c_cached (ra_ctl ra) = c_cached c \/ aget (c_methods (ra_ctl ra)) [] = Some (c_cached (ra_ctl ra)).
  Proof using Type.
    assert (OPT : forall os a a', (c_kind (ma_ctl a) = KStruct -> c_cached (ma_ctl a) = c_cached c \/ aget (c_methods (ma_ctl a)) (ma_action a) = Some (c_cached (ma_ctl a))) ->
       calc_opts a os = Ok a' -> c_kind (ma_ctl a') = KStruct -> c_cached (ma_ctl a') = c_cached c \/ aget (c_methods (ma_ctl a')) (ma_action a') = Some (c_cached (ma_ctl a'))).
    { clear. induction os as [|o os IH]; intros a a' Hc E; cbn [calc_opts] in E; [injection E as <-; exact Hc|].
      destruct o as [n|fs|fs]; [|eapply IH; [|exact E]; exact Hc|eapply IH; [|exact E]; exact Hc].
      destruct (ensure_action (ma_ctl a) n) as [c1|] eqn:Ec; [|discriminate E]. cbn [bind] in E. eapply IH; [|exact E].
      cbn [ma_ctl ma_action]. intros Hk. right. unfold ensure_action in Ec. destruct (c_kind (ma_ctl a)) eqn:Ek.
      - destruct (is_nil n); [injection Ec as <-; congruence|discriminate Ec].
      - destruct (is_nil n); [injection Ec as <-; congruence|discriminate Ec].
      - destruct (aget (c_methods (ma_ctl a)) n) eqn:Eg; [injection Ec as <-; exact Eg|discriminate Ec]. }
    unfold mk_raction, calc_method. intros H Hk Ha.
    destruct (calc_opts (MArgs c [] [] []) os) as [a|] eqn:Eo; [|discriminate H]. cbn [bind] in H.
    specialize (OPT os (MArgs c [] [] []) a (fun _ => or_introl eq_refl) Eo).
    destruct (is_nil (ma_action a) && negb (is_func (ma_ctl a)) && negb (is_all m) && negb (is_any m)) eqn:Eb.
    - destruct (ensure_action (ma_ctl a) (meth_action m)) as [c'|] eqn:Ee; [|discriminate H]. cbn [bind] in H.
      apply andb_true_iff in Eb as [Eb E4]. apply andb_true_iff in Eb as [Eb E3]. apply andb_true_iff in Eb as [E1 E2].
      apply negb_true_iff in E3, E4. unfold finish in H. rewrite E3, E4 in H. cbn [ma_action ma_ctl] in H. rewrite E1 in H.
      injection H as <-. cbn [ra_ctl ra_action] in *. right. rewrite <- Ha.
      unfold ensure_action in Ee. destruct (c_kind (ma_ctl a)) eqn:Ek.
      + destruct (is_nil (meth_action m)); [injection Ee as <-; congruence|discriminate Ee].
      + destruct (is_nil (meth_action m)); [injection Ee as <-; congruence|discriminate Ee].
      + destruct (aget (c_methods (ma_ctl a)) (meth_action m)) eqn:Eg; [injection Ee as <-; exact Eg|discriminate Ee].
    - cbn [bind] in H. unfold finish in H. destruct (is_all m) eqn:Eall.
      + match type of H with (do c' <- (if is_nil ?x then _ else _); _) = _ => set (act := x) in * end.
        destruct (is_nil act) eqn:En; cbn [bind] in H.
        * injection H as <-. cbn [ra_ctl ra_action] in *.
          assert (Ma : ma_action a = []) by (unfold act in *; destruct (ma_action a); [reflexivity|discriminate]).
          rewrite Ma in OPT. exact (OPT Hk).
        * destruct (ensure_action (ma_ctl a) act) as [c'|]; [|discriminate H]. injection H as <-. cbn [ra_action] in Ha. rewrite Ha in En. discriminate En.
      + destruct (is_any m) eqn:Eany.
        * match type of H with (do c' <- (if is_nil ?x then _ else _); _) = _ => set (act := x) in * end.
          destruct (is_nil act) eqn:En; cbn [bind] in H.
          -- injection H as <-. cbn [ra_ctl ra_action] in *.
             assert (Ma : ma_action a = []) by (unfold act in *; destruct (ma_action a); [reflexivity|discriminate]).
             rewrite Ma in OPT. exact (OPT Hk).
          -- destruct (ensure_action (ma_ctl a) act) as [c'|]; [|discriminate H]. injection H as <-. cbn [ra_action] in Ha. rewrite Ha in En. discriminate En.
        * injection H as <-. cbn [ra_ctl ra_action] in *.
          destruct (is_nil (ma_action a)) eqn:En; [|rewrite Ha in En; discriminate En].
          exfalso. cbn [andb negb] in Eb. unfold is_func in Eb. rewrite Hk in Eb. discriminate Eb.
  Qed.
  Theorem C15_recorded_types prog root meth path ra act ps trail :
    routers prog root0 = Ok root -> handle root meth path = Serve ra act ps trail -> c_kind (ra_ctl ra) = KStruct ->
    exists d, declared prog d /\ d_pat d = trail /\
    (act = stored_action d \/ (d_meth d = mALL /\ act = meth_action (to_upper meth))) /\ ra_action ra = stored_action d /\
    (stored_action d <> [] -> aget (c_methods (ra_ctl ra)) (stored_action d) = Some (c_cached (ra_ctl ra))) /\
    (stored_action d = [] -> c_cached (ra_ctl ra) = c_cached (d_ctl d) \/ aget (c_methods (ra_ctl ra)) [] = Some (c_cached (ra_ctl ra))).
  Proof using Type.
    intros Hroot Hh Hk. unfold handle in Hh.
    destruct (select_route root path) as [x|] eqn:Ex; [|discriminate Hh].
    destruct (select_action (m_route x) (to_upper meth)) as [[ra' act']|] eqn:Ea; [|discriminate Hh].
    injection Hh as -> -> <- <-.
    destruct (select_sound prog root Hroot path x Ex) as (Hl & _ & Hc).
    destruct (select_action_cases prog root _ _ _ _ _ Hroot Hl Ea) as (d & Hd & Hpat & Hda & Hm & Hact).
    pose proof (decl_action_spec _ _ Hda) as X.
    exists d. split; [exact Hd|]. split; [exact Hpat|]. split; [exact Hact|].
    assert (Es : ra_action ra = stored_action d) by apply X.
    split; [exact Es|]. rewrite <- Es.
    unfold decl_action in Hda. destruct (mk_raction (eff (d_levels d)) (d_ctl d) (d_meth d) (d_opts d)) as [ra0|] eqn:Em; [|discriminate Hda].
    injection Hda as ->. split.
    - intros Ha. eapply mk_raction_cached; eauto.
    - intros Ha. eapply mk_raction_no_action; eauto.
  Qed.
  (** the zero values: what an argument is without a route parameter at its place *)
  Theorem C15_zero_values t v : argument t None v <->
    v = match t with
        | TBool => VBool F false | TInt w => VInt F w 0 | TUint w => VUint F w 0 | TUintWord => VUintWord F 0 | TFloat w => VFloat F w fzero
        | TString => VStr F [] | TBytes => VBytes F None | TStrings => VStrs F None
        | TSliceOther | TPtr _ | TOther => VZero F t
        end.
  Proof using Type. split; [intros A; inversion A; destruct t; reflexivity|]. intros ->. pose proof (arg_missing t) as A. destruct t; exact A. Qed.
End Args.
(** a pointer argument: the value made is no pointer, so the call panics, unless the
    parameter is missing *)
Example C15_pointer_case :
  let ra := RA (Ctl 1 KStruct [(bs "Show", [TPtr (TInt 64)])] [TPtr (TInt 64)]) (bs "Show") [] in
  (forall F fz pf, call_struct F fz pf ra (bs "Show") [(bs "id", bs "7")] = Panic) /\
  (forall F fz pf, call_struct F fz pf ra (bs "Show") [] = Ok [VZero F (TPtr (TInt 64))]) /\
  Forall widths (c_cached (ra_ctl ra)).
Proof. cbv zeta. repeat split. repeat constructor. Qed.

Print Assumptions C77_utils_uint_exact.
Print Assumptions C77_utils_int_exact.
Print Assumptions C78_exact.
Print Assumptions C78_strip_exact.
Print Assumptions C79_exact.
Print Assumptions C15_call_exact.
Print Assumptions C15_recorded_types.
Print Assumptions C15_zero_values.
