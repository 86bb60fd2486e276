(** Props_Base: C191, what ToStr returns for a base. *)
From Coq Require Import List Ascii String Bool Arith ZArith Lia.
Import ListNotations.
From Verif Require Import GoStr GoTy GoNum ValueModel BaseModel.
Local Open Scope Z_scope.

(** [c] is the digit for [d] *)
Definition is_digit_for (d : Z) (c : ascii) : Prop :=
  (0 <= d <= 9 /\ Z.of_nat (nat_of_ascii c) = 48 + d) \/ (10 <= d <= 35 /\ Z.of_nat (nat_of_ascii c) = 97 + (d - 10)).
(** the digits [s] denote [n] in base [b] *)
Inductive numeral (b : Z) : bytes -> Z -> Prop :=
| num_one : forall d c, d < b -> is_digit_for d c -> numeral b [c] d
| num_more : forall s n d c, numeral b s n -> d < b -> is_digit_for d c -> numeral b (s ++ [c]) (n * b + d).
(** no zero in front, except for the number 0 *)
Definition plain (s : bytes) : Prop := s = bs "0" \/ forall r, s <> "0"%char :: r.
(** [s] is how the integer [z] is written in base [b] *)
Definition written (b z : Z) (s : bytes) : Prop :=
  (0 <= z /\ numeral b s z /\ plain s) \/ (z < 0 /\ exists t, s = "-"%char :: t /\ numeral b t (- z) /\ plain t).

Lemma digit_in_ok d : 0 <= d < 36 -> is_digit_for d (digit_in d).
Proof.
  intros H. assert (X : forallb (fun k => if Z.of_nat k <? 10 then Z.of_nat (nat_of_ascii (digit_in (Z.of_nat k))) =? 48 + Z.of_nat k else Z.of_nat (nat_of_ascii (digit_in (Z.of_nat k))) =? 97 + (Z.of_nat k - 10)) (seq 0 36) = true) by (vm_compute; reflexivity).
  rewrite forallb_forall in X. specialize (X (Z.to_nat d)). rewrite in_seq, Z2Nat.id in X by lia. specialize (X ltac:(lia)). unfold is_digit_for. destruct (Z.ltb_spec d 10); apply Z.eqb_eq in X; lia.
Qed.
Lemma digit_for_fun d c d' : is_digit_for d c -> is_digit_for d' c -> d = d'.
Proof. unfold is_digit_for. lia. Qed.
Lemma digit_for_char d c c' : is_digit_for d c -> is_digit_for d c' -> c = c'.
Proof. unfold is_digit_for. intros A B. rewrite <- (ascii_nat_embedding c), <- (ascii_nat_embedding c'). f_equal. lia. Qed.
Lemma digit_for_pos d c : is_digit_for d c -> 0 <= d. Proof. unfold is_digit_for. lia. Qed.
Lemma zero_digit d : is_digit_for d "0"%char <-> d = 0.
Proof. unfold is_digit_for. change (Z.of_nat (nat_of_ascii "0"%char)) with 48. lia. Qed.
Lemma numeral_pos b s n : 0 < b -> numeral b s n -> 0 <= n /\ s <> [].
Proof. intros B. induction 1 as [d c L D|s n d c N (I & J) L D]; [split; [eapply digit_for_pos; eauto|discriminate]|]. apply digit_for_pos in D. split; [nia|]. destruct s; discriminate. Qed.

(** numerals read from the left *)
Lemma numeral_cons b s n : numeral b s n -> forall d c, d < b -> is_digit_for d c -> numeral b (c :: s) (d * b ^ Z.of_nat (List.length s) + n).
Proof.
  induction 1 as [d0 c0 L D|s n d0 c0 N IH L D]; intros d c L' D'.
  - change (c :: [c0]) with ([c] ++ [c0]). cbn [List.length]. change (Z.of_nat 1) with 1. rewrite Z.pow_1_r. constructor; auto. constructor; auto.
  - change (c :: s ++ [c0]) with ((c :: s) ++ [c0]). rewrite app_length. cbn [List.length]. rewrite Nat2Z.inj_add. change (Z.of_nat 1) with 1. rewrite Z.pow_add_r, Z.pow_1_r by lia.
    replace (d * (b ^ Z.of_nat (List.length s) * b) + (n * b + d0)) with ((d * b ^ Z.of_nat (List.length s) + n) * b + d0) by ring. constructor; auto.
Qed.
Lemma loop_digits b : 2 <= b <= 36 -> forall fuel n acc, 0 <= n -> n < 2 ^ Z.of_nat fuel -> (0 < fuel)%nat ->
  exists s, base_loop b fuel n acc = s ++ acc /\ numeral b s n /\ plain s.
Proof.
  intros B. induction fuel as [|fuel IH]; intros n acc Hn L F; [lia|]. cbn [base_loop]. destruct (Z.ltb_spec n b) as [C|C].
  - exists [digit_in (n mod b)]. rewrite Z.mod_small by lia. split; [reflexivity|]. pose proof (digit_in_ok n ltac:(lia)) as D. split; [constructor; [exact C|exact D]|].
    destruct (Ascii.ascii_dec (digit_in n) "0"%char) as [->|X]; [left; reflexivity|right; intros r E; injection E as E _; contradiction].
  - assert (Q : n / b < 2 ^ Z.of_nat fuel).
    { rewrite Nat2Z.inj_succ, Z.pow_succ_r in L by lia. apply Z.div_lt_upper_bound; [lia|]. pose proof (Z.pow_pos_nonneg 2 (Z.of_nat fuel) ltac:(lia) ltac:(lia)). nia. }
    assert (F' : (0 < fuel)%nat).
    { destruct fuel; [|lia]. change (2 ^ Z.of_nat 1) with 2 in L. lia. }
    destruct (IH (n / b) (digit_in (n mod b) :: acc) (Z.div_pos n b Hn ltac:(lia)) Q F') as (s & E & N & P).
    exists (s ++ [digit_in (n mod b)]). rewrite E, <- app_assoc. split; [reflexivity|]. pose proof (Z.mod_pos_bound n b ltac:(lia)) as M. split.
    + pose proof (digit_in_ok (n mod b) ltac:(lia)) as D. pose proof (num_more b s (n / b) (n mod b) (digit_in (n mod b)) N (proj2 M) D) as X. replace (n / b * b + n mod b) with n in X; [exact X|]. pose proof (Z.div_mod n b ltac:(lia)). lia.
    + right. destruct P as [->|P].
      * exfalso. assert (n / b = 0).
        { inversion N as [d c L0 D E1 E2|s0 n0 d c N0 L0 D E1 E2]; [apply zero_digit in D; congruence|]. destruct s0 as [|x0 s0]; [apply numeral_pos in N0; [|lia]; destruct N0; congruence|destruct s0; discriminate]. }
        pose proof (Z.div_str_pos n b ltac:(lia)). lia.
      * destruct s as [|c s]; [apply numeral_pos in N; [|lia]; destruct N; congruence|]. intros r X. injection X as -> X. exact (P s eq_refl).
Qed.
Lemma numeral_low b s : 2 <= b -> forall n, numeral b s n -> plain s -> s <> bs "0" -> 0 < n.
Proof.
  intros B n. induction 1 as [d c L D|s n d c N IH L D]; intros P Z0.
  - pose proof (digit_for_pos _ _ D). destruct (Z.eq_dec d 0) as [->|]; [|lia]. exfalso. apply Z0. change (bs "0") with ["0"%char]. f_equal. apply (digit_for_char 0); [exact D|apply zero_digit; reflexivity].
  - pose proof (digit_for_pos _ _ D). assert (0 < n); [|pose proof (Z.mul_pos_pos n b); lia]. destruct P as [P|P]; [exfalso; contradiction|]. apply numeral_pos in N as (_ & E); [|lia]. destruct s as [|c0 s]; [congruence|]. apply IH.
    + right. intros r X. injection X as -> X. exact (P _ eq_refl).
    + intros X. injection X as -> X. exact (P _ eq_refl).
Qed.
Lemma digits_eq b n n2 d d2 : 0 <= d < b -> 0 <= d2 < b -> n2 * b + d2 = n * b + d -> d2 = d /\ n2 = n.
Proof.
  intros A B E. assert (n2 = n); [|subst; split; lia]. rewrite (Z.mul_comm n2), (Z.mul_comm n) in E.
  apply (Z.div_mod_unique b n2 n d2 d) in E as (X & _); [exact X|left; lia|left; lia].
Qed.
Lemma numeral_fun b s n : 2 <= b -> numeral b s n -> plain s -> forall s', numeral b s' n -> plain s' -> s' = s.
Proof.
  intros B N. induction N as [d c L D|s n d c N IH L D]; intros P s' N' P'; inversion N' as [d2 c2 L2 D2 E1 E2|s2 n2 d2 c2 N2 L2 D2 E1 E2]; subst.
  - f_equal. eapply digit_for_char; eauto.
  - exfalso. pose proof (numeral_pos b _ _ ltac:(lia) N2) as (A & A2). pose proof (digit_for_pos _ _ D2). assert (n2 = 0) by (destruct (Z.eq_dec n2 0); [assumption|pose proof (Z.mul_le_mono_nonneg 1 n2 b b); lia]). subst n2.
    destruct s2 as [|c0 s2]; [congruence|]. destruct P' as [P'|P']; [destruct s2; discriminate|].
    assert (Z0 : c0 :: s2 <> bs "0") by (intros X; injection X as -> X; exact (P' _ eq_refl)).
    pose proof (numeral_low b _ B _ N2 ltac:(right; intros r X; injection X as -> X; exact (P' _ eq_refl)) Z0). lia.
  - exfalso. pose proof (numeral_pos b _ _ ltac:(lia) N) as (A & A2). pose proof (digit_for_pos _ _ D). assert (n = 0) by (destruct (Z.eq_dec n 0); [assumption|pose proof (Z.mul_le_mono_nonneg 1 n b b); lia]). subst n.
    destruct s as [|c0 s]; [congruence|]. destruct P as [P|P]; [destruct s; discriminate|].
    assert (Z0 : c0 :: s <> bs "0") by (intros X; injection X as -> X; exact (P _ eq_refl)).
    pose proof (numeral_low b _ B _ N ltac:(right; intros r X; injection X as -> X; exact (P _ eq_refl)) Z0). lia.
  - pose proof (digit_for_pos _ _ D). pose proof (digit_for_pos _ _ D2). assert (d2 = d /\ n2 = n) as (-> & ->) by (apply (digits_eq b); lia). f_equal; [|f_equal; eapply digit_for_char; eauto].
    assert (PP : forall s, numeral b s n -> plain (s ++ [c]) \/ plain (s ++ [c2]) -> plain s).
    { clear - B. intros s N Q. apply numeral_pos in N as (_ & E); [|lia]. destruct s as [|c0 s]; [congruence|]. right. intros r X. injection X as -> X. destruct Q as [[Q|Q]|[Q|Q]]; try (destruct s; discriminate Q); exact (Q _ eq_refl). }
    apply IH; eauto.
Qed.
Lemma format_base_digits b n : 0 <= n -> 2 <= b <= 36 -> exists s, format_base b n = Some s /\ numeral b s n /\ plain s.
Proof.
  intros H B. unfold format_base. destruct (Z.ltb_spec b 2); [lia|]. destruct (Z.ltb_spec 36 b); [lia|]. cbn [orb].
  destruct (loop_digits b B (S (Z.to_nat (Z.log2 n))) n [] H) as (s & E & N & P); [|lia|].
  { rewrite Nat2Z.inj_succ, Z2Nat.id by apply Z.log2_nonneg. destruct (Z.eq_dec n 0) as [->|]; [reflexivity|]. apply Z.log2_spec. lia. }
  exists s. rewrite E, app_nil_r. auto.
Qed.

(** the integer a value holds *)
Definition integer_of (d : dyn) : option Z := match d with DInt _ _ z | DUint _ _ z => Some z | _ => None end.
(** a uint is not negative *)
Definition is_go_value (d : dyn) : Prop := match d with DUint _ _ z => 0 <= z | _ => True end.

(** C191. For an integer the first argument is the base, 10 without: ToStr panics if it is not
    one of 2 to 36, and gives the one text that writes the integer in this base otherwise. *)
Theorem C191_integer_in_base d z args : integer_of d = Some z -> is_go_value d ->
  let b := match args with x :: _ => x | [] => 10 end in
  if (2 <=? b) && (b <=? 36)
  then exists s, to_str_args (VOther d) args = Some s /\ forall s', written b z s' <-> s' = s
  else to_str_args (VOther d) args = None.
Proof.
  intros I G. cbv zeta. set (b := match args with x :: _ => x | [] => 10 end). assert (Eb : arg_int args 0 10 = b) by (destruct args; reflexivity).
  assert (R : to_str_args (VOther d) args = format_int_base b z).
  { destruct d; try discriminate I; injection I as <-; cbn [to_str_args]; rewrite Eb; [reflexivity|]. unfold format_int_base. cbn in G. destruct (Z.ltb_spec z0 0); [lia|reflexivity]. }
  rewrite R. clear R. destruct (Z.leb_spec 2 b) as [B1|B1]; [destruct (Z.leb_spec b 36) as [B2|B2]|]; cbn [andb].
  - unfold format_int_base. destruct (Z.ltb_spec z 0) as [N|N].
    + destruct (format_base_digits b (- z) ltac:(lia) ltac:(lia)) as (s & E & A & P). rewrite E. exists ("-"%char :: s). split; [reflexivity|]. intros s'. split.
      * intros [(X & _)|(_ & t & -> & A' & P')]; [lia|]. f_equal. exact (numeral_fun b s (- z) B1 A P t A' P').
      * intros ->. right. split; [exact N|]. exists s. auto.
    + destruct (format_base_digits b z N ltac:(lia)) as (s & E & A & P). rewrite E. exists s. split; [reflexivity|]. intros s'. split.
      * intros [(_ & A' & P')|(X & _)]; [|lia]. exact (numeral_fun b s z B1 A P s' A' P').
      * intros ->. left. auto.
  - unfold format_int_base, format_base. destruct (Z.ltb_spec b 2); [lia|]. destruct (Z.ltb_spec 36 b); [|lia]. cbn [orb option_map]. destruct (z <? 0); reflexivity.
  - unfold format_int_base, format_base. destruct (Z.ltb_spec b 2); [|lia]. cbn [orb option_map]. destruct (z <? 0); reflexivity.
Qed.

Lemma numeral_dec s n : numeral 10 s n -> nat_denotes s n.
Proof.
  assert (X : forall d c, d < 10 -> is_digit_for d c -> digit_val c = Some d).
  { intros d c L D. destruct D as [(R & D)|(R & D)]; [|lia]. unfold digit_val, code. replace (nat_of_ascii c) with (48 + Z.to_nat d)%nat by lia.
    destruct (Nat.leb_spec 48 (48 + Z.to_nat d)); [|lia]. destruct (Nat.leb_spec (48 + Z.to_nat d) 57); [|lia]. cbn [andb]. f_equal. lia. }
  induction 1 as [d c L D|s n d c N IH L D]; constructor; auto.
Qed.
(** Without a base, or with base 10, it is what the decimal conversions (StrTo, Value) read back. *)
Theorem C191_read_back d z args : integer_of d = Some z -> is_go_value d -> (args = [] \/ exists more, args = 10 :: more) ->
  - 2 ^ 63 <= z < 2 ^ 63 -> exists s, to_str_args (VOther d) args = Some s /\ parse_int 64 s = (z, None).
Proof.
  intros I G A R. pose proof (C191_integer_in_base d z args I G) as X. cbv zeta in X.
  assert (Eb : match args with x :: _ => x | [] => 10 end = 10) by (destruct A as [->|(more & ->)]; reflexivity). rewrite Eb in X. cbn in X.
  destruct X as (s & E & U). exists s. split; [exact E|]. apply parse_int_ok; [lia|]. change (64 - 1) with 63. split; [|exact R].
  destruct (proj2 (U s) eq_refl) as [(_ & N & _)|(_ & t & -> & N & _)].
  - apply id_plain. apply numeral_dec. exact N.
  - replace z with (- - z) by lia. apply id_minus. apply numeral_dec. exact N.
Qed.
(** The arguments make no difference for a value that is neither an integer nor a float. *)
Theorem C191_no_number d args : integer_of d = None -> to_str_args (VOther d) args = Some (to_str d).
Proof. destruct d; intros H; try discriminate H; reflexivity. Qed.
(** A float: the first argument is the precision (the least that reads back, without), the second
    the size it is rounded to, its own without; ToStr panics if this is neither 32 nor 64. *)
Theorem C191_float f args : f_size f = 32 \/ f_size f = 64 ->
  let prec := match args with p :: _ => p | [] => -1 end in
  let size := match args with _ :: q :: _ => q | _ => f_size f end in
  (to_str_args (VFloat f) args = Some (f_text f prec size) <-> size = 32 \/ size = 64) /\
  (to_str_args (VFloat f) args = None <-> size <> 32 /\ size <> 64).
Proof.
  intros F. cbv zeta. cbn [to_str_args].
  replace (arg_int args 0 (-1)) with (match args with p :: _ => p | [] => -1 end) by (destruct args; reflexivity).
  replace (arg_int args 1 (f_size f)) with (match args with _ :: q :: _ => q | _ => f_size f end) by (destruct args as [|p [|q args]]; reflexivity).
  set (size := match args with _ :: q :: _ => q | _ => f_size f end). destruct (Z.eqb_spec size 32); destruct (Z.eqb_spec size 64); cbn [orb]; split; split; try tauto; try lia; intros; try discriminate; intuition congruence.
Qed.
(** In every base the text is one of ToStr's for at most one integer. *)
Theorem C191_different_integers d d' z z' args s : integer_of d = Some z -> integer_of d' = Some z' -> is_go_value d -> is_go_value d' ->
  to_str_args (VOther d) args = Some s -> to_str_args (VOther d') args = Some s -> z = z'.
Proof.
  intros I I' G G' E E'. pose proof (C191_integer_in_base d z args I G) as X. pose proof (C191_integer_in_base d' z' args I' G') as X'. cbv zeta in X, X'.
  set (b := match args with x :: _ => x | [] => 10 end) in *. destruct (Z.leb_spec 2 b) as [B|B]; cbn [andb] in X, X'; [|congruence]. destruct (b <=? 36); [|congruence].
  destruct X as (t & T & U). destruct X' as (t' & T' & U'). assert (t = s) as -> by congruence. assert (t' = s) as -> by congruence.
  pose proof (proj2 (U s) eq_refl) as W. pose proof (proj2 (U' s) eq_refl) as W'.
  assert (ND : forall t n, numeral b ("-"%char :: t) n -> False).
  { intros t n N. assert (Q : forall u m, numeral b u m -> Forall (fun c => exists d, is_digit_for d c) u).
    { induction 1 as [x c L D|u m x c M IH L D]; [|apply Forall_app; split; [exact IH|]]; (constructor; [eauto|constructor]). }
    apply Q in N. inversion N as [|c u (x & D) Fu]; subst. destruct D as [(R1 & D)|(R1 & D)]; change (Z.of_nat (nat_of_ascii "-"%char)) with 45 in D; lia. }
  assert (FN : forall u m, numeral b u m -> forall m', numeral b u m' -> m = m').
  { induction 1 as [x c L D|u m x c M IH L D]; intros m' Q; inversion Q as [x2 c2 L2 D2 E1 E2|u2 m2 x2 c2 M2 L2 D2 E1 E2]; subst.
    - eapply digit_for_fun; eauto.
    - exfalso. destruct u2; [apply numeral_pos in M2; [|lia]; destruct M2; congruence|]. destruct u2; discriminate.
    - exfalso. destruct u; [apply numeral_pos in M; [|lia]; destruct M; congruence|]. destruct u; discriminate.
    - apply app_inj_tail in E1 as (-> & ->). f_equal; [f_equal; apply IH; exact M2|eapply digit_for_fun; eauto]. }
  destruct W as [(A & N & _)|(A & u & Eu & N & _)]; destruct W' as [(A' & N' & _)|(A' & u' & Eu' & N' & _)].
  - eapply FN; eauto.
  - subst s. exfalso. eapply ND; eauto.
  - subst s. exfalso. eapply ND; eauto.
  - rewrite Eu in Eu'. injection Eu' as ->. pose proof (FN _ _ N _ N'). lia.
Qed.

Example C191_hypotheses_met :
  to_str_args (VOther (DInt false SWord (-255))) [16] = Some (bs "-ff") /\ to_str_args (VOther (DUint false S8 35)) [36] = Some (bs "z") /\
  to_str_args (VOther (DInt false SWord 1024)) [2] = Some (bs "10000000000") /\ to_str_args (VOther (DInt false SWord 0)) [7] = Some (bs "0") /\
  to_str_args (VOther (DInt false SWord 7)) [1] = None /\ to_str_args (VOther (DInt false SWord 7)) [37] = None /\ to_str_args (VOther (DInt false SWord (-70))) [] = Some (bs "-70") /\
  to_str_args (VOther (DStr false (bs "x"))) [99] = Some (bs "x").
Proof. vm_compute. repeat split. Qed.

Print Assumptions C191_integer_in_base.
Print Assumptions C191_read_back.
Print Assumptions C191_no_number.
Print Assumptions C191_float.
Print Assumptions C191_different_integers.
