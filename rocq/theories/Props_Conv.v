(** Props_Conv: C76-C79, string conversions. *)
From Coq Require Import List Ascii String Bool Arith ZArith Lia.
Import ListNotations.
From Verif Require Import GoStr GoTy GoNum RouterModel ConvModel ConvFacts.
Local Open Scope Z_scope.

Definition width (w : nat) : Prop := (w = 8 \/ w = 16 \/ w = 32 \/ w = 64)%nat.
Lemma width_ge w : width w -> (2 <= w)%nat.
Proof. unfold width. lia. Qed.

(** ** C76 *)
Theorem C76_integer_round_trip : forall w n, width w ->
  (fits_int w n ->
     strip_int (Z.of_nat w) (utils_tostr (AInt n)) = (n, None) /\ strip_int (Z.of_nat w) (strip_tostr (AInt n)) = (n, None) /\
     utils_int (Z.of_nat w) (utils_tostr (AInt n)) = (n, None) /\ utils_int (Z.of_nat w) (strip_tostr (AInt n)) = (n, None)) /\
  (fits_uint w n ->
     strip_uint (Z.of_nat w) (utils_tostr (AUint n)) = (n, None) /\ strip_uint (Z.of_nat w) (strip_tostr (AUint n)) = (n, None) /\
     utils_uint (Z.of_nat w) (utils_tostr (AUint n)) = (n, None) /\ utils_uint (Z.of_nat w) (strip_tostr (AUint n)) = (n, None)).
Proof.
  intros w n Hw. pose proof (width_ge w Hw). split.
  - intros Hf. cbn [utils_tostr strip_tostr]. unfold strip_int, utils_int.
    rewrite parse_format_int by (exact Hf || lia). auto.
  - intros [H1 H2]. cbn [utils_tostr strip_tostr]. unfold strip_uint, utils_uint. rewrite parse_format_uint by lia. auto.
Qed.
Example C76_example : width 8 /\ fits_int 8 (-128) /\ fits_uint 8 255 /\ utils_tostr (AInt (-128)) = bs "-128".
Proof. unfold width, fits_int, fits_uint. cbn. repeat split; try lia. Qed.

(** ** C77 *)
(** the strip package: exact or (0, error), and no error exactly when the text
    denotes a number that fits *)
Theorem C77_strip_exact_or_error : forall w s, width w ->
  match strip_int (Z.of_nat w) s with
  | (n, None) => int_denotes s n /\ fits_int w n
  | (n, Some _) => n = 0 /\ forall m, int_denotes s m -> ~ fits_int w m
  end /\
  match strip_uint (Z.of_nat w) s with
  | (n, None) => nat_denotes s n /\ fits_uint w n
  | (n, Some _) => n = 0 /\ forall m, nat_denotes s m -> ~ fits_uint w m
  end.
Proof.
  intros w s Hw. pose proof (width_ge w Hw) as H2. split.
  - destruct (strip_int_spec w s H2) as [(n & A & B & ->)|(A & e & ->)]; auto.
  - destruct (strip_uint_spec w s) as [(n & A & B & ->)|(A & e & ->)]; auto.
Qed.
(** the utils package reports the same errors ... *)
Theorem C77_utils_exact_or_error_partial : forall w s, width w ->
  match utils_int (Z.of_nat w) s with
  | (n, None) => int_denotes s n /\ fits_int w n
  | (n, Some ESyntax) => n = 0 /\ forall m, int_denotes s m -> ~ fits_int w m
  | (n, Some ERange) => fits_int w n /\ (n = 2 ^ (Z.of_nat w - 1) - 1 \/ n = - 2 ^ (Z.of_nat w - 1)) /\ forall m, int_denotes s m -> ~ fits_int w m
  end /\
  match utils_uint (Z.of_nat w) s with
  | (n, None) => nat_denotes s n /\ fits_uint w n
  | (n, Some ESyntax) => n = 0 /\ forall m, nat_denotes s m -> ~ fits_uint w m
  | (n, Some ERange) => n = 2 ^ Z.of_nat w - 1 /\ forall m, nat_denotes s m -> ~ fits_uint w m
  end.
Proof.
  intros w s Hw. pose proof (width_ge w Hw) as H2. unfold utils_int, utils_uint.
  assert (Hpw : 0 < 2 ^ (Z.of_nat w - 1)) by (apply Z.pow_pos_nonneg; lia). split.
  - destruct (strip_int_spec w s H2) as [(n & A & B & E)|(A & e & E)]; unfold strip_int in E.
    + destruct (parse_int (Z.of_nat w) s) as [v [x|]]; [discriminate|]. injection E as ->. auto.
    + destruct (parse_int (Z.of_nat w) s) as [v [x|]] eqn:Ep; [|discriminate].
      destruct (parse_int_err (Z.of_nat w) s v x ltac:(lia) Ep) as [[-> ->]|[-> Hv]]; [auto|].
      split; [|auto]. unfold fits_int. lia.
  - destruct (strip_uint_spec w s) as [(n & A & B & E)|(A & e & E)]; unfold strip_uint in E.
    + destruct (parse_uint (Z.of_nat w) s) as [v [x|]]; [discriminate|]. injection E as ->. auto.
    + destruct (parse_uint (Z.of_nat w) s) as [v [x|]] eqn:Ep; [|discriminate].
      destruct (parse_uint_err (Z.of_nat w) s v x ltac:(lia) Ep) as [[-> ->]|[-> Hv]]; auto.
Qed.
(** ... but returns the nearest bound with a range error, and the Must* family
    hands that bound out as the value *)
Theorem C77_utils_zero_on_error_refuted :
  exists s e, int_denotes s 300 /\ utils_int 8 s = (127, Some e) /\ must (utils_int 8 s) = 127.
Proof.
  exists (bs "300"), ERange. split; [|split; vm_compute; reflexivity]. apply id_plain, nat_denotes_dval. split; [discriminate|reflexivity].
Qed.
Example C77_example : width 16 /\ strip_int 16 (bs "-40000") = (0, Some ERange) /\ strip_int 16 (bs "+7") = (7, None) /\
  strip_int 16 (bs "7x") = (0, Some ESyntax).
Proof. split; [unfold width; lia|]. vm_compute. auto. Qed.

(** ** C78 *)
Inductive prints : anyval -> bytes -> Prop :=
| pr_bool : forall b, prints (ABool b) (if b then bs "true" else bs "false")
| pr_int : forall n s, int_denotes s n -> (forall c s', s = c :: s' -> c <> "+"%char) -> prints (AInt n) s
| pr_uint : forall n s, nat_denotes s n -> prints (AUint n) s
| pr_str : forall s, prints (AStr s) s
| pr_bytes : forall s, prints (ABytes s) s.
Theorem C78_tostr_prints_partial : forall v,
  match v with ANamedBytes _ | AOther _ => True | AUint n => 0 <= n -> prints v (utils_tostr v) | _ => prints v (utils_tostr v) end.
Proof.
  intros [b|n|n|s|s|s|p]; cbn [utils_tostr]; try exact I; try constructor.
  - apply format_int_denotes.
  - intros c s' E. unfold format_int in E. destruct (n <? 0) eqn:Hn.
    + injection E as <- _. discriminate.
    + pose proof (format_uint_denotes n ltac:(lia)) as Hd. rewrite E in Hd.
      apply nat_denotes_head in Hd as (c0 & s0 & [= <- <-] & Hc). apply digit_not_sign in Hc as [Hc _].
      intros ->. vm_compute in Hc. discriminate.
  - apply format_uint_denotes. assumption.
Qed.
(** for any other kind, named byte slices included, every value prints the same *)
Theorem C78_tostr_prints_refuted :
  utils_tostr (ANamedBytes (bs "x")) = bs "[]byte(nil)" /\ utils_tostr (ANamedBytes (bs "y")) = bs "[]byte(nil)" /\
  (forall p q, utils_tostr (AOther p) = utils_tostr (AOther q)).
Proof. repeat split. Qed.
Example C78_example : utils_tostr (AInt (-7)) = bs "-7" /\ utils_tostr (AUint 18446744073709551615) = bs "18446744073709551615".
Proof. vm_compute. auto. Qed.

(** ** C79 *)
(** utils.StrTo.Uint reads every 64-bit uint *)
Theorem C79_utils_uint_total : forall n, 0 <= n < 2 ^ 64 -> utils_uint_word (format_uint n) = (n, None).
Proof. intros n Hn. apply parse_format_uint; lia. Qed.
(** strip.StrTo.Uint and utils.Value.Uint only those below 2^32 *)
Theorem C79_uint_32_bits_partial : forall n, 0 <= n < 2 ^ 64 ->
  (n < 2 ^ 32 <-> strip_uint_word (format_uint n) = (n, None)) /\
  (n < 2 ^ 32 <-> value_uint_word false (Some (AUint n)) = (n, None)).
Proof.
  intros n Hn. assert (G : n < 2 ^ 32 <-> parse_uint 32 (format_uint n) = (n, None)).
  { rewrite parse_uint_ok by lia. pose proof (format_uint_denotes n ltac:(lia)). tauto. }
  split.
  - unfold strip_uint_word, strip_uint. rewrite G. destruct (parse_uint 32 (format_uint n)) as [v [e|]]; split; congruence.
  - exact G.
Qed.
Theorem C79_strip_uint_total_refuted :
  0 <= 4294967296 < 2 ^ 64 /\ strip_uint_word (format_uint 4294967296) = (0, Some ERange).
Proof. split; [lia|vm_compute; reflexivity]. Qed.

Print Assumptions C76_integer_round_trip.
Print Assumptions C77_strip_exact_or_error.
Print Assumptions C77_utils_exact_or_error_partial.
Print Assumptions C77_utils_zero_on_error_refuted.
Print Assumptions C78_tostr_prints_partial.
Print Assumptions C78_tostr_prints_refuted.
Print Assumptions C79_utils_uint_total.
Print Assumptions C79_uint_32_bits_partial.
Print Assumptions C79_strip_uint_total_refuted.
