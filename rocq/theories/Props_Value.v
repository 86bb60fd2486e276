(** Props_Value: C150, C151: conversions of any value by utils.ValueTo, and ToInt64. *)
From Coq Require Import List Ascii String Bool Arith ZArith Lia.
Import ListNotations.
From Verif Require Import GoStr GoTy GoNum RouterModel ConvModel ConvFacts Props_Conv Props_ConvExact ValueModel.
Local Open Scope Z_scope.

(** ** Specification *)
(** the numbers of intK and uintK *)
Definition least (k : size) : Z := match k with SWord | S64 => -9223372036854775808 | S8 => -128 | S16 => -32768 | S32 => -2147483648 end.
Definition greatest (k : size) : Z := match k with SWord | S64 => 9223372036854775807 | S8 => 127 | S16 => 32767 | S32 => 2147483647 end.
Definition ugreatest (k : size) : Z := match k with SWord | S64 => 18446744073709551615 | S8 => 255 | S16 => 65535 | S32 => 4294967295 end.
(** a value there can be *)
Definition possible (d : dyn) : Prop :=
  match d with DInt _ k z => least k <= z <= greatest k | DUint _ k z => 0 <= z <= ugreatest k | _ => True end.
(** d is an integer, of whatever integer type, and which *)
Inductive is_integer : dyn -> Z -> Prop :=
| ii_int n k z : is_integer (DInt n k z) z
| ii_uint n k z : is_integer (DUint n k z) z.
(** d is text: a string of any string type, or a []byte *)
Inductive is_text : dyn -> bytes -> Prop :=
| it_str n s : is_text (DStr n s) s
| it_bytes s : is_text (DBytes false s) s.
(** the two possible results beyond the number itself *)
Definition nearest (lo hi z : Z) : conv Z := if z <? lo then (lo, Some ERange) else if hi <? z then (hi, Some ERange) else (z, None).

Local Arguments Z.pow : simpl never.
Lemma least_bits k : least k = - 2 ^ (bits k - 1). Proof. destruct k; reflexivity. Qed.
Lemma greatest_bits k : greatest k = 2 ^ (bits k - 1) - 1. Proof. destruct k; reflexivity. Qed.
Lemma bits_ge k : 2 <= bits k. Proof. destruct k; cbn; lia. Qed.
Lemma size_eqb_spec a b : reflect (a = b) (size_eqb a b).
Proof. destruct a, b; constructor; congruence. Qed.
Lemma size_eqb_refl a : size_eqb a a = true. Proof. destruct a; reflexivity. Qed.
Lemma parse_near k s z : int_denotes s z -> parse_int (bits k) s = nearest (least k) (greatest k) z.
Proof.
  intros D. unfold nearest. pose proof (bits_ge k) as B. pose proof (least_bits k) as L. pose proof (greatest_bits k) as G.
  assert (P : 0 < 2 ^ (bits k - 1)) by (apply Z.pow_pos_nonneg; lia).
  destruct (Z.ltb_spec z (least k)) as [X|X]; [|destruct (Z.ltb_spec (greatest k) z) as [Y|Y]].
  - rewrite (parse_int_range _ _ _ B D) by lia. destruct (Z.ltb_spec z 0); [congruence|lia].
  - rewrite (parse_int_range _ _ _ B D) by lia. destruct (Z.ltb_spec z 0); [lia|congruence].
  - apply parse_int_ok; [exact B|]. split; [exact D|lia].
Qed.
Lemma int_text n k z : possible (DInt n k z) -> int_denotes (v_string (DInt n k z)) z.
Proof. intros _. destruct n; apply format_int_denotes. Qed.
Lemma uint_text n k z : possible (DUint n k z) -> nat_denotes (v_string (DUint n k z)) z.
Proof. intros (H & _). destruct n; apply format_uint_denotes; exact H. Qed.

(** ** C150: numbers *)
(** An integer of any type, asked for as a signed type: the number if the type has it, and
    otherwise the nearest it has, with a range error *)
Theorem C150_signed_exact k d z : possible d -> is_integer d z -> v_int k d = nearest (least k) (greatest k) z.
Proof.
  intros P I. destruct I as [n k' z|n k' z].
  - pose proof (int_text n k' z P) as D. cbn [v_int]. destruct n; [apply parse_near; exact D|].
    destruct (size_eqb_spec k k') as [->|_]; [|apply parse_near; exact D]. cbn in P. unfold nearest. destruct (Z.ltb_spec z (least k')); [lia|]. destruct (Z.ltb_spec (greatest k') z); [lia|reflexivity].
  - cbn [v_int]. apply parse_near. constructor. now apply uint_text.
Qed.
(** asked for as an unsigned type: a value of that very type is itself; of other types a
    negative number is a syntax error (and zero), and the rest as above, where Uint takes
    only what uint32 has *)
Theorem C150_unsigned_exact k d z : possible d -> is_integer d z ->
  v_uint k d =
  match d with
  | DUint false k' _ => if size_eqb k k' then (z, None) else nearest 0 (ugreatest (match k with SWord => S32 | k => k end)) z
  | _ => if z <? 0 then (0, Some ESyntax) else nearest 0 (ugreatest (match k with SWord => S32 | k => k end)) z
  end.
Proof.
  intros P I.
  assert (U : ugreatest (match k with SWord => S32 | k => k end) = 2 ^ parsed_bits k - 1) by (destruct k; reflexivity).
  assert (B : 0 <= parsed_bits k) by (destruct k; cbn; lia).
  assert (Near : forall s m, nat_denotes s m -> parse_uint (parsed_bits k) s = nearest 0 (ugreatest (match k with SWord => S32 | k => k end)) m).
  { intros s m D. rewrite U. unfold nearest. pose proof (nat_denotes_nonneg _ _ D). destruct (Z.ltb_spec m 0); [lia|].
    destruct (Z.ltb_spec (2 ^ parsed_bits k - 1) m); [now apply (parse_uint_range _ _ m); [| |lia]|]. apply parse_uint_ok; [exact B|]. split; [exact D|lia]. }
  destruct I as [n k' z|n k' z].
  - cbn [v_uint]. assert (E : v_string (DInt n k' z) = format_int z) by (destruct n; reflexivity). rewrite E.
    destruct (Z.ltb_spec z 0) as [L|L].
    + unfold format_int. destruct (Z.ltb_spec z 0); [|lia]. unfold parse_uint. cbn [puint_loop]. change (digit_val "-") with (@None Z). reflexivity.
    + rewrite format_int_nonneg by exact L. apply Near. now apply format_uint_denotes.
  - pose proof (uint_text n k' z P) as D. cbn in P. cbn [v_uint]. destruct n.
    + destruct (Z.ltb_spec z 0); [lia|]. now apply Near.
    + destruct (size_eqb k k'); [reflexivity|]. now apply Near.
Qed.
(** text is read as utils.StrTo reads it, Uint with 32 bits *)
Theorem C150_text_exact k d s : is_text d s ->
  v_int k d = utils_int (bits k) s /\ v_uint k d = utils_uint (match k with SWord => 32 | k => bits k end) s /\
  v_string d = s.
Proof. intros [[|] s'|s']; repeat split. Qed.
(** nothing else is a number: nil, booleans, lists of strings, named byte slices, other types *)
Theorem C150_no_number k d : (forall z, ~ is_integer d z) -> (forall s, ~ is_text d s) -> (forall p, d <> DFloat p) ->
  v_int k d = (0, Some ESyntax) /\ v_uint k d = (0, Some ESyntax).
Proof.
  intros A B C. destruct d as [|n b|n k' z|n k' z|p|n s|n s|n l|].
  - split; reflexivity.
  - destruct n, b; split; reflexivity.
  - exfalso. exact (A z (ii_int n k' z)).
  - exfalso. exact (A z (ii_uint n k' z)).
  - exfalso. exact (C p eq_refl).
  - exfalso. exact (B s (it_str n s)).
  - destruct n; [split; reflexivity|]. exfalso. exact (B s (it_bytes s)).
  - destruct n; split; reflexivity.
  - split; reflexivity.
Qed.
(** so from any integer type to a signed type that has all its numbers nothing is lost; the Must
    variants give the number, or the nearest one there is *)
Theorem C150_widening k d z : possible d -> is_integer d z -> (least k <= z <= greatest k -> v_int k d = (z, None)) /\
  v_must_int k d = Z.max (least k) (Z.min (greatest k) z).
Proof.
  intros P I. unfold v_must_int. rewrite (C150_signed_exact k d z P I). unfold nearest.
  assert (least k <= greatest k) by (destruct k; cbn; lia).
  split; [intros H0|]; destruct (Z.ltb_spec z (least k)); cbn [fst]; try lia; destruct (Z.ltb_spec (greatest k) z); cbn [fst]; try lia. reflexivity.
Qed.
(** Booleans: a bool is itself; the string on (not a named string, not a []byte) is true; the
    words of strconv.ParseBool, also as digits 1 and 0; and nothing else *)
Definition yes : list bytes := map bs ["1"; "t"; "T"; "true"; "TRUE"; "True"]%string.
Definition no : list bytes := map bs ["0"; "f"; "F"; "false"; "FALSE"; "False"]%string.
Theorem C150_bool_exact d c : possible d ->
  v_bool d = c <->
  (c = (true, None) /\ ((exists n, d = DBool n true) \/ d = DStr false (bs "on") \/ (exists s, is_text d s /\ In s yes) \/ is_integer d 1 \/ (exists p, d = DFloat p /\ In p yes))) \/
  (c = (false, None) /\ ((exists n, d = DBool n false) \/ (exists s, is_text d s /\ In s no) \/ is_integer d 0 \/ (exists p, d = DFloat p /\ In p no))) \/
  (c = (false, Some ESyntax) /\ ~ (exists n b, d = DBool n b) /\ d <> DStr false (bs "on") /\
     (forall s, is_text d s \/ d = DFloat s -> ~ In s yes /\ ~ In s no) /\ ~ is_integer d 1 /\ ~ is_integer d 0).
Proof.
  intros P.
  (** a spec as a relation that has exactly one result *)
  set (T := (exists n, d = DBool n true) \/ d = DStr false (bs "on") \/ (exists s, is_text d s /\ In s yes) \/ is_integer d 1 \/ (exists p, d = DFloat p /\ In p yes)).
  set (Fa := (exists n, d = DBool n false) \/ (exists s, is_text d s /\ In s no) \/ is_integer d 0 \/ (exists p, d = DFloat p /\ In p no)).
  set (E := ~ (exists n b, d = DBool n b) /\ d <> DStr false (bs "on") /\
     (forall s, is_text d s \/ d = DFloat s -> ~ In s yes /\ ~ In s no) /\ ~ is_integer d 1 /\ ~ is_integer d 0).
  assert (X : (v_bool d = (true, None) /\ T) \/ (v_bool d = (false, None) /\ Fa) \/ (v_bool d = (false, Some ESyntax) /\ E)).
  { assert (W : forall s, (parse_bool s = (true, None) /\ In s yes) \/ (parse_bool s = (false, None) /\ In s no) \/ (parse_bool s = (false, Some ESyntax) /\ ~ In s yes /\ ~ In s no)).
    { intros s. unfold parse_bool. 
      destruct (existsb (beq s) [bs "1"; bs "t"; bs "T"; bs "TRUE"; bs "true"; bs "True"]) eqn:E1.
      - left. split; [reflexivity|]. apply existsb_exists in E1 as (x & Ix & Ex). apply beq_true in Ex. subst x. cbn in Ix |- *. tauto.
      - assert (Ny : ~ In s yes). { intros I. assert (K : existsb (beq s) [bs "1"; bs "t"; bs "T"; bs "TRUE"; bs "true"; bs "True"] = true); [|congruence]. apply existsb_exists. exists s. rewrite beq_refl. split; [|reflexivity]. cbn in I |- *. tauto. }
        destruct (existsb (beq s) [bs "0"; bs "f"; bs "F"; bs "FALSE"; bs "false"; bs "False"]) eqn:E2.
        + right. left. split; [reflexivity|]. apply existsb_exists in E2 as (x & Ix & Ex). apply beq_true in Ex. subst x. cbn in Ix |- *. tauto.
        + right. right. split; [reflexivity|]. split; [exact Ny|]. intros I. assert (K : existsb (beq s) [bs "0"; bs "f"; bs "F"; bs "FALSE"; bs "false"; bs "False"] = true); [|congruence]. apply existsb_exists. exists s. rewrite beq_refl. split; [|reflexivity]. cbn in I |- *. tauto. }
    assert (One : forall z, 0 <= z -> parse_bool (format_uint z) = if z =? 1 then (true, None) else if z =? 0 then (false, None) else (false, Some ESyntax)).
    { intros z Hz. destruct (Z.eqb_spec z 1) as [->|N1]; [reflexivity|]. destruct (Z.eqb_spec z 0) as [->|N0]; [reflexivity|].
      pose proof (format_uint_denotes z Hz) as D. set (fz := format_uint z) in *. clearbody fz. destruct (W fz) as [(_ & I)|[(_ & I)|(-> & _)]]; [| |reflexivity]; exfalso;
        (cbn in I; repeat (destruct I as [I|I]; [rewrite <- I in D; apply nat_denotes_dval in D as (_ & D); cbn in D; try discriminate D; injection D as D; lia|]); exact I). }
    assert (Neg : forall z, z < 0 -> parse_bool (format_int z) = (false, Some ESyntax)).
    { intros z Hz. unfold format_int. destruct (Z.ltb_spec z 0); [|lia]. set (fz := format_uint (- z)). clearbody fz. destruct (W ("-"%char :: fz)) as [(_ & I)|[(_ & I)|(-> & _)]]; [| |reflexivity]; exfalso;
        (cbn in I; repeat (destruct I as [I|I]; [discriminate I|]); exact I). }
    destruct d as [|n b|n k' z|n k' z|p|n s|n s|n l|].
    - right; right. split; [reflexivity|]. repeat split; try discriminate; try (intros (n & b & X); discriminate X); try (intros I; inversion I); intros; destruct H as [H|H]; inversion H.
    - destruct b; [left|right; left]; (split; [destruct n; reflexivity|left; exists n; reflexivity]).
    - assert (V : v_bool (DInt n k' z) = if z =? 1 then (true, None) else if z =? 0 then (false, None) else (false, Some ESyntax)).
      { transitivity (parse_bool (format_int z)); [destruct n; reflexivity|]. destruct (Z.lt_ge_cases z 0) as [L|L].
        - rewrite (Neg z L). destruct (Z.eqb_spec z 1); [lia|]. destruct (Z.eqb_spec z 0); [lia|reflexivity].
        - rewrite format_int_nonneg by lia. apply One. lia. }
      rewrite V. destruct (Z.eqb_spec z 1) as [->|N1]; [left; split; [reflexivity|right; right; right; left; constructor]|].
      destruct (Z.eqb_spec z 0) as [->|N0]; [right; left; split; [reflexivity|right; right; left; constructor]|].
      right; right. split; [reflexivity|]. repeat split; try discriminate; try (intros (x & y & X); discriminate X); try (intros I; inversion I; subst; congruence); destruct H as [H|H]; inversion H.
    - assert (V : v_bool (DUint n k' z) = if z =? 1 then (true, None) else if z =? 0 then (false, None) else (false, Some ESyntax)).
      { transitivity (parse_bool (format_uint z)); [destruct n; reflexivity|]. apply One. apply P. }
      rewrite V. destruct (Z.eqb_spec z 1) as [->|N1]; [left; split; [reflexivity|right; right; right; left; constructor]|].
      destruct (Z.eqb_spec z 0) as [->|N0]; [right; left; split; [reflexivity|right; right; left; constructor]|].
      right; right. split; [reflexivity|]. repeat split; try discriminate; try (intros (x & y & X); discriminate X); try (intros I; inversion I; subst; congruence); destruct H as [H|H]; inversion H.
    - change (v_bool (DFloat p)) with (parse_bool p). destruct (W p) as [(-> & I)|[(-> & I)|(-> & I1 & I2)]].
      + left. split; [reflexivity|]. right; right; right; right. eauto.
      + right; left. split; [reflexivity|]. right; right; right. eauto.
      + right; right. split; [reflexivity|]. split; [intros (x & y & X); discriminate X|]. split; [discriminate|]. split; [|split; intros I; inversion I].
        intros s [H|H]; [inversion H|]. injection H as <-. auto.
    - destruct (beq_spec s (bs "on")) as [->|Non].
      + destruct n; [|left; split; [reflexivity|right; left; reflexivity]].
        right; right. split; [reflexivity|]. split; [intros (x & y & X); discriminate X|]. split; [discriminate|]. split; [|split; intros I; inversion I].
        intros s [H|H]; [|discriminate H]. inversion H; subst. split; cbn; intuition discriminate.
      + assert (V : v_bool (DStr n s) = parse_bool s). { destruct n; [reflexivity|]. cbn [v_bool v_string]. destruct (beq_spec s (bs "on")); [contradiction|reflexivity]. }
        rewrite V. destruct (W s) as [(-> & I)|[(-> & I)|(-> & I1 & I2)]].
        * left. split; [reflexivity|]. right; right; left. exists s. split; [constructor|exact I].
        * right; left. split; [reflexivity|]. right; left. exists s. split; [constructor|exact I].
        * right; right. split; [reflexivity|]. split; [intros (x & y & X); discriminate X|]. split; [congruence|]. split; [|split; intros I; inversion I].
          intros s' [H|H]; [|discriminate H]. inversion H; subst. auto.
    - destruct n.
      { right; right. split; [reflexivity|]. repeat split; try discriminate; try (intros (x & y & X); discriminate X); try (intros I; inversion I); destruct H as [H|H]; inversion H. }
      change (v_bool (DBytes false s)) with (parse_bool s). destruct (W s) as [(-> & I)|[(-> & I)|(-> & I1 & I2)]].
      + left. split; [reflexivity|]. right; right; left. exists s. split; [constructor|exact I].
      + right; left. split; [reflexivity|]. right; left. exists s. split; [constructor|exact I].
      + right; right. split; [reflexivity|]. split; [intros (x & y & X); discriminate X|]. split; [discriminate|]. split; [|split; intros I; inversion I].
        intros s' [H|H]; [|discriminate H]. inversion H; subst. auto.
    - right; right. split; [reflexivity|]. repeat split; try discriminate; try (intros (x & y & X); discriminate X); try (intros I; inversion I); destruct H as [H|H]; inversion H.
    - right; right. split; [reflexivity|]. repeat split; try discriminate; try (intros (x & y & X); discriminate X); try (intros I; inversion I); destruct H as [H|H]; inversion H. }
  assert (TF : T -> Fa -> False).
  { assert (YN : forall s, In s yes -> In s no -> False) by (intros s A B; cbn in A, B; intuition (subst; discriminate)).
    assert (It : forall s s', is_text d s -> is_text d s' -> s = s') by (intros s s' A B; destruct A; inversion B; reflexivity).
    assert (Ii : forall s s', is_integer d s -> is_integer d s' -> s = s') by (intros s s' A B; destruct A; inversion B; reflexivity).
    intros [(n & A)|[A|[(s & A & A')|[A|(p & A & A')]]]] [(m & B)|[(s' & B & B')|[B|(q & B & B')]]];
      try (subst d; discriminate); try (subst d; inversion B; fail); try (subst d; inversion A; fail).
    all: try (pose proof (It _ _ A B) as X0; subst; eauto; fail).
    all: try (specialize (Ii _ _ A B); discriminate Ii).
    all: try (destruct A; inversion B; fail).
    all: try (subst d; injection B as <-; eauto; fail).
    all: subst d; inversion B; subst; cbn in B'; intuition discriminate. }
  assert (TE : T -> E -> False).
  { intros [(n & A)|[A|[(s & A & A')|[A|(p & A & A')]]]] (B1 & B2 & B3 & B4 & B5); [apply B1; eauto|auto| |auto|].
    - destruct (B3 s (or_introl A)) as (X1 & X2); auto.
    - destruct (B3 p (or_intror A)) as (X1 & X2); auto. }
  assert (FE : Fa -> E -> False).
  { intros [(n & A)|[(s & A & A')|[A|(p & A & A')]]] (B1 & B2 & B3 & B4 & B5); [apply B1; eauto| |auto|].
    - destruct (B3 s (or_introl A)) as (X1 & X2); auto.
    - destruct (B3 p (or_intror A)) as (X1 & X2); auto. }
  split.
  - intros <-. destruct X as [(-> & X)|[(-> & X)|(-> & X)]]; auto.
  - intros [(-> & Y)|[(-> & Y)|(-> & Y)]]; destruct X as [(-> & X)|[(-> & X)|(-> & X)]]; try reflexivity; exfalso; eauto.
Qed.
(** MustSliceString and MustBytes give a value of exactly that type, and nil for all others;
    String is the text of ToStr, and empty for nil *)
Theorem C150_other_accessors d :
  (forall l, v_must_strings d = Some l <-> d = DStrs false l) /\ (forall s, v_must_bytes d = Some s <-> d = DBytes false s) /\
  (v_is_nil d = true <-> d = DNil) /\ (d <> DNil -> v_string d = to_str d) /\ v_string DNil = [] /\
  (forall z, possible d -> is_integer d z -> int_denotes (v_string d) z) /\
  (forall b n, d = DBool n b -> v_string d = if b then bs "true" else bs "false") /\
  ((exists s, d = DBytes true s) \/ (exists n l, d = DStrs n l) \/ d = DOther -> v_string d = bs "[]byte(nil)").
Proof.
  split; [intros l; destruct d as [|n b|n k z|n k z|p|n s|n s|n l'|]; cbn; try (destruct n); split; congruence|].
  split; [intros l; destruct d as [|n b|n k z|n k z|p|n s|n s|n l'|]; cbn; try (destruct n); split; congruence|].
  split; [destruct d; cbn; split; congruence|].
  split; [intros H; destruct d as [|n b|n k z|n k z|p|n s|n s|n l'|]; try congruence; try destruct n; reflexivity|].
  split; [reflexivity|]. split; [|split].
  - intros z P I. destruct I; [now apply int_text|]. constructor. now apply uint_text.
  - intros b n ->. destruct n, b; reflexivity.
  - intros [(s & ->)|[(n & l & ->)| -> ]]; [reflexivity|destruct n; reflexivity|reflexivity].
Qed.
Example C150_example :
  possible (DInt true S16 (-300)) /\ is_integer (DInt true S16 (-300)) (-300) /\ v_int S8 (DInt true S16 (-300)) = (-128, Some ERange) /\
  v_uint S64 (DInt false SWord (-1)) = (0, Some ESyntax) /\ v_uint SWord (DUint false S64 4294967296) = (4294967295, Some ERange) /\
  v_uint SWord (DUint false SWord 4294967296) = (4294967296, None) /\ v_int S32 (DUint false S64 7) = (7, None) /\
  v_bool (DStr false (bs "on")) = (true, None) /\ v_bool (DBytes false (bs "on")) = (false, Some ESyntax) /\ v_bool (DInt false S8 1) = (true, None) /\ v_bool (DInt false S8 2) = (false, Some ESyntax) /\
  (forall z, ~ is_integer DOther z) /\ (forall s, ~ is_text DOther s) /\ v_int SWord (DBytes false (bs "-12")) = (-12, None).
Proof.
  split; [cbn; lia|]. split; [constructor|]. split; [reflexivity|]. split; [reflexivity|]. split; [reflexivity|]. split; [reflexivity|]. split; [reflexivity|].
  split; [reflexivity|]. split; [reflexivity|]. split; [reflexivity|]. split; [reflexivity|]. split; [intros z H; inversion H|]. split; [intros s H; inversion H|]. reflexivity.
Qed.

(** ** C151: ToInt64 takes every integer type; a uint64 that is no int64 comes out 2^64 smaller *)
Theorem C151_to_int64_exact d r : possible d ->
  (ValueModel.to_int64 d = Some r <-> exists z, is_integer d z /\ least S64 <= r <= greatest S64 /\ (r = z \/ r = z - 18446744073709551616)) /\
  (ValueModel.to_int64 d = None <-> forall z, ~ is_integer d z).
Proof.
  intros P.
  assert (A : forall z, is_integer d z -> exists r, ValueModel.to_int64 d = Some r /\ least S64 <= r <= greatest S64 /\ (r = z \/ r = z - 18446744073709551616)).
  { intros z I. destruct I as [n k z|n k z]; cbn [ValueModel.to_int64 possible] in *.
    - exists z. split; [reflexivity|]. split; [|auto]. destruct k; cbn in P |- *; lia.
    - destruct (Z.ltb_spec z 9223372036854775808); eexists; (split; [reflexivity|]); (split; [destruct k; cbn in P |- *; lia|auto]). }
  assert (B : forall z, is_integer d z -> -9223372036854775808 <= z <= 18446744073709551615).
  { intros z I. destruct I as [n k z|n k z]; cbn [possible] in P; destruct k; cbn in P; lia. }
  assert (Ii : forall s s', is_integer d s -> is_integer d s' -> s = s') by (intros s s' X Y; destruct X; inversion Y; reflexivity).
  assert (C : (forall z, ~ is_integer d z) -> ValueModel.to_int64 d = None).
  { intros H. destruct d as [|n b|n k z|n k z|p|n s|n s|n l'|]; try reflexivity; exfalso; eapply H; constructor. }
  assert (D : (exists z, is_integer d z) \/ (forall z, ~ is_integer d z)).
  { destruct d as [|n b|n k z|n k z|p|n s|n s|n l'|]; try (right; intros ? K; inversion K; fail); left; eexists; constructor. }
  split; [split|split].
  - intros E. destruct D as [(z & I)|H]; [|rewrite (C H) in E; discriminate E]. destruct (A z I) as (r' & E' & R). exists z. rewrite E in E'. injection E' as ->. auto.
  - intros (z & I & R1 & R2). destruct (A z I) as (r' & E' & R3 & R4). rewrite E'. f_equal. pose proof (B z I). cbn in R1, R3. destruct R2, R4; lia.
  - intros E z I. destruct (A z I) as (r' & E' & _). congruence.
  - apply C.
Qed.
Example C151_example : possible (DUint false S64 18446744073709551615) /\ ValueModel.to_int64 (DUint false S64 18446744073709551615) = Some (-1) /\ ValueModel.to_int64 (DInt true S8 (-5)) = Some (-5) /\ ValueModel.to_int64 (DStr false (bs "5")) = None.
Proof. split; [cbn; lia|repeat split]. Qed.

Print Assumptions C150_signed_exact.
Print Assumptions C150_unsigned_exact.
Print Assumptions C150_text_exact.
Print Assumptions C150_no_number.
Print Assumptions C150_widening.
Print Assumptions C150_bool_exact.
Print Assumptions C150_other_accessors.
Print Assumptions C151_to_int64_exact.
