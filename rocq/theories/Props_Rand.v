(** Props_Rand: C41-C43. *)
From Coq Require Import List Ascii String Bool Arith ZArith Lia.
Import ListNotations.
From Verif Require Import GoStr GoNum RandModel.
Local Open Scope Z_scope.

(** a random source that delivers what is asked for *)
Definition delivers (rd : nat -> option bytes) : Prop := forall n, exists b, rd n = Some b /\ List.length b = n.

(** *** C43 *)
(** no alphabet given means digits and letters *)
Definition letters (alphabet : bytes) : bytes :=
  match alphabet with [] => bs "0123456789ABCDEFGHIJKLMNOPQRSTUVWXYZabcdefghijklmnopqrstuvwxyz" | _ => alphabet end.
Theorem C43_random_bytes_partial rd n alphabet :
  delivers rd -> 0 <= n -> (List.length alphabet mod 256 <> 0)%nat \/ alphabet = [] ->
  exists out, random_bytes rd n alphabet = ROk out /\ Z.of_nat (List.length out) = n /\
    Forall (fun c => In c (letters alphabet)) out.
Proof.
  intros Hd Hn Ha. unfold random_bytes. set (al := if is_nil alphabet then default_alphabets else alphabet).
  assert (Hm : (List.length al mod 256 <> 0)%nat).
  { unfold al. destruct alphabet as [|c l]; [vm_compute; discriminate|]. destruct Ha as [Ha|Ha]; [exact Ha|discriminate]. }
  assert (Hal : al = letters alphabet) by (unfold al; destruct alphabet; reflexivity).
  rewrite <- Hal. clear Ha Hal. destruct (Z.ltb_spec n 0); [lia|]. destruct (Hd (Z.to_nat n)) as (b & -> & Hb). rewrite Hb, Nat.eqb_refl. cbn [negb]. cbv zeta.
  destruct (Nat.eqb_spec (List.length al mod 256) 0) as [E|_]; [congruence|]. cbn [andb]. eexists. split; [reflexivity|].
  split; [rewrite map_length, Hb; lia|]. apply Forall_forall. intros c Hc. apply in_map_iff in Hc as (x & <- & _). apply nth_In.
  pose proof (Nat.mod_upper_bound (code x) (List.length al mod 256) Hm).
  assert (List.length al mod 256 <= List.length al)%nat by (apply Nat.mod_le; discriminate). lia.
Qed.
Theorem C43_random_bytes_refuted rd n alphabet :
  delivers rd -> 0 < n -> alphabet <> [] -> (List.length alphabet mod 256 = 0)%nat -> random_bytes rd n alphabet = RPanic.
Proof.
  intros Hd Hn Ha Hm. unfold random_bytes. destruct alphabet as [|a l]; [congruence|]. cbn [is_nil]. destruct (Z.ltb_spec n 0); [lia|].
  destruct (Hd (Z.to_nat n)) as (b & -> & Hb). rewrite Hb, Nat.eqb_refl. cbn [negb]. cbv zeta. rewrite Hm. cbn [Nat.eqb andb].
  destruct b as [|c b]; [cbn in Hb; lia|reflexivity].
Qed.
(** nothing is delivered when reading fails or comes up short *)
Theorem C43_no_partial_output rd n alphabet out :
  random_bytes rd n alphabet = ROk out -> exists b, rd (Z.to_nat n) = Some b /\ Z.of_nat (List.length b) = n /\ List.length out = List.length b.
Proof.
  unfold random_bytes. destruct (Z.ltb_spec n 0); [discriminate|]. destruct (rd (Z.to_nat n)) as [b|]; [|discriminate].
  destruct (Nat.eqb_spec (List.length b) (Z.to_nat n)) as [E|]; [|discriminate]. cbn [negb]. cbv zeta.
  destruct (_ && _)%bool; [discriminate|]. intros [= <-]. exists b. rewrite map_length. split; [reflexivity|]. split; [lia|reflexivity].
Qed.
Definition zeros (n : nat) : option bytes := Some (repeat (byte 77) n).
Example C43_example : delivers zeros /\ random_bytes zeros 3 (bs "abc") = ROk (bs "ccc") /\
  random_bytes zeros 3 (flat_map (fun _ => [byte 1; byte 2]) (seq 0 128)) = RPanic.
Proof.
  split; [intros n; eexists; split; [reflexivity|apply repeat_length]|]. split; vm_compute; reflexivity.
Qed.

(** *** C42 *)
Lemma big_parse_format n : big_parse (format_int n) = Some n.
Proof.
  assert (X : forall m, 0 <= m -> exists c s, format_uint m = c :: s /\ c <> "+"%char /\ c <> "-"%char /\ dval 0 (c :: s) = Some m).
  { intros m Hm. pose proof (format_uint_denotes m Hm) as D. pose proof (nat_denotes_head _ _ D) as (c & s & E & (d & Hd)).
    exists c, s. split; [exact E|]. rewrite E in D. apply nat_denotes_dval in D as (_ & D). split; [|split; [|exact D]]; intros ->; vm_compute in Hd; discriminate. }
  unfold format_int. destruct (Z.ltb_spec n 0) as [Hn|Hn].
  - destruct (X (- n) ltac:(lia)) as (c & s & -> & _ & _ & D). unfold big_parse.
    change (Ascii.eqb "-" "+") with false. change (Ascii.eqb "-" "-") with true. cbv iota zeta. rewrite D. cbn. f_equal. lia.
  - destruct (X n Hn) as (c & s & -> & H1 & H2 & D). unfold big_parse.
    destruct (Ascii.eqb_spec c "+"%char); [congruence|]. destruct (Ascii.eqb_spec c "-"%char); [congruence|]. exact D.
Qed.
Lemma num_loop_ends fuel : forall x y al, 2 <= y -> x < 2 ^ Z.of_nat fuel -> exists t, num_loop fuel x y al = Some t.
Proof.
  induction fuel as [|f IH]; intros x y al Hy Hx; cbn [num_loop]; destruct (Z.leb_spec x 0) as [|Hp]; try (eexists; reflexivity).
  - cbn in Hx. lia.
  - destruct (IH (x / y) y al Hy) as (t & ->); [|eexists; reflexivity].
    rewrite Nat2Z.inj_succ, Z.pow_succ_r in Hx by lia. apply Z.div_lt_upper_bound; nia.
Qed.
Lemma index_nth (al : bytes) i : NoDup al -> (i < List.length al)%nat -> index_byte (nth i al " "%char) al = Some i.
Proof.
  intros N. revert i. induction N as [|a l Ha N IH]; intros i Hi; [cbn in Hi; lia|]. destruct i as [|i]; cbn [nth index_byte].
  - rewrite Ascii.eqb_refl. reflexivity.
  - cbn in Hi. destruct (Ascii.eqb_spec a (nth i l " "%char)) as [E|_]; [exfalso; apply Ha; rewrite E; apply nth_In; lia|].
    rewrite IH by lia. reflexivity.
Qed.
Lemma num_loop_value fuel : forall x (al : bytes) t, 0 <= x -> (2 <= List.length al)%nat -> NoDup al ->
  num_loop fuel x (Z.of_nat (List.length al)) al = Some t ->
  fold_right (fun c z => z * Z.of_nat (List.length al) + index_z c al) 0 t = x /\ Forall (fun c => In c al) t /\
  (t <> [] -> last t " "%char <> hd " "%char al).
Proof.
  induction fuel as [|f IH]; intros x al t Hx Hl N; cbn [num_loop]; destruct (Z.leb_spec x 0) as [Hz|Hp].
  - intros [= <-]. split; [cbn; lia|]. split; [constructor|congruence].
  - discriminate.
  - intros [= <-]. split; [cbn; lia|]. split; [constructor|congruence].
  - set (y := Z.of_nat (List.length al)). destruct (num_loop f (x / y) y al) as [t'|] eqn:E; [|discriminate]. cbn [option_map]. intros [= <-].
    assert (Hy : 2 <= y) by (unfold y; lia). pose proof (Z.mod_pos_bound x y ltac:(lia)) as Hm.
    destruct (IH (x / y) al t' ltac:(apply Z.div_pos; lia) Hl N E) as (V & F & L). cbn [fold_right]. fold y in V |- *.
    assert (Hi : (Z.to_nat (x mod y) < List.length al)%nat) by (unfold y in *; lia).
    assert (Hix : index_z (nth (Z.to_nat (x mod y)) al " "%char) al = x mod y) by (unfold index_z; rewrite (index_nth al _ N Hi); lia).
    rewrite Hix, V. split; [pose proof (Z.div_mod x y ltac:(lia)); lia|].
    split; [constructor; [apply nth_In; exact Hi|exact F]|]. intros _. destruct t' as [|c t'].
    + cbn [last]. assert (Hq : x / y = 0) by (cbn in V; lia). intros Heq.
      assert (Hnz : x mod y <> 0) by (pose proof (Z.div_mod x y ltac:(lia)); lia).
      assert (H0 : nth (Z.to_nat (x mod y)) al " "%char = nth 0 al " "%char) by (rewrite Heq; destruct al; reflexivity).
      apply (proj1 (NoDup_nth al " "%char) N) in H0; lia.
    + change (last (nth (Z.to_nat (x mod y)) al " "%char :: c :: t') " "%char) with (last (c :: t') " "%char). apply L. discriminate.
Qed.
(** numbers come back, tokens are over the alphabet, and never end in the zero letter *)
Theorem C42_number_round_trip n alphabet fuel :
  0 <= n < 2 ^ Z.of_nat fuel -> (2 <= List.length alphabet)%nat -> NoDup alphabet ->
  exists t, number_encode fuel (format_int n) alphabet = ROk (Some t) /\ number_decode t alphabet = format_int n /\
    Forall (fun c => In c alphabet) t /\ (n = 0 -> t = []) /\ (t <> [] -> last t " "%char <> hd " "%char alphabet).
Proof.
  intros Hn Hl N. unfold number_encode. rewrite big_parse_format. cbv zeta.
  destruct (Z.eqb_spec (Z.of_nat (List.length alphabet)) 0); [lia|]. cbn [andb].
  destruct (num_loop_ends fuel n (Z.of_nat (List.length alphabet)) alphabet ltac:(lia) ltac:(lia)) as (t & E). exists t. rewrite E.
  destruct (num_loop_value fuel n alphabet t ltac:(lia) Hl N E) as (V & F & L). split; [reflexivity|].
  split; [unfold number_decode; rewrite V; reflexivity|]. split; [exact F|]. split; [|exact L].
  intros ->. destruct fuel; cbn in E; congruence.
Qed.
(** with a one-letter alphabet encoding never ends, with none it panics; equal letters are not told apart *)
Theorem C42_outside_domain :
  (forall fuel c, number_encode fuel (bs "1") [c] = ROk None) /\
  (forall fuel, number_encode fuel (bs "1") [] = RPanic) /\
  (exists t, number_encode 9 (bs "1") (bs "aa") = ROk (Some t) /\ number_decode t (bs "aa") = bs "0") /\
  number_encode 9 (bs "12x") (bs "ab") = ROk (Some []) /\ number_encode 9 (bs "-5") (bs "ab") = ROk (Some []).
Proof.
  split; [|split; [reflexivity|split; [eexists; split; vm_compute; reflexivity|split; vm_compute; reflexivity]]].
  intros fuel c. change (number_encode fuel (bs "1") [c]) with (@ROk (option bytes) (num_loop fuel 1 1 [c])). f_equal.
  induction fuel as [|f IH]; [reflexivity|]. cbn [num_loop]. change (1 <=? 0) with false. cbv iota. change (1 / 1) with 1. rewrite IH. reflexivity.
Qed.
Example C42_example : NoDup default_alphabets /\ number_encode 70 (bs "1577836800123456789") default_alphabets = ROk (Some (bs "ricWggZVYs1")) /\
  number_decode (bs "ricWggZVYs1") default_alphabets = bs "1577836800123456789".
Proof.
  split; [|split; vm_compute; reflexivity].
  assert (X : forall l : bytes, (fix nd (l : bytes) := match l with [] => true | c :: r => negb (existsb (Ascii.eqb c) r) && nd r end) l = true -> NoDup l).
  { induction l as [|c r IH]; [constructor|]. intros H. apply andb_true_iff in H as (H1 & H2). constructor; [|apply IH; exact H2].
    intros Hi. apply negb_true_iff in H1. assert (E : existsb (Ascii.eqb c) r = true) by (apply existsb_exists; exists c; split; [exact Hi|apply Ascii.eqb_refl]). congruence. }
  apply X. vm_compute. reflexivity.
Qed.

(** *** C41 *)
Lemma num_loop_length fuel : forall x y al t, 2 <= y -> num_loop fuel x y al = Some t ->
  x < y ^ Z.of_nat (List.length t) \/ x <= 0 /\ t = [] .
Proof.
  induction fuel as [|f IH]; intros x y al t Hy; cbn [num_loop]; destruct (Z.leb_spec x 0) as [Hz|Hp]; try discriminate; try (intros [= <-]; auto).
  destruct (num_loop f (x / y) y al) as [t'|] eqn:E; [|discriminate]. cbn [option_map]. intros [= <-]. left.
  cbn [List.length]. rewrite Nat2Z.inj_succ, Z.pow_succ_r by lia.
  assert (Hq : x / y < y ^ Z.of_nat (List.length t')).
  { destruct (IH _ _ _ _ Hy E) as [H|(H & ->)]; [exact H|]. cbn. lia. }
  pose proof (Z.div_mod x y ltac:(lia)). pose proof (Z.mod_pos_bound x y ltac:(lia)). nia.
Qed.
Lemma num_loop_length_le fuel : forall x y al t, 2 <= y -> num_loop fuel x y al = Some t -> t <> [] ->
  y ^ (Z.of_nat (List.length t) - 1) <= x.
Proof.
  induction fuel as [|f IH]; intros x y al t Hy; cbn [num_loop]; destruct (Z.leb_spec x 0) as [Hz|Hp]; try discriminate; try (intros [= <-]; congruence).
  destruct (num_loop f (x / y) y al) as [t'|] eqn:E; [|discriminate]. cbn [option_map]. intros [= <-] _. cbn [List.length].
  destruct t' as [|c t'].
  - cbn. lia.
  - specialize (IH _ _ _ _ Hy E ltac:(discriminate)). cbn [List.length] in *.
    replace (Z.of_nat (S (S (List.length t'))) - 1) with (Z.succ (Z.of_nat (S (List.length t')) - 1)) by lia.
    rewrite Z.pow_succ_r by lia. pose proof (Z.div_mod x y ltac:(lia)). pose proof (Z.mod_pos_bound x y ltac:(lia)). nia.
Qed.
Lemma session_alphabets_nodup : NoDup session_alphabets.
Proof.
  assert (X : forall l : bytes, (fix nd (l : bytes) := match l with [] => true | c :: r => negb (existsb (Ascii.eqb c) r) && nd r end) l = true -> NoDup l).
  { induction l as [|c r IH]; [constructor|]. intros H. apply andb_true_iff in H as (H1 & H2). constructor; [|apply IH; exact H2].
    intros Hi. apply negb_true_iff in H1. assert (E : existsb (Ascii.eqb c) r = true) by (apply existsb_exists; exists c; split; [exact Hi|apply Ascii.eqb_refl]). congruence. }
  apply X. vm_compute. reflexivity.
Qed.
Lemma ROk_Some_inj (a : option bytes) b : @ROk (option bytes) a = ROk (Some b) -> a = Some b.
Proof. congruence. Qed.
Lemma sid_prefix now : - 2 ^ 63 <= now < 2 ^ 63 ->
  exists p, number_encode 64 (format_int now) session_alphabets = ROk (Some p) /\ (List.length p <= 13)%nat /\ Forall (fun c => In c session_alphabets) p /\
    (0 <= now -> number_decode p session_alphabets = format_int now) /\
    (forall k, 0 <= k -> 36 ^ k <= now < 36 ^ (k + 1) -> Z.of_nat (List.length p) = k + 1).
Proof.
  intros Hn. destruct (Z.lt_ge_cases now 0) as [Hneg|Hpos].
  - exists []. unfold number_encode. rewrite big_parse_format. cbv zeta. change (Z.of_nat (List.length session_alphabets)) with 36. cbn [Z.eqb andb].
    split; [cbn [num_loop]; destruct (Z.leb_spec now 0); [reflexivity|lia]|]. split; [cbn; lia|]. split; [constructor|]. split; [lia|].
    intros k Hk Hb. assert (0 < 36 ^ k) by (apply Z.pow_pos_nonneg; lia). lia.
  - destruct (C42_number_round_trip now session_alphabets 64 ltac:(change (Z.of_nat 64) with 64; lia) ltac:(cbn; lia) session_alphabets_nodup) as (p & E & D & F & _ & _).
    exists p. split; [exact E|]. unfold number_encode in E. rewrite big_parse_format in E. cbv zeta in E. change (Z.of_nat (List.length session_alphabets)) with 36 in E.
    change (36 =? 0) with false in E. rewrite andb_false_l in E. apply ROk_Some_inj in E.
    assert (Hup := num_loop_length 64 now 36 session_alphabets p ltac:(lia) E).
    assert (Hlo := num_loop_length_le 64 now 36 session_alphabets p ltac:(lia) E).
    split; [|split; [exact F|split; [intros _; exact D|]]].
    + destruct (Nat.le_gt_cases (List.length p) 13) as [|Hc]; [assumption|exfalso].
      assert (Hne : p <> []) by (intros ->; cbn in Hc; lia). specialize (Hlo Hne).
      assert (36 ^ 13 <= 36 ^ (Z.of_nat (List.length p) - 1)) by (apply Z.pow_le_mono_r; lia).
      assert (2 ^ 63 < 36 ^ 13) by (vm_compute; reflexivity). lia.
    + intros k Hk (Hb1 & Hb2). assert (0 < 36 ^ k) by (apply Z.pow_pos_nonneg; lia).
      destruct Hup as [Hup|(Hup & ->)]; [|lia].
      assert (Hne : p <> []) by (intros ->; cbn in Hup; lia). specialize (Hlo Hne).
      destruct (Z.lt_trichotomy (Z.of_nat (List.length p)) (k + 1)) as [Hc|[Hc|Hc]]; [exfalso|exact Hc|exfalso].
      * assert (36 ^ Z.of_nat (List.length p) <= 36 ^ k) by (apply Z.pow_le_mono_r; lia). lia.
      * assert (36 ^ (k + 1) <= 36 ^ (Z.of_nat (List.length p) - 1)) by (apply Z.pow_le_mono_r; lia). lia.
Qed.
Lemma create_sid_parts rd now : delivers rd -> - 2 ^ 63 <= now < 2 ^ 63 ->
  exists p b, create_sid rd now = ROk (p ++ b) /\ number_encode 64 (format_int now) session_alphabets = ROk (Some p) /\
    List.length (p ++ b) = 20%nat /\ Forall (fun c => In c session_alphabets) (p ++ b).
Proof.
  intros Hd Hn. destruct (sid_prefix now Hn) as (p & E & L & F & _). unfold create_sid. rewrite E.
  destruct (C43_random_bytes_partial rd (20 - Z.of_nat (List.length p)) session_alphabets Hd ltac:(lia)) as (b & -> & Lb & Fb).
  { left. vm_compute. discriminate. }
  exists p, b. split; [reflexivity|]. split; [reflexivity|]. split; [rewrite app_length; lia|]. apply Forall_app. split; [exact F|exact Fb].
Qed.
(** without enough random bytes there is no id at all: CreateSid panics, it never gives a shorter one *)
Theorem C41_sid_or_panic rd now : - 2 ^ 63 <= now < 2 ^ 63 ->
  exists k, (7 <= k <= 20)%nat /\
    ((exists got, rd k = Some got /\ List.length got = k) <-> exists sid, create_sid rd now = ROk sid) /\
    (forall sid, create_sid rd now = ROk sid -> List.length sid = 20%nat) /\
    (~ (exists got, rd k = Some got /\ List.length got = k) -> create_sid rd now = RPanic).
Proof.
  intros Hn. destruct (sid_prefix now Hn) as (p & E & L & F & _). exists (20 - List.length p)%nat. split; [lia|].
  unfold create_sid. rewrite E. unfold random_bytes. change (is_nil session_alphabets) with false. cbv iota.
  destruct (Z.ltb_spec (20 - Z.of_nat (List.length p)) 0) as [|_]; [lia|].
  replace (Z.to_nat (20 - Z.of_nat (List.length p))) with (20 - List.length p)%nat by lia.
  destruct (rd (20 - List.length p)%nat) as [got|].
  - destruct (Nat.eqb_spec (List.length got) (20 - List.length p)) as [Hl|Hl]; cbn [negb].
    + change (List.length session_alphabets mod 256)%nat with 36%nat. cbn [Nat.eqb andb]. split; [|split].
      * split; intros _; eauto.
      * intros sid [= <-]. rewrite app_length, map_length. lia.
      * intros H. destruct H. eauto.
    + split; [split; [intros (g & [= <-] & H); contradiction|intros (sid & H); discriminate H]|]. split; [discriminate|reflexivity].
  - split; [split; [intros (g & H & _); discriminate H|intros (sid & H); discriminate H]|]. split; [discriminate|reflexivity].
Qed.
Example C41_sid_or_panic_example : create_sid (fun n => Some (repeat " "%char (n - 1))) 1577836800123456789 = RPanic.
Proof. vm_compute. reflexivity. Qed.
(** session ids have 20 characters, all of them digits or capital letters *)
Theorem C41_sid_well_formed rd now : delivers rd -> - 2 ^ 63 <= now < 2 ^ 63 ->
  exists sid, create_sid rd now = ROk sid /\ List.length sid = 20%nat /\
    Forall (fun c => In c (bs "0123456789ABCDEFGHIJKLMNOPQRSTUVWXYZ")) sid.
Proof. intros Hd Hn. destruct (create_sid_parts rd now Hd Hn) as (p & b & E & _ & L & F). exists (p ++ b). auto. Qed.
(** ids made at different nanoseconds with as many base-36 digits (all times from 1975 to 2120 have 12) differ, whatever the random bytes *)
Theorem C41_sids_differ rd1 rd2 t1 t2 k sid1 sid2 :
  delivers rd1 -> delivers rd2 -> 0 <= k -> 36 ^ k <= t1 < 36 ^ (k + 1) -> 36 ^ k <= t2 < 36 ^ (k + 1) -> t1 < 2 ^ 63 -> t2 < 2 ^ 63 ->
  create_sid rd1 t1 = ROk sid1 -> create_sid rd2 t2 = ROk sid2 -> t1 <> t2 -> sid1 <> sid2.
Proof.
  intros D1 D2 Hk B1 B2 M1 M2 E1 E2 Hne Heq. assert (0 < 36 ^ k) by (apply Z.pow_pos_nonneg; lia).
  destruct (create_sid_parts rd1 t1 D1 ltac:(lia)) as (p1 & b1 & C1 & N1 & _). destruct (create_sid_parts rd2 t2 D2 ltac:(lia)) as (p2 & b2 & C2 & N2 & _).
  destruct (sid_prefix t1 ltac:(lia)) as (q1 & Q1 & _ & _ & V1 & L1). destruct (sid_prefix t2 ltac:(lia)) as (q2 & Q2 & _ & _ & V2 & L2).
  assert (q1 = p1) as -> by congruence. assert (q2 = p2) as -> by congruence.
  specialize (L1 k Hk B1). specialize (L2 k Hk B2). specialize (V1 ltac:(lia)). specialize (V2 ltac:(lia)).
  assert (Happ : p1 ++ b1 = p2 ++ b2) by congruence.
  assert (Hp : p1 = p2).
  { apply (f_equal (firstn (List.length p1))) in Happ. rewrite firstn_app_len in Happ. replace (List.length p1) with (List.length p2) in Happ by lia.
    rewrite firstn_app_len in Happ. exact Happ. }
  subst p2. apply Hne. assert (Hf : format_int t1 = format_int t2) by congruence.
  pose proof (big_parse_format t1) as P1. rewrite Hf, big_parse_format in P1. congruence.
Qed.
Example C41_example : create_sid zeros 1577836800123456789 = ROk (bs "9JMKYBRG0KZB55555555") /\ 36 ^ 11 <= 1577836800123456789 < 36 ^ (11 + 1).
Proof. split; [vm_compute; reflexivity|vm_compute; intuition discriminate]. Qed.

(** *** C42: what NumberDecode makes of any token: least significant letter first, a letter
    being its first place in the alphabet, a foreign one minus one *)
Inductive digit_of (alphabet : bytes) (c : ascii) : Z -> Prop :=
| do_letter a b : alphabet = a ++ c :: b -> ~ In c a -> digit_of alphabet c (Z.of_nat (List.length a))
| do_foreign : ~ In c alphabet -> digit_of alphabet c (-1).
Inductive stands_for (alphabet : bytes) : bytes -> Z -> Prop :=
| sf_nil : stands_for alphabet [] 0
| sf_cons c t d n : digit_of alphabet c d -> stands_for alphabet t n -> stands_for alphabet (c :: t) (d + Z.of_nat (List.length alphabet) * n).
Lemma index_z_digit c alphabet : digit_of alphabet c (index_z c alphabet).
Proof.
  unfold index_z. destruct (index_byte c alphabet) as [i|] eqn:E.
  - revert i E. induction alphabet as [|a l IH]; intros i; cbn [index_byte]; [discriminate|].
    destruct (Ascii.eqb_spec a c) as [->|N]; [intros [= <-]; apply (do_letter _ c [] l); [reflexivity|intros []]|].
    destruct (index_byte c l) as [j|]; [|discriminate]. cbn [option_map]. intros [= <-]. specialize (IH j eq_refl). inversion IH as [x y Ex Nx Z1|Nx Z1]; [|exfalso; pose proof (Zle_0_nat j); lia].
    replace (Z.of_nat (S j)) with (Z.of_nat (List.length (a :: x))) by (cbn [List.length]; lia).
    apply (do_letter _ c (a :: x) y); [rewrite Ex; reflexivity|]. intros [I|I]; [congruence|exact (Nx I)].
  - constructor. revert E. induction alphabet as [|a l IH]; cbn [index_byte]; [intros _ []|].
    destruct (Ascii.eqb_spec a c) as [->|N]; [discriminate|]. destruct (index_byte c l); [discriminate|]. intros _ [I|I]; [congruence|exact (IH eq_refl I)].
Qed.
Lemma digit_fun c alphabet d e : digit_of alphabet c d -> digit_of alphabet c e -> d = e.
Proof.
  intros [a b E N|N] [a' b' E' N'|N']; try reflexivity; try (exfalso; apply N; rewrite ?E'; apply in_or_app; right; left; reflexivity); try (exfalso; apply N'; rewrite ?E; apply in_or_app; right; left; reflexivity).
  f_equal. f_equal. rewrite E in E'. clear E. revert a' N' E'. induction a as [|x a IH]; intros [|x' a'] N' E'; cbn [List.app] in E'; try reflexivity.
  - injection E' as -> _. exfalso. apply N'. left. reflexivity.
  - injection E' as -> _. exfalso. apply N. left. reflexivity.
  - injection E' as -> E'. f_equal. apply IH; [intros I; apply N; right; exact I|intros I; apply N'; right; exact I|exact E'].
Qed.
Theorem C42_decode_exact token alphabet n : stands_for alphabet token n <-> number_decode token alphabet = format_int n.
Proof.
  assert (A : stands_for alphabet token (fold_right (fun c x => x * Z.of_nat (List.length alphabet) + index_z c alphabet) 0 token)).
  { induction token as [|c t IH]; cbn [fold_right]; [constructor|]. rewrite Z.add_comm, Z.mul_comm. constructor; [apply index_z_digit|exact IH]. }
  assert (U : forall m, stands_for alphabet token m -> m = fold_right (fun c x => x * Z.of_nat (List.length alphabet) + index_z c alphabet) 0 token).
  { clear. induction token as [|c t IH]; intros m H; inversion H as [|c' t' d k D R]; subst; cbn [fold_right]; [reflexivity|].
    rewrite <- (IH _ R), (digit_fun _ _ _ _ D (index_z_digit c alphabet)). lia. }
  unfold number_decode. split; [intros H; rewrite <- (U n H); reflexivity|]. intros H.
  apply (f_equal big_parse) in H. rewrite !big_parse_format in H. injection H as <-. exact A.
Qed.
Example C42_decode_example : stands_for (bs "ab") (bs "xb") 1 /\ number_decode (bs "xb") (bs "ab") = bs "1".
Proof.
  split; [|vm_compute; reflexivity]. apply C42_decode_exact. vm_compute. reflexivity.
Qed.
(** *** C43: the alphabets that can be asked for *)
Theorem C43_alphabets :
  hex_alphabets = bs "0123456789abcdef" /\ lowercase_alphabets = bs "0123456789abcdefghijklmnopqrstuvwxyz" /\
  default_alphabets = bs "0123456789ABCDEFGHIJKLMNOPQRSTUVWXYZabcdefghijklmnopqrstuvwxyz" /\
  NoDup hex_alphabets /\ NoDup lowercase_alphabets /\ NoDup default_alphabets.
Proof.
  assert (N : forall l : bytes, (forallb (fun p => negb (existsb (Ascii.eqb (fst p)) (snd p))) (map (fun i => (nth i l " "%char, skipn (S i) l)) (seq 0 (List.length l))) = true) -> NoDup l).
  { induction l as [|a l IH]; intros H; [constructor|]. cbn [List.length seq map forallb] in H. apply andb_true_iff in H as (H1 & H2). constructor.
    - cbn [fst snd nth skipn] in H1. intros I. apply negb_true_iff in H1. assert (existsb (Ascii.eqb a) l = true); [|congruence]. apply existsb_exists. exists a. split; [exact I|apply Ascii.eqb_refl].
    - apply IH. rewrite <- seq_shift, map_map in H2. exact H2. }
  split; [reflexivity|]. split; [reflexivity|]. split; [reflexivity|]. split; [apply N; vm_compute; reflexivity|]. split; apply N; vm_compute; reflexivity.
Qed.

Print Assumptions C43_random_bytes_partial.
Print Assumptions C43_random_bytes_refuted.
Print Assumptions C43_no_partial_output.
Print Assumptions C42_number_round_trip.
Print Assumptions C42_outside_domain.
Print Assumptions C41_sid_well_formed.
Print Assumptions C41_sids_differ.
Print Assumptions C42_decode_exact.
Print Assumptions C43_alphabets.

(** *** C42: numbers written in any way *)
Lemma big_parse_denotes s n : big_parse s = Some n <-> int_denotes s n.
Proof.
  unfold big_parse. split.
  - destruct s as [|c s']; [discriminate|]. destruct (Ascii.eqb_spec c "+"%char) as [->|Hp].
    + intros H. apply id_plus. apply nat_denotes_dval. destruct s'; [discriminate|]. split; [discriminate|exact H].
    + destruct (Ascii.eqb_spec c "-"%char) as [->|Hm].
      * intros H. destruct s' as [|x s']; [discriminate|]. destruct (dval 0 (x :: s')) as [m|] eqn:E; [|discriminate].
        injection H as <-. apply id_minus. apply nat_denotes_dval. split; [discriminate|exact E].
      * intros H. apply id_plain. apply nat_denotes_dval. split; [discriminate|exact H].
  - intros H. inversion H as [s0 m D|s0 m D|s0 m D]; subst; apply nat_denotes_dval in D as (Hne & D).
    + destruct s as [|c s']; [congruence|]. destruct (Ascii.eqb_spec c "+"%char) as [->|]; [cbn in D; discriminate|].
      destruct (Ascii.eqb_spec c "-"%char) as [->|]; [cbn in D; discriminate|]. exact D.
    + rewrite Ascii.eqb_refl. destruct s0; [congruence|]. exact D.
    + change (Ascii.eqb "-" "+") with false. rewrite Ascii.eqb_refl. destruct s0; [congruence|]. rewrite D. reflexivity.
Qed.
(** every way of writing a number (leading zeros, a sign) encodes as the number does, a number
    which is not positive as nothing, and any other text as nothing *)
Theorem C42_any_text fuel s alphabet :
  (forall n, int_denotes s n -> number_encode fuel s alphabet = number_encode fuel (format_int n) alphabet) /\
  (forall n, int_denotes s n -> n <= 0 -> number_encode fuel s alphabet = ROk (Some [])) /\
  ((forall n, ~ int_denotes s n) -> number_encode fuel s alphabet = ROk (Some [])).
Proof.
  unfold number_encode. split; [|split].
  - intros n H. apply big_parse_denotes in H. rewrite H, big_parse_format. reflexivity.
  - intros n H Hn. apply big_parse_denotes in H. rewrite H. cbv zeta.
    destruct (Z.ltb_spec 0 n) as [|_]; [lia|]. rewrite andb_false_r. f_equal.
    destruct fuel; cbn [num_loop]; (destruct (Z.leb_spec n 0); [reflexivity|lia]).
  - intros H. destruct (big_parse s) as [n|] eqn:E; [|reflexivity]. apply big_parse_denotes in E. destruct (H n E).
Qed.
Example C42_any_text_example :
  int_denotes (bs "+0012") 12 /\ number_encode 9 (bs "+0012") (bs "0123456789") = ROk (Some (bs "21")) /\
  number_encode 9 (bs "1_2") (bs "0123456789") = ROk (Some []).
Proof. split; [apply big_parse_denotes; reflexivity|]. split; vm_compute; reflexivity. Qed.
Print Assumptions C42_any_text.
Print Assumptions C41_sid_or_panic.
