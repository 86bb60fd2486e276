(** Props_Secure: C35-C40. [hmac] is any function that never returns the empty
    string (HMAC-SHA1 returns 20 bytes). *)
From Coq Require Import List Ascii String Bool Arith ZArith Lia.
Import ListNotations.
From Verif Require Import GoStr GoNum GoEnc ConvModel SecureModel SecureFacts.
Local Open Scope Z_scope.

(** a keyed function for the examples: key length, message length, both texts *)
Definition toy_hmac (k m : bytes) : bytes := byte 1 :: k ++ [bar] ++ m.
Definition t2020 : Z := 1577836800123456789.                 (* 2020-01-01T00:00:00.123456789Z *)

(** *** C35 *)
Theorem C35_secure_round_trip hmac raw key t :
  (forall k m, hmac k m <> []) -> raw <> [] -> key <> [] -> 0 < t < 2 ^ 63 ->
  exists v, encode_secure hmac raw key t = Some v /\ decode_secure hmac v key = Some (raw, t) /\ get_raw v = raw /\
    Forall (fun c => graphic c = true /\ c <> ";"%char /\ c <> ","%char /\ c <> """"%char /\ c <> "\"%char) v.
Proof.
  intros Hh Hr Hk Ht. destruct (encode_some hmac raw key t Hr Hk) as (v & E & B). exists v. split; [exact E|].
  split; [eapply decode_encode; eassumption|]. split.
  - apply encode_eq in E as (_ & _ & ->). unfold get_raw. rewrite b64_round.
    change (query_escape raw ++ [comma] ++ format_int t ++ [comma] ++ hex_encode (hmac key (raw ++ format_int t)))
      with (query_escape raw ++ comma :: format_int t ++ comma :: hex_encode (hmac key (raw ++ format_int t))).
    rewrite splitn3_app; [rewrite query_round; reflexivity|apply query_escape_free; reflexivity|apply format_pos_comma; lia].
  - apply Forall_forall. intros c Hc. rewrite forallb_forall in B. specialize (B c Hc). repeat split.
    2-5: intros ->; vm_compute in B; discriminate.
    unfold b64_byte, b64_val in B. unfold graphic. rewrite andb_true_iff, !Nat.leb_le.
    destruct (Nat.leb 65 (code c) && Nat.leb (code c) 90)%bool eqn:E1; [apply andb_true_iff in E1 as (A1 & A2); apply Nat.leb_le in A1, A2; lia|].
    destruct (Nat.leb 97 (code c) && Nat.leb (code c) 122)%bool eqn:E2; [apply andb_true_iff in E2 as (A1 & A2); apply Nat.leb_le in A1, A2; lia|].
    destruct (Nat.leb 48 (code c) && Nat.leb (code c) 57)%bool eqn:E3; [apply andb_true_iff in E3 as (A1 & A2); apply Nat.leb_le in A1, A2; lia|].
    destruct (Nat.eqb_spec (code c) 45); [lia|]. destruct (Nat.eqb_spec (code c) 95); [lia|].
    apply Ascii.eqb_eq in B. subst c. vm_compute. lia.
Qed.
Theorem C35_empty_refused hmac raw key t : encode_secure hmac raw key t = None <-> raw = [] \/ key = [].
Proof.
  unfold encode_secure. destruct raw, key; cbn [is_nil orb]; split; intros H; try discriminate; try (destruct H; discriminate); auto.
Qed.
Example C35_example : (forall k m, toy_hmac k m <> []) /\
  exists v, encode_secure toy_hmac (bs "a b,c|%") (bs "key") t2020 = Some v /\ decode_secure toy_hmac v (bs "key") = Some (bs "a b,c|%", t2020) /\
    decode_secure toy_hmac v (bs "other") = None.
Proof. split; [discriminate|]. eexists. split; [reflexivity|]. split; vm_compute; reflexivity. Qed.

(** *** C36 *)
(** an accepted string carries, after decoding, the value, a time text and the hex
    of the MAC of exactly these two; the time is the number the text stands for,
    or the largest int64 when that number is too large *)
Theorem C36_accepted_is_signed hmac s key raw t :
  decode_secure hmac s key = Some (raw, t) ->
  exists a T h, fst (b64_decode s) = a ++ "," %char :: T ++ "," %char :: h /\
    query_unescape (trim_space a) = Some raw /\
    trim_space h = hex_encode (hmac key (raw ++ trim_space T)) /\
    0 < t /\ ((int_denotes (trim_space T) t /\ t < 2 ^ 63) \/ (t = 2 ^ 63 - 1 /\ too_large (trim_space T))).
Proof.
  intros H. destruct (decode_inv _ _ _ _ _ H) as (a & T & h & E & _ & _ & R). exists a, T, h. split; [exact E|exact R].
Qed.
(** a string signed under one key is accepted under another only if the MACs agree *)
Theorem C36_other_key_refused hmac raw key t v key' raw' t' :
  0 < t -> encode_secure hmac raw key t = Some v -> decode_secure hmac v key' = Some (raw', t') ->
  raw' = raw /\ hmac key' (raw ++ format_int t) = hmac key (raw ++ format_int t).
Proof.
  intros Ht E D. apply encode_eq in E as (Hr & Hk & ->). destruct (decode_inv _ _ _ _ _ D) as (a & T & h & Eb & Na & NT & Eu & Eh & _).
  rewrite b64_round in Eb. cbn [fst] in Eb.
  change (query_escape raw ++ [comma] ++ format_int t ++ [comma] ++ hex_encode (hmac key (raw ++ format_int t)))
    with (query_escape raw ++ comma :: format_int t ++ comma :: hex_encode (hmac key (raw ++ format_int t))) in Eb.
  assert (X : splitn_byte comma 3 (query_escape raw ++ comma :: format_int t ++ comma :: hex_encode (hmac key (raw ++ format_int t))) = [a; T; h])
    by (rewrite Eb; apply splitn3_app; assumption).
  rewrite splitn3_app in X; [|apply query_escape_free; reflexivity|apply format_pos_comma; lia]. injection X as <- <- <-.
  rewrite trim_space_id in Eu by apply query_escape_graphic. rewrite query_round in Eu. injection Eu as ->. split; [reflexivity|].
  rewrite !trim_space_id in Eh; [|apply digits_graphic, format_pos_digits; lia|apply hex_encode_graphic].
  apply hex_encode_inj in Eh. symmetry. exact Eh.
Qed.
Example C36_example : exists v, encode_secure toy_hmac (bs "sid,") (bs "key") t2020 = Some v /\
  decode_secure toy_hmac (v ++ bs "garbage") (bs "key") = Some (bs "sid,", t2020) /\
  decode_secure toy_hmac (byte 10 :: v) (bs "key") = Some (bs "sid,", t2020).
Proof. eexists. split; [reflexivity|]. split; vm_compute; reflexivity. Qed.

(** *** C37, C38: moving the last digit of the value into the time *)
Definition shift_digit (s : bytes) : bytes :=
  match splitn_byte comma 3 (fst (b64_decode s)) with
  | [v; t; h] => match rev v with d :: rv => b64_encode (rev rv ++ [comma] ++ (d :: t) ++ [comma] ++ h) | [] => [] end
  | _ => []
  end.
Lemma shift_digit_encode hmac raw d key t v n : is_digit d -> 0 < t ->
  encode_secure hmac (raw ++ [d]) key t = Some v -> raw <> [] -> (forall k m, hmac k m <> []) -> dval 0 (d :: format_int t) = Some n -> 0 < n ->
  decode_secure hmac (shift_digit v) key = Some (raw, Z.min n (2 ^ 63 - 1)).
Proof.
  intros Hd Ht E Hr Hh Hn Hp. apply encode_eq in E as (_ & _ & ->). unfold shift_digit. rewrite b64_round. cbn [fst].
  set (H := hex_encode (hmac key ((raw ++ [d]) ++ format_int t))).
  change (query_escape (raw ++ [d]) ++ [comma] ++ format_int t ++ [comma] ++ H) with (query_escape (raw ++ [d]) ++ comma :: format_int t ++ comma :: H).
  rewrite splitn3_app; [|apply query_escape_free; reflexivity|apply format_pos_comma; lia].
  assert (Ed : query_escape (raw ++ [d]) = query_escape raw ++ [d]).
  { unfold query_escape. rewrite flat_map_app. f_equal. cbn [flat_map]. rewrite app_nil_r. unfold escape_byte.
    destruct Hd as (x & Hx). unfold digit_val in Hx. destruct (Nat.leb 48 (code d) && Nat.leb (code d) 57)%bool eqn:Ec; [|discriminate].
    assert (U : unreserved d = true) by (unfold unreserved; rewrite Ec, !orb_true_r; reflexivity).
    destruct (Nat.eqb_spec (code d) 32) as [E32|_]; [rewrite E32 in Ec; discriminate|]. rewrite U. reflexivity. }
  rewrite Ed, rev_unit, rev_involutive.
  assert (Fd : Forall is_digit (d :: format_int t)) by (constructor; [exact Hd|apply format_pos_digits; lia]).
  assert (Hm : fst (parse_int 64 (d :: format_int t)) = Z.min n (2 ^ 63 - 1)) by (apply parse_digits; [exact Fd|discriminate|exact Hn]).
  unfold H. rewrite <- app_assoc. cbn [app]. rewrite <- Hm.
  apply (decode_text hmac raw (d :: format_int t) key Hr Fd ltac:(discriminate)); [rewrite Hm; lia|apply Hh].
Qed.
Lemma dval_cons_zero d x s n : digit_val d = Some x -> dval 0 s = Some n -> dval 0 (d :: s) = Some (x * 10 ^ Z.of_nat (List.length s) + n).
Proof.
  intros Hd Hs. cbn [dval]. rewrite Hd, Z.mul_0_l, Z.add_0_l.
  assert (X : forall s a n, dval 0 s = Some n -> dval a s = Some (a * 10 ^ Z.of_nat (List.length s) + n)).
  { clear. induction s as [|c s IH] using rev_ind; intros a n.
    - cbn. intros [= <-]. f_equal. lia.
    - rewrite !dval_app. destruct (dval 0 s) as [m|] eqn:E; [|discriminate]. rewrite (IH a m eq_refl). cbn [dval].
      destruct (digit_val c) as [z|]; [|discriminate]. intros [= <-]. f_equal. rewrite app_length. cbn [List.length].
      rewrite Nat.add_1_r, Nat2Z.inj_succ, Z.pow_succ_r by lia. lia. }
  apply X. exact Hs.
Qed.
Lemma dval_format t : 0 <= t -> dval 0 (format_int t) = Some t.
Proof. intros H. rewrite format_int_nonneg by exact H. pose proof (format_uint_denotes t H) as D. apply nat_denotes_dval in D. apply D. Qed.
(** nobody needs the key for it: the attack is one function of the cookie alone.
    A value that ends in a non-zero digit is turned into a shorter value with a later time *)
Theorem C37_signature_covers_pair_refuted :
  exists attack : bytes -> bytes, forall hmac raw d x key t v,
    (forall k m, hmac k m <> []) -> raw <> [] -> digit_val d = Some x -> 0 < x -> 0 < t ->
    encode_secure hmac (raw ++ [d]) key t = Some v ->
    exists t', decode_secure hmac (attack v) key = Some (raw, t') /\ (t < 2 ^ 63 - 1 -> t < t').
Proof.
  exists shift_digit. intros hmac raw d x key t v Hh Hr Hd Hx Ht E.
  pose proof (dval_cons_zero d x _ t Hd (dval_format t ltac:(lia))) as Hn.
  assert (Hp : 0 < 10 ^ Z.of_nat (List.length (format_int t))) by (apply Z.pow_pos_nonneg; lia).
  assert (Hpp : 0 < x * 10 ^ Z.of_nat (List.length (format_int t))) by (apply Z.mul_pos_pos; lia).
  eexists. split; [apply (shift_digit_encode hmac raw d key t v _ (ex_intro _ x Hd) ltac:(lia) E Hr Hh Hn); lia|]. intros Hmax. lia.
Qed.
(** two values with times of the same number of digits never share a signed text *)
Theorem C37_signature_covers_pair_partial raw1 t1 raw2 t2 :
  List.length (format_int t1) = List.length (format_int t2) ->
  raw1 ++ format_int t1 = raw2 ++ format_int t2 -> raw1 = raw2 /\ t1 = t2.
Proof.
  intros Hl E. assert (X : forall (a b c d : bytes), List.length b = List.length d -> a ++ b = c ++ d -> a = c /\ b = d).
  { intros a b c d Hbd H. assert (Hac : List.length a = List.length c) by (apply (f_equal (@List.length ascii)) in H; rewrite !app_length in H; lia).
    split; [apply (f_equal (firstn (List.length a))) in H; rewrite firstn_app_len in H; rewrite Hac, firstn_app_len in H; exact H|].
    apply (f_equal (skipn (List.length a))) in H. rewrite skipn_app_len in H. rewrite Hac, skipn_app_len in H. exact H. }
  destruct (X _ _ _ _ Hl E) as (-> & Et). split; [reflexivity|].
  pose proof (format_int_denotes t1) as D1. rewrite Et in D1. pose proof (format_int_denotes t2) as D2.
  assert (Y : forall s a b, int_denotes s a -> int_denotes s b -> a = b).
  { clear. intros s a b H1 H2. assert (forall c s n, nat_denotes (c :: s) n -> c <> "+"%char /\ c <> "-"%char) as N.
    { intros c s' n Hd. apply nat_denotes_head in Hd as (c' & s2 & [= <- <-] & (d & Hd)). split; intros ->; vm_compute in Hd; discriminate. }
    destruct H1 as [s n H|s n H|s n H]; inversion H2 as [s' m H'|s' m H'|s' m H']; subst;
      try (eapply nat_denotes_fun; eassumption); try (exfalso; apply N in H; tauto); try (exfalso; apply N in H'; tauto).
    f_equal. eapply nat_denotes_fun; eassumption. }
  eapply Y; eassumption.
Qed.
Example C37_example : exists v, encode_secure toy_hmac (bs "user42") (bs "key") t2020 = Some v /\
  decode_secure toy_hmac (shift_digit v) (bs "key") = Some (bs "user4", 2 ^ 63 - 1).
Proof. eexists. split; [reflexivity|vm_compute; reflexivity]. Qed.
Example C37_example2 : List.length (format_int t2020) = List.length (format_int (t2020 + 3600000000000)).
Proof. vm_compute. reflexivity. Qed.

(** *** C38 *)
Theorem C38_expiry_refuted :
  exists attack : bytes -> bytes, forall hmac raw d x key t v expire now,
    (forall k m, hmac k m <> []) -> raw <> [] -> digit_val d = Some x -> 0 < x -> 10 ^ 18 <= t < 2 ^ 63 ->
    encode_secure hmac (raw ++ [d]) key t = Some v ->
    0 <= secs expire -> now < 2 ^ 63 ->
    exists t', decode_secure hmac (attack v) key = Some (raw, t') /\ is_expired t' (secs expire) now = false.
Proof.
  exists shift_digit. intros hmac raw d x key t v expire now Hh Hr Hd Hx Ht E He Hnow.
  pose proof (dval_cons_zero d x _ t Hd (dval_format t ltac:(lia))) as Hn.
  assert (Hl : 10 ^ 19 <= 10 ^ Z.of_nat (List.length (format_int t))).
  { apply Z.pow_le_mono_r; [lia|]. destruct (Z.lt_ge_cases (Z.of_nat (List.length (format_int t))) 19) as [Hlt|Hge]; [exfalso|exact Hge].
    assert (X : forall s n, dval 0 s = Some n -> n < 10 ^ Z.of_nat (List.length s)).
    { clear. induction s as [|c s IH] using rev_ind; intros n; [cbn; intros [= <-]; lia|].
      rewrite dval_app. destruct (dval 0 s) as [m|]; [|discriminate]. specialize (IH m eq_refl). cbn [dval].
      destruct (digit_val c) as [z|] eqn:Ez; [|discriminate]. intros [= <-]. pose proof (digit_val_range _ _ Ez).
      rewrite app_length. cbn [List.length]. rewrite Nat.add_1_r, Nat2Z.inj_succ, Z.pow_succ_r by lia. lia. }
    specialize (X _ _ (dval_format t ltac:(lia))).
    assert (10 ^ Z.of_nat (List.length (format_int t)) <= 10 ^ 18) by (apply Z.pow_le_mono_r; lia). lia. }
  assert (Hpp : 10 ^ 19 <= x * 10 ^ Z.of_nat (List.length (format_int t))) by nia.
  eexists. split; [apply (shift_digit_encode hmac raw d key t v _ (ex_intro _ x Hd) ltac:(lia) E Hr Hh Hn); lia|].
  unfold is_expired. apply Z.ltb_ge. assert (2 ^ 63 < 10 ^ 19) by (vm_compute; reflexivity). lia.
Qed.
(** without such texts: the time returned is exactly the one that was signed, so an
    expired value stays expired *)
Theorem C38_time_is_signed_partial hmac raw key t v raw' t' :
  0 < t < 2 ^ 63 -> encode_secure hmac raw key t = Some v -> decode_secure hmac v key = Some (raw', t') -> t' = t.
Proof.
  intros Ht E D. apply encode_eq in E as (Hr & Hk & ->). destruct (decode_inv _ _ _ _ _ D) as (a & T & h & Eb & Na & NT & Eu & Eh & Hp & HT).
  rewrite b64_round in Eb. cbn [fst] in Eb.
  change (query_escape raw ++ [comma] ++ format_int t ++ [comma] ++ hex_encode (hmac key (raw ++ format_int t)))
    with (query_escape raw ++ comma :: format_int t ++ comma :: hex_encode (hmac key (raw ++ format_int t))) in Eb.
  assert (X : splitn_byte comma 3 (query_escape raw ++ comma :: format_int t ++ comma :: hex_encode (hmac key (raw ++ format_int t))) = [a; T; h])
    by (rewrite Eb; apply splitn3_app; assumption).
  rewrite splitn3_app in X; [|apply query_escape_free; reflexivity|apply format_pos_comma; lia]. injection X as <- <- <-.
  assert (P : parse_int 64 (format_int t) = (t, None)) by (apply parse_format_int; [lia|change (64 - 1) with 63; lia]).
  unfold decode_secure in D. rewrite b64_round in D. cbn [fst] in D. change ([comma] ++ format_int t ++ [comma] ++ hex_encode (hmac key (raw ++ format_int t))) with
    (comma :: format_int t ++ comma :: hex_encode (hmac key (raw ++ format_int t))) in D.
  rewrite splitn3_app in D by assumption. rewrite (trim_space_id (format_int t)) in D by (apply digits_graphic, format_pos_digits; lia).
  cbv zeta in D. rewrite P in D. cbn [fst] in D.
  destruct (_ || _)%bool; [discriminate|]. destruct (t <=? 0); [discriminate|].
  destruct (query_unescape _); [|discriminate]. destruct (beq _ _); [|discriminate]. injection D as _ <-. reflexivity.
Qed.
(** whatever is accepted, its time is never later than the number in the signed text *)
Theorem C38_never_later_partial hmac s key raw t :
  decode_secure hmac s key = Some (raw, t) ->
  exists T, (exists a h, fst (b64_decode s) = a ++ ","%char :: T ++ ","%char :: h) /\
    forall n, int_denotes (trim_space T) n -> t <= n.
Proof.
  intros H. destruct (decode_inv _ _ _ _ _ H) as (a & T & h & E & _ & _ & _ & _ & Hp & HT). exists T. split; [eauto|].
  intros n Hn. destruct HT as [(Hd & Hlt)|(-> & Hl)]; [|pose proof (too_large_denotes _ _ Hl Hn); lia].
  assert (R : parse_int 64 (trim_space T) = (t, None)) by (apply parse_int_ok; [lia|split; [exact Hd|change (64 - 1) with 63; lia]]).
  destruct (Z.lt_ge_cases n t) as [Hc|]; [exfalso|lia].
  destruct (Z.lt_ge_cases n (- 2 ^ 63)) as [Hlow|Hge].
  - rewrite (parse_int_range 64 _ n ltac:(lia) Hn) in R by (change (64 - 1) with 63; lia). destruct (n <? 0); discriminate.
  - assert (R2 : parse_int 64 (trim_space T) = (n, None)) by (apply parse_int_ok; [lia|split; [exact Hn|change (64 - 1) with 63; lia]]).
    rewrite R in R2. injection R2 as R2. lia.
Qed.
Example C38_example : exists v, encode_secure toy_hmac (bs "sid7") (bs "key") t2020 = Some v /\ 10 ^ 18 <= t2020 < 2 ^ 63 /\
  is_expired t2020 (secs 3600) (2 * t2020) = true /\
  (exists t', decode_secure toy_hmac (shift_digit v) (bs "key") = Some (bs "sid", t') /\ is_expired t' (secs 3600) (2 * t2020) = false).
Proof.
  eexists. split; [reflexivity|]. split; [vm_compute; intuition discriminate|]. split; [vm_compute; reflexivity|].
  exists (2 ^ 63 - 1). split; vm_compute; reflexivity.
Qed.

(** *** C39 *)
(** the request that comes back has the cookie that was set as the last one of its name *)
Definition sent_back (name v : bytes) (cs : list cookie) : Prop :=
  exists pre post, cs = pre ++ (name, v) :: post /\ forall c, In c post -> fst c <> name.
Lemma get_cookie_sent name v cs : sent_back name v cs -> get_cookie cs name = Some v.
Proof.
  intros (pre & post & -> & H). unfold get_cookie. rewrite rev_app_distr. cbn [rev]. rewrite <- app_assoc. cbn [app].
  assert (X : forall l r, (forall c : cookie, In c l -> fst c <> name) -> find (fun c : cookie => beq (fst c) name) (l ++ r) = find (fun c : cookie => beq (fst c) name) r).
  { induction l as [|c l IH]; intros r Hl; [reflexivity|]. cbn [app find]. destruct (beq (fst c) name) eqn:E; [|apply IH; intros x Hx; apply Hl; right; exact Hx].
    apply beq_true in E. exfalso. apply (Hl c); [left; reflexivity|exact E]. }
  rewrite X; [|intros c Hc; apply H; apply in_rev; exact Hc]. cbn [find fst]. rewrite beq_refl. reflexivity.
Qed.
Lemma remember_some hmac sk psk salt t : sk <> [] -> psk <> [] -> salt <> [] ->
  exists sh v, encode_secure hmac psk (sk ++ salt) t = Some sh /\ encode_secure hmac (query_escape psk ++ [bar] ++ query_escape sh) sk t = Some v /\ remember_value hmac sk psk salt t = Some v.
Proof.
  intros H1 H2 H3. assert (H4 : sk ++ salt <> []) by (destruct sk; [congruence|discriminate]).
  destruct (encode_some hmac psk (sk ++ salt) t H2 H4) as (sh & E & _).
  destruct (encode_some hmac (query_escape psk ++ [bar] ++ query_escape sh) sk t) as (v & E2 & _); [destruct (query_escape psk); discriminate|exact H1|].
  exists sh, v. split; [exact E|]. split; [exact E2|]. unfold remember_value. rewrite !is_nil_false by assumption. cbn [orb]. rewrite E. exact E2.
Qed.
Theorem C39_remember_round_trip hmac sk name psk salt now :
  (forall k m, hmac k m <> []) -> sk <> [] -> psk <> [] -> salt <> [] -> 0 < now < 2 ^ 63 ->
  exists v sh, write_remember hmac sk name now psk salt = Some (name, v) /\
    forall expire later cs, sent_back name v cs ->
      (later <= now + secs expire ->
        has_remember hmac sk name expire later cs = (psk, sh, true) /\
        valid_remember hmac sk expire later psk salt sh = true /\
        (forall psk', psk' <> psk -> valid_remember hmac sk expire later psk' salt sh = false) /\
        (forall salt', valid_remember hmac sk expire later psk salt' sh = true ->
           hmac (sk ++ salt') (psk ++ format_int now) = hmac (sk ++ salt) (psk ++ format_int now))) /\
      (now + secs expire < later ->
        has_remember hmac sk name expire later cs = ([], [], false) /\
        forall psk' salt', valid_remember hmac sk expire later psk' salt' sh = false).
Proof.
  intros Hh H1 H2 H3 Hnow. destruct (remember_some hmac sk psk salt now H1 H2 H3) as (sh & v & E1 & E2 & E3).
  exists v, sh. split; [unfold write_remember; rewrite E3; reflexivity|]. intros expire later cs Hc.
  pose proof (decode_encode hmac _ _ _ _ Hnow Hh E1) as D1. pose proof (decode_encode hmac _ _ _ _ Hnow Hh E2) as D2.
  assert (Hsh : sh <> []).
  { apply encode_eq in E1 as (Hp & _ & ->). intros E. apply (f_equal b64_decode) in E. rewrite b64_round in E. cbn in E. injection E as E. destruct (query_escape psk); discriminate. }
  assert (Hh1 : has_remember hmac sk name expire later cs = if is_expired now (secs expire) later then ([], [], false) else (psk, sh, true)).
  { unfold has_remember. rewrite (get_cookie_sent _ _ _ Hc), D2. destruct (is_expired now (secs expire) later); [reflexivity|].
    change (query_escape psk ++ [bar] ++ query_escape sh) with (query_escape psk ++ bar :: query_escape sh).
    rewrite splitn2_app by (apply query_escape_free; reflexivity). rewrite !query_round. reflexivity. }
  assert (Hv : forall p s, valid_remember hmac sk expire later p s sh = true ->
     hmac (sk ++ s) (psk ++ format_int now) = hmac (sk ++ salt) (psk ++ format_int now) /\ p = psk /\ is_expired now (secs expire) later = false).
  { intros p s. unfold valid_remember. destruct (is_nil p || is_nil s || is_nil sh)%bool; [discriminate|].
    destruct (decode_secure hmac sh (sk ++ s)) as [[u c]|] eqn:D; [|discriminate].
    assert (Hu : u = psk /\ c = now /\ hmac (sk ++ s) (psk ++ format_int now) = hmac (sk ++ salt) (psk ++ format_int now)).
    { destruct (C36_other_key_refused hmac psk (sk ++ salt) now sh (sk ++ s) u c ltac:(lia) E1 D) as (-> & Hm).
      split; [reflexivity|]. split; [|exact Hm].
      assert (D' : decode_secure hmac sh (sk ++ s) = Some (psk, now)).
      { apply encode_eq in E1 as (Hp & _ & ->). rewrite <- Hm.
        assert (P : parse_int 64 (format_int now) = (now, None)) by (apply parse_format_int; [lia|change (64 - 1) with 63; lia]).
        rewrite decode_text; [rewrite P; reflexivity|exact Hp|apply format_pos_digits; lia|apply format_pos_nonempty; lia|rewrite P; cbn; lia|apply Hh]. }
      congruence. }
    destruct Hu as (-> & -> & Hm). destruct (is_expired now (secs expire) later) eqn:Ex; [discriminate|]. intros Hb. apply beq_true in Hb. auto. }
  split.
  - intros Hl. assert (Ex : is_expired now (secs expire) later = false) by (unfold is_expired; apply Z.ltb_ge; lia).
    rewrite Ex in Hh1. split; [exact Hh1|]. split; [|split].
    + unfold valid_remember. rewrite !is_nil_false by assumption. cbn [orb]. rewrite D1, Ex. apply beq_refl.
    + intros psk' Hne. destruct (valid_remember hmac sk expire later psk' salt sh) eqn:E; [|reflexivity]. apply Hv in E as (_ & E & _). congruence.
    + intros salt' E. apply Hv in E. tauto.
  - intros Hl. assert (Ex : is_expired now (secs expire) later = true) by (unfold is_expired; apply Z.ltb_lt; lia).
    rewrite Ex in Hh1. split; [exact Hh1|]. intros psk' salt'.
    destruct (valid_remember hmac sk expire later psk' salt' sh) eqn:E; [|reflexivity]. apply Hv in E as (_ & _ & E). congruence.
Qed.
Example C39_example :
  exists v, write_remember toy_hmac (bs "secret") (bs "R") t2020 (bs "user|1") (bs "salt") = Some (bs "R", v) /\
    sent_back (bs "R") v [(bs "R", bs "old"); (bs "S", bs "x"); (bs "R", v); (bs "T", [])] /\
    valid_remember toy_hmac (bs "secret") 3600 (t2020 + 1000) (bs "user|1") (bs "salt")
      (snd (fst (has_remember toy_hmac (bs "secret") (bs "R") 3600 (t2020 + 1000) [(bs "R", v)]))) = true /\
    secs 3600 = 3600000000000.
Proof.
  eexists. split; [reflexivity|]. split.
  - exists [(bs "R", bs "old"); (bs "S", bs "x")], [(bs "T", [])]. split; [reflexivity|]. intros c [<-|[]]. discriminate.
  - split; vm_compute; reflexivity.
Qed.

(** *** C40: any secure value under the same secret passes, without a user *)
Theorem C40_only_remember_cookies_refuted hmac sk name sid t expire now v cs :
  (forall k m, hmac k m <> []) -> 0 < t < 2 ^ 63 -> ~ In "|"%char sid -> encode_secure hmac sid sk t = Some v ->
  sent_back name v cs -> now <= t + secs expire ->
  has_remember hmac sk name expire now cs = ([], [], true).
Proof.
  intros Hh Ht Hb E Hc Hn. unfold has_remember. rewrite (get_cookie_sent _ _ _ Hc), (decode_encode hmac _ _ _ _ Ht Hh E).
  assert (Ex : is_expired t (secs expire) now = false) by (unfold is_expired; apply Z.ltb_ge; lia). rewrite Ex.
  rewrite splitn2_none by exact Hb. reflexivity.
Qed.
(** a reported user key comes out of the last cookie of that name, signed and not expired *)
Theorem C40_reported_user_is_signed_partial hmac sk name expire now cs psk sh ok :
  has_remember hmac sk name expire now cs = (psk, sh, ok) -> psk <> [] \/ sh <> [] \/ ok = true ->
  exists v value created, get_cookie cs name = Some v /\ decode_secure hmac v sk = Some (value, created) /\ now <= created + secs expire /\ ok = true /\
    ((exists a b, value = a ++ "|"%char :: b /\ query_unescape a = Some psk /\ query_unescape b = Some sh) \/
     (~ In "|"%char value /\ psk = [] /\ sh = [])).
Proof.
  intros H Hx. unfold has_remember in H.
  destruct (get_cookie cs name) as [v|]; [|injection H as <- <- <-; destruct Hx as [Hx|[Hx|Hx]]; congruence].
  destruct (decode_secure hmac v sk) as [[value created]|] eqn:D; [|injection H as <- <- <-; destruct Hx as [Hx|[Hx|Hx]]; congruence].
  destruct (is_expired created (secs expire) now) eqn:Ex; [injection H as <- <- <-; destruct Hx as [Hx|[Hx|Hx]]; congruence|].
  exists v, value, created. split; [reflexivity|]. split; [exact D|]. split; [unfold is_expired in Ex; apply Z.ltb_ge in Ex; exact Ex|].
  cbn [splitn_byte] in H. destruct (index_byte bar value) as [i|] eqn:Ei.
  - apply index_byte_some in Ei. destruct Ei as (a & b & -> & <- & _). rewrite firstn_app_len, skipn_S_app in H.
    destruct (query_unescape a) eqn:E1; [|injection H as <- <- <-; destruct Hx as [Hx|[Hx|Hx]]; congruence].
    destruct (query_unescape b) eqn:E2; [|injection H as <- <- <-; destruct Hx as [Hx|[Hx|Hx]]; congruence].
    injection H as <- <- <-. split; [reflexivity|]. left. exists a, b. auto.
  - apply index_byte_none in Ei. injection H as <- <- <-. split; [reflexivity|]. right. auto.
Qed.
Example C40_example : exists v, encode_secure toy_hmac (bs "SID") (bs "secret") t2020 = Some v /\
  ~ In "|"%char (bs "SID") /\ sent_back (bs "R") v [(bs "R", v)].
Proof.
  eexists. split; [reflexivity|]. split; [cbn; intuition discriminate|]. exists [], []. split; [reflexivity|intros ? []].
Qed.

Print Assumptions C35_secure_round_trip.
Print Assumptions C35_empty_refused.
Print Assumptions C36_accepted_is_signed.
Print Assumptions C36_other_key_refused.
Print Assumptions C37_signature_covers_pair_refuted.
Print Assumptions C37_signature_covers_pair_partial.
Print Assumptions C38_expiry_refuted.
Print Assumptions C38_time_is_signed_partial.
Print Assumptions C38_never_later_partial.
Print Assumptions C39_remember_round_trip.
Print Assumptions C40_only_remember_cookies_refuted.
Print Assumptions C40_reported_user_is_signed_partial.
