(** SecureFacts: proofs about SecureModel. *)
From Coq Require Import List Ascii String Bool Arith ZArith Lia.
Import ListNotations.
From Verif Require Import GoStr GoNum GoEnc ConvModel SecureModel.
Local Open Scope Z_scope.

Lemma splitn2_inv c s a b : splitn_byte c 2 s = [a; b] -> s = a ++ c :: b /\ ~ In c a.
Proof.
  cbn [splitn_byte]. destruct (index_byte c s) as [i|] eqn:E; [|discriminate].
  apply index_byte_some in E. destruct E as (l & r & -> & <- & Hn). rewrite firstn_app_len, skipn_S_app. intros [= <- <-]. auto.
Qed.
Lemma splitn3_inv c s p0 p1 p2 r : splitn_byte c 3 s = p0 :: p1 :: p2 :: r -> r = [] /\ s = p0 ++ c :: p1 ++ c :: p2 /\ ~ In c p0 /\ ~ In c p1.
Proof.
  intros H. cbn [splitn_byte] in H. destruct (index_byte c s) as [i|] eqn:E; [|discriminate].
  apply index_byte_some in E. destruct E as (l & r0 & -> & <- & Hn). rewrite firstn_app_len, skipn_S_app in H.
  destruct (index_byte c r0) as [j|] eqn:E2; [|discriminate]. apply index_byte_some in E2. destruct E2 as (l2 & r2 & -> & <- & Hn2).
  rewrite firstn_app_len, skipn_S_app in H. injection H as <- <- <- <-. auto.
Qed.
Lemma splitn2_none c s : ~ In c s -> splitn_byte c 2 s = [s].
Proof. intros H. cbn [splitn_byte]. apply index_byte_none in H. rewrite H. reflexivity. Qed.

(** digits *)
Lemma digit_graphic c d : digit_val c = Some d -> graphic c = true.
Proof.
  unfold digit_val, graphic. destruct (Nat.leb 48 (code c) && Nat.leb (code c) 57)%bool eqn:E; [|discriminate]. intros _.
  apply andb_true_iff in E as (A & B). apply Nat.leb_le in A, B. apply andb_true_iff. rewrite !Nat.leb_le. lia.
Qed.
Lemma digits_graphic s : Forall is_digit s -> forallb graphic s = true.
Proof. intros F. apply forallb_forall. intros c Hc. rewrite Forall_forall in F. destruct (F c Hc) as (d & Hd). eapply digit_graphic. exact Hd. Qed.
Lemma digit_not_comma c : is_digit c -> c <> comma.
Proof. intros (d & Hd) ->. vm_compute in Hd. discriminate. Qed.
Lemma format_pos_digits n : 0 <= n -> Forall is_digit (format_int n).
Proof. intros H. rewrite format_int_nonneg by exact H. eapply nat_denotes_digits. apply format_uint_denotes. exact H. Qed.
Lemma format_pos_comma n : 0 <= n -> ~ In comma (format_int n).
Proof. intros H Hi. pose proof (format_pos_digits n H) as F. rewrite Forall_forall in F. apply (digit_not_comma comma); auto. Qed.
Lemma format_pos_nonempty n : 0 <= n -> format_int n <> [].
Proof. intros H. rewrite format_int_nonneg by exact H. pose proof (format_uint_denotes n H) as D. apply nat_denotes_dval in D. apply D. Qed.
Lemma is_nil_false {A} (l : list A) : l <> [] -> is_nil l = false.
Proof. destruct l; [congruence|reflexivity]. Qed.

(** the time a positive text stands for, saturated *)
Lemma dval_total s : Forall is_digit s -> forall n, exists m, dval n s = Some m.
Proof.
  induction 1 as [|c s (d & Hd) _ IH]; intros n; cbn [dval]; [eauto|]. rewrite Hd. apply IH.
Qed.

(** what ParseInt's value is, when positive *)
Lemma puint_loop_prefix max s : forall n r, 0 <= n <= max -> puint_loop max n s = (r, Some ERange) ->
  exists p q m, s = p ++ q /\ p <> [] /\ dval n p = Some m /\ max < m.
Proof.
  induction s as [|c s IH]; intros n r Hn; cbn [puint_loop]; [discriminate|].
  destruct (digit_val c) as [d|] eqn:E; [|discriminate]. pose proof (digit_val_range _ _ E).
  rewrite Z.gtb_ltb. destruct (Z.ltb_spec max (n * 10 + d)).
  - intros _. exists [c], s, (n * 10 + d). cbn. rewrite E. repeat split; [discriminate|lia].
  - intros Hr. destruct (IH (n * 10 + d) r ltac:(lia) Hr) as (p & q & m & -> & Hp & Hd & Hm). exists (c :: p), q, m. cbn [dval app]. rewrite E. repeat split; [discriminate|exact Hd|exact Hm].
Qed.
(** a decimal number of at least 2^63, possibly followed by something *)
Definition too_large (s : bytes) : Prop :=
  exists p q n, (s = p ++ q \/ s = "+"%char :: p ++ q) /\ nat_denotes p n /\ 2 ^ 63 <= n.
Lemma parse_int_positive s n e : parse_int 64 s = (n, e) -> 0 < n ->
  (int_denotes s n /\ n < 2 ^ 63) \/ (n = 2 ^ 63 - 1 /\ too_large s).
Proof.
  intros H Hn. destruct e as [e|].
  - right. destruct (parse_int_err 64 s n e ltac:(lia) H) as [(_ & ->)|(-> & [->| ->])]; [lia| |change (64 - 1) with 63 in Hn; lia].
    split; [reflexivity|]. unfold parse_int in H. destruct s as [|c s']; [discriminate|].
    assert (X : forall ds un err, parse_uint 64 ds = (un, err) -> err <> Some ESyntax -> 2 ^ 63 <= un -> exists p q m, ds = p ++ q /\ nat_denotes p m /\ 2 ^ 63 <= m).
    { intros ds un err Hp He Hu. destruct err as [[|]|]; [congruence| |].
      - unfold parse_uint in Hp. destruct ds as [|d0 ds]; [discriminate|].
        destruct (puint_loop_prefix (2 ^ 64 - 1) (d0 :: ds) 0 un ltac:(lia) Hp) as (p & q & m & E & Hp' & Hd & Hm).
        exists p, q, m. split; [exact E|]. split; [apply nat_denotes_dval; auto|lia].
      - apply parse_uint_ok in Hp as (Hp & _); [|lia]. exists ds, [], un. rewrite app_nil_r. auto. }
    change (64 - 1) with 63 in H. unfold too_large.
    destruct (Ascii.eqb_spec c "+"%char) as [->|_].
    + destruct (parse_uint 64 s') as [un err] eqn:Hp. cbv zeta in H. cbn [negb andb] in H.
      destruct err as [[|]|]; [discriminate| |]; destruct (un >=? 2 ^ 63) eqn:Eu; try discriminate;
        (destruct (X _ _ _ Hp ltac:(discriminate) ltac:(lia)) as (p & q & m & -> & Hm & Hge); exists p, q, m; auto).
    + destruct (Ascii.eqb_spec c "-"%char) as [->|_].
      * destruct (parse_uint 64 s') as [un err]. cbv zeta in H. cbn [negb andb] in H.
        destruct err as [[|]|]; [discriminate| |]; destruct (un >? 2 ^ 63); discriminate.
      * destruct (parse_uint 64 (c :: s')) as [un err] eqn:Hp. cbv zeta in H. cbn [negb andb] in H.
        destruct err as [[|]|]; [discriminate| |]; destruct (un >=? 2 ^ 63) eqn:Eu; try discriminate;
          (destruct (X _ _ _ Hp ltac:(discriminate) ltac:(lia)) as (p & q & m & E & Hm & Hge); exists p, q, m; auto).
  - left. apply parse_int_ok in H; [|lia]. change (64 - 1) with 63 in H. split; [apply H|lia].
Qed.
Lemma digit_head_sign c s n : nat_denotes (c :: s) n -> c <> "+"%char /\ c <> "-"%char.
Proof. intros Hd. apply nat_denotes_head in Hd as (c' & s2 & [= <- <-] & (d & Hd)). split; intros ->; vm_compute in Hd; discriminate. Qed.
Lemma too_large_denotes s n : too_large s -> int_denotes s n -> 2 ^ 63 <= n.
Proof.
  intros (p & q & m & Hs & Hp & Hm) Hn.
  assert (X : forall k, nat_denotes (p ++ q) k -> 2 ^ 63 <= k).
  { intros k Hk. apply nat_denotes_dval in Hk as (_ & Hk). apply nat_denotes_dval in Hp as (_ & Hp). rewrite dval_app, Hp in Hk.
    apply dval_ge in Hk; lia. }
  pose proof (nat_denotes_head _ _ Hp) as (c & p' & -> & _). pose proof (digit_head_sign _ _ _ Hp) as (N1 & N2). cbn [app] in *.
  destruct Hs as [-> | ->]; inversion Hn as [s' k Hk|s' k Hk|s' k Hk]; subst; try congruence; [apply X; assumption| |apply X; assumption].
  apply digit_head_sign in Hk as (N3 & _). congruence.
Qed.
Lemma parse_digits s : Forall is_digit s -> s <> [] -> forall n, dval 0 s = Some n -> fst (parse_int 64 s) = Z.min n (2 ^ 63 - 1).
Proof.
  intros F Hs n Hn. assert (D : nat_denotes s n) by (apply nat_denotes_dval; auto). pose proof (nat_denotes_nonneg _ _ D) as Hp.
  destruct (Z.lt_ge_cases n (2 ^ 63)) as [Hlt|Hge].
  - rewrite (proj2 (parse_int_ok 64 s n ltac:(lia))); [cbn [fst]; lia|]. split; [constructor; exact D|]. change (64 - 1) with 63. lia.
  - rewrite (parse_int_range 64 s n ltac:(lia)); [|constructor; exact D|change (64 - 1) with 63; lia].
    change (64 - 1) with 63. cbn [fst]. destruct (Z.ltb_spec n 0); lia.
Qed.

Section Facts.
  Variable hmac : bytes -> bytes -> bytes.

  (** a text whose three parts are plain decodes to its parts *)
  Lemma decode_text raw T key : raw <> [] -> Forall is_digit T -> T <> [] -> 0 < fst (parse_int 64 T) -> hmac key (raw ++ T) <> [] ->
    decode_secure hmac (b64_encode (query_escape raw ++ [comma] ++ T ++ [comma] ++ hex_encode (hmac key (raw ++ T)))) key = Some (raw, fst (parse_int 64 T)).
  Proof.
    intros Hr FT HT Ht Hh. unfold decode_secure. rewrite b64_round. cbn [fst].
    change (query_escape raw ++ [comma] ++ T ++ [comma] ++ hex_encode (hmac key (raw ++ T)))
      with (query_escape raw ++ comma :: T ++ comma :: hex_encode (hmac key (raw ++ T))).
    rewrite splitn3_app.
    2:{ apply query_escape_free. reflexivity. }
    2:{ intros Hi. rewrite Forall_forall in FT. apply (digit_not_comma comma); auto. }
    rewrite !trim_space_id; [|apply hex_encode_graphic|apply digits_graphic; exact FT|apply query_escape_graphic].
    cbv zeta. rewrite (is_nil_false (query_escape raw)) by (intros E; apply query_escape_nil in E; congruence).
    rewrite (is_nil_false T HT). rewrite (is_nil_false (hex_encode _)).
    2:{ intros E. apply (f_equal (@List.length ascii)) in E. rewrite hex_encode_length in E. destruct (hmac key (raw ++ T)); [congruence|cbn in E; lia]. }
    cbn [orb]. destruct (Z.leb_spec (fst (parse_int 64 T)) 0); [lia|]. rewrite query_round, beq_refl. reflexivity.
  Qed.
  Lemma encode_some raw key t : raw <> [] -> key <> [] -> exists v, encode_secure hmac raw key t = Some v /\ forallb b64_byte v = true.
  Proof. intros Hr Hk. unfold encode_secure. rewrite !is_nil_false by assumption. cbn [orb]. eexists. split; [reflexivity|apply b64_encode_bytes]. Qed.
  Lemma encode_eq raw key t v : encode_secure hmac raw key t = Some v ->
    raw <> [] /\ key <> [] /\ v = b64_encode (query_escape raw ++ [comma] ++ format_int t ++ [comma] ++ hex_encode (hmac key (raw ++ format_int t))).
  Proof.
    unfold encode_secure. destruct raw; [discriminate|]. destruct key; [discriminate|]. cbn [is_nil orb]. intros [= <-]. repeat split; discriminate.
  Qed.
  Lemma decode_encode raw key t v : 0 < t < 2 ^ 63 -> (forall k m, hmac k m <> []) -> encode_secure hmac raw key t = Some v ->
    decode_secure hmac v key = Some (raw, t).
  Proof.
    intros Ht Hh E. apply encode_eq in E as (Hr & Hk & ->).
    assert (P : parse_int 64 (format_int t) = (t, None)) by (apply parse_format_int; [lia|change (64 - 1) with 63; lia]).
    rewrite decode_text; [rewrite P; reflexivity|exact Hr|apply format_pos_digits; lia|apply format_pos_nonempty; lia|rewrite P; cbn; lia|apply Hh].
  Qed.

  Lemma decode_inv s key raw t : decode_secure hmac s key = Some (raw, t) ->
    exists a T h, fst (b64_decode s) = a ++ comma :: T ++ comma :: h /\ ~ In comma a /\ ~ In comma T /\
      query_unescape (trim_space a) = Some raw /\
      trim_space h = hex_encode (hmac key (raw ++ trim_space T)) /\
      0 < t /\ ((int_denotes (trim_space T) t /\ t < 2 ^ 63) \/ (t = 2 ^ 63 - 1 /\ too_large (trim_space T))).
  Proof.
    unfold decode_secure. destruct (splitn_byte comma 3 (fst (b64_decode s))) as [|p0 [|p1 [|p2 r]]] eqn:E; try discriminate.
    apply splitn3_inv in E as (-> & E & H0 & H1). cbv zeta.
    destruct (is_nil (trim_space p0) || is_nil (trim_space p1) || is_nil (trim_space p2))%bool; [discriminate|].
    destruct (Z.leb_spec (fst (parse_int 64 (trim_space p1))) 0) as [|Ht]; [discriminate|].
    destruct (query_unescape (trim_space p0)) as [raw'|] eqn:Eu; [|discriminate].
    destruct (beq (hex_encode (hmac key (raw' ++ trim_space p1))) (trim_space p2)) eqn:Eb; [|discriminate]. intros [= -> <-].
    apply beq_true in Eb. exists p0, p1, p2. split; [exact E|]. split; [exact H0|]. split; [exact H1|]. split; [exact Eu|].
    split; [symmetry; exact Eb|]. split; [exact Ht|]. destruct (parse_int 64 (trim_space p1)) as [n e] eqn:Ep. cbn [fst] in *.
    eapply parse_int_positive; eassumption.
  Qed.
End Facts.
