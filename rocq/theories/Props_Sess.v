(** Props_Sess: C44-C49, C99. *)
From Coq Require Import List Ascii String Bool Arith ZArith Lia.
Import ListNotations.
From Verif Require Import GoStr GoNum GoEnc ConvModel SecureModel SecureFacts RandModel CacheModel CacheSpec SessModel Props_Secure Props_Rand Props_Cache.
Local Open Scope Z_scope.

(** marshalling a map and unmarshalling it gives the map back, the values possibly
    changed in type (an int32 may become an int) *)
Definition codec {V} (marshal : amap V -> option bytes) (unmarshal : bytes -> option (amap V)) (norm : V -> V) : Prop :=
  forall m b, marshal m = Some b -> exists m', unmarshal b = Some m' /\ forall k, aget m' k = option_map norm (aget m k).

Section SessProps.
  Variable V : Type.
  Variable marshal : amap V -> option bytes.
  Variable unmarshal : bytes -> option (amap V).
  Variable hmac : bytes -> bytes -> bytes.
  Notation sess := (sess V).
  Notation flush := (s_flush V marshal).
  Notation read := (p_read V unmarshal).
  Notation start := (start V unmarshal hmac).
  Notation regenerate := (regenerate V unmarshal hmac).

  (** ** C46 *)
  Inductive sop := PSet (k : bytes) (v : V) | PDelete (k : bytes) | PClean.
  Definition apply_op (s : sess) (o : sop) : sess :=
    match o with PSet k v => s_set V k v s | PDelete k => s_delete V k s | PClean => s_clean V s end.
  Definition apply_ops (s : sess) (l : list sop) : sess := fold_left apply_op l s.
  (** the value of [k] after operations, the latest first, that started from [v0] *)
  Fixpoint latest (k : bytes) (v0 : option V) (l : list sop) : option V :=
    match l with
    | [] => v0
    | PSet k' v :: l' => if beq k' k then Some v else latest k v0 l'
    | PDelete k' :: l' => if beq k' k then None else latest k v0 l'
    | PClean :: _ => None
    end.
  Theorem C46_session_is_map s l k :
    s_get V k (apply_ops s l) = latest k (s_get V k s) (rev l) /\
    s_has V k (apply_ops s l) = match latest k (s_get V k s) (rev l) with Some _ => true | None => false end /\
    ss_sid (apply_ops s l) = ss_sid s.
  Proof.
    unfold s_has. enough (H : s_get V k (apply_ops s l) = latest k (s_get V k s) (rev l) /\ ss_sid (apply_ops s l) = ss_sid s).
    { destruct H as (H & H2). unfold s_get in *. rewrite <- H. auto. }
    induction l as [|o l IH] using rev_ind; [auto|]. destruct IH as (IH & IH2). unfold apply_ops in *. rewrite fold_left_app, rev_app_distr. cbn [fold_left rev app].
    destruct o as [k' v|k'|]; cbn [apply_op latest]; unfold s_set, s_get, s_delete, s_clean in *; cbn [ss_values ss_sid].
    - split; [|exact IH2]. destruct (beq_spec k' k) as [->|Hne]; [apply aget_aset_same|rewrite aget_aset_other by exact Hne; exact IH].
    - split; [|exact IH2]. destruct (beq_spec k' k) as [->|Hne]; [apply aget_adel_same|rewrite aget_adel_other by exact Hne; exact IH].
    - auto.
  Qed.
  Lemma apply_ops_flags s l : ss_closed (apply_ops s l) = ss_closed s /\ (l <> [] \/ ss_changed s = true -> ss_changed (apply_ops s l) = true).
  Proof.
    induction l as [|o l IH] using rev_ind; [cbn; split; [auto|]; intros [H|H]; [congruence|exact H]|].
    destruct IH as (IH & _). unfold apply_ops in *. rewrite fold_left_app. cbn [fold_left]. destruct o; cbn [apply_op]; unfold s_set, s_delete, s_clean; cbn [ss_closed ss_changed]; auto.
  Qed.

  Lemma call_nofault c now o s : call c now o (s, []) = ((fst (server_do (cf_cache c) now s o), []), snd (server_do (cf_cache c) now s o)).
  Proof. unfold call, cache_do. cbn [fst snd hd tl]. destruct (negb _); reflexivity. Qed.
  (** what Read finds *)
  Lemma read_nofault c now sid s : storable (cf_cache c) sid ->
    read c now sid (s, []) = ((s, []), match look (cf_cache c) now s (full (cf_cache c) sid) with
                                       | Some e => match unmarshal (utils_tostr (e_val e)) with Some m => RdOk (mkSess sid m false false) | None => RdErr end
                                       | None => RdNotFound
                                       end).
  Proof.
    intros L. unfold p_read. rewrite call_nofault, (do_get _ _ _ _ L). cbn [fst snd].
    destruct (look _ _ _ _) as [e|]; reflexivity.
  Qed.
  Lemma set_look b now d s k v ps : storable b k -> plain v -> fits b ps -> ended (now + d) (ends b now ps) = false ->
    exists e, look b (now + d) (fst (server_do b now s (OSet k v ps))) (full b k) = Some e /\ utils_tostr (e_val e) = utils_tostr v /\
      snd (server_do b now s (OSet k v ps)) = RDone.
  Proof.
    intros L P F E. destruct (do_set b now s k v ps L P F) as (v' & Ev & ->). cbn [fst snd]. unfold look. rewrite aget_aset_same.
    destruct (new_exp_ends b now ps v' F) as (X & Y). rewrite (live_ended _ _ _ Y), X, E. cbn [negb]. eexists. split; [reflexivity|]. auto.
  Qed.
  (** a lifetime of [n] seconds has not ended after [d] nanoseconds *)
  Lemma not_ended b now n d : 0 < n -> d + early b < n * 1000000000 -> ended (now + d) (ends b now (Some n)) = false.
  Proof.
    intros Hn Hd. unfold ends, lifetime. destruct (Z.eqb_spec n 0); [lia|]. destruct (Z.ltb_spec 0 n); [|lia].
    destruct b; cbn [early] in Hd; cbn [ended]; apply Z.leb_gt; unfold whole_ms, whole_s;
      pose proof (Z.mod_pos_bound (now + n * 1000000000) 1000000 ltac:(lia)); pose proof (Z.mod_pos_bound now 1000000 ltac:(lia)); pose proof (Z.mod_pos_bound now 1000000000 ltac:(lia)); lia.
  Qed.
  (** what a session holds when it is flushed is what is read back, until it expires *)
  Theorem C46_flush_then_read norm c now s n d b :
    codec marshal unmarshal norm -> ss_closed s = false -> ss_changed s = true -> marshal (ss_values s) = Some b ->
    storable (cf_cache c) (ss_sid s) -> 0 < cf_expire c <= cap (cf_cache c) -> d + early (cf_cache c) < cf_expire c * 1000000000 ->
    exists s1 n1 n2 s2,
      flush c now s (n, []) = (s1, n1, SFine) /\ ss_values s1 = ss_values s /\
      read c (now + d) (ss_sid s) n1 = (n2, RdOk s2) /\ ss_sid s2 = ss_sid s /\
      forall k, s_get V k s2 = option_map norm (s_get V k s).
  Proof.
    intros C Hc Hg Hm L Hx Hd. unfold s_flush. rewrite Hc, Hg. cbn [negb]. unfold save. rewrite Hm, call_nofault. cbn [fst snd].
    destruct (set_look (cf_cache c) now d n (ss_sid s) (ABytes b) (Some (cf_expire c)) L I) as (e & Le & Ve & Re); [apply Hx|apply not_ended; [apply Hx|exact Hd]|].
    rewrite Re. eexists _, _, _. destruct (C _ _ Hm) as (m' & U & Hm').
    exists (mkSess (ss_sid s) m' false false). split; [reflexivity|]. split; [reflexivity|]. split.
    - rewrite (read_nofault _ _ _ _ L), Le, Ve. cbn [utils_tostr]. rewrite U. reflexivity.
    - split; [reflexivity|exact Hm'].
  Qed.

  (** ** C100 *)
  (** Touch starts the lifetime of a stored session anew and changes nothing else *)
  Theorem C100_touch_extends c now s x d m :
    storable (cf_cache c) (ss_sid x) -> 0 < cf_expire c <= cap (cf_cache c) -> d + early (cf_cache c) < cf_expire c * 1000000000 ->
    snd (read c now (ss_sid x) (s, [])) = RdOk (mkSess (ss_sid x) m false false) ->
    exists s', s_touch V c now x (s, []) = (x, (s', []), SFine) /\
      snd (read c (now + d) (ss_sid x) (s', [])) = RdOk (mkSess (ss_sid x) m false false) /\
      forall k, k <> ss_sid x -> storable (cf_cache c) k -> snd (read c (now + d) k (s', [])) = snd (read c (now + d) k (s, [])).
  Proof.
    intros L Hx Hd Rd. rewrite (read_nofault _ _ _ _ L) in Rd. cbn [snd] in Rd. set (b := cf_cache c) in *.
    destruct (look b now s (full b (ss_sid x))) as [e|] eqn:Le; [|discriminate]. destruct (unmarshal (utils_tostr (e_val e))) as [m'|] eqn:U; [|discriminate]. injection Rd as ->.
    assert (F : fits b (Some (cf_expire c))) by apply Hx.
    assert (D := do_touch b now s (ss_sid x) (Some (cf_expire c)) L F).
    assert (NR : match b with BRedis _ => lifetime (Some (cf_expire c)) <> None | _ => True end).
    { destruct b; try exact I. unfold lifetime. destruct (Z.eqb_spec (cf_expire c) 0); [discriminate|]. destruct (Z.ltb_spec 0 (cf_expire c)); [discriminate|lia]. }
    specialize (D NR). assert (Fo : find_old b now s (full b (ss_sid x)) = Some e) by (unfold find_old; destruct b; [eapply look_some; exact Le|exact Le|exact Le]).
    rewrite Fo in D. unfold s_touch. rewrite call_nofault. fold b. rewrite D. cbn [fst snd]. eexists. split; [reflexivity|]. split.
    - rewrite (read_nofault _ _ _ _ L). fold b. cbn [snd]. unfold look. rewrite aget_aset_same.
      destruct (new_exp_ends b now (Some (cf_expire c)) (e_val e) F) as (X & Y). rewrite (live_ended _ _ _ Y), X, not_ended by (first [apply Hx|exact Hd]).
      cbn [negb e_val]. rewrite U. reflexivity.
    - intros k Hk Lk. rewrite !(read_nofault _ _ _ _ Lk). fold b. cbn [snd].
      assert (A : aget (aset s (full b (ss_sid x)) (mkEntry (e_val e) (new_exp b now (Some (cf_expire c))))) (full b k) = aget s (full b k)).
      { apply aget_aset_other. intros H. apply full_inj in H. congruence. }
      rewrite (look_aget _ _ _ _ _ A). reflexivity.
  Qed.

  (** ** C48 *)
  (** a failed Flush forgets that there was something to save *)
  Theorem C48_retry_refuted c now now' s n f rest b :
    ss_closed s = false -> ss_changed s = true -> marshal (ss_values s) = Some b -> f = FaultBefore ->
    exists s1, flush c now s (n, f :: rest) = (s1, (n, rest), SFailed) /\ flush c now' s1 (n, rest) = (s1, (n, rest), SFine).
  Proof.
    intros Hc Hg Hm ->. unfold s_flush. rewrite Hc, Hg. cbn [negb]. unfold save. rewrite Hm. unfold call, cache_do. cbn [fst snd hd tl].
    assert (R : round_trip (cf_cache c) (OSet (ss_sid s) (ABytes b) (Some (cf_expire c))) = true) by (destruct (cf_cache c); reflexivity). rewrite R. cbn [negb fst snd].
    eexists. split; [reflexivity|]. reflexivity.
  Qed.
  (** unless something is set again; then everything is saved *)
  Theorem C48_retry_partial norm c now now' s n f rest n1 l d b :
    codec marshal unmarshal norm -> ss_closed s = false -> ss_changed s = true ->
    l <> [] -> marshal (ss_values (apply_ops s l)) = Some b ->
    storable (cf_cache c) (ss_sid s) -> 0 < cf_expire c <= cap (cf_cache c) -> d + early (cf_cache c) < cf_expire c * 1000000000 ->
    exists s1, fst (fst (flush c now s (n, f :: rest))) = s1 /\
    exists s2 n2 n3 s3,
      flush c now' (apply_ops s1 l) (n1, []) = (s2, n2, SFine) /\
      read c (now' + d) (ss_sid s) n2 = (n3, RdOk s3) /\
      forall k, s_get V k s3 = option_map norm (s_get V k (apply_ops s l)).
  Proof.
    intros C Hc Hg Hl Hm L Hx Hd. exists (mkSess (ss_sid s) (ss_values s) false false).
    split; [unfold s_flush; rewrite Hc, Hg; reflexivity|]. set (s1 := mkSess (ss_sid s) (ss_values s) false false).
    assert (E : forall l s s', ss_sid s = ss_sid s' -> ss_values s = ss_values s' -> ss_values (apply_ops s l) = ss_values (apply_ops s' l)).
    { clear. induction l as [|o l IH]; intros s s' A B; [exact B|]. unfold apply_ops in *. cbn [fold_left]. apply IH.
      - destruct o; exact A.
      - destruct o; cbn [apply_op s_set s_delete s_clean ss_values]; rewrite ?B; reflexivity. }
    specialize (E l s1 s eq_refl eq_refl). destruct (C46_session_is_map s1 l []) as (_ & _ & Sid). destruct (apply_ops_flags s1 l) as (Fc & Fg).
    destruct (C46_flush_then_read norm c now' (apply_ops s1 l) n1 d b C) as (s2 & n2 & n3 & s3 & A & B & D & F & G); auto.
    - rewrite E. exact Hm.
    - rewrite Sid. exact L.
    - rewrite Sid in D. cbn [s1 ss_sid] in D. exists s2, n2, n3, s3. split; [exact A|]. split; [exact D|]. intros k. rewrite G. unfold s_get. rewrite E. reflexivity.
  Qed.

  (** ** C44 *)
  (** the request has a cookie that is signed with the key and has not expired *)
  Definition carries (c : scfg) (name : bytes) (now : Z) (cs : list cookie) (sid : bytes) (created : Z) : Prop :=
    exists v0 v, get_cookie cs name = Some v0 /\ query_unescape v0 = Some v /\
      decode_secure hmac v (cf_key c) = Some (sid, created) /\ now <= created + cf_expire c * 1000000000.
  (** expiry times of up to 292 years *)
  Definition sane (c : scfg) : Prop := 0 < cf_expire c <= 9223372036 /\ cf_key c <> [].
  Definition mac : Prop := forall k m, hmac k m <> [].
  Lemma secs_sane c : sane c -> secs (cf_expire c) = cf_expire c * 1000000000.
  Proof. intros (H & _). unfold secs. apply wrap64_id. lia. Qed.
  Lemma read_sid_carries c name now cs sid t : sane c -> (read_sid hmac c name now cs = Some (sid, t) <-> carries c name now cs sid t).
  Proof.
    intros S. unfold read_sid, carries. split.
    - destruct (get_cookie cs name) as [v0|]; [|discriminate]. destruct (query_unescape v0) as [v|] eqn:U; [|discriminate].
      destruct (decode_secure hmac v (cf_key c)) as [[a b]|] eqn:D; [|discriminate]. unfold is_expired. rewrite (secs_sane _ S).
      destruct (Z.ltb_spec (b + cf_expire c * 1000000000) now); [discriminate|]. intros [= -> ->]. exists v0, v. auto.
    - intros (v0 & v & -> & -> & -> & H). unfold is_expired. rewrite (secs_sane _ S).
      destruct (Z.ltb_spec (t + cf_expire c * 1000000000) now); [lia|reflexivity].
  Qed.
  Lemma carries_fun c name now cs sid t sid' t' : carries c name now cs sid t -> carries c name now cs sid' t' -> sid' = sid /\ t' = t.
  Proof. intros (v0 & v & A & B & D & _) (w0 & w & A' & B' & D' & _). rewrite A in A'. injection A' as <-. rewrite B in B'. injection B' as <-. rewrite D in D'. injection D' as <- <-. auto. Qed.
  Lemma read_sid_none c name now cs : sane c -> (read_sid hmac c name now cs = None <-> forall sid t, ~ carries c name now cs sid t).
  Proof.
    intros S. split.
    - intros H sid t C. apply (read_sid_carries _ _ _ _ _ _ S) in C. congruence.
    - intros H. destruct (read_sid hmac c name now cs) as [[sid t]|] eqn:E; [|reflexivity]. exfalso. apply (H sid t). apply (read_sid_carries _ _ _ _ _ _ S). exact E.
  Qed.
  (** a cookie the manager sets is recognised when it comes back *)
  Lemma cookie_carries c cc sid t : mac -> sane c -> sid <> [] -> 0 < t < 2 ^ 63 ->
    exists ck, write_cookie hmac c cc sid t = Some ck /\ sc_name ck = cc_name cc /\
      forall now cs, get_cookie cs (cc_name cc) = Some (sc_value ck) -> now <= t + cf_expire c * 1000000000 -> carries c (cc_name cc) now cs sid t.
  Proof.
    intros M (He & Hk) Hs Ht. unfold write_cookie. destruct (encode_some hmac sid (cf_key c) t Hs Hk) as (v & E & B). rewrite E.
    eexists. split; [reflexivity|]. split; [reflexivity|]. cbn [sc_value]. intros now cs G Hn. exists v, v.
    split; [exact G|]. split; [apply query_unescape_b64; exact B|]. split; [|exact Hn]. eapply decode_encode; eassumption.
  Qed.
  Lemma fresh_sid rd now : delivers rd -> - 2 ^ 63 <= now < 2 ^ 63 -> exists sid, create_sid rd now = ROk sid /\ List.length sid = 20%nat /\ sid <> [] /\
    Forall (fun ch => In ch session_alphabets) sid.
  Proof.
    intros Hd Hn. destruct (create_sid_parts rd now Hd Hn) as (p & b & E & _ & L & F). exists (p ++ b). split; [exact E|]. split; [exact L|]. split; [|exact F].
    intros H. rewrite H in L. discriminate.
  Qed.
  (** no valid cookie: a new id, nothing stored, a cookie for the new id *)
  Theorem C44_fresh_session c cc rd now cs n :
    mac -> sane c -> delivers rd -> 0 < now < 2 ^ 63 -> (forall sid t, ~ carries c (cc_name cc) now cs sid t) ->
    exists sid ck, start c cc rd now cs n = (n, MOk (mkSess sid [] false false) now (Some ck)) /\ create_sid rd now = ROk sid /\
      sc_name ck = cc_name cc /\ sc_max_age ck = Z.max 0 (cc_expire cc) /\
      forall now' cs', get_cookie cs' (cc_name cc) = Some (sc_value ck) -> now' <= now + cf_expire c * 1000000000 -> carries c (cc_name cc) now' cs' sid now.
  Proof.
    intros M S Hd Hn Hno. apply (read_sid_none _ _ _ _ S) in Hno. destruct (fresh_sid rd now Hd) as (sid & E & _ & Hs & _); [lia|].
    destruct (cookie_carries c cc sid now M S Hs Hn) as (ck & W & N & C). exists sid, ck. unfold SessModel.start. rewrite Hno, E, W. split; [reflexivity|]. split; [reflexivity|].
    split; [exact N|]. split; [|exact C]. unfold write_cookie in W. destruct (encode_secure _ _ _ _); [|discriminate]. injection W as <-. cbn [sc_max_age].
    destruct (Z.leb_spec 0 (cc_expire cc)); lia.
  Qed.
  (** a valid cookie: what is stored under its id, if anything; no cookie is set, nothing is changed *)
  Theorem C44_existing_session c cc rd now cs s sid t :
    sane c -> storable (cf_cache c) sid -> carries c (cc_name cc) now cs sid t ->
    fst (start c cc rd now cs (s, [])) = (s, []) /\
    match snd (read c now sid (s, [])) with
    | RdOk x => snd (start c cc rd now cs (s, [])) = MOk x t None
    | RdNotFound => snd (start c cc rd now cs (s, [])) = MOk (mkSess sid [] false false) t None
    | RdErr => snd (start c cc rd now cs (s, [])) = MErr None
    end.
  Proof.
    intros S L C. apply (read_sid_carries _ _ _ _ _ _ S) in C. unfold SessModel.start. rewrite C, (read_nofault _ _ _ _ L). cbn [fst snd].
    split; [reflexivity|]. destruct (look _ _ _ _) as [e|]; [|reflexivity]. destruct (unmarshal _); reflexivity.
  Qed.
  (** the id is always new or one the key holder signed, with any store, faults and request *)
  Theorem C44_id_not_chosen_partial c cc rd now cs n n' x t ck :
    start c cc rd now cs n = (n', MOk x t ck) ->
    create_sid rd now = ROk (ss_sid x) \/
    exists v0 v a T h, get_cookie cs (cc_name cc) = Some v0 /\ query_unescape v0 = Some v /\ fst (b64_decode v) = a ++ "," %char :: T ++ "," %char :: h /\
      query_unescape (trim_space a) = Some (ss_sid x) /\ trim_space h = hex_encode (hmac (cf_key c) (ss_sid x ++ trim_space T)).
  Proof.
    unfold SessModel.start. destruct (read_sid hmac c (cc_name cc) now cs) as [[sid t0]|] eqn:R.
    - intros H. right. assert (Hx : ss_sid x = sid).
      { destruct (p_read V unmarshal c now sid n) as [n1 r] eqn:P. cbn [fst snd] in H. unfold p_read in P. destruct (call c now (OGet sid) n) as [n2 o]. cbn [fst snd] in P.
        destruct r as [y| |]; try (injection H as _ <- _ _; reflexivity).
        - destruct o; try (injection P as _ P; discriminate). destruct (unmarshal s) as [m|]; [|injection P as _ P; discriminate].
          injection P as _ <-. injection H as _ <- _ _. reflexivity.
        - discriminate. }
      rewrite Hx. unfold read_sid in R. destruct (get_cookie cs (cc_name cc)) as [v0|] eqn:G; [|discriminate]. destruct (query_unescape v0) as [v|] eqn:U; [|discriminate].
      destruct (decode_secure hmac v (cf_key c)) as [[a b]|] eqn:D; [|discriminate]. destruct (is_expired _ _ _); [discriminate|]. injection R as <- <-.
      destruct (decode_inv _ _ _ _ _ D) as (p & T & h & E1 & _ & _ & E2 & E3 & _). exists v0, v, p, T, h. auto.
    - destruct (create_sid rd now) as [sid| |] eqn:E; try discriminate. intros [= _ <- _ _]. left. reflexivity.
  Qed.
  (** the id of a session that is not stored is taken from the cookie and not replaced *)
  Theorem C44_fresh_id_refuted c cc rd now cs s sid t :
    sane c -> storable (cf_cache c) sid -> carries c (cc_name cc) now cs sid t -> snd (read c now sid (s, [])) = RdNotFound ->
    snd (start c cc rd now cs (s, [])) = MOk (mkSess sid [] false false) t None.
  Proof. intros S L C N. destruct (C44_existing_session c cc rd now cs s sid t S L C) as (_ & H). rewrite N in H. exact H. Qed.
  (** anything else signed with the key will do as an id: a remember cookie, say *)
  Theorem C44_remember_as_session_refuted c cc rd now name psk salt v s :
    mac -> sane c -> 0 < now < 2 ^ 63 -> write_remember hmac (cf_key c) name now psk salt = Some (name, v) ->
    (forall k, storable (cf_cache c) k) -> (forall k, snd (read c now k (s, [])) = RdNotFound) ->
    exists sid, snd (start c cc rd now [(cc_name cc, v)] (s, [])) = MOk (mkSess sid [] false false) now None /\ In "|"%char sid.
  Proof.
    intros M S Hn W L N. unfold write_remember, remember_value in W. destruct (_ || _)%bool; [discriminate|].
    destruct (encode_secure hmac psk (cf_key c ++ salt) now) as [sh|]; [|discriminate]. cbn [option_map] in W.
    destruct (encode_secure hmac (query_escape psk ++ [bar] ++ query_escape sh) (cf_key c) now) as [v'|] eqn:E; [|discriminate]. injection W as ->.
    exists (query_escape psk ++ [bar] ++ query_escape sh). split; [|apply in_or_app; right; left; reflexivity].
    apply C44_fresh_id_refuted; auto. exists v, v. split; [unfold get_cookie; cbn; rewrite beq_refl; reflexivity|].
    split; [apply query_unescape_b64; destruct (encode_eq _ _ _ _ _ E) as (_ & _ & ->); apply b64_encode_bytes|].
    split; [eapply decode_encode; eassumption|]. destruct S. lia.
  Qed.

  (** *** C46 across requests *)
  (** a first request starts a session, changes it and flushes it; a later one with the cookie finds the values *)
  Theorem C46_survives_requests norm c cc rd rd' t0 t1 t2 l s0 cs cs' b :
    codec marshal unmarshal norm -> mac -> sane c -> cf_expire c <= cap (cf_cache c) -> delivers rd -> 0 < t0 < 2 ^ 63 -> l <> [] ->
    (forall sid, create_sid rd t0 = ROk sid -> storable (cf_cache c) sid /\ marshal (ss_values (apply_ops (mkSess sid [] false false) l)) = Some b) ->
    (forall sid t, ~ carries c (cc_name cc) t0 cs sid t) ->
    t2 - t1 + early (cf_cache c) < cf_expire c * 1000000000 -> t2 - t0 <= cf_expire c * 1000000000 ->
    exists s ck, start c cc rd t0 cs (s0, []) = ((s0, []), MOk s t0 (Some ck)) /\
    exists s1 n1, flush c t1 (apply_ops s l) (s0, []) = (s1, n1, SFine) /\
      (get_cookie cs' (cc_name cc) = Some (sc_value ck) ->
       exists n2 s2, start c cc rd' t2 cs' n1 = (n2, MOk s2 t0 None) /\ ss_sid s2 = ss_sid s /\
         forall k, s_get V k s2 = option_map norm (latest k None (rev l))).
  Proof.
    intros C M S Hcap Hd Ht Hl Hsid Hno Hx1 Hx2. destruct (C44_fresh_session c cc rd t0 cs (s0, []) M S Hd Ht Hno) as (sid & ck & E & Es & _ & _ & Hck).
    destruct (Hsid sid Es) as (L & Hm). exists (mkSess sid [] false false), ck. split; [exact E|].
    set (s := mkSess sid [] false false) in *. destruct (apply_ops_flags s l) as (F1 & F2). destruct (C46_session_is_map s l []) as (_ & _ & Sid).
    destruct (C46_flush_then_read norm c t1 (apply_ops s l) s0 (t2 - t1) b C) as (s1 & n1 & n2 & s2 & A & _ & D & F & G); auto.
    - rewrite Sid. exact L.
    - destruct S; lia.
    - exists s1, n1. split; [exact A|]. intros Hg. rewrite Sid in D, F. replace (t1 + (t2 - t1)) with t2 in D by lia. cbn [s ss_sid] in D.
      exists n2, s2. assert (Cr : carries c (cc_name cc) t2 cs' sid t0) by (apply Hck; [exact Hg|lia]).
      apply (read_sid_carries _ _ _ _ _ _ S) in Cr. unfold SessModel.start. rewrite Cr, D. cbn [fst snd]. split; [reflexivity|]. split; [exact F|].
      intros k. rewrite G. destruct (C46_session_is_map s l k) as (-> & _). reflexivity.
  Qed.

  (** ** C45 *)
  Lemma call_fst c now o n : call c now o n = ((fst (cache_do (cf_cache c) now (hd NoFault (snd n)) (fst n) o), tl (snd n)), snd (cache_do (cf_cache c) now (hd NoFault (snd n)) (fst n) o)).
  Proof. reflexivity. Qed.
  Lemma find_old_del b now' s K : find_old b now' (adel s K) K = None.
  Proof. unfold find_old, look. rewrite aget_adel_same. destruct b; reflexivity. Qed.
  Lemma delete_gone b now s k : storable b k -> forall now', now <= now' -> find_old b now' (fst (server_do b now s (ODelete k))) (full b k) = None.
  Proof.
    intros L now' Hn. rewrite (do_delete _ _ _ _ L). destruct (find_old b now s (full b k)) eqn:F; cbn [fst].
    - apply find_old_del.
    - eapply find_old_later; eassumption.
  Qed.
  (** all values are under a new id, for which there is a cookie; the old id is no longer known *)
  Theorem C45_regenerate_partial c cc rd now cs params s old t m d sid :
    mac -> sane c -> cf_expire c <= cap (cf_cache c) -> 0 < now < 2 ^ 63 -> create_sid rd now = ROk sid -> sid <> [] -> sid <> old ->
    storable (cf_cache c) old -> storable (cf_cache c) sid -> carries c (cc_name cc) now cs old t ->
    snd (read c now old (s, [])) = RdOk (mkSess old m false false) ->
    0 <= d -> d + early (cf_cache c) < cf_expire c * 1000000000 ->
    exists s' ck, regenerate c cc rd now cs params (s, []) = ((s', []), MOk (mkSess sid m false false) now (Some ck)) /\
      snd (read c (now + d) sid (s', [])) = RdOk (mkSess sid m false false) /\
      snd (read c (now + d) old (s', [])) = RdNotFound /\
      (forall k, k <> old -> k <> sid -> storable (cf_cache c) k -> snd (read c (now + d) k (s', [])) = snd (read c (now + d) k (s, []))) /\
      forall now' cs', get_cookie cs' (cc_name cc) = Some (sc_value ck) -> now' <= now + cf_expire c * 1000000000 -> carries c (cc_name cc) now' cs' sid now.
  Proof.
    intros M S Hcap Hn Es Hs0 Hne Lo Ls Cr Rd Hd Hx. rewrite (read_nofault _ _ _ _ Lo) in Rd. cbn [snd] in Rd.
    destruct (look (cf_cache c) now s (full (cf_cache c) old)) as [e|] eqn:Le; [|discriminate].
    destruct (unmarshal (utils_tostr (e_val e))) as [m'|] eqn:U; [|discriminate]. injection Rd as ->.
    destruct (cookie_carries c cc sid now M S Hs0 Hn) as (ck & W & _ & Hck).
    unfold SessModel.regenerate. rewrite Es. apply (read_sid_carries _ _ _ _ _ _ S) in Cr. rewrite Cr.
    unfold p_regenerate. rewrite call_nofault, (do_get _ _ _ _ Lo), Le. cbn [fst snd].
    set (b := cf_cache c) in *. set (v := utils_tostr (e_val e)) in *.
    assert (Hfit : fits b (Some (cf_expire c))) by exact Hcap.
    assert (Set_ : forall d, 0 <= d -> d + early b < cf_expire c * 1000000000 -> exists e2, look b (now + d) (fst (server_do b now s (OSet sid (AStr v) (Some (cf_expire c))))) (full b sid) = Some e2 /\
      utils_tostr (e_val e2) = v /\ snd (server_do b now s (OSet sid (AStr v) (Some (cf_expire c)))) = RDone).
    { intros d' Hd' Hx'. apply (set_look b now d' s sid (AStr v) (Some (cf_expire c)) Ls I Hfit). apply not_ended; [apply S|exact Hx']. }
    destruct (Set_ d Hd Hx) as (e2 & L2 & V2 & D2). destruct (Set_ 0) as (e0 & L0 & V0 & _); [lia|lia|]. rewrite Z.add_0_r in L0.
    rewrite call_nofault. fold b. rewrite D2. cbn [fst snd]. set (s2 := fst (server_do b now s (OSet sid (AStr v) (Some (cf_expire c))))) in *.
    unfold p_destroy. rewrite call_nofault. fold b. cbn [fst snd]. set (s3 := fst (server_do b now s2 (ODelete old))).
    assert (Hk : full b old <> full b sid) by (intros H; apply full_inj in H; congruence).
    assert (A3 : aget s3 (full b sid) = aget s2 (full b sid)) by (apply (frame b now s2 (ODelete old) old); [reflexivity|exact Hk]).
    rewrite (read_nofault _ _ _ _ Ls). fold b. rewrite (look_aget _ _ _ _ _ A3), L0, V0, U. cbn [fst snd ss_sid]. rewrite W.
    exists s3, ck. split; [reflexivity|]. split; [|split; [|split]].
    - rewrite (read_nofault _ _ _ _ Ls). fold b. cbn [snd]. rewrite (look_aget _ _ _ _ _ A3), L2, V2, U. reflexivity.
    - rewrite (read_nofault _ _ _ _ Lo). fold b. cbn [snd]. rewrite (find_old_look b (now + d) s3 (full b old)); [reflexivity|].
      apply delete_gone; [exact Lo|lia].
    - intros k Hko Hks Lk. rewrite !(read_nofault _ _ _ _ Lk). fold b. cbn [snd].
      assert (Ak : aget s3 (full b k) = aget s (full b k)).
      { transitivity (aget s2 (full b k)).
        - apply (frame b now s2 (ODelete old) old); [reflexivity|]. intros H. apply full_inj in H. congruence.
        - apply (frame b now s (OSet sid (AStr v) (Some (cf_expire c))) sid); [reflexivity|]. intros H. apply full_inj in H. congruence. }
      rewrite (look_aget _ _ _ _ _ Ak). reflexivity.
    - exact Hck.
  Qed.
  (** no cookie, or a cookie of a session that is gone: a new id with the given values, to be saved at the next Flush *)
  Theorem C45_regenerate_new c cc rd now cs params s sid :
    mac -> sane c -> create_sid rd now = ROk sid -> sid <> [] -> 0 < now < 2 ^ 63 ->
    (forall old t, carries c (cc_name cc) now cs old t -> storable (cf_cache c) old /\ snd (read c now old (s, [])) = RdNotFound) ->
    exists ck, regenerate c cc rd now cs params (s, []) =
      ((s, []), MOk (mkSess sid (match params with Some m => m | None => [] end) (match params with Some _ => true | None => false end) false) now (Some ck)) /\
      forall now' cs', get_cookie cs' (cc_name cc) = Some (sc_value ck) -> now' <= now + cf_expire c * 1000000000 -> carries c (cc_name cc) now' cs' sid now.
  Proof.
    intros M S Es Hs0 Hn H. destruct (cookie_carries c cc sid now M S Hs0 Hn) as (ck & W & _ & Hck). exists ck. split; [|exact Hck].
    unfold SessModel.regenerate. rewrite Es. destruct (read_sid hmac c (cc_name cc) now cs) as [[old t]|] eqn:R; [|rewrite W; reflexivity].
    apply (read_sid_carries _ _ _ _ _ _ S) in R. destruct (H old t R) as (L & Nf). unfold p_regenerate. rewrite call_nofault, (do_get _ _ _ _ L). cbn [fst snd].
    rewrite (read_nofault _ _ _ _ L) in Nf. cbn [snd] in Nf. destruct (look _ _ _ _); [destruct (unmarshal _); discriminate|]. cbn [fst snd]. rewrite W. reflexivity.
  Qed.
  (** a failing cache is a panic *)
  Theorem C45_cache_error_refuted c cc rd now cs params s old t f rest sid :
    sane c -> carries c (cc_name cc) now cs old t -> create_sid rd now = ROk sid -> f <> NoFault ->
    snd (regenerate c cc rd now cs params (s, f :: rest)) = MPanic.
  Proof.
    intros S Cr Es Hf. apply (read_sid_carries _ _ _ _ _ _ S) in Cr. unfold SessModel.regenerate. rewrite Es, Cr. unfold p_regenerate.
    assert (X : snd (call c now (OGet old) (s, f :: rest)) = RFail).
    { unfold call, cache_do. cbn [fst snd hd tl]. replace (round_trip (cf_cache c) (OGet old)) with true by (destruct (cf_cache c); reflexivity). destruct f; [congruence|reflexivity|reflexivity]. }
    rewrite X. reflexivity.
  Qed.
  (** when removing the old id fails nobody notices, and it goes on working *)
  Theorem C45_old_id_refuted c cc rd now cs params s old t m sid :
    mac -> sane c -> cf_expire c <= cap (cf_cache c) -> 0 < now < 2 ^ 63 -> create_sid rd now = ROk sid -> sid <> [] -> sid <> old ->
    storable (cf_cache c) old -> storable (cf_cache c) sid -> carries c (cc_name cc) now cs old t ->
    snd (read c now old (s, [])) = RdOk (mkSess old m false false) -> early (cf_cache c) < cf_expire c * 1000000000 ->
    exists s' ck, regenerate c cc rd now cs params (s, [NoFault; NoFault; FaultBefore]) = ((s', []), MOk (mkSess sid m false false) now (Some ck)) /\
      snd (read c now old (s', [])) = RdOk (mkSess old m false false).
  Proof.
    intros M S Hcap Hn Es Hs0 Hne Lo Ls Cr Rd Hx. rewrite (read_nofault _ _ _ _ Lo) in Rd. cbn [snd] in Rd.
    destruct (look (cf_cache c) now s (full (cf_cache c) old)) as [e|] eqn:Le; [|discriminate].
    destruct (unmarshal (utils_tostr (e_val e))) as [m'|] eqn:U; [|discriminate]. injection Rd as ->.
    destruct (cookie_carries c cc sid now M S Hs0 Hn) as (ck & W & _ & Hck).
    unfold SessModel.regenerate. rewrite Es. apply (read_sid_carries _ _ _ _ _ _ S) in Cr. rewrite Cr.
    set (b := cf_cache c) in *. set (v := utils_tostr (e_val e)) in *.
    assert (Hfit : fits b (Some (cf_expire c))) by exact Hcap.
    destruct (set_look b now 0 s sid (AStr v) (Some (cf_expire c)) Ls I Hfit) as (e2 & L2 & V2 & D2); [apply not_ended; [apply S|lia]|]. rewrite Z.add_0_r in L2. cbn [utils_tostr] in V2.
    set (s2 := fst (server_do b now s (OSet sid (AStr v) (Some (cf_expire c))))) in *.
    assert (G : call c now (OGet old) (s, [NoFault; NoFault; FaultBefore]) = ((s, [NoFault; FaultBefore]), RVal v)).
    { unfold call, cache_do. cbn [fst snd hd tl]. fold b. replace (round_trip b (OGet old)) with true by (destruct b; reflexivity). cbn [negb]. rewrite (do_get _ _ _ _ Lo), Le. reflexivity. }
    assert (G2 : call c now (OSet sid (AStr v) (Some (cf_expire c))) (s, [NoFault; FaultBefore]) = ((s2, [FaultBefore]), RDone)).
    { unfold call, cache_do. cbn [fst snd hd tl]. fold b. replace (round_trip b (OSet sid (AStr v) (Some (cf_expire c)))) with true by (destruct b; reflexivity). cbn [negb]. rewrite D2. reflexivity. }
    assert (G3 : call c now (ODelete old) (s2, [FaultBefore]) = ((s2, []), RFail)).
    { unfold call, cache_do. cbn [fst snd hd tl]. fold b. replace (round_trip b (ODelete old)) with true by (destruct b; reflexivity). reflexivity. }
    unfold p_regenerate. rewrite G. cbn [fst snd]. rewrite G2. cbn [fst snd]. unfold p_destroy. rewrite G3. cbn [fst snd].
    rewrite (read_nofault _ _ _ _ Ls). fold b. rewrite L2, V2, U. cbn [fst snd ss_sid]. rewrite W. exists s2, ck. split; [reflexivity|].
    rewrite (read_nofault _ _ _ _ Lo). fold b. cbn [snd].
    assert (Ao : aget s2 (full b old) = aget s (full b old)).
    { apply (frame b now s (OSet sid (AStr v) (Some (cf_expire c))) sid); [reflexivity|]. intros H. apply full_inj in H. congruence. }
    rewrite (look_aget _ _ _ _ _ Ao), Le. fold v. rewrite U. reflexivity.
  Qed.

  (** ** C47 *)
  (** what can be done with a session object *)
  Inductive oact := ADo (o : sop) | AFlush | ATouch | ADestroy.
  Definition odo (c : scfg) (now : Z) (a : oact) (x : sess * net) : sess * net :=
    match a with
    | ADo o => (apply_op (fst x) o, snd x)
    | AFlush => fst (flush c now (fst x) (snd x))
    | ATouch => fst (s_touch V c now (fst x) (snd x))
    | ADestroy => fst (s_destroy V c now (fst x) (snd x))
    end.
  (** each some time after the one before *)
  Fixpoint orun (c : scfg) (now : Z) (l : list (Z * oact)) (x : sess * net) : Z * (sess * net) :=
    match l with
    | [] => (now, x)
    | (d, a) :: l' => orun c (now + d) l' (odo c (now + d) a x)
    end.
  Lemma gone_same b now s k o : find_old b now s (full b k) = None -> match o with OTouch k' _ | ODelete k' | OGet k' => k' = k | _ => False end ->
    fst (server_do b now s o) = s.
  Proof.
    intros H Ho. destruct o; try contradiction; subst k0; destruct b; cbn [server_do mgo_do redis_do mc_do full] in *; unfold find_old, look, live in H; unfold redis_get, mc_get; try (destruct (aget s k); [congruence|]); try (destruct (aget s (prefix ++ k))).
    all: repeat match goal with |- context [if ?x then _ else _] => destruct x eqn:?; try reflexivity end; try congruence; try (destruct (mgo_get_value _ _); reflexivity); try reflexivity.
  Qed.
  Lemma gone_step c now o k n : find_old (cf_cache c) now (fst n) (full (cf_cache c) k) = None -> match o with OTouch k' _ | ODelete k' | OGet k' => k' = k | _ => False end ->
    fst (fst (call c now o n)) = fst n.
  Proof.
    intros H Ho. rewrite call_fst. cbn [fst]. unfold cache_do. pose proof (gone_same _ _ _ _ _ H Ho) as G. destruct (negb _); [exact G|]. destruct (hd _ _); [exact G|reflexivity|exact G].
  Qed.
  Lemma odo_gone c now a s n : find_old (cf_cache c) now (fst n) (full (cf_cache c) (ss_sid s)) = None -> ss_closed s = true ->
    fst (snd (odo c now a (s, n))) = fst n /\ ss_sid (fst (odo c now a (s, n))) = ss_sid s /\ ss_closed (fst (odo c now a (s, n))) = true.
  Proof.
    intros H Hc. destruct a as [o| | |]; cbn [odo fst snd].
    - split; [reflexivity|]. destruct o; auto.
    - unfold s_flush. rewrite Hc. auto.
    - unfold s_touch. cbn [fst snd]. split; [|auto]. apply (gone_step c now _ (ss_sid s) n H). reflexivity.
    - unfold s_destroy, p_destroy. cbn [fst snd ss_sid ss_closed]. split; [|auto]. apply (gone_step c now _ (ss_sid s) n H). reflexivity.
  Qed.
  Lemma orun_gone c l : forall now s n, Forall (fun p => 0 <= fst p) l -> find_old (cf_cache c) now (fst n) (full (cf_cache c) (ss_sid s)) = None -> ss_closed s = true ->
    find_old (cf_cache c) (fst (orun c now l (s, n))) (fst (snd (snd (orun c now l (s, n))))) (full (cf_cache c) (ss_sid s)) = None.
  Proof.
    induction l as [|[d a] l IH]; intros now s n F H Hc; [exact H|]. inversion F as [|x y Hd F']. cbn [fst] in Hd. subst. cbn [orun].
    assert (H' : find_old (cf_cache c) (now + d) (fst n) (full (cf_cache c) (ss_sid s)) = None) by (eapply find_old_later; [|exact H]; lia).
    destruct (odo_gone c (now + d) a s n H' Hc) as (A & B & C). destruct (odo c (now + d) a (s, n)) as [s1 n1]. cbn [fst snd] in *.
    rewrite <- B. apply IH; [exact F'| |exact C]. rewrite A, B. exact H'.
  Qed.
  (** once Destroy has reached the server, nothing the object does, whenever and with any
      connection failures, brings the session back *)
  Theorem C47_destroyed_stays_partial c now s n f fs l :
    storable (cf_cache c) (ss_sid s) -> f <> FaultBefore -> Forall (fun p => 0 <= fst p) l ->
    let x := fst (s_destroy V c now s (n, f :: fs)) in
    let y := orun c now l x in
    forall d, 0 <= d -> snd (read c (fst y + d) (ss_sid s) (fst (snd (snd y)), [])) = RdNotFound.
  Proof.
    intros L Hf F. cbv zeta. intros d Hd. unfold s_destroy, p_destroy. cbn [fst snd].
    set (s1 := mkSess (ss_sid s) [] (ss_changed s) true). set (n1 := fst (call c now (ODelete (ss_sid s)) (n, f :: fs))).
    assert (G : find_old (cf_cache c) now (fst n1) (full (cf_cache c) (ss_sid s1)) = None).
    { unfold n1. rewrite call_fst. cbn [fst snd hd]. unfold cache_do.
      replace (round_trip (cf_cache c) (ODelete (ss_sid s))) with true by (destruct (cf_cache c); reflexivity). cbn [negb].
      destruct f; [|congruence|]; cbn [fst]; apply delete_gone; auto; lia. }
    pose proof (orun_gone c l now s1 n1 F G eq_refl) as R. cbn [s1 ss_sid] in R. fold s1 in R.
    rewrite (read_nofault _ _ _ _ L). cbn [snd]. rewrite find_old_look; [reflexivity|]. eapply find_old_later; [|exact R]. match goal with |- ?a <= ?b + d => change b with a end. lia.
  Qed.
  (** another object of the session, or the one of a request whose manager destroyed it, brings it back when it is flushed *)
  Theorem C47_other_object_refuted norm c now s other n b d :
    codec marshal unmarshal norm -> ss_sid other = ss_sid s -> ss_closed other = false -> ss_changed other = true -> marshal (ss_values other) = Some b ->
    storable (cf_cache c) (ss_sid s) -> 0 < cf_expire c <= cap (cf_cache c) -> d + early (cf_cache c) < cf_expire c * 1000000000 ->
    exists n1 n2 s2,
      snd (fst (s_destroy V c now s (n, []))) = n1 /\ snd (fst (flush c now other n1)) = n2 /\
      snd (read c (now + d) (ss_sid s) n2) = RdOk s2 /\ forall k, s_get V k s2 = option_map norm (s_get V k other).
  Proof.
    intros C Hs Hc Hg Hm L Hx Hd. eexists _, _. unfold s_destroy, p_destroy. rewrite call_nofault. cbn [fst snd].
    destruct (C46_flush_then_read norm c now other (fst (server_do (cf_cache c) now n (ODelete (ss_sid s)))) d b C Hc Hg Hm) as (s1 & n1 & n2 & s2 & A & _ & D & _ & G); auto; [rewrite Hs; exact L|].
    exists s2. split; [reflexivity|]. split; [reflexivity|]. rewrite A. cbn [fst snd]. rewrite <- Hs, D. auto.
  Qed.

  (** ** C49 *)
  Inductive act := OfObject (s : sess) (a : oact) | OfRead (sid : bytes) | OfRegenerate (old sid : bytes) | OfDestroy (sid : bytes).
  Definition touches (a : act) : list bytes :=
    match a with OfObject s _ => [ss_sid s] | OfRead k | OfDestroy k => [k] | OfRegenerate k k' => [k; k'] end.
  Definition do_act (c : scfg) (now : Z) (a : act) (n : net) : net :=
    match a with
    | OfObject s a => snd (odo c now a (s, n))
    | OfRead k => fst (read c now k n)
    | OfRegenerate k k' => fst (p_regenerate V unmarshal c now k k' n)
    | OfDestroy k => fst (p_destroy c now k n)
    end.
  Definition do_acts (c : scfg) (l : list (Z * act)) (n : net) : net := fold_left (fun n p => do_act c (fst p) (snd p) n) l n.
  Lemma call_frame c now o k n K : okey o = Some k -> full (cf_cache c) k <> K -> aget (fst (fst (call c now o n))) K = aget (fst n) K.
  Proof.
    intros E H. rewrite call_fst. cbn [fst]. unfold cache_do. pose proof (frame (cf_cache c) now (fst n) o k K E H) as X. destruct (negb _); [exact X|]. destruct (hd _ _); [exact X|reflexivity|exact X].
  Qed.
  Lemma act_frame c now a n k : ~ In k (touches a) -> aget (fst (do_act c now a n)) (full (cf_cache c) k) = aget (fst n) (full (cf_cache c) k).
  Proof.
    intros H. assert (X : forall k' o m, okey o = Some k' -> In k' (touches a) -> aget (fst (fst (call c now o m))) (full (cf_cache c) k) = aget (fst m) (full (cf_cache c) k)).
    { intros k' o m E Hi. apply (call_frame c now o k' m _ E). intros F. apply full_inj in F. subst. contradiction. }
    destruct a as [s [o| | |]|k0|k0 k1|k0]; cbn [do_act odo snd fst touches] in *.
    - reflexivity.
    - unfold s_flush. destruct (ss_closed s); [reflexivity|]. destruct (negb _); [reflexivity|]. cbn [fst snd]. unfold save. destruct (marshal _); [|reflexivity]. cbn [fst]. apply (X (ss_sid s)); [reflexivity|left; reflexivity].
    - apply (X (ss_sid s)); [reflexivity|left; reflexivity].
    - apply (X (ss_sid s)); [reflexivity|left; reflexivity].
    - apply (X k0); [reflexivity|left; reflexivity].
    - assert (G : aget (fst (fst (call c now (OGet k0) n))) (full (cf_cache c) k) = aget (fst n) (full (cf_cache c) k)) by (apply (X k0); [reflexivity|left; reflexivity]).
      unfold p_regenerate. destruct (snd (call c now (OGet k0) n)); try exact G.
      set (n1 := fst (call c now (OGet k0) n)) in *.
      assert (G2 : aget (fst (fst (call c now (OSet k1 (AStr s) (Some (cf_expire c))) n1))) (full (cf_cache c) k) = aget (fst n) (full (cf_cache c) k))
        by (rewrite <- G; apply (X k1); [reflexivity|right; left; reflexivity]).
      destruct (snd (call c now (OSet k1 (AStr s) (Some (cf_expire c))) n1)); try exact G2.
      set (n2 := fst (call c now (OSet k1 (AStr s) (Some (cf_expire c))) n1)) in *.
      unfold p_read. cbn [fst]. rewrite (X k1 (OGet k1)); [|reflexivity|right; left; reflexivity].
      unfold p_destroy. cbn [fst]. rewrite (X k0 (ODelete k0)); [exact G2|reflexivity|left; reflexivity].
    - apply (X k0); [reflexivity|left; reflexivity].
  Qed.
  Theorem C49_sessions_isolated c l n now k :
    Forall (fun p => ~ In k (touches (snd p))) l -> storable (cf_cache c) k ->
    snd (read c now k (fst (do_acts c l n), [])) = snd (read c now k (fst n, [])).
  Proof.
    intros F L. rewrite !(read_nofault _ _ _ _ L). cbn [snd].
    assert (A : aget (fst (do_acts c l n)) (full (cf_cache c) k) = aget (fst n) (full (cf_cache c) k)).
    { clear L. revert n. induction F as [|[t a] l Ha F IH]; intros n; [reflexivity|]. unfold do_acts in *. cbn [fold_left fst snd] in *. rewrite IH. apply act_frame. exact Ha. }
    rewrite (look_aget _ _ _ _ _ A). reflexivity.
  Qed.

  (** ** C99 *)
  (** after the manager's Destroy has reached the server, the cookie no longer leads to the values *)
  Theorem C99_logout_partial c cc rd now cs s f rest sid t d :
    sane c -> storable (cf_cache c) sid -> carries c (cc_name cc) now cs sid t -> f <> FaultBefore -> 0 <= d ->
    exists s', m_destroy hmac c cc now cs (s, f :: rest) = ((s', rest), Some (mkSetCookie (cc_name cc) [] (-1))) /\
      (carries c (cc_name cc) (now + d) cs sid t -> snd (start c cc rd (now + d) cs (s', [])) = MOk (mkSess sid [] false false) t None).
  Proof.
    intros S L Cr Hf Hd. unfold m_destroy. rewrite (proj2 (read_sid_carries _ _ _ _ _ _ S) Cr). unfold p_destroy. rewrite call_fst. cbn [fst snd hd tl].
    eexists. split; [reflexivity|]. intros Cr'. apply C44_fresh_id_refuted; auto. rewrite (read_nofault _ _ _ _ L). cbn [snd].
    rewrite find_old_look; [reflexivity|]. unfold cache_do. replace (round_trip (cf_cache c) (ODelete sid)) with true by (destruct (cf_cache c); reflexivity). cbn [negb].
    destruct f; [|congruence|]; cbn [fst]; apply delete_gone; auto; lia.
  Qed.
  (** if it does not reach the server Destroy still reports success, and the cookie goes on working for who kept it *)
  Theorem C99_logout_refuted c cc rd now cs s rest sid t x :
    sane c -> storable (cf_cache c) sid -> carries c (cc_name cc) now cs sid t ->
    snd (start c cc rd now cs (s, [])) = MOk x t None ->
    m_destroy hmac c cc now cs (s, FaultBefore :: rest) = ((s, rest), Some (mkSetCookie (cc_name cc) [] (-1))) /\
    snd (start c cc rd now cs (fst (fst (m_destroy hmac c cc now cs (s, FaultBefore :: rest))), [])) = MOk x t None.
  Proof.
    intros S L Cr H. assert (E : m_destroy hmac c cc now cs (s, FaultBefore :: rest) = ((s, rest), Some (mkSetCookie (cc_name cc) [] (-1)))).
    { unfold m_destroy. rewrite (proj2 (read_sid_carries _ _ _ _ _ _ S) Cr). unfold p_destroy. rewrite call_fst. cbn [fst snd hd tl]. unfold cache_do.
      replace (round_trip (cf_cache c) (ODelete sid)) with true by (destruct (cf_cache c); reflexivity). reflexivity. }
    split; [exact E|]. rewrite E. exact H.
  Qed.
End SessProps.

(** ** Examples *)
(** a codec for maps from strings to strings *)
Definition toy_marshal (m : amap bytes) : option bytes := Some (join (bs "&") (map (fun p => query_escape (fst p) ++ bs "=" ++ query_escape (snd p)) m)).
Definition toy_unmarshal (b : bytes) : option (amap bytes) :=
  match b with
  | [] => Some []
  | _ => Some (flat_map (fun e => match splitn_byte "=" 2 e with
                                  | [k; v] => match query_unescape k, query_unescape v with Some k, Some v => [(k, v)] | _, _ => [] end
                                  | _ => []
                                  end) (split_byte "&" b))
  end.
Definition ex_cfg (b : backend) : scfg := mkCfg (bs "secret") 3600 b.
Definition ex_cc : ccfg := mkCcfg (bs "SSID") 0.
Lemma toy_codec : codec toy_marshal toy_unmarshal (fun v => v).
Proof.
  intros m b [= <-]. exists m. split; [|intros k; destruct (aget m k); reflexivity].
  assert (U : forall b, b <> [] -> toy_unmarshal b = Some (flat_map (fun e => match splitn_byte "=" 2 e with
    | [k; v] => match query_unescape k, query_unescape v with Some k, Some v => [(k, v)] | _, _ => [] end | _ => [] end) (split_byte "&" b))) by (intros [|a b] H; [congruence|reflexivity]).
  set (f := fun p : bytes * bytes => query_escape (fst p) ++ bs "=" ++ query_escape (snd p)).
  assert (Hne : forall p r, join (bs "&") (map f (p :: r)) <> []).
  { intros p r H. assert (Hi : In "="%char (join (bs "&") (map f (p :: r)))).
    { cbn [map join]. destruct (map f r); [|apply in_or_app; left]; unfold f; apply in_or_app; right; left; reflexivity. }
    rewrite H in Hi. exact Hi. }
  destruct m as [|p r]; [reflexivity|]. change (toy_unmarshal (join (bs "&") (map f (p :: r))) = Some (p :: r)). rewrite (U _ (Hne p r)). clear U Hne. f_equal.
  change (bs "&") with ["&"%char]. rewrite split_join; [|discriminate|].
  - induction (p :: r) as [|q l IH]; [reflexivity|]. cbn [map flat_map]. rewrite IH. clear IH. unfold f at 1. change (bs "=") with ["="%char]. cbn [app].
    rewrite splitn2_app by (apply query_escape_free; reflexivity). rewrite !query_round. destruct q. reflexivity.
  - apply Forall_forall. intros x Hx Hi. apply in_map_iff in Hx as (q & <- & _). unfold f in Hi. apply in_app_or in Hi as [Hi|Hi].
    + apply query_escape_free in Hi; [exact Hi|reflexivity].
    + apply in_app_or in Hi as [[Hi|[]]|Hi]; [discriminate|]. apply query_escape_free in Hi; [exact Hi|reflexivity].
Qed.
Lemma toy_mac : mac toy_hmac. Proof. discriminate. Qed.
Lemma ex_sane b : sane (ex_cfg b). Proof. split; [cbn; lia|discriminate]. Qed.
Definition ex_sid : bytes := Eval vm_compute in match create_sid zeros t2020 with ROk s => s | _ => [] end.
Definition ex_ck : bytes := Eval vm_compute in match encode_secure toy_hmac ex_sid (bs "secret") t2020 with Some v => v | None => [] end.
Definition three : list backend := [BMgo true; BRedis (bs "s:"); BMc (bs "s:")].
Notation ex_start := (start bytes toy_unmarshal toy_hmac).
Notation ex_flush := (s_flush bytes toy_marshal).
(** a first request sets two values; a second one, 30 minutes later, has them; Regenerate moves them; Destroy ends it *)
Example C46_example : delivers zeros /\ forallb (fun b =>
  match ex_start (ex_cfg b) ex_cc zeros t2020 [] ([], []) with
  | (n0, MOk s _ (Some ck)) =>
      match ex_flush (ex_cfg b) t2020 (s_set bytes (bs "user") (bs "ann & bob") (s_set bytes (bs "n") [] s)) n0 with
      | (_, n1, SFine) =>
          match ex_start (ex_cfg b) ex_cc zeros (t2020 + sec 1800) [(bs "SSID", sc_value ck)] n1 with
          | (n2, MOk s2 c2 None) => beq (ss_sid s2) (ss_sid s) && match s_get bytes (bs "user") s2 with Some v => beq v (bs "ann & bob") | None => false end && (c2 =? t2020)
          | _ => false
          end
      | _ => false
      end
  | _ => false
  end) three = true.
Proof. split; [exact (proj1 C43_example)|vm_compute; reflexivity]. Qed.
(** the hypotheses of C45-C49 and C99 hold together on all three back ends *)
Example C45_example : Forall (fun b =>
  let s0 := fst (snd (fst (ex_flush (ex_cfg b) t2020 (s_set bytes (bs "u") (bs "v") (mkSess ex_sid [] false false)) ([], [])))) in
  carries toy_hmac (ex_cfg b) (bs "SSID") (t2020 + sec 5) [(bs "SSID", ex_ck)] ex_sid t2020 /\ storable b ex_sid /\
  snd (p_read bytes toy_unmarshal (ex_cfg b) (t2020 + sec 5) ex_sid (s0, [])) = RdOk (mkSess ex_sid [(bs "u", bs "v")] false false) /\
  snd (p_read bytes toy_unmarshal (ex_cfg b) (t2020 + sec 5) (bs "other") (s0, [])) = RdNotFound /\
  cf_expire (ex_cfg b) <= cap b /\ early b < cf_expire (ex_cfg b) * 1000000000 /\
  exists sid2, create_sid zeros (t2020 + sec 5) = ROk sid2 /\ sid2 <> ex_sid /\ sid2 <> []) three.
Proof.
  assert (C : forall b, carries toy_hmac (ex_cfg b) (bs "SSID") (t2020 + sec 5) [(bs "SSID", ex_ck)] ex_sid t2020).
  { intros b. apply (proj1 (read_sid_carries _ _ _ _ _ _ _ (ex_sane b))). vm_compute. reflexivity. }
  assert (D : exists sid2, create_sid zeros (t2020 + sec 5) = ROk sid2 /\ sid2 <> ex_sid /\ sid2 <> []) by (eexists; split; [vm_compute; reflexivity|split; discriminate]).
  apply Forall_forall. intros b Hb. cbv zeta. split; [apply C|].
  assert (S : storable b ex_sid) by (destruct Hb as [<-|[<-|[<-|[]]]]; [exact I|exact I|vm_compute; reflexivity]). split; [exact S|].
  split; [destruct Hb as [<-|[<-|[<-|[]]]]; vm_compute; reflexivity|]. split; [destruct Hb as [<-|[<-|[<-|[]]]]; vm_compute; reflexivity|].
  split; [destruct Hb as [<-|[<-|[<-|[]]]]; cbn; lia|]. split; [destruct Hb as [<-|[<-|[<-|[]]]]; cbn; lia|exact D].
Qed.
(** an id from a remember cookie *)
Definition ex_remember : bytes := Eval vm_compute in match write_remember toy_hmac (bs "secret") (bs "R") t2020 (bs "ann") (bs "salt") with Some c => snd c | None => [] end.
Example C44_example : write_remember toy_hmac (bs "secret") (bs "R") t2020 (bs "ann") (bs "salt") = Some (bs "R", ex_remember) /\
  match snd (ex_start (ex_cfg (BRedis [])) ex_cc zeros t2020 [(bs "SSID", ex_remember)] ([], [])) with MOk x _ None => firstn 4 (ss_sid x) = bs "ann|" | _ => False end.
Proof. split; vm_compute; reflexivity. Qed.

Print Assumptions C46_session_is_map.
Print Assumptions C46_flush_then_read.
Print Assumptions C48_retry_refuted.
Print Assumptions C48_retry_partial.
Print Assumptions C44_fresh_session.
Print Assumptions C44_existing_session.
Print Assumptions C44_id_not_chosen_partial.
Print Assumptions C44_fresh_id_refuted.
Print Assumptions C44_remember_as_session_refuted.
Print Assumptions C46_survives_requests.
Print Assumptions C45_regenerate_partial.
Print Assumptions C45_regenerate_new.
Print Assumptions C45_cache_error_refuted.
Print Assumptions C45_old_id_refuted.
Print Assumptions C47_destroyed_stays_partial.
Print Assumptions C47_other_object_refuted.
Print Assumptions C49_sessions_isolated.
Print Assumptions C99_logout_partial.
Print Assumptions C99_logout_refuted.
Print Assumptions C100_touch_extends.
