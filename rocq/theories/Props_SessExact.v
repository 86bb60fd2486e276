(** Props_SessExact: exact forms of C44, C45, C47, C48, C99: every outcome, with every
    connection failure. *)
From Coq Require Import List Ascii String Bool Arith ZArith Lia.
Import ListNotations.
From Verif Require Import GoStr GoNum GoEnc ConvModel SecureModel SecureFacts RandModel CacheModel CacheSpec SessModel Props_Secure Props_Rand Props_Cache Props_Sess.
Local Open Scope Z_scope.

(** whether a round trip whose connection failed like this reports an error, and whether the server carried it out *)
Definition reported_ok (f : fault) : bool := match f with NoFault => true | _ => false end.
Definition carried_out (f : fault) : bool := match f with FaultBefore => false | _ => true end.

Section SessExact.
  Variable V : Type.
  Variable marshal : amap V -> option bytes.
  Variable unmarshal : bytes -> option (amap V).
  Variable hmac : bytes -> bytes -> bytes.
  Notation sess := (sess V).
  Notation flush := (s_flush V marshal).
  Notation read := (p_read V unmarshal).
  Notation start := (start V unmarshal hmac).
  Notation regenerate := (regenerate V unmarshal hmac).
  Notation carries := (carries hmac).
  Notation mac := (mac hmac).

  Lemma get_keeps b now s k : fst (server_do b now s (OGet k)) = s.
  Proof using Type.
    destruct b; cbn [server_do mgo_do redis_do mc_do]; cbv zeta.
    - destruct (aget s k) as [e|]; [destruct (mgo_get_value now e)|]; reflexivity.
    - destruct (redis_get now s (prefix ++ k)); reflexivity.
    - destruct (mc_legal (prefix ++ k)); [|reflexivity]. destruct (mc_get now s (prefix ++ k)); reflexivity.
  Qed.
  Lemma call_fault c now o s f fs : round_trip (cf_cache c) o = true ->
    call c now o (s, f :: fs) = ((if carried_out f then fst (server_do (cf_cache c) now s o) else s, fs), if reported_ok f then snd (server_do (cf_cache c) now s o) else RFail).
  Proof using Type. intros R. unfold call, cache_do. cbn [fst snd hd tl]. rewrite R. cbn [negb]. destruct f; reflexivity. Qed.
  Lemma trip_get b k : round_trip b (OGet k) = true. Proof using Type. destruct b; reflexivity. Qed.
  Lemma trip_set b k v p : round_trip b (OSet k v p) = true. Proof using Type. destruct b; reflexivity. Qed.
  Lemma trip_del b k : round_trip b (ODelete k) = true. Proof using Type. destruct b; reflexivity. Qed.
  Lemma read_fault c now sid s f fs :
    read c now sid (s, f :: fs) = ((s, fs), if reported_ok f then snd (read c now sid (s, [])) else RdErr).
  Proof using Type.
    unfold p_read. rewrite call_fault by apply trip_get. rewrite call_nofault. cbn [fst snd]. rewrite get_keeps.
    destruct f; cbn [carried_out reported_ok]; reflexivity.
  Qed.

  (** *** C44 *)
  (** [f] is the failure, if any, of the one round trip to the cache *)
  Theorem C44_start_exact c cc rd now cs s f fs :
    mac -> sane c -> delivers rd -> 0 < now < 2 ^ 63 ->
    (* a cookie that is signed and not expired: its id is the session's id *)
    (forall sid t, carries c (cc_name cc) now cs sid t ->
       start c cc rd now cs (s, f :: fs) =
         ((s, fs), if reported_ok f then
                     match snd (read c now sid (s, [])) with
                     | RdOk x => MOk x t None
                     | RdNotFound => MOk (mkSess sid [] false false) t None
                     | RdErr => MErr None
                     end
                   else MErr None)) /\
    (* no such cookie: a new id and a cookie for it; the cache is not asked *)
    ((forall sid t, ~ carries c (cc_name cc) now cs sid t) ->
       exists sid ck, start c cc rd now cs (s, f :: fs) = ((s, f :: fs), MOk (mkSess sid [] false false) now (Some ck)) /\ create_sid rd now = ROk sid /\
         sc_name ck = cc_name cc /\ sc_max_age ck = Z.max 0 (cc_expire cc) /\
         forall now' cs', get_cookie cs' (cc_name cc) = Some (sc_value ck) -> now' <= now + cf_expire c * 1000000000 -> carries c (cc_name cc) now' cs' sid now).
  Proof using Type.
    intros M S Hd Hn. split.
    - intros sid t C. apply (read_sid_carries _ _ _ _ _ _ _ S) in C. unfold SessModel.start. rewrite C, read_fault. cbn [fst snd].
      destruct (reported_ok f); [|reflexivity]. destruct (snd (read c now sid (s, []))); reflexivity.
    - intros H. apply C44_fresh_session; assumption.
  Qed.

  (** *** C45 *)
  Lemma read_sid_of c now sid m s x : snd (read c now sid (s, [])) = RdOk x -> snd (read c now sid (s, [])) = RdOk m -> m = x.
  Proof using Type. intros -> H. congruence. Qed.
  (** the failures of the four round trips, in order: reading the old id, writing the new
      one, removing the old one, reading the new one *)
  Theorem C45_regenerate_exact c cc rd now cs params s old t sid f1 f2 f3 f4 fs d :
    mac -> sane c -> cf_expire c <= cap (cf_cache c) -> 0 < now < 2 ^ 63 -> create_sid rd now = ROk sid -> sid <> [] -> sid <> old ->
    storable (cf_cache c) old -> storable (cf_cache c) sid -> carries c (cc_name cc) now cs old t ->
    0 <= d -> d + early (cf_cache c) < cf_expire c * 1000000000 ->
    let r := regenerate c cc rd now cs params (s, f1 :: f2 :: f3 :: f4 :: fs) in
    let s' := fst (fst r) in
    let good_cookie ck := forall now' cs', get_cookie cs' (cc_name cc) = Some (sc_value ck) -> now' <= now + cf_expire c * 1000000000 -> carries c (cc_name cc) now' cs' sid now in
    (reported_ok f1 = false -> snd r = MPanic /\ s' = s) /\
    (reported_ok f1 = true ->
      match snd (read c now old (s, [])) with
      | RdNotFound => (* a new session with the given values *)
          s' = s /\ exists ck, snd r = MOk (mkSess sid (match params with Some m => m | None => [] end) (match params with Some _ => true | None => false end) false) now (Some ck) /\ good_cookie ck
      | RdErr => snd r = MPanic
      | RdOk x =>
          (* the outcome *)
          (if (reported_ok f2 && reported_ok f4)%bool
           then exists ck, snd r = MOk (mkSess sid (ss_values x) false false) now (Some ck) /\ good_cookie ck
           else snd r = MPanic) /\
          (* where the values are afterwards *)
          snd (read c (now + d) sid (s', [])) = (if carried_out f2 then RdOk (mkSess sid (ss_values x) false false) else snd (read c (now + d) sid (s, []))) /\
          snd (read c (now + d) old (s', [])) = (if (reported_ok f2 && carried_out f3)%bool then RdNotFound else snd (read c (now + d) old (s, [])))
      end) /\
    (* nobody else's session changes *)
    forall k, k <> old -> k <> sid -> storable (cf_cache c) k -> snd (read c (now + d) k (s', [])) = snd (read c (now + d) k (s, [])).
  Proof using Type.
    intros M S Hcap Hn Es Hs0 Hne Lo Ls Cr Hd Hx.
    destruct (cookie_carries hmac c cc sid now M S Hs0 Hn) as (ck & W & _ & Hck).
    assert (R : read_sid hmac c (cc_name cc) now cs = Some (old, t)) by (apply (read_sid_carries _ _ _ _ _ _ _ S); exact Cr).
    unfold SessModel.regenerate. rewrite Es, R. cbv zeta. cbn [fst snd].
    set (b := cf_cache c) in *. assert (Hfit : fits b (Some (cf_expire c))) by exact Hcap.
    rewrite (read_nofault V unmarshal c now old s Lo). fold b. cbn [snd].
    assert (Fr : forall k, k <> old -> k <> sid -> storable b k -> forall n', aget n' (full b k) = aget s (full b k) -> snd (read c (now + d) k (n', [])) = snd (read c (now + d) k (s, []))).
    { intros k _ _ Lk n' A. rewrite !(read_nofault V unmarshal _ _ _ _ Lk). fold b. cbn [snd]. rewrite (look_aget _ _ _ _ _ A). reflexivity. }
    assert (K1 : full b old <> full b sid) by (intros H; apply full_inj in H; congruence).
    unfold p_regenerate. rewrite (call_fault c now (OGet old)) by apply trip_get. cbn [fst snd]. rewrite get_keeps.
    assert (Es' : (if carried_out f1 then s else s) = s) by (destruct f1; reflexivity). rewrite Es'. fold b. rewrite (do_get b now s old Lo). cbn [snd].
    destruct (reported_ok f1) eqn:O1.
    2:{ cbn [fst snd]. split; [auto|]. split; [discriminate|]. reflexivity. }
    destruct (look b now s (full b old)) as [e|] eqn:Le.
    2:{ cbn [fst snd]. split; [discriminate|]. split; [|reflexivity]. intros _. split; [reflexivity|]. rewrite W. exists ck. split; [reflexivity|exact Hck]. }
    cbn iota beta. set (v := utils_tostr (e_val e)) in *.
    rewrite (call_fault c now (OSet sid (AStr v) (Some (cf_expire c)))) by apply trip_set. cbn [fst snd]. fold b.
    assert (Set_ : forall d, 0 <= d -> d + early b < cf_expire c * 1000000000 -> exists e2, look b (now + d) (fst (server_do b now s (OSet sid (AStr v) (Some (cf_expire c))))) (full b sid) = Some e2 /\
      utils_tostr (e_val e2) = v /\ snd (server_do b now s (OSet sid (AStr v) (Some (cf_expire c)))) = RDone).
    { intros d' Hd' Hx'. apply (set_look b now d' s sid (AStr v) (Some (cf_expire c)) Ls I Hfit). apply not_ended; [apply S|exact Hx']. }
    destruct (Set_ d Hd Hx) as (e2 & L2 & V2 & D2). destruct (Set_ 0) as (e0 & L0 & V0 & _); [lia|lia|]. rewrite Z.add_0_r in L0.
    rewrite D2. set (s2 := fst (server_do b now s (OSet sid (AStr v) (Some (cf_expire c))))) in *.
    assert (A2 : forall k, k <> sid -> aget s2 (full b k) = aget s (full b k)).
    { intros k Hk. apply (frame b now s (OSet sid (AStr v) (Some (cf_expire c))) sid); [reflexivity|]. intros H. apply full_inj in H. congruence. }
    destruct (reported_ok f2) eqn:O2.
    2:{ (* writing the new id failed *)
      cbn [fst snd]. split; [discriminate|]. split.
      - intros _. destruct (unmarshal v) as [m|] eqn:U; [|reflexivity]. cbn [andb ss_values]. split; [reflexivity|]. split.
        + destruct (carried_out f2); [|reflexivity]. rewrite (read_nofault V unmarshal _ _ _ _ Ls). fold b. cbn [snd]. rewrite L2, V2, U. reflexivity.
        + destruct (carried_out f2); [|reflexivity]. rewrite !(read_nofault V unmarshal _ _ _ _ Lo). fold b. cbn [snd].
          rewrite (look_aget _ _ _ _ _ (A2 old ltac:(congruence))). reflexivity.
      - intros k Hko Hks Lk. apply Fr; auto. destruct (carried_out f2); [apply A2; exact Hks|reflexivity]. }
    assert (C2 : carried_out f2 = true) by (destruct f2; [reflexivity|discriminate|discriminate]). rewrite C2.
    unfold p_destroy. rewrite (call_fault c now (ODelete old)) by apply trip_del. cbn [fst snd]. fold b.
    set (s3 := if carried_out f3 then fst (server_do b now s2 (ODelete old)) else s2).
    assert (A3 : forall k, k <> old -> aget s3 (full b k) = aget s2 (full b k)).
    { intros k Hk. unfold s3. destruct (carried_out f3); [|reflexivity]. apply (frame b now s2 (ODelete old) old); [reflexivity|]. intros H. apply full_inj in H. congruence. }
    rewrite read_fault. cbn [fst snd]. rewrite (read_nofault V unmarshal _ _ _ _ Ls). fold b. cbn [snd].
    rewrite (look_aget _ _ _ _ _ (A3 sid Hne)), L0, V0. split; [discriminate|]. split.
    - intros _. destruct (unmarshal v) as [m|] eqn:U; cbn [andb ss_values].
      + split.
        * destruct (reported_ok f4); [|reflexivity]. cbn [ss_sid]. rewrite W. exists ck. split; [reflexivity|exact Hck].
        * split.
          { rewrite (read_nofault V unmarshal _ _ _ _ Ls). fold b. cbn [snd]. rewrite (look_aget _ _ _ _ _ (A3 sid Hne)), L2, V2, U. reflexivity. }
          rewrite (read_nofault V unmarshal _ _ _ s3 Lo), (read_nofault V unmarshal _ _ _ s Lo). fold b. cbn [snd]. unfold s3. destruct (carried_out f3).
          { rewrite find_old_look; [reflexivity|]. apply delete_gone; [exact Lo|lia]. }
          rewrite (look_aget _ _ _ _ _ (A2 old ltac:(congruence))). reflexivity.
      + destruct (reported_ok f4); reflexivity.
    - intros k Hko Hks Lk. apply Fr; auto. rewrite A3 by exact Hko. apply A2. exact Hks.
  Qed.
  (** without a valid cookie the cache is not asked *)
  Theorem C45_no_cookie c cc rd now cs params n sid :
    mac -> sane c -> 0 < now < 2 ^ 63 -> create_sid rd now = ROk sid -> sid <> [] -> (forall old t, ~ carries c (cc_name cc) now cs old t) ->
    exists ck, regenerate c cc rd now cs params n =
      (n, MOk (mkSess sid (match params with Some m => m | None => [] end) (match params with Some _ => true | None => false end) false) now (Some ck)) /\
      forall now' cs', get_cookie cs' (cc_name cc) = Some (sc_value ck) -> now' <= now + cf_expire c * 1000000000 -> carries c (cc_name cc) now' cs' sid now.
  Proof using Type.
    intros M S Hn Es Hs0 H. destruct (cookie_carries hmac c cc sid now M S Hs0 Hn) as (ck & W & _ & Hck). exists ck. split; [|exact Hck].
    apply (read_sid_none _ _ _ _ _ S) in H. unfold SessModel.regenerate. rewrite Es, H, W. reflexivity.
  Qed.

  (** *** C47 *)
  (** the two things that can bring an id back: Flush of an open, changed object of that id,
      and regenerating another session into that id *)
  Definition revives (sid : bytes) (a : act V) : Prop :=
    match a with
    | OfObject _ x (AFlush _) => ss_sid x = sid /\ ss_closed x = false /\ ss_changed x = true
    | OfRegenerate _ k k' => k' = sid /\ k <> sid
    | _ => False
    end.
  Lemma act_gone c now a n sid : find_old (cf_cache c) now (fst n) (full (cf_cache c) sid) = None -> ~ revives sid a ->
    find_old (cf_cache c) now (fst (do_act V marshal unmarshal c now a n)) (full (cf_cache c) sid) = None.
  Proof using Type.
    intros H Hr. destruct (in_dec (list_eq_dec ascii_dec) sid (touches V a)) as [Hi|Hi].
    2:{ pose proof (act_frame V marshal unmarshal c now a n sid Hi) as A. unfold find_old, look in *. rewrite A. exact H. }
    assert (X : forall o, match o with OTouch k' _ | ODelete k' | OGet k' => k' = sid | _ => False end -> fst (fst (call c now o n)) = fst n)
      by (intros o Ho; exact (gone_step c now o sid n H Ho)).
    destruct a as [x [o| | |]|k0|k0 k1|k0]; cbn [do_act odo snd fst touches revives] in *.
    - exact H.
    - destruct Hi as [Hi|[]]. unfold s_flush. destruct (ss_closed x) eqn:Cx; [exact H|]. destruct (ss_changed x) eqn:Gx; [|exact H]. exfalso. apply Hr. auto.
    - destruct Hi as [Hi|[]]. unfold s_touch. cbn [fst snd]. rewrite X by exact Hi. exact H.
    - destruct Hi as [Hi|[]]. unfold s_destroy, p_destroy. cbn [fst snd]. rewrite X by exact Hi. exact H.
    - destruct Hi as [Hi|[]]. unfold p_read. cbn [fst snd]. rewrite X by exact Hi. exact H.
    - destruct (list_eq_dec ascii_dec k0 sid) as [Ek|Nk].
      + (* regenerating the id that is gone: it is not found *)
        subst k0. unfold p_regenerate. assert (F : fst (fst (call c now (OGet sid) n)) = fst n) by (apply X; reflexivity).
        assert (N : forall v, snd (call c now (OGet sid) n) <> RVal v).
        { intros v. rewrite call_fst. cbn [snd]. unfold cache_do. rewrite trip_get. cbn [negb].
          assert (L : look (cf_cache c) now (fst n) (full (cf_cache c) sid) = None) by (apply find_old_look; exact H).
          destruct (hd NoFault (snd n)); [|discriminate|discriminate]. intros E.
          assert (G : forall b s k v, snd (server_do b now s (OGet k)) = RVal v -> look b now s (full b k) <> None).
          { clear. intros b s k v. destruct b; cbn [server_do mgo_do redis_do mc_do full]; cbv zeta; unfold look, live, redis_get, mc_get, mgo_get_value.
            - destruct (aget s k) as [e|]; [|discriminate]. destruct (e_exp e) as [z|]; [|discriminate]. destruct (now <? z); discriminate.
            - destruct (aget s (prefix ++ k)) as [e|]; [|discriminate]. destruct (redis_live now e); discriminate.
            - destruct (mc_legal (prefix ++ k)); [|discriminate]. destruct (aget s (prefix ++ k)) as [e|]; [|discriminate]. destruct (mc_live now e); discriminate. }
          apply G in E. congruence. }
        destruct (snd (call c now (OGet sid) n)) eqn:Eo; try (cbn [fst]; rewrite F; exact H). exfalso. eapply N. reflexivity.
      + destruct Hi as [Hi|[Hi|[]]]; [congruence|]. exfalso. apply Hr. auto.
    - destruct Hi as [Hi|[]]. unfold p_destroy. cbn [fst snd]. rewrite X by exact Hi. exact H.
  Qed.
  (** any actions of anybody, one after the other *)
  Fixpoint later (now : Z) (l : list (Z * act V)) : Prop :=
    match l with [] => True | (t, _) :: l' => now <= t /\ later t l' end.
  Fixpoint last_time (now : Z) (l : list (Z * act V)) : Z := match l with [] => now | (t, _) :: l' => last_time t l' end.
  Lemma acts_gone c sid l : forall now n, later now l -> find_old (cf_cache c) now (fst n) (full (cf_cache c) sid) = None ->
    Forall (fun p => ~ revives sid (snd p)) l -> find_old (cf_cache c) (last_time now l) (fst (do_acts V marshal unmarshal c l n)) (full (cf_cache c) sid) = None.
  Proof using Type.
    induction l as [|[t a] l IH]; intros now n Hl H F; [exact H|]. cbn [later last_time] in *. destruct Hl as (Ht & Hl). inversion F as [|x y Hr F']. subst.
    unfold do_acts in *. cbn [fold_left fst snd] in *. apply IH; auto. apply act_gone; [|exact Hr]. eapply find_old_later; [exact Ht|exact H].
  Qed.
  (** once Destroy, of the session or of the manager, has been carried out by the server, the id
      is not found again unless one of the two things happens, whatever else anybody does and
      whatever fails *)
  Theorem C47_destroyed_exact c now sid s f fs l d :
    storable (cf_cache c) sid -> carried_out f = true -> later now l -> 0 <= d ->
    Forall (fun p => ~ revives sid (snd p)) l ->
    forall n', n' = fst (p_destroy c now sid (s, f :: fs)) ->
    snd (read c (last_time now l + d) sid (fst (do_acts V marshal unmarshal c l n'), [])) = RdNotFound.
  Proof using Type.
    intros L Hf Hl Hd F n' ->. rewrite (read_nofault V unmarshal _ _ _ _ L). cbn [snd]. rewrite find_old_look; [reflexivity|].
    eapply find_old_later; [|apply acts_gone with (now := now); [exact Hl| |exact F]]; [lia|].
    unfold p_destroy. rewrite call_fault by apply trip_del. cbn [fst]. rewrite Hf. apply delete_gone; [exact L|lia].
  Qed.
  (** what Destroy of a session object and of the manager do to the server is exactly that *)
  Theorem C47_both_destroy c cc now (x : sess) cs n :
    snd (fst (s_destroy V c now x n)) = fst (p_destroy c now (ss_sid x) n) /\
    (sane c -> forall sid t, carries c (cc_name cc) now cs sid t -> fst (m_destroy hmac c cc now cs n) = fst (p_destroy c now sid n)).
  Proof using Type.
    split; [reflexivity|]. intros S sid t C. unfold m_destroy. apply (read_sid_carries _ _ _ _ _ _ _ S) in C. rewrite C. reflexivity.
  Qed.
  (** and each of the two does bring it back *)
  Theorem C47_revived c now a sid s :
    revives sid a -> storable (cf_cache c) sid -> 0 < cf_expire c <= cap (cf_cache c) -> early (cf_cache c) < cf_expire c * 1000000000 ->
    match a with
    | OfObject _ x _ => forall m' b, marshal (ss_values x) = Some b -> unmarshal b = Some m' ->
        snd (read c now sid (fst (do_act V marshal unmarshal c now a (s, [])), [])) = RdOk (mkSess sid m' false false)
    | OfRegenerate _ k _ => forall x, storable (cf_cache c) k -> snd (read c now k (s, [])) = RdOk x ->
        snd (read c now sid (fst (do_act V marshal unmarshal c now a (s, [])), [])) = RdOk (mkSess sid (ss_values x) false false)
    | _ => False
    end.
  Proof using Type.
    intros Hr L Hx He. assert (Fit : fits (cf_cache c) (Some (cf_expire c))) by apply Hx.
    assert (NE : ended (now + 0) (ends (cf_cache c) now (Some (cf_expire c))) = false) by (apply not_ended; lia).
    destruct a as [x [o| | |]|k0|k0 k1|k0]; try contradiction.
    - destruct Hr as (Hs & Hc & Hg). intros m' b Hm U. cbn [do_act odo snd fst]. unfold s_flush. rewrite Hc, Hg. cbn [negb]. unfold save. rewrite Hm, call_nofault. cbn [fst snd].
      subst sid. destruct (set_look (cf_cache c) now 0 s (ss_sid x) (ABytes b) (Some (cf_expire c)) L I Fit NE) as (e & Le & Ve & Re). rewrite Z.add_0_r in Le.
      rewrite (read_nofault V unmarshal _ _ _ _ L), Le, Ve. cbn [utils_tostr snd]. rewrite U. reflexivity.
    - destruct Hr as (-> & Hk). intros x Lk Rd. cbn [do_act]. rewrite (read_nofault V unmarshal _ _ _ _ Lk) in Rd. cbn [snd] in Rd.
      destruct (look (cf_cache c) now s (full (cf_cache c) k0)) as [e|] eqn:Le; [|discriminate]. destruct (unmarshal (utils_tostr (e_val e))) as [m|] eqn:U; [|discriminate].
      assert (ss_values x = m) as -> by (injection Rd as <-; reflexivity).
      unfold p_regenerate. rewrite call_nofault, (do_get _ _ _ _ Lk), Le. cbn [fst snd].
      destruct (set_look (cf_cache c) now 0 s sid (AStr (utils_tostr (e_val e))) (Some (cf_expire c)) L I Fit NE) as (e2 & L2 & V2 & D2). rewrite Z.add_0_r in L2. cbn [utils_tostr] in V2.
      rewrite call_nofault, D2. cbn [fst snd]. unfold p_destroy. rewrite call_nofault. cbn [fst snd].
      set (s2 := fst (server_do (cf_cache c) now s (OSet sid (AStr (utils_tostr (e_val e))) (Some (cf_expire c))))) in *.
      assert (A3 : aget (fst (server_do (cf_cache c) now s2 (ODelete k0))) (full (cf_cache c) sid) = aget s2 (full (cf_cache c) sid)).
      { apply (frame (cf_cache c) now s2 (ODelete k0) k0); [reflexivity|]. intros H. apply full_inj in H. congruence. }
      rewrite (read_nofault V unmarshal _ _ _ _ L). cbn [fst]. rewrite (read_nofault V unmarshal _ _ _ _ L). cbn [snd].
      rewrite (look_aget _ _ _ _ _ A3), L2, V2, U. reflexivity.
  Qed.

  (** *** C48 *)
  (** Flush saves exactly if the object is open and was changed since the last Flush that found
      it so; whatever comes of it, the next Flush without a change in between does nothing *)
  Theorem C48_flush_exact c now (x : sess) s f fs :
    let r := flush c now x (s, f :: fs) in
    let x' := fst (fst r) in
    ((ss_closed x = true \/ ss_changed x = false) -> r = (x, (s, f :: fs), SFine)) /\
    (ss_closed x = false -> ss_changed x = true ->
       x' = mkSess (ss_sid x) (ss_values x) false false /\
       (forall b, marshal (ss_values x) = Some b -> storable (cf_cache c) (ss_sid x) -> 0 < cf_expire c <= cap (cf_cache c) ->
          snd r = (if reported_ok f then SFine else SFailed) /\
          snd (fst r) = ((if carried_out f then fst (server_do (cf_cache c) now s (OSet (ss_sid x) (ABytes b) (Some (cf_expire c)))) else s), fs)) /\
       (marshal (ss_values x) = None -> snd r = SFailed /\ snd (fst r) = (s, f :: fs)) /\
       forall now' n, flush c now' x' n = (x', n, SFine)).
  Proof using Type.
    cbv zeta. split.
    - intros [H|H]; unfold s_flush; rewrite H; [reflexivity|]. destruct (ss_closed x); reflexivity.
    - intros Hc Hg. unfold s_flush. rewrite Hc, Hg. cbn [negb fst snd]. split; [reflexivity|]. split; [|split].
      + intros b Hm L Hx. unfold save. rewrite Hm. rewrite call_fault by apply trip_set. cbn [fst snd].
        destruct (do_set (cf_cache c) now s (ss_sid x) (ABytes b) (Some (cf_expire c)) L I ltac:(apply Hx)) as (v' & _ & ->). cbn [fst snd].
        split; [destruct (reported_ok f); reflexivity|reflexivity].
      + intros Hm. unfold save. rewrite Hm. auto.
      + intros now' n. reflexivity.
  Qed.

  (** *** C99 *)
  (** Destroy with a valid cookie always expires it in the browser; whoever kept it finds an
      empty session under the same id if the removal was carried out, and what was there
      before if it was not; without a valid cookie nothing happens *)
  Theorem C99_logout_exact c cc rd now cs s f fs d f' fs' :
    sane c -> 0 <= d ->
    (forall sid t, carries c (cc_name cc) now cs sid t -> storable (cf_cache c) sid ->
       exists s', m_destroy hmac c cc now cs (s, f :: fs) = ((s', fs), Some (mkSetCookie (cc_name cc) [] (-1))) /\
         (carried_out f = false -> s' = s) /\
         (carried_out f = true -> carries c (cc_name cc) (now + d) cs sid t ->
            snd (start c cc rd (now + d) cs (s', f' :: fs')) = if reported_ok f' then MOk (mkSess sid [] false false) t None else MErr None)) /\
    ((forall sid t, ~ carries c (cc_name cc) now cs sid t) -> m_destroy hmac c cc now cs (s, f :: fs) = ((s, f :: fs), None)).
  Proof using Type.
    intros S Hd. split.
    - intros sid t C L. unfold m_destroy. rewrite (proj2 (read_sid_carries _ _ _ _ _ _ _ S) C). unfold p_destroy. rewrite call_fault by apply trip_del. cbn [fst snd].
      eexists. split; [reflexivity|]. split; [intros ->; reflexivity|]. intros -> C'.
      unfold SessModel.start. rewrite (proj2 (read_sid_carries _ _ _ _ _ _ _ S) C'), read_fault. cbn [fst snd]. destruct (reported_ok f'); [|reflexivity].
      rewrite (read_nofault V unmarshal _ _ _ _ L). cbn [snd]. rewrite find_old_look; [reflexivity|]. apply delete_gone; [exact L|lia].
    - intros H. unfold m_destroy. rewrite (proj2 (read_sid_none _ _ _ _ _ S) H). reflexivity.
  Qed.
  (** *** What Destroy and Touch report *)
  (** what the server has under the id, if anything: on Mongo an ended entry too, until it is cleaned up *)
  Definition on_server (b : backend) (now : Z) (s : store) (sid : bytes) : Prop :=
    exists e, aget s (full b sid) = Some e /\ match b with BMgo _ => True | _ => ended now (end_of b e) = false end.
  Lemma on_server_find b now s sid : on_server b now s sid <-> exists e, find_old b now s (full b sid) = Some e.
  Proof using Type.
    unfold on_server, find_old, look. destruct b as [auto|p|p].
    - split; intros (e & H); exists e; [apply H|split; [exact H|exact Logic.I]].
    - split; intros (e & H).
      + destruct H as (E & X). rewrite E, live_ended, X by exact Logic.I. eexists. reflexivity.
      + destruct (aget s (full (BRedis p) sid)) as [e'|]; [|discriminate]. rewrite live_ended in H by exact Logic.I. exists e'. destruct (ended now _); [discriminate H|split; reflexivity].
    - split; intros (e & H).
      + destruct H as (E & X). rewrite E, live_ended, X by exact Logic.I. eexists. reflexivity.
      + destruct (aget s (full (BMc p) sid)) as [e'|]; [|discriminate]. rewrite live_ended in H by exact Logic.I. exists e'. destruct (ended now _); [discriminate H|split; reflexivity].
  Qed.
  (** Destroy reports success exactly if the connection was fine and there was something to
      remove; the object is closed and emptied either way *)
  Theorem C47_destroy_reports c now (x : sess) s f fs : storable (cf_cache c) (ss_sid x) ->
    let r := s_destroy V c now x (s, f :: fs) in
    fst (fst r) = mkSess (ss_sid x) [] (ss_changed x) true /\
    (snd r = SFine <-> f = NoFault /\ on_server (cf_cache c) now s (ss_sid x)).
  Proof using Type.
    intros L. cbv zeta. split; [reflexivity|]. unfold s_destroy, p_destroy. rewrite call_fault by apply trip_del. cbn [fst snd].
    rewrite on_server_find, do_delete by exact L.
    destruct f; cbn [reported_ok]; [|split; [discriminate|intros (H & _); discriminate H]|split; [discriminate|intros (H & _); discriminate H]].
    destruct (find_old (cf_cache c) now s (full (cf_cache c) (ss_sid x))) as [e|]; cbn [snd].
    - split; [intros _; split; [reflexivity|eexists; reflexivity]|reflexivity].
    - split; [discriminate|]. intros (_ & e & H). discriminate H.
  Qed.
  (** so does Touch; and if the server had nothing, or the request did not reach it, nothing changes *)
  Theorem C100_touch_exact c now (x : sess) s f fs :
    storable (cf_cache c) (ss_sid x) -> 0 < cf_expire c <= cap (cf_cache c) ->
    let r := s_touch V c now x (s, f :: fs) in
    fst (fst r) = x /\
    (snd r = SFine <-> f = NoFault /\ on_server (cf_cache c) now s (ss_sid x)) /\
    (carried_out f = false \/ ~ on_server (cf_cache c) now s (ss_sid x) -> snd (fst r) = (s, fs)) /\
    (forall e, carried_out f = true -> aget s (full (cf_cache c) (ss_sid x)) = Some e -> on_server (cf_cache c) now s (ss_sid x) ->
       exists e', snd (fst r) = (aset s (full (cf_cache c) (ss_sid x)) e', fs) /\ e_val e' = e_val e /\
         end_of (cf_cache c) e' = ends (cf_cache c) now (Some (cf_expire c))).
  Proof using Type.
    intros L Hx. cbv zeta. split; [reflexivity|]. unfold s_touch. rewrite call_fault by (destruct (cf_cache c); reflexivity). cbn [fst snd]. set (b := cf_cache c) in *.
    assert (F : fits b (Some (cf_expire c))) by apply Hx.
    assert (NR : match b with BRedis _ => lifetime (Some (cf_expire c)) <> None | _ => True end).
    { destruct b; try exact Logic.I. unfold lifetime. destruct (Z.eqb_spec (cf_expire c) 0); [discriminate|]. destruct (Z.ltb_spec 0 (cf_expire c)); [discriminate|lia]. }
    pose proof (on_server_find b now s (ss_sid x)) as OS. rewrite OS, (do_touch b now s (ss_sid x) (Some (cf_expire c)) L F NR).
    split; [|split].
    - destruct f; cbn [reported_ok]; [|split; [discriminate|intros (H & _); discriminate H]|split; [discriminate|intros (H & _); discriminate H]].
      destruct (find_old b now s (full b (ss_sid x))) as [e|]; cbn [snd].
      + split; [intros _; split; [reflexivity|eexists; reflexivity]|reflexivity].
      + split; [discriminate|]. intros (_ & e & H). discriminate H.
    - intros [H|H]; [rewrite H; reflexivity|]. destruct (find_old b now s (full b (ss_sid x))) as [e|]; [exfalso; apply H; eexists; reflexivity|].
      destruct (carried_out f); reflexivity.
    - intros e -> A O. apply OS in O as (e0 & H). rewrite H. cbn [fst].
      assert (e0 = e) as ->. { unfold find_old, look in H. rewrite A in H. destruct b; [congruence| |]; (destruct (live _ now e); [congruence|discriminate]). }
      eexists. split; [reflexivity|]. split; [reflexivity|]. apply (new_exp_ends b now (Some (cf_expire c)) (e_val e) F).
  Qed.
End SessExact.

(** *** Examples: the outcomes on all three back ends, with failures *)
Notation exx_start := (start bytes toy_unmarshal toy_hmac).
Notation exx_flush := (s_flush bytes toy_marshal).
Notation exx_regenerate := (regenerate bytes toy_unmarshal toy_hmac).
Definition ex_store (b : backend) : store := fst (snd (fst (exx_flush (ex_cfg b) t2020 (s_set bytes (bs "u") (bs "v") (mkSess ex_sid [] false false)) ([], [])))).
(** Regenerate whose last read fails: a panic, no cookie, and the values are under an id nobody knows *)
Example C45_exact_example : forallb (fun b =>
  match exx_regenerate (ex_cfg b) ex_cc zeros (t2020 + sec 5) [(bs "SSID", ex_ck)] None (ex_store b, [NoFault; NoFault; NoFault; FaultBefore]) with
  | ((s', []), MPanic) =>
      match snd (p_read bytes toy_unmarshal (ex_cfg b) (t2020 + sec 5) ex_sid (s', [])), create_sid zeros (t2020 + sec 5) with
      | RdNotFound, ROk sid2 => match snd (p_read bytes toy_unmarshal (ex_cfg b) (t2020 + sec 5) sid2 (s', [])) with RdOk _ => true | _ => false end
      | _, _ => false
      end
  | _ => false
  end) three = true.
Proof. vm_compute. reflexivity. Qed.
(** Destroy and Touch of a stored session, of one that is gone, and over a bad connection *)
Example C47_reports_example : forallb (fun b =>
  let x := mkSess ex_sid (@nil (bytes * bytes)) false false in
  match snd (s_destroy bytes (ex_cfg b) t2020 x (ex_store b, [NoFault])), snd (s_destroy bytes (ex_cfg b) t2020 x ([], [NoFault])), snd (s_touch bytes (ex_cfg b) t2020 x (ex_store b, [NoFault])),
        snd (s_touch bytes (ex_cfg b) t2020 x ([], [NoFault])), snd (s_touch bytes (ex_cfg b) t2020 x (ex_store b, [FaultAfter])) with
  | SFine, SFailed, SFine, SFailed, SFailed => true
  | _, _, _, _, _ => false
  end) three = true.
Proof. vm_compute. reflexivity. Qed.
(** a history of C47 with no reviving action, and one of each reviving kind *)
Example C47_exact_example :
  later bytes t2020 [(t2020, OfRead bytes ex_sid); (t2020 + 5, OfObject bytes (mkSess ex_sid [] true true) (AFlush bytes))] /\
  Forall (fun p => ~ revives bytes ex_sid (snd p)) [(t2020, OfRead bytes ex_sid); (t2020 + 5, OfObject bytes (mkSess ex_sid [] true true) (AFlush bytes))] /\
  revives bytes ex_sid (OfObject bytes (mkSess ex_sid [(bs "a", bs "b")] true false) (AFlush bytes)) /\
  revives bytes ex_sid (OfRegenerate bytes (bs "x") ex_sid).
Proof.
  split; [cbn [later]; unfold t2020; lia|]. split; [repeat constructor; cbn; intuition congruence|]. split; cbn; repeat split; discriminate.
Qed.
(** the first Flush fails, the second does nothing and reports no error, and nothing is stored *)
Example C48_exact_example : forallb (fun b =>
  match exx_flush (ex_cfg b) t2020 (mkSess ex_sid [(bs "a", bs "b")] true false) ([], [FaultBefore]) with
  | (x, n, SFailed) => match exx_flush (ex_cfg b) t2020 x n with (_, ([], []), SFine) => true | _ => false end
  | _ => false
  end) three = true.
Proof. vm_compute. reflexivity. Qed.
Example C99_exact_example : forallb (fun b =>
  match m_destroy toy_hmac (ex_cfg b) ex_cc (t2020 + sec 5) [(bs "SSID", ex_ck)] (ex_store b, [FaultAfter]) with
  | ((s', []), Some _) =>
      match snd (exx_start (ex_cfg b) ex_cc zeros (t2020 + sec 6) [(bs "SSID", ex_ck)] (s', [])) with MOk x _ None => beq (ss_sid x) ex_sid && match ss_values x with [] => true | _ => false end | _ => false end
  | _ => false
  end) three = true.
Proof. vm_compute. reflexivity. Qed.

Print Assumptions C44_start_exact.
Print Assumptions C45_regenerate_exact.
Print Assumptions C45_no_cookie.
Print Assumptions C47_destroyed_exact.
Print Assumptions C47_both_destroy.
Print Assumptions C47_revived.
Print Assumptions C48_flush_exact.
Print Assumptions C99_logout_exact.
Print Assumptions C47_destroy_reports.
Print Assumptions C100_touch_exact.
