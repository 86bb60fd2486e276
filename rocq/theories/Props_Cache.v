(** Props_Cache: C50-C56, C98. *)
From Coq Require Import List Ascii String Bool Arith ZArith Lia.
Import ListNotations.
From Verif Require Import GoStr GoNum ConvModel CacheModel CacheSpec.
Local Open Scope Z_scope.

(** *** Timeouts *)
Lemma wrap64_id z : - 2 ^ 63 <= z < 2 ^ 63 -> wrap64 z = z.
Proof. intros H. unfold wrap64. rewrite Z.mod_small by lia. lia. Qed.
Lemma timeout_pos n : 0 < n <= 9223372036 -> timeout_dur (Some n) = n * second.
Proof. intros H. unfold timeout_dur. destruct (Z.ltb_spec 0 n); [|lia]. apply wrap64_id. unfold second. lia. Qed.
Lemma timeout_zero : timeout_dur (Some 0) = 60 * second. Proof. reflexivity. Qed.
Lemma timeout_none : timeout_dur None = 60 * second. Proof. reflexivity. Qed.
Lemma timeout_neg n : n < 0 -> timeout_dur (Some n) = 0.
Proof.
  intros H. unfold timeout_dur. destruct (Z.ltb_spec 0 n); [lia|]. destruct (Z.eqb_spec n 0); [lia|]. cbv zeta.
  destruct (Z.ltb_spec n 0); [reflexivity|lia].
Qed.
Lemma timeout_life ps : match ps with Some n => n <= 9223372036 | None => True end ->
  timeout_dur ps = match lifetime ps with Some d => d | None => 0 end /\
  match lifetime ps with Some d => exists n, 0 < n /\ d = n * second /\ (n <= 60 \/ ps = Some n) | None => True end.
Proof.
  intros H. unfold lifetime. destruct ps as [n|]; [|split; [reflexivity|exists 60; unfold second; lia]].
  destruct (Z.eqb_spec n 0) as [->|Hn]; [split; [reflexivity|exists 60; unfold second; lia]|]. destruct (Z.ltb_spec 0 n).
  - split; [apply timeout_pos; lia|]. exists n. unfold second. auto.
  - split; [apply timeout_neg; lia|exact I].
Qed.
Lemma fits_cap b ps : fits b ps -> match ps with Some n => n <= 9223372036 | None => True end.
Proof. destruct ps; [|auto]. destruct b; cbn [fits cap]; lia. Qed.
Lemma bson_whole t : bson_time t = whole_ms t.
Proof. unfold bson_time, whole_ms, msec. pose proof (Z.div_mod t 1000000 ltac:(lia)). lia. Qed.
Lemma whole_le t u : whole_ms t <= u <-> whole_ms t <= whole_ms u.
Proof.
  unfold whole_ms. pose proof (Z.div_mod t 1000000 ltac:(lia)). pose proof (Z.div_mod u 1000000 ltac:(lia)).
  pose proof (Z.mod_pos_bound t 1000000 ltac:(lia)). pose proof (Z.mod_pos_bound u 1000000 ltac:(lia)). lia.
Qed.

(** *** Maps and filters *)
Lemma aget_filter_key {V} (f : bytes -> bool) (m : amap V) k :
  aget (filter (fun p => f (fst p)) m) k = if f k then aget m k else None.
Proof.
  induction m as [|[k' v] m IH]; [destruct (f k); reflexivity|]. cbn [filter fst]. destruct (f k') eqn:E.
  - cbn [aget]. destruct (beq_spec k' k) as [->|]; [rewrite E; reflexivity|exact IH].
  - rewrite IH. cbn [aget]. destruct (beq_spec k' k) as [->|]; [rewrite E; reflexivity|reflexivity].
Qed.
Lemma aget_akeep {V} (f : bytes -> V -> bool) (m : amap V) k :
  aget (akeep f m) k = match aget m k with Some v => if f k v then Some v else None | None => None end.
Proof.
  unfold akeep. rewrite (aget_filter_key (fun k => match aget m k with Some v => f k v | None => false end) m k).
  destruct (aget m k) as [v|]; [destruct (f k v)|]; reflexivity.
Qed.

Lemma to_int32_id z : 0 <= z < 2 ^ 31 -> to_int32 z = z.
Proof. intros H. unfold to_int32. destruct (Z.leb_spec (- 2 ^ 31) z); [|lia]. destruct (Z.ltb_spec z (2 ^ 31)); [reflexivity|lia]. Qed.

(** *** Keys and what is found there *)
Definition full (b : backend) (k : bytes) : bytes := match b with BMgo _ => k | BRedis p | BMc p => p ++ k end.
Lemma full_inj b k k' : full b k = full b k' -> k = k'.
Proof. destruct b; cbn; [auto| |]; apply app_inv_head. Qed.
(** the end of an entry, in nanoseconds *)
Definition end_of (b : backend) (e : entry) : option Z :=
  match b with
  | BMgo _ => e_exp e
  | BRedis _ => option_map (fun t => (t + 1) * 1000000) (e_exp e)
  | BMc _ => option_map (fun t => t * 1000000000) (e_exp e)
  end.
Definition live (b : backend) (now : Z) (e : entry) : bool :=
  match b with
  | BMgo _ => match mgo_get_value now e with Some _ => true | None => false end
  | BRedis _ => redis_live now e
  | BMc _ => mc_live now e
  end.
(** Mongo's entries all have an end *)
Definition proper (b : backend) (e : entry) : Prop := match b with BMgo _ => exists t, e_exp e = Some t /\ t mod 1000000 = 0 | _ => True end.
Lemma live_ended b now e : proper b e -> live b now e = negb (ended now (end_of b e)).
Proof.
  destruct b as [auto|p|p]; cbn [live end_of proper]; unfold mgo_get_value, redis_live, mc_live.
  - intros (t & -> & _). cbn [ended]. destruct (Z.ltb_spec now t); destruct (Z.leb_spec t now); try reflexivity; lia.
  - intros _. destruct (e_exp e) as [t|]; [|reflexivity]. cbn [option_map ended]. unfold msec.
    pose proof (Z.div_mod now 1000000 ltac:(lia)). pose proof (Z.mod_pos_bound now 1000000 ltac:(lia)).
    destruct (Z.leb_spec (now / 1000000) t); destruct (Z.leb_spec ((t + 1) * 1000000) now); try reflexivity; nia.
  - intros _. destruct (e_exp e) as [t|]; [|reflexivity]. cbn [option_map ended]. unfold second.
    pose proof (Z.div_mod now 1000000000 ltac:(lia)). pose proof (Z.mod_pos_bound now 1000000000 ltac:(lia)).
    destruct (Z.ltb_spec (now / 1000000000) t); destruct (Z.leb_spec (t * 1000000000) now); try reflexivity; nia.
Qed.
Lemma ended_later now now' t : now <= now' -> ended now t = true -> ended now' t = true.
Proof. intros H. destruct t as [t|]; [|auto]. cbn [ended]. intros E. apply Z.leb_le in E. apply Z.leb_le. lia. Qed.
Lemma whole_mod t : whole_ms t mod 1000000 = 0.
Proof. unfold whole_ms. rewrite Zminus_mod_idemp_r, Z.sub_diag. reflexivity. Qed.
Lemma whole_id t : t mod 1000000 = 0 -> whole_ms t = t.
Proof. unfold whole_ms. intros ->. lia. Qed.
Lemma bson_plain v : plain v -> exists v', bson_val v = Some v' /\ utils_tostr v' = utils_tostr v.
Proof.
  destruct v as [b|z|z|s|s|s|s]; unfold plain, bson_val; intros H; try contradiction; try (eexists; split; reflexivity).
  destruct (Z.ltb_spec z (2 ^ 63)); [|lia]. eexists. split; [reflexivity|].
  unfold utils_tostr, format_int. destruct (Z.ltb_spec z 0); [lia|reflexivity].
Qed.
(** the expiry the providers ask for is the specification's *)
Definition new_exp (b : backend) (now : Z) (ps : option Z) : option Z :=
  match b with
  | BMgo _ => Some (bson_time (now + timeout_dur_ex ps))
  | BRedis _ => if 0 <? timeout_dur ps then Some (now / msec + timeout_dur ps / second * 1000) else None
  | BMc _ => mc_deadline now (to_int32 (timeout_dur ps / second))
  end.
Lemma new_exp_ends b now ps v : fits b ps -> end_of b (mkEntry v (new_exp b now ps)) = ends b now ps /\ proper b (mkEntry v (new_exp b now ps)).
Proof.
  intros F. destruct (timeout_life ps (fits_cap b ps F)) as (T & N).
  destruct b as [auto|p|p]; cbn [end_of new_exp ends e_exp proper].
  - rewrite bson_whole. unfold timeout_dur_ex. rewrite T. cbv zeta. split; [|eexists; split; [reflexivity|apply whole_mod]].
    destruct (lifetime ps) as [d|]; [|reflexivity]. destruct N as (n & Hn & -> & _). unfold second. destruct (Z.eqb_spec (n * 1000000000) 0); [lia|reflexivity].
  - split; [|exact I]. rewrite T. destruct (lifetime ps) as [d|]; [|reflexivity]. destruct N as (n & Hn & -> & _). unfold second, msec, whole_ms.
    destruct (Z.ltb_spec 0 (n * 1000000000)); [|lia]. cbn [option_map]. f_equal. rewrite Z.div_mul by lia.
    pose proof (Z.div_mod now 1000000 ltac:(lia)). lia.
  - split; [|exact I]. rewrite T. destruct (lifetime ps) as [d|] eqn:L; [|reflexivity]. destruct N as (n & Hn & -> & Hc). unfold second, mc_deadline, whole_s.
    assert (Hn2 : n <= 2592000) by (destruct Hc as [Hc| ->]; [lia|exact F]). rewrite Z.div_mul, to_int32_id by lia.
    destruct (Z.eqb_spec n 0); [lia|]. destruct (Z.ltb_spec n 0); [lia|]. destruct (Z.leb_spec n 2592000); [|lia]. unfold second. cbn [option_map]. f_equal.
    pose proof (Z.div_mod now 1000000000 ltac:(lia)). lia.
Qed.
(** the operations in terms of these *)
Definition look (b : backend) (now : Z) (s : store) (K : bytes) : option entry :=
  match aget s K with Some e => if live b now e then Some e else None | None => None end.
(** what Touch and Delete find: on Mongo outdated entries too *)
Definition find_old (b : backend) (now : Z) (s : store) (K : bytes) : option entry :=
  match b with BMgo _ => aget s K | _ => look b now s K end.
Lemma do_get b now s k : storable b k -> server_do b now s (OGet k) = (s, match look b now s (full b k) with Some e => RVal (utils_tostr (e_val e)) | None => RMissed end).
Proof.
  intros L. destruct b as [auto|p|p]; cbn [server_do mgo_do redis_do mc_do full]; unfold look, live, redis_get, mc_get.
  - destruct (aget s k) as [e|]; [|reflexivity]. unfold mgo_get_value. destruct (e_exp e) as [t|]; [destruct (now <? t)|]; reflexivity.
  - destruct (aget s (p ++ k)) as [e|]; [destruct (redis_live now e)|]; reflexivity.
  - cbv zeta. cbn [storable] in L. rewrite L. destruct (aget s (p ++ k)) as [e|]; [destruct (mc_live now e)|]; reflexivity.
Qed.
Lemma do_has b now s k : storable b k -> server_do b now s (OHas k) = (s, RBool match look b now s (full b k) with Some e => true | None => false end).
Proof.
  intros L. destruct b as [auto|p|p]; cbn [server_do mgo_do redis_do mc_do full]; unfold look, live, redis_get, mc_get.
  - destruct (aget s k) as [e|]; [|reflexivity]. unfold mgo_get_value. destruct (e_exp e) as [t|]; [destruct (now <? t)|]; reflexivity.
  - destruct (aget s (p ++ k)) as [e|]; [destruct (redis_live now e)|]; reflexivity.
  - cbv zeta. cbn [storable] in L. rewrite L. destruct (aget s (p ++ k)) as [e|]; [destruct (mc_live now e)|]; reflexivity.
Qed.
Lemma do_delete b now s k : storable b k -> server_do b now s (ODelete k) = match find_old b now s (full b k) with Some _ => (adel s (full b k), RDone) | None => (s, RMissed) end.
Proof.
  intros L. destruct b as [auto|p|p]; cbn [server_do mgo_do redis_do mc_do full find_old]; unfold look, live, redis_get, mc_get.
  - destruct (aget s k) as [e|]; reflexivity.
  - destruct (aget s (p ++ k)) as [e|]; [destruct (redis_live now e)|]; reflexivity.
  - cbv zeta. cbn [storable] in L. rewrite L. destruct (aget s (p ++ k)) as [e|]; [destruct (mc_live now e)|]; reflexivity.
Qed.
Lemma secs_mod b ps : fits b ps -> timeout_dur ps mod second = 0.
Proof.
  intros F. destruct (timeout_life ps (fits_cap b ps F)) as (-> & N). destruct (lifetime ps) as [d|]; [|reflexivity].
  destruct N as (n & _ & -> & _). apply Z.mod_mul. discriminate.
Qed.
Lemma do_set b now s k v ps : storable b k -> plain v -> fits b ps ->
  exists v', utils_tostr v' = utils_tostr v /\ server_do b now s (OSet k v ps) = (aset s (full b k) (mkEntry v' (new_exp b now ps)), RDone).
Proof.
  intros L P F. destruct b as [auto|p|p]; cbn [server_do mgo_do redis_do mc_do full new_exp].
  - destruct (bson_plain v P) as (v' & -> & V). exists v'. auto.
  - exists (AStr (utils_tostr v)). split; [reflexivity|]. cbv zeta. rewrite (secs_mod _ _ F). destruct (0 <? timeout_dur ps); reflexivity.
  - exists (AStr (utils_tostr v)). split; [reflexivity|]. cbv zeta. cbn [storable] in L. rewrite L. reflexivity.
Qed.
Lemma do_touch b now s k ps : storable b k -> fits b ps -> match b with BRedis _ => lifetime ps <> None | _ => True end ->
  server_do b now s (OTouch k ps) = match find_old b now s (full b k) with
                                    | Some e => (aset s (full b k) (mkEntry (e_val e) (new_exp b now ps)), RDone)
                                    | None => (s, RMissed)
                                    end.
Proof.
  intros L F NR. destruct b as [auto|p|p]; cbn [server_do mgo_do redis_do mc_do full find_old new_exp]; unfold look, live, redis_get, mc_get.
  - destruct (aget s k) as [e|]; reflexivity.
  - cbv zeta. rewrite (secs_mod _ _ F). cbn [Z.eqb negb]. destruct (aget s (p ++ k)) as [e|]; [destruct (redis_live now e)|]; try reflexivity.
    destruct (timeout_life ps (fits_cap _ ps F)) as (T & N). rewrite T. destruct (lifetime ps) as [d|]; [|congruence]. destruct N as (n & Hn & -> & _). unfold second.
    destruct (Z.ltb_spec 0 (n * 1000000000)); [reflexivity|lia].
  - cbv zeta. cbn [storable] in L. rewrite L. destruct (aget s (p ++ k)) as [e|]; [destruct (mc_live now e)|]; reflexivity.
Qed.

(** *** C50 *)
(** the server's contents and the specification's *)
Definition sim (b : backend) (now : Z) (s : store) (m : ttlmap) : Prop :=
  forall k, match aget m k with
            | None => find_old b now s (full b k) = None
            | Some (v, t) =>
                (exists e, aget s (full b k) = Some e /\ utils_tostr (e_val e) = v /\ end_of b e = t /\ proper b e) \/
                (find_old b now s (full b k) = None /\ ended now t = true)
            end.
Lemma find_old_look b now s K : find_old b now s K = None -> look b now s K = None.
Proof. destruct b; cbn [find_old]; auto. unfold look. intros ->. reflexivity. Qed.
Lemma sim_look b now s m k : sim b now s m -> match look b now s (full b k) with Some e => Some (utils_tostr (e_val e)) | None => None end = present now m k.
Proof.
  intros H. specialize (H k). unfold present. destruct (aget m k) as [[v t]|].
  - destruct H as [(e & E & V & T & P)|(A & B)].
    + unfold look. rewrite E, (live_ended b now e P), T. destruct (ended now t); cbn [negb]; [reflexivity|]. rewrite V. reflexivity.
    + rewrite B, (find_old_look _ _ _ _ A). reflexivity.
  - rewrite (find_old_look _ _ _ _ H). reflexivity.
Qed.
Lemma find_old_later b now now' s K : now <= now' -> find_old b now s K = None -> find_old b now' s K = None.
Proof.
  intros Hn. destruct b as [auto|p|p]; cbn [find_old]; [auto| |]; unfold look; destruct (aget s K) as [e|]; try reflexivity; rewrite !live_ended by exact I;
    destruct (ended now _) eqn:E; try discriminate; rewrite (ended_later _ _ _ Hn E); reflexivity.
Qed.
Lemma sim_later b now now' s m : now <= now' -> sim b now s m -> sim b now' s m.
Proof.
  intros Hn H k. specialize (H k). destruct (aget m k) as [[v t]|]; [|eapply find_old_later; eassumption].
  destruct H as [A|(A & A')]; [left; exact A|right; split; [eapply find_old_later; eassumption|eapply ended_later; eassumption]].
Qed.
Lemma find_old_aget b now s s' K : aget s K = aget s' K -> find_old b now s K = find_old b now s' K.
Proof. intros H. unfold find_old, look. rewrite H. reflexivity. Qed.
Lemma sim_upd b now s s' m m' k : sim b now s m -> (forall K, full b k <> K -> aget s' K = aget s K) -> (forall k2, k <> k2 -> aget m' k2 = aget m k2) ->
  match aget m' k with
  | None => find_old b now s' (full b k) = None
  | Some (v, t) =>
      (exists e, aget s' (full b k) = Some e /\ utils_tostr (e_val e) = v /\ end_of b e = t /\ proper b e) \/
      (find_old b now s' (full b k) = None /\ ended now t = true)
  end -> sim b now s' m'.
Proof.
  intros H A B C k2. destruct (bytes_eq_dec k k2) as [->|Hne]; [exact C|]. rewrite (B k2 Hne).
  assert (E : aget s' (full b k2) = aget s (full b k2)) by (apply A; intros E; apply Hne; eapply full_inj; exact E).
  rewrite (find_old_aget b now s' s _ E), E. apply H.
Qed.
Lemma sim_set b now s m k v ps x : sim b now s m -> utils_tostr x = v -> fits b ps ->
  sim b now (aset s (full b k) (mkEntry x (new_exp b now ps))) (aset m k (v, ends b now ps)).
Proof.
  intros H Hx F. apply (sim_upd b now s _ m _ k H).
  - intros K Hne. apply aget_aset_other. exact Hne.
  - intros k2 Hne. apply aget_aset_other. exact Hne.
  - rewrite aget_aset_same. left. rewrite aget_aset_same. eexists. split; [reflexivity|]. destruct (new_exp_ends b now ps x F) as (A & B). auto.
Qed.
Lemma sim_keep b now s m f : sim b now s m ->
  (forall k e, aget s k = Some e -> proper b e -> f k e = false -> ended now (end_of b e) = true) -> sim b now (akeep f s) m.
Proof.
  intros H Hf k. specialize (H k). unfold find_old, look in *. rewrite aget_akeep. destruct (aget m k) as [[v t]|].
  - destruct H as [(e & E & V & T & P)|(A & A')].
    + rewrite E. destruct (f (full b k) e) eqn:F; [left; exists e; auto|right; split; [destruct b; reflexivity|rewrite <- T; eapply Hf; eauto]].
    + right. split; [|exact A']. destruct (aget s (full b k)) as [e|]; [|exact A]. destruct (f (full b k) e); [exact A|destruct b; reflexivity].
  - destruct (aget s (full b k)) as [e|]; [|exact H]. destruct (f (full b k) e); [exact H|destruct b; reflexivity].
Qed.
Lemma sim_step b now s m o : sim b now s m -> plain_op b o -> match o with OTouch k _ => outdated now m k = false | _ => True end ->
  sim b now (fst (server_do b now s o)) (fst (ttl_do b now m o)) /\ In (snd (server_do b now s o)) (snd (ttl_do b now m o)).
Proof.
  intros H P N. destruct o as [k|k v ps|k ps|k|k ps|k ps|k| |].
  - rewrite (do_get b now s k P). cbn [fst snd ttl_do]. split; [exact H|]. left. rewrite <- (sim_look b now s m k H). destruct (look _ _ _ _); reflexivity.
  - destruct P as (P & F & L). destruct (do_set b now s k v ps L P F) as (v' & V & ->). cbn [fst snd ttl_do]. split; [apply sim_set; auto|left; reflexivity].
  - destruct P as (F & L & NR). rewrite (do_touch b now s k ps L F NR). cbn [ttl_do]. unfold outdated in N. pose proof (sim_look b now s m k H) as SL.
    pose proof (H k) as HK. unfold present in *. destruct (aget m k) as [[v t]|].
    + rewrite N in SL |- *. destruct (look b now s (full b k)) as [e|] eqn:E; [|discriminate]. injection SL as SL.
      assert (Fo : find_old b now s (full b k) = Some e).
      { destruct b; cbn [find_old]; try exact E. unfold look in E. destruct (aget s _) as [e'|]; [|discriminate]. destruct (live _ _ _); congruence. }
      rewrite Fo. cbn [fst snd]. split; [apply sim_set; auto|left; reflexivity].
    + rewrite HK. cbn [fst snd]. split; [exact H|left; reflexivity].
  - rewrite (do_delete b now s k P). cbn [ttl_do]. pose proof (sim_look b now s m k H) as SL. pose proof (H k) as HK. rewrite <- SL.
    destruct (find_old b now s (full b k)) as [e|] eqn:Fo; cbn [fst snd].
    + assert (G : aget s (full b k) = Some e).
      { destruct b; cbn [find_old] in Fo; try exact Fo; unfold look in Fo; destruct (aget s _) as [e'|]; try discriminate; destruct (live _ _ _); congruence. }
      assert (S : sim b now (adel s (full b k)) (adel m k)).
      { apply (sim_upd b now s _ m _ k H).
        - intros K Hne. apply aget_adel_other. exact Hne.
        - intros k2 Hne. apply aget_adel_other. exact Hne.
        - rewrite aget_adel_same. unfold find_old, look. rewrite aget_adel_same. destruct b; reflexivity. }
      destruct (look b now s (full b k)) as [e'|] eqn:E; cbn [fst snd]; (split; [exact S|]); [left; reflexivity|].
      unfold outdated. unfold present in SL. destruct (aget m k) as [[v t]|]; [|congruence]. destruct (ended now t); [right; left; reflexivity|discriminate].
    + assert (E : look b now s (full b k) = None).
      { destruct b; cbn [find_old] in Fo; try exact Fo. unfold look. rewrite Fo. reflexivity. }
      rewrite E. cbn [fst snd]. split; [|destruct (outdated now m k); left; reflexivity]. apply (sim_upd b now s _ m _ k H).
      * reflexivity.
      * intros k2 Hne. apply aget_adel_other. exact Hne.
      * rewrite aget_adel_same. exact Fo.
  - destruct P.
  - destruct P.
  - rewrite (do_has b now s k P). cbn [fst snd ttl_do]. split; [exact H|]. left. rewrite <- (sim_look b now s m k H). destruct (look _ _ _ _); reflexivity.
  - assert (E : server_do b now s OClean = ([], RDone)) by (destruct b; reflexivity). rewrite E. cbn [fst snd ttl_do].
    split; [|left; reflexivity]. intros k. destruct b; reflexivity.
  - destruct b as [auto|p|p]; cbn [server_do mgo_do redis_do mc_do fst snd ttl_do]; [|split; [exact H|left; reflexivity]..].
    destruct auto; cbn [fst snd]; (split; [|left; reflexivity]); [exact H|]. apply sim_keep; [exact H|].
    intros k e E (t & T & M). cbn [end_of]. rewrite T, bson_whole. cbn [ended]. destruct (Z.leb_spec t (whole_ms now)) as [Hle|]; [|discriminate]. intros _. apply Z.leb_le.
    rewrite <- (whole_id t M). apply whole_le. rewrite (whole_id t M). exact Hle.
Qed.
Lemma hrun_cons b now s e h :
  hrun b now s (e :: h) = (fst (fst (hrun b (fst (fst (hstep b now s e))) (snd (fst (hstep b now s e))) h)),
                           snd (fst (hrun b (fst (fst (hstep b now s e))) (snd (fst (hstep b now s e))) h)),
                           snd (hstep b now s e) ++ snd (hrun b (fst (fst (hstep b now s e))) (snd (fst (hstep b now s e))) h)).
Proof.
  cbn [hrun]. destruct (hstep b now s e) as [[n1 s1] r1]. cbn [fst snd]. destruct (hrun b n1 s1 h) as [[n2 s2] r2]. reflexivity.
Qed.
Lemma C50_gen b h : forall now s m, sim b now s m -> forwards h -> plain_history b h -> no_late_touch b now m h ->
  Forall2 (fun r allowed => In r allowed) (answers b now s h) (ttl_run b now m h).
Proof.
  induction h as [|e h IH]; intros now s m H Fw P N; [constructor|]. unfold answers. rewrite hrun_cons. cbn [fst snd].
  inversion Fw as [|? ? Fw1 Fw2]; subst. inversion P as [|? ? P1 P2]; subst. destruct e as [d|f o|ks].
  - cbn [hstep fst snd app ttl_run]. apply IH; [eapply sim_later; [|exact H]; lia|exact Fw2|exact P2|exact N].
  - cbn [no_late_touch] in N. destruct N as (N1 & N2). destruct (sim_step b now s m o H P1 N1) as (S & A).
    cbn [hstep fst snd app]. unfold cache_do. destruct (round_trip b o) eqn:R; cbn [negb].
    + destruct f; cbn [fst snd ttl_run].
      * constructor; [exact A|]. apply IH; auto.
      * constructor; [destruct o; left; reflexivity|]. apply IH; auto.
      * constructor; [destruct o; left; reflexivity|]. apply IH; auto.
    + assert (o = OGC) as -> by (destruct o, b; try discriminate R; reflexivity).
      assert (E : server_do b now s OGC = (s, RDone)) by (destruct b as [[]|p|p]; try discriminate R; reflexivity).
      rewrite E in *. cbn [fst snd ttl_run ttl_do] in *. destruct f; (constructor; [cbn; auto|]); apply IH; auto.
  - cbn [hstep fst snd app ttl_run]. apply IH; [|exact Fw2|exact P2|exact N]. destruct b as [[]|p|p]; cbn [server_env]; try exact H; [|contradiction].
    apply sim_keep; [exact H|]. intros k e E (t & T & _). cbn [end_of]. rewrite T. intros F. apply negb_false_iff, andb_true_iff in F as (_ & F).
    apply Z.leb_le in F. apply Z.leb_le. unfold second in F. lia.
Qed.
(** every cache answers like a map with timeouts, whatever the history, the failures
    and the clean-ups, as long as no Touch comes after the timeout *)
Theorem C50_cache_is_ttl_map b now h :
  forwards h -> plain_history b h -> no_late_touch b now [] h ->
  Forall2 (fun r allowed => In r allowed) (answers b now [] h) (ttl_run b now [] h).
Proof. intros. apply C50_gen; auto. intros k. destruct b; reflexivity. Qed.
Definition at0 : Z := 1577836800123456789.      (* 2020-01-01 *)
Definition sec (n : Z) : Z := n * 1000000000.
Example C50_example :
  let h := [HOp NoFault (OSet (bs "a") (AInt 7) (Some 10)); HWait (sec 9); HOp NoFault (OGet (bs "a")); HOp FaultAfter (OTouch (bs "a") (Some 5));
            HWait (sec 4); HOp NoFault (OHas (bs "a")); HOp FaultBefore (OSet (bs "a") (AInt 8) None); HServer [bs "a"]; HWait (sec 1);
            HOp NoFault (OGet (bs "a")); HOp NoFault OGC; HOp NoFault (ODelete (bs "a"))] in
  forwards h /\ plain_history (BMgo false) h /\ no_late_touch (BMgo false) at0 [] h /\
  answers (BMgo false) at0 [] h = [RDone; RVal (bs "7"); RFail; RBool true; RFail; RMissed; RDone; RMissed] /\
  ttl_run (BMgo false) at0 [] h = [[RDone]; [RVal (bs "7")]; [RFail]; [RBool true]; [RFail]; [RMissed]; [RDone]; [RMissed; RDone]].
Proof.
  cbv zeta. split; [repeat constructor; discriminate|]. split; [repeat constructor; cbn; lia|].
  split; [vm_compute; auto 20|]. split; vm_compute; reflexivity.
Qed.

Example C50_example_others : forall b, b = BRedis (bs "p:") \/ b = BMc (bs "p:") ->
  let h := [HOp NoFault (OSet (bs "a") (AInt 7) (Some 10)); HWait (sec 8); HOp NoFault (OGet (bs "a")); HOp FaultAfter (OTouch (bs "a") (Some 5));
            HWait (sec 3); HOp NoFault (OHas (bs "a")); HOp FaultBefore (OSet (bs "a") (AInt 8) None); HWait (sec 3);
            HOp NoFault (OGet (bs "a")); HOp NoFault OGC; HOp NoFault (ODelete (bs "a")); HOp NoFault (OSet (bs "a") (AInt 9) (Some (-1))); HOp NoFault (ODelete (bs "a"))] in
  forwards h /\ plain_history b h /\ no_late_touch b at0 [] h /\
  answers b at0 [] h = [RDone; RVal (bs "7"); RFail; RBool true; RFail; RMissed; RDone; RMissed; RDone; RDone].
Proof.
  cbv zeta. intros b [->| ->]; (split; [repeat constructor; discriminate|]; split; [repeat constructor; cbn; try lia; discriminate|];
  split; [vm_compute; auto 20|vm_compute; reflexivity]).
Qed.

(** *** C51 *)
Definition cleaned (now : Z) (s' s : store) : Prop :=
  forall k, aget s' k = aget s k \/ (aget s' k = None /\ exists e, aget s k = Some e /\ mgo_get_value now e = None).
Lemma value_later now now' e : now <= now' -> mgo_get_value now e = None -> mgo_get_value now' e = None.
Proof.
  unfold mgo_get_value. destruct (e_exp e) as [t|]; [|reflexivity]. intros Hn. destruct (Z.ltb_spec now t); [discriminate|].
  destruct (Z.ltb_spec now' t); [lia|reflexivity].
Qed.
Lemma overdue_value now s k e : overdue now s k = false -> aget s k = Some e -> mgo_get_value now e <> None.
Proof.
  unfold overdue, mgo_get_value. intros H E. rewrite E in H. destruct (e_exp e) as [t|]; [|discriminate].
  destruct (Z.leb_spec t now); [discriminate|]. destruct (Z.ltb_spec now t); [discriminate|lia].
Qed.
Lemma cleaned_set now s' s k e : cleaned now s' s -> cleaned now (aset s' k e) (aset s k e).
Proof.
  intros H k2. destruct (bytes_eq_dec k k2) as [->|Hne].
  - rewrite !aget_aset_same. auto.
  - rewrite !aget_aset_other by exact Hne. apply H.
Qed.
Lemma cleaned_del now s' s k : cleaned now s' s -> cleaned now (adel s' k) (adel s k).
Proof.
  intros H k2. destruct (bytes_eq_dec k k2) as [->|Hne].
  - rewrite !aget_adel_same. auto.
  - rewrite !aget_adel_other by exact Hne. apply H.
Qed.
Lemma cleaned_keep now s' s f : cleaned now s' s -> (forall k e, f k e = false -> mgo_get_value now e = None) -> cleaned now (akeep f s') s.
Proof.
  intros H Hf k. rewrite aget_akeep. destruct (H k) as [E|(E & X)]; rewrite E; [|right; auto].
  destruct (aget s k) as [e|]; [|auto]. destruct (f k e) eqn:F; [auto|]. right. split; [reflexivity|]. exists e. eauto.
Qed.
Lemma gc_unseen now t e : e_exp e = Some t -> t <= bson_time now -> mgo_get_value now e = None.
Proof.
  unfold mgo_get_value. intros -> H. destruct (Z.ltb_spec now t); [|reflexivity]. unfold bson_time, msec in H.
  pose proof (Z.div_mod now 1000000 ltac:(lia)). pose proof (Z.mod_pos_bound now 1000000 ltac:(lia)). lia.
Qed.
Lemma cleaned_do auto now s' s o : cleaned now s' s -> match modifies o with Some k => overdue now s k = false | None => True end ->
  cleaned now (fst (mgo_do auto now s' o)) (fst (mgo_do auto now s o)) /\ snd (mgo_do auto now s' o) = snd (mgo_do auto now s o).
Proof.
  intros H N.
  assert (M : forall k, modifies o = Some k -> aget s' k = aget s k).
  { intros k E. rewrite E in N. destruct (H k) as [X|(X & e & Y & Z)]; [exact X|]. destruct (overdue_value now s k e N Y Z). }
  destruct o as [k|k v ps|k ps|k|k ps|k ps|k| |]; cbn [mgo_do]; cbn [modifies] in M; try specialize (M k eq_refl).
  - destruct (H k) as [X|(X & e & Y & Z)].
    + rewrite X. destruct (aget s k) as [e|]; [destruct (mgo_get_value now e)|]; cbn [fst snd]; auto.
    + rewrite X, Y, Z. cbn [fst snd]. auto.
  - destruct (bson_val v); cbn [fst snd]; [split; [apply cleaned_set; exact H|reflexivity]|auto].
  - rewrite M. destruct (aget s k); cbn [fst snd]; [split; [apply cleaned_set; exact H|reflexivity]|auto].
  - rewrite M. destruct (aget s k); cbn [fst snd]; [split; [apply cleaned_del; exact H|reflexivity]|auto].
  - rewrite M. destruct (aget s k); cbn [fst snd]; [|auto]. destruct (mongo_inc _ _); cbn [fst snd]; [split; [apply cleaned_set; exact H|reflexivity]|auto].
  - rewrite M. destruct (aget s k); cbn [fst snd]; [|auto]. destruct (mongo_inc _ _); cbn [fst snd]; [split; [apply cleaned_set; exact H|reflexivity]|auto].
  - destruct (H k) as [X|(X & e & Y & Z)].
    + rewrite X. destruct (aget s k) as [e|]; [destruct (mgo_get_value now e)|]; cbn [fst snd]; auto.
    + rewrite X, Y, Z. cbn [fst snd]. auto.
  - cbn [fst snd]. split; [intros k; auto|reflexivity].
  - destruct auto; cbn [fst snd]; (split; [|reflexivity]); [exact H|]. intros k. rewrite !aget_akeep.
    destruct (H k) as [X|(X & e & Y & Z)]; [rewrite X; auto|]. rewrite X, Y. destruct (negb _) eqn:F; [right; eauto|auto].
Qed.
Lemma C51_gen auto h : forall now s' s, cleaned now s' s -> forwards h -> none_late (BMgo auto) now s (without_cleanups h) ->
  client_answers (BMgo auto) now s' h = answers (BMgo auto) now s (without_cleanups h).
Proof.
  induction h as [|e h IH]; intros now s' s H Fw N; [reflexivity|]. inversion Fw as [|? ? Fw1 Fw2]; subst.
  cbn [client_answers without_cleanups filter]. destruct (is_cleanup e) eqn:C; cbn [negb app].
  - assert (Hn : fst (fst (hstep (BMgo auto) now s' e)) = now) by (destruct e; [discriminate C|reflexivity|reflexivity]).
    rewrite Hn. apply IH; [|exact Fw2|cbn [without_cleanups filter] in N; rewrite C in N; exact N].
    destruct e as [d|f o|ks]; [discriminate C| |]; cbn [hstep fst snd].
    + destruct o; try discriminate C. unfold cache_do. destruct auto; cbn [round_trip negb server_do mgo_do fst snd]; [exact H|].
      assert (K : cleaned now (akeep (fun (_ : bytes) (e : entry) => negb match e_exp e with Some t => t <=? bson_time now | None => false end) s') s).
      { apply cleaned_keep; [exact H|]. intros k e F. apply negb_false_iff in F. destruct (e_exp e) as [t|] eqn:T; [|discriminate].
        apply (gc_unseen now t e T). apply Z.leb_le. exact F. }
      destruct f; [exact K|exact H|exact K].
    + cbn [server_env]. destruct auto; [|exact H]. apply cleaned_keep; [exact H|]. intros k e F.
      apply negb_false_iff, andb_true_iff in F as (_ & F). destruct (e_exp e) as [t|] eqn:T; [|discriminate]. apply Z.leb_le in F.
      unfold mgo_get_value. rewrite T. unfold second in F. destruct (Z.ltb_spec now t); [lia|reflexivity].
  - unfold answers. rewrite hrun_cons. cbn [fst snd]. cbn [without_cleanups filter] in N. rewrite C in N. cbn [negb none_late] in N. destruct N as (N1 & N2).
    destruct e as [d|f o|ks]; [| |discriminate C]; cbn [hstep fst snd app] in *.
    + apply IH; [|exact Fw2|exact N2]. intros k. destruct (H k) as [X|(X & e & Y & Z)]; [auto|].
      right. split; [exact X|]. exists e. split; [exact Y|]. eapply value_later; [|exact Z]. lia.
    + destruct (cleaned_do auto now s' s o H N1) as (A & B). unfold cache_do in *. destruct (negb (round_trip (BMgo auto) o)); cbn [server_do] in *.
      * rewrite B. f_equal. apply IH; auto.
      * destruct f; cbn [fst snd] in *.
        -- rewrite B. f_equal. apply IH; auto.
        -- f_equal. apply IH; auto.
        -- f_equal. apply IH; auto.
Qed.
(** when and whether GC or the server cleans up makes no difference, as long as no entry
    is touched, deleted or counted after its timeout *)
Theorem C51_gc_invisible_partial auto now h : forwards h -> none_late (BMgo auto) now [] (without_cleanups h) ->
  client_answers (BMgo auto) now [] h = answers (BMgo auto) now [] (without_cleanups h).
Proof. intros. apply C51_gen; auto. intros k. auto. Qed.
(** otherwise it does *)
Theorem C51_gc_invisible_refuted :
  let h := [HOp NoFault (OSet (bs "a") (AInt 7) (Some 10)); HWait (sec 10); HOp NoFault OGC; HOp NoFault (OTouch (bs "a") (Some 10)); HOp NoFault (OGet (bs "a"))] in
  client_answers (BMgo false) at0 [] h = [RDone; RMissed; RMissed] /\
  answers (BMgo false) at0 [] (without_cleanups h) = [RDone; RDone; RVal (bs "7")].
Proof. cbv zeta. split; vm_compute; reflexivity. Qed.
Example C51_example :
  let h := [HOp NoFault (OSet (bs "a") (AInt 7) (Some 10)); HOp NoFault OGC; HOp NoFault (OIncr (bs "a") None); HWait (sec 5); HServer [bs "a"];
            HOp NoFault (OTouch (bs "a") None); HWait (sec 59); HOp FaultAfter OGC; HOp NoFault (OGet (bs "a")); HWait (sec 1);
            HOp NoFault OGC; HOp NoFault (OHas (bs "a"))] in
  forwards h /\ none_late (BMgo false) at0 [] (without_cleanups h) /\
  client_answers (BMgo false) at0 [] h = [RDone; RDone; RDone; RVal (bs "8"); RBool false].
Proof. cbv zeta. split; [repeat constructor; discriminate|]. split; vm_compute; auto 20. Qed.

(** *** Frames *)
Lemma look_aget b now s s' K : aget s K = aget s' K -> look b now s K = look b now s' K.
Proof. intros H. unfold look. rewrite H. reflexivity. Qed.
Lemma look_some b now s K e : look b now s K = Some e -> aget s K = Some e.
Proof. unfold look. destruct (aget s K) as [x|]; [|discriminate]. destruct (live b now x); congruence. Qed.
Lemma live_later b now now' e : now <= now' -> live b now e = false -> live b now' e = false.
Proof.
  intros Hn. destruct b as [auto|p|p].
  - cbn [live]. destruct (mgo_get_value now e) eqn:E; [discriminate|]. rewrite (value_later _ _ _ Hn E). reflexivity.
  - rewrite !live_ended by exact I. intros E. apply negb_false_iff in E. apply negb_false_iff. eapply ended_later; eassumption.
  - rewrite !live_ended by exact I. intros E. apply negb_false_iff in E. apply negb_false_iff. eapply ended_later; eassumption.
Qed.
Lemma look_later b now now' s K : now <= now' -> look b now s K = None -> look b now' s K = None.
Proof.
  intros Hn. unfold look. destruct (aget s K) as [x|]; [|reflexivity]. destruct (live b now x) eqn:E; [discriminate|]. rewrite (live_later _ _ _ _ Hn E). reflexivity.
Qed.
(** an operation on one key leaves the others alone *)
Lemma frame b now s o k K : okey o = Some k -> full b k <> K -> aget (fst (server_do b now s o)) K = aget s K.
Proof.
  intros Ek Hne.
  destruct b as [auto|p|p]; destruct o as [k'|k' v ps|k' ps|k'|k' ps|k' ps|k'| |]; cbn [okey] in Ek; try discriminate Ek;
    injection Ek as ->; cbn [full] in Hne; cbn [server_do mgo_do redis_do mc_do]; unfold redis_incrby, mc_delta; cbv zeta;
    repeat match goal with
    | |- context [match ?x with _ => _ end] => destruct x
    end; cbn [fst snd]; try reflexivity; try (apply aget_aset_other; exact Hne); try (apply aget_adel_other; exact Hne).
Qed.
(** what an operation answers and leaves at its key depends on that key only *)
Lemma local b now s s' o k : okey o = Some k -> aget s (full b k) = aget s' (full b k) ->
  snd (server_do b now s o) = snd (server_do b now s' o) /\
  aget (fst (server_do b now s o)) (full b k) = aget (fst (server_do b now s' o)) (full b k).
Proof.
  intros Ek H.
  destruct b as [auto|p|p]; destruct o as [k'|k' v ps|k' ps|k'|k' ps|k' ps|k'| |]; cbn [okey] in Ek; try discriminate Ek;
    injection Ek as ->; cbn [full] in *; cbn [server_do mgo_do redis_do mc_do]; unfold redis_incrby, mc_delta, redis_get, mc_get; cbv zeta; rewrite ?H;
    repeat match goal with
    | |- context [match ?x with _ => _ end] => destruct x eqn:?
    end; cbn [fst snd]; rewrite ?aget_aset_same, ?aget_adel_same; split; congruence.
Qed.

(** *** C52 *)
Lemma look_stays b now s o k : look b now s (full b k) = None -> ~ may_set b k o -> look b now (fst (server_do b now s o)) (full b k) = None.
Proof.
  intros H N. destruct (okey o) as [k'|] eqn:Ek.
  - destruct (bytes_eq_dec k' k) as [->|Hne].
    2:{ rewrite (look_aget _ _ _ s); [exact H|]. apply (frame b now s o k'); [exact Ek|]. intros E. apply Hne. eapply full_inj. exact E. }
    assert (Del : look b now (adel s (full b k)) (full b k) = None) by (unfold look; rewrite aget_adel_same; reflexivity).
    assert (Upd : forall e v, aget s (full b k) = Some e -> look b now (aset s (full b k) (mkEntry v (e_exp e))) (full b k) = None).
    { intros e v E. unfold look in *. rewrite E in H. rewrite aget_aset_same. destruct (live b now e) eqn:Lv; [discriminate|].
      assert (X : live b now (mkEntry v (e_exp e)) = false).
      { destruct b; cbn [live] in *; unfold redis_live, mc_live in *; try exact Lv. unfold mgo_get_value in *. cbn [e_exp]. destruct (e_exp e); [|reflexivity]. destruct (now <? z); [discriminate|reflexivity]. }
      rewrite X. reflexivity. }
    destruct b as [auto|p|p]; destruct o as [k'|k' v ps|k' ps|k'|k' ps|k' ps|k'| |]; cbn [okey] in Ek; try discriminate Ek;
      injection Ek as ->; cbn [may_set] in N; try (exfalso; apply N; reflexivity); cbn [server_do mgo_do redis_do mc_do]; unfold mc_delta; cbv zeta;
      try change (redis_get now s (p ++ k)) with (look (BRedis p) now s (p ++ k)); try change (mc_get now s (p ++ k)) with (look (BMc p) now s (p ++ k));
      cbn [full] in *; try rewrite H;
      repeat match goal with |- context [match ?x with _ => _ end] => destruct x eqn:? end; cbn [fst]; auto.
  - destruct o; try discriminate Ek.
    + destruct b; reflexivity.
    + destruct b as [auto|p|p]; try exact H. cbn [server_do mgo_do full] in *. destruct auto; cbn [fst]; [exact H|].
      unfold look in *. rewrite aget_akeep. destruct (aget s k) as [e|]; [|reflexivity]. destruct (negb _); [exact H|reflexivity].
Qed.
Lemma look_env b now ks s K : look b now s K = None -> look b now (server_env b now ks s) K = None.
Proof.
  intros H. destruct b as [[]|p|p]; cbn [server_env]; try exact H; unfold mongo_ttl_monitor, look in *; rewrite aget_akeep;
    destruct (aget s K) as [e|]; try reflexivity; destruct (negb _); auto.
Qed.
Lemma get_look b now s k : snd (server_do b now s (OGet k)) =
  match b with
  | BMc p => if mc_legal (p ++ k) then match look b now s (full b k) with Some e => RVal (utils_tostr (e_val e)) | None => RMissed end else RFail
  | _ => match look b now s (full b k) with Some e => RVal (utils_tostr (e_val e)) | None => RMissed end
  end.
Proof.
  destruct b as [auto|p|p]; [rewrite do_get by exact I; reflexivity..|]. destruct (mc_legal (p ++ k)) eqn:L.
  - rewrite do_get by exact L. reflexivity.
  - cbn [server_do mc_do]. cbv zeta. rewrite L. reflexivity.
Qed.
Lemma get_missed b now s k : snd (server_do b now s (OGet k)) = RMissed <-> look b now s (full b k) = None /\ storable b k.
Proof.
  rewrite get_look. destruct b as [auto|p|p]; cbn [storable]; [| |destruct (mc_legal (p ++ k))];
    try (destruct (look _ now s _)); split; try (intros [? ?]); try discriminate; auto.
Qed.
Lemma C52_gen b h k : forall now s, look b now s (full b k) = None -> forwards h ->
  Forall (fun e => match e with HOp _ o => ~ may_set b k o | _ => True end) h ->
  look b (fst (after b now s h)) (snd (after b now s h)) (full b k) = None.
Proof.
  induction h as [|e h IH]; intros now s H Fw N; [exact H|]. inversion Fw as [|? ? F1 F2]; subst. inversion N as [|? ? N1 N2]; subst.
  unfold after. rewrite hrun_cons. cbn [fst snd]. destruct e as [d|f o|ks]; cbn [hstep fst snd].
  - apply (IH (now + d) s); auto. eapply look_later; [|exact H]. lia.
  - apply (IH now (fst (cache_do b now f s o))); auto. unfold cache_do. destruct (negb _); [apply look_stays; assumption|].
    destruct f; cbn [fst]; auto using look_stays.
  - apply (IH now (server_env b now ks s)); auto. apply look_env. exact H.
Qed.
(** what is missing, expired for instance, is missing until it is set again (on Mongo: or touched; on Redis: or counted) *)
Theorem C52_missing_until_set_partial b now s k h :
  snd (server_do b now s (OGet k)) = RMissed -> forwards h ->
  Forall (fun e => match e with HOp _ o => ~ may_set b k o | _ => True end) h ->
  snd (server_do b (fst (after b now s h)) (snd (after b now s h)) (OGet k)) = RMissed.
Proof. rewrite !get_missed. intros (H & L) Fw N. split; [apply C52_gen; assumption|exact L]. Qed.
(** on Mongo a Touch brings an expired entry back *)
Theorem C52_expired_returns_refuted :
  answers (BMgo true) at0 [] [HOp NoFault (OSet (bs "a") (AInt 7) (Some 10)); HWait (sec 10); HOp NoFault (OGet (bs "a"));
                              HOp NoFault (OTouch (bs "a") (Some 10)); HOp NoFault (OGet (bs "a"))]
  = [RDone; RMissed; RDone; RVal (bs "7")].
Proof. vm_compute. reflexivity. Qed.
Example C52_example : forall b, b = BMgo true \/ b = BRedis (bs "p:") \/ b = BMc (bs "p:") ->
  answers b at0 [] [HOp NoFault (OSet (bs "a") (AInt 7) (Some 10)); HWait (sec 9); HOp NoFault (OHas (bs "a")); HWait (sec 2);
                    HOp NoFault (OGet (bs "a")); HOp NoFault (ODecr (bs "b") None); HOp NoFault (OGet (bs "a"))]
  = [RDone; RBool true; RMissed; match b with BRedis _ => RDone | _ => RMissed end; RMissed].
Proof. intros b [->|[->| ->]]; vm_compute; reflexivity. Qed.

(** *** C54 *)
(** how much too early or too late an entry may vanish *)
Definition early (b : backend) : Z := match b with BMgo _ => 1000000 | BRedis _ => 0 | BMc _ => 1000000000 end.
Definition late (b : backend) : Z := match b with BRedis _ => 1000000 | _ => 0 end.
Definition set_wait_get (b : backend) (now : Z) (s : store) (k : bytes) (v : anyval) (ps : option Z) (d : Z) : list cout :=
  answers b now s [HOp NoFault (OSet k v ps); HWait d; HOp NoFault (OGet k)].
Lemma set_wait_get_eq b now s k v ps d : plain v -> storable b k ->
  (forall p, b = BRedis p -> timeout_dur ps mod second = 0) ->
  exists e, utils_tostr (e_val e) = utils_tostr v /\
    e_exp e = match b with
              | BMgo _ => Some (bson_time (now + timeout_dur_ex ps))
              | BRedis _ => if 0 <? timeout_dur ps then Some (now / msec + timeout_dur ps / second * 1000) else None
              | BMc _ => mc_deadline now (to_int32 (timeout_dur ps / second))
              end /\
    set_wait_get b now s k v ps d =
      [RDone; if match b with BMgo _ => match mgo_get_value (now + d) e with Some _ => true | None => false end
                         | BRedis _ => redis_live (now + d) e | BMc _ => mc_live (now + d) e end
              then RVal (utils_tostr v) else RMissed].
Proof.
  intros P L Hr. unfold set_wait_get, answers. destruct b as [auto|p|p]; cbn [hrun hstep fst snd app]; unfold cache_do; cbn [round_trip negb server_do].
  - destruct (bson_plain v P) as (v' & B & V). cbn [mgo_do]. rewrite B. cbn [fst snd]. rewrite aget_aset_same.
    exists (mkEntry v' (Some (bson_time (now + timeout_dur_ex ps)))). split; [exact V|]. split; [reflexivity|].
    unfold mgo_get_value. cbn [e_exp e_val]. destruct (now + d <? _); cbn [fst snd]; rewrite ?V; reflexivity.
  - cbn [redis_do]. cbv zeta. rewrite (Hr p eq_refl). cbn [Z.eqb]. destruct (0 <? timeout_dur ps); cbn [fst snd]; unfold redis_get; rewrite aget_aset_same.
    + exists (mkEntry (AStr (utils_tostr v)) (Some (now / msec + timeout_dur ps / second * 1000))). split; [reflexivity|]. split; [reflexivity|].
      destruct (redis_live _ _); reflexivity.
    + exists (mkEntry (AStr (utils_tostr v)) None). split; [reflexivity|]. split; reflexivity.
  - cbn [storable] in L. cbn [mc_do]. cbv zeta. rewrite L. cbn [fst snd]. unfold mc_get. rewrite aget_aset_same.
    exists (mkEntry (AStr (utils_tostr v)) (mc_deadline now (to_int32 (timeout_dur ps / second)))). split; [reflexivity|]. split; [reflexivity|].
    destruct (mc_live _ _); reflexivity.
Qed.
Lemma set_wait_get_secs b now s k v ps n d :
  plain v -> storable b k -> 0 < n <= cap b -> timeout_dur ps = n * second ->
  (0 <= d -> d + early b < n * 1000000000 -> set_wait_get b now s k v ps d = [RDone; RVal (utils_tostr v)]) /\
  (n * 1000000000 + late b <= d -> set_wait_get b now s k v ps d = [RDone; RMissed]).
Proof.
  intros P L Hn T. destruct (set_wait_get_eq b now s k v ps d P L) as (e & V & X & ->).
  { intros p _. rewrite T. apply Z.mod_mul. discriminate. }
  assert (Q : n * second / second = n) by (apply Z.div_mul; discriminate).
  destruct b as [auto|p|p]; cbn [cap early late] in *.
  - unfold mgo_get_value. rewrite X, bson_whole. unfold timeout_dur_ex. rewrite T. cbv zeta. unfold second in *.
    destruct (Z.eqb_spec (n * 1000000000) 0); [lia|]. unfold whole_ms.
    pose proof (Z.mod_pos_bound (now + n * 1000000000) 1000000 ltac:(lia)).
    split; intros; destruct (Z.ltb_spec (now + d) (now + n * 1000000000 - (now + n * 1000000000) mod 1000000)); try reflexivity; lia.
  - unfold redis_live. rewrite X, T, Q. unfold second, msec. destruct (Z.ltb_spec 0 (n * 1000000000)); [|lia].
    pose proof (Z.div_mod now 1000000 ltac:(lia)). pose proof (Z.mod_pos_bound now 1000000 ltac:(lia)).
    pose proof (Z.div_mod (now + d) 1000000 ltac:(lia)). pose proof (Z.mod_pos_bound (now + d) 1000000 ltac:(lia)).
    split; intros; destruct (Z.leb_spec ((now + d) / 1000000) (now / 1000000 + n * 1000)); try reflexivity; nia.
  - unfold mc_live. rewrite X, T, Q. unfold mc_deadline. rewrite to_int32_id by lia.
    destruct (Z.eqb_spec n 0); [lia|]. destruct (Z.ltb_spec n 0); [lia|]. destruct (Z.leb_spec n 2592000); [|lia]. unfold second.
    pose proof (Z.div_mod now 1000000000 ltac:(lia)). pose proof (Z.mod_pos_bound now 1000000000 ltac:(lia)).
    pose proof (Z.div_mod (now + d) 1000000000 ltac:(lia)). pose proof (Z.mod_pos_bound (now + d) 1000000000 ltac:(lia)).
    split; intros; destruct (Z.ltb_spec ((now + d) / 1000000000) (now / 1000000000 + n)); try reflexivity; nia.
Qed.
(** a positive timeout is that many seconds (memcached: up to 30 days) *)
Theorem C54_positive_timeout_partial b now s k v n d :
  plain v -> storable b k -> 0 < n <= cap b ->
  (0 <= d -> d + early b < n * 1000000000 -> set_wait_get b now s k v (Some n) d = [RDone; RVal (utils_tostr v)]) /\
  (n * 1000000000 + late b <= d -> set_wait_get b now s k v (Some n) d = [RDone; RMissed]).
Proof. intros P L H. apply set_wait_get_secs; auto. apply timeout_pos. destruct b; cbn [cap] in H; lia. Qed.
(** no timeout, or zero, is a minute *)
Theorem C54_default_timeout b now s k v ps d :
  plain v -> storable b k -> ps = None \/ ps = Some 0 ->
  (0 <= d -> d + early b < 60 * 1000000000 -> set_wait_get b now s k v ps d = [RDone; RVal (utils_tostr v)]) /\
  (60 * 1000000000 + late b <= d -> set_wait_get b now s k v ps d = [RDone; RMissed]).
Proof.
  intros P L H. apply set_wait_get_secs; auto; [destruct b; cbn [cap]; lia|]. destruct H as [->| ->]; reflexivity.
Qed.
(** a negative timeout is no timeout (on Mongo: 9999 days) *)
Theorem C54_no_timeout b now s k v n d :
  plain v -> storable b k -> n < 0 -> match b with BMgo _ => d + 1000000 < 9999 * 24 * 3600 * 1000000000 | _ => True end ->
  set_wait_get b now s k v (Some n) d = [RDone; RVal (utils_tostr v)].
Proof.
  intros P L Hn Hd. destruct (set_wait_get_eq b now s k v (Some n) d P L) as (e & V & X & ->).
  { intros p _. rewrite timeout_neg by exact Hn. reflexivity. }
  destruct b as [auto|p|p].
  - unfold mgo_get_value. rewrite X, bson_whole. unfold timeout_dur_ex. rewrite timeout_neg by exact Hn. cbv zeta. cbn [Z.eqb]. unfold whole_ms, second.
    set (q := now + 9999 * 24 * 3600 * 1000000000). pose proof (Z.mod_pos_bound q 1000000 ltac:(lia)).
    destruct (Z.ltb_spec (now + d) (q - q mod 1000000)); [reflexivity|]. unfold q in *. lia.
  - unfold redis_live. rewrite X, timeout_neg by exact Hn. reflexivity.
  - unfold mc_live. rewrite X, timeout_neg by exact Hn. reflexivity.
Qed.
(** timeouts over 9223372036 seconds overflow: the entry is gone at once *)
Theorem C54_huge_timeout_refuted now s k d auto : 0 <= d ->
  set_wait_get (BMgo auto) now s k (AInt 1) (Some 9223372037) d = [RDone; RMissed].
Proof.
  intros Hd. destruct (set_wait_get_eq (BMgo auto) now s k (AInt 1) (Some 9223372037) d I I) as (e & V & X & ->); [discriminate|].
  unfold mgo_get_value. rewrite X, bson_whole. assert (T : timeout_dur_ex (Some 9223372037) = -9223372036709551616) by (vm_compute; reflexivity).
  rewrite T. unfold whole_ms. pose proof (Z.mod_pos_bound (now + -9223372036709551616) 1000000 ltac:(lia)).
  destruct (Z.ltb_spec (now + d) (now + -9223372036709551616 - (now + -9223372036709551616) mod 1000000)); [lia|reflexivity].
Qed.
Example C54_example : forall b, b = BMgo true \/ b = BRedis (bs "p:") \/ b = BMc (bs "p:") ->
  storable b (bs "k") /\ set_wait_get b at0 [] (bs "k") (AStr (bs "v")) (Some 5) (sec 3) = [RDone; RVal (bs "v")] /\
  set_wait_get b at0 [] (bs "k") (AStr (bs "v")) None (sec 61) = [RDone; RMissed] /\
  set_wait_get b at0 [] (bs "k") (ABytes (bs "v")) (Some (-1)) (sec 100000000) = [RDone; RVal (bs "v")].
Proof. intros b [->|[->| ->]]; split; try (vm_compute; auto); exact I. Qed.

(** *** C56 *)
Theorem C56_back_ends_agree_partial b1 b2 now1 now2 s1 s2 k v n d :
  plain v -> storable b1 k -> storable b2 k -> 0 < n <= 2592000 -> 0 <= d ->
  d + 1000000000 < n * 1000000000 \/ n * 1000000000 + 1000000 <= d ->
  set_wait_get b1 now1 s1 k v (Some n) d = set_wait_get b2 now2 s2 k v (Some n) d.
Proof.
  intros P L1 L2 Hn Hd H.
  assert (H1 : 0 < n <= cap b1) by (destruct b1; cbn [cap]; lia). assert (H2 : 0 < n <= cap b2) by (destruct b2; cbn [cap]; lia).
  destruct (C54_positive_timeout_partial b1 now1 s1 k v n d P L1 H1) as (A1 & B1).
  destruct (C54_positive_timeout_partial b2 now2 s2 k v n d P L2 H2) as (A2 & B2).
  destruct H as [H|H].
  - rewrite A1, A2; try reflexivity; try assumption; [destruct b2|destruct b1]; cbn [early]; lia.
  - rewrite B1, B2; try reflexivity; [destruct b2|destruct b1]; cbn [late]; lia.
Qed.
(** memcached takes more than 30 days for a date in 1970 *)
Theorem C56_back_ends_agree_refuted p now s k v n d :
  plain v -> mc_legal (p ++ k) = true -> 2592000 < n < 2 ^ 31 -> n * 1000000000 <= now -> 0 <= d ->
  set_wait_get (BMc p) now s k v (Some n) d = [RDone; RMissed] /\
  (d + 1000000 < n * 1000000000 -> set_wait_get (BMgo true) now s k v (Some n) d = [RDone; RVal (utils_tostr v)] /\
                         set_wait_get (BRedis p) now s k v (Some n) d = [RDone; RVal (utils_tostr v)]).
Proof.
  intros P L Hn Hnow Hd. split.
  - destruct (set_wait_get_eq (BMc p) now s k v (Some n) d P L) as (e & V & X & ->); [discriminate|].
    unfold mc_live. rewrite X, timeout_pos by lia. assert (Q : n * second / second = n) by (apply Z.div_mul; discriminate). rewrite Q.
    unfold mc_deadline. rewrite to_int32_id by lia. destruct (Z.eqb_spec n 0); [lia|]. destruct (Z.ltb_spec n 0); [lia|]. destruct (Z.leb_spec n 2592000); [lia|].
    assert (n <= (now + d) / second) by (apply Z.div_le_lower_bound; unfold second; lia).
    destruct (Z.ltb_spec ((now + d) / second) n); [lia|reflexivity].
  - intros H. destruct (C54_positive_timeout_partial (BMgo true) now s k v n d P I) as (A & _); [cbn [cap]; lia|].
    destruct (C54_positive_timeout_partial (BRedis p) now s k v n d P I) as (B & _); [cbn [cap]; lia|].
    split; [apply A|apply B]; cbn [early]; lia.
Qed.
Example C56_example : mc_legal (bs "p:" ++ bs "k") = true /\ 2592000 < 2592001 < 2 ^ 31 /\ 2592001 * 1000000000 <= at0.
Proof. split; [reflexivity|]. vm_compute. repeat split; discriminate. Qed.

(** *** C53 *)
(** Touch with a negative timeout keeps what is there, on Mongo for 9999 days *)
Theorem C53_touch_forever_partial b now s k v n d :
  snd (server_do b now s (OGet k)) = RVal v -> n < 0 ->
  match b with BMgo _ => d + 1000000 < 9999 * 24 * 3600 * 1000000000 | BRedis _ => False | BMc _ => True end ->
  answers b now s [HOp NoFault (OTouch k (Some n)); HWait d; HOp NoFault (OGet k)] = [RDone; RVal v].
Proof.
  intros G Hn Hb. unfold answers. cbn [hrun hstep fst snd app]. unfold cache_do. cbn [round_trip negb].
  destruct b as [auto|p|p]; [|contradiction|]; cbn [server_do] in *.
  - cbn [mgo_do] in *. destruct (aget s k) as [e|]; [|discriminate]. cbn [fst snd]. rewrite aget_aset_same. unfold mgo_get_value in *. cbn [e_exp e_val].
    destruct (e_exp e); [|discriminate]. destruct (now <? z); [|discriminate]. cbn [snd] in G.
    rewrite bson_whole. unfold timeout_dur_ex. rewrite timeout_neg by exact Hn. cbv zeta. cbn [Z.eqb]. unfold whole_ms, second.
    set (q := now + 9999 * 24 * 3600 * 1000000000). pose proof (Z.mod_pos_bound q 1000000 ltac:(lia)).
    destruct (Z.ltb_spec (now + d) (q - q mod 1000000)); [cbn [snd]; rewrite G; reflexivity|]. unfold q in *. lia.
  - cbn [mc_do] in *. cbv zeta in *. destruct (mc_legal (p ++ k)); [|discriminate]. destruct (mc_get now s (p ++ k)) as [e|]; [|discriminate].
    cbn [fst snd] in *. unfold mc_get. rewrite aget_aset_same, timeout_neg by exact Hn. unfold mc_live. change (mc_deadline now (to_int32 (0 / second))) with (@None Z). cbn [e_exp e_val fst snd]. rewrite G. reflexivity.
Qed.
(** on Redis it removes it *)
Theorem C53_touch_forever_refuted p now s k v n :
  snd (server_do (BRedis p) now s (OGet k)) = RVal v -> n < 0 ->
  answers (BRedis p) now s [HOp NoFault (OTouch k (Some n)); HOp NoFault (OGet k)] = [RDone; RMissed].
Proof.
  intros G Hn. unfold answers. cbn [hrun hstep fst snd app]. unfold cache_do. cbn [round_trip negb server_do redis_do] in *. cbv zeta.
  rewrite timeout_neg by exact Hn. change (0 mod second =? 0) with true. cbn [negb]. destruct (redis_get now s (p ++ k)) as [e|]; [|discriminate].
  change (0 <? 0) with false. cbn [fst snd]. unfold redis_get. rewrite aget_adel_same. reflexivity.
Qed.
Example C53_example : forall b, b = BMgo true \/ b = BRedis (bs "p:") \/ b = BMc (bs "p:") ->
  let s := fst (server_do b at0 [] (OSet (bs "k") (AInt 5) (Some 10))) in snd (server_do b at0 s (OGet (bs "k"))) = RVal (bs "5").
Proof. intros b [->|[->| ->]]; vm_compute; reflexivity. Qed.

(** *** C55 *)
Lemma apart_keys p q x y : apart p q -> p ++ x <> q ++ y.
Proof.
  intros (A & B). revert q A B. induction p as [|c p IH]; intros q A B E; [apply (A q); reflexivity|].
  destruct q as [|c' q]; [apply (B (c :: p)); reflexivity|]. cbn in E. injection E as -> E. apply (IH q).
  - intros z ->. apply (A z). reflexivity.
  - intros z ->. apply (B z). reflexivity.
  - exact E.
Qed.
Definition prefix_of (b : backend) : option bytes := match b with BMgo _ => None | BRedis p | BMc p => Some p end.
(** both are on one Redis or one memcached *)
Definition same_server (b1 b2 : backend) : Prop :=
  match b1, b2 with BRedis _, BRedis _ | BMc _, BMc _ => True | _, _ => False end.
Lemma C55_gen b1 b2 p q h : same_server b1 b2 -> prefix_of b1 = Some p -> prefix_of b2 = Some q -> apart p q ->
  Forall (fun e => match e with SOp _ _ OClean => False | _ => True end) h ->
  forall now s s', (forall k, aget s (full b2 k) = aget s' (full b2 k)) ->
  answers_two b1 b2 now s h = answers_two b1 b2 now s' (without_one h).
Proof.
  intros SS P1 P2 Ap. induction h as [|e h IH]; intros N now s s' H; [reflexivity|]. inversion N as [|? ? N1 N2]; subst. specialize (IH N2).
  destruct e as [d|c f o|ks]; cbn [answers_two without_one filter].
  - apply IH. exact H.
  - destruct c; cbn [answers_two].
    + apply IH. intros k. rewrite <- H. unfold cache_do.
      assert (F : aget (fst (server_do b1 now s o)) (full b2 k) = aget s (full b2 k)).
      { destruct (okey o) as [k1|] eqn:Ek.
        - apply (frame b1 now s o k1 _ Ek). destruct b1, b2; cbn in P1, P2 |- *; try discriminate; injection P1 as ->; injection P2 as ->; apply apart_keys; exact Ap.
        - destruct o; try discriminate Ek; [contradiction|]. destruct b1; try contradiction SS; reflexivity. }
      destruct (negb _); [exact F|]. destruct f; cbn [fst]; auto.
    + assert (F : snd (server_do b2 now s o) = snd (server_do b2 now s' o) /\ forall k, aget (fst (server_do b2 now s o)) (full b2 k) = aget (fst (server_do b2 now s' o)) (full b2 k)).
      { destruct (okey o) as [k1|] eqn:Ek.
        - destruct (local b2 now s s' o k1 Ek (H k1)) as (A & B). split; [exact A|]. intros k. destruct (bytes_eq_dec k1 k) as [<-|Hne]; [exact B|].
          rewrite !(frame b2 now _ o k1 (full b2 k) Ek); [apply H| |]; intros E; apply Hne; eapply full_inj; exact E.
        - destruct o; try discriminate Ek; [contradiction|]. destruct b1, b2; try contradiction SS; cbn; auto. }
      destruct F as (F1 & F2). unfold cache_do. destruct (negb _).
      * rewrite F1. f_equal. apply IH. exact F2.
      * destruct f; cbn [fst snd]; [rewrite F1| |]; f_equal; apply IH; assumption.
  - apply IH. intros k. destruct b1, b2; try contradiction SS; cbn [server_env]; [apply H|]. rewrite !aget_akeep, H. reflexivity.
Qed.
(** caches with prefixes neither of which begins the other do not notice each other, unless one is cleaned *)
Theorem C55_prefixes_isolate_partial b1 b2 p q h now s :
  same_server b1 b2 -> prefix_of b1 = Some p -> prefix_of b2 = Some q -> apart p q ->
  Forall (fun e => match e with SOp _ _ OClean => False | _ => True end) h ->
  answers_two b1 b2 now s h = answers_two b1 b2 now s (without_one h).
Proof. intros. eapply C55_gen; eauto. Qed.
(** Clean removes everything, and "a" can reach all of "ab" *)
Theorem C55_prefixes_isolate_refuted :
  (forall b1 b2, b1 = BRedis (bs "a:") /\ b2 = BRedis (bs "b:") \/ b1 = BMc (bs "a:") /\ b2 = BMc (bs "b:") ->
   let h := [SOp Two NoFault (OSet (bs "k") (AInt 5) None); SOp One NoFault OClean; SOp Two NoFault (OGet (bs "k"))] in
   answers_two b1 b2 at0 [] h = [RDone; RMissed] /\ answers_two b1 b2 at0 [] (without_one h) = [RDone; RVal (bs "5")]) /\
  (forall b1 b2, b1 = BRedis (bs "a") /\ b2 = BRedis (bs "ab") \/ b1 = BMc (bs "a") /\ b2 = BMc (bs "ab") ->
   let h := [SOp Two NoFault (OSet (bs "k") (AInt 5) None); SOp One NoFault (OSet (bs "bk") (AInt 6) None); SOp Two NoFault (OGet (bs "k"))] in
   answers_two b1 b2 at0 [] h = [RDone; RVal (bs "6")] /\ answers_two b1 b2 at0 [] (without_one h) = [RDone; RVal (bs "5")]).
Proof. split; intros b1 b2 [(-> & ->)|(-> & ->)]; vm_compute; auto. Qed.
Example C55_example : apart (bs "sess:") (bs "cache:") /\
  answers_two (BMc (bs "sess:")) (BMc (bs "cache:")) at0 []
    [SOp Two NoFault (OSet (bs "k") (AInt 5) None); SOp One NoFault (ODelete (bs "k")); SOp One NoFault (OSet (bs "k") (AInt 9) (Some (-1)));
     SOp Two NoFault (OIncr (bs "k") (Some 3)); SWait (sec 59); SOp Two NoFault (OGet (bs "k")); SOp One NoFault OGC; SWait (sec 1); SOp Two NoFault (OHas (bs "k"))]
  = [RDone; RDone; RVal (bs "8"); RBool false].
Proof. split; [split; intros x; discriminate|vm_compute; reflexivity]. Qed.

(** *** C98 *)
(** a run of increments (positive) and decrements (negative) *)
Definition count_ops (k : bytes) (cs : list Z) : list hev :=
  map (fun c => HOp NoFault (if 0 <=? c then OIncr k (Some c) else ODecr k (Some (- c)))) cs.
(** every intermediate value fits *)
Fixpoint within (lo hi z : Z) (cs : list Z) : Prop :=
  lo <= z < hi /\ match cs with [] => True | c :: r => within lo hi (z + c) r end.
Fixpoint total (cs : list Z) : Z := match cs with [] => 0 | c :: r => c + total r end.
Lemma redis_int_format z : - 2 ^ 63 <= z < 2 ^ 63 -> redis_int (format_int z) = Some z.
Proof. intros H. unfold redis_int. rewrite parse_format_int by (cbn; lia). rewrite beq_refl. reflexivity. Qed.
Definition int64 (z : Z) : Prop := - 2 ^ 63 <= z < 2 ^ 63.
Definition counts (b : backend) : Prop := match b with BMc _ => False | _ => True end.
Definition holds_int (b : backend) (now : Z) (s : store) (k : bytes) (z : Z) : Prop :=
  exists e, look b now s (full b k) = Some e /\ match b with BMgo _ => e_val e = AInt z | _ => e_val e = AStr (format_int z) end.
Lemma look_set b now s K e e' : look b now s K = Some e -> e_exp e' = e_exp e -> look b now (aset s K e') K = Some e'.
Proof.
  intros H X. pose proof (look_some _ _ _ _ _ H) as G. unfold look in *. rewrite G in H. rewrite aget_aset_same.
  assert (L : live b now e' = live b now e).
  { destruct b; cbn [live]; unfold redis_live, mc_live, mgo_get_value; rewrite X; try reflexivity. destruct (e_exp e); [|reflexivity]. destruct (now <? z); reflexivity. }
  rewrite L. destruct (live b now e); [reflexivity|discriminate].
Qed.
Lemma range_test z : int64 z -> (- 2 ^ 63 <=? z) && (z <? 2 ^ 63) = true.
Proof. intros (A & B). apply andb_true_iff. split; [apply Z.leb_le; exact A|apply Z.ltb_lt; exact B]. Qed.
Lemma incr_step b now s k z c : counts b -> holds_int b now s k z -> int64 z -> int64 c -> c <> - 2 ^ 63 -> int64 (z + c) ->
  let o := if 0 <=? c then OIncr k (Some c) else ODecr k (Some (- c)) in
  snd (server_do b now s o) = RDone /\ holds_int b now (fst (server_do b now s o)) k (z + c).
Proof.
  intros Hb (e & L & V) Hz Hc Hm Hs. cbv zeta. pose proof (look_some _ _ _ _ _ L) as G.
  destruct b as [auto|p|p]; [| |contradiction]; cbn [full] in *.
  - assert (R : mgo_do auto now s (if 0 <=? c then OIncr k (Some c) else ODecr k (Some (- c))) = (aset s k (mkEntry (AInt (z + c)) (e_exp e)), RDone)).
    { destruct (Z.leb_spec 0 c); cbn [mgo_do cnt_of neg_cnt_of]; rewrite G, V; cbn [mongo_inc].
      - rewrite (range_test _ Hs). reflexivity.
      - replace (0 - - c) with c by lia. rewrite wrap64_id by exact Hc. rewrite (range_test _ Hs). reflexivity. }
    cbn [server_do]. rewrite R. cbn [fst snd]. split; [reflexivity|]. eexists. split; [eapply look_set; [exact L|reflexivity]|reflexivity].
  - assert (R : redis_do p now s (if 0 <=? c then OIncr k (Some c) else ODecr k (Some (- c))) = (aset s (p ++ k) (mkEntry (AStr (format_int (z + c))) (e_exp e)), RDone)).
    { change (redis_get now s (p ++ k) = Some e) in L. assert (I : redis_incrby now s (p ++ k) c = (aset s (p ++ k) (mkEntry (AStr (format_int (z + c))) (e_exp e)), RDone)).
      { unfold redis_incrby. cbv zeta. rewrite L, V. cbn [utils_tostr]. rewrite redis_int_format by exact Hz. rewrite (range_test _ Hs). reflexivity. }
      destruct (Z.leb_spec 0 c); cbn [redis_do cnt_of]; [exact I|]. destruct (Z.eqb_spec (- c) (- 2 ^ 63)); [unfold int64 in Hc; lia|].
      rewrite Z.opp_involutive. exact I. }
    cbn [server_do]. rewrite R. cbn [fst snd]. split; [reflexivity|]. eexists. split; [apply (look_set (BRedis p)) with (e := e); [exact L|reflexivity]|reflexivity].
Qed.
Lemma count_run b now k cs : counts b -> forall s z rest, holds_int b now s k z -> Forall (fun c => int64 c /\ c <> - 2 ^ 63) cs -> within (- 2 ^ 63) (2 ^ 63) z cs ->
  exists s', holds_int b now s' k (z + total cs) /\
    answers b now s (count_ops k cs ++ rest) = repeat RDone (List.length cs) ++ answers b now s' rest.
Proof.
  intros Hb. induction cs as [|c cs IH]; intros s z rest H F W.
  - exists s. cbn [total]. rewrite Z.add_0_r. split; [exact H|reflexivity].
  - inversion F as [|? ? (F1 & F1') F2]; subst. cbn [within] in W. destruct W as (W0 & W). assert (W1 : int64 (z + c)) by (destruct cs; exact (proj1 W)).
    destruct (incr_step b now s k z c Hb H W0 F1 F1' W1) as (A & B). cbv zeta in A, B.
    destruct (IH _ (z + c) rest B F2 W) as (s' & H' & E). exists s'. cbn [total]. rewrite Z.add_assoc. split; [exact H'|].
    unfold answers in *. cbn [count_ops map app]. rewrite hrun_cons. cbn [hstep fst snd app].
    assert (D : forall o, (o = OIncr k (Some c) \/ o = ODecr k (Some (- c))) -> cache_do b now NoFault s o = server_do b now s o).
    { intros o [->| ->]; destruct b; reflexivity. }
    rewrite !D by (destruct (0 <=? c); auto). rewrite A. cbn [List.length repeat app]. f_equal. exact E.
Qed.
(** on Mongo and Redis an integer that was set counts exactly, however often and in whatever order *)
Theorem C98_counters_partial b now s k z n cs :
  counts b -> 0 < n <= 9223372036 -> Forall (fun c => int64 c /\ c <> - 2 ^ 63) cs -> within (- 2 ^ 63) (2 ^ 63) z cs ->
  answers b now s (HOp NoFault (OSet k (AInt z) (Some n)) :: count_ops k cs ++ [HOp NoFault (OGet k)])
  = RDone :: repeat RDone (List.length cs) ++ [RVal (format_int (z + total cs))].
Proof.
  intros Hb Hn F W. unfold answers. rewrite hrun_cons. cbn [hstep fst snd app]. unfold cache_do.
  assert (S : snd (server_do b now s (OSet k (AInt z) (Some n))) = RDone /\ holds_int b now (fst (server_do b now s (OSet k (AInt z) (Some n)))) k z).
  { destruct b as [auto|p|p]; [| |contradiction]; cbn [server_do mgo_do redis_do bson_val]; cbv zeta.
    - cbn [fst snd]. split; [reflexivity|]. exists (mkEntry (AInt z) (Some (bson_time (now + timeout_dur_ex (Some n))))). unfold look. cbn [full]. rewrite aget_aset_same.
      unfold live, mgo_get_value. cbn [e_exp e_val]. unfold timeout_dur_ex. rewrite timeout_pos by exact Hn. cbv zeta. unfold second. destruct (Z.eqb_spec (n * 1000000000) 0); [lia|].
      rewrite bson_whole. unfold whole_ms. pose proof (Z.mod_pos_bound (now + n * 1000000000) 1000000 ltac:(lia)).
      destruct (Z.ltb_spec now (now + n * 1000000000 - (now + n * 1000000000) mod 1000000)); [auto|lia].
    - rewrite timeout_pos by exact Hn. unfold second. destruct (Z.ltb_spec 0 (n * 1000000000)); [|lia]. rewrite Z.mod_mul, Z.div_mul by lia. cbn [Z.eqb fst snd].
      split; [reflexivity|]. exists (mkEntry (AStr (format_int z)) (Some (now / msec + n * 1000))). unfold look. cbn [full utils_tostr]. rewrite aget_aset_same.
      unfold live, redis_live. cbn [e_exp]. destruct (Z.leb_spec (now / msec) (now / msec + n * 1000)); [auto|lia]. }
  destruct S as (S1 & S2). assert (R : round_trip b (OSet k (AInt z) (Some n)) = true) by (destruct b; reflexivity). rewrite R. cbn [negb]. rewrite S1. f_equal.
  destruct (count_run b now k cs Hb _ z [HOp NoFault (OGet k)] S2 F W) as (s' & (e & L & V) & E). unfold answers in E. rewrite E. f_equal.
  cbn [hrun hstep fst snd app]. unfold cache_do. assert (R2 : round_trip b (OGet k) = true) by (destruct b; reflexivity). rewrite R2. cbn [negb].
  rewrite get_look, L. destruct b; [| |contradiction]; rewrite V; reflexivity.
Qed.
(** on memcached the blank of a lost digit stays and nothing goes below zero; Redis counts what does not exist *)
Theorem C98_counters_refuted :
  answers (BMc (bs "p")) at0 [] [HOp NoFault (OSet (bs "k") (AInt 10) (Some 9)); HOp NoFault (ODecr (bs "k") None); HOp NoFault (OGet (bs "k"))]
    = [RDone; RDone; RVal (bs "9 ")] /\
  answers (BMc (bs "p")) at0 [] [HOp NoFault (OSet (bs "k") (AInt 3) (Some 9)); HOp NoFault (ODecr (bs "k") (Some 5)); HOp NoFault (OGet (bs "k"))]
    = [RDone; RDone; RVal (bs "0")] /\
  (forall b, b = BRedis (bs "p") \/ b = BMc (bs "p") \/ b = BMgo true ->
    answers b at0 [] [HOp NoFault (OIncr (bs "k") None); HOp NoFault (OGet (bs "k"))]
    = match b with BRedis _ => [RDone; RVal (bs "1")] | _ => [RMissed; RMissed] end).
Proof. split; [|split; [|intros b [->|[->| ->]]]]; vm_compute; reflexivity. Qed.
Example C98_example : let cs := [5; -20; 3] in Forall (fun c => int64 c /\ c <> - 2 ^ 63) cs /\ within (- 2 ^ 63) (2 ^ 63) 10 cs /\
  answers (BRedis (bs "p")) at0 [] (HOp NoFault (OSet (bs "k") (AInt 10) (Some 9)) :: count_ops (bs "k") cs ++ [HOp NoFault (OGet (bs "k"))]) = [RDone; RDone; RDone; RDone; RVal (bs "-2")].
Proof. cbv zeta. split; [repeat constructor; cbn; lia|]. split; [cbn; lia|]. vm_compute. reflexivity. Qed.
(** on memcached counting upwards is exact *)
Lemma dval_bounds s : forall n m, 0 <= n -> dval n s = Some m -> n * 10 ^ Z.of_nat (List.length s) <= m < (n + 1) * 10 ^ Z.of_nat (List.length s).
Proof.
  induction s as [|c s IH]; intros n m Hn E; cbn [dval] in E.
  - injection E as <-. cbn. lia.
  - destruct (digit_val c) as [d|] eqn:D; [|discriminate]. pose proof (digit_val_range _ _ D). apply IH in E; [|lia].
    cbn [List.length]. rewrite Nat2Z.inj_succ, Z.pow_succ_r by lia. set (q := 10 ^ Z.of_nat (List.length s)) in *. assert (0 < q) by (apply Z.pow_pos_nonneg; lia). nia.
Qed.
Lemma format_uint_len n : 0 <= n -> n < 10 ^ Z.of_nat (List.length (format_uint n)) /\ (n = 0 \/ 10 ^ (Z.of_nat (List.length (format_uint n)) - 1) <= n) /\ (1 <= List.length (format_uint n))%nat.
Proof.
  intros H. pose proof (format_uint_denotes n H) as D. apply nat_denotes_dval in D as (Ne & D). pose proof (dval_bounds _ 0 n ltac:(lia) D) as B.
  split; [lia|]. destruct (format_uint n) as [|c ds] eqn:E; [congruence|]. split; [|cbn [List.length]; lia].
  destruct ds as [|c2 ds]; [cbn; lia|]. right. pose proof (format_uint_no_leading_zero n c _ H E ltac:(discriminate)) as NZ.
  remember (c2 :: ds) as r. cbn [dval] in D. destruct (digit_val c) as [d|] eqn:Dc; [|discriminate]. pose proof (digit_val_range _ _ Dc).
  assert (d <> 0) by congruence. apply dval_bounds in D; [|lia]. cbn [List.length]. replace (Z.of_nat (S (List.length r)) - 1) with (Z.of_nat (List.length r)) by lia.
  assert (0 < 10 ^ Z.of_nat (List.length r)) by (apply Z.pow_pos_nonneg; lia). nia.
Qed.
Lemma format_uint_len_mono a b : 0 <= a <= b -> (List.length (format_uint a) <= List.length (format_uint b))%nat.
Proof.
  intros H. destruct (format_uint_len a ltac:(lia)) as (_ & A & _). destruct (format_uint_len b ltac:(lia)) as (B & _ & B1).
  destruct (Nat.le_gt_cases (List.length (format_uint a)) (List.length (format_uint b))) as [|G]; [assumption|exfalso].
  destruct A as [->|A]; [change (List.length (format_uint 0)) with 1%nat in G; lia|].
  assert (10 ^ Z.of_nat (List.length (format_uint b)) <= 10 ^ (Z.of_nat (List.length (format_uint a)) - 1)) by (apply Z.pow_le_mono_r; lia). lia.
Qed.
Lemma format_uint_len20 n : 0 <= n < 2 ^ 64 -> (List.length (format_uint n) <= 20)%nat.
Proof.
  intros H. destruct (format_uint_len n ltac:(lia)) as (_ & A & _). destruct (Nat.le_gt_cases (List.length (format_uint n)) 20) as [|G]; [assumption|exfalso].
  destruct A as [->|A]; [change (List.length (format_uint 0)) with 1%nat in G; lia|].
  assert (10 ^ 20 <= 10 ^ (Z.of_nat (List.length (format_uint n)) - 1)) by (apply Z.pow_le_mono_r; lia).
  assert (2 ^ 64 < 10 ^ 20) by reflexivity. lia.
Qed.
Lemma mc_num_format n : 0 <= n < 2 ^ 64 -> mc_num (format_uint n) = Some n.
Proof.
  intros H. pose proof (format_uint_denotes n ltac:(lia)) as D. pose proof (nat_denotes_digits _ _ D) as F. apply nat_denotes_dval in D as (Ne & _).
  assert (B : drop_blanks (rev (format_uint n)) = rev (format_uint n)).
  { destruct (rev (format_uint n)) as [|c r] eqn:E; [reflexivity|]. cbn [drop_blanks]. destruct (Nat.eqb_spec (code c) 32) as [C|]; [|reflexivity]. exfalso.
    assert (In c (format_uint n)) by (apply in_rev; rewrite E; left; reflexivity). rewrite Forall_forall in F. destruct (F c H0) as (d & Dc).
    assert (c = byte 32) as -> by (apply code_inj; rewrite C; reflexivity). vm_compute in Dc. discriminate. }
  unfold mc_num. rewrite B, rev_involutive. destruct (format_uint n) as [|c r] eqn:E; [congruence|]. rewrite <- E in *. cbn [is_nil].
  pose proof (format_uint_len20 n H). destruct (Nat.ltb_spec 20 (List.length (format_uint n))); [lia|]. rewrite E at 1. cbn [is_nil orb].
  rewrite parse_format_uint by lia. reflexivity.
Qed.
Lemma mc_count_run p now k cs : mc_legal (p ++ k) = true -> forall s z rest e, mc_get now s (p ++ k) = Some e -> e_val e = AStr (format_uint z) -> 0 <= z ->
  Forall (fun c => 0 <= c < 2 ^ 63) cs -> z + total cs < 2 ^ 64 ->
  exists s' e', mc_get now s' (p ++ k) = Some e' /\ e_val e' = AStr (format_uint (z + total cs)) /\
    answers (BMc p) now s (map (fun c => HOp NoFault (OIncr k (Some c))) cs ++ rest) = repeat RDone (List.length cs) ++ answers (BMc p) now s' rest.
Proof.
  intros Lg. induction cs as [|c cs IH]; intros s z rest e L V Hz F T.
  - exists s, e. cbn [total]. rewrite Z.add_0_r. auto.
  - inversion F as [|? ? F1 F2]; subst. cbn [total] in T.
    assert (Tn : 0 <= total cs) by (clear -F2; induction F2; cbn [total]; lia).
    assert (R : mc_do p now s (OIncr k (Some c)) = (aset s (p ++ k) (mkEntry (AStr (format_uint (z + c))) (e_exp e)), RDone)).
    { cbn [mc_do cnt_of]. cbv zeta. rewrite Lg. unfold mc_delta. rewrite L, V. cbv zeta. cbn [utils_tostr]. rewrite mc_num_format by lia.
      rewrite (Z.mod_small c) by lia. rewrite Z.mod_small by lia. unfold mc_write. cbv zeta.
      pose proof (format_uint_len_mono z (z + c) ltac:(lia)). replace (_ - _)%nat with 0%nat by lia. cbn [repeat]. rewrite app_nil_r. reflexivity. }
    destruct (IH (aset s (p ++ k) (mkEntry (AStr (format_uint (z + c))) (e_exp e))) (z + c) rest (mkEntry (AStr (format_uint (z + c))) (e_exp e))) as (s' & e' & A & B & C);
      [apply (look_set (BMc p)) with (e := e); [exact L|reflexivity]|reflexivity|lia|exact F2|lia|].
    exists s', e'. cbn [total]. rewrite Z.add_assoc. split; [exact A|]. split; [exact B|].
    unfold answers in *. cbn [map app]. rewrite hrun_cons. cbn [hstep fst snd app]. unfold cache_do. cbn [round_trip negb server_do]. rewrite R. cbn [fst snd].
    cbn [List.length repeat app]. f_equal. exact C.
Qed.
Theorem C98_memcached_counts_up_partial p now s k z n cs :
  mc_legal (p ++ k) = true -> 0 < n <= 2592000 -> 0 <= z -> Forall (fun c => 0 <= c < 2 ^ 63) cs -> z + total cs < 2 ^ 64 ->
  answers (BMc p) now s (HOp NoFault (OSet k (AInt z) (Some n)) :: map (fun c => HOp NoFault (OIncr k (Some c))) cs ++ [HOp NoFault (OGet k)])
  = RDone :: repeat RDone (List.length cs) ++ [RVal (format_int (z + total cs))].
Proof.
  intros Lg Hn Hz F T. assert (Tn : 0 <= total cs) by (clear -F; induction F; cbn [total]; lia).
  unfold answers. rewrite hrun_cons. cbn [hstep fst snd app]. unfold cache_do. cbn [round_trip negb server_do mc_do]. cbv zeta. rewrite Lg. cbn [fst snd]. f_equal.
  rewrite timeout_pos by lia. unfold second at 1 2. rewrite Z.div_mul by lia. rewrite to_int32_id by lia. cbn [utils_tostr]. rewrite format_int_nonneg by exact Hz.
  set (e := mkEntry (AStr (format_uint z)) (mc_deadline now n)).
  destruct (mc_count_run p now k cs Lg (aset s (p ++ k) e) z [HOp NoFault (OGet k)] e) as (s' & e' & A & B & C); auto.
  { unfold mc_get. rewrite aget_aset_same. unfold mc_live, e. cbn [e_exp]. unfold mc_deadline.
    destruct (Z.eqb_spec n 0); [lia|]. destruct (Z.ltb_spec n 0); [lia|]. destruct (Z.leb_spec n 2592000); [|lia].
    destruct (Z.ltb_spec (now / second) (now / second + n)); [reflexivity|lia]. }
  unfold answers in C. rewrite C. f_equal. cbn [hrun hstep fst snd app]. unfold cache_do. cbn [round_trip negb server_do mc_do]. cbv zeta.
  rewrite Lg, A, B. cbn [fst snd utils_tostr]. rewrite format_int_nonneg by lia. reflexivity.
Qed.

Print Assumptions C50_cache_is_ttl_map.
Print Assumptions C51_gc_invisible_partial.
Print Assumptions C51_gc_invisible_refuted.
Print Assumptions C52_missing_until_set_partial.
Print Assumptions C52_expired_returns_refuted.
Print Assumptions C54_positive_timeout_partial.
Print Assumptions C54_default_timeout.
Print Assumptions C54_no_timeout.
Print Assumptions C54_huge_timeout_refuted.
Print Assumptions C56_back_ends_agree_partial.
Print Assumptions C56_back_ends_agree_refuted.
Print Assumptions C53_touch_forever_partial.
Print Assumptions C53_touch_forever_refuted.
Print Assumptions C55_prefixes_isolate_partial.
Print Assumptions C55_prefixes_isolate_refuted.
Print Assumptions C98_counters_partial.
Print Assumptions C98_counters_refuted.
Print Assumptions C98_memcached_counts_up_partial.
