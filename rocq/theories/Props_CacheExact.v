(** Props_CacheExact: exact forms of C51-C56 and C98. *)
From Coq Require Import List Ascii String Bool Arith ZArith Lia.
Import ListNotations.
From Verif Require Import GoStr GoNum ConvModel CacheModel CacheSpec Props_Cache.
Local Open Scope Z_scope.

(** *** C54, C56: when an entry ends *)
Definition days (n : Z) : Z := n * (24 * 60 * 60 * 1000000000).
(** the time from which an entry set at [now] is gone, in nanoseconds; [None]: never.
    memcached takes more than 30 days for a Unix date; what does not fit 32 bits is gone at once. *)
Definition gone_at (b : backend) (now : Z) (ps : option Z) : option Z :=
  match b, lifetime ps with
  | BMgo _, Some d => Some (whole_ms (now + d))
  | BMgo _, None => Some (whole_ms (now + days 9999))
  | BRedis _, Some d => Some (whole_ms now + d + 1000000)
  | BMc _, Some d => if d <=? days 30 then Some (whole_s now + d)
                     else if d <? 2 ^ 31 * 1000000000 then Some d else Some (whole_s now)
  | _, None => None
  end.
(** timeouts that do not overflow *)
Definition no_overflow (ps : option Z) : Prop := match ps with Some n => n <= 9223372036 | None => True end.
Lemma new_exp_gone b now ps v : no_overflow ps ->
  end_of b (mkEntry v (new_exp b now ps)) = gone_at b now ps /\ proper b (mkEntry v (new_exp b now ps)).
Proof.
  intros F. destruct b as [auto|p|p].
  - destruct (new_exp_ends (BMgo auto) now ps v F) as (A & B). split; [|exact B]. rewrite A. unfold gone_at, ends, days. destruct (lifetime ps); reflexivity.
  - destruct (new_exp_ends (BRedis p) now ps v F) as (A & B). split; [|exact B]. rewrite A. unfold gone_at, ends. destruct (lifetime ps); reflexivity.
  - split; [|exact I]. destruct (timeout_life ps F) as (T & N). cbn [end_of new_exp e_exp gone_at]. rewrite T.
    destruct (lifetime ps) as [d|] eqn:L; [|reflexivity]. destruct N as (n & Hn & -> & _). unfold second, mc_deadline, whole_s, days.
    rewrite Z.div_mul by lia. unfold to_int32.
    pose proof (Z.div_mod now 1000000000 ltac:(lia)).
    destruct (Z.leb_spec (n * 1000000000) (30 * (24 * 60 * 60 * 1000000000))).
    + destruct (Z.leb_spec (- 2 ^ 31) n); [|lia]. destruct (Z.ltb_spec n (2 ^ 31)); [|lia]. cbn [andb].
      destruct (Z.eqb_spec n 0); [lia|]. destruct (Z.ltb_spec n 0); [lia|]. destruct (Z.leb_spec n 2592000); [|lia]. unfold second. cbn [option_map]. f_equal. lia.
    + destruct (Z.ltb_spec (n * 1000000000) (2 ^ 31 * 1000000000)).
      * destruct (Z.leb_spec (- 2 ^ 31) n); [|lia]. destruct (Z.ltb_spec n (2 ^ 31)); [|lia]. cbn [andb].
        destruct (Z.eqb_spec n 0); [lia|]. destruct (Z.ltb_spec n 0); [lia|]. destruct (Z.leb_spec n 2592000); [lia|]. reflexivity.
      * destruct (Z.ltb_spec n (2 ^ 31)); [lia|]. rewrite andb_false_r. cbn [Z.eqb Z.ltb]. change (- 2 ^ 31 =? 0) with false. change (- 2 ^ 31 <? 0) with true.
        cbn [option_map]. unfold second. f_equal. lia.
Qed.
Lemma secs_mod2 ps : no_overflow ps -> timeout_dur ps mod second = 0.
Proof.
  intros F. destruct (timeout_life ps F) as (-> & N). destruct (lifetime ps) as [d|]; [|reflexivity]. destruct N as (n & _ & -> & _). apply Z.mod_mul. discriminate.
Qed.
(** a value that was set is there until [gone_at] and not after, whatever was there before *)
Theorem C54_timeout_exact b now s k v ps d :
  plain v -> storable b k -> no_overflow ps ->
  set_wait_get b now s k v ps d = [RDone; if ended (now + d) (gone_at b now ps) then RMissed else RVal (utils_tostr v)].
Proof.
  intros P L F. destruct (set_wait_get_eq b now s k v ps d P L) as (e & V & X & ->).
  { intros p _. apply secs_mod2. exact F. }
  destruct (new_exp_gone b now ps (e_val e) F) as (G & Q).
  assert (E : e = mkEntry (e_val e) (new_exp b now ps)) by (destruct e as [ev ex]; cbn [e_exp e_val] in *; f_equal; rewrite X; destruct b; reflexivity).
  rewrite <- E in G, Q. rewrite <- G. pose proof (live_ended b (now + d) e Q) as LE.
  f_equal. f_equal. destruct b; cbn [live] in LE; rewrite LE; destruct (ended _ _); reflexivity.
Qed.
(** on Mongo, whatever the number: the nanoseconds wrap around, and if they come to zero the entry stays 9999 days *)
Theorem C54_mongo_overflow_exact auto now s k v n d :
  plain v -> 0 < n ->
  let w := wrap64 (n * 1000000000) in
  set_wait_get (BMgo auto) now s k v (Some n) d =
    [RDone; if whole_ms (now + if w =? 0 then days 9999 else w) <=? now + d then RMissed else RVal (utils_tostr v)].
Proof.
  intros P Hn w. destruct (set_wait_get_eq (BMgo auto) now s k v (Some n) d P I) as (e & V & X & ->); [discriminate|].
  unfold mgo_get_value. rewrite X, bson_whole. unfold timeout_dur_ex, timeout_dur. cbv zeta. destruct (Z.ltb_spec 0 n); [|lia].
  change second with 1000000000. fold w. change (9999 * 24 * 3600 * 1000000000) with (days 9999).
  f_equal. f_equal. set (q := whole_ms _). destruct (Z.ltb_spec (now + d) q); destruct (Z.leb_spec q (now + d)); try reflexivity; lia.
Qed.
Example C54_exact_example : let t := 1700000000 * 1000000000 + 123456789 in
  plain (AStr (bs "v")) /\ storable (BMc (bs "p:")) (bs "k") /\ no_overflow (Some 3000000) /\
  gone_at (BMc (bs "p:")) t (Some 2592000) = Some (t - 123456789 + days 30) /\
  gone_at (BMc (bs "p:")) t (Some 2592001) = Some (2592001 * 1000000000) /\
  gone_at (BRedis (bs "p:")) t (Some 2592001) = Some (t - 456789 + 1000000 + 2592001 * 1000000000) /\
  gone_at (BMgo true) t (Some 0) = Some (t - 456789 + 60 * 1000000000) /\
  wrap64 (2 ^ 55 * 1000000000) = 0.
Proof.
  cbv zeta. split; [exact I|]. split; [vm_compute; reflexivity|]. split; [cbn [no_overflow]; lia|].
  split; [vm_compute; reflexivity|]. split; [vm_compute; reflexivity|]. split; [vm_compute; reflexivity|]. split; vm_compute; reflexivity.
Qed.

(** the end of an entry with a timeout of [n] seconds, compared with the exact time *)
Theorem C56_ends_exact b now n : 0 < n <= 9223372036 ->
  exists t, gone_at b now (Some n) = Some t /\
  match b with
  | BMgo _ => now + n * 1000000000 - 1000000 < t <= now + n * 1000000000
  | BRedis _ => now + n * 1000000000 < t <= now + n * 1000000000 + 1000000
  | BMc _ => if n <=? 30 * 24 * 60 * 60 then now + n * 1000000000 - 1000000000 < t <= now + n * 1000000000
             else if n <? 2 ^ 31 then t = n * 1000000000
             else t <= now
  end.
Proof.
  intros H. unfold gone_at, lifetime. destruct (Z.eqb_spec n 0); [lia|]. destruct (Z.ltb_spec 0 n); [|lia]. destruct b as [auto|p|p].
  - eexists. split; [reflexivity|]. unfold whole_ms. pose proof (Z.mod_pos_bound (now + n * 1000000000) 1000000 ltac:(lia)). lia.
  - eexists. split; [reflexivity|]. unfold whole_ms. pose proof (Z.mod_pos_bound now 1000000 ltac:(lia)). lia.
  - unfold days. pose proof (Z.mod_pos_bound now 1000000000 ltac:(lia)).
    destruct (Z.leb_spec n (30 * 24 * 60 * 60)); destruct (Z.leb_spec (n * 1000000000) (30 * (24 * 60 * 60 * 1000000000))); try lia.
    + eexists. split; [reflexivity|]. unfold whole_s. lia.
    + destruct (Z.ltb_spec n (2 ^ 31)); destruct (Z.ltb_spec (n * 1000000000) (2 ^ 31 * 1000000000)); try lia; eexists; (split; [reflexivity|]); unfold whole_s; lia.
Qed.
(** two back ends agree for all waiting times away from the end exactly if neither is a
    memcached given more than 30 days (at a time after the corresponding date in 1970) *)
Theorem C56_agreement_exact p now n k v s :
  plain v -> mc_legal (p ++ k) = true -> 0 < n <= 9223372036 -> 2 ^ 31 * 1000000000 <= now ->
  (forall d, 0 <= d -> d + 1000000000 < n * 1000000000 \/ n * 1000000000 + 1000000 <= d ->
     set_wait_get (BMc p) now s k v (Some n) d = set_wait_get (BRedis p) now s k v (Some n) d) <-> n <= 30 * 24 * 60 * 60.
Proof.
  intros P L Hn Hnow. split.
  - intros H. destruct (Z.le_gt_cases n (30 * 24 * 60 * 60)) as [|G]; [assumption|exfalso].
    specialize (H 0 ltac:(lia) ltac:(lia)). rewrite !C54_timeout_exact in H by (cbn [no_overflow storable]; auto; lia).
    destruct (C56_ends_exact (BMc p) now n Hn) as (t & T & B). destruct (C56_ends_exact (BRedis p) now n Hn) as (t' & T' & B'). cbv beta iota in B, B'.
    rewrite T, T' in H. cbn [ended] in H. destruct (Z.leb_spec n (30 * 24 * 60 * 60)); [lia|].
    destruct (Z.leb_spec t' (now + 0)); [lia|]. destruct (Z.leb_spec t (now + 0)); [discriminate|].
    destruct (Z.ltb_spec n (2 ^ 31)); lia.
  - intros G d Hd Hx. apply C56_back_ends_agree_partial; auto; [exact I|lia].
Qed.
Example C56_exact_example : mc_legal (bs "p:" ++ bs "k") = true /\ 2 ^ 31 * 1000000000 <= 2200000000 * 1000000000 /\
  gone_at (BMc (bs "p:")) (2200000000 * 1000000000) (Some 3000000000) = Some (2200000000 * 1000000000).
Proof. split; [vm_compute; reflexivity|]. split; [lia|vm_compute; reflexivity]. Qed.

(** *** C53 *)
(** Touch with a negative timeout: on memcached the entry stays for ever, on Mongo 9999
    days, on Redis it is removed at once. A missing entry stays missing, except that
    Mongo brings back what has expired and not been removed. *)
Theorem C53_touch_forever_exact b now s k n d : storable b k -> n < 0 -> 0 <= d ->
  answers b now s [HOp NoFault (OTouch k (Some n)); HWait d; HOp NoFault (OGet k)] =
  match snd (server_do b now s (OGet k)), b with
  | RVal v, BMgo _ => [RDone; if whole_ms (now + days 9999) <=? now + d then RMissed else RVal v]
  | RVal v, BRedis _ => [RDone; RMissed]
  | RVal v, BMc _ => [RDone; RVal v]
  | _, BMgo _ => match aget s k with
                 | Some e => [RDone; if whole_ms (now + days 9999) <=? now + d then RMissed else RVal (utils_tostr (e_val e))]
                 | None => [RMissed; RMissed]
                 end
  | _, _ => [RMissed; RMissed]
  end.
Proof.
  intros L Hn Hd. rewrite get_look. unfold answers. cbn [hrun hstep fst snd app]. unfold cache_do. cbn [round_trip negb].
  destruct b as [auto|p|p]; cbn [server_do full storable] in *.
  - assert (X : forall e, aget s k = Some e -> [snd (mgo_do auto now s (OTouch k (Some n))); snd (mgo_do auto (now + d) (fst (mgo_do auto now s (OTouch k (Some n)))) (OGet k))]
              = [RDone; if whole_ms (now + days 9999) <=? now + d then RMissed else RVal (utils_tostr (e_val e))]).
    { intros e E. cbn [mgo_do]. rewrite E. cbn [fst snd]. rewrite aget_aset_same. unfold mgo_get_value. cbn [e_exp e_val].
      rewrite bson_whole. unfold timeout_dur_ex. rewrite timeout_neg by exact Hn. cbv zeta. cbn [Z.eqb]. change (9999 * 24 * 3600 * second) with (days 9999).
      set (q := whole_ms _). destruct (Z.ltb_spec (now + d) q); destruct (Z.leb_spec q (now + d)); try reflexivity; lia. }
    unfold look. destruct (aget s k) as [e|] eqn:E.
    + rewrite (X e eq_refl). destruct (live _ now e); reflexivity.
    + cbn [mgo_do]. rewrite E. cbn [fst snd]. rewrite E. reflexivity.
  - unfold look. cbn [live redis_do]. cbv zeta. rewrite timeout_neg by exact Hn. change (0 mod second =? 0) with true. cbn [negb]. unfold redis_get.
    destruct (aget s (p ++ k)) as [e|] eqn:E; [destruct (redis_live now e) eqn:Lv|].
    + change (0 <? 0) with false. cbn [fst snd]. rewrite aget_adel_same. reflexivity.
    + cbn [fst snd]. rewrite E. change (redis_live now e) with (live (BRedis p) now e) in Lv. change (redis_live (now + d) e) with (live (BRedis p) (now + d) e).
      assert (Le : now <= now + d) by lia. rewrite (live_later _ _ _ _ Le Lv). reflexivity.
    + cbn [fst snd]. rewrite E. reflexivity.
  - rewrite L. unfold look. cbn [live mc_do]. cbv zeta. rewrite L. rewrite timeout_neg by exact Hn. change (mc_deadline now (to_int32 (0 / second))) with (@None Z). unfold mc_get.
    destruct (aget s (p ++ k)) as [e|] eqn:E; [destruct (mc_live now e) eqn:Lv|].
    + cbn [fst snd]. rewrite aget_aset_same. unfold mc_live. cbn [e_exp e_val]. reflexivity.
    + cbn [fst snd]. rewrite E. change (mc_live now e) with (live (BMc p) now e) in Lv. change (mc_live (now + d) e) with (live (BMc p) (now + d) e).
      assert (Le : now <= now + d) by lia. rewrite (live_later _ _ _ _ Le Lv). reflexivity.
    + cbn [fst snd]. rewrite E. reflexivity.
Qed.

(** *** C52 *)
(** the operations that make a missing key [k] appear: a Set, on Mongo a Touch if the server
    has not yet removed the entry (it would answer a Delete), on Redis a count *)
Definition brings (b : backend) (now : Z) (s : store) (k : bytes) (o : cop) : Prop :=
  match o with
  | OSet k' _ _ => k' = k
  | OTouch k' _ => match b with BMgo _ => k' = k /\ snd (server_do b now s (ODelete k)) = RDone | _ => False end
  | OIncr k' _ => match b with BRedis _ => k' = k | _ => False end
  | ODecr k' c => match b with BRedis _ => k' = k /\ cnt_of c <> - 2 ^ 63 | _ => False end
  | _ => False
  end.
(** values, timeouts and counts the code handles *)
Definition usable (b : backend) (o : cop) : Prop :=
  match o with
  | OSet _ v ps => plain v /\ fits b ps
  | OTouch _ ps => fits b ps
  | OIncr _ c | ODecr _ c => - 2 ^ 63 <= cnt_of c < 2 ^ 63
  | _ => True
  end.
Lemma lifetime_pos ps d : lifetime ps = Some d -> 1000000000 <= d.
Proof.
  unfold lifetime. destruct ps as [n|]; [|intros E; injection E as <-; lia]. destruct (Z.eqb_spec n 0); [intros E; injection E as <-; lia|].
  destruct (Z.ltb_spec 0 n); [intros E; injection E as <-; lia|discriminate].
Qed.
Lemma not_ended_yet b now ps : fits b ps -> ended now (ends b now ps) = false.
Proof.
  intros F. unfold ends. destruct (lifetime ps) as [d|] eqn:L.
  - apply lifetime_pos in L. destruct b as [auto|p|p]; cbn [ended]; unfold whole_ms, whole_s; apply Z.leb_gt.
    + pose proof (Z.mod_pos_bound (now + d) 1000000 ltac:(lia)). lia.
    + pose proof (Z.mod_pos_bound now 1000000 ltac:(lia)). lia.
    + pose proof (Z.mod_pos_bound now 1000000000 ltac:(lia)). lia.
  - destruct b as [auto|p|p]; try reflexivity. cbn [ended]. unfold whole_ms. apply Z.leb_gt. pose proof (Z.mod_pos_bound (now + 9999 * 24 * 60 * 60 * 1000000000) 1000000 ltac:(lia)). lia.
Qed.
Lemma look_new b now s K v ps : fits b ps -> look b now (aset s K (mkEntry v (new_exp b now ps))) K = Some (mkEntry v (new_exp b now ps)).
Proof.
  intros F. unfold look. rewrite aget_aset_same. destruct (new_exp_ends b now ps v F) as (A & B). rewrite (live_ended b now _ B), A, (not_ended_yet b now ps F). reflexivity.
Qed.
Lemma neq_missed b now s k : storable b k -> snd (server_do b now s (OGet k)) <> RMissed <-> look b now s (full b k) <> None.
Proof. intros L. rewrite get_missed. tauto. Qed.
Theorem C52_comes_back_exact b now s k o : storable b k -> usable b o -> snd (server_do b now s (OGet k)) = RMissed ->
  (snd (server_do b now (fst (server_do b now s o)) (OGet k)) <> RMissed <-> brings b now s k o).
Proof.
  intros L U M. rewrite (neq_missed b now _ k L). apply get_missed in M as (M & _). split.
  - intros H.
    assert (Cs : may_set b k o).
    { destruct o as [k'|k' v ps|k' ps|k'|k' ps|k' ps|k'| |]; cbn [may_set];
        try (exfalso; apply H; apply look_stays; [exact M|intros C; exact C]).
      - destruct (bytes_eq_dec k' k) as [E|E]; [exact E|exfalso; apply H; apply look_stays; [exact M|intros C; exact (E C)]].
      - destruct b as [auto|p|p]; try (exfalso; apply H; apply look_stays; [exact M|intros C; exact C]).
        destruct (bytes_eq_dec k' k) as [E|E]; [exact E|exfalso; apply H; apply look_stays; [exact M|intros C; exact (E C)]].
      - destruct b as [auto|p|p]; try (exfalso; apply H; apply look_stays; [exact M|intros C; exact C]).
        destruct (bytes_eq_dec k' k) as [E|E]; [exact E|exfalso; apply H; apply look_stays; [exact M|intros C; exact (E C)]].
      - destruct b as [auto|p|p]; try (exfalso; apply H; apply look_stays; [exact M|intros C; exact C]).
        destruct (bytes_eq_dec k' k) as [E|E]; [exact E|exfalso; apply H; apply look_stays; [exact M|intros C; exact (E C)]]. }
    destruct o as [k'|k' v ps|k' ps|k'|k' ps|k' ps|k'| |]; cbn [may_set brings] in *; auto.
    + destruct b as [auto|p|p]; auto. subst k'. split; [reflexivity|]. rewrite do_delete by exact I. cbn [find_old full]. destruct (aget s k) eqn:E; [reflexivity|exfalso].
      apply H. cbn [server_do mgo_do]. rewrite E. cbn [fst]. unfold look. cbn [full]. rewrite E. reflexivity.
    + destruct b as [auto|p|p]; auto. subst k'. split; [reflexivity|]. intros E. apply H. cbn [server_do redis_do]. rewrite E. change (- 2 ^ 63 =? - 2 ^ 63) with true. exact M.
  - intros B. destruct o as [k'|k' v ps|k' ps|k'|k' ps|k' ps|k'| |]; cbn [brings usable] in *; try contradiction.
    + subst k'. destruct U as (P & F). destruct (do_set b now s k v ps L P F) as (v' & _ & ->). cbn [fst]. rewrite look_new by exact F. discriminate.
    + destruct b as [auto|p|p]; try contradiction. destruct B as (-> & B). rewrite do_touch by (auto; exact I). rewrite do_delete in B by exact I.
      destruct (find_old _ now s _) as [e|]; [|discriminate]. cbn [fst]. rewrite look_new by exact U. discriminate.
    + destruct b as [auto|p|p]; try contradiction. subst k'. cbn [server_do redis_do full] in *. unfold redis_incrby. cbv zeta.
      change (redis_get now s (p ++ k)) with (look (BRedis p) now s (p ++ k)). rewrite M. rewrite Z.add_0_l, (range_test _ U). cbn [fst]. unfold look. rewrite aget_aset_same. discriminate.
    + destruct b as [auto|p|p]; try contradiction. destruct B as (-> & B). cbn [server_do redis_do full] in *. destruct (Z.eqb_spec (cnt_of ps) (- 2 ^ 63)); [contradiction|].
      unfold redis_incrby. cbv zeta. change (redis_get now s (p ++ k)) with (look (BRedis p) now s (p ++ k)). rewrite M.
      rewrite Z.add_0_l, range_test by (unfold int64; lia). cbn [fst]. unfold look. rewrite aget_aset_same. discriminate.
Qed.
Example C52_exact_example : let s := fst (server_do (BMgo false) 0 [] (OSet (bs "a") (AInt 7) (Some 10))) in
  snd (server_do (BMgo false) (sec 10) s (OGet (bs "a"))) = RMissed /\ brings (BMgo false) (sec 10) s (bs "a") (OTouch (bs "a") None) /\
  usable (BMgo false) (OTouch (bs "a") None) /\ ~ brings (BMgo false) (sec 10) s (bs "a") (OIncr (bs "a") None) /\
  brings (BRedis (bs "p")) (sec 10) [] (bs "a") (ODecr (bs "a") (Some 3)).
Proof. cbv zeta. split; [vm_compute; reflexivity|]. split; [split; vm_compute; reflexivity|]. split; [exact I|]. split; [intros []|]. split; [reflexivity|discriminate]. Qed.

(** *** C51 *)
(** on Mongo every entry that got there by operations has an end in whole milliseconds *)
Definition dated (s : store) : Prop := forall k e, aget s k = Some e -> exists t, e_exp e = Some t /\ t mod 1000000 = 0.
Lemma dated_set s k v t : dated s -> dated (aset s k (mkEntry v (Some (bson_time t)))).
Proof.
  intros H k2 e. destruct (bytes_eq_dec k k2) as [<-|Hne].
  - rewrite aget_aset_same. intros E. injection E as <-. cbn [e_exp]. eexists. split; [reflexivity|]. rewrite bson_whole. apply whole_mod.
  - rewrite aget_aset_other by exact Hne. apply H.
Qed.
Lemma dated_upd s k v e : dated s -> aget s k = Some e -> dated (aset s k (mkEntry v (e_exp e))).
Proof.
  intros H E k2 e2. destruct (bytes_eq_dec k k2) as [<-|Hne].
  - rewrite aget_aset_same. intros X. injection X as <-. cbn [e_exp]. apply (H k e E).
  - rewrite aget_aset_other by exact Hne. apply H.
Qed.
Lemma dated_del s k : dated s -> dated (adel s k).
Proof.
  intros H k2 e. destruct (bytes_eq_dec k k2) as [<-|Hne]; [rewrite aget_adel_same; discriminate|]. rewrite aget_adel_other by exact Hne. apply H.
Qed.
Lemma dated_keep f s : dated s -> dated (akeep f s).
Proof. intros H k e. rewrite aget_akeep. destruct (aget s k) as [x|] eqn:E; [|discriminate]. destruct (f k x); [|discriminate]. intros X. injection X as <-. apply (H k x E). Qed.
Lemma dated_do auto now s o : dated s -> dated (fst (mgo_do auto now s o)).
Proof.
  intros H. destruct o as [k|k v ps|k ps|k|k ps|k ps|k| |]; cbn [mgo_do].
  - destruct (aget s k); [destruct (mgo_get_value _ _)|]; exact H.
  - destruct (bson_val v); [apply dated_set; exact H|exact H].
  - destruct (aget s k); [apply dated_set; exact H|exact H].
  - destruct (aget s k); [apply dated_del; exact H|exact H].
  - destruct (aget s k) as [e|] eqn:E; [|exact H]. destruct (mongo_inc _ _); [apply dated_upd; assumption|exact H].
  - destruct (aget s k) as [e|] eqn:E; [|exact H]. destruct (mongo_inc _ _); [apply dated_upd; assumption|exact H].
  - destruct (aget s k); [destruct (mgo_get_value _ _)|]; exact H.
  - intros k e. discriminate.
  - destruct auto; [exact H|]. apply dated_keep. exact H.
Qed.
Lemma dated_run auto h : forall now s, dated s -> dated (snd (after (BMgo auto) now s h)).
Proof.
  induction h as [|e h IH]; intros now s H; [exact H|]. unfold after. rewrite hrun_cons. cbn [fst snd]. destruct e as [d|f o|ks]; cbn [hstep fst snd].
  - apply (IH (now + d) s H).
  - apply (IH now). unfold cache_do. destruct (negb _); [apply dated_do; exact H|]. destruct f; cbn [fst]; auto; apply dated_do; exact H.
  - apply (IH now). cbn [server_env]. destruct auto; [|exact H]. apply dated_keep. exact H.
Qed.
(** what a clean-up removes: GC everything past its timeout, the TTL monitor those of the
    keys it gets to that are a minute past it *)
Inductive cleanup := GCRun | MonitorRun (ks : list bytes).
Definition clean_up (auto : bool) (now : Z) (s : store) (c : cleanup) : store :=
  match c with GCRun => fst (cache_do (BMgo auto) now NoFault s OGC) | MonitorRun ks => server_env (BMgo auto) now ks s end.
Definition due (auto : bool) (now : Z) (s : store) (c : cleanup) (k : bytes) : Prop :=
  exists e t, aget s k = Some e /\ e_exp e = Some t /\
  match c with GCRun => auto = false /\ t <= now | MonitorRun ks => auto = true /\ In k ks /\ t + 60 * 1000000000 <= now end.
Lemma clean_up_get auto now s c k : dated s ->
  (due auto now s c k /\ aget (clean_up auto now s c) k = None) \/ (~ due auto now s c k /\ aget (clean_up auto now s c) k = aget s k).
Proof.
  intros D. destruct c as [|ks]; cbn [clean_up].
  - unfold cache_do. destruct auto; cbn [round_trip negb server_do mgo_do fst].
    + right. split; [intros (e & t & _ & _ & X & _); discriminate X|reflexivity].
    + rewrite aget_akeep. destruct (aget s k) as [e|] eqn:E.
      * destruct (D k e E) as (t & T & M). rewrite T. rewrite bson_whole. destruct (Z.leb_spec t (whole_ms now)) as [Le|Gt]; cbn [negb].
        -- left. split; [|reflexivity]. exists e, t. repeat split; auto. rewrite <- (whole_id t M). apply whole_le. rewrite (whole_id t M). exact Le.
        -- right. split; [|reflexivity]. intros (e' & t' & E' & T' & _ & L). rewrite E in E'. injection E' as <-. rewrite T in T'. injection T' as <-.
           rewrite <- (whole_id t M) in L. apply whole_le in L. rewrite (whole_id t M) in L. lia.
      * right. split; [|reflexivity]. intros (e' & t' & E' & _). congruence.
  - cbn [server_env]. destruct auto.
    + unfold mongo_ttl_monitor. rewrite aget_akeep. destruct (aget s k) as [e|] eqn:E.
      * destruct (D k e E) as (t & T & M). rewrite T. destruct (existsb (beq k) ks) eqn:Ex; cbn [andb negb].
        -- destruct (Z.leb_spec (t + 60 * second) now) as [Le|Gt]; cbn [negb].
           ++ left. split; [|reflexivity]. exists e, t. repeat split; auto. apply existsb_exists in Ex as (x & Hin & Hx). apply beq_true in Hx. subst x. exact Hin.
           ++ right. split; [|reflexivity]. intros (e' & t' & E' & T' & _ & _ & L). rewrite E in E'. injection E' as <-. rewrite T in T'. injection T' as <-. unfold second in Gt. lia.
        -- right. split; [|reflexivity]. intros (e' & t' & E' & T' & _ & Hin & _). assert (existsb (beq k) ks = true); [|congruence].
           apply existsb_exists. exists k. split; [exact Hin|apply beq_refl].
      * right. split; [|reflexivity]. intros (e' & t' & E' & _). congruence.
    + right. split; [intros (e & t & _ & _ & X & _); discriminate X|reflexivity].
Qed.
(** After any history from an empty server: whether a clean-up just before an operation
    changes its answer. It does exactly if the operation is a Touch, Delete, Incr or Decr of a
    key the clean-up removes; then the answer is "missing" instead of something else. *)
Theorem C51_gc_visible_exact auto now0 h c o f :
  let now := fst (after (BMgo auto) now0 [] h) in
  let s := snd (after (BMgo auto) now0 [] h) in
  f <> NoFault \/
  ((snd (cache_do (BMgo auto) now f (clean_up auto now s c) o) <> snd (cache_do (BMgo auto) now f s o)
    <-> exists k, modifies o = Some k /\ due auto now s c k) /\
   (forall k, modifies o = Some k -> due auto now s c k ->
      snd (cache_do (BMgo auto) now f (clean_up auto now s c) o) = RMissed /\ snd (cache_do (BMgo auto) now f s o) <> RMissed)).
Proof.
  intros now s. destruct f; [|left; discriminate|left; discriminate]. right.
  assert (D : dated s) by (apply dated_run; intros k e; discriminate).
  assert (C : forall o s', snd (cache_do (BMgo auto) now NoFault s' o) = snd (mgo_do auto now s' o)).
  { intros o' s'. unfold cache_do. destruct (negb _); reflexivity. }
  assert (V : forall k, modifies o = Some k -> due auto now s c k ->
      snd (mgo_do auto now (clean_up auto now s c) o) = RMissed /\ snd (mgo_do auto now s o) <> RMissed).
  { intros k M Du. destruct (clean_up_get auto now s c k D) as [(_ & G)|(N & _)]; [|contradiction]. destruct Du as (e & t & E & _).
    destruct o as [k'|k' v ps|k' ps|k'|k' ps|k' ps|k'| |]; cbn [modifies] in M; try discriminate M; injection M as ->; cbn [mgo_do]; rewrite G, E; cbn [fst snd];
      (split; [reflexivity|]); try discriminate; destruct (mongo_inc _ _); cbn [snd]; discriminate. }
  rewrite !C. split; [|exact V]. split.
  - intros H. destruct (modifies o) as [k|] eqn:M.
    + exists k. split; [reflexivity|]. destruct (clean_up_get auto now s c k D) as [(Du & _)|(_ & G)]; [exact Du|exfalso]. apply H.
      destruct o as [k'|k' v ps|k' ps|k'|k' ps|k' ps|k'| |]; cbn [modifies] in M; try discriminate M; injection M as ->; cbn [mgo_do]; rewrite G; try reflexivity;
        destruct (aget s k); cbn [snd]; try reflexivity; destruct (mongo_inc _ _); reflexivity.
    + exfalso. apply H.
      assert (R : forall k, aget (clean_up auto now s c) k = aget s k \/ (aget (clean_up auto now s c) k = None /\ exists e, aget s k = Some e /\ mgo_get_value now e = None)).
      { intros k. destruct (clean_up_get auto now s c k D) as [((e & t & E & T & X) & G)|(_ & G)]; [|auto]. right. split; [exact G|]. exists e. split; [exact E|].
        unfold mgo_get_value. rewrite T. destruct (Z.ltb_spec now t); [|reflexivity]. destruct c; lia. }
      destruct o as [k'|k' v ps|k' ps|k'|k' ps|k' ps|k'| |]; cbn [modifies] in M; try discriminate M; cbn [mgo_do].
      * destruct (R k') as [->|(-> & e & -> & ->)]; [|reflexivity]. destruct (aget s k'); [destruct (mgo_get_value _ _)|]; reflexivity.
      * destruct (bson_val v); reflexivity.
      * destruct (R k') as [->|(-> & e & -> & ->)]; [|reflexivity]. destruct (aget s k'); [destruct (mgo_get_value _ _)|]; reflexivity.
      * reflexivity.
      * destruct auto; reflexivity.
  - intros (k & M & Du). destruct (V k M Du) as (A & B). congruence.
Qed.
Example C51_exact_example :
  let h := [HOp NoFault (OSet (bs "a") (AInt 7) (Some 10)); HWait (sec 70)] in
  let now := fst (after (BMgo true) at0 [] h) in let s := snd (after (BMgo true) at0 [] h) in
  due true now s (MonitorRun [bs "a"]) (bs "a") /\ modifies (OIncr (bs "a") None) = Some (bs "a") /\
  snd (cache_do (BMgo true) now NoFault s (OIncr (bs "a") None)) = RDone.
Proof.
  cbv zeta. split; [|split; vm_compute; reflexivity]. exists (mkEntry (AInt 7) (Some (whole_ms (at0 + sec 10)))), (whole_ms (at0 + sec 10)).
  split; [vm_compute; reflexivity|]. split; [reflexivity|]. split; [reflexivity|]. split; [left; reflexivity|]. vm_compute. discriminate.
Qed.

(** *** C55 *)
Definition no_clean (h : list sev) : Prop := Forall (fun e => match e with SOp _ _ OClean => False | _ => True end) h.
(** client Two gets the answers it would get if client One did nothing, in any history without Clean *)
Definition isolated (b1 b2 : backend) : Prop :=
  forall h now s, no_clean h -> answers_two b1 b2 now s h = answers_two b1 b2 now s (without_one h).
Lemma app_as p q : (exists x, q = p ++ x) \/ (exists x, p = q ++ x) \/ apart p q.
Proof.
  revert q. induction p as [|c p IH]; intros q; [left; exists q; reflexivity|]. destruct q as [|c' q]; [right; left; exists (c :: p); reflexivity|].
  destruct (ascii_dec c c') as [->|N].
  - destruct (IH q) as [(x & ->)|[(x & ->)|(A & B)]]; [left; exists x; reflexivity|right; left; exists x; reflexivity|].
    right. right. split; intros x E; injection E as E; [apply (A x E)|apply (B x E)].
  - right. right. split; intros x E; injection E as E; congruence.
Qed.
(** on Redis two caches are isolated exactly if neither prefix begins the other *)
Theorem C55_redis_isolation_exact p q : isolated (BRedis p) (BRedis q) <-> apart p q.
Proof.
  split.
  - intros H.
    assert (W : forall x y, p ++ x = q ++ y -> False).
    { intros x y E. specialize (H [SOp One NoFault (OSet x (AInt 6) None); SOp Two NoFault (OGet y)] 0 []).
      assert (N : no_clean [SOp One NoFault (OSet x (AInt 6) None); SOp Two NoFault (OGet y)]) by (repeat constructor). specialize (H N).
      cbn [answers_two without_one filter] in H. unfold cache_do in H. cbn [round_trip negb server_do redis_do] in H. cbv zeta in H.
      change (timeout_dur None) with (60 * second) in H. change (0 <? 60 * second) with true in H. change ((60 * second) mod second =? 0) with true in H. cbn [fst snd] in H.
      rewrite E in H. unfold redis_get in H. rewrite aget_aset_same in H. cbn [aget] in H. vm_compute in H. discriminate. }
    destruct (app_as p q) as [(x & ->)|[(x & ->)|A]]; [|  |exact A].
    + exfalso. apply (W x []). rewrite app_nil_r. reflexivity.
    + exfalso. apply (W [] x). rewrite app_nil_r. reflexivity.
  - intros A h now s N. apply (C55_prefixes_isolate_partial (BRedis p) (BRedis q) p q); auto. exact I.
Qed.
(** on memcached, exactly if they have no key in common that memcached takes *)
Lemma mc_refuses p now s o k : okey o = Some k -> mc_legal (p ++ k) = false -> mc_do p now s o = (s, RFail).
Proof. intros Ek L. destruct o; cbn [okey] in Ek; try discriminate Ek; injection Ek as ->; cbn [mc_do]; cbv zeta; rewrite L; reflexivity. Qed.
Lemma C55_mc_gen p q h : (forall x y, p ++ x = q ++ y -> mc_legal (p ++ x) = false) -> no_clean h ->
  forall now s s', (forall k, mc_legal (q ++ k) = true -> aget s (q ++ k) = aget s' (q ++ k)) ->
  answers_two (BMc p) (BMc q) now s h = answers_two (BMc p) (BMc q) now s' (without_one h).
Proof.
  intros A. induction h as [|e h IH]; intros N now s s' H; [reflexivity|]. inversion N as [|? ? N1 N2]; subst. specialize (IH N2).
  destruct e as [d|c f o|ks]; cbn [answers_two without_one filter].
  - apply IH. exact H.
  - destruct c; cbn [answers_two].
    + apply IH. intros k Lk. rewrite <- H by exact Lk. unfold cache_do.
      assert (F : aget (fst (server_do (BMc p) now s o)) (q ++ k) = aget s (q ++ k)).
      { destruct (okey o) as [k1|] eqn:Ek.
        - destruct (mc_legal (p ++ k1)) eqn:L1.
          + apply (frame (BMc p) now s o k1 _ Ek). cbn [full]. intros E. specialize (A _ _ E). congruence.
          + cbn [server_do]. rewrite (mc_refuses p now s o k1 Ek L1). reflexivity.
        - destruct o; try discriminate Ek; [contradiction|reflexivity]. }
      destruct (negb _); [exact F|]. destruct f; cbn [fst]; auto.
    + assert (F : snd (server_do (BMc q) now s o) = snd (server_do (BMc q) now s' o) /\
                  forall k, mc_legal (q ++ k) = true -> aget (fst (server_do (BMc q) now s o)) (q ++ k) = aget (fst (server_do (BMc q) now s' o)) (q ++ k)).
      { destruct (okey o) as [k1|] eqn:Ek.
        - destruct (mc_legal (q ++ k1)) eqn:L1.
          + destruct (local (BMc q) now s s' o k1 Ek (H k1 L1)) as (B & C). split; [exact B|]. intros k Lk. destruct (bytes_eq_dec k1 k) as [<-|Hne]; [exact C|].
            rewrite !(frame (BMc q) now _ o k1 (q ++ k) Ek); [apply H; exact Lk| |]; cbn [full]; intros E; apply Hne; eapply app_inv_head; exact E.
          + cbn [server_do]. rewrite !(mc_refuses q now _ o k1 Ek L1). auto.
        - destruct o; try discriminate Ek; [contradiction|]. cbn. auto. }
      destruct F as (F1 & F2). unfold cache_do. destruct (negb _).
      * rewrite F1. f_equal. apply IH. exact F2.
      * destruct f; cbn [fst snd]; [rewrite F1| |]; f_equal; apply IH; assumption.
  - apply IH. intros k Lk. cbn [server_env]. rewrite !aget_akeep, H by exact Lk. reflexivity.
Qed.
Theorem C55_memcached_isolation_exact p q : isolated (BMc p) (BMc q) <-> forall x y, p ++ x = q ++ y -> mc_legal (p ++ x) = false.
Proof.
  split.
  - intros H x y E. destruct (mc_legal (p ++ x)) eqn:L; [exfalso|reflexivity].
    specialize (H [SOp One NoFault (OSet x (AInt 6) None); SOp Two NoFault (OGet y)] 0 []).
    assert (N : no_clean [SOp One NoFault (OSet x (AInt 6) None); SOp Two NoFault (OGet y)]) by (repeat constructor). specialize (H N).
    cbn [answers_two without_one filter] in H. unfold cache_do in H. cbn [round_trip negb server_do mc_do] in H. cbv zeta in H.
    rewrite E in L. rewrite E, L in H. cbn [fst snd] in H. unfold mc_get in H. rewrite aget_aset_same in H. cbn [aget] in H. vm_compute in H. discriminate.
  - intros A h now s N. apply C55_mc_gen; auto.
Qed.
(** Clean by one of them removes everything, of both *)
Theorem C55_clean_exact b1 b2 now s f k : same_server b1 b2 -> storable b2 k -> f <> FaultBefore ->
  snd (server_do b2 now (fst (cache_do b1 now f s OClean)) (OGet k)) = RMissed.
Proof.
  intros SS L F. apply get_missed. split; [|exact L]. assert (E : fst (cache_do b1 now f s OClean) = []) by (destruct b1, f; try reflexivity; congruence).
  rewrite E. reflexivity.
Qed.
Example C55_exact_example : apart (bs "sess:") (bs "cache:") /\ ~ apart (bs "a") (bs "ab") /\ ~ isolated (BRedis (bs "a")) (BRedis (bs "ab")) /\
  ~ isolated (BMc (bs "a")) (BMc (bs "ab")) /\ ~ isolated (BRedis (bs "a")) (BRedis (bs "a")).
Proof.
  split; [split; intros x; discriminate|]. assert (N : ~ apart (bs "a") (bs "ab")) by (intros (A & _); apply (A (bs "b")); reflexivity).
  split; [exact N|]. split; [rewrite C55_redis_isolation_exact; exact N|]. split.
  - rewrite C55_memcached_isolation_exact. intros H. specialize (H (bs "bk") (bs "k") eq_refl). vm_compute in H. discriminate.
  - rewrite C55_redis_isolation_exact. intros (A & _). apply (A []). reflexivity.
Qed.

(** *** C98 *)
(** waiting and counting *)
Inductive count := CWait (d : Z) | CUp (c : Z) | CDown (c : Z).
Definition as_event (k : bytes) (c : count) : hev :=
  match c with CWait d => HWait d | CUp c => HOp NoFault (OIncr k (Some c)) | CDown c => HOp NoFault (ODecr k (Some c)) end.
Definition waited (cs : list count) : Z := fold_right (fun c t => match c with CWait d => d + t | _ => t end) 0 cs.
Definition countable (c : count) : Prop := match c with CWait d => 0 <= d | CUp c | CDown c => - 2 ^ 63 <= c < 2 ^ 63 end.
(** the counter: its number and, on memcached, how many characters wide it has been *)
Definition counter := option (Z * nat).
Definition shown (b : backend) (z : Z) (w : nat) : bytes :=
  match b with BMc _ => format_int z ++ repeat " "%char (w - List.length (format_int z)) | _ => format_int z end.
Definition in64 (z : Z) : bool := (- 2 ^ 63 <=? z) && (z <? 2 ^ 63).
(** Mongo and Redis count within int64 and refuse otherwise, Redis starts missing ones at
    zero; memcached counts modulo 2^64 upwards, stops at zero downwards and does not count
    what is negative. Counting down by the least integer: Mongo's sign is wrong, Redis refuses. *)
Definition count_one (b : backend) (st : counter) (c : count) : counter * list cout :=
  let to z' w := if in64 z' then (Some (z', w), [RDone]) else (st, [RFail]) in
  match c, b, st with
  | CWait _, _, _ => (st, [])
  | _, BMgo _, None => (None, [RMissed])
  | CUp c, BMgo _, Some (z, w) => to (z + c) w
  | CDown c, BMgo _, Some (z, w) => to (if c =? - 2 ^ 63 then z + c else z - c) w
  | CUp c, BRedis _, None => to c 0%nat
  | CUp c, BRedis _, Some (z, w) => to (z + c) w
  | CDown c, BRedis _, _ => if c =? - 2 ^ 63 then (st, [RFail]) else
                            match st with None => to (- c) 0%nat | Some (z, w) => to (z - c) w end
  | _, BMc _, None => (None, [RMissed])
  | CUp c, BMc _, Some (z, w) => if z <? 0 then (st, [RFail]) else
                                 let z' := (z + c) mod 2 ^ 64 in (Some (z', Nat.max w (List.length (format_int z'))), [RDone])
  | CDown c, BMc _, Some (z, w) => if z <? 0 then (st, [RFail]) else
                                   let z' := Z.max 0 (z - c mod 2 ^ 64) in (Some (z', Nat.max w (List.length (format_int z'))), [RDone])
  end.
Fixpoint count_all (b : backend) (st : counter) (cs : list count) : counter * list cout :=
  match cs with
  | [] => (st, [])
  | c :: r => let '(st1, a1) := count_one b st c in let '(st2, a2) := count_all b st1 r in (st2, a1 ++ a2)
  end.
(** the counter in the server, alive until [T] *)
Definition holds (b : backend) (now T : Z) (s : store) (k : bytes) (st : counter) : Prop :=
  match st with
  | None => find_old b now s (full b k) = None
  | Some (z, w) => exists e, aget s (full b k) = Some e /\ live b T e = true /\
      match b with
      | BMgo _ => e_val e = AInt z
      | BRedis _ => e_val e = AStr (format_int z) /\ - 2 ^ 63 <= z < 2 ^ 63
      | BMc _ => e_val e = AStr (shown b z w) /\ z < 2 ^ 64 /\ (List.length (format_int z) <= w)%nat /\ (0 <= z -> (w <= 20)%nat) /\ (z < 0 -> w = List.length (format_int z))
      end
  end.
Lemma live_exp b T e e' : e_exp e' = e_exp e -> live b T e' = live b T e.
Proof.
  intros X. destruct b; cbn [live]; unfold redis_live, mc_live, mgo_get_value; rewrite X; try reflexivity. destruct (e_exp e) as [z|]; [|reflexivity]. destruct (T <? z); reflexivity.
Qed.
Lemma live_until b now T e : now <= T -> live b T e = true -> live b now e = true.
Proof. intros H E. destruct (live b now e) eqn:X; [reflexivity|]. rewrite (live_later b now T e H X) in E. discriminate. Qed.
Lemma drop_blanks_repeat m s : drop_blanks (repeat " "%char m ++ s) = drop_blanks s.
Proof. induction m as [|m IH]; [reflexivity|]. cbn [repeat app drop_blanks]. exact IH. Qed.
Lemma repeat_rev {A} (a : A) m : rev (repeat a m) = repeat a m.
Proof. induction m as [|m IH]; [reflexivity|]. cbn [repeat rev]. rewrite IH. clear. induction m as [|m IH]; [reflexivity|]. cbn [repeat app]. rewrite IH. reflexivity. Qed.
Lemma drop_blanks_format n : 0 <= n -> drop_blanks (rev (format_uint n)) = rev (format_uint n).
Proof.
  intros H. pose proof (format_uint_denotes n H) as D. pose proof (nat_denotes_digits _ _ D) as F.
  destruct (rev (format_uint n)) as [|c r] eqn:E; [reflexivity|]. cbn [drop_blanks]. destruct (Nat.eqb_spec (code c) 32) as [C|]; [|reflexivity]. exfalso.
  assert (Hi : In c (format_uint n)) by (apply in_rev; rewrite E; left; reflexivity). rewrite Forall_forall in F. destruct (F c Hi) as (d & Dc).
  assert (c = byte 32) as -> by (apply code_inj; rewrite C; reflexivity). vm_compute in Dc. discriminate.
Qed.
Lemma mc_num_padded n m : 0 <= n < 2 ^ 64 -> (List.length (format_uint n) + m <= 20)%nat -> mc_num (format_uint n ++ repeat " "%char m) = Some n.
Proof.
  intros H Hl. unfold mc_num. rewrite rev_app_distr, repeat_rev, drop_blanks_repeat, drop_blanks_format, rev_involutive by lia. cbv zeta.
  destruct (format_uint_len n ltac:(lia)) as (_ & _ & L1). rewrite app_length, repeat_length.
  destruct (Nat.ltb_spec 20 (List.length (format_uint n) + m)); [lia|]. rewrite orb_false_r.
  destruct (format_uint n) as [|c r] eqn:E; [cbn in L1; lia|]. cbn [is_nil]. rewrite <- E, parse_format_uint by lia. reflexivity.
Qed.
Lemma drop_blanks_split s : exists m, s = repeat " "%char m ++ drop_blanks s.
Proof.
  induction s as [|c s IH]; [exists 0%nat; reflexivity|]. cbn [drop_blanks]. destruct (Nat.eqb_spec (code c) 32) as [C|]; [|exists 0%nat; reflexivity].
  destruct IH as (m & E). exists (S m). cbn [repeat app]. rewrite <- E. f_equal. apply code_inj. rewrite C. reflexivity.
Qed.
Lemma mc_num_negative z m : z < 0 -> mc_num (format_int z ++ repeat " "%char m) = None.
Proof.
  intros H. unfold format_int. destruct (Z.ltb_spec z 0); [|lia]. cbn [app]. set (r := format_uint (- z) ++ repeat " "%char m). unfold mc_num. cbv zeta.
  destruct (drop_blanks_split (rev ("-"%char :: r))) as (j & E). set (d := drop_blanks _) in *.
  assert (E2 : "-"%char :: r = rev d ++ repeat " "%char j) by (rewrite <- (rev_involutive ("-"%char :: r)), E at 1; rewrite rev_app_distr, repeat_rev; reflexivity).
  destruct (rev d) as [|c t] eqn:R; [reflexivity|]. cbn [app] in E2. injection E2 as <- _. cbn [is_nil orb]. destruct (Nat.ltb _ _); [reflexivity|]. reflexivity.
Qed.
Lemma count_step b now T s k st c : storable b k -> now <= T -> countable c -> holds b now T s k st ->
  (match c with CWait d => now + d <= T | _ => True end) ->
  holds b (match c with CWait d => now + d | _ => now end) T (snd (fst (hstep b now s (as_event k c)))) k (fst (count_one b st c)) /\
  snd (hstep b now s (as_event k c)) = snd (count_one b st c) /\
  fst (fst (hstep b now s (as_event k c))) = match c with CWait d => now + d | _ => now end.
Proof.
  intros L HT C H Hw.
  destruct c as [d|c|c]; cbn [as_event hstep fst snd count_one countable] in *.
  - split; [|auto]. destruct st as [[z w]|]; cbn [holds] in *; [exact H|]. apply (find_old_later b now); [lia|exact H].
  - assert (R : cache_do b now NoFault s (OIncr k (Some c)) = server_do b now s (OIncr k (Some c))) by (destruct b; reflexivity). rewrite R. clear R.
    destruct b as [auto|p|p]; cbn [server_do full storable] in *.
    + destruct st as [[z w]|]; cbn [holds full find_old] in *; cbn [mgo_do cnt_of].
      * destruct H as (e & E & Lv & V). rewrite E, V. cbn [mongo_inc]. fold (in64 (z + c)). destruct (in64 (z + c)); cbn [fst snd holds full].
        -- split; [|auto]. eexists. split; [apply aget_aset_same|]. split; [rewrite (live_exp _ _ e); [exact Lv|reflexivity]|reflexivity].
        -- split; [|auto]. exists e. auto.
      * rewrite H. cbn [fst snd holds find_old full]. auto.
    + cbn [redis_do cnt_of]. unfold redis_incrby. cbv zeta. destruct st as [[z w]|]; cbn [holds full find_old] in *.
      * destruct H as (e & E & Lv & V & Z). assert (G : redis_get now s (p ++ k) = Some e).
        { unfold redis_get. rewrite E. change (redis_live now e) with (live (BRedis p) now e). rewrite (live_until _ now T e HT Lv). reflexivity. }
        rewrite G, V. cbn [utils_tostr]. rewrite redis_int_format by exact Z. fold (in64 (z + c)). destruct (in64 (z + c)) eqn:I6; cbn [fst snd holds full].
        -- split; [|auto]. eexists. split; [apply aget_aset_same|]. split; [rewrite (live_exp _ _ e); [exact Lv|reflexivity]|]. split; [reflexivity|].
           unfold in64 in I6. apply andb_true_iff in I6 as (I1 & I2). apply Z.leb_le in I1. apply Z.ltb_lt in I2. lia.
        -- split; [|auto]. exists e. auto.
      * change (redis_get now s (p ++ k)) with (look (BRedis p) now s (p ++ k)). rewrite H, Z.add_0_l. fold (in64 c).
        assert (I6 : in64 c = true) by (apply range_test; exact C). rewrite I6. cbn [fst snd holds full]. split; [|auto].
        eexists. split; [apply aget_aset_same|]. split; [reflexivity|]. split; [reflexivity|exact C].
    + cbn [mc_do cnt_of]. cbv zeta. rewrite L. unfold mc_delta. destruct st as [[z w]|]; cbn [holds full find_old] in *.
      * destruct H as (e & E & Lv & V & Z & W1 & W2 & W3). assert (G : mc_get now s (p ++ k) = Some e).
        { unfold mc_get. rewrite E. change (mc_live now e) with (live (BMc p) now e). rewrite (live_until _ now T e HT Lv). reflexivity. }
        rewrite G, V. cbv zeta. cbn [utils_tostr shown]. destruct (Z.ltb_spec z 0) as [Neg|Pos].
        -- rewrite mc_num_negative by exact Neg. cbn [fst snd holds full]. split; [|auto]. exists e. split; [exact E|]. split; [exact Lv|]. split; [exact V|auto].
        -- rewrite (format_int_nonneg z) in * by lia. rewrite mc_num_padded by (specialize (W2 Pos); lia). rewrite Zplus_mod_idemp_r.
           pose proof (Z.mod_pos_bound (z + c) (2 ^ 64) ltac:(lia)) as B. set (z' := (z + c) mod 2 ^ 64) in *. cbn [fst snd holds full]. split; [|auto].
           eexists. split; [apply aget_aset_same|]. split; [rewrite (live_exp _ _ e); [exact Lv|reflexivity]|]. cbn [e_val shown]. unfold mc_write.
           rewrite (format_int_nonneg z') by lia. rewrite app_length, repeat_length. pose proof (format_uint_len20 z' ltac:(lia)).
           split; [f_equal; f_equal; f_equal; lia|]. split; [lia|]. split; [lia|]. split; [specialize (W2 Pos); lia|lia].
      * change (mc_get now s (p ++ k)) with (look (BMc p) now s (p ++ k)). rewrite H. cbn [fst snd holds find_old full]. auto.
  - assert (R : cache_do b now NoFault s (ODecr k (Some c)) = server_do b now s (ODecr k (Some c))) by (destruct b; reflexivity). rewrite R. clear R.
    destruct b as [auto|p|p]; cbn [server_do full storable] in *.
    + destruct st as [[z w]|]; cbn [holds full find_old] in *; cbn [mgo_do neg_cnt_of].
      * destruct H as (e & E & Lv & V). rewrite E, V. cbn [mongo_inc].
        assert (X : z + wrap64 (0 - c) = if c =? - 2 ^ 63 then z + c else z - c).
        { destruct (Z.eqb_spec c (- 2 ^ 63)) as [->|N]; [reflexivity|]. rewrite wrap64_id by lia. lia. }
        rewrite X. set (z' := if c =? - 2 ^ 63 then z + c else z - c). fold (in64 z'). destruct (in64 z'); cbn [fst snd holds full].
        -- split; [|auto]. eexists. split; [apply aget_aset_same|]. split; [rewrite (live_exp _ _ e); [exact Lv|reflexivity]|reflexivity].
        -- split; [|auto]. exists e. auto.
      * rewrite H. cbn [fst snd holds find_old full]. auto.
    + cbn [redis_do cnt_of]. destruct (Z.eqb_spec c (- 2 ^ 63)) as [->|N]; [cbn [fst snd]; auto|].
      unfold redis_incrby. cbv zeta. destruct st as [[z w]|]; cbn [holds full find_old] in *.
      * destruct H as (e & E & Lv & V & Z). assert (G : redis_get now s (p ++ k) = Some e).
        { unfold redis_get. rewrite E. change (redis_live now e) with (live (BRedis p) now e). rewrite (live_until _ now T e HT Lv). reflexivity. }
        rewrite G, V. cbn [utils_tostr]. rewrite redis_int_format by exact Z. change (z + - c) with (z - c). fold (in64 (z - c)). destruct (in64 (z - c)) eqn:I6; cbn [fst snd holds full].
        -- split; [|auto]. eexists. split; [apply aget_aset_same|]. split; [rewrite (live_exp _ _ e); [exact Lv|reflexivity]|]. split; [reflexivity|].
           unfold in64 in I6. apply andb_true_iff in I6 as (I1 & I2). apply Z.leb_le in I1. apply Z.ltb_lt in I2. lia.
        -- split; [|auto]. exists e. auto.
      * change (redis_get now s (p ++ k)) with (look (BRedis p) now s (p ++ k)). rewrite H, Z.add_0_l. fold (in64 (- c)).
        assert (I6 : in64 (- c) = true) by (apply range_test; unfold int64; lia). rewrite I6. cbn [fst snd holds full]. split; [|auto].
        eexists. split; [apply aget_aset_same|]. split; [reflexivity|]. split; [reflexivity|lia].
    + cbn [mc_do cnt_of]. cbv zeta. rewrite L. unfold mc_delta. destruct st as [[z w]|]; cbn [holds full find_old] in *.
      * destruct H as (e & E & Lv & V & Z & W1 & W2 & W3). assert (G : mc_get now s (p ++ k) = Some e).
        { unfold mc_get. rewrite E. change (mc_live now e) with (live (BMc p) now e). rewrite (live_until _ now T e HT Lv). reflexivity. }
        rewrite G, V. cbv zeta. cbn [utils_tostr shown]. destruct (Z.ltb_spec z 0) as [Neg|Pos].
        -- rewrite mc_num_negative by exact Neg. cbn [fst snd holds full]. split; [|auto]. exists e. split; [exact E|]. split; [exact Lv|]. split; [exact V|auto].
        -- rewrite (format_int_nonneg z) in * by lia. rewrite mc_num_padded by (specialize (W2 Pos); lia).
           pose proof (Z.mod_pos_bound c (2 ^ 64) ltac:(lia)) as B.
           assert (X : (if z <? c mod 2 ^ 64 then 0 else z - c mod 2 ^ 64) = Z.max 0 (z - c mod 2 ^ 64)) by (destruct (Z.ltb_spec z (c mod 2 ^ 64)); lia). rewrite X.
           set (z' := Z.max 0 (z - c mod 2 ^ 64)) in *. assert (B' : 0 <= z' < 2 ^ 64) by lia. cbn [fst snd holds full]. split; [|auto].
           eexists. split; [apply aget_aset_same|]. split; [rewrite (live_exp _ _ e); [exact Lv|reflexivity]|]. cbn [e_val shown]. unfold mc_write.
           rewrite (format_int_nonneg z') by lia. rewrite app_length, repeat_length. pose proof (format_uint_len20 z' ltac:(lia)).
           split; [f_equal; f_equal; f_equal; lia|]. split; [lia|]. split; [lia|]. split; [specialize (W2 Pos); lia|lia].
      * change (mc_get now s (p ++ k)) with (look (BMc p) now s (p ++ k)). rewrite H. cbn [fst snd holds find_old full]. auto.
Qed.
Lemma waited_nonneg cs : Forall countable cs -> 0 <= waited cs.
Proof. intros F. induction F as [|c cs C F IH]; cbn [waited fold_right]; [lia|]. fold (waited cs). destruct c; cbn [countable] in C; lia. Qed.
Lemma count_history b T k rest cs : storable b k -> forall now s st, Forall countable cs -> T = now + waited cs -> holds b now T s k st ->
  exists s', holds b T T s' k (fst (count_all b st cs)) /\
    answers b now s (map (as_event k) cs ++ rest) = snd (count_all b st cs) ++ answers b T s' rest.
Proof.
  intros L. induction cs as [|c cs IH]; intros now s st F E H.
  - cbn [waited fold_right] in E. rewrite Z.add_0_r in E. subst now. exists s. cbn [count_all fst snd map app]. auto.
  - inversion F as [|? ? F1 F2]; subst. pose proof (waited_nonneg cs F2) as W. cbn [waited fold_right] in *. fold (waited cs) in *.
    set (T := now + match c with CWait d => d + waited cs | _ => waited cs end) in *.
    assert (HT : now <= T) by (unfold T; destruct c; cbn [countable] in F1; lia).
    destruct (count_step b now T s k st c L HT F1 H) as (A & B & C); [unfold T; destruct c; lia|].
    destruct (IH (match c with CWait d => now + d | _ => now end) (snd (fst (hstep b now s (as_event k c)))) (fst (count_one b st c)) F2) as (s' & H' & E').
    { unfold T. destruct c; lia. }
    { exact A. }
    exists s'. cbn [count_all map app]. destruct (count_one b st c) as [st1 a1]. cbn [fst snd] in *. destruct (count_all b st1 cs) as [st2 a2]. cbn [fst snd] in *.
    split; [exact H'|]. unfold answers in *. rewrite hrun_cons. cbn [snd]. rewrite C, B, E'. rewrite app_assoc. reflexivity.
Qed.
Lemma get_holds b T s k st : storable b k -> holds b T T s k st ->
  answers b T s [HOp NoFault (OGet k)] = [match st with Some (z, w) => RVal (shown b z w) | None => RMissed end].
Proof.
  intros L H. unfold answers. cbn [hrun hstep fst snd app]. assert (R : cache_do b T NoFault s (OGet k) = server_do b T s (OGet k)) by (destruct b; reflexivity). rewrite R, do_get by exact L. cbn [snd].
  f_equal. destruct st as [[z w]|]; cbn [holds] in H.
  - destruct H as (e & E & Lv & V). unfold look. rewrite E, Lv. destruct b; [rewrite V|destruct V as (-> & _)|destruct V as (-> & _)]; reflexivity.
  - rewrite (find_old_look _ _ _ _ H). reflexivity.
Qed.
(** Setting an integer and then counting and waiting in any order, before the entry ends:
    the answers are those of the counter, and Get gives its number *)
Theorem C98_counters_exact b now s k z ps cs :
  storable b k -> - 2 ^ 63 <= z < 2 ^ 63 -> no_overflow ps -> Forall countable cs ->
  ended (now + waited cs) (gone_at b now ps) = false ->
  let st := count_all b (Some (z, List.length (format_int z))) cs in
  answers b now s (HOp NoFault (OSet k (AInt z) ps) :: map (as_event k) cs ++ [HOp NoFault (OGet k)])
  = RDone :: snd st ++ [match fst st with Some (z', w) => RVal (shown b z' w) | None => RMissed end].
Proof.
  intros L Hz F FC NE st. unfold answers. rewrite hrun_cons. cbn [hstep fst snd app]. fold (answers b now (fst (cache_do b now NoFault s (OSet k (AInt z) ps))) (map (as_event k) cs ++ [HOp NoFault (OGet k)])).
  assert (S : exists v, cache_do b now NoFault s (OSet k (AInt z) ps) = (aset s (full b k) (mkEntry v (new_exp b now ps)), RDone) /\
              match b with BMgo _ => v = AInt z | _ => v = AStr (format_int z) end).
  { destruct b as [auto|p|p]; unfold cache_do; cbn [round_trip negb server_do mgo_do redis_do mc_do bson_val utils_tostr full new_exp].
    - eexists. split; reflexivity.
    - cbv zeta. rewrite (secs_mod2 ps F). cbn [Z.eqb]. exists (AStr (format_int z)). destruct (0 <? timeout_dur ps); auto.
    - cbv zeta. cbn [storable] in L. rewrite L. eexists. split; reflexivity. }
  destruct S as (v & -> & V). cbn [fst snd]. f_equal.
  destruct (new_exp_gone b now ps v F) as (G & Q).
  destruct (count_history b (now + waited cs) k [HOp NoFault (OGet k)] cs L now (aset s (full b k) (mkEntry v (new_exp b now ps))) (Some (z, List.length (format_int z))) FC eq_refl) as (s' & H' & E).
  { cbn [holds]. eexists. split; [apply aget_aset_same|]. split; [rewrite (live_ended b _ _ Q), G, NE; reflexivity|].
    destruct b; cbn [e_val]; [exact V|split; [exact V|exact Hz]|]. split; [rewrite V; cbn [shown]; rewrite Nat.sub_diag; cbn [repeat]; rewrite app_nil_r; reflexivity|].
    split; [lia|]. split; [lia|]. split; [|reflexivity]. intros Hp. rewrite format_int_nonneg by lia. apply format_uint_len20. lia. }
  rewrite E. f_equal. apply get_holds; [exact L|exact H'].
Qed.
(** counting what the server does not have: reported, except that Redis starts at zero *)
Theorem C98_missing_exact b now s k cs :
  storable b k -> Forall countable cs -> snd (server_do b now s (ODelete k)) = RMissed ->
  let st := count_all b None cs in
  answers b now s (map (as_event k) cs ++ [HOp NoFault (OGet k)])
  = snd st ++ [match fst st with Some (z', w) => RVal (shown b z' w) | None => RMissed end].
Proof.
  intros L FC M st. rewrite do_delete in M by exact L.
  assert (H : holds b now (now + waited cs) s k None) by (cbn [holds]; destruct (find_old b now s (full b k)); [discriminate|reflexivity]).
  destruct (count_history b (now + waited cs) k [HOp NoFault (OGet k)] cs L now s None FC eq_refl H) as (s' & H' & E).
  rewrite E. f_equal. apply get_holds; [exact L|exact H'].
Qed.
Example C98_exact_example :
  let cs := [CUp 5; CWait (sec 3); CDown 20; CUp 3] in
  Forall countable cs /\ ended (at0 + waited cs) (gone_at (BMc (bs "p")) at0 (Some 9)) = false /\
  count_all (BMgo true) (Some (10, 2%nat)) cs = (Some (-2, 2%nat), [RDone; RDone; RDone]) /\
  count_all (BMc (bs "p")) (Some (10, 2%nat)) cs = (Some (3, 2%nat), [RDone; RDone; RDone]) /\ shown (BMc (bs "p")) 3 2 = bs "3 " /\
  count_all (BRedis (bs "p")) None cs = (Some (-12, 0%nat), [RDone; RDone; RDone]) /\ count_all (BMc (bs "p")) None cs = (None, [RMissed; RMissed; RMissed]).
Proof.
  cbv zeta. split; [repeat constructor; cbn [countable]; try lia; vm_compute; discriminate|]. split; [vm_compute; reflexivity|]. split; [vm_compute; reflexivity|].
  split; [vm_compute; reflexivity|]. split; [vm_compute; reflexivity|]. split; vm_compute; reflexivity.
Qed.

(** incrementing or decrementing without a count is by one *)
Theorem C98_default_count b now s k :
  server_do b now s (OIncr k None) = server_do b now s (OIncr k (Some 1)) /\ server_do b now s (ODecr k None) = server_do b now s (ODecr k (Some 1)).
Proof. split; destruct b; reflexivity. Qed.
Example C98_default_example : forall b, In b [BMgo true; BRedis (bs "p"); BMc (bs "p")] ->
  answers b at0 [] [HOp NoFault (OSet (bs "k") (AInt 8) (Some 9)); HOp NoFault (ODecr (bs "k") None); HOp NoFault (OGet (bs "k"))] = [RDone; RDone; RVal (bs "7")].
Proof. intros b [<-|[<-|[<-|[]]]]; vm_compute; reflexivity. Qed.

(** *** C55: which keys memcached takes *)
Definition takes_key (k : bytes) : Prop := (List.length k <= 250)%nat /\ Forall (fun c => (32 < code c)%nat /\ code c <> 127%nat) k.
(** the key an operation is about *)
Definition key_of (o : cop) : option bytes :=
  match o with OGet k | OSet k _ _ | OTouch k _ | ODelete k | OIncr k _ | ODecr k _ | OHas k => Some k | OClean | OGC => None end.
Theorem C55_memcached_keys_exact p k :
  (takes_key (p ++ k) <-> mc_legal (p ++ k) = true) /\
  (forall now s v ps, snd (server_do (BMc p) now s (OSet k v ps)) = if mc_legal (p ++ k) then RDone else RFail) /\
  (~ takes_key (p ++ k) -> forall now s o, key_of o = Some k -> server_do (BMc p) now s o = (s, RFail)).
Proof.
  assert (A : takes_key (p ++ k) <-> mc_legal (p ++ k) = true).
  { unfold takes_key, mc_legal. rewrite andb_true_iff, Nat.leb_le, forallb_forall, Forall_forall. split; intros (L & F); (split; [exact L|]); intros c Hc; specialize (F c Hc).
    - destruct F as (F1 & F2). destruct (Nat.leb_spec (code c) 32); [lia|]. destruct (Nat.eqb_spec (code c) 127); [contradiction|]. reflexivity.
    - destruct (Nat.leb_spec (code c) 32) as [X|X]; [discriminate F|]. destruct (Nat.eqb_spec (code c) 127) as [Y|Y]; [discriminate F|]. split; [lia|exact Y]. }
  split; [exact A|]. split.
  - intros now s v ps. cbn [server_do mc_do]. destruct (mc_legal (p ++ k)); reflexivity.
  - intros N now s o K. assert (E : mc_legal (p ++ k) = false) by (destruct (mc_legal (p ++ k)); [exfalso; apply N; apply A; reflexivity|reflexivity]).
    destruct o as [x|x v ps|x ps|x|x ps|x ps|x| |]; cbn [key_of] in K; try discriminate K; injection K as ->; cbn [server_do mc_do]; cbv zeta; rewrite E; reflexivity.
Qed.
Example C55_keys_example : takes_key (bs "p" ++ bs "k~") /\ ~ takes_key (bs "a b") /\ ~ takes_key [byte 127] /\ key_of (OGet (bs "x")) = Some (bs "x").
Proof.
  split; [split; [vm_compute; repeat constructor|repeat constructor; vm_compute; try discriminate; repeat constructor]|].
  split; [|split; [|reflexivity]]; intros (_ & F); inversion F as [|a b F1 F2]; subst.
  - inversion F2 as [|a b F3 F4]; subst. destruct F3 as (F3 & _). vm_compute in F3. lia.
  - destruct F1 as (_ & F1). apply F1. reflexivity.
Qed.

Print Assumptions C54_timeout_exact.
Print Assumptions C54_mongo_overflow_exact.
Print Assumptions C56_ends_exact.
Print Assumptions C56_agreement_exact.
Print Assumptions C53_touch_forever_exact.
Print Assumptions C52_comes_back_exact.
Print Assumptions C51_gc_visible_exact.
Print Assumptions C55_redis_isolation_exact.
Print Assumptions C55_memcached_isolation_exact.
Print Assumptions C55_clean_exact.
Print Assumptions C98_counters_exact.
Print Assumptions C98_missing_exact.
Print Assumptions C98_default_count.
Print Assumptions C55_memcached_keys_exact.
