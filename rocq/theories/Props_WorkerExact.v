(** Props_WorkerExact: exact forms of C74, C111-C114, and C136, for every
    program using the worker and every schedule. *)
From Coq Require Import List Bool Arith Lia ZifyBool.
Import ListNotations.
From Verif Require Import WorkerModel WorkerFacts WorkerLife WorkerErr WorkerLive Props_Worker Props_WorkerLive.

(** *** specification: where a goroutine is *)
Definition in_submit (t : thread) : bool :=
  match at_ t with PRLock _ _ _ _ | PCheck _ _ _ _ | PAdd _ _ _ _ | PSend _ _ _ _ | PRUnlock _ _ _ _ _ | PGo _ _ _ _ => true | _ => false end.
Definition in_wait (t : thread) : bool := match at_ t with PWait _ _ | PSleep _ _ | PWake _ _ | PRead _ _ | PClear _ _ _ => true | _ => false end.
Definition in_close (t : thread) : bool := match at_ t with PLock _ _ | PPend _ _ | PClose1 _ _ | PClose2 _ _ | PUnlock _ _ => true | _ => false end.
(** the goroutine of something that is neither func() nor func() error *)
Definition wrong_type (t : thread) : bool := match rl t with RTask _ KOther => true | _ => false end.
(** a task that is inside a call of the worker, or of a wrong type *)
Definition blocked_task (t : thread) : nat := if (is_task (rl t) && (in_submit t || in_wait t || in_close t || wrong_type t))%bool then 1 else 0.

(** *** deadlocks, whatever the programs are *)
Lemma wrong_pc n mains tr c t : exec (start n mains) tr c -> In t (ths c) -> wrong_type t = true -> (exists b, at_ t = PStart b) \/ at_ t = PHung.
Proof.
  intros H. remember (start n mains) as c0 eqn:E0. revert t. induction H as [|c tr c1 i x e c2 H IH Hs]; intros t Ht W; subst.
  - apply in_map_iff in Ht as (p & <- & _). discriminate.
  - apply gstep_inv in Hs as (Hd & t0 & s' & t' & new & Hn & Hl & ->). cbn [ths] in Ht. pose proof (nth_error_In _ _ Hn) as H0. specialize (IH eq_refl).
    apply in_upd_new in Ht as [->|[Ht|Ht]]; [|exact (IH t Ht W)|].
    + pose proof (IH t0 H0) as I0. step_cases Hl; cbn in W, I0; try discriminate W; try (destruct (I0 W) as [(b' & E)|E]; discriminate E); try (right; reflexivity); try (left; eexists; reflexivity).
      all: destruct r as [|i0 []]; cbn in *; try discriminate; try (left; eexists; reflexivity); try (right; reflexivity).
    + step_cases Hl; cbn in Ht; try tauto. destruct Ht as [<-|[]]. left. eexists. reflexivity.
Qed.
Lemma hung_wrong n mains tr c t : exec (start n mains) tr c -> In t (ths c) -> at_ t = PHung -> wrong_type t = true.
Proof.
  intros H. remember (start n mains) as c0 eqn:E0. revert t. induction H as [|c tr c1 i x e c2 H IH Hs]; intros t Ht W; subst.
  - apply in_map_iff in Ht as (p & <- & _). discriminate.
  - apply gstep_inv in Hs as (Hd & t0 & s' & t' & new & Hn & Hl & ->). cbn [ths] in Ht. pose proof (nth_error_In _ _ Hn) as H0. specialize (IH eq_refl).
    apply in_upd_new in Ht as [->|[Ht|Ht]]; [|exact (IH t Ht W)|].
    + step_cases Hl; cbn in W; try discriminate W; reflexivity.
    + step_cases Hl; cbn in Ht; try tauto. destruct Ht as [<-|[]]. discriminate.
Qed.
Lemma stuck_any s t : f_bad t = 0 -> lstep s t 0 = None ->
  (0 < f_rd t -> f_rd t = 1 /\ exists i kd b nx, at_ t = PSend i kd b nx /\ chclosed s = false /\ cap s <= buf s) /\
  match at_ t with
  | PRLock _ _ _ _ | PLock _ _ | PELock _ => ws s <> WNone
  | PSend _ _ _ _ => chclosed s = false /\ cap s <= buf s
  | PSleep _ _ => sema s = 0
  | PPend _ _ | PEPend _ => 0 < rds s
  | PRecv _ => buf s = 0
  | PEnd | PHung => True
  | _ => False
  end.
Proof.
  intros Hb Hl. destruct t as [r p].
  destruct p; try match type of Hl with context [PUser ?q] => destruct q end; unfold lstep in Hl; cbn [rl at_ is_task f_rd f_bad] in *;
    repeat match type of Hl with context [match ?X with _ => _ end] => destruct X eqn:? end; try discriminate Hl; boolnorm; cbn in Hb;
    try discriminate Hb; (split; [intros; try lia|]); try congruence; try lia; try tauto.
  all: try (split; [reflexivity|]; do 4 eexists; split; [reflexivity|]; auto).
Qed.
(** When nothing can move any more, either nobody is inside RunTask or Close, and if somebody is
    inside Wait then a task is, or is of a wrong type; or all n slots belong to such tasks:
    each inside RunTask, Wait or Close, or of a wrong type. *)
Theorem C112_every_deadlock n mains tr c : exec (start n mains) tr c -> at_rest c -> alive c ->
  (Forall (fun t => at_ t = PEnd \/ (is_task (rl t) = true /\ wrong_type t = true) \/ in_wait t = true) (ths c) /\
   (Exists (fun t => in_wait t = true) (ths c) -> Exists (fun t => is_task (rl t) = true /\ (in_wait t || wrong_type t)%bool = true) (ths c))) \/
  (tot blocked_task (ths c) = n /\ Exists (fun t => in_submit t = true) (ths c)).
Proof.
  intros H Hst Hd. pose proof (inv_reach _ _ _ _ H) as [I1 I2 I3]. pose proof (cap_const _ _ _ _ H) as Hcap.
  pose proof (wrong_pc n mains tr c) as WP.
  pose proof (stuck_th _ Hst Hd) as Hs. destruct I1 as [Ib It Ic Icn Ir Ip Ih Is]. destruct I3 as [J1 J2 J3].
  assert (Hpc : forall t, In t (ths c) -> f_bad t = 0 /\ lstep (shared c) t 0 = None).
  { intros t Ht. split; [|auto]. pose proof (tot_in f_bad _ _ Ht). lia. }
  assert (Hpc2 := fun t Ht => stuck_any (shared c) t (proj1 (Hpc t Ht)) (proj2 (Hpc t Ht))).
  destruct (Nat.eq_dec (tot f_rd (ths c)) 0) as [Hrd|Hrd].
  - left. assert (Hpend : tot f_pend (ths c) = 0).
    { apply tot_zero. intros t Ht. destruct (Hpc2 t Ht) as [_ M]. unfold f_pend. destruct (at_ t); try reflexivity; lia. }
    assert (Hheld : tot f_held (ths c) = 0).
    { apply tot_zero. intros t Ht. destruct (Hpc2 t Ht) as [_ M]. unfold f_held. destruct (at_ t); try reflexivity; destruct M. }
    assert (Hws : ws (shared c) = WNone). { destruct (ws (shared c)); cbn in *; [reflexivity|lia|lia]. }
    assert (Hpc3 : forall t, In t (ths c) -> at_ t = PEnd \/ at_ t = PHung \/ (exists j k, at_ t = PSleep j k /\ sema (shared c) = 0)).
    { intros t Ht. destruct (Hpc2 t Ht) as [R M]. destruct (at_ t) eqn:Ea; auto; try congruence; try tauto; try lia.
      - exfalso. pose proof (tot_in f_rd _ _ Ht) as G. assert (G1 : f_rd t = 1) by (unfold f_rd; rewrite Ea; reflexivity). lia.
      - right. right. exists j, k. auto.
      - exfalso. pose proof (tot_in f_tok _ _ Ht) as G. destruct (Hpc t Ht) as (Hb & _). unfold f_bad in Hb. rewrite Ea in Hb.
        assert (G1 : f_tok t = 1) by (unfold f_tok; rewrite Ea; destruct (rl t); [discriminate Hb|reflexivity]). lia. }
    assert (Hung : forall t, In t (ths c) -> at_ t = PHung -> is_task (rl t) = true /\ wrong_type t = true).
    { intros t Ht E. pose proof (hung_wrong _ _ _ _ _ H Ht E) as W. split; [|exact W]. unfold wrong_type in W. destruct (rl t); [discriminate|reflexivity]. }
    split.
    + apply Forall_forall. intros t Ht. destruct (Hpc3 t Ht) as [E|[E|(j & k & E & _)]]; [left; exact E|right; left; auto|right; right; unfold in_wait; rewrite E; reflexivity].
    + intros He. apply Exists_exists in He as (t & Ht & Hw). destruct (Hpc3 t Ht) as [E|[E|(j & k & E & E')]]; try (unfold in_wait in Hw; rewrite E in Hw; discriminate).
      pose proof (tot_in f_slp _ _ Ht) as G. assert (G1 : f_slp t = 1) by (unfold f_slp; rewrite E; reflexivity). assert (Hwts : 0 < wts (shared c)) by lia.
      assert (Hcnt : 0 < tot f_cnt (ths c)).
      { destruct (Nat.eq_dec (tot f_cnt (ths c)) 0) as [Z|Z]; [|lia]. exfalso. specialize (J2 ltac:(lia) Hwts).
        assert (Z2 : tot f_ntf (ths c) = 0); [|lia]. apply tot_zero. intros u Hu. unfold f_ntf. destruct (Hpc3 u Hu) as [E2|[E2|(j2 & k2 & E2 & _)]]; rewrite E2; reflexivity. }
      apply tot_pos_in in Hcnt as (u & Hu & Hc). apply Exists_exists. exists u. split; [exact Hu|]. unfold f_cnt in Hc.
      destruct (Hpc3 u Hu) as [E2|[E2|(j2 & k2 & E2 & _)]]; rewrite E2 in Hc; [destruct (is_task (rl u)); cbn in Hc; lia| |].
      * destruct (Hung u Hu E2) as (A & B). split; [exact A|]. rewrite B. apply orb_true_r.
      * destruct (is_task (rl u)) eqn:Et; [|cbn in Hc; lia]. split; [reflexivity|]. unfold in_wait. rewrite E2. reflexivity.
  - right. destruct (tot_pos_in f_rd (ths c) ltac:(lia)) as (t & Ht & Htr). destruct (Hpc2 t Ht) as [R _]. destruct (R Htr) as (_ & i & kd & b & nx & E & _ & Hfull).
    split; [|apply Exists_exists; exists t; split; [exact Ht|unfold in_submit; rewrite E; reflexivity]].
    assert (Heq : forall t, In t (ths c) -> blocked_task t = f_tok t).
    { clear t Ht Htr E R. intros t Ht. destruct (Hpc2 t Ht) as [_ M]. destruct (Hpc t Ht) as (Hb & _). pose proof (tot_in f_tok _ _ Ht) as G. pose proof (WP t H Ht) as W. pose proof (hung_wrong _ _ _ _ _ H Ht) as HW2.
      destruct t as [r p]. unfold blocked_task, in_submit, in_wait, in_close, wrong_type in *; cbn [rl at_] in *.
      destruct p; cbn [orb]; try tauto; destruct r as [|ii k0]; cbn in Hb, G; cbn [is_task andb f_tok rl at_ pre_recv body_pc b2n Nat.add orb]; try reflexivity; try lia; try discriminate Hb.
      - destruct k0; try reflexivity; specialize (W eq_refl); destruct W as [(b' & W)|W]; discriminate W.
      - destruct k0; try reflexivity; specialize (W eq_refl); destruct W as [(b' & W)|W]; discriminate W.
      - specialize (HW2 eq_refl). rewrite HW2. reflexivity.
      - destruct k0; try reflexivity; specialize (W eq_refl); destruct W as [(b' & W)|W]; discriminate W. }
    assert (Hsum : forall l0, incl l0 (ths c) -> tot blocked_task l0 = tot f_tok l0).
    { induction l0 as [|a l0 IH]; intros Hi; [reflexivity|]. cbn. rewrite IH, Heq; [reflexivity|apply Hi; left; reflexivity|]. intros y Hy. apply Hi. right. exact Hy. }
    rewrite (Hsum (ths c) (incl_refl _)). lia.
Qed.
(** so a Close, or a RunTask, that does not return finds all n slots taken by such tasks for ever *)
Theorem C112_close_blocks_only_if n mains tr c : exec (start n mains) tr c -> at_rest c -> alive c ->
  count is_closed tr < count is_close tr -> tot blocked_task (ths c) = n.
Proof.
  intros H Hs Hd Hc. destruct (C112_every_deadlock _ _ _ _ H Hs Hd) as [(Hl & _)|(Hl & _)]; [|exact Hl]. exfalso.
  pose proof (w_close _ _ (flow_reach _ _ _ _ H)) as W. rewrite tot_is_close, tot_is_closed in W. assert (Z : tot f_cl (ths c) = 0); [|lia].
  apply tot_zero. intros t Ht. rewrite Forall_forall in Hl. pose proof (wrong_pc _ _ _ _ _ H Ht) as WP. unfold f_cl. destruct (Hl t Ht) as [E|[(_ & E)|E]].
  - rewrite E. reflexivity.
  - destruct (WP E) as [(b & ->)| ->]; reflexivity.
  - unfold in_wait in E. destruct (at_ t); try discriminate; reflexivity.
Qed.
Theorem C74_submit_blocks_only_if n mains tr c b : exec (start n mains) tr c -> at_rest c -> alive c ->
  count (is_ret b) tr < count (is_call b) tr -> tot blocked_task (ths c) = n.
Proof.
  intros H Hs Hd Hc. destruct (C112_every_deadlock _ _ _ _ H Hs Hd) as [(Hl & _)|(Hl & _)]; [|exact Hl]. exfalso.
  pose proof (w_call _ _ (flow_reach _ _ _ _ H) b) as W. rewrite tot_is_call, tot_is_ret in W. assert (Z : tot (f_rt b) (ths c) = 0); [|lia].
  apply tot_zero. intros t Ht. rewrite Forall_forall in Hl. pose proof (wrong_pc _ _ _ _ _ H Ht) as WP. unfold f_rt. destruct (Hl t Ht) as [E|[(_ & E)|E]].
  - rewrite E. reflexivity.
  - destruct (WP E) as [(b' & ->)| ->]; reflexivity.
  - unfold in_wait in E. destruct (at_ t); try discriminate; reflexivity.
Qed.

(** *** C136: a task that calls Wait *)
Lemma role_stays c tr c' m t : exec c tr c' -> nth_error (ths c) m = Some t -> exists t', nth_error (ths c') m = Some t' /\ rl t' = rl t.
Proof.
  assert (U : forall (l : list thread) i a new k b, nth_error l k = Some b -> nth_error (upd l i a ++ new) k = Some (if k =? i then a else b)).
  { intros l i a new. revert l i. intros l. induction l as [|y l IH]; intros i [|k] b Hb; try discriminate; cbn [nth_error] in Hb.
    - injection Hb as ->. destruct i; reflexivity.
    - destruct i as [|i]; cbn [upd List.app nth_error]; [|change (S k =? S i) with (k =? i); exact (IH i k b Hb)].
      change (S k =? 0) with false. cbv iota. rewrite nth_error_app1; [exact Hb|]. apply nth_error_Some. congruence. }
  intros H Hm. induction H as [|c tr c1 i x e c2 H IH Hs]; [exists t; auto|]. destruct (IH Hm) as (t1 & H1 & R1).
  apply gstep_inv in Hs as (Hd & t0 & s' & t' & new & Hn & Hl & ->). cbn [ths]. rewrite (U _ i t' new m t1 H1). destruct (Nat.eqb_spec m i) as [->|Hne]; [|eauto].
  exists t'. split; [reflexivity|]. rewrite Hn in H1. injection H1 as ->. rewrite <- R1. clear - Hl. step_cases Hl; reflexivity.
Qed.
Lemma upd_nth {A} (l : list A) i a new k b : nth_error l k = Some b -> nth_error (upd l i a ++ new) k = Some (if k =? i then a else b).
Proof.
  revert i k. induction l as [|y l IH]; intros i [|k] Hb; try discriminate; cbn [nth_error] in Hb.
  - injection Hb as ->. destruct i; reflexivity.
  - destruct i as [|i]; cbn [upd List.app nth_error]; [|change (S k =? S i) with (k =? i); exact (IH i k Hb)].
    change (S k =? 0) with false. cbv iota. rewrite nth_error_app1; [exact Hb|]. apply nth_error_Some. congruence.
Qed.
Definition waiting (j : nat) (k : option err_t -> prog) (t : thread) : Prop := at_ t = PWait j k \/ at_ t = PSleep j k \/ at_ t = PWake j k.
Lemma task_keeps_waiting c tr c' m i kd j k t : inv c -> exec c tr c' -> nth_error (ths c) m = Some t -> rl t = RTask i kd -> waiting j k t ->
  exists t', nth_error (ths c') m = Some t' /\ rl t' = RTask i kd /\ waiting j k t'.
Proof.
  intros I H Hm R W. induction H as [|c tr c1 i' x e c2 H IH Hs]; [exists t; auto|]. destruct (IH I Hm) as (t1 & H1 & R1 & W1).
  pose proof (inv_exec _ _ _ H I) as I1. pose proof (i_cnt _ (i_1 _ I1)) as Ct. pose proof (tot_ge f_cnt _ _ _ H1) as G.
  assert (C1 : 1 <= cnt (shared c1)). { rewrite Ct. etransitivity; [|exact G]. unfold f_cnt. rewrite R1. destruct W1 as [->|[->| ->]]; cbn; lia. }
  apply gstep_inv in Hs as (Hd & t0 & s' & t' & new & Hn & Hl & ->). cbn [ths]. rewrite (upd_nth _ i' t' new m t1 H1). destruct (Nat.eqb_spec m i') as [->|Hne]; [|exists t1; auto].
  exists t'. split; [reflexivity|]. rewrite Hn in H1. injection H1 as ->. destruct t1 as [r p]. cbn [rl] in R1. subst r. unfold waiting in *. cbn [at_] in W1.
  destruct W1 as [->|[->| ->]]; unfold lstep in Hl; cbn [rl at_] in Hl.
  - destruct (Nat.eqb_spec (cnt (shared c1)) 0); [lia|]. injection Hl as <- <- <- <-. cbn. auto.
  - destruct (sema (shared c1)); [discriminate|]. injection Hl as <- <- <- <-. cbn. auto.
  - destruct (Nat.eqb_spec (cnt (shared c1)) 0); [lia|]. cbn [andb] in Hl. injection Hl as <- <- <- <-. cbn. auto.
Qed.
(** A Wait called by a task never returns, and the task never ends: in no schedule, whatever else the program does *)
Theorem C136_wait_in_task_never_returns n mains tr c m i kd k x j c1 tr2 c2 :
  exec (start n mains) tr c -> nth_error (ths c) m = Some (Th (RTask i kd) (PUser (WaitFor k))) -> gstep c m x = Some (Some (EWait j), c1) -> exec c1 tr2 c2 ->
  ~ ended i (tr ++ EWait j :: tr2) /\ forall r, ~ In (EWaited j r) tr2.
Proof.
  intros H Hm Hs H2. pose proof (exec_step _ _ _ _ _ _ _ H Hs) as H1. cbn [opt_list] in H1.
  assert (Hw : nth_error (ths c1) m = Some (Th (RTask i kd) (PWait j k))).
  { apply gstep_inv in Hs as (Hd & t & s' & t' & new & Hn & Hl & ->). rewrite Hm in Hn. injection Hn as <-. unfold lstep in Hl. cbn [rl at_] in Hl. injection Hl as <- <- <- <-. cbn [ths]. rewrite (upd_nth _ m _ _ m _ Hm), Nat.eqb_refl. reflexivity. }
  destruct (task_keeps_waiting _ _ _ _ _ _ j k _ (inv_reach _ _ _ _ H1) H2 Hw eq_refl ltac:(left; reflexivity)) as (t' & Ht' & Rt & Wt).
  pose proof (exec_app _ _ _ _ _ H1 H2) as H3. rewrite <- app_assoc in H3. cbn [List.app] in H3.
  assert (Ne : ~ ended i (tr ++ EWait j :: tr2)).
  { rewrite ended_n. pose proof (life_reach i _ _ _ _ H3) as [A B _ _]. pose proof (tot_ge (f_life i body_pc) _ _ _ Ht') as G.
    assert (G1 : f_life i body_pc t' = 1) by (unfold f_life; rewrite Rt, Nat.eqb_refl; destruct Wt as [->|[->| ->]]; reflexivity).
    assert (b2n (i <? ntask (shared c2)) <= 1) by (destruct (i <? ntask (shared c2)); cbn; lia). lia. }
  split; [exact Ne|]. intros r Hin. apply in_split in Hin as (a & b & ->). apply Ne.
  assert (Ha : accepted i tr).
  { unfold accepted. rewrite ret_n. pose proof (life_reach i _ _ _ _ H) as [_ B C _]. pose proof (tot_ge (f_life i body_pc) _ _ _ Hm) as G. cbn in G. rewrite Nat.eqb_refl in G. cbn in G. lia. }
  destruct (C70_barrier _ _ _ _ _ _ _ _ H3 i Ha) as (q & Hq). exists q. rewrite app_comm_cons, app_assoc. apply in_or_app. left. exact Hq.
Qed.
Example C136_case : exists tr c, exec (start 2 [Submit KFunc (WaitFor (fun _ => nop)) nop]) tr c /\
  nth_error (ths c) 1 = Some (Th (RTask 0 KFunc) (PUser (WaitFor (fun _ => nop)))) /\ exists j c1, gstep c 1 0 = Some (Some (EWait j), c1).
Proof. run_it (times 7 0 ++ times 1 1). split; [vm_compute; reflexivity|]. eexists _, _. vm_compute; reflexivity. Qed.

(** *** C113: something of a wrong type *)
(** it never starts and never ends, and no Wait called after it was accepted returns *)
Theorem C113_wrong_type_blocks_for_ever n mains tr c i p : exec (start n mains) tr c -> In (Th (RTask i KOther) p) (ths c) ->
  accepted i tr /\ ~ started i tr /\ ~ ended i tr /\
  forall tr1 j tr2 r, tr = tr1 ++ EWait j :: tr2 -> accepted i tr1 -> ~ In (EWaited j r) tr2.
Proof.
  intros H Hin. pose proof (wrong_pc _ _ _ _ _ H Hin eq_refl) as W. cbn [at_] in W. pose proof (life_reach i _ _ _ _ H) as [A B C D].
  pose proof (tot_in (f_life i at_start) _ _ Hin) as G. assert (G1 : f_life i at_start (Th (RTask i KOther) p) = 1) by (unfold f_life; cbn [rl at_]; rewrite Nat.eqb_refl; destruct W as [(b & ->)| ->]; reflexivity).
  assert (b2n (i <? ntask (shared c)) <= 1) by (destruct (i <? ntask (shared c)); cbn; lia).
  assert (Ne : ~ ended i tr) by (rewrite ended_n; lia).
  split; [unfold accepted; rewrite ret_n; lia|]. split; [rewrite started_n; lia|]. split; [exact Ne|].
  intros tr1 j tr2 r E Ha. subst tr. eapply C113_unended_blocks_partial; eassumption.
Qed.
(** it stays for ever *)
Theorem C113_wrong_type_stays n mains tr c i p tr2 c2 : exec (start n mains) tr c -> In (Th (RTask i KOther) p) (ths c) -> exec c tr2 c2 ->
  exists p', In (Th (RTask i KOther) p') (ths c2).
Proof.
  intros H Hin H2. apply In_nth_error in Hin as (m & Hm). destruct (role_stays _ _ _ _ _ H2 Hm) as ([r p'] & Ht & R). cbn [rl] in R. subst r. exists p'. eapply nth_error_In; eassumption.
Qed.
(** and takes a slot away: at most n minus the number of such things run at a time *)
Theorem C113_wrong_type_takes_a_slot n mains tr c : exec (start n mains) tr c ->
  forall l, NoDup l -> (forall i, In i l -> started i tr /\ ~ ended i tr) -> List.length l + tot (fun t => if wrong_type t then 1 else 0) (ths c) <= n.
Proof.
  intros H l Hnd Hl. pose proof (inv_reach _ _ _ _ H) as I. pose proof (i_tok _ (i_1 _ I)) as It. pose proof (i_cap _ (i_1 _ I)) as Ic. rewrite (cap_const _ _ _ _ H) in Ic.
  assert (S1 : tot f_run (ths c) + tot (fun t => if wrong_type t then 1 else 0) (ths c) <= tot f_tok (ths c)).
  { assert (X : forall t, In t (ths c) -> f_run t + (if wrong_type t then 1 else 0) <= f_tok t).
    { intros t Ht. pose proof (wrong_pc _ _ _ _ _ H Ht) as W. destruct t as [r p]. unfold f_run, f_tok, wrong_type in *. cbn [rl at_] in *. destruct r as [|i0 kd]; cbn [is_task]; [lia|].
      destruct kd; try (destruct p; cbn; try lia; destruct acc; cbn; lia). destruct (W eq_refl) as [(b & ->)| ->]; cbn; lia. }
    revert X. generalize (ths c). induction l0 as [|t l0 IH]; intros X; [cbn; lia|]. cbn [tot]. pose proof (X t (or_introl eq_refl)). specialize (IH (fun u Hu => X u (or_intror Hu))). lia. }
  assert (S2 : List.length l <= tot f_run (ths c)).
  { assert (Y : forall i, In i l -> 1 <= tot (f_life i body_pc) (ths c)).
    { intros i Hi. destruct (Hl i Hi) as (Hs & He). pose proof (life_reach i _ _ _ _ H) as [A B C D]. rewrite started_n in Hs. rewrite ended_n in He. lia. }
    clear Hl S1 It Ic. revert Hnd Y. generalize (ths c) as L. clear. intros L. revert l. induction L as [|t L IH]; intros l Hnd Y.
    - destruct l as [|i l]; [cbn; lia|]. specialize (Y i (or_introl eq_refl)). cbn in Y. lia.
    - cbn [tot] in *. destruct t as [r p]. destruct (f_run (Th r p)) eqn:Er.
      + cbn [Nat.add]. apply IH; [exact Hnd|]. intros i Hi. specialize (Y i Hi). assert (Z : f_life i body_pc (Th r p) = 0); [|lia]. unfold f_run, f_life in *. cbn [rl at_] in *. destruct r as [|j kd]; [reflexivity|]. cbn [is_task] in Er. destruct (j =? i); [exact Er|reflexivity].
      + unfold f_run in Er. cbn [rl at_] in Er. destruct r as [|j kd]; [discriminate|]. cbn [is_task] in Er. assert (n = 0) as -> by (destruct (body_pc p); cbn in Er; lia).
        destruct (in_dec Nat.eq_dec j l) as [Hj|Hj].
        * apply in_split in Hj as (a & b & ->). pose proof (NoDup_remove_1 _ _ _ Hnd) as N1. pose proof (NoDup_remove_2 _ _ _ Hnd) as N2. specialize (IH (a ++ b) N1).
          rewrite !app_length in *. cbn [List.length]. assert (X : Datatypes.length (a ++ b) <= tot f_run L); [|rewrite app_length in X; lia]. rewrite app_length. apply IH. intros i Hi. assert (Hne : j <> i) by (intros ->; contradiction).
          specialize (Y i). unfold f_life in Y at 1. cbn [rl at_] in Y. apply Nat.eqb_neq in Hne. rewrite Hne in Y. apply Y. apply in_app_iff in Hi. apply in_app_iff. cbn. tauto.
        * etransitivity; [apply IH; [exact Hnd|]|lia]. intros i Hi. assert (Hne : j <> i) by (intros ->; contradiction). specialize (Y i Hi). unfold f_life in Y at 1. cbn [rl at_] in Y. apply Nat.eqb_neq in Hne. rewrite Hne in Y. exact Y. }
  lia.
Qed.
Example C113_exact_case : exists tr c, exec (start 2 [Submit KOther nop nop]) tr c /\ In (Th (RTask 0 KOther) PHung) (ths c).
Proof. run_it (times 8 0 ++ times 1 1). cbn. tauto. Qed.

(** *** C74: for every n there is such a deadlock *)
Definition inner : prog := Submit KFunc nop nop.
Fixpoint nested (k : nat) : prog := match k with 0 => nop | S k' => Submit KFunc inner (nested k') end.
Definition sh_at (n b r ct nt : nat) : sh := Sh n b false false None r WNone ct 0 0 nt 0 0 None.
Lemma steps c0 tr c sched tr' c' : exec c0 tr c -> play c sched [] = Some (tr', c') -> exists tr2, exec c0 tr2 c'.
Proof.
  intros H E. assert (X : forall s c t1 t2 r, play c s t1 = Some r -> exists r2, play c s t2 = Some (r2, snd r)).
  { induction s as [|(i & x) s IH]; intros d t1 t2 r Hr; cbn in *; [injection Hr as <-; eauto|]. destruct (gstep d i x) as [(e & d')|]; [|discriminate]. eapply IH; exact Hr. }
  destruct (X _ _ _ tr _ E) as (r2 & Y). cbn [snd] in Y. exists r2. eapply play_exec; eassumption.
Qed.
Lemma upd_mid {A} (a : list A) x b y : upd (a ++ x :: b) (List.length a) y = a ++ y :: b.
Proof. induction a as [|z a IH]; [reflexivity|]. cbn. rewrite IH. reflexivity. Qed.
Lemma gstep_mid s a t b x s' e t' new : dead s = None -> lstep s t x = Some (s', e, t', new) -> gstep (Conf s (a ++ t :: b)) (List.length a) x = Some (e, Conf s' ((a ++ t' :: b) ++ new)).
Proof. intros Hd Hl. unfold gstep. cbn [shared ths]. rewrite Hd. rewrite nth_error_app2 by lia. rewrite Nat.sub_diag. cbn [nth_error]. rewrite Hl. rewrite upd_mid. reflexivity. Qed.
Lemma exec_mid c0 tr s a t b x s' e t' new : exec c0 tr (Conf s (a ++ t :: b)) -> dead s = None -> lstep s t x = Some (s', e, t', new) -> exists tr2, exec c0 tr2 (Conf s' ((a ++ t' :: b) ++ new)).
Proof. intros H Hd Hl. eexists. eapply exec_step; [exact H|]. apply gstep_mid; eassumption. Qed.
Definition todo (i : nat) : thread := Th (RTask i KFunc) (PStart inner).
Definition blocked (n : nat) (i : nat) : thread := Th (RTask i KFunc) (PSend (n + i) KFunc nop nop).
Lemma phase1 n k : k <= n -> exists tr, exec (start n [nested n]) tr (Conf (sh_at n k 0 k k) (Th RMain (PUser (nested (n - k))) :: map todo (seq 0 k))).
Proof.
  induction k as [|k IH]; intros Hk; [rewrite Nat.sub_0_r; exists []; constructor|]. destruct (IH ltac:(lia)) as (tr & H). clear IH.
  replace (n - k) with (S (n - S k)) in H by lia. cbn [nested] in H. set (rest := nested (n - S k)) in *. clearbody rest.
  change (Th RMain (PUser (Submit KFunc inner rest)) :: map todo (seq 0 k)) with ([] ++ Th RMain (PUser (Submit KFunc inner rest)) :: map todo (seq 0 k)) in H.
  do 3 (eapply exec_mid with (x := 0) in H; [|reflexivity|reflexivity]; destruct H as (? & H); rewrite app_nil_r in H).
  eapply exec_mid with (x := 0) in H; [|reflexivity|reflexivity]. destruct H as (? & H). rewrite app_nil_r in H.
  eapply exec_mid with (x := 0) in H; [|reflexivity|unfold lstep; cbn [rl at_ chclosed sh_at set_wg set_names set_rds cap buf]; replace (k <? n) with true by (symmetry; apply Nat.ltb_lt; lia); reflexivity]. destruct H as (? & H). rewrite app_nil_r in H.
  eapply exec_mid with (x := 0) in H; [|reflexivity|reflexivity]. destruct H as (? & H). rewrite app_nil_r in H.
  eapply exec_mid with (x := 0) in H; [|reflexivity|reflexivity]. destruct H as (tr' & H).
  exists tr'. rewrite seq_S, map_app. exact H.
Qed.
Lemma phase2 n k : k <= n -> exists tr, exec (start n [nested n]) tr (Conf (sh_at n n k (n + k) (n + k)) (Th RMain PEnd :: map (blocked n) (seq 0 k) ++ map todo (seq k (n - k)))).
Proof.
  induction k as [|k IH]; intros Hk.
  - destruct (phase1 n n (le_n n)) as (tr & H). rewrite Nat.sub_diag in H. cbn [nested] in H.
    change (Th RMain (PUser nop) :: map todo (seq 0 n)) with ([] ++ Th RMain (PUser nop) :: map todo (seq 0 n)) in H. eapply exec_mid with (x := 0) in H; [|reflexivity|reflexivity]. destruct H as (tr' & H). rewrite app_nil_r in H.
    exists tr'. rewrite Nat.sub_0_r, Nat.add_0_r. exact H.
  - destruct (IH ltac:(lia)) as (tr & H). clear IH. replace (n - k) with (S (n - S k)) in H by lia. cbn [seq map] in H.
    change (Th RMain PEnd :: map (blocked n) (seq 0 k) ++ todo k :: map todo (seq (S k) (n - S k))) with ((Th RMain PEnd :: map (blocked n) (seq 0 k)) ++ todo k :: map todo (seq (S k) (n - S k))) in H.
    do 4 (eapply exec_mid with (x := 0) in H; [|reflexivity|reflexivity]; destruct H as (? & H); rewrite app_nil_r in H).
    eapply exec_mid with (x := 0) in H; [|reflexivity|reflexivity]. destruct H as (tr' & H). rewrite app_nil_r in H.
    exists tr'. rewrite seq_S, map_app. cbn [map List.app Nat.add]. rewrite <- app_assoc. cbn [List.app]. rewrite Nat.add_succ_r. exact H.
Qed.
(** n tasks, each submitting another one: the process can come to rest with n calls of RunTask that never return *)
Theorem C74_deadlock_for_every_n n : exists tr c, exec (start n [nested n]) tr c /\ alive c /\ at_rest c /\ submits_under_way true tr = n /\ (forall i, ~ ended i tr).
Proof.
  destruct (phase2 n n (le_n n)) as (tr & H). rewrite Nat.sub_diag in H. cbn [seq map] in H. rewrite app_nil_r in H.
  exists tr. eexists. split; [exact H|]. split; [reflexivity|].
  assert (At : forall t, In t (Th RMain PEnd :: map (blocked n) (seq 0 n)) -> t = Th RMain PEnd \/ exists i, t = blocked n i) by (intros t [<-|Ht]; [left; reflexivity|right; apply in_map_iff in Ht as (i & <- & _); eauto]).
  split; [|split].
  - intros i x. unfold gstep. cbn [shared ths dead sh_at]. destruct (nth_error _ i) as [t|] eqn:E; [|reflexivity]. apply nth_error_In in E. destruct (At t E) as [->|(j & ->)]; [reflexivity|].
    unfold lstep. cbn [rl at_ blocked chclosed cap buf sh_at]. rewrite Nat.ltb_irrefl. reflexivity.
  - destruct (under_way _ _ _ _ H) as (_ & U). rewrite U. cbn [ths tot f_rt at_ Nat.add]. clear. generalize 0. induction n as [|m IH] at 2 3; intros s; [reflexivity|]. cbn [seq map tot]. rewrite IH. reflexivity.
  - intros i He. rewrite ended_n in He. pose proof (life_reach i _ _ _ _ H) as [A B C D]. pose proof (w_start _ _ (flow_reach _ _ _ _ H)) as W.
    assert (Q : forall L, (forall t, In t L -> t = Th RMain PEnd \/ exists i, t = blocked n i) -> forall i, tot (f_life i at_start) L = 0).
    { intros L HL k. apply tot_zero. intros t Ht. destruct (HL t Ht) as [->|(j & ->)]; [reflexivity|]. unfold f_life. cbn. destruct (j =? k); reflexivity. }
    cbn [ths] in *. assert (Le : tot m_start tr <= n).
    { assert (Fr : tot f_run (Th RMain PEnd :: map (blocked n) (seq 0 n)) = n) by (cbn [tot f_run rl is_task Nat.add]; clear; generalize 0; induction n as [|m IH] at 2 3; intros s; [reflexivity|]; cbn [seq map tot]; rewrite IH; reflexivity).
      rewrite Fr in W. clear Q He. destruct (Nat.le_gt_cases (tot m_start tr) n) as [Hle|Hgt]; [exact Hle|]. exfalso.
      (* every started task is accepted and has its goroutine *)
      assert (T : forall L, (forall t, In t L -> t = Th RMain PEnd \/ exists i, t = blocked n i) -> True) by auto. clear T.
      pose proof (tot_pos_in m_end tr ltac:(lia)) as (e & He & Hm). destruct e as [| | |k r| | | | | |]; cbn in Hm; try lia.
      pose proof (life_reach k _ _ _ _ H) as [A' B' C' D']. cbn [ths shared] in *. assert (E1 : 0 < tot (n_end k) tr) by (apply ended_n; exists r; exact He).
      assert (K : k < n \/ n <= k) by lia. destruct K as [K|K].
      - assert (1 <= tot (f_life k body_pc) (Th RMain PEnd :: map (blocked n) (seq 0 n))).
        { assert (In (blocked n k) (Th RMain PEnd :: map (blocked n) (seq 0 n))) as Hi by (right; apply in_map, in_seq; lia). pose proof (tot_in (f_life k body_pc) _ _ Hi) as G. unfold f_life in G at 1. cbn [blocked rl at_] in G. rewrite Nat.eqb_refl in G. exact G. }
        assert (b2n (k <? ntask (sh_at n n n (n + n) (n + n))) <= 1) by (destruct (k <? _); cbn; lia). lia.
      - destruct (Nat.ltb_spec k (ntask (sh_at n n n (n + n) (n + n)))) as [Kl|Kl]; cbn [b2n] in A'; [|lia]. cbn in Kl.
        assert (1 <= tot (f_in k) (Th RMain PEnd :: map (blocked n) (seq 0 n))).
        { assert (In (blocked n (k - n)) (Th RMain PEnd :: map (blocked n) (seq 0 n))) as Hi by (right; apply in_map, in_seq; lia). pose proof (tot_in (f_in k) _ _ Hi) as G. unfold f_in in G at 1. cbn [blocked rl at_] in G. replace (n + (k - n)) with k in G by lia. rewrite Nat.eqb_refl in G. exact G. }
        lia. }
    assert (Fr : tot f_run (Th RMain PEnd :: map (blocked n) (seq 0 n)) = n) by (cbn [tot f_run rl is_task Nat.add]; clear; generalize 0; induction n as [|m IH] at 2 3; intros s; [reflexivity|]; cbn [seq map tot]; rewrite IH; reflexivity).
    rewrite Fr in W. assert (Z : tot m_end tr = 0) by lia.
    assert (Z2 : tot (n_end i) tr <= tot m_end tr) by (apply tot_le; intros []; cbn; try lia; destruct (_ =? i); cbn; lia). lia.
Qed.
(** and n tasks inside RunTask is the only deadlock where tasks neither wait nor close *)
Theorem C74_only_deadlock n mains tr c :
  Forall (tame true false) mains -> exec (start n mains) tr c -> at_rest c -> alive c ->
  (all_returned tr /\ nothing_left c) \/ submits_under_way true tr = n.
Proof. exact (C74_deadlock_partial n mains tr c). Qed.

(** *** C111: the only ways to die *)
(** a worker's process panics only for misuse of the wait group, and only if a goroutine that is not
    a running task was inside RunTask while another was inside Wait *)
Theorem C111_panics_only_if n mains tr c x : exec (start n mains) tr c -> dead (shared c) = Some x ->
  (x = AddWithWait \/ x = ReusedWait) /\ exists tr1 tr2, tr = tr1 ++ tr2 /\ 0 < waits_under_way tr1 /\ 0 < submits_under_way false tr1.
Proof.
  intros H Hd. split.
  - destruct (only_misuse _ _ _ _ H) as [E|[E|E]]; rewrite E in Hd; try discriminate; injection Hd as <-; auto.
  - assert (Dec : forall t : list event, (exists tr1 tr2, t = tr1 ++ tr2 /\ 0 < waits_under_way tr1 /\ 0 < submits_under_way false tr1) \/ orderly t).
    { intros t. destruct (forallb (fun p => (waits_under_way p =? 0) || (submits_under_way false p =? 0))%bool (inits t)) eqn:E; [right; apply orderly_check; exact E|]. left.
      assert (X : existsb (fun p => negb ((waits_under_way p =? 0) || (submits_under_way false p =? 0)))%bool (inits t) = true).
      { clear - E. induction (inits t) as [|a l IH]; [discriminate|]. cbn in *. apply andb_false_iff in E as [E|E]; [rewrite E; reflexivity|rewrite (IH E); apply orb_true_r]. }
      apply existsb_exists in X as (p & Hp & X). unfold inits in Hp. apply in_map_iff in Hp as (k & <- & Hk). exists (firstn k t), (skipn k t). split; [symmetry; apply firstn_skipn|].
      apply negb_true_iff, orb_false_iff in X as (X1 & X2). apply Nat.eqb_neq in X1, X2. lia. }
    destruct (Dec tr) as [X|X]; [exact X|]. pose proof (C75_no_crash _ _ _ _ H X) as A. unfold alive in A. congruence.
Qed.
(** and for every pool size some program does *)
Theorem C111_panics_for_every_n n : exists tr c, exec (start (S n) [Submit KFunc nop (WaitFor (fun _ => nop)); Submit KFunc nop nop]) tr c /\ dead (shared c) = Some AddWithWait.
Proof. run_it (times 7 0 ++ times 2 0 ++ times 3 1 ++ times 4 2 ++ times 1 1). reflexivity. Qed.

(** *** C114: until when a worker accepts tasks *)
(** A task is dropped only if Close was called or a task has failed before; once a Close has returned,
    or the goroutine of a failed task is over, every task is. *)
Theorem C114_accepted_until n mains tr1 i b tr2 c : exec (start n mains) (tr1 ++ ERet b i false :: tr2) c ->
  0 < count is_close tr1 + count fails tr1.
Proof.
  intros H. destruct (exec_at _ _ _ H _ _ _ eq_refl) as (c1 & k & x & c1' & H1 & S1 & _). pose proof (exec_step _ _ _ _ _ _ _ H1 S1) as H2. cbn [opt_list] in H2.
  destruct (Nat.eq_dec (count is_close tr1 + count fails tr1) 0) as [Z|Z]; [|lia]. exfalso.
  assert (A : forall f t u, count f (t ++ u) = count f t + count f u) by (intros f t u; induction t as [|e t IH]; [reflexivity|]; cbn [List.app count]; rewrite IH; lia).
  refine (C114_reuse_partial _ _ _ _ H2 _ _ i _); [rewrite A; cbn; lia|rewrite A; cbn; lia|]. exists b. apply in_or_app. right. left. reflexivity.
Qed.
Theorem C114_dropped_after n mains tr1 tr2 c i b acc : exec (start n mains) (tr1 ++ tr2) c ->
  (exists j, In (EClosed j) tr1) \/ (exists k, In (EOver k) tr1) -> submitted i tr2 -> In (ERet b i acc) tr2 -> acc = false.
Proof.
  intros H Hc Hs Hr. destruct (C71_closed _ _ _ _ _ _ H Hc Hs) as (Ha & _). destruct acc; [|reflexivity]. exfalso. apply Ha. exists b. apply in_or_app. right. exact Hr.
Qed.

Print Assumptions C112_every_deadlock.
Print Assumptions C112_close_blocks_only_if.
Print Assumptions C74_submit_blocks_only_if.
Print Assumptions C136_wait_in_task_never_returns.
Print Assumptions C113_wrong_type_blocks_for_ever.
Print Assumptions C113_wrong_type_stays.
Print Assumptions C113_wrong_type_takes_a_slot.
Print Assumptions C74_deadlock_for_every_n.
Print Assumptions C74_only_deadlock.
Print Assumptions C111_panics_only_if.
Print Assumptions C111_panics_for_every_n.
Print Assumptions C114_accepted_until.
Print Assumptions C114_dropped_after.
