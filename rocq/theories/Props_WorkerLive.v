(** Props_WorkerLive: C72 (refuted), C74, C75, C111-C114. *)
From Coq Require Import List Bool Arith Lia ZifyBool.
Import ListNotations.
From Verif Require Import WorkerModel WorkerFacts WorkerLife WorkerErr WorkerLive Props_Worker.

(** *** specification *)
(** nothing can move any more *)
Definition at_rest (c : conf) : Prop := forall i x, gstep c i x = None.
(** the process is alive *)
Definition alive (c : conf) : Prop := dead (shared c) = None.
(** every call has returned, every accepted task has run *)
Definition all_returned (tr : list event) : Prop :=
  (forall b, count (is_call b) tr = count (is_ret b) tr) /\ count is_wait tr = count is_waited tr /\ count is_close tr = count is_closed tr /\
  (forall i, submitted i tr -> accepted i tr \/ dropped i tr) /\ (forall i, accepted i tr -> ended i tr).
(** no schedule goes on for ever *)
Definition terminates (c : conf) : Prop := Acc (fun c' c => exists i x e, gstep c i x = Some (e, c')) c.
Definition nothing_left (c : conf) : Prop := Forall (fun t => at_ t = PEnd) (ths c).

Lemma cap_const n mains tr c : exec (start n mains) tr c -> cap (shared c) = n.
Proof.
  intros H. remember (start n mains) as c0 eqn:E0. induction H as [|c tr c1 i x e c2 H IH Hs]; subst; [reflexivity|].
  specialize (IH eq_refl). apply gstep_inv in Hs as (Hd & t & s' & t' & new & Hn & Hlx & ->). destruct c1 as [s l0]. cbn [shared] in *. clear Hd H.
  step_cases Hlx; exact IH.
Qed.
Lemma left_returned n mains tr c : exec (start n mains) tr c -> nothing_left c -> all_returned tr.
Proof.
  intros H Hl. pose proof (flow_reach _ _ _ _ H) as F. unfold nothing_left in Hl. rewrite Forall_forall in Hl.
  assert (Z : forall f, (forall r, f (Th r PEnd) = 0) -> tot f (ths c) = 0).
  { intros f Hf. apply tot_zero. intros [r p] Ht. specialize (Hl _ Ht). cbn in Hl. subst p. apply Hf. }
  assert (Zl : forall i f, f PEnd = false -> tot (f_life i f) (ths c) = 0).
  { intros i f Hf. apply Z. intros r. unfold f_life. cbn. rewrite Hf. destruct r; [reflexivity|]. destruct (_ =? i); reflexivity. }
  split; [|split; [|split; [|split]]].
  - intros b. rewrite <- tot_is_call, <- tot_is_ret, (w_call _ _ F b), Z by reflexivity. reflexivity.
  - rewrite <- tot_is_wait, <- tot_is_waited, (w_wait _ _ F), Z by reflexivity. reflexivity.
  - rewrite <- tot_is_close, <- tot_is_closed, (w_close _ _ F), Z by reflexivity. reflexivity.
  - intros i Hs. pose proof (life_reach i _ _ _ _ H) as [A B C D]. unfold accepted, dropped. rewrite !ret_n. rewrite call_n in Hs. rewrite (Z (f_in i)) in A by reflexivity. rewrite Zl in * by reflexivity. lia.
  - intros i Ha. pose proof (life_reach i _ _ _ _ H) as [A B C D]. unfold accepted in Ha. rewrite ret_n in Ha. rewrite ended_n. rewrite !Zl in * by reflexivity. lia.
Qed.

(** *** C75: progress *)
(** no schedule goes on for ever if the programs are finite *)
Theorem C75_terminates n mains tr c : Forall finite mains -> exec (start n mains) tr c -> terminates c.
Proof.
  intros Hf H. remember (start n mains) as c0 eqn:E0. induction H as [|c tr c1 i x e c2 H IH Hs]; subst; [apply start_acc; exact Hf|].
  specialize (IH eq_refl). destruct IH as [IH]. apply IH. exists i, x, e. exact Hs.
Qed.
(** tasks that neither submit, wait nor close: whatever the main goroutines
    do, when nothing moves any more everything has returned *)
Theorem C75_progress n mains tr c :
  1 <= n -> Forall (tame false false) mains -> exec (start n mains) tr c -> at_rest c -> alive c -> all_returned tr /\ nothing_left c.
Proof.
  intros Hn Hm H Hs Hd. pose proof (okth_reach _ _ _ _ _ Hm H) as Ho.
  destruct (deadlock _ _ (inv_reach _ _ _ _ H) Ho Hd Hs) as [Hl|[Hr _]].
  - split; [eapply left_returned; eauto|exact Hl].
  - rewrite (leaf_rt _ Ho), (cap_const _ _ _ _ H) in Hr. lia.
Qed.
(** ... and the process is alive if the wait group's rule is kept *)
Theorem C75_no_crash n mains tr c : exec (start n mains) tr c -> orderly tr -> alive c.
Proof. intros H Ho. apply (calm_alive _ _ _ _ H). eapply orderly_calm; eauto. Qed.

(** *** C74 *)
(** tasks may submit: then the only deadlock is n tasks inside RunTask *)
Theorem C74_deadlock_partial n mains tr c :
  Forall (tame true false) mains -> exec (start n mains) tr c -> at_rest c -> alive c ->
  (all_returned tr /\ nothing_left c) \/ submits_under_way true tr = n.
Proof.
  intros Hm H Hs Hd. pose proof (okth_reach _ _ _ _ _ Hm H) as Ho.
  destruct (deadlock _ _ (inv_reach _ _ _ _ H) Ho Hd Hs) as [Hl|[Hr _]].
  - left. split; [eapply left_returned; eauto|exact Hl].
  - right. destruct (under_way _ _ _ _ H) as [_ Hu]. rewrite Hu, Hr. eapply cap_const; eauto.
Qed.
Corollary C74_spare_slot_partial n mains tr c :
  Forall (tame true false) mains -> exec (start n mains) tr c -> at_rest c -> alive c ->
  submits_under_way true tr < n -> all_returned tr.
Proof. intros Hm H Hs Hd Hl. destruct (C74_deadlock_partial _ _ _ _ Hm H Hs Hd) as [[Hr _]|Hr]; [exact Hr|lia]. Qed.

Definition nop : prog := Ret None.
Definition times (k i : nat) : list (nat * nat) := repeat (i, 0) k.
Ltac run_it sched :=
  match goal with |- context [start ?n ?m] =>
    let r := eval vm_compute in (play (start n m) sched []) in
    match r with Some (?tr, ?c) =>
      exists tr, c; split; [apply (play_exec (start n m) sched [] tr c _ (exec_nil _)); vm_compute; reflexivity|] end end.
Ltac resting :=
  let i := fresh "i" in let x := fresh "x" in intros i x; do 6 (destruct i as [|i]; [vm_compute; reflexivity|]); unfold gstep; cbn; destruct i; reflexivity.

(** one slot: a task that submits waits for itself for ever *)
Theorem C74_nested_refuted :
  exists tr c, exec (start 1 [Submit KFunc (Submit KFunc nop nop) (WaitFor (fun _ => nop))]) tr c /\
    alive c /\ at_rest c /\ accepted 0 tr /\ ~ ended 0 tr /\ submitted 1 tr /\ ~ accepted 1 tr /\ ~ dropped 1 tr /\ waits_under_way tr = 1.
Proof.
  run_it (times 7 0 ++ times 5 1 ++ times 2 0). split; [reflexivity|]. split; [resting|].
  repeat split; try (intros (r & Hr); cbn in Hr; repeat (destruct Hr as [Hr|Hr]; [discriminate Hr|]); exact Hr); try (eexists; cbn; tauto).
Qed.

(** *** C112: a task that closes the worker can block it for ever *)
Theorem C112_close_in_task_refuted :
  exists tr c, exec (start 1 [Submit KFunc (CloseIt nop) (Submit KFunc nop nop)]) tr c /\
    alive c /\ at_rest c /\ started 0 tr /\ ~ ended 0 tr /\ submitted 1 tr /\ ~ accepted 1 tr /\ ~ dropped 1 tr /\ In (EClose 0) tr /\ ~ In (EClosed 0) tr.
Proof.
  run_it (times 7 0 ++ times 1 1 ++ times 4 0 ++ times 2 1). split; [reflexivity|]. split; [resting|].
  repeat split; try (intros (r & Hr); cbn in Hr; repeat (destruct Hr as [Hr|Hr]; [discriminate Hr|]); exact Hr); try (cbn; tauto).
  - exists false. cbn. tauto.
  - cbn. intros Hr. repeat (destruct Hr as [Hr|Hr]; [discriminate Hr|]). exact Hr.
Qed.
(** closing from the main goroutines never does: C75_progress allows it *)
Theorem C112_close_outside_partial n mains tr c :
  1 <= n -> Forall (tame false false) mains -> exec (start n mains) tr c -> at_rest c -> alive c -> count is_close tr = count is_closed tr.
Proof. intros Hn Hm H Hs Hd. destruct (C75_progress _ _ _ _ Hn Hm H Hs Hd) as [(_ & _ & Hc & _) _]. exact Hc. Qed.

(** *** C113: a task that is neither func() nor func() error is accepted, never
    runs, keeps its slot, and every Wait after it blocks for ever *)
Theorem C113_other_task_refuted :
  exists tr c, exec (start 1 [Submit KOther nop (WaitFor (fun _ => nop))]) tr c /\
    alive c /\ at_rest c /\ accepted 0 tr /\ ~ started 0 tr /\ waits_under_way tr = 1.
Proof.
  run_it (times 7 0 ++ times 1 1 ++ times 2 0). split; [reflexivity|]. split; [resting|].
  repeat split; try (intros (r & Hr); cbn in Hr; repeat (destruct Hr as [Hr|Hr]; [discriminate Hr|]); exact Hr); try (cbn; tauto).
  - exists false. cbn. tauto.
  - intros Hr. unfold started in Hr. cbn in Hr. repeat (destruct Hr as [Hr|Hr]; [discriminate Hr|]). exact Hr.
Qed.
(** a task that does not end blocks every later Wait *)
Theorem C113_unended_blocks_partial n mains tr1 j tr2 c i :
  exec (start n mains) (tr1 ++ EWait j :: tr2) c -> accepted i tr1 -> ~ ended i (tr1 ++ EWait j :: tr2) -> forall r, ~ In (EWaited j r) tr2.
Proof.
  intros H Ha He r Hin. apply in_split in Hin as (a & b & ->). apply He.
  destruct (C70_barrier _ _ _ _ _ _ _ _ H i Ha) as (q & Hq). exists q. rewrite app_comm_cons, app_assoc. apply in_or_app. left. exact Hq.
Qed.

(** *** C111: submitting while another goroutine waits can kill the process *)
Theorem C111_submit_during_wait_refuted :
  exists tr c, exec (start 5 [Submit KFunc nop (WaitFor (fun _ => nop)); Submit KFunc nop nop]) tr c /\ dead (shared c) = Some AddWithWait.
Proof. run_it (times 7 0 ++ times 2 0 ++ times 3 1 ++ times 4 2 ++ times 1 1). reflexivity. Qed.
Theorem C111_submit_after_wakeup_refuted :
  exists tr c, exec (start 5 [Submit KFunc nop (WaitFor (fun _ => nop)); Submit KFunc nop nop]) tr c /\ dead (shared c) = Some ReusedWait.
Proof. run_it (times 7 0 ++ times 2 0 ++ times 3 1 ++ times 5 2 ++ times 1 1 ++ times 2 0). reflexivity. Qed.
(** it cannot if only running tasks submit during a Wait *)
Theorem C111_orderly_partial n mains tr c : exec (start n mains) tr c -> orderly tr -> dead (shared c) = None.
Proof. exact (C75_no_crash n mains tr c). Qed.

(** *** C72 *)
(** the only task fails, and the Wait called afterwards reports nothing *)
Theorem C72_missed_refuted :
  exists tr c, exec (start 1 [Submit KErr (Ret (Some 7)) (WaitFor (fun r => Ret r))]) tr c /\
    tr = [ECall false 0; ERet false 0 true; EStart 0; EEnd 0 (Some 7); EWait 0; EWaited 0 None].
Proof. run_it (times 7 0 ++ times 4 1 ++ times 4 0). reflexivity. Qed.
(** it can even be lost for good: recorded, and cleared by a Wait that did not see it *)
Theorem C72_lost_refuted :
  exists tr c, exec (start 1 [Submit KErr (Ret (Some 7)) (WaitFor (fun _ => WaitFor (fun _ => nop)))]) tr c /\
    nothing_left c /\ tr = [ECall false 0; ERet false 0 true; EStart 0; EEnd 0 (Some 7); EWait 0; EStored 0 7; EOver 0; EWaited 0 None; EWait 1; EWaited 1 None].
Proof. run_it (times 7 0 ++ times 4 1 ++ times 3 0 ++ times 6 1 ++ times 6 0). split; [|reflexivity]. repeat constructor. Qed.

(** *** C114: using the worker again *)
Definition fails (e : event) := match e with EEnd _ (Some _) => true | _ => false end.
Lemma tot_fails tr : tot m_fail tr = count fails tr.
Proof. apply count_tot. intros []; try reflexivity. destruct r; reflexivity. Qed.
Definition f_drop (t : thread) : nat := match at_ t with PRUnlock false _ _ _ _ => 1 | _ => 0 end.
Definition m_drop (e : event) : nat := match e with ERet _ _ false => 1 | _ => 0 end.
Lemma drop_closed n mains tr c : exec (start n mains) tr c -> 0 < tot f_drop (ths c) + tot m_drop tr -> closed (shared c) = true.
Proof.
  intros H. remember (start n mains) as c0 eqn:E0. induction H as [|c tr c1 i x e c2 H IH Hs]; subst.
  - intros Hp. assert (Z : tot f_drop (ths (start n mains)) = 0); [|rewrite Z in Hp; cbn in Hp; lia].
    apply tot_zero. intros a Ha. apply in_map_iff in Ha as (p & <- & _). reflexivity.
  - specialize (IH eq_refl). apply gstep_inv in Hs as (Hd & t & s' & t' & new & Hn & Hl & ->). destruct c1 as [s l]. cbn [shared ths] in *. rewrite !tot_app.
    pose proof (fun t' => tot_upd f_drop _ _ _ t' Hn) as U. pose proof (tot_ge f_drop _ _ _ Hn) as G.
    step_cases Hl; simp_sh; match goal with |- context [upd l i ?t'] => specialize (U t') end; cbn [opt_list tot m_drop f_drop at_ Nat.add] in *; intros; try reflexivity; try congruence; try (apply IH; lia); try (specialize (IH ltac:(lia)); congruence).
Qed.
(** as long as nobody closed it and no task failed, every task is accepted, before and after any Wait *)
Theorem C114_reuse_partial n mains tr c : exec (start n mains) tr c ->
  count is_close tr = 0 -> count fails tr = 0 -> forall i, ~ dropped i tr.
Proof.
  intros H Hc Hf i (b & Hb). rewrite <- tot_is_close in Hc. rewrite <- tot_fails in Hf.
  pose proof (drop_closed _ _ _ _ H) as Hd. pose proof (tot_in m_drop _ _ Hb) as G. cbn in G.
  pose proof (w_why _ _ (flow_reach _ _ _ _ H) (Hd ltac:(lia))). lia.
Qed.
(** after a failure it cannot be used again: the task submitted after the Wait is silently dropped *)
Theorem C114_reuse_refuted :
  exists tr c, exec (start 1 [Submit KErr (Ret (Some 7)) (WaitFor (fun _ => Submit KFunc nop nop))]) tr c /\ nothing_left c /\
    tr = [ECall false 0; ERet false 0 true; EStart 0; EEnd 0 (Some 7); EStored 0 7; EOver 0; EWait 0; EWaited 0 (Some 7); ECall false 1; ERet false 1 false].
Proof. run_it (times 7 0 ++ times 10 1 ++ times 9 0). split; [|reflexivity]. repeat constructor. Qed.

(** *** the hypotheses are met *)
Definition inits (tr : list event) : list (list event) := map (fun k => firstn k tr) (seq 0 (S (List.length tr))).
Lemma prefixes_check (P : list event -> bool) (Q : list event -> Prop) tr :
  (forall p, P p = true -> Q p) -> forallb P (inits tr) = true -> prefixes Q tr.
Proof.
  intros HP H tr1 tr2 E. rewrite forallb_forall in H. apply HP, H. unfold inits. apply in_map_iff. exists (List.length tr1). split.
  - subst tr. rewrite firstn_app, Nat.sub_diag, firstn_all. cbn. apply app_nil_r.
  - apply in_seq. subst tr. rewrite app_length. lia.
Qed.
Lemma orderly_check tr : forallb (fun p => (waits_under_way p =? 0) || (submits_under_way false p =? 0))%bool (inits tr) = true -> orderly tr.
Proof. apply prefixes_check. intros p H. lia. Qed.
Lemma one_by_one_check tr : forallb (fun p => waits_under_way p <=? 1) (inits tr) = true -> waits_one_by_one tr.
Proof. apply prefixes_check. intros p H. lia. Qed.

(** one slot, a func() and a failing func() error, Wait twice, Close *)
Definition sample : list prog :=
  [Submit KFunc (Ask (fun _ => nop)) (Submit KErr (Ret (Some 3)) (WaitFor (fun _ => WaitFor (fun r => CloseIt (Ret r)))))].
Example sample_tame : Forall (tame false false) sample /\ Forall (tame true false) sample /\ Forall finite sample.
Proof. unfold sample, nop. repeat split; repeat constructor; try discriminate. Qed.
Example sample_run : exists tr c, exec (start 1 sample) tr c /\ at_rest c /\ alive c /\ orderly tr /\ waits_one_by_one tr /\
  accepted 0 tr /\ accepted 1 tr /\ count reports tr = 1 /\ count is_waited tr = 2.
Proof.
  unfold sample, nop. run_it (times 7 0 ++ times 4 1 ++ times 1 0 ++ times 1 1 ++ times 7 0 ++ times 4 2 ++ times 4 0 ++ times 6 2 ++ times 9 0).
  split; [resting|]. split; [reflexivity|]. split; [apply orderly_check; vm_compute; reflexivity|]. split; [apply one_by_one_check; vm_compute; reflexivity|].
  repeat split; try reflexivity; exists false; cbn; tauto.
Qed.

Print Assumptions C75_terminates.
Print Assumptions C75_progress.
Print Assumptions C75_no_crash.
Print Assumptions C74_deadlock_partial.
Print Assumptions C74_spare_slot_partial.
Print Assumptions C74_nested_refuted.
Print Assumptions C112_close_in_task_refuted.
Print Assumptions C112_close_outside_partial.
Print Assumptions C113_other_task_refuted.
Print Assumptions C113_unended_blocks_partial.
Print Assumptions C111_submit_during_wait_refuted.
Print Assumptions C111_submit_after_wakeup_refuted.
Print Assumptions C111_orderly_partial.
Print Assumptions C72_missed_refuted.
Print Assumptions C72_lost_refuted.
Print Assumptions C114_reuse_partial.
Print Assumptions C114_reuse_refuted.
