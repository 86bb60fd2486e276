(** Props_WorkerErr: C72, what becomes of the errors of failed tasks. *)
From Coq Require Import List Bool Arith Lia ZifyBool.
Import ListNotations.
From Verif Require Import WorkerModel WorkerFacts WorkerLife WorkerErr WorkerLive Props_Worker Props_WorkerLive.

(** *** specification *)
(** the worker has recorded an error *)
Definition is_stored (e : event) : bool := match e with EStored _ _ => true | _ => false end.
(** no Wait reports anything in this part of a trace *)
Definition nothing_reported (tr : list event) : Prop := forall j r, In (EWaited j r) tr -> r = None.

Lemma tot_is_stored tr : tot m_stored tr = count is_stored tr.
Proof. apply count_tot. intros []; reflexivity. Qed.
Definition f_eun (t : thread) : nat := match at_ t with PEUnlock => 1 | _ => 0 end.

(** *** where the errors go *)
Record gone (tr : list event) (c : conf) : Prop := Gone {
  g_fail : tot m_fail tr <= tot f_fail (ths c) + tot m_over tr;
  g_closed : closed (shared c) = true -> 0 < tot m_close tr + tot m_stored tr + tot f_store (ths c);
  g_over : 0 < tot m_over tr -> 0 < tot m_close tr + tot m_stored tr }.
Lemma gone_start n mains : gone [] (start n mains).
Proof. split; cbn; intros; try lia; discriminate. Qed.
Lemma gone_step tr c i x e c' : inv c -> flow tr c -> gone tr c -> gstep c i x = Some (e, c') -> gone (tr ++ opt_list e) c'.
Proof.
  intros I1 F I H. apply gstep_inv in H as (Hd & t & s' & t' & new & Hn & Hl & ->).
  destruct c as [s l]. destruct I as [Gf Gc Go]. pose proof (w_close _ _ F) as Wc. pose proof (w_unl _ _ F) as Wu. pose proof (i_held _ (i_1 _ I1)) as Ih. pose proof (i_bad _ (i_1 _ I1)) as Ib. pose proof (wpwh (ws s)) as Hw. clear I1 F. cbn [shared ths] in *.
  pose proof (tot_ge f_bad _ _ _ Hn) as G0. pose proof (tot_ge f_cl _ _ _ Hn) as G1. pose proof (tot_ge f_unl _ _ _ Hn) as G2. pose proof (tot_ge f_held _ _ _ Hn) as G3. pose proof (tot_ge f_eun _ _ _ Hn) as G4.
  assert (X : tot f_store l + tot f_eun l <= tot f_held l).
  { clear. induction l as [|[r p] l IH]; cbn; [lia|]. unfold f_store, f_eun, f_held in *; cbn. destruct p; cbn; lia. }
  step_cases Hl; boolnorm; split; intros; simp_sh; rewrite ?tot_app in *.
  all: all_sums Hn.
  all: try destruct r; simp_f; simp_m; cbn [f_eun at_] in *; try discriminate; try lia.
  all: try match goal with |- context [reported ?a ?b] => destruct (reported a b); simp_m; lia end.
Qed.
Lemma gone_reach n mains tr c : exec (start n mains) tr c -> gone tr c.
Proof.
  intros H. remember (start n mains) as c0. induction H as [|c tr c1 i x e c2 H IH Hs]; subst; [apply gone_start|].
  eapply gone_step; [eapply inv_reach; eauto|eapply flow_reach; eauto|auto|exact Hs].
Qed.
(** once an error has been taken nothing is reported any more *)
Lemma silent_phase c tr c' : exec c tr c' -> closed (shared c) = true -> err (shared c) = None -> tot f_store (ths c) = 0 -> tot f_clr (ths c) = 0 ->
  closed (shared c') = true /\ err (shared c') = None /\ tot f_store (ths c') = 0 /\ tot f_clr (ths c') = 0 /\ tot m_werr tr = 0.
Proof.
  intros H Hc He Hst Hcl. induction H as [|c tr c1 i x e' c2 H IH Hs]; [auto|].
  specialize (IH Hc He Hst Hcl) as (A & B & C & D & E). clear Hc He Hst Hcl.
  apply gstep_inv in Hs as (Hd & t & s' & t' & new & Hn & Hl & ->). destruct c1 as [s l]. cbn [shared ths] in *.
  pose proof (tot_ge f_store _ _ _ Hn) as G. pose proof (tot_ge f_clr _ _ _ Hn) as G'. rewrite !tot_app.
  step_cases Hl; try congruence; simp_sh; pose proof (fun t' => tot_upd f_store _ _ _ t' Hn) as U; pose proof (fun t' => tot_upd f_clr _ _ _ t' Hn) as U';
    match goal with |- context [upd l i ?t'] => specialize (U t'); specialize (U' t') end; unfold f_store, f_clr in *; cbn [at_ tot opt_list m_werr] in *; repeat split; auto; try congruence; try lia;
    try (rewrite B in *; lia); destruct e; cbn in *; lia.
Qed.
Lemma werr_none tr : tot m_werr tr = 0 -> nothing_reported tr.
Proof. intros H j [e|] Hin; [|reflexivity]. pose proof (tot_in m_werr _ _ Hin) as G. cbn in G. lia. Qed.
Lemma one_by_one tr : waits_one_by_one tr -> one_waiter tr.
Proof. intros Ho tr1 tr2 E. specialize (Ho tr1 tr2 E) as Hp. cbn beta in Hp. unfold waits_under_way in Hp. rewrite tot_is_wait, tot_is_waited. lia. Qed.

(** *** C72 *)
(** over the whole life of a worker at most one error is recorded *)
Theorem C72_recorded_once n mains tr c : exec (start n mains) tr c -> count is_stored tr <= 1.
Proof. intros H. pose proof (w_store _ _ (flow_reach _ _ _ _ H)) as W. rewrite <- tot_is_stored. destruct (closed (shared c)); cbn in W; lia. Qed.
(** when a failed task is over, an error has been recorded, its own or another's, unless Close was called *)
Theorem C72_failure_is_recorded n mains tr1 i tr2 c : exec (start n mains) (tr1 ++ EOver i :: tr2) c ->
  (exists i' e', In (EStored i' e') tr1 /\ In (EEnd i' (Some e')) tr1) \/ (exists j, In (EClose j) tr1).
Proof.
  intros H. destruct (exec_at _ _ _ H _ _ _ eq_refl) as (c1 & k & x & c1' & H1 & S1 & _).
  pose proof (gone_reach _ _ _ _ (exec_step _ _ _ _ _ _ _ H1 S1)) as G. pose proof (g_over _ _ G) as Go. rewrite !tot_app in Go. cbn in Go.
  pose proof (errs_reach _ _ _ _ H1) as E.
  assert (P : 0 < tot m_close tr1 + tot m_stored tr1) by lia. destruct (tot m_stored tr1) eqn:Es.
  - right. assert (P2 : 0 < tot m_close tr1) by lia. apply tot_ev in P2 as (ev & Hin & Hp). destruct ev; cbn in Hp; try lia. exists j. exact Hin.
  - left. assert (P2 : 0 < tot m_stored tr1) by lia. apply tot_ev in P2 as (ev & Hin & Hp). destruct ev; cbn in Hp; try lia. exists i0, e. split; [exact Hin|]. apply (e_stored _ _ E). exact Hin.
Qed.
(** so when everything is over and nobody has closed the worker, a failure has left one recorded error *)
Theorem C72_one_is_recorded n mains tr c i e : exec (start n mains) tr c -> nothing_left c -> In (EEnd i (Some e)) tr -> count is_close tr = 0 -> count is_stored tr = 1.
Proof.
  intros H Hl Hi Hc. pose proof (C72_recorded_once _ _ _ _ H) as L. pose proof (gone_reach _ _ _ _ H) as [Gf _ Go].
  assert (Z : tot f_fail (ths c) = 0). { apply tot_zero. intros [r p] Ht. unfold nothing_left in Hl. rewrite Forall_forall in Hl. specialize (Hl _ Ht). cbn in Hl. subst p. reflexivity. }
  pose proof (tot_in m_fail _ _ Hi) as G. cbn in G. rewrite tot_is_close, tot_is_stored, Hc in Go. lia.
Qed.
(** while Waits come one after the other: only the first Wait to return after the record can report, and only what was recorded *)
Theorem C72_who_reports n mains tr1 i e tr2 j r tr3 c :
  exec (start n mains) (tr1 ++ EStored i e :: tr2 ++ EWaited j r :: tr3) c -> waits_one_by_one (tr1 ++ EStored i e :: tr2 ++ EWaited j r :: tr3) -> count is_waited tr2 = 0 ->
  nothing_reported tr1 /\ (r = None \/ r = Some e) /\ nothing_reported tr3.
Proof.
  intros H Ho Hn2.
  assert (Eq : tr1 ++ EStored i e :: tr2 ++ EWaited j r :: tr3 = (tr1 ++ EStored i e :: tr2) ++ EWaited j r :: tr3) by (rewrite <- app_assoc; reflexivity).
  pose proof (C72_recorded_once _ _ _ _ H) as L. rewrite <- tot_is_stored in L. rewrite tot_app in L. cbn [tot m_stored] in L. rewrite tot_app in L. cbn [tot m_stored] in L.
  destruct (exec_at _ _ _ H (tr1 ++ EStored i e :: tr2) (EWaited j r) tr3 Eq) as (c3 & k3 & x3 & c3' & H3 & S3 & H4).
  destruct (exec_at _ _ _ H3 tr1 (EStored i e) tr2 eq_refl) as (c1 & k1 & x1 & c1' & H1 & S1 & H2).
  split; [|split].
  - intros j' [e'|] Hin; [|reflexivity]. exfalso. destruct (e_waited _ _ (errs_reach _ _ _ _ H1) _ _ Hin) as (i' & Hi').
    pose proof (tot_in m_stored _ _ Hi') as G. cbn in G. lia.
  - destruct r as [e'|]; [right|auto]. destruct (e_waited _ _ (errs_reach _ _ _ _ (exec_step _ _ _ _ _ _ _ H3 S3)) j e') as (i' & Hi'); [apply In_snoc; auto|].
    apply In_snoc in Hi' as [Hi'|Hi']; [|discriminate]. apply in_app_or in Hi' as [Hi'|[Hi'|Hi']].
    + pose proof (tot_in m_stored _ _ Hi') as G. cbn in G. lia.
    + congruence.
    + pose proof (tot_in m_stored _ _ Hi') as G. cbn in G. lia.
  - pose proof (exec_step _ _ _ _ _ _ _ H3 S3) as H3'. pose proof (flow_reach _ _ _ _ H3') as F.
    assert (Hcl : closed (shared c3') = true) by (apply (w_evs _ _ F); rewrite !tot_app; cbn; lia).
    pose proof (w_store _ _ F) as Ws. rewrite Hcl, !tot_app in Ws. cbn in Ws.
    pose proof (one_by_one _ Ho (tr1 ++ EStored i e :: tr2) (EWaited j r :: tr3) Eq) as Hone'.
    pose proof (w_wait _ _ F) as Ww. pose proof (clr_wt (ths c3')) as Cw. cbn [opt_list] in Ww. rewrite !(tot_app m_wait), !(tot_app m_waited) in Ww. rewrite !(tot_app m_wait), !(tot_app m_waited) in Hone'. cbn in Ww, Hone'.
    assert (Hc : tot f_clr (ths c3') = 0) by lia.
    assert (He : err (shared c3') = None).
    { clear - S3. apply gstep_inv in S3 as (Hd & t & s' & t' & new & Hn & Hl & ->). destruct t as [rr p].
      destruct p; try match type of Hl with context [PUser ?q] => destruct q end; unfold lstep in Hl; cbn [rl at_] in *;
        repeat match type of Hl with context [match ?X with _ => _ end] => destruct X eqn:? end; try discriminate Hl. injection Hl as <- _ _ _ _. reflexivity. }
    destruct (silent_phase _ _ _ H4 Hcl He ltac:(lia) Hc) as (_ & _ & _ & _ & Hz). apply werr_none. exact Hz.
Qed.

(** the cases exist: two tasks fail, one error is recorded, the first Wait to return reports it and the second one nothing *)
Definition two_failures : prog := Submit KErr (Ret (Some 7)) (Submit KErr (Ret (Some 8)) (WaitFor (fun _ => WaitFor (fun _ => nop)))).
Example two_failures_run : exists tr c, exec (start 2 [two_failures]) tr c /\ nothing_left c /\ waits_one_by_one tr /\
  exists tr1 tr2 tr3, tr = tr1 ++ EStored 1 8 :: tr2 ++ EWaited 0 (Some 8) :: tr3 /\ count is_waited tr2 = 0 /\ In (EOver 0) tr2 /\ In (EEnd 0 (Some 7)) tr1 /\ In (EWaited 1 None) tr3 /\ count is_close tr = 0.
Proof.
  run_it (times 14 0 ++ times 4 1 ++ times 10 2 ++ times 4 1 ++ times 9 0). split; [repeat constructor|]. split.
  - intros tr1 tr2 E. repeat (destruct tr1 as [|? tr1]; [vm_compute; lia|]; injection E as <- E). destruct tr1; [vm_compute; lia|discriminate E].
  - exists [ECall false 0; ERet false 0 true; ECall false 1; ERet false 1 true; EStart 0; EEnd 0 (Some 7); EStart 1; EEnd 1 (Some 8)].
    exists [EOver 1; EOver 0; EWait 0]. exists [EWait 1; EWaited 1 None]. repeat split; cbn; tauto.
Qed.

Print Assumptions C72_recorded_once.
Print Assumptions C72_failure_is_recorded.
Print Assumptions C72_one_is_recorded.
Print Assumptions C72_who_reports.
