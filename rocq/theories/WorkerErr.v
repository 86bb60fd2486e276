(** WorkerErr: where the errors of the worker machine come from and go. *)
From Coq Require Import List Bool Arith Lia ZifyBool.
Import ListNotations.
From Verif Require Import WorkerModel WorkerFacts WorkerLife.

(** *** where errors come from *)
Definition failing (p : pc) : option err_t :=
  match p with
  | PRecv r | PDone r | PNotify _ r => r
  | PELock e | PEPend e | PEClose1 e | PEClose2 e | PEStore e => Some e
  | _ => None
  end.
Record errs (tr : list event) (c : conf) : Prop := Errs {
  e_thr t i kd e : In t (ths c) -> rl t = RTask i kd -> failing (at_ t) = Some e -> In (EEnd i (Some e)) tr;
  e_stored i e : In (EStored i e) tr -> In (EEnd i (Some e)) tr;
  e_err e : err (shared c) = Some e -> exists i, In (EStored i e) tr;
  e_clear t j e k : In t (ths c) -> at_ t = PClear j (Some e) k -> exists i, In (EStored i e) tr;
  e_waited j e : In (EWaited j (Some e)) tr -> exists i, In (EStored i e) tr }.
Lemma errs_start n mains : errs [] (start n mains).
Proof.
  split; cbn; intros; try tauto; try discriminate.
  - apply in_map_iff in H as (p & <- & _). discriminate.
  - apply in_map_iff in H as (p & <- & _). discriminate.
Qed.
Lemma In_snoc {A} (a : A) l o : In a (l ++ opt_list o) <-> In a l \/ o = Some a.
Proof. rewrite in_app_iff. destruct o; cbn; intuition congruence. Qed.
Lemma errs_step tr c i x e c' : errs tr c -> gstep c i x = Some (e, c') -> errs (tr ++ opt_list e) c'.
Proof.
  intros I H. apply gstep_inv in H as (Hd & t & s' & t' & new & Hn & Hl & ->).
  destruct c as [s l]. destruct I as [Et Es Ee Ec Ew]. cbn [shared ths] in *.
  pose proof (nth_error_In _ _ Hn) as Ht. pose proof (fun i kd e => Et t i kd e Ht) as Et0. pose proof (fun j e k => Ec t j e k Ht) as Ec0.
  split.
  - intros t0 i0 kd0 e0 Hin Hr Hf. apply In_snoc. cbn [ths] in Hin. apply in_upd_new in Hin as [->|[Hin|Hin]]; [|left; eauto|].
    + step_cases Hl; cbn [rl at_ failing] in *; try discriminate; first [left; refine (Et0 _ _ _ Hr _); congruence | right; congruence].
    + step_cases Hl; cbn in Hin; try tauto. destruct Hin as [<-|[]]. discriminate Hf.
  - intros i0 e0 Hin. apply In_snoc in Hin as [Hin|Hin]; [apply In_snoc; left; auto|]. subst e.
    destruct t as [r p]. destruct p; try match type of Hl with context [PUser ?q] => destruct q end; unfold lstep in Hl; cbn [rl at_] in *;
      repeat match type of Hl with context [match ?X with _ => _ end] => destruct X eqn:? end; try discriminate Hl.
    injection Hl as <- <- <- <- <-. apply In_snoc; left. eapply Et0; reflexivity.
  - intros e0 He. cbn [shared] in He. assert (Hold : err s = Some e0 -> exists i0, In (EStored i0 e0) (tr ++ opt_list e)).
    { intros H. apply Ee in H as (i0 & H). exists i0. apply In_snoc. auto. }
    step_cases Hl; simp_sh; auto; try discriminate. injection He as <-. eexists. apply In_snoc. right. reflexivity.
  - intros t0 j e0 k Hin Hp. assert (Hold : err s = Some e0 -> exists i0, In (EStored i0 e0) (tr ++ opt_list e)).
    { intros H. apply Ee in H as (i0 & H). exists i0. apply In_snoc. auto. }
    cbn [ths] in Hin. apply in_upd_new in Hin as [->|[Hin|Hin]].
    + step_cases Hl; cbn [at_] in Hp; try discriminate. injection Hp as _ Hp _. auto.
    + destruct (Ec _ _ _ _ Hin Hp) as (i0 & H). exists i0. apply In_snoc. auto.
    + step_cases Hl; cbn in Hin; try tauto. destruct Hin as [<-|[]]. discriminate Hp.
  - intros j e0 Hin. apply In_snoc in Hin as [Hin|Hin].
    + destruct (Ew _ _ Hin) as (i0 & H). exists i0. apply In_snoc. auto.
    + subst e. destruct t as [r p]. destruct p; try match type of Hl with context [PUser ?q] => destruct q end; unfold lstep in Hl; cbn [rl at_] in *;
        repeat match type of Hl with context [match ?X with _ => _ end] => destruct X eqn:? end; try discriminate Hl.
      injection Hl as <- <- -> <- <-. destruct (Ec0 _ _ _ eq_refl) as (i0 & H). exists i0. apply In_snoc. auto.
Qed.
Lemma errs_reach n mains tr c : exec (start n mains) tr c -> errs tr c.
Proof.
  intros H. remember (start n mains) as c0. induction H as [|c tr c1 i x e c2 H IH Hs]; subst; [apply errs_start|].
  eapply errs_step; eauto.
Qed.

(** *** after closing *)
Definition f_acc (i : nat) (t : thread) : nat :=
  match at_ t with
  | PAdd j _ _ _ | PSend j _ _ _ | PRUnlock true j _ _ _ | PGo j _ _ _ => b2n (j =? i)
  | _ => 0
  end.
Lemma acc_in i l : tot (f_acc i) l <= tot (f_in i) l.
Proof. apply tot_le. intros [r p]. unfold f_acc, f_in; cbn. destruct p; try lia. destruct acc; lia. Qed.
Lemma closed_phase j c tr c' : exec c tr c' -> closed (shared c) = true -> tot (f_acc j) (ths c) = 0 ->
  closed (shared c') = true /\ tot (f_acc j) (ths c') = 0 /\ tot (n_ret j true) tr = 0.
Proof.
  intros H Hc Ha. induction H as [|c tr c1 i x e c2 H IH Hs]; [auto|]. specialize (IH Hc Ha) as (A & B & C). clear Hc Ha.
  apply gstep_inv in Hs as (Hd & t & s' & t' & new & Hn & Hl & ->). destruct c1 as [s l]. cbn [shared ths] in *.
  pose proof (tot_ge (f_acc j) _ _ _ Hn) as G. rewrite !tot_app.
  step_cases Hl; try congruence; pose proof (fun t' => tot_upd (f_acc j) _ _ _ t' Hn) as U; cbn [f_acc at_ rl] in U, G; simp_sh; repeat split; auto;
    try (match goal with |- context [upd l i ?t'] => specialize (U t') end); unfold f_acc in *; cbn [at_ tot opt_list n_ret f_acc Bool.eqb b2n] in *; try lia;
    destruct (_ =? j); cbn in *; lia.
Qed.

(** *** an error once stored *)
Definition f_clrn (e : err_t) (t : thread) : nat := match at_ t with PClear _ r _ => match r with Some e' => b2n (negb (e' =? e)) | None => 1 end | _ => 0 end.
Lemma stored_phase e c tr c' : exec c tr c' -> closed (shared c) = true -> err (shared c) = Some e ->
  tot f_store (ths c) = 0 -> tot (f_clrn e) (ths c) = 0 -> tot m_waited tr = 0 ->
  closed (shared c') = true /\ err (shared c') = Some e /\ tot f_store (ths c') = 0 /\ tot (f_clrn e) (ths c') = 0.
Proof.
  intros H Hc He Hst Hcl Hw. induction H as [|c tr c1 i x e' c2 H IH Hs]; [auto|]. rewrite tot_app in Hw.
  specialize (IH Hc He Hst Hcl ltac:(lia)) as (A & B & C & D). clear Hc He Hst Hcl.
  apply gstep_inv in Hs as (Hd & t & s' & t' & new & Hn & Hl & ->). destruct c1 as [s l]. cbn [shared ths] in *.
  pose proof (tot_ge f_store _ _ _ Hn) as G. pose proof (tot_ge (f_clrn e) _ _ _ Hn) as G'. rewrite !tot_app.
  step_cases Hl; try congruence; simp_sh; pose proof (fun t' => tot_upd f_store _ _ _ t' Hn) as U; pose proof (fun t' => tot_upd (f_clrn e) _ _ _ t' Hn) as U';
    cbn [opt_list tot m_waited] in Hw; try lia;
    match goal with |- context [upd l i ?t'] => specialize (U t'); specialize (U' t') end; unfold f_store, f_clrn in *; cbn [at_ tot] in *; repeat split; auto; try congruence; try lia.
  rewrite B in *. rewrite Nat.eqb_refl in U'. cbn [negb b2n] in U'. lia.
Qed.

(** *** no crash *)
(** in no state do both a Wait and a RunTask of a main goroutine run *)
Definition calm (tr : list event) : Prop :=
  forall tr1 tr2, tr = tr1 ++ tr2 -> tot m_wait tr1 = tot m_waited tr1 \/ tot (m_call false) tr1 = tot (m_ret false) tr1.
Lemma calm_app tr1 tr2 : calm (tr1 ++ tr2) -> calm tr1.
Proof. intros H a b E. apply (H a (b ++ tr2)). rewrite E, app_assoc. reflexivity. Qed.
Definition f_wake (t : thread) : nat := match at_ t with PWake _ _ => 1 | _ => 0 end.
Lemma f_slp_wt l : tot f_slp l + tot f_wake l <= tot f_wt l.
Proof. induction l as [|[r p] l IH]; cbn; [lia|]. unfold f_slp, f_wake, f_wt in *; cbn. destruct p; lia. Qed.
Lemma rt_false_pos t l i : nth_error l i = Some t -> tot (f_rt false) l = 0 -> f_rt false t = 0.
Proof. intros H Z. pose proof (tot_ge (f_rt false) _ _ _ H). lia. Qed.
(** crashes the wait group cannot be blamed for never happen *)
Lemma only_misuse n mains tr c : exec (start n mains) tr c ->
  dead (shared c) = None \/ dead (shared c) = Some AddWithWait \/ dead (shared c) = Some ReusedWait.
Proof.
  intros H. remember (start n mains) as c0 eqn:E0. induction H as [|c tr c1 i x e c2 H IH Hs]; subst; [auto|].
  pose proof (inv_reach _ _ _ _ H) as [I1 I2 I3]. apply gstep_inv in Hs as (Hd & t & s' & t' & new & Hn & Hl & ->). clear IH.
  destruct c1 as [s l]. cbn [shared ths] in *.
  destruct I1 as [Ib It Ic Icn Ir Ip Ih Is]. destruct I2 as [Ie Ipa Icc Icl Ic0]. cbn [shared ths] in *.
  pose proof (tot_ge f_bad _ _ _ Hn) as G0. pose proof (tot_ge f_pass _ _ _ Hn) as G1. pose proof (tot_ge f_closing _ _ _ Hn) as G2. pose proof (tot_ge f_cnt _ _ _ Hn) as G3.
  step_cases Hl; simp_sh; auto; exfalso; simp_f; try (destruct r; simp_f); try lia.
Qed.
Lemma calm_alive n mains tr c : exec (start n mains) tr c -> calm tr ->
  dead (shared c) = None /\ (0 < sema (shared c) + tot f_wake (ths c) -> cnt (shared c) = 0 /\ wts (shared c) = 0).
Proof.
  intros H. remember (start n mains) as c0 eqn:E0. induction H as [|c tr c1 i x e c2 H IH Hs]; subst; intros Hcalm.
  - split; [reflexivity|]. auto.
  - specialize (IH eq_refl (calm_app _ _ Hcalm)) as (_ & Hq).
    pose proof (only_misuse _ _ _ _ (exec_step _ _ _ _ _ _ _ H Hs)) as Hm.
    pose proof (inv_reach _ _ _ _ H) as [I1 I2 I3]. pose proof (flow_reach _ _ _ _ H) as F.
    pose proof (w_call _ _ F false) as Fc. pose proof (w_wait _ _ F) as Fw.
    pose proof (Hcalm tr (opt_list e) eq_refl) as Hc. clear Hcalm F.
    apply gstep_inv in Hs as (Hd & t & s' & t' & new & Hn & Hl & ->).
    destruct c1 as [s l]. cbn [shared ths] in *.
    destruct I1 as [Ib It Ic Icn Ir Ip Ih Is]. destruct I3 as [J1 J2 J3]. clear I2. cbn [shared ths] in *.
    pose proof (f_slp_wt l) as Hs.
    pose proof (tot_ge (f_rt false) _ _ _ Hn) as G1. pose proof (tot_ge f_cnt _ _ _ Hn) as G3.
    pose proof (tot_ge f_wake _ _ _ Hn) as G4. pose proof (tot_ge f_ntf _ _ _ Hn) as G5. pose proof (tot_ge f_bad _ _ _ Hn) as G6. pose proof (tot_ge f_slp _ _ _ Hn) as G7.
    rewrite tot_app.
    pose proof (fun t' => tot_upd f_wake _ _ _ t' Hn) as U. pose proof (fun t' => tot_upd f_ntfw _ _ _ t' Hn) as U2. pose proof (fun t' => tot_upd f_ntf _ _ _ t' Hn) as U3.
    step_cases Hl; simp_sh; boolnorm;
      match goal with |- context [upd l i ?t'] => specialize (U t') end; try destruct r; simp_f; simp_m; cbn [f_wake at_ tot Nat.add] in *; (split; [auto|]); try lia.
    all: try (destruct Hm as [Hm|[Hm|Hm]]; discriminate Hm).
    exfalso. match type of Hn with nth_error _ _ = Some (Th ?r _) => specialize (U3 (Th r PEnd)); specialize (U2 (Th r PEnd)) end.
    assert (Z : forall l0, tot f_ntf l0 = 0 -> tot f_ntfw l0 = 0).
    { clear. intros l0. induction l0 as [|[r p] l0 IH]; cbn; [auto|]. intros H. rewrite IH by lia. destruct p; unfold f_ntf in H; cbn in H |- *; try reflexivity; lia. }
    simp_f. specialize (Z (upd l i (Th (RTask i0 kd) PEnd))). lia.
Qed.

(** *** errors are reported once *)
(** at most one Wait at a time *)
Definition one_waiter (tr : list event) : Prop := forall tr1 tr2, tr = tr1 ++ tr2 -> tot m_wait tr1 <= tot m_waited tr1 + 1.
Lemma clr_wt l : tot f_clr l <= tot f_wt l.
Proof. apply tot_le. intros [r p]. unfold f_clr, f_wt; cbn. destruct p; try lia. destruct e; lia. Qed.
Lemma one_report n mains tr c : exec (start n mains) tr c -> one_waiter tr ->
  some_n (err (shared c)) + tot m_werr tr <= tot m_stored tr /\ tot f_clr (ths c) + tot m_werr tr <= tot m_stored tr.
Proof.
  intros H. remember (start n mains) as c0 eqn:E0. induction H as [|c tr c1 i x e c2 H IH Hs]; subst; intros Hone.
  - assert (Z : tot f_clr (ths (start n mains)) = 0).
    { apply tot_zero. intros a Ha. apply in_map_iff in Ha as (p & <- & _). reflexivity. }
    rewrite Z. cbn. lia.
  - specialize (IH eq_refl (fun a b E => Hone a (b ++ opt_list e) ltac:(rewrite E, app_assoc; reflexivity))) as (A & B).
    pose proof (Hone tr (opt_list e) eq_refl) as Ho. pose proof (w_wait _ _ (flow_reach _ _ _ _ H)) as Fw.
    apply gstep_inv in Hs as (Hd & t & s' & t' & new & Hn & Hl & ->).
    destruct c1 as [s l]. cbn [shared ths] in *. pose proof (clr_wt l) as Cw. rewrite !tot_app.
    pose proof (fun t' => tot_upd f_clr _ _ _ t' Hn) as U. pose proof (fun t' => tot_upd f_wt _ _ _ t' Hn) as U2. pose proof (fun t' => clr_wt (upd l i t')) as Cw'.
    step_cases Hl; simp_sh;
      match goal with |- context [upd l i ?t'] => specialize (U t'); specialize (U2 t'); specialize (Cw' t') end; simp_m; try lia.
    destruct (err s); cbn in *; lia.
Qed.
