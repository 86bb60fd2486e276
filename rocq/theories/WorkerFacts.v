(** WorkerFacts: invariants of the worker machine. *)
From Coq Require Import List Bool Arith Lia ZifyBool.
Import ListNotations.
From Verif Require Import WorkerModel.

(** *** sums *)
Fixpoint tot {A} (f : A -> nat) (l : list A) : nat := match l with [] => 0 | a :: r => f a + tot f r end.
Lemma tot_app {A} (f : A -> nat) a b : tot f (a ++ b) = tot f a + tot f b.
Proof. induction a; cbn; lia. Qed.
Lemma tot_upd {A} (f : A -> nat) l i t t' : nth_error l i = Some t -> tot f (upd l i t') + f t = tot f l + f t'.
Proof. revert i; induction l; intros [|i] H; cbn in *; try discriminate; [injection H as ->; lia|]. specialize (IHl i H). lia. Qed.
Lemma tot_ge {A} (f : A -> nat) l i t : nth_error l i = Some t -> f t <= tot f l.
Proof. revert i; induction l; intros [|i] H; cbn in *; try discriminate; [injection H as ->; lia|]. specialize (IHl i H). lia. Qed.
Lemma tot_pos {A} (f : A -> nat) l : 0 < tot f l -> exists i t, nth_error l i = Some t /\ 0 < f t.
Proof.
  induction l as [|a l IH]; cbn; intros H; [lia|]. destruct (f a) eqn:E.
  - destruct IH as (i & t & Hi & Ht); [lia|]. exists (S i), t. auto.
  - exists 0, a. split; [reflexivity|lia].
Qed.
Lemma tot_le {A} (f g : A -> nat) l : (forall a, f a <= g a) -> tot f l <= tot g l.
Proof. intros H; induction l; cbn; [lia|]. specialize (H a). lia. Qed.
Lemma tot_zero {A} (f : A -> nat) l : (forall a, In a l -> f a = 0) -> tot f l = 0.
Proof. induction l; cbn; intros H; [reflexivity|]. rewrite (H a), IHl; auto. Qed.
Lemma tot_in {A} (f : A -> nat) l a : In a l -> f a <= tot f l.
Proof. induction l; cbn; [tauto|]. intros [->|H]; [lia|]. specialize (IHl H). lia. Qed.
Lemma tot_pos_in {A} (f : A -> nat) l : 0 < tot f l -> exists a, In a l /\ 0 < f a.
Proof. intros H. apply tot_pos in H as (i & t & H & H'). exists t. split; [eapply nth_error_In; eauto|exact H']. Qed.

(** *** what the goroutines hold *)
Definition b2n (b : bool) : nat := if b then 1 else 0.
(** in the task's function *)
Definition body_pc (p : pc) : bool :=
  match p with
  | PUser _ | PRLock _ _ _ _ | PCheck _ _ _ _ | PAdd _ _ _ _ | PSend _ _ _ _ | PRUnlock _ _ _ _ _ | PGo _ _ _ _
  | PWait _ _ | PSleep _ _ | PWake _ _ | PRead _ _ | PClear _ _ _
  | PLock _ _ | PPend _ _ | PClose1 _ _ | PClose2 _ _ | PUnlock _ _ => true
  | _ => false
  end.
Definition pre_recv (p : pc) : bool := match p with PStart _ | PRecv _ | PHung => true | _ => body_pc p end.
Definition pre_done (p : pc) : bool := match p with PDone _ => true | _ => pre_recv p end.
Definition f_bad (t : thread) : nat := match rl t with RMain => match at_ t with PEnd => 0 | p => b2n (negb (body_pc p)) end | RTask _ _ => 0 end.
Definition f_tok (t : thread) : nat :=
  (if is_task (rl t) then b2n (pre_recv (at_ t)) else 0) + match at_ t with PRUnlock true _ _ _ _ | PGo _ _ _ _ => 1 | _ => 0 end.
Definition f_cnt (t : thread) : nat :=
  (if is_task (rl t) then b2n (pre_done (at_ t)) else 0) + match at_ t with PSend _ _ _ _ | PRUnlock true _ _ _ _ | PGo _ _ _ _ => 1 | _ => 0 end.
Definition f_rd (t : thread) : nat := match at_ t with PCheck _ _ _ _ | PAdd _ _ _ _ | PSend _ _ _ _ | PRUnlock _ _ _ _ _ => 1 | _ => 0 end.
Definition f_pass (t : thread) : nat := match at_ t with PAdd _ _ _ _ | PSend _ _ _ _ | PRUnlock true _ _ _ _ => 1 | _ => 0 end.
Definition f_pend (t : thread) : nat := match at_ t with PPend _ _ | PEPend _ => 1 | _ => 0 end.
Definition f_held (t : thread) : nat := match at_ t with PClose1 _ _ | PClose2 _ _ | PUnlock _ _ | PEClose1 _ | PEClose2 _ | PEStore _ | PEUnlock => 1 | _ => 0 end.
Definition f_closing (t : thread) : nat := match at_ t with PClose2 _ _ | PEClose2 _ => 1 | _ => 0 end.
Definition f_unl (t : thread) : nat := match at_ t with PUnlock _ _ | PEStore _ | PEUnlock => 1 | _ => 0 end.
Definition f_slp (t : thread) : nat := match at_ t with PSleep _ _ => 1 | _ => 0 end.
Definition f_ntf (t : thread) : nat := match at_ t with PNotify _ _ => 1 | _ => 0 end.
Definition f_run (t : thread) : nat := if is_task (rl t) then b2n (body_pc (at_ t)) else 0.

Ltac cs_fold t := eval cbn [rl at_ is_task body_pc pre_recv pre_done b2n negb f_bad f_tok f_cnt f_rd f_pass f_pend f_held f_closing f_unl f_slp f_ntf f_run] in t.

Definition f_ntfw (t : thread) : nat := match at_ t with PNotify w _ => w | _ => 0 end.
Definition wp (w : wstate) : nat := match w with WPend => 1 | _ => 0 end.
Definition wh (w : wstate) : nat := match w with WHeld => 1 | _ => 0 end.
Record inv1 (c : conf) : Prop := Inv1 {
  i_bad : tot f_bad (ths c) = 0;
  i_tok : buf (shared c) = tot f_tok (ths c);
  i_cap : buf (shared c) <= cap (shared c);
  i_cnt : cnt (shared c) = tot f_cnt (ths c);
  i_rd : rds (shared c) = tot f_rd (ths c);
  i_pend : tot f_pend (ths c) = wp (ws (shared c));
  i_held : tot f_held (ths c) = wh (ws (shared c));
  i_slp : tot f_slp (ths c) = wts (shared c) + sema (shared c) }.
Record inv2 (c : conf) : Prop := Inv2 {
  i_excl : wh (ws (shared c)) = 1 -> rds (shared c) = 0;
  i_pass : closed (shared c) = true -> tot f_pass (ths c) = 0;
  i_chcl : chclosed (shared c) = true -> closed (shared c) = true;
  i_closing : closed (shared c) = true -> chclosed (shared c) = true \/ tot f_closing (ths c) = 1;
  i_closing0 : 0 < tot f_closing (ths c) -> chclosed (shared c) = false /\ closed (shared c) = true }.
Record inv3 (c : conf) : Prop := Inv3 {
  i_ntf1 : 0 < tot f_ntf (ths c) -> tot f_ntf (ths c) = 1 /\ cnt (shared c) = 0 /\ 0 < wts (shared c) /\ tot f_ntfw (ths c) = wts (shared c);
  i_ntf2 : cnt (shared c) = 0 -> 0 < wts (shared c) -> tot f_ntf (ths c) = 1;
  i_ntf0 : tot f_ntf (ths c) = 0 -> tot f_ntfw (ths c) = 0 }.
Record inv (c : conf) : Prop := Inv { i_1 : inv1 c; i_2 : inv2 c; i_3 : inv3 c }.
Lemma wpwh w : wp w + wh w <= 1.
Proof. destruct w; cbn; lia. Qed.
Lemma pass_rd l : tot f_pass l <= tot f_rd l.
Proof. apply tot_le. intros [r p]. unfold f_pass, f_rd; cbn. destruct p; try lia. destruct acc; lia. Qed.
Lemma closing_held l : tot f_closing l <= tot f_held l.
Proof. apply tot_le. intros [r p]. unfold f_closing, f_held; cbn. destruct p; lia. Qed.

Lemma gstep_inv c i x e c' : gstep c i x = Some (e, c') ->
  dead (shared c) = None /\ exists t s' t' new, nth_error (ths c) i = Some t /\ lstep (shared c) t x = Some (s', e, t', new) /\ c' = Conf s' (upd (ths c) i t' ++ new).
Proof.
  unfold gstep. destruct (dead (shared c)); [discriminate|]. destruct (nth_error (ths c) i) as [t|] eqn:Et; [|discriminate].
  destruct (lstep (shared c) t x) as [[[[s' e'] t'] new]|] eqn:El; [|discriminate]. intros H; injection H as <- <-.
  split; [reflexivity|]. exists t, s', t', new. auto.
Qed.

(** all the cases of a step: hypotheses [Hl : lstep s t x = Some (s', e, t', new)] *)
Ltac step_cases Hl :=
  match type of Hl with lstep ?s ?t ?x = Some (?s', ?e, ?t', ?new) =>
    destruct t as [r p]; destruct p; try match type of Hl with context [PUser ?q] => destruct q end;
    unfold lstep in Hl; cbn [rl at_] in Hl;
    repeat match type of Hl with
    | context [match ?X with _ => _ end] => let E := fresh "D" in destruct X eqn:E
    end; try discriminate Hl;
    injection Hl as <- <- <- <-
  end.
Ltac boolnorm :=
  repeat match goal with
  | H : (_ && _)%bool = true |- _ => apply andb_true_iff in H as [? ?]
  | H : (_ && _)%bool = false |- _ => apply andb_false_iff in H
  | H : negb _ = true |- _ => apply negb_true_iff in H
  | H : negb _ = false |- _ => apply negb_false_iff in H
  | H : (_ =? _) = true |- _ => apply Nat.eqb_eq in H
  | H : (_ =? _) = false |- _ => apply Nat.eqb_neq in H
  | H : (_ <? _) = true |- _ => apply Nat.ltb_lt in H
  | H : (_ <? _) = false |- _ => apply Nat.ltb_ge in H
  end.
Ltac sums f Hn :=
  match type of Hn with nth_error ?l ?i = Some ?t =>
    match goal with |- context [upd l i ?t'] =>
      let H := fresh "S" in pose proof (tot_upd f l i t t' Hn) as H;
      let G := fresh "G" in pose proof (tot_ge f l i t Hn) as G
    end end.
Ltac simp_sh := cbn [shared ths cap buf chclosed closed err rds ws cnt wts sema ntask nwait nclose dead set_rds set_ws set_wg set_buf set_chclosed set_closed set_err set_names die] in *.
Ltac simp_f := cbn [rl at_ is_task body_pc pre_recv pre_done b2n negb f_bad f_tok f_cnt f_rd f_pass f_pend f_held f_closing f_unl f_slp f_ntf f_run f_ntfw wp wh tot Nat.add] in *.

Lemma in_upd {A} l i (a b : A) : In b (upd l i a) -> b = a \/ In b l.
Proof. revert i; induction l; intros [|i]; cbn; intros H; auto. - destruct H; auto. - destruct H as [H|H]; auto. apply IHl in H. tauto. Qed.
Lemma in_upd_new {A} l i (a b : A) new : In b (upd l i a ++ new) -> b = a \/ In b l \/ In b new.
Proof. intros H; apply in_app_iff in H as [H|H]; auto. apply in_upd in H. tauto. Qed.

Lemma inv_start n mains : inv (start n mains).
Proof.
  assert (Z : forall f, (forall p, f (Th RMain (PUser p)) = 0) -> tot f (ths (start n mains)) = 0).
  { intros f Hf. apply tot_zero. intros a Ha. apply in_map_iff in Ha as (p & <- & _). apply Hf. }
  repeat split; rewrite ?Z by reflexivity; cbn; intros; (reflexivity || discriminate || rewrite ?Z in * by reflexivity; lia).
Qed.

Ltac use_ws := try match goal with H : ws _ = _ |- _ => rewrite H in * end.
Lemma inv1_step c i x e c' : inv1 c -> gstep c i x = Some (e, c') -> inv1 c'.
Proof.
  intros I H. apply gstep_inv in H as (Hd & t & s' & t' & new & Hn & Hl & ->).
  destruct c as [s l]. destruct I. cbn [shared ths] in *. pose proof (wpwh (ws s)).
  step_cases Hl; boolnorm; use_ws; try (destruct r; [|]; simp_f; simp_sh; discriminate).
  all: split; simp_sh; rewrite ?tot_app.
  all: match goal with |- context [tot ?f (upd _ _ _)] => sums f Hn | _ => idtac end.
  all: try (sums f_pend Hn; sums f_held Hn).
  all: try (destruct r; simp_f; use_ws; simp_f; lia).
  all: pose proof (tot_ge f_bad _ _ _ Hn) as Gb; destruct r; simp_f; lia.
Qed.
Lemma inv2_step c i x e c' : inv1 c -> inv2 c -> gstep c i x = Some (e, c') -> inv2 c'.
Proof.
  intros I1 I H. apply gstep_inv in H as (Hd & t & s' & t' & new & Hn & Hl & ->).
  destruct c as [s l]. destruct I as [Ie Ip Ic Icl Ic0]. cbn [shared ths] in *.
  pose proof (i_rd _ I1) as Ird. pose proof (i_held _ I1) as Ihd. cbn [shared ths] in *. clear I1. pose proof (pass_rd l) as Pr. pose proof (closing_held l) as Ch. pose proof (wpwh (ws s)) as Hw.
  pose proof (tot_ge f_rd _ _ _ Hn) as G1. pose proof (tot_ge f_held _ _ _ Hn) as G2. pose proof (tot_ge f_closing _ _ _ Hn) as G3. pose proof (tot_ge f_pass _ _ _ Hn) as G4.
  step_cases Hl; boolnorm; use_ws.
  all: sums f_pass Hn; sums f_closing Hn.
  all: simp_f; split; simp_sh; rewrite ?tot_app; use_ws; simp_f; try assumption; try discriminate; try lia.
Qed.
Lemma inv3_step c i x e c' : inv1 c -> inv3 c -> gstep c i x = Some (e, c') -> inv3 c'.
Proof.
  intros I1 I H. apply gstep_inv in H as (Hd & t & s' & t' & new & Hn & Hl & ->).
  destruct c as [s l]. destruct I as [I1a I2 I0]. cbn [shared ths] in *.
  pose proof (i_cnt _ I1) as Ict. cbn [shared ths] in *. clear I1.
  pose proof (tot_ge f_cnt _ _ _ Hn) as G1.
  step_cases Hl; boolnorm.
  all: sums f_ntf Hn; sums f_ntfw Hn.
  all: simp_f; split; simp_sh; rewrite ?tot_app; simp_f; try lia.
Qed.
Lemma inv_step c i x e c' : inv c -> gstep c i x = Some (e, c') -> inv c'.
Proof. intros [A B C] H. split; [eapply inv1_step|eapply inv2_step|eapply inv3_step]; eauto. Qed.
Lemma inv_exec c tr c' : exec c tr c' -> inv c -> inv c'.
Proof. intros H; induction H as [|c tr c1 i x e c2 H IH Hs]; intros I; [exact I|]. exact (inv_step _ _ _ _ _ (IH I) Hs). Qed.
Lemma inv_reach n mains tr c : exec (start n mains) tr c -> inv c.
Proof. intros H. eapply inv_exec; [exact H|apply inv_start]. Qed.
Lemma exec_app c tr1 c1 tr2 c2 : exec c tr1 c1 -> exec c1 tr2 c2 -> exec c (tr1 ++ tr2) c2.
Proof. intros H1 H2. induction H2; [rewrite app_nil_r; exact H1|]. rewrite app_assoc. eapply exec_step; eauto. Qed.
(** cutting an execution where its trace is cut *)
Lemma exec_split c tr c2 : exec c tr c2 -> forall tr1 tr2, tr = tr1 ++ tr2 -> exists c1, exec c tr1 c1 /\ exec c1 tr2 c2.
Proof.
  intros H; induction H as [c|c tr c1 i x e c2 H IH Hs]; intros tr1 tr2 E.
  - symmetry in E; apply app_eq_nil in E as [-> ->]. exists c. split; constructor.
  - destruct e as [e|]; cbn [opt_list] in E.
    + destruct tr2 as [|a tr2] using rev_ind.
      * rewrite app_nil_r in E. subst tr1. exists c2. split; [|constructor]. apply (exec_step _ _ _ _ _ (Some e) _ H Hs).
      * clear IHtr2. rewrite app_assoc in E. apply app_inj_tail in E as [E <-]. destruct (IH _ _ E) as (c' & A & B). exists c'. split; [exact A|].
        apply (exec_step _ _ _ _ _ (Some e) _ B Hs).
    + rewrite app_nil_r in E. destruct (IH _ _ E) as (c' & A & B). exists c'. split; [exact A|]. rewrite <- (app_nil_r tr2). apply (exec_step _ _ _ _ _ None _ B Hs).
Qed.
(** ... and the step that emitted an event *)
Lemma exec_at c tr c2 : exec c tr c2 -> forall tr1 e tr2, tr = tr1 ++ e :: tr2 ->
  exists c1 i x c1', exec c tr1 c1 /\ gstep c1 i x = Some (Some e, c1') /\ exec c1' tr2 c2.
Proof.
  intros H; induction H as [c|c tr c1 i x e c2 H IH Hs]; intros tr1 e' tr2 E.
  - destruct tr1; discriminate.
  - destruct e as [e|]; cbn [opt_list] in E.
    + destruct tr2 as [|a tr2] using rev_ind.
      * apply app_inj_tail in E as [-> ->]. exists c1, i, x, c2. repeat split; auto. constructor.
      * clear IHtr2. rewrite app_comm_cons, app_assoc in E. apply app_inj_tail in E as [E <-]. destruct (IH _ _ _ E) as (c' & i' & x' & c'' & A & B & C).
        exists c', i', x', c''. repeat split; auto. apply (exec_step _ _ _ _ _ (Some e) _ C Hs).
    + rewrite app_nil_r in E. destruct (IH _ _ _ E) as (c' & i' & x' & c'' & A & B & C). exists c', i', x', c''. repeat split; auto.
      rewrite <- (app_nil_r tr2). apply (exec_step _ _ _ _ _ None _ C Hs).
Qed.

