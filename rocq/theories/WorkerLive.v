(** WorkerLive: termination and deadlocks of the worker machine. *)
From Coq Require Import List Bool Arith Lia ZifyBool Permutation.
Import ListNotations.
From Verif Require Import WorkerModel WorkerFacts WorkerLife.

(** programs that do a finite number of things, whatever is answered to them *)
Inductive finite : prog -> Prop :=
| finite_ret e : finite (Ret e)
| finite_ask k : (forall x, finite (k x)) -> finite (Ask k)
| finite_submit kd body nx : finite body -> finite nx -> finite (Submit kd body nx)
| finite_wait k : (forall r, finite (k r)) -> finite (WaitFor k)
| finite_close nx : finite nx -> finite (CloseIt nx).

(** *** multisets of goroutines *)
Section Multiset.
  Context {A : Type} (lt : A -> A -> Prop).
  Definition mlt (l' l : list A) : Prop :=
    exists t ys rest, Permutation l (t :: rest) /\ Permutation l' (ys ++ rest) /\ (forall y, In y ys -> lt y t).
  Lemma acc_perm l l' : Permutation l l' -> Acc mlt l -> Acc mlt l'.
  Proof.
    intros P [H]. constructor. intros m (t & ys & rest & P1 & P2 & L). apply H. exists t, ys, rest.
    split; [|auto]. etransitivity; eassumption.
  Qed.
  Lemma acc_nil : Acc mlt [].
  Proof. constructor. intros m (t & ys & rest & P & _). apply Permutation_nil_cons in P. destruct P. Qed.
  Lemma acc_cons a : Acc lt a -> forall l, Acc mlt l -> Acc mlt (a :: l).
  Proof.
    induction 1 as [a _ IHa]. induction 1 as [l Hl IHl].
    constructor. intros m (t & ys & rest & P1 & P2 & L).
    assert (Hin : In a (t :: rest)) by (apply (Permutation_in a P1); left; reflexivity).
    destruct Hin as [<-|Hin].
    - apply Permutation_cons_inv in P1. apply (acc_perm (ys ++ rest)); [symmetry; exact P2|].
      clear P2 m. assert (Hr : Acc mlt rest) by (apply (acc_perm l); [exact P1|constructor; exact Hl]).
      clear - IHa L Hr. induction ys as [|y ys IH]; cbn; [exact Hr|]. apply IHa; [apply L; left; reflexivity|]. apply IH. intros z Hz. apply L. right. exact Hz.
    - apply in_split in Hin as (r1 & r2 & ->).
      assert (P3 : Permutation l (t :: r1 ++ r2)).
      { apply (Permutation_cons_inv (a := a)). etransitivity; [exact P1|]. change (t :: r1 ++ a :: r2) with ((t :: r1) ++ a :: r2). symmetry. apply (Permutation_middle (t :: r1)). }
      apply (acc_perm (a :: ys ++ r1 ++ r2)).
      + symmetry. etransitivity; [exact P2|]. rewrite !app_assoc. symmetry. apply Permutation_middle.
      + apply IHl. exists t, ys, (r1 ++ r2). auto.
  Qed.
  Lemma acc_all l : (forall a, In a l -> Acc lt a) -> Acc mlt l.
  Proof. induction l as [|a l IH]; intros H; [apply acc_nil|]. apply acc_cons; [apply H; left; reflexivity|]. apply IH. intros b Hb. apply H. right. exact Hb. Qed.
End Multiset.

(** a goroutine after a step, and those it started *)
Definition tlt (y t : thread) : Prop :=
  exists s x s' e t' new, lstep s t x = Some (s', e, t', new) /\ dead s = None /\ dead s' = None /\ (y = t' \/ In y new).
Ltac acc_step :=
  constructor; let y := fresh "y" in let s := fresh "s" in let x := fresh "x" in let s' := fresh "s'" in let e := fresh "e" in let t' := fresh "t'" in let new := fresh "new" in
  let Hl := fresh "Hl" in let Hd := fresh "Hd" in let Hd' := fresh "Hd'" in let Hy := fresh "Hy" in intros y (s & x & s' & e & t' & new & Hl & Hd & Hd' & Hy);
  unfold lstep in Hl; cbn [rl at_] in Hl;
  repeat match type of Hl with context [match ?X with _ => _ end] => destruct X eqn:? end; try discriminate Hl;
  injection Hl as <- <- <- <-; cbn [dead die] in Hd'; try discriminate Hd'; (destruct Hy as [->|Hy]; [|cbn in Hy; try tauto; destruct Hy as [<-|[]]]).
Lemma acc_end r : Acc tlt (Th r PEnd).
Proof. acc_step. Qed.
Lemma acc_hung r : Acc tlt (Th r PHung).
Proof. acc_step. Qed.
Lemma acc_eunlock r : Acc tlt (Th r PEUnlock).
Proof. acc_step; apply acc_end. Qed.
Lemma acc_elock r e : Acc tlt (Th r (PELock e)).
Proof. acc_step. acc_step. acc_step; [apply acc_eunlock|]. acc_step. acc_step. apply acc_eunlock. Qed.
Lemma acc_notify r w e : Acc tlt (Th r (PNotify w e)).
Proof. acc_step; try apply acc_elock; apply acc_end. Qed.
Lemma acc_recv r e : Acc tlt (Th r (PRecv e)).
Proof. assert (H : Acc tlt (Th r (PDone e))). { acc_step; try apply acc_elock; try apply acc_end. apply acc_notify. } acc_step; exact H. Qed.
Lemma acc_user p : finite p -> forall r, Acc tlt (Th r (PUser p)).
Proof.
  induction 1 as [e|k _ IH|kd body nx _ IHb _ IHn|k _ IH|nx _ IH]; intros r.
  - acc_step; [apply acc_end|apply acc_recv].
  - acc_step. apply IH.
  - assert (Hst : forall r, Acc tlt (Th r (PStart body))). { intros r0. acc_step; [| |apply acc_hung]; apply IHb. }
    assert (Hgo : forall i, Acc tlt (Th r (PGo i kd body nx))). { intros i. acc_step; [apply IHn|]. apply Hst. }
    assert (Hu : forall b i, Acc tlt (Th r (PRUnlock b i kd body nx))). { intros b i. acc_step; [apply Hgo|apply IHn]. }
    acc_step. acc_step. acc_step; [apply Hu|]. acc_step. acc_step. apply Hu.
  - assert (Hr : forall j, Acc tlt (Th r (PRead j k))). { intros j. acc_step. acc_step. apply IH. }
    acc_step. acc_step; [apply Hr|]. acc_step. acc_step. apply Hr.
  - assert (Hu : forall j, Acc tlt (Th r (PUnlock j nx))). { intros j. acc_step. apply IH. }
    acc_step. acc_step. acc_step. acc_step; [apply Hu|]. acc_step. apply Hu.
Qed.

Definition next (c' c : conf) : Prop := exists i x e, gstep c i x = Some (e, c').
Lemma upd_perm {A} (l : list A) i t t' : nth_error l i = Some t -> exists rest, Permutation l (t :: rest) /\ Permutation (upd l i t') (t' :: rest).
Proof.
  revert i; induction l as [|a l IH]; intros [|i] H; try discriminate; cbn in *.
  - injection H as ->. exists l. split; reflexivity.
  - apply IH in H as (rest & P & Q). exists (a :: rest). split.
    + rewrite P. apply perm_swap.
    + rewrite Q. apply perm_swap.
Qed.
Lemma next_acc c : Acc (mlt tlt) (ths c) -> Acc next c.
Proof.
  intros H. remember (ths c) as l eqn:E. revert c E. induction H as [l _ IH]. intros c ->.
  constructor. intros c' (i & x & e & Hs). pose proof Hs as Hs0.
  apply gstep_inv in Hs as (Hd & t & s' & t' & new & Hn & Hl & Ec).
  destruct (dead (shared c')) eqn:Ed.
  - constructor. intros c'' (i' & x' & e' & Hs'). apply gstep_inv in Hs' as (Hd' & _). congruence.
  - subst c'. cbn [shared] in Ed. apply (IH _) with (2 := eq_refl). cbn [ths]. destruct (upd_perm _ _ _ t' Hn) as (rest & P & Q).
    exists t, (t' :: new), rest. split; [exact P|]. split.
    + rewrite Q. cbn. constructor. apply Permutation_app_comm.
    + intros y Hy. exists (shared c), x, s', e, t', new. repeat split; auto. destruct Hy; auto.
Qed.
Lemma start_acc n mains : Forall finite mains -> Acc next (start n mains).
Proof.
  intros H. apply next_acc, acc_all. intros a Ha. apply in_map_iff in Ha as (p & <- & Hp). apply acc_user. rewrite Forall_forall in H. auto.
Qed.

(** *** deadlocks *)
(** main goroutines do as they like; tasks do not wait for the worker or close
    it, submit only if [nest], and every task is a function *)
Inductive tame (nest : bool) : bool -> prog -> Prop :=
| tame_ret b e : tame nest b (Ret e)
| tame_ask b k : (forall x, tame nest b (k x)) -> tame nest b (Ask k)
| tame_submit b kd body nx : kd <> KOther -> (b = true -> nest = true) -> tame nest true body -> tame nest b nx -> tame nest b (Submit kd body nx)
| tame_wait k : (forall r, tame nest false (k r)) -> tame nest false (WaitFor k)
| tame_close nx : tame nest false nx -> tame nest false (CloseIt nx).
Lemma tame_finite nest b p : tame nest b p -> finite p.
Proof. induction 1; constructor; auto. Qed.
Definition okpc (nest b : bool) (p : pc) : Prop :=
  match p with
  | PUser p => tame nest b p
  | PRLock _ kd body nx | PCheck _ kd body nx | PAdd _ kd body nx | PSend _ kd body nx | PRUnlock _ _ kd body nx | PGo _ kd body nx =>
    kd <> KOther /\ (b = true -> nest = true) /\ tame nest true body /\ tame nest b nx
  | PWait _ k | PSleep _ k | PWake _ k | PRead _ k | PClear _ _ k => b = false /\ (forall r, tame nest false (k r))
  | PLock _ nx | PPend _ nx | PClose1 _ nx | PClose2 _ nx | PUnlock _ nx => b = false /\ tame nest false nx
  | PStart body => b = true /\ tame nest true body
  | PHung => False
  | _ => True
  end.
Definition okth (nest : bool) (t : thread) : Prop :=
  okpc nest (is_task (rl t)) (at_ t) /\ match rl t with RTask _ KOther => False | _ => True end.
Lemma okth_step nest c i x e c' : Forall (okth nest) (ths c) -> gstep c i x = Some (e, c') -> Forall (okth nest) (ths c').
Proof.
  intros Ho H. apply gstep_inv in H as (Hd & t & s' & t' & new & Hn & Hl & ->). cbn [ths].
  assert (Hok : okth nest t) by (rewrite Forall_forall in Ho; apply Ho; eapply nth_error_In; eauto).
  assert (Hnew : okth nest t' /\ Forall (okth nest) new).
  { destruct Hok as [Hp Hr]. step_cases Hl; cbn [rl at_ okpc is_task] in *;
      try (inversion Hp; subst; clear Hp); repeat match goal with H : _ /\ _ |- _ => destruct H | H : False |- _ => destruct H end;
      (split; [split; cbn [rl at_ okpc is_task]; auto|auto]); try discriminate; try tauto.
    all: try (repeat split; auto; fail).
    - constructor; [|constructor]. split; cbn; [auto|]. destruct kd; auto.
    - match goal with H : is_task r = false |- _ => rewrite H end. auto.
    - match goal with H : is_task r = false |- _ => rewrite H end. auto. }
  destruct Hnew as [Hn1 Hn2]. apply Forall_app. split; [|exact Hn2].
  apply Forall_forall. intros y Hy. apply in_upd in Hy as [->|Hy]; [exact Hn1|]. rewrite Forall_forall in Ho. auto.
Qed.
Lemma okth_reach nest n mains tr c : Forall (tame nest false) mains -> exec (start n mains) tr c -> Forall (okth nest) (ths c).
Proof.
  intros Hm H. remember (start n mains) as c0 eqn:E0. induction H as [|c tr c1 i x e c2 H IH Hs]; subst.
  - cbn. apply Forall_forall. intros t Ht. apply in_map_iff in Ht as (p & <- & Hp). rewrite Forall_forall in Hm. split; cbn; auto.
  - eapply okth_step; eauto.
Qed.

Definition stuck (c : conf) : Prop := forall i x, gstep c i x = None.
Lemma stuck_th c : stuck c -> dead (shared c) = None -> forall t, In t (ths c) -> forall x, lstep (shared c) t x = None.
Proof.
  intros H Hd t Ht x. apply In_nth_error in Ht as (i & Hi). specialize (H i x). unfold gstep in H. rewrite Hd, Hi in H.
  destruct (lstep (shared c) t x) as [[[[? ?] ?] ?]|]; [discriminate|reflexivity].
Qed.
(** where a goroutine that cannot move is *)
Lemma stuck_pc nest s t : okth nest t -> f_bad t = 0 -> lstep s t 0 = None ->
  (0 < f_rd t -> f_rd t = 1 /\ exists i kd b nx, at_ t = PSend i kd b nx /\ chclosed s = false /\ cap s <= buf s) /\
  match at_ t with
  | PRLock _ _ _ _ | PLock _ _ | PELock _ => ws s <> WNone
  | PSend _ _ _ _ => chclosed s = false /\ cap s <= buf s
  | PSleep _ _ => sema s = 0 /\ is_task (rl t) = false
  | PPend _ _ | PEPend _ => 0 < rds s
  | PRecv _ => buf s = 0
  | PEnd => True
  | _ => False
  end.
Proof.
  intros [Hp Hr] Hb Hl. destruct t as [r p].
  destruct p; try match type of Hl with context [PUser ?q] => destruct q end; unfold lstep in Hl; cbn [rl at_ okpc is_task f_rd f_bad] in *;
    repeat match type of Hl with context [match ?X with _ => _ end] => destruct X eqn:? end; try discriminate Hl; boolnorm; cbn in Hb;
    try discriminate Hb; try tauto; (split; [intros; try lia|]); try congruence; try lia; try tauto.
  all: try (split; [reflexivity|]; do 4 eexists; split; [reflexivity|]; auto).
  all: split; auto; try tauto.
Qed.
Lemma deadlock nest c : inv c -> Forall (okth nest) (ths c) -> dead (shared c) = None -> stuck c ->
  Forall (fun t => at_ t = PEnd) (ths c) \/
  (tot (f_rt true) (ths c) = cap (shared c) /\ exists t i kd b nx, In t (ths c) /\ at_ t = PSend i kd b nx).
Proof.
  intros [I1 I2 I3] Ho Hd Hst. pose proof (stuck_th _ Hst Hd) as Hs. destruct c as [s l]. cbn [shared ths] in *.
  destruct I1 as [Ib It Ic Icn Ir Ip Ih Is]. destruct I3 as [J1 J2 J3]. cbn [shared ths] in *.
  assert (Hpc : forall t, In t l -> okth nest t /\ f_bad t = 0 /\ lstep s t 0 = None).
  { intros t Ht. rewrite Forall_forall in Ho. split; [auto|]. split; [|auto]. pose proof (tot_in f_bad _ _ Ht). lia. }
  assert (Hpc2 := fun t Ht => stuck_pc nest s t (proj1 (Hpc t Ht)) (proj1 (proj2 (Hpc t Ht))) (proj2 (proj2 (Hpc t Ht)))).
  destruct (Nat.eq_dec (tot f_rd l) 0) as [Hrd|Hrd].
  - left. assert (Hpend : tot f_pend l = 0).
    { apply tot_zero. intros t Ht. destruct (Hpc2 t Ht) as [_ M]. unfold f_pend. destruct (at_ t); try reflexivity; lia. }
    assert (Hheld : tot f_held l = 0).
    { apply tot_zero. intros t Ht. destruct (Hpc2 t Ht) as [_ M]. unfold f_held. destruct (at_ t); try reflexivity; destruct M. }
    assert (Hws : ws s = WNone). { destruct (ws s); cbn in *; [reflexivity|lia|lia]. }
    assert (Hpc3 : forall t, In t l -> at_ t = PEnd \/ (exists j k, at_ t = PSleep j k /\ is_task (rl t) = false /\ sema s = 0)).
    { intros t Ht. destruct (Hpc2 t Ht) as [R M]. destruct (at_ t) eqn:Ea; auto; try congruence; try tauto; try lia.
      - exfalso. pose proof (tot_in f_rd _ _ Ht) as G. assert (G1 : f_rd t = 1) by (unfold f_rd; rewrite Ea; reflexivity). lia.
      - right. destruct M as [M1 M2]. exists j, k. auto.
      - exfalso. pose proof (tot_in f_tok _ _ Ht) as G. destruct (Hpc t Ht) as (_ & Hb & _). unfold f_bad in Hb. rewrite Ea in Hb.
        assert (G1 : f_tok t = 1) by (unfold f_tok; rewrite Ea; destruct (rl t); [discriminate Hb|reflexivity]). lia. }
    assert (Hcnt : tot f_cnt l = 0).
    { apply tot_zero. intros t Ht. destruct (Hpc3 t Ht) as [E|(j & k & E & E' & _)]; unfold f_cnt; rewrite E; [destruct (is_task (rl t)); reflexivity|rewrite E'; reflexivity]. }
    assert (Hntf : tot f_ntf l = 0).
    { apply tot_zero. intros t Ht. destruct (Hpc3 t Ht) as [E|(j & k & E & E' & _)]; unfold f_ntf; rewrite E; reflexivity. }
    apply Forall_forall. intros t Ht. destruct (Hpc3 t Ht) as [E|(j & k & E & E' & E'')]; [exact E|exfalso].
    pose proof (tot_in f_slp _ _ Ht) as G. assert (G1 : f_slp t = 1) by (unfold f_slp; rewrite E; reflexivity). rewrite G1 in G. assert (0 < wts s) by lia. assert (cnt s = 0) by lia. specialize (J2 H0 H). lia.
  - right. destruct (tot_pos_in f_rd l ltac:(lia)) as (t & Ht & Htr). destruct (Hpc2 t Ht) as [R _]. destruct (R Htr) as (_ & i & kd & b & nx & E & _ & Hfull).
    split; [|exists t, i, kd, b, nx; auto].
    assert (Heq : forall t, In t l -> f_rt true t = f_tok t).
    { clear t Ht Htr E R. intros t Ht. destruct (Hpc2 t Ht) as [_ M]. destruct (Hpc t Ht) as (Hok & Hb & _). pose proof (tot_in f_tok _ _ Ht) as G.
      destruct t as [r p]. unfold f_rt, okth in *; cbn [rl at_] in *. destruct Hok as [Hok _].
      destruct p; cbn in Hok; try tauto; destruct r; cbn in Hb, Hok, G; try tauto; try lia; try (destruct Hok; discriminate); reflexivity. }
    assert (Hsum : forall l0, incl l0 l -> tot (f_rt true) l0 = tot f_tok l0).
    { induction l0 as [|a l0 IH]; intros Hi; [reflexivity|]. cbn. rewrite IH, Heq; [reflexivity|apply Hi; left; reflexivity|]. intros y Hy. apply Hi. right. exact Hy. }
    rewrite (Hsum l (incl_refl l)). lia.
Qed.
(** with tasks that do not submit *)
Lemma leaf_rt l : Forall (okth false) l -> tot (f_rt true) l = 0.
Proof.
  intros H. apply tot_zero. intros [r p] Ht. rewrite Forall_forall in H. destruct (H _ Ht) as [Hp _]. unfold f_rt; cbn [rl at_] in *.
  destruct r; destruct p; cbn in *; try reflexivity; destruct Hp as (_ & Hp & _); discriminate (Hp eq_refl).
Qed.
