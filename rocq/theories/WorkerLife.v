(** WorkerLife: what the trace of the worker machine says about its state. *)
From Coq Require Import List Bool Arith Lia ZifyBool.
Import ListNotations.
From Verif Require Import WorkerModel WorkerFacts.

(** *** the life of a task *)
Definition f_in (i : nat) (t : thread) : nat :=
  match at_ t with
  | PRLock j _ _ _ | PCheck j _ _ _ | PAdd j _ _ _ | PSend j _ _ _ | PRUnlock _ j _ _ _ | PGo j _ _ _ => b2n (j =? i)
  | _ => 0
  end.
Definition f_life (i : nat) (f : pc -> bool) (t : thread) : nat := match rl t with RTask j _ => if j =? i then b2n (f (at_ t)) else 0 | RMain => 0 end.
Definition at_start (p : pc) : bool := match p with PStart _ | PHung => true | _ => false end.
Definition n_call (i : nat) (e : event) : nat := match e with ECall _ j => b2n (j =? i) | _ => 0 end.
Definition n_ret (i : nat) (b : bool) (e : event) : nat := match e with ERet _ j acc => if j =? i then b2n (Bool.eqb acc b) else 0 | _ => 0 end.
Definition n_start (i : nat) (e : event) : nat := match e with EStart j => b2n (j =? i) | _ => 0 end.
Definition n_end (i : nat) (e : event) : nat := match e with EEnd j _ => b2n (j =? i) | _ => 0 end.

Record life (i : nat) (tr : list event) (c : conf) : Prop := Life {
  l_once : tot (f_in i) (ths c) + tot (f_life i at_start) (ths c) + tot (n_start i) tr + tot (n_ret i false) tr = b2n (i <? ntask (shared c));
  l_body : tot (n_start i) tr = tot (f_life i body_pc) (ths c) + tot (n_end i) tr;
  l_acc : tot (n_ret i true) tr = tot (f_life i at_start) (ths c) + tot (n_start i) tr;
  l_call : tot (n_call i) tr = b2n (i <? ntask (shared c)) }.

Ltac simp_e := cbn [opt_list tot n_call n_ret n_start n_end f_in f_life at_start rl at_ body_pc b2n Bool.eqb Nat.add] in *.
Lemma life_start i n mains : life i [] (start n mains).
Proof.
  assert (Z : forall f, (forall p, f (Th RMain (PUser p)) = 0) -> tot f (ths (start n mains)) = 0).
  { intros f Hf. apply tot_zero. intros a Ha. apply in_map_iff in Ha as (p & <- & _). apply Hf. }
  split; rewrite ?Z by reflexivity; reflexivity.
Qed.
Lemma life_step j tr c i x e c' : inv1 c -> life j tr c -> gstep c i x = Some (e, c') -> life j (tr ++ opt_list e) c'.
Proof.
  intros I1 I H. apply gstep_inv in H as (Hd & t & s' & t' & new & Hn & Hl & ->).
  destruct c as [s l]. destruct I as [Lo Lb La Lc]. pose proof (i_bad _ I1) as Ib. cbn [shared ths] in *.
  pose proof (tot_ge f_bad _ _ _ Hn) as G0. pose proof (tot_ge (f_in j) _ _ _ Hn) as G1. pose proof (tot_ge (f_life j at_start) _ _ _ Hn) as G2. pose proof (tot_ge (f_life j body_pc) _ _ _ Hn) as G3.
  step_cases Hl; boolnorm; split; simp_sh; rewrite ?tot_app.
  all: try (sums (f_in j) Hn); try (sums (f_life j at_start) Hn); try (sums (f_life j body_pc) Hn).
  all: try destruct r; simp_f; simp_e; repeat match goal with |- context [?a =? ?b] => destruct (Nat.eqb_spec a b) | H : context [?a =? ?b] |- _ => destruct (Nat.eqb_spec a b) end; simp_e; subst; try lia.
  all: repeat match goal with |- context [?a <? ?b] => destruct (Nat.ltb_spec a b) | H : context [?a <? ?b] |- _ => destruct (Nat.ltb_spec a b) end; simp_e; lia.
Qed.
Lemma life_reach j n mains tr c : exec (start n mains) tr c -> life j tr c.
Proof.
  intros H. remember (start n mains) as c0. induction H as [|c tr c1 i x e c2 H IH Hs]; subst; [apply life_start|].
  eapply life_step; [apply i_1; eapply inv_reach; eauto|auto|exact Hs].
Qed.

Ltac all_sums Hn :=
  repeat match goal with
  | |- context [tot ?f (upd ?l ?i ?t')] =>
    lazymatch goal with _ : tot f (upd l i t') + _ = _ |- _ => fail | _ => pose proof (tot_upd f l i _ t' Hn); pose proof (tot_ge f l i _ Hn) end
  | H : context [tot ?f (upd ?l ?i ?t')] |- _ =>
    lazymatch type of H with _ -> _ => idtac | _ < _ => idtac | _ => fail end;
    lazymatch goal with _ : tot f (upd l i t') + _ = _ |- _ => fail | _ => pose proof (tot_upd f l i _ t' Hn); pose proof (tot_ge f l i _ Hn) end
  end.
(** *** calls in flight *)
Definition f_rt (b : bool) (t : thread) : nat :=
  match at_ t with
  | PRLock _ _ _ _ | PCheck _ _ _ _ | PAdd _ _ _ _ | PSend _ _ _ _ | PRUnlock _ _ _ _ _ | PGo _ _ _ _ => b2n (Bool.eqb (is_task (rl t)) b)
  | _ => 0
  end.
Definition f_wt (t : thread) : nat := match at_ t with PWait _ _ | PSleep _ _ | PWake _ _ | PRead _ _ | PClear _ _ _ => 1 | _ => 0 end.
Definition f_cl (t : thread) : nat := match at_ t with PLock _ _ | PPend _ _ | PClose1 _ _ | PClose2 _ _ | PUnlock _ _ => 1 | _ => 0 end.
Definition m_call (b : bool) (e : event) : nat := match e with ECall b' _ => b2n (Bool.eqb b' b) | _ => 0 end.
Definition m_ret (b : bool) (e : event) : nat := match e with ERet b' _ _ => b2n (Bool.eqb b' b) | _ => 0 end.
Definition m_wait (e : event) : nat := match e with EWait _ => 1 | _ => 0 end.
Definition m_waited (e : event) : nat := match e with EWaited _ _ => 1 | _ => 0 end.
Definition m_close (e : event) : nat := match e with EClose _ => 1 | _ => 0 end.
Definition m_closed (e : event) : nat := match e with EClosed _ => 1 | _ => 0 end.
Definition m_start (e : event) : nat := match e with EStart _ => 1 | _ => 0 end.
Definition m_end (e : event) : nat := match e with EEnd _ _ => 1 | _ => 0 end.
Definition m_fail (e : event) : nat := match e with EEnd _ (Some _) => 1 | _ => 0 end.
Definition m_stored (e : event) : nat := match e with EStored _ _ => 1 | _ => 0 end.
Definition m_over (e : event) : nat := match e with EOver _ => 1 | _ => 0 end.
Definition m_werr (e : event) : nat := match e with EWaited _ (Some _) => 1 | _ => 0 end.
Definition some_n {A} (o : option A) : nat := match o with Some _ => 1 | None => 0 end.
Definition f_fail (t : thread) : nat :=
  match at_ t with
  | PRecv r | PDone r | PNotify _ r => some_n r
  | PELock _ | PEPend _ | PEClose1 _ | PEClose2 _ | PEStore _ | PEUnlock => 1
  | _ => 0
  end.
Definition f_store (t : thread) : nat := match at_ t with PEClose2 _ | PEStore _ => 1 | _ => 0 end.
Definition f_clr (t : thread) : nat := match at_ t with PClear _ (Some _) _ => 1 | _ => 0 end.

Record flow (tr : list event) (c : conf) : Prop := Flow {
  w_call b : tot (m_call b) tr = tot (f_rt b) (ths c) + tot (m_ret b) tr;
  w_wait : tot m_wait tr = tot f_wt (ths c) + tot m_waited tr;
  w_close : tot m_close tr = tot f_cl (ths c) + tot m_closed tr;
  w_start : tot m_start tr = tot f_run (ths c) + tot m_end tr;
  w_fail : tot f_fail (ths c) + tot m_over tr <= tot m_fail tr;
  w_why : closed (shared c) = true -> 0 < tot m_close tr + tot m_fail tr;
  w_unl : 0 < tot f_unl (ths c) -> closed (shared c) = true;
  w_evs : 0 < tot m_closed tr + tot m_over tr + tot m_stored tr -> closed (shared c) = true;
  w_store : tot m_stored tr + tot f_store (ths c) <= b2n (closed (shared c))
}.
Ltac simp_m := cbn [opt_list tot f_rt f_wt f_cl m_call m_ret m_wait m_waited m_close m_closed m_start m_end m_fail m_stored m_over m_werr some_n f_fail f_store f_clr f_run f_unl rl at_ is_task body_pc b2n Bool.eqb Nat.add reported] in *.
Lemma flow_start n mains : flow [] (start n mains).
Proof.
  assert (Z : forall f, (forall p, f (Th RMain (PUser p)) = 0) -> tot f (ths (start n mains)) = 0).
  { intros f Hf. apply tot_zero. intros a Ha. apply in_map_iff in Ha as (p & <- & _). apply Hf. }
  split; intros; rewrite ?Z in * by reflexivity; cbn in *; try reflexivity; try lia; try discriminate.
Qed.
Lemma flow_step tr c i x e c' : inv c -> flow tr c -> gstep c i x = Some (e, c') -> flow (tr ++ opt_list e) c'.
Proof.
  intros I1 I H. apply gstep_inv in H as (Hd & t & s' & t' & new & Hn & Hl & ->).
  destruct c as [s l]. destruct I as [Wc Ww Wcl Ws Wf Wy Wu We Wst]. pose proof (i_bad _ (i_1 _ I1)) as Ib. pose proof (i_closing0 _ (i_2 _ I1)) as Ic0. clear I1. cbn [shared ths] in *.
  pose proof (tot_ge f_closing _ _ _ Hn) as G5. pose proof (tot_ge f_bad _ _ _ Hn) as G0. pose proof (tot_ge f_fail _ _ _ Hn) as G1. pose proof (tot_ge f_unl _ _ _ Hn) as G2. pose proof (tot_ge f_cl _ _ _ Hn) as G3. pose proof (tot_ge f_store _ _ _ Hn) as G4.
  step_cases Hl; boolnorm; split; intros; simp_sh; rewrite ?tot_app in *.
  all: try (specialize (Wc b0)); try (specialize (Wc b)).
  all: all_sums Hn.
  all: try destruct r; simp_f; simp_m; try discriminate; try lia.
  all: try match goal with H : closed _ = _ |- _ => rewrite H in *; simp_m; lia end.
  all: try match goal with |- context [reported ?a ?b] => destruct (reported a b); simp_m; lia end.

Qed.
Lemma flow_reach n mains tr c : exec (start n mains) tr c -> flow tr c.
Proof.
  intros H. remember (start n mains) as c0. induction H as [|c tr c1 i x e c2 H IH Hs]; subst; [apply flow_start|].
  eapply flow_step; [eapply inv_reach; eauto|auto|exact Hs].
Qed.

