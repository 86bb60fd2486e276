(** Props_Worker: C69-C75, C111-C115: the concurrency limited worker, for
    every program using it and every schedule. *)
From Coq Require Import List Bool Arith Lia ZifyBool.
Import ListNotations.
From Verif Require Import WorkerModel WorkerFacts WorkerLife WorkerErr WorkerLive.

(** *** specification: what a trace says *)
Definition started (i : nat) (tr : list event) : Prop := In (EStart i) tr.
Definition ended (i : nat) (tr : list event) : Prop := exists r, In (EEnd i r) tr.
(** RunTask returned having accepted, or dropped, the task *)
Definition accepted (i : nat) (tr : list event) : Prop := exists b, In (ERet b i true) tr.
Definition dropped (i : nat) (tr : list event) : Prop := exists b, In (ERet b i false) tr.
Definition submitted (i : nat) (tr : list event) : Prop := exists b, In (ECall b i) tr.
Fixpoint count (f : event -> bool) (tr : list event) : nat := match tr with [] => 0 | e :: r => (if f e then 1 else 0) + count f r end.
Definition is_wait (e : event) := match e with EWait _ => true | _ => false end.
Definition is_waited (e : event) := match e with EWaited _ _ => true | _ => false end.
Definition is_close (e : event) := match e with EClose _ => true | _ => false end.
Definition is_closed (e : event) := match e with EClosed _ => true | _ => false end.
Definition is_call (b : bool) (e : event) := match e with ECall b' _ => Bool.eqb b' b | _ => false end.
Definition is_ret (b : bool) (e : event) := match e with ERet b' _ _ => Bool.eqb b' b | _ => false end.
Definition reports (e : event) := match e with EWaited _ (Some _) => true | _ => false end.
(** calls of Wait, and of RunTask by the user's own goroutines, under way *)
Definition waits_under_way (tr : list event) : nat := count is_wait tr - count is_waited tr.
Definition submits_under_way (by_task : bool) (tr : list event) : nat := count (is_call by_task) tr - count (is_ret by_task) tr.
Definition prefixes (P : list event -> Prop) (tr : list event) : Prop := forall tr1 tr2, tr = tr1 ++ tr2 -> P tr1.
(** the rule of sync.WaitGroup: nobody but the running tasks submits while somebody waits *)
Definition orderly (tr : list event) : Prop := prefixes (fun p => waits_under_way p = 0 \/ submits_under_way false p = 0) tr.
Definition waits_one_by_one (tr : list event) : Prop := prefixes (fun p => waits_under_way p <= 1) tr.

(** *** glue *)
Lemma count_tot (f : event -> nat) (g : event -> bool) tr : (forall e, f e = (if g e then 1 else 0)) -> tot f tr = count g tr.
Proof. intros H. induction tr as [|e tr IH]; cbn; [reflexivity|]. rewrite H, IH. reflexivity. Qed.
Lemma tot_ev (f : event -> nat) tr : 0 < tot f tr <-> exists e, In e tr /\ 0 < f e.
Proof. split; [apply tot_pos_in|]. intros (e & He & Hf). pose proof (tot_in f _ _ He). lia. Qed.
Lemma started_n i tr : started i tr <-> 0 < tot (n_start i) tr.
Proof.
  rewrite tot_ev. split; [intros H; exists (EStart i); cbn; rewrite Nat.eqb_refl; cbn; auto|]. intros ([] & H & Hf); cbn in Hf; try lia.
  destruct (Nat.eqb_spec i0 i); cbn in Hf; [subst; exact H|lia].
Qed.
Lemma ended_n i tr : ended i tr <-> 0 < tot (n_end i) tr.
Proof.
  rewrite tot_ev. split; [intros (r & H); exists (EEnd i r); cbn; rewrite Nat.eqb_refl; cbn; auto|]. intros ([] & H & Hf); cbn in Hf; try lia.
  destruct (Nat.eqb_spec i0 i); cbn in Hf; [subst; exists r; exact H|lia].
Qed.
Lemma ret_n i b tr : (exists t, In (ERet t i b) tr) <-> 0 < tot (n_ret i b) tr.
Proof.
  rewrite tot_ev. split; [intros (t & H); exists (ERet t i b); cbn; rewrite Nat.eqb_refl; destruct b; cbn; auto|]. intros ([] & H & Hf); cbn in Hf; try lia.
  destruct (Nat.eqb_spec i0 i); cbn in Hf; [|lia]. subst. destruct acc, b; cbn in Hf; try lia; eauto.
Qed.
Lemma call_n i tr : submitted i tr <-> 0 < tot (n_call i) tr.
Proof.
  rewrite tot_ev. split; [intros (t & H); exists (ECall t i); cbn; rewrite Nat.eqb_refl; cbn; auto|]. intros ([] & H & Hf); cbn in Hf; try lia.
  destruct (Nat.eqb_spec i0 i); cbn in Hf; [|lia]. subst. exists by_task. exact H.
Qed.
Lemma tot_is_wait tr : tot m_wait tr = count is_wait tr.
Proof. apply count_tot. intros []; reflexivity. Qed.
Lemma tot_is_waited tr : tot m_waited tr = count is_waited tr.
Proof. apply count_tot. intros []; reflexivity. Qed.
Lemma tot_is_close tr : tot m_close tr = count is_close tr.
Proof. apply count_tot. intros []; reflexivity. Qed.
Lemma tot_is_closed tr : tot m_closed tr = count is_closed tr.
Proof. apply count_tot. intros []; reflexivity. Qed.
Lemma tot_is_call b tr : tot (m_call b) tr = count (is_call b) tr.
Proof. apply count_tot. intros []; reflexivity. Qed.
Lemma tot_is_ret b tr : tot (m_ret b) tr = count (is_ret b) tr.
Proof. apply count_tot. intros []; reflexivity. Qed.
Lemma tot_reports tr : tot m_werr tr = count reports tr.
Proof. apply count_tot. intros []; try reflexivity. destruct r; reflexivity. Qed.
Lemma under_way n mains tr c : exec (start n mains) tr c ->
  waits_under_way tr = tot f_wt (ths c) /\ (forall b, submits_under_way b tr = tot (f_rt b) (ths c)).
Proof.
  intros H. apply flow_reach in H. split; [|intros b]; unfold waits_under_way, submits_under_way.
  - rewrite <- tot_is_wait, <- tot_is_waited, (w_wait _ _ H). lia.
  - rewrite <- tot_is_call, <- tot_is_ret, (w_call _ _ H b). lia.
Qed.
Lemma orderly_calm n mains tr c : exec (start n mains) tr c -> orderly tr -> calm tr.
Proof.
  intros H Ho tr1 tr2 E. destruct (exec_split _ _ _ H _ _ E) as (c1 & H1 & _). apply flow_reach in H1.
  pose proof (w_wait _ _ H1). pose proof (w_call _ _ H1 false). specialize (Ho tr1 tr2 E) as Hp. cbn beta in Hp. unfold waits_under_way, submits_under_way in Hp.
  rewrite <- tot_is_wait, <- tot_is_waited, <- tot_is_call, <- tot_is_ret in Hp. lia.
Qed.
Lemma play_exec c sched tr tr' c' c0 : exec c0 tr c -> play c sched tr = Some (tr', c') -> exec c0 tr' c'.
Proof.
  revert c tr. induction sched as [|[i x] r IH]; intros c tr H E; cbn in E; [injection E as <- <-; exact H|].
  destruct (gstep c i x) as [[e c1]|] eqn:Es; [|discriminate]. apply (IH _ _ (exec_step _ _ _ _ _ _ _ H Es) E).
Qed.

Lemma lsum_zero {A} (f : A -> nat) l : (forall x, In x l -> f x = 0) -> list_sum (map f l) = 0.
Proof. induction l as [|a l IH]; intros H; [reflexivity|]. change (list_sum (map f (a :: l))) with (f a + list_sum (map f l)). rewrite IH, H; auto. - left; reflexivity. - intros x Hx. apply H. right. exact Hx. Qed.
Lemma lsum_cons a l : list_sum (a :: l) = a + list_sum l.
Proof. reflexivity. Qed.
Lemma lsum_add {A} (f g : A -> nat) l : list_sum (map (fun i => f i + g i) l) = list_sum (map f l) + list_sum (map g l).
Proof. induction l as [|a l IH]; [reflexivity|]. cbn [map]. rewrite !lsum_cons, IH. lia. Qed.
(** *** C69: never more than n tasks at the same time *)
Theorem C69_bound n mains tr c : exec (start n mains) tr c ->
  forall l, NoDup l -> (forall i, In i l -> started i tr /\ ~ ended i tr) -> List.length l <= n.
Proof.
  intros H l Hnd Hl. pose proof (inv_reach _ _ _ _ H) as I.
  assert (Hcap : cap (shared c) = n).
  { clear - H. remember (start n mains) as c0 eqn:E0. induction H as [|c tr c1 i x e c2 H IH Hs]; subst; [reflexivity|].
    specialize (IH eq_refl). apply gstep_inv in Hs as (Hd & t & s' & t' & new & Hn & Hlx & ->). destruct c1 as [s l0]. cbn [shared] in *. clear Hd H.
    step_cases Hlx; exact IH. }
  assert (Hrun : tot f_run (ths c) <= n).
  { rewrite <- Hcap. pose proof (i_tok _ (i_1 _ I)). pose proof (i_cap _ (i_1 _ I)).
    assert (tot f_run (ths c) <= tot f_tok (ths c)); [|lia]. apply tot_le. intros [[|] p]; unfold f_run, f_tok; cbn [rl at_ is_task]; [lia|]. destruct p; cbn; lia. }
  assert (Hone : forall i, In i l -> 1 <= tot (f_life i body_pc) (ths c)).
  { intros i Hi. destruct (Hl i Hi) as [Hs He]. pose proof (l_body _ _ _ (life_reach i _ _ _ _ H)) as B. rewrite started_n in Hs. rewrite ended_n in He. lia. }
  assert (Hsum : forall l0, NoDup l0 -> list_sum (map (fun i => tot (f_life i body_pc) (ths c)) l0) <= tot f_run (ths c)).
  { intros l0 Hd. clear - Hd. induction (ths c) as [|t ts IH]; cbn [tot].
    - rewrite lsum_zero; auto.
    - assert (Ht : list_sum (map (fun i => f_life i body_pc t) l0) <= f_run t).
      { unfold f_life, f_run. destruct (rl t) as [|k kd]; cbn [is_task]; [rewrite lsum_zero; auto|].
        clear - Hd. induction Hd as [|a l0 Ha Hd IH]; [cbn; lia|]. cbn [map]. match goal with |- context [list_sum (?x :: ?y)] => change (list_sum (x :: y)) with (x + list_sum y) end. destruct (Nat.eqb_spec k a) as [<-|]; [|lia].
        assert (Z : list_sum (map (fun i => if k =? i then b2n (body_pc (at_ t)) else 0) l0) = 0); [|lia].
        apply lsum_zero. intros b Hb. destruct (Nat.eqb_spec k b) as [<-|]; [contradiction|reflexivity]. }
      rewrite lsum_add. lia. }
  specialize (Hsum l Hnd). clear - Hrun Hone Hsum. assert (Hlen : List.length l <= list_sum (map (fun i => tot (f_life i body_pc) (ths c)) l)).
  { clear - Hone. induction l as [|a l IH]; [cbn; lia|]. cbn [map List.length]. rewrite lsum_cons. pose proof (Hone a (or_introl eq_refl)). specialize (IH (fun i Hi => Hone i (or_intror Hi))). lia. }
  lia.
Qed.

(** *** C115: a task is accepted or dropped once; it runs if and only if it is accepted, and once *)
Theorem C115_once n mains tr c i : exec (start n mains) tr c ->
  (dropped i tr -> ~ accepted i tr /\ ~ started i tr) /\ (started i tr -> accepted i tr) /\ (accepted i tr -> submitted i tr) /\
  count (fun e => match e with EStart j => j =? i | _ => false end) tr <= 1 /\
  count (fun e => match e with EEnd j _ => j =? i | _ => false end) tr <= count (fun e => match e with EStart j => j =? i | _ => false end) tr.
Proof.
  intros H. pose proof (life_reach i _ _ _ _ H) as [A B C D].
  assert (b2n (i <? ntask (shared c)) <= 1) by (destruct (i <? ntask (shared c)); cbn; lia).
  rewrite <- (count_tot (n_start i)) by (intros []; cbn; try reflexivity; destruct (_ =? i); reflexivity).
  rewrite <- (count_tot (n_end i)) by (intros []; cbn; try reflexivity; destruct (_ =? i); reflexivity).
  unfold dropped, accepted. rewrite !ret_n, started_n, call_n. repeat split; lia.
Qed.

(** *** C70 *)
(** a Wait call's name is taken *)
Definition wait_id (p : pc) : option nat := match p with PWait j _ | PSleep j _ | PWake j _ | PRead j _ | PClear j _ _ => Some j | _ => None end.
Lemma wait_ids n mains tr c : exec (start n mains) tr c -> forall t j, In t (ths c) -> wait_id (at_ t) = Some j -> j < nwait (shared c).
Proof.
  intros H. remember (start n mains) as c0 eqn:E0. induction H as [|c tr c1 i x e c2 H IH Hs]; subst.
  - intros t j Ht Hw. cbn in Ht. apply in_map_iff in Ht as (p & <- & _). discriminate.
  - specialize (IH eq_refl). apply gstep_inv in Hs as (Hd & t & s' & t' & new & Hn & Hl & ->). destruct c1 as [s l]. cbn [shared ths] in *.
    pose proof (IH t) as IHt. specialize (IHt) as IHt. intros t0 j Ht Hw. apply in_upd_new in Ht as [->|[Ht|Ht]].
    + specialize (IHt j (nth_error_In _ _ Hn)). clear IH. step_cases Hl; cbn [at_ wait_id] in *; simp_sh; try discriminate; auto. injection Hw as <-. lia.
    + specialize (IH _ _ Ht Hw). clear - IH Hl. step_cases Hl; simp_sh; lia.
    + step_cases Hl; cbn in Ht; try tauto. destruct Ht as [<-|[]]. discriminate.
Qed.
Lemma zero_all_ended n mains tr c : exec (start n mains) tr c -> cnt (shared c) = 0 -> forall i, accepted i tr -> ended i tr.
Proof.
  intros H Hz i Ha. pose proof (life_reach i _ _ _ _ H) as [A B C D]. pose proof (i_cnt _ (i_1 _ (inv_reach _ _ _ _ H))) as Ic.
  unfold accepted in Ha. rewrite ret_n in Ha. rewrite ended_n.
  assert (tot (f_life i at_start) (ths c) <= tot f_cnt (ths c) /\ tot (f_life i body_pc) (ths c) <= tot f_cnt (ths c)) as [P Q].
  { split; apply tot_le; intros [[|j kd] p]; unfold f_life, f_cnt; cbn [rl at_ is_task]; try lia; destruct (j =? i); destruct p; cbn; lia. }
  lia.
Qed.
(** Wait is a barrier, whatever else goes on: tasks accepted before it was
    called have returned when it returns *)
Theorem C70_barrier n mains tr1 j tr2 r tr3 c :
  exec (start n mains) (tr1 ++ EWait j :: tr2 ++ EWaited j r :: tr3) c ->
  forall i, accepted i tr1 -> ended i (tr1 ++ EWait j :: tr2).
Proof.
  intros H i Ha.
  destruct (exec_at _ _ _ H (tr1 ++ EWait j :: tr2) (EWaited j r) tr3) as (c3 & k3 & x3 & c3' & H3 & S3 & _); [rewrite <- app_assoc; reflexivity|].
  destruct (exec_at _ _ _ H3 tr1 (EWait j) tr2 eq_refl) as (c1 & k1 & x1 & c1' & H1 & S1 & H2).
  assert (Hx1 : exec (start n mains) (tr1 ++ [EWait j]) c1') by (apply (exec_step _ _ _ _ _ (Some (EWait j)) _ H1 S1)).
  (* nobody has passed yet *)
  assert (P0 : forall t, In t (ths c1') -> forall k e, at_ t <> PRead j k /\ at_ t <> PClear j e k).
  { pose proof (wait_ids _ _ _ _ H1) as W. apply gstep_inv in S1 as (Hd & t & s' & t' & new & Hn & Hl & ->). destruct c1 as [s l]. cbn [shared ths] in *.
    assert (Hj : j = nwait s /\ exists k, at_ t' = PWait j k /\ new = []).
    { clear - Hl. destruct t as [rr p]. destruct p; try match type of Hl with context [PUser ?q] => destruct q end; unfold lstep in Hl; cbn [rl at_] in *;
        repeat match type of Hl with context [match ?X with _ => _ end] => destruct X eqn:? end; try discriminate Hl. injection Hl as <- <- <- <-. split; [reflexivity|]. eexists. split; reflexivity. }
    destruct Hj as (-> & k0 & Hp & ->). intros t0 Ht k e. apply in_upd_new in Ht as [->|[Ht|[]]]; [rewrite Hp; split; discriminate|].
    split; intros E; specialize (W t0 (nwait s) Ht); rewrite E in W; specialize (W eq_refl); lia. }
  (* whoever passes does so when all are done *)
  assert (P : forall tr c, exec c1' tr c -> (forall t, In t (ths c) -> forall k e, at_ t <> PRead j k /\ at_ t <> PClear j e k) \/ ended i (tr1 ++ EWait j :: tr)).
  { intros tr c' He. induction He as [c'|c' tr c2 k x e c4 He IH Hs]; [left; exact P0|].
    assert (Hmono : ended i (tr1 ++ EWait j :: tr) -> ended i (tr1 ++ EWait j :: tr ++ opt_list e)).
    { intros (q & Hq). exists q. rewrite app_comm_cons, app_assoc. apply in_or_app. left. exact Hq. }
    destruct (IH S1 H2 Hx1 P0) as [Hno|He']; [|right; auto].
    pose proof (exec_app _ _ _ _ _ Hx1 He) as Hx. rewrite <- app_assoc in Hx. cbn [app] in Hx.
    pose proof (zero_all_ended _ _ _ _ Hx) as Hz. 
    apply gstep_inv in Hs as (Hd & t & s' & t' & new & Hn & Hl & ->). destruct c2 as [s l]. cbn [shared ths] in *.
    assert (Hacc : accepted i (tr1 ++ EWait j :: tr)) by (destruct Ha as (b & Hb); exists b; apply in_or_app; left; exact Hb).
    destruct (Nat.eq_dec (cnt s) 0) as [Hc|Hc]; [right; apply Hmono; auto|].
    left. intros t0 Ht k0 e0. apply in_upd_new in Ht as [->|[Ht|Ht]]; [|auto|].
    - pose proof (Hno _ (nth_error_In _ _ Hn)) as Hnt. clear - Hnt Hl Hc. destruct t as [rr p].
      destruct p; try match type of Hl with context [PUser ?q] => destruct q end; unfold lstep in Hl; cbn [rl at_] in *;
        repeat match type of Hl with context [match ?X with _ => _ end] => destruct X eqn:? end; try discriminate Hl; injection Hl as <- <- <- <-; cbn [at_]; boolnorm; try lia; split; try discriminate.
      intros E. injection E as -> _ ->. destruct (Hnt k0 None) as [Hr _]. apply Hr. reflexivity.
    - clear - Ht Hl. step_cases Hl; cbn in Ht; try tauto. destruct Ht as [<-|[]]. split; discriminate. }
  destruct (P _ _ H2) as [Hno|He]; [|exact He].
  exfalso. apply gstep_inv in S3 as (Hd & t & s' & t' & new & Hn & Hl & ->). pose proof (Hno _ (nth_error_In _ _ Hn)) as Hnt. clear - Hnt Hl. destruct t as [rr p].
  destruct p; try match type of Hl with context [PUser ?q] => destruct q end; unfold lstep in Hl; cbn [rl at_] in *;
    repeat match type of Hl with context [match ?X with _ => _ end] => destruct X eqn:? end; try discriminate Hl. injection Hl as _ -> _ _ _. destruct (Hnt k e) as [_ Hr]. apply Hr. reflexivity.
Qed.
(** and if nobody but the tasks submits during a Wait, everything accepted is over when it returns *)
Definition f_rc (t : thread) : nat := match at_ t with PRead _ _ | PClear _ _ _ => 1 | _ => 0 end.
Lemma rc_wt l : tot f_rc l <= tot f_wt l.
Proof. apply tot_le. intros [r p]. unfold f_rc, f_wt; cbn. destruct p; lia. Qed.
Lemma calm_passed n mains tr c : exec (start n mains) tr c -> calm tr -> 0 < tot f_rc (ths c) -> cnt (shared c) = 0.
Proof.
  intros H. remember (start n mains) as c0 eqn:E0. induction H as [|c tr c1 i x e c2 H IH Hs]; subst; intros Hcalm.
  - intros Hp. apply tot_pos_in in Hp as (t & Ht & Hf). apply in_map_iff in Ht as (p & <- & _). cbn in Hf. lia.
  - specialize (IH eq_refl (calm_app _ _ Hcalm)).
    pose proof (inv_reach _ _ _ _ H) as [I1 _ _]. pose proof (i_cnt _ I1) as Icn. pose proof (i_bad _ I1) as Ibad. pose proof (flow_reach _ _ _ _ H) as F.
    pose proof (w_call _ _ F false) as Fc. pose proof (w_wait _ _ F) as Fw. pose proof (Hcalm tr (opt_list e) eq_refl) as Hc. clear Hcalm F I1.
    apply gstep_inv in Hs as (Hd & t & s' & t' & new & Hn & Hl & ->). destruct c1 as [s l]. cbn [shared ths] in *. pose proof (rc_wt l) as Hrw. rewrite tot_app.
    pose proof (tot_ge (f_rt false) _ _ _ Hn) as G1. pose proof (tot_ge f_cnt _ _ _ Hn) as G3. pose proof (tot_ge f_bad _ _ _ Hn) as G6.
    pose proof (fun t' => tot_upd f_rc _ _ _ t' Hn) as U. 
    step_cases Hl; simp_sh; boolnorm;
      match goal with |- context [upd l i ?t'] => specialize (U t') end; try destruct r; simp_f; simp_m; cbn [f_rc at_ tot Nat.add] in *; intros; try lia.
Qed.
Theorem C70_all_done n mains tr1 j r tr2 c :
  exec (start n mains) (tr1 ++ EWaited j r :: tr2) c -> orderly (tr1 ++ EWaited j r :: tr2) ->
  forall i, accepted i tr1 -> ended i tr1.
Proof.
  intros H Ho. pose proof (orderly_calm _ _ _ _ H Ho) as Hc. destruct (exec_at _ _ _ H _ _ _ eq_refl) as (c1 & k & x & c1' & H1 & S1 & _).
  apply (zero_all_ended _ _ _ _ H1). apply (calm_passed _ _ _ _ H1 (calm_app _ _ Hc)).
  apply gstep_inv in S1 as (Hd & t & s' & t' & new & Hn & Hl & _). pose proof (tot_ge f_rc _ _ _ Hn) as G. destruct t as [rr p].
  destruct p; try match type of Hl with context [PUser ?q] => destruct q end; unfold lstep in Hl; cbn [rl at_] in *;
    repeat match type of Hl with context [match ?X with _ => _ end] => destruct X eqn:? end; try discriminate Hl. cbn in G. lia.
Qed.

(** *** C71: nothing is accepted once closed, by Close or by a task's error *)
Theorem C71_closed n mains tr1 tr2 c i :
  exec (start n mains) (tr1 ++ tr2) c ->
  (exists j, In (EClosed j) tr1) \/ (exists k, In (EOver k) tr1) ->
  submitted i tr2 -> ~ accepted i (tr1 ++ tr2) /\ ~ started i (tr1 ++ tr2).
Proof.
  intros H Hcl Hs. destruct (exec_split _ _ _ H _ _ eq_refl) as (c1 & H1 & H2).
  pose proof (life_reach i _ _ _ _ H1) as L1. pose proof (life_reach i _ _ _ _ H) as L.
  assert (Hz : b2n (i <? ntask (shared c)) <= 1) by (destruct (i <? ntask (shared c)); cbn; lia).
  rewrite call_n in Hs. pose proof (l_call _ _ _ L) as Lc. rewrite tot_app in Lc. pose proof (l_call _ _ _ L1) as Lc1.
  pose proof (l_once _ _ _ L1) as Lo1. pose proof (l_acc _ _ _ L1) as La1. pose proof (l_acc _ _ _ L) as La.
  assert (Hclosed : closed (shared c1) = true).
  { apply (w_evs _ _ (flow_reach _ _ _ _ H1)). destruct Hcl as [(j & Hj)|(k & Hk)].
    - pose proof (tot_in m_closed _ _ Hj) as G. cbn in G. lia.
    - pose proof (tot_in m_over _ _ Hk) as G. cbn in G. lia. }
  pose proof (acc_in i (ths c1)) as Ha. destruct (closed_phase i _ _ _ H2 Hclosed ltac:(lia)) as (_ & _ & Hr).
  unfold accepted. rewrite ret_n, started_n. rewrite !tot_app in *. lia.
Qed.

(** *** C73: no panic from the channel, and no more Done than Add *)
Theorem C73_no_channel_panic n mains tr c : exec (start n mains) tr c ->
  dead (shared c) <> Some SendOnClosed /\ dead (shared c) <> Some CloseOfClosed /\ dead (shared c) <> Some NegativeCounter.
Proof. intros H. destruct (only_misuse _ _ _ _ H) as [E|[E|E]]; rewrite E; repeat split; discriminate. Qed.

(** *** C72 *)
(** what Wait reports is the error of a task that has returned it before *)
Theorem C72_error_is_a_tasks_partial n mains tr1 j e tr2 c :
  exec (start n mains) (tr1 ++ EWaited j (Some e) :: tr2) c -> exists i, In (EEnd i (Some e)) tr1.
Proof.
  intros H. destruct (exec_at _ _ _ H _ _ _ eq_refl) as (c1 & k & x & c1' & H1 & S1 & _).
  pose proof (errs_reach _ _ _ _ (exec_step _ _ _ _ _ _ _ H1 S1)) as E.
  destruct (e_waited _ _ E j e) as (i & Hi); [apply In_snoc; auto|]. apply (e_stored _ _ E) in Hi. apply In_snoc in Hi as [Hi|Hi]; [eauto|discriminate].
Qed.
(** over the whole life of a worker at most one error is reported *)
Theorem C72_reported_once_partial n mains tr c : exec (start n mains) tr c -> waits_one_by_one tr -> count reports tr <= 1.
Proof.
  intros H Ho. assert (Hone : one_waiter tr).
  { intros tr1 tr2 E. specialize (Ho tr1 tr2 E) as Hp. cbn beta in Hp. unfold waits_under_way in Hp. rewrite tot_is_wait, tot_is_waited. lia. }
  destruct (one_report _ _ _ _ H Hone) as [A B]. pose proof (w_store _ _ (flow_reach _ _ _ _ H)) as W. rewrite <- tot_reports.
  destruct (closed (shared c)); cbn in W; lia.
Qed.
(** an error recorded while nobody waits is what the next Wait reports *)
Theorem C72_recorded_error_reported_partial n mains tr1 i e tr2 j r tr3 c :
  exec (start n mains) (tr1 ++ EStored i e :: tr2 ++ EWaited j r :: tr3) c ->
  waits_under_way tr1 = 0 -> count is_waited tr2 = 0 -> r = Some e.
Proof.
  intros H Hw Hn2. destruct (exec_at _ _ _ H (tr1 ++ EStored i e :: tr2) (EWaited j r) tr3) as (c3 & k3 & x3 & c3' & H3 & S3 & _); [rewrite <- app_assoc; reflexivity|].
  destruct (exec_at _ _ _ H3 tr1 (EStored i e) tr2 eq_refl) as (c1 & k1 & x1 & c1' & H1 & S1 & H2).
  pose proof (exec_step _ _ _ _ _ _ _ H1 S1) as H1'. pose proof (flow_reach _ _ _ _ H1') as F.
  assert (Hcl : closed (shared c1') = true) by (apply (w_evs _ _ F); rewrite !tot_app; cbn; lia).
  pose proof (w_store _ _ F) as Ws. rewrite tot_app, Hcl in Ws. cbn in Ws.
  assert (Herr : err (shared c1') = Some e).
  { clear - S1. apply gstep_inv in S1 as (Hd & t & s' & t' & new & Hn & Hl & ->). destruct t as [rr p].
    destruct p; try match type of Hl with context [PUser ?q] => destruct q end; unfold lstep in Hl; cbn [rl at_] in *;
      repeat match type of Hl with context [match ?X with _ => _ end] => destruct X eqn:? end; try discriminate Hl. injection Hl as <- _ <- _ _. reflexivity. }
  assert (Hno : tot (f_clrn e) (ths c1') = 0).
  { destruct (under_way _ _ _ _ H1') as [Hu _]. assert (Hu' : waits_under_way (tr1 ++ opt_list (Some (EStored i e))) = 0).
    { unfold waits_under_way in *. rewrite <- tot_is_wait, <- tot_is_waited in *. rewrite !tot_app. cbn. lia. }
    rewrite Hu' in Hu. apply tot_zero. intros t Ht. pose proof (tot_in f_wt _ _ Ht) as G. unfold f_clrn. destruct (at_ t) eqn:Ea; auto. unfold f_wt in G at 1. rewrite Ea in G. lia. }
  rewrite <- tot_is_waited in Hn2. destruct (stored_phase e _ _ _ H2 Hcl Herr ltac:(lia) Hno Hn2) as (_ & _ & _ & Hf).
  apply gstep_inv in S3 as (Hd & t & s' & t' & new & Hn & Hl & _). pose proof (tot_ge (f_clrn e) _ _ _ Hn) as G. destruct t as [rr p].
  destruct p; try match type of Hl with context [PUser ?q] => destruct q end; unfold lstep in Hl; cbn [rl at_] in *;
    repeat match type of Hl with context [match ?X with _ => _ end] => destruct X eqn:? end; try discriminate Hl. injection Hl as _ <- <- _ _.
  unfold f_clrn in G at 1. cbn [at_] in G. destruct e0 as [e'|]; [|lia]. destruct (Nat.eqb_spec e' e); [congruence|cbn in G; lia].
Qed.

Print Assumptions C69_bound.
Print Assumptions C115_once.
Print Assumptions C70_barrier.
Print Assumptions C70_all_done.
Print Assumptions C71_closed.
Print Assumptions C73_no_channel_panic.
Print Assumptions C72_error_is_a_tasks_partial.
Print Assumptions C72_reported_once_partial.
Print Assumptions C72_recorded_error_reported_partial.
