(** RespFacts: proofs about RespModel. *)
From Coq Require Import List Bool Arith ZArith Lia.
Import ListNotations.
From Verif Require Import GoStr RespModel RespSpec.
Local Open Scope Z_scope.

(** *** every call is a sequence of elementary updates *)
Inductive prim : rw -> rw -> Prop :=
| p_status : forall w s, s <> 0 -> prim w (set_status w s)
| p_hook : forall w h, prim w (add_hook w h)
| p_once : forall w, prim w (set_once w)
| p_hij : forall w, prim w (set_hij w)
| p_info : forall w s, prim w (log_ev w (WInfo s))
| p_hookev : forall w i, prim w (log_ev w (WHook i))
| p_sent : forall w s, r_sent w = None -> prim w (sent_ev w s)
| p_body : forall w b s, r_sent w = Some s -> b <> [] -> prim w (add_size (log_ev w (WBody b)) (Z.of_nat (List.length b))).
Inductive prims : rw -> rw -> Prop :=
| ps_refl : forall w, prims w w
| ps_step : forall w w1 w2, prim w w1 -> prims w1 w2 -> prims w w2.
Lemma prims_one w w' : prim w w' -> prims w w'.
Proof. intros H. eapply ps_step; [exact H|apply ps_refl]. Qed.
Lemma prims_trans a b c : prims a b -> prims b c -> prims a c.
Proof. induction 1; intros; [assumption|]. eapply ps_step; eauto. Qed.

Definition oval {A} (x : out A) : A := match x with Done a | Panicked _ a | Deadlock a => a end.
Lemma oval_bind {A} (x : out A) f : oval (obind x f) = match x with Done a => oval (f a) | _ => oval x end.
Proof. destruct x; reflexivity. Qed.
Lemma prims_bind w x (f : rw -> out rw) :
  prims w (oval x) -> (forall a, prims a (oval (f a))) -> prims w (oval (obind x f)).
Proof. intros H G. destruct x; cbn [obind oval] in *; auto. eapply prims_trans; eauto. Qed.

Section Conn.
  Variable accept : list wev -> bytes -> nat.
  Lemma add_size_0 w : add_size w 0 = w.
  Proof. destruct w. unfold add_size. cbn. f_equal. lia. Qed.
  Lemma u_write_header_prims w s : prims w (oval (u_write_header w s)).
  Proof.
    unfold u_write_header. destruct (r_hij w); [apply ps_refl|]. destruct (r_sent w) eqn:E; [apply ps_refl|].
    destruct ((s <? 100) || (999 <? s)); [apply ps_refl|].
    destruct ((s <=? 199) && negb (s =? 101)); apply prims_one; constructor. exact E.
  Qed.
  Lemma u_write_prims w b : prims w (let (w', n) := u_write accept w b in add_size w' n).
  Proof.
    unfold u_write. destruct (r_hij w); [rewrite add_size_0; apply ps_refl|].
    set (w1 := match r_sent w with Some _ => w | None => sent_ev w 200 end).
    assert (H1 : prims w w1 /\ exists s, r_sent w1 = Some s).
    { unfold w1. destruct (r_sent w) eqn:E; [split; [apply ps_refl|eauto]|].
      split; [apply prims_one, p_sent, E|cbn; eauto]. }
    destruct H1 as [H1 [s Hs]]. destruct b as [|c b]; [rewrite add_size_0; exact H1|].
    rewrite Hs. destruct (no_body s); [rewrite add_size_0; exact H1|].
    destruct (firstn (accept (r_log w1) (c :: b)) (c :: b)) as [|c' b'] eqn:Ef; [rewrite add_size_0; exact H1|].
    eapply prims_trans; [exact H1|]. apply prims_one. eapply p_body; [exact Hs|discriminate].
  Qed.
  Lemma u_flush_prims w : prims w (u_flush w).
  Proof. unfold u_flush. destruct (r_hij w); [apply ps_refl|]. destruct (r_sent w) eqn:E; [apply ps_refl|apply prims_one, p_sent, E]. Qed.
  Lemma write_header_prims w s : prims w (oval (write_header w s)).
  Proof. unfold write_header. destruct (s =? 0) eqn:E; [apply ps_refl|apply prims_one, p_status]. lia. Qed.
  Lemma run_hook_prims h : forall w, prims w (oval (run_hook h w)).
  Proof.
    induction h as [|s k IH|b k IH|h IHh k IH|k IH|k IH|]; intros w; cbn [run_hook]; try apply ps_refl.
    - apply prims_bind; [apply write_header_prims|exact IH].
    - eapply prims_trans; [apply prims_one, p_hook|apply IH].
    - eapply prims_trans; [apply u_flush_prims|apply IH].
    - apply IH.
  Qed.
  Lemma call_before_prims hs i : forall w, prims w (oval (call_before hs i w)).
  Proof.
    induction i as [|j IH]; intros w; cbn [call_before]; [apply ps_refl|].
    destruct (nth_error hs j); [|apply ps_refl]. apply prims_bind; [|exact IH].
    eapply prims_trans; [apply prims_one, p_hookev|apply run_hook_prims].
  Qed.
  Lemma fire_prims w : prims w (oval (fire w)).
  Proof.
    unfold fire. eapply prims_trans; [apply prims_one, p_once|]. apply prims_bind; [apply call_before_prims|].
    intros a. cbv zeta. destruct (r_status a =? 0) eqn:E.
    - eapply prims_trans; [apply prims_one, (p_status a 200); lia|].
      destruct (r_hij (set_status a 200)); [apply ps_refl|apply u_write_header_prims].
    - destruct (r_hij a); [apply ps_refl|apply u_write_header_prims].
  Qed.
  Lemma write_prims w b : prims w (oval (write accept w b)).
  Proof.
    unfold write. apply prims_bind; [destruct (r_once w); [apply ps_refl|apply fire_prims]|].
    intros a. pose proof (u_write_prims a b). destruct (u_write accept a b). exact H.
  Qed.
  Lemma run_op_prims o w : prims w (oval (run_op accept o w)).
  Proof.
    destruct o; cbn [run_op oval].
    - apply write_header_prims.
    - apply write_prims.
    - apply prims_one, p_hook.
    - apply u_flush_prims.
    - destruct ok; [apply prims_one, p_hij|apply ps_refl].
  Qed.
  Lemma run_ops_prims os : forall w w', run_ops accept os w = Some w' -> prims w w'.
  Proof.
    induction os as [|o os IH]; cbn [run_ops]; intros w w' H; [injection H as <-; apply ps_refl|].
    pose proof (run_op_prims o w) as P. destruct (run_op accept o w); cbn [oval] in P; try discriminate;
      eapply prims_trans; eauto.
  Qed.
  Lemma run_ops_app a : forall b w, run_ops accept (a ++ b) w = match run_ops accept a w with Some w' => run_ops accept b w' | None => None end.
  Proof.
    induction a as [|o a IH]; intros b w; cbn [run_ops app]; [reflexivity|].
    destruct (run_op accept o w); auto.
  Qed.

  (** *** invariants *)
  Lemma prims_ind_inv (P : rw -> Prop) : (forall w w', prim w w' -> P w -> P w') -> forall w w', prims w w' -> P w -> P w'.
  Proof. intros H w w' R. induction R; eauto. Qed.

  Definition wire_inv (w : rw) : Prop :=
    match r_sent w with
    | None => existsb is_header (r_log w) = false /\ existsb is_body (r_log w) = false
    | Some s => exists l1 l2, r_log w = l1 ++ WHeader s :: l2 /\ existsb is_header l1 = false /\
                  existsb is_header l2 = false /\ existsb is_body l2 = false
    end.
  Lemma wire_inv_prim w w' : prim w w' -> wire_inv w -> wire_inv w'.
  Proof.
    intros P H. unfold wire_inv in *. inversion P; subst; cbn [r_sent r_log set_status add_hook set_once set_hij log_ev add_size] in *; try exact H.
    - destruct (r_sent w); [|cbn; exact H]. destruct H as (l1 & l2 & E & A & B & C). exists (WInfo s :: l1), l2. rewrite E. auto.
    - destruct (r_sent w); [|cbn; exact H]. destruct H as (l1 & l2 & E & A & B & C). exists (WHook i :: l1), l2. rewrite E. auto.
    - rewrite H0 in H. cbn. exists [], (r_log w). destruct H. auto.
    - rewrite H0 in *. destruct H as (l1 & l2 & E & A & B & C). exists (WBody b :: l1), l2. rewrite E. auto.
  Qed.
  Definition size_inv (w : rw) : Prop := r_size w = Z.of_nat (body_bytes (r_log w)).
  Lemma size_inv_prim w w' : prim w w' -> size_inv w -> size_inv w'.
  Proof.
    intros P H. unfold size_inv in *. inversion P; subst; cbn [r_size r_log set_status add_hook set_once set_hij log_ev sent_ev add_size] in *;
      try exact H; unfold body_bytes in *; cbn [map list_sum fold_right] in *; try exact H.
    rewrite H. cbn. fold (list_sum (map (fun e => match e with WBody b0 => List.length b0 | _ => O end) (r_log w))). lia.
  Qed.
  Lemma written_prim w w' : prim w w' -> written w = true -> written w' = true.
  Proof.
    intros P H. unfold written in *. inversion P; subst; cbn [r_status set_status add_hook set_once set_hij log_ev sent_ev add_size] in *; try exact H.
    destruct (s =? 0) eqn:E; [lia|reflexivity].
  Qed.

  (** *** the hooks of the first write *)
  Lemma fold_rev_seq n : forall k, hook_nos (map WHook (seq k n)) = seq k n.
  Proof. induction n as [|n IH]; intros k; cbn; [reflexivity|]. f_equal. apply IH. Qed.
  Lemma hook_nos_app a b : hook_nos (a ++ b) = hook_nos a ++ hook_nos b.
  Proof. apply flat_map_app. Qed.
  Lemma u_flush_hooks w : hook_nos (r_log (u_flush w)) = hook_nos (r_log w).
  Proof. unfold u_flush. destruct (r_hij w), (r_sent w); reflexivity. Qed.
  Lemma u_flush_once w : r_once (u_flush w) = r_once w.
  Proof. unfold u_flush. destruct (r_hij w), (r_sent w); reflexivity. Qed.
  Lemma run_hook_nos h : forall w, hook_nos (r_log (oval (run_hook h w))) = hook_nos (r_log w) /\ r_once (oval (run_hook h w)) = r_once w.
  Proof.
    induction h as [|s k IH|b k IH|h IHh k IH|k IH|k IH|]; intros w; cbn [run_hook oval]; auto.
    - unfold write_header. destruct (s =? 0); cbn [obind oval]; [auto|]. apply (IH (set_status w s)).
    - apply (IH (add_hook w h)).
    - destruct (IH (flush w)) as [A B]. rewrite A, B. split; [apply u_flush_hooks|apply u_flush_once].
  Qed.
  Lemma call_before_nos hs i : (i <= List.length hs)%nat -> forall w, exists k, (k <= i)%nat /\
    hook_nos (r_log (oval (call_before hs i w))) = seq k (i - k) ++ hook_nos (r_log w) /\
    r_once (oval (call_before hs i w)) = r_once w.
  Proof.
    induction i as [|j IH]; intros Hi w; cbn [call_before].
    - exists O. split; [lia|]. split; reflexivity.
    - destruct (nth_error hs j) as [h|] eqn:E; [|apply nth_error_None in E; lia].
      destruct (run_hook_nos h (log_ev w (WHook j))) as [A B]. cbn [log_ev r_log r_once hook_nos flat_map app] in A, B.
      change (flat_map (fun e => match e with WHook i => [i] | _ => [] end) (r_log w)) with (hook_nos (r_log w)) in A.
      destruct (run_hook h (log_ev w (WHook j))) as [w'|v w'|w']; cbn [obind oval] in *.
      + destruct (IH ltac:(lia) w') as (k & Hk & C & D). exists k. split; [lia|]. rewrite C, D, A, B.
        replace (S j - k)%nat with (j - k + 1)%nat by lia. rewrite seq_app. cbn [seq].
        replace (k + (j - k))%nat with j by lia. rewrite <- app_assoc. split; reflexivity.
      + exists j. split; [lia|]. rewrite A, B. replace (S j - j)%nat with 1%nat by lia. split; reflexivity.
      + exists j. split; [lia|]. rewrite A, B. replace (S j - j)%nat with 1%nat by lia. split; reflexivity.
  Qed.
  Lemma u_write_header_nos w s : hook_nos (r_log (oval (u_write_header w s))) = hook_nos (r_log w) /\ r_once (oval (u_write_header w s)) = r_once w.
  Proof.
    unfold u_write_header. destruct (r_hij w); [auto|]. destruct (r_sent w); [auto|].
    destruct ((s <? 100) || (999 <? s)); [auto|]. destruct ((s <=? 199) && negb (s =? 101)); auto.
  Qed.
  Lemma fire_nos w : exists k, (k <= List.length (r_hooks w))%nat /\
    hook_nos (r_log (oval (fire w))) = seq k (List.length (r_hooks w) - k) ++ hook_nos (r_log w) /\ r_once (oval (fire w)) = true.
  Proof.
    unfold fire. cbv zeta. cbn [set_once r_hooks].
    destruct (call_before_nos (r_hooks w) (List.length (r_hooks w)) (Nat.le_refl _) (set_once w)) as (k & Hk & A & B).
    exists k. split; [exact Hk|]. cbn [set_once r_log r_once] in A, B. fold (set_once w).
    destruct (call_before (r_hooks w) (List.length (r_hooks w)) (set_once w)) as [w'|v w'|w']; cbn [obind oval] in *; auto.
    set (w2 := if r_status w' =? 0 then set_status w' 200 else w').
    assert (H2 : hook_nos (r_log w2) = hook_nos (r_log w') /\ r_once w2 = r_once w') by (unfold w2; destruct (r_status w' =? 0); auto).
    destruct H2 as [H2 H3]. destruct (r_hij w2); cbn [oval]; [rewrite H2, H3, A, B; auto|].
    destruct (u_write_header_nos w2 (r_status w2)) as [C D]. rewrite C, D, H2, H3, A, B. auto.
  Qed.
  Lemma u_write_nos w b : let w' := (let (w', n) := u_write accept w b in add_size w' n) in
    hook_nos (r_log w') = hook_nos (r_log w) /\ r_once w' = r_once w.
  Proof.
    unfold u_write. destruct (r_hij w); [rewrite add_size_0; auto|].
    set (w1 := match r_sent w with Some _ => w | None => sent_ev w 200 end).
    assert (H1 : hook_nos (r_log w1) = hook_nos (r_log w) /\ r_once w1 = r_once w) by (unfold w1; destruct (r_sent w); auto).
    destruct H1 as [H1 H2]. destruct b as [|c b]; [rewrite add_size_0; auto|].
    destruct (no_body _); [rewrite add_size_0; auto|].
    destruct (firstn _ _) as [|c' b'] eqn:Ef; [rewrite add_size_0; auto|]. cbn. auto.
  Qed.
  Definition late_hooks (w : rw) (os : list op) : Prop := r_once w = true.
  Lemma run_op_nos o w : hook_nos (r_log (oval (run_op accept o w))) = hook_nos (r_log w) /\ r_once (oval (run_op accept o w)) = r_once w
    \/ (exists b, o = OWrite b) /\ r_once w = false.
  Proof.
    destruct o; cbn [run_op oval]; auto.
    - left. unfold write_header. destruct (s =? 0); auto.
    - destruct (r_once w) eqn:E; [left|right; eauto]. unfold write. rewrite E. cbn [obind].
      pose proof (u_write_nos w b) as H. destruct (u_write accept w b). cbn [oval]. rewrite <- E. exact H.
    - left. split; [apply u_flush_hooks|apply u_flush_once].
    - left. destruct ok; auto.
  Qed.
  Lemma run_ops_nos_late os : forall w w', r_once w = true -> run_ops accept os w = Some w' -> hook_nos (r_log w') = hook_nos (r_log w) /\ r_once w' = true.
  Proof.
    induction os as [|o os IH]; cbn [run_ops]; intros w w' H E; [injection E as <-; auto|].
    destruct (run_op_nos o w) as [[A B]|[_ B]]; [|congruence].
    rewrite H in B.
    destruct (run_op accept o w); cbn [oval] in *; try discriminate;
      destruct (IH _ _ B E) as [C D]; rewrite C; auto.
  Qed.
  Definition nowrite (os : list op) : Prop := forall b, ~ In (OWrite b) os.
  Lemma run_op_early o w : (forall b, o <> OWrite b) -> r_hooks (oval (run_op accept o w)) = r_hooks w ++ hooks_of [o].
  Proof.
    intros H. destruct o; cbn [run_op hooks_of flat_map app oval]; rewrite ?app_nil_r; try reflexivity.
    - unfold write_header. destruct (s =? 0); reflexivity.
    - exfalso. eapply H. reflexivity.
    - unfold flush, u_flush. destruct (r_hij w), (r_sent w); reflexivity.
    - destruct ok; reflexivity.
  Qed.
  Lemma run_ops_early os : forall w w', nowrite os -> run_ops accept os w = Some w' ->
    r_hooks w' = r_hooks w ++ hooks_of os /\ hook_nos (r_log w') = hook_nos (r_log w) /\ r_once w' = r_once w.
  Proof.
    induction os as [|o os IH]; cbn [run_ops]; intros w w' Hn E.
    - injection E as <-. cbn. rewrite app_nil_r. auto.
    - assert (Ho : forall b, o <> OWrite b) by (intros b ->; apply (Hn b); left; reflexivity).
      pose proof (run_op_early o w Ho) as Hh.
      destruct (run_op_nos o w) as [[A B]|[[b Eb] B]]; [|exfalso; apply (Ho b); exact Eb].
      assert (Hn' : nowrite os) by (intros b Hb; apply (Hn b); right; exact Hb).
      change (o :: os) with ([o] ++ os). unfold hooks_of in *. rewrite flat_map_app.
      destruct (run_op accept o w); cbn [oval] in *; try discriminate;
        destruct (IH _ _ Hn' E) as (C & D & F); rewrite C, D, F, Hh, A, B, app_assoc; auto.
  Qed.
  Lemma split_first_write os : forall b0, exists b, os ++ [OWrite b0] = pre os ++ OWrite b :: (post (os ++ [OWrite b0])).
  Proof.
    induction os as [|o os IH]; intros b0; cbn; [eauto|].
    destruct o; cbn; try (destruct (IH b0) as [b E]; exists b; cbn in *; rewrite <- E; reflexivity). eauto.
  Qed.
  Lemma pre_nowrite os : nowrite (pre os).
  Proof.
    intros b. induction os as [|o os IH]; cbn; [auto|]. destruct o; cbn; intros H; try exact H; destruct H as [H|H]; try discriminate; auto.
  Qed.
  Lemma exchange_ops os w : exchange accept os = Some w -> run_ops accept (os ++ [OWrite []]) rw0 = Some w.
  Proof.
    unfold exchange. rewrite run_ops_app. destruct (run_ops accept os rw0) as [w1|]; [|discriminate]. cbn [run_ops run_op].
    destruct (write accept w1 []); try discriminate. auto.
  Qed.
  Lemma exchange_split os w : exchange accept os = Some w -> exists b w1,
    run_ops accept (pre os) rw0 = Some w1 /\
    match run_op accept (OWrite b) w1 with Deadlock _ => False | o => run_ops accept (post (os ++ [OWrite []])) (oval o) = Some w end.
  Proof.
    intros H. apply exchange_ops in H. destruct (split_first_write os []) as [b E]. rewrite E in H at 1. rewrite run_ops_app in H.
    destruct (run_ops accept (pre os) rw0) as [w1|]; [|discriminate]. exists b, w1. split; [reflexivity|].
    cbn [run_ops] in H. destruct (run_op accept (OWrite b) w1); [exact H|exact H|discriminate].
  Qed.
  Lemma exchange_nos os w : exchange accept os = Some w ->
    let n := List.length (hooks_of (pre os)) in
    exists k, (k <= n)%nat /\ hook_nos (r_log w) = seq k (n - k).
  Proof.
    intros H n. destruct (exchange_split os w H) as (b & w1 & E1 & E2).
    destruct (run_ops_early _ _ _ (pre_nowrite os) E1) as (A & B & C). cbn [rw0 r_hooks r_log r_once app hook_nos flat_map] in A, B, C.
    unfold n. rewrite <- A.
    cbn [run_op] in E2. unfold write in E2. rewrite C in E2.
    destruct (fire_nos w1) as (k & Hk & D & F). exists k. split; [exact Hk|].
    rewrite B, app_nil_r in D. rewrite <- D.
    destruct (fire w1) as [w2|v w2|w2]; cbn [obind oval] in *.
    - pose proof (u_write_nos w2 b) as [G1 G2]. destruct (u_write accept w2 b) as [w3 m]. cbn [oval] in *.
      destruct (run_ops_nos_late _ (add_size w3 m) w ltac:(congruence) E2) as [I _]. rewrite I. exact G1.
    - destruct (run_ops_nos_late _ w2 w F E2) as [I _]. exact I.
    - contradiction.
  Qed.

  (** *** the exact log, for calm hooks *)
  Lemma run_hook_calm h : forall w, calm h -> r_size w = 0 -> exists hs,
    run_hook h w = Done (RW (hook_leaves h (r_status w)) 0 (r_hooks w ++ hs) (r_once w) (r_hij w) (r_sent w) (r_log w)).
  Proof.
    induction h as [|s k IH|b k IH|h IHh k IH|k IH|k IH|]; intros w Hc Hs; cbn [calm] in Hc; try contradiction; cbn [run_hook hook_leaves].
    - exists []. rewrite app_nil_r. destruct w. cbn in *. congruence.
    - destruct Hc as [H0 Hc]. unfold write_header. replace (s =? 0) with false by lia. cbn [obind].
      apply (IH (set_status w s) Hc Hs).
    - destruct (IH (before w h) Hc Hs) as (hs & E). exists ([h] ++ hs). rewrite E. cbn. rewrite <- app_assoc. reflexivity.
    - unfold status, size, written. rewrite Hs. apply IH; [apply Hc|exact Hs].
  Qed.
  Lemma call_before_calm hs i : (i <= List.length hs)%nat -> forall w, Forall calm hs -> r_size w = 0 -> exists hs',
    call_before hs i w = Done (RW (fold_left (fun s h => hook_leaves h s) (rev (firstn i hs)) (r_status w)) 0 (r_hooks w ++ hs')
      (r_once w) (r_hij w) (r_sent w) (map WHook (seq 0 i) ++ r_log w)).
  Proof.
    induction i as [|j IH]; intros Hi w Hc Hs; cbn [call_before].
    - exists []. rewrite app_nil_r. destruct w. cbn in *. congruence.
    - destruct (nth_error hs j) as [h|] eqn:E; [|apply nth_error_None in E; lia].
      assert (Hh : calm h) by (rewrite Forall_forall in Hc; apply Hc; eapply nth_error_In; eauto).
      destruct (run_hook_calm h (log_ev w (WHook j)) Hh Hs) as (h1 & E1). rewrite E1. cbn [obind log_ev r_status r_hooks r_once r_hij r_sent r_log].
      edestruct (IH ltac:(lia)) as (h2 & E2); [exact Hc| |].
      2:{ rewrite E2. cbn [r_status r_hooks r_once r_hij r_sent r_log]. exists (h1 ++ h2). f_equal. f_equal.
          - assert (Ef : firstn (S j) hs = firstn j hs ++ [h]).
            { clear -E. revert j E. induction hs as [|x hs IH]; intros [|j] E; cbn in *; try discriminate; [congruence|]. f_equal. apply IH, E. }
            rewrite Ef, rev_app_distr. reflexivity.
          - rewrite <- app_assoc. reflexivity.
          - replace (S j) with (j + 1)%nat by lia. rewrite seq_app, map_app, <- app_assoc. reflexivity. }
      reflexivity.
  Qed.
  Definition quiet_op (o : op) : Prop := match o with OFlush => False | OHijack true => False | _ => True end.
  Lemma run_ops_pre os : forall w, nowrite os -> Forall quiet_op os ->
    run_ops accept os w = Some (RW
      (fold_left (fun s o => match o with OWriteHeader s' => if s' =? 0 then s else s' | _ => s end) os (r_status w))
      (r_size w) (r_hooks w ++ hooks_of os) (r_once w) (r_hij w) (r_sent w) (r_log w)).
  Proof.
    induction os as [|o os IH]; intros w Hn Hq; cbn [run_ops fold_left].
    - cbn. rewrite app_nil_r. destruct w; reflexivity.
    - inversion Hq as [|o' os' Q1 Q2]; subst. assert (Hn' : nowrite os) by (intros b Hb; apply (Hn b); right; exact Hb).
      destruct o; cbn [run_op quiet_op] in *; try contradiction.
      + unfold write_header. destruct (s =? 0) eqn:E; rewrite IH by assumption; reflexivity.
      + exfalso. apply (Hn b). left. reflexivity.
      + rewrite IH by assumption. cbn. rewrite <- app_assoc. reflexivity.
      + destruct ok; [contradiction|]. cbn [hijack]. rewrite IH by assumption. reflexivity.
  Qed.
  (** once the header left, later calls only add body bytes to the log *)
  Definition later (s : Z) (l0 : list wev) (w : rw) : Prop :=
    r_once w = true /\ r_sent w = Some s /\ exists bodies, r_log w = map WBody bodies ++ l0.
  Lemma run_op_later s l0 o w : later s l0 w -> exists w',
    (run_op accept o w = Done w' \/ run_op accept o w = Panicked false w' /\ forall b, o <> OWrite b) /\ later s l0 w' /\
    r_status w' = match o with OWriteHeader s' => if s' =? 0 then r_status w else s' | _ => r_status w end.
  Proof.
    intros (H1 & H2 & bodies & H3). destruct o; cbn [run_op].
    - unfold write_header. destruct (s0 =? 0); eexists; (split; [first [left; reflexivity | right; split; [reflexivity|discriminate]]|]); (split; [|reflexivity]); unfold later; cbn; eauto.
    - unfold write. rewrite H1. cbn [obind]. unfold u_write. rewrite H2.
      destruct (r_hij w); [eexists; split; [eauto|]; rewrite add_size_0; split; [unfold later; eauto|reflexivity]|].
      destruct b as [|c b]; [eexists; split; [eauto|]; rewrite add_size_0; split; [unfold later; eauto|reflexivity]|].
      rewrite H2. destruct (no_body s); [eexists; split; [eauto|]; rewrite add_size_0; split; [unfold later; eauto|reflexivity]|].
      destruct (firstn _ _) as [|c' b'] eqn:Ef; [eexists; split; [eauto|]; rewrite add_size_0; split; [unfold later; eauto|reflexivity]|].
      eexists; split; [eauto|]. split; [|reflexivity]. unfold later. cbn. repeat split; auto. exists ((c' :: b') :: bodies). cbn. rewrite H3. reflexivity.
    - eexists; split; [eauto|]. split; [|reflexivity]. unfold later. cbn. eauto.
    - unfold flush, u_flush. rewrite H2. exists w. split; [left; destruct (r_hij w); reflexivity|]. split; [unfold later; eauto|reflexivity].
    - eexists; split; [eauto|]. split; [|destruct ok; reflexivity]. destruct ok; unfold later; cbn; eauto.
  Qed.
  Lemma run_ops_later s l0 os : forall w, later s l0 w -> exists w', run_ops accept os w = Some w' /\ later s l0 w' /\
    r_status w' = fold_left (fun s o => match o with OWriteHeader s' => if s' =? 0 then s else s' | _ => s end) os (r_status w).
  Proof.
    induction os as [|o os IH]; intros w H; cbn [run_ops fold_left]; [eauto|].
    destruct (run_op_later s l0 o w H) as (w1 & E & H1 & S1). destruct (IH w1 H1) as (w2 & E2 & H2 & S2).
    exists w2. rewrite <- S1. split; [|auto]. destruct E as [-> | [-> _]]; exact E2.
  Qed.
  Lemma final_code_sends w s : r_hij w = false -> r_sent w = None -> final_code s -> u_write_header w s = Done (sent_ev w s).
  Proof.
    intros A B C. unfold u_write_header. rewrite A, B. unfold final_code in C.
    replace ((s <? 100) || (999 <? s)) with false by (symmetry; apply orb_false_iff; lia).
    destruct (s <=? 199) eqn:E; cbn [andb]; [|reflexivity]. replace (s =? 101) with true by lia. reflexivity.
  Qed.
  Lemma first_write_calm os b : Forall quiet_op (pre os) -> Forall calm (hooks_of (pre os)) -> final_code (wire_status os) ->
    exists w1 w2, run_ops accept (pre os) rw0 = Some w1 /\ write accept w1 b = Done w2 /\
      later (wire_status os) (WHeader (wire_status os) :: map WHook (seq 0 (List.length (hooks_of (pre os))))) w2 /\
      r_status w2 = wire_status os.
  Proof.
    intros Hq Hc Hf.
    rewrite (run_ops_pre _ rw0 (pre_nowrite os) Hq).
    cbn [rw0 r_status r_size r_hooks r_once r_hij r_sent r_log app]. fold (last_status (pre os)).
    set (hs := hooks_of (pre os)) in *. match goal with |- context [Some ?x = Some _] => exists x end. unfold write. cbn [r_once]. unfold fire. cbn [set_once r_hooks].
    set (wa := set_once _).
    assert (Hwa : r_size wa = 0) by reflexivity.
    destruct (call_before_calm hs (List.length hs) (Nat.le_refl _) wa Hc Hwa) as (h1 & E1).
    rewrite E1. unfold wa, set_once.
    cbn [obind r_status r_size r_hooks r_once r_hij r_sent r_log]. rewrite firstn_all.
    set (s1 := fold_left _ (rev hs) _).
    assert (Hw : wire_status os = if s1 =? 0 then 200 else s1) by reflexivity.
    set (w2 := if s1 =? 0 then set_status _ 200 else _).
    assert (W2 : w2 = RW (wire_status os) 0 (hs ++ h1) true false None (map WHook (seq 0 (List.length hs)) ++ [])).
    { unfold w2. rewrite Hw. destruct (s1 =? 0); reflexivity. }
    cbv zeta. rewrite W2. cbn [r_hij r_status]. rewrite final_code_sends by (reflexivity || exact Hf).
    cbn [obind]. rewrite app_nil_r.
    set (w3 := sent_ev _ _).
    assert (L3 : later (wire_status os) (WHeader (wire_status os) :: map WHook (seq 0 (List.length hs))) w3).
    { unfold later, w3. cbn. repeat split. exists []. reflexivity. }
    assert (Hs3 : r_status w3 = wire_status os) by reflexivity.
    destruct (run_op_later _ _ (OWrite b) w3 L3) as (w4 & E4 & L4 & S4). cbn [run_op] in E4. unfold write in E4.
    replace (r_once w3) with true in E4 by reflexivity. cbn [obind] in E4.
    destruct (u_write accept w3 b) as [wx nx]. destruct E4 as [[= <-]|[? _]]; [|discriminate].
    eexists. split; [reflexivity|]. split; [reflexivity|]. split; [exact L4|]. rewrite S4. exact Hs3.
  Qed.
  Lemma split_or os : pre os = os /\ post os = [] \/ exists b, os = pre os ++ OWrite b :: post os.
  Proof.
    induction os as [|o os IH]; cbn; [auto|].
    destruct o; cbn; try (destruct IH as [[IH1 IH2]|[b E]]; [left; rewrite IH1; auto|right; exists b; congruence]). right. eauto.
  Qed.
  Lemma exchange_calm os : Forall quiet_op (pre os) -> Forall calm (hooks_of (pre os)) -> final_code (wire_status os) ->
    exists w bodies, exchange accept os = Some w /\ r_sent w = Some (wire_status os) /\
      r_log w = map WBody bodies ++ WHeader (wire_status os) :: map WHook (seq 0 (List.length (hooks_of (pre os)))) /\
      r_status w = fold_left (fun s o => match o with OWriteHeader s' => if s' =? 0 then s else s' | _ => s end) (post os) (wire_status os).
  Proof.
    intros Hq Hc Hf. unfold exchange. destruct (split_or os) as [[E Ep]|[b E]].
    - destruct (first_write_calm os [] Hq Hc Hf) as (w1 & w2 & E1 & E2 & (A & B & bodies & C) & D).
      assert (E1' : run_ops accept os rw0 = Some w1) by (rewrite E in E1; exact E1).
      rewrite E1', E2, Ep. exists w2, bodies. auto.
    - destruct (first_write_calm os b Hq Hc Hf) as (w1 & w2 & E1 & E2 & L2 & D).
      destruct (run_ops_later _ _ (post os) w2 L2) as (w5 & E5 & L5 & S5).
      assert (E' : run_ops accept os rw0 = Some w5).
      { rewrite E, run_ops_app, E1. cbn [run_ops run_op]. rewrite E2. exact E5. }
      rewrite E'.
      destruct (run_op_later _ _ (OWrite []) w5 L5) as (w6 & E6 & (A6 & B6 & bodies & C6) & S6). cbn [run_op] in E6.
      destruct E6 as [E6|[_ E6]]; [|exfalso; apply (E6 []); reflexivity].
      rewrite E6. exists w6, bodies. rewrite S6, S5, D. auto.
  Qed.

  (** *** hijacking *)
  Lemma prim_hij w w' : prim w w' -> r_hij w' = r_hij w \/ w' = set_hij w.
  Proof. destruct 1; auto. Qed.
  Lemma run_hook_hij h : forall w, r_hij (oval (run_hook h w)) = r_hij w.
  Proof.
    induction h as [|s k IH|b k IH|h IHh k IH|k IH|k IH|]; intros w; cbn [run_hook oval]; auto.
    - unfold write_header. destruct (s =? 0); cbn [obind oval]; [auto|]. apply (IH (set_status w s)).
    - apply (IH (add_hook w h)).
    - rewrite IH. unfold flush, u_flush. destruct (r_hij w) eqn:E, (r_sent w); cbn; auto.
  Qed.
  Lemma call_before_hij hs i : forall w, r_hij (oval (call_before hs i w)) = r_hij w.
  Proof.
    induction i as [|j IH]; intros w; cbn [call_before]; [reflexivity|]. destruct (nth_error hs j) as [h|]; [|reflexivity].
    pose proof (run_hook_hij h (log_ev w (WHook j))) as H. destruct (run_hook h _); cbn [obind oval] in *; auto. rewrite IH. exact H.
  Qed.
  Lemma u_write_header_hij w s : r_hij (oval (u_write_header w s)) = r_hij w.
  Proof.
    unfold u_write_header. destruct (r_hij w) eqn:E; [exact E|]. destruct (r_sent w); [exact E|].
    destruct ((s <? 100) || (999 <? s)); [exact E|]. destruct ((s <=? 199) && negb (s =? 101)); exact E.
  Qed.
  Lemma fire_hij w : r_hij (oval (fire w)) = r_hij w.
  Proof.
    unfold fire. cbv zeta. cbn [set_once r_hooks]. fold (set_once w).
    pose proof (call_before_hij (r_hooks w) (List.length (r_hooks w)) (set_once w)) as H.
    destruct (call_before _ _ _) as [a|v a|a]; cbn [obind oval] in *; auto.
    set (a2 := if r_status a =? 0 then set_status a 200 else a).
    assert (H2 : r_hij a2 = r_hij w) by (unfold a2; destruct (r_status a =? 0); exact H).
    destruct (r_hij a2) eqn:E; cbn [oval]; [congruence|]. rewrite u_write_header_hij. congruence.
  Qed.
  Lemma u_write_sent w b : r_hij w = false -> r_hij (fst (u_write accept w b)) = false /\ r_sent (fst (u_write accept w b)) <> None.
  Proof.
    intros H. unfold u_write. rewrite H. set (w1 := match r_sent w with Some _ => w | None => sent_ev w 200 end).
    assert (H1 : r_hij w1 = false /\ r_sent w1 <> None) by (unfold w1; destruct (r_sent w) eqn:E; cbn; rewrite ?E; split; auto; discriminate).
    destruct b as [|c b]; [exact H1|]. destruct (no_body _); [exact H1|]. destruct (firstn _ _); exact H1.
  Qed.
  Lemma write_hij w b : r_hij w = false -> r_hij (oval (write accept w b)) = false.
  Proof.
    intros H. unfold write. destruct (r_once w) eqn:E.
    - cbn [obind]. destruct (u_write_sent w b H) as [A _]. destruct (u_write accept w b). exact A.
    - pose proof (fire_hij w) as F. destruct (fire w) as [a|v a|a]; cbn [obind oval] in *; try congruence.
      destruct (u_write_sent a b ltac:(congruence)) as [A _]. destruct (u_write accept a b). exact A.
  Qed.
  Lemma write_sends w b w' : r_hij w = false -> write accept w b = Done w' -> r_sent w' <> None.
  Proof.
    intros H. unfold write. destruct (r_once w) eqn:E.
    - cbn [obind]. destruct (u_write_sent w b H) as [_ A]. destruct (u_write accept w b). intros [= <-]. exact A.
    - pose proof (fire_hij w) as F. destruct (fire w) as [a|v a|a]; cbn [obind oval] in *; try discriminate.
      destruct (u_write_sent a b ltac:(congruence)) as [_ A]. destruct (u_write accept a b). intros [= <-]. exact A.
  Qed.
  Lemma run_ops_hij os : forall w w', ~ In (OHijack true) os -> r_hij w = false -> run_ops accept os w = Some w' -> r_hij w' = false.
  Proof.
    induction os as [|o os IH]; intros w w' Hn Hr E; cbn [run_ops] in E; [injection E as <-; exact Hr|].
    assert (Hp : r_hij (oval (run_op accept o w)) = false).
    { destruct o; cbn [run_op oval].
      - unfold write_header. destruct (s =? 0); exact Hr.
      - apply write_hij. exact Hr.
      - exact Hr.
      - unfold flush, u_flush. rewrite Hr. destruct (r_sent w); exact Hr.
      - destruct ok; [exfalso; apply Hn; left; reflexivity|exact Hr]. }
    assert (Hn' : ~ In (OHijack true) os) by (intros X; apply Hn; right; exact X).
    destruct (run_op accept o w); cbn [oval] in Hp; try discriminate; eapply IH; eauto.
  Qed.
  Lemma exchange_prims os w : exchange accept os = Some w -> prims rw0 w.
  Proof. intros H. apply exchange_ops in H. apply run_ops_prims in H. exact H. Qed.

  (** *** Written *)
  Lemma fire_calm_written w w' : fire w = Done w' -> written w' = true.
  Proof.
    unfold fire. cbv zeta. destruct (call_before _ _ _) as [a|v a|a]; cbn [obind]; try discriminate.
    set (a2 := if r_status a =? 0 then set_status a 200 else a).
    assert (W2 : written a2 = true) by (unfold a2, written; destruct (r_status a =? 0) eqn:E; cbn; [reflexivity|rewrite E; reflexivity]).
    destruct (r_hij a2); [intros [= <-]; exact W2|]. intros H.
    pose proof (u_write_header_prims a2 (r_status a2)) as P. rewrite H in P. cbn [oval] in P.
    exact (prims_ind_inv (fun w => written w = true) written_prim _ _ P W2).
  Qed.
  Lemma run_hook_calm_done h : forall w, calm h -> exists w', run_hook h w = Done w'.
  Proof.
    induction h as [|s k IH|b k IH|h IHh k IH|k IH|k IH|]; intros w Hc; cbn [calm] in Hc; try contradiction; cbn [run_hook]; eauto.
    destruct Hc as [H0 Hc]. unfold write_header. replace (s =? 0) with false by lia. cbn [obind]. auto.
  Qed.
  Lemma call_before_calm_done hs i : (i <= List.length hs)%nat -> Forall calm hs -> forall w, exists w', call_before hs i w = Done w'.
  Proof.
    intros Hi Hc. induction i as [|j IH]; intros w; cbn [call_before]; [eauto|].
    destruct (nth_error hs j) as [h|] eqn:E; [|apply nth_error_None in E; lia].
    assert (Hh : calm h) by (rewrite Forall_forall in Hc; apply Hc; eapply nth_error_In; eauto).
    destruct (run_hook_calm_done h (log_ev w (WHook j)) Hh) as [w' ->]. cbn [obind]. apply IH. lia.
  Qed.
  Lemma fire_calm w : Forall calm (r_hooks w) -> (exists v w', fire w = Panicked v w' /\ written w' = true) \/ exists w', fire w = Done w'.
  Proof.
    intros Hc. unfold fire. cbv zeta. cbn [set_once r_hooks]. fold (set_once w).
    destruct (call_before_calm_done (r_hooks w) (List.length (r_hooks w)) (Nat.le_refl _) Hc (set_once w)) as [a ->]. cbn [obind].
    set (a2 := if r_status a =? 0 then set_status a 200 else a).
    assert (W2 : written a2 = true) by (unfold a2, written; destruct (r_status a =? 0) eqn:E; cbn; [reflexivity|rewrite E; reflexivity]).
    destruct (r_hij a2); [eauto|]. unfold u_write_header. destruct (r_hij a2); [eauto|]. destruct (r_sent a2); [eauto|].
    destruct ((_ <? 100) || _); [left; eauto|]. destruct ((_ <=? 199) && _); eauto.
  Qed.
  Lemma u_write_status w b : r_status (let (w', n) := u_write accept w b in add_size w' n) = r_status w.
  Proof.
    unfold u_write. destruct (r_hij w); [rewrite add_size_0; reflexivity|].
    set (w1 := match r_sent w with Some _ => w | None => sent_ev w 200 end).
    assert (H1 : r_status w1 = r_status w) by (unfold w1; destruct (r_sent w); reflexivity).
    destruct b as [|c b]; [rewrite add_size_0; exact H1|]. destruct (no_body _); [rewrite add_size_0; exact H1|].
    destruct (firstn _ _); [rewrite add_size_0; exact H1|]. exact H1.
  Qed.
  Definition wr_inv (w : rw) : Prop := (r_once w = false -> Forall calm (r_hooks w)) /\ (r_once w = true -> written w = true).
  Definition marks (o : op) : bool := match o with OWriteHeader s => negb (s =? 0) | OWrite _ => true | _ => false end.
  Lemma run_op_written o w : wr_inv w -> Forall calm (hooks_of [o]) ->
    wr_inv (oval (run_op accept o w)) /\ written (oval (run_op accept o w)) = written w || marks o.
  Proof.
    intros [I1 I2] Hc. destruct o; cbn [run_op oval marks].
    - unfold write_header. destruct (s =? 0) eqn:E; cbn [oval negb]; rewrite ?orb_false_r, ?orb_true_r.
      + split; [split|]; auto.
      + split; [split|]; cbn; auto; intros; unfold written; cbn; rewrite E; reflexivity.
    - rewrite orb_true_r. unfold write. destruct (r_once w) eqn:Eo.
      + cbn [obind]. pose proof (u_write_status w b) as S. pose proof (u_write_nos w b) as [_ O].
        destruct (u_write accept w b) as [w' n]. cbn [oval] in *. unfold wr_inv, written in *. rewrite S, O, Eo.
        split; [split; [discriminate|]|]; auto.
      + destruct (fire_calm w (I1 eq_refl)) as [(v & w' & E & Wr)|(w' & E)].
        * destruct (fire_nos w) as (k & _ & _ & Ho). rewrite E in *. cbn [obind oval] in *. unfold wr_inv. rewrite Ho.
          split; [split; [discriminate|]|]; auto.
        * pose proof (fire_calm_written w w' E) as Wr. destruct (fire_nos w) as (k & _ & _ & Ho). rewrite E in *. cbn [obind oval] in *.
          pose proof (u_write_status w' b) as S. pose proof (u_write_nos w' b) as [_ O].
          destruct (u_write accept w' b) as [w3 n]. cbn [oval] in *. unfold wr_inv, written in *. rewrite S, O, Ho.
          split; [split; [discriminate|]|]; auto.
    - rewrite orb_false_r. split; [split|]; cbn in *; auto. intros Ho. apply Forall_app. auto.
    - rewrite orb_false_r. unfold flush, u_flush. destruct (r_hij w), (r_sent w); cbn; unfold wr_inv; auto.
    - rewrite orb_false_r. destruct ok; cbn; unfold wr_inv; auto.
  Qed.
  Lemma run_ops_written os : forall w w', wr_inv w -> Forall calm (hooks_of os) -> run_ops accept os w = Some w' ->
    written w' = written w || existsb marks os.
  Proof.
    induction os as [|o os IH]; intros w w' I Hc E; cbn [run_ops existsb] in *; [injection E as <-; rewrite orb_false_r; reflexivity|].
    change (o :: os) with ([o] ++ os) in Hc. unfold hooks_of in Hc. rewrite flat_map_app in Hc. apply Forall_app in Hc as [H1 H2].
    destruct (run_op_written o w I H1) as [I' Wr]. rewrite orb_assoc, <- Wr.
    destruct (run_op accept o w); cbn [oval] in *; try discriminate; apply IH; auto.
  Qed.
End Conn.
