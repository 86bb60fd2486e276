(** Props_Chain: C16-C20, the handler chains of a request, and what C21-C25 mean
    for whole requests. [accept], filters, routes and actions are arbitrary. *)
From Coq Require Import List Ascii String Bool Arith ZArith Lia Sorting.Sorted.
Import ListNotations.
From Verif Require Import GoStr RespModel RespSpec RespFacts ChainModel ChainFacts Props_Resp.

(** ** C16 *)
(** order in which handlers of a request may start: app filters, the route
    handler (the last of the outer chain), route filters, action *)
Definition earlier (a b : lvl * nat) : Prop :=
  match a, b with
  | (Outer, i), (Outer, j) => i < j
  | (Outer, _), (Inner, _) => True
  | (Inner, i), (Inner, j) => i < j
  | (Inner, _), (Outer, _) => False
  end.
(** the non-nil handlers of a request *)
Definition exists_handler (fs : list (option act)) (rc : route_chain) (p : lvl * nat) : Prop :=
  match p with
  | (Outer, i) => (exists a, nth_error fs i = Some (Some a)) \/ i = List.length fs
  | (Inner, j) => (exists a, nth_error (rc_filters rc) j = Some (Some a)) \/ (j = List.length (rc_filters rc) /\ rc_action rc <> None)
  end.
(** whatever the handlers do - panics, writes, several Next - and however the
    request ends, each is started at most once and in order *)
Theorem C16_at_most_once_in_order : forall accept fs rc,
  let tr := w_tr (snd (oval (serve_chain accept fs rc))) in
  StronglySorted earlier (starts tr) /\ NoDup (starts tr) /\ Forall (exists_handler fs rc) (starts tr).
Proof.
  intros accept fs rc tr.
  destruct (outer_order accept fs rc (S (S (ch_len (app_chain accept fs rc)))) (0, w0)) as (d & A & B & C & D).
  fold (start Outer (app_chain accept fs rc) w0) in A. fold (serve_chain accept fs rc) in A.
  unfold tr. rewrite A. cbn [snd w0 w_tr]. rewrite app_nil_r.
  assert (Hv : Forall (exists_handler fs rc) (starts d)).
  { eapply Forall_impl; [|exact D]. cbn. intros [[|] i] [_ V]; exact V. }
  assert (Hi : forall i, In (Outer, i) (starts d) -> i <= List.length fs).
  { intros i Hin. rewrite Forall_forall in Hv. destruct (Hv _ Hin) as [[a E]| ->]; [|lia].
    assert (nth_error fs i <> None) by congruence. apply nth_error_Some in H. lia. }
  assert (Hs : StronglySorted earlier (starts d)).
  { clear -C Hi. induction (starts d) as [|x l IH]; [constructor|]. cbn [map] in C. inversion C as [|? ? C1 F]; subst. constructor.
    - apply IH; [exact C1|]. intros i H. apply Hi. right. exact H.
    - apply Forall_forall. intros y Hy. rewrite Forall_forall in F. specialize (F _ (in_map _ _ _ Hy)).
      destruct x as [[|] i], y as [[|] j]; unfold plt in F; cbn in *; auto; try lia.
      specialize (Hi j (or_intror Hy)). lia. }
  split; [exact Hs|]. split; [|exact Hv].
  clear -Hs. induction Hs as [|x l S IH F]; constructor; auto. intros Hin. rewrite Forall_forall in F. specialize (F _ Hin).
  destruct x as [[|] i]; cbn in F; lia.
Qed.
(** an adversarial chain: a filter that calls Next three times under a recover,
    a filter that panics after Next, a route filter that writes *)
Definition bad_fs : list (option act) :=
  [Some (ATry (ANext (ANext (ANext ARet))) (fun _ => ANext ARet) ARet); None; Some (ANext (APanic false)); Some ARet].
Definition bad_rc : route_chain := RC [Some ARet; Some (AOp (OWrite (bs "x")) ARet); Some ARet] (Some ARet).
Example C16_example : starts (w_tr (snd (oval (serve_chain all_of bad_fs bad_rc)))) =
  [(Outer, 0); (Outer, 2); (Outer, 3); (Outer, 4); (Inner, 0); (Inner, 1)].
Proof. vm_compute. reflexivity. Qed.

(** ** C17 *)
Definition here {A} (fs : list (option A)) (i : nat) : bool := match nth_error fs i with Some (Some _) => true | _ => false end.
(** every non-nil handler, in order *)
Definition all_starts (fs : list (option act)) (rc : route_chain) : list (lvl * nat) :=
  map (pair Outer) (filter (here fs) (seq 0 (List.length fs))) ++ [(Outer, List.length fs)] ++
  map (pair Inner) (filter (here (rc_filters rc)) (seq 0 (List.length (rc_filters rc)))) ++
  match rc_action rc with Some _ => [(Inner, List.length (rc_filters rc))] | None => [] end.
Lemma exp_filters accept l (fs : list (option act)) a sub : (forall j, j < List.length fs -> sub j = []) ->
  let c := Ch (map (option_map (exec accept)) fs) a in
  exp_from l c sub 0 = map (pair l) (filter (here fs) (seq 0 (List.length fs))) ++
    match a with Some _ => (l, List.length fs) :: sub (List.length fs) | None => [] end.
Proof.
  intros Hs c. unfold exp_from, exp_at, c, ch_len. cbn [ch_filters]. rewrite map_length.
  replace (S (List.length fs) - 0) with (List.length fs + 1) by lia. rewrite seq_app, flat_map_app. f_equal.
  - assert (G : forall l0, (forall j, In j l0 -> j < List.length fs) -> 
      flat_map (fun j => match ch_handler (Ch (map (option_map (exec accept)) fs) a) j with Some _ => (l, j) :: sub j | None => [] end) l0 =
      map (pair l) (filter (here fs) l0)).
    { induction l0 as [|j l0 IH]; intros Hj; [reflexivity|]. cbn [flat_map filter]. rewrite IH by (intros; apply Hj; right; assumption).
      assert (Hl : j < List.length fs) by (apply Hj; left; reflexivity).
      unfold ch_handler, ch_len, here. cbn [ch_filters]. rewrite map_length. replace (Nat.ltb j (List.length fs)) with true by (symmetry; apply Nat.ltb_lt, Hl).
      rewrite nth_error_map. destruct (nth_error fs j) as [[x|]|]; cbn; rewrite ?(Hs j Hl); reflexivity. }
    apply G. intros j Hj. apply in_seq in Hj. lia.
  - cbn [seq flat_map Nat.add]. unfold ch_handler, ch_len. cbn [ch_filters ch_action]. rewrite map_length, Nat.ltb_irrefl, Nat.eqb_refl.
    destruct a; cbn; rewrite ?app_nil_r; reflexivity.
Qed.
Theorem C17_untouched_chains_complete : forall accept fs rc,
  Forall (opt_all silent) fs -> Forall (opt_all silent) (rc_filters rc) -> opt_all silent (rc_action rc) ->
  exists s, serve_chain accept fs rc = Done s /\ starts (w_tr (snd s)) = all_starts fs rc /\ written (w_rw (snd s)) = false.
Proof.
  intros accept fs rc Hf Hr Ha. destruct (outer_silent accept fs rc Hf Hr Ha) as (s & E & U & S). exists s. split; [exact E|]. split; [|exact U].
  unfold sts in S. rewrite S. unfold app_chain. rewrite exp_filters.
  - unfold all_starts. f_equal. cbn [app]. f_equal. unfold outer_sub. rewrite Nat.eqb_refl. unfold inner_chain.
    rewrite exp_filters by reflexivity. destruct (rc_action rc); reflexivity.
  - intros j Hj. unfold outer_sub. replace (Nat.eqb j (List.length fs)) with false; [reflexivity|]. symmetry. apply Nat.eqb_neq. lia.
Qed.
Definition calm_fs : list (option act) := [Some (ANext (ANext ARet)); Some (AOp (OBefore HPanic) ARet); None; Some (ATry (ANext ARet) (fun _ => APanic false) (AOp OFlush ARet))].
Definition calm_rc : route_chain := RC [Some (ASee (fun _ _ w => if w then ARet else ANext ARet)); Some ARet] (Some (ANext ARet)).
Example C17_example : Forall (opt_all silent) calm_fs /\ Forall (opt_all silent) (rc_filters calm_rc) /\ opt_all silent (rc_action calm_rc) /\
  all_starts calm_fs calm_rc = [(Outer, 0); (Outer, 1); (Outer, 3); (Outer, 4); (Inner, 0); (Inner, 1); (Inner, 2)].
Proof. repeat split; repeat constructor. intros x y []; exact I. Qed.

(** ** C18 *)
(** a handler that starts while the response is marked written was started by
    an explicit Next (the event just before it), or is the first handler of the
    nested chain, right after the route handler started *)
Theorem C18_no_start_after_written : forall accept fs rc t1 l i t2,
  w_tr (snd (oval (serve_chain accept fs rc))) = t1 ++ EStart l i true :: t2 ->
  exists e t3, t2 = e :: t3 /\ (e = ENext \/ (l = Inner /\ exists b, e = EStart Outer (List.length fs) b)).
Proof.
  intros accept fs rc t1 l i t2 E.
  assert (H : okt (List.length fs) (wtr (oval (serve_chain accept fs rc)))).
  { apply outer_okt.
    - intros a b c d X. cbn in X. destruct a; discriminate.
    - discriminate. }
  exact (H t1 l i t2 E).
Qed.
Example C18_example : exists t1 t2,
  w_tr (snd (oval (serve_chain all_of [Some (AOp (OWriteHeader 400) (ANext ARet)); Some ARet] (RC [] (Some ARet))))) = t1 ++ EStart Outer 1 true :: ENext :: t2.
Proof. exists []. eexists. vm_compute. reflexivity. Qed.

(** ** C19 *)
(** Full claim: further Next calls of a handler change nothing. False after a
    write: here filter 2 is skipped although filter 3's turn comes. *)
Definition two_nexts : act := ANext (ANext ARet).
Theorem C19_next_twice_refuted :
  let once := serve_chain all_of [Some (ANext ARet); Some (AOp (OWriteHeader 200) ARet); Some ARet; Some ARet] (RC [] (Some ARet)) in
  let twice := serve_chain all_of [Some two_nexts; Some (AOp (OWriteHeader 200) ARet); Some ARet; Some ARet] (RC [] (Some ARet)) in
  starts (w_tr (snd (oval once))) = [(Outer, 0); (Outer, 1)] /\
  starts (w_tr (snd (oval twice))) = [(Outer, 0); (Outer, 1); (Outer, 3)].
Proof. vm_compute. auto. Qed.
(** What holds: when a Next (or any run of a chain) returns and nothing was
    written, every later Next of that chain does nothing at all. *)
Theorem C19_next_twice_partial : forall l c fuel s s',
  run l c fuel s = Done s' -> written (w_rw (snd s')) = false ->
  forall fuel2 s2, fst s' <= fst s2 -> run l c (S fuel2) s2 = Done s2.
Proof.
  intros l c fuel s s' E U fuel2 s2 H. apply run_past. pose proof (run_done_end l c fuel s s' E U). lia.
Qed.
(** in particular (C17) a chain nobody stops is run completely and once, no
    matter how many Next calls there are *)
Example C19_example : exists s', run Outer (app_chain all_of calm_fs calm_rc) 6 (0, w0) = Done s' /\ written (w_rw (snd s')) = false /\ fst s' = 8.
Proof. eexists. split; [vm_compute; reflexivity|]. vm_compute. auto. Qed.

(** ** C20 *)
(** hooks that only look at the response or add hooks *)
Fixpoint quiet (h : hook) : Prop :=
  match h with HRet => True | HBefore h' k => quiet h' /\ quiet k | HSee k => forall a b c, quiet (k a b c) | _ => False end.
Lemma quiet_calm h : quiet h -> calm h.
Proof. induction h; cbn; try tauto. intros Hq a b c. apply H, Hq. Qed.
Lemma quiet_leaves h : forall s, quiet h -> hook_leaves h s = s.
Proof. induction h; cbn; intros s0; try tauto. intros [_ Hq]. auto. intros Hq. apply H, Hq. Qed.

Lemma recovery_exec accept dev page next s :
  exec accept (recovery dev page) next s =
  match next (S (fst s), note (snd s) ENext) with
  | Done s' => Done s'
  | Panicked v s' =>
      if v then Done s' else if written (w_rw (snd s')) then Done s' else
      obind (do_op accept (OWriteHeader 500) s') (fun s'' => if dev then obind (do_op accept (OWrite page) s'') Done else Done s'')
  | Deadlock s' => Deadlock s'
  end.
Proof.
  unfold recovery. cbn [exec]. destruct (next _) as [s'|v s'|s']; cbn [obind]; try reflexivity.
  destruct v; [reflexivity|]. cbn [exec]. destruct (written (w_rw (snd s'))); [reflexivity|]. cbn [exec obind].
  destruct (do_op accept (OWriteHeader 500) s'); try reflexivity. cbn [obind]. destruct dev; reflexivity.
Qed.
Lemma quiet_hook_done h : quiet h -> forall r, r_size r = 0%Z -> exists hs, run_hook h r = Done (RW (r_status r) 0 (r_hooks r ++ hs) (r_once r) (r_hij r) (r_sent r) (r_log r)).
Proof. intros Hq r Hs. destruct (run_hook_calm h r (quiet_calm h Hq) Hs) as [hs E]. rewrite quiet_leaves in E by exact Hq. eauto. Qed.

(** the chain behind the recovery filter, and the world it starts in *)
Definition behind (accept : list wev -> bytes -> nat) (dev : bool) (page : bytes) (fs : list (option act)) (rc : route_chain) : out st :=
  run Outer (app_chain accept (Some (recovery dev page) :: fs) rc) (S (S (List.length fs))) (1, note (note w0 (EStart Outer 0 false)) ENext).
Lemma serve_recovery accept dev page fs rc :
  let c := app_chain accept (Some (recovery dev page) :: fs) rc in
  serve_chain accept (Some (recovery dev page) :: fs) rc =
  obind (match behind accept dev page fs rc with
         | Done s' => Done s'
         | Panicked v s' =>
             if v then Done s' else if written (w_rw (snd s')) then Done s' else
             obind (do_op accept (OWriteHeader 500) s') (fun s'' => if dev then obind (do_op accept (OWrite page) s'') Done else Done s'')
         | Deadlock s' => Deadlock s'
         end)
    (fun s' => if written (w_rw (snd s')) then Done (S (fst s'), snd s') else run Outer c (S (S (List.length fs))) (S (fst s'), snd s')).
Proof.
  intros c. unfold serve_chain, start, behind. fold c. replace (ch_len c) with (S (List.length fs)) by (unfold c; rewrite app_len; reflexivity).
  change (run Outer c (S (S (S (List.length fs)))) (0, w0)) with
    (let f := S (S (List.length fs)) in
     if Nat.leb 0 (ch_len c) then
       match ch_handler c 0 with
       | None => run Outer c f (1, w0)
       | Some h => obind (h (run Outer c f) (0, note w0 (EStart Outer 0 (written (w_rw w0))))) (fun s' =>
           let s'' := (S (fst s'), snd s') in if written (w_rw (snd s'')) then Done s'' else run Outer c f s'')
       end else Done (0, w0)).
  cbn [Nat.leb]. replace (ch_handler c 0) with (Some (exec accept (recovery dev page))) by reflexivity.
  cbv zeta. rewrite recovery_exec. cbn [fst snd]. reflexivity.
Qed.

(** with non-nil panics and, in development mode, hooks that behave, nothing
    panics out of the chain of handlers *)
Theorem C20_no_panic_escapes_partial : forall accept dev page fs rc,
  Forall (opt_all no_nil) fs -> Forall (opt_all no_nil) (rc_filters rc) -> opt_all no_nil (rc_action rc) ->
  dev = false \/ (Forall (opt_all (act_hooks quiet)) fs /\ Forall (opt_all (act_hooks quiet)) (rc_filters rc) /\ opt_all (act_hooks quiet) (rc_action rc)) ->
  forall v s, serve_chain accept (Some (recovery dev page) :: fs) rc <> Panicked v s.
Proof.
  intros accept dev page fs rc Hf Hr Ha Hdev v s. rewrite serve_recovery.
  assert (Hf' : Forall (opt_all no_nil) (Some (recovery dev page) :: fs)).
  { constructor; [|exact Hf]. cbn. repeat split. intros []; [exact I|]. intros x y []; [exact I|]. destruct dev; exact I. }
  pose proof (outer_nn accept _ rc Hf' Hr Ha (S (S (List.length fs))) (1, note (note w0 (EStart Outer 0 false)) ENext)) as Hnn.
  fold (behind accept dev page fs rc) in Hnn.
  assert (Hq : dev = true -> forall s', behind accept dev page fs rc = Panicked false s' -> Forall quiet (r_hooks (w_rw (snd s')))).
  { intros -> s' E. destruct Hdev as [|(Q1 & Q2 & Q3)]; [discriminate|]. unfold behind in E.
    assert (H : next_live quiet 1 (run Outer (app_chain accept (Some (recovery true page) :: fs) rc) (S (S (List.length fs))))).
    { apply run_live; [|rewrite app_len; cbn; lia|lia]. intros i h Hh.
      assert (Q1' : Forall (opt_all (act_hooks quiet)) (Some (recovery true page) :: fs)).
      { constructor; [|exact Q1]. cbn. repeat split. intros []; [exact I|]. intros x y []; cbn; auto. }
      destruct (handler_outer_all accept (act_hooks quiet) _ _ _ _ Q1' Hh) as [(x & -> & Hx & Hi)|[-> ->]]; intros next s0 <- Hn Hs.
      - eapply exec_live; eauto; cbn; intros; tauto.
      - unfold route_handler.
        assert (H : nodl quiet 0 (start Inner (inner_chain accept rc) (snd s0))).
        { apply inner_live; auto; cbn; try tauto. }
        destruct (start Inner _ _); cbn [nodl fst snd] in *; auto; destruct H; (split; [assumption|lia]). }
    specialize (H (1, note (note w0 (EStart Outer 0 false)) ENext) (le_n _) ltac:(constructor)). rewrite E in H. cbn in H. apply H. }
  destruct (behind accept dev page fs rc) as [s'|v' s'|s'] eqn:Eb; cbn [obind]; [| |discriminate].
  - destruct (written (w_rw (snd s'))) eqn:Ew; [discriminate|]. unfold behind in Eb. apply run_done_end in Eb; [|exact Ew].
    rewrite run_past; [discriminate|]. cbn [fst]. lia.
  - destruct v'; [contradiction|]. destruct (written (w_rw (snd s'))) eqn:Ew; cbn [obind]; [rewrite Ew; discriminate|].
    unfold do_op at 1. cbn [run_op write_header Z.eqb obind note w_rw w_tr].
    destruct dev; [|cbn; discriminate]. specialize (Hq eq_refl s' eq_refl).
    set (r5 := set_status (w_rw (snd s')) 500).
    assert (Hd : exists r6, run_op accept (OWrite page) r5 = Done r6 /\ written r6 = true).
    { assert (W5 : written r5 = true) by reflexivity.
      assert (H5 : exists r6, (if r_once r5 then Done r5 else fire r5) = Done r6).
      { destruct (r_once r5); [eauto|]. unfold fire. cbv zeta.
        assert (G : forall hs i r, Forall quiet hs -> r_status r = 500%Z -> exists r', (i <= List.length hs -> call_before hs i r = Done r') /\ r_status r' = 500%Z).
        { intros hs i. induction i as [|j IH]; intros r Hh Hst; cbn [call_before]; [eauto|].
          destruct (nth_error hs j) as [h|] eqn:En.
          - assert (Hqh : quiet h) by (rewrite Forall_forall in Hh; apply Hh; eapply nth_error_In; eauto).
            assert (Hrh : forall h r, quiet h -> exists r', run_hook h r = Done r' /\ r_status r' = r_status r).
            { clear. intros h. induction h as [|s k IH|b k IH|h IHh k IH|k IH|k IH|]; cbn; intros r Hq; try contradiction.
              - eauto.
              - destruct Hq as [_ Hq]. destruct (IH (before r h) Hq) as (r' & A & B). eauto.
              - apply IH, Hq. }
            destruct (Hrh h (log_ev r (WHook j)) Hqh) as (r1 & E1 & S1). rewrite E1. cbn [obind].
            destruct (IH r1 Hh) as (r2 & A & B); [rewrite S1; exact Hst|]. exists r2. split; [intros; apply A; lia|exact B].
          - exists r. split; [|exact Hst]. intros Hle. apply nth_error_None in En. lia. }
        destruct (G (r_hooks (set_once r5)) (List.length (r_hooks (set_once r5))) (set_once r5) Hq eq_refl) as (r' & A & B).
        rewrite (A (Nat.le_refl _)). cbn [obind]. rewrite B. cbn [Z.eqb]. destruct (r_hij r'); [eauto|].
        unfold u_write_header. destruct (r_hij r'); [eauto|]. destruct (r_sent r'); [eauto|]. rewrite B. cbn. eauto. }
      destruct H5 as [r6 E6]. pose proof (write_prims accept r5 page) as P. cbn [run_op]. unfold write in *. rewrite E6 in *. cbn [obind] in *.
      destruct (u_write accept r6 page) as [r7 n]. eexists. split; [reflexivity|]. cbn [oval] in P.
      exact (prims_ind_inv (fun w => written w = true) written_prim _ _ P W5). }
    destruct Hd as (r6 & E6 & W6). unfold do_op. cbn [snd note w_rw w_tr fst]. fold r5. rewrite E6. cbn [obind snd w_rw]. rewrite W6. discriminate.
Qed.
(** the status it leaves: unchanged if the response was written, else 500 *)
Theorem C20_status_after_panic : forall accept page fs rc s1,
  behind accept false page fs rc = Panicked false s1 ->
  exists s, serve_chain accept (Some (recovery false page) :: fs) rc = Done s /\
    w_rw (snd s) = (if written (w_rw (snd s1)) then w_rw (snd s1) else set_status (w_rw (snd s1)) 500) /\
    status (w_rw (snd s)) = (if written (w_rw (snd s1)) then status (w_rw (snd s1)) else 500%Z).
Proof.
  intros accept page fs rc s1 E. rewrite serve_recovery, E. destruct (written (w_rw (snd s1))) eqn:Ew; cbn [obind].
  - rewrite Ew. eexists. split; [reflexivity|]. auto.
  - unfold do_op. cbn. eexists. split; [reflexivity|]. auto.
Qed.
(** and 500 is what the client gets, if nothing was written or flushed before
    the panic and the registered hooks leave the response alone *)
Theorem C20_client_gets_500 : forall accept page fs rc s1,
  behind accept false page fs rc = Panicked false s1 ->
  written (w_rw (snd s1)) = false ->
  ~ In OFlush (ops (w_tr (snd s1))) -> ~ In (OHijack true) (ops (w_tr (snd s1))) ->
  Forall quiet (hooks_of (ops (w_tr (snd s1)))) ->
  exists s, serve accept (Some (recovery false page) :: fs) rc = Done s /\ (forall c, In (WHeader c) (r_log (w_rw (snd s))) <-> c = 500%Z).
Proof.
  intros accept page fs rc s1 E Hu Hnf Hnh Hq. set (os := ops (w_tr (snd s1))) in *.
  assert (Hfaith : run_ops accept os rw0 = Some (w_rw (snd s1))).
  { assert (H : ofaithful accept (behind accept false page fs rc)).
    { apply outer_faithful. reflexivity. }
    rewrite E in H. exact H. }
  assert (Hcalm : Forall calm (hooks_of os)) by (eapply Forall_impl; [apply quiet_calm|exact Hq]).
  assert (Hnw : forall o, In o os -> marks o = false).
  { intros o Ho. destruct (marks o) eqn:Em; [|reflexivity].
    pose proof (run_ops_written accept os rw0 _ ltac:(split; cbn; auto; discriminate) Hcalm Hfaith) as W. rewrite Hu in W.
    assert (existsb marks os = true) by (apply existsb_exists; eauto). rewrite H in W. discriminate. }
  set (os' := os ++ [OWriteHeader 500]).
  assert (Hpre : pre os' = os').
  { unfold os'. clear -Hnw. induction os as [|o l IH]; [reflexivity|]. specialize (Hnw o (or_introl eq_refl)) as Ho.
    cbn [app]. destruct o; cbn [pre] in *; try (rewrite IH by (intros; apply Hnw; right; assumption); reflexivity). discriminate. }
  assert (Hh : hooks_of os' = hooks_of os) by (unfold os', hooks_of; rewrite flat_map_app; cbn; apply app_nil_r).
  assert (Hws : wire_status os' = 500%Z).
  { unfold wire_status. rewrite Hpre, Hh. unfold last_status. unfold os'. rewrite fold_left_app. cbn [fold_left Z.eqb].
    assert (G : forall hs s, Forall quiet hs -> fold_left (fun s h => hook_leaves h s) hs s = s).
    { induction hs as [|h hs IH]; intros s Hs; [reflexivity|]. inversion Hs; subst. cbn. rewrite quiet_leaves by assumption. auto. }
    rewrite G; [reflexivity|]. apply Forall_rev. exact Hq. }
  destruct (C22_wire_status_partial accept os') as (w & Ex & Hd & _).
  - rewrite Hpre. intros o Ho. unfold os' in Ho. apply in_app_iff in Ho as [Ho|[<-|[]]]; [|split; discriminate]. split; intros ->; contradiction.
  - rewrite Hpre, Hh. exact Hcalm.
  - rewrite Hws. right. lia.
  - unfold exchange in Ex. unfold os' in Ex. rewrite run_ops_app, Hfaith in Ex. cbn [run_ops run_op write_header Z.eqb] in Ex.
    unfold serve. rewrite serve_recovery, E, Hu. unfold do_op at 1. cbn [run_op write_header Z.eqb obind note w_rw w_tr snd fst written set_status r_status negb].
    unfold do_op. cbn [snd note w_rw run_op]. fold (set_status (w_rw (snd s1)) 500) in *.
    destruct (write accept (set_status (w_rw (snd s1)) 500) []) as [w'|v w'|w'] eqn:Ew; try discriminate.
    injection Ex as ->. eexists. split; [reflexivity|]. cbn [snd w_rw]. intros c. rewrite Hd, Hws. reflexivity.
Qed.
(** What fails: a hook that panics spends the header without sending it, so
    the client gets 200 while Status() says 500; and a panic(nil) (a nil
    recovered value, go.mod says go 1.13) lets the next handlers run unprotected. *)
Definition hooked : list (option act) := [Some (AOp (OBefore HPanic) ARet)].
Theorem C20_recovery_refuted :
  (exists s, serve all_of (Some (recovery false []) :: hooked) (RC [] (Some (AOp (OWrite (bs "hi")) ARet))) = Done s /\
     status (w_rw (snd s)) = 500%Z /\ In (WHeader 200) (r_log (w_rw (snd s)))) /\
  (exists s, serve_chain all_of [Some (recovery false []); Some (APanic true); Some (APanic false)] (RC [] None) = Panicked false s).
Proof. split; eexists; [split; [vm_compute; reflexivity|]|vm_compute; reflexivity]. vm_compute. auto. Qed.
Definition panicky : route_chain := RC [Some (AOp (OBefore HRet) (ANext ARet))] (Some (APanic false)).
Example C20_example : exists s1, behind all_of false [] calm_fs panicky = Panicked false s1 /\ written (w_rw (snd s1)) = false /\
  Forall (opt_all no_nil) [Some (ANext ARet)] /\ no_nil (APanic false) /\
  exists s2, behind all_of false [] [Some (ANext ARet)] panicky = Panicked false s2 /\ written (w_rw (snd s2)) = false /\ ops (w_tr (snd s2)) = [OBefore HRet].
Proof.
  eexists. split; [vm_compute; reflexivity|]. split; [reflexivity|]. split; [repeat constructor|]. split; [reflexivity|].
  eexists. split; [vm_compute; reflexivity|]. split; reflexivity.
Qed.

(** ** C93: whole requests *)
(** The response writer sees exactly the calls the handlers made, then the
    final Write(nil): so C21-C25 hold of every request that finishes. *)
Theorem C93_request_is_an_exchange : forall accept fs rc s,
  serve accept fs rc = Done s ->
  exists os, ops (w_tr (snd s)) = os ++ [OWrite []] /\ exchange accept os = Some (w_rw (snd s)).
Proof.
  intros accept fs rc s H. unfold serve in H. pose proof (outer_faithful accept fs rc (S (S (ch_len (app_chain accept fs rc)))) (0, w0) eq_refl) as F.
  fold (start Outer (app_chain accept fs rc) w0) in F. fold (serve_chain accept fs rc) in F.
  destruct (serve_chain accept fs rc) as [s0|v s0|s0]; cbn [obind] in H; try discriminate. cbn in F. unfold faithful in F.
  unfold do_op in H. cbn [note w_rw w_tr run_op] in H.
  destruct (write accept (w_rw (snd s0)) []) as [w|v w|w] eqn:Ew; try discriminate. injection H as <-. cbn [snd w_tr w_rw].
  exists (ops (w_tr (snd s0))). split; [rewrite ops_cons; reflexivity|]. unfold exchange. rewrite F, Ew. reflexivity.
Qed.
(** Unless a hook writes, every request ends: the handlers being functions that
    return or panic, the chains neither loop nor block. *)
Theorem C93_requests_end : forall accept fs rc,
  Forall (opt_all (act_hooks hook_nowrite)) fs -> Forall (opt_all (act_hooks hook_nowrite)) (rc_filters rc) ->
  opt_all (act_hooks hook_nowrite) (rc_action rc) ->
  forall s, serve accept fs rc <> Deadlock s.
Proof.
  intros accept fs rc Hf Hr Ha s.
  assert (H : nodl hook_nowrite 0 (serve_chain accept fs rc)) by (apply outer_live; auto; cbn; tauto).
  unfold serve. destruct (serve_chain accept fs rc) as [s0|v s0|s0]; cbn [obind nodl] in *; try discriminate; [|contradiction].
  destruct H as [H _]. unfold do_op. cbn [note w_rw w_tr].
  assert (H1 : olive hook_nowrite (run_op accept (OWrite []) (w_rw (snd s0)))) by (apply run_op_live; auto; cbn; tauto).
  destruct (run_op accept (OWrite []) (w_rw (snd s0))); try discriminate. contradiction.
Qed.
(** a hook that writes blocks the request for ever *)
Theorem C93_requests_end_refuted :
  exists s, serve all_of [] (RC [] (Some (AOp (OBefore (HWrite (bs "x") HRet)) (AOp (OWrite (bs "y")) ARet)))) = Deadlock s.
Proof. eexists. vm_compute. reflexivity. Qed.
Example C93_example : exists s, serve all_of bad_fs bad_rc = Done s /\ Forall (opt_all (act_hooks hook_nowrite)) bad_fs /\ r_log (w_rw (snd s)) = [WBody (bs "x"); WHeader 200].
Proof. eexists. split; [vm_compute; reflexivity|]. split; [repeat constructor|reflexivity]. Qed.

Print Assumptions C16_at_most_once_in_order.
Print Assumptions C17_untouched_chains_complete.
Print Assumptions C18_no_start_after_written.
Print Assumptions C19_next_twice_refuted.
Print Assumptions C19_next_twice_partial.
Print Assumptions C20_no_panic_escapes_partial.
Print Assumptions C20_status_after_panic.
Print Assumptions C20_client_gets_500.
Print Assumptions C20_recovery_refuted.
Print Assumptions C93_request_is_an_exchange.
Print Assumptions C93_requests_end.
Print Assumptions C93_requests_end_refuted.
