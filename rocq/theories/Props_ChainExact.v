(** Props_ChainExact: exact forms of C19 (a second Next), C20 (recovery) and C93
    (which requests end). [accept], filters, routes and actions are arbitrary. *)
From Coq Require Import List Ascii String Bool Arith ZArith Lia Sorting.Sorted.
Import ListNotations.
From Verif Require Import GoStr RespModel RespSpec RespFacts ChainModel ChainFacts Props_Resp Props_RespExact Props_Chain.

(** ** C19 *)
(** the two chains a handler can call Next of *)
Inductive chain_of (accept : list wev -> bytes -> nat) : lvl -> chain -> Prop :=
| co_app fs rc : chain_of accept Outer (app_chain accept fs rc)
| co_route rc : chain_of accept Inner (inner_chain accept rc).
(** the first handler of a chain at position k or later *)
Definition first_from (c : chain) (k j : nat) : Prop :=
  k <= j /\ ch_handler c j <> None /\ forall i, k <= i -> i < j -> ch_handler c i = None.
Definition none_from (c : chain) (k : nat) : Prop := forall i, k <= i -> ch_handler c i = None.

Lemma handler_bound c i : ch_handler c i <> None -> i <= ch_len c.
Proof.
  unfold ch_handler. destruct (Nat.ltb_spec i (ch_len c)); [lia|]. destruct (Nat.eqb_spec i (ch_len c)); [lia|congruence].
Qed.
Lemma run_none l c : forall f i w, none_from c i -> S (ch_len c) - i < f -> exists k, i <= k /\ run l c f (i, w) = Done (k, w).
Proof.
  induction f as [|f IH]; intros i w N Hf; [lia|]. cbn [run]. destruct (Nat.leb_spec i (ch_len c)); [|exists i; auto].
  rewrite (N i (Nat.le_refl _)). destruct (IH (S i) w) as (k & A & B); [intros j Hj; apply N; lia|lia|]. exists k. split; [lia|exact B].
Qed.
Lemma run_skip l c j : forall f i w, first_from c i j -> j - i < f -> exists f', run l c f (i, w) = run l c (S f') (j, w).
Proof.
  induction f as [|f IH]; intros i w (A & B & C) Hf; [lia|].
  destruct (Nat.eq_dec i j) as [->|Ne]; [exists f; reflexivity|].
  cbn [run]. pose proof (handler_bound c j B). destruct (Nat.leb_spec i (ch_len c)); [|lia].
  rewrite (C i (Nat.le_refl _)) by lia. apply IH; [|lia]. split; [lia|]. split; [exact B|]. intros k Hk Hk'. apply C; lia.
Qed.
Lemma first_or_none c k : (exists j, first_from c k j) \/ none_from c k.
Proof.
  assert (G : forall n k, S (ch_len c) - k <= n -> (exists j, first_from c k j) \/ none_from c k).
  { induction n as [|n IH]; intros m Hm.
    - right. intros i Hi. destruct (ch_handler c i) eqn:E; [|reflexivity]. assert (i <= ch_len c) by (apply handler_bound; congruence). lia.
    - destruct (ch_handler c m) eqn:E.
      + left. exists m. split; [lia|]. split; [congruence|]. intros; lia.
      + destruct (Nat.le_gt_cases (S (ch_len c)) m) as [L|L].
        { right. intros i Hi. destruct (ch_handler c i) eqn:E2; [|reflexivity]. assert (i <= ch_len c) by (apply handler_bound; congruence). lia. }
        destruct (IH (S m) ltac:(lia)) as [(j & A & B & C)|N].
        * left. exists j. split; [lia|]. split; [exact B|]. intros i Hi Hj. destruct (Nat.eq_dec i m) as [->|]; [exact E|apply C; lia].
        * right. intros i Hi. destruct (Nat.eq_dec i m) as [->|]; [exact E|apply N; lia]. }
  exact (G _ k (Nat.le_refl _)).
Qed.

Lemma hook_back_nonzero : forall h s s', fst (hook_end h s) = HBack s' -> s <> 0%Z -> s' <> 0%Z.
Proof.
  induction h as [|s0 k IH|b k IH|h IHh k IH|k IH|k IH|]; intros s s'; cbn [hook_end fst]; try discriminate.
  - intros [= <-]. auto.
  - destruct (Z.eqb_spec s0 0); cbn [fst]; [discriminate|]. intros H _. eapply IH; eauto.
  - apply IH.
  - apply IH.
  - apply IH.
Qed.
Lemma hooks_back_nonzero : forall hs s s', fst (hooks_end hs s) = HBack s' -> s <> 0%Z -> s' <> 0%Z.
Proof.
  induction hs as [|h hs IH]; intros s s'; cbn [hooks_end]; [intros [= <-]; auto|].
  destruct (hook_end h s) as ([s1|s1|] & f) eqn:Eh; cbn [fst]; try discriminate.
  intros H Hs. apply (IH s1 s' H). apply (hook_back_nonzero h s s1); [now rewrite Eh|exact Hs].
Qed.

Section Conn.
  Variable accept : list wev -> bytes -> nat.

  Lemma chain_good l c : chain_of accept l c -> exists pos ok, (forall i, pos (l, i) = (i, 0)) /\
    forall i h, ch_handler c i = Some h -> hgood pos ok i h /\ ok (l, i).
  Proof using Type.
    intros [fs rc|rc].
    - exists (pos_out (List.length fs)), (valid fs rc). split; [reflexivity|]. intros i h Hh.
      destruct (handler_outer accept fs rc i h Hh) as [([a ->] & Hv & Hi)|[-> ->]].
      + split; [|left; exact Hv]. intros next s0 E Hn. apply Hx_Hands, exec_order, Hn.
      + split; [apply route_good|right; reflexivity].
    - exists pos_in, (fun p => fst p = Inner /\ valid [] rc p). split; [reflexivity|]. intros i h Hh.
      destruct (handler_inner accept rc i h Hh) as [[a ->] Hv]. split; [|split; [reflexivity|exact Hv]].
      intros next s0 E Hn. apply Hx_Hands, exec_order, Hn.
  Qed.
  Lemma chain_runs l c : chain_of accept l c -> forall f s, exists d, w_tr (snd (oval (run l c f s))) = d ++ w_tr (snd s) /\
    forall i, In (l, i) (starts d) -> fst s <= i.
  Proof using Type.
    intros Hc f s. destruct (chain_good l c Hc) as (pos & ok & Hp & Hg).
    destruct (run_order pos ok l Hp c Hg f s) as (d & A & _ & _ & D). exists d. split; [exact A|].
    intros i Hi. rewrite Forall_forall in D. destruct (D _ Hi) as (D1 & _). rewrite Hp in D1. cbn in D1. lia.
  Qed.
  (** a run that returns has only started handlers before the position it leaves *)
  Lemma done_before l c : chain_of accept l c -> forall f s s', run l c f s = Done s' ->
    exists d, w_tr (snd s') = d ++ w_tr (snd s) /\ fst s <= fst s' /\ forall i, In (l, i) (starts d) -> fst s <= i /\ i < fst s'.
  Proof using Type.
    intros Hc. destruct (chain_good l c Hc) as (pos & ok & Hp & Hg).
    induction f as [|f IH]; intros (i, w) s' E; cbn [run] in E; [discriminate E|].
    destruct (Nat.leb i (ch_len c)) eqn:El.
    2:{ injection E as <-. exists []. cbn. repeat split; auto; contradiction. }
    destruct (ch_handler c i) as [h|] eqn:Eh.
    2:{ destruct (IH _ _ E) as (d & A & B & C). cbn [fst snd] in *. exists d. split; [exact A|]. split; [lia|]. intros k Hk. specialize (C k Hk). lia. }
    destruct (Hg i h Eh) as (HR & _).
    destruct (HR (run l c f) (i, note w (EStart l i (written (w_rw w)))) eq_refl (run_order pos ok l Hp c Hg f)) as (d & A & B & _ & D).
    destruct (h _ _) as [s1|v s1|s1]; cbn [obind] in E; try discriminate E. cbn [oval fst snd note w_tr] in *.
    assert (S1 : exists d1, w_tr (snd s1) = d1 ++ w_tr w /\ forall k, In (l, k) (starts d1) -> i <= k /\ k <= fst s1).
    { exists (d ++ [EStart l i (written (w_rw w))]). split; [rewrite A, <- app_assoc; reflexivity|].
      intros k. rewrite starts_app, in_app_iff. intros [Hk|Hk].
      - cbn in Hk. destruct Hk as [Hk|[]]. injection Hk as <-. lia.
      - rewrite Forall_forall in D. destruct (D _ Hk) as (D1 & D2 & _). rewrite Hp in D1, D2. unfold plt in D1. cbn in D1, D2. lia. }
    destruct S1 as (d1 & A1 & C1). destruct (written (w_rw (snd s1))).
    - injection E as <-. cbn [fst snd]. exists d1. split; [exact A1|]. split; [lia|]. intros k Hk. specialize (C1 k Hk). lia.
    - destruct (IH _ _ E) as (d2 & A2 & B2 & C2). cbn [fst snd] in *. exists (d2 ++ d1). split; [rewrite A2, A1; apply app_assoc|]. split; [lia|].
      intros k. rewrite starts_app, in_app_iff. intros [Hk|Hk]; [specialize (C1 k Hk)|specialize (C2 k Hk)]; lia.
  Qed.

  (** C19, exactly. An earlier Next (or the chain itself) ran from state s and came
      back with s'. If the response is still unwritten, every later Next of the
      chain does nothing. If it is written, handlers before position [fst s'] have
      been started as far as they will ever be, and a later Next - from any state of
      the response - passes over position [fst s'] and starts the first handler
      behind it, if there is one. *)
  Theorem C19_second_next_exact l c fuel s s' : chain_of accept l c -> run l c fuel s = Done s' ->
    (exists d, w_tr (snd s') = d ++ w_tr (snd s) /\ forall i, In (l, i) (starts d) -> fst s <= i /\ i < fst s') /\
    (written (w_rw (snd s')) = false -> forall f2 s2, fst s' <= fst s2 -> run l c (S f2) s2 = Done s2) /\
    (forall f2 w, S (ch_len c) - fst s' < f2 ->
      let again := run l c f2 (S (fst s'), note w ENext) in
      (exists d, w_tr (snd (oval again)) = d ++ ENext :: w_tr w /\ forall i, In (l, i) (starts d) -> S (fst s') <= i) /\
      (forall j, first_from c (S (fst s')) j ->
         exists d, w_tr (snd (oval again)) = d ++ EStart l j (written (w_rw w)) :: ENext :: w_tr w) /\
      (none_from c (S (fst s')) -> exists k, again = Done (k, note w ENext))).
  Proof using Type.
    intros Hc E. split.
    { destruct (done_before l c Hc fuel s s' E) as (d & A & _ & C). eauto. }
    split.
    { intros U f2 s2 H. exact (C19_next_twice_partial l c fuel s s' E U f2 s2 H). }
    intros f2 w Hf again. split; [|split].
    - destruct (chain_runs l c Hc f2 (S (fst s'), note w ENext)) as (d & A & B). exists d. split; [exact A|exact B].
    - intros j Hj. unfold again. assert (Hj' := Hj). destruct Hj' as (J1 & J2 & J3). pose proof (handler_bound c j J2).
      destruct (run_skip l c j f2 (S (fst s')) (note w ENext) Hj) as (f' & ->); [lia|]. cbn [run].
      destruct (Nat.leb_spec j (ch_len c)); [|lia]. destruct (ch_handler c j) as [h|] eqn:Eh; [|congruence].
      destruct (chain_good l c Hc) as (pos & ok & Hp & Hg). destruct (Hg j h Eh) as (HR & _).
      destruct (HR (run l c f') (j, note (note w ENext) (EStart l j (written (w_rw (note w ENext))))) eq_refl (run_order pos ok l Hp c Hg f')) as (d & A & _).
      destruct (h _ _) as [s1|v s1|s1]; cbn [obind oval fst snd note w_tr w_rw] in *; try (exists d; exact A).
      destruct (written (w_rw (snd s1))); [exists d; exact A|].
      destruct (chain_runs l c Hc f' (S (fst s1), snd s1)) as (d2 & A2 & _). cbn [snd] in A2. exists (d2 ++ d). rewrite A2, A. apply app_assoc.
    - intros N. unfold again. destruct (run_none l c f2 (S (fst s')) (note w ENext) N) as (k & _ & K); [lia|]. eauto.
  Qed.

  (** ** C93 *)
  (** a Write is about to fire the hooks and one of them writes, in turn *)
  Definition stuck_at (os : list op) : Prop := has_write os = false /\ fst (first_write os) = HStuck.
  Definition blocked (s : st) : Prop := exists os b, ops (w_tr (snd s)) = os ++ [OWrite b] /\ stuck_at os.

  Lemma once_after os w : run_ops accept os rw0 = Some w -> has_write os = true -> r_once w = true.
  Proof using Type.
    intros R H. destruct (split_write os) as [(K & _)|(_ & b & E)]; [congruence|].
    rewrite E, run_ops_app in R. destruct (run_ops accept (pre os) rw0) as [w1|] eqn:R1; [|discriminate R].
    cbn [run_ops run_op] in R. destruct (first_exact accept os b w1 R1) as (F & _).
    destruct (fst (first_write os)) as [z|z|], (write accept w1 b) as [w2|v w2|w2]; try contradiction; try discriminate R;
      destruct F as (F1 & F2); destruct (late_ops accept (post os) w2 F1) as (w3 & R3 & O3 & _); rewrite R in R3; injection R3 as <-; exact O3.
  Qed.
  Lemma write_blocks os b w : run_ops accept os rw0 = Some w -> ((exists w', write accept w b = Deadlock w') <-> stuck_at os).
  Proof using Type.
    intros R. destruct (split_write os) as [(N & E & _)|(N & b0 & E)].
    - rewrite <- E in R. destruct (first_exact accept os b w R) as (F & _). split.
      + intros (w' & K). split; [exact N|]. rewrite K in F. destruct (fst (first_write os)); try contradiction. reflexivity.
      + intros (_ & K). rewrite K in F. destruct (write accept w b); try contradiction. eauto.
    - pose proof (once_after os w R N) as O. split; [|intros (K & _); congruence].
      intros (w' & K). exfalso. unfold write in K. rewrite O in K. cbn [obind] in K. destruct (u_write accept w b). discriminate K.
  Qed.
  Definition okout (i : nat) (o : out st) : Prop :=
    match o with Deadlock s => blocked s | Done s | Panicked _ s => faithful accept s /\ i <= fst s end.
  Definition next_ok (m : nat) (next : st -> out st) : Prop := forall s, m <= fst s -> faithful accept s -> okout (fst s) (next s).
  Lemma okout_weaken i j o : i <= j -> okout j o -> okout i o.
  Proof using Type. intros H. destruct o; cbn; try tauto; intros [? ?]; (split; [assumption|lia]). Qed.
  Lemma do_op_ok o s : faithful accept s -> okout (fst s) (do_op accept o s).
  Proof using Type.
    intros H. pose proof (do_op_faithful accept o s H) as F. pose proof (do_op_shape accept o s) as (A & B & C).
    destruct (do_op accept o s) as [s'|v s'|s'] eqn:E; cbn [okout ofaithful oval] in *; [split; [exact F|lia]|split; [exact F|lia]|].
    unfold do_op in E. cbn [note w_rw] in E. unfold blocked. rewrite B, ops_cons.
    destruct (run_op accept o (w_rw (snd s))) as [r|v r|r] eqn:R; try discriminate E.
    destruct o as [z|b|h| |k]; cbn [run_op] in R; try discriminate R.
    - unfold write_header in R. destruct (z =? 0)%Z; discriminate R.
    - exists (ops (w_tr (snd s))), b. split; [reflexivity|]. apply (write_blocks _ b (w_rw (snd s)) H). eauto.
  Qed.
  Lemma exec_ok next m : next_ok (S m) next -> forall a s, m <= fst s -> faithful accept s -> okout (fst s) (exec accept a next s).
  Proof using Type.
    intros Hn. induction a as [|o k IH|k IH|k IH|v|b IHb r IHr k IHk]; cbn [exec]; intros s Hm Hs.
    - split; [exact Hs|lia].
    - pose proof (do_op_ok o s Hs) as H. destruct (do_op accept o s) as [s'|v s'|s']; cbn [obind okout] in *; auto.
      destruct H as [A B]. eapply okout_weaken; [exact B|]. apply IH; [lia|exact A].
    - apply IH; auto.
    - pose proof (Hn (S (fst s), note (snd s) ENext) ltac:(cbn; lia) (note_faithful accept s ENext _ ltac:(discriminate) Hs)) as H.
      destruct (next _) as [s'|v s'|s']; cbn [obind okout fst] in *; auto.
      + destruct H as [A B]. eapply okout_weaken; [|apply (IH s')]; auto; lia.
      + destruct H. split; [assumption|lia].
    - split; [exact Hs|lia].
    - specialize (IHb s Hm Hs). destruct (exec accept b next s) as [s'|v s'|s']; cbn [okout] in *.
      + destruct IHb as [A B]. eapply okout_weaken; [exact B|]. apply IHk; auto; lia.
      + destruct IHb as [A B]. eapply okout_weaken; [exact B|]. apply IHr; auto; lia.
      + exact IHb.
  Qed.
  Definition hok (i : nat) (h : hsem) : Prop := forall next s, fst s = i -> next_ok (S i) next -> faithful accept s -> okout i (h next s).
  Lemma run_ok l c : (forall i h, ch_handler c i = Some h -> hok i h) ->
    forall fuel m, ch_len c + 2 <= fuel + m -> 1 <= fuel -> next_ok m (run l c fuel).
  Proof using Type.
    intros Hc. induction fuel as [|f IH]; intros m Hf H1 [i w] Hm Hs; [lia|]. cbn [run fst] in *.
    destruct (Nat.leb i (ch_len c)) eqn:El; [|split; [exact Hs|cbn; lia]]. apply Nat.leb_le in El.
    assert (IH' : forall k, S i <= k -> next_ok k (run l c f)) by (intros k Hk; apply IH; lia).
    destruct (ch_handler c i) as [h|] eqn:Eh.
    - pose proof (Hc i h Eh (run l c f) (i, note w (EStart l i (written (w_rw w)))) eq_refl (IH' _ (le_n _))
        (note_faithful accept (i, w) (EStart l i (written (w_rw w))) i ltac:(discriminate) Hs)) as H.
      destruct (h _ _) as [s'|v s'|s']; cbn [obind okout fst snd] in *; auto. destruct H as [A B].
      destruct (written _); [split; [exact A|cbn; lia]|].
      eapply okout_weaken; [|apply (IH' (S (fst s')) ltac:(lia) (S (fst s'), snd s')); auto]. cbn. lia.
    - eapply okout_weaken; [|apply (IH' (S i) (le_n _) (S i, w)); auto]. cbn. lia.
  Qed.
  Lemma inner_ok rc w : faithful accept (0, w) -> okout 0 (start Inner (inner_chain accept rc) w).
  Proof using Type.
    intros Hw. unfold start. apply (run_ok Inner (inner_chain accept rc)) with (m := 0) (s := (0, w)); try lia; auto.
    intros i h Hh. destruct (handler_inner accept rc i h Hh) as [[a ->] _]. intros next s <- Hn Hs. eapply exec_ok; eauto.
  Qed.
  Lemma outer_ok fs rc : okout 0 (serve_chain accept fs rc).
  Proof using Type.
    unfold serve_chain, start. apply (run_ok Outer (app_chain accept fs rc)) with (m := 0) (s := (0, w0)); try lia; [|reflexivity].
    intros i h Hh. destruct (handler_outer accept fs rc i h Hh) as [([a ->] & _ & _)|[-> ->]]; intros next s E Hn Hs; rewrite <- E in *.
    - eapply exec_ok; eauto.
    - unfold route_handler. pose proof (inner_ok rc (snd s) Hs) as H. destruct (start Inner _ _); cbn [okout fst snd] in *; auto;
        destruct H; (split; [assumption|lia]).
  Qed.
  Lemma serve_ok fs rc : okout 0 (serve accept fs rc).
  Proof using Type.
    unfold serve. pose proof (outer_ok fs rc) as H. destruct (serve_chain accept fs rc) as [s|v s|s]; cbn [obind okout] in *; auto.
    destruct H as [A B]. eapply okout_weaken; [exact B|]. apply do_op_ok, A.
  Qed.

  (** C93, exactly: a request never ends if and only if a handler (or the final
      Write(nil)) makes the request's first Write when the hooks registered so far,
      run from the last on, come to one that writes - and that Write is then the
      last thing that happens *)
  Theorem C93_requests_end_exact fs rc :
    let tr := ops (w_tr (snd (oval (serve accept fs rc)))) in
    (exists s, serve accept fs rc = Deadlock s) <->
    exists os b rest, tr = os ++ OWrite b :: rest /\ has_write os = false /\ fst (first_write os) = HStuck.
  Proof using Type.
    intros tr. pose proof (serve_ok fs rc) as H. unfold tr. split.
    - intros (s & E). rewrite E in *. cbn [okout oval] in *. destruct H as (os & b & A & B & C). exists os, b, []. auto.
    - intros (os & b & rest & A & B & C).
      assert (G : forall s, faithful accept s -> ops (w_tr (snd s)) = os ++ OWrite b :: rest -> False).
      { intros s F E. unfold faithful in F. rewrite E, run_ops_app in F. destruct (run_ops accept os rw0) as [w|] eqn:R; [|discriminate F].
        cbn [run_ops run_op] in F. destruct (proj2 (write_blocks os b w R) (conj B C)) as (w' & K). rewrite K in F. discriminate F. }
      destruct (serve accept fs rc) as [s|v s|s]; cbn [okout oval] in *; [exfalso; eapply G; [apply H|exact A]|exfalso; eapply G; [apply H|exact A]|eauto].
  Qed.

  (** ** C20 *)
  (** what recovery makes of the chain behind it *)
  Theorem C20_recovery_exact dev page fs rc :
    let all := Some (recovery dev page) :: fs in
    let result := serve_chain accept all rc in
    match behind accept dev page fs rc with
    | Done s => exists i, result = Done (i, snd s)
    | Deadlock s => result = Deadlock s
    | Panicked nilv s =>
        if written (w_rw (snd s)) then exists i, result = Done (i, snd s)
        else if nilv then
          (* panic(nil): the chain goes on behind the handler that panicked, and
             nobody recovers *)
          result = run Outer (app_chain accept all rc) (S (S (List.length fs))) (S (fst s), snd s)
        else
          let r := set_status (w_rw (snd s)) 500 in
          let tr := EOp (OWriteHeader 500) :: w_tr (snd s) in
          if dev then
            match write accept r page with
            | Done r' => exists i, result = Done (i, W r' (EOp (OWrite page) :: tr))
            | Panicked v r' => exists i, result = Panicked v (i, W r' (EOp (OWrite page) :: tr))
            | Deadlock r' => exists i, result = Deadlock (i, W r' (EOp (OWrite page) :: tr))
            end
          else exists i, result = Done (i, W r tr)
    end.
  Proof using Type.
    intros all result. pose proof (serve_recovery accept dev page fs rc) as SR. cbv zeta in SR. fold all in SR. fold result in SR.
    destruct (behind accept dev page fs rc) as [s|v s|s] eqn:Eb; cbn [obind] in SR.
    - destruct (written (w_rw (snd s))) eqn:Ew; [rewrite SR; eauto|]. unfold behind in Eb. apply run_done_end in Eb; [|exact Ew].
      rewrite run_past in SR; [rewrite SR; eauto|]. cbn [fst]. unfold all. lia.
    - destruct (written (w_rw (snd s))) eqn:Ew.
      + destruct v; cbn [obind] in SR; rewrite Ew in SR; rewrite SR; eauto.
      + destruct v; cbn [obind] in SR; [rewrite Ew in SR; exact SR|].
        unfold do_op in SR at 1. cbn [run_op write_header Z.eqb obind note w_rw w_tr snd fst] in SR.
        set (r := set_status (w_rw (snd s)) 500) in *. cbv zeta.
        destruct dev.
        * unfold do_op in SR. cbn [snd fst note w_rw w_tr run_op] in SR.
          pose proof (write_prims accept r page) as P. pose proof (prims_ind_inv (fun w => written w = true) written_prim _ _ P eq_refl) as Q.
          destruct (write accept r page) as [r'|v r'|r']; cbn [obind snd fst w_rw oval] in *; [rewrite Q in SR|..]; rewrite SR; eauto.
        * cbn [obind snd fst w_rw] in SR. change (written r) with true in SR. rewrite SR. eauto.
    - exact SR.
  Qed.
  (** when a panic still escapes *)
  Theorem C20_panic_escapes_iff dev page fs rc :
    let all := Some (recovery dev page) :: fs in
    (exists v s, serve_chain accept all rc = Panicked v s) <->
    exists s1, written (w_rw (snd s1)) = false /\
      ((behind accept dev page fs rc = Panicked true s1 /\
        exists v s, run Outer (app_chain accept all rc) (S (S (List.length fs))) (S (fst s1), snd s1) = Panicked v s) \/
       (dev = true /\ behind accept dev page fs rc = Panicked false s1 /\
        exists v r, write accept (set_status (w_rw (snd s1)) 500) page = Panicked v r)).
  Proof using Type.
    intros all. pose proof (C20_recovery_exact dev page fs rc) as X. cbv zeta in X. fold all in X.
    destruct (behind accept dev page fs rc) as [s|nv s|s] eqn:Eb.
    - destruct X as (i & X). rewrite X. split; [intros (v & s0 & K); discriminate K|]. intros (s1 & _ & [(K & _)|(_ & K & _)]); discriminate K.
    - destruct (written (w_rw (snd s))) eqn:Ew.
      + destruct X as (i & X). rewrite X. split; [intros (v & s0 & K); discriminate K|]. intros (s1 & W1 & [(K & _)|(_ & K & _)]); injection K as -> ->; congruence.
      + destruct nv.
        * rewrite X. split.
          -- intros K. exists s. split; [exact Ew|]. left. auto.
          -- intros (s1 & W1 & [(K & L)|(_ & K & _)]); [injection K as ->; exact L|discriminate K].
        * destruct dev.
          -- split.
             ++ intros (v & s0 & K). destruct (write accept (set_status (w_rw (snd s)) 500) page) as [r'|v' r'|r'] eqn:Wr; destruct X as (i & X); rewrite X in K; try discriminate K.
                exists s. split; [exact Ew|]. right. eauto.
             ++ intros (s1 & W1 & [(K & _)|(_ & K & v & r & L)]); [discriminate K|]. injection K as <-. rewrite L in X. destruct X as (i & X). eauto.
          -- destruct X as (i & X). rewrite X. split; [intros (v & s0 & K); discriminate K|]. intros (s1 & W1 & [(K & _)|(K & _)]); discriminate K.
    - rewrite X. split; [intros (v & s0 & K); discriminate K|]. intros (s1 & _ & [(K & _)|(_ & K & _)]); discriminate K.
  Qed.
  (** the calls the response saw, when the panic was not nil *)
  Definition recovery_ops (dev : bool) (page : bytes) (wr : bool) : list op :=
    if wr then [] else OWriteHeader 500 :: (if dev then [OWrite page] else []).
  Theorem C20_client_exact dev page fs rc s1 s :
    behind accept dev page fs rc = Panicked false s1 ->
    serve accept (Some (recovery dev page) :: fs) rc = Done s ->
    let os := ops (w_tr (snd s1)) ++ recovery_ops dev page (written (w_rw (snd s1))) in
    exchange accept os = Some (w_rw (snd s)) /\
    (~ In (OHijack true) (ops (w_tr (snd s1))) -> forall c, In (WHeader c) (r_log (w_rw (snd s))) <-> c = wire_exact os).
  Proof using Type.
    intros Eb Es os.
    assert (X : exchange accept os = Some (w_rw (snd s))).
    { destruct (C93_request_is_an_exchange accept _ rc s Es) as (os' & A & B). 
      assert (K : os' = os).
      { unfold serve in Es. pose proof (C20_recovery_exact dev page fs rc) as R. cbv zeta in R. rewrite Eb in R.
        set (sc := serve_chain accept (Some (recovery dev page) :: fs) rc) in *.
        assert (T : forall x, sc = Done x -> ops (w_tr (snd x)) = os -> os' = os).
        { intros x Ex T. rewrite Ex in Es. cbn [obind] in Es. destruct (do_op_shape accept (OWrite []) x) as (_ & D & _). rewrite Es in D. cbn [oval] in D.
          rewrite D, ops_cons, T in A. apply app_inj_tail in A as (A & _). congruence. }
        unfold os, recovery_ops in *. destruct (written (w_rw (snd s1))).
        - destruct R as (i & R). apply (T _ R). cbn [snd]. now rewrite app_nil_r.
        - destruct dev.
          + destruct (write accept _ page) as [r'|v r'|r']; destruct R as (i & R); try (rewrite R in Es; discriminate Es).
            apply (T _ R). cbn [snd w_tr]. rewrite !ops_cons, <- app_assoc. reflexivity.
          + destruct R as (i & R). apply (T _ R). cbn [snd w_tr]. rewrite ops_cons. reflexivity. }
      congruence. }
    split; [exact X|]. intros N. apply (C22_wire_exact accept os _ X). unfold os. rewrite in_app_iff. intros [K|K]; [exact (N K)|].
    unfold recovery_ops in K. destruct (written _); [destruct K|]. destruct dev; cbn in K; intuition discriminate.
  Qed.
  (** in particular 500 goes out if the panic comes before any Write or Flush and
      no hook panics, flushes or sets another status; 200 if the panic came out of a
      hook of the first Write *)
  Theorem C20_client_500 dev page fs rc s1 s :
    behind accept dev page fs rc = Panicked false s1 -> serve accept (Some (recovery dev page) :: fs) rc = Done s ->
    let os := ops (w_tr (snd s1)) in
    ~ In (OHijack true) os -> written (w_rw (snd s1)) = false ->
    forall c, In (WHeader c) (r_log (w_rw (snd s))) <->
      c = if has_write os || flushes os then 200%Z else
          match hooks_end (rev (hooks_of os)) 500 with (HBack z, false) => if is_final z then z else 200%Z | _ => 200%Z end.
  Proof using Type.
    intros Eb Es os N U c. destruct (C20_client_exact dev page fs rc s1 s Eb Es) as (_ & Hc). rewrite (Hc N). rewrite U. fold os. unfold recovery_ops.
    assert (Fa : run_ops accept os rw0 = Some (w_rw (snd s1))).
    { assert (H : ofaithful accept (behind accept dev page fs rc)) by (apply outer_faithful; reflexivity). rewrite Eb in H. exact H. }
    set (tl := OWriteHeader 500 :: (if dev then [OWrite page] else [])).
    assert (W : wire_exact (os ++ tl) = if has_write os || flushes os then 200%Z else
          match hooks_end (rev (hooks_of os)) 500 with (HBack z, false) => if is_final z then z else 200%Z | _ => 200%Z end).
    { destruct (split_write os) as [(H & Ep & _)|(H & b & E)]; rewrite H; cbn [orb].
      - assert (P : pre (os ++ tl) = os ++ [OWriteHeader 500]).
        { clear - H. unfold tl. induction os as [|o os IH]; [destruct dev; reflexivity|]. destruct o; cbn in *; try discriminate H; f_equal; apply IH, H. }
        unfold wire_exact, first_write. rewrite P.
        assert (F : flushes (os ++ [OWriteHeader 500]) = flushes os) by (unfold flushes; rewrite existsb_app; cbn; apply orb_false_r). rewrite F.
        destruct (flushes os); [reflexivity|].
        assert (L : last_status (os ++ [OWriteHeader 500]) = 500%Z) by (unfold last_status; rewrite fold_left_app; reflexivity). rewrite L.
        assert (Hh : hooks_of (os ++ [OWriteHeader 500]) = hooks_of os) by (unfold hooks_of; rewrite flat_map_app; cbn; apply app_nil_r). rewrite Hh.
        destruct (hooks_end (rev (hooks_of os)) 500) as ([z|z|] & [|]) eqn:Eh; try reflexivity.
        assert (Z0 : z <> 0%Z).
        { pose proof (hooks_back_nonzero (rev (hooks_of os)) 500 z) as K. rewrite Eh in K. apply K; [reflexivity|discriminate]. }
        unfold or_200. destruct (Z.eqb_spec z 0); [contradiction|]. reflexivity.
      - assert (P : pre (os ++ tl) = pre os).
        { rewrite E. clear. generalize (post os) as q. induction os as [|o os IH]; intros q; cbn; [reflexivity|].
          destruct o; cbn; try reflexivity; f_equal; apply IH. }
        unfold wire_exact, first_write. rewrite P. fold (first_write os). destruct (flushes (pre os)); [reflexivity|].
        (* the status is 0 though a Write was tried: its hooks did not come back *)
        pose proof (C22_status_exact accept os _ Fa) as S. unfold status_exact in S. rewrite H in S.
        unfold written in U. apply negb_false_iff, Z.eqb_eq in U. unfold status in S. rewrite U in S.
        destruct (first_write os) as ([z|z|] & g); cbn [fst] in S; try reflexivity.
        exfalso. symmetry in S. revert S.
        assert (G : forall l z, z <> 0%Z -> last_from z l <> 0%Z).
        { clear. induction l as [|o l IH]; intros z Hz; cbn; [exact Hz|]. destruct o; try (apply IH; exact Hz). destruct (Z.eqb_spec s 0); apply IH; assumption. }
        apply G. unfold or_200. destruct (Z.eqb_spec z 0); [discriminate|assumption]. }
    rewrite W. reflexivity.
  Qed.
End Conn.

(** *** Cases *)
(** filter 0 calls Next twice; filter 1 writes; filter 2 is passed over, filter 3 runs *)
Example C19_exact_case :
  let fs := [Some two_nexts; Some (AOp (OWriteHeader 200) ARet); Some ARet; Some ARet] in
  let c := app_chain all_of fs (RC [] (Some ARet)) in
  exists s', run Outer c 5 (1, note (note w0 (EStart Outer 0 false)) ENext) = Done s' /\ written (w_rw (snd s')) = true /\ fst s' = 2 /\
    chain_of all_of Outer c /\ first_from c 3 3 /\ ~ none_from c 3.
Proof.
  cbv zeta. eexists. split; [vm_compute; reflexivity|]. split; [reflexivity|]. split; [reflexivity|]. split; [constructor|].
  split; [split; [lia|]; split; [discriminate|]; intros; lia|]. intros N. specialize (N 3 (Nat.le_refl _)). discriminate N.
Qed.
Example C93_exact_case :
  let a := AOp (OBefore (HWrite (bs "x") HRet)) (AOp (OWrite (bs "y")) ARet) in
  (exists s, serve all_of [] (RC [] (Some a)) = Deadlock s) /\
  has_write [OBefore (HWrite (bs "x") HRet)] = false /\ fst (first_write [OBefore (HWrite (bs "x") HRet)]) = HStuck /\
  (* a hook registered later that panics saves the request *)
  fst (first_write [OBefore (HWrite (bs "x") HRet); OBefore HPanic]) = HStop 0.
Proof. cbv zeta. split; [eexists; vm_compute; reflexivity|]. repeat split. Qed.
Example C20_exact_case :
  (* dev mode: a hook that panics while the error page is written *)
  (exists s, serve_chain all_of [Some (recovery true (bs "page")); Some (AOp (OBefore HPanic) (APanic false))] (RC [] None) = Panicked false s) /\
  (* a hook of the first Write panics: Status() is 500 but the client gets 200 *)
  (exists s1 s, behind all_of false [] hooked (RC [] (Some (AOp (OWrite (bs "hi")) ARet))) = Panicked false s1 /\
    serve all_of (Some (recovery false []) :: hooked) (RC [] (Some (AOp (OWrite (bs "hi")) ARet))) = Done s /\
    wire_exact (ops (w_tr (snd s1)) ++ recovery_ops false [] (written (w_rw (snd s1)))) = 200%Z).
Proof. split; [eexists; vm_compute; reflexivity|]. eexists. eexists. split; [vm_compute; reflexivity|]. split; [vm_compute; reflexivity|]. reflexivity. Qed.

Print Assumptions C19_second_next_exact.
Print Assumptions C93_requests_end_exact.
Print Assumptions C20_recovery_exact.
Print Assumptions C20_panic_escapes_iff.
Print Assumptions C20_client_exact.
Print Assumptions C20_client_500.
