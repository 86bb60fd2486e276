(** Props_RespBody: C148, what Hijack does to the response writer, and C149, the body on
    the wire, both for every call sequence and every hook. *)
From Coq Require Import List Ascii String Bool Arith ZArith Lia.
Import ListNotations.
From Verif Require Import GoStr RespModel RespSpec RespFacts Props_Resp Props_RespExact.
Local Open Scope Z_scope.

(** ** C148 *)
Definition hook_event (e : wev) : Prop := exists i, e = WHook i.
Section Hijack.
  Variable accept : list wev -> bytes -> nat.
  (** from here on only hooks run *)
  Definition quiet (w w' : rw) : Prop :=
    r_hij w' = true /\ r_sent w' = r_sent w /\ r_size w' = r_size w /\ (r_once w = true -> r_once w' = true) /\ exists l, r_log w' = l ++ r_log w /\ Forall hook_event l.
  Lemma quiet_refl w : r_hij w = true -> quiet w w.
  Proof using Type. intros H. repeat split; auto. exists []. split; [reflexivity|constructor]. Qed.
  Lemma quiet_trans a b c : quiet a b -> quiet b c -> quiet a c.
  Proof using Type.
    intros (A1 & A2 & A3 & A4 & l & A5 & A6) (B1 & B2 & B3 & B4 & m & B5 & B6). repeat split; try congruence; auto.
    exists (m ++ l). rewrite B5, A5, app_assoc. split; [reflexivity|]. apply Forall_app. auto.
  Qed.
  Lemma quiet_hook h : forall w, r_hij w = true -> quiet w (oval (run_hook h w)).
  Proof using Type.
    induction h as [|s k IH|b k IH|h IHh k IH|k IH|k IH|]; intros w H; cbn [run_hook oval]; try (apply quiet_refl; exact H).
    - unfold write_header. destruct (s =? 0); cbn [obind oval]; [apply quiet_refl; exact H|]. eapply quiet_trans; [|apply IH; exact H]. repeat split; auto. exists []. split; [reflexivity|constructor].
    - eapply quiet_trans; [|apply IH; exact H]. repeat split; auto. exists []. split; [reflexivity|constructor].
    - unfold flush, u_flush. rewrite H. apply IH. exact H.
    - apply IH. exact H.
  Qed.
  Lemma quiet_before hs i : forall w, r_hij w = true -> quiet w (oval (call_before hs i w)).
  Proof using Type.
    induction i as [|i IH]; intros w H; cbn [call_before oval]; [apply quiet_refl; exact H|].
    destruct (nth_error hs i) as [h|]; [|apply quiet_refl; exact H].
    assert (Q : quiet w (log_ev w (WHook i))) by (repeat split; auto; exists [WHook i]; split; [reflexivity|repeat constructor; eexists; reflexivity]).
    pose proof (quiet_hook h (log_ev w (WHook i)) H) as Q2. destruct (run_hook h _) as [a|v a|a]; cbn [obind oval] in *.
    - eapply quiet_trans; [exact Q|]. eapply quiet_trans; [exact Q2|]. apply IH. apply Q2.
    - eapply quiet_trans; [exact Q|exact Q2].
    - eapply quiet_trans; [exact Q|exact Q2].
  Qed.
  Lemma quiet_op o w : r_hij w = true -> quiet w (oval (run_op accept o w)).
  Proof using Type.
    intros H. destruct o as [s|b|h| |ok]; cbn [run_op].
    - unfold write_header. destruct (s =? 0); cbn [oval]; [apply quiet_refl; exact H|]. repeat split; auto. exists []. split; [reflexivity|constructor].
    - unfold write. destruct (r_once w) eqn:O; cbn [obind oval].
      + unfold u_write. rewrite H, add_size_0. apply quiet_refl. exact H.
      + unfold fire. pose proof (quiet_before (r_hooks (set_once w)) (List.length (r_hooks (set_once w))) (set_once w) H) as Q.
        assert (Q0 : quiet w (set_once w)) by (repeat split; auto; exists []; split; [reflexivity|constructor]).
        destruct (call_before _ _ _) as [a|v a|a]; cbn [obind oval] in *; try (eapply quiet_trans; [exact Q0|exact Q]).
        assert (Ha : r_hij a = true) by apply Q. set (a2 := if r_status a =? 0 then set_status a 200 else a).
        assert (Q2 : quiet a a2) by (unfold a2; destruct (r_status a =? 0); [|apply quiet_refl; exact Ha]; repeat split; auto; exists []; split; [reflexivity|constructor]).
        assert (H2 : r_hij a2 = true) by apply Q2. rewrite H2. cbn [obind]. unfold u_write. rewrite H2, add_size_0. cbn [oval].
        eapply quiet_trans; [exact Q0|]. eapply quiet_trans; [exact Q|exact Q2].
    - repeat split; auto. exists []. split; [reflexivity|constructor].
    - unfold flush, u_flush. rewrite H. apply quiet_refl. exact H.
    - destruct ok; cbn [hijack oval]; [|apply quiet_refl; exact H]. repeat split; auto. exists []. split; [reflexivity|constructor].
  Qed.
  Lemma quiet_ops os : forall w w', r_hij w = true -> run_ops accept os w = Some w' -> quiet w w'.
  Proof using Type.
    induction os as [|o os IH]; intros w w' H R; cbn [run_ops] in R; [injection R as <-; apply quiet_refl; exact H|].
    pose proof (quiet_op o w H) as Q. destruct (run_op accept o w) as [a|v a|a]; cbn [oval] in Q; [| |discriminate R];
      (eapply quiet_trans; [exact Q|]; apply IH; [apply Q|exact R]).
  Qed.
  Lemma late_quiet os : forall w w', r_hij w = true -> r_once w = true -> run_ops accept os w = Some w' -> r_log w' = r_log w.
  Proof using Type.
    induction os as [|o os IH]; intros w w' H O R; cbn [run_ops] in R; [injection R as <-; reflexivity|].
    pose proof (quiet_op o w H) as Q.
    assert (X : r_log (oval (run_op accept o w)) = r_log w).
    { destruct o as [s|b|h| |ok]; cbn [run_op].
      - unfold write_header. destruct (s =? 0); reflexivity.
      - unfold write. rewrite O. cbn [obind]. unfold u_write. rewrite H. reflexivity.
      - reflexivity.
      - cbn [oval]. unfold flush, u_flush. rewrite H. reflexivity.
      - destruct ok; reflexivity. }
    destruct Q as (Q1 & _ & _ & Q4 & _). specialize (Q4 O).
    destruct (run_op accept o w) as [a|v a|a]; cbn [oval] in *; [| |discriminate R]; rewrite (IH a w' Q1 Q4 R); exact X.
  Qed.
  (** After a Hijack that worked nothing the handlers and hooks do reaches the connection
      and Size() stays; hooks still run if there was no Write before, and not otherwise *)
  Theorem C148_after_hijack os1 os2 w1 w :
    run_ops accept os1 rw0 = Some w1 -> run_ops accept (OHijack true :: os2) w1 = Some w ->
    r_sent w = r_sent w1 /\ size w = size w1 /\ (exists l, r_log w = l ++ r_log w1 /\ Forall hook_event l) /\
    (forall b, In (OWrite b) os1 -> r_log w = r_log w1).
  Proof using Type.
    intros R1 R. cbn [run_ops run_op] in R. pose proof (quiet_ops os2 (set_hij w1) w eq_refl R) as (_ & A & B & _ & C).
    split; [exact A|]. split; [exact B|]. split; [exact C|]. intros b Hb.
    change (r_log w1) with (r_log (set_hij w1)). apply (late_quiet os2 (set_hij w1) w eq_refl); [|exact R].
    cbn [set_hij r_once]. destruct (split_write os1) as [(E & _)|(_ & b0 & E)].
    - exfalso. assert (has_write os1 = true) by (apply existsb_exists; exists (OWrite b); auto). congruence.
    - rewrite E in R1. rewrite run_ops_app in R1. destruct (run_ops accept (pre os1) rw0) as [w0|] eqn:R0; [|discriminate]. cbn [run_ops run_op] in R1.
      destruct (first_exact accept os1 b0 w0 R0) as (F & _).
      destruct (fst (first_write os1)) as [s|s|], (write accept w0 b0) as [w2|v w2|w2]; try contradiction; try discriminate R1;
        destruct F as (F1 & _); destruct (late_ops accept (post os1) w2 F1) as (w3 & R3 & O3 & _); rewrite R1 in R3; injection R3 as <-; exact O3.
  Qed.
  (** a Hijack that fails changes nothing *)
  Theorem C148_failed_hijack os1 os2 w : run_ops accept (os1 ++ OHijack false :: os2) w = run_ops accept (os1 ++ os2) w.
  Proof using Type. rewrite !run_ops_app. destruct (run_ops accept os1 w); reflexivity. Qed.
End Hijack.
Example C148_example : exists w1 w, run_ops all_of [OBefore (HWriteHeader 404 HRet)] rw0 = Some w1 /\
  run_ops all_of [OHijack true; OWrite (bs "x"); OFlush; OWriteHeader 500; OWrite (bs "y")] w1 = Some w /\ r_log w = [WHook 0] /\ r_sent w = None /\ status w = 500 /\ size w = 0.
Proof. do 2 eexists. split; [reflexivity|]. split; [reflexivity|]. vm_compute. auto. Qed.

(** ** C149 *)
Definition body_of (log : list wev) : bytes := List.concat (map (fun e => match e with WBody b => b | _ => [] end) (rev log)).
(** what the Writes were given *)
Definition given (os : list op) : bytes := flat_map (fun o => match o with OWrite b => b | _ => [] end) os.
(** the first Write comes through: the hooks return, and net/http takes the status or has
    sent one already *)
Definition comes_through (os : list op) : bool :=
  match first_write os with
  | (HBack s, f) => flushes (pre os) || f || ((100 <=? or_200 s) && (or_200 s <=? 999))
  | _ => false
  end.
Definition body_allowed (s : Z) : bool := negb ((s =? 101) || (s =? 204) || (s =? 304)).

Lemma body_of_cons e l : body_of (e :: l) = body_of l ++ match e with WBody b => b | _ => [] end.
Proof. unfold body_of. cbn [rev]. rewrite map_app, concat_app. cbn [map List.concat]. rewrite app_nil_r. reflexivity. Qed.
Lemma body_len l : List.length (body_of l) = body_bytes l.
Proof.
  induction l as [|e l IH]; [reflexivity|]. rewrite body_of_cons, app_length, IH. unfold body_bytes. cbn [map list_sum fold_right]. fold (list_sum (map (fun e => match e with WBody b => List.length b | _ => O end) l)).
  unfold list_sum. destruct e; cbn [List.length]; lia.
Qed.
Definition head_or (w : rw) : Z := match r_sent w with Some s => s | None => 200 end.
Notation u_writeA := (u_write all_of).
Lemma u_write_body w b : r_hij w = false ->
  body_of (r_log (fst (u_writeA w b))) = body_of (r_log w) ++ (if no_body (head_or w) then [] else b) /\ head_or (fst (u_writeA w b)) = head_or w /\ r_hij (fst (u_writeA w b)) = false.
Proof.
  intros H. unfold u_write. rewrite H. set (w1 := match r_sent w with Some _ => w | None => sent_ev w 200 end).
  assert (A : body_of (r_log w1) = body_of (r_log w) /\ r_sent w1 = Some (head_or w) /\ r_hij w1 = false).
  { unfold w1, head_or. destruct (r_sent w) eqn:E; [auto|]. cbn [sent_ev r_log r_sent r_hij]. rewrite body_of_cons, app_nil_r. auto. }
  destruct A as (A1 & A2 & A3). rewrite A2. unfold head_or in A2 |- *. destruct b as [|c b].
  - cbn [fst]. rewrite A1, A2. destruct (no_body _); rewrite app_nil_r; auto.
  - destruct (no_body (match r_sent w with Some s => s | None => 200 end)); cbn [fst]; [rewrite A1, A2, app_nil_r; auto|].
    assert (E : firstn (all_of (r_log w1) (c :: b)) (c :: b) = c :: b) by apply firstn_all. rewrite E. cbn [fst log_ev r_log r_sent r_hij]. rewrite body_of_cons, A1, A2. auto.
Qed.
Lemma given_cons o os : given (o :: os) = match o with OWrite b => b | _ => [] end ++ given os.
Proof. reflexivity. Qed.
(** after the first Write *)
Lemma late_body os : forall w w', r_once w = true -> r_hij w = false -> ~ In (OHijack true) os -> run_ops all_of os w = Some w' ->
  body_of (r_log w') = body_of (r_log w) ++ (if no_body (head_or w) then [] else given os) /\ head_or w' = head_or w /\ r_hij w' = false /\ r_once w' = true.
Proof.
  induction os as [|o os IH]; intros w w' O H N R; cbn [run_ops] in R.
  - injection R as <-. destruct (no_body _); rewrite app_nil_r; auto.
  - assert (N' : ~ In (OHijack true) os) by (intros X; apply N; right; exact X).
    assert (X : exists w1, (run_op all_of o w = Done w1 \/ exists v, run_op all_of o w = Panicked v w1) /\ r_once w1 = true /\ r_hij w1 = false /\ head_or w1 = head_or w /\
                body_of (r_log w1) = body_of (r_log w) ++ (if no_body (head_or w) then [] else match o with OWrite b => b | _ => [] end)).
    { destruct o as [s|b|h| |ok]; cbn [run_op].
      - exists (if s =? 0 then w else set_status w s). unfold write_header. destruct (s =? 0); (split; [eauto|]); destruct (no_body _); rewrite app_nil_r; auto.
      - destruct (u_write_body w b H) as (A & B & C). unfold write. rewrite O. cbn [obind]. pose proof (u_write_nos all_of w b) as (_ & U).
        destruct (u_writeA w b) as (w1 & n). cbn [fst] in *. exists (add_size w1 n). split; [left; reflexivity|]. cbn [add_size r_once r_hij r_log head_or r_sent]. unfold head_or in *. cbn [add_size r_sent]. split; [change (r_once (add_size w1 n) = true); congruence|]. split; [exact C|]. split; [exact B|]. exact A.
      - eexists. split; [left; reflexivity|]. cbn. destruct (no_body _); rewrite app_nil_r; auto.
      - eexists. split; [left; reflexivity|]. unfold flush, u_flush. rewrite H. unfold head_or. destruct (r_sent w) eqn:E; cbn [sent_ev r_log r_hij r_once r_sent]; rewrite ?body_of_cons, ?E; (destruct (no_body _); rewrite ?app_nil_r; auto).
      - destruct ok; [exfalso; apply N; left; reflexivity|]. exists w. split; [left; reflexivity|]. cbn. destruct (no_body _); rewrite app_nil_r; auto. }
    destruct X as (w1 & E & O1 & H1 & S1 & B1).
    assert (R' : run_ops all_of os w1 = Some w') by (destruct E as [E|(v & E)]; rewrite E in R; exact R).
    destruct (IH w1 w' O1 H1 N' R') as (A & B & C & D). rewrite A, B, S1, B1, given_cons, <- app_assoc. split; [|auto]. destruct (no_body _); reflexivity.
Qed.
Lemma size_body w : size_inv w -> r_size w = 0 -> body_of (r_log w) = [].
Proof. unfold size_inv. intros A B. pose proof (body_len (r_log w)) as L. destruct (body_of (r_log w)); [reflexivity|]. cbn [List.length] in L. lia. Qed.
(** the first Write: whether it comes through, and the body after it *)
Lemma first_body os b w : run_ops all_of (pre os) rw0 = Some w -> ~ In (OHijack true) (pre os) ->
  match write all_of w b with
  | Done w' => comes_through os = true /\ body_of (r_log w') = (if no_body (wire_exact os) then [] else b)
  | Panicked _ w' => comes_through os = false /\ body_of (r_log w') = []
  | Deadlock _ => True
  end.
Proof.
  intros R N. destruct (pre_run all_of (pre os) rw0 (pre_nowrite os)) as (w0 & R0 & A1 & A2 & A3 & A4 & A5).
  rewrite R in R0. injection R0 as <-. destruct (A5 N) as (A6 & A7). clear A5.
  destruct (first_exact all_of os b w R) as (_ & FE). specialize (FE N).
  assert (SI : size_inv w) by (eapply prims_ind_inv; [apply size_inv_prim|exact (run_ops_prims _ _ _ _ R)|reflexivity]).
  cbn [rw0 r_status r_size r_once r_hooks r_hij r_sent List.app] in *. specialize (A7 eq_refl).
  unfold write in *. rewrite A3 in *. unfold fire in *. cbn [set_once r_hooks] in *. rewrite A4 in *.
  destruct (call_before_end (hooks_of (pre os)) (List.length (hooks_of (pre os))) (set_once w) (Nat.le_refl _) A2) as (C & S).
  pose proof (call_before_prims (hooks_of (pre os)) (List.length (hooks_of (pre os))) (set_once w)) as P.
  rewrite firstn_all in C, S. cbn [set_once r_status] in C, S. rewrite A1 in C, S.
  change (last_from 0 (pre os)) with (last_status (pre os)) in *. fold (first_write os) in C, S. unfold comes_through.
  destruct (first_write os) as (e & f) eqn:FW. cbn [fst snd] in *. fold (set_once w) in *.
  assert (SI' : forall x, prims (set_once w) x -> size_inv x) by (intros x Px; eapply prims_ind_inv; [apply size_inv_prim|exact Px|exact SI]).
  destruct e as [s|s|]; destruct (call_before (hooks_of (pre os)) (List.length (hooks_of (pre os))) (set_once w)) as [a|v a|a]; try contradiction; cbn [obind oval outcome_of] in *.
  3: exact I.
  - destruct S as (S1 & S2 & S3 & S4). cbn [set_once r_hij r_size r_once r_sent] in *.
    assert (Ba : body_of (r_log a) = []) by (apply size_body; [apply SI', P|congruence]).
    set (a2 := if r_status a =? 0 then set_status a 200 else a) in *.
    assert (K : r_status a2 = or_200 s /\ r_hij a2 = false /\ r_sent a2 = r_sent a /\ r_log a2 = r_log a).
    { unfold a2, or_200. rewrite <- C. destruct (r_status a =? 0); cbn; rewrite S1, A6; auto. }
    destruct K as (K1 & K2 & K3 & K4). rewrite K2, K1 in *.
    assert (Sent : r_sent a2 = if (flushes (pre os) || f)%bool then Some 200 else None).
    { rewrite K3, S4, A6, A7. destruct f, (flushes (pre os)); reflexivity. }
    unfold u_write_header in *. rewrite K2, Sent in *.
    destruct (flushes (pre os) || f)%bool eqn:Fl.
    + cbn [obind] in *. destruct (u_write_body a2 b K2) as (U1 & U2 & U3). destruct (u_writeA a2 b) as (w' & n). cbn [fst] in *. split; [reflexivity|]. cbn [add_size r_log].
      rewrite U1, K4, Ba. cbn [List.app]. unfold head_or in U2 |- *. rewrite Sent in *. destruct FE as (_ & FE). cbn [add_size r_sent] in FE. rewrite FE in U2. rewrite <- U2. reflexivity.
    + cbn [orb]. destruct (Z.ltb_spec (or_200 s) 100) as [L|L]; cbn [orb] in *.
      { destruct (Z.leb_spec 100 (or_200 s)); [lia|]. cbn [andb obind]. rewrite K4. auto. }
      destruct (Z.ltb_spec 999 (or_200 s)) as [G|G]; cbn [orb] in *.
      { destruct (Z.leb_spec (or_200 s) 999); [lia|]. rewrite andb_false_r. cbn [obind]. rewrite K4. auto. }
      destruct (Z.leb_spec 100 (or_200 s)); [|lia]. destruct (Z.leb_spec (or_200 s) 999); [|lia]. cbn [andb].
      set (y := if ((or_200 s <=? 199) && negb (or_200 s =? 101))%bool then log_ev a2 (WInfo (or_200 s)) else sent_ev a2 (or_200 s)) in *.
      assert (Y : (if ((or_200 s <=? 199) && negb (or_200 s =? 101))%bool then Done (log_ev a2 (WInfo (or_200 s))) else Done (sent_ev a2 (or_200 s))) = Done y) by (unfold y; destruct (_ && _)%bool; reflexivity).
      assert (Yh : r_hij y = false /\ body_of (r_log y) = []).
      { unfold y. destruct (_ && _)%bool; cbn [log_ev sent_ev r_hij r_log]; rewrite body_of_cons, app_nil_r, K4; auto. }
      destruct Yh as (Yh & Yb). rewrite Y in *. cbn [obind] in *. destruct (u_write_body y b Yh) as (U1 & U2 & U3). destruct (u_writeA y b) as (w' & n). cbn [fst] in *. split; [reflexivity|].
      cbn [add_size r_log]. rewrite U1, Yb. cbn [List.app]. destruct FE as (_ & FE). cbn [add_size r_sent] in FE. unfold head_or in U2 at 1. rewrite FE in U2. rewrite <- U2. reflexivity.
  - destruct S as (S1 & S2 & S3 & S4). cbn [set_once r_hij r_size r_once r_sent] in *. split; [reflexivity|]. apply size_body; [apply SI', P|congruence].
Qed.
Lemma no_body_final s : is_final s = true \/ s = 200 -> no_body s = negb (body_allowed s).
Proof.
  unfold is_final, no_body, body_allowed. intros H. rewrite negb_involutive. destruct (Z.leb_spec s 199) as [L|L]; cbn [orb]; [|destruct (Z.eqb_spec s 101); [lia|reflexivity]].
  destruct (Z.eqb_spec s 101); [reflexivity|]. exfalso. destruct H as [H|H]; [|lia]. cbn [orb] in H. apply andb_true_iff in H as (H & _). apply Z.leb_le in H. lia.
Qed.
Lemma wire_final os : is_final (wire_exact os) = true \/ wire_exact os = 200.
Proof.
  unfold wire_exact. destruct (flushes (pre os)); [right; reflexivity|]. destruct (first_write os) as ([s|s|] & [|]); try (right; reflexivity).
  destruct (is_final (or_200 s)) eqn:E; [left; exact E|right; reflexivity].
Qed.
(** On a connection that takes everything, the body on the wire is what the Writes were
    given, in order, without the first Write's bytes if that one panicked; and nothing if
    the status is 101, 204 or 304 *)
Theorem C149_body_exact os w : exchange all_of os = Some w -> ~ In (OHijack true) os ->
  body_of (r_log w) = if body_allowed (wire_exact os) then given (if comes_through os then os else post os) else [].
Proof.
  intros X N. unfold exchange in X. destruct (run_ops all_of os rw0) as [w1|] eqn:R; [|discriminate X].
  assert (NB : no_body (wire_exact os) = negb (body_allowed (wire_exact os))) by (apply no_body_final, wire_final).
  destruct (split_write os) as [(Hw & E & E2)|(Hw & b & E)].
  - assert (G : given os = []).
    { clear - Hw. induction os as [|o os IH]; [reflexivity|]. cbn [has_write existsb] in Hw. apply orb_false_iff in Hw as (A & B). rewrite given_cons, IH by exact B. destruct o; [reflexivity|discriminate A|reflexivity|reflexivity|reflexivity]. }
    assert (G' : given (if comes_through os then os else post os) = []) by (destruct (comes_through os); [exact G|rewrite E2; reflexivity]). rewrite G'.
    rewrite <- E in R. pose proof (first_body os [] w1 R ltac:(rewrite E; exact N)) as F. destruct (write all_of w1 []) as [w2|v w2|w2]; try discriminate X. injection X as <-.
    destruct F as (_ & F). rewrite F. destruct (no_body _), (body_allowed _); reflexivity.
  - assert (N1 : ~ In (OHijack true) (pre os)) by (intros K; apply N, in_pre, K). assert (N2 : ~ In (OHijack true) (post os)) by (intros K; apply N, in_post, K).
    rewrite E in R. rewrite run_ops_app in R. destruct (run_ops all_of (pre os) rw0) as [w0|] eqn:R1; [|discriminate R]. cbn [run_ops run_op] in R.
    pose proof (first_body os b w0 R1 N1) as F. destruct (first_exact all_of os b w0 R1) as (F1 & F2). specialize (F2 N1).
    assert (Gp : given (pre os) = []). { clear. induction os as [|o os IH]; [reflexivity|]. destruct o; cbn [pre]; try reflexivity; rewrite given_cons; exact IH. }
    assert (Go : given os = b ++ given (post os)). { rewrite E at 1. unfold given in *. rewrite flat_map_app, Gp. reflexivity. }
    assert (Y : exists w2, run_ops all_of (post os) w2 = Some w1 /\ r_once w2 = true /\ r_hij w2 = false /\ head_or w2 = wire_exact os /\
                body_of (r_log w2) = if comes_through os then (if no_body (wire_exact os) then [] else b) else []).
    { destruct (write all_of w0 b) as [w2|v w2|w2]; try discriminate R; exists w2; destruct F2 as (G1 & G2); destruct F as (Fa & Fb).
      - unfold head_or. rewrite G2, Fa. split; [exact R|]. destruct (fst (first_write os)); try contradiction; destruct F1; auto.
      - unfold head_or. rewrite Fa. split; [exact R|]. assert (H2 : match r_sent w2 with Some s => s | None => 200 end = wire_exact os) by (destruct (r_sent w2); congruence).
        destruct (fst (first_write os)); try contradiction; destruct F1; auto. }
    destruct Y as (w2 & R2 & O2 & J2 & S2 & B2). destruct (late_body (post os) w2 w1 O2 J2 N2 R2) as (L1 & L2 & L3 & L4).
    assert (R3 : run_ops all_of [OWrite []] w1 = Some w). { cbn [run_ops run_op]. destruct (write all_of w1 []) as [w3|v w3|w3]; try discriminate X. exact X. }
    destruct (late_body [OWrite []] w1 w L4 L3 ltac:(intros [K|[]]; discriminate K) R3) as (M1 & _). rewrite M1, L1, B2, S2, NB. cbn [given flat_map List.app].
    destruct (no_body (head_or w1)); rewrite app_nil_r; (destruct (body_allowed (wire_exact os)), (comes_through os); cbn [negb List.app]; rewrite ?Go; reflexivity).
Qed.
Example C149_example :
  let os := [OWriteHeader 404; OWrite (bs "a"); OWriteHeader 204; OWrite (bs "b")] in
  (exists w, exchange all_of os = Some w /\ body_of (r_log w) = bs "ab") /\ comes_through os = true /\ wire_exact os = 404 /\
  (exists w, exchange all_of [OBefore HPanic; OWrite (bs "lost"); OWrite (bs "kept")] = Some w /\ body_of (r_log w) = bs "kept") /\
  (exists w, exchange all_of [OWriteHeader 304; OWrite (bs "lost")] = Some w /\ body_of (r_log w) = []).
Proof. cbv zeta. repeat split; try (eexists; split; vm_compute; reflexivity). Qed.

Print Assumptions C148_after_hijack.
Print Assumptions C148_failed_hijack.
Print Assumptions C149_body_exact.
