(** Props_RespExact: exact forms of C22, C24 and C25: the status on the wire,
    Status() and Written() of every exchange, whatever the handlers and hooks do. *)
From Coq Require Import List Ascii String Bool Arith ZArith Lia.
Import ListNotations.
From Verif Require Import GoStr RespModel RespSpec RespFacts Props_Resp.
Local Open Scope Z_scope.

(** *** Specification *)
(** how a hook of the first Write ends when it finds status s: it returns, it
    panics (HPanic, WriteHeader(0)), or it never ends (it writes); and whether it
    flushed before *)
Inductive hend := HBack (s : Z) | HStop (s : Z) | HStuck.
Fixpoint hook_end (h : hook) (s : Z) : hend * bool :=
  match h with
  | HRet => (HBack s, false)
  | HWriteHeader s' k => if s' =? 0 then (HStop s, false) else hook_end k s'
  | HWrite _ _ => (HStuck, false)
  | HBefore _ k => hook_end k s
  | HFlush k => (fst (hook_end k s), true)
  | HSee k => hook_end (k s 0 (negb (s =? 0))) s
  | HPanic => (HStop s, false)
  end.
(** hooks in the order they run *)
Fixpoint hooks_end (hs : list hook) (s : Z) : hend * bool :=
  match hs with
  | [] => (HBack s, false)
  | h :: hs => match hook_end h s with
               | (HBack s', f) => (fst (hooks_end hs s'), f || snd (hooks_end hs s'))
               | x => x
               end
  end.
Definition first_write (os : list op) : hend * bool := hooks_end (rev (hooks_of (pre os))) (last_status (pre os)).
Definition flushes (os : list op) : bool := existsb (fun o => match o with OFlush => true | _ => false end) os.
Definition or_200 (s : Z) : Z := if s =? 0 then 200 else s.
Definition is_final (s : Z) : bool := (s =? 101) || ((200 <=? s) && (s <=? 999)).
(** the status on the wire: what handlers and then hooks set before the first
    Write, provided nobody flushes before, no hook panics and net/http takes the
    code as a final one; in all other cases 200 *)
Definition wire_exact (os : list op) : Z :=
  if flushes (pre os) then 200 else
  match first_write os with
  | (HBack s, false) => if is_final (or_200 s) then or_200 s else 200
  | _ => 200
  end.
(** Status(): what was set last, if only in vain; 200 if a Write came through before
    any status *)
Definition last_from (s : Z) (os : list op) : Z :=
  fold_left (fun s o => match o with OWriteHeader s' => if s' =? 0 then s else s' | _ => s end) os s.
Definition has_write (os : list op) : bool := existsb (fun o => match o with OWrite _ => true | _ => false end) os.
Definition status_exact (os : list op) : Z :=
  if has_write os then
    match fst (first_write os) with HBack s => last_from (or_200 s) (post os) | HStop s => last_from s (post os) | HStuck => 0 end
  else last_status os.

(** *** Proofs *)
Section Conn.
  Variable accept : list wev -> bytes -> nat.

  Definition outcome_of (x : out rw) (e : hend) : Prop :=
    match e, x with
    | HBack s, Done w => r_status w = s
    | HStop s, Panicked _ w => r_status w = s
    | HStuck, Deadlock _ => True
    | _, _ => False
    end.
  Definition sent_by (w w' : rw) (f : bool) : Prop :=
    r_hij w' = r_hij w /\ r_size w' = r_size w /\ r_once w' = r_once w /\
    r_sent w' = if f then (if r_hij w then r_sent w else match r_sent w with Some s => Some s | None => Some 200 end) else r_sent w.
  Lemma sent_by_trans a b c f g : sent_by a b f -> sent_by b c g -> sent_by a c (f || g).
  Proof using Type.
    intros (A1 & A2 & A3 & A4) (B1 & B2 & B3 & B4). repeat split; try congruence.
    rewrite B4, A1, A4. destruct f, g; cbn [orb]; destruct (r_hij a), (r_sent a); reflexivity.
  Qed.
  Lemma flush_sent w : sent_by w (flush w) true.
  Proof using Type. unfold sent_by, flush, u_flush. destruct (r_hij w) eqn:A, (r_sent w) eqn:B; cbn; auto. Qed.
  Lemma run_hook_end h : forall w, r_size w = 0 ->
    outcome_of (run_hook h w) (fst (hook_end h (r_status w))) /\ sent_by w (oval (run_hook h w)) (snd (hook_end h (r_status w))).
  Proof using Type.
    induction h as [|s k IH|b k IH|h IHh k IH|k IH|k IH|]; intros w Sz; cbn [run_hook hook_end fst snd oval outcome_of]; try (repeat split; fail).
    - unfold write_header. destruct (s =? 0); cbn [obind fst snd outcome_of oval]; [repeat split|]. exact (IH (set_status w s) Sz).
    - exact (IH (before w h) Sz).
    - destruct (flush_sent w) as (A & B & C & D).
      assert (St : r_status (flush w) = r_status w) by (unfold flush, u_flush; destruct (r_hij w), (r_sent w); reflexivity).
      destruct (IH (flush w)) as (X & Y); [congruence|]. rewrite St in X, Y. split; [exact X|].
      change true with (true || snd (hook_end k (r_status w))). eapply sent_by_trans; [apply flush_sent|exact Y].
    - specialize (IH (r_status w) 0 (negb (r_status w =? 0)) w Sz).
      unfold status, size, written. rewrite Sz. exact IH.
  Qed.
  Lemma call_before_end hs : forall i w, (i <= List.length hs)%nat -> r_size w = 0 ->
    let x := call_before hs i w in let e := hooks_end (rev (firstn i hs)) (r_status w) in
    outcome_of x (fst e) /\ sent_by w (oval x) (snd e).
  Proof using Type.
    induction i as [|j IH]; intros w Hi Sz; cbn [call_before].
    - cbn. repeat split.
    - destruct (nth_error hs j) as [h|] eqn:E; [|apply nth_error_None in E; lia].
      assert (F : rev (firstn (S j) hs) = h :: rev (firstn j hs)).
      { assert (X : firstn (S j) hs = firstn j hs ++ [h]).
        { clear - E. revert hs E. induction j as [|j IH]; intros [|a hs] E; try discriminate E; cbn in *; [congruence|]. now rewrite (IH hs E). }
        rewrite X, rev_app_distr. reflexivity. }
      cbv zeta. rewrite F. cbn [hooks_end].
      destruct (run_hook_end h (log_ev w (WHook j))) as (A & B); [exact Sz|]. cbn [log_ev r_status] in A, B.
      destruct (hook_end h (r_status w)) as ([s|s|] & f); cbn [fst snd outcome_of] in A, B;
        destruct (run_hook h (log_ev w (WHook j))) as [w'|v w'|w']; try contradiction; cbn [obind oval fst snd outcome_of] in *.
      + destruct B as (B1 & B2 & B3 & B4). cbn [log_ev r_hij r_size r_once r_sent] in *.
        destruct (IH w') as (C & D); [lia|congruence|]. rewrite A in C, D. split; [exact C|].
        eapply sent_by_trans; [|exact D]. repeat split; auto.
      + split; [exact A|]. exact B.
      + split; [exact I|]. exact B.
  Qed.

  (** the calls before the first Write *)
  Lemma pre_run os : forall w, nowrite os -> exists w', run_ops accept os w = Some w' /\
    r_status w' = last_from (r_status w) os /\ r_size w' = r_size w /\ r_once w' = r_once w /\ r_hooks w' = r_hooks w ++ hooks_of os /\
    (~ In (OHijack true) os -> r_hij w' = r_hij w /\ (r_hij w = false -> r_sent w' = if flushes os then Some (match r_sent w with Some s => s | None => 200 end) else r_sent w)).
  Proof using Type.
    induction os as [|o os IH]; intros w N.
    - exists w. cbn. rewrite app_nil_r. repeat split; auto.
    - assert (N' : nowrite os) by (intros b Hb; apply (N b); now right).
      assert (X : exists w1, (run_op accept o w = Done w1 \/ exists v, run_op accept o w = Panicked v w1) /\
        r_status w1 = last_from (r_status w) [o] /\ r_size w1 = r_size w /\ r_once w1 = r_once w /\ r_hooks w1 = r_hooks w ++ hooks_of [o] /\
        (o <> OHijack true -> r_hij w1 = r_hij w /\ (r_hij w = false -> r_sent w1 = if flushes [o] then Some (match r_sent w with Some s => s | None => 200 end) else r_sent w))).
      { destruct o as [s|b|h| |ok]; cbn [run_op].
        - unfold write_header. cbn. destruct (s =? 0); eexists; (split; [eauto|]); rewrite app_nil_r; repeat split; auto.
        - exfalso. apply (N b). now left.
        - eexists. split; [eauto|]. cbn. repeat split; auto.
        - eexists. split; [eauto|]. unfold flush, u_flush. cbn. destruct (r_hij w) eqn:Hj, (r_sent w) eqn:Hs; cbn; rewrite app_nil_r, ?Hj, ?Hs; repeat split; auto; discriminate.
        - eexists. split; [eauto|]. cbn. rewrite app_nil_r. destruct ok; cbn; repeat split; auto; congruence. }
      destruct X as (w1 & R & A1 & A2 & A3 & A4 & A5). destruct (IH w1 N') as (w' & E & B1 & B2 & B3 & B4 & B5).
      exists w'. cbn [run_ops]. split; [destruct R as [-> | (v & ->)]; exact E|].
      split; [rewrite B1, A1; reflexivity|]. split; [congruence|]. split; [congruence|].
      split; [rewrite B4, A4, <- app_assoc; f_equal; unfold hooks_of; cbn; now rewrite app_nil_r|].
      intros Hn. destruct A5 as (A5 & A6); [intros ->; apply Hn; now left|].
      destruct B5 as (B5 & B6); [intros K; apply Hn; now right|]. split; [congruence|]. intros Hj.
      rewrite B6 by congruence. rewrite A6 by assumption. unfold flushes. cbn [existsb]. rewrite orb_false_r.
      destruct o; cbn [orb]; try reflexivity. destruct (existsb _ os), (r_sent w); reflexivity.
  Qed.
  (** after the first Write, if it returned or panicked *)
  Lemma late_op o w : r_once w = true -> exists w1, (run_op accept o w = Done w1 \/ (exists v, run_op accept o w = Panicked v w1)) /\
    r_once w1 = true /\ r_status w1 = last_from (r_status w) [o] /\
    (o <> OHijack true -> r_hij w = false -> r_hij w1 = false /\
       (forall s, r_sent w = Some s -> r_sent w1 = Some s) /\ (r_sent w = None -> r_sent w1 = None \/ r_sent w1 = Some 200)).
  Proof using Type.
    intros O. destruct o as [s|b|h| |ok]; cbn [run_op].
    - unfold write_header. cbn. destruct (s =? 0); eexists; (split; [eauto|]); repeat split; auto.
    - unfold write. rewrite O. cbn [obind].
      pose proof (u_write_status accept w b) as S. pose proof (u_write_nos accept w b) as (_ & U). 
      assert (V : r_hij w = false -> r_hij (fst (u_write accept w b)) = false /\
                 (forall s, r_sent w = Some s -> r_sent (fst (u_write accept w b)) = Some s) /\ (r_sent w = None -> r_sent (fst (u_write accept w b)) = Some 200)).
      { intros Hj. unfold u_write. rewrite Hj.
        set (w1 := match r_sent w with Some _ => w | None => sent_ev w 200 end).
        assert (K : r_hij w1 = false /\ (forall s, r_sent w = Some s -> r_sent w1 = Some s) /\ (r_sent w = None -> r_sent w1 = Some 200)).
        { unfold w1. destruct (r_sent w) as [z|] eqn:E; cbn; repeat split; auto; congruence. }
        destruct b as [|c b]; [exact K|]. destruct (no_body _); [exact K|]. destruct (firstn _ _); exact K. }
      destruct (u_write accept w b) as (w1 & n). cbn [fst] in V. eexists. split; [eauto|].
      split; [congruence|]. split; [exact S|]. intros _ Hj. destruct (V Hj) as (V1 & V2 & V3). cbn [add_size r_hij r_sent]. auto.
    - eexists. split; [eauto|]. cbn. repeat split; auto.
    - eexists. split; [eauto|]. unfold flush, u_flush. destruct (r_hij w) eqn:Hj, (r_sent w) eqn:Hs; cbn; rewrite ?Hj, ?Hs; repeat split; auto; try discriminate.
    - eexists. split; [eauto|]. destruct ok; cbn; repeat split; auto; congruence.
  Qed.
  Lemma late_ops os : forall w, r_once w = true -> exists w', run_ops accept os w = Some w' /\
    r_once w' = true /\ r_status w' = last_from (r_status w) os /\
    (~ In (OHijack true) os -> r_hij w = false -> r_hij w' = false /\
       (forall s, r_sent w = Some s -> r_sent w' = Some s) /\ (r_sent w = None -> r_sent w' = None \/ r_sent w' = Some 200)).
  Proof using Type.
    induction os as [|o os IH]; intros w O.
    - exists w. cbn. repeat split; auto.
    - destruct (late_op o w O) as (w1 & R & O1 & S1 & H1). destruct (IH w1 O1) as (w' & E & O2 & S2 & H2).
      exists w'. cbn [run_ops]. split; [destruct R as [-> | (v & ->)]; exact E|]. split; [exact O2|]. split; [rewrite S2, S1; reflexivity|].
      intros N Hj. destruct H1 as (A1 & A2 & A3); [intros ->; apply N; now left|exact Hj|].
      destruct H2 as (B1 & B2 & B3); [intros K; apply N; now right|exact A1|].
      split; [exact B1|]. split; [intros s Es; apply B2, A2, Es|]. intros En. destruct (A3 En) as [K|K]; [auto|right; now apply B2].
  Qed.
  (** the first Write itself *)
  Lemma first_exact os b w : run_ops accept (pre os) rw0 = Some w ->
    match fst (first_write os), write accept w b with
    | HBack s, Done w' => r_once w' = true /\ r_status w' = or_200 s
    | HBack s, Panicked _ w' => r_once w' = true /\ r_status w' = or_200 s
    | HStop s, Panicked _ w' => r_once w' = true /\ r_status w' = s
    | HStuck, Deadlock _ => True
    | _, _ => False
    end /\
    (~ In (OHijack true) (pre os) ->
     match write accept w b with
     | Done w' => r_hij w' = false /\ r_sent w' = Some (wire_exact os)
     | Panicked _ w' => r_hij w' = false /\ match r_sent w' with Some s => s = wire_exact os | None => wire_exact os = 200 end
     | Deadlock _ => True
     end).
  Proof using Type.
    intros R. destruct (pre_run (pre os) rw0 (pre_nowrite os)) as (w0 & R0 & A1 & A2 & A3 & A4 & A5).
    rewrite R in R0. injection R0 as <-. cbn [rw0 r_status r_size r_once r_hooks r_hij r_sent List.app] in *.
    unfold write. rewrite A3. unfold fire. cbn [set_once r_hooks]. rewrite A4.
    destruct (call_before_end (hooks_of (pre os)) (List.length (hooks_of (pre os))) (set_once w) (Nat.le_refl _) A2) as (C & S).
    rewrite firstn_all in C, S. cbn [set_once r_status] in C, S. rewrite A1 in C, S.
    change (last_from 0 (pre os)) with (last_status (pre os)) in *. fold (first_write os) in C, S. unfold wire_exact.
    destruct (first_write os) as (e & f) eqn:FW. cbn [fst snd] in *.
    fold (set_once w).
    destruct e as [s|s|]; destruct (call_before (hooks_of (pre os)) (List.length (hooks_of (pre os))) (set_once w)) as [a|v a|a]; try contradiction; cbn [obind oval outcome_of] in *.
    3: tauto.
    - destruct S as (S1 & S2 & S3 & S4). cbn [set_once r_hij r_size r_once r_sent] in *.
      set (a2 := if r_status a =? 0 then set_status a 200 else a).
      assert (K : r_status a2 = or_200 s /\ r_hij a2 = r_hij w /\ r_once a2 = true /\ r_sent a2 = r_sent a).
      { unfold a2, or_200. rewrite <- C. destruct (r_status a =? 0); cbn; auto. }
      destruct K as (K1 & K2 & K3 & K4). 
      assert (HD : forall x, r_once x = true -> r_status x = or_200 s ->
        match obind (Done x) (fun w0 => let (w', n) := u_write accept w0 b in Done (add_size w' n)) with Done w' => r_once w' = true /\ r_status w' = or_200 s | _ => False end).
      { intros x O St. cbn [obind]. pose proof (u_write_status accept x b) as U1. pose proof (u_write_nos accept x b) as (_ & U2).
        destruct (u_write accept x b). split; congruence. }
      assert (HS : forall x, r_hij x = false -> 
        match obind (Done x) (fun w0 => let (w', n) := u_write accept w0 b in Done (add_size w' n)) with
        | Done w' => r_hij w' = false /\ r_sent w' = Some (match r_sent x with Some z => z | None => 200 end) | _ => False end).
      { intros x Hj. cbn [obind]. unfold u_write. rewrite Hj.
        set (w1 := match r_sent x with Some _ => x | None => sent_ev x 200 end).
        assert (Kx : r_hij w1 = false /\ r_sent w1 = Some (match r_sent x with Some z => z | None => 200 end)).
        { unfold w1. destruct (r_sent x) as [z|] eqn:E; cbn; auto. }
        destruct b as [|c b']; [exact Kx|]. destruct (no_body _); [exact Kx|]. destruct (firstn _ _); exact Kx. }
      destruct (r_hij a2) eqn:Hj2.
      + split.
        * specialize (HD a2 K3 K1). destruct (obind (Done a2) _); try contradiction; assumption.
        * intros N. destruct (A5 N) as (A6 & _). congruence.
      + assert (Fw : forall x, u_write_header a2 (r_status a2) = x ->
            match x with
            | Done y => r_once y = true /\ r_status y = or_200 s /\ r_hij y = false /\
                (r_sent y = match r_sent a2 with Some z => Some z | None => if is_final (or_200 s) then Some (or_200 s) else None end)
            | Panicked _ y => y = a2 /\ r_sent a2 = None /\ is_final (or_200 s) = false
            | Deadlock _ => False
            end).
        { intros x <-. unfold u_write_header. rewrite Hj2, K1. destruct (r_sent a2) as [z|] eqn:E; [auto|].
          unfold is_final. destruct (Z.ltb_spec (or_200 s) 100) as [L|L]; cbn [orb].
          { split; [reflexivity|]. split; [reflexivity|]. destruct (Z.eqb_spec (or_200 s) 101); [lia|]. destruct (Z.leb_spec 200 (or_200 s)); [lia|reflexivity]. }
          destruct (Z.ltb_spec 999 (or_200 s)) as [G|G].
          { split; [reflexivity|]. split; [reflexivity|]. destruct (Z.eqb_spec (or_200 s) 101); [lia|]. destruct (Z.leb_spec (or_200 s) 999); [lia|]. now rewrite andb_false_r. }
          destruct (Z.leb_spec (or_200 s) 199) as [I1|I1]; cbn [andb].
          - destruct (Z.eqb_spec (or_200 s) 101) as [E1|E1]; cbn [negb orb].
            + cbn. auto.
            + destruct (Z.leb_spec 200 (or_200 s)); [lia|]. cbn. auto.
          - destruct (Z.leb_spec 200 (or_200 s)); [|lia]. destruct (Z.leb_spec (or_200 s) 999); [|lia]. rewrite orb_true_r. cbn. auto. }
        specialize (Fw _ eq_refl).
        destruct (u_write_header a2 (r_status a2)) as [y|v y|y]; [|cbn [obind]|contradiction].
        * destruct Fw as (F1 & F2 & F3 & F4). split.
          -- specialize (HD y F1 F2). destruct (obind (Done y) _); try contradiction; assumption.
          -- intros N. destruct (A5 N) as (A6 & A7). specialize (HS y F3). destruct (obind (Done y) _) as [z| |]; try contradiction.
             destruct HS as (H1 & H2). split; [exact H1|]. rewrite H2, F4, K4, S4, A6. rewrite A7 by reflexivity.
             destruct (flushes (pre os)), f; cbn; try reflexivity. destruct (is_final (or_200 s)); reflexivity.
        * destruct Fw as (-> & F2 & F3). split; [auto|]. intros N. destruct (A5 N) as (A6 & A7). split; [exact Hj2|].
          rewrite F2. rewrite K4, S4, A6 in F2. rewrite A7 in F2 by reflexivity. destruct (flushes (pre os)), f; try discriminate F2.
          now rewrite F3.
    - destruct S as (S1 & S2 & S3 & S4). cbn [set_once r_hij r_size r_once r_sent] in *. split; [auto|].
      intros N. destruct (A5 N) as (A6 & A7). split; [congruence|]. rewrite S4, A6. rewrite A7 by reflexivity.
      destruct (flushes (pre os)), f; reflexivity.
  Qed.

  Lemma split_write os : (has_write os = false /\ pre os = os /\ post os = []) \/ (has_write os = true /\ exists b, os = pre os ++ OWrite b :: post os).
  Proof using Type.
    induction os as [|o os IH]; cbn; [auto|].
    destruct o; cbn; try (destruct IH as [(IH0 & IH1 & IH2)|(IH0 & b & E)]; [left; rewrite IH1; auto|right; split; [exact IH0|exists b; congruence]]). right. eauto.
  Qed.
  Lemma in_pre os : In (OHijack true) (pre os) -> In (OHijack true) os.
  Proof using Type. intros H. destruct (split_write os) as [(_ & E & _)|(_ & b & E)]; [now rewrite E in H|rewrite E; apply in_or_app; now left]. Qed.
  Lemma in_post os : In (OHijack true) (post os) -> In (OHijack true) os.
  Proof using Type. intros H. destruct (split_write os) as [(_ & _ & E)|(_ & b & E)]; [rewrite E in H; destruct H|rewrite E; apply in_or_app; right; now right]. Qed.

  (** C22, Status(): after any calls, hooks of any kind included *)
  Theorem C22_status_exact os w : run_ops accept os rw0 = Some w -> status w = status_exact os.
  Proof using Type.
    intros R. unfold status, status_exact. destruct (split_write os) as [(-> & E & _)|(-> & b & E)].
    - destruct (pre_run (pre os) rw0 (pre_nowrite os)) as (w0 & R0 & A & _). rewrite E in R0, A. rewrite R in R0. injection R0 as <-. exact A.
    - rewrite E in R. rewrite run_ops_app in R. destruct (run_ops accept (pre os) rw0) as [w1|] eqn:R1; [|discriminate R].
      cbn [run_ops run_op] in R. destruct (first_exact os b w1 R1) as (F & _).
      destruct (fst (first_write os)) as [s|s|], (write accept w1 b) as [w2|v w2|w2]; try contradiction; try discriminate R;
        destruct F as (F1 & F2); destruct (late_ops (post os) w2 F1) as (w3 & R3 & _ & S3 & _); rewrite R in R3; injection R3 as <-; now rewrite S3, F2.
  Qed.
  (** C22, the wire: every finished exchange without hijacking sends exactly one
      header, with this status *)
  Theorem C22_wire_exact os w : exchange accept os = Some w -> ~ In (OHijack true) os ->
    forall s, In (WHeader s) (r_log w) <-> s = wire_exact os.
  Proof using Type.
    intros X NH.
    assert (SENT : r_sent w = Some (wire_exact os)).
    { unfold exchange in X. destruct (run_ops accept os rw0) as [w1|] eqn:R; [|discriminate X].
      destruct (split_write os) as [(_ & E & _)|(_ & b & E)].
      - rewrite <- E in R. destruct (first_exact os [] w1 R) as (_ & F). specialize (F ltac:(intros K; apply NH, in_pre, K)).
        destruct (write accept w1 []) as [w2|v w2|w2]; try discriminate X. injection X as <-. apply F.
      - rewrite E in R. rewrite run_ops_app in R. destruct (run_ops accept (pre os) rw0) as [w0|] eqn:R1; [|discriminate R].
        cbn [run_ops run_op] in R. destruct (first_exact os b w0 R1) as (F & G). specialize (G ltac:(intros K; apply NH, in_pre, K)).
        assert (Y : exists w2, run_ops accept (post os) w2 = Some w1 /\ r_once w2 = true /\ r_hij w2 = false /\ match r_sent w2 with Some s => s = wire_exact os | None => wire_exact os = 200 end).
        { destruct (write accept w0 b) as [w2|v w2|w2]; try discriminate R.
          - exists w2. destruct G as (G1 & G2). rewrite G2. destruct (fst (first_write os)); try contradiction; destruct F; auto.
          - exists w2. destruct G as (G1 & G2). destruct (fst (first_write os)); try contradiction; destruct F; auto. }
        destruct Y as (w2 & R2 & O2 & J2 & S2).
        destruct (late_ops (post os) w2 O2) as (w3 & R3 & O3 & _ & H3). rewrite R2 in R3. injection R3 as <-.
        destruct H3 as (J3 & P3 & N3); [intros K; apply NH, in_post, K|exact J2|].
        destruct (late_op (OWrite []) w1 O3) as (w4 & R4 & _ & _ & H4). cbn [run_op] in R4.
        destruct (write accept w1 []) as [w5|v w5|w5] eqn:W5; try discriminate X. injection X as <-.
        destruct R4 as [[= <-]|(v & R4)]; [|discriminate R4].
        destruct H4 as (_ & P4 & N4); [discriminate|exact J3|].
        destruct (r_sent w2) as [z|].
        + rewrite <- S2. apply P4, P3. reflexivity.
        + rewrite S2. destruct (N3 eq_refl) as [K|K]; [|apply P4, K].
          destruct (N4 K) as [L|L]; [|exact L].
          exfalso. revert L. pose proof (write_sends accept w1 [] w5 J3 W5) as Z. congruence. }
    assert (I : wire_inv w).
    { eapply prims_ind_inv; [apply wire_inv_prim|exact (exchange_prims _ _ _ X)|]. cbn. auto. }
    unfold wire_inv in I. rewrite SENT in I. destruct I as (l1 & l2 & E & A & B & _). intros s. rewrite E. split.
    - intros H. apply in_app_or in H. destruct H as [H|[H|H]].
      + exfalso. assert (existsb is_header l1 = true) by (apply existsb_exists; eauto). congruence.
      + congruence.
      + exfalso. assert (existsb is_header l2 = true) by (apply existsb_exists; eauto). congruence.
    - intros ->. apply in_or_app. right. now left.
  Qed.
  (** so what Status() reports in the end is the status on the wire, unless a later
      status was set, the code was refused, somebody flushed, or a hook panicked *)
  Theorem C22_status_tells_wire os w : exchange accept os = Some w -> ~ In (OHijack true) os ->
    (forall s, In (OWriteHeader s) (post os) -> s = 0) -> flushes (pre os) = false ->
    forall s, first_write os = (HBack s, false) -> is_final (or_200 s) = true ->
    status w = or_200 s /\ In (WHeader (or_200 s)) (r_log w).
  Proof using Type.
    intros X NH P Fl s FW Fi.
    assert (W : wire_exact os = or_200 s) by (unfold wire_exact; now rewrite Fl, FW, Fi).
    split; [|apply (C22_wire_exact os w X NH); congruence].
    apply exchange_ops in X. apply C22_status_exact in X. rewrite X. unfold status_exact.
    assert (HW : has_write (os ++ [OWrite []]) = true) by (unfold has_write; rewrite existsb_app; apply orb_true_r). rewrite HW.
    assert (PP : pre (os ++ [OWrite []]) = pre os) by (clear; induction os as [|o os IH]; [reflexivity|]; destruct o; cbn; congruence).
    unfold first_write in *. rewrite PP, FW. cbn [fst].
    assert (LF : forall l z, (forall s, In (OWriteHeader s) l -> s = 0) -> last_from z l = z).
    { clear. intros l. induction l as [|o l IH]; intros z H; [reflexivity|]. cbn. unfold last_from in IH.
      rewrite IH by (intros x Hx; apply H; now right). destruct o; auto. rewrite (H s) by now left. reflexivity. }
    apply LF. intros x Hx. apply P.
    assert (PQ : In (OWriteHeader x) (post os)).
    { revert Hx. clear. induction os as [|o os IH]; [intros []|]. destruct o; cbn; auto. intros H. apply in_app_or in H. destruct H as [H|[H|[]]]; [exact H|discriminate H]. }
    exact PQ.
  Qed.
  (** C24, Written(): false exactly if no handler set a (non-zero) status and the
      first Write, if there is one, was stopped by a hook before any was set *)
  Theorem C24_written_exact os w : run_ops accept os rw0 = Some w ->
    (written w = false <->
     (forall s, In (OWriteHeader s) os -> s = 0) /\
     (has_write os = true -> fst (first_write os) = HStop 0)).
  Proof using Type.
    intros R. unfold written. fold (status w). rewrite (C22_status_exact os w R). unfold status_exact.
    assert (LF : forall l z, last_from z l = 0 <-> z = 0 /\ forall s, In (OWriteHeader s) l -> s = 0).
    { clear. intros l. induction l as [|o l IH]; intros z; [cbn; split; [intros ->; split; [reflexivity|intros s []]|intros (H & _); exact H]|].
      change (last_from z (o :: l)) with (last_from (match o with OWriteHeader s' => if s' =? 0 then z else s' | _ => z end) l).
      rewrite IH. split.
      - intros (A & B). destruct o as [s|b|h| |ok]; try (split; [exact A|]; intros s' [H|H]; [discriminate H|auto]).
        destruct (Z.eqb_spec s 0) as [->|Ns]; [|contradiction]. split; [exact A|]. intros s' [H|H]; [congruence|auto].
      - intros (-> & B). split; [|intros s Hs; apply B; now right]. destruct o as [s|b|h| |ok]; auto. rewrite (B s) by now left. reflexivity. }
    assert (O2 : forall s, or_200 s <> 0) by (intros s; unfold or_200; destruct (Z.eqb_spec s 0); lia).
    assert (NB : forall z, negb (z =? 0) = false <-> z = 0) by (intros z; rewrite negb_false_iff; apply Z.eqb_eq). rewrite NB.
    destruct (split_write os) as [(-> & E & _)|(-> & b & E)].
    - unfold last_status. fold (last_from 0 os). rewrite LF. split; [intros (_ & H); split; [exact H|discriminate]|intros (H & _); auto].
    - assert (PS : forall s, In (OWriteHeader s) os <-> In (OWriteHeader s) (pre os) \/ In (OWriteHeader s) (post os)).
      { intros s. rewrite E at 1. rewrite in_app_iff. cbn. split; [intros [H|[H|H]]; [auto|discriminate H|auto]|tauto]. }
      (* a hook can only stop at 0 if no handler had set a status *)
      assert (MON : forall h s s', fst (hook_end h s) = HStop s' -> s <> 0 -> s' <> 0).
      { clear. induction h as [|s0 k IH|b k IH|h IHh k IH|k IH|k IH|]; intros s s'; cbn [hook_end fst]; try discriminate.
        - destruct (Z.eqb_spec s0 0); cbn [fst]; [intros [= <-]; auto|]. intros H _. eapply IH; eauto.
        - apply IH.
        - apply IH.
        - apply IH.
        - intros [= <-]. auto. }
      assert (MON2 : forall h s s', fst (hook_end h s) = HBack s' -> s <> 0 -> s' <> 0).
      { clear. induction h as [|s0 k IH|b k IH|h IHh k IH|k IH|k IH|]; intros s s'; cbn [hook_end fst]; try discriminate.
        - intros [= <-]. auto.
        - destruct (Z.eqb_spec s0 0); cbn [fst]; [discriminate|]. intros H _. eapply IH; eauto.
        - apply IH.
        - apply IH.
        - apply IH. }
      assert (MON3 : forall hs s, fst (hooks_end hs s) = HStop 0 -> s = 0).
      { clear - MON MON2. induction hs as [|h hs IH]; intros s; cbn [hooks_end]; [discriminate|].
        destruct (hook_end h s) as ([s1|s1|] & f) eqn:Eh; cbn [fst].
        - intros H. apply IH in H. subst s1. destruct (Z.eq_dec s 0); [assumption|]. exfalso. apply (MON2 h s 0); auto. now rewrite Eh.
        - intros [= ->]. destruct (Z.eq_dec s 0); [assumption|]. exfalso. apply (MON h s 0); auto. now rewrite Eh.
        - discriminate. }
      destruct (fst (first_write os)) as [s|s|] eqn:FW.
      + rewrite LF. split; [intros (H & _); exfalso; exact (O2 s H)|intros (_ & H); specialize (H eq_refl); discriminate H].
      + rewrite LF. split.
        * intros (-> & H). split; [|auto]. intros s Hs. apply PS in Hs. destruct Hs as [Hs|Hs]; [|auto].
          unfold first_write in FW. apply MON3 in FW. apply (proj1 (LF (pre os) 0) FW). exact Hs.
        * intros (H & K). injection (K eq_refl) as ->. split; [reflexivity|]. intros s Hs. apply H, PS. auto.
      + exfalso. rewrite E in R. rewrite run_ops_app in R. destruct (run_ops accept (pre os) rw0) as [w1|] eqn:R1; [|discriminate R].
        cbn [run_ops run_op] in R. destruct (first_exact os b w1 R1) as (F & _). rewrite FW in F.
        destruct (write accept w1 b); try contradiction. discriminate R.
  Qed.
  (** C25, exactly: a Flush before anything left commits 200, leaving status, size and
      hooks as they are (a later Write runs the hooks in vain); otherwise it changes
      nothing. An exchange with a Flush before the first Write always has 200 on the
      wire. *)
  Theorem C25_flush_exact w :
    (r_hij w = false -> r_sent w = None ->
       r_log (flush w) = WHeader 200 :: r_log w /\ status (flush w) = status w /\ size (flush w) = size w /\
       r_hooks (flush w) = r_hooks w /\ r_once (flush w) = r_once w) /\
    (r_hij w = true \/ r_sent w <> None -> flush w = w).
  Proof using Type.
    split.
    - intros A B. unfold flush, u_flush. rewrite A, B. cbn. auto.
    - intros [A|A]; unfold flush, u_flush; [now rewrite A|]. destruct (r_hij w); [reflexivity|]. destruct (r_sent w); congruence.
  Qed.
  Theorem C25_flush_first os w : exchange accept os = Some w -> ~ In (OHijack true) os -> In OFlush (pre os) ->
    forall s, In (WHeader s) (r_log w) <-> s = 200.
  Proof using Type.
    intros X NH F s. rewrite (C22_wire_exact os w X NH). unfold wire_exact.
    assert (E : flushes (pre os) = true) by (apply existsb_exists; exists OFlush; auto). now rewrite E.
  Qed.
End Conn.

(** *** Cases *)
Example C22_exact_case :
  (exists w, exchange all_of demo_ops = Some w /\ wire_exact demo_ops = 403 /\ status_exact demo_ops = 500 /\ status w = 500) /\
  wire_exact [OWriteHeader 404; OBefore HPanic; OWrite (bs "x"); OWriteHeader 500] = 200 /\
  wire_exact [OWriteHeader 404; OFlush; OWrite (bs "x")] = 200 /\
  wire_exact [OWriteHeader 103; OWrite (bs "x")] = 200 /\ wire_exact [OWriteHeader 404] = 404.
Proof. split; [eexists; split; [vm_compute; reflexivity|]|]; repeat split; reflexivity. Qed.

Print Assumptions C22_status_exact.
Print Assumptions C22_wire_exact.
Print Assumptions C22_status_tells_wire.
Print Assumptions C24_written_exact.
Print Assumptions C25_flush_exact.
Print Assumptions C25_flush_first.
