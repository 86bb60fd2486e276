(** Props_RouterExact: what every request does, with nothing excluded (C03, C04, C07,
    C08, C12): dead ends, replaced wildcards and repeated declarations included.

    [in_table], [hidden], [dead_end] and [replaces] are defined in RouterExact.v in
    terms of the program text ([events prog]). *)
From Coq Require Import List Ascii String Bool Arith Lia.
Import ListNotations.
From Verif Require Import GoStr GoPath GoTy RouterModel RouterSpec RouterTree RouterRefine RouterMatch
  RouterTable RouterFacts RouterConflict RouterDispatch RouterExact Props_Router.

(** ** Specification: the declarations in force at a pattern *)
(** es: the events since the node of pat was last replaced *)
Definition live (prog : list (list handler)) (pat : list bytes) (es : list event) : Prop :=
  exists e0, events prog = e0 ++ es /\ (forall pat', In (EEnd pat') es -> ~ replaces pat' pat) /\
    (e0 = [] \/ exists e pat', e0 = e ++ [EEnd pat'] /\ replaces pat' pat).
Definition last_decl (es : list event) (pat : list bytes) (m : meth) (d : decl) : Prop :=
  exists e1 e2, es = e1 ++ EDecl d :: e2 /\ d_pat d = pat /\ d_meth d = m /\
    forall d', In (EDecl d') e2 -> d_pat d' = pat -> d_meth d' <> m.
Definition no_decl (es : list event) (pat : list bytes) (m : meth) : Prop :=
  forall d, In (EDecl d) es -> d_pat d = pat -> d_meth d <> m.
(** the default for HEAD: the last GET of the first Router level at pat by which one
    had been declared *)
Definition head_default (es : list event) (pat : list bytes) (d : decl) : Prop :=
  exists e1 e2, es = e1 ++ EHead pat :: e2 /\ last_decl e1 pat mGET d /\
    forall a b, e1 = a ++ EHead pat :: b -> no_decl a pat mGET.
(** no declaration names method m: the All and Any declarations decide *)
Definition left_over (es : list event) (pat : list bytes) (m : meth) : Prop :=
  m = mALL \/ m = mANY \/ (no_decl es pat m /\ (m = mHEAD -> no_decl es pat mGET)).
(** the All declaration has no action for method m *)
Definition all_silent (es : list event) (pat : list bytes) (m : meth) : Prop :=
  no_decl es pat mALL \/
  exists a, last_decl es pat mALL a /\ is_func (d_ctl a) = false /\
            ~ names_method (d_ctl a) (meth_action m) /\ stored_action a = [].
(** which declaration serves (upper-case) method m, and with which action *)
Inductive answers (es : list event) (pat : list bytes) (m : meth) : option (decl * bytes) -> Prop :=
| an_exact : forall d, m <> mALL -> m <> mANY -> last_decl es pat m d -> answers es pat m (Some (d, stored_action d))
| an_head : forall d, m = mHEAD -> no_decl es pat mHEAD -> head_default es pat d -> answers es pat m (Some (d, stored_action d))
| an_all : forall d, left_over es pat m -> last_decl es pat mALL d ->
    is_func (d_ctl d) = true \/ names_method (d_ctl d) (meth_action m) -> answers es pat m (Some (d, meth_action m))
| an_all_named : forall d, left_over es pat m -> last_decl es pat mALL d -> is_func (d_ctl d) = false ->
    ~ names_method (d_ctl d) (meth_action m) -> stored_action d <> [] -> answers es pat m (Some (d, stored_action d))
| an_any : forall d, left_over es pat m -> all_silent es pat m -> last_decl es pat mANY d -> answers es pat m (Some (d, stored_action d))
| an_none : left_over es pat m -> all_silent es pat m -> no_decl es pat mANY -> answers es pat m None.

(** ** Every declaration of a named method was accepted *)
Definition act_ok (es : list event) : Prop :=
  forall d, In (EDecl d) es -> is_all (d_meth d) = false -> is_any (d_meth d) = false -> decl_action d <> None.
Lemma act_ok_app a b : act_ok a -> act_ok b -> act_ok (a ++ b).
Proof. intros A B d H. apply in_app_or in H as [H|H]; auto. Qed.
Lemma act_ok_level lv pat hs r r' : config_methods (eff lv) hs r = Ok r' -> act_ok (level_decls lv pat hs).
Proof.
  intros H d Hin Ea En. apply in_split in Hin as (e1 & e2 & E).
  apply level_decls_split in E as (l1 & c & m & os & l2 & Hhs & -> & ->).
  unfold config_methods in H. apply bind_ok in H as ([[r1 al] an] & H & H').
  apply methods_loop_ok in H as (_ & _ & H). destruct (H _ _ _ _ _ Hhs) as (a & Ha & _ & _ & A3).
  unfold decl_action, mk_raction. cbn [d_levels d_ctl d_meth d_opts] in *. rewrite Ha. cbn [bind].
  destruct (A3 Ea En) as (ra & ->). discriminate.
Qed.
Lemma act_ok_h h : forall lvls pat r r', config_handler h (eff lvls) r = Ok r' -> act_ok (events_h lvls pat h).
Proof.
  induction h as [s|s| |fs|fs|p hs IH|c m os] using handler_ind2; intros lvls pat r r' H;
    try (intros d []; fail).
  rewrite config_handler_router, split_route_path_segs in H.
  pose proof (segs_nonempty p) as Hne. cbn [events_h].
  destruct (segs p) as [|s0 ss] eqn:Es; [intros d []|]. rewrite <- Es in *. 
  assert (E0 : is_nil s0 = false).
  { rewrite Es in Hne. inversion Hne; subst. destruct s0; [congruence|reflexivity]. }
  rewrite Es in H. rewrite E0 in H. rewrite <- Es in H.
  apply walk_inner in H as (x & y & H). unfold config_level in H. rewrite level_filters, <- eff_snoc in H.
  apply bind_ok in H as (z & H1 & H2).
  change (EEnd ?x :: ?l) with ([EEnd x] ++ l). apply act_ok_app; [intros d [K|[]]; discriminate K|].
  apply act_ok_app; [eapply act_ok_level; exact H1|].
  change (EHead ?x :: ?l) with ([EHead x] ++ l). apply act_ok_app; [intros d [K|[]]; discriminate K|].
  clear H1. revert z y H2. generalize (lvls ++ [level_of hs]) as lv. intros lv.
  induction IH as [|h hs Hh _ IHl]; intros z y H2; [intros d []|].
  cbn [config_list] in H2. apply bind_ok in H2 as (z1 & H1 & H2). cbn [flat_map].
  apply act_ok_app; [eapply Hh; exact H1|eapply IHl; exact H2].
Qed.
Lemma act_ok_events prog : forall r r', routers prog r = Ok r' -> act_ok (events prog).
Proof.
  unfold events. induction prog as [|hs prog IH]; intros r r' H; [intros d []|].
  cbn [routers flat_map] in *. apply bind_ok in H as (r1 & H1 & H2).
  apply act_ok_app; [|eapply IH; exact H2].
  unfold config_level in H1. rewrite level_filters in H1. change (@nil filter_id) with (eff []) in H1.
  rewrite <- eff_snoc in H1. apply bind_ok in H1 as (z & H1 & H3). unfold events_call.
  apply act_ok_app; [eapply act_ok_level; exact H1|].
  change (EHead ?x :: ?l) with ([EHead x] ++ l). apply act_ok_app; [intros d [K|[]]; discriminate K|].
  cbn [app] in *. clear H1 H2. revert z r1 H3. generalize [level_of hs] as lv. intros lv.
  induction hs as [|h hs IHl]; intros z y H2; [intros d []|].
  cbn [config_list] in H2. apply bind_ok in H2 as (z1 & H1 & H2). cbn [flat_map].
  apply act_ok_app; [eapply act_ok_h; exact H1|eapply IHl; exact H2].
Qed.

(** ** The table at a pattern *)
Lemma live_safe prog pat es : live prog pat es -> safe es pat.
Proof.
  intros (e0 & _ & N & _) p Hp. destruct (clobber p pat) eqn:C; [|reflexivity]. exfalso. apply (N p Hp). now apply clobber_replaces.
Qed.
Definition action_q (q : query) : Prop := match q with QAct _ | QAll | QAny => True | _ => False end.
Lemma live_start prog pat es : live prog pat es -> exists T, apply_all (events prog) T0 = apply_all es T /\ forall q, action_q q -> T pat q = AR None.
Proof.
  intros (e0 & E & N & S). exists (apply_all e0 T0). split; [rewrite E; apply apply_all_app|].
  intros q Q. destruct S as [->|(e & p & -> & R)].
  - cbn [apply_all fold_left]. destruct pat as [|x pat]; [|rewrite T0_nonroot by discriminate]; destruct q; try contradiction; reflexivity.
  - rewrite apply_all_snoc. unfold apply. apply clobber_replaces in R. rewrite R. destruct q; try contradiction; reflexivity.
Qed.
Lemma live_exists prog pat : exists es, live prog pat es.
Proof.
  unfold live. generalize (events prog) as es.
  assert (D : forall e, (exists p, e = EEnd p /\ replaces p pat) \/ (forall p, e = EEnd p -> ~ replaces p pat)).
  { intros [p|d|p]; [|right; discriminate|right; discriminate]. destruct (clobber p pat) eqn:C.
    - left. exists p. split; [reflexivity|now apply clobber_replaces].
    - right. intros p' [= <-] K. apply clobber_replaces in K. congruence. }
  induction es as [|e es IH] using rev_ind.
  - exists [], []. split; [reflexivity|]. split; [intros p []|auto].
  - destruct (D e) as [(p & -> & R)|N].
    + exists [], (es ++ [EEnd p]). split; [now rewrite app_nil_r|]. split; [intros p' []|right; eauto].
    + destruct IH as (s & e0 & -> & A & B). exists (s ++ [e]), e0. split; [now rewrite app_assoc|]. split; [|exact B].
      intros p' H. apply in_app_or in H as [H|[H|[]]]; [auto|]. now apply N.
Qed.

Lemma keep_none es T t m : m <> mHEAD -> safe es t -> no_decl es t m -> action_q (decl_key m) -> apply_all es T t (decl_key m) = T t (decl_key m).
Proof.
  intros Nh Sf Nd Q. apply table_key_keep.
  - destruct (decl_key m); exact Q.
  - intros E. apply decl_key_act in E. congruence.
  - exact Sf.
  - intros d Hd Hp E. apply (Nd d Hd Hp). unfold decl_key in E.
    destruct (is_all (d_meth d)) eqn:A, (is_all m) eqn:A'; try (apply beq_true in A; apply beq_true in A'; congruence);
    destruct (is_any (d_meth d)) eqn:B, (is_any m) eqn:B'; try (apply beq_true in B; apply beq_true in B'; congruence); congruence.
Qed.
Lemma action_q_key m : action_q (decl_key m).
Proof. unfold decl_key. destruct (is_all m), (is_any m); exact I. Qed.
Lemma last_entry es T t m d : m <> mHEAD -> safe es t -> last_decl es t m d -> apply_all es T t (decl_key m) = AR (decl_action d).
Proof.
  intros Nh Sf (e1 & e2 & -> & Hp & Hm & Nl). apply safe_app in Sf as (S1 & S2).
  rewrite apply_all_app, apply_all_cons. rewrite keep_none; auto using action_q_key.
  - unfold apply. rewrite Hp, leq_refl, Hm. replace (qeqb (decl_key m) (decl_key m)) with true by (symmetry; now apply qeqb_true). reflexivity.
  - intros p H. apply S2. now right.
Qed.
Lemma head_none es : forall T t, safe es t -> no_decl es t mHEAD -> (forall a b, es = a ++ EHead t :: b -> no_decl a t mGET) ->
  T t (QAct mHEAD) = AR None -> T t (QAct mGET) = AR None -> apply_all es T t (QAct mHEAD) = AR None.
Proof.
  induction es as [|e es IH] using rev_ind; intros T t Sf Nh Ng H1 H2; [exact H1|].
  apply safe_app in Sf as (S1 & S2). rewrite apply_all_snoc.
  assert (Nh1 : no_decl es t mHEAD) by (intros d Hd; apply Nh, in_or_app; now left).
  assert (P : apply_all es T t (QAct mHEAD) = AR None).
  { apply IH; auto. intros a b ->. eapply (Ng a (b ++ [e])). now rewrite <- app_assoc. }
  unfold apply. destruct e as [p|d|p].
  - rewrite (S2 p) by (now left). cbn [qeqb andb]. exact P.
  - destruct (leq t (d_pat d)) eqn:L; [|exact P]. apply leq_true in L.
    destruct (qeqb (QAct mHEAD) (decl_key (d_meth d))) eqn:K; [|exact P]. exfalso.
    apply qeqb_true in K. symmetry in K. apply decl_key_act in K. apply (Nh d); auto. apply in_or_app. right. now left.
  - destruct (leq t p) eqn:L; [|exact P]. apply leq_true in L. subst p. cbn [andb].
    replace (qeqb (QAct mHEAD) (QAct mHEAD)) with true by reflexivity. rewrite P.
    specialize (Ng es [] eq_refl). change (QAct mGET) with (decl_key mGET). rewrite keep_none; auto using action_q_key. discriminate.
Qed.
Lemma headed_suffix a b : headed (a ++ b) -> headed b.
Proof. intros H e1 d e2 ->. apply (H (a ++ e1) d e2). now rewrite app_assoc. Qed.

(** a GET in force has a HEAD default *)
Lemma decl_dec es pat m : no_decl es pat m \/ exists d, last_decl es pat m d.
Proof.
  unfold no_decl, last_decl.
  induction es as [|e es IH] using rev_ind; [left; intros d []|].
  assert (D : (exists d, e = EDecl d /\ d_pat d = pat /\ d_meth d = m) \/ (forall d, e = EDecl d -> d_pat d = pat -> d_meth d <> m)).
  { destruct e as [p|d|p]; [right; discriminate| |right; discriminate].
    destruct (list_eq_dec bytes_eq_dec (d_pat d) pat) as [P|P]; [|right; intros d' [= <-]; contradiction].
    destruct (bytes_eq_dec (d_meth d) m) as [M|M]; [left; eauto|right; intros d' [= <-] _; exact M]. }
  destruct D as [(d & -> & P & M)|N].
  - right. exists d, es, []. split; [reflexivity|]. split; [exact P|]. split; [exact M|]. intros d' [].
  - destruct IH as [H|(d & e1 & e2 & -> & P & M & L)].
    + left. intros d Hd. apply in_app_or in Hd as [Hd|[->|[]]]; auto.
    + right. exists d, e1, (e2 ++ [e]). split; [now rewrite <- app_assoc|]. split; [exact P|]. split; [exact M|].
      intros d' Hd. apply in_app_or in Hd as [Hd|[->|[]]]; auto.
Qed.
Lemma head_default_exists es pat : headed es -> ~ no_decl es pat mGET -> exists d, head_default es pat d.
Proof.
  intros Hh Ng.
  assert (G : exists e1 e2, es = e1 ++ EHead pat :: e2 /\ ~ no_decl e1 pat mGET /\ forall a b, e1 = a ++ EHead pat :: b -> no_decl a pat mGET).
  { destruct (decl_dec es pat mGET) as [K|(d & e1 & e2 & -> & P & M & _)]; [contradiction|].
    pose proof (Hh _ _ _ eq_refl) as Hin. rewrite P in Hin. clear Ng Hh.
    (* the first EHead behind which a GET stands *)
    assert (Y : exists x y, e1 ++ EDecl d :: e2 = x ++ EHead pat :: y /\ ~ no_decl x pat mGET).
    { apply in_split in Hin as (x & y & ->). exists (e1 ++ EDecl d :: x), y. split; [now rewrite <- app_assoc|].
      intros K. apply (K d); auto. apply in_elt. }
    revert Y. generalize (e1 ++ EDecl d :: e2) as es. clear. intros es (x & y & E & N).
    revert y es E N. induction x as [x IH] using (well_founded_induction (well_founded_ltof _ (@List.length event))). intros y es E N.
    destruct (decl_dec x pat mGET) as [K|_]; [contradiction|].
    assert (D : (exists a b, x = a ++ EHead pat :: b /\ ~ no_decl a pat mGET) \/ (forall a b, x = a ++ EHead pat :: b -> no_decl a pat mGET)).
    { clear. induction x as [|e x IHx] using rev_ind; [right; intros [|] b K; discriminate K|].
      destruct IHx as [(a & b & -> & N)|A]; [left; exists a, (b ++ [e]); split; [now rewrite <- app_assoc|exact N]|].
      assert (X : (forall a b, x ++ [e] = a ++ EHead pat :: b -> (b = [] /\ a = x /\ e = EHead pat) \/ exists b', x = a ++ EHead pat :: b')).
      { intros a b E. destruct b as [|z b _] using rev_ind; [left; apply app_inj_tail in E as (-> & ->); auto|right].
        rewrite app_comm_cons, app_assoc in E. apply app_inj_tail in E as (-> & _). eauto. }
      destruct (decl_dec x pat mGET) as [K|(d & K)].
      - right. intros a b E. destruct (X a b E) as [(_ & -> & _)|(b' & E')]; [exact K|eauto].
      - assert (Z : e = EHead pat \/ e <> EHead pat) by (destruct e as [p|d0|p]; try (right; discriminate); destruct (list_eq_dec bytes_eq_dec p pat); [left; congruence|right; congruence]).
        destruct Z as [->|Z].
        + left. exists x, []. split; [reflexivity|]. intros N. destruct K as (k1 & k2 & -> & P & M & _). apply (N d); auto. apply in_elt.
        + right. intros a b E. destruct (X a b E) as [(_ & _ & K')|(b' & E')]; [contradiction|eauto]. }
    destruct D as [(a & b & -> & Na)|A]; [|eauto 6].
    apply (IH a) with (y := b ++ EHead pat :: y); auto.
    - unfold ltof. rewrite app_length. cbn. lia.
    - rewrite E, <- app_assoc. reflexivity. }
  destruct G as (e1 & e2 & -> & N & F). destruct (decl_dec e1 pat mGET) as [K|(d & K)]; [contradiction|]. exists d, e1, e2. auto.
Qed.

Section Prog.
  Variable prog : list (list handler).
  Variable root : route.
  Hypothesis Hroot : routers prog root0 = Ok root.

  Lemma live_some pat es m d : live prog pat es -> last_decl es pat m d -> exists ra, decl_action d = Some ra.
  Proof using Hroot.
    intros (e0 & E & _) (e1 & e2 & -> & P & M & L). apply (latest_some prog root Hroot pat m d).
    exists (e0 ++ e1), e2. rewrite <- app_assoc. auto.
  Qed.

  Lemma answers_served n t es m o : lookup root t = Some n -> live prog t es -> answers es t m o -> served (select_action n m) o.
  Proof using Hroot.
    intros Hl Lv An.
    pose proof (live_safe _ _ _ Lv) as Sf. destruct (live_start _ _ _ Lv) as (T & ET & HT).
    assert (ASK : forall q, ask n q = apply_all es T t q).
    { intros q. rewrite <- ET, <- (root_obs prog root Hroot). unfold obs. now rewrite Hl. }
    assert (Hlast : forall m' d ra, m' <> mHEAD -> last_decl es t m' d -> decl_action d = Some ra -> ask n (decl_key m') = AR (Some ra)).
    { intros m' d ra Nh L A. rewrite ASK, (last_entry es T t m' d Nh Sf L), A. reflexivity. }
    assert (Hnone : forall m', m' <> mHEAD -> no_decl es t m' -> ask n (decl_key m') = AR None).
    { intros m' Nh N. rewrite ASK, keep_none by auto using action_q_key. apply HT, action_q_key. }
    assert (Hall : forall d ra, last_decl es t mALL d -> decl_action d = Some ra -> r_all n = Some ra).
    { intros d ra H1 H2. pose proof (Hlast mALL d ra ltac:(discriminate) H1 H2) as H. cbn in H. congruence. }
    assert (Hany : forall d ra, last_decl es t mANY d -> decl_action d = Some ra -> r_any n = Some ra).
    { intros d ra H1 H2. pose proof (Hlast mANY d ra ltac:(discriminate) H1 H2) as H. cbn in H. congruence. }
    assert (Hnall : no_decl es t mALL -> r_all n = None).
    { intros Hu. pose proof (Hnone mALL ltac:(discriminate) Hu) as H. cbn in H. congruence. }
    assert (Hnany : no_decl es t mANY -> r_any n = None).
    { intros Hu. pose proof (Hnone mANY ltac:(discriminate) Hu) as H. cbn in H. congruence. }
    assert (KEY : forall m', m' <> mALL -> m' <> mANY -> decl_key m' = QAct m').
    { intros m' A B. unfold decl_key. destruct (is_all m') eqn:E; [apply beq_true in E; congruence|].
      destruct (is_any m') eqn:E'; [apply beq_true in E'; congruence|reflexivity]. }
    assert (HEADN : no_decl es t mHEAD -> no_decl es t mGET -> ask n (QAct mHEAD) = AR None).
    { intros A B. rewrite ASK. apply head_none; auto.
      - intros a b ->. intros d Hd. apply B. apply in_or_app. now left.
      - apply HT. exact I.
      - apply HT. exact I. }
    assert (Hnm : left_over es t m -> aget (r_acts n) m = None).
    { intros Lo. apply ask_act.
      assert (G : forall m', m' = mALL \/ m' = mANY -> ask n (QAct m') = AR None).
      { intros m' Hm'. rewrite ASK. rewrite (table_key_keep es T t (QAct m')); [apply HT; exact I|exact I| |exact Sf|].
        - intros [= E]. destruct Hm' as [-> | ->]; discriminate E.
        - intros d _ _ K. pose proof (decl_key_act _ _ K) as K2. rewrite K2 in K. destruct Hm' as [-> | ->]; discriminate K. }
      destruct Lo as [->|[->|(A & B)]]; [apply G; auto|apply G; auto|].
      destruct (bytes_eq_dec m mHEAD) as [->|Nh]; [apply HEADN; auto|].
      destruct (bytes_eq_dec m mALL) as [->|Na]; [apply G; auto|]. destruct (bytes_eq_dec m mANY) as [->|Nn]; [apply G; auto|].
      rewrite <- (KEY m Na Nn). now apply Hnone. }
    assert (Hallno : all_silent es t m ->
        forall (K : option (raction * bytes)),
        match r_all n with
        | Some a => if is_func (ra_ctl a) || action_exists (ra_ctl a) (meth_action m) then Some (a, meth_action m)
                    else if negb (is_nil (ra_action a)) then Some (a, ra_action a) else K
        | None => K end = K).
    { intros [Hu|(a & H1 & H2 & H3 & H4)] K; [rewrite (Hnall Hu); reflexivity|].
      destruct (live_some _ _ _ _ Lv H1) as (ra & Hra). rewrite (Hall _ _ H1 Hra).
      apply decl_action_spec in Hra as (Hc & _ & Ha). rewrite (same_func _ _ Hc), H2. cbn [orb].
      destruct (action_exists (ra_ctl ra) (meth_action m)) eqn:E.
      - exfalso. apply H3, names_method_exists. rewrite <- E. symmetry. apply same_exists. exact Hc.
      - rewrite Ha, H4. reflexivity. }
    unfold select_action. destruct An as [d H1 H2 H3|d -> H2 H3|d H1 H2 H3|d H1 H2 H3 H4 H5|d H1 H2 H3|H1 H2 H3].
    - destruct (live_some _ _ _ _ Lv H3) as (ra & Hra).
      assert (H : aget (r_acts n) m = Some ra).
      { apply ask_act. destruct (bytes_eq_dec m mHEAD) as [->|Nh]; [|rewrite <- (KEY m H1 H2); eapply Hlast; eauto].
        rewrite ASK. destruct H3 as (e1 & e2 & -> & P & M & L). apply safe_app in Sf as (S1 & S2).
        rewrite apply_all_app, apply_all_cons. apply table_head_keep.
        - intros p Hp. apply S2. now right.
        - intros d' Hd Hp K. apply (L d' Hd Hp). now apply decl_key_act.
        - unfold apply. rewrite P, leq_refl, M. cbn [andb]. change (decl_key mHEAD) with (QAct mHEAD).
          replace (qeqb (QAct mHEAD) (QAct mHEAD)) with true by reflexivity. now rewrite Hra. }
      rewrite H. cbn. split; [exact Hra|]. apply decl_action_spec in Hra as (_ & _ & ->). reflexivity.
    - destruct H3 as (e1 & e2 & -> & L & F).
      assert (exists ra, decl_action d = Some ra) as (ra & Hra).
      { destruct (decl_action d) as [ra|] eqn:E; [eauto|]. exfalso. destruct Lv as (e0 & Ev & _). destruct L as (x & y & -> & P & M & _).
        apply (act_ok_events prog _ _ Hroot d); [rewrite Ev; apply in_or_app; right; apply in_or_app; left; apply in_elt|rewrite M; reflexivity|rewrite M; reflexivity|exact E]. }
      assert (H : aget (r_acts n) mHEAD = Some ra).
      { apply ask_act. rewrite ASK. apply safe_app in Sf as (S1 & S2). rewrite apply_all_app, apply_all_cons. apply table_head_keep.
        - intros p Hp. apply S2. now right.
        - intros d' Hd Hp K. apply (H2 d'); [|exact Hp|now apply decl_key_act]. apply in_or_app. right. now right.
        - unfold apply. rewrite leq_refl. replace (qeqb (QAct mHEAD) (QAct mHEAD)) with true by reflexivity. cbn [andb].
          rewrite head_none; auto; try (apply HT; exact I).
          + change (QAct mGET) with (decl_key mGET). rewrite (last_entry e1 T t mGET d ltac:(discriminate) S1 L). now rewrite Hra.
          + intros d' Hd. apply H2. apply in_or_app. now left. }
      rewrite H. cbn. split; [exact Hra|]. apply decl_action_spec in Hra as (_ & _ & ->). reflexivity.
    - rewrite (Hnm H1). destruct (live_some _ _ _ _ Lv H2) as (ra & Hra). rewrite (Hall _ _ H2 Hra).
      pose proof Hra as Hra'. apply decl_action_spec in Hra as (Hc & _ & Ha).
      rewrite (same_func _ _ Hc), (same_exists _ _ _ Hc).
      assert (E : is_func (d_ctl d) || action_exists (d_ctl d) (meth_action m) = true).
      { destruct H3 as [->|H3]; [reflexivity|]. apply names_method_exists in H3. rewrite H3. apply orb_true_r. }
      rewrite E. cbn. auto.
    - rewrite (Hnm H1). destruct (live_some _ _ _ _ Lv H2) as (ra & Hra). rewrite (Hall _ _ H2 Hra).
      pose proof Hra as Hra'. apply decl_action_spec in Hra as (Hc & _ & Ha).
      rewrite (same_func _ _ Hc), (same_exists _ _ _ Hc), H3. cbn [orb].
      destruct (action_exists (d_ctl d) (meth_action m)) eqn:E; [exfalso; apply H4, names_method_exists, E|].
      rewrite Ha. destruct (stored_action d) eqn:Es; [congruence|]. cbn. auto.
    - rewrite (Hnm H1). cbv zeta. rewrite (Hallno H2).
      destruct (live_some _ _ _ _ Lv H3) as (ra & Hra). rewrite (Hany _ _ H3 Hra).
      assert (Hmd : d_meth d = mANY) by (destruct H3 as (? & ? & _ & _ & H & _); exact H).
      rewrite (any_usable d ra Hmd Hra). cbn. split; [exact Hra|]. apply decl_action_spec in Hra as (_ & _ & ->). reflexivity.
    - rewrite (Hnm H1). cbv zeta. rewrite (Hallno H2). rewrite (Hnany H3). exact I.
  Qed.
  Lemma answers_total t es m : live prog t es -> exists o, answers es t m o.
  Proof using Type.
    intros Lv.
    assert (Hh : headed es) by (destruct Lv as (e0 & E & _); apply (headed_suffix e0); rewrite <- E; apply headed_events).
    assert (ALL : left_over es t m -> exists o, answers es t m o).
    { intros Lo.
      assert (ANY : all_silent es t m -> exists o, answers es t m o).
      { intros S. destruct (decl_dec es t mANY) as [H|(d & H)]; eexists; [apply an_none|eapply an_any]; eauto. }
      destruct (decl_dec es t mALL) as [H|(d & H)]; [apply ANY; now left|].
      destruct (is_func (d_ctl d)) eqn:Ef; [eexists; eapply an_all; eauto|].
      destruct (action_exists (d_ctl d) (meth_action m)) eqn:Ea.
      - eexists. eapply an_all; eauto. right. apply names_method_exists. exact Ea.
      - assert (Hn : ~ names_method (d_ctl d) (meth_action m)) by (rewrite <- names_method_exists; congruence).
        destruct (stored_action d) as [|c x] eqn:Es.
        + apply ANY. right. exists d. auto.
        + exists (Some (d, stored_action d)). apply an_all_named; auto. congruence. }
    destruct (bytes_eq_dec m mALL) as [->|Na]; [apply ALL; now left|]. destruct (bytes_eq_dec m mANY) as [->|Nn]; [apply ALL; right; now left|].
    destruct (decl_dec es t m) as [H|(d & H)]; [|eexists; apply an_exact; eauto].
    destruct (bytes_eq_dec m mHEAD) as [->|Nh]; [|apply ALL; right; right; split; [exact H|contradiction]].
    destruct (decl_dec es t mGET) as [G|(d & G)]; [apply ALL; right; right; auto|].
    destruct (head_default_exists es t Hh) as (d' & D).
    - destruct G as (e1 & e2 & -> & P & M & _). intros K. apply (K d); auto. apply in_elt.
    - eexists. eapply an_head; eauto.
  Qed.
End Prog.

Lemma conforms_det pat path ps : conforms pat path ps -> forall ps', conforms pat path ps' -> ps = ps'.
Proof.
  induction 1 as [|p pat path ps H1 H2 IH|p n x pat path ps H1 H2 IH|p n v x pat path ps H1 Hv H2 IH|p n path H1 H2]; intros ps' H'.
  - inversion H'. reflexivity.
  - inversion H'; subst; try congruence. auto.
  - inversion H'; subst; try congruence. f_equal; [congruence|auto].
  - inversion H'; subst; try congruence. match goal with A : parse_seg p = SParam ?n0 ?v0, B : _ ++ ?v0 = _ |- _ => rewrite H1 in A; injection A as <- <-; apply app_inv_tail in B; subst end. f_equal; auto.
  - inversion H'; subst; try congruence.
Qed.

(** ** C04 *)
Section Select.
  Variable prog : list (list handler).
  Variable root : route.
  Hypothesis Hroot : routers prog root0 = Ok root.
  (** exactly which route is selected *)
  Theorem select_exact path t : 
    (exists x, select_route root path = Some x /\ m_trail x = t) <->
    in_table prog t /\ (exists pv, conforms t (segs path) pv) /\ ~ hidden prog t (segs path) /\
    forall t' pv', in_table prog t' -> conforms t' (segs path) pv' -> ~ hidden prog t' (segs path) -> preferred (events prog) t t'.
  Proof using Hroot.
    assert (BEST : forall t' pv', in_table prog t' -> conforms t' (segs path) pv' -> ~ hidden prog t' (segs path) ->
      exists x, select_route root path = Some x /\ preferred (events prog) (m_trail x) t').
    { intros t' pv' It Ct Nh. destruct (segs path) as [|p0 ps] eqn:Es.
      - apply conforms_nil in Ct. subst. exists (MRes [] root []). split; [apply select_root; exact Es|left; reflexivity].
      - apply (in_table_lookup prog root Hroot) in It as (n & L & E).
        destruct (rmatch_best_exact (p0 :: ps) root (root_wf prog root Hroot) ltac:(discriminate) t' n pv' L E Ct) as (m & Hm & Hme & Hp).
        { intros K. apply Nh. eapply (hid_hidden prog root Hroot); eauto. congruence. }
        exists m. split; [rewrite select_deep by congruence; rewrite Es, Hm, Hme; reflexivity|].
        destruct (rmatch_sound _ _ _ (root_wf prog root Hroot) Hm) as (_ & _ & Hcm & _).
        apply (prio_preferred prog root Hroot (p0 :: ps) [] root (m_trail m) t' (m_params m) pv'); auto. congruence. }
    assert (SEL : forall x, select_route root path = Some x ->
      in_table prog (m_trail x) /\ (exists pv, conforms (m_trail x) (segs path) pv) /\ ~ hidden prog (m_trail x) (segs path)).
    { intros x Hx. destruct (select_sound prog root Hroot path x Hx) as (L & E & C).
      split; [apply (in_table_lookup prog root Hroot); eauto|]. split; [eauto|]. intros Hh.
      destruct (segs path) as [|p0 ps] eqn:Es.
      - destruct Hh as (front & s & rest & pf & T & n & v & Et & Eps & _). apply conforms_nil in C. rewrite C in Et. destruct front; discriminate Et.
      - rewrite select_deep in Hx by congruence. rewrite Es in Hx. destruct (rmatch (p0 :: ps) root) as [m|] eqn:Rm; [|discriminate Hx].
        destruct (r_end (m_route m)) eqn:Em; [|discriminate Hx]. injection Hx as <-.
        apply (rmatch_not_hid _ _ _ (root_wf prog root Hroot) Rm Em). eapply (hid_hidden prog root Hroot); eauto. congruence. }
    split.
    - intros (x & Hx & <-). destruct (SEL x Hx) as (A & B & C). repeat (split; [assumption|]).
      intros t' pv' It Ct Nh. destruct (BEST t' pv' It Ct Nh) as (y & Hy & P). congruence.
    - intros (A & (pv & B) & C & D). destruct (BEST t pv A B C) as (x & Hx & P). exists x. split; [exact Hx|].
      destruct (SEL x Hx) as (A' & (pv' & B') & C'). specialize (D _ _ A' B' C').
      (* preferred both ways *)
      now apply preferred_antisym with (es := events prog).
  Qed.
End Select.

(** the pattern the program selects for a path: in force, conforming, not hidden, and
    preferred over every other such pattern *)
Definition selected (prog : list (list handler)) (path : bytes) (t : list bytes) : Prop :=
  in_table prog t /\ (exists ps, conforms t (segs path) ps) /\ ~ hidden prog t (segs path) /\
  forall t' ps', in_table prog t' -> conforms t' (segs path) ps' -> ~ hidden prog t' (segs path) -> preferred (events prog) t t'.

Theorem C04_selection_exact : forall prog root path t,
  routers prog root0 = Ok root ->
  ((exists x, select_route root path = Some x /\ m_trail x = t) <-> selected prog path t).
Proof. intros prog root path t Hroot. apply select_exact. exact Hroot. Qed.
Theorem C04_selection_unique : forall prog path t t', selected prog path t -> selected prog path t' -> t = t'.
Proof.
  intros prog path t t' (A & (p & B) & C & D) (A' & (p' & B') & C' & D').
  apply preferred_antisym with (es := events prog); eauto.
Qed.

(** ** C07: what every request does *)
Theorem C07_request_exact : forall prog root meth path,
  routers prog root0 = Ok root ->
  match handle root meth path with
  | Serve ra act ps t =>
      selected prog path t /\ conforms t (segs path) ps /\
      forall es, live prog t es -> exists d, answers es t (to_upper meth) (Some (d, act)) /\
        c_id (ra_ctl ra) = c_id (d_ctl d) /\ ra_filters ra = filter_order d
  | NotFound =>
      (forall t, ~ selected prog path t) \/
      exists t, selected prog path t /\ forall es, live prog t es -> answers es t (to_upper meth) None
  end.
Proof.
  intros prog root meth path Hroot. unfold handle. destruct (select_route root path) as [x|] eqn:Ex.
  - pose proof (proj1 (C04_selection_exact prog root path (m_trail x) Hroot) (ex_intro _ x (conj Ex eq_refl))) as Sel.
    destruct (select_sound prog root Hroot path x Ex) as (Hl & _ & Hc).
    destruct (select_action (m_route x) (to_upper meth)) as [[ra act]|] eqn:Ea.
    + split; [exact Sel|]. split; [exact Hc|]. intros es Lv.
      destruct (answers_total prog (m_trail x) es (to_upper meth) Lv) as (o & An).
      pose proof (answers_served prog root Hroot _ _ _ _ _ Hl Lv An) as Sv. rewrite Ea in Sv.
      destruct o as [[d a]|]; [|contradiction]. destruct Sv as (Hd & ->). exists d. split; [exact An|].
      split; [apply (decl_action_spec _ _ Hd)|apply decl_filter_order; exact Hd].
    + right. exists (m_trail x). split; [exact Sel|]. intros es Lv.
      destruct (answers_total prog (m_trail x) es (to_upper meth) Lv) as (o & An).
      pose proof (answers_served prog root Hroot _ _ _ _ _ Hl Lv An) as Sv. rewrite Ea in Sv.
      destruct o as [[d a]|]; [contradiction|exact An].
  - left. intros t St. apply (C04_selection_exact prog root path t Hroot) in St as (x & K & _). congruence.
Qed.
(** every request has such an answer: the events in force exist, and they answer every
    method *)
Theorem C07_answers_exist : forall prog t m, exists es o, live prog t es /\ answers es t m o.
Proof.
  intros prog t m. destruct (live_exists prog t) as (es & Lv). destruct (answers_total prog t es m Lv) as (o & An). eauto.
Qed.

(** ** C03: not found, exactly *)
Theorem C03_found_exact : forall prog root path,
  routers prog root0 = Ok root ->
  ((exists x, select_route root path = Some x) <->
   exists pat ps, in_table prog pat /\ conforms pat (segs path) ps /\ ~ hidden prog pat (segs path)).
Proof.
  intros prog root path Hroot. split.
  - intros (x & Hx). pose proof (proj1 (C04_selection_exact prog root path (m_trail x) Hroot) (ex_intro _ x (conj Hx eq_refl))) as (A & (ps & B) & C & _). eauto 6.
  - intros (pat & ps & A & B & C). destruct (segs path) as [|p0 ss] eqn:Es.
    + exists (MRes [] root []). apply select_root. exact Es.
    + apply (in_table_lookup prog root Hroot) in A as (n & L & E).
      destruct (rmatch_best_exact (p0 :: ss) root (root_wf prog root Hroot) ltac:(discriminate) pat n ps L E B) as (m & Hm & Hme & _).
      { intros K. apply C. eapply (hid_hidden prog root Hroot); eauto. congruence. }
      exists m. rewrite select_deep by congruence. rewrite Es, Hm, Hme. reflexivity.
Qed.
Theorem C03_not_found_exact : forall prog root meth path,
  routers prog root0 = Ok root ->
  (handle root meth path = NotFound <->
   (forall pat ps, in_table prog pat -> conforms pat (segs path) ps -> ~ ~ hidden prog pat (segs path)) \/
   (exists t es, selected prog path t /\ live prog t es /\ answers es t (to_upper meth) None)).
Proof.
  intros prog root meth path Hroot. split.
  - intros H. pose proof (C07_request_exact prog root meth path Hroot) as R. rewrite H in R. destruct R as [N|(t & S & A)].
    + left. intros pat ps It Cf Nh. destruct (proj2 (C03_found_exact prog root path Hroot) (ex_intro _ pat (ex_intro _ ps (conj It (conj Cf Nh))))) as (x & Hx).
      apply (N (m_trail x)). apply (C04_selection_exact prog root path _ Hroot). eauto.
    + right. destruct (live_exists prog t) as (es & Lv). exists t, es. auto.
  - intros [H|(t & es & S & Lv & An)]; unfold handle.
    + destruct (select_route root path) as [x|] eqn:Ex; [|reflexivity]. exfalso.
      destruct (proj1 (C03_found_exact prog root path Hroot) (ex_intro _ x Ex)) as (pat & ps & A & B & C). exact (H pat ps A B C).
    + apply (C04_selection_exact prog root path t Hroot) in S as (x & Hx & <-). rewrite Hx.
      destruct (select_sound prog root Hroot path x Hx) as (Hl & _ & _).
      pose proof (answers_served prog root Hroot _ _ _ _ _ Hl Lv An) as Sv. unfold served in Sv.
      destruct (select_action (m_route x) (to_upper meth)) as [[ra act]|]; [contradiction|reflexivity].
Qed.

(** ** C08: HEAD, exactly *)
Theorem C08_head_exact : forall prog root path x es meth,
  routers prog root0 = Ok root -> to_upper meth = mHEAD ->
  select_route root path = Some x -> live prog (m_trail x) es ->
  (forall d, last_decl es (m_trail x) mHEAD d \/ (no_decl es (m_trail x) mHEAD /\ head_default es (m_trail x) d) ->
    exists ra, handle root meth path = Serve ra (stored_action d) (m_params x) (m_trail x) /\ decl_action d = Some ra) /\
  (* with a GET and no HEAD declaration there is a default *)
  (~ no_decl es (m_trail x) mGET -> exists d, head_default es (m_trail x) d) /\
  (* and it is the action GET itself runs, unless a later level declares GET again *)
  (forall d, no_decl es (m_trail x) mHEAD -> head_default es (m_trail x) d -> last_decl es (m_trail x) mGET d ->
    handle root meth path = handle root mGET path).
Proof.
  intros prog root path x es meth Hroot Hm Hx Lv.
  destruct (select_sound prog root Hroot path x Hx) as (Hl & _ & _).
  assert (G : forall d, last_decl es (m_trail x) mHEAD d \/ (no_decl es (m_trail x) mHEAD /\ head_default es (m_trail x) d) ->
    exists ra, handle root meth path = Serve ra (stored_action d) (m_params x) (m_trail x) /\ decl_action d = Some ra).
  { intros d Hd.
    assert (An : answers es (m_trail x) mHEAD (Some (d, stored_action d))) by (destruct Hd as [Hd|(A & B)]; [apply an_exact; [discriminate|discriminate|exact Hd]|apply an_head; auto]).
    pose proof (answers_served prog root Hroot _ _ _ _ _ Hl Lv An) as Sv. unfold handle. rewrite Hx, Hm. unfold served in Sv.
    destruct (select_action (m_route x) mHEAD) as [[ra act]|]; [|contradiction]. destruct Sv as (Sv & ->). eauto. }
  split; [exact G|]. split.
  - intros N. apply head_default_exists; [|exact N]. destruct Lv as (e0 & E & _). apply (headed_suffix e0). rewrite <- E. apply headed_events.
  - intros d Nh Hd Ld. destruct (G d (or_intror (conj Nh Hd))) as (ra & -> & Hra).
    pose proof (answers_served prog root Hroot _ _ _ _ _ Hl Lv (an_exact es (m_trail x) mGET d ltac:(discriminate) ltac:(discriminate) Ld)) as Sv.
    unfold handle. rewrite Hx. change (to_upper mGET) with mGET. unfold served in Sv.
    destruct (select_action (m_route x) mGET) as [[ra' act]|]; [|contradiction]. destruct Sv as (Sv & ->). congruence.
Qed.

(** ** C12: what a later declaration changes, exactly *)
Theorem C12_table_exact : forall prog more pat,
  in_table (prog ++ more) pat <->
  in_table more pat \/ (in_table prog pat /\ forall pat', In (EEnd pat') (events more) -> ~ replaces pat' pat).
Proof.
  intros prog more pat. unfold in_table.
  assert (Hev : events (prog ++ more) = events prog ++ events more) by (unfold events; apply flat_map_app). rewrite Hev. split.
  - intros [->|(e1 & e2 & E & N)]; [auto|].
    apply app_split_eq in E as [(k & E1 & ->)|(k & E1 & ->)].
    + right. split; [right; exists e1, k; split; [exact E1|]|]; intros p H; apply N, in_or_app; auto.
    + left. right. exists k, e2. auto.
  - intros [[->|(e1 & e2 & -> & N)]|([->|(e1 & e2 & -> & N)] & M)]; auto.
    + right. exists (events prog ++ e1), e2. rewrite <- app_assoc. auto.
    + right. exists e1, (e2 ++ events more). rewrite <- app_assoc. split; [reflexivity|]. intros p H. apply in_app_or in H as [H|H]; auto.
Qed.
Lemma last_decl_app es more t m d : last_decl es t m d -> (forall d', In (EDecl d') more -> d_pat d' <> t) -> last_decl (es ++ more) t m d.
Proof.
  intros (e1 & e2 & -> & P & M & L) N. exists e1, (e2 ++ more). rewrite <- app_assoc. repeat (split; [assumption||reflexivity|]).
  intros d' H Hp. apply in_app_or in H as [H|H]; [auto|]. exfalso. exact (N d' H Hp).
Qed.
Lemma no_decl_app es more t m : no_decl es t m -> (forall d', In (EDecl d') more -> d_pat d' <> t) -> no_decl (es ++ more) t m.
Proof. intros A N d H Hp. apply in_app_or in H as [H|H]; [auto|]. exfalso. exact (N d H Hp). Qed.
Lemma answers_app es more t m o : answers es t m o -> (forall d', In (EDecl d') more -> d_pat d' <> t) -> answers (es ++ more) t m o.
Proof.
  intros An N.
  assert (Lo : left_over es t m -> left_over (es ++ more) t m).
  { intros [->|[->|(A & B)]]; [left; auto|right; left; auto|right; right]. split; [now apply no_decl_app|]. intros E. apply no_decl_app; auto. }
  assert (Si : all_silent es t m -> all_silent (es ++ more) t m).
  { intros [A|(a & A & B)]; [left; now apply no_decl_app|right]. exists a. split; [now apply last_decl_app|exact B]. }
  destruct An.
  - apply an_exact; auto. now apply last_decl_app.
  - apply an_head; auto; [now apply no_decl_app|]. destruct H1 as (e1 & e2 & -> & L & F). exists e1, (e2 ++ more). rewrite <- app_assoc. auto.
  - apply an_all; auto. now apply last_decl_app.
  - apply an_all_named; auto. now apply last_decl_app.
  - apply an_any; auto. now apply last_decl_app.
  - apply an_none; auto. now apply no_decl_app.
Qed.
(** a request served by pattern t is still served by t, exactly when the larger program
    selects t; and in the same way, unless t was declared again *)
Theorem C12_registration_exact : forall prog more root root' meth path ra act ps t,
  routers prog root0 = Ok root -> routers (prog ++ more) root0 = Ok root' ->
  handle root meth path = Serve ra act ps t ->
  (forall pat', In (EEnd pat') (events more) -> ~ replaces pat' t) ->
  (forall d, declared more d -> d_pat d <> t) ->
  (handle root' meth path = Serve ra act ps t <->
   ~ hidden (prog ++ more) t (segs path) /\
   forall t' ps', in_table (prog ++ more) t' -> conforms t' (segs path) ps' -> ~ hidden (prog ++ more) t' (segs path) ->
     preferred (events (prog ++ more)) t t').
Proof.
  intros prog more root root' meth path ra act ps t Hroot Hroot' Hh Nr Nd.
  pose proof (C07_request_exact prog root meth path Hroot) as R. rewrite Hh in R. destruct R as (Sel & Cf & _).
  assert (It : in_table (prog ++ more) t) by (apply C12_table_exact; right; split; [apply Sel|exact Nr]).
  split.
  - intros H'. pose proof (C07_request_exact _ root' meth path Hroot') as R. rewrite H' in R. destruct R as ((_ & _ & A & B) & _). auto.
  - intros (A & B). assert (S' : selected (prog ++ more) path t) by (split; [exact It|]; split; [eauto|]; auto).
    apply (C04_selection_exact _ root' path t Hroot') in S' as (x' & Hx' & Et).
    destruct (select_sound _ root' Hroot' path x' Hx') as (Hl' & _ & Cf'). rewrite Et in Hl', Cf'.
    unfold handle in Hh. destruct (select_route root path) as [x|] eqn:Hx; [|discriminate Hh].
    destruct (select_action (m_route x) (to_upper meth)) as [[ra0 act0]|] eqn:Ea; [|discriminate Hh]. injection Hh as -> -> <- <-.
    destruct (select_sound prog root Hroot path x Hx) as (Hl & _ & _).
    destruct (live_exists prog (m_trail x)) as (es & Lv).
    destruct (answers_total prog _ es (to_upper meth) Lv) as (o & An).
    pose proof (answers_served prog root Hroot _ _ _ _ _ Hl Lv An) as Sv. rewrite Ea in Sv. destruct o as [[d a]|]; [|contradiction]. destruct Sv as (Hd & ->).
    assert (Lv' : live (prog ++ more) (m_trail x) (es ++ events more)).
    { destruct Lv as (e0 & E & N & S). exists e0. split; [unfold events in *; rewrite flat_map_app, E, app_assoc; reflexivity|]. split; [|exact S].
      intros p H. apply in_app_or in H as [H|H]; auto. }
    pose proof (answers_served _ root' Hroot' _ _ _ _ _ Hl' Lv' (answers_app _ _ _ _ _ An Nd)) as Sv.
    unfold handle. rewrite Hx'. unfold served in Sv. destruct (select_action (m_route x') (to_upper meth)) as [[ra' act']|]; [|contradiction].
    destruct Sv as (Sv & ->). rewrite Et. f_equal; [congruence|]. eapply conforms_det; eauto.
Qed.

(** ** The hypotheses are met, on a program with a dead end, a replaced wildcard and a
    GET declared twice *)
Definition odd_prog : list (list handler) :=
  [ [ HRouter (bs "/user/dashboard/stats") [HMethod (fn 1) mGET []];
      HRouter (bs "/user/:uid") [HMethod (fn 2) mGET []];
      HRouter (bs "/f/*:rest") [HMethod (fn 3) mGET []] ];
    [ HRouter (bs "/f/*:rest:v") [HMethod (fn 4) mPOST []];
      HRouter (bs "/user/:uid") [HMethod (fn 5) mGET []] ] ].
Definition odd_root : route := match routers odd_prog root0 with Ok r => r | Panic => root0 end.
Example odd_accepted : routers odd_prog root0 = Ok odd_root.
Proof. vm_compute. reflexivity. Qed.
Example C04_exact_example :
  hidden odd_prog [bs "user"; bs ":uid"] (segs (bs "/user/dashboard")) /\
  in_table odd_prog [bs "user"; bs ":uid"] /\ conforms [bs "user"; bs ":uid"] (segs (bs "/user/dashboard")) [(bs "uid", bs "dashboard")] /\
  ~ in_table odd_prog [bs "f"; bs "*:rest"] /\ in_table odd_prog [bs "f"; bs "*:rest:v"] /\
  handle odd_root (bs "GET") (bs "/user/dashboard") = NotFound /\
  (exists ra, handle odd_root (bs "HEAD") (bs "/user/7") = Serve ra (bs "Get") [(bs "uid", bs "7")] [bs "user"; bs ":uid"] /\ c_id (ra_ctl ra) = 2) /\
  (exists ra, handle odd_root (bs "GET") (bs "/user/7") = Serve ra (bs "Get") [(bs "uid", bs "7")] [bs "user"; bs ":uid"] /\ c_id (ra_ctl ra) = 5).
Proof.
  assert (IT : forall t, in_table odd_prog t <-> exists n, lookup odd_root t = Some n /\ r_end n = true) by (intros t; apply in_table_lookup, odd_accepted).
  split; [|split; [|split; [|split; [|split; [|split; [|split]]]]]].
  - exists [bs "user"], (bs ":uid"), [], [bs "user"], [bs "dashboard"], (bs "uid"), [].
    split; [reflexivity|]. split; [reflexivity|]. split; [reflexivity|]. split; [reflexivity|].
    split; [discriminate|]. split; [repeat constructor|]. split; [exists [bs "stats"]; vm_compute; tauto|].
    split; [vm_compute; intros H; repeat (destruct H as [H|H]; [discriminate H|]); exact H|]. intros k w K. cbn in K. lia.
  - apply IT. eexists. split; vm_compute; reflexivity.
  - apply cf_static; [reflexivity|]. apply cf_param; [reflexivity|]. constructor.
  - rewrite IT. intros (n & L & _). vm_compute in L. discriminate L.
  - apply IT. eexists. split; vm_compute; reflexivity.
  - vm_compute. reflexivity.
  - eexists. split; vm_compute; reflexivity.
  - eexists. split; vm_compute; reflexivity.
Qed.
Example C08_exact_example : exists x d,
  select_route odd_root (bs "/user/7") = Some x /\ live odd_prog (m_trail x) (events odd_prog) /\
  no_decl (events odd_prog) (m_trail x) mHEAD /\ head_default (events odd_prog) (m_trail x) d /\ c_id (d_ctl d) = 2.
Proof.
  eexists. exists (Decl [bs "user"; bs ":uid"] [Lv [] []; Lv [] []] (fn 2) mGET []).
  split; [vm_compute; reflexivity|]. cbn [m_trail]. split.
  { exists []. split; [reflexivity|]. split; [|auto]. intros p _ K. apply clobber_replaces in K.
    rewrite clobber_nowild in K by (repeat constructor). discriminate K. }
  split; [apply undeclared_of; vm_compute; reflexivity|]. split; [|reflexivity].
  exists (firstn 6 (events odd_prog)), (skipn 7 (events odd_prog)). split; [vm_compute; reflexivity|]. split.
  - apply (latestb_spec (firstn 6 (events odd_prog)) [bs "user"; bs ":uid"] mGET).
  - intros a b E. exfalso. assert (K : In (EHead [bs "user"; bs ":uid"]) (firstn 6 (events odd_prog))) by (rewrite E; apply in_elt).
    vm_compute in K. repeat (destruct K as [K|K]; [discriminate K|]). exact K.
Qed.
Example C12_exact_example :
  let prog := firstn 1 ex_prog in let more := skipn 1 ex_prog in
  exists root ra act ps t, routers prog root0 = Ok root /\ handle root (bs "GET") (bs "/files/x/y") = Serve ra act ps t /\
    (forall pat', In (EEnd pat') (events more) -> ~ replaces pat' t) /\ (forall d, declared more d -> d_pat d <> t) /\
    handle ex_root (bs "GET") (bs "/files/x/y") = Serve ra act ps t.
Proof.
  cbn [firstn skipn ex_prog]. do 5 eexists. split; [vm_compute; reflexivity|]. split; [vm_compute; reflexivity|]. split; [|split].
  - intros p H K. apply clobber_replaces in K. vm_compute in H. destruct H as [H|[H|[H|[H|[]]]]]; try discriminate H. injection H as <-. discriminate K.
  - intros d H E. vm_compute in H. repeat (destruct H as [H|H]; [try discriminate H; injection H as <-; discriminate E|]). exact H.
  - vm_compute. reflexivity.
Qed.

Print Assumptions C04_selection_exact.
Print Assumptions C04_selection_unique.
Print Assumptions C07_request_exact.
Print Assumptions C07_answers_exist.
Print Assumptions C03_found_exact.
Print Assumptions C03_not_found_exact.
Print Assumptions C08_head_exact.
Print Assumptions C12_table_exact.
Print Assumptions C12_registration_exact.
