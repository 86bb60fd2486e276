(** RouterDispatch: which declaration serves a method on the selected route. *)
From Coq Require Import List Ascii String Bool Arith Lia.
Import ListNotations.
From Verif Require Import GoStr GoPath GoTy RouterModel RouterSpec RouterTree RouterRefine RouterMatch RouterTable RouterFacts RouterConflict.

(** ** Accepted declarations have an action *)
Lemma methods_loop_ok fs hs : forall r al an r1 al1 an1,
  methods_loop fs hs r al an = Ok (r1, al1, an1) ->
  ((forall c m os, In (HMethod c m os) hs -> is_all m = false) -> al1 = al) /\
  ((forall c m os, In (HMethod c m os) hs -> is_any m = false) -> an1 = an) /\
  (forall l1 c m os l2, hs = l1 ++ HMethod c m os :: l2 ->
   exists a, calc_method c m os = Ok a /\
     (is_all m = true -> (forall c' m' os', In (HMethod c' m' os') l2 -> is_all m' = false) -> al1 = Some (m, a)) /\
     (is_all m = false -> is_any m = true -> (forall c' m' os', In (HMethod c' m' os') l2 -> is_any m' = false) -> an1 = Some (m, a)) /\
     (is_all m = false -> is_any m = false -> exists ra, finish fs m a = Ok ra)).
Proof.
  induction hs as [|h hs IH]; intros r al an r1 al1 an1 H; cbn [methods_loop] in H.
  - injection H as -> -> ->. split; [reflexivity|]. split; [reflexivity|]. intros l1 c m os l2 E. destruct l1; discriminate.
  - assert (Hskip : (forall c m os, h <> HMethod c m os) -> methods_loop fs hs r al an = Ok (r1, al1, an1) ->
       ((forall c m os, In (HMethod c m os) (h :: hs) -> is_all m = false) -> al1 = al) /\
       ((forall c m os, In (HMethod c m os) (h :: hs) -> is_any m = false) -> an1 = an) /\
       (forall l1 c m os l2, h :: hs = l1 ++ HMethod c m os :: l2 ->
   exists a, calc_method c m os = Ok a /\
     (is_all m = true -> (forall c' m' os', In (HMethod c' m' os') l2 -> is_all m' = false) -> al1 = Some (m, a)) /\
     (is_all m = false -> is_any m = true -> (forall c' m' os', In (HMethod c' m' os') l2 -> is_any m' = false) -> an1 = Some (m, a)) /\
     (is_all m = false -> is_any m = false -> exists ra, finish fs m a = Ok ra))).
    { intros Hn H'. destruct (IH _ _ _ _ _ _ H') as (A & B & C). split; [|split].
      - intros G. apply A. intros c m os Hin. apply (G c m os). right. exact Hin.
      - intros G. apply B. intros c m os Hin. apply (G c m os). right. exact Hin.
      - intros l1 c m os l2 E. destruct l1 as [|x l1]; cbn in E; injection E as E1 E2.
        + exfalso. exact (Hn _ _ _ E1).
        + eapply C; eauto. }
    destruct h; try (apply Hskip; [intros; discriminate|exact H]).
    clear Hskip. apply bind_ok in H as (a & Ha & H).
    destruct (is_all m) eqn:Eall; [|destruct (is_any m) eqn:Eany].
    + destruct (IH _ _ _ _ _ _ H) as (A & B & C). split; [|split].
      * intros G. specialize (G c m opts (or_introl eq_refl)). congruence.
      * intros G. apply B. intros c' m' os Hin. apply (G c' m' os). right. exact Hin.
      * intros l1 c' m' os l2 E. destruct l1 as [|x l1]; cbn in E; injection E as E1 E2.
        -- intros; subst. exists a. split; [exact Ha|]. split; [|split; congruence]. intros _ G. apply A. exact G.
        -- eapply C; eauto.
    + destruct (IH _ _ _ _ _ _ H) as (A & B & C). split; [|split].
      * intros G. apply A. intros c' m' os Hin. apply (G c' m' os). right. exact Hin.
      * intros G. specialize (G c m opts (or_introl eq_refl)). congruence.
      * intros l1 c' m' os l2 E. destruct l1 as [|x l1]; cbn in E; injection E as E1 E2.
        -- intros; subst. exists a. split; [exact Ha|]. split; [congruence|]. split; [|congruence]. intros _ _ G. apply B. exact G.
        -- eapply C; eauto.
    + apply bind_ok in H as (ra & Hra & H). destruct (IH _ _ _ _ _ _ H) as (A & B & C). split; [|split].
      * intros G. apply A. intros c' m' os Hin. apply (G c' m' os). right. exact Hin.
      * intros G. apply B. intros c' m' os Hin. apply (G c' m' os). right. exact Hin.
      * intros l1 c' m' os l2 E. destruct l1 as [|x l1]; cbn in E; injection E as E1 E2.
        -- intros; subst. exists a. split; [exact Ha|]. split; [congruence|]. split; [congruence|]. eauto.
        -- eapply C; eauto.
Qed.

Definition last_ok (es : list event) : Prop :=
  forall e1 d e2, es = e1 ++ EDecl d :: e2 ->
    (forall d', In (EDecl d') e2 -> d_pat d' = d_pat d -> d_meth d' <> d_meth d) -> decl_action d <> None.

Lemma last_ok_app a b : last_ok a -> last_ok b -> last_ok (a ++ b).
Proof.
  intros Ha Hb e1 d e2 H Hl. apply app_split_eq in H as [(k & H1 & ->)|(k & H1 & ->)].
  - eapply Ha; [exact H1|]. intros d' Hin. apply Hl. apply in_app_iff. auto.
  - eapply Hb; eauto.
Qed.
Lemma last_ok_nodecl es : (forall d, ~ In (EDecl d) es) -> last_ok es.
Proof. intros H e1 d e2 E. exfalso. apply (H d). rewrite E. apply in_elt. Qed.

Lemma level_decls_split lv pat hs : forall e1 d e2, level_decls lv pat hs = e1 ++ EDecl d :: e2 ->
  exists l1 c m os l2, hs = l1 ++ HMethod c m os :: l2 /\ d = Decl pat lv c m os /\ e2 = level_decls lv pat l2.
Proof.
  induction hs as [|h hs IH]; intros e1 d e2 H; [destruct e1; discriminate|].
  assert (Hrec : forall e, level_decls lv pat hs = e ++ EDecl d :: e2 ->
     exists l1 c m os l2, h :: hs = l1 ++ HMethod c m os :: l2 /\ d = Decl pat lv c m os /\ e2 = level_decls lv pat l2).
  { intros e He. destruct (IH _ _ _ He) as (l1 & c & m & os & l2 & -> & A). exists (h :: l1), c, m, os, l2. auto. }
  destruct h; try (apply (Hrec e1); exact H).
  change (level_decls lv pat (HMethod c m opts :: hs)) with (EDecl (Decl pat lv c m opts) :: level_decls lv pat hs) in H.
  destruct e1 as [|x e1]; cbn in H; injection H as H1 H2.
  - exists [], c, m, opts, hs. split; [reflexivity|]. auto.
  - apply (Hrec e1). exact H2.
Qed.

Lemma last_ok_level lv pat hs r r' : config_methods (eff lv) hs r = Ok r' -> last_ok (level_decls lv pat hs).
Proof.
  intros H e1 d e2 E Hl. apply level_decls_split in E as (l1 & c & m & os & l2 & Hhs & -> & ->).
  unfold config_methods in H. apply bind_ok in H as ([[r1 al] an] & H & H').
  apply methods_loop_ok in H as (_ & _ & H). destruct (H _ _ _ _ _ Hhs) as (a & Ha & A1 & A2 & A3).
  apply bind_ok in H' as (r3 & H3 & H4).
  unfold decl_action, mk_raction. cbn [d_levels d_ctl d_meth d_opts]. rewrite Ha. cbn [bind].
  assert (Hlast : forall c' m' os', In (HMethod c' m' os') l2 -> m' <> m).
  { intros c' m' os' Hin. apply (Hl (Decl pat lv c' m' os')); [|reflexivity].
    unfold level_decls. apply in_flat_map. exists (HMethod c' m' os'). split; [exact Hin|left; reflexivity]. }
  destruct (is_all m) eqn:Eall; [|destruct (is_any m) eqn:Eany].
  - rewrite (A1 eq_refl) in H3.
    + apply bind_ok in H3 as (ra & -> & _). discriminate.
    + intros c' m' os' Hin. destruct (is_all m') eqn:E; [|reflexivity]. exfalso. apply (Hlast _ _ _ Hin).
      apply beq_true in E. apply beq_true in Eall. congruence.
  - rewrite (A2 eq_refl eq_refl) in H4.
    + apply bind_ok in H4 as (ra & -> & _). discriminate.
    + intros c' m' os' Hin. destruct (is_any m') eqn:E; [|reflexivity]. exfalso. apply (Hlast _ _ _ Hin).
      apply beq_true in E. apply beq_true in Eany. congruence.
  - destruct (A3 eq_refl eq_refl) as (ra & ->). discriminate.
Qed.

Lemma walk_inner ps : forall k r r', walk ps k r = Ok r' -> exists x y, k x = Ok y.
Proof.
  induction ps as [|p ps IH]; intros k r r' H; cbn [walk] in H; [eauto|].
  destruct (_ && _); [discriminate|]. apply bind_ok in H as (z & Hz & _). eapply IH; exact Hz.
Qed.

Lemma last_ok_end p : last_ok [EEnd p].
Proof. apply last_ok_nodecl. intros d [H|[]]; discriminate. Qed.
Lemma last_ok_head p : last_ok [EHead p].
Proof. apply last_ok_nodecl. intros d [H|[]]; discriminate. Qed.

Lemma last_ok_h h : forall lvls pat r r', config_handler h (eff lvls) r = Ok r' -> last_ok (events_h lvls pat h).
Proof.
  induction h as [s|s| |fs|fs|p hs IH|c m os] using handler_ind2; intros lvls pat r r' H;
    try (apply last_ok_nodecl; intros d []).
  rewrite config_handler_router, split_route_path_segs in H.
  pose proof (segs_nonempty p) as Hne. cbn [events_h].
  destruct (segs p) as [|s0 ss] eqn:Es; [apply last_ok_nodecl; intros d []|]. rewrite <- Es in *. 
  assert (E0 : is_nil s0 = false).
  { rewrite Es in Hne. inversion Hne; subst. destruct s0; [congruence|reflexivity]. }
  rewrite Es in H. rewrite E0 in H. rewrite <- Es in H.
  apply walk_inner in H as (x & y & H). unfold config_level in H. rewrite level_filters, <- eff_snoc in H.
  apply bind_ok in H as (z & H1 & H2).
  change (EEnd ?x :: ?l) with ([EEnd x] ++ l). apply last_ok_app; [apply last_ok_end|].
  apply last_ok_app; [eapply last_ok_level; exact H1|].
  change (EHead ?x :: ?l) with ([EHead x] ++ l). apply last_ok_app; [apply last_ok_head|].
  clear H1. revert z y H2. generalize (lvls ++ [level_of hs]) as lv. intros lv.
  induction IH as [|h hs Hh _ IHl]; intros z y H2; [apply last_ok_nodecl; intros d []|].
  cbn [config_list] in H2. apply bind_ok in H2 as (z1 & H1 & H2). cbn [flat_map].
  apply last_ok_app; [eapply Hh; exact H1|eapply IHl; exact H2].
Qed.

Lemma last_ok_events prog : forall r r', routers prog r = Ok r' -> last_ok (events prog).
Proof.
  unfold events. induction prog as [|hs prog IH]; intros r r' H; [apply last_ok_nodecl; intros d []|].
  cbn [routers flat_map] in *. apply bind_ok in H as (r1 & H1 & H2).
  apply last_ok_app; [|eapply IH; exact H2].
  unfold config_level in H1. rewrite level_filters in H1. change (@nil filter_id) with (eff []) in H1.
  rewrite <- eff_snoc in H1. apply bind_ok in H1 as (z & H1 & H3). unfold events_call.
  apply last_ok_app; [eapply last_ok_level; exact H1|].
  change (EHead ?x :: ?l) with ([EHead x] ++ l). apply last_ok_app; [apply last_ok_head|].
  cbn [app] in *. clear H1 H2. revert z r1 H3. generalize [level_of hs] as lv. intros lv.
  induction hs as [|h hs IHl]; intros z y H2; [apply last_ok_nodecl; intros d []|].
  cbn [config_list] in H2. apply bind_ok in H2 as (z1 & H1 & H2). cbn [flat_map].
  apply last_ok_app; [eapply last_ok_h; exact H1|eapply IHl; exact H2].
Qed.

(** action queries always answer with an action entry *)
Lemma table_shape es t : forall T, (forall m, exists o, T t (QAct m) = AR o) ->
  forall m, exists o, apply_all es T t (QAct m) = AR o.
Proof.
  induction es as [|e es IH]; intros T H m; [auto|]. rewrite apply_all_cons. apply IH. clear m. intros m.
  unfold apply. destruct e as [p|d|p].
  - destruct (clobber p t); [exists None; reflexivity|]. apply H.
  - destruct (leq t (d_pat d) && qeqb (QAct m) (decl_key (d_meth d))); [eauto|]. apply H.
  - destruct (leq t p && qeqb (QAct m) (QAct mHEAD)); [|apply H].
    destruct (H mHEAD) as ([v|] & ->); [eauto|apply H].
Qed.

Lemma table_shape0 es t m : exists o, apply_all es T0 t (QAct m) = AR o.
Proof. apply table_shape. intros k. unfold T0, obs. destruct (lookup root0 t); cbn; eauto. Qed.

Section Prog.
  Variable prog : list (list handler).
  Variable root : route.
  Hypothesis Hroot : routers prog root0 = Ok root.

  Lemma latest_some pat m d : latest prog pat m d -> exists ra, decl_action d = Some ra.
  Proof.
    intros (e1 & e2 & Hev & Hp & Hm & Hl).
    pose proof (last_ok_events _ _ _ Hroot) as HO. specialize (HO e1 d e2 Hev).
    destruct (decl_action d) as [ra|]; [eauto|]. exfalso. apply HO; [|reflexivity].
    intros d' Hin Hp'. rewrite Hm. apply Hl; [exact Hin|congruence].
  Qed.

  (** the entry of a key is the action of its latest declaration, HEAD included *)
  Lemma latest_entry n t m d ra : lookup root t = Some n -> ~ evicted prog t -> latest prog t m d ->
    decl_action d = Some ra -> ask n (decl_key m) = AR (Some ra).
  Proof.
    intros Hl He Hlat Hra.
    destruct (bytes_eq_dec m mHEAD) as [->|Hh].
    - destruct Hlat as (e1 & e2 & Hev & Hp & Hm & Hlast). apply not_evicted_safe in He.
      assert (HO : obs root t (decl_key mHEAD) = ask n (decl_key mHEAD)) by (unfold obs; rewrite Hl; reflexivity).
      rewrite <- HO, (root_obs prog root Hroot), Hev, apply_all_app, apply_all_cons.
      rewrite Hev in He. apply safe_app in He as [_ He].
      change (decl_key mHEAD) with (QAct mHEAD).
      apply table_head_keep.
      + intros p Hin. apply He. right. exact Hin.
      + intros d' Hin Hpat Hk. apply (Hlast d' Hin Hpat). apply decl_key_act in Hk. exact Hk.
      + unfold apply. rewrite Hp, leq_refl, Hm. cbn [andb]. change (decl_key mHEAD) with (QAct mHEAD).
        assert (E : qeqb (QAct mHEAD) (QAct mHEAD) = true) by (apply qeqb_true; reflexivity).
        rewrite E, Hra. reflexivity.
    - rewrite (latest_action prog root Hroot n t m d Hl He Hlat Hh), Hra. reflexivity.
  Qed.

  Lemma undeclared_entry n t q : lookup root t = Some n ->
    (forall d, declared prog d -> d_pat d = t -> ~ key_ok q d) ->
    (match q with QAct _ | QAll | QAny => True | _ => False end) ->
    ask n q = AR None.
  Proof.
    intros Hl Hu Hq.
    assert (HO : obs root t q = ask n q) by (unfold obs; rewrite Hl; reflexivity).
    rewrite (root_obs prog root Hroot) in HO. rewrite <- HO.
    destruct (apply_all (events prog) T0 t q) as [b|[ra|]|l] eqn:E; try reflexivity.
    - exfalso. destruct q; try contradiction; discriminate.
    - exfalso. destruct (table_action _ _ _ _ E) as (d & A & B & C & D). exact (Hu d A B D).
    - exfalso. destruct q; try contradiction; discriminate.
  Qed.

  Lemma head_of_get n t d ra : lookup root t = Some n -> ~ evicted prog t ->
    declared prog d -> d_pat d = t -> d_meth d = mGET -> decl_action d = Some ra ->
    (forall d', declared prog d' -> d_pat d' = t -> d_meth d' = mGET -> d' = d) ->
    undeclared prog t mHEAD ->
    ask n (QAct mHEAD) = AR (Some ra).
  Proof.
    intros Hl He Hd Hp Hm Hra Huniq Hnh. apply not_evicted_safe in He.
    assert (HO : obs root t (QAct mHEAD) = ask n (QAct mHEAD)) by (unfold obs; rewrite Hl; reflexivity).
    rewrite (root_obs prog root Hroot) in HO.
    destruct (in_split _ _ Hd) as (e1 & e2 & Hev).
    pose proof (headed_events prog e1 d e2 Hev) as Hh. rewrite Hp in Hh.
    destruct (in_split _ _ Hh) as (x & y & Hxy).
    set (T2 := apply_all x (apply (EDecl d) (apply_all e1 T0))).
    assert (Hget : T2 t (QAct mGET) = AR (Some ra)).
    { unfold T2. assert (Hsafe : safe x t).
      { intros p Hin. apply He. rewrite Hev, Hxy. apply in_app_iff. right. right. apply in_app_iff. left. exact Hin. }
      assert (Hall : forall d', In (EDecl d') x -> declared prog d').
      { intros d' Hin. unfold declared. rewrite Hev, Hxy. apply in_app_iff. right. right. apply in_app_iff. left. exact Hin. }
      assert (G : forall T, T t (QAct mGET) = AR (Some ra) -> apply_all x T t (QAct mGET) = AR (Some ra)).
      { clear - Hsafe Hall Huniq Hra. induction x as [|e x IH]; intros T HT; [exact HT|].
        rewrite apply_all_cons. apply IH.
        - intros p Hin. apply Hsafe. right. exact Hin.
        - intros d' Hin. apply Hall. right. exact Hin.
        - unfold apply. destruct e as [p|d'|p].
          + rewrite (Hsafe p) by (left; reflexivity). exact HT.
          + destruct (leq t (d_pat d') && qeqb (QAct mGET) (decl_key (d_meth d'))) eqn:E; [|exact HT].
            apply andb_true_iff in E as [E1 E2]. apply leq_true in E1. apply qeqb_true in E2.
            symmetry in E2. apply decl_key_act in E2.
            rewrite (Huniq d' (Hall d' (or_introl eq_refl)) (eq_sym E1) E2), Hra. reflexivity.
          + assert (E : qeqb (QAct mGET) (QAct mHEAD) = false) by reflexivity. rewrite E, andb_false_r. exact HT. }
      apply G. unfold apply. rewrite Hp, leq_refl, Hm. cbn [andb]. rewrite Hra. reflexivity. }
    assert (Hfin : exists v, apply (EHead t) T2 t (QAct mHEAD) = AR (Some v)).
    { unfold apply. rewrite leq_refl. cbn [andb]. assert (E : qeqb (QAct mHEAD) (QAct mHEAD) = true) by reflexivity. rewrite E.
      assert (HT2 : T2 = apply_all (e1 ++ EDecl d :: x) T0) by (rewrite apply_all_app, apply_all_cons; reflexivity).
      destruct (table_shape0 (e1 ++ EDecl d :: x) t mHEAD) as ([v|] & Hv); rewrite <- HT2 in Hv; rewrite Hv; eauto. }
    destruct Hfin as (v & Hv).
    assert (Hfinal : apply_all (events prog) T0 t (QAct mHEAD) = AR (Some v)).
    { rewrite Hev, apply_all_app, apply_all_cons, Hxy, apply_all_app, apply_all_cons. fold T2.
      apply table_head_keep; [| |exact Hv].
      - intros p Hin. apply He. rewrite Hev, Hxy. apply in_app_iff. right. right. apply in_app_iff. right. right. exact Hin.
      - intros d' Hin Hp' Hk. apply decl_key_act in Hk. apply (Hnh d'); [|exact Hp'|exact Hk].
        unfold declared. rewrite Hev, Hxy. apply in_app_iff. right. right. apply in_app_iff. right. right. exact Hin. }
    destruct (table_action _ _ _ _ Hfinal) as (d' & A & B & C & [K|[_ K]]); apply decl_key_act in K.
    - exfalso. exact (Hnh d' A B K).
    - rewrite (Huniq d' A B K) in C. congruence.
  Qed.

  Lemma any_usable d ra : d_meth d = mANY -> decl_action d = Some ra ->
    is_func (ra_ctl ra) || action_exists (ra_ctl ra) (ra_action ra) = true.
  Proof.
    intros Hm. unfold decl_action, mk_raction. destruct (bind _ _) as [r|] eqn:H; [|discriminate]. intros [= <-].
    apply bind_ok in H as (a & Ha & H). rewrite Hm in H. unfold finish in H. cbv zeta in H.
    change (is_all mANY) with false in H. change (is_any mANY) with true in H. cbv iota in H.
    set (act := if is_nil (ma_action a) && negb (is_func (ma_ctl a)) then bs "Any" else ma_action a) in H.
    destruct (is_nil act) eqn:En.
    - cbn [bind] in H. injection H as <-. cbn [ra_ctl ra_action].
      assert (is_func (ma_ctl a) = true) as ->; [|reflexivity].
      unfold act in En. destruct (is_func (ma_ctl a)); [reflexivity|]. rewrite andb_true_r in En.
      destruct (is_nil (ma_action a)) eqn:E; [discriminate|]. rewrite E in En. discriminate.
    - apply bind_ok in H as (c' & Hc & [= <-]). cbn [ra_ctl ra_action].
      unfold ensure_action in Hc. destruct (c_kind (ma_ctl a)); try (rewrite En in Hc; discriminate).
      destruct (aget (c_methods (ma_ctl a)) act) eqn:E; [|discriminate]. injection Hc as <-.
      unfold action_exists. cbn [c_methods]. rewrite E. apply orb_true_r.
  Qed.

  Definition served (o : option (raction * bytes)) (s : option (decl * bytes)) : Prop :=
    match o, s with
    | None, None => True
    | Some (ra, act), Some (d, a) => decl_action d = Some ra /\ act = a
    | _, _ => False
    end.

  Lemma names_method_exists c a : action_exists c a = true <-> names_method c a.
  Proof.
    unfold action_exists, names_method. destruct (aget (c_methods c) a) as [s|].
    - split; [eauto|reflexivity].
    - split; [discriminate|]. intros (s & H). discriminate.
  Qed.

  Lemma ask_act n m o : ask n (QAct m) = AR o <-> aget (r_acts n) m = o.
  Proof. cbn. split; congruence. Qed.

  Lemma dispatch_served n t m o : lookup root t = Some n -> ~ evicted prog t ->
    dispatch prog t m o ->
    (m = mHEAD -> undeclared prog t mHEAD -> undeclared prog t mGET) ->
    served (select_action n m) o.
  Proof.
    intros Hl He Hd Hhead.
    assert (Hall : forall d ra, latest prog t mALL d -> decl_action d = Some ra -> r_all n = Some ra).
    { intros d ra H1 H2. pose proof (latest_entry n t mALL d ra Hl He H1 H2) as H. cbn in H. congruence. }
    assert (Hany : forall d ra, latest prog t mANY d -> decl_action d = Some ra -> r_any n = Some ra).
    { intros d ra H1 H2. pose proof (latest_entry n t mANY d ra Hl He H1 H2) as H. cbn in H. congruence. }
    assert (Hnall : undeclared prog t mALL -> r_all n = None).
    { intros Hu. assert (H : ask n QAll = AR None); [|cbn in H; congruence].
      apply (undeclared_entry n t QAll Hl); [|exact I]. intros d A B [K|[K _]]; [|discriminate].
      apply decl_key_all in K. exact (Hu d A B K). }
    assert (Hnany : undeclared prog t mANY -> r_any n = None).
    { intros Hu. assert (H : ask n QAny = AR None); [|cbn in H; congruence].
      apply (undeclared_entry n t QAny Hl); [|exact I]. intros d A B [K|[K _]]; [|discriminate].
      apply decl_key_any in K. exact (Hu d A B K). }
    assert (Hnm : undeclared prog t m \/ m = mALL \/ m = mANY -> aget (r_acts n) m = None).
    { intros Hu. apply ask_act. apply (undeclared_entry n t (QAct m) Hl); [|exact I].
      intros d A B [K|[K1 K2]].
      - pose proof (decl_key_act _ _ K) as Km. destruct Hu as [Hu|[->| ->]].
        + exact (Hu d A B Km).
        + rewrite Km in K. discriminate.
        + rewrite Km in K. discriminate.
      - injection K1 as ->. apply decl_key_act in K2. destruct Hu as [Hu|[Hu|Hu]]; [|discriminate|discriminate].
        exact (Hhead eq_refl Hu d A B K2). }
    assert (Hallno : (undeclared prog t mALL \/ exists a, latest prog t mALL a /\ is_func (d_ctl a) = false /\
                 ~ names_method (d_ctl a) (meth_action m) /\ stored_action a = []) ->
        forall (K : option (raction * bytes)),
        match r_all n with
        | Some a => if is_func (ra_ctl a) || action_exists (ra_ctl a) (meth_action m) then Some (a, meth_action m)
                    else if negb (is_nil (ra_action a)) then Some (a, ra_action a) else K
        | None => K end = K).
    { intros [Hu|(a & H1 & H2 & H3 & H4)] K; [rewrite (Hnall Hu); reflexivity|].
      destruct (latest_some _ _ _ H1) as (ra & Hra). rewrite (Hall _ _ H1 Hra).
      apply decl_action_spec in Hra as (Hc & _ & Ha). rewrite (same_func _ _ Hc), H2. cbn [orb].
      destruct (action_exists (ra_ctl ra) (meth_action m)) eqn:E.
      - exfalso. apply H3, names_method_exists. rewrite <- E. symmetry. apply same_exists. exact Hc.
      - rewrite Ha, H4. reflexivity. }
    unfold select_action. destruct Hd as [d H1 H2 H3|d H1 H2 H3|d H1 H2 H3 H4 H5|d H1 H2 H3|H1 H2 H3].
    - destruct (latest_some _ _ _ H3) as (ra & Hra).
      pose proof (latest_entry n t m d ra Hl He H3 Hra) as H.
      assert (Hk : decl_key m = QAct m).
      { unfold decl_key. destruct (is_all m) eqn:E; [apply beq_true in E; congruence|].
        destruct (is_any m) eqn:E'; [apply beq_true in E'; congruence|reflexivity]. }
      rewrite Hk in H. apply ask_act in H. rewrite H. cbn. split; [exact Hra|].
      apply decl_action_spec in Hra as (_ & _ & ->). reflexivity.
    - rewrite (Hnm H1). destruct (latest_some _ _ _ H2) as (ra & Hra). rewrite (Hall _ _ H2 Hra).
      pose proof Hra as Hra'. apply decl_action_spec in Hra as (Hc & _ & Ha).
      rewrite (same_func _ _ Hc), (same_exists _ _ _ Hc).
      assert (E : is_func (d_ctl d) || action_exists (d_ctl d) (meth_action m) = true).
      { destruct H3 as [->|H3]; [reflexivity|]. apply names_method_exists in H3. rewrite H3. apply orb_true_r. }
      rewrite E. cbn. auto.
    - rewrite (Hnm H1). destruct (latest_some _ _ _ H2) as (ra & Hra). rewrite (Hall _ _ H2 Hra).
      pose proof Hra as Hra'. apply decl_action_spec in Hra as (Hc & _ & Ha).
      rewrite (same_func _ _ Hc), (same_exists _ _ _ Hc), H3. cbn [orb].
      destruct (action_exists (d_ctl d) (meth_action m)) eqn:E; [exfalso; apply H4, names_method_exists, E|].
      rewrite Ha. destruct (stored_action d) eqn:Es; [congruence|]. cbn. auto.
    - rewrite (Hnm H1). cbv zeta. rewrite (Hallno H2).
      destruct (latest_some _ _ _ H3) as (ra & Hra). rewrite (Hany _ _ H3 Hra).
      assert (Hmd : d_meth d = mANY) by (destruct H3 as (? & ? & _ & _ & H & _); exact H).
      rewrite (any_usable d ra Hmd Hra). cbn. split; [exact Hra|]. apply decl_action_spec in Hra as (_ & _ & ->). reflexivity.
    - rewrite (Hnm H1). cbv zeta. rewrite (Hallno H2). rewrite (Hnany H3). exact I.
  Qed.
End Prog.

(** ** The dispatch relation is exhaustive and deterministic *)
Lemma latest_or_undeclared prog pat m : undeclared prog pat m \/ exists d, latest prog pat m d.
Proof.
  unfold undeclared, latest, declared. generalize (events prog) as es.
  induction es as [|e es IH] using rev_ind.
  - left. intros d [].
  - destruct e as [p|d|p].
    + destruct IH as [H|(d' & e1 & e2 & -> & A & B & C)].
      * left. intros d Hin. apply in_app_iff in Hin as [Hin|[Hin|[]]]; [apply H; exact Hin|discriminate].
      * right. exists d', e1, (e2 ++ [EEnd p]). split; [rewrite <- app_assoc; reflexivity|]. split; [exact A|]. split; [exact B|].
        intros d1 Hin. apply in_app_iff in Hin as [Hin|[Hin|[]]]; [apply C; exact Hin|discriminate].
    + destruct (list_eq_dec bytes_eq_dec (d_pat d) pat) as [Hp|Hp]; [destruct (bytes_eq_dec (d_meth d) m) as [Hm|Hm]|].
      * right. exists d, es, []. split; [reflexivity|]. split; [exact Hp|]. split; [exact Hm|]. intros d' [].
      * destruct IH as [H|(d' & e1 & e2 & -> & A & B & C)].
        -- left. intros d0 Hin. apply in_app_iff in Hin as [Hin|[Hin|[]]]; [apply H; exact Hin|]. injection Hin as <-. intros _. exact Hm.
        -- right. exists d', e1, (e2 ++ [EDecl d]). split; [rewrite <- app_assoc; reflexivity|]. split; [exact A|]. split; [exact B|].
           intros d1 Hin. apply in_app_iff in Hin as [Hin|[Hin|[]]]; [apply C; exact Hin|]. injection Hin as <-. intros _. exact Hm.
      * destruct IH as [H|(d' & e1 & e2 & -> & A & B & C)].
        -- left. intros d0 Hin. apply in_app_iff in Hin as [Hin|[Hin|[]]]; [apply H; exact Hin|]. injection Hin as <-. congruence.
        -- right. exists d', e1, (e2 ++ [EDecl d]). split; [rewrite <- app_assoc; reflexivity|]. split; [exact A|]. split; [exact B|].
           intros d1 Hin. apply in_app_iff in Hin as [Hin|[Hin|[]]]; [apply C; exact Hin|]. injection Hin as <-. congruence.
    + destruct IH as [H|(d' & e1 & e2 & -> & A & B & C)].
      * left. intros d Hin. apply in_app_iff in Hin as [Hin|[Hin|[]]]; [apply H; exact Hin|discriminate].
      * right. exists d', e1, (e2 ++ [EHead p]). split; [rewrite <- app_assoc; reflexivity|]. split; [exact A|]. split; [exact B|].
        intros d1 Hin. apply in_app_iff in Hin as [Hin|[Hin|[]]]; [apply C; exact Hin|discriminate].
Qed.

Lemma dispatch_total prog pat m : exists o, dispatch prog pat m o.
Proof.
  assert (Hex : (m <> mALL /\ m <> mANY /\ exists d, latest prog pat m d) \/ (undeclared prog pat m \/ m = mALL \/ m = mANY)).
  { destruct (bytes_eq_dec m mALL); [auto|]. destruct (bytes_eq_dec m mANY); [auto|].
    destruct (latest_or_undeclared prog pat m) as [H|H]; auto. }
  destruct Hex as [(H1 & H2 & d & H3)|Hu]; [eexists; eapply di_exact; eauto|].
  assert (Hany : (undeclared prog pat mALL \/
      (exists a, latest prog pat mALL a /\ is_func (d_ctl a) = false /\
                 ~ names_method (d_ctl a) (meth_action m) /\ stored_action a = [])) -> exists o, dispatch prog pat m o).
  { intros Ha. destruct (latest_or_undeclared prog pat mANY) as [H|(d & H)].
    - exists None. apply di_none; assumption.
    - eexists. eapply di_any; eauto. }
  destruct (latest_or_undeclared prog pat mALL) as [H|(d & H)]; [auto|].
  destruct (is_func (d_ctl d)) eqn:Ef; [eexists; eapply di_all; eauto|].
  destruct (action_exists (d_ctl d) (meth_action m)) eqn:Ea.
  - eexists. eapply di_all; eauto. right. apply names_method_exists. exact Ea.
  - assert (Hn : ~ names_method (d_ctl d) (meth_action m)) by (rewrite <- names_method_exists; congruence).
    destruct (stored_action d) as [|c x] eqn:Es.
    + apply Hany. right. exists d. auto.
    + exists (Some (d, stored_action d)). apply di_all_named; auto. congruence.
Qed.
