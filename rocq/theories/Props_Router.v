(** Props_Router: the routing properties C01-C09, C11, C12, C14.

    Reading guide: a program is a list of [Routers(...)] calls, [routers prog
    root0 = Ok root] says that it was accepted without a panic.  [handle root
    method path] is what the framework does with a request.  Everything else in
    the statements is defined in RouterSpec.v in terms of the program text. *)
From Coq Require Import List Ascii String Bool Arith Lia.
Import ListNotations.
From Verif Require Import GoStr GoPath GoTy RouterModel RouterSpec RouterTree RouterRefine RouterMatch
  RouterTable RouterFacts RouterConflict RouterDispatch.

(** A program used to show that the hypotheses below can be met. *)
Definition mkctl (i : nat) (ms : list (bytes * sig)) : ctl := Ctl i KStruct ms [].
Definition fn (i : nat) : ctl := Ctl i KFunc [] [].
Definition ex_prog : list (list handler) :=
  [ [ HFilter [1; 2]; HMethod (fn 10) mGET [];
      HRouter (bs "/user")
        [ HFilter [3; 1];
          HRouter (bs ":uid") [ HMethod (fn 11) mGET [OFilter [7]];
                                HRouter (bs "edit/") [HExempt [2]; HMethod (fn 12) mPOST [OExempt [3]; OFilter [2]]] ];
          HRouter (bs ":uid:run") [ HMethod (fn 13) mGET [] ];
          HRouter (bs "list") [ HMethod (mkctl 14 [(bs "Get", []); (bs "All", [])]) mALL [];
                                HMethod (fn 17) mANY [] ] ];
      HRouter (bs "/files/*:rest") [ HMethod (fn 15) mGET [] ] ];
    [ HRouter (bs "/user/list") [ HMethod (fn 16) mPOST [] ] ] ].
Definition ex_root : route := match routers ex_prog root0 with Ok r => r | Panic => root0 end.
Example ex_accepted : routers ex_prog root0 = Ok ex_root.
Proof. vm_compute. reflexivity. Qed.

(** decidable versions used by the examples *)
Fixpoint latestb (es : list event) (pat : list bytes) (m : meth) : option decl :=
  match es with
  | [] => None
  | EDecl d :: es' =>
      match latestb es' pat m with
      | Some d' => Some d'
      | None => if leq (d_pat d) pat && beq (d_meth d) m then Some d else None
      end
  | _ :: es' => latestb es' pat m
  end.
Lemma latestb_spec es pat m :
  match latestb es pat m with
  | Some d => exists e1 e2, es = e1 ++ EDecl d :: e2 /\ d_pat d = pat /\ d_meth d = m /\
                (forall d', In (EDecl d') e2 -> d_pat d' = pat -> d_meth d' <> m)
  | None => forall d, In (EDecl d) es -> d_pat d = pat -> d_meth d <> m
  end.
Proof.
  induction es as [|e es IH]; cbn [latestb]; [intros d []|].
  assert (Hskip : (forall d, e <> EDecl d) ->
    match latestb es pat m with
    | Some d => exists e1 e2, e :: es = e1 ++ EDecl d :: e2 /\ d_pat d = pat /\ d_meth d = m /\
                (forall d', In (EDecl d') e2 -> d_pat d' = pat -> d_meth d' <> m)
    | None => forall d, In (EDecl d) (e :: es) -> d_pat d = pat -> d_meth d <> m
    end).
  { intros Hn. destruct (latestb es pat m) as [d|].
    - destruct IH as (e1 & e2 & -> & A). exists (e :: e1), e2. auto.
    - intros d [H|H]; [exfalso; exact (Hn _ H)|]. apply IH. exact H. }
  destruct e as [p|d|p]; try (apply Hskip; discriminate).
  destruct (latestb es pat m) as [d'|].
  - destruct IH as (e1 & e2 & -> & A). exists (EDecl d :: e1), e2. auto.
  - destruct (leq (d_pat d) pat && beq (d_meth d) m) eqn:E.
    + apply andb_true_iff in E as [E1 E2]. apply leq_true in E1. apply beq_true in E2.
      exists [], es. auto.
    + intros d' [H|H]; [|apply IH; exact H]. injection H as <-. intros Hp Hm. subst.
      rewrite leq_refl, beq_refl in E. discriminate.
Qed.
Lemma latest_of prog pat m d : latestb (events prog) pat m = Some d -> latest prog pat m d.
Proof. intros H. pose proof (latestb_spec (events prog) pat m) as S. rewrite H in S. exact S. Qed.
Lemma undeclared_of prog pat m : latestb (events prog) pat m = None -> undeclared prog pat m.
Proof. intros H. pose proof (latestb_spec (events prog) pat m) as S. rewrite H in S. exact S. Qed.

(** ** C01 *)
Lemma select_action_cases prog root t n m ra act :
  routers prog root0 = Ok root -> lookup root t = Some n -> select_action n m = Some (ra, act) ->
  exists d, declared prog d /\ d_pat d = t /\ decl_action d = Some ra /\ method_ok m d /\
    (act = stored_action d \/ (d_meth d = mALL /\ act = meth_action m)).
Proof.
  intros Hroot Hl Hs.
  assert (HO : forall q, apply_all (events prog) T0 t q = ask n q).
  { intros q. rewrite <- (root_obs prog root Hroot). unfold obs. rewrite Hl. reflexivity. }
  assert (Hcase : (aget (r_acts n) m = Some ra /\ act = ra_action ra) \/
                  (r_all n = Some ra /\ (act = ra_action ra \/ act = meth_action m)) \/
                  (r_any n = Some ra /\ act = ra_action ra)).
  { unfold select_action in Hs. destruct (aget (r_acts n) m) as [a|]; [left; split; congruence|].
    destruct (r_all n) as [a|].
    - destruct (is_func (ra_ctl a) || _); [injection Hs as -> <-; auto|].
      destruct (negb _); [injection Hs as -> <-; auto|].
      destruct (r_any n) as [y|]; [|discriminate].
      destruct (is_func (ra_ctl y) || _); [injection Hs as -> <-; auto|discriminate].
    - destruct (r_any n) as [y|]; [|discriminate].
      destruct (is_func (ra_ctl y) || _); [injection Hs as -> <-; auto|discriminate]. }
  unfold method_ok, declared. destruct Hcase as [[H Hact]|[[H Hact]|[H Hact]]].
  - assert (HT : apply_all (events prog) T0 t (QAct m) = AR (Some ra)) by (rewrite HO; cbn; congruence).
    destruct (table_action _ _ _ _ HT) as (d & A & B & C & K).
    assert (Hst : act = stored_action d) by (apply decl_action_spec in C as (_ & _ & <-); exact Hact).
    exists d. split; [exact A|]. split; [exact B|]. split; [exact C|]. split; [|auto].
    destruct K as [K|[K1 K2]]; [apply decl_key_act in K; auto|].
    injection K1 as ->. apply decl_key_act in K2. auto.
  - assert (HT : apply_all (events prog) T0 t QAll = AR (Some ra)) by (rewrite HO; cbn; congruence).
    destruct (table_action _ _ _ _ HT) as (d & A & B & C & [K|[K1 K2]]); [|discriminate].
    apply decl_key_all in K. exists d. split; [exact A|]. split; [exact B|]. split; [exact C|]. split; [auto|].
    destruct Hact as [Hact|Hact]; [left|right; auto]. apply decl_action_spec in C as (_ & _ & <-). exact Hact.
  - assert (HT : apply_all (events prog) T0 t QAny = AR (Some ra)) by (rewrite HO; cbn; congruence).
    destruct (table_action _ _ _ _ HT) as (d & A & B & C & [K|[K1 K2]]); [|discriminate].
    apply decl_key_any in K. exists d. split; [exact A|]. split; [exact B|]. split; [exact C|]. split; [auto|].
    left. apply decl_action_spec in C as (_ & _ & <-). exact Hact.
Qed.

Theorem C01_served_action_was_declared :
  forall prog root meth path ra act ps trail,
    routers prog root0 = Ok root ->
    handle root meth path = Serve ra act ps trail ->
    exists d, declared prog d /\ c_id (ra_ctl ra) = c_id (d_ctl d) /\
      conforms (d_pat d) (segs path) ps /\ d_pat d = trail /\
      method_ok (to_upper meth) d /\
      (act = stored_action d \/ (d_meth d = mALL /\ act = meth_action (to_upper meth))) /\
      ra_filters ra = filter_order d.
Proof.
  intros prog root meth path ra act ps trail Hroot Hh. unfold handle in Hh.
  destruct (select_route root path) as [x|] eqn:Ex; [|discriminate].
  destruct (select_action (m_route x) (to_upper meth)) as [[ra' act']|] eqn:Ea; [|discriminate].
  injection Hh as -> -> <- <-.
  destruct (select_sound prog root Hroot path x Ex) as (Hl & _ & Hc).
  destruct (select_action_cases prog root _ _ _ _ _ Hroot Hl Ea) as (d & Hd & Hp & Hda & Hm & Hact).
  pose proof (decl_action_spec _ _ Hda) as (Hcc & _ & _).
  exists d. split; [exact Hd|]. split; [apply Hcc|]. split; [rewrite Hp; exact Hc|]. split; [exact Hp|].
  split; [exact Hm|]. split; [exact Hact|]. apply decl_filter_order. exact Hda.
Qed.
Example C01_example : exists ra, handle ex_root (bs "post") (bs "//user/7/./edit") =
  Serve ra (bs "Post") [(bs "uid", bs "7")] [bs "user"; bs ":uid"; bs "edit"] /\ c_id (ra_ctl ra) = 12.
Proof. eexists. vm_compute. split; reflexivity. Qed.

(** ** C02 *)
Theorem C02_static_routes_always_served :
  forall prog root meth path d,
    routers prog root0 = Ok root ->
    Forall (fun s => is_static_seg s = true) (segs path) ->
    latest prog (segs path) (to_upper meth) d -> to_upper meth <> mALL -> to_upper meth <> mANY ->
    exists ra, handle root meth path = Serve ra (stored_action d) [] (segs path) /\
      c_id (ra_ctl ra) = c_id (d_ctl d) /\ ra_filters ra = filter_order d.
Proof.
  intros prog root meth path d Hroot Hst Hlat Ha Hn.
  assert (Hnw : forall front w rest, segs path = front ++ w :: rest -> is_wild_seg w = false).
  { intros front w rest E. rewrite E in Hst. apply Forall_app in Hst as [_ Hst]. inversion Hst; subst.
    unfold is_static_seg, is_wild_seg in *. destruct (parse_seg w); congruence. }
  assert (Hne : ~ evicted prog (segs path)).
  { intros (f & w & w' & rest & E & _ & Hw & _). rewrite (Hnw _ _ _ E) in Hw. discriminate. }
  assert (Hrp : route_pattern prog (segs path)).
  { destruct Hlat as (e1 & e2 & Hev & Hp & _). rewrite <- Hp. apply decl_is_route. unfold declared.
    rewrite Hev. apply in_elt. }
  destruct (end_lookup prog root Hroot _ Hrp Hne) as (n & Hl & He).
  assert (Hsel : select_route root path = Some (MRes (segs path) n [])).
  { destruct (segs path) as [|p0 ps] eqn:Es.
    - rewrite (select_root root path Es). cbn [lookup] in Hl. congruence.
    - rewrite (select_deep root path) by congruence. rewrite Es.
      rewrite (rmatch_static (p0 :: ps) root n (root_wf prog root Hroot)); [|discriminate|exact Hst|exact Hl|exact He].
      cbn [m_route]. rewrite He. reflexivity. }
  destruct (latest_some prog root Hroot _ _ _ Hlat) as (ra & Hra).
  pose proof (dispatch_served prog root Hroot n (segs path) (to_upper meth) _ Hl Hne (di_exact _ _ _ d Ha Hn Hlat)) as Hds.
  assert (Hhd : to_upper meth = mHEAD -> undeclared prog (segs path) mHEAD -> undeclared prog (segs path) mGET).
  { intros Hm Hu. exfalso. rewrite Hm in Hlat. destruct Hlat as (e1 & e2 & Hev & Hp & Hmm & _).
    apply (Hu d); [unfold declared; rewrite Hev; apply in_elt|exact Hp|exact Hmm]. }
  specialize (Hds Hhd). unfold served in Hds.
  unfold handle. rewrite Hsel. cbn [m_route m_params m_trail].
  destruct (select_action n (to_upper meth)) as [[ra' act]|]; [|contradiction].
  destruct Hds as [Hd ->]. exists ra'. split; [reflexivity|].
  split; [apply (decl_action_spec _ _ Hd)|apply decl_filter_order; exact Hd].
Qed.
Example C02_example :
  exists d, latest ex_prog (segs (bs "/user/list")) (to_upper (bs "Post")) d /\ c_id (d_ctl d) = 16 /\
    Forall (fun s => is_static_seg s = true) (segs (bs "/user/list")).
Proof.
  eexists. split; [apply latest_of; vm_compute; reflexivity|]. split; [reflexivity|].
  repeat constructor.
Qed.

(** ** C03 *)
(** Full claim: [select_route root path = None] implies that no declared pattern
    conforms to the path.  It is false of the code: *)
Definition shadow_prog : list (list handler) :=
  [ [ HRouter (bs "/user/dashboard/stats") [HMethod (fn 1) mGET []];
      HRouter (bs "/user/:uid") [HMethod (fn 2) mGET []] ] ].
Theorem C03_not_found_complete_refuted :
  exists prog root path pat ps,
    routers prog root0 = Ok root /\ route_pattern prog pat /\ conforms pat (segs path) ps /\
    ~ evicted prog pat /\ select_route root path = None /\ handle root (bs "GET") path = NotFound.
Proof.
  exists shadow_prog. eexists. exists (bs "/user/dashboard"), [bs "user"; bs ":uid"], [(bs "uid", bs "dashboard")].
  split; [vm_compute; reflexivity|]. split; [right; vm_compute; tauto|].
  split; [apply cf_static; [reflexivity|]; apply cf_param; [reflexivity|]; constructor|].
  split; [|split; vm_compute; reflexivity].
  intros (f & w & w' & rest & E & _ & Hw & _).
  destruct f as [|a [|b [|c f]]]; cbn in E; injection E as E; subst; try discriminate;
    try (injection E as ? ?; subst; discriminate); vm_compute in Hw; discriminate.
Qed.

(** What does hold: a path for which no route is selected conforms to no
    declared pattern, unless an inner node of a longer pattern that ends in a
    static segment and is not itself a route accepts the whole path
    ([shadows]), or the pattern was replaced by another wildcard text
    ([evicted]). *)
Theorem C03_not_found_complete_partial :
  forall prog root path,
    routers prog root0 = Ok root -> select_route root path = None -> ~ shadows prog path ->
    forall pat ps, route_pattern prog pat -> ~ evicted prog pat -> ~ conforms pat (segs path) ps.
Proof.
  intros prog root path Hroot Hn Hs pat ps Hr He Hc.
  destruct (select_best prog root Hroot path pat ps Hr He Hc Hs) as (x & Hx & _). congruence.
Qed.

(** checks used by the examples: [shadows] and [evicted] refuted by inspection of
    the finitely many declared patterns *)
Fixpoint conformsb (pat path : list bytes) : bool :=
  match pat, path with
  | [], [] => true
  | p :: pat', x :: path' =>
      match parse_seg p with
      | SStatic s => beq p x && conformsb pat' path'
      | SParam _ v => has_suffix x v && conformsb pat' path'
      | SWild _ => is_nil pat'
      end
  | _, _ => false
  end.
Lemma conforms_conformsb pat path ps : conforms pat path ps -> conformsb pat path = true.
Proof.
  induction 1; cbn [conformsb]; rewrite ?H.
  - reflexivity.
  - rewrite beq_refl. exact IHconforms.
  - assert (E : has_suffix x [] = true) by (apply has_suffix_spec; exists x; symmetry; apply app_nil_r).
    rewrite E. exact IHconforms.
  - assert (E : has_suffix (x ++ v) v = true) by (apply has_suffix_spec; eauto). rewrite E. exact IHconforms.
  - destruct path; [congruence|]. rewrite ?H. reflexivity.
Qed.
Fixpoint prefixes {A} (l : list A) : list (list A) :=
  [] :: match l with [] => [] | x :: l' => map (cons x) (prefixes l') end.
Lemma prefixes_in {A} (a b : list A) : In a (prefixes (a ++ b)).
Proof. induction a as [|x a IH]; [destruct b; left; reflexivity|]. right. apply in_map. exact IH. Qed.
Definition ends_static (u : list bytes) : bool := match rev u with s :: _ => is_static_seg s | [] => false end.
Definition end_pats (es : list event) : list (list bytes) :=
  flat_map (fun e => match e with EEnd p => [p] | _ => [] end) es.
Lemma end_pats_in es p : In (EEnd p) es -> In p (end_pats es).
Proof. intros H. apply in_flat_map. exists (EEnd p). split; [exact H|left; reflexivity]. Qed.
Definition shadow_free (prog : list (list handler)) (path : bytes) : bool :=
  let pats := end_pats (events prog) in
  forallb (fun pat => forallb (fun u => negb (ends_static u && conformsb u (segs path)) || existsb (leq u) pats) (prefixes pat)) pats.
Lemma shadow_free_spec prog path : shadow_free prog path = true -> ~ shadows prog path.
Proof.
  intros H (u & longer & front & s & pv & _ & Hin & Hnr & Hc & Hu & Hs). unfold shadow_free in H.
  rewrite forallb_forall in H. specialize (H _ (end_pats_in _ _ Hin)). rewrite forallb_forall in H.
  specialize (H u (prefixes_in u longer)). rewrite (conforms_conformsb _ _ _ Hc), andb_true_r in H.
  unfold ends_static in H. rewrite Hu, rev_app_distr in H. cbn [rev app] in H. rewrite Hs in H. cbn [negb orb] in H.
  apply existsb_exists in H as (q & Hq & E). apply leq_true in E. subst q. apply Hnr. right. rewrite Hu.
  unfold end_pats in Hq. apply in_flat_map in Hq as (e & He & Hq). destruct e; cbn in Hq; try contradiction.
  destruct Hq as [->|[]]. exact He.
Qed.
Lemma evicted_free prog pat : forallb (fun s => negb (is_wild_seg s)) pat = true -> ~ evicted prog pat.
Proof.
  intros H (f & w & w' & rest & -> & _ & Hw & _). rewrite forallb_app in H. cbn [forallb] in H.
  rewrite Hw in H. rewrite andb_false_r in H. discriminate.
Qed.

Example C03_example : select_route ex_root (bs "/user/7/nothing") = None /\ ~ shadows ex_prog (bs "/user/7/nothing").
Proof. split; [vm_compute; reflexivity|apply shadow_free_spec; vm_compute; reflexivity]. Qed.

(** ** C04 *)
(** [preferred] is a (strict) priority: at most one pattern can be preferred
    both ways *)
Lemma older_asym es front s s' : older es front s s' -> older es front s' s -> False.
Proof.
  intros (a1 & a2 & Ea & Ha1 & Ha2) (b1 & b2 & Eb & Hb1 & Hb2).
  assert (G : (exists k, a1 = b1 ++ k) \/ (exists k, b1 = a1 ++ k)).
  { clear - Ea Eb. rewrite Ea in Eb. clear Ea. revert b1 Eb.
    induction a1 as [|x a1 IH]; intros b1 E; [right; exists b1; reflexivity|].
    destruct b1 as [|y b1]; [left; exists (x :: a1); reflexivity|]. cbn in E. injection E as -> E.
    destruct (IH _ E) as [(k & ->)|(k & ->)]; [left|right]; exists k; reflexivity. }
  destruct G as [(k & ->)|(k & ->)].
  - apply Ha2. destruct Hb1 as (p & x & Hin & E). exists p, x. split; [apply in_app_iff; auto|exact E].
  - apply Hb2. destruct Ha1 as (p & x & Hin & E). exists p, x. split; [apply in_app_iff; auto|exact E].
Qed.
Lemma seg_before_asym es front s s' : seg_before es front s s' -> seg_before es front s' s -> False.
Proof.
  intros H1 H2.
  destruct H1 as [s s' A B|s s' n v n' A B C|s s' n v n' v' A B C D E|s s' A B];
  inversion H2 as [t t' A' B'|t t' m w m' A' B' C'|t t' m w m' w' A' B' C' D' E'|t t' A' B']; subst;
    unfold is_static_seg, is_wild_seg in *; try congruence;
    try (rewrite A in *); try (rewrite C in *); try congruence.
  all: try (destruct (parse_seg s), (parse_seg s'); congruence).
  eapply older_asym; eauto.
Qed.
Lemma seg_before_irrefl es front s : ~ seg_before es front s s.
Proof. intros H. eapply seg_before_asym; eauto. Qed.
Lemma preferred_antisym es t t' : preferred es t t' -> preferred es t' t -> t = t'.
Proof.
  intros [->|(f & s & u & s' & u' & -> & -> & H1)]; [reflexivity|].
  intros [E|(g & r & v & r' & v' & E1 & E2 & H2)].
  - exfalso. apply app_inv_head in E. injection E as -> _. exact (seg_before_irrefl _ _ _ H1).
  - exfalso. revert g E1 E2 H1 H2.
    assert (G : forall f g, f ++ s' :: u' = g ++ r :: v -> f ++ s :: u = g ++ r' :: v' -> s <> s' -> r <> r' -> f = g /\ s' = r /\ s = r').
    { clear. induction f as [|x f IH]; intros g E1 E2 Hs Hr.
      - destruct g as [|y g]; cbn in *; injection E1 as -> ->; injection E2 as -> ->; [auto|congruence].
      - destruct g as [|y g]; cbn in *; [congruence|].
        injection E1 as -> E1. injection E2 as E2.
        destruct (IH _ E1 E2 Hs Hr) as (-> & A). auto. }
    intros g E1 E2 H1 H2. destruct (G _ _ E1 E2) as (-> & -> & ->).
    + intros ->. exact (seg_before_irrefl _ _ _ H1).
    + intros ->. exact (seg_before_irrefl _ _ _ H2).
    + eapply seg_before_asym; eauto.
Qed.

(** Full claim: for every path some declared pattern conforms to, the selected
    pattern conforms and is preferred to every other conforming one.  Missing:
    paths that are [shadows]ed (there the code selects nothing or a wildcard
    although a better pattern conforms, [C04_priority_refuted]), and patterns
    that were [evicted]. *)
Theorem C04_route_priority_partial :
  forall prog root path pat ps,
    routers prog root0 = Ok root ->
    route_pattern prog pat -> ~ evicted prog pat -> conforms pat (segs path) ps -> ~ shadows prog path ->
    exists x, select_route root path = Some x /\
      route_pattern prog (m_trail x) /\ conforms (m_trail x) (segs path) (m_params x) /\
      forall pat' ps', route_pattern prog pat' -> ~ evicted prog pat' -> conforms pat' (segs path) ps' ->
        preferred (events prog) (m_trail x) pat'.
Proof.
  intros prog root path pat ps Hroot Hr He Hc Hs.
  destruct (select_best prog root Hroot path pat ps Hr He Hc Hs) as (x & Hx & _).
  destruct (select_sound prog root Hroot path x Hx) as (Hl & Hend & Hcf).
  exists x. split; [exact Hx|]. split; [eapply (lookup_end prog root Hroot); eauto|]. split; [exact Hcf|].
  intros pat' ps' Hr' He' Hc'. destruct (select_best prog root Hroot path pat' ps' Hr' He' Hc' Hs) as (y & Hy & Hp).
  congruence.
Qed.
Theorem C04_priority_unique : forall es t t', preferred es t t' -> preferred es t' t -> t = t'.
Proof. exact preferred_antisym. Qed.

Definition shadow_wild_prog : list (list handler) :=
  [ [ HRouter (bs "/user/dashboard/stats") [HMethod (fn 1) mGET []];
      HRouter (bs "/user/:uid") [HMethod (fn 2) mGET []];
      HRouter (bs "/*:rest") [HMethod (fn 3) mGET []] ] ].
Theorem C04_priority_refuted :
  exists prog root path pat ps x,
    routers prog root0 = Ok root /\ route_pattern prog pat /\ ~ evicted prog pat /\ conforms pat (segs path) ps /\
    select_route root path = Some x /\ m_trail x <> pat /\ preferred (events prog) pat (m_trail x).
Proof.
  exists shadow_wild_prog. eexists. exists (bs "/user/dashboard"), [bs "user"; bs ":uid"], [(bs "uid", bs "dashboard")].
  eexists. split; [vm_compute; reflexivity|]. split; [right; vm_compute; tauto|].
  split; [apply evicted_free; vm_compute; reflexivity|].
  split; [apply cf_static; [reflexivity|]; apply cf_param; [reflexivity|]; constructor|].
  split; [vm_compute; reflexivity|]. split; [vm_compute; discriminate|].
  right. exists [], (bs "user"), [bs ":uid"], (bs "*:rest"), []. split; [reflexivity|]. split; [reflexivity|].
  apply sb_wild; reflexivity.
Qed.
Example C04_example :
  exists x, select_route ex_root (bs "/user/7:run") = Some x /\ m_trail x = [bs "user"; bs ":uid:run"] /\
    conforms [bs "user"; bs ":uid"] (segs (bs "/user/7:run")) [(bs "uid", bs "7:run")] /\
    ~ shadows ex_prog (bs "/user/7:run").
Proof.
  eexists. split; [vm_compute; reflexivity|]. split; [reflexivity|].
  split; [apply cf_static; [reflexivity|]; apply cf_param; [reflexivity|]; constructor|].
  apply shadow_free_spec. vm_compute. reflexivity.
Qed.

(** ** C05 *)
(** the segments used for matching, and everything that leaves them unchanged *)
Theorem C05_segments_clean : forall path,
  split_route_path path = [[]] \/
  (split_route_path path <> [] /\ Forall good_seg (split_route_path path)).
Proof.
  intros path. rewrite split_route_path_segs. pose proof (segs_good path) as H.
  destruct (segs path); [left; reflexivity|right]. split; [discriminate|exact H].
Qed.
Theorem C05_normalisation : forall a b x c,
  good_seg x -> is_space c = true ->
  split_route_path (a ++ bs "//" ++ b) = split_route_path (a ++ bs "/" ++ b) /\
  split_route_path (a ++ bs "/./" ++ b) = split_route_path (a ++ bs "/" ++ b) /\
  split_route_path (a ++ bs "/" ++ x ++ bs "/../" ++ b) = split_route_path (a ++ bs "/" ++ b) /\
  split_route_path (bs "/../" ++ b) = split_route_path (bs "/" ++ b) /\
  split_route_path (c :: a) = split_route_path a /\
  split_route_path (a ++ [c]) = split_route_path a /\
  (trim_space a = a -> split_route_path (a ++ bs "/") = split_route_path a /\
                       split_route_path (bs "/" ++ a) = split_route_path a).
Proof.
  intros a b x c Hx Hc. rewrite !split_route_path_segs.
  pose proof (segs_double a b) as E1. pose proof (segs_dot a b) as E2. pose proof (segs_dotdot a x b Hx) as E3.
  pose proof (segs_dotdot_root b) as E4. pose proof (segs_space_left c a Hc) as E5. pose proof (segs_space_right c a Hc) as E6.
  cbn [bs list_ascii_of_string app] in *.
  change ("/"%char) with slash in *.
  rewrite E1, E2, E3, E4, E5, E6.
  repeat (split; [reflexivity|]). intros Ht.
  assert (Hl : trim_left_space a = a).
  { destruct (ltrim_fuel_suffix uspaces (List.length a) a) as (p & Hp). fold (trim_left_space a) in Hp.
    destruct (ltrim_fuel_suffix (map (@rev ascii) uspaces) (List.length (trim_left_space a)) (rev (trim_left_space a))) as (q & Hq).
    unfold trim_space, trim_right_space in Ht.
    assert (Hlen : List.length a = List.length q + List.length a -> q = []) by (destruct q; [reflexivity|cbn; lia]).
    apply (f_equal (@List.length ascii)) in Hq as Hql. rewrite app_length, rev_length in Hql.
    apply (f_equal (@List.length ascii)) in Ht as Htl. rewrite rev_length in Htl.
    apply (f_equal (@List.length ascii)) in Hp as Hpl. rewrite app_length in Hpl.
    destruct p; [cbn in Hp; congruence|]. cbn in Hpl. lia. }
  split.
  - rewrite segs_trail; [reflexivity|]. unfold trim_space in Ht. rewrite Hl in *. exact Ht.
  - rewrite segs_lead by exact Hl. reflexivity.
Qed.
Example C05_example : good_seg (bs "x") /\ is_space (byte 32) = true /\ trim_space (bs "a b") = bs "a b".
Proof. split; [|split; reflexivity]. repeat split; try discriminate. intros [H|[]]; discriminate. Qed.

(** ** C06 *)
Theorem C06_params_are_the_matched_segments :
  forall prog root meth path ra act ps trail,
    routers prog root0 = Ok root ->
    handle root meth path = Serve ra act ps trail ->
    conforms trail (segs path) ps /\
    param_keys ps = pattern_names trail /\
    join [slash] (fill trail (map snd ps)) = join [slash] (segs path) /\
    forall k, aget (param_values [] ps) k =
      match find (fun kv => beq (fst kv) k) (rev ps) with Some kv => Some [snd kv] | None => None end.
Proof.
  intros prog root meth path ra act ps trail Hroot Hh.
  destruct (C01_served_action_was_declared _ _ _ _ _ _ _ _ Hroot Hh) as (d & _ & _ & Hc & Hp & _).
  rewrite Hp in Hc. split; [exact Hc|]. split; [apply (conforms_names _ _ _ Hc)|].
  split; [apply (conforms_fill _ _ _ Hc)|]. intros k. apply param_values_last.
Qed.
Example C06_example : exists ra, handle ex_root (bs "GET") (bs "/files/a/b.txt") =
  Serve ra (bs "Get") [(bs "rest", bs "a/b.txt")] [bs "files"; bs "*:rest"].
Proof. eexists. vm_compute. reflexivity. Qed.

(** ** C07 *)
Theorem C07_method_dispatch :
  forall prog root meth path x o,
    routers prog root0 = Ok root ->
    select_route root path = Some x -> ~ evicted prog (m_trail x) ->
    (to_upper meth = mHEAD -> undeclared prog (m_trail x) mHEAD -> undeclared prog (m_trail x) mGET) ->
    dispatch prog (m_trail x) (to_upper meth) o ->
    match o with
    | None => handle root meth path = NotFound
    | Some (d, a) => exists ra, handle root meth path = Serve ra a (m_params x) (m_trail x) /\
                       c_id (ra_ctl ra) = c_id (d_ctl d) /\ ra_filters ra = filter_order d
    end.
Proof.
  intros prog root meth path x o Hroot Hx He Hh Hd.
  destruct (select_sound prog root Hroot path x Hx) as (Hl & _ & _).
  pose proof (dispatch_served prog root Hroot _ _ _ _ Hl He Hd Hh) as Hs.
  unfold handle. rewrite Hx. unfold served in Hs.
  destruct (select_action (m_route x) (to_upper meth)) as [[ra act]|], o as [[d a]|]; try contradiction.
  - destruct Hs as [Hs ->]. exists ra. split; [reflexivity|].
    split; [apply (decl_action_spec _ _ Hs)|apply decl_filter_order; exact Hs].
  - reflexivity.
Qed.
Theorem C07_dispatch_total : forall prog pat m, exists o, dispatch prog pat m o.
Proof. exact dispatch_total. Qed.
Example C07_example : exists x d, select_route ex_root (bs "/user/list") = Some x /\
  dispatch ex_prog (m_trail x) (to_upper (bs "get")) (Some (d, bs "Get")) /\ c_id (d_ctl d) = 14.
Proof.
  eexists. exists (Decl [bs "user"; bs "list"] [Lv [1; 2] []; Lv [3; 1] []; Lv [] []] (mkctl 14 [(bs "Get", []); (bs "All", [])]) mALL []).
  split; [vm_compute; reflexivity|]. cbn [m_trail]. split; [|reflexivity].
  apply (di_all ex_prog _ (to_upper (bs "get"))).
  - left. apply undeclared_of. vm_compute. reflexivity.
  - apply latest_of. vm_compute. reflexivity.
  - right. exists []. reflexivity.
Qed.

(** ** C08 *)
(** Full claim: with a GET declaration and no HEAD declaration, HEAD is served
    like GET.  False when GET is declared twice: *)
Definition head_prog : list (list handler) :=
  [ [ HRouter (bs "/a") [HMethod (fn 1) mGET []] ]; [ HRouter (bs "/a") [HMethod (fn 2) mGET []] ] ].
Theorem C08_head_is_get_refuted :
  exists prog root path pat ra ra' act act' ps,
    routers prog root0 = Ok root /\ undeclared prog pat mHEAD /\
    handle root (bs "GET") path = Serve ra act ps pat /\ handle root (bs "HEAD") path = Serve ra' act' ps pat /\
    c_id (ra_ctl ra) = 2 /\ c_id (ra_ctl ra') = 1.
Proof.
  exists head_prog. eexists. exists (bs "/a"), [bs "a"]. do 5 eexists. split; [vm_compute; reflexivity|].
  split; [apply undeclared_of; vm_compute; reflexivity|].
  split; [vm_compute; reflexivity|]. split; [vm_compute; reflexivity|].
  split; reflexivity.
Qed.
(** With a single GET declaration for the pattern it holds. *)
Theorem C08_head_is_get_partial :
  forall prog root meth path x d,
    routers prog root0 = Ok root ->
    to_upper meth = mHEAD -> select_route root path = Some x -> ~ evicted prog (m_trail x) ->
    declared prog d -> d_pat d = m_trail x -> d_meth d = mGET ->
    (forall d', declared prog d' -> d_pat d' = m_trail x -> d_meth d' = mGET -> d' = d) ->
    undeclared prog (m_trail x) mHEAD ->
    exists ra, handle root meth path = Serve ra (stored_action d) (m_params x) (m_trail x) /\
      handle root mGET path = handle root meth path /\
      c_id (ra_ctl ra) = c_id (d_ctl d) /\ ra_filters ra = filter_order d.
Proof.
  intros prog root meth path x d Hroot Hm Hx He Hd Hp Hg Hu Hnh.
  destruct (select_sound prog root Hroot path x Hx) as (Hl & _ & _).
  assert (Hlat : latest prog (m_trail x) mGET d).
  { destruct (latest_or_undeclared prog (m_trail x) mGET) as [H|(d' & H)]; [exfalso; exact (H d Hd Hp Hg)|].
    assert (d' = d) as <-; [|exact H]. destruct H as (e1 & e2 & Hev & A & B & _).
    apply Hu; [unfold declared; rewrite Hev; apply in_elt|exact A|exact B]. }
  destruct (latest_some prog root Hroot _ _ _ Hlat) as (ra & Hra).
  pose proof (head_of_get prog root Hroot _ _ d ra Hl He Hd Hp Hg Hra Hu Hnh) as Hhead.
  apply ask_act in Hhead.
  pose proof (latest_entry prog root Hroot _ _ _ _ ra Hl He Hlat Hra) as Hget.
  change (decl_key mGET) with (QAct mGET) in Hget. apply ask_act in Hget.
  pose proof (decl_action_spec _ _ Hra) as (Hc & _ & Hact).
  exists ra. unfold handle. rewrite Hx, Hm. change (to_upper mGET) with mGET. unfold select_action.
  rewrite Hhead, Hget, Hact. split; [reflexivity|]. split; [reflexivity|].
  split; [apply Hc|apply decl_filter_order; exact Hra].
Qed.
Example C08_example : exists ra, handle ex_root (bs "head") (bs "/user/7") =
  Serve ra (bs "Get") [(bs "uid", bs "7")] [bs "user"; bs ":uid"] /\ c_id (ra_ctl ra) = 11.
Proof. eexists. vm_compute. split; reflexivity. Qed.

(** ** C09 *)
Theorem C09_filters_in_force :
  forall prog root meth path ra act ps trail,
    routers prog root0 = Ok root ->
    handle root meth path = Serve ra act ps trail ->
    exists d, declared prog d /\ d_pat d = trail /\ c_id (ra_ctl ra) = c_id (d_ctl d) /\ method_ok (to_upper meth) d /\
      (forall f, In f (ra_filters ra) <-> in_force (d_levels d) (d_opts d) f) /\
      NoDup (ra_filters ra) /\
      ra_filters ra = filter_order d.
Proof.
  intros prog root meth path ra act ps trail Hroot Hh. unfold handle in Hh.
  destruct (select_route root path) as [x|] eqn:Ex; [|discriminate].
  destruct (select_action (m_route x) (to_upper meth)) as [[ra' act']|] eqn:Ea; [|discriminate].
  injection Hh as -> -> <- <-.
  destruct (select_sound prog root Hroot path x Ex) as (Hl & _ & Hc).
  destruct (select_action_cases prog root _ _ _ _ _ Hroot Hl Ea) as (d & Hd & Hp & Hda & Hm & Hact).
  exists d. split; [exact Hd|]. split; [exact Hp|]. split; [apply (decl_action_spec _ _ Hda)|]. split; [exact Hm|].
  split; [intros f; apply decl_filters_in_force; exact Hda|].
  split; [eapply decl_filters_nodup; exact Hda|apply decl_filter_order; exact Hda].
Qed.
(** the run order: what a level inherits runs before what it adds itself *)
Theorem C09_outer_before_inner : forall inherited l, NoDup inherited ->
  run_order inherited [l] = without (lv_exempt l) inherited ++ without (lv_exempt l) (first_occ inherited (lv_add l)).
Proof.
  intros inh l Hn. cbn [run_order]. rewrite first_occ_nil_fappend by exact Hn.
  rewrite fappend_first_occ. unfold without. apply filter_app.
Qed.
Example C09_example : exists ra act ps trail, handle ex_root (bs "POST") (bs "/user/7/edit") = Serve ra act ps trail /\
  ra_filters ra = [1; 2].
Proof. do 4 eexists. vm_compute. split; reflexivity. Qed.

(** ** C11 *)
Theorem C11_param_names_agree :
  forall prog root front s s' n v n' v' x x',
    routers prog root0 = Ok root ->
    nowild front ->
    In (EEnd (front ++ s :: x)) (events prog) -> In (EEnd (front ++ s' :: x')) (events prog) ->
    parse_seg s = SParam n v -> parse_seg s' = SParam n' v' -> n = n'.
Proof.
  intros prog root front s s' n v n' v' x x' Hroot Hw H1 H2 P1 P2.
  destruct (table_order (events prog) front Hw) as (l & Hq & Hok).
  assert (Hin : In s l /\ In s' l).
  { split; apply (oo_mem _ _ _ Hok); split.
    - exists (front ++ s :: x), x. split; [exact H1|rewrite <- app_assoc; reflexivity].
    - destruct v; [right; exists n; exact P1|left; exists n, (a :: v); split; [exact P1|discriminate]].
    - exists (front ++ s' :: x'), x'. split; [exact H2|rewrite <- app_assoc; reflexivity].
    - destruct v'; [right; exists n'; exact P2|left; exists n', (a :: v'); split; [exact P2|discriminate]]. }
  rewrite <- (root_obs prog root Hroot) in Hq. unfold obs in Hq.
  destruct (lookup root front) as [nd|] eqn:El; [|cbn in Hq; injection Hq as <-; destruct Hin as [[] _]].
  injection Hq as <-. destruct Hin as [I1 I2]. unfold order in I1, I2.
  apply in_map_iff in I1 as (c1 & E1 & I1). apply in_map_iff in I2 as (c2 & E2 & I2).
  pose proof (root_wf prog root Hroot front nd El) as Hl.
  pose proof (lwf_names nd Hl c1 c2 I1 I2) as Hn.
  destruct (lwf_params nd Hl c1 I1) as (Q1 & _). destruct (lwf_params nd Hl c2 I2) as (Q2 & _).
  rewrite E1 in Q1. rewrite E2 in Q2. rewrite Q1, Q2 in Hn.
  apply parse_param_pp in P1 as (_ & _ & <-). apply parse_param_pp in P2 as (_ & _ & <-). exact Hn.
Qed.
Theorem C11_wildcard_names_agree :
  forall prog root front w w' n n',
    routers prog root0 = Ok root ->
    nowild front ->
    In (EEnd (front ++ [w])) (events prog) -> In (EEnd (front ++ [w'])) (events prog) ->
    parse_seg w = SWild n -> parse_seg w' = SWild n' -> n = n'.
Proof.
  intros prog root front w w' n n' Hroot Hw H1 H2 P1 P2.
  destruct (routers_rejects prog root0 root wf_root0 Hroot) as (_ & N & _).
  pose proof (N _ _ _ H1 Hw P1). pose proof (N _ _ _ H2 Hw P2). congruence.
Qed.
Theorem C11_wildcard_is_last :
  forall prog root p front w x,
    routers prog root0 = Ok root ->
    In p (flat_map (flat_map router_paths) prog) ->
    segs p = front ++ w :: x -> is_wild_seg w = true -> x = [].
Proof.
  intros prog root p front w x Hroot Hin Hs Hw.
  destruct (routers_rejects prog root0 root wf_root0 Hroot) as (_ & _ & L). eapply L; eauto.
Qed.
Example C11_example :
  In (EEnd ([bs "user"] ++ [bs ":uid"])) (events ex_prog) /\ In (EEnd ([bs "user"] ++ [bs ":uid:run"])) (events ex_prog) /\
  In (bs "/files/*:rest") (flat_map (flat_map router_paths) ex_prog) /\
  routers [[HRouter (bs "/a/:x") []; HRouter (bs "/a/:y") []]] root0 = Panic /\
  routers [[HRouter (bs "/a/*:x") []; HRouter (bs "/a/*:y") []]] root0 = Panic /\
  routers [[HRouter (bs "/a/*:x/b") []]] root0 = Panic.
Proof. repeat split; try (vm_compute; reflexivity); vm_compute; tauto. Qed.

(** ** C12 *)
(** Full claim: an accepted later declaration never unregisters an earlier
    pattern.  False for wildcards with the same name but another text: *)
Theorem C12_registration_monotone_refuted :
  exists prog more root root' path ra act ps trail,
    routers prog root0 = Ok root /\ routers (prog ++ more) root0 = Ok root' /\
    handle root (bs "GET") path = Serve ra act ps trail /\
    handle root' (bs "GET") path = NotFound.
Proof.
  exists [[HRouter (bs "*:s") [HMethod (fn 1) mGET []]]], [[HRouter (bs "*:s:v") []]].
  do 2 eexists. exists (bs "/x"). do 4 eexists.
  repeat (split; [vm_compute; reflexivity|]). vm_compute. reflexivity.
Qed.
(** For every pattern not replaced in that way, and every path without shadow,
    the later program still selects that pattern or one with priority over it,
    and if it is that pattern and the method was not declared again, it runs the
    same controller with the same filters. *)
Theorem C12_registration_monotone_partial :
  forall prog more root root' meth path d ps,
    routers prog root0 = Ok root -> routers (prog ++ more) root0 = Ok root' ->
    latest prog (d_pat d) (to_upper meth) d -> to_upper meth <> mALL -> to_upper meth <> mANY ->
    conforms (d_pat d) (segs path) ps ->
    ~ evicted (prog ++ more) (d_pat d) -> ~ shadows (prog ++ more) path ->
    exists x, select_route root' path = Some x /\ preferred (events (prog ++ more)) (m_trail x) (d_pat d) /\
      (m_trail x = d_pat d -> undeclared more (d_pat d) (to_upper meth) ->
       exists ra, handle root' meth path = Serve ra (stored_action d) (m_params x) (d_pat d) /\
         c_id (ra_ctl ra) = c_id (d_ctl d) /\ ra_filters ra = filter_order d).
Proof.
  intros prog more root root' meth path d ps Hroot Hroot' Hlat Ha Hn Hc He Hs.
  assert (Hev : events (prog ++ more) = events prog ++ events more) by (unfold events; apply flat_map_app).
  assert (Hd : declared (prog ++ more) d).
  { destruct Hlat as (e1 & e2 & E & _). unfold declared. rewrite Hev, E. apply in_app_iff. left. apply in_elt. }
  pose proof (decl_is_route _ _ Hd) as Hr.
  destruct (select_best _ root' Hroot' path (d_pat d) ps Hr He Hc Hs) as (x & Hx & Hp).
  exists x. split; [exact Hx|]. split; [exact Hp|]. intros Ht Hu.
  assert (Hlat' : latest (prog ++ more) (d_pat d) (to_upper meth) d).
  { destruct Hlat as (e1 & e2 & E & A & B & C). exists e1, (e2 ++ events more).
    split; [rewrite Hev, E, <- app_assoc; reflexivity|]. split; [exact A|]. split; [exact B|].
    intros d' Hin Hp'. apply in_app_iff in Hin as [Hin|Hin]; [apply C; assumption|]. apply Hu; assumption. }
  destruct (select_sound _ root' Hroot' path x Hx) as (Hl & _ & _). rewrite Ht in Hl.
  assert (Hhd : to_upper meth = mHEAD -> undeclared (prog ++ more) (d_pat d) mHEAD -> undeclared (prog ++ more) (d_pat d) mGET).
  { intros Hm Hu'. exfalso. destruct Hlat as (e1 & e2 & E & A & B & C). apply (Hu' d Hd); congruence. }
  pose proof (dispatch_served _ root' Hroot' _ _ _ _ Hl He (di_exact _ _ _ d Ha Hn Hlat') Hhd) as Hsv.
  unfold handle. rewrite Hx. unfold served in Hsv.
  destruct (select_action (m_route x) (to_upper meth)) as [[ra act]|]; [|contradiction].
  destruct Hsv as [Hsv ->]. exists ra. rewrite Ht. split; [reflexivity|].
  split; [apply (decl_action_spec _ _ Hsv)|apply decl_filter_order; exact Hsv].
Qed.
Example C12_example :
  let prog := firstn 1 ex_prog in let more := skipn 1 ex_prog in
  exists root d, routers prog root0 = Ok root /\
    latest prog (d_pat d) mGET d /\ conforms (d_pat d) (segs (bs "/user/9")) [(bs "uid", bs "9")] /\
    ~ evicted (prog ++ more) (d_pat d) /\ ~ shadows (prog ++ more) (bs "/user/9").
Proof.
  cbn [firstn skipn ex_prog]. eexists.
  exists (Decl [bs "user"; bs ":uid"] [Lv [1; 2] []; Lv [3; 1] []; Lv [] []] (fn 11) mGET [OFilter [7]]).
  split; [vm_compute; reflexivity|]. split; [apply latest_of; vm_compute; reflexivity|].
  split; [apply cf_static; [reflexivity|]; apply cf_param; [reflexivity|]; constructor|].
  split; [apply evicted_free; vm_compute; reflexivity|apply shadow_free_spec; vm_compute; reflexivity].
Qed.

(** ** C14 *)
(** RouteInfo.Path is "/" followed by the segments of the enclosing Router
    paths, joined by "/" *)
Theorem C14_route_info_path :
  forall prog root meth path ra act ps trail,
    routers prog root0 = Ok root ->
    handle root meth path = Serve ra act ps trail ->
    exists d, declared prog d /\ c_id (ra_ctl ra) = c_id (d_ctl d) /\ method_ok (to_upper meth) d /\
      calc_path trail = slash :: join [slash] (d_pat d).
Proof.
  intros prog root meth path ra act ps trail Hroot Hh.
  destruct (C01_served_action_was_declared _ _ _ _ _ _ _ _ Hroot Hh) as (d & Hd & Hi & _ & Hp & Hm & _).
  exists d. split; [exact Hd|]. split; [exact Hi|]. split; [exact Hm|]. rewrite Hp. clear.
  destruct trail as [|p trail]; [reflexivity|]. unfold calc_path.
  revert p; induction trail as [|q trail IH]; intros p.
  - cbn. rewrite app_nil_r. reflexivity.
  - rewrite join_cons. cbn [flat_map app] in *. rewrite <- (IH q). reflexivity.
Qed.
Example C14_example : calc_path [bs "user"; bs ":uid"; bs "edit"] = bs "/user/:uid/edit".
Proof. reflexivity. Qed.

Print Assumptions C01_served_action_was_declared.
Print Assumptions C02_static_routes_always_served.
Print Assumptions C03_not_found_complete_refuted.
Print Assumptions C03_not_found_complete_partial.
Print Assumptions C04_route_priority_partial.
Print Assumptions C04_priority_unique.
Print Assumptions C04_priority_refuted.
Print Assumptions C05_segments_clean.
Print Assumptions C05_normalisation.
Print Assumptions C06_params_are_the_matched_segments.
Print Assumptions C07_method_dispatch.
Print Assumptions C07_dispatch_total.
Print Assumptions C08_head_is_get_refuted.
Print Assumptions C08_head_is_get_partial.
Print Assumptions C09_filters_in_force.
Print Assumptions C09_outer_before_inner.
Print Assumptions C11_param_names_agree.
Print Assumptions C11_wildcard_names_agree.
Print Assumptions C11_wildcard_is_last.
Print Assumptions C12_registration_monotone_refuted.
Print Assumptions C12_registration_monotone_partial.
Print Assumptions C14_route_info_path.
