(** RouterConflict: what registration rejects. *)
From Coq Require Import List Ascii String Bool Arith Lia.
Import ListNotations.
From Verif Require Import GoStr GoPath GoTy RouterModel RouterSpec RouterTree RouterRefine RouterMatch RouterTable RouterFacts.

Definition nowild (t : list bytes) : Prop := Forall (fun s => is_wild_seg s = false) t.

(** the name of the wildcard child of the node at [front] *)
Definition wname (r : route) (front : list bytes) : option bytes :=
  match lookup r front with
  | Some n => match r_wild n with Some w => Some (pp_name (r_pp w)) | None => None end
  | None => None
  end.

Definition kw (r r' : route) : Prop :=
  forall front n, nowild front -> wname r front = Some n -> wname r' front = Some n.

Lemma kw_refl r : kw r r. Proof. intros f n _ H. exact H. Qed.
Lemma kw_trans a b c : kw a b -> kw b c -> kw a c.
Proof. intros H1 H2 f n Hf H. apply H2; [exact Hf|]. apply H1; assumption. Qed.

Lemma kw_ext r r' : r_params r' = r_params r -> r_static r' = r_static r -> r_wild r' = r_wild r -> kw r r'.
Proof.
  intros A B C front n _ H. destruct front as [|p front].
  - unfold wname in *. cbn [lookup] in *. rewrite C. exact H.
  - unfold wname in *. cbn [lookup] in *. rewrite (find_child_ext r r' p A B C). exact H.
Qed.

Lemma attach_wild r b rt r' : attach r b rt = Ok r' ->
  (forall w, r_wild r = Some w -> exists w', r_wild r' = Some w' /\ pp_name (r_pp w') = pp_name (r_pp w)) /\
  (pp_isParam (r_pp rt) = false -> pp_isWild (r_pp rt) = true -> r_wild r' = Some rt).
Proof.
  unfold attach. destruct (pp_isParam (r_pp rt)).
  - destruct (existsb _ _); [discriminate|]. intros [= <-]. cbn. split; [eauto|discriminate].
  - destruct (pp_isWild (r_pp rt)).
    + destruct (r_wild r) as [w|] eqn:E.
      * destruct (negb _) eqn:En; [discriminate|]. intros [= <-]. cbn. split; [|auto].
        intros w0 [= <-]. exists rt. split; [reflexivity|]. apply negb_false_iff in En.
        apply beq_true in En. congruence.
      * intros [= <-]. cbn. split; [discriminate|auto].
    + intros [= <-]. cbn. split; [eauto|discriminate].
Qed.

Definition kw_k (k : route -> res route) : Prop := forall x y, wf x -> k x = Ok y -> kw x y.

Lemma wild_pp w n : parse_seg w = SWild n -> pp_isWild (pp_set w) = true /\ pp_isParam (pp_set w) = false /\ pp_name (pp_set w) = n.
Proof.
  intros H. pose proof (parse_wild_pp _ _ H) as Hw. split; [exact Hw|].
  pose proof (isWild_parse _ Hw) as Hp. rewrite H in Hp. injection Hp as <-.
  split; [|reflexivity]. destruct (pp_isParam (pp_set w)) eqn:E; [|reflexivity].
  apply param_not_wild in E. congruence.
Qed.

Lemma walk_wild ps : forall k r r', ps <> [] -> good_k k -> kw_k k -> wf r -> walk ps k r = Ok r' ->
  kw r r' /\
  (forall front w n, ps = front ++ [w] -> nowild front -> parse_seg w = SWild n -> wname r' front = Some n) /\
  (forall front w x, ps = front ++ w :: x -> is_wild_seg w = true -> x = []) /\
  exists tgt tgt', k tgt = Ok tgt' /\ wf tgt /\ forall t, lookup r' (ps ++ t) = lookup tgt' t.
Proof.
  induction ps as [|p ps IH]; [congruence|]. intros k r r' _ Hk Hkw Hwf Hw.
  cbn [walk] in Hw.
  set (rt := match find_child r p with Some rt => rt | None => new_route (pp_set p) end) in *.
  assert (Hrt_pp : r_pp rt = pp_set p).
  { unfold rt. destruct (find_child r p) eqn:E; [|reflexivity].
    eapply find_child_pp; [apply wf_here; exact Hwf|exact E]. }
  assert (Hrt_wf : wf rt).
  { unfold rt. destruct (find_child r p) eqn:E; [eapply wf_child; eauto|apply wf_new]. }
  rewrite Hrt_pp in Hw.
  destruct (pp_isWild (pp_set p) && negb (is_nil ps)) eqn:Ewild; [discriminate|].
  apply bind_ok in Hw as (rt2 & Hb & Hw).
  change (match find_child r p with Some _ => false | None => true end) with (is_new r p) in Hw.
  assert (Hsub : wf rt2 /\ r_pp rt2 = pp_set p /\ (pp_isWild (pp_set p) = true -> r_end rt2 = true) /\ kw rt rt2 /\
     (forall front w n, ps = front ++ [w] -> nowild front -> parse_seg w = SWild n -> wname rt2 front = Some n) /\
     (forall front w x, ps = front ++ w :: x -> is_wild_seg w = true -> x = []) /\
     exists tgt tgt', k tgt = Ok tgt' /\ wf tgt /\ forall t, lookup rt2 (ps ++ t) = lookup tgt' t).
  { destruct ps as [|p2 ps2].
    - cbn [is_nil walk] in Hb. destruct (Hk _ _ (wf_end _ Hrt_wf) Hb) as (W & P & E).
      split; [exact W|]. split; [rewrite P; exact Hrt_pp|]. split; [intros _; apply E; reflexivity|].
      split; [eapply kw_trans; [apply (kw_ext rt (with_end rt)); reflexivity|exact (Hkw _ _ (wf_end _ Hrt_wf) Hb)]|].
      split; [intros front w n H; destruct front; discriminate|].
      split; [intros front w x H; destruct front; discriminate|].
      exists (with_end rt), rt2. split; [exact Hb|]. split; [apply wf_end; exact Hrt_wf|reflexivity].
    - cbn [is_nil negb] in Ewild, Hb. rewrite andb_true_r in Ewild.
      assert (Hne : p2 :: ps2 <> []) by discriminate.
      destruct (walk_spec _ _ _ _ Hne Hk Hrt_wf Hb) as (W & P & E & _).
      destruct (IH _ _ _ Hne Hk Hkw Hrt_wf Hb) as (A & B & C & D).
      split; [exact W|]. split; [rewrite P; exact Hrt_pp|]. split; [congruence|]. auto. }
  destruct Hsub as (W2 & P2 & E2 & K2 & N2 & L2 & tgt & tgt' & Hkt & Hwt & Hlk).
  destruct (attach_spec r p rt2 r' (wf_here _ Hwf) P2 E2 Hw) as (Hl' & _ & _ & _ & _ & _ & _ & Hfc).
  destruct (attach_wild _ _ _ _ Hw) as (HW1 & HW2). rewrite P2 in HW2.
  split; [|split; [|split]].
  - intros front n Hnw H. destruct front as [|q front].
    + unfold wname in *. cbn [lookup] in *. destruct (r_wild r) as [w|] eqn:E; [|discriminate].
      destruct (HW1 w eq_refl) as (w' & -> & ->). exact H.
    + inversion Hnw as [|? ? Hq Hnw']; subst. unfold wname in *. cbn [lookup] in *. rewrite Hfc.
      destruct (beq_spec p q) as [->|Hpq].
      * destruct (find_child r q) as [c|] eqn:Ec; [|discriminate]. apply K2; assumption.
      * rewrite is_wild_seg_pp in Hq. rewrite Hq, andb_false_r. exact H.
  - intros front w n Heq Hnw Hp. destruct front as [|q front]; cbn [app] in Heq.
    + injection Heq as -> ->. apply wild_pp in Hp as (H1 & H2 & <-).
      unfold wname. cbn [lookup]. rewrite (HW2 H2 H1), P2. reflexivity.
    + injection Heq as <- Heq. inversion Hnw; subst. unfold wname. cbn [lookup]. rewrite Hfc, beq_refl.
      exact (N2 _ _ _ eq_refl ltac:(assumption) Hp).
  - intros front w x Heq Hw'. destruct front as [|q front]; cbn [app] in Heq; injection Heq as -> Heq.
    + subst x. rewrite is_wild_seg_pp in Hw'. rewrite Hw' in Ewild. cbn [andb] in Ewild.
      apply negb_false_iff in Ewild. destruct ps; [reflexivity|discriminate].
    + eapply L2; eauto.
  - exists tgt, tgt'. split; [exact Hkt|]. split; [exact Hwt|]. intros t. cbn [app lookup]. rewrite Hfc, beq_refl. apply Hlk.
Qed.

Definition rejects_ok (h : handler) : Prop :=
  forall inh r r' lv, wf r -> config_handler h inh r = Ok r' ->
    kw r r' /\ wf r' /\
    (forall front w n, In (EEnd (front ++ [w])) (events_h lv [] h) -> nowild front -> parse_seg w = SWild n ->
       wname r' front = Some n) /\
    (forall p, In p (router_paths h) -> forall front w x, segs p = front ++ w :: x -> is_wild_seg w = true -> x = []).

Lemma events_h_end_indep h : forall lv lv' b, forall p, In (EEnd p) (events_h lv b h) -> In (EEnd p) (events_h lv' b h).
Proof.
  induction h as [s|s| |fs|fs|p hs IH|c m os] using handler_ind2; intros lv lv' b q; cbn [events_h]; try (intros []).
  destruct (segs p) as [|s0 ss]; [intros []|].
  intros [H|H]; [left; exact H|]. right. apply in_app_iff in H as [H|H].
  - exfalso. apply level_decls_pat in H as (d & H & _). discriminate.
  - apply in_app_iff. right. destruct H as [H|H]; [discriminate|]. right.
    apply in_flat_map in H as (h & Hh & H). apply in_flat_map. exists h. split; [exact Hh|].
    rewrite Forall_forall in IH. eapply IH; eauto.
Qed.

Lemma list_rejects lv hs : Forall rejects_ok hs -> forall inh r r', wf r -> config_list inh hs r = Ok r' ->
  kw r r' /\ wf r' /\
  (forall front w n, In (EEnd (front ++ [w])) (flat_map (events_h lv []) hs) -> nowild front -> parse_seg w = SWild n ->
     wname r' front = Some n) /\
  (forall p, In p (flat_map router_paths hs) -> forall front w x, segs p = front ++ w :: x -> is_wild_seg w = true -> x = []).
Proof.
  induction 1 as [|h hs Hh _ IH]; intros inh r r' Hwf Hc; cbn [config_list] in Hc.
  - injection Hc as <-. split; [apply kw_refl|]. split; [exact Hwf|]. split; intros; contradiction.
  - apply bind_ok in Hc as (r1 & H1 & Hc).
    destruct (Hh _ _ _ lv Hwf H1) as (K1 & W1 & N1 & L1).
    destruct (IH _ _ _ W1 Hc) as (K2 & W2 & N2 & L2).
    split; [eapply kw_trans; eauto|]. split; [exact W2|]. cbn [flat_map]. split.
    + intros front w n Hin Hnw Hp. apply in_app_iff in Hin as [Hin|Hin]; [|eapply N2; eauto].
      apply K2; [exact Hnw|]. eapply N1; eauto.
    + intros p Hin. apply in_app_iff in Hin as [Hin|Hin]; [apply L1|apply L2]; exact Hin.
Qed.

Lemma methods_loop_shape fs hs : forall r a n r2 al an, methods_loop fs hs r a n = Ok (r2, al, an) -> same_shape r r2.
Proof.
  induction hs as [|h hs IH]; intros r a0 n0 r2 al an; cbn [methods_loop].
  - intros [= -> _ _]. apply same_shape_refl.
  - destruct h; try (intros H; eapply IH; exact H).
    intros H. apply bind_ok in H as (a & Ha & H).
    destruct (is_all m); [eapply IH; exact H|]. destruct (is_any m); [eapply IH; exact H|].
    apply bind_ok in H as (ra & Hra & H). apply IH in H.
    eapply same_shape_trans; [|exact H]. repeat split.
Qed.

(** declaring methods never changes the children *)
Lemma config_methods_shape fs hs r r1 : config_methods fs hs r = Ok r1 -> same_shape r r1.
Proof.
  unfold config_methods. intros H1. apply bind_ok in H1 as ([[r2 al] an] & H2 & H1).
  apply methods_loop_shape in H2. destruct (head_default_shape r2) as (Hh & _).
  apply bind_ok in H1 as (r3 & H3 & H1).
  assert (S3 : same_shape (head_default r2) r3).
  { destruct al as [[m a]|]; [apply bind_ok in H3 as (ra & _ & H3)|]; injection H3 as <-; repeat split. }
  assert (S4 : same_shape r3 r1).
  { destruct an as [[m a]|]; [apply bind_ok in H1 as (ra & _ & H1)|]; injection H1 as <-; repeat split. }
  eapply same_shape_trans; [exact H2|]. eapply same_shape_trans; [exact Hh|].
  eapply same_shape_trans; [exact S3|exact S4].
Qed.

Lemma level_rejects lv inh hs : Forall rejects_ok hs -> forall r r', wf r -> config_level inh hs r = Ok r' ->
  kw r r' /\ wf r' /\
  (forall front w n, In (EEnd (front ++ [w])) (flat_map (events_h lv []) hs) -> nowild front -> parse_seg w = SWild n ->
     wname r' front = Some n) /\
  (forall p, In p (flat_map router_paths hs) -> forall front w x, segs p = front ++ w :: x -> is_wild_seg w = true -> x = []).
Proof.
  intros HF r r' Hwf Hc. unfold config_level in Hc. apply bind_ok in Hc as (r1 & H1 & Hc).
  assert (HS : same_shape r r1).
  { eapply config_methods_shape. exact H1. }
  assert (HK : kw r r1 /\ wf r1).
  { destruct HS as (S1 & S2 & S3 & S4 & S5). split; [apply kw_ext; congruence|eapply wf_ext; [..|exact Hwf]; congruence]. }
  destruct HK as (K1 & W1).
  destruct (list_rejects lv _ HF _ _ _ W1 Hc) as (K2 & W2 & N2 & L2).
  split; [eapply kw_trans; eauto|]. auto.
Qed.

Lemma handler_rejects h : rejects_ok h.
Proof.
  induction h as [s|s| |fs|fs|p hs IH|c m os] using handler_ind2; intros inh r r' lv Hwf Hc;
    try (injection Hc as <-; split; [apply kw_refl|]; split; [exact Hwf|]; split; intros; contradiction).
  rewrite config_handler_router in Hc. rewrite split_route_path_segs in Hc.
  pose proof (segs_nonempty p) as Hne.
  cbn [router_paths].
  destruct (segs p) as [|s0 ss] eqn:Es.
  { cbn [is_nil] in Hc. injection Hc as <-. cbn [events_h]. rewrite Es.
    split; [apply kw_refl|]. split; [exact Hwf|]. split; intros; contradiction. }
  inversion Hne as [|? ? Hs0 _]; subst.
  destruct s0 as [|c0 s0]; [congruence|]. cbn [is_nil] in Hc.
  rewrite <- Es in Hc.
  assert (Hsegs : segs p <> []) by (rewrite Es; discriminate).
  assert (Hk : good_k (config_level inh hs)).
  { intros x y Hx Hy. destruct (level_rejects [] inh hs IH _ _ Hx Hy) as (_ & W & _).
    split; [exact W|].
    assert (Hpe : forall fs hs' x y, config_list fs hs' x = Ok y -> r_pp y = r_pp x /\ (r_end y = r_end x)).
    { intros fs hs'. induction hs' as [|h hs' IHl]; intros x0 y0 H0; cbn [config_list] in H0.
      - injection H0 as <-. auto.
      - apply bind_ok in H0 as (z & Hz & H0). apply IHl in H0 as (-> & ->).
        destruct h; try (injection Hz as <-; auto).
        rewrite config_handler_router in Hz. destruct (split_route_path path) as [|q qs]; [discriminate|].
        destruct (is_nil q); [injection Hz as <-; auto|].
        cbn [walk] in Hz. destruct (_ && _); [discriminate|]. apply bind_ok in Hz as (w & _ & Hz).
        unfold attach in Hz. destruct (pp_isParam _).
        + destruct (existsb _ _); [discriminate|]. injection Hz as <-. auto.
        + destruct (pp_isWild _).
          * destruct (match r_wild x0 with Some _ => _ | None => _ end); [discriminate|]. injection Hz as <-. auto.
          * injection Hz as <-. auto. }
    unfold config_level in Hy. apply bind_ok in Hy as (z & Hz & Hy).
    apply Hpe in Hy as (-> & ->). apply config_methods_shape in Hz.
    unfold same_shape in Hz. intuition congruence. }
  assert (Hkw : kw_k (config_level inh hs)).
  { intros x y Hx Hy. destruct (level_rejects [] inh hs IH _ _ Hx Hy) as (K & _). exact K. }
  destruct (walk_spec _ _ _ _ Hsegs Hk Hwf Hc) as (W & _).
  destruct (walk_wild _ _ _ _ Hsegs Hk Hkw Hwf Hc) as (K & N & L & tgt & tgt' & Hkt & Hwt & Hlk).
  destruct (level_rejects (lv ++ [level_of hs]) inh hs IH _ _ Hwt Hkt) as (_ & _ & N2 & L2).
  split; [exact K|]. split; [exact W|]. split.
  - intros front w n Hin Hnw Hp. rewrite events_h_router in Hin by exact Hsegs.
    destruct Hin as [Hin|Hin].
    + injection Hin as Hin. eapply N; eauto.
    + apply in_map_iff in Hin as (e & He & Hin). destruct e as [y|d|y]; cbn [shift_event] in He; try discriminate.
      injection He as He. unfold level_events in Hin. apply in_app_iff in Hin as [Hin|[Hin|Hin]].
      * apply level_decls_pat in Hin as (d & Hin & _). discriminate.
      * discriminate.
      * assert (Hy : y <> []).
        { apply in_flat_map in Hin as (h & _ & Hin). apply events_h_end_nonempty in Hin as (z & Hz & ->). exact Hz. }
        destruct y as [|w0 y0] using rev_ind; [congruence|]. rewrite app_assoc in He.
        apply app_inj_tail in He as [<- ->]. unfold wname. rewrite Hlk.
        apply Forall_app in Hnw as [_ Hnw]. exact (N2 _ _ _ Hin Hnw Hp).
  - intros q [<-|Hin] front w x Hq Hw.
    + eapply L; eauto.
    + eapply L2; eauto.
Qed.

Lemma routers_rejects prog : forall r r', wf r -> routers prog r = Ok r' ->
  kw r r' /\
  (forall front w n, In (EEnd (front ++ [w])) (events prog) -> nowild front -> parse_seg w = SWild n ->
     wname r' front = Some n) /\
  (forall p, In p (flat_map (flat_map router_paths) prog) ->
     forall front w x, segs p = front ++ w :: x -> is_wild_seg w = true -> x = []).
Proof.
  induction prog as [|hs prog IH]; intros r r' Hwf H; cbn [routers] in H.
  - injection H as <-. split; [apply kw_refl|]. split; intros; contradiction.
  - apply bind_ok in H as (r1 & H1 & H).
    assert (HF : Forall rejects_ok hs) by (apply Forall_forall; intros h _; apply handler_rejects).
    destruct (level_rejects [level_of hs] [] hs HF _ _ Hwf H1) as (K1 & W1 & N1 & L1).
    destruct (IH _ _ W1 H) as (K2 & N2 & L2).
    split; [eapply kw_trans; eauto|]. split.
    + intros front w n Hin Hnw Hp. unfold events in Hin. cbn [flat_map] in Hin.
      apply in_app_iff in Hin as [Hin|Hin]; [|eapply N2; eauto].
      unfold events_call in Hin. apply in_app_iff in Hin as [Hin|[Hin|Hin]].
      * apply level_decls_pat in Hin as (d & Hin & _). discriminate.
      * discriminate.
      * apply K2; [exact Hnw|]. eapply N1; eauto.
    + intros p Hin. cbn [flat_map] in Hin. apply in_app_iff in Hin as [Hin|Hin]; [apply L1|apply L2]; exact Hin.
Qed.
