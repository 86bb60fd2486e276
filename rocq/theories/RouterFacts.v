(** RouterFacts: facts about single declarations (controller, filters, action
    name), the param bindings and path normalisation. *)
From Coq Require Import List Ascii String Bool Arith Lia.
Import ListNotations.
From Verif Require Import GoStr GoPath GoTy RouterModel RouterSpec RouterTree RouterRefine RouterMatch RouterTable.

(** ** The routerAction of one declaration *)
Lemma ensure_action_keep c a c' : ensure_action c a = Ok c' ->
  c_id c' = c_id c /\ c_kind c' = c_kind c /\ c_methods c' = c_methods c.
Proof.
  unfold ensure_action. destruct (c_kind c) eqn:Ek.
  - destruct (is_nil a); [|discriminate]. intros [= <-]. auto.
  - destruct (is_nil a); [|discriminate]. intros [= <-]. auto.
  - destruct (aget (c_methods c) a); [|discriminate]. intros [= <-]. cbn. auto.
Qed.

Definition same_ctl (c' c : ctl) : Prop :=
  c_id c' = c_id c /\ c_kind c' = c_kind c /\ c_methods c' = c_methods c.
Lemma same_ctl_refl c : same_ctl c c.
Proof. repeat split. Qed.
Lemma same_ctl_trans a b c : same_ctl a b -> same_ctl b c -> same_ctl a c.
Proof. intros (?&?&?) (?&?&?). repeat split; congruence. Qed.

Lemma calc_opts_spec os : forall a a', calc_opts a os = Ok a' ->
  same_ctl (ma_ctl a') (ma_ctl a) /\
  ma_action a' = opt_action (ma_action a) os /\
  ma_filters a' = fappend (ma_filters a) (opt_adds os) /\
  ma_exempts a' = fappend (ma_exempts a) (opt_exempts os).
Proof.
  induction os as [|o os IH]; intros a a' H; cbn [calc_opts] in H.
  - injection H as <-. split; [apply same_ctl_refl|]. auto.
  - destruct o as [n|fs|fs].
    + apply bind_ok in H as (c & Hc & H). apply ensure_action_keep in Hc.
      apply IH in H as (H1 & H2 & H3 & H4). cbn in *. split; [eapply same_ctl_trans; eauto|]. auto.
    + apply IH in H as (H1 & H2 & H3 & H4). cbn [ma_ctl ma_action ma_filters ma_exempts opt_adds opt_exempts opt_action flat_map] in *.
      split; [exact H1|]. split; [exact H2|]. split; [rewrite H3, fappend_app; reflexivity|exact H4].
    + apply IH in H as (H1 & H2 & H3 & H4). cbn [ma_ctl ma_action ma_filters ma_exempts opt_adds opt_exempts opt_action flat_map] in *.
      split; [exact H1|]. split; [exact H2|]. split; [exact H3|rewrite H4, fappend_app; reflexivity].
Qed.

Lemma calc_method_spec c m os a : calc_method c m os = Ok a ->
  same_ctl (ma_ctl a) c /\ ma_action a = opt_action [] os /\
  ma_filters a = fappend [] (opt_adds os) /\ ma_exempts a = fappend [] (opt_exempts os).
Proof.
  unfold calc_method. intros H. apply bind_ok in H as (b & Hb & H).
  apply calc_opts_spec in Hb as (H1 & H2 & H3 & H4). cbn in H1, H2, H3, H4.
  destruct (_ && _) in H.
  - apply bind_ok in H as (c' & Hc & [= <-]). cbn. apply ensure_action_keep in Hc.
    split; [eapply same_ctl_trans; eauto|]. auto.
  - injection H as <-. auto.
Qed.

Lemma same_func c' c : same_ctl c' c -> is_func c' = is_func c.
Proof. intros (_ & H & _). unfold is_func. rewrite H. reflexivity. Qed.
Lemma same_exists c' c a : same_ctl c' c -> action_exists c' a = action_exists c a.
Proof. intros (_ & _ & H). unfold action_exists. rewrite H. reflexivity. Qed.

Lemma fold_stored (f : bool) (a x : bytes) :
  (if is_nil a && negb f then x else a) = (if negb (is_nil a) then a else if f then [] else x).
Proof. destruct a, f; reflexivity. Qed.

Lemma decl_action_spec d ra : decl_action d = Some ra ->
  same_ctl (ra_ctl ra) (d_ctl d) /\
  ra_filters ra = fremove (fappend (eff (d_levels d)) (opt_adds (d_opts d))) (fappend [] (opt_exempts (d_opts d))) /\
  ra_action ra = stored_action d.
Proof.
  unfold decl_action, mk_raction. destruct (bind _ _) as [r|] eqn:H; [|discriminate]. intros [= <-].
  apply bind_ok in H as (a & Ha & H). apply calc_method_spec in Ha as (Hc & Hn & Hf & He).
  assert (HF : fremove (fappend (eff (d_levels d)) (ma_filters a)) (ma_exempts a) =
     fremove (fappend (eff (d_levels d)) (opt_adds (d_opts d))) (fappend [] (opt_exempts (d_opts d)))).
  { rewrite Hf, He, fappend_acc. reflexivity. }
  unfold finish in H. cbv zeta in H.
  unfold stored_action. rewrite <- Hn.
  assert (Hif : is_func (ma_ctl a) = is_func (d_ctl d)) by (apply same_func; exact Hc).
  destruct (is_all (d_meth d)) eqn:Eall; [|destruct (is_any (d_meth d)) eqn:Eany].
  - apply bind_ok in H as (c' & Hc' & [= <-]). cbn [ra_ctl ra_filters ra_action]. split; [|split; [exact HF|]].
    + destruct (is_nil _) in Hc'; [injection Hc' as <-; exact Hc|].
      eapply same_ctl_trans; [apply ensure_action_keep in Hc'; exact Hc'|exact Hc].
    + rewrite Hif. destruct (ma_action a); cbn [is_nil negb andb]; [|reflexivity].
      destruct (is_func (d_ctl d)); cbn [negb andb]; [reflexivity|]. rewrite (same_exists _ _ _ Hc). reflexivity.
  - apply bind_ok in H as (c' & Hc' & [= <-]). cbn [ra_ctl ra_filters ra_action]. split; [|split; [exact HF|]].
    + destruct (is_nil _) in Hc'; [injection Hc' as <-; exact Hc|].
      eapply same_ctl_trans; [apply ensure_action_keep in Hc'; exact Hc'|exact Hc].
    + rewrite Hif. apply fold_stored.
  - injection H as <-. cbn [ra_ctl ra_filters ra_action]. split; [exact Hc|]. split; [exact HF|].
    destruct (ma_action a); reflexivity.
Qed.

Lemma decl_filters_in_force d ra f : decl_action d = Some ra ->
  (In f (ra_filters ra) <-> in_force (d_levels d) (d_opts d) f).
Proof.
  intros H. apply decl_action_spec in H as (_ & -> & _).
  rewrite fremove_In, fappend_In, fappend_In, eff_In. unfold in_force. cbn [In]. tauto.
Qed.

Lemma decl_filters_nodup d ra : decl_action d = Some ra -> NoDup (ra_filters ra).
Proof.
  intros H. apply decl_action_spec in H as (_ & -> & _). apply fremove_NoDup, fappend_NoDup, eff_NoDup.
Qed.

(** ** Order of filters *)
Lemma first_occ_ext l : forall s s', (forall x, In x s <-> In x s') -> first_occ s l = first_occ s' l.
Proof.
  induction l as [|f l IH]; intros s s' H; cbn [first_occ]; [reflexivity|].
  destruct (in_dec Nat.eq_dec f s) as [H1|H1], (in_dec Nat.eq_dec f s') as [H2|H2].
  - apply IH. exact H.
  - exfalso. apply H2, H, H1.
  - exfalso. apply H1, H, H2.
  - f_equal. apply IH. intros x. cbn. rewrite H. tauto.
Qed.

Lemma fappend_first_occ vs : forall h, fappend h vs = h ++ first_occ h vs.
Proof.
  induction vs as [|f vs IH]; intros h; cbn [fappend first_occ]; [rewrite app_nil_r; reflexivity|].
  destruct (fmem f h) eqn:E.
  - apply fmem_In in E. rewrite IH. destruct (in_dec Nat.eq_dec f h); [reflexivity|contradiction].
  - apply fmem_notIn in E. rewrite IH, <- app_assoc. destruct (in_dec Nat.eq_dec f h); [contradiction|].
    cbn [app]. do 2 f_equal. apply first_occ_ext. intros x. rewrite in_app_iff. cbn. tauto.
Qed.

Lemma without_fremove ex l : without ex l = fremove l ex.
Proof.
  unfold without, fremove. apply filter_ext. intros f. destruct (in_dec Nat.eq_dec f ex) as [H|H].
  - apply fmem_In in H. rewrite H. reflexivity.
  - apply fmem_notIn in H. rewrite H. reflexivity.
Qed.

Lemma fremove_ext h v v' : (forall x, In x v <-> In x v') -> fremove h v = fremove h v'.
Proof.
  intros H. unfold fremove. apply filter_ext. intros f. f_equal.
  destruct (fmem f v) eqn:E1, (fmem f v') eqn:E2; try reflexivity.
  - apply fmem_In in E1. apply fmem_notIn in E2. exfalso. apply E2, H, E1.
  - apply fmem_notIn in E1. apply fmem_In in E2. exfalso. apply E1, H, E2.
Qed.

Lemma first_occ_nil_fappend h v : NoDup h -> first_occ [] (h ++ v) = fappend h v.
Proof.
  intros Hn. rewrite fappend_first_occ.
  assert (G : forall s, (forall x, In x h -> ~ In x s) -> first_occ s (h ++ v) = h ++ first_occ (rev h ++ s) v).
  { induction Hn as [|x h Hx Hn IH]; intros s Hs; [reflexivity|]. cbn [app first_occ].
    destruct (in_dec Nat.eq_dec x s) as [H|H]; [exfalso; apply (Hs x); [left; reflexivity|exact H]|].
    f_equal. rewrite IH.
    - f_equal. apply first_occ_ext. intros y. cbn [rev]. rewrite !in_app_iff. cbn. tauto.
    - intros y Hy [->|Hin]; [contradiction|]. apply (Hs y); [right; exact Hy|exact Hin]. }
  rewrite G by (intros x _ []). f_equal. apply first_occ_ext. intros y. rewrite app_nil_r. symmetry. apply in_rev.
Qed.

Lemma run_order_eff lvls : forall inh, NoDup inh -> run_order inh lvls = fold_left eff_step lvls inh.
Proof.
  induction lvls as [|l lvls IH]; intros inh Hn; cbn [run_order fold_left]; [reflexivity|].
  assert (E : without (lv_exempt l) (first_occ [] (inh ++ lv_add l)) = eff_step inh l).
  { rewrite without_fremove, first_occ_nil_fappend by exact Hn. unfold eff_step. rewrite fappend_acc.
    apply fremove_ext. intros x. rewrite fappend_In. cbn. tauto. }
  rewrite E. apply IH. unfold eff_step. apply fremove_NoDup, fappend_NoDup. exact Hn.
Qed.

Lemma decl_filter_order d ra : decl_action d = Some ra -> ra_filters ra = filter_order d.
Proof.
  intros H. apply decl_action_spec in H as (_ & -> & _). unfold filter_order.
  rewrite run_order_eff by constructor. fold (eff (d_levels d ++ [Lv (opt_adds (d_opts d)) (opt_exempts (d_opts d))])).
  rewrite eff_snoc. unfold eff_step. cbn [lv_add lv_exempt]. rewrite fappend_acc. reflexivity.
Qed.

(** a declaration sits on a declared route *)
Lemma decl_h_end h : forall lv pat d, In (EDecl d) (events_h lv pat h) -> In (EEnd (d_pat d)) (events_h lv pat h).
Proof.
  induction h as [s|s| |fs|fs|p hs IH|c m os] using handler_ind2; intros lv pat d; cbn [events_h]; try (intros []).
  destruct (segs p) as [|s0 ss]; [intros []|].
  intros [H|H]; [discriminate|]. apply in_app_iff in H as [H|[H|H]].
  - apply level_decls_pat in H as (d' & [= <-] & ->). left. reflexivity.
  - discriminate.
  - right. apply in_app_iff. right. right. apply in_flat_map in H as (h & Hh & H). apply in_flat_map. exists h.
    split; [exact Hh|]. rewrite Forall_forall in IH. apply IH; assumption.
Qed.

Lemma decl_is_route prog d : declared prog d -> route_pattern prog (d_pat d).
Proof.
  unfold declared, events. intros H. apply in_flat_map in H as (hs & Hhs & H). unfold events_call in H.
  apply in_app_iff in H as [H|[H|H]].
  - apply level_decls_pat in H as (d' & [= <-] & ->). left. reflexivity.
  - discriminate.
  - right. apply in_flat_map. exists hs. split; [exact Hhs|]. unfold events_call. apply in_app_iff. right. right.
    apply in_flat_map in H as (h & Hh & H). apply in_flat_map. exists h. split; [exact Hh|]. apply decl_h_end. exact H.
Qed.

(** ** Parameters *)

Lemma conforms_names pat path pv : conforms pat path pv -> map fst pv = pattern_names pat.
Proof.
  intros H; induction H; unfold pattern_names, seg_names in *; cbn [flat_map map fst]; rewrite ?H;
    cbn [app]; try congruence; rewrite ?IHconforms; reflexivity.
Qed.

Lemma conforms_fill pat path pv : conforms pat path pv -> join [slash] (fill pat (map snd pv)) = join [slash] path.
Proof.
  intros H.
  assert (G : fill pat (map snd pv) = [] <-> path = []).
  { destruct H; cbn [fill map snd]; rewrite ?H; split; intros E; try discriminate; try reflexivity; contradiction. }
  revert G.
  induction H; intros G; cbn [fill map snd] in *; rewrite ?H in *; try reflexivity.
  - assert (G' : fill pat (map snd ps) = [] <-> path = []).
    { destruct H0; cbn [fill map snd]; rewrite ?H0; split; intros E; try discriminate; try reflexivity; contradiction. }
    specialize (IHconforms G'). destruct (fill pat (map snd ps)), path; try (exfalso; destruct G' as [A B]; (discriminate (A eq_refl) || discriminate (B eq_refl))).
    + reflexivity.
    + rewrite !join_cons, IHconforms. reflexivity.
  - assert (G' : fill pat (map snd ps) = [] <-> path = []).
    { destruct H0; cbn [fill map snd]; rewrite ?H0; split; intros E; try discriminate; try reflexivity; contradiction. }
    specialize (IHconforms G'). rewrite app_nil_r. destruct (fill pat (map snd ps)), path; try (exfalso; destruct G' as [A B]; (discriminate (A eq_refl) || discriminate (B eq_refl))).
    + reflexivity.
    + rewrite !join_cons, IHconforms. reflexivity.
  - assert (G' : fill pat (map snd ps) = [] <-> path = []).
    { destruct H1; cbn [fill map snd]; rewrite ?H1; split; intros E; try discriminate; try reflexivity; contradiction. }
    specialize (IHconforms G'). destruct (fill pat (map snd ps)), path; try (exfalso; destruct G' as [A B]; (discriminate (A eq_refl) || discriminate (B eq_refl))).
    + reflexivity.
    + rewrite !join_cons, IHconforms. reflexivity.
Qed.

Lemma find_app {A} (f : A -> bool) l l' :
  find f (l ++ l') = match find f l with Some x => Some x | None => find f l' end.
Proof. induction l as [|a l IH]; cbn [app find]; [reflexivity|]. destruct (f a); [reflexivity|exact IH]. Qed.

(** RouteInfo.Values: the last binding of a name *)
Lemma param_values_last ps : forall acc k,
  aget (param_values acc ps) k =
  match find (fun kv => beq (fst kv) k) (rev ps) with Some kv => Some [snd kv] | None => aget acc k end.
Proof.
  induction ps as [|[k0 v0] ps IH]; intros acc k; cbn [param_values rev]; [reflexivity|].
  rewrite IH, find_app. cbn [find fst snd].
  destruct (find _ (rev ps)) as [kv|]; [reflexivity|].
  destruct (beq_spec k0 k) as [->|Hn]; [apply aget_aset_same|apply aget_aset_other; exact Hn].
Qed.

(** ** Path normalisation *)
Lemma has_prefix_app_out pat : forall a g r, ~ In g pat -> has_prefix (a ++ g :: r) pat = has_prefix a pat.
Proof.
  induction pat as [|c pat IH]; intros a g r Hp; [reflexivity|].
  destruct a as [|x a]; cbn [app has_prefix].
  - destruct (Ascii.eqb_spec c g); [exfalso; apply Hp; left; assumption|reflexivity].
  - rewrite IH; [reflexivity|]. intros H. apply Hp. right. exact H.
Qed.

(** [g] occurs in no pattern and patterns are not empty *)
Definition outside (pats : list bytes) (g : ascii) : Prop := Forall (fun p => p <> [] /\ ~ In g p) pats.

Lemma outside_dec pats g :
  forallb (fun p => negb (is_nil p) && negb (existsb (Ascii.eqb g) p)) pats = true -> outside pats g.
Proof.
  intros H. rewrite forallb_forall in H. apply Forall_forall. intros p Hp. specialize (H p Hp).
  apply andb_true_iff in H as [H1 H2]. split; [destruct p; [discriminate|discriminate]|].
  intros Hin. apply negb_true_iff in H2.
  assert (existsb (Ascii.eqb g) p = true) by (apply existsb_exists; exists g; split; [exact Hin|apply Ascii.eqb_refl]).
  congruence.
Qed.

Lemma find_prefix_out pats : forall a g r, outside pats g ->
  find (has_prefix (a ++ g :: r)) pats = find (has_prefix a) pats.
Proof.
  intros a g r H. induction H as [|p pats [_ Hp] _ IH]; [reflexivity|]. cbn [find].
  rewrite has_prefix_app_out by exact Hp. rewrite IH. reflexivity.
Qed.

Lemma ltrim_step_out pats a g r : outside pats g -> a <> [] ->
  ltrim_step pats (a ++ g :: r) = match ltrim_step pats a with Some s => Some (s ++ g :: r) | None => None end.
Proof.
  intros Ho Ha. destruct a as [|x a]; [congruence|]. cbn [app ltrim_step].
  destruct (is_space x); [reflexivity|].
  change (x :: (a ++ g :: r)) with ((x :: a) ++ g :: r). rewrite find_prefix_out by exact Ho.
  destruct (find (has_prefix (x :: a)) pats) as [p|] eqn:E; [|reflexivity].
  apply find_some in E as [_ E]. apply has_prefix_spec in E as (t & E). rewrite E, <- app_assoc, !skipn_app_len. reflexivity.
Qed.

Lemma ltrim_step_shorter pats g a s : outside pats g -> ltrim_step pats a = Some s -> List.length s < List.length a.
Proof.
  intros Ho. destruct a as [|x a]; [discriminate|]. cbn [ltrim_step]. destruct (is_space x).
  - intros [= <-]. cbn. lia.
  - destruct (find _ pats) as [p|] eqn:E; [|discriminate]. intros [= <-]. apply find_some in E as [Hin E].
    unfold outside in Ho. rewrite Forall_forall in Ho. destruct (Ho p Hin) as [Hp _].
    apply has_prefix_spec in E as (t & E). rewrite E, skipn_app_len, app_length.
    destruct p; [congruence|]. cbn. lia.
Qed.

(** enough fuel is enough *)
Lemma ltrim_fuel_enough pats g : outside pats g -> forall n m a, List.length a <= n -> List.length a <= m ->
  ltrim_fuel pats n a = ltrim_fuel pats m a.
Proof.
  intros Ho. induction n as [|n IH]; intros m a Hn Hm.
  - destruct a; [|cbn in Hn; lia]. destruct m; reflexivity.
  - destruct m as [|m]; [destruct a; [reflexivity|cbn in Hm; lia]|]. cbn [ltrim_fuel].
    destruct (ltrim_step pats a) as [s|] eqn:E; [|reflexivity].
    apply (ltrim_step_shorter _ _ _ _ Ho) in E. apply IH; lia.
Qed.

Lemma ltrim_graphic_stop pats n g r : outside pats g -> graphic g = true -> uspace_free pats ->
  ltrim_fuel pats n (g :: r) = g :: r.
Proof. intros _ Hg Hu. apply ltrim_graphic; assumption. Qed.

Lemma ltrim_frame pats g r : outside pats g -> uspace_free pats -> graphic g = true ->
  forall n a, List.length a <= n -> ltrim_fuel pats n (a ++ g :: r) = ltrim_fuel pats (List.length a) a ++ g :: r.
Proof.
  intros Ho Hu Hg. induction n as [|n IH]; intros a Hn.
  - destruct a; [reflexivity|cbn in Hn; lia].
  - destruct a as [|x a].
    + cbn [app List.length]. rewrite (ltrim_graphic pats (S n) g r Hu Hg). reflexivity.
    + rewrite (ltrim_fuel_enough pats g Ho (List.length (x :: a)) (S n)) by lia.
      cbn [ltrim_fuel]. rewrite ltrim_step_out by (assumption || discriminate).
      destruct (ltrim_step pats (x :: a)) as [s|] eqn:E; [|reflexivity].
      apply (ltrim_step_shorter _ _ _ _ Ho) in E. rewrite IH by lia. f_equal.
      apply (ltrim_fuel_enough _ _ Ho); lia.
Qed.

Lemma outside_slash : outside uspaces slash.
Proof. apply outside_dec. vm_compute. reflexivity. Qed.
Lemma outside_rev_slash : outside (map (@rev ascii) uspaces) slash.
Proof. apply outside_dec. vm_compute. reflexivity. Qed.

Lemma trim_left_frame a b : trim_left_space (a ++ slash :: b) = trim_left_space a ++ slash :: b.
Proof.
  unfold trim_left_space. apply ltrim_frame; [apply outside_slash|apply uspaces_free|reflexivity|].
  rewrite app_length. lia.
Qed.
Lemma trim_right_frame a b : trim_right_space (a ++ slash :: b) = a ++ slash :: trim_right_space b.
Proof.
  unfold trim_right_space. rewrite rev_app_distr. cbn [rev]. rewrite <- app_assoc. cbn [app].
  rewrite ltrim_frame; [|apply outside_rev_slash|apply uspaces_rev_free|reflexivity|].
  - rewrite rev_app_distr. cbn [rev]. rewrite <- app_assoc, rev_involutive. cbn [app]. rewrite rev_length. reflexivity.
  - rewrite rev_length, app_length. cbn [List.length]. lia.
Qed.
Lemma trim_frame a b : trim_space (a ++ slash :: b) = trim_left_space a ++ slash :: trim_right_space b.
Proof. unfold trim_space. rewrite trim_left_frame, trim_right_frame. reflexivity. Qed.

Lemma split_app_any c l r : split_byte c (l ++ c :: r) = split_byte c l ++ split_byte c r.
Proof.
  induction l as [|a l IH].
  - cbn [app split_byte]. rewrite Ascii.eqb_refl. reflexivity.
  - cbn [app split_byte]. destruct (Ascii.eqb a c).
    + rewrite IH. reflexivity.
    + rewrite IH. destruct (split_byte c l) as [|y ys] eqn:E; [exfalso; exact (split_byte_not_nil _ _ E)|]. reflexivity.
Qed.

Lemma segs_frame a b : segs (a ++ slash :: b) =
  clean_segs [] (split_byte slash (trim_left_space a) ++ split_byte slash (trim_right_space b)).
Proof. unfold segs. rewrite trim_frame, split_app_any. reflexivity. Qed.

Fixpoint clean_stack (st : list bytes) (l : list bytes) : list bytes :=
  match l with
  | [] => st
  | s :: ss =>
      if is_nil s then clean_stack st ss
      else if beq s (bs ".") then clean_stack st ss
      else if beq s (bs "..") then clean_stack (tl st) ss
      else clean_stack (s :: st) ss
  end.
Lemma clean_segs_app l : forall st l', clean_segs st (l ++ l') = clean_segs (clean_stack st l) l'.
Proof.
  induction l as [|s l IH]; intros st l'; cbn [app clean_segs clean_stack]; [reflexivity|].
  destruct (is_nil s); [apply IH|]. destruct (beq s (bs ".")); [apply IH|].
  destruct (beq s (bs "..")); apply IH.
Qed.

Lemma segs_double a b : segs (a ++ slash :: slash :: b) = segs (a ++ slash :: b).
Proof.
  rewrite !segs_frame, !clean_segs_app.
  change (slash :: b) with ([] ++ slash :: b). rewrite trim_right_frame. reflexivity.
Qed.

Lemma segs_dot a b : segs (a ++ slash :: bs "." ++ slash :: b) = segs (a ++ slash :: b).
Proof. rewrite !segs_frame, trim_right_frame, split_app_any, !clean_segs_app. reflexivity. Qed.

Lemma segs_dotdot a x b : good_seg x ->
  segs (a ++ slash :: x ++ slash :: bs ".." ++ slash :: b) = segs (a ++ slash :: b).
Proof.
  intros (H1 & H2 & H3 & H4). rewrite !segs_frame.
  rewrite trim_right_frame, split_app_any, (split_byte_nosep _ x) by exact H4.
  rewrite trim_right_frame, split_app_any, !clean_segs_app. cbn [app clean_segs].
  destruct x as [|c x]; [congruence|]. cbn [clean_stack is_nil].
  destruct (beq_spec (c :: x) (bs ".")); [congruence|].
  destruct (beq_spec (c :: x) (bs "..")); [congruence|]. reflexivity.
Qed.

Lemma segs_dotdot_root b : segs (slash :: bs ".." ++ slash :: b) = segs (slash :: b).
Proof.
  change (slash :: bs ".." ++ slash :: b) with ([] ++ slash :: bs ".." ++ slash :: b).
  change (slash :: b) with ([] ++ slash :: b).
  rewrite !segs_frame. cbn [app]. rewrite trim_right_frame, split_app_any, !clean_segs_app. reflexivity.
Qed.

Lemma segs_lead b : trim_left_space b = b -> segs (slash :: b) = segs b.
Proof.
  intros Hb. change (slash :: b) with ([] ++ slash :: b). rewrite segs_frame. unfold segs, trim_space. rewrite Hb. reflexivity.
Qed.

(** *** white space at the ends *)
Lemma trim_left_space_cons c s : is_space c = true -> trim_left_space (c :: s) = trim_left_space s.
Proof.
  intros H. unfold trim_left_space. cbn [List.length ltrim_fuel ltrim_step]. rewrite H. reflexivity.
Qed.
Lemma segs_space_left c p : is_space c = true -> segs (c :: p) = segs p.
Proof. intros H. unfold segs, trim_space. rewrite trim_left_space_cons by exact H. reflexivity. Qed.

Lemma space_outside c : is_space c = true -> outside uspaces c.
Proof.
  intros H. apply Forall_forall. intros p Hp.
  assert (Hf : forallb (fun p => negb (is_nil p) && forallb (fun c => Nat.leb 128 (code c)) p) uspaces = true) by (vm_compute; reflexivity).
  rewrite forallb_forall in Hf. specialize (Hf p Hp). apply andb_true_iff in Hf as [H1 H2].
  split; [destruct p; discriminate|]. intros Hin. rewrite forallb_forall in H2. specialize (H2 c Hin).
  apply Nat.leb_le in H2. unfold is_space in H. apply orb_true_iff in H as [H|H].
  - apply Nat.eqb_eq in H. lia.
  - apply andb_true_iff in H as [_ H]. apply Nat.leb_le in H. lia.
Qed.

Lemma ltrim_space_right pats c : outside pats c -> is_space c = true ->
  forall n a, List.length a < n ->
  ltrim_fuel pats n (a ++ [c]) = match ltrim_fuel pats (List.length a) a with [] => [] | x => x ++ [c] end.
Proof.
  intros Ho Hc. induction n as [|n IH]; intros a Hn; [lia|].
  destruct a as [|x a].
  - cbn [app List.length ltrim_fuel ltrim_step]. rewrite Hc. destruct n; reflexivity.
  - rewrite (ltrim_fuel_enough pats c Ho (List.length (x :: a)) (S n)) by lia.
    cbn [ltrim_fuel]. rewrite ltrim_step_out by (assumption || discriminate).
    destruct (ltrim_step pats (x :: a)) as [s|] eqn:E; [|reflexivity].
    apply (ltrim_step_shorter _ _ _ _ Ho) in E. cbn [List.length] in Hn. rewrite IH by (cbn in E; lia).
    rewrite (ltrim_fuel_enough pats c Ho (List.length s) n) by (cbn in E; lia). reflexivity.
Qed.

Lemma trim_right_snoc a c : is_space c = true -> trim_right_space (a ++ [c]) = trim_right_space a.
Proof.
  intros H. unfold trim_right_space. rewrite rev_app_distr, app_length. cbn [rev app List.length].
  rewrite Nat.add_comm. cbn [Nat.add ltrim_fuel ltrim_step]. rewrite H. reflexivity.
Qed.

Lemma segs_space_right c p : is_space c = true -> segs (p ++ [c]) = segs p.
Proof.
  intros H. unfold segs, trim_space. do 2 f_equal.
  assert (E : trim_left_space (p ++ [c]) = match trim_left_space p with [] => [] | x => x ++ [c] end).
  { unfold trim_left_space. apply ltrim_space_right; [apply space_outside; exact H|exact H|].
    rewrite app_length. cbn. lia. }
  rewrite E. destruct (trim_left_space p) as [|y ys]; [reflexivity|]. apply trim_right_snoc. exact H.
Qed.

(** trailing slash *)
Lemma ltrim_fuel_fix pats n s : ltrim_step pats s = None -> ltrim_fuel pats n s = s.
Proof. intros H. destruct n; [reflexivity|]. cbn [ltrim_fuel]. rewrite H. reflexivity. Qed.

Lemma segs_trail a : trim_right_space (trim_left_space a) = trim_left_space a -> segs (a ++ [slash]) = segs a.
Proof.
  intros Ha. rewrite segs_frame. change (trim_right_space []) with (@nil ascii).
  unfold segs, trim_space. rewrite Ha, clean_segs_app. cbn [split_byte clean_segs is_nil].
  rewrite <- (app_nil_r (split_byte slash (trim_left_space a))) at 2. rewrite clean_segs_app. reflexivity.
Qed.
