(** RouterRefine: [routers prog root0 = Ok root] implies that the tree [root]
    answers every question exactly as the flat table obtained from the events of
    [prog]. *)
From Coq Require Import List Ascii String Bool Arith Lia.
Import ListNotations.
From Verif Require Import GoStr GoPath GoTy RouterModel RouterSpec RouterTree.

Inductive query := QEx | QEnd | QAct (m : meth) | QAll | QAny | QOrd.
Inductive ans := AB (b : bool) | AR (o : option raction) | AL (l : list bytes).

Definition dflt (q : query) : ans := match q with QEx | QEnd => AB false | QOrd => AL [] | _ => AR None end.

Definition ask (n : route) (q : query) : ans :=
  match q with
  | QEx => AB true
  | QEnd => AB (r_end n)
  | QAct m => AR (aget (r_acts n) m)
  | QAll => AR (r_all n)
  | QAny => AR (r_any n)
  | QOrd => AL (order n)
  end.

Definition obs (r : route) (t : list bytes) (q : query) : ans :=
  match lookup r t with Some n => ask n q | None => dflt q end.

Definition table := list bytes -> query -> ans.

(** a pattern ending in a wildcard evicts what was declared under a different
    wildcard text at the same position *)
Fixpoint clobber (pat t : list bytes) : bool :=
  match pat, t with
  | p :: pat', q :: t' =>
      if beq p q then clobber pat' t'
      else is_nil pat' && is_wild_seg p && is_wild_seg q
  | _, _ => false
  end.

Definition leq (x y : list bytes) : bool := if list_eq_dec bytes_eq_dec x y then true else false.

Fixpoint is_prefix (t pat : list bytes) : bool :=
  match t, pat with
  | [], _ => true
  | p :: t', q :: pat' => beq p q && is_prefix t' pat'
  | _ :: _, [] => false
  end.

Definition qeqb (x y : query) : bool :=
  match x, y with
  | QEx, QEx | QEnd, QEnd | QAll, QAll | QAny, QAny | QOrd, QOrd => true
  | QAct m, QAct m' => beq m m'
  | _, _ => false
  end.

(** the segment of [pat] that follows its prefix [t] *)
Fixpoint next_seg (t pat : list bytes) : option bytes :=
  match t, pat with
  | [], p :: _ => Some p
  | p :: t', q :: pat' => if beq p q then next_seg t' pat' else None
  | _, [] => None
  end.

Definition ins_next (t pat : list bytes) (a : ans) : ans :=
  match next_seg t pat, a with
  | Some s, AL l => AL (ins s l)
  | _, _ => a
  end.

Definition decl_key (m : meth) : query := if is_all m then QAll else if is_any m then QAny else QAct m.

Definition decl_action (d : decl) : option raction :=
  match mk_raction (eff (d_levels d)) (d_ctl d) (d_meth d) (d_opts d) with
  | Ok ra => Some ra
  | Panic => None
  end.

Definition apply (e : event) (T : table) : table :=
  fun t q =>
    match e with
    | EEnd pat =>
        if clobber pat t then dflt q
        else if qeqb q QEx && is_prefix t pat then AB true
        else if qeqb q QEnd && leq t pat then AB true
        else if qeqb q QOrd then ins_next t pat (T t QOrd)
        else T t q
    | EDecl d =>
        if leq t (d_pat d) && qeqb q (decl_key (d_meth d)) then AR (decl_action d) else T t q
    | EHead pat =>
        if leq t pat && qeqb q (QAct mHEAD) then
          match T t (QAct mHEAD) with AR None => T t (QAct mGET) | a => a end
        else T t q
    end.

Definition apply_all (es : list event) (T : table) : table := fold_left (fun T e => apply e T) es T.

Lemma apply_all_app e1 e2 T : apply_all (e1 ++ e2) T = apply_all e2 (apply_all e1 T).
Proof. unfold apply_all. apply fold_left_app. Qed.

(** two tables agree *)
Definition teq (T T' : table) : Prop := forall t q, T t q = T' t q.

Lemma apply_ext e T T' : teq T T' -> teq (apply e T) (apply e T').
Proof.
  intros H t q. unfold apply. destruct e; rewrite ?H; reflexivity.
Qed.

Lemma apply_all_ext es T T' : teq T T' -> teq (apply_all es T) (apply_all es T').
Proof.
  revert T T'; induction es as [|e es IH]; intros T T' H; [exact H|].
  cbn. apply IH. apply apply_ext. exact H.
Qed.

(** ** shifting a table by a prefix *)
Definition shift (b : list bytes) (T : table) : table := fun t q => T (b ++ t) q.

Definition shift_event (b : list bytes) (e : event) : event :=
  match e with
  | EEnd p => EEnd (b ++ p)
  | EHead p => EHead (b ++ p)
  | EDecl d => EDecl (Decl (b ++ d_pat d) (d_levels d) (d_ctl d) (d_meth d) (d_opts d))
  end.

Lemma leq_app b x y : leq (b ++ x) (b ++ y) = leq x y.
Proof.
  unfold leq. destruct (list_eq_dec _ x y) as [->|H], (list_eq_dec _ (b ++ _) (b ++ _)) as [H'|H']; try reflexivity.
  - congruence.
  - apply app_inv_head in H'. congruence.
Qed.

Lemma leq_refl x : leq x x = true.
Proof. unfold leq. destruct (list_eq_dec _ x x); congruence. Qed.
Lemma leq_true x y : leq x y = true <-> x = y.
Proof. unfold leq. destruct (list_eq_dec _ x y); split; congruence. Qed.
Lemma leq_false x y : leq x y = false <-> x <> y.
Proof. unfold leq. destruct (list_eq_dec _ x y); split; congruence. Qed.

Lemma clobber_app b x y : clobber (b ++ x) (b ++ y) = clobber x y.
Proof. induction b as [|p b IH]; [reflexivity|]. cbn [app clobber]. rewrite beq_refl. exact IH. Qed.

Lemma is_prefix_app b x y : is_prefix (b ++ x) (b ++ y) = is_prefix x y.
Proof. induction b as [|p b IH]; [reflexivity|]. cbn [app is_prefix]. rewrite beq_refl. exact IH. Qed.

Lemma is_prefix_spec t pat : is_prefix t pat = true <-> exists s, pat = t ++ s.
Proof.
  revert pat; induction t as [|p t IH]; intros pat; cbn [is_prefix].
  - split; [intros _; exists pat; reflexivity|reflexivity].
  - destruct pat as [|q pat].
    + split; [discriminate|intros (s & H); discriminate].
    + rewrite andb_true_iff, beq_true, IH. split.
      * intros [-> (s & ->)]. exists s. reflexivity.
      * intros (s & H). cbn in H. injection H as -> ->. eauto.
Qed.

Lemma next_seg_app b x y : next_seg (b ++ x) (b ++ y) = next_seg x y.
Proof. induction b as [|p b IH]; [reflexivity|]. cbn [app next_seg]. rewrite beq_refl. exact IH. Qed.

Lemma ins_next_app b x y a : ins_next (b ++ x) (b ++ y) a = ins_next x y a.
Proof. unfold ins_next. rewrite next_seg_app. reflexivity. Qed.

Lemma next_seg_self b t : next_seg (b ++ t) b = None.
Proof. induction b as [|p b IH]; [destruct t; reflexivity|]. cbn [app next_seg]. rewrite beq_refl. exact IH. Qed.

Lemma shift_apply b e T : teq (shift b (apply (shift_event b e) T)) (apply e (shift b T)).
Proof.
  intros t q. unfold shift, apply. destruct e; cbn [shift_event].
  - rewrite clobber_app, is_prefix_app, leq_app, ins_next_app. reflexivity.
  - cbn [d_pat d_meth]. rewrite leq_app. reflexivity.
  - rewrite leq_app. reflexivity.
Qed.

Lemma shift_apply_all b es T :
  teq (shift b (apply_all (map (shift_event b) es) T)) (apply_all es (shift b T)).
Proof.
  revert T; induction es as [|e es IH]; intros T t q; [reflexivity|].
  cbn [map apply_all fold_left]. change (fold_left (fun T0 e0 => apply e0 T0) ?l ?x) with (apply_all l x).
  rewrite IH. apply apply_all_ext. apply shift_apply.
Qed.

(** nothing outside prefix [b] changes under shifted events other than EEnd *)

(** ** walk *)
Lemma lookup_app r s t : lookup r (s ++ t) = match lookup r s with Some n => lookup n t | None => None end.
Proof.
  revert r; induction s as [|p s IH]; intros r; [reflexivity|]. cbn [app lookup].
  destruct (find_child r p); [apply IH|reflexivity].
Qed.

Lemma obs_nil r q : obs r [] q = ask r q.
Proof. reflexivity. Qed.

Lemma obs_cons r p t q :
  obs r (p :: t) q = match find_child r p with Some c => obs c t q | None => dflt q end.
Proof. unfold obs. cbn [lookup]. destruct (find_child r p); reflexivity. Qed.

Lemma find_child_new pp p : find_child (new_route pp) p = None.
Proof. reflexivity. Qed.

Lemma lwf_new pp : lwf (new_route pp).
Proof. constructor; cbn; try (intros; contradiction); [constructor|discriminate]. Qed.

Lemma wf_new pp : wf (new_route pp).
Proof. apply wf_build; [apply lwf_new|]. intros p c H. rewrite find_child_new in H. discriminate. Qed.

Lemma find_child_end r p : find_child (with_end r) p = find_child r p.
Proof. reflexivity. Qed.

Lemma lwf_ext r r' : r_params r' = r_params r -> r_static r' = r_static r -> r_wild r' = r_wild r -> lwf r -> lwf r'.
Proof. intros E1 E2 E3 [H1 H2 H3 H4 H5]. constructor; rewrite ?E1, ?E2, ?E3; assumption. Qed.

Lemma find_child_ext r r' p : r_params r' = r_params r -> r_static r' = r_static r -> r_wild r' = r_wild r ->
  find_child r' p = find_child r p.
Proof. intros E1 E2 E3. unfold find_child. rewrite E1, E2, E3. reflexivity. Qed.

Lemma wf_ext r r' : r_params r' = r_params r -> r_static r' = r_static r -> r_wild r' = r_wild r -> wf r -> wf r'.
Proof.
  intros E1 E2 E3 H. apply wf_build.
  - eapply lwf_ext; eauto. apply wf_here; exact H.
  - intros p c Hf. rewrite (find_child_ext r r') in Hf by assumption. eapply wf_child; eauto.
Qed.

Lemma wf_end r : wf r -> wf (with_end r).
Proof. apply wf_ext; reflexivity. Qed.

Lemma obs_new pp t q : t <> [] -> obs (new_route pp) t q = dflt q.
Proof. destruct t as [|p t]; [congruence|]. intros _. rewrite obs_cons. reflexivity. Qed.

Definition good_k (k : route -> res route) : Prop :=
  forall x y, wf x -> k x = Ok y -> wf y /\ r_pp y = r_pp x /\ (r_end x = true -> r_end y = true).

(** the table of the target node before configuration, and the final table *)
Lemma walk_spec ps : forall k r r',
  ps <> [] -> good_k k -> wf r -> walk ps k r = Ok r' ->
  wf r' /\ r_pp r' = r_pp r /\ r_end r' = r_end r /\
  exists tgt tgt',
    k tgt = Ok tgt' /\ wf tgt /\ r_end tgt = true /\
    (forall t q, obs tgt t q = apply (EEnd ps) (obs r) (ps ++ t) q) /\
    (forall t q, obs r' (ps ++ t) q = obs tgt' t q) /\
    (forall t q, is_prefix ps t = false -> obs r' t q = apply (EEnd ps) (obs r) t q).
Proof.
  induction ps as [|p ps IH]; [congruence|]. intros k r r' _ Hk Hwf Hw.
  cbn [walk] in Hw.
  set (rt := match find_child r p with Some rt => rt | None => new_route (pp_set p) end) in *.
  assert (Hrt_pp : r_pp rt = pp_set p).
  { unfold rt. destruct (find_child r p) eqn:E; [|reflexivity].
    eapply find_child_pp; [apply wf_here; exact Hwf|exact E]. }
  assert (Hrt_wf : wf rt).
  { unfold rt. destruct (find_child r p) eqn:E; [eapply wf_child; eauto|apply wf_new]. }
  assert (Hrt_obs : forall t q, obs rt t q = if qeqb q QEx && is_nil t then AB true else obs r (p :: t) q).
  { intros t q. rewrite obs_cons. unfold rt. destruct (find_child r p) eqn:E.
    - destruct t; [|rewrite andb_false_r; reflexivity]. rewrite obs_nil.
      destruct q; reflexivity.
    - destruct t as [|x t]; [destruct q; reflexivity|].
      rewrite andb_false_r. apply obs_new. discriminate. }
  rewrite Hrt_pp in Hw.
  destruct (pp_isWild (pp_set p) && negb (is_nil ps)) eqn:Ewild; [discriminate|].
  inv_bind Hw. rename a into rt2.
  change (match find_child r p with Some _ => false | None => true end) with (is_new r p) in Hw.
  destruct ps as [|p2 ps2].
  - (* last segment *)
    cbn [is_nil walk] in Hb.
    destruct (Hk _ _ (wf_end _ Hrt_wf) Hb) as (Hwf2 & Hpp2 & Hend2).
    assert (Hpp2' : r_pp rt2 = pp_set p) by (rewrite Hpp2; exact Hrt_pp).
    destruct (attach_spec r p rt2 r' (wf_here _ Hwf) Hpp2' (fun _ => Hend2 eq_refl) Hw)
      as (Hl' & Epp & Ee & Ea & Eall & Eany & Eord & Hfc).
    split; [|split; [exact Epp|split; [exact Ee|]]].
    { apply wf_build; [exact Hl'|]. intros q c Hq. rewrite Hfc in Hq.
      destruct (beq p q); [injection Hq as <-; exact Hwf2|].
      destruct (pp_isWild (pp_set p) && pp_isWild (pp_set q)); [discriminate|]. exact (wf_child r q c Hwf Hq). }
    exists (with_end rt), rt2. split; [exact Hb|]. split; [apply wf_end; exact Hrt_wf|].
    split; [reflexivity|]. split; [|split].
    + intros t q. cbn [app]. unfold apply. cbn [clobber]. rewrite beq_refl.
      replace (clobber [] t) with false by (destruct t; reflexivity).
      cbn [is_prefix]. rewrite beq_refl. cbn [andb].
      destruct t as [|x t].
      * rewrite leq_refl. cbn [is_prefix]. rewrite !andb_true_r.
        specialize (Hrt_obs [] q). rewrite !obs_nil in *.
        destruct q; cbn [ask with_end r_acts r_end r_all r_any qeqb andb is_nil] in *; auto.
        unfold ins_next. cbn [next_seg]. rewrite beq_refl. exact Hrt_obs.
      * cbn [is_prefix]. rewrite andb_false_r.
        assert (El : leq (p :: x :: t) [p] = false) by (apply leq_false; congruence).
        rewrite El, andb_false_r. pose proof (Hrt_obs (x :: t) q) as Hq.
        rewrite andb_false_r in Hq.
        assert (Hq' : obs (with_end rt) (x :: t) q = obs r (p :: x :: t) q)
          by (rewrite <- Hq; unfold obs; cbn [lookup]; rewrite find_child_end; reflexivity).
        rewrite Hq'. destruct q; cbn [qeqb]; try reflexivity.
        unfold ins_next. pose proof (next_seg_self [p] (x :: t)) as Hns. cbn [app] in Hns.
        rewrite Hns. reflexivity.
    + intros t q. cbn [app]. rewrite obs_cons, Hfc, beq_refl. reflexivity.
    + intros t q Hp. destruct t as [|x t].
      * unfold apply. cbn [clobber is_prefix]. rewrite !obs_nil.
        assert (El : leq [] [p] = false) by (apply leq_false; congruence).
        rewrite El, andb_false_r, andb_true_r.
        destruct q; cbn [ask qeqb ins_next next_seg]; congruence.
      * cbn [is_prefix] in Hp. rewrite andb_true_r in Hp. rewrite obs_cons, Hfc.
        unfold apply. cbn [clobber is_nil]. rewrite Hp. cbn [andb].
        rewrite !is_wild_seg_pp. destruct (pp_isWild (pp_set p) && pp_isWild (pp_set x)); [reflexivity|].
        cbn [is_prefix]. rewrite beq_sym, Hp. cbn [andb]. rewrite andb_false_r.
        assert (El : leq (x :: t) [p] = false).
        { apply leq_false. intros [= -> ->]. rewrite beq_refl in Hp. discriminate. }
        rewrite El, andb_false_r. rewrite !obs_cons.
        unfold ins_next. cbn [next_seg]. rewrite beq_sym, Hp. destruct q; reflexivity.
  - (* more segments *)
    cbn [is_nil negb] in *. rewrite andb_true_r in Ewild.
    remember (p2 :: ps2) as ps' eqn:Eps.
    assert (Hne : ps' <> []) by (subst; discriminate).
    destruct (IH k rt rt2 Hne Hk Hrt_wf Hb) as (Hwf2 & Hpp2 & Hend2 & tgt & tgt' & Hkt & Hwft & Hendt & Ht1 & Ht2 & Ht3).
    assert (Hpp2' : r_pp rt2 = pp_set p) by (rewrite Hpp2; exact Hrt_pp).
    assert (Hw0 : pp_isWild (pp_set p) = true -> r_end rt2 = true) by congruence.
    destruct (attach_spec r p rt2 r' (wf_here _ Hwf) Hpp2' Hw0 Hw)
      as (Hl' & Epp & Ee & Ea & Eall & Eany & Eord & Hfc).
    split; [|split; [exact Epp|split; [exact Ee|]]].
    { apply wf_build; [exact Hl'|]. intros q c Hq. rewrite Hfc in Hq.
      destruct (beq p q); [injection Hq as <-; exact Hwf2|].
      destruct (pp_isWild (pp_set p) && pp_isWild (pp_set q)); [discriminate|]. exact (wf_child r q c Hwf Hq). }
    exists tgt, tgt'. split; [exact Hkt|]. split; [exact Hwft|]. split; [exact Hendt|].
    assert (Hcons : forall t q, apply (EEnd ps') (obs rt) t q =
               if qeqb q QEx && is_nil t then AB true else apply (EEnd (p :: ps')) (obs r) (p :: t) q).
    { intros t q. unfold apply. cbn [clobber is_prefix]. rewrite beq_refl. cbn [andb].
      rewrite !Hrt_obs.
      assert (En : forall a, ins_next (p :: t) (p :: ps') a = ins_next t ps' a) by (intros a; apply (ins_next_app [p])).
      rewrite En. clear En.
      assert (El : leq (p :: t) (p :: ps') = leq t ps') by (apply (leq_app [p])).
      rewrite El.
      destruct t as [|x t].
      - replace (clobber ps' []) with false by (destruct ps'; reflexivity).
        cbn [is_prefix is_nil]. destruct q; cbn [qeqb andb]; reflexivity.
      - cbn [is_nil]. rewrite !andb_false_r. reflexivity. }
    split; [|split].
    + intros t q. rewrite Ht1, Hcons. cbn [app].
      destruct (ps' ++ t) eqn:E; [subst ps'; discriminate|]. cbn [is_nil]. rewrite andb_false_r. reflexivity.
    + intros t q. cbn [app]. rewrite obs_cons, Hfc, beq_refl. apply Ht2.
    + intros t q Hp. destruct t as [|x t].
      * unfold apply. cbn [clobber is_prefix]. rewrite !obs_nil.
        assert (El : leq [] (p :: ps') = false) by (apply leq_false; congruence).
        rewrite El, andb_false_r, andb_true_r.
        destruct q; cbn [ask qeqb ins_next next_seg]; congruence.
      * cbn [is_prefix] in Hp. rewrite obs_cons, Hfc. rewrite Ewild. cbn [andb].
        destruct (beq_spec p x) as [<-|Hpx]; cbn [andb] in Hp.
        -- rewrite (Ht3 t q Hp), Hcons. destruct t as [|y t].
           ++ cbn [is_nil]. rewrite andb_true_r. destruct q; cbn [qeqb]; try reflexivity.
              unfold apply. cbn [clobber is_prefix qeqb andb]. rewrite beq_refl.
              replace (clobber ps' []) with false by (destruct ps'; reflexivity). reflexivity.
           ++ cbn [is_nil]. rewrite andb_false_r. reflexivity.
        -- unfold apply. cbn [clobber]. apply beq_false in Hpx as Hb2. rewrite Hb2.
           rewrite Eps. cbn [is_nil andb is_prefix]. rewrite beq_sym, Hb2. cbn [andb].
           rewrite andb_false_r.
           assert (El : leq (x :: t) (p :: p2 :: ps2) = false) by (apply leq_false; congruence).
           rewrite El, andb_false_r. rewrite !obs_cons.
           unfold ins_next. cbn [next_seg]. rewrite beq_sym, Hb2. destruct q; reflexivity.
Qed.

(** ** Induction over handlers *)
Lemma handler_ind2 (P : handler -> Prop) :
  (forall s, P (HStr s)) -> (forall s, P (HName s)) -> P HOther ->
  (forall fs, P (HFilter fs)) -> (forall fs, P (HExempt fs)) ->
  (forall p hs, Forall P hs -> P (HRouter p hs)) ->
  (forall c m os, P (HMethod c m os)) ->
  forall h, P h.
Proof.
  intros H1 H2 H3 H4 H5 H6 H7.
  fix IH 1. intros [s|s| |fs|fs|p hs|c m os];
    [apply H1|apply H2|apply H3|apply H4|apply H5| |apply H7].
  apply H6. induction hs as [|h hs IHl]; constructor; [apply IH|exact IHl].
Qed.

Lemma walk_ext ps k k' : (forall x, k x = k' x) -> forall r, walk ps k r = walk ps k' r.
Proof.
  intros H. induction ps as [|p ps IH]; intros r; cbn [walk]; [apply H|]. rewrite IH. reflexivity.
Qed.

(** the configuration of one router level *)
Lemma config_handler_router p hs inh r :
  config_handler (HRouter p hs) inh r =
  match split_route_path p with
  | [] => Panic
  | p0 :: _ => if is_nil p0 then Ok r else walk (split_route_path p) (config_level inh hs) r
  end.
Proof.
  cbn [config_handler]. destruct (split_route_path p) as [|p0 ps]; [reflexivity|].
  destruct (is_nil p0); [reflexivity|]. apply walk_ext. intros x. unfold config_level.
  destruct (config_methods _ hs x) as [t|]; [|reflexivity]. cbn [bind].
  generalize (fremove (fappend inh (calc_filters [] hs)) (calc_exempts [] hs)) as fs.
  revert t. induction hs as [|h hs IH]; intros t fs; [reflexivity|]. cbn [config_list].
  destruct (config_handler h fs t) as [t'|]; [|reflexivity]. cbn [bind]. apply IH.
Qed.

(** ** Method declarations *)
Definition fin (fs : filters) (o : option (meth * margs)) (d : option raction) : option raction :=
  match o with
  | Some (m, a) => match finish fs m a with Ok ra => Some ra | Panic => None end
  | None => d
  end.

Lemma apply_decl_here lv c m os T q :
  apply (EDecl (Decl [] lv c m os)) T [] q =
  if qeqb q (decl_key m) then AR (decl_action (Decl [] lv c m os)) else T [] q.
Proof. reflexivity. Qed.

Lemma decl_action_calc lv c m os a :
  calc_method c m os = Ok a ->
  decl_action (Decl [] lv c m os) = match finish (eff lv) m a with Ok ra => Some ra | Panic => None end.
Proof. intros H. unfold decl_action, mk_raction. cbn [d_ctl d_meth d_opts d_levels]. rewrite H. reflexivity. Qed.

Lemma apply_all_cons e es T : apply_all (e :: es) T = apply_all es (apply e T).
Proof. reflexivity. Qed.

Definition same_shape (r r' : route) : Prop :=
  r_params r' = r_params r /\ r_static r' = r_static r /\ r_wild r' = r_wild r /\
  r_pp r' = r_pp r /\ r_end r' = r_end r.

Lemma same_shape_refl r : same_shape r r.
Proof. repeat split. Qed.
Lemma same_shape_trans a b c : same_shape a b -> same_shape b c -> same_shape a c.
Proof. intros (?&?&?&?&?) (?&?&?&?&?). repeat split; congruence. Qed.

Definition agree_here (fs : filters) (r : route) (al an : option (meth * margs)) (T : table) : Prop :=
  (forall m, T [] (QAct m) = AR (aget (r_acts r) m)) /\
  T [] QAll = AR (fin fs al (r_all r)) /\ T [] QAny = AR (fin fs an (r_any r)).

Lemma methods_loop_spec lv hs : forall r al an r1 al1 an1 T,
  methods_loop (eff lv) hs r al an = Ok (r1, al1, an1) ->
  agree_here (eff lv) r al an T ->
  same_shape r r1 /\ r_all r1 = r_all r /\ r_any r1 = r_any r /\
  agree_here (eff lv) r1 al1 an1 (apply_all (level_decls lv [] hs) T).
Proof.
  induction hs as [|h hs IH]; intros r al an r1 al1 an1 T H HT; cbn [methods_loop] in H.
  - injection H as <- <- <-. repeat (split; [apply same_shape_refl || reflexivity|]). exact HT.
  - destruct h; cbn [level_decls flat_map app];
      try (change (flat_map _ hs) with (level_decls lv [] hs); apply (IH _ _ _ _ _ _ _ H HT)).
    change (flat_map _ hs) with (level_decls lv [] hs).
    inv_bind H. rewrite apply_all_cons. destruct HT as (HA & HB & HC).
    destruct (is_all m) eqn:Eall.
    + apply (IH _ _ _ _ _ _ _ H). unfold agree_here.
      assert (Hk : decl_key m = QAll) by (unfold decl_key; rewrite Eall; reflexivity).
      split; [|split].
      * intros m'. rewrite apply_decl_here, Hk. cbn [qeqb]. apply HA.
      * rewrite apply_decl_here, Hk. cbn [qeqb]. rewrite (decl_action_calc _ _ _ _ _ Hb). reflexivity.
      * rewrite apply_decl_here, Hk. cbn [qeqb]. exact HC.
    + destruct (is_any m) eqn:Eany.
      * apply (IH _ _ _ _ _ _ _ H). unfold agree_here.
        assert (Hk : decl_key m = QAny) by (unfold decl_key; rewrite Eall, Eany; reflexivity).
        split; [|split].
        -- intros m'. rewrite apply_decl_here, Hk. cbn [qeqb]. apply HA.
        -- rewrite apply_decl_here, Hk. cbn [qeqb]. exact HB.
        -- rewrite apply_decl_here, Hk. cbn [qeqb]. rewrite (decl_action_calc _ _ _ _ _ Hb). reflexivity.
      * inv_bind H. rename a0 into ra.
        assert (Hk : decl_key m = QAct m) by (unfold decl_key; rewrite Eall, Eany; reflexivity).
        assert (HT' : agree_here (eff lv) (with_acts r (aset (r_acts r) m ra) (r_all r) (r_any r)) al an
                   (apply (EDecl (Decl [] lv c m opts)) T)).
        { split; [|split].
          - intros m'. rewrite apply_decl_here, Hk. cbn [qeqb with_acts r_acts].
            destruct (beq_spec m' m) as [->|Hn].
            + rewrite aget_aset_same, (decl_action_calc _ _ _ _ _ Hb), Hb0. reflexivity.
            + rewrite aget_aset_other by congruence. apply HA.
          - rewrite apply_decl_here, Hk. cbn [qeqb with_acts r_all]. exact HB.
          - rewrite apply_decl_here, Hk. cbn [qeqb with_acts r_any]. exact HC. }
        destruct (IH _ _ _ _ _ _ _ H HT') as (S1 & S2 & S3 & S4).
        split; [eapply same_shape_trans; [|exact S1]; repeat split|].
        split; [rewrite S2; reflexivity|]. split; [rewrite S3; reflexivity|exact S4].
Qed.

Lemma head_default_shape r : same_shape r (head_default r) /\
  r_all (head_default r) = r_all r /\ r_any (head_default r) = r_any r.
Proof.
  unfold head_default. destruct (aget (r_acts r) mHEAD); [repeat split|].
  destruct (aget (r_acts r) mGET); repeat split.
Qed.

Lemma head_default_acts r m :
  aget (r_acts (head_default r)) m =
  if beq m mHEAD then match aget (r_acts r) mHEAD with None => aget (r_acts r) mGET | a => a end
  else aget (r_acts r) m.
Proof.
  unfold head_default. destruct (aget (r_acts r) mHEAD) as [h|] eqn:Eh.
  - destruct (beq_spec m mHEAD) as [->|]; [exact Eh|reflexivity].
  - destruct (aget (r_acts r) mGET) as [g|] eqn:Eg.
    + cbn [with_acts r_acts]. destruct (beq_spec m mHEAD) as [->|Hn].
      * rewrite aget_aset_same. reflexivity.
      * rewrite aget_aset_other by congruence. reflexivity.
    + destruct (beq_spec m mHEAD) as [->|]; [exact Eh|reflexivity].
Qed.

Lemma level_decls_other lv hs T t q : t <> [] -> apply_all (level_decls lv [] hs) T t q = T t q.
Proof.
  intros Ht. revert T; induction hs as [|h hs IH]; intros T; [reflexivity|].
  destruct h; cbn [level_decls flat_map app];
    change (flat_map _ hs) with (level_decls lv [] hs); try apply IH.
  rewrite apply_all_cons, IH. unfold apply. cbn [d_pat].
  assert (El : leq t [] = false) by (apply leq_false; exact Ht). rewrite El. reflexivity.
Qed.

Lemma level_decls_flag lv hs T t q : (q = QEx \/ q = QEnd \/ q = QOrd) -> apply_all (level_decls lv [] hs) T t q = T t q.
Proof.
  intros Hq. revert T; induction hs as [|h hs IH]; intros T; [reflexivity|].
  destruct h; cbn [level_decls flat_map app];
    change (flat_map _ hs) with (level_decls lv [] hs); try apply IH.
  rewrite apply_all_cons, IH. unfold apply. cbn [d_pat d_meth].
  replace (qeqb q (decl_key m)) with false; [rewrite andb_false_r; reflexivity|].
  unfold decl_key. destruct Hq as [-> | [-> | ->]]; destruct (is_all m), (is_any m); reflexivity.
Qed.

Lemma config_methods_spec lv hs r r' :
  config_methods (eff lv) hs r = Ok r' ->
  same_shape r r' /\
  teq (obs r') (apply_all (level_decls lv [] hs ++ [EHead []]) (obs r)).
Proof.
  unfold config_methods. intros H. inv_bind H. destruct a as [[r1 al] an].
  assert (HT : agree_here (eff lv) r None None (obs r)) by (repeat split).
  destruct (methods_loop_spec _ _ _ _ _ _ _ _ _ Hb HT) as (S1 & S2 & S3 & S4 & S5 & S6).
  destruct (head_default_shape r1) as (D1 & D2 & D3).
  inv_bind H. rename a into r3.
  assert (H3 : same_shape (head_default r1) r3 /\ r_acts r3 = r_acts (head_default r1) /\
               r_any r3 = r_any (head_default r1) /\ r_all r3 = fin (eff lv) al (r_all (head_default r1))).
  { destruct al as [[m a]|].
    - inv_bind Hb0. injection Hb0 as <-. cbn [fin]. rewrite Hb1. repeat split.
    - injection Hb0 as <-. repeat split. }
  destruct H3 as (E1 & E2 & E3 & E4).
  assert (H4 : same_shape r3 r' /\ r_acts r' = r_acts r3 /\ r_all r' = r_all r3 /\
               r_any r' = fin (eff lv) an (r_any r3)).
  { destruct an as [[m a]|].
    - inv_bind H. injection H as <-. cbn [fin]. rewrite Hb1. repeat split.
    - injection H as <-. repeat split. }
  destruct H4 as (F1 & F2 & F3 & F4).
  assert (Hs : same_shape r r').
  { eapply same_shape_trans; [exact S1|]. eapply same_shape_trans; [exact D1|].
    eapply same_shape_trans; [exact E1|exact F1]. }
  split; [exact Hs|]. intros t q. rewrite apply_all_app.
  cbn [apply_all fold_left]. change (fold_left _ (level_decls lv [] hs) (obs r)) with (apply_all (level_decls lv [] hs) (obs r)).
  set (T := apply_all (level_decls lv [] hs) (obs r)) in *.
  destruct Hs as (G1 & G2 & G3 & G4 & G5).
  destruct t as [|p t].
  - unfold apply. rewrite leq_refl, !obs_nil. cbn [andb].
    destruct q; cbn [ask qeqb].
    + unfold T. rewrite level_decls_flag by auto. reflexivity.
    + unfold T. rewrite level_decls_flag by auto. rewrite obs_nil. cbn [ask]. congruence.
    + rewrite !S4. rewrite F2, E2, head_default_acts.
      destruct (beq m mHEAD); [|reflexivity].
      destruct (aget (r_acts r1) mHEAD); reflexivity.
    + rewrite S5, F3, E4, D2. reflexivity.
    + rewrite S6, F4, E3, D3. reflexivity.
    + unfold T. rewrite level_decls_flag by auto. rewrite obs_nil. cbn [ask]. unfold order. congruence.
  - unfold apply. assert (El : leq (p :: t) [] = false) by (apply leq_false; discriminate).
    rewrite El. cbn [andb]. unfold T. rewrite level_decls_other by discriminate.
    rewrite !obs_cons. rewrite (find_child_ext r r') by assumption. reflexivity.
Qed.

(** ** Shifting events *)
Lemma level_decls_shift lv b hs : level_decls lv b hs = map (shift_event b) (level_decls lv [] hs).
Proof.
  induction hs as [|h hs IH]; [reflexivity|].
  destruct h; cbn [level_decls flat_map app];
    repeat change (flat_map ?f hs) with (level_decls lv b hs); try exact IH.
  cbn [map shift_event d_pat d_levels d_ctl d_meth d_opts]. rewrite app_nil_r.
  f_equal. exact IH.
Qed.

Lemma shift_app b x e : shift_event (b ++ x) e = shift_event b (shift_event x e).
Proof. destruct e as [p|d|p]; cbn; rewrite <- ?app_assoc; reflexivity. Qed.

Lemma shift_map_app b x es : map (shift_event (b ++ x)) es = map (shift_event b) (map (shift_event x) es).
Proof. rewrite map_map. apply map_ext. apply shift_app. Qed.

Lemma events_h_shift h : forall lv b x, events_h lv (b ++ x) h = map (shift_event b) (events_h lv x h).
Proof.
  induction h as [s|s| |fs|fs|p hs IH|c m os] using handler_ind2; intros lv b x; try reflexivity.
  cbn [events_h]. destruct (segs p) as [|s0 ss] eqn:Es; [reflexivity|]. rewrite <- Es. clear Es.
  cbn [map shift_event]. rewrite <- !app_assoc. f_equal.
  rewrite map_app. cbn [map shift_event]. f_equal.
  - rewrite (level_decls_shift _ (b ++ x ++ segs p)), (level_decls_shift _ (x ++ segs p)).
    apply shift_map_app.
  - f_equal. generalize (lv ++ [level_of hs]) as lv'. intros lv'.
    induction IH as [|h hs Hh _ IHl]; [reflexivity|]. cbn [flat_map]. rewrite map_app, <- IHl. f_equal.
    rewrite <- Hh. reflexivity.
Qed.

Lemma flat_events_shift hs lv b : flat_map (events_h lv b) hs = map (shift_event b) (flat_map (events_h lv []) hs).
Proof.
  induction hs as [|h hs IH]; [reflexivity|]. cbn [flat_map]. rewrite map_app, IH. f_equal.
  rewrite <- (app_nil_r b) at 1. apply events_h_shift.
Qed.

Definition level_events (lv : list level) (hs : list handler) : list event :=
  level_decls lv [] hs ++ EHead [] :: flat_map (events_h lv []) hs.

Lemma events_h_router lv p hs : segs p <> [] ->
  events_h lv [] (HRouter p hs) =
  EEnd (segs p) :: map (shift_event (segs p)) (level_events (lv ++ [level_of hs]) hs).
Proof.
  intros Hn. cbn [events_h app]. destruct (segs p) as [|s0 ss] eqn:E; [congruence|]. rewrite <- E. clear E.
  f_equal. unfold level_events. rewrite map_app. cbn [map shift_event]. rewrite app_nil_r.
  rewrite <- level_decls_shift, <- flat_events_shift. reflexivity.
Qed.

(** end events of nested routers have non-empty patterns *)
Lemma events_h_end_nonempty h : forall lv b p, In (EEnd p) (events_h lv b h) -> exists x, x <> [] /\ p = b ++ x.
Proof.
  induction h as [s|s| |fs|fs|q hs IH|c m os] using handler_ind2; intros lv b p; try (intros []).
  cbn [events_h]. destruct (segs q) as [|s0 ss] eqn:Es; [intros []|]. rewrite <- Es.
  intros [H|H].
  - injection H as <-. exists (segs q). split; [congruence|reflexivity].
  - apply in_app_iff in H as [H|[H|H]]; [|discriminate|].
    + exfalso. unfold level_decls in H. apply in_flat_map in H as (h & _ & H). destruct h; cbn in H; intuition discriminate.
    + apply in_flat_map in H as (h & Hh & H). rewrite Forall_forall in IH.
      destruct (IH h Hh _ _ _ H) as (x & Hx & ->). exists (segs q ++ x). split; [rewrite Es; discriminate|].
      rewrite app_assoc. reflexivity.
Qed.

Lemma level_events_end_nonempty lv hs p : In (EEnd p) (level_events lv hs) -> p <> [].
Proof.
  unfold level_events. rewrite in_app_iff. intros [H|[H|H]]; [|discriminate|].
  - unfold level_decls in H. apply in_flat_map in H as (h & _ & H). destruct h; cbn in H; intuition discriminate.
  - apply in_flat_map in H as (h & _ & H). apply events_h_end_nonempty in H as (x & Hx & ->). exact Hx.
Qed.

Lemma clobber_out b x t : x <> [] -> is_prefix b t = false -> clobber (b ++ x) t = false.
Proof.
  intros Hx. revert t; induction b as [|p b IH]; intros t H; cbn [is_prefix] in H; [discriminate|].
  destruct t as [|q t]; [reflexivity|]. cbn [app clobber].
  destruct (beq p q); cbn [andb] in H; [apply IH; exact H|].
  destruct (b ++ x) eqn:E; [apply app_eq_nil in E as [_ E]; congruence|]. reflexivity.
Qed.

Lemma prefix_out b x t : is_prefix b t = false -> is_prefix t (b ++ x) = true -> is_prefix t b = true.
Proof.
  revert t; induction b as [|p b IH]; intros t H; cbn [is_prefix] in H; [discriminate|].
  destruct t as [|q t]; [reflexivity|]. cbn [app is_prefix].
  rewrite (beq_sym q p). destruct (beq p q); cbn [andb] in *; [apply IH; exact H|discriminate].
Qed.

Lemma next_seg_out b x t : is_prefix b t = false -> next_seg t (b ++ x) = next_seg t b.
Proof.
  revert t; induction b as [|p b IH]; intros t H; cbn [is_prefix] in H; [discriminate|].
  destruct t as [|q t]; [reflexivity|]. cbn [app next_seg].
  rewrite (beq_sym q p). destruct (beq p q); cbn [andb] in *; [apply IH; exact H|reflexivity].
Qed.

Lemma ins_next_idem t b a : ins_next t b (ins_next t b a) = ins_next t b a.
Proof.
  unfold ins_next. destruct (next_seg t b) as [s|]; [|reflexivity].
  destruct a; try reflexivity. rewrite ins_idem. reflexivity.
Qed.

Lemma ins_next_nil t b : ins_next t b (AL []) = AL [] \/ exists s, next_seg t b = Some s.
Proof. unfold ins_next. destruct (next_seg t b); eauto. Qed.

Lemma leq_out b x t : is_prefix b t = false -> leq t (b ++ x) = false.
Proof.
  intros H. apply leq_false. intros ->.
  assert (is_prefix b (b ++ x) = true) by (apply is_prefix_spec; eauto). congruence.
Qed.

Lemma apply_all_out b es t q : forall T,
  is_prefix b t = false ->
  (forall p, In (EEnd p) es -> p <> []) ->
  (is_prefix t b = true -> T t QEx = AB true) ->
  ins_next t b (T t QOrd) = T t QOrd ->
  apply_all (map (shift_event b) es) T t q = T t q.
Proof.
  induction es as [|e es IH]; intros T Hb He HT HO; [reflexivity|].
  cbn [map]. rewrite apply_all_cons.
  assert (Hq : forall q', apply (shift_event b e) T t q' = T t q').
  { intros q'. unfold apply. destruct e as [p|d|p]; cbn [shift_event d_pat].
    - rewrite clobber_out; [|apply He; left; reflexivity|exact Hb].
      rewrite leq_out by exact Hb. rewrite andb_false_r.
      destruct (qeqb q' QEx && is_prefix t (b ++ p)) eqn:E.
      + apply andb_true_iff in E as [E1 E2]. destruct q'; try discriminate.
        symmetry. apply HT. eapply prefix_out; eauto.
      + destruct q'; cbn [qeqb]; try reflexivity.
        unfold ins_next in *. rewrite next_seg_out by exact Hb. exact HO.
    - rewrite leq_out by exact Hb. reflexivity.
    - rewrite leq_out by exact Hb. reflexivity. }
  rewrite IH; [apply Hq|exact Hb|intros p Hp; apply He; right; exact Hp| |].
  - intros Hp. rewrite Hq. apply HT. exact Hp.
  - rewrite Hq. exact HO.
Qed.

(** ** The refinement *)
Definition refines (lvls : list level) (h : handler) : Prop :=
  forall r r', wf r -> config_handler h (eff lvls) r = Ok r' ->
    wf r' /\ r_pp r' = r_pp r /\ r_end r' = r_end r /\
    teq (obs r') (apply_all (events_h lvls [] h) (obs r)).

Lemma config_list_refines lv hs : Forall (refines lv) hs ->
  forall r r', wf r -> config_list (eff lv) hs r = Ok r' ->
    wf r' /\ r_pp r' = r_pp r /\ r_end r' = r_end r /\
    teq (obs r') (apply_all (flat_map (events_h lv []) hs) (obs r)).
Proof.
  induction 1 as [|h hs Hh _ IH]; intros r r' Hwf Hc; cbn [config_list] in Hc.
  - injection Hc as <-. repeat (split; [assumption || reflexivity|]). intros t q; reflexivity.
  - inv_bind Hc. destruct (Hh _ _ Hwf Hb) as (W1 & P1 & E1 & T1).
    destruct (IH _ _ W1 Hc) as (W2 & P2 & E2 & T2).
    split; [exact W2|]. split; [congruence|]. split; [congruence|].
    intros t q. rewrite T2. cbn [flat_map]. rewrite apply_all_app. apply apply_all_ext. exact T1.
Qed.

Lemma config_level_refines lvls hs :
  Forall (refines (lvls ++ [level_of hs])) hs ->
  forall r r', wf r -> config_level (eff lvls) hs r = Ok r' ->
    wf r' /\ r_pp r' = r_pp r /\ r_end r' = r_end r /\
    teq (obs r') (apply_all (level_events (lvls ++ [level_of hs]) hs) (obs r)).
Proof.
  intros HF r r' Hwf Hc. unfold config_level in Hc. rewrite level_filters in Hc.
  rewrite <- eff_snoc in Hc. inv_bind Hc. rename a into r1.
  destruct (config_methods_spec _ _ _ _ Hb) as ((S1 & S2 & S3 & S4 & S5) & HT).
  assert (W1 : wf r1) by (eapply wf_ext; eauto).
  destruct (config_list_refines _ _ HF _ _ W1 Hc) as (W2 & P2 & E2 & T2).
  split; [exact W2|]. split; [congruence|]. split; [congruence|].
  intros t q. rewrite T2. unfold level_events.
  change (level_decls ?lv [] hs ++ EHead [] :: ?x) with (level_decls lv [] hs ++ [EHead []] ++ x).
  rewrite app_assoc, apply_all_app. apply apply_all_ext. exact HT.
Qed.

Theorem config_handler_refines h : forall lvls, refines lvls h.
Proof.
  induction h as [s|s| |fs|fs|p hs IH|c m os] using handler_ind2; intros lvls r r' Hwf Hc;
    try (injection Hc as <-; repeat (split; [assumption || reflexivity|]); intros t q; reflexivity).
  rewrite config_handler_router in Hc. rewrite split_route_path_segs in Hc.
  pose proof (segs_nonempty p) as Hne.
  destruct (segs p) as [|s0 ss] eqn:Es.
  { cbn [is_nil] in Hc. injection Hc as <-. cbn [events_h]. rewrite Es.
    repeat (split; [assumption || reflexivity|]). intros t q; reflexivity. }
  inversion Hne as [|? ? Hs0 _]; subst.
  destruct s0 as [|c0 s0]; [congruence|]. cbn [is_nil] in Hc.
  rewrite <- Es in Hc.
  assert (Hsegs : segs p <> []) by (rewrite Es; discriminate).
  assert (HF : Forall (refines (lvls ++ [level_of hs])) hs).
  { rewrite Forall_forall in *. intros h Hh. apply IH. exact Hh. }
  assert (Hk : good_k (config_level (eff lvls) hs)).
  { intros x y Hx Hy. destruct (config_level_refines _ _ HF _ _ Hx Hy) as (W & P & E & _).
    split; [exact W|]. split; [exact P|]. congruence. }
  destruct (walk_spec _ _ _ _ Hsegs Hk Hwf Hc) as (W & P & E & tgt & tgt' & Hkt & Hwt & Het & H1 & H2 & H3).
  split; [exact W|]. split; [exact P|]. split; [exact E|].
  destruct (config_level_refines _ _ HF _ _ Hwt Hkt) as (_ & _ & _ & HT).
  intros t q. rewrite events_h_router by exact Hsegs. rewrite apply_all_cons.
  set (T1 := apply (EEnd (segs p)) (obs r)).
  destruct (is_prefix (segs p) t) eqn:Ep.
  - apply is_prefix_spec in Ep as (s & ->). rewrite H2, HT.
    change (apply_all (map (shift_event (segs p)) ?es) T1 (segs p ++ s) q)
      with (shift (segs p) (apply_all (map (shift_event (segs p)) es) T1) s q).
    rewrite shift_apply_all. apply apply_all_ext. intros t q'. apply H1.
  - rewrite H3 by exact Ep. symmetry.
    destruct (clobber (segs p) t) eqn:Hcl.
    + (* evicted: the table is empty there *)
      assert (HTd : forall q', T1 t q' = dflt q') by (intros q'; unfold T1, apply; rewrite Hcl; reflexivity).
      assert (Hnext : next_seg t (segs p) = None /\ is_prefix t (segs p) = false).
      { revert Hcl. clear. revert t. generalize (segs p) as b.
        induction b as [|x b IHb]; intros t; [destruct t; discriminate|]. destruct t as [|y t]; [discriminate|].
        cbn [clobber next_seg is_prefix]. rewrite (beq_sym y x).
        destruct (beq x y); cbn [andb]; [apply IHb|auto]. }
      destruct Hnext as (Hn1 & Hn2).
      apply apply_all_out; [exact Ep|apply level_events_end_nonempty| |].
      * congruence.
      * unfold ins_next. rewrite Hn1. reflexivity.
    + apply apply_all_out; [exact Ep|apply level_events_end_nonempty| |].
      * intros Hp. unfold T1, apply. rewrite Hcl, Hp. reflexivity.
      * unfold T1, apply. rewrite Hcl. cbn [qeqb andb]. apply ins_next_idem.
Qed.

Lemma lwf_root0 : lwf root0.
Proof. constructor; cbn; try (intros; contradiction); [constructor|discriminate]. Qed.

Lemma wf_root0 : wf root0.
Proof. apply wf_build; [apply lwf_root0|]. intros p c H. cbn in H. discriminate. Qed.

(** main refinement theorem for whole programs *)
Theorem routers_refine prog : forall r r',
  wf r -> routers prog r = Ok r' ->
  wf r' /\ r_pp r' = r_pp r /\ r_end r' = r_end r /\
  teq (obs r') (apply_all (events prog) (obs r)).
Proof.
  induction prog as [|hs prog IH]; intros r r' Hwf H; cbn [routers] in H.
  - injection H as <-. repeat (split; [assumption || reflexivity|]). intros t q; reflexivity.
  - inv_bind H.
    assert (HF : Forall (refines ([] ++ [level_of hs])) hs)
      by (apply Forall_forall; intros h _; apply config_handler_refines).
    destruct (config_level_refines [] hs HF _ _ Hwf Hb) as (W1 & P1 & E1 & T1).
    destruct (IH _ _ W1 H) as (W2 & P2 & E2 & T2).
    split; [exact W2|]. split; [congruence|]. split; [congruence|].
    intros t q. rewrite T2. unfold events. cbn [flat_map]. rewrite apply_all_app.
    apply apply_all_ext. exact T1.
Qed.

(** the empty table: only the root exists *)
Definition T0 : table := obs root0.
