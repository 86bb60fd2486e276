(** RouterTable: facts about the flat table of a program, and the transfer of
    the tree facts of RouterMatch to programs. *)
From Coq Require Import List Ascii String Bool Arith Lia.
Import ListNotations.
From Verif Require Import GoStr GoPath GoTy RouterModel RouterSpec RouterTree RouterRefine RouterMatch.

Lemma apply_all_snoc es e T : apply_all (es ++ [e]) T = apply e (apply_all es T).
Proof. rewrite apply_all_app. reflexivity. Qed.

Lemma T0_nonroot t q : t <> [] -> T0 t q = dflt q.
Proof. destruct t; [congruence|]. intros _. unfold T0. rewrite obs_cons. reflexivity. Qed.

(** ** Soundness of table entries *)
Lemma table_end es t : apply_all es T0 t QEnd = AB true -> t = [] \/ In (EEnd t) es.
Proof.
  induction es as [|e es IH] using rev_ind.
  - destruct t; [auto|]. cbn [apply_all fold_left]. rewrite T0_nonroot by discriminate. discriminate.
  - rewrite apply_all_snoc. intros H.
    assert (Hold : apply_all es T0 t QEnd = AB true -> t = [] \/ In (EEnd t) (es ++ [e])).
    { intros H'. destruct (IH H'); [auto|]. right. apply in_app_iff. auto. }
    unfold apply in H. destruct e as [p|d|p].
    + destruct (clobber p t); [discriminate|]. cbn [qeqb andb] in H.
      destruct (leq t p) eqn:E; [|auto]. apply leq_true in E. subst.
      right. apply in_app_iff. right. left. reflexivity.
    + apply Hold. revert H. unfold decl_key. destruct (is_all (d_meth d)), (is_any (d_meth d)); cbn [qeqb];
        rewrite ?andb_false_r; auto.
    + cbn [qeqb] in H. rewrite andb_false_r in H. auto.
Qed.

Lemma table_ex es t : apply_all es T0 t QEx = AB true -> t = [] \/ exists x, In (EEnd (t ++ x)) es.
Proof.
  induction es as [|e es IH] using rev_ind.
  - destruct t; [auto|]. cbn [apply_all fold_left]. rewrite T0_nonroot by discriminate. discriminate.
  - rewrite apply_all_snoc. intros H.
    assert (Hold : apply_all es T0 t QEx = AB true -> t = [] \/ exists x, In (EEnd (t ++ x)) (es ++ [e])).
    { intros H'. destruct (IH H') as [|(x & Hx)]; [auto|]. right. exists x. apply in_app_iff. auto. }
    unfold apply in H. destruct e as [p|d|p].
    + destruct (clobber p t); [discriminate|]. cbn [qeqb andb] in H.
      destruct (is_prefix t p) eqn:E; [|auto]. apply is_prefix_spec in E as (x & ->).
      right. exists x. apply in_app_iff. right. left. reflexivity.
    + apply Hold. revert H. unfold decl_key. destruct (is_all (d_meth d)), (is_any (d_meth d)); cbn [qeqb];
        rewrite ?andb_false_r; auto.
    + cbn [qeqb] in H. rewrite andb_false_r in H. auto.
Qed.

Lemma decl_key_act m m' : decl_key m = QAct m' -> m = m'.
Proof. unfold decl_key. destruct (is_all m), (is_any m); congruence. Qed.
Lemma decl_key_all m : decl_key m = QAll -> m = mALL.
Proof. unfold decl_key. destruct (is_all m) eqn:E; [intros _; apply beq_true; exact E|]. destruct (is_any m); discriminate. Qed.
Lemma decl_key_any m : decl_key m = QAny -> m = mANY.
Proof.
  unfold decl_key. destruct (is_all m); [discriminate|].
  destruct (is_any m) eqn:E; [intros _; apply beq_true; exact E|discriminate].
Qed.
Lemma qeqb_true x y : qeqb x y = true <-> x = y.
Proof.
  destruct x, y; cbn; split; intros H; try congruence; try discriminate.
  - apply beq_true in H. congruence.
  - injection H as ->. apply beq_refl.
Qed.

Definition key_ok (q : query) (d : decl) : Prop :=
  decl_key (d_meth d) = q \/ (q = QAct mHEAD /\ decl_key (d_meth d) = QAct mGET).

Lemma table_action es t q ra :
  apply_all es T0 t q = AR (Some ra) ->
  exists d, In (EDecl d) es /\ d_pat d = t /\ decl_action d = Some ra /\ key_ok q d.
Proof.
  revert q; induction es as [|e es IH] using rev_ind; intros q.
  - cbn [apply_all fold_left]. destruct t; [destruct q; cbn; discriminate|rewrite T0_nonroot by discriminate; destruct q; discriminate].
  - rewrite apply_all_snoc. intros H.
    assert (Hold : forall q', apply_all es T0 t q' = AR (Some ra) ->
              exists d, In (EDecl d) (es ++ [e]) /\ d_pat d = t /\ decl_action d = Some ra /\ key_ok q' d).
    { intros q' H'. destruct (IH _ H') as (d & H1 & H2). exists d. split; [apply in_app_iff; auto|exact H2]. }
    unfold apply in H. destruct e as [p|d|p].
    + destruct (clobber p t); [destruct q; discriminate|].
      destruct (qeqb q QEx && is_prefix t p); [discriminate|].
      destruct (qeqb q QEnd && leq t p); [discriminate|].
      destruct (qeqb q QOrd) eqn:E; [|auto].
      unfold ins_next in H. destruct (next_seg t p), (apply_all es T0 t QOrd) eqn:E2; try discriminate;
        injection H as ->; apply qeqb_true in E; subst; apply Hold; exact E2.
    + destruct (leq t (d_pat d) && qeqb q (decl_key (d_meth d))) eqn:E; [|auto].
      apply andb_true_iff in E as [E1 E2]. apply leq_true in E1. apply qeqb_true in E2.
      injection H as H. exists d. split; [apply in_app_iff; right; left; reflexivity|].
      split; [auto|]. split; [exact H|]. left. auto.
    + destruct (leq t p && qeqb q (QAct mHEAD)) eqn:E; [|auto].
      apply andb_true_iff in E as [E1 E2]. apply qeqb_true in E2. subst q.
      destruct (apply_all es T0 t (QAct mHEAD)) as [b|[o|]|l] eqn:E3; try discriminate.
      * apply Hold. rewrite E3. exact H.
      * destruct (Hold _ H) as (d & A & B & C & [K|[K _]]).
        -- exists d. repeat (split; [assumption|]). right. auto.
        -- discriminate.
Qed.

(** ** Completeness of table entries *)
Definition safe (es : list event) (t : list bytes) : Prop :=
  forall pat, In (EEnd pat) es -> clobber pat t = false.

Lemma safe_app e1 e2 t : safe (e1 ++ e2) t <-> safe e1 t /\ safe e2 t.
Proof.
  unfold safe. split.
  - intros H. split; intros p Hp; apply H, in_app_iff; auto.
  - intros [H1 H2] p Hp. apply in_app_iff in Hp as [Hp|Hp]; auto.
Qed.

Lemma clobber_nowild pat t : Forall (fun s => is_wild_seg s = false) t -> clobber pat t = false.
Proof.
  intros H. revert pat; induction H as [|s t Hs _ IH]; intros pat; [destruct pat; reflexivity|].
  destruct pat as [|p pat]; [reflexivity|]. cbn [clobber]. destruct (beq p s); [apply IH|].
  rewrite Hs, andb_false_r. reflexivity.
Qed.

Lemma clobber_true pat t : clobber pat t = true ->
  exists front w' w rest, pat = front ++ [w'] /\ t = front ++ w :: rest /\
    is_wild_seg w = true /\ is_wild_seg w' = true /\ w <> w'.
Proof.
  revert t; induction pat as [|p pat IH]; intros t; [discriminate|].
  destruct t as [|q t]; [discriminate|]. cbn [clobber].
  destruct (beq_spec p q) as [->|Hn].
  - intros H. destruct (IH _ H) as (f & w' & w & rest & -> & -> & A).
    exists (q :: f), w', w, rest. auto.
  - intros H. apply andb_true_iff in H as [H H3]. apply andb_true_iff in H as [H1 H2].
    destruct pat; [|discriminate]. exists [], p, q, t. repeat split; auto.
Qed.

Lemma not_evicted_safe prog t : ~ evicted prog t -> safe (events prog) t.
Proof.
  intros H pat Hin. destruct (clobber pat t) eqn:E; [|reflexivity].
  exfalso. apply H. apply clobber_true in E as (f & w' & w & rest & -> & -> & A & B & C).
  exists f, w, w', rest. auto.
Qed.

Lemma table_end_keep es T t : safe es t -> T t QEnd = AB true -> apply_all es T t QEnd = AB true.
Proof.
  revert T; induction es as [|e es IH]; intros T Hs HT; [exact HT|].
  rewrite apply_all_cons. apply IH.
  - intros p Hp. apply Hs. right. exact Hp.
  - unfold apply. destruct e as [p|d|p].
    + rewrite (Hs p) by (left; reflexivity). cbn [qeqb andb]. destruct (leq t p); [reflexivity|exact HT].
    + unfold decl_key. destruct (is_all (d_meth d)), (is_any (d_meth d)); cbn [qeqb]; rewrite ?andb_false_r; exact HT.
    + cbn [qeqb]. rewrite andb_false_r. exact HT.
Qed.

Lemma table_end_complete es T t : safe es t -> In (EEnd t) es -> apply_all es T t QEnd = AB true.
Proof.
  intros Hs Hin. apply in_split in Hin as (e1 & e2 & ->).
  apply safe_app in Hs as [H1 H2]. rewrite apply_all_app, apply_all_cons.
  apply table_end_keep; [intros p Hp; apply H2; right; exact Hp|].
  unfold apply. rewrite (H2 t) by (left; reflexivity). cbn [qeqb andb]. rewrite leq_refl. reflexivity.
Qed.

(** an entry other than HEAD changes only by declarations of that key *)
Lemma table_key_keep es T t q :
  (match q with QAct _ | QAll | QAny => True | _ => False end) ->
  q <> QAct mHEAD -> safe es t ->
  (forall d, In (EDecl d) es -> d_pat d = t -> decl_key (d_meth d) <> q) ->
  apply_all es T t q = T t q.
Proof.
  intros Hk Hq. revert T; induction es as [|e es IH]; intros T Hs Hd; [reflexivity|].
  rewrite apply_all_cons, IH.
  - unfold apply. destruct e as [p|d|p].
    + rewrite (Hs p) by (left; reflexivity). destruct q; try contradiction; reflexivity.
    + destruct (leq t (d_pat d) && qeqb q (decl_key (d_meth d))) eqn:E; [|reflexivity].
      exfalso. apply andb_true_iff in E as [E1 E2]. apply leq_true in E1. apply qeqb_true in E2.
      apply (Hd d); [left; reflexivity|auto|auto].
    + destruct (qeqb q (QAct mHEAD)) eqn:E; [apply qeqb_true in E; congruence|].
      rewrite andb_false_r. reflexivity.
  - intros p Hp. apply Hs. right. exact Hp.
  - intros d Hin. apply Hd. right. exact Hin.
Qed.

Lemma table_head_keep es T t ra :
  safe es t -> (forall d, In (EDecl d) es -> d_pat d = t -> decl_key (d_meth d) <> QAct mHEAD) ->
  T t (QAct mHEAD) = AR (Some ra) -> apply_all es T t (QAct mHEAD) = AR (Some ra).
Proof.
  revert T; induction es as [|e es IH]; intros T Hs Hd HT; [exact HT|].
  rewrite apply_all_cons. apply IH.
  - intros p Hp. apply Hs. right. exact Hp.
  - intros d Hin. apply Hd. right. exact Hin.
  - unfold apply. destruct e as [p|d|p].
    + rewrite (Hs p) by (left; reflexivity). exact HT.
    + destruct (leq t (d_pat d) && qeqb (QAct mHEAD) (decl_key (d_meth d))) eqn:E; [|exact HT].
      exfalso. apply andb_true_iff in E as [E1 E2]. apply leq_true in E1. apply qeqb_true in E2.
      apply (Hd d); [left; reflexivity|auto|auto].
    + rewrite HT. destruct (leq t p && _); reflexivity.
Qed.

(** every declaration is followed by the HEAD event of its pattern *)
Definition headed (es : list event) : Prop :=
  forall e1 d e2, es = e1 ++ EDecl d :: e2 -> In (EHead (d_pat d)) e2.

Lemma app_split_eq {A} (l1 l2 m1 m2 : list A) x :
  l1 ++ l2 = m1 ++ x :: m2 ->
  (exists k, l1 = m1 ++ x :: k /\ m2 = k ++ l2) \/ (exists k, l2 = k ++ x :: m2 /\ m1 = l1 ++ k).
Proof.
  revert m1; induction l1 as [|a l1 IH]; intros m1 H.
  - right. exists m1. auto.
  - destruct m1 as [|b m1]; cbn in H.
    + injection H as -> <-. left. exists l1. auto.
    + injection H as -> H. destruct (IH _ H) as [(k & -> & ->)|(k & -> & ->)].
      * left. exists k. auto.
      * right. exists k. auto.
Qed.

Lemma headed_nil : headed [].
Proof. intros e1 d e2 H. destruct e1; discriminate. Qed.

Lemma headed_app a b : headed a -> headed b -> headed (a ++ b).
Proof.
  intros Ha Hb e1 d e2 H. apply app_split_eq in H as [(k & H1 & ->)|(k & H1 & ->)].
  - apply in_app_iff. left. eapply Ha; eauto.
  - eapply Hb; eauto.
Qed.

Lemma level_decls_pat lv pat hs e : In e (level_decls lv pat hs) -> exists d, e = EDecl d /\ d_pat d = pat.
Proof.
  unfold level_decls. intros H. apply in_flat_map in H as (h & _ & H).
  destruct h; cbn in H; try contradiction. destruct H as [<-|[]]. eauto.
Qed.

Lemma headed_level lv pat hs : headed (level_decls lv pat hs ++ [EHead pat]).
Proof.
  intros e1 d e2 H. apply app_split_eq in H as [(k & H1 & ->)|(k & H1 & ->)].
  - assert (Hin : In (EDecl d) (level_decls lv pat hs)) by (rewrite H1; apply in_elt).
    apply level_decls_pat in Hin as (d' & [= <-] & <-). apply in_app_iff. right. left. reflexivity.
  - destruct k as [|x [|y k]]; discriminate.
Qed.

Lemma headed_end p : headed [EEnd p].
Proof. intros e1 d e2 H. destruct e1 as [|x [|y e1]]; discriminate. Qed.

Lemma headed_h h : forall lv pat, headed (events_h lv pat h).
Proof.
  induction h as [s|s| |fs|fs|p hs IH|c m os] using handler_ind2; intros lv pat; try apply headed_nil.
  cbn [events_h]. destruct (segs p) as [|s0 ss] eqn:Es; [apply headed_nil|]. rewrite <- Es. clear Es.
  change (EEnd ?x :: ?l) with ([EEnd x] ++ l). apply headed_app; [apply headed_end|].
  change (EHead ?x :: ?l) with ([EHead x] ++ l). rewrite app_assoc. apply headed_app; [apply headed_level|].
  generalize (lv ++ [level_of hs]) as lv'. intros lv'.
  induction IH as [|h hs Hh _ IHl]; [apply headed_nil|]. cbn [flat_map]. apply headed_app; [apply Hh|exact IHl].
Qed.

Lemma headed_events prog : headed (events prog).
Proof.
  unfold events. induction prog as [|hs prog IH]; [apply headed_nil|]. cbn [flat_map].
  apply headed_app; [|exact IH]. unfold events_call.
  change (EHead ?x :: ?l) with ([EHead x] ++ l). rewrite app_assoc. apply headed_app; [apply headed_level|].
  generalize [level_of hs] as lv'. intros lv'.
  induction hs as [|h hs IHl]; [apply headed_nil|]. cbn [flat_map]. apply headed_app; [apply headed_h|exact IHl].
Qed.

(** ** Order of the parameter children *)
Lemma next_seg_spec t pat s : next_seg t pat = Some s <-> exists x, pat = t ++ s :: x.
Proof.
  revert pat; induction t as [|p t IH]; intros [|q pat]; cbn [next_seg app].
  - split; [discriminate|intros (x & H); discriminate].
  - split; [intros [= ->]; eauto|intros (x & [= -> ->]); reflexivity].
  - split; [discriminate|intros (x & H); discriminate].
  - destruct (beq_spec p q) as [->|Hn].
    + rewrite IH. split; intros (x & H); exists x; congruence.
    + split; [discriminate|intros (x & H); congruence].
Qed.

Definition lbefore (s s' : bytes) (l : list bytes) : Prop := exists l1 l2 l3, l = l1 ++ s :: l2 ++ s' :: l3.

Definition is_verb (s : bytes) : Prop := exists n v, parse_seg s = SParam n v /\ v <> [].
Definition is_plain (s : bytes) : Prop := exists n, parse_seg s = SParam n [].

Record order_ok (es : list event) (t : list bytes) (l : list bytes) : Prop := {
  oo_mem : forall s, In s l <-> mentions es (t ++ [s]) /\ (is_verb s \/ is_plain s);
  oo_verb : forall s s', lbefore s s' l -> is_verb s' -> is_verb s /\ older es t s' s
}.

Lemma mentions_snoc es e u : mentions (es ++ [e]) u <-> mentions es u \/ (exists x, e = EEnd (u ++ x)).
Proof.
  unfold mentions. split.
  - intros (pat & x & Hin & ->). apply in_app_iff in Hin as [Hin|[->|[]]]; [left; eauto|right; eauto].
  - intros [(pat & x & Hin & ->)|(x & ->)]; eexists _, x; (split; [|reflexivity]); apply in_app_iff;
      [left; exact Hin|right; left; reflexivity].
Qed.

Lemma older_snoc es e t s s' : older es t s s' -> older (es ++ [e]) t s s'.
Proof. intros (e1 & e2 & -> & H1 & H2). exists e1, (e2 ++ [e]). rewrite app_assoc. auto. Qed.

Lemma lbefore_in s s' l : lbefore s s' l -> In s l /\ In s' l.
Proof.
  intros (l1 & l2 & l3 & ->). split; [apply in_elt|].
  apply in_app_iff. right. right. apply in_elt.
Qed.

Lemma order_ok_same es e t l :
  order_ok es t l -> (forall s x, e = EEnd (t ++ [s] ++ x) -> (is_verb s \/ is_plain s) -> In s l) ->
  order_ok (es ++ [e]) t l.
Proof.
  intros [Hm Hv] Hnew. constructor.
  - intros s. rewrite Hm, mentions_snoc. split; [tauto|]. intros [[H|(x & Hx)] Hk]; [tauto|].
    split; [|exact Hk]. apply Hm. apply (Hnew s x); [|exact Hk]. rewrite Hx, <- app_assoc. reflexivity.
  - intros s s' Hb Hs'. destruct (Hv _ _ Hb Hs') as [H1 H2]. split; [exact H1|apply older_snoc; exact H2].
Qed.

Lemma verb_not_plain s : is_verb s -> is_plain s -> False.
Proof. intros (n & v & H & Hv) (n' & H'). congruence. Qed.

Lemma lbefore_snoc s s' x l : lbefore s s' (l ++ [x]) -> (s' = x /\ In s l) \/ lbefore s s' l.
Proof.
  intros (l1 & l2 & l3 & H). destruct l3 as [|y l3] using rev_ind.
  - left. rewrite app_comm_cons, app_assoc in H. apply app_inj_tail in H as [-> ->].
    split; [reflexivity|]. apply in_elt.
  - right. clear IHl3. exists l1, l2, l3.
    rewrite (app_comm_cons _ _ s'), (app_assoc l2), app_comm_cons, app_assoc in H.
    apply app_inj_tail in H as [-> _]. reflexivity.
Qed.

Lemma lbefore_cons s s' x l : lbefore s s' (x :: l) -> (s = x /\ In s' l) \/ lbefore s s' l.
Proof.
  intros (l1 & l2 & l3 & H). destruct l1 as [|y l1]; cbn in H; injection H as -> H.
  - left. split; [reflexivity|]. rewrite H. apply in_elt.
  - right. exists l1, l2, l3. exact H.
Qed.

Lemma table_order es t : Forall (fun s => is_wild_seg s = false) t ->
  exists l, apply_all es T0 t QOrd = AL l /\ order_ok es t l.
Proof.
  intros Hw. induction es as [|e es IH] using rev_ind.
  - exists []. split.
    + cbn [apply_all fold_left]. destruct t; [reflexivity|]. rewrite T0_nonroot by discriminate. reflexivity.
    + constructor.
      * intros s. split; [intros []|]. intros [(p & x & [] & _) _].
      * intros s s' (l1 & l2 & l3 & H). destruct l1; discriminate.
  - destruct IH as (l & Hl & Hok). rewrite apply_all_snoc. unfold apply.
    destruct e as [p|d|p].
    + rewrite (clobber_nowild p t Hw). cbn [qeqb andb]. rewrite Hl. unfold ins_next.
      destruct (next_seg t p) as [s|] eqn:En.
      * apply next_seg_spec in En as (x & ->). exists (ins s l). split; [reflexivity|].
        unfold ins. destruct (parse_seg s) as [s0|n v|n] eqn:Ep.
        -- apply order_ok_same; [exact Hok|]. intros s' x' [= Heq] Hk.
           apply app_inv_head in Heq. injection Heq as -> ->. destruct Hk as [(?&?&?&?)|(?&?)]; congruence.
        -- destruct (bmem s l) eqn:Em.
           ++ apply bmem_In in Em. apply order_ok_same; [exact Hok|]. intros s' x' [= Heq] Hk.
              apply app_inv_head in Heq. injection Heq as -> ->. exact Em.
           ++ assert (Hnin : ~ In s l) by (rewrite <- bmem_In; congruence).
              assert (Hnm : ~ mentions es (t ++ [s])).
              { intros Hm. apply Hnin. apply (oo_mem _ _ _ Hok). split; [exact Hm|].
                destruct v; [right; exists n; exact Ep|left; exists n, (a :: v); split; [exact Ep|discriminate]]. }
              assert (Hmem : forall s1, (s1 = s \/ In s1 l) <-> mentions (es ++ [EEnd (t ++ s :: x)]) (t ++ [s1]) /\ (is_verb s1 \/ is_plain s1)).
              { intros s1. rewrite mentions_snoc, (oo_mem _ _ _ Hok s1). split.
                - intros [->|[H1 H2]]; [|tauto]. split.
                  + right. exists x. rewrite <- app_assoc. reflexivity.
                  + destruct v; [right; exists n; exact Ep|left; exists n, (a :: v); split; [exact Ep|discriminate]].
                - intros [[H|(y & Hy)] Hk]; [tauto|]. left.
                  injection Hy as Hy. rewrite <- app_assoc in Hy. apply app_inv_head in Hy.
                  injection Hy as -> _. reflexivity. }
              destruct v as [|c v]; cbn [is_nil].
              ** constructor.
                 --- intros s1. rewrite in_app_iff. cbn [In]. rewrite <- Hmem. intuition.
                 --- intros s1 s2 Hb Hv2. apply lbefore_snoc in Hb as [[-> _]|Hb].
                     +++ exfalso. eapply verb_not_plain; [exact Hv2|exists n; exact Ep].
                     +++ destruct (oo_verb _ _ _ Hok _ _ Hb Hv2) as [A B]. split; [exact A|apply older_snoc; exact B].
              ** constructor.
                 --- intros s1. cbn [In]. rewrite <- Hmem. intuition.
                 --- intros s1 s2 Hb Hv2. apply lbefore_cons in Hb as [[-> Hin]|Hb].
                     +++ split; [exists n, (c :: v); split; [exact Ep|discriminate]|].
                         exists es, [EEnd (t ++ s :: x)]. split; [reflexivity|]. split; [|exact Hnm].
                         apply (oo_mem _ _ _ Hok). exact Hin.
                     +++ destruct (oo_verb _ _ _ Hok _ _ Hb Hv2) as [A B]. split; [exact A|apply older_snoc; exact B].
        -- apply order_ok_same; [exact Hok|]. intros s' x' [= Heq] Hk.
           apply app_inv_head in Heq. injection Heq as -> ->. destruct Hk as [(?&?&?&?)|(?&?)]; congruence.
      * exists l. split; [reflexivity|]. apply order_ok_same; [exact Hok|].
        intros s x He _. exfalso. injection He as He. rewrite He in En.
        assert (Hs : next_seg t (t ++ s :: x) = Some s) by (apply next_seg_spec; exists x; reflexivity). cbn [app] in En. rewrite Hs in En. discriminate En.
    + exists l. assert (E : qeqb QOrd (decl_key (d_meth d)) = false)
        by (unfold decl_key; destruct (is_all (d_meth d)), (is_any (d_meth d)); reflexivity).
      rewrite E, andb_false_r. split; [exact Hl|]. apply order_ok_same; [exact Hok|]. discriminate.
    + exists l. cbn [qeqb]. rewrite andb_false_r. split; [exact Hl|]. apply order_ok_same; [exact Hok|]. discriminate.
Qed.

(** ** Programs *)
Section Prog.
  Variable prog : list (list handler).
  Variable root : route.
  Hypothesis Hroot : routers prog root0 = Ok root.

  Lemma root_wf : wf root.
  Proof. apply (routers_refine prog root0 root wf_root0 Hroot). Qed.

  Lemma root_obs t q : obs root t q = apply_all (events prog) T0 t q.
  Proof. apply (routers_refine prog root0 root wf_root0 Hroot). Qed.

  Lemma root_end : r_end root = true.
  Proof. destruct (routers_refine prog root0 root wf_root0 Hroot) as (_ & _ & E & _). exact E. Qed.

  Lemma lookup_end t n : lookup root t = Some n -> r_end n = true -> route_pattern prog t.
  Proof.
    intros Hl He. apply table_end. rewrite <- root_obs. unfold obs. rewrite Hl. cbn [ask]. congruence.
  Qed.

  Lemma end_lookup t : route_pattern prog t -> ~ evicted prog t -> exists n, lookup root t = Some n /\ r_end n = true.
  Proof.
    intros [->|Hin] Hs.
    - exists root. split; [reflexivity|apply root_end].
    - apply not_evicted_safe in Hs.
      pose proof (table_end_complete (events prog) T0 t Hs Hin) as H. rewrite <- root_obs in H.
      unfold obs in H. destruct (lookup root t) as [n|]; [|discriminate].
      exists n. split; [reflexivity|]. cbn [ask] in H. congruence.
  Qed.

  Lemma conforms_front t ps pv front s u : conforms t ps pv -> t = front ++ s :: u ->
    Forall (fun x => is_wild_seg x = false) front /\ (is_wild_seg s = true -> u = []).
  Proof.
    intros H. revert front; induction H; intros front Ht.
    - destruct front; discriminate.
    - destruct front as [|f front]; cbn in Ht; injection Ht as <- Ht.
      + split; [constructor|]. unfold is_wild_seg. rewrite H. discriminate.
      + destruct (IHconforms _ Ht) as [A B]. split; [|exact B]. constructor; [|exact A].
        unfold is_wild_seg. rewrite H. reflexivity.
    - destruct front as [|f front]; cbn in Ht; injection Ht as <- Ht.
      + split; [constructor|]. unfold is_wild_seg. rewrite H. discriminate.
      + destruct (IHconforms _ Ht) as [A B]. split; [|exact B]. constructor; [|exact A].
        unfold is_wild_seg. rewrite H. reflexivity.
    - destruct front as [|f front]; cbn in Ht; injection Ht as <- Ht.
      + split; [constructor|]. unfold is_wild_seg. rewrite H. discriminate.
      + destruct (IHconforms _ Ht) as [A B]. split; [|exact B]. constructor; [|exact A].
        unfold is_wild_seg. rewrite H. reflexivity.
    - destruct front as [|f front]; cbn in Ht; injection Ht as <- Ht.
      + split; [constructor|auto].
      + destruct front; discriminate.
  Qed.

  Lemma shadowed_prog path : shadowed root (segs path) -> shadows prog path.
  Proof.
    intros (t & n & pv & Hl & He & Hc & (front & s & -> & Hs)).
    assert (Hex : apply_all (events prog) T0 (front ++ [s]) QEx = AB true).
    { rewrite <- root_obs. unfold obs. rewrite Hl. reflexivity. }
    apply table_ex in Hex as [Hnil|(x & Hx)]; [destruct front; discriminate|].
    assert (Hnw : Forall (fun y => is_wild_seg y = false) (front ++ [s])).
    { apply Forall_app. split; [eapply conforms_front; [exact Hc|reflexivity]|].
      constructor; [|constructor]. unfold is_static_seg, is_wild_seg in *. destruct (parse_seg s); congruence. }
    assert (Hnr : ~ route_pattern prog (front ++ [s])).
    { intros Hr. destruct (end_lookup _ Hr) as (n' & Hl' & He').
      - intros (f & w & w' & rest & Heq & _ & Hw & _). rewrite Heq in Hnw.
        apply Forall_app in Hnw as [_ Hnw]. inversion Hnw; congruence.
      - congruence. }
    exists (front ++ [s]), x, front, s, pv. split; [|auto 6].
    intros ->. rewrite app_nil_r in Hx. apply Hnr. right. exact Hx.
  Qed.

  Lemma segs_split path : segs path <> [] ->
    split_route_path path = segs path /\ exists p0 ps, segs path = p0 :: ps /\ is_nil p0 = false.
  Proof.
    intros Hn. rewrite split_route_path_segs. pose proof (segs_nonempty path) as HF.
    destruct (segs path) as [|p0 ps]; [congruence|]. split; [reflexivity|]. exists p0, ps. split; [reflexivity|].
    inversion HF; subst. destruct p0; [congruence|reflexivity].
  Qed.

  Lemma select_root path : segs path = [] -> select_route root path = Some (MRes [] root []).
  Proof. intros H. unfold select_route. rewrite split_route_path_segs, H. reflexivity. Qed.

  Lemma select_deep path : segs path <> [] ->
    select_route root path =
    match rmatch (segs path) root with
    | Some x => if r_end (m_route x) then Some x else None
    | None => None
    end.
  Proof.
    intros H. unfold select_route. destruct (segs_split path H) as (-> & p0 & ps & -> & E). rewrite E. reflexivity.
  Qed.

  Lemma select_sound path x : select_route root path = Some x ->
    lookup root (m_trail x) = Some (m_route x) /\ r_end (m_route x) = true /\
    conforms (m_trail x) (segs path) (m_params x).
  Proof.
    destruct (segs path) as [|p0 ps] eqn:Es.
    - rewrite select_root by exact Es. intros [= <-]. cbn. split; [reflexivity|]. split; [apply root_end|constructor].
    - rewrite select_deep by congruence. rewrite Es.
      destruct (rmatch (p0 :: ps) root) as [m|] eqn:Em; [|discriminate].
      destruct (r_end (m_route m)) eqn:Ee; [|discriminate]. intros [= <-].
      destruct (rmatch_sound _ _ _ root_wf Em) as (A & _ & B & _). auto.
  Qed.

  Lemma select_action_sound n t m ra act :
    lookup root t = Some n -> select_action n m = Some (ra, act) ->
    exists d, declared prog d /\ d_pat d = t /\ decl_action d = Some ra /\ method_ok m d.
  Proof.
    intros Hl Hs.
    assert (HO : forall q, apply_all (events prog) T0 t q = ask n q).
    { intros q. rewrite <- root_obs. unfold obs. rewrite Hl. reflexivity. }
    assert (Hcase : aget (r_acts n) m = Some ra \/ r_all n = Some ra \/ r_any n = Some ra).
    { unfold select_action in Hs. destruct (aget (r_acts n) m) as [a|]; [left; congruence|].
      destruct (r_all n) as [a|].
      - destruct (is_func (ra_ctl a) || _); [injection Hs as -> _; auto|].
        destruct (negb _); [injection Hs as -> _; auto|].
        destruct (r_any n) as [y|]; [|discriminate].
        destruct (is_func (ra_ctl y) || _); [injection Hs as -> _; auto|discriminate].
      - destruct (r_any n) as [y|]; [|discriminate].
        destruct (is_func (ra_ctl y) || _); [injection Hs as -> _; auto|discriminate]. }
    unfold method_ok, declared. destruct Hcase as [H|[H|H]].
    - assert (HT : apply_all (events prog) T0 t (QAct m) = AR (Some ra)) by (rewrite HO; cbn; congruence).
      destruct (table_action _ _ _ _ HT) as (d & A & B & C & [K|[K1 K2]]).
      + exists d. apply decl_key_act in K. auto.
      + injection K1 as ->. apply decl_key_act in K2. exists d. auto 8.
    - assert (HT : apply_all (events prog) T0 t QAll = AR (Some ra)) by (rewrite HO; cbn; congruence).
      destruct (table_action _ _ _ _ HT) as (d & A & B & C & [K|[K1 K2]]); [|discriminate].
      exists d. apply decl_key_all in K. auto 9.
    - assert (HT : apply_all (events prog) T0 t QAny = AR (Some ra)) by (rewrite HO; cbn; congruence).
      destruct (table_action _ _ _ _ HT) as (d & A & B & C & [K|[K1 K2]]); [|discriminate].
      exists d. apply decl_key_any in K. auto 10.
  Qed.

  Lemma lookup_order front n : lookup root front = Some n -> Forall (fun s => is_wild_seg s = false) front ->
    order_ok (events prog) front (order n).
  Proof.
    intros Hl Hw. destruct (table_order (events prog) front Hw) as (l & Hq & Hok).
    rewrite <- root_obs in Hq. unfold obs in Hq. rewrite Hl in Hq. injection Hq as <-. exact Hok.
  Qed.

  Lemma plain_text s n : parse_seg s = SParam n [] -> s = colon :: n.
  Proof.
    unfold parse_seg. destruct s as [|c x]; [discriminate|].
    destruct (Ascii.eqb_spec c colon) as [->|Hc].
    - destruct x as [|d y]; [discriminate|]. unfold cut_colon.
      destruct (index_byte colon (d :: y)) as [i|] eqn:E.
      + intros [= _ H]. apply index_byte_some in E as (l & r & Hlr & <- & _).
        rewrite Hlr, skipn_app_len in H. discriminate.
      + intros [= ->]. reflexivity.
    - destruct x as [|d y]; [discriminate|]. destruct (_ && _); [|discriminate]. destruct y; discriminate.
  Qed.

  Lemma prio_preferred ps : forall front r t t' pv pv',
    lookup root front = Some r -> Forall (fun s => is_wild_seg s = false) front ->
    prio r t t' -> conforms t ps pv -> conforms t' ps pv' ->
    (t <> [] -> lookup r t' <> None) ->
    preferred (events prog) (front ++ t) (front ++ t').
  Proof.
    intros front r t t' pv pv' Hl Hw Hp. revert front pv pv' Hl Hw ps.
    induction Hp as [r t|r s t s' t' H1 H2|r s t s' t' c c' H1 H2 H3|r s t s' t' H1 H2|r s c t t' H1 Hp IH];
      intros front pv pv' Hl Hw ps Hc Hc' Hlk.
    - left. reflexivity.
    - right. exists front, s, t, s', t'. split; [reflexivity|]. split; [reflexivity|]. apply sb_static; assumption.
    - right. exists front, s, t, s', t'. split; [reflexivity|]. split; [reflexivity|].
      pose proof (lookup_order _ _ Hl Hw) as Hok.
      pose proof (wf_here r (fun t n H => root_wf (front ++ t) n ltac:(rewrite lookup_app, Hl; exact H))) as Hlw.
      assert (Hs : pp_path (r_pp c) = s) by (rewrite (find_child_pp _ _ _ Hlw H1); apply pp_set_path).
      assert (Hs' : pp_path (r_pp c') = s') by (rewrite (find_child_pp _ _ _ Hlw H2); apply pp_set_path).
      assert (Hlb : lbefore s s' (order r)).
      { destruct H3 as (l1 & l2 & l3 & E). unfold order. rewrite E, map_app. cbn [map]. rewrite map_app. cbn [map].
        rewrite Hs, Hs'. eexists _, _, _. reflexivity. }
      assert (Hin : In c (r_params r) /\ In c' (r_params r)).
      { destruct H3 as (l1 & l2 & l3 & E). rewrite E. split; [apply in_elt|].
        apply in_app_iff. right. right. apply in_elt. }
      destruct (lbefore_in _ _ _ Hlb) as [Ls Ls'].
      apply (oo_mem _ _ _ Hok) in Ls as [_ Ks]. apply (oo_mem _ _ _ Hok) in Ls' as [_ Ks'].
      destruct Ks' as [Kv'|Kp'].
      + destruct (oo_verb _ _ _ Hok _ _ Hlb Kv') as [(n & v & A & B) Ho]. destruct Kv' as (n' & v' & A' & B').
        eapply sb_newer; eauto.
      + destruct Ks as [(n & v & A & B)|Kp].
        * destruct Kp' as (n' & A'). eapply sb_verb; eauto.
        * exfalso. destruct Kp as (n & A). destruct Kp' as (n' & A').
          assert (Hn : n = n').
          { pose proof (lwf_names r Hlw c c' (proj1 Hin) (proj2 Hin)) as Hnm.
            rewrite (find_child_pp _ _ _ Hlw H1), (find_child_pp _ _ _ Hlw H2) in Hnm.
            apply parse_param_pp in A as (_ & _ & <-). apply parse_param_pp in A' as (_ & _ & <-). exact Hnm. }
          apply plain_text in A. apply plain_text in A'. subst n' s s'.
          destruct Hlb as (l1 & l2 & l3 & E).
          pose proof (lwf_nodup r Hlw) as Hnd. fold (order r) in Hnd.
          rewrite E in Hnd. apply NoDup_remove_2 in Hnd. apply Hnd.
          apply in_app_iff. right. rewrite A, <- A'. apply in_elt.
    - right. exists front, s, t, s', t'. split; [reflexivity|]. split; [reflexivity|]. apply sb_wild; assumption.
    - destruct (is_wild_seg s) eqn:Ews.
      + destruct (conforms_front _ _ _ [] s t Hc eq_refl) as [_ E1].
        destruct (conforms_front _ _ _ [] s t' Hc' eq_refl) as [_ E2].
        rewrite (E1 Ews), (E2 Ews). left. reflexivity.
      + assert (Htail : exists ps' pv1 pv2, conforms t ps' pv1 /\ conforms t' ps' pv2).
        { inversion Hc; subst; inversion Hc'; subst; try congruence; eauto;
          try (unfold is_wild_seg in Ews; match goal with H : parse_seg _ = SWild _ |- _ => rewrite H in Ews end; discriminate). }
        destruct Htail as (ps' & pv1 & pv2 & C1 & C2).
        assert (Hl' : lookup root (front ++ [s]) = Some c).
        { rewrite lookup_app, Hl. cbn [lookup]. rewrite H1. reflexivity. }
        assert (Hw' : Forall (fun s => is_wild_seg s = false) (front ++ [s])).
        { apply Forall_app. split; [exact Hw|]. constructor; [exact Ews|constructor]. }
        assert (Hlk' : t <> [] -> lookup c t' <> None).
        { intros _. specialize (Hlk ltac:(discriminate)). cbn [lookup] in Hlk. rewrite H1 in Hlk. exact Hlk. }
        pose proof (IH (front ++ [s]) pv1 pv2 Hl' Hw' ps' C1 C2 Hlk') as Hpr.
        rewrite <- !app_assoc in Hpr. exact Hpr.
  Qed.

  (** selection is the best declared pattern that conforms *)
  Theorem select_best path pat pv :
    route_pattern prog pat -> ~ evicted prog pat -> conforms pat (segs path) pv -> ~ shadows prog path ->
    exists x, select_route root path = Some x /\ preferred (events prog) (m_trail x) pat.
  Proof.
    intros Hr He Hc Hs. destruct (segs path) as [|p0 ps] eqn:Es.
    - apply conforms_nil in Hc. subst. exists (MRes [] root []). split; [apply select_root; exact Es|left; reflexivity].
    - destruct (end_lookup _ Hr He) as (n & Hl & Hn).
      assert (Hns : ~ shadowed root (p0 :: ps)).
      { rewrite <- Es. intros Hx. apply Hs. apply shadowed_prog. exact Hx. }
      destruct (rmatch_best (p0 :: ps) root root_wf ltac:(discriminate) Hns pat n pv Hl Hn Hc) as (m & Hm & Hme & Hp).
      exists m. split; [rewrite select_deep by congruence; rewrite Es, Hm, Hme; reflexivity|].
      destruct (rmatch_sound _ _ _ root_wf Hm) as (_ & _ & Hcm & _).
      apply (prio_preferred (p0 :: ps) [] root (m_trail m) pat (m_params m) pv); auto.
      congruence.
  Qed.

  (** the action stored for the latest declaration *)
  Lemma latest_action n t m d : lookup root t = Some n -> ~ evicted prog t -> latest prog t m d ->
    m <> mHEAD -> ask n (decl_key m) = AR (decl_action d).
  Proof.
    intros Hl He (e1 & e2 & Hev & Hp & Hm & Hlast) Hh. apply not_evicted_safe in He.
    assert (HO : obs root t (decl_key m) = ask n (decl_key m)) by (unfold obs; rewrite Hl; reflexivity).
    rewrite <- HO, root_obs, Hev, apply_all_app, apply_all_cons.
    rewrite Hev in He. apply safe_app in He as [_ He].
    rewrite table_key_keep.
    - unfold apply. rewrite Hp, leq_refl, Hm. cbn [andb].
      assert (E : qeqb (decl_key m) (decl_key m) = true) by (apply qeqb_true; reflexivity).
      rewrite E. reflexivity.
    - unfold decl_key. destruct (is_all m), (is_any m); exact I.
    - unfold decl_key. destruct (is_all m), (is_any m); congruence.
    - intros p Hin. apply He. right. exact Hin.
    - intros d' Hin Hpat Hk. apply (Hlast d' Hin Hpat).
      unfold decl_key in Hk. destruct (is_all (d_meth d')) eqn:A1, (is_all m) eqn:A2;
        destruct (is_any (d_meth d')) eqn:A3, (is_any m) eqn:A4; try discriminate;
        try (apply beq_true in A1; apply beq_true in A2; congruence);
        try (apply beq_true in A3; apply beq_true in A4; congruence); congruence.
  Qed.
End Prog.
