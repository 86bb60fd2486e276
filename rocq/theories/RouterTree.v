(** RouterTree: the route tree built by [routers] refines a flat table that is
    updated event by event. *)
From Coq Require Import List Ascii String Bool Arith Lia.
Import ListNotations.
From Verif Require Import GoStr GoPath GoTy RouterModel RouterSpec.

(** ** Monad inversion *)
Lemma bind_ok {A B} (x : res A) (f : A -> res B) b :
  bind x f = Ok b -> exists a, x = Ok a /\ f a = Ok b.
Proof. destruct x as [a|]; cbn; [eauto|discriminate]. Qed.

Ltac inv_bind H :=
  let a := fresh "a" in let Ha := fresh "Hb" in
  apply bind_ok in H as (a & Ha & H).

(** ** Segments *)
Lemma split_byte_sep c s : split_byte c (c :: s) = [] :: split_byte c s.
Proof. cbn [split_byte]. rewrite Ascii.eqb_refl. reflexivity. Qed.

Lemma split_route_path_segs p :
  split_route_path p = match segs p with [] => [[]] | l => l end.
Proof.
  unfold split_route_path, segs, path_clean_rooted.
  rewrite !split_byte_sep. cbn [clean_segs is_nil].
  pose proof (clean_split_good (trim_space p)) as Hg.
  set (l := clean_segs [] (split_byte slash (trim_space p))) in *.
  assert (Hj : l <> [] -> split_byte slash (join [slash] l) = l).
  { intros Hn. apply split_join; [exact Hn|].
    eapply Forall_impl; [|exact Hg]. intros a (_ & _ & _ & H). exact H. }
  cbn [tl]. destruct l as [|x l]; [reflexivity|]. apply Hj. discriminate.
Qed.

Lemma segs_good p : Forall good_seg (segs p).
Proof. apply clean_split_good. Qed.

Lemma segs_nonempty p : Forall (fun s => s <> []) (segs p).
Proof. eapply Forall_impl; [|apply segs_good]. intros a H; apply H. Qed.

Lemma pp_set_path p : pp_path (pp_set p) = p.
Proof.
  unfold pp_set. destruct (index_byte colon _); reflexivity.
Qed.

(** the model's pathParam.set agrees with the reading of segments *)
Lemma pp_set_parse p :
  match parse_seg p with
  | SStatic s => s = p /\ pp_isParam (pp_set p) = false /\ pp_isWild (pp_set p) = false
  | SParam n v => pp_isParam (pp_set p) = true /\ pp_isWild (pp_set p) = false /\
                  pp_name (pp_set p) = n /\ pp_verb (pp_set p) = v
  | SWild n => pp_isParam (pp_set p) = false /\ pp_isWild (pp_set p) = true /\ pp_name (pp_set p) = n
  end.
Proof.
  unfold parse_seg, pp_set. destruct p as [|c x].
  { cbn. auto. }
  destruct (Ascii.eqb_spec c colon) as [->|Hc].
  - destruct x as [|d y].
    + cbn. auto.
    + replace (Ascii.eqb colon star) with false by reflexivity. cbn [andb orb].
      cbn [skipn is_nil]. unfold cut_colon.
      destruct (index_byte colon (d :: y)) as [i|]; cbn [pp_isParam pp_isWild pp_name pp_verb]; auto.
  - destruct x as [|d y].
    + destruct (index_byte colon _); cbn; auto.
    + destruct (Ascii.eqb c star && Ascii.eqb d colon) eqn:E.
      * apply andb_true_iff in E as [E1 E2].
        apply Ascii.eqb_eq in E1. apply Ascii.eqb_eq in E2. subst.
        cbn [skipn]. destruct y as [|e y].
        -- cbn. auto.
        -- cbn [is_nil]. unfold cut_colon.
           destruct (index_byte colon (e :: y)) as [i|]; cbn; auto.
      * cbn [is_nil]. destruct (index_byte colon _); cbn; auto.
Qed.

Lemma parse_static p s : parse_seg p = SStatic s ->
  s = p /\ pp_isParam (pp_set p) = false /\ pp_isWild (pp_set p) = false.
Proof. intros H. pose proof (pp_set_parse p) as K. rewrite H in K. exact K. Qed.

Lemma isParam_parse p : pp_isParam (pp_set p) = true ->
  parse_seg p = SParam (pp_name (pp_set p)) (pp_verb (pp_set p)).
Proof.
  intros H. pose proof (pp_set_parse p) as K.
  destruct (parse_seg p) as [s|n v|n].
  - destruct K as (_ & K & _). congruence.
  - destruct K as (_ & _ & <- & <-). reflexivity.
  - destruct K as (K & _). congruence.
Qed.

Lemma isWild_parse p : pp_isWild (pp_set p) = true ->
  parse_seg p = SWild (pp_name (pp_set p)).
Proof.
  intros H. pose proof (pp_set_parse p) as K.
  destruct (parse_seg p) as [s|n v|n].
  - destruct K as (_ & _ & K). congruence.
  - destruct K as (_ & K & _). congruence.
  - destruct K as (_ & _ & <-). reflexivity.
Qed.

Lemma isStatic_parse p : pp_isParam (pp_set p) = false -> pp_isWild (pp_set p) = false ->
  parse_seg p = SStatic p.
Proof.
  intros H1 H2. pose proof (pp_set_parse p) as K.
  destruct (parse_seg p) as [s|n v|n].
  - destruct K as (-> & _). reflexivity.
  - destruct K as (K & _). congruence.
  - destruct K as (_ & K & _). congruence.
Qed.

Lemma is_wild_seg_pp p : is_wild_seg p = pp_isWild (pp_set p).
Proof.
  unfold is_wild_seg. pose proof (pp_set_parse p) as K.
  destruct (parse_seg p) as [s|n v|n].
  - destruct K as (_ & _ & ->). reflexivity.
  - destruct K as (_ & -> & _). reflexivity.
  - destruct K as (_ & -> & _). reflexivity.
Qed.

Lemma param_not_wild p : pp_isParam (pp_set p) = true -> pp_isWild (pp_set p) = false.
Proof.
  intros H. pose proof (pp_set_parse p) as K. rewrite (isParam_parse p H) in K. apply K.
Qed.

(** ** Filters *)
Lemma fmem_In f l : fmem f l = true <-> In f l.
Proof.
  unfold fmem. rewrite existsb_exists. split.
  - intros (x & Hx & E). apply Nat.eqb_eq in E. subst; exact Hx.
  - intros H. exists f. split; [exact H|apply Nat.eqb_refl].
Qed.

Lemma fmem_notIn f l : fmem f l = false <-> ~ In f l.
Proof. rewrite <- fmem_In. destruct (fmem f l); split; congruence. Qed.

Lemma fappend_In h vs f : In f (fappend h vs) <-> In f h \/ In f vs.
Proof.
  revert h; induction vs as [|v vs IH]; intros h; cbn [fappend].
  - cbn. tauto.
  - rewrite IH. destruct (fmem v h) eqn:E.
    + apply fmem_In in E. cbn. split; [tauto|]. intros [H|[->|H]]; auto.
    + rewrite in_app_iff. cbn. tauto.
Qed.

Lemma NoDup_snoc {A} (l : list A) x : NoDup l -> ~ In x l -> NoDup (l ++ [x]).
Proof.
  intros Hn Hx. induction l as [|a l IH]; cbn; [constructor; [auto|constructor]|].
  inversion Hn; subst. constructor.
  - rewrite in_app_iff. cbn. intros [H|[->|[]]]; [auto|]. apply Hx. left; reflexivity.
  - apply IH; [assumption|]. intros H; apply Hx; right; exact H.
Qed.

Lemma fappend_NoDup h vs : NoDup h -> NoDup (fappend h vs).
Proof.
  revert h; induction vs as [|v vs IH]; intros h Hn; cbn [fappend]; [exact Hn|].
  apply IH. destruct (fmem v h) eqn:E; [exact Hn|]. apply fmem_notIn in E.
  apply NoDup_snoc; assumption.
Qed.

Lemma fremove_In h vs f : In f (fremove h vs) <-> In f h /\ ~ In f vs.
Proof.
  unfold fremove. rewrite filter_In, negb_true_iff, fmem_notIn. reflexivity.
Qed.

Lemma fremove_NoDup h vs : NoDup h -> NoDup (fremove h vs).
Proof. apply NoDup_filter. Qed.

Lemma fappend_app h v1 v2 : fappend h (v1 ++ v2) = fappend (fappend h v1) v2.
Proof. revert h; induction v1 as [|v v1 IH]; intros h; cbn [fappend app]; auto. Qed.

(** appending what an (already deduplicated) append produced is the same as
    appending everything *)
Lemma fappend_old h v : (forall f, In f v -> In f h) -> fappend h v = h.
Proof.
  induction v as [|a v IH]; intros H; cbn [fappend]; [reflexivity|].
  assert (E : fmem a h = true) by (apply fmem_In, H; left; reflexivity).
  rewrite E. apply IH. intros f Hf; apply H; right; exact Hf.
Qed.

Lemma fappend_acc h acc vs : fappend h (fappend acc vs) = fappend (fappend h acc) vs.
Proof.
  revert acc; induction vs as [|v vs IH]; intros acc; cbn [fappend]; [reflexivity|].
  rewrite IH. destruct (fmem v acc) eqn:E.
  - apply fmem_In in E.
    assert (E' : fmem v (fappend h acc) = true) by (apply fmem_In, fappend_In; auto).
    rewrite E'. reflexivity.
  - f_equal. rewrite fappend_app. reflexivity.
Qed.

Lemma calc_filters_spec acc hs : calc_filters acc hs = fappend acc (lv_add (level_of hs)).
Proof.
  revert acc; induction hs as [|h hs IH]; intros acc; [reflexivity|].
  unfold level_of in *. cbn [lv_add] in *.
  destruct h; cbn [calc_filters flat_map]; try apply IH.
  rewrite fappend_app. apply IH.
Qed.

Lemma calc_exempts_spec acc hs : calc_exempts acc hs = fappend acc (lv_exempt (level_of hs)).
Proof.
  revert acc; induction hs as [|h hs IH]; intros acc; [reflexivity|].
  unfold level_of in *. cbn [lv_exempt] in *.
  destruct h; cbn [calc_exempts flat_map]; try apply IH.
  rewrite fappend_app. apply IH.
Qed.

(** filters in force after a list of levels *)
Definition eff_step (inh : filters) (l : level) : filters :=
  fremove (fappend inh (fappend [] (lv_add l))) (fappend [] (lv_exempt l)).
Definition eff (lvls : list level) : filters := fold_left eff_step lvls [].

Lemma eff_snoc lvls l : eff (lvls ++ [l]) = eff_step (eff lvls) l.
Proof. unfold eff. rewrite fold_left_app. reflexivity. Qed.

Lemma level_filters inh hs :
  fremove (fappend inh (calc_filters [] hs)) (calc_exempts [] hs) = eff_step inh (level_of hs).
Proof. unfold eff_step. rewrite calc_filters_spec, calc_exempts_spec. reflexivity. Qed.

Lemma eff_In lvls f :
  In f (eff lvls) <->
  exists outer l inner, lvls = outer ++ l :: inner /\ In f (lv_add l) /\
     Forall (fun l' => ~ In f (lv_exempt l')) (l :: inner).
Proof.
  induction lvls as [|l lvls IH] using rev_ind.
  - cbn. split; [intros []|]. intros (o & l & i & H & _). destruct o; discriminate.
  - rewrite eff_snoc. unfold eff_step. rewrite fremove_In, !fappend_In, IH. cbn [In].
    split.
    + intros [[(o & l' & i & -> & Ha & Hf)|[[]|Ha]] Hne].
      * exists o, l', (i ++ [l]). split; [rewrite <- app_assoc; reflexivity|]. split; [exact Ha|].
        inversion Hf; subst. constructor; [assumption|]. apply Forall_app. split; [assumption|].
        constructor; [|constructor]. intros Hx. apply Hne. right. exact Hx.
      * exists lvls, l, []. split; [reflexivity|]. split; [exact Ha|].
        constructor; [|constructor]. intros Hx. apply Hne. right. exact Hx.
    + intros (o & l' & i & He & Ha & Hf).
      destruct i as [|x i] using rev_ind.
      * apply app_inj_tail in He as [-> ->]. split; [right; right; exact Ha|].
        inversion Hf; subst. intros [[]|Hx]; auto.
      * clear IHi. rewrite app_comm_cons, app_assoc in He. apply app_inj_tail in He as [-> ->].
        split.
        -- left. exists o, l', i. split; [reflexivity|]. split; [exact Ha|].
           rewrite app_comm_cons in Hf. apply Forall_app in Hf. apply Hf.
        -- rewrite app_comm_cons in Hf. apply Forall_app in Hf as [_ Hf].
           inversion Hf; subst. intros [[]|Hx]; auto.
Qed.

Lemma eff_NoDup lvls : NoDup (eff lvls).
Proof.
  induction lvls as [|l lvls IH] using rev_ind; [constructor|].
  rewrite eff_snoc. apply fremove_NoDup, fappend_NoDup. exact IH.
Qed.

(** ** Well-formed trees *)
Record lwf (r : route) : Prop := {
  lwf_params : forall c, In c (r_params r) ->
      r_pp c = pp_set (pp_path (r_pp c)) /\ pp_isParam (r_pp c) = true;
  lwf_nodup : NoDup (map (fun c => pp_path (r_pp c)) (r_params r));
  lwf_static : forall k c, In (k, c) (r_static r) ->
      r_pp c = pp_set k /\ pp_isParam (r_pp c) = false /\ pp_isWild (r_pp c) = false;
  lwf_wild : forall w, r_wild r = Some w ->
      r_pp w = pp_set (pp_path (r_pp w)) /\ pp_isWild (r_pp w) = true /\ r_end w = true;
  lwf_names : forall c c', In c (r_params r) -> In c' (r_params r) ->
      pp_name (r_pp c) = pp_name (r_pp c')
}.

Fixpoint lookup (r : route) (t : list bytes) : option route :=
  match t with
  | [] => Some r
  | p :: t' => match find_child r p with Some c => lookup c t' | None => None end
  end.

Definition wf (r : route) : Prop := forall t n, lookup r t = Some n -> lwf n.

Lemma wf_here r : wf r -> lwf r.
Proof. intros H. apply (H []). reflexivity. Qed.

Lemma wf_child r p c : wf r -> find_child r p = Some c -> wf c.
Proof. intros H Hf t n Hl. apply (H (p :: t)). cbn. rewrite Hf. exact Hl. Qed.

Lemma wf_build r : lwf r -> (forall p c, find_child r p = Some c -> wf c) -> wf r.
Proof.
  intros Hl Hc [|p t] n H; cbn in H; [injection H as <-; exact Hl|].
  destruct (find_child r p) as [c|] eqn:E; [|discriminate]. eapply Hc; eauto.
Qed.

Lemma find_child_pp r p c : lwf r -> find_child r p = Some c -> r_pp c = pp_set p.
Proof.
  intros H. unfold find_child.
  destruct (find _ (r_params r)) as [x|] eqn:E.
  - intros [= ->]. apply find_some in E as [Hin Hp]. apply beq_true in Hp.
    apply (lwf_params r H) in Hin as [Hpp _]. congruence.
  - destruct (aget (r_static r) p) as [x|] eqn:E2.
    + intros [= ->]. apply aget_in in E2. apply (lwf_static r H) in E2. apply E2.
    + destruct (r_wild r) as [w|] eqn:E3; [|discriminate].
      destruct (beq_spec (pp_path (r_pp w)) p) as [<-|]; [|discriminate].
      intros [= <-]. apply (lwf_wild r H) in E3. apply E3.
Qed.

Lemma find_child_param r c : lwf r -> In c (r_params r) -> find_child r (pp_path (r_pp c)) = Some c.
Proof.
  intros H Hin. unfold find_child.
  pose proof (lwf_nodup r H) as Hn. revert Hin Hn. generalize (r_params r) as l.
  induction l as [|x l IH]; [intros []|]. cbn [find map]. intros Hin Hn.
  inversion Hn as [|? ? Hx Hn']; subst.
  destruct (beq_spec (pp_path (r_pp x)) (pp_path (r_pp c))) as [Heq|Hne].
  - destruct Hin as [->|Hin]; [reflexivity|]. exfalso. apply Hx. rewrite Heq.
    apply in_map_iff. eauto.
  - destruct Hin as [->|Hin]; [congruence|]. apply IH; assumption.
Qed.

Lemma find_params_none r p : lwf r -> pp_isParam (pp_set p) = false ->
  find (fun er => beq (pp_path (r_pp er)) p) (r_params r) = None.
Proof.
  intros H Hp. destruct (find _ (r_params r)) as [x|] eqn:E; [|reflexivity].
  apply find_some in E as [Hin Hx]. apply beq_true in Hx.
  apply (lwf_params r H) in Hin as [Hpp Hpar]. rewrite Hpp, Hx in Hpar. congruence.
Qed.

Lemma aget_static_none r p : lwf r -> pp_isParam (pp_set p) = true \/ pp_isWild (pp_set p) = true ->
  aget (r_static r) p = None.
Proof.
  intros H Hp. destruct (aget (r_static r) p) as [x|] eqn:E; [|reflexivity].
  apply aget_in in E. apply (lwf_static r H) in E as (Hpp & H1 & H2).
  rewrite Hpp in H1, H2. destruct Hp; congruence.
Qed.

Lemma find_child_static r p c : lwf r -> aget (r_static r) p = Some c -> find_child r p = Some c.
Proof.
  intros H E. unfold find_child.
  pose proof (aget_in _ _ _ E) as Hin. apply (lwf_static r H) in Hin as (Hpp & H1 & H2).
  rewrite find_params_none; [rewrite E; reflexivity|exact H|congruence].
Qed.

Lemma find_child_wild r w : lwf r -> r_wild r = Some w -> find_child r (pp_path (r_pp w)) = Some w.
Proof.
  intros H E. unfold find_child. pose proof (lwf_wild r H w E) as (Hpp & Hw & _).
  rewrite find_params_none; [|exact H|].
  - rewrite aget_static_none; [|exact H|right; congruence].
    rewrite E, beq_refl. reflexivity.
  - pose proof (pp_set_parse (pp_path (r_pp w))) as K. rewrite isWild_parse in K by congruence.
    apply K.
Qed.

(** ** attach *)
Lemma find_put_param l p rt q :
  pp_path (r_pp rt) = p ->
  find (fun er => beq (pp_path (r_pp er)) q) (put_param l p rt) =
  if beq p q then (match find (fun er => beq (pp_path (r_pp er)) p) l with Some _ => Some rt | None => None end)
  else find (fun er => beq (pp_path (r_pp er)) q) l.
Proof.
  intros Hp. induction l as [|x l IH]; cbn [put_param find].
  - destruct (beq p q); reflexivity.
  - destruct (beq_spec (pp_path (r_pp x)) p) as [Hx|Hx]; cbn [find].
    + rewrite Hp, Hx. destruct (beq_spec p q); reflexivity.
    + rewrite IH. destruct (beq_spec (pp_path (r_pp x)) q) as [Hq|Hq].
      * destruct (beq_spec p q); congruence.
      * reflexivity.
Qed.

Lemma put_param_map {B} (f : route -> B) l p rt :
  (forall c, In c l -> pp_path (r_pp c) = p -> f c = f rt) ->
  map f (put_param l p rt) = map f l.
Proof.
  intros H. induction l as [|x l IH]; [reflexivity|]. cbn [put_param].
  destruct (beq_spec (pp_path (r_pp x)) p) as [Hx|Hx]; cbn [map].
  - rewrite (H x); [reflexivity|left; reflexivity|exact Hx].
  - rewrite IH; [reflexivity|]. intros c Hc; apply H; right; exact Hc.
Qed.

Lemma In_put_param l p rt c : In c (put_param l p rt) -> c = rt \/ In c l.
Proof.
  induction l as [|x l IH]; cbn [put_param]; [intros []|].
  destruct (beq (pp_path (r_pp x)) p); intros [->|H]; cbn; auto.
  destruct (IH H); auto.
Qed.

Definition is_new (r : route) (p : bytes) : bool :=
  match find_child r p with Some _ => false | None => true end.

Lemma existsb_names l n :
  existsb (fun er => negb (beq (pp_name (r_pp er)) n)) l = false ->
  forall c, In c l -> pp_name (r_pp c) = n.
Proof.
  intros H c Hc. destruct (beq_spec (pp_name (r_pp c)) n) as [E|E]; [exact E|].
  exfalso. assert (existsb (fun er => negb (beq (pp_name (r_pp er)) n)) l = true).
  { apply existsb_exists. exists c. split; [exact Hc|]. apply beq_false in E. rewrite E. reflexivity. }
  congruence.
Qed.

(** the texts of the parameter children, in matching order *)
Definition order (r : route) : list bytes := map (fun c => pp_path (r_pp c)) (r_params r).

Definition bmem (p : bytes) (l : list bytes) : bool := existsb (beq p) l.

(** linking segment [p]: a new verb parameter goes first, a plain one last *)
Definition ins (p : bytes) (l : list bytes) : list bytes :=
  match parse_seg p with
  | SParam _ v => if bmem p l then l else if is_nil v then l ++ [p] else p :: l
  | _ => l
  end.

Lemma bmem_In p l : bmem p l = true <-> In p l.
Proof.
  unfold bmem. rewrite existsb_exists. split.
  - intros (x & Hx & E). apply beq_true in E. subst; exact Hx.
  - intros H. exists p. split; [exact H|apply beq_refl].
Qed.

Lemma ins_idem p l : ins p (ins p l) = ins p l.
Proof.
  unfold ins. destruct (parse_seg p) as [s|n v|n]; try reflexivity.
  destruct (bmem p l) eqn:E; [rewrite E; reflexivity|].
  destruct (is_nil v).
  - assert (H : bmem p (l ++ [p]) = true) by (apply bmem_In, in_app_iff; right; left; reflexivity).
    rewrite H. reflexivity.
  - assert (H : bmem p (p :: l) = true) by (apply bmem_In; left; reflexivity).
    rewrite H. reflexivity.
Qed.

(** what linking a child does to lookups of children *)
Lemma attach_spec r p rt r' :
  lwf r -> r_pp rt = pp_set p -> (pp_isWild (pp_set p) = true -> r_end rt = true) ->
  attach r (is_new r p) rt = Ok r' ->
  lwf r' /\ r_pp r' = r_pp r /\ r_end r' = r_end r /\ r_acts r' = r_acts r /\
  r_all r' = r_all r /\ r_any r' = r_any r /\
  order r' = ins p (order r) /\
  forall q, find_child r' q =
    if beq p q then Some rt
    else if pp_isWild (pp_set p) && pp_isWild (pp_set q) then None
    else find_child r q.
Proof.
  intros Hl Hpp Hend Ha. unfold attach in Ha. rewrite Hpp in Ha.
  destruct (pp_isParam (pp_set p)) eqn:Epar.
  - (* param *)
    pose proof (param_not_wild p Epar) as Ew. rewrite Ew. cbn [andb].
    destruct (existsb _ (r_params r)) eqn:Ex; [discriminate|].
    pose proof (existsb_names _ _ Ex) as Hnames. clear Ex.
    injection Ha as <-. cbn [r_pp r_end r_acts r_all r_any r_params r_static r_wild].
    assert (Hst : aget (r_static r) p = None) by (apply aget_static_none; auto).
    assert (Hfc : find_child r p = find (fun er => beq (pp_path (r_pp er)) p) (r_params r)).
    { unfold find_child. destruct (find _ _); [reflexivity|]. rewrite Hst.
      destruct (r_wild r) as [w|] eqn:E; [|reflexivity].
      destruct (beq_spec (pp_path (r_pp w)) p) as [Hw|]; [|reflexivity].
      apply (lwf_wild r Hl) in E as (Hwp & Hww & _). rewrite Hwp, Hw in Hww. congruence. }
    assert (Hptrt : pp_path (r_pp rt) = p) by (rewrite Hpp; apply pp_set_path).
    unfold is_new. rewrite Hfc.
    destruct (find (fun er => beq (pp_path (r_pp er)) p) (r_params r)) as [old|] eqn:Eold.
    + (* replace *)
      rewrite pp_set_path.
      assert (Hsame : forall c, In c (r_params r) -> pp_path (r_pp c) = p -> r_pp c = r_pp rt).
      { intros c Hc Hcp. apply (lwf_params r Hl) in Hc as [Hc _]. congruence. }
      split.
      { constructor; cbn [r_params r_static r_wild].
        - intros c Hc. apply In_put_param in Hc as [->|Hc].
          + split; [rewrite Hptrt; exact Hpp|congruence].
          + apply (lwf_params r Hl). exact Hc.
        - rewrite put_param_map; [apply (lwf_nodup r Hl)|].
          intros c Hc Hcp. rewrite (Hsame c Hc Hcp). reflexivity.
        - apply (lwf_static r Hl).
        - apply (lwf_wild r Hl).
        - intros c c' Hc Hc'.
          apply In_put_param in Hc as [->|Hc]; apply In_put_param in Hc' as [->|Hc'];
            rewrite ?Hpp; rewrite ?(Hnames _ Hc), ?(Hnames _ Hc'); reflexivity. }
      repeat (split; [reflexivity|]).
      split.
      { unfold order. cbn [r_params]. rewrite put_param_map by (intros c Hc Hcp; rewrite (Hsame c Hc Hcp); reflexivity).
        unfold ins. rewrite (isParam_parse p Epar).
        assert (Hm : bmem p (map (fun c => pp_path (r_pp c)) (r_params r)) = true).
        { apply bmem_In. apply find_some in Eold as [Ho1 Ho2]. apply beq_true in Ho2.
          apply in_map_iff. eauto. }
        rewrite Hm. reflexivity. }
      intros q. unfold find_child. cbn [r_params r_static r_wild].
      rewrite find_put_param by exact Hptrt. rewrite Eold.
      destruct (beq_spec p q); reflexivity.
    + (* insert *)
      assert (Hnot : ~ In p (map (fun c => pp_path (r_pp c)) (r_params r))).
      { intros Hin. apply in_map_iff in Hin as (c & Hcp & Hc).
        pose proof (find_none _ _ Eold c Hc) as Hf. cbn in Hf.
        apply beq_false in Hf. congruence. }
      set (params := if negb (is_nil (pp_verb (pp_set p))) then rt :: r_params r else r_params r ++ [rt]).
      assert (Hin : forall c, In c params <-> c = rt \/ In c (r_params r)).
      { intros c. unfold params. destruct (negb _); cbn [In].
        - split; intros [H|H]; auto.
        - rewrite in_app_iff. cbn. split; [intros [H|[H|[]]]|intros [H|H]]; auto. }
      assert (Hfind : forall q, find (fun er => beq (pp_path (r_pp er)) q) params =
                 if beq p q then Some rt else find (fun er => beq (pp_path (r_pp er)) q) (r_params r)).
      { intros q. unfold params. destruct (negb _).
        - cbn [find]. rewrite Hptrt. reflexivity.
        - assert (Hgen : forall l, (forall c, In c l -> pp_path (r_pp c) <> p) ->
                     find (fun er => beq (pp_path (r_pp er)) q) (l ++ [rt]) =
                     if beq p q then Some rt else find (fun er => beq (pp_path (r_pp er)) q) l).
          { induction l as [|x l IH]; intros Hx; cbn [app find].
            - rewrite Hptrt. destruct (beq p q); reflexivity.
            - destruct (beq_spec (pp_path (r_pp x)) q) as [Hq|Hq].
              + destruct (beq_spec p q) as [Hpq|]; [|reflexivity].
                exfalso. apply (Hx x); [left; reflexivity|congruence].
              + apply IH. intros c Hc; apply Hx; right; exact Hc. }
          apply Hgen. intros c Hc Hcp. apply Hnot. apply in_map_iff. eauto. }
      split.
      { constructor; cbn [r_params r_static r_wild].
        - intros c Hc. apply Hin in Hc as [->|Hc].
          + split; [rewrite Hptrt; exact Hpp|congruence].
          + apply (lwf_params r Hl). exact Hc.
        - unfold params. destruct (negb _); cbn [map].
          + constructor; [rewrite Hptrt; exact Hnot|apply (lwf_nodup r Hl)].
          + rewrite map_app. cbn [map]. apply NoDup_snoc; [apply (lwf_nodup r Hl)|].
            rewrite Hptrt. exact Hnot.
        - apply (lwf_static r Hl).
        - apply (lwf_wild r Hl).
        - intros c c' Hc Hc'.
          apply Hin in Hc as [->|Hc]; apply Hin in Hc' as [->|Hc'];
            rewrite ?Hpp; rewrite ?(Hnames _ Hc), ?(Hnames _ Hc'); reflexivity. }
      repeat (split; [reflexivity|]).
      split.
      { unfold order. cbn [r_params]. unfold ins. rewrite (isParam_parse p Epar).
        assert (Hm : bmem p (map (fun c => pp_path (r_pp c)) (r_params r)) = false).
        { destruct (bmem p _) eqn:E; [|reflexivity]. apply bmem_In in E. contradiction. }
        rewrite Hm. unfold params. destruct (is_nil (pp_verb (pp_set p))); cbn [negb].
        - rewrite map_app. cbn [map]. rewrite Hptrt. reflexivity.
        - cbn [map]. rewrite Hptrt. reflexivity. }
      intros q. unfold find_child. cbn [r_params r_static r_wild].
      rewrite Hfind. destruct (beq p q); reflexivity.
  - destruct (pp_isWild (pp_set p)) eqn:Ew.
    + (* wild *)
      destruct (match r_wild r with Some w => _ | None => _ end); [discriminate|].
      injection Ha as <-. cbn [r_pp r_end r_acts r_all r_any r_params r_static r_wild].
      assert (Hptrt : pp_path (r_pp rt) = p) by (rewrite Hpp; apply pp_set_path).
      split.
      { constructor; cbn [r_params r_static r_wild];
          [apply (lwf_params r Hl)|apply (lwf_nodup r Hl)|apply (lwf_static r Hl)| |apply (lwf_names r Hl)].
        intros w [= <-]. rewrite Hptrt, Hpp. auto. }
      repeat (split; [reflexivity|]).
      split; [unfold order, ins; rewrite (isWild_parse p Ew); reflexivity|].
      intros q. unfold find_child. cbn [r_params r_static r_wild]. rewrite Hptrt.
      destruct (beq_spec p q) as [<-|Hpq].
      * rewrite find_params_none by assumption.
        rewrite aget_static_none by auto. reflexivity.
      * cbn [andb]. destruct (find _ (r_params r)) as [x|] eqn:Ef.
        -- destruct (pp_isWild (pp_set q)) eqn:Eq; [|reflexivity].
           exfalso. apply find_some in Ef as [Hx1 Hx2]. apply beq_true in Hx2.
           apply (lwf_params r Hl) in Hx1 as [Hx1 Hx3]. rewrite Hx1, Hx2 in Hx3.
           apply param_not_wild in Hx3. congruence.
        -- destruct (aget (r_static r) q) as [x|] eqn:Es.
           ++ destruct (pp_isWild (pp_set q)) eqn:Eq; [|reflexivity].
              rewrite aget_static_none in Es by auto. discriminate.
           ++ destruct (pp_isWild (pp_set q)) eqn:Eq; [reflexivity|].
              destruct (r_wild r) as [w|] eqn:Ewr; [|reflexivity].
              destruct (beq_spec (pp_path (r_pp w)) q) as [Hw|]; [|reflexivity].
              apply (lwf_wild r Hl) in Ewr as (Hwp & Hww & _). rewrite Hwp, Hw in Hww. congruence.
    + (* static *)
      injection Ha as <-. cbn [r_pp r_end r_acts r_all r_any r_params r_static r_wild andb].
      rewrite pp_set_path.
      split.
      { constructor; cbn [r_params r_static r_wild];
          [apply (lwf_params r Hl)|apply (lwf_nodup r Hl)| |apply (lwf_wild r Hl)|apply (lwf_names r Hl)].
        intros k c Hin. apply in_aset in Hin as [[-> ->]|Hin]; [|apply (lwf_static r Hl); exact Hin].
        rewrite Hpp. auto. }
      repeat (split; [reflexivity|]).
      split; [unfold order, ins; rewrite (isStatic_parse p Epar Ew); reflexivity|].
      intros q. unfold find_child. cbn [r_params r_static r_wild].
      destruct (beq_spec p q) as [<-|Hpq].
      * rewrite find_params_none by assumption. rewrite aget_aset_same. reflexivity.
      * rewrite aget_aset_other by exact Hpq. reflexivity.
Qed.
