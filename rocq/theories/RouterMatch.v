(** RouterMatch: what [rmatch] finds in a well-formed tree. *)
From Coq Require Import List Ascii String Bool Arith Lia.
Import ListNotations.
From Verif Require Import GoStr GoPath GoTy RouterModel RouterSpec RouterTree RouterRefine.

(** the three stages of [rmatch], named *)
Definition stage_static (p : bytes) (paths : list bytes) (r : route) : option mres :=
  match aget (r_static r) p with
  | None => None
  | Some c =>
      match paths with
      | [] => Some (push c [] (MRes [] c []))
      | _ :: _ =>
          match rmatch paths c with
          | None => None
          | Some m => Some (push c [] (if r_end (m_route m) then m else MRes (m_trail m) (m_route m) []))
          end
      end
  end.

Definition try_param (p : bytes) (paths : list bytes) (pr : route) : option mres :=
  match match_param (r_pp pr) p with
  | None => None
  | Some v =>
      match paths with
      | [] => if r_end pr then Some (push pr [(pp_name (r_pp pr), v)] (MRes [] pr [])) else None
      | _ :: _ =>
          match rmatch paths pr with
          | Some m => if r_end (m_route m) then Some (push pr [(pp_name (r_pp pr), v)] m) else None
          | None => None
          end
      end
  end.

Fixpoint stage_params (p : bytes) (paths : list bytes) (prs : list route) : option mres :=
  match prs with
  | [] => None
  | pr :: prs' => match try_param p paths pr with Some m => Some m | None => stage_params p paths prs' end
  end.

Definition stage_wild (next : list bytes) (w : route) : mres :=
  push w [(pp_name (r_pp w), join [slash] next)] (MRes [] w []).

Lemma rmatch_unfold p paths r :
  rmatch (p :: paths) r =
  let rt := match stage_static p paths r with
            | Some m => Some m
            | None => stage_params p paths (r_params r)
            end in
  match (match rt with Some m => r_end (m_route m) | None => false end), r_wild r with
  | true, _ => rt
  | false, None => rt
  | false, Some w => Some (stage_wild (p :: paths) w)
  end.
Proof.
  cbn [rmatch]. fold (stage_static p paths r).
  assert (H : forall prs, (fix loop (prs : list route) : option mres :=
               match prs with
               | [] => None
               | pr :: prs' =>
                   match match_param (r_pp pr) p with
                   | None => loop prs'
                   | Some v =>
                       match paths with
                       | [] =>
                           if r_end pr then Some (push pr [(pp_name (r_pp pr), v)] (MRes [] pr []))
                           else loop prs'
                       | _ :: _ =>
                           match rmatch paths pr with
                           | Some m => if r_end (m_route m) then Some (push pr [(pp_name (r_pp pr), v)] m) else loop prs'
                           | None => loop prs'
                           end
                       end
                   end
               end) prs = stage_params p paths prs).
  { induction prs as [|pr prs IH]; [reflexivity|]. cbn [stage_params]. unfold try_param.
    destruct (match_param (r_pp pr) p); [|exact IH].
    destruct paths; [destruct (r_end pr); [reflexivity|exact IH]|].
    destruct (rmatch _ pr) as [m|]; [|exact IH]. destruct (r_end (m_route m)); [reflexivity|exact IH]. }
  rewrite H. reflexivity.
Qed.

Lemma match_param_some d p v :
  match_param d p = Some v -> pp_isParam d = true /\ p = v ++ pp_verb d.
Proof.
  unfold match_param. destruct (pp_isParam d); cbn [negb]; [|discriminate].
  destruct (pp_verb d) as [|c vb] eqn:E; cbn [is_nil negb].
  - intros [= <-]. rewrite app_nil_r. auto.
  - unfold trim_suffix. destruct (has_suffix p (c :: vb)) eqn:Es.
    + apply has_suffix_spec in Es as (t & ->).
      assert (Ht : firstn (List.length (t ++ c :: vb) - List.length (c :: vb)) (t ++ c :: vb) = t).
      { rewrite app_length. replace (_ + _ - _) with (List.length t) by lia. apply firstn_app_len. }
      rewrite Ht. destruct (Nat.eqb _ _); [discriminate|]. intros [= <-]. auto.
    + rewrite Nat.eqb_refl. discriminate.
Qed.

Lemma match_param_complete d v :
  pp_isParam d = true -> match_param d (v ++ pp_verb d) = Some v.
Proof.
  unfold match_param. intros ->. cbn [negb]. destruct (pp_verb d) as [|c vb] eqn:E; cbn [is_nil negb].
  - rewrite app_nil_r. reflexivity.
  - rewrite trim_suffix_app. rewrite app_length. cbn [List.length].
    destruct (Nat.eqb_spec (List.length v) (List.length v + S (List.length vb))); [lia|reflexivity].
Qed.

Lemma conforms_param s p v pat path ps :
  pp_isParam (pp_set s) = true -> p = v ++ pp_verb (pp_set s) -> conforms pat path ps ->
  conforms (s :: pat) (p :: path) ((pp_name (pp_set s), v) :: ps).
Proof.
  intros Hp -> Hc. pose proof (isParam_parse s Hp) as Hparse.
  destruct (pp_verb (pp_set s)) as [|c vb] eqn:E.
  - rewrite app_nil_r. apply cf_param; assumption.
  - rewrite <- E in *. eapply cf_verb; eauto. congruence.
Qed.

Definition last_static (t : list bytes) : Prop := exists u s, t = u ++ [s] /\ is_static_seg s = true.

Lemma last_static_cons p t : last_static t -> last_static (p :: t).
Proof. intros (u & s & -> & H). exists (p :: u), s. auto. Qed.

Lemma try_param_sound r c p paths m :
  wf r -> In c (r_params r) ->
  (paths <> [] -> forall m, rmatch paths c = Some m ->
     lookup c (m_trail m) = Some (m_route m) /\
     (r_end (m_route m) = true -> conforms (m_trail m) paths (m_params m))) ->
  try_param p paths c = Some m ->
  lookup r (m_trail m) = Some (m_route m) /\ r_end (m_route m) = true /\
  conforms (m_trail m) (p :: paths) (m_params m) /\
  exists t', m_trail m = pp_path (r_pp c) :: t'.
Proof.
  intros Hwf Hin IH. unfold try_param.
  destruct (match_param (r_pp c) p) as [v|] eqn:Ev; [|discriminate].
  pose proof (find_child_param r c (wf_here _ Hwf) Hin) as Hfc.
  pose proof (lwf_params r (wf_here _ Hwf) c Hin) as (Hpp & Hpar).
  set (s := pp_path (r_pp c)) in *.
  apply match_param_some in Ev as (_ & Hp). rewrite Hpp in Hp.
  assert (Hpar' : pp_isParam (pp_set s) = true) by congruence.
  destruct paths as [|p2 ps2].
  - destruct (r_end c) eqn:Ee; [|discriminate]. intros [= <-].
    cbn [push m_trail m_route m_params app]. fold s. cbn [lookup]. rewrite Hfc.
    split; [reflexivity|]. split; [exact Ee|]. split; [|eauto]. rewrite Hpp.
    apply conforms_param; [exact Hpar'|exact Hp|constructor].
  - destruct (rmatch (p2 :: ps2) c) as [m'|] eqn:Em; [|discriminate].
    destruct (r_end (m_route m')) eqn:Ee; [|discriminate]. intros [= <-].
    cbn [push m_trail m_route m_params app]. fold s. cbn [lookup]. rewrite Hfc.
    assert (Hne : p2 :: ps2 <> []) by discriminate.
    destruct (IH Hne m' eq_refl) as (Hl & Hc).
    split; [exact Hl|]. split; [exact Ee|]. split; [|eauto]. rewrite Hpp.
    apply conforms_param; auto.
Qed.

Lemma stage_params_some p paths prs m :
  stage_params p paths prs = Some m ->
  exists l1 c l2, prs = l1 ++ c :: l2 /\ try_param p paths c = Some m /\
    forall c', In c' l1 -> try_param p paths c' = None.
Proof.
  induction prs as [|c prs IH]; cbn [stage_params]; [discriminate|].
  destruct (try_param p paths c) as [m'|] eqn:E.
  - intros [= ->]. exists [], c, prs. split; [reflexivity|]. split; [exact E|]. intros c' [].
  - intros H. destruct (IH H) as (l1 & c' & l2 & -> & H1 & H2).
    exists (c :: l1), c', l2. split; [reflexivity|]. split; [exact H1|].
    intros x [->|Hx]; auto.
Qed.

Lemma stage_params_none p paths prs :
  stage_params p paths prs = None -> forall c, In c prs -> try_param p paths c = None.
Proof.
  induction prs as [|c prs IH]; cbn [stage_params]; [intros _ c []|].
  destruct (try_param p paths c) as [m'|] eqn:E; [discriminate|].
  intros H x [->|Hx]; auto.
Qed.

(** ** Soundness *)
Lemma rmatch_sound ps : forall r m, wf r -> rmatch ps r = Some m ->
  lookup r (m_trail m) = Some (m_route m) /\ m_trail m <> [] /\
  (r_end (m_route m) = true -> conforms (m_trail m) ps (m_params m)) /\
  (r_end (m_route m) = false -> last_static (m_trail m) /\ exists pv, conforms (m_trail m) ps pv).
Proof.
  induction ps as [|p paths IH]; intros r m Hwf H; [discriminate|].
  rewrite rmatch_unfold in H. cbv zeta in H.
  assert (Hst : forall m, stage_static p paths r = Some m ->
    lookup r (m_trail m) = Some (m_route m) /\ m_trail m <> [] /\
    (r_end (m_route m) = true -> conforms (m_trail m) (p :: paths) (m_params m)) /\
    (r_end (m_route m) = false -> last_static (m_trail m) /\ exists pv, conforms (m_trail m) (p :: paths) pv)).
  { clear m H. intros m. unfold stage_static.
    destruct (aget (r_static r) p) as [c|] eqn:Ec; [|discriminate].
    pose proof (find_child_static _ _ _ (wf_here _ Hwf) Ec) as Hfc.
    pose proof (aget_in _ _ _ Ec) as Hin.
    apply (lwf_static r (wf_here _ Hwf)) in Hin as (Hpp & H1 & H2).
    assert (Hp : pp_path (r_pp c) = p) by (rewrite Hpp; apply pp_set_path).
    rewrite Hpp in H1, H2. pose proof (isStatic_parse p H1 H2) as Hparse.
    assert (Hss : is_static_seg p = true) by (unfold is_static_seg; rewrite Hparse; reflexivity).
    destruct paths as [|p2 ps2].
    - intros [= <-]. cbn [push m_trail m_route m_params app]. rewrite Hp. cbn [lookup]. rewrite Hfc.
      split; [reflexivity|]. split; [discriminate|].
      assert (Hc : conforms [p] [p] []) by (apply cf_static; [exact Hparse|constructor]).
      split; [intros _; exact Hc|]. intros _. split; [exists [], p; auto|eauto].
    - destruct (rmatch (p2 :: ps2) c) as [m'|] eqn:Em; [|discriminate]. intros [= <-].
      destruct (IH c m' (wf_child _ _ _ Hwf Hfc) Em) as (Hl & Hn & He & Hne).
      cbn [push m_trail m_route m_params app]. rewrite Hp. cbn [lookup]. rewrite Hfc.
      destruct (r_end (m_route m')) eqn:Ee; cbn [m_trail m_route m_params].
      + split; [exact Hl|]. split; [discriminate|]. split; [|rewrite Ee; discriminate].
        intros _. apply cf_static; auto.
      + split; [exact Hl|]. split; [discriminate|]. split; [rewrite Ee; discriminate|].
        intros _. destruct (Hne eq_refl) as (Hls & pv & Hc).
        split; [apply last_static_cons; exact Hls|]. exists pv. apply cf_static; assumption. }
  assert (Hpar : forall m, stage_params p paths (r_params r) = Some m ->
    lookup r (m_trail m) = Some (m_route m) /\ m_trail m <> [] /\
    (r_end (m_route m) = true -> conforms (m_trail m) (p :: paths) (m_params m)) /\
    (r_end (m_route m) = false -> last_static (m_trail m) /\ exists pv, conforms (m_trail m) (p :: paths) pv)).
  { clear m H. intros m H. apply stage_params_some in H as (l1 & c & l2 & Hl & Ht & _).
    assert (Hin : In c (r_params r)) by (rewrite Hl; apply in_elt).
    destruct (try_param_sound r c p paths m Hwf Hin) as (H1 & H2 & H3 & t' & H4); [|exact Ht|].
    - intros _ m' Hm'. pose proof (find_child_param r c (wf_here _ Hwf) Hin) as Hfc.
      destruct (IH c m' (wf_child _ _ _ Hwf Hfc) Hm') as (A & _ & B & _). auto.
    - split; [exact H1|]. split; [rewrite H4; discriminate|]. split; [intros _; exact H3|]. congruence. }
  set (rt := match stage_static p paths r with Some m => Some m | None => stage_params p paths (r_params r) end) in *.
  assert (Hrt : forall m, rt = Some m ->
    lookup r (m_trail m) = Some (m_route m) /\ m_trail m <> [] /\
    (r_end (m_route m) = true -> conforms (m_trail m) (p :: paths) (m_params m)) /\
    (r_end (m_route m) = false -> last_static (m_trail m) /\ exists pv, conforms (m_trail m) (p :: paths) pv)).
  { intros m' Hm'. unfold rt in Hm'. destruct (stage_static p paths r) eqn:E; auto. }
  clearbody rt. clear Hst Hpar.
  destruct (match rt with Some m => r_end (m_route m) | None => false end) eqn:Ee; [apply Hrt; exact H|].
  destruct (r_wild r) as [w|] eqn:Ew; [|apply Hrt; exact H].
  injection H as <-. unfold stage_wild. cbn [push m_trail m_route m_params app lookup].
  rewrite (find_child_wild r w (wf_here _ Hwf) Ew).
  pose proof (lwf_wild r (wf_here _ Hwf) w Ew) as (Hpp & Hw & Hwe).
  split; [reflexivity|]. split; [discriminate|]. split; [|rewrite Hwe; discriminate].
  intros _. apply cf_wild; [|discriminate]. rewrite Hpp at 2. apply isWild_parse. congruence.
Qed.

(** ** Completeness and priority *)

(** a node that is not a declared route, reached by a pattern that accepts the
    whole path and ends in a static segment *)
Definition shadowed (r : route) (ps : list bytes) : Prop :=
  exists t n pv, lookup r t = Some n /\ r_end n = false /\ conforms t ps pv /\ last_static t.

Definition before (c c' : route) (l : list route) : Prop :=
  exists l1 l2 l3, l = l1 ++ c :: l2 ++ c' :: l3.

(** trail [t] is at least as good as [t'] in the tree [r] *)
Inductive prio : route -> list bytes -> list bytes -> Prop :=
| pr_eq : forall r t, prio r t t
| pr_static : forall r s t s' t',
    is_static_seg s = true -> is_static_seg s' = false -> prio r (s :: t) (s' :: t')
| pr_order : forall r s t s' t' c c',
    find_child r s = Some c -> find_child r s' = Some c' -> before c c' (r_params r) ->
    prio r (s :: t) (s' :: t')
| pr_wild : forall r s t s' t',
    is_wild_seg s = false -> is_wild_seg s' = true -> prio r (s :: t) (s' :: t')
| pr_cons : forall r s c t t',
    find_child r s = Some c -> prio c t t' -> prio r (s :: t) (s :: t').

Lemma conforms_nonempty t ps pv : conforms t ps pv -> ps <> [] -> t <> [].
Proof. intros H Hn ->. inversion H; subst; congruence. Qed.

Lemma conforms_nil t pv : conforms t [] pv -> t = [].
Proof. intros H. inversion H; subst; [reflexivity|congruence]. Qed.

Lemma shadowed_child r p s c paths (Hc : forall t pv, conforms t paths pv -> exists pv', conforms (s :: t) (p :: paths) pv') :
  find_child r s = Some c -> shadowed c paths -> shadowed r (p :: paths).
Proof.
  intros Hf (t & n & pv & Hl & He & Hcf & Hs).
  destruct (Hc _ _ Hcf) as (pv' & Hc').
  exists (s :: t), n, pv'. cbn [lookup]. rewrite Hf. repeat split; auto. apply last_static_cons; exact Hs.
Qed.

Lemma param_child_in r s c : lwf r -> find_child r s = Some c -> pp_isParam (pp_set s) = true -> In c (r_params r).
Proof.
  intros Hl Hf Hp. unfold find_child in Hf.
  destruct (find _ (r_params r)) as [x|] eqn:E; [injection Hf as <-; apply find_some in E; apply E|].
  rewrite aget_static_none in Hf by auto.
  destruct (r_wild r) as [w|] eqn:Ew; [|discriminate].
  destruct (beq_spec (pp_path (r_pp w)) s) as [Hs|]; [|discriminate].
  apply (lwf_wild r Hl) in Ew as (Hpp & Hw & _). rewrite Hpp, Hs in Hw.
  apply param_not_wild in Hp. congruence.
Qed.

Lemma static_child_get r s c : lwf r -> find_child r s = Some c -> parse_seg s = SStatic s -> aget (r_static r) s = Some c.
Proof.
  intros Hl Hf Hs. apply parse_static in Hs as (_ & H1 & H2).
  unfold find_child in Hf. rewrite find_params_none in Hf by assumption.
  destruct (aget (r_static r) s); [exact Hf|].
  destruct (r_wild r) as [w|] eqn:Ew; [|discriminate].
  destruct (beq_spec (pp_path (r_pp w)) s) as [Hw|]; [|discriminate].
  apply (lwf_wild r Hl) in Ew as (Hpp & Hww & _). rewrite Hpp, Hw in Hww. congruence.
Qed.

Lemma wild_child_get r s c : lwf r -> find_child r s = Some c -> pp_isWild (pp_set s) = true -> r_wild r = Some c /\ pp_path (r_pp c) = s.
Proof.
  intros Hl Hf Hs.
  assert (Hnp : pp_isParam (pp_set s) = false).
  { destruct (pp_isParam (pp_set s)) eqn:E; [apply param_not_wild in E; congruence|reflexivity]. }
  unfold find_child in Hf. rewrite find_params_none in Hf by assumption.
  rewrite aget_static_none in Hf by auto.
  destruct (r_wild r) as [w|]; [|discriminate].
  destruct (beq_spec (pp_path (r_pp w)) s) as [Hw|]; [|discriminate].
  injection Hf as <-. auto.
Qed.

Lemma parse_param_pp s n v : parse_seg s = SParam n v ->
  pp_isParam (pp_set s) = true /\ pp_verb (pp_set s) = v /\ pp_name (pp_set s) = n.
Proof. intros H. pose proof (pp_set_parse s) as K. rewrite H in K. intuition. Qed.

Lemma parse_wild_pp s n : parse_seg s = SWild n -> pp_isWild (pp_set s) = true.
Proof. intros H. pose proof (pp_set_parse s) as K. rewrite H in K. intuition. Qed.

Lemma not_static_static s s' : is_static_seg s = true -> is_static_seg s' = false -> s <> s'.
Proof. intros H H' ->. congruence. Qed.

Theorem rmatch_best ps : forall r, wf r -> ps <> [] -> ~ shadowed r ps ->
  forall t n pv, lookup r t = Some n -> r_end n = true -> conforms t ps pv ->
  exists m, rmatch ps r = Some m /\ r_end (m_route m) = true /\ prio r (m_trail m) t.
Proof.
  induction ps as [|p paths IH]; [congruence|]. intros r Hwf _ Hns t n pv Hl He Hc.
  pose proof (wf_here _ Hwf) as Hlw.
  rewrite rmatch_unfold. cbv zeta.
  destruct t as [|s t']; [apply conforms_nonempty in Hc; congruence|].
  cbn [lookup] in Hl. destruct (find_child r s) as [c|] eqn:Hfs; [|discriminate].
  pose proof (wf_child _ _ _ Hwf Hfs) as Hwc.
  (* the static stage *)
  destruct (stage_static p paths r) as [m|] eqn:Est.
  - (* it found something: an end route, by absence of shadows *)
    assert (Hm : r_end (m_route m) = true /\ exists c0 t0, aget (r_static r) p = Some c0 /\ m_trail m = p :: t0 /\
                 (s = p -> prio c0 t0 t')).
    { unfold stage_static in Est. destruct (aget (r_static r) p) as [c0|] eqn:Ec; [|discriminate].
      pose proof (find_child_static _ _ _ Hlw Ec) as Hfc.
      pose proof (aget_in _ _ _ Ec) as Hin.
      apply (lwf_static r Hlw) in Hin as (Hpp & H1 & H2). rewrite Hpp in H1, H2.
      assert (Hp : pp_path (r_pp c0) = p) by (rewrite Hpp; apply pp_set_path).
      pose proof (isStatic_parse p H1 H2) as Hparse.
      assert (Hss : is_static_seg p = true) by (unfold is_static_seg; rewrite Hparse; reflexivity).
      destruct paths as [|p2 ps2].
      - injection Est as <-. cbn [push m_route m_trail].
        destruct (r_end c0) eqn:Ee.
        + split; [reflexivity|]. exists c0, []. rewrite Hp. split; [reflexivity|]. split; [reflexivity|].
          intros ->. inversion Hc; subst; try (match goal with H : conforms _ [] _ |- _ => apply conforms_nil in H; subst end); try constructor.
        + exfalso. apply Hns. exists [p], c0, []. cbn [lookup]. rewrite Hfc.
          split; [reflexivity|]. split; [exact Ee|]. split; [apply cf_static; [exact Hparse|constructor]|].
          exists [], p. auto.
      - destruct (rmatch (p2 :: ps2) c0) as [m'|] eqn:Em; [|discriminate].
        pose proof (wf_child _ _ _ Hwf Hfc) as Hw0.
        destruct (rmatch_sound _ _ _ Hw0 Em) as (Hl' & _ & _ & Hne).
        assert (Hns0 : ~ shadowed c0 (p2 :: ps2)).
        { intros Hsh. apply Hns. eapply shadowed_child; [|exact Hfc|exact Hsh].
          intros t0 pv0 Hc0. exists pv0. apply cf_static; assumption. }
        destruct (r_end (m_route m')) eqn:Ee.
        + injection Est as <-. cbn [push m_route m_trail]. split; [exact Ee|].
          exists c0, (m_trail m'). rewrite Hp. split; [reflexivity|]. split; [reflexivity|].
          intros ->. rewrite Hfc in Hfs. injection Hfs as <-.
          assert (Hct : exists pv', conforms t' (p2 :: ps2) pv').
          { inversion Hc; subst; eauto; congruence. }
          destruct Hct as (pv' & Hct).
          destruct (IH c0 Hw0 ltac:(discriminate) Hns0 t' n pv' Hl He Hct) as (m2 & Hm2 & _ & Hpr).
          rewrite Em in Hm2. injection Hm2 as <-. exact Hpr.
        + exfalso. apply Hns0. destruct (Hne eq_refl) as (Hls & pv' & Hcf).
          exists (m_trail m'), (m_route m'), pv'. auto. }
    destruct Hm as (Hend & c0 & t0 & Hc0 & Htr & Hpr). rewrite Hend.
    exists m. split; [reflexivity|]. split; [exact Hend|]. rewrite Htr.
    pose proof (find_child_static _ _ _ Hlw Hc0) as Hfc.
    destruct (beq_spec s p) as [->|Hsp].
    + eapply pr_cons; [exact Hfc|]. apply Hpr. reflexivity.
    + apply pr_static.
      * pose proof (aget_in _ _ _ Hc0) as Hin. apply (lwf_static r Hlw) in Hin as (Hpp & H1 & H2).
        rewrite Hpp in H1, H2. unfold is_static_seg. rewrite (isStatic_parse p H1 H2). reflexivity.
      * unfold is_static_seg. inversion Hc; subst; try congruence;
          repeat match goal with H : parse_seg _ = _ |- _ => rewrite H end; reflexivity.
  - (* no static result: [s] is not static *)
    assert (Hnstat : is_static_seg s = false).
    { destruct (parse_seg s) as [x|nm v|nm] eqn:Ep; unfold is_static_seg; rewrite Ep; try reflexivity.
      exfalso. pose proof (parse_static _ _ Ep) as (-> & _).
      inversion Hc; subst; try congruence.
      pose proof (static_child_get _ _ _ Hlw Hfs Ep) as Hg.
      unfold stage_static in Est. rewrite Hg in Est.
      destruct paths as [|p2 ps2]; [discriminate|].
      assert (Hns0 : ~ shadowed c (p2 :: ps2)).
      { intros Hsh. apply Hns. eapply shadowed_child; [|exact Hfs|exact Hsh].
        intros t0 pv0 Hc0. exists pv0. apply cf_static; assumption. }
      match goal with H : conforms t' _ _ |- _ =>
        destruct (IH c Hwc ltac:(discriminate) Hns0 t' n _ Hl He H) as (m2 & Hm2 & _) end.
      rewrite Hm2 in Est. discriminate. }
    (* parameter children *)
    assert (Hpar : pp_isParam (pp_set s) = true ->
              In c (r_params r) /\ exists m, try_param p paths c = Some m /\ r_end (m_route m) = true /\
                 exists t0, m_trail m = s :: t0 /\ prio c t0 t').
    { intros Hp. pose proof (param_child_in _ _ _ Hlw Hfs Hp) as Hin. split; [exact Hin|].
      pose proof (find_child_pp _ _ _ Hlw Hfs) as Hpp.
      assert (Hcv : exists v pv', p = v ++ pp_verb (pp_set s) /\ conforms t' paths pv').
      { inversion Hc; subst.
        - match goal with H : parse_seg _ = SStatic _ |- _ => apply parse_static in H; intuition congruence end.
        - match goal with H : parse_seg _ = SParam _ _ |- _ => apply parse_param_pp in H as (_ & -> & _) end.
          eexists _, _. split; [symmetry; apply app_nil_r|eassumption].
        - match goal with H : parse_seg _ = SParam _ _ |- _ => apply parse_param_pp in H as (_ & -> & _) end.
          eauto.
        - match goal with H : parse_seg _ = SWild _ |- _ => apply parse_wild_pp in H end.
          apply param_not_wild in Hp. congruence. }
      destruct Hcv as (v & pv' & Hpv & Hct).
      unfold try_param. rewrite Hpp, Hpv, match_param_complete by exact Hp.
      destruct paths as [|p2 ps2].
      - apply conforms_nil in Hct. subst t'. cbn [lookup] in Hl. injection Hl as ->.
        rewrite He. eexists. split; [reflexivity|]. cbn [push m_route m_trail]. split; [exact He|].
        rewrite Hpp, pp_set_path. exists []. split; [reflexivity|constructor].
      - assert (Hns0 : ~ shadowed c (p2 :: ps2)).
        { intros Hsh. apply Hns. eapply shadowed_child; [|exact Hfs|exact Hsh].
          intros t0 pv0 Hc0. eexists. apply conforms_param; [exact Hp|exact Hpv|exact Hc0]. }
        destruct (IH c Hwc ltac:(discriminate) Hns0 t' n pv' Hl He Hct) as (m2 & Hm2 & He2 & Hpr2).
        rewrite Hm2, He2. eexists. split; [reflexivity|]. cbn [push m_route m_trail]. split; [exact He2|].
        rewrite Hpp, pp_set_path. eauto. }
    destruct (stage_params p paths (r_params r)) as [m|] eqn:Epar.
    + pose proof (stage_params_some _ _ _ _ Epar) as (l1 & c1 & l2 & Hsplit & Htry & Hbefore).
      assert (Hin1 : In c1 (r_params r)) by (rewrite Hsplit; apply in_elt).
      assert (Hsub : paths <> [] -> forall m, rmatch paths c1 = Some m ->
               lookup c1 (m_trail m) = Some (m_route m) /\
               (r_end (m_route m) = true -> conforms (m_trail m) paths (m_params m))).
      { intros _ m' Hm'. pose proof (find_child_param r c1 Hlw Hin1) as Hfc.
        destruct (rmatch_sound _ _ _ (wf_child _ _ _ Hwf Hfc) Hm') as (A & _ & B & _). auto. }
      destruct (try_param_sound _ _ _ _ _ Hwf Hin1 Hsub Htry) as (_ & Hend & _ & t0 & Htr).
      rewrite Hend. exists m. split; [reflexivity|]. split; [exact Hend|].
      destruct (pp_isParam (pp_set s)) eqn:Hp.
      * destruct (Hpar eq_refl) as (Hinc & m2 & Htry2 & _ & t2 & Htr2 & Hpr2).
        rewrite Hsplit in Hinc. apply in_app_iff in Hinc as [Hinc|[Heq|Hinc]].
        -- rewrite (Hbefore _ Hinc) in Htry2. discriminate.
        -- subst c1. rewrite Htry in Htry2. injection Htry2 as <-. rewrite Htr2.
           eapply pr_cons; eauto.
        -- rewrite Htr. eapply pr_order; [apply find_child_param; eassumption|exact Hfs|].
           apply in_split in Hinc as (x & y & ->). exists l1, x, y. exact Hsplit.
      * rewrite Htr. apply pr_wild.
        -- rewrite is_wild_seg_pp.
           pose proof (lwf_params r Hlw c1 Hin1) as (Hpp1 & Hpar1). rewrite Hpp1 in Hpar1.
           apply param_not_wild. exact Hpar1.
        -- rewrite is_wild_seg_pp. destruct (pp_isWild (pp_set s)) eqn:Ew; [reflexivity|].
           exfalso. unfold is_static_seg in Hnstat. rewrite (isStatic_parse s Hp Ew) in Hnstat. discriminate.
    + destruct (pp_isParam (pp_set s)) eqn:Hp.
      * destruct (Hpar eq_refl) as (Hinc & m2 & Htry2 & _).
        rewrite (stage_params_none _ _ _ Epar _ Hinc) in Htry2. discriminate.
      * destruct (pp_isWild (pp_set s)) eqn:Ew.
        -- destruct (wild_child_get _ _ _ Hlw Hfs Ew) as (Hw & Hpath). rewrite Hw.
           pose proof (lwf_wild r Hlw c Hw) as (_ & _ & Hwe).
           eexists. split; [reflexivity|]. unfold stage_wild. cbn [push m_route m_trail].
           split; [exact Hwe|]. rewrite Hpath.
           assert (t' = []) as ->; [|constructor].
           inversion Hc; subst; try reflexivity;
             match goal with H : parse_seg _ = _ |- _ => pose proof (isWild_parse _ Ew); congruence end.
        -- exfalso. unfold is_static_seg in Hnstat. rewrite (isStatic_parse s Hp Ew) in Hnstat. discriminate.
Qed.

(** a declared all-static pattern is always found, shadows or not *)
Theorem rmatch_static t : forall r n, wf r -> t <> [] ->
  Forall (fun s => is_static_seg s = true) t -> lookup r t = Some n -> r_end n = true ->
  rmatch t r = Some (MRes t n []).
Proof.
  induction t as [|s t IH]; [congruence|]. intros r n Hwf _ HF Hl He.
  inversion HF as [|? ? Hs HF']; subst.
  pose proof (wf_here _ Hwf) as Hlw.
  cbn [lookup] in Hl. destruct (find_child r s) as [c|] eqn:Hfs; [|discriminate].
  assert (Hparse : parse_seg s = SStatic s).
  { unfold is_static_seg in Hs. destruct (parse_seg s) eqn:E; try discriminate.
    apply parse_static in E as E'. destruct E' as (-> & _). reflexivity. }
  pose proof (static_child_get _ _ _ Hlw Hfs Hparse) as Hg.
  pose proof (find_child_pp _ _ _ Hlw Hfs) as Hpp.
  rewrite rmatch_unfold. cbv zeta. unfold stage_static. rewrite Hg.
  destruct t as [|s2 t2].
  - cbn [lookup] in Hl. injection Hl as ->. unfold push. cbn [m_route m_trail m_params app]. rewrite He.
    rewrite Hpp, pp_set_path. reflexivity.
  - rewrite (IH c n (wf_child _ _ _ Hwf Hfs) ltac:(discriminate) HF' Hl He).
    cbn [m_route]. rewrite He. unfold push. cbn [m_route m_trail m_params app]. rewrite He.
    rewrite Hpp, pp_set_path. reflexivity.
Qed.
