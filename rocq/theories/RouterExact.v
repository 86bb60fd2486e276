(** RouterExact: exactly which route [rmatch] selects, dead ends and replaced
    wildcards included (C03, C04). *)
From Coq Require Import List Ascii String Bool Arith Lia.
Import ListNotations.
From Verif Require Import GoStr GoPath GoTy RouterModel RouterSpec RouterTree RouterRefine RouterMatch RouterTable.

(** ** In a tree *)
Definition statics (T : list bytes) : Prop := Forall (fun s => is_static_seg s = true) T.
(** below r the path T leads, by static segments only and past no wildcard, to a node
    that is not a declared route *)
Definition blocked (r : route) (T : list bytes) : Prop :=
  T <> [] /\ statics T /\ exists n, lookup r T = Some n /\ r_end n = false /\
  forall k n', 0 < k < List.length T -> lookup r (firstn k T) = Some n' -> r_wild n' = None.
(** trail t turns off at a parameter although a dead end continues statically *)
Definition hid (r : route) (t ps : list bytes) : Prop :=
  exists front s rest pf T c, t = front ++ s :: rest /\ ps = pf ++ T /\ List.length pf = List.length front /\
    pp_isParam (pp_set s) = true /\ lookup r front = Some c /\ blocked c T.

Lemma static_parse s : is_static_seg s = true -> parse_seg s = SStatic s.
Proof.
  unfold is_static_seg. destruct (parse_seg s) eqn:E; try discriminate. intros _. pose proof (parse_static _ _ E) as (-> & _). reflexivity.
Qed.
Lemma params_end r p paths m : wf r -> stage_params p paths (r_params r) = Some m -> r_end (m_route m) = true.
Proof.
  intros Hwf H. apply stage_params_some in H as (l1 & c & l2 & Hl & Ht & _).
  assert (Hin : In c (r_params r)) by (rewrite Hl; apply in_elt).
  destruct (try_param_sound r c p paths m Hwf Hin) as (_ & H2 & _); [|exact Ht|exact H2].
  intros _ m' Hm'. pose proof (find_child_param r c (wf_here _ Hwf) Hin) as Hfc.
  destruct (rmatch_sound _ _ _ (wf_child _ _ _ Hwf Hfc) Hm') as (A & _ & B & _). auto.
Qed.
Lemma blocked_iff paths : forall p r, wf r ->
  (blocked r (p :: paths) <-> exists m, stage_static p paths r = Some m /\ r_end (m_route m) = false).
Proof.
  induction paths as [|p2 ps2 IH]; intros p r Hwf; pose proof (wf_here _ Hwf) as Hlw.
  - split.
    + intros (_ & St & n & L & E & _). inversion St as [|? ? Sp _]; subst. cbn [lookup] in L.
      destruct (find_child r p) as [c|] eqn:F; [|discriminate L]. injection L as ->.
      pose proof (static_child_get _ _ _ Hlw F (static_parse _ Sp)) as G.
      unfold stage_static. rewrite G. eexists. split; [reflexivity|]. exact E.
    + intros (m & S & E). unfold stage_static in S. destruct (aget (r_static r) p) as [c|] eqn:G; [|discriminate S].
      injection S as <-. cbn [push m_route] in E.
      pose proof (find_child_static _ _ _ Hlw G) as F. pose proof (aget_in _ _ _ G) as Hin.
      apply (lwf_static r Hlw) in Hin as (Hpp & H1 & H2). rewrite Hpp in H1, H2.
      split; [discriminate|]. split; [constructor; [unfold is_static_seg; rewrite (isStatic_parse p H1 H2); reflexivity|constructor]|].
      exists c. cbn [lookup]. rewrite F. split; [reflexivity|]. split; [exact E|]. cbn. intros k n' K. lia.
  - split.
    + intros (_ & St & n & L & E & W). inversion St as [|? ? Sp St']; subst. cbn [lookup] in L.
      destruct (find_child r p) as [c|] eqn:F; [|discriminate L].
      pose proof (static_child_get _ _ _ Hlw F (static_parse _ Sp)) as G.
      pose proof (wf_child _ _ _ Hwf F) as Hwc.
      assert (B : blocked c (p2 :: ps2)).
      { split; [discriminate|]. split; [exact St'|]. exists n. split; [exact L|]. split; [exact E|].
        intros k n' K L'. apply (W (S k) n'); [cbn in *; lia|]. cbn [firstn lookup]. rewrite F. exact L'. }
      destruct (proj1 (IH p2 c Hwc) B) as (m & S & Em).
      assert (Wc : r_wild c = None) by (apply (W 1%nat c); [cbn; lia|]; cbn [firstn lookup]; rewrite F; reflexivity).
      unfold stage_static. rewrite G. rewrite rmatch_unfold. cbv zeta. rewrite S, Em, Wc.
      eexists. split; [reflexivity|]. rewrite Em. cbn [push m_route]. exact Em.
    + intros (m & S & E). unfold stage_static in S. destruct (aget (r_static r) p) as [c|] eqn:G; [|discriminate S].
      pose proof (find_child_static _ _ _ Hlw G) as F. pose proof (wf_child _ _ _ Hwf F) as Hwc.
      pose proof (aget_in _ _ _ G) as Hin. apply (lwf_static r Hlw) in Hin as (Hpp & H1 & H2). rewrite Hpp in H1, H2.
      destruct (rmatch (p2 :: ps2) c) as [m'|] eqn:Rm; [|discriminate S]. injection S as <-.
      assert (Em : r_end (m_route m') = false) by (destruct (r_end (m_route m')) eqn:K; cbn [push m_route] in E; congruence).
      rewrite rmatch_unfold in Rm. cbv zeta in Rm.
      assert (X : stage_static p2 ps2 c = Some m' /\ r_wild c = None).
      { destruct (stage_static p2 ps2 c) as [m1|] eqn:S1.
        - destruct (r_end (m_route m1)) eqn:E1; [injection Rm as ->; congruence|].
          destruct (r_wild c) as [w|] eqn:Ew; [|auto]. injection Rm as <-. cbn in Em.
          pose proof (lwf_wild c (wf_here _ Hwc) w Ew) as (_ & _ & K). congruence.
        - destruct (stage_params p2 ps2 (r_params c)) as [m1|] eqn:S2.
          + rewrite (params_end _ _ _ _ Hwc S2) in Rm. injection Rm as ->. rewrite (params_end _ _ _ _ Hwc S2) in Em. discriminate Em.
          + destruct (r_wild c) as [w|] eqn:Ew; [|discriminate Rm]. injection Rm as <-. cbn in Em.
            pose proof (lwf_wild c (wf_here _ Hwc) w Ew) as (_ & _ & K). congruence. }
      destruct X as (X & Wc). destruct (proj2 (IH p2 c Hwc) (ex_intro _ m' (conj X Em))) as (_ & St & n & L & En & W).
      split; [discriminate|]. split; [constructor; [unfold is_static_seg; rewrite (isStatic_parse p H1 H2); reflexivity|exact St]|].
      exists n. cbn [lookup]. rewrite F. split; [exact L|]. split; [exact En|].
      intros [|[|k]] n' K L'; [lia| |].
      * cbn [firstn lookup] in L'. rewrite F in L'. injection L' as <-. exact Wc.
      * cbn [firstn lookup] in L'. rewrite F in L'. apply (W (S k) n'); [cbn in *; lia|exact L'].
Qed.
Lemma hid_child r s c t p paths : find_child r s = Some c -> hid c t paths -> hid r (s :: t) (p :: paths).
Proof.
  intros F (front & s0 & rest & pf & T & c0 & -> & -> & L & P & Lk & B).
  exists (s :: front), s0, rest, (p :: pf), T, c0. cbn [List.app List.length lookup]. rewrite F. repeat split; auto; try (apply B).
Qed.
(** what is selected is not hidden *)
Lemma rmatch_not_hid ps : forall r m, wf r -> rmatch ps r = Some m -> r_end (m_route m) = true -> ~ hid r (m_trail m) ps.
Proof.
  induction ps as [|p paths IH]; intros r m Hwf H He; [discriminate H|].
  pose proof (wf_here _ Hwf) as Hlw.
  rewrite rmatch_unfold in H. cbv zeta in H.
  intros (front & s & rest & pf & T & c & Et & Eps & L & P & Lk & B).
  assert (NIL : front = [] -> exists m0, stage_static p paths r = Some m0 /\ r_end (m_route m0) = false).
  { intros ->. destruct pf; [|discriminate L]. cbn in Eps. subst T. cbn in Lk. injection Lk as <-. now apply blocked_iff. }
  assert (SUB : forall s0 t0 c0, m_trail m = s0 :: t0 -> find_child r s0 = Some c0 -> front <> [] -> exists paths', paths = paths' /\ paths <> [] /\ hid c0 t0 paths).
  { intros s0 t0 c0 E0 F0 Nf. destruct front as [|f front]; [congruence|]. rewrite E0 in Et. injection Et as <- ->.
    destruct pf as [|x pf]; [discriminate L|]. injection Eps as <- ->. cbn [lookup] in Lk. rewrite F0 in Lk.
    exists (pf ++ T). split; [reflexivity|]. split; [destruct T; [destruct B as (B & _); congruence|destruct pf; discriminate]|].
    exists front, s, rest, pf, T, c. repeat split; auto; try apply B. }
  destruct (stage_static p paths r) as [m0|] eqn:S0.
  - destruct (r_end (m_route m0)) eqn:E0.
    + injection H as <-.
      destruct front as [|f front]; [destruct (NIL eq_refl) as (m1 & [= <-] & E1); congruence|].
      unfold stage_static in S0. destruct (aget (r_static r) p) as [c0|] eqn:G; [|discriminate S0].
      pose proof (find_child_static _ _ _ Hlw G) as F. pose proof (wf_child _ _ _ Hwf F) as Hwc.
      pose proof (find_child_pp _ _ _ Hlw F) as Hpp.
      destruct paths as [|p2 ps2].
      * injection S0 as <-. cbn [push m_trail] in Et. destruct front; discriminate Et.
      * destruct (rmatch (p2 :: ps2) c0) as [m'|] eqn:Rm; [|discriminate S0]. injection S0 as <-.
        assert (Em : r_end (m_route m') = true) by (destruct (r_end (m_route m')) eqn:K; cbn [push m_route] in E0; congruence).
        rewrite Em in SUB, Et. cbn [push m_trail] in SUB. rewrite Hpp, pp_set_path in SUB.
        destruct (SUB _ _ _ eq_refl F ltac:(discriminate)) as (_ & _ & _ & Hh). exact (IH c0 m' Hwc Rm Em Hh).
    + destruct (r_wild r) as [w|] eqn:Ew; [|injection H as <-; congruence].
      injection H as <-. cbn [stage_wild push m_trail] in Et.
      destruct front as [|f front]; [|destruct front; discriminate Et]. injection Et as <- <-.
      pose proof (lwf_wild r Hlw w Ew) as (Hpp & Hw & _). apply param_not_wild in P. congruence.
  - destruct front as [|f front]; [destruct (NIL eq_refl) as (m1 & K & _); discriminate K|].
    destruct (stage_params p paths (r_params r)) as [m0|] eqn:S1.
    + rewrite (params_end _ _ _ _ Hwf S1) in H. injection H as <-.
      apply stage_params_some in S1 as (l1 & c0 & l2 & Hl & Ht & _).
      assert (Hin : In c0 (r_params r)) by (rewrite Hl; apply in_elt).
      pose proof (find_child_param r c0 Hlw Hin) as F. pose proof (wf_child _ _ _ Hwf F) as Hwc.
      unfold try_param in Ht. destruct (match_param (r_pp c0) p) as [v|]; [|discriminate Ht].
      destruct paths as [|p2 ps2].
      * destruct (r_end c0); [|discriminate Ht]. injection Ht as <-. cbn [push m_trail] in Et. destruct front; discriminate Et.
      * destruct (rmatch (p2 :: ps2) c0) as [m'|] eqn:Rm; [|discriminate Ht].
        destruct (r_end (m_route m')) eqn:Em; [|discriminate Ht]. injection Ht as <-.
        cbn [push m_trail] in SUB. destruct (SUB _ _ _ eq_refl F ltac:(discriminate)) as (_ & _ & _ & Hh). exact (IH c0 m' Hwc Rm Em Hh).
    + destruct (r_wild r) as [w|] eqn:Ew; [|discriminate H].
      injection H as <-. cbn [stage_wild push m_trail] in Et. destruct front; discriminate Et.
Qed.
(** every route that is not hidden is found, or a better one *)
Theorem rmatch_best_exact ps : forall r, wf r -> ps <> [] ->
  forall t n pv, lookup r t = Some n -> r_end n = true -> conforms t ps pv -> ~ hid r t ps ->
  exists m, rmatch ps r = Some m /\ r_end (m_route m) = true /\ prio r (m_trail m) t.
Proof.
  induction ps as [|p paths IH]; [congruence|]. intros r Hwf _ t n pv Hl He Hc Hnh.
  pose proof (wf_here _ Hwf) as Hlw.
  rewrite rmatch_unfold. cbv zeta.
  destruct t as [|s t']; [apply conforms_nonempty in Hc; congruence|].
  cbn [lookup] in Hl. destruct (find_child r s) as [c|] eqn:Hfs; [|discriminate].
  pose proof (wf_child _ _ _ Hwf Hfs) as Hwc.
  assert (Hnhc : ~ hid c t' paths) by (intros K; apply Hnh; eapply hid_child; eauto).
  (* a wildcard is reached whenever nothing before it is a route *)
  assert (WILD : pp_isWild (pp_set s) = true -> t' = [] /\ r_wild r = Some c /\ r_end c = true /\ pp_path (r_pp c) = s).
  { intros Ew. destruct (wild_child_get _ _ _ Hlw Hfs Ew) as (Hw & Hpath). 
    pose proof (lwf_wild r Hlw c Hw) as (_ & _ & Hwe). split; [|auto].
    inversion Hc; subst; try reflexivity; match goal with H : parse_seg _ = _ |- _ => pose proof (isWild_parse _ Ew); congruence end. }
  destruct (stage_static p paths r) as [m|] eqn:Est.
  - destruct (r_end (m_route m)) eqn:Hend.
    + (* a route by the static child *)
      exists m. split; [reflexivity|]. split; [exact Hend|].
      unfold stage_static in Est. destruct (aget (r_static r) p) as [c0|] eqn:Hc0; [|discriminate].
      pose proof (find_child_static _ _ _ Hlw Hc0) as Hfc.
      pose proof (aget_in _ _ _ Hc0) as Hin. apply (lwf_static r Hlw) in Hin as (Hpp & H1 & H2). rewrite Hpp in H1, H2.
      assert (Hp : pp_path (r_pp c0) = p) by (rewrite Hpp; apply pp_set_path).
      pose proof (isStatic_parse p H1 H2) as Hparse.
      assert (Hss : is_static_seg p = true) by (unfold is_static_seg; rewrite Hparse; reflexivity).
      assert (Htr : exists t0, m_trail m = p :: t0 /\ (s = p -> prio c0 t0 t')).
      { destruct paths as [|p2 ps2].
        - injection Est as <-. cbn [push m_trail]. rewrite Hp. exists []. split; [reflexivity|].
          intros ->. inversion Hc; subst; try congruence. match goal with H : conforms _ [] _ |- _ => apply conforms_nil in H; subst end. constructor.
        - destruct (rmatch (p2 :: ps2) c0) as [m'|] eqn:Em; [|discriminate].
          assert (Ee : r_end (m_route m') = true) by (injection Est as <-; destruct (r_end (m_route m')) eqn:K; cbn [push m_route] in Hend; congruence).
          injection Est as <-. rewrite Ee. cbn [push m_trail]. rewrite Hp. exists (m_trail m'). split; [reflexivity|].
          intros ->. rewrite Hfc in Hfs. injection Hfs as <-.
          assert (Hct : exists pv', conforms t' (p2 :: ps2) pv') by (inversion Hc; subst; eauto; congruence).
          destruct Hct as (pv' & Hct).
          destruct (IH c0 Hwc ltac:(discriminate) t' n pv' Hl He Hct Hnhc) as (m2 & Hm2 & _ & Hpr).
          rewrite Em in Hm2. injection Hm2 as <-. exact Hpr. }
      destruct Htr as (t0 & -> & Hpr). destruct (beq_spec s p) as [->|Hsp].
      * eapply pr_cons; [exact Hfc|]. now apply Hpr.
      * apply pr_static; [exact Hss|]. unfold is_static_seg. inversion Hc; subst; try congruence;
          repeat match goal with H : parse_seg _ = _ |- _ => rewrite H end; reflexivity.
    + (* a dead end: t cannot be static, nor a parameter *)
      destruct (pp_isParam (pp_set s)) eqn:Hp.
      { exfalso. apply Hnh. exists [], s, t', [], (p :: paths), r. repeat split; auto; try discriminate.
        - destruct (proj2 (blocked_iff paths p r Hwf) (ex_intro _ m (conj Est Hend))) as (_ & St & _). exact St.
        - destruct (proj2 (blocked_iff paths p r Hwf) (ex_intro _ m (conj Est Hend))) as (_ & _ & X). exact X. }
      destruct (pp_isWild (pp_set s)) eqn:Ew.
      { destruct (WILD eq_refl) as (-> & -> & Hwe & Hpath). eexists. split; [reflexivity|]. cbn. rewrite Hpath. split; [exact Hwe|constructor]. }
      exfalso. pose proof (isStatic_parse s Hp Ew) as Ep. inversion Hc; subst; try congruence.
      pose proof (static_child_get _ _ _ Hlw Hfs Ep) as Hg. unfold stage_static in Est. rewrite Hg in Est.
      destruct paths as [|p2 ps2].
      * match goal with H : conforms t' [] _ |- _ => apply conforms_nil in H; subst t' end. cbn in Hl. injection Hl as ->.
        injection Est as <-. cbn in Hend. congruence.
      * match goal with H : conforms t' _ _ |- _ => destruct (IH c Hwc ltac:(discriminate) t' n _ Hl He H Hnhc) as (m2 & Hm2 & He2 & _) end.
        rewrite Hm2, He2 in Est. injection Est as <-. cbn in Hend. congruence.
  - assert (Hnstat : is_static_seg s = false).
    { destruct (parse_seg s) as [x|nm v|nm] eqn:Ep; unfold is_static_seg; rewrite Ep; try reflexivity.
      exfalso. pose proof (parse_static _ _ Ep) as (-> & _). inversion Hc; subst; try congruence.
      pose proof (static_child_get _ _ _ Hlw Hfs Ep) as Hg. unfold stage_static in Est. rewrite Hg in Est.
      destruct paths as [|p2 ps2]; [discriminate|].
      match goal with H : conforms t' _ _ |- _ => destruct (IH c Hwc ltac:(discriminate) t' n _ Hl He H Hnhc) as (m2 & Hm2 & _) end.
      rewrite Hm2 in Est. discriminate. }
    assert (Hpar : pp_isParam (pp_set s) = true ->
              In c (r_params r) /\ exists m, try_param p paths c = Some m /\ r_end (m_route m) = true /\
                 exists t0, m_trail m = s :: t0 /\ prio c t0 t').
    { intros Hp. pose proof (param_child_in _ _ _ Hlw Hfs Hp) as Hin. split; [exact Hin|].
      pose proof (find_child_pp _ _ _ Hlw Hfs) as Hpp.
      assert (Hcv : exists v pv', p = v ++ pp_verb (pp_set s) /\ conforms t' paths pv').
      { inversion Hc; subst.
        - match goal with H : parse_seg _ = SStatic _ |- _ => apply parse_static in H; intuition congruence end.
        - match goal with H : parse_seg _ = SParam _ _ |- _ => apply parse_param_pp in H as (_ & -> & _) end.
          eexists _, _. split; [symmetry; apply app_nil_r|eassumption].
        - match goal with H : parse_seg _ = SParam _ _ |- _ => apply parse_param_pp in H as (_ & -> & _) end.
          eauto.
        - match goal with H : parse_seg _ = SWild _ |- _ => apply parse_wild_pp in H end.
          apply param_not_wild in Hp. congruence. }
      destruct Hcv as (v & pv' & Hpv & Hct).
      unfold try_param. rewrite Hpp, Hpv, match_param_complete by exact Hp.
      destruct paths as [|p2 ps2].
      - apply conforms_nil in Hct. subst t'. cbn [lookup] in Hl. injection Hl as ->.
        rewrite He. eexists. split; [reflexivity|]. cbn [push m_route m_trail]. split; [exact He|].
        rewrite Hpp, pp_set_path. exists []. split; [reflexivity|constructor].
      - destruct (IH c Hwc ltac:(discriminate) t' n pv' Hl He Hct Hnhc) as (m2 & Hm2 & He2 & Hpr2).
        rewrite Hm2, He2. eexists. split; [reflexivity|]. cbn [push m_route m_trail]. split; [exact He2|].
        rewrite Hpp, pp_set_path. eauto. }
    destruct (stage_params p paths (r_params r)) as [m|] eqn:Epar.
    + pose proof (stage_params_some _ _ _ _ Epar) as (l1 & c1 & l2 & Hsplit & Htry & Hbefore).
      assert (Hin1 : In c1 (r_params r)) by (rewrite Hsplit; apply in_elt).
      assert (Hsub : paths <> [] -> forall m, rmatch paths c1 = Some m ->
               lookup c1 (m_trail m) = Some (m_route m) /\
               (r_end (m_route m) = true -> conforms (m_trail m) paths (m_params m))).
      { intros _ m' Hm'. pose proof (find_child_param r c1 Hlw Hin1) as Hfc.
        destruct (rmatch_sound _ _ _ (wf_child _ _ _ Hwf Hfc) Hm') as (A & _ & B & _). auto. }
      destruct (try_param_sound _ _ _ _ _ Hwf Hin1 Hsub Htry) as (_ & Hend & _ & t0 & Htr).
      rewrite Hend. exists m. split; [reflexivity|]. split; [exact Hend|].
      destruct (pp_isParam (pp_set s)) eqn:Hp.
      * destruct (Hpar eq_refl) as (Hinc & m2 & Htry2 & _ & t2 & Htr2 & Hpr2).
        rewrite Hsplit in Hinc. apply in_app_iff in Hinc as [Hinc|[Heq|Hinc]].
        -- rewrite (Hbefore _ Hinc) in Htry2. discriminate.
        -- subst c1. rewrite Htry in Htry2. injection Htry2 as <-. rewrite Htr2.
           eapply pr_cons; eauto.
        -- rewrite Htr. eapply pr_order; [apply find_child_param; eassumption|exact Hfs|].
           apply in_split in Hinc as (x & y & ->). exists l1, x, y. exact Hsplit.
      * rewrite Htr. apply pr_wild.
        -- rewrite is_wild_seg_pp.
           pose proof (lwf_params r Hlw c1 Hin1) as (Hpp1 & Hpar1). rewrite Hpp1 in Hpar1.
           apply param_not_wild. exact Hpar1.
        -- rewrite is_wild_seg_pp. destruct (pp_isWild (pp_set s)) eqn:Ew; [reflexivity|].
           exfalso. unfold is_static_seg in Hnstat. rewrite (isStatic_parse s Hp Ew) in Hnstat. discriminate.
    + destruct (pp_isParam (pp_set s)) eqn:Hp.
      * destruct (Hpar eq_refl) as (Hinc & m2 & Htry2 & _).
        rewrite (stage_params_none _ _ _ Epar _ Hinc) in Htry2. discriminate.
      * destruct (pp_isWild (pp_set s)) eqn:Ew.
        -- destruct (WILD eq_refl) as (-> & -> & Hwe & Hpath).
           eexists. split; [reflexivity|]. cbn. rewrite Hpath. split; [exact Hwe|constructor].
        -- exfalso. unfold is_static_seg in Hnstat. rewrite (isStatic_parse s Hp Ew) in Hnstat. discriminate.
Qed.

(** ** In a program *)
(** pattern pat' replaces the wildcard in pat: same place, same kind, another text *)
Definition replaces (pat' pat : list bytes) : Prop :=
  exists front w w' rest, pat' = front ++ [w'] /\ pat = front ++ w :: rest /\
    is_wild_seg w = true /\ is_wild_seg w' = true /\ w <> w'.
(** the routes in force: declared, and not replaced since *)
Definition in_table (prog : list (list handler)) (pat : list bytes) : Prop :=
  pat = [] \/ exists e1 e2, events prog = e1 ++ EEnd pat :: e2 /\ forall pat', In (EEnd pat') e2 -> ~ replaces pat' pat.
(** pat turns off at a parameter where, by static segments only, the rest T of the
    path leads to a position that some longer pattern passes but that is no route
    itself, and no wildcard is declared on the way there *)
Definition dead_end (prog : list (list handler)) (front T : list bytes) : Prop :=
  T <> [] /\ statics T /\ (exists longer, In (EEnd (front ++ T ++ longer)) (events prog)) /\ ~ In (EEnd (front ++ T)) (events prog) /\
  forall k w, 0 < k < List.length T -> is_wild_seg w = true -> ~ In (EEnd (front ++ firstn k T ++ [w])) (events prog).
Definition hidden (prog : list (list handler)) (pat path : list bytes) : Prop :=
  exists front s rest pf T n v, pat = front ++ s :: rest /\ path = pf ++ T /\ List.length pf = List.length front /\
    parse_seg s = SParam n v /\ dead_end prog front T.

Lemma clobber_replaces pat' pat : clobber pat' pat = true <-> replaces pat' pat.
Proof.
  split.
  - intros H. apply clobber_true in H as (f & w' & w & rest & -> & -> & A & B & C). exists f, w, w', rest. auto.
  - intros (f & w & w' & rest & -> & -> & A & B & C). rewrite clobber_app. cbn [clobber].
    replace (beq w' w) with false by (symmetry; apply beq_false; congruence). cbn [is_nil]. now rewrite A, B.
Qed.
Lemma table_end_exact es t : apply_all es T0 t QEnd = AB true <->
  t = [] \/ exists e1 e2, es = e1 ++ EEnd t :: e2 /\ forall pat', In (EEnd pat') e2 -> clobber pat' t = false.
Proof.
  induction es as [|e es IH] using rev_ind.
  - cbn [apply_all fold_left]. split.
    + destruct t; [auto|]. rewrite T0_nonroot by discriminate. discriminate.
    + intros [->|(e1 & e2 & E & _)]; [reflexivity|destruct e1; discriminate E].
  - rewrite apply_all_snoc.
    assert (KEEP : (forall pat, e = EEnd pat -> clobber pat t = false) -> apply e (apply_all es T0) t QEnd = (if (match e with EEnd p => leq t p | _ => false end) then AB true else apply_all es T0 t QEnd)).
    { intros K. unfold apply. destruct e as [p|d|p].
      - rewrite (K p eq_refl). cbn [qeqb andb]. destruct (leq t p); reflexivity.
      - unfold decl_key. destruct (is_all (d_meth d)), (is_any (d_meth d)); cbn [qeqb]; rewrite ?andb_false_r; reflexivity.
      - cbn [qeqb]. now rewrite andb_false_r. }
    destruct (match e with EEnd p => clobber p t | _ => false end) eqn:Cl.
    + destruct e as [p|d|p]; try discriminate Cl. unfold apply. rewrite Cl. split; [discriminate|].
      intros [->|(e1 & e2 & E & N)]; [destruct p; discriminate Cl|].
      destruct e2 as [|x e2] using rev_ind.
      * apply app_inj_tail in E as (_ & E). injection E as ->. 
        exfalso. clear -Cl. induction t as [|a t IHt]; [discriminate Cl|]. cbn [clobber] in Cl. rewrite beq_refl in Cl. auto.
      * rewrite app_comm_cons, app_assoc in E. apply app_inj_tail in E as (_ & <-).
        rewrite (N p) in Cl; [discriminate Cl|apply in_or_app; right; now left].
    + rewrite KEEP by (intros pat ->; exact Cl).
      destruct (match e with EEnd p => leq t p | _ => false end) eqn:Le.
      * destruct e as [p|d|p]; try discriminate Le. apply leq_true in Le. subst p. split; [|reflexivity]. intros _. right. exists es, []. split; [reflexivity|]. intros pat' [].
      * rewrite IH. split.
        -- intros [->|(e1 & e2 & -> & N)]; [auto|]. right. exists e1, (e2 ++ [e]). rewrite <- app_assoc. split; [reflexivity|].
           intros pat' H. apply in_app_or in H as [H|[->|[]]]; [auto|exact Cl].
        -- intros [->|(e1 & e2 & E & N)]; [auto|]. right.
           destruct e2 as [|x e2 _] using rev_ind.
           ++ apply app_inj_tail in E as (_ & ->). rewrite leq_refl in Le. discriminate Le.
           ++ rewrite app_comm_cons, app_assoc in E. apply app_inj_tail in E as (-> & <-).
              exists e1, e2. split; [reflexivity|]. intros pat' H. apply N, in_or_app. auto.
Qed.
Lemma table_ex_keep es T t : Forall (fun s => is_wild_seg s = false) t -> T t QEx = AB true -> apply_all es T t QEx = AB true.
Proof.
  intros W. revert T; induction es as [|e es IH]; intros T HT; [exact HT|].
  rewrite apply_all_cons. apply IH. unfold apply. destruct e as [p|d|p].
  - rewrite (clobber_nowild _ _ W). cbn [qeqb andb]. destruct (is_prefix t p); [reflexivity|exact HT].
  - unfold decl_key. destruct (is_all (d_meth d)), (is_any (d_meth d)); cbn [qeqb]; rewrite ?andb_false_r; exact HT.
  - cbn [qeqb]. rewrite andb_false_r. exact HT.
Qed.
Lemma table_ex_complete es t x : Forall (fun s => is_wild_seg s = false) t -> In (EEnd (t ++ x)) es -> apply_all es T0 t QEx = AB true.
Proof.
  intros W H. apply in_split in H as (e1 & e2 & ->). rewrite apply_all_app, apply_all_cons.
  apply table_ex_keep; [exact W|]. unfold apply. rewrite (clobber_nowild _ _ W). cbn [qeqb andb].
  replace (is_prefix t (t ++ x)) with true by (symmetry; apply is_prefix_spec; eauto). reflexivity.
Qed.

Section Prog.
  Variable prog : list (list handler).
  Variable root : route.
  Hypothesis Hroot : routers prog root0 = Ok root.

  Lemma in_table_lookup t : in_table prog t <-> exists n, lookup root t = Some n /\ r_end n = true.
  Proof using Hroot.
    assert (X : in_table prog t <-> apply_all (events prog) T0 t QEnd = AB true).
    { rewrite table_end_exact. unfold in_table. split; (intros [->|(e1 & e2 & E & N)]; [auto|right; exists e1, e2; split; [exact E|]]).
      - intros pat' H. destruct (clobber pat' t) eqn:C; [|reflexivity]. exfalso. apply (N pat' H). now apply clobber_replaces.
      - intros pat' H K. apply clobber_replaces in K. rewrite (N pat' H) in K. discriminate K. }
    rewrite X. rewrite <- (root_obs prog root Hroot). unfold obs. destruct (lookup root t) as [n|].
    - cbn [ask]. split; [intros [= E]; eauto|intros (n' & [= <-] & ->); reflexivity].
    - split; [intros [=]|intros (n & K & _); discriminate K].
  Qed.
  Lemma nowild_front t ps pv front s u : conforms t ps pv -> t = front ++ s :: u -> Forall (fun s => is_wild_seg s = false) front.
  Proof using Type. intros A B. eapply conforms_front; eauto. Qed.
  (** the node at a wildcard-free position *)
  Lemma lookup_mentions u : Forall (fun s => is_wild_seg s = false) u -> u <> [] ->
    (lookup root u <> None <-> exists longer, In (EEnd (u ++ longer)) (events prog)).
  Proof using Hroot.
    intros W Nu.
    assert (X : lookup root u <> None <-> apply_all (events prog) T0 u QEx = AB true).
    { rewrite <- (root_obs prog root Hroot). unfold obs. destruct (lookup root u); cbn; split; congruence. }
    rewrite X. split.
    - intros H. apply table_ex in H as [H|H]; [contradiction|exact H].
    - intros (x & H). eapply table_ex_complete; eauto.
  Qed.
  Lemma statics_nowild T : statics T -> Forall (fun s => is_wild_seg s = false) T.
  Proof using Type. unfold statics. apply Forall_impl. intros s. unfold is_static_seg, is_wild_seg. destruct (parse_seg s); congruence. Qed.
  Lemma wild_declared u n : Forall (fun s => is_wild_seg s = false) u -> lookup root u = Some n ->
    (r_wild n <> None <-> exists w, is_wild_seg w = true /\ In (EEnd (u ++ [w])) (events prog)).
  Proof using Hroot.
    intros W L. assert (Hwn : wf n) by (intros t x K; apply (root_wf prog root Hroot (u ++ t)); rewrite lookup_app, L; exact K).
    pose proof (wf_here _ Hwn) as Hln. split.
    - intros H. destruct (r_wild n) as [w|] eqn:Ew; [|congruence].
      pose proof (lwf_wild n Hln w Ew) as (Hpp & Hw & He).
      exists (pp_path (r_pp w)). split; [rewrite is_wild_seg_pp; congruence|].
      assert (K : in_table prog (u ++ [pp_path (r_pp w)])).
      { apply in_table_lookup. exists w. split; [|exact He]. rewrite lookup_app, L. cbn [lookup]. now rewrite (find_child_wild _ _ Hln Ew). }
      destruct K as [K|(e1 & e2 & -> & _)]; [destruct u; discriminate K|]. apply in_elt.
    - intros (w & Ww & H).
      (* the last wildcard declared here is in the table *)
      assert (LAST : exists w', is_wild_seg w' = true /\ in_table prog (u ++ [w'])).
      { assert (G : forall es, (exists w, is_wild_seg w = true /\ In (EEnd (u ++ [w])) es) ->
          exists w' e1 e2, is_wild_seg w' = true /\ es = e1 ++ EEnd (u ++ [w']) :: e2 /\ forall x, is_wild_seg x = true -> ~ In (EEnd (u ++ [x])) e2).
        { induction es as [|e es IH]; intros (x & Wx & Hx); [destruct Hx|].
          assert (D : (exists y, is_wild_seg y = true /\ In (EEnd (u ++ [y])) es) \/ (forall y, is_wild_seg y = true -> ~ In (EEnd (u ++ [y])) es)).
          { clear -u. induction es as [|e es IH]; [right; intros y _ []|].
            destruct IH as [(y & Wy & Hy)|N]; [left; exists y; split; [exact Wy|now right]|].
            assert (E : (exists y, is_wild_seg y = true /\ e = EEnd (u ++ [y])) \/ (forall y, is_wild_seg y = true -> e <> EEnd (u ++ [y]))).
            { destruct e as [p|d|p]; [|right; intros; discriminate|right; intros; discriminate].
              destruct p as [|z p _] using rev_ind; [right; intros y _ [= K]; destruct u; discriminate K|].
              destruct (list_eq_dec bytes_eq_dec p u) as [->|Np].
              - destruct (is_wild_seg z) eqn:Wz; [left; eauto|right; intros y Wy [= K]; apply app_inj_tail in K as (_ & ->); congruence].
              - right. intros y _ [= K]. apply app_inj_tail in K as (K & _). contradiction. }
            destruct E as [(y & Wy & ->)|N']; [left; exists y; split; [exact Wy|now left]|].
            right. intros y Wy [K|K]; [exact (N' y Wy K)|exact (N y Wy K)]. }
          destruct D as [D|D].
          - destruct (IH D) as (w' & e1 & e2 & A & -> & B). exists w', (e :: e1), e2. auto.
          - destruct Hx as [->|Hx]; [|exfalso; exact (D x Wx Hx)]. exists x, [], es. auto. }
        destruct (G _ (ex_intro _ w (conj Ww H))) as (w' & e1 & e2 & A & B & C). exists w'. split; [exact A|].
        right. exists e1, e2. split; [exact B|]. intros pat' Hp (f & w1 & w2 & rest & -> & E & W1 & W2 & Ne).
        (* w1 must be the last segment *)
        assert (f = u /\ w1 = w' /\ rest = []) as (-> & -> & ->).
        { destruct rest as [|z rest _] using rev_ind.
          - apply app_inj_tail in E as (-> & ->). auto.
          - exfalso. rewrite app_comm_cons, app_assoc in E. apply app_inj_tail in E as (E & _).
            rewrite E in W. apply Forall_app in W as (_ & W). inversion W; subst. congruence. }
        exact (C w2 W2 Hp). }
      destruct LAST as (w' & Ww' & K). apply in_table_lookup in K as (n' & L' & _).
      rewrite lookup_app, L in L'. cbn [lookup] in L'. destruct (find_child n w') as [c|] eqn:F; [|discriminate L'].
      rewrite is_wild_seg_pp in Ww'. destruct (wild_child_get _ _ _ Hln F Ww') as (-> & _). discriminate.
  Qed.
  Lemma blocked_dead front c T : Forall (fun s => is_wild_seg s = false) front -> lookup root front = Some c ->
    (blocked c T <-> dead_end prog front T).
  Proof using Hroot.
    intros W L.
    assert (LK : forall u, lookup c u = lookup root (front ++ u)) by (intros u; rewrite lookup_app, L; reflexivity).
    assert (PRE : forall k, statics T -> Forall (fun s => is_wild_seg s = false) (front ++ firstn k T)).
    { intros k St. apply Forall_app. split; [exact W|]. apply statics_nowild in St. apply Forall_forall. intros s Hs.
      rewrite Forall_forall in St. apply St. rewrite <- (firstn_skipn k T). apply in_or_app. now left. }
    unfold blocked, dead_end. split.
    - intros (NT & St & n & Ln & En & Wn). split; [exact NT|]. split; [exact St|].
      rewrite LK in Ln. pose proof (PRE (List.length T) St) as WT. rewrite firstn_all in WT.
      split; [|split].
      + destruct (proj1 (lookup_mentions (front ++ T) WT ltac:(destruct front, T; cbn; congruence)) ltac:(congruence)) as (x & Hx).
        exists x. now rewrite app_assoc.
      + intros H. assert (K : in_table prog (front ++ T)).
        { right. apply in_split in H as (e1 & e2 & E). exists e1, e2. split; [exact E|].
          intros pat' _ R. apply clobber_replaces in R. rewrite (clobber_nowild _ _ WT) in R. discriminate R. }
        apply in_table_lookup in K as (n' & L' & E'). congruence.
      + intros k w Hk Ww H.
        assert (Lk : exists n', lookup c (firstn k T) = Some n').
        { destruct (lookup c (firstn k T)) as [n'|] eqn:E; [eauto|]. exfalso.
          rewrite <- LK in Ln. rewrite <- (firstn_skipn k T) in Ln. rewrite lookup_app, E in Ln. discriminate Ln. }
        destruct Lk as (n' & Lk). pose proof (Wn k n' Hk Lk) as K. rewrite LK in Lk.
        apply (proj2 (wild_declared (front ++ firstn k T) n' (PRE k St) Lk)); [|exact K].
        exists w. split; [exact Ww|]. now rewrite <- app_assoc.
    - intros (NT & St & (x & Hx) & Nr & Nw). split; [exact NT|]. split; [exact St|].
      pose proof (PRE (List.length T) St) as WT. rewrite firstn_all in WT.
      assert (Ln : lookup root (front ++ T) <> None).
      { apply lookup_mentions; [exact WT|destruct front, T; cbn; congruence|]. exists x. now rewrite <- app_assoc. }
      destruct (lookup root (front ++ T)) as [n|] eqn:E; [|congruence]. exists n. rewrite LK. split; [exact E|]. split.
      + destruct (r_end n) eqn:En; [|reflexivity]. exfalso.
        assert (K : in_table prog (front ++ T)) by (apply in_table_lookup; eauto).
        destruct K as [K|(e1 & e2 & Ee & _)]; [destruct front, T; cbn in K; congruence|]. apply Nr. rewrite Ee. apply in_elt.
      + intros k n' Hk Lk. rewrite LK in Lk. destruct (r_wild n') as [w|] eqn:Ew; [|reflexivity]. exfalso.
        destruct (proj1 (wild_declared (front ++ firstn k T) n' (PRE k St) Lk) ltac:(congruence)) as (w' & Ww & H).
        apply (Nw k w' Hk Ww). now rewrite app_assoc.
  Qed.
  Lemma hid_hidden t ps pv : lookup root t <> None -> conforms t ps pv -> (hid root t ps <-> hidden prog t ps).
  Proof using Hroot.
    intros Lt Cf. split.
    - intros (front & s & rest & pf & T & c & E & Eps & Len & P & L & B).
      exists front, s, rest, pf, T, (pp_name (pp_set s)), (pp_verb (pp_set s)). repeat (split; [assumption|]). split; [now apply isParam_parse|].
      apply (blocked_dead front c T); auto. eapply nowild_front; eauto.
    - intros (front & s & rest & pf & T & n & v & E & Eps & Len & P & D).
      destruct (lookup root front) as [c|] eqn:L; [|rewrite E, lookup_app, L in Lt; congruence].
      exists front, s, rest, pf, T, c. repeat (split; [assumption|]). split; [apply (parse_param_pp _ _ _ P)|]. split; [exact L|].
      apply (blocked_dead front c T); auto. eapply nowild_front; eauto.
  Qed.
End Prog.
