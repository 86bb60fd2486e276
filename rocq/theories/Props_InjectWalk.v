(** Props_InjectWalk: exact forms of C28, C29, C30, C32: how every lookup ends. *)
From Coq Require Import List Ascii String Bool Arith Lia Relations.
Import ListNotations.
From Verif Require Import GoStr InjectModel InjectFacts InjectWorld InjectSpec InjectHist InjectNear InjectMain Props_Inject Props_InjectExact InjectWalk InjectDone.

(** ** Specification *)
(** what injector [i] keeps after the program with log [L] *)
Definition has_kept call (L : list entry) (i : nat) (n : bytes) : Prop := kept call i n L <> None.
(** [waits rh i have n d]: slot [n] is to be built by a function, and [d] is the
    first of its parameters that cannot be built *)
Definition waits (rh : list iop) (i : nat) (have : bytes -> Prop) (n d : bytes) : Prop :=
  exists f ins outs deps typ lab pre post,
    nearest rh i n (OFun f ins outs deps typ lab) /\ ~ have n /\ param_slots deps ins = pre ++ d :: post /\
    (forall x, In x pre -> can_build rh i have x) /\ ~ can_build rh i have d.
(** what can be built without slot [o] *)
Inductive can_build_without (rh : list iop) (i : nat) (have : bytes -> Prop) (o : bytes) : bytes -> Prop :=
| cw_have : forall n x, n <> o -> nearest rh i n x -> have n -> can_build_without rh i have o n
| cw_val : forall n v typ lab, n <> o -> nearest rh i n (OVal v typ lab) -> can_build_without rh i have o n
| cw_fun : forall n f ins outs deps typ lab, n <> o -> nearest rh i n (OFun f ins outs deps typ lab) ->
    (forall d, In d (param_slots deps ins) -> can_build_without rh i have o d) -> can_build_without rh i have o n.

Section Outcome.
  Variable asg : rtype -> rtype -> bool.
  Variable call : list callev -> nat -> list val -> option (nat -> option nat).
  Notation exec := (exec_op asg call).
  Notation logged := (logged asg call).

  Section One.
    Variable L : list entry.
    Variable w : world.
    Variable i : nat.
    Hypothesis Lg : logged L w.
    Hypothesis Hi : i < List.length (w_inj w).
    Let W := logged_winv _ _ _ _ Lg.
    Let H := logged_hist _ _ _ _ Lg.
    Notation V := (visible w i).
    Notation I := (info_of w).
    Notation C0 := (j_cache (jget w i)).
    Notation rh := (ops L).
    Notation have := (has_kept call L i).
    Notation Wt := (waits rh i have).
    Notation Av := (Avail V I C0).
    Notation St := (stuck V I C0).

    Lemma ow_colon n q : V n = Found q -> has_colon n = true.
    Proof. intros E. apply visible_values in E. tauto. Qed.
    Lemma ow_find n q : V n = Found q -> exists o, nearest rh i n o /\ new_provider o = Some (I q).
    Proof. intros E. exact (br_find rh w i H n q E). Qed.
    Lemma ow_near n o : has_colon n = true -> nearest rh i n o -> exists q, V n = Found q /\ new_provider o = Some (I q).
    Proof. intros Hc Hn. exact (br_near rh w i W H Hi n o Hc Hn). Qed.
    Lemma ow_kept n : has_colon n = true -> (have n <-> aget C0 n <> None).
    Proof. intros Hc. unfold has_kept. rewrite <- (logged_kept asg call L w i n Lg Hc). tauto. Qed.
    Lemma av_cb n : Av n -> can_build rh i have n.
    Proof.
      induction 1 as [n q o Hl Hc|n q v Hl Hk|n q f ins outs Hl Hk Hd IH]; destruct (ow_find n q Hl) as (ob & Ho & Hp).
      - eapply cb_have; [exact Ho|]. apply ow_kept; [eapply ow_colon; exact Hl|congruence].
      - destruct (info_val _ _ _ Hp Hk) as (typ & lab & ->). eapply cb_val. exact Ho.
      - destruct (info_fun _ _ _ _ _ Hp Hk) as (deps & typ & lab & -> & Ed). eapply cb_fun; [exact Ho|]. rewrite <- Ed. exact IH.
    Qed.
    Lemma cb_av n : can_build rh i have n -> has_colon n = true -> Av n.
    Proof.
      induction 1 as [n o Ho Hh|n v typ lab Ho|n f ins outs deps typ lab Ho Hd IH]; intros Hc; destruct (ow_near n _ Hc Ho) as (q & Hl & Hp).
      - apply (ow_kept n Hc) in Hh. destruct (aget C0 n) as [x|] eqn:E; [|congruence]. eapply av_cached; eassumption.
      - eapply av_value; [exact Hl|exact (val_info _ _ _ _ Hp)].
      - destruct (fun_info _ _ _ _ _ _ _ Hp) as (Hk & Ed). eapply av_fun; [exact Hl|exact Hk|]. rewrite Ed. intros d Hin.
        apply IH; [exact Hin|]. eapply param_slots_colon. exact Hin.
    Qed.
    Lemma stuck_colon n d : St n d -> has_colon d = true.
    Proof.
      intros ((q & f & ins & outs & pre & post & Hl & Hk & Hc & Hd & _) & _).
      apply (pk_deps _ (info_ok w q W)). rewrite Hd. apply in_or_app. right. left. reflexivity.
    Qed.
    Lemma waits_colon n d : Wt n d -> has_colon d = true.
    Proof.
      intros (f & ins & outs & deps & typ & lab & pre & post & _ & _ & E & _). apply (param_slots_colon deps ins). rewrite E.
      apply in_or_app. right. left. reflexivity.
    Qed.
    Lemma stuck_waits n d : St n d -> Wt n d.
    Proof.
      intros Hs. pose proof (stuck_colon n d Hs) as Hcd. destruct Hs as ((q & f & ins & outs & pre & post & Hl & Hk & Hc & Hd & Ha) & Hn).
      destruct (ow_find n q Hl) as (o & Ho & Hp). destruct (info_fun _ _ _ _ _ Hp Hk) as (deps & typ & lab & -> & Ed).
      exists f, ins, outs, deps, typ, lab, pre, post. split; [exact Ho|].
      split; [intros X; apply (ow_kept n (ow_colon _ _ Hl)) in X; congruence|]. split; [rewrite <- Ed; exact Hd|].
      split; [intros x Hx; apply av_cb, Ha; exact Hx|]. intros X. apply Hn. apply cb_av; assumption.
    Qed.
    Lemma waits_stuck n d : has_colon n = true -> Wt n d -> St n d.
    Proof.
      intros Hcn (f & ins & outs & deps & typ & lab & pre & post & Ho & Hk & E & Ha & Hn).
      destruct (ow_near n _ Hcn Ho) as (q & Hl & Hp). destruct (fun_info _ _ _ _ _ _ _ Hp) as (Hf & Ed). split.
      - exists q, f, ins, outs, pre, post. split; [exact Hl|]. split; [exact Hf|]. split.
        + destruct (aget C0 n) eqn:Ec; [|reflexivity]. exfalso. apply Hk. apply (ow_kept n Hcn). congruence.
        + split; [rewrite Ed; exact E|]. intros x Hx. apply cb_av; [apply Ha; exact Hx|]. apply (param_slots_colon deps ins). rewrite E.
          apply in_or_app. left. exact Hx.
      - intros X. apply Hn, av_cb. exact X.
    Qed.
    Lemma star_waits n m : has_colon n = true -> (clos_refl_trans bytes St n m <-> clos_refl_trans bytes Wt n m).
    Proof.
      intros Hn. split; intros X; apply clos_rt_rt1n in X.
      - clear Hn. induction X as [|x y z Hxy _ IH]; [apply rt_refl|]. eapply rt_trans; [apply rt_step, stuck_waits; exact Hxy|exact IH].
      - revert Hn. induction X as [|x y z Hxy _ IH]; intros Hn; [apply rt_refl|].
        eapply rt_trans; [apply rt_step, waits_stuck; eassumption|]. apply IH. eapply waits_colon. exact Hxy.
    Qed.
    Lemma star_colon n m : has_colon n = true -> clos_refl_trans bytes Wt n m -> has_colon m = true.
    Proof. intros Hn X. apply clos_rt_rtn1 in X. destruct X as [|y z Hyz _]; [exact Hn|]. eapply waits_colon. exact Hyz. Qed.
    Lemma plus_waits n m : has_colon n = true -> (clos_trans bytes St n m <-> clos_trans bytes Wt n m).
    Proof.
      intros Hn. split; intros X; apply plus_first in X as (y & Hy & Hr).
      - eapply step_star_plus; [apply stuck_waits; exact Hy|]. apply star_waits; [eapply stuck_colon; exact Hy|exact Hr].
      - eapply step_star_plus; [apply waits_stuck; eassumption|]. apply star_waits; [eapply waits_colon; exact Hy|exact Hr].
    Qed.
    Lemma ow_no n q : has_colon n = true -> (V n = Found q <-> nearest_no L i n q).
    Proof. intros Hn. rewrite visible_eq by exact Hn. eapply look_no; eassumption. Qed.
    Lemma missing_nowhere n : look_in w i n = Missing -> nowhere rh i n.
    Proof.
      unfold look_in. clear Hi. revert i. induction (S (List.length (w_inj w))) as [|f IH]; intros j; cbn [look_up]; [discriminate|].
      pose proof (hi_val _ _ H j n) as Hv. rewrite (hi_par _ _ H). destruct (last_provided rh j n) as [o|] eqn:E.
      - destruct Hv as (q & -> & _). discriminate.
      - rewrite Hv. destruct (parent_of (ops L) j) as [k|] eqn:Ep; [|intros _; apply nw_root; assumption].
        intros X. eapply nw_up; [exact E|exact Ep|apply IH; exact X].
    Qed.

    Hypothesis Hr : rooted rh i.
    Let NL := fun n => rooted_look rh w i W H Hi n Hr.
    Definition enough : nat := 3 * List.length (w_prov w) + 4.
    Notation no_own := (fun _ : bytes => False).
    Lemma begin_walk : walk_ok V I C0 (w_done w) no_own [] (begin w i).
    Proof.
      constructor.
      - intros m Hm. discriminate Hm.
      - intros m [].
      - intros q Hq. left. apply is_done_In in Hq. exact Hq.
      - intros q Hq. apply is_done_In. exact Hq.
    Qed.
    (** the five ways a lookup can end, on the level of the graph *)
    Lemma find_ends t l fuel : let n := slot_name t l in
      match snd (exec fuel w (PFind i t l)) with
      | RErr (EMissing m) => clos_refl_trans bytes St n m /\ V m = Missing
      | RErr (ECycle x) => clos_refl_trans bytes St n x /\ clos_trans bytes St x x /\ exists q, V x = Found q /\ ~ In q (w_done w)
      | RDiv => enough <= fuel -> exists m, clos_refl_trans bytes St n m /\ clos_trans bytes St m m /\
          forall x, clos_refl_trans bytes St m x -> done0 V (w_done w) x
      | RPanic => True
      | b => Av n /\ exists v, b = assigned asg v t
      end.
    Proof.
      cbv zeta. pose proof (create_name_colon (indirect t) l) as Hc. fold (slot_name t l) in Hc.
      cbn [exec_op]. unfold find_op. fold (slot_name t l). cbv zeta. rewrite <- (visible_eq w i _ Hc).
      destruct (V (slot_name t l)) as [q| |] eqn:Hl.
      2:{ cbn [snd]. split; [apply rt_refl|exact Hl]. }
      2:{ exfalso. exact (NL _ Hl). }
      assert (Hp : path V I C0 (w_done w) [slot_name t l]) by constructor.
      destruct (invoke_walk asg call i V I (visible_name w i W) (visible_outs w i W) C0 NL (w_done w) no_own fuel [] (slot_name t l) q
        (begin w i) Hl (begin_inv w i W) Hp begin_walk) as (E1 & E2 & _).
      destruct (invoke_good asg call i V I (visible_name w i W) (visible_outs w i W) C0 fuel (slot_name t l) q (begin w i) Hl (begin_inv w i W)) as (new & _ & _ & E3).
      rewrite <- run_invoke_visible in E1, E2, E3 by exact W.
      destruct (run_invoke asg call w i fuel q (begin w i)) as [r s]. cbn [fst snd] in *. destruct r as [[|v o]|e| |]; cbn [snd obs_fail].
      - exfalso. exact (proj2 (proj2 (E3 [] eq_refl)) eq_refl).
      - destruct (E3 _ eq_refl) as (Ha & _). destruct (assign_value asg v t) eqn:Ea; (split; [exact Ha|]; exists v; unfold assigned; rewrite Ea; reflexivity).
      - destruct (E1 e eq_refl) as [(m & -> & Hm & Hmm)|(x & q' & -> & Hx & [Hxx|[]] & Hl' & Hq')].
        + split; [|exact Hmm]. apply wstar_stuck; [exact Hm|]. intros X. inversion X; congruence.
        + pose proof (wplus_unavail V I C0 x Hxx) as Hn. split; [apply wstar_stuck; assumption|]. split; [apply wplus_stuck; assumption|]. eauto.
      - exact Logic.I.
      - intros Hf. destruct (E2 eq_refl) as (p & Hlen & Hpp).
        apply (long_path V I C0 (w_done w) (map p_name (w_prov w)) (visible_in_D w i W) (slot_name t l) p Hpp).
        rewrite map_length, Hlen. exact Hf.
    Qed.
    (** the ways exclude each other *)
    Lemma stuck_av n m : clos_refl_trans bytes St n m -> Av n -> Av m.
    Proof.
      intros X Ha. apply (avail_closed V I C0 n m Ha). clear Ha. induction X as [x y E|x|x y z _ IH1 _ IH2]; [apply rt_step, wstep_needs; exact (proj1 E)|apply rt_refl|eapply rt_trans; eassumption].
    Qed.
    Lemma cycle_unav m : clos_trans bytes St m m -> ~ Av m.
    Proof.
      intros X. destruct (plus_first _ _ _ X) as (y & Hy & Hym). apply (wstep_unavail V I C0 m y); [exact (proj1 Hy)|exact (proj2 Hy)].
    Qed.
    Lemma missing_unav m : V m = Missing -> ~ Av m.
    Proof. intros E X. inversion X; congruence. Qed.
    Lemma missing_end m : V m = Missing -> forall y, ~ St m y.
    Proof. intros E y ((q & f & ins & outs & pre & post & Hl & _) & _). congruence. Qed.
    Notation SF := (stuck_fun V I C0).

    Section Find.
      Variables (t : rtype) (l : bytes).
      Notation n := (slot_name t l).
      Notation R fuel := (snd (exec fuel w (PFind i t l))).
      Let Hc : has_colon n = true := create_name_colon (indirect t) l.
      Hypothesis calm : forall fuel, R fuel <> RPanic.

      Theorem find_builds_iff : (exists fuel v, R fuel = assigned asg v t) <-> can_build rh i have n.
      Proof.
        split.
        - intros (fuel & v & E). pose proof (find_ends t l fuel) as X. cbv zeta in X. rewrite E in X. apply av_cb.
          unfold assigned in X. destruct (assign_value asg v t); exact (proj1 X).
        - intros Hb. pose proof (cb_av n Hb Hc) as Ha. exists enough. pose proof (find_ends t l enough) as X. cbv zeta in X. specialize (calm enough).
          destruct (R enough) as [| |[m|x|a b]| | | |] eqn:E; try (destruct X as (_ & v & X); exists v; exact X).
          + congruence.
          + exfalso. destruct X as (A & B). exact (missing_unav m B (stuck_av _ _ A Ha)).
          + exfalso. destruct X as (A & B & _). exact (cycle_unav x B (stuck_av _ _ A Ha)).
          + exfalso. destruct (X (le_n _)) as (m & A & B & _). exact (cycle_unav m B (stuck_av _ _ A Ha)).
      Qed.
      Theorem find_missing_iff m : (exists fuel, R fuel = RErr (EMissing m)) <-> clos_refl_trans bytes Wt n m /\ nowhere rh i m.
      Proof.
        split.
        - intros (fuel & E). pose proof (find_ends t l fuel) as X. cbv zeta in X. rewrite E in X. destruct X as (A & B).
          apply (star_waits n m Hc) in A. split; [exact A|]. apply missing_nowhere. rewrite <- visible_eq; [exact B|]. eapply star_colon; eassumption.
        - intros (A & B). pose proof (star_colon n m Hc A) as Hcm. apply (star_waits n m Hc) in A.
          assert (Bm : V m = Missing) by (rewrite visible_eq by exact Hcm; eapply nowhere_look; eassumption).
          exists enough. pose proof (find_ends t l enough) as X. cbv zeta in X. specialize (calm enough).
          assert (NA : ~ Av n) by (intros Y; exact (missing_unav m Bm (stuck_av _ _ A Y))).
          destruct (R enough) as [| |[m'|x|a b]| | | |] eqn:E; try (exfalso; exact (NA (proj1 X))).
          + congruence.
          + f_equal. f_equal. destruct X as (A' & B'). apply (one_end _ SF n); [exact A'|apply missing_end; exact B'|exact A|apply missing_end; exact Bm].
          + exfalso. destruct X as (A' & B' & _). exact (end_or_cycle _ SF n m x A (missing_end m Bm) A' B').
          + exfalso. destruct (X (le_n _)) as (x & A' & B' & _). exact (end_or_cycle _ SF n m x A (missing_end m Bm) A' B').
      Qed.
      Lemma stuck_is_fun x y q : St x y -> V x = Found q -> is_fun (I q) = true.
      Proof. intros ((q' & f & ins & outs & pre & post & Hl & Hk & _) & _) Hq. assert (q' = q) as -> by congruence. unfold is_fun. rewrite Hk. reflexivity. Qed.
      Lemma cycle_used m : no_panic L -> clos_trans bytes St m m ->
        ((forall x, clos_refl_trans bytes St m x -> done0 V (w_done w) x) <->
         (forall x q, clos_refl_trans bytes St m x -> V x = Found q -> used L q)).
      Proof.
        intros N C. split.
        - intros D x q Hx Hq. destruct (D x Hx) as (q' & Hq' & Hd). assert (q' = q) as -> by congruence.
          eapply used_done; [exact Lg|exact N|exact Hd|]. destruct (plus_first _ _ _ (cycle_all _ SF m x C Hx)) as (y & Hy & _).
          eapply stuck_is_fun; [exact Hy|exact Hq].
        - intros D x Hx. destruct (plus_first _ _ _ (cycle_all _ SF m x C Hx)) as (y & Hy & _).
          pose proof Hy as ((q & f & ins & outs & pre & post & Hl & _) & _). exists q. split; [exact Hl|]. eapply done_used; [exact Lg|]. eapply D; eassumption.
      Qed.
      Theorem find_hangs_iff : no_panic L ->
        ((forall fuel, R fuel = RDiv) <->
         exists m, clos_refl_trans bytes Wt n m /\ clos_trans bytes Wt m m /\
           forall x q, clos_refl_trans bytes Wt m x -> nearest_no L i x q -> used L q).
      Proof.
        intros N. split.
        - intros E. pose proof (find_ends t l enough) as X. cbv zeta in X. rewrite E in X. destruct (X (le_n _)) as (m & A & B & D).
          assert (Hcm : has_colon m = true) by (eapply star_colon; [exact Hc|apply star_waits; [exact Hc|exact A]]).
          exists m. split; [apply star_waits; [exact Hc|exact A]|]. split; [apply plus_waits; [exact Hcm|exact B]|].
          intros x q Hx Hq. assert (Hcx : has_colon x = true) by (eapply star_colon; [exact Hcm|exact Hx]).
          apply (proj1 (cycle_used m N B) D x q); [apply star_waits; assumption|apply ow_no; assumption].
        - intros (m & A & B & D) fuel. assert (Hcm : has_colon m = true) by (eapply star_colon; [exact Hc|exact A]).
          apply (star_waits n m Hc) in A. apply (plus_waits m m Hcm) in B.
          assert (D' : forall x, clos_refl_trans bytes St m x -> done0 V (w_done w) x).
          { apply (cycle_used m N B). intros x q Hx Hq. apply (star_waits m x Hcm) in Hx. apply (D x q Hx).
            apply ow_no; [eapply star_colon; [exact Hcm|exact Hx]|exact Hq]. }
          pose proof (find_ends t l fuel) as X. cbv zeta in X. specialize (calm fuel).
          assert (NA : ~ Av n) by (intros Y; exact (cycle_unav m B (stuck_av _ _ A Y))).
          destruct (R fuel) as [| |[m'|x|a b]| | | |] eqn:E; try (exfalso; exact (NA (proj1 X))).
          + congruence.
          + exfalso. destruct X as (A' & B'). exact (end_or_cycle _ SF n m' m A' (missing_end m' B') A B).
          + exfalso. destruct X as (A' & B' & q & Hq & Hd). pose proof (one_cycle _ SF n m x A B A' B') as Hmx.
            destruct (D' x Hmx) as (q' & Hq' & Hd'). congruence.
          + reflexivity.
      Qed.
      Theorem find_cycle_iff : no_panic L ->
        ((exists fuel x, R fuel = RErr (ECycle x)) <->
         exists m x q, clos_refl_trans bytes Wt n m /\ clos_trans bytes Wt m m /\
           clos_refl_trans bytes Wt m x /\ nearest_no L i x q /\ ~ used L q).
      Proof.
        intros N. split.
        - intros (fuel & x & E). pose proof (find_ends t l fuel) as X. cbv zeta in X. rewrite E in X. destruct X as (A & B & q & Hq & Hd).
          assert (Hcx : has_colon x = true) by (eapply star_colon; [exact Hc|apply star_waits; [exact Hc|exact A]]).
          exists x, x, q. split; [apply star_waits; [exact Hc|exact A]|]. split; [apply plus_waits; assumption|]. split; [apply rt_refl|].
          split; [apply ow_no; assumption|]. intros U. apply Hd. eapply done_used; eassumption.
        - intros (m & x & q & A & B & Hx & Hq & Hu). assert (Hcm : has_colon m = true) by (eapply star_colon; [exact Hc|exact A]).
          assert (Hcx : has_colon x = true) by (eapply star_colon; [exact Hcm|exact Hx]).
          apply (star_waits n m Hc) in A. apply (plus_waits m m Hcm) in B. apply (star_waits m x Hcm) in Hx. apply (ow_no x q Hcx) in Hq.
          exists enough. pose proof (find_ends t l enough) as X. cbv zeta in X. specialize (calm enough).
          assert (NA : ~ Av n) by (intros Y; exact (cycle_unav m B (stuck_av _ _ A Y))).
          destruct (R enough) as [| |[m'|y|a b]| | | |] eqn:E; try (exfalso; exact (NA (proj1 X))).
          + congruence.
          + exfalso. destruct X as (A' & B'). exact (end_or_cycle _ SF n m' m A' (missing_end m' B') A B).
          + exists y. reflexivity.
          + exfalso. destruct (X (le_n _)) as (m' & A' & B' & D). apply Hu. apply (proj1 (cycle_used m' N B') D x q); [|exact Hq].
            eapply rt_trans; [exact (one_cycle _ SF n m' m A' B' A B)|exact Hx].
      Qed.
    End Find.

    Section Invoke.
      Variables (f : nat) (ins outs : list rtype) (deps : list (nat * bytes)) (typ : option rtype) (lab : bytes).
      Notation fo := (OFun f ins outs deps typ lab).
      Variable own : bytes.
      Hypothesis Hown : slot fo = Some own.
      Hypothesis Hk0 : ~ have own.
      Notation R fuel := (snd (exec fuel w (PInvoke i fo))).
      Hypothesis calm : forall fuel, R fuel <> RPanic.

      Let p : pinfo := match new_provider fo with Some p => p | None => pdummy end.
      Let w1 := add_prov w p.
      Let q := List.length (w_prov w).
      Lemma iv_p : new_provider fo = Some p.
      Proof. reflexivity. Qed.
      Lemma iv_name : p_name p = own.
      Proof. unfold slot in Hown. rewrite iv_p in Hown. injection Hown as E. exact E. Qed.
      Lemma iv_W1 : winv w1.
      Proof. apply add_prov_winv; [exact W|eapply new_provider_ok; exact iv_p]. Qed.
      Lemma iv_q : info_of w1 q = p.
      Proof. apply info_new. Qed.
      Lemma iv_kind : p_kind p = KFun f ins outs /\ p_deps p = param_slots deps ins.
      Proof. exact (fun_info _ _ _ _ _ _ _ iv_p). Qed.
      Notation V1 := (visible w1 i).
      Notation I1 := (info_of w1).
      Lemma iv_V n : V1 n = V n.
      Proof. apply visible_add. Qed.
      Lemma iv_I n x : V n = Found x -> I1 x = I x.
      Proof. intros E. unfold w1, add_prov. apply info_old. exact (visible_lt w i n x W E). Qed.
      Lemma iv_res fuel : R fuel = match fst (invoke asg call i V1 I1 fuel q (begin w1 i)) with IOk out => ROut out | r => obs_fail r end.
      Proof.
        cbn [exec_op]. unfold invoke_op. rewrite iv_p. cbv zeta. fold w1 q.
        rewrite <- run_invoke_visible by exact iv_W1. destruct (run_invoke asg call w1 i fuel q (begin w1 i)) as [[x|e| |] s]; reflexivity.
      Qed.
      Lemma iv_calm fuel : fst (invoke asg call i V1 I1 fuel q (begin w1 i)) <> IPanic.
      Proof. intros E. specialize (calm fuel). rewrite iv_res, E in calm. apply calm. reflexivity. Qed.
      Lemma iv_nok : aget (i_cache (begin w1 i)) (p_name (I1 q)) = None.
      Proof.
        rewrite iv_q, iv_name. change (i_cache (begin w1 i)) with C0. destruct (aget C0 own) eqn:E; [exfalso|reflexivity].
        assert (Hc : has_colon own = true) by (apply (hi_colon _ _ H i); congruence).
        apply Hk0. apply (ow_kept own Hc). congruence.
      Qed.
      Lemma av_ext n : Avail V1 I1 C0 n <-> Av n.
      Proof.
        split; induction 1 as [n x o Hl Hc|n x v Hl Hk|n x g ins' outs' Hl Hk Hd IH].
        - rewrite iv_V in Hl. eapply av_cached; eassumption.
        - rewrite iv_V in Hl. rewrite (iv_I _ _ Hl) in Hk. eapply av_value; eassumption.
        - rewrite iv_V in Hl. rewrite (iv_I _ _ Hl) in *. eapply av_fun; eassumption.
        - eapply av_cached; [rewrite iv_V; exact Hl|exact Hc].
        - eapply av_value; [rewrite iv_V; exact Hl|rewrite (iv_I _ _ Hl); exact Hk].
        - eapply av_fun; [rewrite iv_V; exact Hl|rewrite (iv_I _ _ Hl); exact Hk|rewrite (iv_I _ _ Hl); exact IH].
      Qed.
      Lemma pcolon d : In d (param_slots deps ins) -> has_colon d = true.
      Proof. apply param_slots_colon. Qed.
      Lemma params_av : (forall d, In d (p_deps (I1 q)) -> Avail V1 I1 C0 d) <-> (forall d, In d (param_slots deps ins) -> can_build rh i have d).
      Proof.
        rewrite iv_q, (proj2 iv_kind). split; intros X d Hd.
        - apply av_cb, av_ext, X. exact Hd.
        - apply av_ext, cb_av; [apply X; exact Hd|apply pcolon; exact Hd].
      Qed.
      Lemma iv_loop n : V1 n <> Loop.
      Proof. rewrite iv_V. apply NL. Qed.
      Lemma iv_ok : (exists fuel out, R fuel = ROut out) <-> (exists fuel out, fst (invoke asg call i V1 I1 fuel q (begin w1 i)) = IOk out).
      Proof.
        split; intros (fuel & out & E); exists fuel, out.
        - rewrite iv_res in E. destruct (fst (invoke asg call i V1 I1 fuel q (begin w1 i))); cbn in E; congruence.
        - rewrite iv_res, E. reflexivity.
      Qed.
      Lemma iv_in_D n x g ins' outs' : V1 n = Found x -> p_kind (I1 x) = KFun g ins' outs' -> In n (map p_name (w_prov w1)).
      Proof. apply (visible_in_D w1 i iv_W1). Qed.

      (** nothing of the function's own slot is in the way *)
      Lemma invoke_free : (forall qo, V own = Found qo -> In qo (w_done w)) ->
        ((exists fuel out, R fuel = ROut out) <-> forall d, In d (param_slots deps ins) -> can_build rh i have d).
      Proof.
        intros Hd. rewrite iv_ok, <- params_av.
        refine (root_iff asg call i V1 I1 (visible_name w1 i iv_W1) (visible_outs w1 i iv_W1) iv_loop (map p_name (w_prov w1)) iv_in_D
          (begin w1 i) q f ins outs _ iv_nok eq_refl (begin_inv w1 i iv_W1) _ iv_calm).
        - rewrite iv_q. exact (proj1 iv_kind).
        - intros qo. rewrite iv_q, iv_name, iv_V. exact (Hd qo).
      Qed.
      Lemma invoke_needs fuel out : R fuel = ROut out -> forall d, In d (param_slots deps ins) -> can_build rh i have d.
      Proof.
        intros E. apply params_av. destruct fuel as [|fuel].
        - rewrite iv_res in E. discriminate E.
        - refine (proj2 (proj2 (root_walk asg call i V1 I1 (visible_name w1 i iv_W1) (visible_outs w1 i iv_W1) iv_loop (map p_name (w_prov w1)) iv_in_D
            (begin w1 i) q f ins outs _ iv_nok eq_refl (begin_inv w1 i iv_W1) fuel)) out _).
          + rewrite iv_q. exact (proj1 iv_kind).
          + rewrite iv_res in E. destruct (fst (invoke asg call i V1 I1 (S fuel) q (begin w1 i))); cbn in E; congruence.
      Qed.
      (** the function's own slot has a provider that was not used yet *)
      Section Blocked.
        Variable qo : nat.
        Hypothesis Hqo : V own = Found qo.
        Hypothesis Hnd : ~ In qo (w_done w).
        Notation VH := (hide V1 own).
        Lemma vh_found n x : VH n = Found x -> n <> own /\ V n = Found x.
        Proof. unfold hide. destruct (beq n own) eqn:E; [discriminate|]. rewrite iv_V. apply beq_false in E. auto. Qed.
        Lemma vh_other n : n <> own -> VH n = V n.
        Proof. intros Hn. unfold hide. destruct (beq n own) eqn:E; [apply beq_true in E; congruence|apply iv_V]. Qed.
        Lemma avh_cb n : Avail VH I1 C0 n -> can_build_without rh i have own n.
        Proof.
          induction 1 as [n x o Hl Hc|n x v Hl Hk|n x g ins' outs' Hl Hk Hd IH]; destruct (vh_found n x Hl) as (Hn & Hv); destruct (ow_find n x Hv) as (ob & Ho & Hp).
          - eapply cw_have; [exact Hn|exact Ho|]. apply ow_kept; [eapply ow_colon; exact Hv|congruence].
          - rewrite (iv_I _ _ Hv) in Hk. destruct (info_val _ _ _ Hp Hk) as (typ' & lab' & ->). eapply cw_val; [exact Hn|exact Ho].
          - rewrite (iv_I _ _ Hv) in *. destruct (info_fun _ _ _ _ _ Hp Hk) as (deps' & typ' & lab' & -> & Ed). eapply cw_fun; [exact Hn|exact Ho|]. rewrite <- Ed. exact IH.
        Qed.
        Lemma cb_avh n : can_build_without rh i have own n -> has_colon n = true -> Avail VH I1 C0 n.
        Proof.
          induction 1 as [n o Hne Ho Hh|n v typ' lab' Hne Ho|n g ins' outs' deps' typ' lab' Hne Ho Hd IH]; intros Hc; destruct (ow_near n _ Hc Ho) as (x & Hl & Hp);
            pose proof Hl as Hl1; rewrite <- (vh_other n Hne) in Hl1.
          - apply (ow_kept n Hc) in Hh. destruct (aget C0 n) as [y|] eqn:E; [|congruence]. eapply av_cached; eassumption.
          - eapply av_value; [exact Hl1|]. rewrite (iv_I _ _ Hl). exact (val_info _ _ _ _ Hp).
          - destruct (fun_info _ _ _ _ _ _ _ Hp) as (Hk & Ed). eapply av_fun; [exact Hl1|rewrite (iv_I _ _ Hl); exact Hk|]. rewrite (iv_I _ _ Hl), Ed. intros d Hin.
            apply IH; [exact Hin|]. eapply param_slots_colon. exact Hin.
        Qed.
        Lemma iv_hide fuel : fst (invoke asg call i V1 I1 fuel q (begin w1 i)) = conv own (fst (invoke asg call i VH I1 fuel q (begin w1 i))).
        Proof.
          refine (root_hide asg call i V1 I1 (visible_name w1 i iv_W1) own qo _ fuel q (begin w1 i) _ _ _ _).
          - rewrite iv_V. exact Hqo.
          - intros E. pose proof (visible_lt w i own qo W Hqo). unfold q in E. lia.
          - rewrite iv_q. exact iv_name.
          - destruct (is_done (begin w1 i) qo) eqn:E; [|reflexivity]. apply is_done_In in E. exfalso. exact (Hnd E).
          - rewrite iv_q. unfold is_fun. rewrite (proj1 iv_kind). reflexivity.
        Qed.
        Lemma invoke_blocked : (exists fuel out, R fuel = ROut out) <-> forall d, In d (param_slots deps ins) -> can_build_without rh i have own d.
        Proof.
          assert (X : (exists fuel out, fst (invoke asg call i VH I1 fuel q (begin w1 i)) = IOk out) <-> forall d, In d (p_deps (I1 q)) -> Avail VH I1 C0 d).
          { refine (root_iff asg call i VH I1 _ _ _ (map p_name (w_prov w1)) _ (begin w1 i) q f ins outs _ iv_nok eq_refl _ _ _).
            - intros n x E. destruct (vh_found n x E) as (_ & E'). apply (visible_name w1 i iv_W1). rewrite iv_V. exact E'.
            - intros n x g ins' E. destruct (vh_found n x E) as (_ & E'). apply (visible_outs w1 i iv_W1 n). rewrite iv_V. exact E'.
            - intros n E. unfold hide in E. destruct (beq n own); [discriminate|exact (iv_loop n E)].
            - intros n x g ins' outs' E. destruct (vh_found n x E) as (_ & E'). apply iv_in_D. rewrite iv_V. exact E'.
            - rewrite iv_q. exact (proj1 iv_kind).
            - destruct (begin_inv w1 i iv_W1) as (B1 & B2 & B3). split; [exact B1|]. split; [|exact B3].
              intros m o x Hm Hl. eapply av_cached; eassumption.
            - intros x. rewrite iv_q, iv_name. unfold hide. rewrite beq_refl. discriminate.
            - intros fuel E. apply (iv_calm fuel). rewrite iv_hide, E. reflexivity. }
          rewrite iv_ok. transitivity (exists fuel out, fst (invoke asg call i VH I1 fuel q (begin w1 i)) = IOk out).
          { split; intros (fuel & out & E); exists fuel, out; [rewrite iv_hide in E; apply conv_ok in E; exact E|rewrite iv_hide, E; reflexivity]. }
          rewrite X, iv_q, (proj2 iv_kind). split; intros Y d Hd; [apply avh_cb, Y; exact Hd|apply cb_avh; [apply Y; exact Hd|apply pcolon; exact Hd]].
        Qed.
      End Blocked.
      Lemma without_can n : can_build_without rh i have own n -> can_build rh i have n.
      Proof.
        induction 1 as [n o Hne Ho Hh|n v typ' lab' Hne Ho|n g ins' outs' deps' typ' lab' Hne Ho Hd IH];
          [eapply cb_have; eassumption|eapply cb_val; eassumption|eapply cb_fun; eassumption].
      Qed.
      Lemma own_dec : (forall qo, V own = Found qo -> In qo (w_done w)) \/ exists qo, V own = Found qo /\ ~ In qo (w_done w).
      Proof.
        destruct (V own) as [x| |]; [|left; discriminate|left; discriminate]. destruct (in_dec Nat.eq_dec x (w_done w)) as [E|E].
        - left. intros y [= <-]. exact E.
        - right. eauto.
      Qed.
      Theorem invoke_enough : (forall d, In d (param_slots deps ins) -> can_build_without rh i have own d) -> exists fuel out, R fuel = ROut out.
      Proof.
        intros X. destruct own_dec as [D|(qo & A & B)]; [apply (invoke_free D); intros d Hd; apply without_can, X; exact Hd|].
        apply (invoke_blocked qo A B). exact X.
      Qed.
      (** the own slot is provided by a function not used yet: it must not be needed *)
      Theorem invoke_blocked_iff qo f' ins' outs' deps' typ' lab' : no_panic L ->
        nearest rh i own (OFun f' ins' outs' deps' typ' lab') -> outs <> [] -> nearest_no L i own qo -> ~ used L qo ->
        ((exists fuel out, R fuel = ROut out) <-> forall d, In d (param_slots deps ins) -> can_build_without rh i have own d).
      Proof.
        intros N Hn Ho Hq Hu. assert (Hc : has_colon own = true).
        { rewrite <- iv_name. pose proof (pk_name _ (new_provider_ok _ _ iv_p)) as Y. rewrite (proj1 iv_kind) in Y. destruct outs; [congruence|exact Y]. }
        apply (ow_no own qo Hc) in Hq. apply (invoke_blocked qo Hq). intros Hd. apply Hu. eapply used_done; [exact Lg|exact N|exact Hd|].
        destruct (ow_near own _ Hc Hn) as (x & Hx & Hp). assert (x = qo) as -> by congruence.
        destruct (fun_info _ _ _ _ _ _ _ Hp) as (Hk & _). unfold is_fun. rewrite Hk. reflexivity.
      Qed.
      Theorem invoke_free_iff : (forall qo, nearest_no L i own qo -> used L qo) ->
        ((exists fuel out, R fuel = ROut out) <-> forall d, In d (param_slots deps ins) -> can_build rh i have d).
      Proof.
        intros Hu. apply invoke_free. intros qo Hq. eapply done_used; [exact Lg|]. apply Hu. apply ow_no; [eapply ow_colon; exact Hq|exact Hq].
      Qed.
      (** a cycle error names a slot that is needed, is not used yet, and lies on a cycle or is the own slot *)
      Theorem invoke_cycle_why fuel x : R fuel = RErr (ECycle x) ->
        exists d, In d (param_slots deps ins) /\ clos_refl_trans bytes (wants rh i) d x /\
          (clos_trans bytes (wants rh i) x x \/ x = own) /\ exists qx, nearest_no L i x qx /\ ~ used L qx.
      Proof.
        intros E. rewrite iv_res in E. destruct fuel as [|fuel]; [discriminate E|].
        destruct (fst (invoke asg call i V1 I1 (S fuel) q (begin w1 i))) as [out|e| |] eqn:Er; try discriminate E. injection E as ->.
        destruct (root_walk asg call i V1 I1 (visible_name w1 i iv_W1) (visible_outs w1 i iv_W1) iv_loop (map p_name (w_prov w1)) iv_in_D
            (begin w1 i) q f ins outs ltac:(rewrite iv_q; exact (proj1 iv_kind)) iv_nok eq_refl (begin_inv w1 i iv_W1) fuel) as (A & _).
        destruct (A _ Er) as (d & Hd & _ & Hb). rewrite iv_q, (proj2 iv_kind) in Hd. exists d. split; [exact Hd|].
        destruct Hb as [(m & Em & _)|(y & qy & Ey & Hy & Hor & Hl & Hq)]; [discriminate Em|]. injection Ey as <-.
        assert (Hw : forall a b, wstep V1 I1 C0 a b -> wants rh i a b).
        { intros a b (z & g & ins' & outs' & pre & post & Hz & Hk & Hc & Hdd & _). rewrite iv_V in Hz. rewrite (iv_I _ _ Hz) in *.
          destruct (ow_find a z Hz) as (ob & Hob & Hp). destruct (info_fun _ _ _ _ _ Hp Hk) as (deps' & typ' & lab' & -> & Ed).
          exists g, ins', outs', deps', typ', lab'. split; [exact Hob|]. rewrite <- Ed, Hdd. apply in_or_app. right. left. reflexivity. }
        assert (Hst : forall a b, clos_refl_trans bytes (wstep V1 I1 C0) a b -> clos_refl_trans bytes (wants rh i) a b).
        { induction 1 as [a b X|a|a b c _ IH1 _ IH2]; [apply rt_step, Hw; exact X|apply rt_refl|eapply rt_trans; eassumption]. }
        assert (Hpl : forall a b, clos_trans bytes (wstep V1 I1 C0) a b -> clos_trans bytes (wants rh i) a b).
        { induction 1 as [a b X|a b c _ IH1 _ IH2]; [apply t_step, Hw; exact X|eapply t_trans; eassumption]. }
        split; [apply Hst; exact Hy|]. split.
        - destruct Hor as [Hc|Hc]; [left; apply Hpl; exact Hc|right]. symmetry. rewrite iv_q in Hc. rewrite <- iv_name. exact Hc.
        - exists qy. rewrite iv_V in Hl. split; [apply ow_no; [eapply ow_colon; exact Hl|exact Hl]|]. intros U. apply Hq. change (In qy (w_done w)). eapply done_used; eassumption.
      Qed.
    End Invoke.
  End One.
End Outcome.

(** ** C97 for Invoke *)
(** what an injector uses for slot [d] in the course of an operation that has so far
    called [tr]: what the newest of these calls for the slot returned, else what it
    keeps, else a provided value *)
Definition uses call (G : list pobj) (L : list entry) (i : nat) (tr : list callev) (d : bytes) (a : val) : Prop :=
  match built call G i d tr (calls L), kept call i d L with
  | Some x, _ | None, Some x => hd_error x = Some a
  | None, None => exists typ lab, nearest (ops L) i d (OVal a typ lab)
  end.
Section Args.
  Variable asg : rtype -> rtype -> bool.
  Variable call : list callev -> nat -> list val -> option (nat -> option nat).
  Notation exec := (exec_op asg call).
  Notation logged := (logged asg call).
  (** [root_run] together with what the calls leave in the cache *)
  Lemma root_ce w i fuel q r s' f ins outs : winv w -> p_kind (info_of w q) = KFun f ins outs ->
    run_invoke asg call w i fuel q (begin w i) = (r, s') ->
    exists s1 n1,
      post i (visible w i) (info_of w) (j_cache (jget w i)) (fun d => In d (p_deps (info_of w q))) (set_status (begin w i) (p_name (info_of w q))) s1 n1 /\
      ce call (info_of w) i (begin w i) s1 /\
      (i_tr s' = i_tr s1 \/
       exists args ok, i_tr s' = Called i q f args ok :: i_tr s1 /\
          Forall2 (fun d a => exists o, holds (visible w i) (info_of w) s1 d (a :: o)) (p_deps (info_of w q)) args /\
          (forall d, In d (p_deps (info_of w q)) -> Avail (visible w i) (info_of w) (j_cache (jget w i)) d) /\
          ((ok = false /\ r = IPanic /\ i_cache s' = i_cache s1) \/
           (exists g, ok = true /\ r = IOk (results g 0 outs) /\
              i_cache s' = match outs with [] => i_cache s1 | _ => aset (i_cache s1) (p_name (info_of w q)) (results g 0 outs) end))).
  Proof.
    intros W Hk. rewrite run_invoke_visible by exact W. pose proof (begin_inv w i W) as Hb.
    assert (Hb0 : Inv (visible w i) (info_of w) (j_cache (jget w i)) (set_status (begin w i) (p_name (info_of w q)))) by exact Hb.
    assert (Hskip : exists s1 n1,
      post i (visible w i) (info_of w) (j_cache (jget w i)) (fun d => In d (p_deps (info_of w q))) (set_status (begin w i) (p_name (info_of w q))) s1 n1 /\
      ce call (info_of w) i (begin w i) s1 /\ i_tr (begin w i) = i_tr s1).
    { exists (set_status (begin w i) (p_name (info_of w q))), []. split; [apply post_refl; exact Hb0|]. split; [apply ce_same; reflexivity|reflexivity]. }
    destruct fuel as [|fu]; cbn [invoke].
    { intros [= <- <-]. destruct Hskip as (s1 & n1 & A & B & C). exists s1, n1. auto. }
    change (i_cache (begin w i)) with (j_cache (jget w i)).
    destruct (aget (j_cache (jget w i)) (p_name (info_of w q))) as [o|] eqn:Ec.
    { intros [= <- <-]. destruct Hskip as (s1 & n1 & A & B & C). exists s1, n1. auto. }
    cbv zeta. rewrite Hk.
    pose proof (eval_deps_good i (visible w i) (info_of w) (j_cache (jget w i)) (invoke asg call i (visible w i) (info_of w) fu)
       (invoke_good asg call i (visible w i) (info_of w) (visible_name w i W) (visible_outs w i W) (j_cache (jget w i)) fu)
       (p_deps (info_of w q)) _ Hb0) as (n1 & P & Ho & Ha).
    pose proof (eval_deps_ce call (info_of w) i (visible w i) (invoke asg call i (visible w i) (info_of w) fu)
       (invoke_ce asg call (info_of w) i (fun q' => info_ok w q' W) (visible w i) fu)
       (p_deps (info_of w q)) (set_status (begin w i) (p_name (info_of w q)))) as Hce.
    destruct (eval_deps (visible w i) (info_of w) (invoke asg call i (visible w i) (info_of w) fu) (p_deps (info_of w q))
               (set_status (begin w i) (p_name (info_of w q)))) as [dr s1]. cbn [fst snd] in P, Ho, Ha, Hce.
    assert (Hce' : ce call (info_of w) i (begin w i) s1).
    { eapply ce_trans; [|exact Hce]. apply ce_same; reflexivity. }
    intros E. exists s1, n1. split; [exact P|]. split; [exact Hce'|].
    destruct dr as [args|r1].
    - unfold call_fun in E. destruct (args_ok asg args ins); cbn [fst snd] in E; [|injection E as <- <-; left; reflexivity].
      destruct (Ha args eq_refl) as (Hh & Hav).
      destruct (call (i_tr s1) f args) as [g|]; cbn [fst snd] in E; injection E as <- <-; right.
      + exists args, true. split; [destruct outs; reflexivity|]. split; [exact Hh|]. split; [exact Hav|]. right. exists g.
        split; [reflexivity|]. split; [reflexivity|]. destruct outs; reflexivity.
      + exists args, false. split; [reflexivity|]. split; [exact Hh|]. split; [exact Hav|]. left. auto.
    - left. destruct r1; cbn [fst snd] in E; injection E as <- <-; reflexivity.
  Qed.
  (** every call of the function given to Invoke *)
  Theorem C97_arguments_of_invoke L w i f ins outs deps typ lab fuel w' b e :
    let fo := OFun f ins outs deps typ lab in
    logged L w -> i < List.length (w_inj w) -> exec fuel w (PInvoke i fo) = (w', b) ->
    In e (w_tr w') -> c_prov e = List.length (given L) ->
    exists tr, w_tr w' = e :: tr ++ calls L /\ (forall e', In e' (tr ++ calls L) -> c_prov e' < List.length (given L)) /\
      c_inj e = i /\ c_fun e = f /\ List.length (c_args e) = List.length ins /\
      forall k tk a, nth_error ins k = Some tk -> nth_error (c_args e) k = Some a ->
        uses call (given L) L i tr (slot_name tk (label_for deps k)) a /\
        (slot fo <> Some (slot_name tk (label_for deps k)) \/ c_ok e = false ->
         snd (exec 1 w' (PFind i tk (label_for deps k))) = assigned asg a tk).
  Proof.
    intros fo Lg Hi E He Hn. pose proof (logged_winv _ _ _ _ Lg) as W. pose proof (logged_hist _ _ _ _ Lg) as H.
    pose proof (logged_calls _ _ _ _ Lg) as Hc. pose proof (logged_numbered _ _ _ _ Lg) as N.
    rewrite (numbered_len _ _ N) in Hn.
    assert (W' : winv w') by (eapply eff_winv; [exact W| |exact (exec_eff asg call _ _ (PInvoke i fo) _ _ W Hi E)]; exact Hi).
    cbn [exec_op] in E. unfold invoke_op in E.
    destruct (new_provider fo) as [p|] eqn:Hp; [|discriminate]. cbv zeta in E. set (w1 := add_prov w p) in *. set (q := List.length (w_prov w)) in *.
    assert (W1 : winv w1) by (apply add_prov_winv; [exact W|eapply new_provider_ok; exact Hp]).
    assert (Hq : info_of w1 q = p) by apply info_new. destruct (fun_info _ _ _ _ _ _ _ Hp) as (Hk & Hd).
    destruct (run_invoke asg call w1 i fuel q (begin w1 i)) as [r s'] eqn:Er.
    assert (Hk1 : p_kind (info_of w1 q) = KFun f ins outs) by (rewrite Hq; exact Hk).
    destruct (root_ce w1 i fuel q r s' f ins outs W1 Hk1 Er) as (s1 & n1 & P & C & Hcase). rewrite Hq in *.
    assert (Htr : w_tr w' = i_tr s') by (destruct r; injection E as <- _; reflexivity).
    pose proof (po_tr _ _ _ _ _ _ _ _ P) as Ht. cbn [i_tr set_status begin] in Ht. change (w_tr w1) with (w_tr w) in Ht.
    assert (Hold : forall e', In e' (n1 ++ w_tr w) -> c_prov e' < q).
    { intros e' Hin. apply in_app_or in Hin as [Hin|Hin]; [|exact (wi_called _ W _ Hin)].
      pose proof (proj1 (Forall_forall _ _) (po_calls _ _ _ _ _ _ _ _ P) e' Hin) as G.
      pose proof (gc_look _ _ _ _ _ _ _ G) as GL. unfold w1 in GL. rewrite visible_add in GL. eapply visible_lt; eassumption. }
    destruct Hcase as [T|(args & ok & T & Ga & Gs & Hcase)].
    { exfalso. rewrite Htr, T, Ht in He. specialize (Hold e He). lia. }
    rewrite Htr, T in He. destruct He as [<-|He]; [|exfalso; rewrite Ht in He; specialize (Hold e He); lia].
    exists n1. cbn [c_inj c_fun c_args c_ok]. split; [rewrite Htr, T, Ht, Hc; reflexivity|].
    split; [rewrite <- Hc, (numbered_len _ _ N); exact Hold|].
    split; [reflexivity|]. split; [reflexivity|]. rewrite Hd in Ga, Gs.
    split; [rewrite <- (Forall2_length' _ _ _ Ga); apply param_slots_length|].
    intros k tk a Hk2 Hk3. set (d := slot_name tk (label_for deps k)).
    assert (Hcol : has_colon d = true) by apply create_name_colon.
    destruct (Forall2_nth _ _ _ k _ _ Ga (param_slots_nth deps ins k tk Hk2) Hk3) as (o' & Hh). fold d in Hh.
    assert (Hav : Avail (visible w1 i) (info_of w1) (j_cache (jget w1 i)) d).
    { apply Gs. eapply nth_error_In. apply param_slots_nth. exact Hk2. }
    assert (Hlook : exists q', look_in w1 i d = Found q') by (apply avail_found; assumption).
    split.
    - destruct C as [(new & T1 & F & Hce)]. cbn [begin i_tr] in T1. change (w_tr w1) with (w_tr w) in T1. rewrite Ht in T1. apply app_inv_tail in T1 as <-.
      assert (Hb : built call (given L) i d n1 (calls L) = newest call (info_of w1) d n1 (w_tr w)).
      { rewrite Hc. assert (Hsub : forall e', In e' n1 -> c_prov e' < q) by (intros e' Hin; apply Hold; apply in_or_app; left; exact Hin).
        clear -N Hp F Hsub. induction F as [|e' l Hj F IH]; [reflexivity|]. cbn [newest built]. rewrite Hj, Nat.eqb_refl.
        rewrite IH by (intros e'' Hin; apply Hsub; right; exact Hin).
        assert (Hg : gives call (info_of w1) d e' (l ++ calls L) = yielded call (given L) d e' (l ++ calls L)).
        { rewrite <- (gives_yielded call (given L) w d e' (l ++ calls L) N). unfold gives. unfold w1. rewrite info_add_old; [reflexivity|].
          apply Hsub. left. reflexivity. }
        rewrite Hg. unfold or_else. destruct (yielded call (given L) d e' (l ++ calls L)); reflexivity. }
      specialize (Hce d Hcol). cbn [begin i_tr i_cache] in Hce. change (w_tr w1) with (w_tr w) in Hce. rewrite <- Hb in Hce.
      change (jget w1 i) with (jget w i) in Hce. rewrite (logged_kept asg call L w i d Lg Hcol) in Hce.
      unfold uses. unfold or_else in Hce. destruct Hh as [Hh|(Hh & q2 & v & Hl2 & Hk4 & Ho)].
      + rewrite Hh in Hce. destruct (built call (given L) i d n1 (calls L)) as [x|]; [|destruct (kept call i d L) as [x|]; [|discriminate]];
          injection Hce as <-; reflexivity.
      + rewrite Hh in Hce. destruct (built call (given L) i d n1 (calls L)) as [x|]; [discriminate|]. destruct (kept call i d L) as [x|]; [discriminate|].
        injection Ho as -> _. unfold w1 in Hl2. rewrite visible_add in Hl2.
        destruct (br_find (ops L) w i H d q2 Hl2) as (ob & Hob & Hpo).
        unfold w1 in Hk4. rewrite info_add_old in Hk4 by (eapply visible_lt; [exact W|exact Hl2]).
        destruct (info_val _ _ _ Hpo Hk4) as (typ' & lab' & ->). eauto.
    - intros Hslot.
      assert (Hi1 : i < List.length (w_inj (commit w1 i s'))) by (cbn; rewrite upd_length; exact Hi).
      assert (Hca : aget (j_cache (jget w' i)) d = aget (i_cache s1) d /\ (forall j, j_values (jget w' j) = j_values (jget w1 j)) /\
         (forall j, j_parent (jget w' j) = j_parent (jget w1 j)) /\ i < List.length (w_inj w') /\ info_of w' = info_of w1).
      { destruct Hcase as [(-> & -> & Hcc)|(g & -> & -> & Hcc)].
        - injection E as <- _. rewrite jget_commit_same by exact Hi. cbn [j_cache]. rewrite Hcc. split; [reflexivity|].
          split; [|split; [|split; [exact Hi1|reflexivity]]]; intros j; (destruct (Nat.eq_dec i j) as [<-|Hj]; [rewrite jget_commit_same by exact Hi; reflexivity|rewrite jget_commit_other by exact Hj; reflexivity]).
        - injection E as <- _. assert (Hne : p_name p <> d).
          { destruct Hslot as [Hs|Hs]; [|discriminate]. intros En. apply Hs. unfold slot. rewrite Hp, <- En. reflexivity. }
          rewrite drop_cache_same by exact Hi1. rewrite aget_adel_other by exact Hne. rewrite jget_commit_same by exact Hi. cbn [j_cache].
          split; [rewrite Hcc; destruct outs; [reflexivity|apply aget_aset_other; exact Hne]|].
          split; [|split; [|split; [cbn; rewrite !upd_length; exact Hi|reflexivity]]]; intros j.
          + rewrite drop_values. destruct (Nat.eq_dec i j) as [<-|Hj]; [rewrite jget_commit_same by exact Hi; reflexivity|rewrite jget_commit_other by exact Hj; reflexivity].
          + rewrite drop_parent. destruct (Nat.eq_dec i j) as [<-|Hj]; [rewrite jget_commit_same by exact Hi; reflexivity|rewrite jget_commit_other by exact Hj; reflexivity]. }
      destruct Hca as (Hca & Hv & Hpa & Hi2 & Hin).
      assert (Hh' : has w' i d (a :: o')).
      { split; [exact Hi2|]. destruct Hlook as (q' & Hq'). exists q'. split.
        - eapply look_same; [exact W'|exact Hi2|intros j; rewrite Hv; reflexivity|exact Hpa|exact Hq'].
        - rewrite Hca, Hin. destruct Hh as [Hh|(Hh & q2 & v & Hl2 & Hk4 & Ho)]; [left; exact Hh|right]. split; [exact Hh|]. exists v.
          rewrite visible_eq in Hl2 by exact Hcol. assert (q2 = q') as -> by congruence. auto. }
      destruct (has_find asg call _ i tk _ a o' 0 W' Hh') as (w3 & E2 & _). rewrite E2. reflexivity.
  Qed.
End Args.

(** ** The exact outcome of every lookup
    [L] is the log of any program; the lookup is on an injector whose chain of parents ends,
    and no function called by it panics. [n] is the slot looked up. *)
Section Exact.
  Variable asg : rtype -> rtype -> bool.
  Variable call : list callev -> nat -> list val -> option (nat -> option nat).
  Notation exec := (exec_op asg call).
  Notation logged := (logged asg call).
  Notation have := (has_kept call).
  Notation blocked_on L i := (waits (ops L) i (has_kept call L i)).

  (** it succeeds (the value may still not be assignable to the target) iff everything can be built *)
  Theorem C32_find_exact L w i t l :
    logged L w -> i < List.length (w_inj w) -> rooted (ops L) i -> (forall fuel, snd (exec fuel w (PFind i t l)) <> RPanic) ->
    (exists fuel v, snd (exec fuel w (PFind i t l)) = assigned asg v t) <-> can_build (ops L) i (have L i) (slot_name t l).
  Proof. intros Lg Hi Hr Hc. exact (find_builds_iff asg call L w i Lg Hi Hr t l Hc). Qed.
  (** it reports [m] missing iff following, from [n], the first dependency that cannot be built leads to [m], which nobody provides *)
  Theorem C28_missing_exact L w i t l m :
    logged L w -> i < List.length (w_inj w) -> rooted (ops L) i -> (forall fuel, snd (exec fuel w (PFind i t l)) <> RPanic) ->
    (exists fuel, snd (exec fuel w (PFind i t l)) = RErr (EMissing m)) <->
    clos_refl_trans bytes (blocked_on L i) (slot_name t l) m /\ nowhere (ops L) i m.
  Proof. intros Lg Hi Hr Hc. exact (find_missing_iff asg call L w i Lg Hi Hr t l Hc m). Qed.
  (** it reports a cycle iff that way leads into a cycle on which some provider was not used yet *)
  Theorem C29_cycle_exact L w i t l :
    logged L w -> i < List.length (w_inj w) -> rooted (ops L) i -> (forall fuel, snd (exec fuel w (PFind i t l)) <> RPanic) -> no_panic L ->
    (exists fuel x, snd (exec fuel w (PFind i t l)) = RErr (ECycle x)) <->
    exists m x q, clos_refl_trans bytes (blocked_on L i) (slot_name t l) m /\ clos_trans bytes (blocked_on L i) m m /\
      clos_refl_trans bytes (blocked_on L i) m x /\ nearest_no L i x q /\ ~ used L q.
  Proof. intros Lg Hi Hr Hc Hn. exact (find_cycle_iff asg call L w i Lg Hi Hr t l Hc Hn). Qed.
  (** it runs for ever iff that way leads into a cycle all of whose providers were used before *)
  Theorem C30_hangs_exact L w i t l :
    logged L w -> i < List.length (w_inj w) -> rooted (ops L) i -> (forall fuel, snd (exec fuel w (PFind i t l)) <> RPanic) -> no_panic L ->
    (forall fuel, snd (exec fuel w (PFind i t l)) = RDiv) <->
    exists m, clos_refl_trans bytes (blocked_on L i) (slot_name t l) m /\ clos_trans bytes (blocked_on L i) m m /\
      forall x q, clos_refl_trans bytes (blocked_on L i) m x -> nearest_no L i x q -> used L q.
  Proof. intros Lg Hi Hr Hc Hn. exact (find_hangs_iff asg call L w i Lg Hi Hr t l Hc Hn). Qed.
  (** the slot a cycle error of Find names is on the cycle and not used yet *)
  Theorem C29_cycle_named L w i t l fuel x :
    logged L w -> i < List.length (w_inj w) -> rooted (ops L) i ->
    snd (exec fuel w (PFind i t l)) = RErr (ECycle x) ->
    clos_refl_trans bytes (blocked_on L i) (slot_name t l) x /\ clos_trans bytes (blocked_on L i) x x /\
    exists q, nearest_no L i x q /\ ~ used L q.
  Proof.
    intros Lg Hi Hr E. pose proof (find_ends asg call L w i Lg Hi Hr t l fuel) as X. cbv zeta in X. rewrite E in X. destruct X as (A & B & q & Hq & Hd).
    assert (Hc : has_colon (slot_name t l) = true) by apply create_name_colon.
    apply (star_waits asg call L w i Lg Hi _ _ Hc) in A. assert (Hcx : has_colon x = true) by (eapply star_colon; eassumption).
    split; [exact A|]. split; [apply (plus_waits asg call L w i Lg Hi _ _ Hcx); exact B|]. exists q.
    split; [apply (ow_no asg call L w i Lg Hi _ _ Hcx); exact Hq|]. intros U. apply Hd. eapply done_used; eassumption.
  Qed.

  (** Invoke of a function nothing is kept for: [own] is the slot of its first result.
      It succeeds if its parameters can be built without [own], and only if they can be built;
      which of the two decides depends on whether the nearest provider of [own] was used before. *)
  Theorem C32_invoke_exact L w i f ins outs deps typ lab own :
    let fo := OFun f ins outs deps typ lab in
    let succeeds := exists fuel out, snd (exec fuel w (PInvoke i fo)) = ROut out in
    logged L w -> i < List.length (w_inj w) -> rooted (ops L) i -> (forall fuel, snd (exec fuel w (PInvoke i fo)) <> RPanic) ->
    slot fo = Some own -> ~ have L i own ->
    ((forall d, In d (param_slots deps ins) -> can_build_without (ops L) i (have L i) own d) -> succeeds) /\
    (succeeds -> forall d, In d (param_slots deps ins) -> can_build (ops L) i (have L i) d) /\
    ((forall q, nearest_no L i own q -> used L q) ->
       (succeeds <-> forall d, In d (param_slots deps ins) -> can_build (ops L) i (have L i) d)) /\
    (forall q f' ins' outs' deps' typ' lab', no_panic L -> outs <> [] ->
       nearest (ops L) i own (OFun f' ins' outs' deps' typ' lab') -> nearest_no L i own q -> ~ used L q ->
       (succeeds <-> forall d, In d (param_slots deps ins) -> can_build_without (ops L) i (have L i) own d)).
  Proof.
    intros fo succeeds Lg Hi Hr Hc Hs Hk. split; [|split; [|split]].
    - exact (invoke_enough asg call L w i Lg Hi Hr f ins outs deps typ lab own Hs Hk Hc).
    - intros (fuel & out & E). exact (invoke_needs asg call L w i Lg Hi Hr f ins outs deps typ lab own Hs Hk fuel out E).
    - exact (invoke_free_iff asg call L w i Lg Hi Hr f ins outs deps typ lab own Hs Hk Hc).
    - intros q f' ins' outs' deps' typ' lab' N Ho Hn Hq Hu.
      exact (invoke_blocked_iff asg call L w i Lg Hi Hr f ins outs deps typ lab own Hs Hk Hc q f' ins' outs' deps' typ' lab' N Hn Ho Hq Hu).
  Qed.
  (** a cycle error of Invoke names a slot that is needed and not used yet, and that is on a cycle or is [own] *)
  Theorem C32_invoke_cycle_named L w i f ins outs deps typ lab own fuel x :
    let fo := OFun f ins outs deps typ lab in
    logged L w -> i < List.length (w_inj w) -> rooted (ops L) i -> slot fo = Some own -> ~ have L i own ->
    snd (exec fuel w (PInvoke i fo)) = RErr (ECycle x) ->
    exists d, In d (param_slots deps ins) /\ clos_refl_trans bytes (wants (ops L) i) d x /\
      (clos_trans bytes (wants (ops L) i) x x \/ x = own) /\ exists q, nearest_no L i x q /\ ~ used L q.
  Proof.
    intros fo Lg Hi Hr Hs Hk E. exact (invoke_cycle_why asg call L w i Lg Hi Hr f ins outs deps typ lab own Hs Hk fuel x E).
  Qed.
End Exact.

(** ** Witnesses *)
Definition np_b (L : list entry) : bool := forallb (fun e => match snd (fst e) with RPanic => false | _ => true end) L.
Lemma np_b_ok L : np_b L = true -> no_panic L.
Proof.
  unfold np_b, no_panic. rewrite forallb_forall, Forall_forall. intros H e He E. specialize (H e He). rewrite E in H. discriminate.
Qed.
Ltac depth fuel := destruct fuel as [|[|[|[|fuel]]]]; vm_compute; discriminate.
(** T needs U and V, U is a value, V is missing *)
Definition prog28 : list iop := [PNew; PProvide 0 (value tU 5); PProvide 0 (fn 10 [TPtr tU; tV] [tT])].
Example C28_missing_example :
  let L := the_log prog28 in let w := the_end prog28 in
  logged rt_eqb counting L w /\ rooted (ops L) 0 /\ (forall fuel, snd (exec_op rt_eqb counting fuel w (PFind 0 tT [])) <> RPanic) /\
  snd (exec_op rt_eqb counting 20 w (PFind 0 tT [])) = RErr (EMissing (slot_name tV [])) /\
  clos_refl_trans bytes (waits (ops L) 0 (has_kept counting L 0)) nT (slot_name tV []) /\
  ~ can_build (ops L) 0 (has_kept counting L 0) nT.
Proof.
  cbv zeta.
  assert (Lg : logged rt_eqb counting (the_log prog28) (the_end prog28)) by logging.
  assert (Hr : rooted (ops (the_log prog28)) 0) by (apply rt_root; vm_compute; reflexivity).
  assert (Hc : forall fuel, snd (exec_op rt_eqb counting fuel (the_end prog28) (PFind 0 tT [])) <> RPanic) by (intros fuel; depth fuel).
  assert (Hm : snd (exec_op rt_eqb counting 20 (the_end prog28) (PFind 0 tT [])) = RErr (EMissing (slot_name tV []))) by (vm_compute; reflexivity).
  assert (Hi : 0 < List.length (w_inj (the_end prog28))) by (vm_compute; lia).
  split; [exact Lg|]. split; [exact Hr|]. split; [exact Hc|]. split; [exact Hm|]. split.
  - apply (C28_missing_exact rt_eqb counting (the_log prog28) (the_end prog28) 0 tT [] (slot_name tV []) Lg Hi Hr Hc). exists 20. exact Hm.
  - intros X. apply (C32_find_exact rt_eqb counting (the_log prog28) (the_end prog28) 0 tT [] Lg Hi Hr Hc) in X as (fuel & v & E).
    revert E. unfold assigned. destruct (assign_value rt_eqb v tT); destruct fuel as [|[|[|[|fuel]]]]; vm_compute; discriminate.
Qed.
(** T and U need each other *)
Definition prog29w : list iop := [PNew; PProvide 0 (fn 10 [tU] [tT]); PProvide 0 (fn 11 [tT] [tU])].
Example C29_cycle_example :
  let L := the_log prog29w in let w := the_end prog29w in
  logged rt_eqb counting L w /\ no_panic L /\ (forall fuel, snd (exec_op rt_eqb counting fuel w (PFind 0 tT [])) <> RPanic) /\
  snd (exec_op rt_eqb counting 20 w (PFind 0 tT [])) = RErr (ECycle nT) /\
  clos_trans bytes (waits (ops L) 0 (has_kept counting L 0)) nT nT.
Proof.
  cbv zeta.
  assert (Lg : logged rt_eqb counting (the_log prog29w) (the_end prog29w)) by logging.
  assert (Hr : rooted (ops (the_log prog29w)) 0) by (apply rt_root; vm_compute; reflexivity).
  assert (Hm : snd (exec_op rt_eqb counting 20 (the_end prog29w) (PFind 0 tT [])) = RErr (ECycle nT)) by (vm_compute; reflexivity).
  assert (Hi : 0 < List.length (w_inj (the_end prog29w))) by (vm_compute; lia).
  split; [exact Lg|]. split; [apply np_b_ok; vm_compute; reflexivity|]. split; [intros fuel; depth fuel|]. split; [exact Hm|].
  apply (C29_cycle_named rt_eqb counting (the_log prog29w) (the_end prog29w) 0 tT [] 20 nT Lg Hi Hr Hm).
Qed.
Example C30_hangs_example :
  let L := the_log prog30 in let w := the_end prog30 in
  logged rt_eqb counting L w /\ no_panic L /\ rooted (ops L) 3 /\
  (forall fuel, snd (exec_op rt_eqb counting fuel w (PFind 3 (TPtr tT) [])) = RDiv) /\
  exists m, clos_refl_trans bytes (waits (ops L) 3 (has_kept counting L 3)) nT m /\ clos_trans bytes (waits (ops L) 3 (has_kept counting L 3)) m m.
Proof.
  cbv zeta.
  assert (Lg : logged rt_eqb counting (the_log prog30) (the_end prog30)) by logging.
  assert (Hr : rooted (ops (the_log prog30)) 3).
  { eapply rt_up with (k := 0); [vm_compute; reflexivity|]. apply rt_root. vm_compute. reflexivity. }
  assert (Hi : 3 < List.length (w_inj (the_end prog30))) by (vm_compute; lia).
  assert (Hw : the_end prog30 = go prog30) by (vm_compute; reflexivity).
  assert (Hd : forall fuel, snd (exec_op rt_eqb counting fuel (the_end prog30) (PFind 3 (TPtr tT) [])) = RDiv).
  { intros fuel. rewrite Hw.
    assert (B1 : aget (i_cache (begin (go prog30) 3)) nT = None) by (vm_compute; reflexivity).
    assert (B2 : aget (i_cache (begin (go prog30) 3)) nU = None) by (vm_compute; reflexivity).
    assert (B3 : is_done (begin (go prog30) 3) 0 = true) by (vm_compute; reflexivity).
    assert (B4 : is_done (begin (go prog30) 3) 1 = true) by (vm_compute; reflexivity).
    destruct (prog30_diverges fuel (begin (go prog30) 3) B1 B2 B3 B4) as (H & _).
    cbn [exec_op]. unfold find_op. change (create_name (indirect (TPtr tT)) []) with nT. cbv zeta.
    assert (L0 : look_in (go prog30) 3 nT = Found 0) by (vm_compute; reflexivity). rewrite L0.
    destruct (run_invoke rt_eqb counting (go prog30) 3 fuel 0 (begin (go prog30) 3)) as [r s]. cbn [fst] in H. subst r. reflexivity. }
  assert (Hn : no_panic (the_log prog30)) by (apply np_b_ok; vm_compute; reflexivity).
  assert (Hc : forall fuel, snd (exec_op rt_eqb counting fuel (the_end prog30) (PFind 3 (TPtr tT) [])) <> RPanic).
  { intros fuel. rewrite Hd. discriminate. }
  split; [exact Lg|]. split; [exact Hn|]. split; [exact Hr|]. split; [exact Hd|].
  destruct (proj1 (C30_hangs_exact rt_eqb counting (the_log prog30) (the_end prog30) 3 (TPtr tT) [] Lg Hi Hr Hc Hn) Hd) as (m & A & B & _).
  exists m. auto.
Qed.
(** prog32: U needs T; a function for T that takes U *)
Example C32_invoke_example :
  let L := the_log prog32 in let w := the_end prog32 in
  logged rt_eqb counting L w /\ no_panic L /\ rooted (ops L) 0 /\
  (forall fuel, snd (exec_op rt_eqb counting fuel w (PInvoke 0 (fn 12 [tU] [tT]))) <> RPanic) /\
  slot (fn 12 [tU] [tT]) = Some nT /\ ~ has_kept counting L 0 nT /\
  nearest (ops L) 0 nT (fn 10 [] [tT]) /\ nearest_no L 0 nT 0 /\ ~ used L 0 /\
  can_build (ops L) 0 (has_kept counting L 0) nU /\ ~ can_build_without (ops L) 0 (has_kept counting L 0) nT nU /\
  (let L2 := the_log (prog32 ++ [PFind 0 tU []; PProvide 0 (fn 10 [] [tT]); PNew; PSetParent 1 0; PFind 1 tT []]) in used L2 2).
Proof.
  cbv zeta.
  assert (Lg : logged rt_eqb counting (the_log prog32) (the_end prog32)) by logging.
  assert (Hr : rooted (ops (the_log prog32)) 0) by (apply rt_root; vm_compute; reflexivity).
  assert (Hi : 0 < List.length (w_inj (the_end prog32))) by (vm_compute; lia).
  assert (Hc : forall fuel, snd (exec_op rt_eqb counting fuel (the_end prog32) (PInvoke 0 (fn 12 [tU] [tT]))) <> RPanic) by (intros fuel; depth fuel).
  assert (Hs : slot (fn 12 [tU] [tT]) = Some nT) by (vm_compute; reflexivity).
  assert (Hk : ~ has_kept counting (the_log prog32) 0 nT) by (unfold has_kept; intros X; apply X; vm_compute; reflexivity).
  assert (Hn : no_panic (the_log prog32)) by (apply np_b_ok; vm_compute; reflexivity).
  assert (Hne : nearest (ops (the_log prog32)) 0 nT (fn 10 [] [tT])) by (apply nr_here; vm_compute; reflexivity).
  assert (Hno : nearest_no (the_log prog32) 0 nT 0) by (apply nn_here; vm_compute; reflexivity).
  assert (Hu : ~ used (the_log prog32) 0) by (intros (e & He & _); vm_compute in He; destruct He).
  split; [exact Lg|]. split; [exact Hn|]. split; [exact Hr|]. split; [exact Hc|]. split; [exact Hs|]. split; [exact Hk|].
  split; [exact Hne|]. split; [exact Hno|]. split; [exact Hu|]. split; [|split].
  - eapply cb_fun; [apply nr_here; vm_compute; reflexivity|]. intros d [<-|[]]. eapply cb_fun; [exact Hne|]. intros d [].
  - intros X. destruct (C32_invoke_exact rt_eqb counting (the_log prog32) (the_end prog32) 0 12 [tU] [tT] [] None [] nT Lg Hi Hr Hc Hs Hk) as (Y & _).
    destruct Y as (fuel & out & E); [intros d [<-|[]]; exact X|]. revert E. destruct fuel as [|[|[|[|fuel]]]]; vm_compute; discriminate.
  - eexists (Called 1 2 10 [] true). split; [|reflexivity]. vm_compute. left. reflexivity.
Qed.
(** the call of an invoked function whose own slot is a parameter: T was used in a child before *)
Definition prog97 : list iop :=
  [PNew; PProvide 0 (fn 10 [] [tT]); PNew; PSetParent 1 0; PFind 1 tT []; PNew; PSetParent 2 0].
Example C97_invoke_example :
  let L := the_log prog97 in let w := the_end prog97 in
  logged rt_eqb counting L w /\ List.length (given L) = 1 /\
  exists w' out args, exec_op rt_eqb counting 20 w (PInvoke 2 (fn 12 [tT] [tT])) = (w', ROut out) /\
    w_tr w' = [Called 2 1 12 args true; Called 2 0 10 [] true; Called 1 0 10 [] true] /\ args = [Val tT (Some 1)] /\
    uses counting (given L) L 2 [Called 2 0 10 [] true] nT (Val tT (Some 1)).
Proof.
  split; [logging|]. split; [vm_compute; reflexivity|].
  exists (fst (exec_op rt_eqb counting 20 (the_end prog97) (PInvoke 2 (fn 12 [tT] [tT])))), [Val tT (Some 2)], [Val tT (Some 1)].
  split; [vm_compute; reflexivity|]. split; [vm_compute; reflexivity|]. split; vm_compute; reflexivity.
Qed.

Print Assumptions C97_arguments_of_invoke.
Print Assumptions C32_find_exact.
Print Assumptions C28_missing_exact.
Print Assumptions C29_cycle_exact.
Print Assumptions C30_hangs_exact.
Print Assumptions C29_cycle_named.
Print Assumptions C32_invoke_exact.
Print Assumptions C32_invoke_cycle_named.
