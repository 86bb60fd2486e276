(** InjectMain: from histories to the model's notions. *)
From Coq Require Import List Ascii String Bool Arith Lia Relations.
Import ListNotations.
From Verif Require Import GoStr InjectModel InjectFacts InjectWorld InjectSpec InjectHist InjectNear.

Lemma nearest_fun rh i n o1 : nearest rh i n o1 -> forall o2, nearest rh i n o2 -> o1 = o2.
Proof.
  induction 1 as [i n o E|i k n o E1 E2 _ IH]; intros o2 H2; inversion H2; subst; try congruence.
  apply IH. assert (k0 = k) as -> by congruence. assumption.
Qed.
Lemma dep_label_for deps k : dep_label deps k = label_for deps k.
Proof.
  unfold label_for. induction deps as [|[j l] ds IH]; [reflexivity|]. cbn [dep_label find fst].
  rewrite Nat.eqb_sym. destruct (Nat.eqb j k); [reflexivity|exact IH].
Qed.
Lemma dep_names_slots deps ins : dep_names deps 0 ins = param_slots deps ins.
Proof.
  unfold param_slots. assert (X : forall l pre, ins = pre ++ l -> dep_names deps (List.length pre) l =
    map (fun k => slot_name (nth k ins (TLit 0)) (label_for deps k)) (seq (List.length pre) (List.length l))).
  { induction l as [|t l IH]; intros pre E; [reflexivity|]. cbn [dep_names List.length seq map].
    rewrite E at 1. rewrite app_nth2, Nat.sub_diag by lia. cbn [nth]. rewrite dep_label_for. f_equal.
    specialize (IH (pre ++ [t])). rewrite app_length, Nat.add_comm in IH. apply IH. rewrite E, <- app_assoc. reflexivity. }
  exact (X ins [] eq_refl).
Qed.
Lemma param_slots_colon deps ins d : In d (param_slots deps ins) -> has_colon d = true.
Proof. rewrite <- dep_names_slots. apply dep_names_colon. Qed.
Lemma fun_info f ins outs deps typ lab p : new_provider (OFun f ins outs deps typ lab) = Some p ->
  p_kind p = KFun f ins outs /\ p_deps p = param_slots deps ins.
Proof. intros [= <-]. split; [reflexivity|apply dep_names_slots]. Qed.
Lemma val_info v typ lab p : new_provider (OVal v typ lab) = Some p -> p_kind p = KVal v.
Proof. cbn. destruct (v_ty v); try discriminate. destruct (v_data v); [|discriminate]. intros [= <-]. reflexivity. Qed.
Lemma info_fun o p f ins outs : new_provider o = Some p -> p_kind p = KFun f ins outs ->
  exists deps typ lab, o = OFun f ins outs deps typ lab /\ p_deps p = param_slots deps ins.
Proof.
  destruct o as [v typ lab|f' ins' outs' deps typ lab]; intros H Hk.
  - apply val_info in H. congruence.
  - destruct (fun_info _ _ _ _ _ _ _ H) as (E1 & E2). rewrite E1 in Hk. injection Hk as -> -> ->. eauto.
Qed.
Lemma info_val o p v : new_provider o = Some p -> p_kind p = KVal v -> exists typ lab, o = OVal v typ lab.
Proof.
  destruct o as [v' typ lab|f' ins' outs' deps typ lab]; intros H Hk.
  - apply val_info in H. assert (v' = v) as -> by congruence. eauto.
  - destruct (fun_info _ _ _ _ _ _ _ H) as (E1 & E2). congruence.
Qed.
Lemma yields_type w o q : new_provider o = Some (info_of w q) -> prov_type (info_of w) q = yields o.
Proof.
  intros H. unfold prov_type. destruct o as [v typ lab|f ins outs deps typ lab].
  - rewrite (val_info _ _ _ _ H). reflexivity.
  - destruct (fun_info _ _ _ _ _ _ _ H) as (-> & _). reflexivity.
Qed.

Section Bridge.
  Variable assignable : rtype -> rtype -> bool.
  Variables (rh : list iop) (w : world) (i : nat).
  Hypothesis W : winv w.
  Hypothesis H : hist_inv rh w.
  Hypothesis Hi : i < List.length (w_inj w).
  Notation L := (visible w i).
  Notation I := (info_of w).
  Notation C0 := (j_cache (jget w i)).

  Lemma br_find n q : L n = Found q -> exists o, nearest rh i n o /\ new_provider o = Some (I q).
  Proof. unfold visible. destruct (has_colon n); [|discriminate]. apply look_nearest. exact H. Qed.
  Lemma br_near n o : has_colon n = true -> nearest rh i n o -> exists q, L n = Found q /\ new_provider o = Some (I q).
  Proof. intros Hn Hr. rewrite visible_eq by exact Hn. eapply nearest_look; eassumption. Qed.

  Lemma rooted_look n : rooted rh i -> L n <> Loop.
  Proof.
    intros R. unfold visible. destruct (has_colon n); [|discriminate].
    assert (X : exists f, look_up w f i n <> Loop).
    { clear Hi. induction R as [i E|i k E R IH].
      - exists 1. cbn. rewrite (hi_par _ _ H), E. destruct (aget (j_values (jget w i)) n); discriminate.
      - destruct IH as (f & Hf). exists (S f). cbn [look_up]. rewrite (hi_par _ _ H), E.
        destruct (aget (j_values (jget w i)) n); [discriminate|exact Hf]. }
    destruct X as (f & Hf). rewrite (look_enough w n W f i _ Hi eq_refl Hf). exact Hf.
  Qed.
  Lemma visible_in_D n q f ins outs : L n = Found q -> p_kind (I q) = KFun f ins outs -> In n (map p_name (w_prov w)).
  Proof.
    intros Hl _. pose proof (visible_lt _ _ _ _ W Hl) as Hq. rewrite <- (visible_name w i W n q Hl).
    apply in_map. unfold info_of. apply nth_In. exact Hq.
  Qed.

  Lemma needs_wants n d : needs L I C0 n d -> wants rh i n d.
  Proof.
    intros (q & f & ins & outs & Hl & Hk & _ & Hd). destruct (br_find n q Hl) as (o & Ho & Hp).
    destruct (info_fun _ _ _ _ _ Hp Hk) as (deps & typ & lab & -> & Ed). rewrite Ed in Hd.
    exists f, ins, outs, deps, typ, lab. auto.
  Qed.
  Lemma wants_colon n d : wants rh i n d -> has_colon d = true.
  Proof. intros (f & ins & outs & deps & typ & lab & _ & Hd). eapply param_slots_colon. exact Hd. Qed.
  Lemma reach_wants n m : clos_refl_trans bytes (needs L I C0) n m -> clos_refl_trans bytes (wants rh i) n m.
  Proof. induction 1 as [x y Hxy|x|x y z _ IH1 _ IH2]; [apply rt_step, needs_wants; exact Hxy|apply rt_refl|eapply rt_trans; eassumption]. Qed.
  Lemma reach1_wants n m : clos_trans bytes (needs L I C0) n m -> clos_trans bytes (wants rh i) n m.
  Proof. induction 1 as [x y Hxy|x y z _ IH1 _ IH2]; [apply t_step, needs_wants; exact Hxy|eapply t_trans; eassumption]. Qed.

  Lemma avail_can_build n : Avail L I C0 n -> can_build rh i (called_for w i) n.
  Proof.
    induction 1 as [n q o Hl Hc|n q v Hl Hk|n q f ins outs Hl Hk Hd IH]; destruct (br_find n q Hl) as (ob & Ho & Hp).
    - eapply cb_have; [exact Ho|]. apply (hi_called _ _ H). congruence.
    - destruct (info_val _ _ _ Hp Hk) as (typ & lab & ->). eapply cb_val. exact Ho.
    - destruct (info_fun _ _ _ _ _ Hp Hk) as (deps & typ & lab & -> & Ed). eapply cb_fun; [exact Ho|].
      intros d Hin. apply IH. rewrite Ed. exact Hin.
  Qed.
  (** without anything called for [i] *)
  Section Fresh.
    Hypothesis F : fresh w i.
    Lemma fresh_cache n : aget C0 n = None.
    Proof.
      destruct (aget C0 n) eqn:E; [exfalso|reflexivity].
      assert (Hn : aget C0 n <> None) by congruence. destruct (hi_called _ _ H i n Hn) as (e & He & H1 & _). exact (F e He H1).
    Qed.
    Lemma wants_needs n d : has_colon n = true -> wants rh i n d -> needs L I C0 n d.
    Proof.
      intros Hn (f & ins & outs & deps & typ & lab & Ho & Hd). destruct (br_near n _ Hn Ho) as (q & Hl & Hp).
      destruct (fun_info _ _ _ _ _ _ _ Hp) as (E1 & E2). exists q, f, ins, outs. split; [exact Hl|]. split; [exact E1|].
      split; [apply fresh_cache|]. rewrite E2. exact Hd.
    Qed.
    Lemma wants_reach n m : has_colon n = true -> clos_refl_trans bytes (wants rh i) n m ->
      clos_refl_trans bytes (needs L I C0) n m /\ has_colon m = true.
    Proof.
      intros Hn Hr. apply clos_rt_rtn1 in Hr. induction Hr as [|y z Hyz Hr IH]; [split; [apply rt_refl|exact Hn]|].
      destruct IH as (A & B). split; [|eapply wants_colon; exact Hyz]. eapply rt_trans; [exact A|apply rt_step, wants_needs; assumption].
    Qed.
    Lemma wants_reach1 n m : has_colon n = true -> clos_trans bytes (wants rh i) n m -> clos_trans bytes (needs L I C0) n m.
    Proof.
      intros Hn Hr. apply clos_trans_tn1 in Hr. assert (X : clos_trans bytes (needs L I C0) n m /\ has_colon m = true); [|tauto].
      induction Hr as [y Hy|y z Hyz Hr IH].
      - split; [apply t_step, wants_needs; assumption|eapply wants_colon; exact Hy].
      - destruct IH as (A & B). split; [|eapply wants_colon; exact Hyz]. eapply t_trans; [exact A|apply t_step, wants_needs; assumption].
    Qed.
    Lemma fresh_typed : typed assignable rh i -> well_typed assignable L I.
    Proof.
      intros T n q f ins outs Hl Hk. destruct (br_find n q Hl) as (o & Ho & Hp).
      destruct (info_fun _ _ _ _ _ Hp Hk) as (deps & typ & lab & -> & Ed). rewrite Ed.
      eapply Forall2_weak; [|exact (T _ _ _ _ _ _ _ Ho)]. cbn. intros d t Hdt q' Hl'.
      destruct (br_find d q' Hl') as (o' & Ho' & Hp'). rewrite (yields_type _ _ _ Hp'). apply Hdt. exact Ho'.
    Qed.
    Lemma fresh_cache_typed : cache_typed L I (begin w i).
    Proof. intros m q o Hm. cbn in Hm. rewrite fresh_cache in Hm. discriminate. Qed.
    Lemma complete_avail n : has_colon n = true ->
      (forall m, clos_refl_trans bytes (wants rh i) n m -> exists o, nearest rh i m o) ->
      (forall m, clos_refl_trans bytes (wants rh i) n m -> ~ clos_trans bytes (wants rh i) m m) -> Avail L I C0 n.
    Proof.
      intros Hn Hc Ha. apply (acyclic_avail L I C0 (map p_name (w_prov w))).
      - intros m q f ins outs. apply visible_in_D.
      - intros m Hm. destruct (Hc m (reach_wants _ _ Hm)) as (o & Ho). destruct (br_near m o) as (q & Hl & _); eauto.
        destruct (wants_reach n m Hn (reach_wants _ _ Hm)) as (_ & Hcol). exact Hcol.
      - intros m Hm Hx. apply (Ha m (reach_wants _ _ Hm)). apply reach1_wants. exact Hx.
    Qed.
  End Fresh.
End Bridge.

(** number of providers *)
Lemma commit_prov w i s : w_prov (commit w i s) = w_prov w.
Proof. reflexivity. Qed.
Lemma exec_prov assignable call fuel w o : List.length (w_prov (fst (exec_op assignable call fuel w o))) <= S (List.length (w_prov w)).
Proof.
  destruct o as [|i k|i o|i t l|i o|i fs|i t l]; cbn [exec_op].
  - cbn. lia.
  - cbn. lia.
  - unfold provide. destruct (new_provider o); cbn; [rewrite app_length; cbn; lia|lia].
  - unfold find_op. destruct (look_in w i _); [|cbn; lia..]. destruct (run_invoke assignable call w i fuel q (begin w i)) as [[[|v r]|e| |] s]; cbn; lia.
  - unfold invoke_op. destruct (new_provider o) as [p|]; [|cbn; lia].
    destruct (run_invoke assignable call (add_prov w p) i fuel _ (begin (add_prov w p) i)) as [[out|e| |] s]; cbn; rewrite app_length; cbn; lia.
  - unfold apply_op. destruct (apply_struct assignable call w i fuel fs) as [[l|r] s]; cbn; lia.
  - unfold exists_op. destruct (look_in w i _); [|cbn; lia..]. destruct (p_kind _); cbn; lia.
Qed.
Lemma runs_prov assignable call w h obs w' : runs assignable call w h obs w' ->
  List.length (w_prov w') <= List.length h + List.length (w_prov w).
Proof.
  induction 1 as [|w o os fuel w1 b bs w2 Hok E Hb R IH]; [cbn; lia|].
  pose proof (exec_prov assignable call fuel w o) as Hx. rewrite E in Hx. cbn [fst List.length] in *. lia.
Qed.
Lemma runs_len assignable call w h obs w' : runs assignable call w h obs w' -> List.length obs = List.length h.
Proof. induction 1; cbn; congruence. Qed.

(** set-up resolves nothing *)
Lemma setup_done assignable call w h obs w' : runs assignable call w h obs w' -> Forall is_setup h -> w_done w = [] -> w_tr w = [] ->
  w_done w' = [] /\ w_tr w' = [].
Proof.
  induction 1 as [|w o os fuel w1 b bs w2 Hok E Hb R IH]; intros F D T; [auto|]. inversion F as [|? ? Ho F']; subst.
  assert (X : w_done w1 = [] /\ w_tr w1 = []); [|destruct X; apply IH; assumption].
  destruct o; try destruct Ho; cbn [exec_op] in E.
  - injection E as <- _. auto.
  - injection E as <- _. auto.
  - unfold provide in E. destruct (new_provider o); injection E as <- _; auto.
  - unfold exists_op in E. destruct (look_in w i _); [destruct (p_kind _)|..]; injection E as <- _; auto.
Qed.

(** where a name leads does not change *)
Lemma look_same w w' i n q : winv w' -> i < List.length (w_inj w') ->
  (forall k, aget (j_values (jget w' k)) n = aget (j_values (jget w k)) n) ->
  (forall k, j_parent (jget w' k) = j_parent (jget w k)) -> look_in w i n = Found q -> look_in w' i n = Found q.
Proof.
  intros W' Hi Hv Hp Hl. assert (X : forall f k, look_up w' f k n = look_up w f k n).
  { induction f as [|f IH]; intros k; cbn [look_up]; [reflexivity|]. rewrite Hv, Hp. destruct (aget _ n); [reflexivity|].
    destruct (j_parent (jget w k)); [apply IH|reflexivity]. }
  eapply look_enough; [exact W'|exact Hi| |discriminate]. rewrite X. exact Hl.
Qed.

(** ** What an injector has for a slot *)
Section Has.
  Variable assignable : rtype -> rtype -> bool.
  Variable call : list callev -> nat -> list val -> option (nat -> option nat).
  Definition has (w : world) (i : nat) (n : bytes) (o : list val) : Prop :=
    i < List.length (w_inj w) /\ exists q, look_in w i n = Found q /\
      (aget (j_cache (jget w i)) n = Some o \/
       (aget (j_cache (jget w i)) n = None /\ exists v, p_kind (info_of w q) = KVal v /\ o = [v])).
  Lemma has_find w i t l v o fuel : winv w -> has w i (slot_name t l) (v :: o) ->
    exists w', exec_op assignable call (S fuel) w (PFind i t l) = (w', assigned assignable v t) /\ w_tr w' = w_tr w.
  Proof.
    intros W (Hi & q & Hl & Hc). cbn [exec_op]. unfold find_op. fold (slot_name t l). cbv zeta. rewrite Hl.
    assert (Hn : p_name (info_of w q) = slot_name t l).
    { apply (visible_name w i W). rewrite visible_eq; [exact Hl|apply create_name_colon]. }
    unfold run_invoke. cbn [invoke]. rewrite Hn. change (i_cache (begin w i)) with (j_cache (jget w i)).
    destruct Hc as [->|(-> & v' & Hk & [= -> ->])].
    - eexists. split; [reflexivity|]. reflexivity.
    - cbv zeta. rewrite Hk. cbn [fst snd]. eexists. split; [reflexivity|]. reflexivity.
  Qed.
  Lemma holds_has w i s n o : i < List.length (w_inj w) -> winv w -> winv (commit w i s) -> has_colon n = true ->
    (exists q, look_in w i n = Found q) ->
    holds (visible w i) (info_of w) s n o -> has (commit w i s) i n o.
  Proof.
    intros Hi W W' Hn (q & Hl) Hh. split; [cbn; rewrite upd_length; exact Hi|]. exists q. split.
    - eapply look_same; [exact W'|cbn; rewrite upd_length; exact Hi| | |exact Hl].
      + intros k. destruct (Nat.eq_dec i k) as [<-|Hne]; [rewrite jget_commit_same by exact Hi; reflexivity|rewrite jget_commit_other by exact Hne; reflexivity].
      + intros k. destruct (Nat.eq_dec i k) as [<-|Hne]; [rewrite jget_commit_same by exact Hi; reflexivity|rewrite jget_commit_other by exact Hne; reflexivity].
    - rewrite jget_commit_same by exact Hi. cbn [j_cache]. destruct Hh as [Hh|(Hh & q' & v & Hl' & Hk & Ho)]; [left; exact Hh|right].
      split; [exact Hh|]. exists v. rewrite visible_eq in Hl' by exact Hn. assert (q' = q) as -> by congruence. auto.
  Qed.
  Lemma has_weff w w' i j n o m root : winv w -> weff w w' j m root -> (j = i -> m <> n) -> has_colon n = true -> has w i n o -> has w' i n o.
  Proof.
    intros W E Hm Hn (Hi & q & Hl & Hc). pose proof (weff_winv _ _ _ _ _ W E) as W'.
    assert (Hi' : i < List.length (w_inj w')) by (rewrite (we_len _ _ _ _ _ E); exact Hi).
    assert (Hq : q < List.length (w_prov w)) by (eapply visible_lt; [exact W|rewrite visible_eq; eassumption]).
    split; [exact Hi'|]. exists q. split.
    { eapply look_same; [exact W'|exact Hi'|intros k; rewrite (we_values _ _ _ _ _ E); reflexivity|exact (we_parent _ _ _ _ _ E)|exact Hl]. }
    rewrite (weff_info _ _ _ _ _ _ E Hq). destruct (Nat.eq_dec j i) as [->|Hne].
    - destruct Hc as [Hc|(Hc & v & Hk & Ho)].
      + left. apply (we_mono _ _ _ _ _ E); [|exact Hc]. intros ->. apply Hm; reflexivity.
      + right. split; [|eauto]. destruct (aget (j_cache (jget w' i)) n) eqn:En; [exfalso|reflexivity].
        destruct (we_cnew _ _ _ _ _ E n) as (e & _ & _ & _ & _ & R); [congruence|exact Hc|].
        destruct R as (R1 & R2); [intros ->; apply Hm; reflexivity|]. rewrite visible_eq in R1 by exact Hn.
        assert (c_prov e = q) as Eq by congruence. rewrite Eq in R2. unfold is_fun in R2. rewrite Hk in R2. discriminate.
    - rewrite (we_others _ _ _ _ _ E i) by congruence. exact Hc.
  Qed.
  Lemma has_eff w o b w' i n out : winv w -> op_ok w o -> op_eff w o b w' -> ~ rewires i n o -> has_colon n = true -> has w i n out -> has w' i n out.
  Proof.
    intros W Hok E Hr Hn Hh. assert (Hn0 : [] <> n) by (intros <-; discriminate). pose proof (eff_winv _ _ _ _ W Hok E) as W'.
    destruct E as [|j k|j o p w' Hp P|j o Hp| |j t l b w' E|j fs b w' E| |j o p b w' Hp E]; try exact Hh.
    - destruct Hh as (Hi & q & Hl & Hc).
      assert (Hi' : i < List.length (w_inj (World (w_inj w ++ [inj0]) (w_prov w) (w_done w) (w_tr w)))) by (cbn; rewrite app_length; lia).
      split; [exact Hi'|]. exists q.
      split; [eapply look_same; [exact W'|exact Hi'|intros k; rewrite jget_new; reflexivity|intros k; rewrite jget_new; reflexivity|exact Hl]|].
      rewrite jget_new. exact Hc.
    - exfalso. apply Hr. exact Logic.I.
    - assert (Hpn : p_name p <> n) by (intros E; apply Hr; cbn; unfold slot; rewrite Hp; cbn; congruence).
      destruct Hh as (Hi & q & Hl & Hc). assert (Hi' : i < List.length (w_inj w')) by (rewrite (pv_inv _ _ _ _ P); exact Hi).
      assert (Hq : q < List.length (w_prov w)) by (eapply visible_lt; [exact W|rewrite visible_eq; eassumption]).
      split; [exact Hi'|]. exists q. split.
      + eapply look_same; [exact W'|exact Hi'| |exact (pv_par _ _ _ _ P)|exact Hl]. intros k.
        destruct (Nat.eq_dec k j) as [->|Hk]; [|rewrite (pv_other _ _ _ _ P k Hk); reflexivity].
        rewrite (pv_val _ _ _ _ P). apply aget_aset_other. exact Hpn.
      + rewrite (provided_info _ _ _ _ _ P Hq). destruct (Nat.eq_dec i j) as [->|Hne]; [|rewrite (pv_other _ _ _ _ P i Hne); exact Hc].
        rewrite (pv_cache _ _ _ _ P), aget_adel_other by exact Hpn. exact Hc.
    - eapply has_weff; [exact W|exact E|intros _; exact Hn0|exact Hn|exact Hh].
    - eapply has_weff; [exact W|exact E|intros _; exact Hn0|exact Hn|exact Hh].
    - eapply has_weff; [exact W|exact E| |exact Hn|exact Hh]. intros -> Hx. apply Hr. cbn. unfold slot. rewrite Hp. cbn. split; congruence.
  Qed.
  Lemma has_runs w h obs w' i n out : runs assignable call w h obs w' -> winv w -> Forall (fun o => ~ rewires i n o) h ->
    has_colon n = true -> has w i n out -> has w' i n out.
  Proof.
    induction 1 as [|w o os fuel w1 b bs w2 Hok E Hb R IH]; intros W F Hn Hh; [exact Hh|]. inversion F as [|? ? F1 F2]; subst.
    pose proof (exec_eff assignable call _ _ _ _ _ W Hok E) as Ef. apply IH; [eapply eff_winv; eassumption|exact F2|exact Hn|].
    eapply has_eff; eassumption.
  Qed.
  (** a successful Find leaves the injector with the value it found *)
  Lemma find_has w i t l fuel w' b : winv w -> i < List.length (w_inj w) ->
    exec_op assignable call fuel w (PFind i t l) = (w', b) ->
    (exists v o, has w' i (slot_name t l) (v :: o) /\ b = assigned assignable v t) \/
    (b <> RNone /\ (forall r, b <> RVal r)).
  Proof.
    intros W Hi. cbn [exec_op]. unfold find_op. fold (slot_name t l). cbv zeta.
    destruct (look_in w i (slot_name t l)) as [q| |] eqn:Hl; [|intros [= <- <-]; right; repeat split; intros; discriminate..].
    destruct (inject_run assignable call w i W fuel t l (begin w i) (begin_inv w i W) q Hl) as (new & P & _ & H2).
    pose proof (find_weff assignable call w i fuel t l W Hi) as Hw. unfold find_op in Hw. fold (slot_name t l) in Hw. cbv zeta in Hw. rewrite Hl in Hw.
    destruct (run_invoke assignable call w i fuel q (begin w i)) as [r s]. cbn [fst snd] in *.
    destruct r as [out|e| |].
    - destruct (H2 out eq_refl) as (v & o & -> & Hh). cbn [fst] in Hw. intros [= <- <-]. left. exists v, o. split; [|reflexivity].
      eapply holds_has; [exact Hi|exact W|eapply weff_winv; eassumption|apply create_name_colon|eauto|exact (proj1 Hh)].
    - intros [= <- <-]. right. cbn. repeat split; intros; discriminate.
    - intros [= <- <-]. right. cbn. repeat split; intros; discriminate.
    - intros [= <- <-]. right. cbn. repeat split; intros; discriminate.
  Qed.
End Has.
