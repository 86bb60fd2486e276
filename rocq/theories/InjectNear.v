(** InjectNear: lookups follow the history. *)
From Coq Require Import List Ascii String Bool Arith Lia Relations ListDec.
Import ListNotations.
From Verif Require Import GoStr InjectModel InjectFacts InjectWorld InjectSpec InjectHist.

Record hist_inv (rh : list iop) (w : world) : Prop := {
  hi_val : forall i n, match last_provided rh i n with
                       | Some o => exists q, aget (j_values (jget w i)) n = Some q /\ new_provider o = Some (info_of w q)
                       | None => aget (j_values (jget w i)) n = None
                       end;
  hi_par : forall i, j_parent (jget w i) = parent_of rh i;
  hi_called : forall i n, aget (j_cache (jget w i)) n <> None -> called_for w i n;
  hi_colon : forall i n, aget (j_cache (jget w i)) n <> None -> has_colon n = true
}.
Lemma hist_inv0 : hist_inv [] world0.
Proof. constructor; [intros i n|intros i|intros i n|intros i n]; rewrite jget0; cbn; congruence. Qed.

Lemma called_mono w w' i n : winv w -> (forall e, In e (w_tr w) -> In e (w_tr w')) ->
  (forall q, q < List.length (w_prov w) -> info_of w' q = info_of w q) -> called_for w i n -> called_for w' i n.
Proof.
  intros W Ht Hi (e & He & H1 & H2). exists e. split; [auto|]. split; [exact H1|]. rewrite Hi; [exact H2|]. exact (wi_called _ W e He).
Qed.

Lemma weff_hist rh w w' i n root : winv w -> hist_inv rh w -> weff w w' i n root -> hist_inv rh w'.
Proof.
  intros W H E. constructor.
  - intros k m. pose proof (hi_val _ _ H k m) as V. rewrite (we_values _ _ _ _ _ E). destruct (last_provided rh k m) as [o|]; [|exact V].
    destruct V as (q & V1 & V2). exists q. split; [exact V1|]. rewrite (weff_info _ _ _ _ _ _ E); [exact V2|].
    apply (wi_values _ W) in V1. tauto.
  - intros k. rewrite (we_parent _ _ _ _ _ E). apply (hi_par _ _ H).
  - assert (Hm : forall k m, called_for w k m -> called_for w' k m).
    { intros k m. apply called_mono; [exact W| |intros q Hq; eapply weff_info; eassumption].
      intros e He. destruct (we_tr _ _ _ _ _ E) as (new & -> & _). apply in_app_iff. auto. }
    intros k m Hc. destruct (Nat.eq_dec k i) as [->|Hk].
    + destruct (aget (j_cache (jget w i)) m) eqn:Eo.
      * apply Hm, (hi_called _ _ H). congruence.
      * destruct (we_cnew _ _ _ _ _ E m Hc Eo) as (e & He & H1 & H2 & _). exists e. auto.
    + rewrite (we_others _ _ _ _ _ E k Hk) in Hc. apply Hm, (hi_called _ _ H). exact Hc.
  - intros k m Hc. destruct (Nat.eq_dec k i) as [->|Hk].
    + destruct (aget (j_cache (jget w i)) m) eqn:Eo.
      * apply (hi_colon _ _ H i). congruence.
      * destruct (we_cnew _ _ _ _ _ E m Hc Eo) as (e & _ & _ & _ & R & _). exact R.
    + rewrite (we_others _ _ _ _ _ E k Hk) in Hc. eapply (hi_colon _ _ H). exact Hc.
Qed.

Section Near.
  Variable assignable : rtype -> rtype -> bool.
  Variable call : list callev -> nat -> list val -> option (nat -> option nat).
  Notation runs := (runs assignable call).

  Lemma hist_eff rh w o b w' : winv w -> op_ok w o -> hist_inv rh w -> op_eff w o b w' -> hist_inv (o :: rh) w'.
  Proof.
    intros W Hok H E.
    assert (Hsame : hist_inv rh w' -> match o with PProvide _ _ | PSetParent _ _ => False | _ => True end -> hist_inv (o :: rh) w').
    { intros [A B C C'] Ho. constructor; [| |exact C|exact C'].
      - intros i n. specialize (A i n). destruct o; try destruct Ho; exact A.
      - intros i. specialize (B i). destruct o; try destruct Ho; exact B. }
    destruct E as [|i k|i o p w' Hp P|i o Hp| |i t l b w' E|i fs b w' E| |i o p b w' Hp E].
    - apply Hsame; [|exact I]. constructor.
      + intros i n. rewrite jget_new. apply (hi_val _ _ H).
      + intros i. rewrite jget_new. apply (hi_par _ _ H).
      + intros i n. rewrite jget_new. apply (hi_called _ _ H).
      + intros i n. rewrite jget_new. apply (hi_colon _ _ H).
    - destruct Hok as (Hi & Hk). assert (J := fun x => set_parent_jget w i k x Hi). cbv zeta in J. constructor.
      + intros j n. rewrite (proj1 (J j)). apply (hi_val _ _ H).
      + intros j. rewrite (proj2 (proj2 (J j))). cbn [parent_of]. rewrite (hi_par _ _ H). reflexivity.
      + intros j n. rewrite (proj1 (proj2 (J j))). apply (hi_called _ _ H).
      + intros j n. rewrite (proj1 (proj2 (J j))). apply (hi_colon _ _ H).
    - constructor.
      + intros j n. cbn [last_provided]. destruct (Nat.eqb_spec i j) as [<-|Hne]; cbn [andb].
        * unfold fills, slot. rewrite Hp. cbn [option_map]. rewrite (pv_val _ _ _ _ P). destruct (beq (p_name p) n) eqn:Eb.
          -- apply beq_true in Eb as <-. exists (List.length (w_prov w)). rewrite aget_aset_same. split; [reflexivity|].
             rewrite (provided_info_new _ _ _ _ P). exact Hp.
          -- rewrite aget_aset_other by (intros <-; rewrite beq_refl in Eb; discriminate).
             pose proof (hi_val _ _ H i n) as V. destruct (last_provided rh i n); [|exact V]. destruct V as (q & V1 & V2).
             exists q. split; [exact V1|]. rewrite (provided_info _ _ _ _ _ P); [exact V2|]. apply (wi_values _ W) in V1. tauto.
        * rewrite (pv_other _ _ _ _ P j) by congruence. pose proof (hi_val _ _ H j n) as V. destruct (last_provided rh j n); [|exact V].
          destruct V as (q & V1 & V2). exists q. split; [exact V1|]. rewrite (provided_info _ _ _ _ _ P); [exact V2|]. apply (wi_values _ W) in V1. tauto.
      + intros j. rewrite (pv_par _ _ _ _ P). apply (hi_par _ _ H).
      + intros j n Hc. apply (called_mono w); [exact W|rewrite (pv_tr _ _ _ _ P); auto|intros q Hq; eapply provided_info; eassumption|].
        apply (hi_called _ _ H). destruct (Nat.eq_dec j i) as [->|Hne]; [|rewrite (pv_other _ _ _ _ P j Hne) in Hc; exact Hc].
        rewrite (pv_cache _ _ _ _ P) in Hc. destruct (bytes_eq_dec (p_name p) n) as [<-|Hn].
        * rewrite aget_adel_same in Hc. congruence.
        * rewrite aget_adel_other in Hc by exact Hn. exact Hc.
      + intros j n Hc. destruct (Nat.eq_dec j i) as [->|Hne]; [|rewrite (pv_other _ _ _ _ P j Hne) in Hc; exact (hi_colon _ _ H _ _ Hc)].
        rewrite (pv_cache _ _ _ _ P) in Hc. destruct (bytes_eq_dec (p_name p) n) as [<-|Hn].
        * rewrite aget_adel_same in Hc. congruence.
        * rewrite aget_adel_other in Hc by exact Hn. exact (hi_colon _ _ H _ _ Hc).
    - constructor; [|exact (hi_par _ _ H)|exact (hi_called _ _ H)|exact (hi_colon _ _ H)].
      intros j n. cbn [last_provided]. unfold fills, slot. rewrite Hp. cbn [option_map]. rewrite andb_false_r. apply (hi_val _ _ H).
    - apply Hsame; [exact H|exact I].
    - apply Hsame; [|exact I]. eapply weff_hist; eassumption.
    - apply Hsame; [|exact I]. eapply weff_hist; eassumption.
    - apply Hsame; [exact H|exact I].
    - apply Hsame; [|exact I]. eapply weff_hist; eassumption.
  Qed.
  Lemma runs_hist w h obs w' : runs w h obs w' -> forall rh, winv w -> hist_inv rh w -> hist_inv (rev h ++ rh) w'.
  Proof.
    induction 1 as [|w o os fuel w1 b bs w2 Hok E Hb R IH]; intros rh W H; [exact H|].
    pose proof (exec_eff assignable call _ _ _ _ _ W Hok E) as Ef. cbn [rev]. rewrite <- app_assoc. apply IH.
    - eapply eff_winv; eassumption.
    - eapply hist_eff; eassumption.
  Qed.
  Lemma runs0_hist h obs w : runs world0 h obs w -> hist_inv (rev h) w.
  Proof. intros R. rewrite <- (app_nil_r (rev h)). eapply runs_hist; [exact R|apply winv0|apply hist_inv0]. Qed.
End Near.

(** ** Enough fuel for the chain of parents *)
Section Chain.
  Variable w : world.
  Variable n : bytes.
  Hypothesis W : winv w.
  Definition up1 (i : nat) : option nat :=
    match aget (j_values (jget w i)) n with Some _ => None | None => j_parent (jget w i) end.
  Fixpoint ups (k : nat) (i : nat) : option nat :=
    match k with O => Some i | S k' => match up1 i with Some j => ups k' j | None => None end end.
  Lemma look_up_loop fuel : forall i, look_up w fuel i n = Loop <-> ups fuel i <> None.
  Proof.
    induction fuel as [|f IH]; intros i; cbn [look_up ups]; [split; [discriminate|reflexivity]|].
    unfold up1. destruct (aget (j_values (jget w i)) n); [split; [discriminate|congruence]|].
    destruct (j_parent (jget w i)); [apply IH|]. split; [discriminate|congruence].
  Qed.
  Lemma ups_add a b i : ups (a + b) i = match ups a i with Some j => ups b j | None => None end.
  Proof. revert i. induction a as [|a IH]; intros i; cbn [ups Nat.add]; [reflexivity|]. destruct (up1 i); [apply IH|reflexivity]. Qed.
  Lemma ups_le a b i : a <= b -> ups b i <> None -> ups a i <> None.
  Proof. intros H. replace b with (a + (b - a)) by lia. rewrite ups_add. destruct (ups a i); congruence. Qed.
  Lemma ups_cycle p i : 0 < p -> ups p i = Some i -> forall k, ups k i <> None.
  Proof.
    intros Hp Hc k. apply (ups_le k (k * p)); [nia|]. 
    assert (H : ups (k * p) i = Some i); [|congruence]. induction k as [|k IH]; [reflexivity|].
    cbn [Nat.mul]. rewrite ups_add, Hc. exact IH.
  Qed.
  Lemma ups_lt k : forall i j, i < List.length (w_inj w) -> ups k i = Some j -> j < List.length (w_inj w).
  Proof.
    induction k as [|k IH]; intros i j Hi; cbn [ups]; [intros [= <-]; exact Hi|].
    destruct (up1 i) as [x|] eqn:E; [|discriminate]. apply IH. unfold up1 in E.
    destruct (aget (j_values (jget w i)) n); [discriminate|]. exact (wi_parent _ W _ _ E).
  Qed.
  Lemma ups_forever i : i < List.length (w_inj w) -> ups (List.length (w_inj w)) i <> None -> forall k, ups k i <> None.
  Proof.
    intros Hi Hn. set (N := List.length (w_inj w)) in *.
    set (c := fun k => match ups k i with Some j => j | None => 0 end).
    assert (Hc : forall k, k <= N -> ups k i = Some (c k)).
    { intros k Hk. unfold c. pose proof (ups_le k N i Hk Hn). destruct (ups k i); congruence. }
    destruct (NoDup_dec Nat.eq_dec (map c (seq 0 (S N)))) as [Hd|Hd].
    - exfalso. assert (Hincl : incl (map c (seq 0 (S N))) (seq 0 N)).
      { intros x Hx. apply in_map_iff in Hx as (k & <- & Hk). apply in_seq in Hk. apply in_seq.
        pose proof (ups_lt k i (c k) Hi (Hc k ltac:(lia))). fold N in H. lia. }
      pose proof (NoDup_incl_length Hd Hincl) as HL. rewrite map_length, !seq_length in HL. lia.
    - assert (Hd' : exists a b, a < b /\ b <= N /\ c a = c b).
      { assert (X : forall m, m <= S N -> ~ NoDup (map c (seq 0 m)) -> exists a b, a < b /\ b < m /\ c a = c b).
        { induction m as [|m IHm]; intros Hm Hnd; [exfalso; apply Hnd; constructor|].
          destruct (NoDup_dec Nat.eq_dec (map c (seq 0 m))) as [Hd1|Hd1].
          - destruct (in_dec Nat.eq_dec (c m) (map c (seq 0 m))) as [Hin|Hin].
            + apply in_map_iff in Hin as (a & Ha & Hs). apply in_seq in Hs. exists a, m. lia.
            + exfalso. apply Hnd. rewrite seq_S, map_app. cbn [map Nat.add]. apply NoDup_app_ok; [exact Hd1|constructor; [intros []|constructor]|].
              intros x Hx [<-|[]]. contradiction.
          - destruct (IHm ltac:(lia) Hd1) as (a & b & H1 & H2 & H3). exists a, b. lia. }
        destruct (X (S N) ltac:(lia) Hd) as (a & b & H1 & H2 & H3). exists a, b. split; [lia|]. split; [lia|exact H3]. }
      destruct Hd' as (a & b & Hab & Hb & He). intros k.
      assert (Hcyc : ups (b - a) (c a) = Some (c a)).
      { pose proof (ups_add a (b - a) i) as HA. rewrite Hc in HA by lia. replace (a + (b - a)) with b in HA by lia.
        rewrite Hc in HA by lia. rewrite He at 2. symmetry. exact HA. }
      apply (ups_le k (a + k)); [lia|]. rewrite ups_add, Hc by lia. apply (ups_cycle (b - a)); [lia|exact Hcyc].
  Qed.
  Lemma look_up_stable f f' i : f <= f' -> look_up w f i n <> Loop -> look_up w f' i n = look_up w f i n.
  Proof.
    revert f' i. induction f as [|f IH]; intros f' i Hf Hne; [cbn in Hne; congruence|].
    destruct f' as [|f']; [lia|]. cbn [look_up] in *. destruct (aget (j_values (jget w i)) n); [reflexivity|].
    destruct (j_parent (jget w i)); [|reflexivity]. apply IH; [lia|exact Hne].
  Qed.
  Lemma look_enough f i r : i < List.length (w_inj w) -> look_up w f i n = r -> r <> Loop -> look_in w i n = r.
  Proof.
    intros Hi E Hr. unfold look_in. set (N := List.length (w_inj w)) in *.
    assert (HN : look_up w (S N) i n <> Loop).
    { intros HL. apply look_up_loop in HL. pose proof (ups_le N (S N) i ltac:(lia) HL) as HL'.
      pose proof (ups_forever i Hi HL' f) as Hf. apply look_up_loop in Hf. congruence. }
    destruct (Nat.le_ge_cases f (S N)).
    - rewrite <- E. apply look_up_stable; [assumption|congruence].
    - symmetry. rewrite <- E. apply look_up_stable; assumption.
  Qed.
End Chain.

Section NearLook.
  Variables (rh : list iop) (w : world).
  Hypothesis W : winv w.
  Hypothesis H : hist_inv rh w.
  Lemma nearest_look i n o : i < List.length (w_inj w) -> nearest rh i n o ->
    exists q, look_in w i n = Found q /\ new_provider o = Some (info_of w q).
  Proof.
    intros Hi Hn. assert (X : exists f q, look_up w f i n = Found q /\ new_provider o = Some (info_of w q)).
    { clear Hi. induction Hn as [i n o E|i k n o E1 E2 Hn IH].
      - pose proof (hi_val _ _ H i n) as V. rewrite E in V. destruct V as (q & V1 & V2). exists 1, q. cbn. rewrite V1. auto.
      - destruct IH as (f & q & A & B). exists (S f), q. cbn [look_up]. pose proof (hi_val _ _ H i n) as V. rewrite E1 in V.
        rewrite V, (hi_par _ _ H), E2. auto. }
    destruct X as (f & q & A & B). exists q. split; [|exact B]. eapply look_enough; [exact W|exact Hi|exact A|discriminate].
  Qed.
  Lemma nowhere_look i n : i < List.length (w_inj w) -> nowhere rh i n -> look_in w i n = Missing.
  Proof.
    intros Hi Hn. assert (X : exists f, look_up w f i n = Missing).
    { clear Hi. induction Hn as [i n E1 E2|i k n E1 E2 Hn IH]; pose proof (hi_val _ _ H i n) as V; rewrite E1 in V.
      - exists 1. cbn. rewrite V, (hi_par _ _ H), E2. reflexivity.
      - destruct IH as (f & A). exists (S f). cbn [look_up]. rewrite V, (hi_par _ _ H), E2. exact A. }
    destruct X as (f & A). eapply look_enough; [exact W|exact Hi|exact A|discriminate].
  Qed.
  Lemma look_up_nearest f : forall i n q, look_up w f i n = Found q ->
    exists o, nearest rh i n o /\ new_provider o = Some (info_of w q).
  Proof.
    induction f as [|f IH]; intros i n q; cbn [look_up]; [discriminate|]. pose proof (hi_val _ _ H i n) as V.
    destruct (last_provided rh i n) as [o|] eqn:E.
    - destruct V as (q' & V1 & V2). rewrite V1. intros [= <-]. exists o. split; [apply nr_here; exact E|exact V2].
    - rewrite V, (hi_par _ _ H). destruct (parent_of rh i) as [k|] eqn:E2; [|discriminate]. intros HF.
      destruct (IH k n q HF) as (o & A & B). exists o. split; [eapply nr_up; eassumption|exact B].
  Qed.
  Lemma look_nearest i n q : look_in w i n = Found q -> exists o, nearest rh i n o /\ new_provider o = Some (info_of w q).
  Proof. apply look_up_nearest. Qed.
End NearLook.
