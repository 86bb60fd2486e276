(** SliceFacts: proofs about SliceModel: frames of slice operations. *)
From Coq Require Import List Ascii String Bool Arith Lia.
Import ListNotations.
From Verif Require Import GoStr GoPath GoTy RouterModel RouterSpec RouterTree RouterRefine RouterTable RouterFacts SliceModel.

Lemma set_nth_length {B} (l : list B) : forall n b, List.length (set_nth n b l) = List.length l.
Proof. induction l as [|x l IH]; intros [|n] b; cbn; congruence || (rewrite ?IH; reflexivity). Qed.
Lemma set_nth_nth {B} (l : list B) : forall n m b d,
  nth m (set_nth n b l) d = if Nat.eqb m n && Nat.ltb n (List.length l) then b else nth m l d.
Proof.
  induction l as [|x l IH]; intros [|n] [|m] b d; cbn [set_nth nth List.length]; try reflexivity.
  - cbn. destruct (Nat.eqb m n); reflexivity.
  - rewrite IH. cbn [Nat.eqb]. change (S n <? S (List.length l)) with (n <? List.length l). reflexivity.
Qed.
Lemma set_nth_firstn {B} (l : list B) : forall n k b, k <= n -> firstn k (set_nth n b l) = firstn k l.
Proof.
  induction l as [|x l IH]; intros [|n] [|k] b H; cbn; try reflexivity; try lia. rewrite IH by lia. reflexivity.
Qed.
Lemma set_nth_firstn_S {B} (l : list B) : forall n b, n < List.length l -> firstn (S n) (set_nth n b l) = firstn n l ++ [b].
Proof.
  induction l as [|x l IH]; intros [|n] b H; cbn [List.length] in H; try lia; [reflexivity|].
  cbn [set_nth]. change (firstn (S (S n)) (x :: set_nth n b l)) with (x :: firstn (S n) (set_nth n b l)).
  rewrite IH by lia. reflexivity.
Qed.

Section Frames.
  Context {A : Type}.
  Notation heap := (heap A).

  Definition swf (h : heap) (s : slice) : Prop := s_arr s < List.length h /\ s_len s <= List.length (arr h (s_arr s)).

  (** from [h] to [h'] only cells of array [a] from index [n] on, and new
      arrays, were written *)
  Definition frame (h h' : heap) (a n : nat) : Prop :=
    List.length h <= List.length h' /\
    forall b, b < List.length h ->
      List.length (arr h' b) = List.length (arr h b) /\
      (b <> a -> arr h' b = arr h b) /\
      firstn n (arr h' b) = firstn n (arr h b).

  Lemma frame_refl h a n : frame h h a n.
  Proof. split; [lia|]. intros b Hb. repeat split. Qed.

  Lemma frame_trans h h1 h2 a n a' n' :
    frame h h1 a n -> frame h1 h2 a' n' -> (a' = a /\ n <= n') \/ List.length h <= a' -> frame h h2 a n.
  Proof.
    intros (L1 & F1) (L2 & F2) Hc. split; [lia|]. intros b Hb.
    destruct (F1 b Hb) as (A1 & B1 & C1). destruct (F2 b ltac:(lia)) as (A2 & B2 & C2).
    split; [congruence|].
    destruct Hc as [[-> Hn]|Hge].
    - split; [intros Hne; rewrite B2, B1 by assumption; reflexivity|].
      transitivity (firstn n (arr h1 b)); [|exact C1].
      rewrite <- (firstn_firstn (arr h2 b) n n') || idtac.
      replace n with (Nat.min n n') by lia. rewrite <- !firstn_firstn. rewrite C2. reflexivity.
    - assert (b <> a') by lia. rewrite B2 by assumption. auto.
  Qed.

  Lemma frame_read h h' a n s : frame h h' a n -> swf h s -> s_arr s <> a \/ s_len s <= n ->
    sread h' s = sread h s /\ swf h' s.
  Proof.
    intros (L & F) (W1 & W2) Hc. destruct (F _ W1) as (A1 & B1 & C1). unfold sread, swf.
    split; [|split; [lia|rewrite A1; exact W2]].
    destruct Hc as [Hne|Hle]; [rewrite B1 by exact Hne; reflexivity|].
    replace (s_len s) with (Nat.min (s_len s) n) by lia. rewrite <- !firstn_firstn, C1. reflexivity.
  Qed.

  Lemma arr_app_old (h : heap) x b : b < List.length h -> arr (h ++ x) b = arr h b.
  Proof. intros H. unfold arr. apply app_nth1. exact H. Qed.

  Lemma smake_spec (h : heap) l cap h' s : smake h l cap = (h', s) ->
    s_arr s = List.length h /\ s_len s = List.length l /\ sread h' s = l /\ swf h' s /\
    List.length h' = S (List.length h) /\ (forall a n, frame h h' a n) /\
    List.length (arr h' (s_arr s)) = Nat.max (List.length l) cap.
  Proof.
    unfold smake. intros [= <- <-]. cbn [s_arr s_len].
    assert (E : arr (h ++ [l ++ repeat None (cap - List.length l)]) (List.length h) = l ++ repeat None (cap - List.length l)).
    { unfold arr. rewrite app_nth2, Nat.sub_diag by lia. reflexivity. }
    split; [reflexivity|]. split; [reflexivity|].
    split; [unfold sread; cbn [s_arr s_len]; rewrite E; apply firstn_app_len|].
    split; [unfold swf; cbn [s_arr s_len]; rewrite E, !app_length, repeat_length; cbn; lia|].
    split; [rewrite app_length; cbn; lia|].
    split; [|rewrite E, app_length, repeat_length; lia].
    intros a n. split; [rewrite app_length; lia|]. intros b Hb. rewrite arr_app_old by exact Hb. repeat split.
  Qed.

  Lemma sappend_spec grow (h : heap) s v h' s' : sappend grow h s v = (h', s') -> swf h s ->
    sread h' s' = sread h s ++ [Some v] /\ swf h' s' /\ frame h h' (s_arr s) (s_len s) /\ s_len s' = S (s_len s) /\
    ((s_arr s' = s_arr s /\ s_len s < List.length (arr h (s_arr s)) /\ List.length h' = List.length h) \/
     (s_arr s' = List.length h /\ s_len s = List.length (arr h (s_arr s)))).
  Proof.
    unfold sappend. intros E (W1 & W2). destruct (Nat.ltb_spec (s_len s) (List.length (arr h (s_arr s)))) as [Hlt|Hge].
    - injection E as <- <-. cbn [s_arr s_len]. unfold sread, swf, cell_set. cbn [s_arr s_len].
      assert (Ea : arr (set_nth (s_arr s) (set_nth (s_len s) (Some v) (arr h (s_arr s))) h) (s_arr s)
                   = set_nth (s_len s) (Some v) (arr h (s_arr s))).
      { unfold arr at 1. rewrite set_nth_nth, Nat.eqb_refl. destruct (Nat.ltb_spec (s_arr s) (List.length h)); [reflexivity|lia]. }
      rewrite Ea, !set_nth_length. split; [apply set_nth_firstn_S; exact Hlt|]. split; [lia|].
      split; [|split; [reflexivity|left; repeat split; assumption]].
      split; [rewrite set_nth_length; lia|]. intros b Hb.
      destruct (Nat.eq_dec b (s_arr s)) as [->|Hne].
      + rewrite Ea, set_nth_length. split; [reflexivity|]. split; [congruence|]. apply set_nth_firstn. lia.
      + assert (Eb : arr (set_nth (s_arr s) (set_nth (s_len s) (Some v) (arr h (s_arr s))) h) b = arr h b).
        { unfold arr at 1. rewrite set_nth_nth. destruct (Nat.eqb_spec b (s_arr s)); [contradiction|reflexivity]. }
        rewrite Eb. repeat split.
    - assert (Hl : List.length (sread h s ++ [Some v]) = S (s_len s)).
      { rewrite app_length. unfold sread. rewrite firstn_length. cbn. lia. }
      destruct (smake_spec _ _ _ _ _ E) as (S1 & S2 & S3 & S4 & S5 & S6 & _).
      split; [exact S3|]. split; [exact S4|]. split; [apply S6|]. split; [congruence|]. right. split; [exact S1|lia].
  Qed.
End Frames.

(** ** filters *)
Section FilterFacts.
  Variable grow : nat -> nat.
  Notation fheap := (heap filter_id).

  Definition shas (h : fheap) (s : slice) (l : filters) : Prop := swf h s /\ sread h s = map Some l.

  Lemma holds_spec h s l f : shas h s l -> holds h s f = fmem f l.
  Proof.
    intros (_ & E). unfold holds, fmem. rewrite E. induction l as [|x l IH]; [reflexivity|].
    cbn [map existsb]. clear E. assert (G : forall l, existsb (fun o => match o with Some g => Nat.eqb f g | None => false end) (map Some l) = existsb (Nat.eqb f) l).
    { induction l0 as [|y l0 IH0]; [reflexivity|]. cbn [map existsb]. rewrite IH0. reflexivity. }
    rewrite G. reflexivity.
  Qed.
  Lemma vals_spec h s l : shas h s l -> vals h s = l.
  Proof.
    intros (_ & E). unfold vals. rewrite E. clear. induction l as [|x l IH]; [reflexivity|]. cbn. rewrite IH. reflexivity.
  Qed.

  Lemma happend_spec vs : forall h s l h' s', happend grow h s vs = (h', s') -> shas h s l ->
    shas h' s' (fappend l vs) /\ frame h h' (s_arr s) (s_len s) /\ (s_arr s' = s_arr s \/ List.length h <= s_arr s').
  Proof.
    induction vs as [|f vs IH]; intros h s l h' s' E Hs; cbn [happend fappend] in *.
    - injection E as <- <-. split; [exact Hs|]. split; [apply frame_refl|left; reflexivity].
    - rewrite (holds_spec _ _ _ _ Hs) in E. destruct (fmem f l); [apply IH; assumption|].
      destruct (sappend grow h s f) as [h1 s1] eqn:E1.
      destruct (sappend_spec _ _ _ _ _ _ E1 (proj1 Hs)) as (R1 & W1 & F1 & L1 & C1).
      destruct (IH h1 s1 (l ++ [f]) _ _ E) as (R2 & F2 & C2).
      { split; [exact W1|]. rewrite R1, (proj2 Hs), map_app. reflexivity. }
      split; [exact R2|].
      assert (Hl : List.length h <= List.length h1) by (destruct F1; assumption).
      split.
      + eapply frame_trans; [exact F1|exact F2|]. destruct C1 as [(-> & _)|(-> & _)]; [left; lia|right; lia].
      + destruct C1 as [(Ea & _)|(Ea & _)], C2 as [E2|E2]; rewrite ?Ea in *; [left|right|right|right]; lia.
  Qed.

  Lemma hremove_spec h s ex l e h' s' : hremove h s ex = (h', s') -> shas h s l -> shas h ex e ->
    shas h' s' (fremove l e) /\ (forall a n, frame h h' a n) /\ s_arr s' = List.length h /\ List.length h < List.length h'.
  Proof.
    unfold hremove. intros E Hs He. rewrite (vals_spec _ _ _ He), (proj2 Hs) in E.
    destruct (smake_spec _ _ _ _ _ E) as (S1 & S2 & S3 & S4 & S5 & S6 & _).
    split; [|split; [exact S6|split; [exact S1|lia]]]. split; [exact S4|]. rewrite S3. clear.
    unfold fremove. induction l as [|x l IH]; [reflexivity|]. cbn [map filter].
    destruct (negb (fmem x e)); cbn [map]; rewrite IH; reflexivity.
  Qed.

  Lemma hcollect_spec chunks : forall h s l h' s', hcollect grow h s chunks = (h', s') -> shas h s l ->
    shas h' s' (fappend l (List.concat chunks)) /\ frame h h' (s_arr s) (s_len s) /\ (s_arr s' = s_arr s \/ List.length h <= s_arr s').
  Proof.
    induction chunks as [|fs chunks IH]; intros h s l h' s' E Hs; cbn [hcollect List.concat] in *.
    - injection E as <- <-. split; [exact Hs|]. split; [apply frame_refl|left; reflexivity].
    - destruct (happend grow h s fs) as [h1 s1] eqn:E1.
      destruct (happend_spec _ _ _ _ _ _ E1 Hs) as (R1 & F1 & C1).
      destruct (IH _ _ _ _ _ E R1) as (R2 & F2 & C2). rewrite fappend_app. split; [exact R2|].
      assert (Hl : List.length h <= List.length h1) by (destruct F1; assumption).
      assert (Hlen : s_arr s1 = s_arr s -> s_len s <= s_len s1).
      { intros _. destruct Hs as [Hw Hr], R1 as [Hw1 Hr1].
        apply (f_equal (@List.length _)) in Hr, Hr1. unfold sread in Hr, Hr1. rewrite firstn_length, map_length in Hr, Hr1.
        destruct Hw, Hw1. rewrite fappend_first_occ, app_length in Hr1. lia. }
      split.
      + eapply frame_trans; [exact F1|exact F2|]. destruct C1 as [Ea|Ea]; [left; auto|right; lia].
      + destruct C1 as [Ea|Ea], C2 as [E2|E2]; lia.
  Qed.

  Lemma hcalc_spec h chunks h' s : hcalc grow h chunks = (h', s) ->
    shas h' s (fappend [] (List.concat chunks)) /\ (forall a n, frame h h' a n) /\ List.length h <= s_arr s.
  Proof.
    unfold hcalc. destruct (smake h [] 0) as [h1 s1] eqn:E1. intros E.
    destruct (smake_spec _ _ _ _ _ E1) as (S1 & S2 & S3 & S4 & S5 & S6 & _).
    destruct (hcollect_spec _ _ _ [] _ _ E) as (R & F & C); [split; [exact S4|exact S3]|].
    split; [exact R|]. split; [|destruct C; lia]. intros a n. eapply frame_trans; [apply S6|exact F|]. right. lia.
  Qed.

  Lemma frame_len {B} (h h' : heap B) a n : frame h h' a n -> List.length h <= List.length h'.
  Proof. intros [H _]; exact H. Qed.
  Lemma shas_frame h h' a n s l : frame h h' a n -> shas h s l -> s_arr s <> a \/ s_len s <= n -> shas h' s l.
  Proof. intros F (W & E) Hc. destruct (frame_read _ _ _ _ _ F W Hc) as (E' & W'). split; [exact W'|congruence]. Qed.

  Lemma shas_frame0 h h' s l : (forall a n, frame h h' a n) -> shas h s l -> shas h' s l.
  Proof. intros F H. eapply shas_frame; [apply (F 0 (s_len s))|exact H|right; apply le_n]. Qed.

  (** result of an operation that gets [fs] and yields a new slice *)
  Lemma hlevel_spec h fs l hs h' s' : hlevel grow h (Some fs) hs = (h', s') -> shas h fs l ->
    shas h' s' (eff_step l (level_of hs)) /\ frame h h' (s_arr fs) (s_len fs) /\ List.length h <= s_arr s'.
  Proof.
    unfold hlevel. intros E Hs.
    destruct (hcalc grow h (h_adds hs)) as [h1 own] eqn:E1. destruct (hcalc_spec _ _ _ _ E1) as (R1 & F1 & C1).
    destruct (hcalc grow h1 (h_exempts hs)) as [h2 ex] eqn:E2. destruct (hcalc_spec _ _ _ _ E2) as (R2 & F2 & C2).
    pose proof (frame_len _ _ _ _ (F1 0 0)) as L1. pose proof (frame_len _ _ _ _ (F2 0 0)) as L2.
    assert (Hfs : s_arr fs < List.length h) by apply Hs.
    assert (Hs2 : shas h2 fs l).
    { apply (shas_frame0 _ _ _ _ F2), (shas_frame0 _ _ _ _ F1), Hs. }
    assert (Ho2 : shas h2 own (fappend [] (List.concat (h_adds hs)))).
    { apply (shas_frame0 _ _ _ _ F2), R1. }
    rewrite (vals_spec _ _ _ Ho2) in E.
    destruct (happend grow h2 fs _) as [h3 all] eqn:E3.
    destruct (happend_spec _ _ _ _ _ _ E3 Hs2) as (R3 & F3 & C3). pose proof (frame_len _ _ _ _ F3) as L3.
    assert (Hx3 : shas h3 ex (fappend [] (List.concat (h_exempts hs)))).
    { eapply shas_frame; [apply F3|exact R2|left; lia]. }
    destruct (hremove_spec _ _ _ _ _ _ _ E R3 Hx3) as (R4 & F4 & C4 & L4).
    split; [|split; [|lia]].
    - unfold eff_step. replace (lv_add (level_of hs)) with (List.concat (h_adds hs)).
      2:{ clear. unfold h_adds. cbn [level_of lv_add]. induction hs as [|x hs IH]; [reflexivity|]. cbn [flat_map].
          destruct x; cbn [app List.concat]; rewrite IH; reflexivity. }
      replace (lv_exempt (level_of hs)) with (List.concat (h_exempts hs)); [exact R4|].
      clear. unfold h_exempts. cbn [level_of lv_exempt]. induction hs as [|x hs IH]; [reflexivity|]. cbn [flat_map].
      destruct x; cbn [app List.concat]; rewrite IH; reflexivity.
    - eapply frame_trans with (a' := s_arr fs) (n' := s_len fs); [|apply F4|left; lia].
      eapply frame_trans with (a' := s_arr fs) (n' := s_len fs); [|exact F3|left; lia].
      eapply frame_trans with (a' := s_arr fs) (n' := s_len fs); [apply F1|apply F2|left; lia].
  Qed.

  Lemma hlevel_root_spec h hs h' s' : hlevel grow h None hs = (h', s') ->
    shas h' s' (eff_step [] (level_of hs)) /\ (forall a n, frame h h' a n) /\ List.length h <= s_arr s'.
  Proof.
    unfold hlevel. intros E.
    destruct (hcalc grow h (h_adds hs)) as [h1 own] eqn:E1. destruct (hcalc_spec _ _ _ _ E1) as (R1 & F1 & C1).
    destruct (hcalc grow h1 (h_exempts hs)) as [h2 ex] eqn:E2. destruct (hcalc_spec _ _ _ _ E2) as (R2 & F2 & C2).
    pose proof (frame_len _ _ _ _ (F1 0 0)) as L1. pose proof (frame_len _ _ _ _ (F2 0 0)) as L2.
    assert (Ho2 : shas h2 own (fappend [] (List.concat (h_adds hs)))).
    { apply (shas_frame0 _ _ _ _ F2), R1. }
    destruct (hremove_spec _ _ _ _ _ _ _ E Ho2 R2) as (R4 & F4 & C4 & L4).
    split; [|split; [|lia]].
    - unfold eff_step. rewrite fappend_acc. cbn [fappend]. replace (lv_add (level_of hs)) with (List.concat (h_adds hs)).
      2:{ clear. unfold h_adds. cbn [level_of lv_add]. induction hs as [|x hs IH]; [reflexivity|]. cbn [flat_map].
          destruct x; cbn [app List.concat]; rewrite IH; reflexivity. }
      replace (lv_exempt (level_of hs)) with (List.concat (h_exempts hs)); [exact R4|].
      clear. unfold h_exempts. cbn [level_of lv_exempt]. induction hs as [|x hs IH]; [reflexivity|]. cbn [flat_map].
      destruct x; cbn [app List.concat]; rewrite IH; reflexivity.
    - intros a n. eapply frame_trans with (a' := a) (n' := n); [|apply F4|left; lia].
      eapply frame_trans with (a' := a) (n' := n); [apply F1|apply F2|left; lia].
  Qed.

  Lemma hmethod_spec h fs l os h' s' : hmethod grow h fs os = (h', s') -> shas h fs l ->
    shas h' s' (eff_step l (Lv (opt_adds os) (opt_exempts os))) /\ frame h h' (s_arr fs) (s_len fs) /\ List.length h <= s_arr s'.
  Proof.
    unfold hmethod. intros E Hs.
    destruct (hcalc grow h (o_adds os)) as [h1 own] eqn:E1. destruct (hcalc_spec _ _ _ _ E1) as (R1 & F1 & C1).
    destruct (hcalc grow h1 (o_exempts os)) as [h2 ex] eqn:E2. destruct (hcalc_spec _ _ _ _ E2) as (R2 & F2 & C2).
    pose proof (frame_len _ _ _ _ (F1 0 0)) as L1. pose proof (frame_len _ _ _ _ (F2 0 0)) as L2.
    assert (Hfs : s_arr fs < List.length h) by apply Hs.
    assert (Hs2 : shas h2 fs l).
    { apply (shas_frame0 _ _ _ _ F2), (shas_frame0 _ _ _ _ F1), Hs. }
    assert (Ho2 : shas h2 own (fappend [] (List.concat (o_adds os)))).
    { apply (shas_frame0 _ _ _ _ F2), R1. }
    rewrite (vals_spec _ _ _ Ho2) in E.
    destruct (happend grow h2 fs _) as [h3 all] eqn:E3.
    destruct (happend_spec _ _ _ _ _ _ E3 Hs2) as (R3 & F3 & C3). pose proof (frame_len _ _ _ _ F3) as L3.
    assert (Hx3 : shas h3 ex (fappend [] (List.concat (o_exempts os)))).
    { eapply shas_frame; [apply F3|exact R2|left; lia]. }
    destruct (hremove_spec _ _ _ _ _ _ _ E R3 Hx3) as (R4 & F4 & C4 & L4).
    split; [|split; [|lia]].
    - unfold eff_step. cbn [lv_add lv_exempt]. replace (opt_adds os) with (List.concat (o_adds os)).
      2:{ clear. unfold o_adds, opt_adds. induction os as [|x os IH]; [reflexivity|]. cbn [flat_map].
          destruct x; cbn [app List.concat]; rewrite IH; reflexivity. }
      replace (opt_exempts os) with (List.concat (o_exempts os)); [exact R4|].
      clear. unfold o_exempts, opt_exempts. induction os as [|x os IH]; [reflexivity|]. cbn [flat_map].
      destruct x; cbn [app List.concat]; rewrite IH; reflexivity.
    - eapply frame_trans with (a' := s_arr fs) (n' := s_len fs); [|apply F4|left; lia].
      eapply frame_trans with (a' := s_arr fs) (n' := s_len fs); [|exact F3|left; lia].
      eapply frame_trans with (a' := s_arr fs) (n' := s_len fs); [apply F1|apply F2|left; lia].
  Qed.

  (** what an entry holds, and what it should hold *)
  Definition view (h : fheap) (st : stored) := (st_ctl st, st_meth st, st_opts st, sread h (st_slice st)).
  Definition want (d : decl) := (d_ctl d, d_meth d, d_opts d, map (@Some filter_id) (filter_order d)).
  Definition decls (es : list event) : list decl := flat_map (fun e => match e with EDecl d => [d] | _ => [] end) es.

  Lemma decls_app a b : decls (a ++ b) = decls a ++ decls b.
  Proof. apply flat_map_app. Qed.

  (** the slices of [L] were allocated between [h] and [h'] *)
  Definition fresh (h h' : fheap) (L : list stored) : Prop :=
    Forall (fun st => List.length h <= s_arr (st_slice st) /\ swf h' (st_slice st)) L.

  Lemma fresh_frame h h' h'' a n L : fresh h h' L -> frame h' h'' a n -> a < List.length h ->
    fresh h h'' L /\ map (view h'') L = map (view h') L.
  Proof.
    intros HL F Ha. split.
    - eapply Forall_impl; [|exact HL]. intros st (A1 & A2). split; [exact A1|].
      apply (frame_read _ _ _ _ _ F A2). left. lia.
    - apply map_ext_in. intros st Hin. unfold fresh in HL. rewrite Forall_forall in HL. destruct (HL st Hin) as (A1 & A2).
      unfold view. rewrite (proj1 (frame_read _ _ _ _ _ F A2 (or_introl (fun E => Nat.lt_irrefl _ (Nat.lt_le_trans _ _ _ Ha (eq_ind _ (fun z => _ <= z) A1 _ E)))))). reflexivity.
  Qed.
  Lemma fresh_weaken h0 h h' L : List.length h0 <= List.length h -> fresh h h' L -> fresh h0 h' L.
  Proof. intros Hl HL. eapply Forall_impl; [|exact HL]. intros st (A1 & A2). split; [lia|exact A2]. Qed.

  Definition good (h : fheap) (fs : slice) (h' : fheap) (L : list stored) (ds : list decl) : Prop :=
    frame h h' (s_arr fs) (s_len fs) /\ fresh h h' L /\ map (view h') L = map want ds.

  Lemma good_seq h fs h1 L1 d1 h2 L2 d2 : s_arr fs < List.length h ->
    good h fs h1 L1 d1 -> good h1 fs h2 L2 d2 -> good h fs h2 (L1 ++ L2) (d1 ++ d2).
  Proof.
    intros Hfs (F1 & A1 & B1) (F2 & A2 & B2).
    destruct (fresh_frame _ _ _ _ _ _ A1 F2 Hfs) as (A1' & B1').
    split; [eapply frame_trans; [exact F1|exact F2|left; lia]|].
    split; [apply Forall_app; split; [exact A1'|eapply fresh_weaken; [apply (frame_len _ _ _ _ F1)|exact A2]]|].
    rewrite !map_app. congruence.
  Qed.

  Lemma hmethods_spec lv pat hs : forall h fs h' L, hmethods grow h fs hs = (h', L) -> shas h fs (eff lv) ->
    good h fs h' L (decls (level_decls lv pat hs)).
  Proof.
    induction hs as [|x hs IH]; intros h fs h' L E Hs; cbn [hmethods] in E.
    - injection E as <- <-. split; [apply frame_refl|]. split; [constructor|reflexivity].
    - destruct x; try (apply IH; assumption).
      destruct (hmethod grow h fs opts) as [h1 s] eqn:E1.
      destruct (hmethods grow h1 fs hs) as [h2 L'] eqn:E2. injection E as <- <-.
      destruct (hmethod_spec _ _ _ _ _ _ E1 Hs) as (R1 & F1 & C1).
      assert (Hs1 : shas h1 fs (eff lv)) by (eapply shas_frame; [exact F1|exact Hs|right; apply le_n]).
      pose proof (IH _ _ _ _ E2 Hs1) as G2.
      change (decls (level_decls lv pat (HMethod c m opts :: hs)))
        with ([Decl pat lv c m opts] ++ decls (level_decls lv pat hs)).
      change (St c m opts s :: L') with ([St c m opts s] ++ L').
      apply (good_seq h fs h1 _ _ h2); [apply Hs| |exact G2].
      split; [exact F1|]. split; [constructor; [split; [exact C1|apply R1]|constructor]|].
      cbn [map]. unfold view, want, filter_order. cbn [st_ctl st_meth st_opts st_slice d_ctl d_meth d_opts d_levels].
      rewrite run_order_eff by constructor. fold (eff (lv ++ [Lv (opt_adds opts) (opt_exempts opts)])).
      rewrite eff_snoc, (proj2 R1). reflexivity.
  Qed.

  Lemma hhandler_router h fs path hs :
    hhandler grow h fs (HRouter path hs) =
    match split_route_path path with
    | [] => (h, [])
    | p0 :: _ =>
        if is_nil p0 then (h, [])
        else let '(h1, fs') := hlevel grow h (Some fs) hs in
             let '(h2, l) := hmethods grow h1 fs' hs in
             let '(h3, l') := hhandlers grow h2 fs' hs in (h3, l ++ l')
    end.
  Proof.
    cbn [hhandler]. destruct (split_route_path path) as [|p0 ps]; [reflexivity|]. destruct (is_nil p0); [reflexivity|].
    destruct (hlevel grow h (Some fs) hs) as [h1 fs']. destruct (hmethods grow h1 fs' hs) as [h2 l].
    match goal with |- (let '(_, _) := ?f h2 hs in _) = _ => set (F := f) end.
    assert (G : forall xs h0, F h0 xs = hhandlers grow h0 fs' xs); [|rewrite G; reflexivity].
    induction xs as [|y xs IH]; intros h0; [reflexivity|]. cbn. destruct (hhandler grow h0 fs' y) as [ha la].
    rewrite <- IH. reflexivity.
  Qed.

  Lemma hhandlers_spec lv pat hs :
    Forall (fun x => forall lv pat h fs h' L, hhandler grow h fs x = (h', L) -> shas h fs (eff lv) ->
                     good h fs h' L (decls (events_h lv pat x))) hs ->
    forall h fs h' L, hhandlers grow h fs hs = (h', L) -> shas h fs (eff lv) ->
    good h fs h' L (decls (flat_map (events_h lv pat) hs)).
  Proof.
    induction 1 as [|x hs Hx _ IH]; intros h fs h' L E Hs; cbn [hhandlers flat_map] in *.
    - injection E as <- <-. split; [apply frame_refl|]. split; [constructor|reflexivity].
    - destruct (hhandler grow h fs x) as [h1 l1] eqn:E1. destruct (hhandlers grow h1 fs hs) as [h2 l2] eqn:E2.
      injection E as <- <-. pose proof (Hx lv pat _ _ _ _ E1 Hs) as G1.
      assert (Hs1 : shas h1 fs (eff lv)) by (eapply shas_frame; [apply G1|exact Hs|right; apply le_n]).
      rewrite decls_app. eapply good_seq; [apply Hs|exact G1|]. apply IH; assumption.
  Qed.

  Lemma hhandler_spec x : forall lv pat h fs h' L, hhandler grow h fs x = (h', L) -> shas h fs (eff lv) ->
    good h fs h' L (decls (events_h lv pat x)).
  Proof.
    induction x as [s|s| |f|f|p hs IH|c m os] using handler_ind2; intros lv pat h fs h' L E Hs;
      try (cbn [hhandler] in E; injection E as <- <-; split; [apply frame_refl|split; [constructor|reflexivity]]).
    rewrite hhandler_router, split_route_path_segs in E. cbn [events_h].
    pose proof (segs_nonempty p) as Hne.
    destruct (segs p) as [|s0 ss] eqn:Es.
    { cbn [is_nil] in E. injection E as <- <-. split; [apply frame_refl|split; [constructor|reflexivity]]. }
    assert (E0 : is_nil s0 = false).
    { inversion Hne; subst. destruct s0; [congruence|reflexivity]. }
    rewrite E0 in E. rewrite <- Es in *.
    destruct (hlevel grow h (Some fs) hs) as [h1 fs'] eqn:E1.
    destruct (hmethods grow h1 fs' hs) as [h2 l] eqn:E2. destruct (hhandlers grow h2 fs' hs) as [h3 l'] eqn:E3.
    injection E as <- <-.
    destruct (hlevel_spec _ _ _ _ _ _ E1 Hs) as (R1 & F1 & C1). rewrite <- eff_snoc in R1.
    pose proof (hmethods_spec _ (pat ++ segs p) _ _ _ _ _ E2 R1) as G2.
    assert (Hs2 : shas h2 fs' (eff (lv ++ [level_of hs]))) by (eapply shas_frame; [apply G2|exact R1|right; apply le_n]).
    pose proof (hhandlers_spec _ (pat ++ segs p) hs IH _ _ _ _ E3 Hs2) as G3.
    assert (Hfs' : s_arr fs' < List.length h1) by apply R1.
    pose proof (good_seq _ _ _ _ _ _ _ _ Hfs' G2 G3) as (F & A & B).
    change (decls (EEnd (pat ++ segs p) :: ?x)) with (decls x). rewrite decls_app.
    change (decls (EHead (pat ++ segs p) :: ?x)) with (decls x).
    split; [eapply frame_trans; [exact F1|exact F|right; exact C1]|].
    split; [eapply fresh_weaken; [apply (frame_len _ _ _ _ F1)|exact A]|exact B].
  Qed.

  Lemma hrouters1_spec h hs h' L : hrouters1 grow h hs = (h', L) ->
    (forall a n, frame h h' a n) /\ fresh h h' L /\ map (view h') L = map want (decls (events_call hs)).
  Proof.
    unfold hrouters1. destruct (hlevel grow h None hs) as [h1 fs] eqn:E1.
    destruct (hmethods grow h1 fs hs) as [h2 l] eqn:E2. destruct (hhandlers grow h2 fs hs) as [h3 l'] eqn:E3.
    intros [= <- <-]. destruct (hlevel_root_spec _ _ _ _ E1) as (R1 & F1 & C1).
    change (eff_step [] (level_of hs)) with (eff [level_of hs]) in R1.
    pose proof (hmethods_spec _ [] _ _ _ _ _ E2 R1) as G2.
    assert (Hs2 : shas h2 fs (eff [level_of hs])) by (eapply shas_frame; [apply G2|exact R1|right; apply le_n]).
    assert (IH : Forall (fun x => forall lv pat h fs h' L, hhandler grow h fs x = (h', L) -> shas h fs (eff lv) ->
                     good h fs h' L (decls (events_h lv pat x))) hs).
    { apply Forall_forall. intros x _. apply hhandler_spec. }
    pose proof (hhandlers_spec _ [] hs IH _ _ _ _ E3 Hs2) as G3.
    assert (Hfs' : s_arr fs < List.length h1) by apply R1.
    pose proof (good_seq _ _ _ _ _ _ _ _ Hfs' G2 G3) as (F & A & B).
    split; [intros a n; eapply frame_trans; [apply F1|exact F|right; exact C1]|].
    split; [eapply fresh_weaken; [apply (frame_len _ _ _ _ (F1 0 0))|exact A]|].
    unfold events_call. rewrite decls_app. exact B.
  Qed.

  Lemma hrouters_spec prog : forall h h' L, hrouters grow h prog = (h', L) ->
    (forall a n, frame h h' a n) /\ fresh h h' L /\ map (view h') L = map want (decls (events prog)).
  Proof.
    induction prog as [|hs prog IH]; intros h h' L E; cbn [hrouters] in E.
    - injection E as <- <-. split; [intros; apply frame_refl|]. split; [constructor|reflexivity].
    - destruct (hrouters1 grow h hs) as [h1 l1] eqn:E1. destruct (hrouters grow h1 prog) as [h2 l2] eqn:E2.
      injection E as <- <-. destruct (hrouters1_spec _ _ _ _ E1) as (F1 & A1 & B1).
      destruct (IH _ _ _ E2) as (F2 & A2 & B2).
      pose proof (frame_len _ _ _ _ (F1 0 0)) as L1.
      assert (K : fresh h h2 l1 /\ map (view h2) l1 = map (view h1) l1).
      { split.
        - eapply Forall_impl; [|exact A1]. intros st (X & Y). split; [exact X|].
          apply (frame_read _ _ _ _ _ (F2 0 (s_len (st_slice st))) Y). right. apply le_n.
        - apply map_ext_in. intros st Hin. unfold fresh in A1. rewrite Forall_forall in A1. destruct (A1 st Hin) as (X & Y).
          unfold view. rewrite (proj1 (frame_read _ _ _ _ _ (F2 0 (s_len (st_slice st))) Y (or_intror (le_n _)))). reflexivity. }
      split; [intros a n; eapply frame_trans with (a' := a) (n' := n); [apply F1|apply F2|left; lia]|].
      split; [apply Forall_app; split; [apply K|eapply fresh_weaken; [exact L1|exact A2]]|].
      change (events (hs :: prog)) with (events_call hs ++ events prog).
      rewrite decls_app, !map_app. destruct K as [_ ->]. congruence.
  Qed.
End FilterFacts.
