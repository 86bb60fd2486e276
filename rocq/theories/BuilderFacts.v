(** BuilderFacts: MethodHandler builders over shared arrays (SliceModel). *)
From Coq Require Import List Ascii String Bool Arith Lia.
Import ListNotations.
From Verif Require Import GoStr GoPath GoTy RouterModel SliceModel SliceFacts.

(** ** Specification *)
(** the controller a handler was made from, up to the cached argument types *)
Definition same_ctl (c c' : ctl) : Prop := c_id c = c_id c' /\ c_kind c = c_kind c' /\ c_methods c = c_methods c'.

(** what each result of a builder program should be: its controller, method and
    own options in the order they were given *)
Fixpoint describe (acc : list (ctl * meth * list mopt)) (ops : list bop) : list (ctl * meth * list mopt) :=
  match ops with
  | [] => acc
  | BNew c m :: ops' => describe (acc ++ [(c, m, [])]) ops'
  | BDerive i o :: ops' =>
      match nth_error acc i with
      | Some (c, m, os) => describe (acc ++ [(c, m, os ++ [o])]) ops'
      | None => describe acc ops'
      end
  end.

(** operation number k yields result number k.  No result other than a new
    method handler is used twice as the receiver of a builder method. *)
Definition derived_once (ops : list bop) : Prop :=
  forall i n1 n2 o1 o2,
    nth_error ops n1 = Some (BDerive i o1) -> nth_error ops n2 = Some (BDerive i o2) ->
    (exists c m, nth_error ops i = Some (BNew c m)) \/ n1 = n2.

Definition shows (h : bheap) (s : slice) (x : ctl * meth * list mopt) : Prop :=
  let '(c, m, os) := x in
  exists c', same_ctl c c' /\ bview h s = Some (BCtl c') :: Some (BMeth m) :: map (fun o => Some (BOpt o)) os.

(** ** Proof *)
Record inv (pre : list bop) (h : bheap) (hs : list slice) (acc : list (ctl * meth * list mopt)) : Prop := {
  iv_l1 : List.length hs = List.length pre;
  iv_l2 : List.length acc = List.length pre;
  iv_show : forall i s x, nth_error hs i = Some s -> nth_error acc i = Some x -> swf h s /\ shows h s x;
  iv_full : forall i s c m, nth_error pre i = Some (BNew c m) -> nth_error hs i = Some s -> List.length (arr h (s_arr s)) = s_len s;
  iv_top : forall i j0 o s, nth_error pre i = Some (BDerive j0 o) -> nth_error hs i = Some s ->
    (forall n o', nth_error pre n <> Some (BDerive i o')) ->
    forall j s', nth_error hs j = Some s' -> j <> i -> s_arr s' = s_arr s -> s_len s' < s_len s
}.

Lemma ensure_same c n c' : ensure_action c n = Ok c' -> same_ctl c c'.
Proof.
  unfold ensure_action. destruct (c_kind c) eqn:E.
  - destruct (is_nil n); [|discriminate]. intros [= <-]. repeat split.
  - destruct (is_nil n); [|discriminate]. intros [= <-]. repeat split.
  - destruct (aget (c_methods c) n); [|discriminate]. intros [= <-]. repeat split. exact E.
Qed.
Lemma same_ctl_trans a b c : same_ctl a b -> same_ctl b c -> same_ctl a c.
Proof. unfold same_ctl. intuition congruence. Qed.

Lemma cell_set_length {A} (h : heap A) a i v b : List.length (arr (cell_set h a i v) b) = List.length (arr h b).
Proof.
  unfold cell_set, arr at 1. rewrite set_nth_nth. destruct (Nat.eqb_spec b a) as [->|]; [|reflexivity].
  destruct (Nat.ltb a (List.length h)); cbn [andb]; [apply set_nth_length|reflexivity].
Qed.
Lemma cell_set0_read {A} (h : heap A) a v s : s_arr s < List.length h -> 
  sread (cell_set h a 0 v) s =
  if Nat.eqb (s_arr s) a then match sread h s with [] => [] | _ :: l => Some v :: l end else sread h s.
Proof.
  intros Hs. unfold sread, cell_set, arr at 1. rewrite set_nth_nth.
  destruct (Nat.eqb_spec (s_arr s) a) as [<-|]; [|reflexivity].
  destruct (Nat.ltb_spec (s_arr s) (List.length h)); [|lia]. cbn [andb].
  destruct (arr h (s_arr s)) as [|x l], (s_len s); reflexivity.
Qed.

(** storing the controller back keeps what every handler shows *)
Lemma set_ctl_inv pre h hs acc s c c' rest : inv pre h hs acc -> swf h s ->
  sread h s = Some (BCtl c) :: rest -> same_ctl c c' ->
  inv pre (cell_set h (s_arr s) 0 (BCtl c')) hs acc.
Proof.
  intros [A1 A2 A3 A4 A5] Hw Hr Hc. constructor; [exact A1|exact A2| | |exact A5].
  - intros i t x Ht Hx. destruct (A3 i t x Ht Hx) as ((W1 & W2) & Sh). split.
    + split; [unfold cell_set; rewrite set_nth_length; exact W1|rewrite cell_set_length; exact W2].
    + destruct x as [[c0 m0] os]. destruct Sh as (c1 & Hc1 & Hv). unfold shows, bview in *.
      rewrite cell_set0_read by exact W1. destruct (Nat.eqb_spec (s_arr t) (s_arr s)) as [E|]; [|exists c1; auto].
      rewrite Hv. exists c'. split; [|reflexivity].
      assert (c1 = c); [|subst c1; eapply same_ctl_trans; eauto].
      unfold sread in Hr, Hv. rewrite E in Hv.
      destruct (arr h (s_arr s)) as [|y l]; [destruct (s_len s); discriminate|].
      destruct (s_len s); [discriminate|]. destruct (s_len t); [discriminate|]. cbn [firstn] in Hr, Hv. congruence.
  - intros i t c0 m0 Hp Ht. rewrite cell_set_length. eapply A4; eauto.
Qed.

Lemma nth_error_snoc {A} (l : list A) x i :
  nth_error (l ++ [x]) i = if Nat.eqb i (List.length l) then Some x else nth_error l i.
Proof.
  destruct (Nat.eqb_spec i (List.length l)) as [->|Hn].
  - rewrite nth_error_app2, Nat.sub_diag by lia. reflexivity.
  - destruct (Nat.lt_ge_cases i (List.length l)).
    + apply nth_error_app1. assumption.
    + rewrite nth_error_app2 by lia. destruct (i - List.length l) as [|k] eqn:E; [lia|].
      destruct k; cbn; symmetry; apply nth_error_None; lia.
Qed.
Lemma nth_error_lt {A} (l : list A) i x : nth_error l i = Some x -> i < List.length l.
Proof. intros H. apply nth_error_Some. congruence. Qed.

Lemma bnew_inv pre h hs acc c m h' s : inv pre h hs acc -> bnew h c m = (h', s) ->
  inv (pre ++ [BNew c m]) h' (hs ++ [s]) (acc ++ [(c, m, [])]).
Proof.
  intros [A1 A2 A3 A4 A5] E. unfold bnew in E.
  destruct (smake_spec _ _ _ _ _ E) as (S1 & S2 & S3 & S4 & S5 & S6 & S7).
  constructor; try (rewrite !app_length; cbn; lia).
  - intros i t x. rewrite !nth_error_snoc, A1, A2. destruct (Nat.eqb_spec i (List.length pre)) as [->|Hn].
    + intros [= <-] [= <-]. split; [exact S4|]. exists c. split; [repeat split|exact S3].
    + intros Ht Hx. destruct (A3 i t x Ht Hx) as (W & Sh).
      destruct (frame_read _ _ _ _ _ (S6 0 (s_len t)) W (or_intror (le_n _))) as (R & W'). split; [exact W'|].
      destruct x as [[c0 m0] os]. unfold shows, bview in *. rewrite R. exact Sh.
  - intros i t c0 m0. rewrite !nth_error_snoc, A1. destruct (Nat.eqb_spec i (List.length pre)) as [->|Hn].
    + intros _ [= <-]. rewrite S7, S2. reflexivity.
    + intros Hp Ht. assert (W : s_arr t < List.length h).
      { destruct (nth_error acc i) as [x|] eqn:Ex; [apply (A3 i t x Ht Ex)|].
        apply nth_error_None in Ex. apply nth_error_lt in Ht. lia. }
      destruct (S6 0 0) as [_ F]. destruct (F _ W) as (-> & _). eapply A4; eauto.
  - intros i j0 o t Hp Ht Hu j t' Hj Hji Ha. rewrite nth_error_snoc in Hp. rewrite nth_error_snoc in Ht. rewrite nth_error_snoc in Hj. rewrite A1 in Ht, Hj.
    destruct (Nat.eqb_spec i (List.length pre)) as [->|Hn]; [discriminate|].
    assert (Hu' : forall n o', nth_error pre n <> Some (BDerive i o')).
    { intros n o' Hnn. apply (Hu n o'). rewrite nth_error_snoc. pose proof (nth_error_lt _ _ _ Hnn).
      destruct (Nat.eqb_spec n (List.length pre)); [lia|exact Hnn]. }
    destruct (Nat.eqb_spec j (List.length pre)) as [->|Hjn]; [|eapply A5; eauto].
    exfalso. injection Hj as <-. assert (W : s_arr t < List.length h); [|lia].
    destruct (nth_error acc i) as [x|] eqn:Ex; [apply (A3 i t x Ht Ex)|].
    apply nth_error_None in Ex. apply nth_error_lt in Ht. lia.
Qed.

Lemma bappend_inv grow pre h hs acc i s c m os o h' s' : inv pre h hs acc ->
  nth_error hs i = Some s -> nth_error acc i = Some (c, m, os) ->
  ((exists c m, nth_error pre i = Some (BNew c m)) \/ (forall n o', nth_error pre n <> Some (BDerive i o'))) ->
  sappend grow h s (BOpt o) = (h', s') ->
  inv (pre ++ [BDerive i o]) h' (hs ++ [s']) (acc ++ [(c, m, os ++ [o])]).
Proof.
  intros [A1 A2 A3 A4 A5] Hs Ha Hd E.
  destruct (A3 i s _ Hs Ha) as (W & (c' & Hc & Hv)). unfold bview in Hv.
  destruct (sappend_spec _ _ _ _ _ _ E W) as (R & W' & F & L & C).
  assert (Hin : forall j t, nth_error hs j = Some t -> exists x, nth_error acc j = Some x).
  { intros j t Ht. apply nth_error_lt in Ht. destruct (nth_error acc j) eqn:Ex; [eauto|]. apply nth_error_None in Ex. lia. }
  (* slices of other handlers are not written *)
  assert (Hkeep : forall j t, nth_error hs j = Some t ->
            sread h' t = sread h t /\ swf h' t /\
            (List.length (arr h' (s_arr t)) = List.length (arr h (s_arr t)))).
  { intros j t Ht. destruct (Hin _ _ Ht) as (x & Hx). destruct (A3 j t x Ht Hx) as (Wt & _).
    destruct F as [Fl F]. destruct (F _ (proj1 Wt)) as (FL & _).
    assert (Hcase : s_arr t <> s_arr s \/ s_len t <= s_len s \/ s_len s = List.length (arr h (s_arr s))).
    { destruct (Nat.eq_dec (s_arr t) (s_arr s)) as [Eq|]; [right|left; assumption].
      destruct C as [(_ & Hlt & _)|(_ & Hfull)]; [left|right; exact Hfull].
      destruct Hd as [(c0 & m0 & Hp)|Hu]; [pose proof (A4 _ _ _ _ Hp Hs); lia|].
      destruct (Nat.eq_dec j i) as [->|Hji]; [assert (t = s) by congruence; subst; lia|].
      destruct (nth_error pre i) as [[c0 m0|j0 o0]|] eqn:Ep.
      - pose proof (A4 _ _ _ _ Ep Hs). lia.
      - pose proof (A5 i j0 o0 s Ep Hs Hu j t Ht Hji Eq). lia.
      - apply nth_error_None in Ep. apply nth_error_lt in Hs. lia. }
    split; [|split; [|exact FL]].
    - destruct Hcase as [Hne|[Hle|Hfull]].
      + apply (frame_read _ _ _ _ _ (conj Fl F) Wt). left. exact Hne.
      + apply (frame_read _ _ _ _ _ (conj Fl F) Wt). right. exact Hle.
      + destruct (Nat.eq_dec (s_arr t) (s_arr s)) as [Eq|Hne]; [|apply (frame_read _ _ _ _ _ (conj Fl F) Wt); left; exact Hne].
        apply (frame_read _ _ _ _ _ (conj Fl F) Wt). right. destruct Wt as [_ Wt]. rewrite Eq in Wt. lia.
    - destruct Wt as [Wt1 Wt2]. split; [lia|]. rewrite FL. exact Wt2. }
  constructor; try (rewrite !app_length; cbn; lia).
  - intros j t x. rewrite !nth_error_snoc, A1, A2. destruct (Nat.eqb_spec j (List.length pre)) as [->|Hn].
    + intros [= <-] [= <-]. split; [exact W'|]. exists c'. split; [exact Hc|]. unfold bview.
      rewrite R, Hv, map_app. reflexivity.
    + intros Ht Hx. destruct (A3 j t x Ht Hx) as (_ & Sh). destruct (Hkeep j t Ht) as (Rt & Wt & _).
      split; [exact Wt|]. destruct x as [[c0 m0] os0]. unfold shows, bview in *. rewrite Rt. exact Sh.
  - intros j t c0 m0. rewrite !nth_error_snoc, A1. destruct (Nat.eqb_spec j (List.length pre)) as [->|Hn]; [discriminate|].
    intros Hp Ht. destruct (Hkeep j t Ht) as (_ & _ & ->). eapply A4; eauto.
  - intros k j0 o0 t Hp Ht Hu j t' Hj Hjk Heq. rewrite nth_error_snoc in Hp. rewrite nth_error_snoc in Ht. rewrite nth_error_snoc in Hj. rewrite A1 in Ht, Hj.
    assert (Hu' : forall n o', nth_error pre n <> Some (BDerive k o')).
    { intros n o' Hnn. apply (Hu n o'). rewrite nth_error_snoc. pose proof (nth_error_lt _ _ _ Hnn).
      destruct (Nat.eqb_spec n (List.length pre)); [lia|exact Hnn]. }
    assert (Hki : k <> i).
    { intros ->. apply (Hu (List.length pre) o). rewrite nth_error_snoc, Nat.eqb_refl. reflexivity. }
    assert (Hold : forall j t, nth_error hs j = Some t -> s_arr t < List.length h).
    { intros q r Hr. destruct (Hin _ _ Hr) as (x & Hx). apply (A3 q r x Hr Hx). }
    destruct (Nat.eqb_spec k (List.length pre)) as [->|Hkn].
    + injection Ht as <-. destruct (Nat.eqb_spec j (List.length pre)) as [->|Hjn]; [congruence|].
      destruct C as [(Ea & Hlt & _)|(Ea & _)].
      * rewrite Ea in Heq. destruct (Nat.eq_dec j i) as [->|Hji]; [assert (t' = s) by congruence; subst; lia|].
        destruct Hd as [(c0 & m0 & Hp0)|Hud]; [pose proof (A4 _ _ _ _ Hp0 Hs); lia|].
        destruct (nth_error pre i) as [[c0 m0|j1 o1]|] eqn:Ep.
        -- pose proof (A4 _ _ _ _ Ep Hs). lia.
        -- pose proof (A5 i j1 o1 s Ep Hs Hud j t' Hj Hji Heq). lia.
        -- apply nth_error_None in Ep. apply nth_error_lt in Hs. lia.
      * pose proof (Hold _ _ Hj). lia.
    + destruct (Nat.eqb_spec j (List.length pre)) as [->|Hjn]; [|eapply A5; eauto].
      injection Hj as <-. destruct C as [(Ea & Hlt & _)|(Ea & _)]; [|pose proof (Hold _ _ Ht); lia].
      exfalso. rewrite Ea in Heq.
      pose proof (A5 k j0 o0 t Hp Ht Hu' i s Hs (not_eq_sym Hki) Heq) as H1.
      destruct Hd as [(c0 & m0 & Hp0)|Hud]; [pose proof (A4 _ _ _ _ Hp0 Hs); lia|].
      destruct (nth_error pre i) as [[c0 m0|j1 o1]|] eqn:Ep.
      * pose proof (A4 _ _ _ _ Ep Hs). lia.
      * pose proof (A5 i j1 o1 s Ep Hs Hud k t Ht Hki (eq_sym Heq)). lia.
      * apply nth_error_None in Ep. apply nth_error_lt in Hs. lia.
Qed.

Lemma brun_inv grow ops : forall pre h hs acc h' hs',
  inv pre h hs acc -> derived_once (pre ++ ops) -> brun grow h hs ops = Ok (h', hs') ->
  inv (pre ++ ops) h' hs' (describe acc ops).
Proof.
  induction ops as [|op ops IH]; intros pre h hs acc h' hs' Hi Hd E; cbn [brun describe] in *.
  - injection E as <- <-. rewrite app_nil_r. exact Hi.
  - replace (pre ++ op :: ops) with ((pre ++ [op]) ++ ops) in * by (rewrite <- app_assoc; reflexivity).
    destruct op as [c m|i o].
    + destruct (bnew h c m) as [h1 s] eqn:E1. eapply IH; [eapply bnew_inv; eauto|exact Hd|exact E].
    + destruct (nth_error hs i) as [s|] eqn:Es; [|discriminate].
      destruct (nth_error acc i) as [[[c m] os]|] eqn:Ea.
      2:{ apply nth_error_None in Ea. apply nth_error_lt in Es. destruct Hi. lia. }
      assert (Hud : (exists c m, nth_error pre i = Some (BNew c m)) \/ (forall n o', nth_error pre n <> Some (BDerive i o'))).
      { assert (Hip : i < List.length pre) by (apply nth_error_lt in Es; destruct Hi; lia).
        destruct (nth_error pre i) as [[c0 m0|j0 o0]|] eqn:Ep; [left; eauto|right|apply nth_error_None in Ep; lia].
        intros n o' Hn. destruct (Hd i n (List.length pre) o' o) as [(c0 & m0 & H)|H].
        - rewrite <- app_assoc, nth_error_app1 by (apply nth_error_lt in Hn; exact Hn). exact Hn.
        - rewrite <- app_assoc, nth_error_app2, Nat.sub_diag by lia. reflexivity.
        - rewrite <- app_assoc, nth_error_app1 in H by exact Hip. congruence.
        - apply nth_error_lt in Hn. lia. }
      unfold bderive in E.
      assert (Hgo : forall hx, inv pre hx hs acc -> forall x, sappend grow hx s (BOpt o) = x ->
                brun grow (fst x) (hs ++ [snd x]) ops = Ok (h', hs') ->
                inv ((pre ++ [BDerive i o]) ++ ops) h' hs' (describe (acc ++ [(c, m, os ++ [o])]) ops)).
      { intros hx Hix [h1 s1] Ex Er. eapply IH; [eapply bappend_inv; eauto|exact Hd|exact Er]. }
      destruct o as [n|fs|fs]; cbn [bind] in E.
      * destruct (sread h s) as [|[[c0|m0|o0]|] rest] eqn:Er; try discriminate.
        destruct (ensure_action c0 n) as [c1|] eqn:Ec; [|discriminate]. cbn [bind] in E.
        apply (Hgo (cell_set h (s_arr s) 0 (BCtl c1))) with (x := sappend grow (cell_set h (s_arr s) 0 (BCtl c1)) s (BOpt (OAction n))).
        -- eapply set_ctl_inv; [exact Hi| |exact Er|eapply ensure_same; exact Ec].
           apply (iv_show _ _ _ _ Hi i s _ Es Ea).
        -- reflexivity.
        -- destruct (sappend grow _ s _). exact E.
      * apply (Hgo h Hi (sappend grow h s (BOpt (OFilter fs)))); [reflexivity|]. destruct (sappend grow h s _). exact E.
      * apply (Hgo h Hi (sappend grow h s (BOpt (OExempt fs)))); [reflexivity|]. destruct (sappend grow h s _). exact E.
Qed.

Lemma inv_nil : inv [] [] [] [].
Proof. constructor; try reflexivity; intros [|i]; discriminate. Qed.
