(** Props_BuilderExact: exact form of C13 -- what MethodHandler builders do to
    one another, for every program of builder calls. *)
From Coq Require Import List Ascii String Bool Arith Lia.
Import ListNotations.
From Verif Require Import GoStr GoPath GoTy RouterModel SliceModel SliceFacts BuilderFacts Props_Router.

(** *** specification *)
(** the options registration would read from a handler *)
Definition opts_of (h : bheap) (s : slice) : list (option bcell) := skipn 2 (bview h s).
(** how slices grow: Go doubles them (up to 256 elements) *)
Definition doubling (n : nat) : nat := 2 * n.
Definition power_of_two (n : nat) : Prop := exists m, n = 2 ^ m.

(** *** invariant, for every growth policy *)
Definition inv1 (h : bheap) (hs : list slice) : Prop := forall s, In s hs -> swf h s /\ 2 <= s_len s.
Lemma set_nth_skipn {B} (l : list B) : forall n b, 2 <= n -> skipn 2 (set_nth n b l) = set_nth (n - 2) b (skipn 2 l).
Proof. intros n b H. destruct n as [|[|n]]; try lia. destruct l as [|x [|y l]]; cbn [set_nth skipn]; try reflexivity; [destruct n; reflexivity..|]. cbn. rewrite Nat.sub_0_r. reflexivity. Qed.
Lemma set_nth_firstn_gt {B} (l : list B) : forall n k b, n < k -> firstn k (set_nth n b l) = set_nth n b (firstn k l).
Proof. induction l as [|x l IH]; intros [|n] [|k] b H; cbn; try lia; try reflexivity. rewrite IH by lia. reflexivity. Qed.

Lemma sappend_view grow (h : bheap) s v h' s' t : sappend grow h s v = (h', s') -> swf h s -> swf h t ->
  sread h' t = if ((s_arr t =? s_arr s) && (s_len s <? s_len t))%bool then set_nth (s_len s) (Some v) (sread h t) else sread h t.
Proof.
  intros E Hs Ht. destruct (sappend_spec _ _ _ _ _ _ E Hs) as (_ & _ & F & _ & C).
  destruct (Nat.eqb_spec (s_arr t) (s_arr s)) as [Ha|Ha]; cbn [andb]; [|apply (frame_read _ _ _ _ _ F Ht); left; exact Ha].
  destruct (Nat.ltb_spec (s_len s) (s_len t)) as [Hl|Hl]; [|apply (frame_read _ _ _ _ _ F Ht); right; exact Hl].
  destruct Ht as (W1 & W2). rewrite Ha in W2. unfold sappend in E. destruct (Nat.ltb_spec (s_len s) (List.length (arr h (s_arr s)))); [|lia].
  injection E as <- <-. unfold sread, cell_set, arr at 1. rewrite set_nth_nth, Ha, Nat.eqb_refl. destruct (Nat.ltb_spec (s_arr s) (List.length h)); [|lia]. cbn [andb].
  apply set_nth_firstn_gt. exact Hl.
Qed.
Lemma cell0_view (h : bheap) a v t : swf h t -> 2 <= s_len t -> opts_of (cell_set h a 0 v) t = opts_of h t /\ swf (cell_set h a 0 v) t.
Proof.
  intros (W1 & W2) L. split; [|split; [unfold cell_set; rewrite set_nth_length; exact W1|rewrite cell_set_length; exact W2]].
  unfold opts_of, bview. rewrite cell_set0_read by exact W1. destruct (s_arr t =? a); [|reflexivity]. destruct (sread h t) as [|x l]; [reflexivity|]. reflexivity.
Qed.
Lemma bderive_step grow h hs s o h' s' : inv1 h hs -> In s hs -> bderive grow h s o = Ok (h', s') ->
  inv1 h' (hs ++ [s']) /\ opts_of h' s' = opts_of h s ++ [Some (BOpt o)] /\ s_len s' = S (s_len s) /\
  (forall t, In t hs -> opts_of h' t = if ((s_arr t =? s_arr s) && (s_len s <? s_len t))%bool then set_nth (s_len s - 2) (Some (BOpt o)) (opts_of h t) else opts_of h t) /\
  (forall t, In t hs -> List.length (arr h' (s_arr t)) = List.length (arr h (s_arr t))) /\
  (s_arr s' = s_arr s /\ s_len s < List.length (arr h (s_arr s)) \/
   s_arr s' = List.length h /\ s_len s = List.length (arr h (s_arr s)) /\ List.length (arr h' (s_arr s')) = Nat.max (S (s_len s)) (grow (s_len s))).
Proof.
  intros I Hs E.
  assert (X : exists h1, (forall t, In t hs -> opts_of h1 t = opts_of h t /\ swf h1 t) /\ List.length h1 = List.length h /\ (forall b, List.length (arr h1 b) = List.length (arr h b)) /\ sappend grow h1 s (BOpt o) = (h', s')).
  { assert (G : forall v, (forall t, In t hs -> opts_of (cell_set h (s_arr s) 0 v) t = opts_of h t /\ swf (cell_set h (s_arr s) 0 v) t)) by (intros v t Ht; destruct (I t Ht); apply cell0_view; assumption).
    unfold bderive in E. destruct o as [n|fs|fs].
    - destruct (sread h s) as [|[[c|m|o]|] r]; try discriminate. destruct (ensure_action c n) as [c'|]; [|discriminate]. cbn [bind RouterModel.bind] in E. injection E as E.
      eexists. split; [apply G|]. split; [unfold cell_set; apply set_nth_length|]. split; [intros b; apply cell_set_length|exact E].
    - injection E as E. exists h. split; [intros t Ht; split; [reflexivity|apply (I t Ht)]|]. auto.
    - injection E as E. exists h. split; [intros t Ht; split; [reflexivity|apply (I t Ht)]|]. auto. }
  clear E. destruct X as (h1 & V & L1 & C1 & E). destruct (V s Hs) as (Vs & Ws). destruct (sappend_spec _ _ _ _ _ _ E Ws) as (R & W' & F & Ln & C).
  pose proof (proj2 (I s Hs)) as Ls.
  split; [|split; [|split; [exact Ln|split; [|split]]]].
  - intros t Ht. apply in_app_iff in Ht as [Ht|[<-|[]]]; [|split; [exact W'|lia]]. split; [|apply (I t Ht)]. destruct (V t Ht) as (_ & (A & B)). destruct F as (Fl & F). destruct (F _ A) as (FL & _). split; [lia|]. rewrite FL. exact B.
  - unfold opts_of, bview in *. rewrite R. rewrite skipn_app. rewrite Vs. f_equal. replace (2 - List.length (sread h1 s)) with 0; [reflexivity|]. unfold sread. rewrite firstn_length_le by apply Ws. lia.
  - intros t Ht. destruct (V t Ht) as (Vt & Wt). unfold opts_of, bview in *. rewrite (sappend_view _ _ _ _ _ _ _ E Ws Wt). destruct ((s_arr t =? s_arr s) && (s_len s <? s_len t))%bool; [rewrite set_nth_skipn by exact Ls|]; congruence.
  - intros t Ht. destruct (V t Ht) as (_ & (A & _)). destruct F as (_ & F). destruct (F _ A) as (FL & _). rewrite FL. apply C1.
  - rewrite <- L1, <- !C1. destruct C as [(A & B & _)|(A & B)]; [left; auto|]. right. split; [exact A|]. split; [exact B|].
    unfold sappend in E. destruct (Nat.ltb_spec (s_len s) (List.length (arr h1 (s_arr s)))); [lia|]. destruct (smake_spec _ _ _ _ _ E) as (_ & _ & _ & _ & _ & _ & S7). rewrite S7, app_length. f_equal. cbn. unfold sread. rewrite firstn_length_le by apply Ws. lia.
Qed.
Lemma bnew_step h hs c m h' s' : inv1 h hs -> bnew h c m = (h', s') ->
  inv1 h' (hs ++ [s']) /\ s_len s' = 2 /\ s_arr s' = List.length h /\ List.length (arr h' (s_arr s')) = 2 /\
  forall t, In t hs -> List.length (arr h' (s_arr t)) = List.length (arr h (s_arr t)).
Proof.
  intros I E. destruct (smake_spec _ _ _ _ _ E) as (S1 & S2 & S3 & S4 & S5 & S6 & S7).
  assert (Q : forall t, In t hs -> List.length (arr h' (s_arr t)) = List.length (arr h (s_arr t))).
  { intros t Ht. destruct (I t Ht) as ((A & _) & _). destruct (S6 0 0) as (_ & F). apply (F _ A). }
  split; [|split; [exact S2|split; [exact S1|split; [rewrite S7; reflexivity|exact Q]]]].
  intros t Ht. apply in_app_iff in Ht as [Ht|[<-|[]]]; [|split; [exact S4|rewrite S2; cbn; lia]]. destruct (I t Ht) as ((A & B) & L). split; [|exact L]. split; [lia|rewrite Q by exact Ht; exact B].
Qed.
Lemma brun_inv1 grow ops : forall h hs h' hs', inv1 h hs -> brun grow h hs ops = Ok (h', hs') -> inv1 h' hs'.
Proof.
  induction ops as [|op ops IH]; intros h hs h' hs' I E; cbn [brun] in E; [injection E as <- <-; exact I|]. destruct op as [c m|i o].
  - destruct (bnew h c m) as [h1 s] eqn:E1. eapply IH; [|exact E]. eapply bnew_step; eauto.
  - destruct (nth_error hs i) as [s|] eqn:Es; [|discriminate]. destruct (bderive grow h s o) as [[h1 s1]|] eqn:E1; [|discriminate]. cbn [bind RouterModel.bind] in E. eapply IH; [|exact E]. eapply bderive_step; eauto using nth_error_In.
Qed.
Lemma inv1_nil : inv1 [] []. Proof. intros s []. Qed.

(** *** C13: one builder call, in every state any program of builder calls reaches, for every growth policy *)
(** It yields a handler with the receiver's options and the new one. Of the handlers made before, exactly those
    that share the receiver's array and are longer change: their option at the receiver's length becomes the new one. *)
Theorem C13_one_call grow ops h hs i o h' hs' : brun grow [] [] ops = Ok (h, hs) -> brun grow h hs [BDerive i o] = Ok (h', hs') ->
  exists s s', nth_error hs i = Some s /\ hs' = hs ++ [s'] /\ opts_of h' s' = opts_of h s ++ [Some (BOpt o)] /\
    forall t, In t hs -> opts_of h' t =
      if ((s_arr t =? s_arr s) && (s_len s <? s_len t))%bool then set_nth (s_len s - 2) (Some (BOpt o)) (opts_of h t) else opts_of h t.
Proof.
  intros E E2. pose proof (brun_inv1 _ _ _ _ _ _ inv1_nil E) as I. cbn [brun] in E2. destruct (nth_error hs i) as [s|] eqn:Es; [|discriminate].
  destruct (bderive grow h s o) as [[h1 s1]|] eqn:E1; [|discriminate]. cbn [bind RouterModel.bind] in E2. injection E2 as <- <-.
  destruct (bderive_step _ _ _ _ _ _ _ I (nth_error_In _ _ Es) E1) as (_ & A & _ & B & _). exists s, s1. auto.
Qed.

(** *** with Go's growth *)
Record inv2 (h : bheap) (hs : list slice) (acc : list (ctl * meth * list mopt)) : Prop := {
  j_1 : inv1 h hs;
  j_len : List.length hs = List.length acc;
  j_opts : forall i s c m os, nth_error hs i = Some s -> nth_error acc i = Some (c, m, os) -> s_len s = 2 + List.length os;
  j_cap : forall s, In s hs -> exists k, List.length (arr h (s_arr s)) = 2 ^ S k /\ 2 ^ k < s_len s }.
Lemma brun_inv2 ops : forall h hs acc h' hs', inv2 h hs acc -> brun doubling h hs ops = Ok (h', hs') -> inv2 h' hs' (describe acc ops).
Proof.
  induction ops as [|op ops IH]; intros h hs acc h' hs' I E; cbn [brun describe] in *; [injection E as <- <-; exact I|]. pose proof I as [J1 J2 J3 J4]. destruct op as [c m|i o].
  - destruct (bnew h c m) as [h1 s] eqn:E1. eapply IH; [|exact E]. destruct (bnew_step _ _ _ _ _ _ J1 E1) as (A & B & C & D & F). constructor.
    + exact A.
    + rewrite !app_length. cbn. lia.
    + intros k t c0 m0 os. rewrite !nth_error_snoc, J2. destruct (k =? List.length acc); [intros [= <-] [= _ _ <-]; exact B|apply J3].
    + intros t Ht. apply in_app_iff in Ht as [Ht|[<-|[]]]; [rewrite F by exact Ht; apply J4; exact Ht|]. exists 0. rewrite D, B. cbn. lia.
  - destruct (nth_error hs i) as [s|] eqn:Es; [|discriminate]. destruct (bderive doubling h s o) as [[h1 s1]|] eqn:E1; [|discriminate]. cbn [bind RouterModel.bind] in E.
    destruct (nth_error acc i) as [[[c m] os]|] eqn:Ea; [|apply nth_error_None in Ea; apply nth_error_lt in Es; lia]. eapply IH; [|exact E].
    pose proof (nth_error_In _ _ Es) as Hin. destruct (bderive_step _ _ _ _ _ _ _ J1 Hin E1) as (A & _ & L & _ & F & G). constructor.
    + exact A.
    + rewrite !app_length. cbn. lia.
    + intros k t c0 m0 os0. rewrite !nth_error_snoc, J2. destruct (k =? List.length acc); [|apply J3]. intros [= <-] [= _ _ <-]. rewrite L, (J3 _ _ _ _ _ Es Ea), app_length. cbn. lia.
    + intros t Ht. apply in_app_iff in Ht as [Ht|[<-|[]]]; [rewrite F by exact Ht; apply J4; exact Ht|]. destruct (J4 s Hin) as (k & K1 & K2). destruct (J1 s Hin) as (_ & L2).
      destruct G as [(G1 & G2)|(G1 & G2 & G3)]; [exists k; rewrite G1, F by exact Hin; split; [exact K1|lia]|]. exists (S k). rewrite G3, L, G2, K1. cbn [Nat.pow]. unfold doubling. cbn [Nat.pow] in K1. split; [pose proof (Nat.neq_0_lt_0 (2 ^ k)); assert (2 ^ k <> 0) by (apply Nat.pow_nonzero; lia); lia|lia].
Qed.
Lemma inv2_nil : inv2 [] [] []. Proof. constructor; [apply inv1_nil|reflexivity|intros [|i]; discriminate|intros s []]. Qed.
Lemma pow_between k n : 2 ^ k < n -> n <= 2 ^ S k -> (power_of_two n <-> n = 2 ^ S k).
Proof.
  intros A B. split; [|intros ->; exists (S k); reflexivity]. intros (m & ->). f_equal.
  assert (k < m) by (apply (Nat.pow_lt_mono_r_iff 2); [lia|exact A]). assert (m <= S k) by (apply (Nat.pow_le_mono_r_iff 2); [lia|exact B]). lia.
Qed.
(** Two handlers derived one after the other from one with k options: the first keeps its own option iff k + 2 is a
    power of two; otherwise it has the second's. *)
Theorem C13_used_twice ops h hs i c m os o1 o2 h' hs' :
  brun doubling [] [] ops = Ok (h, hs) -> nth_error (describe [] ops) i = Some (c, m, os) -> brun doubling h hs [BDerive i o1; BDerive i o2] = Ok (h', hs') ->
  exists s1 s2 old, hs' = hs ++ [s1; s2] /\ List.length old = List.length os /\
    opts_of h' s2 = old ++ [Some (BOpt o2)] /\
    (power_of_two (List.length os + 2) -> opts_of h' s1 = old ++ [Some (BOpt o1)]) /\
    (~ power_of_two (List.length os + 2) -> opts_of h' s1 = old ++ [Some (BOpt o2)]).
Proof.
  intros E Hd E2. pose proof (brun_inv2 _ _ _ _ _ _ inv2_nil E) as [J1 J2 J3 J4]. cbn [brun] in E2. destruct (nth_error hs i) as [s|] eqn:Es; [|discriminate].
  destruct (bderive doubling h s o1) as [[h1 s1]|] eqn:E1; [|discriminate]. cbn [bind RouterModel.bind] in E2.
  rewrite nth_error_app1 in E2 by (eapply nth_error_lt; exact Es). rewrite Es in E2.
  destruct (bderive doubling h1 s o2) as [[h2 s2]|] eqn:E3; [|discriminate]. cbn [bind RouterModel.bind] in E2. injection E2 as <- <-.
  pose proof (nth_error_In _ _ Es) as Hin. pose proof (J3 _ _ _ _ _ Es Hd) as Ls.
  destruct (bderive_step _ _ _ _ _ _ _ J1 Hin E1) as (I1 & A1 & L1 & B1 & C1 & D1).
  destruct (bderive_step _ _ _ _ _ _ _ I1 (in_or_app _ _ _ (or_introl Hin)) E3) as (_ & A2 & L2 & B2 & C2 & D2).
  assert (Os : opts_of h1 s = opts_of h s).
  { rewrite (B1 s Hin), Nat.eqb_refl. destruct (Nat.ltb_spec (s_len s) (s_len s)); [lia|reflexivity]. }
  exists s1, s2, (opts_of h s). rewrite <- app_assoc. split; [reflexivity|].
  assert (Lo : List.length (opts_of h s) = List.length os).
  { unfold opts_of, bview, sread. rewrite skipn_length, firstn_length_le by apply (J1 s Hin). lia. }
  split; [exact Lo|]. split; [rewrite A2, Os; reflexivity|].
  assert (In1 : In s1 (hs ++ [s1])) by (apply in_or_app; right; left; reflexivity). pose proof (B2 s1 In1) as X. rewrite A1 in X.
  destruct (J4 s Hin) as (k & K1 & K2). destruct (J1 s Hin) as ((W1 & W2) & _). rewrite K1 in W2.
  pose proof (pow_between k (s_len s) K2 W2) as P. replace (List.length os + 2) with (s_len s) by lia. rewrite P.
  destruct D1 as [(D1 & Sp)|(D1 & Fu & _)].
  - rewrite K1 in Sp. split; [lia|intros _]. rewrite X, D1, Nat.eqb_refl. destruct (Nat.ltb_spec (s_len s) (s_len s1)); [cbn [andb]|lia].
    replace (s_len s - 2) with (List.length (opts_of h s)) by lia. generalize (opts_of h s). intros l. induction l as [|x l IH]; [reflexivity|]. cbn. rewrite IH. reflexivity.
  - rewrite K1 in Fu. split; [intros _|lia]. rewrite X, D1. destruct (Nat.eqb_spec (List.length h) (s_arr s)) as [Q|Q]; [lia|reflexivity].
Qed.
(** both kinds of receivers exist *)
Example C13_twice_case : exists ops h hs, brun doubling [] [] ops = Ok (h, hs) /\ nth_error (describe [] ops) 1 = Some (fn 1, mGET, [OFilter [1]]) /\
  exists h' hs', brun doubling h hs [BDerive 1 (OFilter [2]); BDerive 1 (OFilter [3])] = Ok (h', hs') /\ ~ power_of_two (1 + 2) /\ power_of_two (0 + 2).
Proof.
  exists [BNew (fn 1) mGET; BDerive 0 (OFilter [1])]. do 2 eexists. split; [vm_compute; reflexivity|]. split; [vm_compute; reflexivity|]. do 2 eexists. split; [vm_compute; reflexivity|].
  split; [|exists 1; reflexivity]. intros (m & E). destruct m as [|[|m]]; cbn in E; try discriminate. pose proof (Nat.pow_nonzero 2 m). lia.
Qed.

Print Assumptions C13_one_call.
Print Assumptions C13_used_twice.
