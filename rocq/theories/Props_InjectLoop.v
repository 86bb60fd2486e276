(** Props_InjectLoop: C186, injectors whose parents form a circle *)
From Coq Require Import List ListDec Ascii String Bool Arith Lia Relations.
Import ListNotations.
From Verif Require Import GoStr InjectModel InjectFacts InjectWorld InjectSpec InjectHist InjectNear InjectMain Props_Inject.

(** from an injector that was given no provider of the slot to its parent *)
Definition asks_on (rh : list iop) (n : bytes) (a b : nat) : Prop := last_provided rh a n = None /\ parent_of rh a = Some b.
(** asking on leads into a circle of injectors none of which has a provider *)
Definition circle (rh : list iop) (i : nat) (n : bytes) : Prop :=
  exists k, clos_refl_trans nat (asks_on rh n) i k /\ clos_trans nat (asks_on rh n) k k.

Section Loop.
  Variables (rh : list iop) (w : world) (n : bytes).
  Hypothesis W : winv w.
  Hypothesis H : hist_inv rh w.
  Lemma up1_asks a b : up1 w n a = Some b <-> asks_on rh n a b.
  Proof using H.
    unfold up1, asks_on. pose proof (hi_val _ _ H a n) as V. rewrite <- (hi_par _ _ H a). destruct (last_provided rh a n) as [o|].
    - destruct V as (q & -> & _). split; [discriminate|intros (X & _); discriminate].
    - rewrite V. split; [auto|intros (_ & X); exact X].
  Qed.
  Lemma ups_asks m : forall a b, ups w n m a = Some b -> clos_refl_trans nat (asks_on rh n) a b.
  Proof using H.
    induction m as [|m IH]; intros a b; cbn [ups]; [intros [= <-]; apply rt_refl|]. destruct (up1 w n a) as [x|] eqn:E; [|discriminate].
    intros U. apply up1_asks in E. eapply rt_trans; [apply rt_step; exact E|apply IH; exact U].
  Qed.
  Lemma asks_ups a b : clos_refl_trans nat (asks_on rh n) a b -> exists m, ups w n m a = Some b.
  Proof using H.
    intros R. apply clos_rt_rt1n in R. induction R as [a|a x b Sx _ (m & IH)]; [exists 0; reflexivity|]. exists (S m). cbn [ups]. apply up1_asks in Sx. rewrite Sx. exact IH.
  Qed.
  Lemma circle_ups i : i < List.length (w_inj w) -> ups w n (List.length (w_inj w)) i <> None -> exists a p x, 0 < p /\ ups w n a i = Some x /\ ups w n p x = Some x.
  Proof using W.
    intros Hi Hn. set (N := List.length (w_inj w)) in *.
    set (c := fun k => match ups w n k i with Some j => j | None => 0 end).
    assert (Hc : forall k, k <= N -> ups w n k i = Some (c k)).
    { intros k Hk. unfold c. pose proof (ups_le w n k N i Hk Hn). destruct (ups w n k i); congruence. }
    destruct (NoDup_dec Nat.eq_dec (map c (seq 0 (S N)))) as [Hd|Hd].
    - exfalso. assert (Hincl : incl (map c (seq 0 (S N))) (seq 0 N)).
      { intros x Hx. apply in_map_iff in Hx as (k & <- & Hk). apply in_seq in Hk. apply in_seq.
        pose proof (ups_lt w n W k i (c k) Hi (Hc k ltac:(lia))) as X. fold N in X. lia. }
      pose proof (NoDup_incl_length Hd Hincl) as HL. rewrite map_length, !seq_length in HL. lia.
    - assert (X : forall m, m <= S N -> ~ NoDup (map c (seq 0 m)) -> exists a b, a < b /\ b < m /\ c a = c b).
      { induction m as [|m IHm]; intros Hm Hnd; [exfalso; apply Hnd; constructor|].
        destruct (NoDup_dec Nat.eq_dec (map c (seq 0 m))) as [Hd1|Hd1].
        - destruct (in_dec Nat.eq_dec (c m) (map c (seq 0 m))) as [Hin|Hin].
          + apply in_map_iff in Hin as (a & Ha & Hs). apply in_seq in Hs. exists a, m. lia.
          + exfalso. apply Hnd. rewrite seq_S, map_app. cbn [map Nat.add]. apply NoDup_app_ok; [exact Hd1|constructor; [intros []|constructor]|].
            intros x Hx [<-|[]]. contradiction.
        - destruct (IHm ltac:(lia) Hd1) as (a & b & H1 & H2 & H3). exists a, b. lia. }
      destruct (X (S N) ltac:(lia) Hd) as (a & b & H1 & H2 & He). exists a, (b - a), (c a). split; [lia|]. split; [apply Hc; lia|].
      pose proof (ups_add w n a (b - a) i) as HA. rewrite (Hc a) in HA by lia. replace (a + (b - a)) with b in HA by lia.
      rewrite Hc in HA by lia. rewrite He at 2. symmetry. exact HA.
  Qed.
  Lemma circle_loop i : i < List.length (w_inj w) -> (look_in w i n = Loop <-> circle rh i n).
  Proof using W H.
    intros Hi. unfold look_in. rewrite look_up_loop. split.
    - intros U. destruct (circle_ups i Hi (ups_le w n (List.length (w_inj w)) (S (List.length (w_inj w))) i (Nat.le_succ_diag_r _) U)) as (a & p & x & Hp & Ua & Ux).
      exists x. split; [eapply ups_asks; exact Ua|]. destruct p as [|p]; [lia|]. cbn [ups] in Ux. destruct (up1 w n x) as [y|] eqn:E; [|discriminate].
      apply up1_asks in E. apply clos_rt_t with (y := x); [apply rt_refl|]. apply ups_asks in Ux.
      apply clos_rt_rtn1 in Ux. clear Ua. assert (G : forall z, clos_refl_trans_n1 nat (asks_on rh n) y z -> clos_trans nat (asks_on rh n) x z).
      { intros z R. induction R as [|z z1 Sx R IH]; [apply t_step; exact E|]. eapply t_trans; [exact IH|apply t_step; exact Sx]. }
      exact (G x Ux).
    - intros (k & R & T). apply asks_ups in R as (m & Um).
      assert (P : exists p, 0 < p /\ ups w n p k = Some k).
      { apply clos_trans_t1n in T. assert (G : forall a b, clos_trans_1n nat (asks_on rh n) a b -> exists p, 0 < p /\ ups w n p a = Some b).
        { induction 1 as [a b Sx|a x b Sx _ (p & Hp & IH)].
          - exists 1. split; [lia|]. cbn [ups]. apply up1_asks in Sx. rewrite Sx. reflexivity.
          - exists (S p). split; [lia|]. cbn [ups]. apply up1_asks in Sx. rewrite Sx. exact IH. }
        exact (G k k T). }
      destruct P as (p & Hp & Up). apply (ups_le w n _ (m + S (List.length (w_inj w)))); [lia|]. rewrite ups_add, Um. apply (ups_cycle w n p); assumption.
  Qed.
End Loop.

Section Props.
  Variable asg : rtype -> rtype -> bool.
  Variable call : list callev -> nat -> list val -> option (nat -> option nat).
  Notation runs0 := (runs asg call world0).
  Notation exec := (exec_op asg call).
  (** every lookup of a slot meets a provider, or the end of the parents, or a circle, and only one of them *)
  Theorem C186_three_cases h obs w i n : runs0 h obs w -> i < List.length (w_inj w) ->
    (exists o, nearest (rev h) i n o /\ ~ nowhere (rev h) i n /\ ~ circle (rev h) i n) \/
    (nowhere (rev h) i n /\ (forall o, ~ nearest (rev h) i n o) /\ ~ circle (rev h) i n) \/
    (circle (rev h) i n /\ (forall o, ~ nearest (rev h) i n o) /\ ~ nowhere (rev h) i n).
  Proof.
    intros R Hi. pose proof (runs_winv _ _ _ _ _ _ winv0 R) as W. pose proof (runs0_hist _ _ _ _ _ R) as H.
    assert (A1 : forall o, nearest (rev h) i n o -> exists q, look_in w i n = Found q) by (intros o Ho; destruct (nearest_look _ _ W H i n o Hi Ho) as (q & Q & _); eauto).
    assert (A2 : nowhere (rev h) i n -> look_in w i n = Missing) by (intros Hn; exact (nowhere_look _ _ W H i n Hi Hn)).
    assert (A3 := circle_loop (rev h) w n W H i Hi).
    destruct (look_in w i n) as [q| |] eqn:E.
    - left. destruct (look_nearest _ _ H i n q E) as (o & Ho & _). exists o. split; [exact Ho|]. split; [intros X; apply A2 in X; discriminate|intros X; apply A3 in X; discriminate].
    - right. left. split; [|split; [intros o Ho; apply A1 in Ho as (q & Q); discriminate|intros X; apply A3 in X; discriminate]].
      clear A1 A2 A3 Hi R. unfold look_in in E. revert i E. generalize (S (List.length (w_inj w))) as f. induction f as [|f IH]; intros i; cbn [look_up]; [discriminate|].
      pose proof (hi_val _ _ H i n) as V. destruct (last_provided (rev h) i n) as [o|] eqn:El; [destruct V as (q & -> & _); discriminate|]. rewrite V, (hi_par _ _ H).
      destruct (parent_of (rev h) i) as [k|] eqn:Ep; intros E; [eapply nw_up; eauto|apply nw_root; assumption].
    - right. right. split; [apply A3; reflexivity|]. split; [intros o Ho; apply A1 in Ho as (q & Q); discriminate|intros X; apply A2 in X; discriminate].
  Qed.
  (** Exists runs for ever exactly in a circle; Find does so in a circle too, and neither changes anything *)
  Theorem C186_exists_hangs h obs w i t l fuel : runs0 h obs w -> i < List.length (w_inj w) ->
    fst (exec fuel w (PExists i t l)) = w /\ (snd (exec fuel w (PExists i t l)) = RDiv <-> circle (rev h) i (slot_name t l)).
  Proof.
    intros R Hi. pose proof (runs_winv _ _ _ _ _ _ winv0 R) as W. pose proof (runs0_hist _ _ _ _ _ R) as H.
    pose proof (circle_loop (rev h) w (slot_name t l) W H i Hi) as A3. cbn [exec_op]. unfold exists_op. fold (slot_name t l). cbv zeta.
    destruct (look_in w i (slot_name t l)) as [q| |]; cbn [fst snd].
    - assert (N : ~ circle (rev h) i (slot_name t l)) by (intros X; apply A3 in X; discriminate).
      destruct (p_kind (info_of w q)) as [v|]; cbn [fst snd]; (split; [reflexivity|]); (split; [|intros X; contradiction]); [destruct (assign_value asg v t); discriminate|discriminate].
    - split; [reflexivity|]. split; [discriminate|intros X; apply A3 in X; discriminate].
    - split; [reflexivity|]. split; [intros _; apply A3; reflexivity|reflexivity].
  Qed.
  Theorem C186_find_hangs h obs w i t l fuel : runs0 h obs w -> i < List.length (w_inj w) -> circle (rev h) i (slot_name t l) ->
    exec fuel w (PFind i t l) = (w, RDiv).
  Proof.
    intros R Hi C. pose proof (runs_winv _ _ _ _ _ _ winv0 R) as W. pose proof (runs0_hist _ _ _ _ _ R) as H.
    apply (circle_loop (rev h) w (slot_name t l) W H i Hi) in C. cbn [exec_op]. unfold find_op. fold (slot_name t l). cbv zeta. rewrite C. reflexivity.
  Qed.
  (** a circle is made exactly by parents: a slot one of its injectors provides is found through it *)
  Theorem C186_provided_is_found h obs w i n o : runs0 h obs w -> i < List.length (w_inj w) -> nearest (rev h) i n o -> ~ circle (rev h) i n.
  Proof. intros R Hi Ho. destruct (C186_three_cases h obs w i n R Hi) as [(x & _ & _ & C)|[(_ & N & _)|(_ & N & _)]]; [exact C|exfalso; exact (N o Ho)|exfalso; exact (N o Ho)]. Qed.
End Props.

(** two injectors that are each other's parents, one of which has a value *)
Definition circling : list iop := [PNew; PNew; PSetParent 0 1; PSetParent 1 0; PProvide 0 (OVal (Val (TPtr tT) (Some 3)) None [])].
Definition circling_w : world := match exec_all rt_eqb counting 20 world0 circling with Some (_, w) => w | None => world0 end.
Definition circling_seen : list iobs := match exec_all rt_eqb counting 20 world0 circling with Some (b, _) => b | None => [] end.
Example C186_example : runs rt_eqb counting world0 circling circling_seen circling_w /\ 1 < List.length (w_inj circling_w) /\
  circle (rev circling) 1 (slot_name (TPtr tT) (bs "x")) /\
  nearest (rev circling) 1 (slot_name (TPtr tT) []) (OVal (Val (TPtr tT) (Some 3)) None []) /\
  snd (exec_op rt_eqb counting 5 circling_w (PFind 1 (TPtr tT) [])) = RVal (ASet (Val (TPtr tT) (Some 3))).
Proof.
  split; [apply (exec_all_runs rt_eqb counting 20); vm_compute; reflexivity|]. split; [vm_compute; lia|].
  split; [exists 1; split; [apply rt_refl|]; apply t_trans with (y := 0); apply t_step; split; vm_compute; reflexivity|].
  split; [eapply nr_up with (k := 0); [vm_compute; reflexivity|vm_compute; reflexivity|apply nr_here; vm_compute; reflexivity]|vm_compute; reflexivity].
Qed.

Print Assumptions C186_three_cases.
Print Assumptions C186_exists_hangs.
Print Assumptions C186_find_hangs.
Print Assumptions C186_provided_is_found.
