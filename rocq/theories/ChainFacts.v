(** ChainFacts: proofs about ChainModel. *)
From Coq Require Import List Bool Arith ZArith Lia Sorting.Sorted.
Import ListNotations.
From Verif Require Import GoStr RespModel RespSpec RespFacts ChainModel.

(** the handlers started, oldest first *)
Definition starts_of (e : ev) : list (lvl * nat) := match e with EStart l i _ => [(l, i)] | _ => [] end.
Definition starts (tr : list ev) : list (lvl * nat) := flat_map starts_of (rev tr).
Lemma starts_app a b : starts (a ++ b) = starts b ++ starts a.
Proof. unfold starts. rewrite rev_app_distr, flat_map_app. reflexivity. Qed.
Lemma starts_cons e tr : starts (e :: tr) = starts tr ++ starts_of e.
Proof. change (e :: tr) with ([e] ++ tr). rewrite starts_app. unfold starts at 2. cbn. rewrite app_nil_r. reflexivity. Qed.

Lemma sorted_app {A} (R : A -> A -> Prop) a b :
  StronglySorted R a -> StronglySorted R b -> (forall x y, In x a -> In y b -> R x y) -> StronglySorted R (a ++ b).
Proof.
  induction 1 as [|x a S IH F]; intros Hb H; cbn; [exact Hb|]. constructor.
  - apply IH; [exact Hb|]. intros u v Hu Hv. apply H; [right|]; assumption.
  - apply Forall_app. split; [exact F|]. apply Forall_forall. intros v Hv. apply H; [left; reflexivity|exact Hv].
Qed.

Definition plt (a b : nat * nat) : Prop := fst a < fst b \/ (fst a = fst b /\ snd a < snd b).

Section Conn.
  Variable accept : list wev -> bytes -> nat.

  Lemma do_op_shape o s : fst (oval (do_op accept o s)) = fst s /\ w_tr (snd (oval (do_op accept o s))) = EOp o :: w_tr (snd s) /\
     w_rw (snd (oval (do_op accept o s))) = oval (run_op accept o (w_rw (snd s))).
  Proof. unfold do_op. cbn [note w_rw w_tr]. destruct (run_op accept o (w_rw (snd s))); cbn; auto. Qed.

  (** *** order of starts *)
  Section Order.
    Variable pos : lvl * nat -> nat * nat.
    Variable okst : lvl * nat -> Prop.
    Definition Runs (s : st) (o : out st) : Prop :=
      exists d, w_tr (snd (oval o)) = d ++ w_tr (snd s) /\ fst s <= fst (oval o) /\
        StronglySorted plt (map pos (starts d)) /\
        Forall (fun p => fst s <= fst (pos p) <= fst (oval o) /\ okst p) (starts d).
    Definition Hx (s : st) (o : out st) : Prop :=
      exists d, w_tr (snd (oval o)) = d ++ w_tr (snd s) /\ fst s <= fst (oval o) /\
        StronglySorted plt (map pos (starts d)) /\
        Forall (fun p => fst s < fst (pos p) <= fst (oval o) /\ okst p) (starts d).
    Definition Hands (s : st) (o : out st) : Prop :=
      exists d, w_tr (snd (oval o)) = d ++ w_tr (snd s) /\ fst s <= fst (oval o) /\
        StronglySorted plt (map pos (starts d)) /\
        Forall (fun p => plt (fst s, 0) (pos p) /\ fst (pos p) <= fst (oval o) /\ okst p) (starts d).
    Lemma Hx_Hands s o : Hx s o -> Hands s o.
    Proof.
      intros (d & A & B & C & D). exists d. repeat split; auto. eapply Forall_impl; [|exact D]. cbn. intros p [H ?]. split; [left; cbn; lia|split; [lia|assumption]].
    Qed.
    Lemma Hx_same (s s' : st) : fst s' = fst s -> w_tr (snd s') = w_tr (snd s) -> forall o : out st, oval o = s' -> Hx s o.
    Proof. intros A B o E. exists []. rewrite E, A, B. repeat split; auto; constructor. Qed.
    Lemma Hx_refl (s : st) : forall o : out st, oval o = s -> Hx s o.
    Proof. intros o E. apply (Hx_same s s); auto. Qed.
    Lemma Hx_trans s x o : Hx s (Done x) -> Hx x o -> Hx s o.
    Proof.
      intros (d & A & B & C & D) (d' & A' & B' & C' & D'). cbn [oval] in *. exists (d' ++ d). rewrite A', A, app_assoc. split; [reflexivity|]. split; [lia|].
      rewrite starts_app, map_app. split.
      - apply sorted_app; auto. intros p q Hp Hq. apply in_map_iff in Hp as (p0 & <- & Hp). apply in_map_iff in Hq as (q0 & <- & Hq).
        rewrite Forall_forall in D, D'. specialize (D _ Hp). specialize (D' _ Hq). left. lia.
      - apply Forall_app. split; eapply Forall_impl; [|exact D| |exact D']; cbn; intros p [H ?]; (split; [lia|assumption]).
    Qed.
    Lemma Hx_bind s x f : Hx s x -> (forall a, Hx a (f a)) -> Hx s (obind x f).
    Proof. intros H G. destruct x; cbn [obind] in *; auto. eapply Hx_trans; eauto. Qed.
    Lemma exec_order next : (forall s, Runs s (next s)) -> forall a s, Hx s (exec accept a next s).
    Proof.
      intros Hn. induction a as [|o k IH|k IH|k IH|v|b IHb r IHr k IHk]; intros s; cbn [exec].
      - apply Hx_refl. reflexivity.
      - apply Hx_bind; [|exact IH]. destruct (do_op_shape o s) as (A & B & _). exists [EOp o]. rewrite A, B. repeat split; auto; constructor.
      - apply IH.
      - apply Hx_bind; [|exact IH]. destruct (Hn (S (fst s), note (snd s) ENext)) as (d & A & B & C & D). cbn [fst snd note w_tr] in *.
        exists (d ++ [ENext]). rewrite A, <- app_assoc. split; [reflexivity|]. split; [lia|]. rewrite starts_app. cbn [starts rev app flat_map starts_of].
        split; [exact C|]. eapply Forall_impl; [|exact D]. cbn. intros p [H ?]. split; [lia|assumption].
      - apply Hx_refl. reflexivity.
      - specialize (IHb s). destruct (exec accept b next s) as [s'|v s'|s'].
        + eapply Hx_trans; [exact IHb|apply IHk].
        + eapply Hx_trans; [exact IHb|apply IHr].
        + exact IHb.
    Qed.
    Lemma Runs_ge s s' o : fst s <= fst s' -> w_tr (snd s') = w_tr (snd s) -> Runs s' o -> Runs s o.
    Proof. intros A B (d & E & F & G & H). exists d. rewrite E, B. repeat split; auto; [lia|]. eapply Forall_impl; [|exact H]. cbn. intros p [? ?]. split; [lia|assumption]. Qed.
    Variable l : lvl.
    Hypothesis pos_l : forall i, pos (l, i) = (i, 0).
    Definition hgood (i : nat) (h : hsem) : Prop := forall next s, fst s = i -> (forall s, Runs s (next s)) -> Hands s (h next s).
    Lemma run_order c : (forall i h, ch_handler c i = Some h -> hgood i h /\ okst (l, i)) ->
      forall fuel s, Runs s (run l c fuel s).
    Proof.
      intros Hc. induction fuel as [|f IH]; intros [i w]; cbn [run].
      - exists []. cbn. repeat split; auto; constructor.
      - destruct (Nat.leb i (ch_len c)) eqn:El; [|exists []; cbn; repeat split; auto; constructor].
        destruct (ch_handler c i) as [h|] eqn:Eh.
        2:{ eapply Runs_ge; [| |apply IH]; cbn; auto. }
        destruct (Hc _ _ Eh) as [Hg Hok].
        destruct (Hg (run l c f) (i, note w (EStart l i (written (w_rw w)))) eq_refl IH) as (d & A & B & C & D). cbn [fst snd note w_tr] in *.
        assert (R0 : Runs (i, w) (h (run l c f) (i, note w (EStart l i (written (w_rw w)))))).
        { exists (d ++ [EStart l i (written (w_rw w))]). rewrite A, <- app_assoc. split; [reflexivity|]. split; [exact B|].
          rewrite starts_app. cbn [starts rev app flat_map starts_of]. split.
          - cbn [map]. constructor; [exact C|]. apply Forall_forall. intros p Hp. apply in_map_iff in Hp as (q & <- & Hq).
            rewrite Forall_forall in D. rewrite pos_l. apply (D _ Hq).
          - constructor; [rewrite pos_l; cbn; split; [lia|exact Hok]|]. eapply Forall_impl; [|exact D]. cbn. intros p (P & Q & R). split; [|exact R].
            unfold plt in P. cbn in P. lia. }
        destruct (h (run l c f) _) as [s'|v s'|s']; cbn [obind]; try exact R0.
        destruct R0 as (d0 & A0 & B0 & C0 & D0). cbn [oval fst snd] in *.
        destruct (written (w_rw (snd s'))).
        + exists d0. cbn. rewrite A0. split; [reflexivity|]. split; [lia|]. split; [exact C0|]. eapply Forall_impl; [|exact D0]. cbn. intros p [? ?]. split; [lia|assumption].
        + destruct (IH (S (fst s'), snd s')) as (d1 & A1 & B1 & C1 & D1). cbn [fst snd] in *.
          exists (d1 ++ d0). cbn [fst snd] in *. rewrite A1, A0, app_assoc. split; [reflexivity|]. split; [lia|]. rewrite starts_app, map_app. split.
          * apply sorted_app; auto. intros p q Hp Hq. apply in_map_iff in Hp as (p0 & <- & Hp). apply in_map_iff in Hq as (q0 & <- & Hq).
            rewrite Forall_forall in D0, D1. specialize (D0 _ Hp). specialize (D1 _ Hq). left. lia.
          * apply Forall_app. split; eapply Forall_impl; [|exact D0| |exact D1]; cbn; intros p [? ?]; (split; [lia|assumption]).
    Qed.
  End Order.

  (** which handlers exist *)
  Definition present {A} (fs : list (option A)) (i : nat) : Prop := exists a, nth_error fs i = Some (Some a).
  Lemma handler_inner rc i h : ch_handler (inner_chain accept rc) i = Some h ->
    (exists a, h = exec accept a) /\ (present (rc_filters rc) i \/ i = List.length (rc_filters rc) /\ rc_action rc <> None).
  Proof.
    unfold ch_handler, ch_len, inner_chain. cbn [ch_filters ch_action]. rewrite map_length.
    destruct (Nat.ltb i (List.length (rc_filters rc))) eqn:E.
    - rewrite nth_error_map. destruct (nth_error (rc_filters rc) i) as [[a|]|] eqn:En; cbn; try discriminate.
      intros [= <-]. split; [eauto|]. left. exists a. exact En.
    - destruct (Nat.eqb i (List.length (rc_filters rc))) eqn:E2; [|discriminate]. apply Nat.eqb_eq in E2.
      destruct (rc_action rc) as [a|]; cbn; [|discriminate]. intros [= <-]. split; [eauto|]. right. split; [exact E2|discriminate].
  Qed.
  Lemma handler_outer fs rc i h : ch_handler (app_chain accept fs rc) i = Some h ->
    ((exists a, h = exec accept a) /\ present fs i /\ i < List.length fs) \/ (i = List.length fs /\ h = route_handler accept rc).
  Proof.
    unfold ch_handler, ch_len, app_chain. cbn [ch_filters ch_action]. rewrite map_length.
    destruct (Nat.ltb i (List.length fs)) eqn:E.
    - apply Nat.ltb_lt in E. rewrite nth_error_map. destruct (nth_error fs i) as [[a|]|] eqn:En; cbn; try discriminate.
      intros [= <-]. left. split; [eauto|]. split; [exists a; exact En|exact E].
    - destruct (Nat.eqb i (List.length fs)) eqn:E2; [|discriminate]. apply Nat.eqb_eq in E2. intros [= <-]. right. auto.
  Qed.

  Definition pos_in (p : lvl * nat) : nat * nat := (snd p, 0).
  Definition pos_out (n : nat) (p : lvl * nat) : nat * nat := match p with (Outer, i) => (i, 0) | (Inner, j) => (n, S j) end.
  Definition valid (fs : list (option act)) (rc : route_chain) (p : lvl * nat) : Prop :=
    match p with
    | (Outer, i) => present fs i \/ i = List.length fs
    | (Inner, j) => present (rc_filters rc) j \/ j = List.length (rc_filters rc) /\ rc_action rc <> None
    end.
  Lemma inner_order fs rc fuel s : Runs pos_in (fun p => fst p = Inner /\ valid fs rc p) s (run Inner (inner_chain accept rc) fuel s).
  Proof.
    apply run_order; [reflexivity|]. intros i h Hh. destruct (handler_inner rc i h Hh) as [[a ->] Hv]. split; [|split; [reflexivity|exact Hv]].
    intros next s0 E Hn. apply Hx_Hands, exec_order, Hn.
  Qed.
  Lemma sorted_map_weaken {A B} (R : A -> A -> Prop) (f g : B -> A) (l : list B) :
    (forall x y, In x l -> In y l -> R (f x) (f y) -> R (g x) (g y)) -> StronglySorted R (map f l) -> StronglySorted R (map g l).
  Proof.
    induction l as [|x l IH]; cbn; intros H S; [constructor|]. inversion S as [|? ? S1 F]; subst. constructor.
    - apply IH; auto.
    - apply Forall_forall. intros y Hy. apply in_map_iff in Hy as (z & <- & Hz). apply H; auto. rewrite Forall_forall in F. apply F, in_map, Hz.
  Qed.
  Lemma route_good fs rc : hgood (pos_out (List.length fs)) (valid fs rc) (List.length fs) (route_handler accept rc).
  Proof.
    intros next s E _. unfold route_handler.
    destruct (inner_order fs rc (S (S (ch_len (inner_chain accept rc)))) (0, snd s)) as (d & A & B & C & D).
    unfold start. set (o := run Inner _ _ _) in *.
    exists d. assert (Hf : forall p, In p (starts d) -> exists j, p = (Inner, j)).
    { intros [lv j] Hp. rewrite Forall_forall in D. destruct (D _ Hp) as (_ & F & _). cbn in F. subst. eauto. }
    assert (C' : StronglySorted plt (map (pos_out (List.length fs)) (starts d))).
    { eapply sorted_map_weaken; [|exact C]. intros x y Hx0 Hy0. destruct (Hf x Hx0) as [j ->]. destruct (Hf y Hy0) as [k ->].
      unfold plt. cbn. lia. }
    assert (D' : Forall (fun p => plt (fst s, 0) (pos_out (List.length fs) p) /\ fst (pos_out (List.length fs) p) <= fst s /\ valid fs rc p) (starts d)).
    { apply Forall_forall. intros p Hp. rewrite Forall_forall in D. destruct (D p Hp) as (_ & _ & Hv). destruct (Hf p Hp) as [j ->].
      cbn [pos_out]. rewrite E. split; [right; cbn; lia|]. split; [cbn; lia|exact Hv]. }
    destruct o; cbn [oval fst snd] in *; auto.
  Qed.
  Lemma outer_order fs rc fuel s : Runs (pos_out (List.length fs)) (valid fs rc) s (run Outer (app_chain accept fs rc) fuel s).
  Proof.
    apply run_order; [reflexivity|]. intros i h Hh. destruct (handler_outer fs rc i h Hh) as [([a ->] & Hv & Hi)|[-> ->]].
    - split; [|left; exact Hv]. intros next s0 E Hn. apply Hx_Hands, exec_order, Hn.
    - split; [apply route_good|right; reflexivity].
  Qed.

  (** *** chains that nobody stops *)
  Definition silent_op (o : op) : Prop := match o with OWriteHeader _ | OWrite _ => False | _ => True end.
  Fixpoint silent (a : act) : Prop :=
    match a with
    | ARet => True
    | AOp o k => silent_op o /\ silent k
    | ASee k => forall x y z, silent (k x y z)
    | ANext k => silent k
    | APanic _ => False
    | ATry b _ k => silent b /\ silent k
    end.
  Definition unwr (s : st) : Prop := written (w_rw (snd s)) = false.
  Definition sts (s : st) : list (lvl * nat) := starts (w_tr (snd s)).
  Lemma silent_op_done o s : silent_op o -> unwr s -> exists s', do_op accept o s = Done s' /\ fst s' = fst s /\ unwr s' /\ sts s' = sts s.
  Proof.
    intros Ho Hu. unfold do_op. cbn [note w_rw w_tr].
    destruct o; cbn in Ho; try contradiction; cbn [run_op]; eexists; (split; [reflexivity|]); (split; [reflexivity|]); unfold unwr, sts in *; cbn [snd w_rw w_tr];
      (split; [|rewrite starts_cons; cbn; apply app_nil_r]).
    - exact Hu.
    - unfold flush, u_flush. destruct (r_hij (w_rw (snd s))), (r_sent (w_rw (snd s))); exact Hu.
    - destruct ok; exact Hu.
  Qed.
  Section Silent.
    Variable n : nat.
    Variable exp : nat -> list (lvl * nat).
    Hypothesis exp_end : forall k, n < k -> exp k = [].
    Definition next_spec (m : nat) (next : st -> out st) : Prop := forall s, m <= fst s -> unwr s ->
      exists s', next s = Done s' /\ n < fst s' /\ fst s <= fst s' /\ unwr s' /\ sts s' = sts s ++ exp (fst s).
    Lemma exec_silent next a : silent a -> forall s, next_spec (S (fst s)) next -> unwr s -> exists s', exec accept a next s = Done s' /\ unwr s' /\
      (fst s' = fst s /\ sts s' = sts s \/ n < fst s' /\ fst s <= fst s' /\ sts s' = sts s ++ exp (S (fst s))).
    Proof.
      assert (G : forall a, silent a -> forall m s, m <= fst s -> next_spec (S m) next -> unwr s -> exists s', exec accept a next s = Done s' /\ unwr s' /\
        (fst s' = fst s /\ sts s' = sts s \/ n < fst s' /\ m <= fst s' /\ sts s' = sts s ++ exp (S (fst s)))).
      2:{ intros Ha s Hn Hu. exact (G a Ha (fst s) s (le_n _) Hn Hu). }
      induction a0 as [|o k IH|k IH|k IH|v|b IHb r IHr k IHk]; cbn [silent exec]; intros Ha m s Hm Hn Hu.
      - exists s. auto.
      - destruct Ha as [Ho Hk]. destruct (silent_op_done o s Ho Hu) as (s1 & E1 & F1 & U1 & S1). rewrite E1. cbn [obind].
        destruct (IH Hk m s1 ltac:(lia) Hn U1) as (s2 & E2 & U2 & C2). exists s2. split; [exact E2|]. split; [exact U2|]. rewrite F1, S1 in C2. exact C2.
      - apply IH; auto.
      - destruct (Hn (S (fst s), note (snd s) ENext)) as (s1 & E1 & F1 & G1 & U1 & S1); [cbn; lia|exact Hu|]. cbn [fst] in G1. rewrite E1. cbn [obind].
        cbn [fst] in S1. unfold sts in S1 at 2. cbn [snd note w_tr] in S1. rewrite starts_cons in S1. cbn [starts_of] in S1. rewrite app_nil_r in S1.
        fold (sts s) in S1.
        destruct (IH Ha m s1 ltac:(lia) Hn U1) as (s2 & E2 & U2 & C2). exists s2. split; [exact E2|]. split; [exact U2|]. right.
        destruct C2 as [[A B]|(A & B & C)].
        + rewrite A, B, S1. repeat split; auto. lia.
        + rewrite C, S1, (exp_end (S (fst s1))), app_nil_r by lia. auto.
      - contradiction.
      - destruct Ha as [Hb Hk]. destruct (IHb Hb m s Hm Hn Hu) as (s1 & E1 & U1 & C1). rewrite E1.
        destruct C1 as [[A B]|(A & B & C)].
        + destruct (IHk Hk m s1 ltac:(lia) Hn U1) as (s2 & E2 & U2 & C2). exists s2. split; [exact E2|]. split; [exact U2|]. rewrite A, B in C2. exact C2.
        + destruct (IHk Hk m s1 B Hn U1) as (s2 & E2 & U2 & C2). exists s2. split; [exact E2|]. split; [exact U2|]. right.
          destruct C2 as [[A2 B2]|(A2 & B2 & C2)].
          * rewrite A2, B2. auto.
          * rewrite C2, C, (exp_end (S (fst s1))), app_nil_r by lia. auto.
    Qed.
  End Silent.
  (** expected starts of a chain from index k on; [sub j] is what handler j itself starts *)
  Section SilentRun.
    Variable l : lvl.
    Variable c : chain.
    Variable sub : nat -> list (lvl * nat).
    Definition exp_at (j : nat) : list (lvl * nat) := match ch_handler c j with Some _ => (l, j) :: sub j | None => [] end.
    Definition exp_from (k : nat) : list (lvl * nat) := flat_map exp_at (seq k (S (ch_len c) - k)).
    Lemma exp_from_end k : ch_len c < k -> exp_from k = [].
    Proof. intros H. unfold exp_from. replace (S (ch_len c) - k) with 0 by lia. reflexivity. Qed.
    Lemma exp_from_step k : k <= ch_len c -> exp_from k = exp_at k ++ exp_from (S k).
    Proof. intros H. unfold exp_from. replace (S (ch_len c) - k) with (S (S (ch_len c) - S k)) by lia. reflexivity. Qed.
    Definition hsilent (i : nat) (h : hsem) : Prop := forall next s, fst s = i -> next_spec (ch_len c) exp_from (S i) next -> unwr s ->
      exists s', h next s = Done s' /\ unwr s' /\
        (fst s' = i /\ sts s' = sts s ++ sub i \/ ch_len c < fst s' /\ i <= fst s' /\ sts s' = sts s ++ sub i ++ exp_from (S i)).
    Lemma run_silent : (forall i h, ch_handler c i = Some h -> hsilent i h) ->
      forall fuel m, ch_len c + 2 <= fuel + m -> 1 <= fuel -> next_spec (ch_len c) exp_from m (run l c fuel).
    Proof.
      intros Hc. induction fuel as [|f IH]; intros m Hf H1 [i w] Hm Hu; [lia|]. cbn [run fst] in *.
      destruct (Nat.leb i (ch_len c)) eqn:El.
      2:{ apply Nat.leb_gt in El. exists (i, w). cbn [fst]. rewrite exp_from_end, app_nil_r by exact El. auto. }
      apply Nat.leb_le in El.
      assert (IH' : forall k, S i <= k -> next_spec (ch_len c) exp_from k (run l c f)) by (intros k Hk; apply IH; lia).
      rewrite exp_from_step by exact El. unfold exp_at. destruct (ch_handler c i) as [h|] eqn:Eh.
      - set (s1 := (i, note w (EStart l i (written (w_rw w))))).
        assert (U1 : unwr s1) by exact Hu.
        assert (S1 : sts s1 = sts (i, w) ++ [(l, i)]) by (unfold s1, sts; cbn [snd note w_tr]; rewrite starts_cons; reflexivity).
        destruct (Hc i h Eh (run l c f) s1 eq_refl (IH' _ (le_n _)) U1) as (s2 & E2 & U2 & C2). rewrite E2. cbn [obind fst snd].
        assert (Wf : written (w_rw (snd s2)) = false) by exact U2. rewrite Wf.
        destruct (IH' (S (fst s2)) ltac:(destruct C2; lia) (S (fst s2), snd s2) (le_n _) U2) as (s3 & E3 & F3 & G3 & U3 & S3).
        exists s3. split; [exact E3|]. split; [exact F3|]. cbn [fst] in *. split; [destruct C2; lia|]. split; [exact U3|]. rewrite S3.
        change (sts (S (fst s2), snd s2)) with (sts s2). destruct C2 as [[A B]|(A & B & C)].
        + rewrite B, S1, A. rewrite <- !app_assoc. reflexivity.
        + rewrite C, S1, (exp_from_end (S (fst s2))), app_nil_r by lia. rewrite <- !app_assoc. reflexivity.
      - destruct (IH' (S i) (le_n _) (S i, w) (le_n _) Hu) as (s3 & E3 & F3 & G3 & U3 & S3). exists s3. cbn [fst] in *.
        split; [exact E3|]. split; [exact F3|]. split; [lia|]. split; [exact U3|]. rewrite S3. reflexivity.
    Qed.
  End SilentRun.

  Definition opt_all (P : act -> Prop) (o : option act) : Prop := match o with Some a => P a | None => True end.
  Lemma handler_all (P : act -> Prop) fs a i h : Forall (opt_all P) fs -> opt_all P a ->
    ch_handler (Ch (map (option_map (exec accept)) fs) (option_map (exec accept) a)) i = Some h -> exists x, h = exec accept x /\ P x.
  Proof.
    intros Hf Ha. unfold ch_handler, ch_len. cbn [ch_filters ch_action]. destruct (Nat.ltb _ _).
    - rewrite nth_error_map. destruct (nth_error fs i) as [[x|]|] eqn:E; cbn; try discriminate. intros [= <-]. exists x. split; [reflexivity|].
      rewrite Forall_forall in Hf. exact (Hf _ (nth_error_In _ _ E)).
    - destruct (Nat.eqb _ _); [|discriminate]. destruct a as [x|]; cbn; [|discriminate]. intros [= <-]. exists x. auto.
  Qed.
  Lemma handler_outer_all (P : act -> Prop) fs rc i h : Forall (opt_all P) fs ->
    ch_handler (app_chain accept fs rc) i = Some h -> (exists x, h = exec accept x /\ P x /\ i < List.length fs) \/ (i = List.length fs /\ h = route_handler accept rc).
  Proof.
    intros Hf. unfold ch_handler, ch_len, app_chain. cbn [ch_filters ch_action]. rewrite map_length. destruct (Nat.ltb i _) eqn:El.
    - rewrite nth_error_map. destruct (nth_error fs i) as [[x|]|] eqn:E; cbn; try discriminate. intros [= <-]. left. exists x. split; [reflexivity|].
      rewrite Forall_forall in Hf. split; [exact (Hf _ (nth_error_In _ _ E))|]. apply Nat.ltb_lt, El.
    - destruct (Nat.eqb _ _) eqn:E2; [|discriminate]. intros [= <-]. right. split; [apply Nat.eqb_eq, E2|reflexivity].
  Qed.

  Definition no_sub : nat -> list (lvl * nat) := fun _ => [].
  Lemma inner_silent rc : Forall (opt_all silent) (rc_filters rc) -> opt_all silent (rc_action rc) ->
    forall w, written (w_rw w) = false -> exists s', start Inner (inner_chain accept rc) w = Done s' /\ unwr s' /\
      sts s' = starts (w_tr w) ++ exp_from Inner (inner_chain accept rc) no_sub 0.
  Proof.
    intros Hf Ha w Hw. unfold start.
    destruct (run_silent Inner (inner_chain accept rc) no_sub) with (fuel := S (S (ch_len (inner_chain accept rc)))) (m := 0) (s := (0, w))
      as (s' & E & F & G & U & S); try lia; [|exact Hw|].
    - intros i h Hh. destruct (handler_all silent _ _ _ _ Hf Ha Hh) as (x & -> & Hx0). intros next s Es Hn Hu.
      rewrite <- Es in Hn. destruct (exec_silent _ _ (exp_from_end _ _ _) next x Hx0 s Hn Hu) as (s' & E & U & C). exists s'. rewrite Es in C.
      split; [exact E|]. split; [exact U|]. unfold no_sub. rewrite app_nil_r. exact C.
    - exists s'. split; [exact E|]. split; [exact U|exact S].
  Qed.
  Definition outer_sub (fs : list (option act)) (rc : route_chain) : nat -> list (lvl * nat) :=
    fun i => if Nat.eqb i (List.length fs) then exp_from Inner (inner_chain accept rc) no_sub 0 else [].
  Lemma app_len fs rc : ch_len (app_chain accept fs rc) = List.length fs.
  Proof. unfold ch_len, app_chain. cbn. apply map_length. Qed.
  Lemma outer_silent fs rc : Forall (opt_all silent) fs -> Forall (opt_all silent) (rc_filters rc) -> opt_all silent (rc_action rc) ->
    exists s', serve_chain accept fs rc = Done s' /\ unwr s' /\
      sts s' = exp_from Outer (app_chain accept fs rc) (outer_sub fs rc) 0.
  Proof.
    intros Hf Hr Ha. unfold serve_chain, start.
    destruct (run_silent Outer (app_chain accept fs rc) (outer_sub fs rc)) with (fuel := S (S (ch_len (app_chain accept fs rc)))) (m := 0) (s := (0, w0))
      as (s' & E & F & G & U & S); try lia; [|reflexivity|].
    - intros i h Hh. destruct (handler_outer_all silent _ _ _ _ Hf Hh) as [(x & -> & Hx0 & Hi)|[-> ->]]; intros next s Es Hn Hu.
      + rewrite <- Es in Hn. destruct (exec_silent _ _ (exp_from_end _ _ _) next x Hx0 s Hn Hu) as (s' & E & U & C). exists s'. rewrite Es in C.
        split; [exact E|]. split; [exact U|]. unfold outer_sub. replace (Nat.eqb i (List.length fs)) with false by (symmetry; apply Nat.eqb_neq; lia).
        rewrite app_nil_r. exact C.
      + unfold route_handler. destruct (inner_silent rc Hr Ha (snd s) Hu) as (s' & E & U & C). rewrite E.
        exists (fst s, snd s'). split; [reflexivity|]. split; [exact U|]. left. split; [exact Es|]. unfold outer_sub. rewrite Nat.eqb_refl. exact C.
    - exists s'. split; [exact E|]. split; [exact U|]. rewrite S. reflexivity.
  Qed.

  (** *** nothing starts after the response was written *)
  Definition expl (n : nat) (l : lvl) (tr : list ev) : Prop :=
    exists e t, tr = e :: t /\ (e = ENext \/ l = Inner /\ exists b, e = EStart Outer n b).
  Definition okt (n : nat) (tr : list ev) : Prop :=
    forall t1 l i t2, tr = t1 ++ EStart l i true :: t2 -> expl n l t2.
  Lemma okt_cons n e tr : okt n tr -> (forall l i, e = EStart l i true -> expl n l tr) -> okt n (e :: tr).
  Proof.
    intros H G [|e' t1] l i t2 E; cbn in E; injection E as -> E.
    - subst. exact (G l i eq_refl).
    - exact (H t1 l i t2 E).
  Qed.
  Definition wtr (s : st) : list ev := w_tr (snd s).
  Definition next_okt (n : nat) (l : lvl) (next : st -> out st) : Prop :=
    forall s, okt n (wtr s) -> (written (w_rw (snd s)) = true -> expl n l (wtr s)) -> okt n (wtr (oval (next s))).
  Lemma exec_okt n l next : next_okt n l next -> forall a s, okt n (wtr s) -> okt n (wtr (oval (exec accept a next s))).
  Proof.
    intros Hn. induction a as [|o k IH|k IH|k IH|v|b IHb r IHr k IHk]; intros s Hs; cbn [exec oval]; auto.
    - destruct (do_op_shape o s) as (_ & B & _).
      assert (H1 : okt n (wtr (oval (do_op accept o s)))) by (unfold wtr; rewrite B; apply okt_cons; [exact Hs|discriminate]).
      destruct (do_op accept o s); cbn [obind oval] in *; auto.
    - assert (H1 : okt n (wtr (oval (next (S (fst s), note (snd s) ENext))))).
      { apply Hn; unfold wtr; cbn [snd note w_tr].
        - apply okt_cons; [exact Hs|discriminate].
        - intros _. exists ENext, (w_tr (snd s)). auto. }
      destruct (next _); cbn [obind oval] in *; auto.
    - specialize (IHb s Hs). destruct (exec accept b next s); cbn [oval] in *; auto.
  Qed.
  Definition hokt (n : nat) (l : lvl) (i : nat) (h : hsem) : Prop :=
    forall next s, next_okt n l next -> okt n (wtr s) -> (exists b t, wtr s = EStart l i b :: t) -> okt n (wtr (oval (h next s))).
  Lemma run_okt n l c : (forall i h, ch_handler c i = Some h -> hokt n l i h) -> forall fuel, next_okt n l (run l c fuel).
  Proof.
    intros Hc. induction fuel as [|f IH]; intros [i w] Hs Hw; cbn [run]; [exact Hs|].
    destruct (Nat.leb i (ch_len c)); [|exact Hs]. destruct (ch_handler c i) as [h|] eqn:Eh.
    2:{ apply IH; assumption. }
    assert (H1 : okt n (wtr (oval (h (run l c f) (i, note w (EStart l i (written (w_rw w)))))))).
    { apply (Hc i h Eh); [exact IH| |].
      - unfold wtr. cbn [snd note w_tr]. apply okt_cons; [exact Hs|]. intros l0 i0 [= -> -> E]. apply Hw. exact E.
      - unfold wtr. cbn [snd note w_tr]. eauto. }
    destruct (h _ _) as [s'|v s'|s']; cbn [obind oval fst snd] in *; auto.
    destruct (written (w_rw (snd s'))) eqn:Ew; cbn [oval]; [exact H1|]. apply IH; [exact H1|]. cbn. congruence.
  Qed.
  Lemma inner_okt n rc fuel : next_okt n Inner (run Inner (inner_chain accept rc) fuel).
  Proof.
    apply run_okt. intros i h Hh. destruct (handler_inner rc i h Hh) as [[a ->] _]. intros next s Hn Hs _. eapply exec_okt; eauto.
  Qed.
  Lemma outer_okt fs rc fuel : next_okt (List.length fs) Outer (run Outer (app_chain accept fs rc) fuel).
  Proof.
    apply run_okt. intros i h Hh. destruct (handler_outer fs rc i h Hh) as [([a ->] & _ & _)|[-> ->]]; intros next s Hn Hs Hst.
    - eapply exec_okt; eauto.
    - unfold route_handler, start. destruct Hst as (b & t & E).
      assert (H1 : okt (List.length fs) (wtr (oval (run Inner (inner_chain accept rc) (S (S (ch_len (inner_chain accept rc)))) (0, snd s))))).
      { apply inner_okt; [exact Hs|]. intros _. unfold wtr in *. cbn [snd]. rewrite E. eexists _, _. split; [reflexivity|]. right. eauto. }
      destruct (run Inner _ _ _); exact H1.
  Qed.

  (** *** a run that ends unwritten has nothing left to start *)
  Lemma run_past l c fuel s : ch_len c < fst s -> run l c (S fuel) s = Done s.
  Proof. intros H. destruct s as [i w]. cbn [run]. replace (Nat.leb i (ch_len c)) with false; [reflexivity|]. symmetry. apply Nat.leb_gt. exact H. Qed.
  Lemma run_done_end l c : forall fuel s s', run l c fuel s = Done s' -> unwr s' -> ch_len c < fst s'.
  Proof.
    induction fuel as [|f IH]; intros [i w] s'; cbn [run]; [discriminate|].
    destruct (Nat.leb i (ch_len c)) eqn:E; [|intros [= <-] _; apply Nat.leb_gt, E].
    destruct (ch_handler c i) as [h|]; [|apply IH].
    destruct (h _ _) as [s1|v s1|s1]; cbn [obind fst snd]; try discriminate.
    destruct (written (w_rw (snd s1))) eqn:Ew; [|apply IH]. intros [= <-]. unfold unwr. cbn. congruence.
  Qed.

  (** *** the response writer sees exactly the recorded calls *)
  Definition ops (tr : list ev) : list op := flat_map (fun e => match e with EOp o => [o] | _ => [] end) (rev tr).
  Lemma ops_cons e tr : ops (e :: tr) = ops tr ++ match e with EOp o => [o] | _ => [] end.
  Proof. unfold ops. cbn [rev]. rewrite flat_map_app. cbn. rewrite app_nil_r. reflexivity. Qed.
  Definition faithful (s : st) : Prop := run_ops accept (ops (w_tr (snd s))) rw0 = Some (w_rw (snd s)).
  Definition ofaithful (o : out st) : Prop := match o with Deadlock _ => True | Done s | Panicked _ s => faithful s end.
  Lemma do_op_faithful o s : faithful s -> ofaithful (do_op accept o s).
  Proof.
    intros H. unfold do_op, faithful in *. cbn [note w_rw w_tr].
    destruct (run_op accept o (w_rw (snd s))) eqn:E; cbn [ofaithful]; auto; unfold faithful; cbn [snd w_tr w_rw];
      rewrite ops_cons, run_ops_app, H; cbn [run_ops]; rewrite E; reflexivity.
  Qed.
  Lemma note_faithful s e i : (forall o, e <> EOp o) -> faithful s -> faithful (i, note (snd s) e).
  Proof.
    intros He H. unfold faithful in *. cbn [snd note w_tr w_rw]. rewrite ops_cons. destruct e; cbn; rewrite ?app_nil_r; auto.
    exfalso. eapply He. reflexivity.
  Qed.
  Lemma exec_faithful next : (forall s, faithful s -> ofaithful (next s)) -> forall a s, faithful s -> ofaithful (exec accept a next s).
  Proof.
    intros Hn. induction a as [|o k IH|k IH|k IH|v|b IHb r IHr k IHk]; intros s Hs; cbn [exec]; auto.
    - pose proof (do_op_faithful o s Hs). destruct (do_op accept o s); cbn [obind ofaithful] in *; auto.
    - pose proof (Hn (S (fst s), note (snd s) ENext) (note_faithful s ENext _ ltac:(discriminate) Hs)). destruct (next _); cbn [obind ofaithful] in *; auto.
    - specialize (IHb s Hs). destruct (exec accept b next s); cbn [ofaithful] in *; auto.
  Qed.
  Lemma run_faithful l c : (forall i h, ch_handler c i = Some h -> forall next s, (forall s, faithful s -> ofaithful (next s)) -> faithful s -> ofaithful (h next s)) ->
    forall fuel s, faithful s -> ofaithful (run l c fuel s).
  Proof.
    intros Hc. induction fuel as [|f IH]; intros [i w] Hs; cbn [run]; [exact I|].
    destruct (Nat.leb i (ch_len c)); [|exact Hs]. destruct (ch_handler c i) as [h|] eqn:Eh; [|apply IH, Hs].
    pose proof (Hc i h Eh (run l c f) (i, note w (EStart l i (written (w_rw w)))) IH (note_faithful (i, w) (EStart l i (written (w_rw w))) i ltac:(discriminate) Hs)) as H1.
    destruct (h _ _) as [s'|v s'|s']; cbn [obind ofaithful fst snd] in *; auto.
    destruct (written _); [exact H1|apply IH, H1].
  Qed.
  Lemma inner_faithful rc fuel s : faithful s -> ofaithful (run Inner (inner_chain accept rc) fuel s).
  Proof. apply run_faithful. intros i h Hh. destruct (handler_inner rc i h Hh) as [[a ->] _]. intros. apply exec_faithful; auto. Qed.
  Lemma outer_faithful fs rc fuel s : faithful s -> ofaithful (run Outer (app_chain accept fs rc) fuel s).
  Proof.
    apply run_faithful. intros i h Hh. destruct (handler_outer fs rc i h Hh) as [([a ->] & _ & _)|[-> ->]]; intros next s0 Hn Hs.
    - apply exec_faithful; auto.
    - unfold route_handler, start. pose proof (inner_faithful rc (S (S (ch_len (inner_chain accept rc)))) (0, snd s0) Hs) as H1.
      destruct (run Inner _ _ _); exact H1.
  Qed.

  (** *** termination and no deadlock *)
  Fixpoint hook_nowrite (h : hook) : Prop :=
    match h with
    | HRet | HPanic => True
    | HWriteHeader _ k | HFlush k => hook_nowrite k
    | HWrite _ _ => False
    | HBefore h' k => hook_nowrite h' /\ hook_nowrite k
    | HSee k => forall a b c, hook_nowrite (k a b c)
    end.
  Fixpoint act_hooks (P : hook -> Prop) (a : act) : Prop :=
    match a with
    | ARet | APanic _ => True
    | AOp o k => match o with OBefore h => P h | _ => True end /\ act_hooks P k
    | ASee k => forall x y z, act_hooks P (k x y z)
    | ANext k => act_hooks P k
    | ATry b r k => act_hooks P b /\ (forall v, act_hooks P (r v)) /\ act_hooks P k
    end.
  Section Live.
  Variable P : hook -> Prop.
  Hypothesis P_header : forall s k, P (HWriteHeader s k) -> P k.
  Hypothesis P_write : forall b k, ~ P (HWrite b k).
  Hypothesis P_before : forall h k, P (HBefore h k) -> P h /\ P k.
  Hypothesis P_flush : forall k, P (HFlush k) -> P k.
  Hypothesis P_see : forall k, P (HSee k) -> forall a b c, P (k a b c).
  Definition live (r : rw) : Prop := Forall P (r_hooks r).
  Definition olive (o : out rw) : Prop := match o with Deadlock _ => False | Done r | Panicked _ r => live r end.
  Lemma u_flush_live r : live r -> live (u_flush r).
  Proof. unfold live, u_flush. destruct (r_hij r), (r_sent r); auto. Qed.
  Lemma run_hook_live h : P h -> forall r, live r -> olive (run_hook h r).
  Proof.
    induction h as [|s k IH|b k IH|h IHh k IH|k IH|k IH|]; cbn [run_hook]; intros Hh r Hr; auto.
    - unfold write_header. destruct (Z.eqb s 0); cbn [obind olive]; auto. apply IH; eauto.
    - exact (P_write _ _ Hh).
    - apply P_before in Hh as [H1 H2]. apply IH; auto. unfold live. cbn. apply Forall_app. auto.
    - apply IH; eauto. apply u_flush_live, Hr.
  Qed.
  Lemma call_before_live hs i : Forall P hs -> forall r, live r -> olive (call_before hs i r).
  Proof.
    intros Hs. induction i as [|j IH]; intros r Hr; cbn [call_before]; [exact Hr|]. destruct (nth_error hs j) as [h|] eqn:E; [|exact Hr].
    assert (Hh : P h) by (rewrite Forall_forall in Hs; apply Hs; eapply nth_error_In; eauto).
    pose proof (run_hook_live h Hh (log_ev r (WHook j)) Hr) as H. destruct (run_hook h _); cbn [obind olive] in *; auto.
  Qed.
  Lemma fire_live r : live r -> olive (fire r).
  Proof.
    intros Hr. unfold fire. cbv zeta. pose proof (call_before_live (r_hooks (set_once r)) (List.length (r_hooks (set_once r))) Hr (set_once r) Hr) as H.
    destruct (call_before _ _ _) as [a|v a|a]; cbn [obind olive] in *; auto.
    set (a2 := if Z.eqb (r_status a) 0 then set_status a 200 else a).
    assert (H2 : live a2) by (unfold a2; destruct (Z.eqb (r_status a) 0); exact H).
    destruct (r_hij a2) eqn:Ej; [exact H2|]. unfold u_write_header. rewrite Ej. destruct (r_sent a2); [exact H2|].
    destruct (_ || _); [exact H2|]. destruct (_ && _); exact H2.
  Qed.
  Lemma run_op_live o r : live r -> match o with OBefore h => P h | _ => True end -> olive (run_op accept o r).
  Proof.
    intros Hr Ho. destruct o; cbn [run_op].
    - unfold write_header. destruct (Z.eqb s 0); exact Hr.
    - unfold write. assert (H : olive (if r_once r then Done r else fire r)) by (destruct (r_once r); [exact Hr|apply fire_live, Hr]).
      destruct (if r_once r then Done r else fire r) as [a|v a|a]; cbn [obind olive] in *; auto.
      assert (H2 : live (fst (u_write accept a b))).
      { unfold u_write. destruct (r_hij a); [exact H|]. set (w1 := match r_sent a with Some _ => a | None => sent_ev a 200 end).
        assert (H1 : live w1) by (unfold w1; destruct (r_sent a); exact H). destruct b; [exact H1|]. destruct (no_body _); [exact H1|].
        destruct (firstn _ _); exact H1. }
      destruct (u_write accept a b). exact H2.
    - cbn. unfold live. cbn. apply Forall_app. auto.
    - apply u_flush_live, Hr.
    - destruct ok; exact Hr.
  Qed.
  Definition slive (s : st) : Prop := live (w_rw (snd s)).
  Definition nodl (i : nat) (o : out st) : Prop := match o with Deadlock _ => False | Done s | Panicked _ s => slive s /\ i <= fst s end.
  Definition next_live (m : nat) (next : st -> out st) : Prop := forall s, m <= fst s -> slive s -> nodl (fst s) (next s).
  Lemma nodl_weaken i j o : i <= j -> nodl j o -> nodl i o.
  Proof. intros H. destruct o; cbn; try tauto; intros [? ?]; (split; [assumption|lia]). Qed.
  Lemma exec_live next m : next_live (S m) next -> forall a, act_hooks P a -> forall s, m <= fst s -> slive s -> nodl (fst s) (exec accept a next s).
  Proof.
    intros Hn. induction a as [|o k IH|k IH|k IH|v|b IHb r IHr k IHk]; cbn [act_hooks exec]; intros Ha s Hm Hs.
    - split; [exact Hs|lia].
    - destruct Ha as [Ho Hk]. pose proof (run_op_live o (w_rw (snd s)) Hs Ho) as H. unfold do_op. cbn [note w_rw w_tr].
      destruct (run_op accept o (w_rw (snd s))) as [r'|v r'|r']; cbn [obind olive nodl] in *; auto.
      apply (IH Hk (fst s, W r' (EOp o :: w_tr (snd s)))); auto.
    - apply IH; auto.
    - pose proof (Hn (S (fst s), note (snd s) ENext) ltac:(cbn; lia) Hs) as H. destruct (next _) as [s'|v s'|s']; cbn [obind nodl fst] in *; auto.
      + destruct H as [A B]. eapply nodl_weaken; [|apply (IH Ha s')]; auto; lia.
      + destruct H. split; [assumption|lia].
    - split; [exact Hs|lia].
    - destruct Ha as (Hb & Hr & Hk). specialize (IHb Hb s Hm Hs). destruct (exec accept b next s) as [s'|v s'|s']; cbn [nodl] in *.
      + destruct IHb as [A B]. eapply nodl_weaken; [exact B|]. apply IHk; auto; lia.
      + destruct IHb as [A B]. eapply nodl_weaken; [exact B|]. apply IHr; auto; lia.
      + contradiction.
  Qed.
  Definition hlive (i : nat) (h : hsem) : Prop := forall next s, fst s = i -> next_live (S i) next -> slive s -> nodl i (h next s).
  Lemma run_live l c : (forall i h, ch_handler c i = Some h -> hlive i h) ->
    forall fuel m, ch_len c + 2 <= fuel + m -> 1 <= fuel -> next_live m (run l c fuel).
  Proof.
    intros Hc. induction fuel as [|f IH]; intros m Hf H1 [i w] Hm Hs; [lia|]. cbn [run fst] in *.
    destruct (Nat.leb i (ch_len c)) eqn:El; [|split; [exact Hs|cbn; lia]]. apply Nat.leb_le in El.
    assert (IH' : forall k, S i <= k -> next_live k (run l c f)) by (intros k Hk; apply IH; lia).
    destruct (ch_handler c i) as [h|] eqn:Eh.
    - pose proof (Hc i h Eh (run l c f) (i, note w (EStart l i (written (w_rw w)))) eq_refl (IH' _ (le_n _)) Hs) as H.
      destruct (h _ _) as [s'|v s'|s']; cbn [obind nodl fst snd] in *; auto. destruct H as [A B].
      destruct (written _); [split; [exact A|cbn; lia]|].
      eapply nodl_weaken; [|apply (IH' (S (fst s')) ltac:(lia) (S (fst s'), snd s')); auto]. cbn. lia.
    - eapply nodl_weaken; [|apply (IH' (S i) (le_n _) (S i, w)); auto]. cbn. lia.
  Qed.
  Lemma inner_live rc : Forall (opt_all (act_hooks P)) (rc_filters rc) -> opt_all (act_hooks P) (rc_action rc) ->
    forall w, live (w_rw w) -> nodl 0 (start Inner (inner_chain accept rc) w).
  Proof.
    intros Hf Ha w Hw. unfold start. apply (run_live Inner (inner_chain accept rc)) with (m := 0) (s := (0, w)); try lia; auto.
    intros i h Hh. destruct (handler_all _ _ _ _ _ Hf Ha Hh) as (x & -> & Hx0). intros next s <- Hn Hs. eapply exec_live; eauto.
  Qed.
  Lemma outer_live fs rc : Forall (opt_all (act_hooks P)) fs -> Forall (opt_all (act_hooks P)) (rc_filters rc) ->
    opt_all (act_hooks P) (rc_action rc) -> nodl 0 (serve_chain accept fs rc).
  Proof.
    intros Hf Hr Ha. unfold serve_chain, start. apply (run_live Outer (app_chain accept fs rc)) with (m := 0) (s := (0, w0)); try lia.
    2:{ unfold slive. constructor. }
    intros i h Hh. destruct (handler_outer_all _ _ _ _ _ Hf Hh) as [(x & -> & Hx0 & Hi)|[-> ->]]; intros next s <- Hn Hs.
    - eapply exec_live; eauto.
    - unfold route_handler. pose proof (inner_live rc Hr Ha (snd s) Hs) as H. destruct (start Inner _ _); cbn [nodl fst snd] in *; auto;
        destruct H; (split; [assumption|lia]).
  Qed.
  End Live.

  (** *** panics that are not nil *)
  Fixpoint no_nil (a : act) : Prop :=
    match a with
    | ARet => True
    | AOp _ k => no_nil k
    | ASee k => forall x y z, no_nil (k x y z)
    | ANext k => no_nil k
    | APanic v => v = false
    | ATry b r k => no_nil b /\ (forall v, no_nil (r v)) /\ no_nil k
    end.
  Definition nn {A} (o : out A) : Prop := match o with Panicked true _ => False | _ => True end.
  Lemma nn_bind {A} (x : out A) f : nn x -> (forall a, nn (f a)) -> nn (obind x f).
  Proof. destruct x; cbn; auto. Qed.
  Lemma run_hook_nn h : forall r, nn (run_hook h r).
  Proof.
    induction h as [|s k IH|b k IH|h IHh k IH|k IH|k IH|]; intros r; cbn [run_hook]; auto; try exact I.
    apply nn_bind; auto. unfold write_header. destruct (Z.eqb s 0); exact I.
  Qed.
  Lemma call_before_nn hs i : forall r, nn (call_before hs i r).
  Proof. induction i as [|j IH]; intros r; cbn [call_before]; [exact I|]. destruct (nth_error hs j); [|exact I]. apply nn_bind; [apply run_hook_nn|exact IH]. Qed.
  Lemma u_write_header_nn r s : nn (u_write_header r s).
  Proof. unfold u_write_header. destruct (r_hij r); [exact I|]. destruct (r_sent r); [exact I|]. destruct (_ || _); [exact I|]. destruct (_ && _); exact I. Qed.
  Lemma run_op_nn o r : nn (run_op accept o r).
  Proof.
    destruct o; cbn [run_op]; try exact I.
    - unfold write_header. destruct (Z.eqb s 0); exact I.
    - unfold write. apply nn_bind.
      + destruct (r_once r); [exact I|]. unfold fire. apply nn_bind; [apply call_before_nn|]. intros a. cbv zeta. destruct (r_hij _); [exact I|apply u_write_header_nn].
      + intros a. destruct (u_write accept a b). exact I.
  Qed.
  Lemma exec_nn next : (forall s, nn (next s)) -> forall a, no_nil a -> forall s, nn (exec accept a next s).
  Proof.
    intros Hn. induction a as [|o k IH|k IH|k IH|v|b IHb r IHr k IHk]; cbn [no_nil exec]; intros Ha s; auto.
    - apply nn_bind; auto. unfold do_op. pose proof (run_op_nn o (w_rw (note (snd s) (EOp o)))) as H. destruct (run_op accept o _); exact H.
    - apply nn_bind; auto.
    - subst. exact I.
    - destruct Ha as (Hb & Hr & Hk). specialize (IHb Hb s). destruct (exec accept b next s); auto.
  Qed.
  Lemma run_nn l c : (forall i h, ch_handler c i = Some h -> forall next s, (forall s, nn (next s)) -> nn (h next s)) -> forall fuel s, nn (run l c fuel s).
  Proof.
    intros Hc. induction fuel as [|f IH]; intros [i w]; cbn [run]; [exact I|]. destruct (Nat.leb i (ch_len c)); [|exact I].
    destruct (ch_handler c i) as [h|] eqn:Eh; [|apply IH]. apply nn_bind; [apply (Hc i h Eh); exact IH|]. intros s'. destruct (written _); [exact I|apply IH].
  Qed.
  Lemma outer_nn fs rc : Forall (opt_all no_nil) fs -> Forall (opt_all no_nil) (rc_filters rc) -> opt_all no_nil (rc_action rc) ->
    forall fuel s, nn (run Outer (app_chain accept fs rc) fuel s).
  Proof.
    intros Hf Hr Ha. apply run_nn. intros i h Hh. destruct (handler_outer_all _ _ _ _ _ Hf Hh) as [(x & -> & Hx0 & Hi)|[-> ->]]; intros next s Hn.
    - apply exec_nn; auto.
    - unfold route_handler, start.
      assert (H : nn (run Inner (inner_chain accept rc) (S (S (ch_len (inner_chain accept rc)))) (0, snd s))).
      { apply run_nn. intros i h Hi. destruct (handler_all _ _ _ _ _ Hr Ha Hi) as (x & -> & Hx0). intros. apply exec_nn; auto. }
      destruct (run Inner _ _ _); exact H.
  Qed.
End Conn.
