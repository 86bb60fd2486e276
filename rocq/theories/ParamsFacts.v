(** ParamsFacts: what the slice, struct and map binders compute. *)
From Coq Require Import List Ascii String Bool Arith ZArith Lia Permutation.
Import ListNotations.
From Verif Require Import GoStr GoNum RouterModel ConvModel ParamsModel.

(** ** Lists *)
Lemma perm_filter {A} (f : A -> bool) l1 l2 : Permutation l1 l2 -> Permutation (filter f l1) (filter f l2).
Proof.
  induction 1 as [|x l1 l2 H IH|x y l|l1 l2 l3 H1 IH1 H2 IH2]; cbn [filter]; auto.
  - destruct (f x); auto.
  - destruct (f x), (f y); auto. apply perm_swap.
  - eapply perm_trans; eassumption.
Qed.
Lemma perm_concat {A} (l1 l2 : list (list A)) : Permutation l1 l2 -> Permutation (List.concat l1) (List.concat l2).
Proof.
  induction 1 as [|x l1 l2 H IH|x y l|l1 l2 l3 H1 IH1 H2 IH2]; cbn [List.concat]; auto.
  - apply Permutation_app_head. exact IH.
  - rewrite !app_assoc. apply Permutation_app_tail, Permutation_app_comm.
  - eapply perm_trans; eassumption.
Qed.
Lemma concat_nonnil {A} (l : list (list A)) : List.concat l = List.concat (filter (fun x => negb (is_nil x)) l).
Proof. induction l as [|x l IH]; [reflexivity|]. cbn [List.concat filter]. rewrite IH. destruct x; reflexivity. Qed.
Lemma perm_lone {A} (l1 l2 : list (list A)) : Permutation l1 l2 -> List.length (filter (fun x => negb (is_nil x)) l1) <= 1 -> List.concat l1 = List.concat l2.
Proof.
  intros P H. rewrite (concat_nonnil l1), (concat_nonnil l2). apply (perm_filter (fun x => negb (is_nil x))) in P.
  destruct (filter _ l1) as [|x [|y l]]; [apply Permutation_nil in P; rewrite P; reflexivity|apply Permutation_length_1_inv in P; rewrite P; reflexivity|cbn in H; lia].
Qed.
Lemma Forall2_det {A B} (R : A -> B -> Prop) l r1 r2 : Forall2 R l r1 -> Forall2 R l r2 -> (forall a b1 b2, In a l -> R a b1 -> R a b2 -> b1 = b2) -> r1 = r2.
Proof.
  intros H1. revert r2. induction H1 as [|a b l r1 Hab H1 IH]; intros r2 H2 D; inversion H2; subst; [reflexivity|]. f_equal.
  - apply (D a); [left; reflexivity| |]; assumption.
  - apply IH; [assumption|]. intros a' b1 b2 Hin. apply D. right. exact Hin.
Qed.
Lemma Forall2_length {A B} (R : A -> B -> Prop) l r : Forall2 R l r -> List.length l = List.length r.
Proof. induction 1; cbn; congruence. Qed.
Lemma Forall2_in_r {A B} (R : A -> B -> Prop) l r b : Forall2 R l r -> In b r -> exists a, In a l /\ R a b.
Proof. induction 1 as [|x y l r Hxy H IH]; [intros []|]. intros [<-|Hin]; [exists x; split; [left; reflexivity|exact Hxy]|]. destruct (IH Hin) as (a & Ha & Hr). exists a. split; [right; exact Ha|exact Hr]. Qed.
Lemma Forall2_in_l {A B} (R : A -> B -> Prop) l r a : Forall2 R l r -> In a l -> exists b, In b r /\ R a b.
Proof. induction 1 as [|x y l r Hxy H IH]; [intros []|]. intros [<-|Hin]; [exists y; split; [left; reflexivity|exact Hxy]|]. destruct (IH Hin) as (b & Hb & Hr). exists b. split; [right; exact Hb|exact Hr]. Qed.
Lemma Forall2_exists {A B} (R : A -> B -> Prop) l : (forall a, In a l -> exists b, R a b) -> exists r, Forall2 R l r.
Proof.
  induction l as [|a l IH]; intros H; [exists []; constructor|]. destruct (H a (or_introl eq_refl)) as (b & Hb). destruct IH as (r & Hr); [intros; apply H; right; assumption|].
  exists (b :: r). constructor; assumption.
Qed.
Lemma all_ok_spec {A} (l : list (res A)) : match all_ok l with Ok xs => l = map Ok xs | Panic => In Panic l end.
Proof.
  induction l as [|r l IH]; [reflexivity|]. cbn [all_ok]. destruct r as [x|]; cbn [RouterModel.bind]; [|left; reflexivity]. destruct (all_ok l) as [xs|]; cbn [RouterModel.bind]; [cbn [map]; congruence|right; exact IH].
Qed.
Lemma all_ok_map {A} (xs : list A) : all_ok (map Ok xs) = Ok xs.
Proof. induction xs as [|x xs IH]; [reflexivity|]. cbn [map all_ok RouterModel.bind]. rewrite IH. reflexivity. Qed.
Lemma map_ok_inj {A} (a b : list A) : map (@Ok A) a = map Ok b -> a = b.
Proof. revert b. induction a as [|x a IH]; intros [|y b] H; try discriminate; [reflexivity|]. cbn in H. injection H as -> H. f_equal. auto. Qed.
(** permuted: both fail, or both succeed with permuted results *)
Lemma all_ok_perm {A} (l1 l2 : list (res A)) : Permutation l1 l2 ->
  match all_ok l1, all_ok l2 with Ok a, Ok b => Permutation a b | Panic, Panic => True | _, _ => False end.
Proof.
  intros P. pose proof (all_ok_spec l1) as S1. pose proof (all_ok_spec l2) as S2.
  destruct (all_ok l1) as [a|], (all_ok l2) as [b|]; [| | |exact I].
  - subst l1 l2. apply Permutation_map_inv in P as (a' & E & P). apply map_ok_inj in E. subst a'. symmetry. exact P.
  - subst l1. apply (Permutation_in _ (Permutation_sym P)) in S2. apply in_map_iff in S2 as (x & X & _). discriminate X.
  - subst l2. apply (Permutation_in _ P) in S1. apply in_map_iff in S1 as (x & X & _). discriminate X.
Qed.
Lemma set_nth_length {A} (l : list A) : forall i x, List.length (set_nth l i x) = List.length l.
Proof. induction l as [|a l IH]; intros [|i] x; cbn; auto. Qed.
Lemma nth_set_nth {A} (l : list A) : forall i j x, nth_error (set_nth l i x) j = if (Nat.eqb i j && Nat.ltb j (List.length l))%bool then Some x else nth_error l j.
Proof.
  induction l as [|a l IH]; intros i j x.
  - cbn [set_nth List.length]. replace (Nat.ltb j 0) with false by (symmetry; apply Nat.ltb_ge; lia). rewrite andb_false_r. reflexivity.
  - destruct i as [|i], j as [|j]; cbn [set_nth nth_error Nat.eqb andb]; try reflexivity.
    rewrite IH. replace (Nat.ltb (S j) (List.length (a :: l))) with (Nat.ltb j (List.length l)) by (cbn [List.length]; reflexivity). reflexivity.
Qed.
Lemma set_nth_app {A} (a b : list A) i x : i < List.length a -> set_nth (a ++ b) i x = set_nth a i x ++ b.
Proof. revert i. induction a as [|y a IH]; intros [|i] H; cbn in *; try lia; [reflexivity|]. f_equal. apply IH. lia. Qed.

Lemma nth_error_ext {A} (a b : list A) : (forall j, nth_error a j = nth_error b j) -> a = b.
Proof.
  revert b. induction a as [|x a IH]; intros [|y b] H; [reflexivity|discriminate (H 0)|discriminate (H 0)|]. pose proof (H 0) as H0. injection H0 as ->. f_equal. apply IH. intros j. exact (H (S j)).
Qed.

Set Default Proof Using "Type".
Section Slices.
  Variable F T : Type.
  Notation pval := (pval F T).
  Notation fill := (fill F T).
  Notation max_index := (max_index F T).
  Notation no_index := (no_index F T).
  Definition unindexed (svs : list (Z * pval)) : list pval := map snd (filter (fun sv => Z.eqb (fst sv) (-1)) svs).
  Definition indexed (svs : list (Z * pval)) : list (Z * pval) := filter (fun sv => negb (Z.eqb (fst sv) (-1))) svs.
  Definition indices_ok (svs : list (Z * pval)) : Prop := forall i v, In (i, v) svs -> (-1 <= i)%Z.

  Lemma max_fold svs : forall m, let M := fold_left (fun m (sv : Z * pval) => Z.max m (fst sv)) svs m in
    (m <= M)%Z /\ (forall i v, In (i, v) svs -> (i <= M)%Z) /\ (M = m \/ exists v, In (M, v) svs).
  Proof.
    induction svs as [|(i & v) svs IH]; intros m; cbn [fold_left fst]; [split; [lia|split; [intros ? ? []|left; reflexivity]]|].
    destruct (IH (Z.max m i)) as (A & B & C). split; [lia|]. split.
    - intros j w [E|Hin]; [injection E as <- <-; lia|eauto].
    - destruct C as [C|(w & C)]; [|right; exists w; right; exact C]. destruct (Z.max_spec m i) as [(_ & E)|(_ & E)]; rewrite E in *; [right; exists v; left; congruence|left; exact C].
  Qed.
  Lemma max_index_spec svs : (-1 <= max_index svs)%Z /\ (forall i v, In (i, v) svs -> (i <= max_index svs)%Z) /\ (max_index svs = (-1)%Z \/ exists v, In (max_index svs, v) svs).
  Proof. unfold ParamsModel.max_index. apply (max_fold svs (-1)%Z). Qed.
  Lemma max_index_perm a b : Permutation a b -> max_index a = max_index b.
  Proof.
    intros P. destruct (max_index_spec a) as (A1 & A2 & A3). destruct (max_index_spec b) as (B1 & B2 & B3). apply Z.le_antisymm.
    - destruct A3 as [->|(v & A3)]; [exact B1|]. eapply B2. eapply Permutation_in; eassumption.
    - destruct B3 as [->|(v & B3)]; [exact A1|]. eapply A2. eapply Permutation_in; [apply Permutation_sym|]; eassumption.
  Qed.
  Lemma no_index_unindexed svs : no_index svs = Z.of_nat (List.length (unindexed svs)).
  Proof. unfold ParamsModel.no_index, unindexed. rewrite map_length. reflexivity. Qed.
  (** the last value given for an index *)
  Fixpoint slot (svs : list (Z * pval)) (i : Z) : option pval :=
    match svs with
    | [] => None
    | (j, v) :: r => match slot r i with Some w => Some w | None => if Z.eqb j i then Some v else None end
    end.
  Lemma slot_in svs i v : slot svs i = Some v -> In (i, v) svs.
  Proof.
    induction svs as [|(j & w) svs IH]; [discriminate|]. cbn [slot]. destruct (slot svs i) as [x|]; [intros [= ->]; right; auto|]. destruct (Z.eqb_spec j i) as [->|]; [intros [= ->]; left; reflexivity|discriminate].
  Qed.
  Lemma slot_none svs i : slot svs i = None -> forall v, ~ In (i, v) svs.
  Proof.
    induction svs as [|(j & w) svs IH]; [intros _ v []|]. cbn [slot]. destruct (slot svs i); [discriminate|]. destruct (Z.eqb_spec j i) as [->|Hn]; [discriminate|].
    intros _ v [E|Hin]; [congruence|]. exact (IH eq_refl v Hin).
  Qed.
  Lemma fill_spec svs : forall base tail_, indices_ok svs -> (forall i v, In (i, v) svs -> (i < Z.of_nat (List.length base))%Z) ->
    exists base', fill svs (base ++ tail_) = base' ++ tail_ ++ unindexed svs /\ List.length base' = List.length base /\
      forall j, j < List.length base -> nth_error base' j = match slot svs (Z.of_nat j) with Some v => Some v | None => nth_error base j end.
  Proof.
    induction svs as [|(i & v) svs IH]; intros base tail_ Hi Hb.
    - exists base. cbn [ParamsModel.fill]. unfold unindexed. cbn. rewrite app_nil_r. split; [reflexivity|split; [reflexivity|reflexivity]].
    - cbn [ParamsModel.fill]. assert (Hi' : indices_ok svs) by (intros j w Hin; apply (Hi j w); right; exact Hin).
      destruct (Z.eqb_spec i (-1)) as [->|Hne].
      + rewrite <- app_assoc. destruct (IH base (tail_ ++ [v]) Hi') as (b' & E & L & N); [intros; apply (Hb i v0); right; assumption|].
        exists b'. split; [|split; [exact L|]].
        * rewrite E. unfold unindexed. cbn [filter fst]. change (Z.eqb (-1) (-1)) with true. cbn [map snd]. rewrite <- app_assoc. reflexivity.
        * intros j Hj. rewrite (N j Hj). cbn [slot]. destruct (slot svs (Z.of_nat j)); [reflexivity|]. destruct (Z.eqb_spec (-1) (Z.of_nat j)); [lia|reflexivity].
      + assert (Hi0 : (0 <= i)%Z) by (pose proof (Hi i v (or_introl eq_refl)); lia). pose proof (Hb i v (or_introl eq_refl)) as Hlt.
        rewrite set_nth_app by lia. destruct (IH (set_nth base (Z.to_nat i) v) tail_ Hi') as (b' & E & L & N).
        { intros j w Hin. rewrite set_nth_length. apply (Hb j w). right. exact Hin. }
        rewrite set_nth_length in L, N. exists b'. split; [|split; [exact L|]].
        * rewrite E. unfold unindexed. cbn [filter fst]. destruct (Z.eqb_spec i (-1)); [contradiction|reflexivity].
        * intros j Hj. rewrite (N j Hj). cbn [slot]. destruct (slot svs (Z.of_nat j)); [reflexivity|]. rewrite nth_set_nth.
          replace (Nat.ltb j (List.length base)) with true by (symmetry; apply Nat.ltb_lt; exact Hj). rewrite andb_true_r.
          destruct (Z.eqb_spec i (Z.of_nat j)) as [->|Hnj]; [rewrite Nat2Z.id, Nat.eqb_refl; reflexivity|].
          destruct (Nat.eqb_spec (Z.to_nat i) j); [lia|reflexivity].
  Qed.
  Lemma nth_repeat_lt {A} (x : A) n j : j < n -> nth_error (repeat x n) j = Some x.
  Proof. revert j. induction n as [|n IH]; intros [|j] H; cbn; try lia; [reflexivity|]. apply IH. lia. Qed.
  (** bindSlice's result: the indexed part, then the unindexed values *)
  Lemma assemble_spec zero svs r : indices_ok svs -> assemble F T zero svs = r ->
    match r with
    | Panic => (2 ^ 63 <= max_index svs + 1 + Z.of_nat (List.length (unindexed svs)))%Z
    | Ok v => exists base, v = PVSlice F T (base ++ unindexed svs) /\ Z.of_nat (List.length base) = (max_index svs + 1)%Z /\
        (forall j, j < List.length base -> nth_error base j = Some (match slot svs (Z.of_nat j) with Some x => x | None => zero end))
    end.
  Proof.
    intros Hi <-. unfold assemble. rewrite no_index_unindexed. destruct (max_index_spec svs) as (M1 & M2 & _).
    destruct (Z.ltb_spec (max_index svs + 1 + Z.of_nat (List.length (unindexed svs))) (2 ^ 63)) as [H|H]; [|exact H].
    set (n := Z.to_nat (max_index svs + 1)).
    destruct (fill_spec svs (repeat zero n) [] Hi) as (base & E & L & N).
    { intros i v Hin. rewrite repeat_length. apply M2 in Hin. unfold n. lia. }
    rewrite app_nil_r in E. rewrite repeat_length in L, N. exists base. rewrite E. split; [reflexivity|]. split; [rewrite L; unfold n; lia|].
    intros j Hj. rewrite (N j ltac:(lia)). destruct (slot svs (Z.of_nat j)); [reflexivity|]. apply nth_repeat_lt. lia.
  Qed.
  (** assemble does not depend on the order, if no two values have one index *)
  Lemma assemble_perm zero a b : indices_ok a -> Permutation a b -> unindexed a = unindexed b ->
    (forall i x y, (0 <= i)%Z -> In (i, x) a -> In (i, y) a -> x = y) -> assemble F T zero a = assemble F T zero b.
  Proof.
    intros Hi P U D. assert (Hib : indices_ok b) by (intros i v Hin; apply (Hi i v); eapply Permutation_in; [apply Permutation_sym|]; eassumption).
    pose proof (max_index_perm a b P) as Em. destruct (assemble F T zero a) as [va|] eqn:Ea.
    - destruct (assemble_spec zero a _ Hi Ea) as (ba & -> & La & Na). destruct (assemble F T zero b) as [vb|] eqn:Eb.
      + destruct (assemble_spec zero b _ Hib Eb) as (bb & -> & Lb & Nb). rewrite U. do 2 f_equal. f_equal.
        assert (L : List.length ba = List.length bb) by lia. apply nth_error_ext. intros j. destruct (Nat.lt_ge_cases j (List.length ba)) as [Hj|Hj].
        * rewrite (Na j Hj), (Nb j ltac:(lia)). f_equal. destruct (slot a (Z.of_nat j)) as [x|] eqn:Sa, (slot b (Z.of_nat j)) as [y|] eqn:Sb; [| | |reflexivity].
          -- apply slot_in in Sa, Sb. apply (Permutation_in _ (Permutation_sym P)) in Sb. apply (D (Z.of_nat j)); [lia| |]; assumption.
          -- exfalso. apply slot_in in Sa. apply (Permutation_in _ P) in Sa. exact (slot_none _ _ Sb _ Sa).
          -- exfalso. apply slot_in in Sb. apply (Permutation_in _ (Permutation_sym P)) in Sb. exact (slot_none _ _ Sa _ Sb).
        * rewrite (proj2 (nth_error_None ba j) Hj). symmetry. apply nth_error_None. lia.
      + exfalso. unfold assemble in Ea, Eb. rewrite !no_index_unindexed, U, Em in Ea. rewrite no_index_unindexed in Eb. destruct (_ <? _)%Z; discriminate.
    - unfold assemble in *. rewrite no_index_unindexed, U, Em in Ea. rewrite no_index_unindexed. destruct (_ <? _)%Z; [discriminate|reflexivity].
  Qed.
End Slices.

Section Binders.
  Variable F T : Type.
  Variable fzero : F.
  Variable tzero : T.
  Variable parse_float : bytes -> option F.
  Variable round_float : nat -> F -> F.
  Variable formats : list bytes.
  Variable parse_zone parse_local : bytes -> bytes -> option T.
  Variable unix : Z -> T.
  Variable json_map : bytes -> list (bytes * bytes).
  Notation pval := (pval F T).
  Notation binder := (binder F T).
  Notation binds := (binds F T fzero tzero parse_float round_float formats parse_zone parse_local unix json_map).
  Notation process := (process F T).
  Notation bind_slice := (bind_slice F T).
  Notation struct_loop := (struct_loop F T).
  Notation map_loop := (map_loop F T).

  Lemma pty_deep (P : pty -> Prop) :
    P PBool -> (forall w, P (PInt w)) -> (forall w, P (PUint w)) -> (forall w, P (PFloat w)) -> P PString -> P PTime -> P POther ->
    (forall e, P e -> P (PSlice e)) -> (forall e, P e -> P (PPtr e)) -> (forall k e, P k -> P e -> P (PMap k e)) ->
    (forall fs, Forall (fun f => P (snd f)) fs -> P (PStruct fs)) -> forall t, P t.
  Proof.
    intros H1 H2 H3 H4 H5 H6 H7 H8 H9 H10 H11. fix IH 1. intros [|w|w|w| | |e|e|k e| |fs]; [exact H1|apply H2|apply H3|apply H4|exact H5|exact H6|apply H8, IH|apply H9, IH|apply H10; apply IH|exact H7|].
    apply H11. revert fs. fix IHl 1. intros [|f fs]; [constructor|]. constructor; [apply IH|apply IHl].
  Qed.

  (** ** Which element of slice [name] a key belongs to *)
  (** None: none; Some (i, sub): element i, under the name sub; i < 0: no index *)
  Definition elem_of (name key : bytes) : option (Z * bytes) :=
    let k := normalize name key in
    if has_prefix k (name ++ bs "[") then Some (fst (elem_index name k), firstn (snd (elem_index name k)) k) else None.
  Definition free (name key : bytes) : bool := match elem_of name key with Some (i, _) => negb (-1 <? i)%Z | None => false end.
  Definition keys (p : params) : list bytes := map fst (p_vals p) ++ map fst (p_files p).
  Definition tidy (p : params) (name : bytes) : Prop :=
    List.length (filter (fun kv => free name (fst kv) && negb (is_nil (snd kv))) (p_vals p)) +
    List.length (filter (fun kf => free name (fst kf) && negb (Nat.eqb (snd kf) 0)) (p_files p)) <= 1 /\
    forall k1 k2 i s1 s2, In k1 (keys p) -> In k2 (keys p) -> (0 <= i)%Z -> elem_of name k1 = Some (i, s1) -> elem_of name k2 = Some (i, s2) -> s1 = s2.

  Lemma process_cases be p name key vals files r : process be p name (normalize name key) vals files r <->
    match elem_of name key with
    | None => r = Ok []
    | Some (i, sub) => if (-1 <? i)%Z then exists v, be p sub v /\ r = res_map (fun x => [(i, x)]) v
        else exists vs fs, Forall2 (fun val v => be (single val) [] v) vals vs /\ Forall (fun v => be file_only [] v) fs /\ List.length fs = files /\
           r = res_map (map (fun x => ((-1)%Z, x))) (all_ok (vs ++ fs))
    end.
  Proof.
    unfold ParamsModel.process, elem_of. destruct (has_prefix _ _); cbn [negb]; [|apply iff_refl]. destruct (elem_index name (normalize name key)) as (i & sub). cbn [fst snd]. apply iff_refl.
  Qed.
  Lemma process_ok be p name key vals files l : process be p name (normalize name key) vals files (Ok l) ->
    (forall i x, In (i, x) l -> (-1 <= i)%Z) /\
    (forall i x, (0 <= i)%Z -> In (i, x) l -> exists sub, elem_of name key = Some (i, sub) /\ be p sub (Ok x)) /\
    (unindexed F T l <> [] -> free name key = true /\ (vals <> [] \/ files <> 0)) /\
    (forall i sub, elem_of name key = Some (i, sub) -> (0 <= i)%Z -> exists x, l = [(i, x)]) /\
    List.length (unindexed F T l) <= List.length vals + files /\
    (free name key = true -> exists xs ys, unindexed F T l = xs ++ ys /\ Forall2 (fun val x => be (single val) [] (Ok x)) vals xs /\ List.length ys = files /\ Forall (fun y => be file_only [] (Ok y)) ys).
  Proof.
    rewrite process_cases. unfold free. destruct (elem_of name key) as [(i & sub)|].
    - destruct (Z.ltb_spec (-1) i) as [Hi|Hi].
      + intros (v & Hv & E). destruct v as [x|]; [|discriminate]. injection E as ->. split; [intros j y [X|[]]; injection X as <- <-; lia|].
        split; [intros j y Hj [X|[]]; injection X as <- <-; exists sub; split; [reflexivity|exact Hv]|].
        assert (U : unindexed F T [(i, x)] = []) by (unfold unindexed; cbn [filter fst]; destruct (Z.eqb_spec i (-1)); [lia|reflexivity]). rewrite U.
        split; [congruence|]. split; [intros j s [= <- <-] _; exists x; reflexivity|]. split; [cbn; lia|discriminate].
      + intros (vs & fs & Hvs & Hfs & Lf & E). pose proof (all_ok_spec (vs ++ fs)) as A. destruct (all_ok (vs ++ fs)) as [xs|]; [|discriminate]. injection E as ->.
        assert (U : unindexed F T (map (fun x : pval => ((-1)%Z, x)) xs) = xs).
        { clear. unfold unindexed. induction xs as [|x xs IH]; [reflexivity|]. cbn [map filter fst]. change (Z.eqb (-1) (-1)) with true. cbn [map snd]. f_equal. exact IH. }
        rewrite U. assert (L : List.length xs = List.length vals + files).
        { apply (f_equal (@List.length _)) in A. rewrite app_length, map_length in A. rewrite <- (Forall2_length _ _ _ Hvs), Lf in A. lia. }
        split; [intros j y Hin; apply in_map_iff in Hin as (z & X & _); injection X as <- <-; lia|].
        split; [intros j y Hj Hin; apply in_map_iff in Hin as (z & X & _); injection X as <- <-; lia|].
        split; [intros Hne; split; [reflexivity|]; destruct vals; [right; intros ->; destruct xs; [congruence|discriminate L]|left; discriminate]|].
        split; [intros j s [= <- <-] Hj; lia|]. split; [lia|]. intros _.
        symmetry in A. apply map_eq_app in A as (xs1 & xs2 & -> & E1 & E2). exists xs1, xs2. split; [reflexivity|].
        split; [subst vs; clear - Hvs; remember (map Ok xs1) as vs; revert xs1 Heqvs; induction Hvs as [|a b l l' H Hvs IH]; intros [|x xs] E; try discriminate; constructor; cbn in E; [injection E as -> _; exact H|apply IH; injection E; auto]|].
        split; [rewrite <- Lf, <- E2, map_length; reflexivity|]. rewrite <- E2 in Hfs. rewrite Forall_forall in *. intros y Hy. apply Hfs, in_map. exact Hy.
    - intros [= ->]. split; [intros i x []|]. split; [intros i x _ []|]. split; [intros H; exfalso; apply H; reflexivity|]. split; [discriminate|]. split; [cbn; lia|discriminate].
  Qed.
  Lemma process_det (be : binder) p name key vals files r1 r2 :
    (forall n a b, be p n a -> be p n b -> a = b) -> (forall v a b, be (single v) [] a -> be (single v) [] b -> a = b) -> (forall a b, be file_only [] a -> be file_only [] b -> a = b) ->
    process be p name (normalize name key) vals files r1 -> process be p name (normalize name key) vals files r2 -> r1 = r2.
  Proof.
    intros D1 D2 D3. rewrite !process_cases. destruct (elem_of name key) as [(i & sub)|]; [|congruence]. destruct (-1 <? i)%Z.
    - intros (v1 & H1 & ->) (v2 & H2 & ->). rewrite (D1 _ _ _ H1 H2). reflexivity.
    - intros (vs1 & fs1 & H1 & F1 & L1 & ->) (vs2 & fs2 & H2 & F2 & L2 & ->). rewrite (Forall2_det _ _ _ _ H1 H2) by (intros a b1 b2 _; apply D2).
      assert (E : fs1 = fs2).
      { rewrite <- L2 in L1. clear - D3 F1 F2 L1. revert fs2 F2 L1. induction F1 as [|x l Hx F1 IH]; intros [|y l2] F2 L; try discriminate; [reflexivity|]. inversion F2; subst. f_equal; [apply D3; assumption|apply IH; [assumption|cbn in L; lia]]. }
      rewrite E. reflexivity.
  Qed.

  (** ** Slices *)
  Definition entry_ok (be : binder) (p : params) (name : bytes) (svs : list (Z * pval)) : Prop :=
    indices_ok F T svs /\
    (forall i x, (0 <= i)%Z -> In (i, x) svs -> exists k sub, In k (keys p) /\ elem_of name k = Some (i, sub) /\ be p sub (Ok x)) /\
    (forall k i sub, In k (keys p) -> elem_of name k = Some (i, sub) -> (0 <= i)%Z -> exists x, In (i, x) svs).
  (** lists of entries with their results *)
  Lemma slice_entries be p name ov of_ rv rf svs : Permutation (p_vals p) ov -> Permutation (p_files p) of_ ->
    Forall2 (fun kv s => process be p name (normalize name (fst kv)) (snd kv) 0 s) ov rv ->
    Forall2 (fun kf s => process be p name (normalize name (fst kf)) [] (snd kf) s) of_ rf ->
    all_ok (rv ++ rf) = Ok svs -> entry_ok be p name (List.concat svs).
  Proof.
    intros Pv Pf Hv Hf E. pose proof (all_ok_spec (rv ++ rf)) as A. rewrite E in A. clear E.
    assert (G : forall l, In l svs -> exists k vals files, In k (keys p) /\ process be p name (normalize name k) vals files (Ok l)).
    { intros l Hl. assert (X : In (Ok l) (rv ++ rf)) by (rewrite A; apply in_map; exact Hl). apply in_app_iff in X as [X|X].
      - destruct (Forall2_in_r _ _ _ _ Hv X) as ((k & vs) & Hk & Hp). exists k, vs, 0. split; [|exact Hp]. apply in_app_iff. left. apply (Permutation_in _ (Permutation_sym Pv)) in Hk. apply in_map_iff. exists (k, vs). auto.
      - destruct (Forall2_in_r _ _ _ _ Hf X) as ((k & n) & Hk & Hp). exists k, [], n. split; [|exact Hp]. apply in_app_iff. right. apply (Permutation_in _ (Permutation_sym Pf)) in Hk. apply in_map_iff. exists (k, n). auto. }
    split; [|split].
    - intros i x Hin. apply in_concat in Hin as (l & Hl & Hx). destruct (G l Hl) as (k & vs & n & _ & Hp). apply process_ok in Hp as (B & _). exact (B i x Hx).
    - intros i x Hi Hin. apply in_concat in Hin as (l & Hl & Hx). destruct (G l Hl) as (k & vs & n & Hk & Hp). apply process_ok in Hp as (_ & B & _). destruct (B i x Hi Hx) as (sub & E & Hb). exists k, sub. auto.
    - intros k i sub Hk E Hi. assert (X : exists l, In l svs /\ exists vs n, process be p name (normalize name k) vs n (Ok l)).
      { apply in_app_iff in Hk as [Hk|Hk]; apply in_map_iff in Hk as ((k' & w) & <- & Hk).
        - apply (Permutation_in _ Pv) in Hk. destruct (Forall2_in_l _ _ _ _ Hv Hk) as (b & Hb & Hp). assert (Y : In b (rv ++ rf)) by (apply in_app_iff; left; exact Hb). rewrite A in Y. apply in_map_iff in Y as (l & <- & Hl). exists l. split; [exact Hl|]. exists w, 0. exact Hp.
        - apply (Permutation_in _ Pf) in Hk. destruct (Forall2_in_l _ _ _ _ Hf Hk) as (b & Hb & Hp). assert (Y : In b (rv ++ rf)) by (apply in_app_iff; right; exact Hb). rewrite A in Y. apply in_map_iff in Y as (l & <- & Hl). exists l. split; [exact Hl|]. exists [], w. exact Hp. }
      destruct X as (l & Hl & vs & n & Hp). apply process_ok in Hp as (_ & _ & _ & B & _). destruct (B i sub E Hi) as (x & ->). exists x. apply in_concat. exists [(i, x)]. split; [exact Hl|left; reflexivity].
  Qed.
  Lemma free_count be p name : forall (ov : values) rv svs,
    Forall2 (fun kv s => process be p name (normalize name (fst kv)) (snd kv) 0 s) ov rv -> rv = map Ok svs ->
    List.length (filter (fun x => negb (is_nil x)) (map (unindexed F T) svs)) <= List.length (filter (fun kv => free name (fst kv) && negb (is_nil (snd kv))) ov).
  Proof.
    intros ov rv svs H. revert svs. induction H as [|(k & vs) r ov rv Hp H IH]; intros [|l svs] E; try discriminate; [cbn; lia|]. cbn [map] in E. injection E as -> E. specialize (IH svs E).
    cbn [map filter fst snd] in *. apply process_ok in Hp as (_ & _ & B & _). destruct (unindexed F T l) as [|u us]; cbn [is_nil negb]; [destruct (_ && _)%bool; cbn; lia|].
    destruct (B ltac:(discriminate)) as (-> & [Hv|Hv]); [|congruence]. destruct vs; [congruence|]. cbn. lia.
  Qed.
  Lemma free_count_files be p name : forall (of_ : list (bytes * nat)) rf svs,
    Forall2 (fun kf s => process be p name (normalize name (fst kf)) [] (snd kf) s) of_ rf -> rf = map Ok svs ->
    List.length (filter (fun x => negb (is_nil x)) (map (unindexed F T) svs)) <= List.length (filter (fun kf => free name (fst kf) && negb (Nat.eqb (snd kf) 0)) of_).
  Proof.
    intros of_ rf svs H. revert svs. induction H as [|(k & n) r of_ rf Hp H IH]; intros [|l svs] E; try discriminate; [cbn; lia|]. cbn [map] in E. injection E as -> E. specialize (IH svs E).
    cbn [map filter fst snd] in *. apply process_ok in Hp as (_ & _ & B & _). destruct (unindexed F T l) as [|u us]; cbn [is_nil negb]; [destruct (_ && _)%bool; cbn; lia|].
    destruct (B ltac:(discriminate)) as (-> & [Hv|Hv]); [congruence|]. destruct (Nat.eqb_spec n 0); [congruence|]. cbn. lia.
  Qed.
  Lemma unindexed_concat svs : unindexed F T (List.concat svs) = List.concat (map (unindexed F T) svs).
  Proof. induction svs as [|l svs IH]; [reflexivity|]. cbn [List.concat map]. unfold unindexed in *. rewrite filter_app, map_app, IH. reflexivity. Qed.
  Lemma bind_slice_det (be : binder) zero p name r1 r2 :
    (forall n a b, be p n a -> be p n b -> a = b) -> (forall v a b, be (single v) [] a -> be (single v) [] b -> a = b) -> (forall a b, be file_only [] a -> be file_only [] b -> a = b) ->
    tidy p name -> bind_slice be zero p name r1 -> bind_slice be zero p name r2 -> r1 = r2.
  Proof.
    intros D1 D2 D3 (Ta & Tb) (ov1 & of1 & rv1 & rf1 & Pv1 & Pf1 & Hv1 & Hf1 & ->) (ov2 & of2 & rv2 & rf2 & Pv2 & Pf2 & Hv2 & Hf2 & ->).
    assert (Pv : Permutation rv1 rv2).
    { destruct (Permutation_Forall2 (perm_trans (Permutation_sym Pv1) Pv2) Hv1) as (rv2' & P & H). rewrite (Forall2_det _ _ _ _ Hv2 H); [exact P|]. intros kv b1 b2 _. apply process_det; assumption. }
    assert (Pf : Permutation rf1 rf2).
    { destruct (Permutation_Forall2 (perm_trans (Permutation_sym Pf1) Pf2) Hf1) as (rf2' & P & H). rewrite (Forall2_det _ _ _ _ Hf2 H); [exact P|]. intros kv b1 b2 _. apply process_det; assumption. }
    pose proof (all_ok_perm _ _ (Permutation_app Pv Pf)) as Q.
    destruct (all_ok (rv1 ++ rf1)) as [s1|] eqn:E1, (all_ok (rv2 ++ rf2)) as [s2|] eqn:E2; try contradiction; [|reflexivity]. cbn [RouterModel.bind].
    destruct (slice_entries be p name _ _ _ _ _ Pv1 Pf1 Hv1 Hf1 E1) as (I1 & I2 & _).
    apply assemble_perm.
    - exact I1.
    - apply perm_concat. exact Q.
    - rewrite !unindexed_concat. apply perm_lone; [apply Permutation_map; exact Q|].
      pose proof (all_ok_spec (rv1 ++ rf1)) as A. rewrite E1 in A. symmetry in A. apply map_eq_app in A as (a & b & -> & Ea & Eb). rewrite map_app, filter_app, app_length.
      pose proof (free_count be p name ov1 rv1 a Hv1 (eq_sym Ea)) as C1. pose proof (free_count_files be p name of1 rf1 b Hf1 (eq_sym Eb)) as C2.
      rewrite <- (Permutation_length (perm_filter _ _ _ Pv1)) in C1. rewrite <- (Permutation_length (perm_filter _ _ _ Pf1)) in C2. lia.
    - intros i x y Hi Hx Hy. destruct (I2 i x Hi Hx) as (k1 & u1 & K1 & E3 & B1). destruct (I2 i y Hi Hy) as (k2 & u2 & K2 & E4 & B2).
      rewrite (Tb k1 k2 i u1 u2 K1 K2 Hi E3 E4) in B1. pose proof (D1 _ _ _ B1 B2) as X. congruence.
  Qed.

  (** ** Structs *)
  (** some key is [name].[n], possibly followed by . or [ *)
  Definition wants (name : bytes) (ks : list bytes) (n : bytes) : Prop :=
    exists key, In key ks /\ has_prefix key (name ++ bs ".") = true /\ next_key (skipn (List.length name + 1) key) = n.
  Lemma next_key_prefix s : exists t, s = next_key s ++ t.
  Proof. unfold next_key. destruct (index_any s _); [exists (skipn n s); rewrite firstn_skipn; reflexivity|exists []; rewrite app_nil_r; reflexivity]. Qed.
  Lemma cut_field name key n : has_prefix key (name ++ bs ".") = true -> next_key (skipn (List.length name + 1) key) = n ->
    firstn (List.length name + 1 + List.length n) key = name ++ bs "." ++ n.
  Proof.
    intros H E. apply has_prefix_spec in H as (t & ->).
    assert (S1 : skipn (List.length name + 1) ((name ++ bs ".") ++ t) = t).
    { replace (List.length name + 1) with (List.length (name ++ bs ".")) by (rewrite app_length; reflexivity). apply skipn_app_len. }
    rewrite S1 in E. destruct (next_key_prefix t) as (u & Hu). rewrite E in Hu. rewrite Hu, app_assoc.
    replace (List.length name + 1 + List.length n) with (List.length ((name ++ bs ".") ++ n)) by (rewrite !app_length; reflexivity). rewrite firstn_app_len. rewrite <- app_assoc. reflexivity.
  Qed.
  Lemma field_index_inj {A} (fs : list (bytes * bool * A)) n m : forall i s x s' y, field_index fs n = Some (i, s, x) -> field_index fs m = Some (i, s', y) -> n = m.
  Proof.
    induction fs as [|((k & b) & a) fs IH]; intros i s x s' y; [discriminate|]. cbn [field_index]. destruct (beq_spec k n) as [->|Hn].
    - intros [= <- <- <-]. destruct (beq_spec n m) as [->|_]; [reflexivity|]. destruct (field_index fs m) as [((? & ?) & ?)|]; discriminate.
    - destruct (field_index fs n) as [((j & s1) & x1)|]; [|discriminate]. intros [= <- <- <-]. destruct (beq_spec k m) as [->|_]; [discriminate|].
      destruct (field_index fs m) as [((j2 & s2) & x2)|] eqn:E; [|discriminate]. intros [= -> <- <-]. eapply IH; [reflexivity|exact eq_refl] || (eapply IH; eauto).
  Qed.
  Lemma field_index_lt {A} (fs : list (bytes * bool * A)) n : forall i s x, field_index fs n = Some (i, s, x) -> i < List.length fs.
  Proof.
    induction fs as [|((k & b) & a) fs IH]; intros i s x; [discriminate|]. cbn [field_index List.length]. destruct (beq k n); [intros [= <- _ _]; lia|].
    destruct (field_index fs n) as [((j & s1) & x1)|]; [|discriminate]. intros [= <- _ _]. specialize (IH j s1 x1 eq_refl). lia.
  Qed.
  Lemma struct_loop_spec fs p name : forall ks done_ cur r, List.length cur = List.length fs -> struct_loop fs p name ks done_ cur r ->
    match r with
    | Panic => exists n i b, wants name ks n /\ field_index fs n = Some (i, true, b) /\ b p (name ++ bs "." ++ n) Panic
    | Ok v => exists out, v = PVStruct F T out /\ List.length out = List.length cur /\
        (forall n i b, wants name ks n -> ~ In n done_ -> field_index fs n = Some (i, true, b) -> exists x, b p (name ++ bs "." ++ n) (Ok x) /\ nth_error out i = Some x) /\
        (forall i, (forall n b, wants name ks n -> ~ In n done_ -> field_index fs n <> Some (i, true, b)) -> nth_error out i = nth_error cur i)
    end.
  Proof.
    induction ks as [|key ks IH]; intros done_ cur r Hl H.
    - cbn in H. subst r. exists cur. split; [reflexivity|]. split; [reflexivity|]. split; [intros n i b (k & [] & _)|reflexivity].
    - cbn [ParamsModel.struct_loop] in H.
      assert (Skip : (forall n i b, has_prefix key (name ++ bs ".") = true -> next_key (skipn (List.length name + 1) key) = n -> ~ In n done_ -> field_index fs n <> Some (i, true, b)) ->
        struct_loop fs p name ks done_ cur r -> match r with
        | Panic => exists n i b, wants name (key :: ks) n /\ field_index fs n = Some (i, true, b) /\ b p (name ++ bs "." ++ n) Panic
        | Ok v => exists out, v = PVStruct F T out /\ List.length out = List.length cur /\
            (forall n i b, wants name (key :: ks) n -> ~ In n done_ -> field_index fs n = Some (i, true, b) -> exists x, b p (name ++ bs "." ++ n) (Ok x) /\ nth_error out i = Some x) /\
            (forall i, (forall n b, wants name (key :: ks) n -> ~ In n done_ -> field_index fs n <> Some (i, true, b)) -> nth_error out i = nth_error cur i)
        end).
      { intros Hs HH. specialize (IH done_ cur r Hl HH). destruct r as [v|].
        - destruct IH as (out & E & L & A & B). exists out. split; [exact E|]. split; [exact L|]. split.
          + intros n i b (k & [<-|Hk] & Hp & Hn) Hd Hf; [exfalso; exact (Hs n i b Hp Hn Hd Hf)|]. apply (A n i b); [exists k; auto|exact Hd|exact Hf].
          + intros i Hi. apply B. intros n b (k & Hk & Hp) Hd. apply Hi; [exists k; split; [right; exact Hk|exact Hp]|exact Hd].
        - destruct IH as (n & i & b & (k & Hk & Hp) & X). exists n, i, b. split; [exists k; split; [right; exact Hk|exact Hp]|exact X]. }
      destruct (has_prefix key (name ++ bs ".")) eqn:Hp; cbn [negb] in H; [|apply Skip; [discriminate|exact H]].
      set (fn := next_key (skipn (List.length name + 1) key)) in *.
      assert (Ed : existsb (beq fn) done_ = true <-> In fn done_).
      { rewrite existsb_exists. split; [intros (x & Hx & E); apply beq_true in E; congruence|intros Hx; exists fn; split; [exact Hx|apply beq_refl]]. }
      destruct (existsb (beq fn) done_) eqn:Eb.
      { apply Skip; [|exact H]. intros n i b _ <- Hd. exfalso. apply Hd, Ed. reflexivity. }
      assert (Hnd : ~ In fn done_) by (intros X; apply Ed in X; discriminate). clear Ed.
      destruct (field_index fs fn) as [((i & s) & b)|] eqn:Ef; [|apply Skip; [intros n i b _ <- _; congruence|exact H]].
      destruct s; [|apply Skip; [intros n j b' _ <- _; congruence|exact H]].
      destruct H as (v & Hv & H). rewrite (cut_field name key fn Hp eq_refl) in Hv.
      destruct v as [x|].
      + specialize (IH (fn :: done_) (set_nth cur i x) r ltac:(rewrite set_nth_length; exact Hl) H). destruct r as [v|].
        * destruct IH as (out & E & L & A & B). rewrite set_nth_length in L. exists out. split; [exact E|]. split; [exact L|]. split.
          -- intros n j b' Hw Hd Hf. destruct (bytes_eq_dec fn n) as [<-|Hne].
             ++ assert (j = i /\ b' = b) as (-> & ->) by (split; congruence). exists x. split; [exact Hv|].
                rewrite (B i). { rewrite nth_set_nth, Nat.eqb_refl, Hl. replace (Nat.ltb i (List.length fs)) with true; [reflexivity|]. symmetry. apply Nat.ltb_lt. eapply field_index_lt. exact Ef. }
                intros n b2 _ Hd2 Hf2. apply Hd2. left. eapply field_index_inj; eassumption.
             ++ apply (A n j b'); [|intros [X|X]; [contradiction|contradiction]|exact Hf]. destruct Hw as (k & [<-|Hk] & Hpk & Hn); [contradiction|]. exists k. auto.
          -- intros j Hj. rewrite (B j).
             ++ rewrite nth_set_nth. destruct (Nat.eqb_spec i j) as [->|]; [|reflexivity]. exfalso. apply (Hj fn b); [exists key; split; [left; reflexivity|split; [exact Hp|reflexivity]]|exact Hnd|exact Ef].
             ++ intros n b2 (k & Hk & Hpk) Hd2. apply Hj; [exists k; split; [right; exact Hk|exact Hpk]|]. intros X. apply Hd2. right. exact X.
        * destruct IH as (n & j & b' & (k & Hk & Hpk) & X). exists n, j, b'. split; [exists k; split; [right; exact Hk|exact Hpk]|exact X].
      + subst r. exists fn, i, b. split; [exists key; split; [left; reflexivity|split; [exact Hp|reflexivity]]|]. split; [exact Ef|exact Hv].
  Qed.
  Lemma field_index_nth {A} (fs : list (bytes * bool * A)) n : forall i s x, field_index fs n = Some (i, s, x) -> nth_error fs i = Some (n, s, x).
  Proof.
    induction fs as [|((k & b) & a) fs IH]; intros i s x; [discriminate|]. cbn [field_index]. destruct (beq_spec k n) as [->|_]; [intros [= <- <- <-]; reflexivity|].
    destruct (field_index fs n) as [((j & s1) & x1)|]; [|discriminate]. intros [= <- <- <-]. exact (IH j s1 x1 eq_refl).
  Qed.
  Lemma wants_dec name ks n : wants name ks n \/ ~ wants name ks n.
  Proof.
    induction ks as [|k ks [IH|IH]].
    - right. intros (k & [] & _).
    - left. destruct IH as (k' & Hk & H). exists k'. split; [right; exact Hk|exact H].
    - destruct (has_prefix k (name ++ bs ".")) eqn:E; [destruct (bytes_eq_dec (next_key (skipn (List.length name + 1) k)) n) as [En|En]|].
      + left. exists k. split; [left; reflexivity|]. split; assumption.
      + right. intros (k' & [<-|Hk] & H1 & H2); [contradiction|]. apply IH. exists k'. auto.
      + right. intros (k' & [<-|Hk] & H1 & H2); [congruence|]. apply IH. exists k'. auto.
  Qed.
  Lemma wants_perm name a b n : Permutation a b -> wants name a n -> wants name b n.
  Proof. intros P (k & Hk & H). exists k. split; [eapply Permutation_in; eassumption|exact H]. Qed.
  Notation rels := (fun fs : list (bytes * bool * pty) => map (fun f => (fst f, binds (snd f))) fs).
  Lemma rels_in fs n i s b : field_index (rels fs) n = Some (i, s, b) -> exists t, nth_error fs i = Some (n, s, t) /\ b = binds t.
  Proof.
    intros H. apply field_index_nth in H. rewrite nth_error_map in H. destruct (nth_error fs i) as [((m & s') & t)|]; [|discriminate]. cbn in H. injection H as -> -> <-. exists t. auto.
  Qed.
  Fixpoint no_map (t : pty) : Prop :=
    match t with
    | PSlice e | PPtr e => no_map e
    | PMap _ _ => False
    | PStruct fs => (fix all (fs : list (bytes * bool * pty)) : Prop := match fs with [] => True | f :: r => no_map (snd f) /\ all r end) fs
    | _ => True
    end.
  Lemma no_map_struct fs : no_map (PStruct fs) -> forall f, In f fs -> no_map (snd f).
  Proof. induction fs as [|g fs IH]; intros H f []; destruct H as (H1 & H2); [subst g; exact H1|apply IH; assumption]. Qed.
  Lemma single_elem name v k : In k (keys (single v)) \/ In k (keys file_only) -> forall i sub, elem_of name k = Some (i, sub) -> i = (-1)%Z.
  Proof.
    intros Hk. assert (k = []) as -> by (destruct Hk as [Hk|Hk]; vm_compute in Hk; [destruct Hk as [H|[]]|destruct Hk as [H|[]]]; symmetry; exact H). intros i sub. unfold elem_of.
    assert (N : normalize name [] = bs "[]") by (unfold normalize, trim_prefix; destruct (has_prefix [] name); [rewrite skipn_nil|]; reflexivity). rewrite N.
    destruct (has_prefix (bs "[]") (name ++ bs "[")) eqn:E; [|discriminate]. assert (name = []) as ->.
    { apply has_prefix_spec in E as (t & E). destruct name as [|a [|b n]]; [reflexivity| |]; cbn in E; [injection E as _ E; discriminate E|injection E as _ _ E; destruct n; discriminate E]. }
    intros [= <- <-]. vm_compute. reflexivity.
  Qed.
  Lemma filter_length_le {A} (f : A -> bool) l : List.length (filter f l) <= List.length l.
  Proof. induction l as [|a l IH]; cbn; [lia|]. destruct (f a); cbn; lia. Qed.
  Lemma tidy_single v name : tidy (single v) name.
  Proof.
    split.
    - pose proof (filter_length_le (fun kv => free name (fst kv) && negb (is_nil (snd kv))) (p_vals (single v))) as A.
      change (p_files (single v)) with (@nil (bytes * nat)). cbn [filter List.length]. change (List.length (p_vals (single v))) with 1 in A. lia.
    - intros k1 k2 i s1 s2 H1 _ Hi E _. pose proof (single_elem name v k1 (or_introl H1) i s1 E). lia.
  Qed.
  Lemma tidy_file name : tidy file_only name.
  Proof.
    split.
    - pose proof (filter_length_le (fun kf => free name (fst kf) && negb (Nat.eqb (snd kf) 0)) (p_files file_only)) as A.
      change (p_vals file_only) with (@nil (bytes * list bytes)). cbn [filter List.length]. change (List.length (p_files file_only)) with 1 in A. lia.
    - intros k1 k2 i s1 s2 H1 _ Hi E _. pose proof (single_elem name [] k1 (or_intror H1) i s1 E). lia.
  Qed.
  (** ** Bind does not depend on the order of the maps *)
  Lemma binds_det t : no_map t -> forall p, (forall name, tidy p name) -> forall name r1 r2, binds t p name r1 -> binds t p name r2 -> r1 = r2.
  Proof.
    induction t as [|w|w|w| | | |e IH|e IH|k e IHk IHe|fs IHfs] using pty_deep; intros Hm p Ht name r1 r2 H1 H2;
      try (cbn [ParamsModel.binds] in H1, H2; unfold value_binder in H1, H2; congruence).
    - cbn [ParamsModel.binds] in H1, H2. cbn [no_map] in Hm. eapply bind_slice_det; [| | |apply Ht|exact H1|exact H2].
      + intros n a b. apply (IH Hm p Ht).
      + intros v a b. apply (IH Hm (single v) (tidy_single v)).
      + intros a b. apply (IH Hm file_only tidy_file).
    - cbn [ParamsModel.binds] in H1, H2. cbn [no_map] in Hm. unfold ptr_binder in H1, H2. destruct (aget (p_vals p) name) as [[|v l]|]; [congruence| |congruence].
      destruct H1 as (v1 & B1 & ->), H2 as (v2 & B2 & ->). rewrite (IH Hm p Ht _ _ _ B1 B2). reflexivity.
    - contradiction Hm.
    - cbn [ParamsModel.binds] in H1, H2. destruct H1 as (o1 & P1 & H1), H2 as (o2 & P2 & H2).
      assert (L : List.length (map (fun f => pzero F T fzero tzero (snd f)) fs) = List.length (rels fs)) by (rewrite !map_length; reflexivity).
      apply struct_loop_spec in H1; [|exact L]. apply struct_loop_spec in H2; [|exact L].
      assert (W : forall n, wants name (map fst o1) n <-> wants name (map fst o2) n).
      { intros n. split; apply wants_perm, Permutation_map; [|apply Permutation_sym]; exact (perm_trans (Permutation_sym P1) P2). }
      assert (D : forall n i b a c, field_index (rels fs) n = Some (i, true, b) -> b p (name ++ bs "." ++ n) a -> b p (name ++ bs "." ++ n) c -> a = c).
      { intros n i b a c Hf. apply rels_in in Hf as (t & Ht' & ->). rewrite Forall_forall in IHfs. apply nth_error_In in Ht'. apply (IHfs _ Ht' (no_map_struct fs Hm _ Ht') p Ht). }
      destruct r1 as [v1|], r2 as [v2|]; [| | |reflexivity].
      + destruct H1 as (u1 & -> & L1 & A1 & B1), H2 as (u2 & -> & L2 & A2 & B2). do 2 f_equal. apply nth_error_ext. intros i.
        destruct (nth_error (rels fs) i) as [((n & s) & b)|] eqn:En.
        * assert (Only : forall m b', field_index (rels fs) m = Some (i, true, b') -> m = n /\ s = true /\ b' = b).
          { intros m b' Hf. apply field_index_nth in Hf. rewrite En in Hf. injection Hf as -> -> ->. auto. }
          destruct (wants_dec name (map fst o1) n) as [Hw|Hw].
          -- destruct (field_index (rels fs) n) as [((j & s') & b')|] eqn:Ef; [destruct (Nat.eq_dec j i) as [->|Hji]; [destruct s'|]|].
             ++ destruct (A1 n i b' Hw (fun x => x) Ef) as (x1 & X1 & E1). destruct (A2 n i b' (proj1 (W n) Hw) (fun x => x) Ef) as (x2 & X2 & E2). pose proof (D _ _ _ _ _ Ef X1 X2). congruence.
             ++ rewrite (B1 i), (B2 i); [reflexivity| |]; intros m b2 _ _ Hf; destruct (Only m b2 Hf) as (-> & _); congruence.
             ++ rewrite (B1 i), (B2 i); [reflexivity| |]; intros m b2 _ _ Hf; destruct (Only m b2 Hf) as (-> & _); congruence.
             ++ rewrite (B1 i), (B2 i); [reflexivity| |]; intros m b2 _ _ Hf; destruct (Only m b2 Hf) as (-> & _); congruence.
          -- rewrite (B1 i), (B2 i); [reflexivity| |]; intros m b2 Hw2 _ Hf; destruct (Only m b2 Hf) as (-> & _); [apply W in Hw2|]; contradiction.
        * rewrite (B1 i), (B2 i); [reflexivity| |]; intros m b2 _ _ Hf; apply field_index_nth in Hf; congruence.
      + destruct H1 as (u1 & -> & L1 & A1 & B1), H2 as (n & i & b & Hw & Hf & X). apply W in Hw. destruct (A1 n i b Hw (fun x => x) Hf) as (x & Y & _). discriminate (D _ _ _ _ _ Hf X Y).
      + destruct H2 as (u2 & -> & L2 & A2 & B2), H1 as (n & i & b & Hw & Hf & X). apply W in Hw. destruct (A2 n i b Hw (fun x => x) Hf) as (x & Y & _). discriminate (D _ _ _ _ _ Hf X Y).
  Qed.
  (** ** Bind always returns or panics ... *)
  Lemma binds_total t : forall p name, exists r, binds t p name r.
  Proof.
    induction t as [|w|w|w| | | |e IH|e IH|k e IHk IHe|fs IHfs] using pty_deep; intros p name; try (eexists; reflexivity); cbn [ParamsModel.binds].
    - assert (PT : forall key vals files, exists r, process (binds e) p name (normalize name key) vals files r).
      { intros key vals files. destruct (elem_of name key) as [(i & sub)|] eqn:Ee; [destruct (-1 <? i)%Z eqn:Ei|].
        - destruct (IH p sub) as (v & Hv). eexists. apply process_cases. rewrite Ee, Ei. exists v. split; [exact Hv|reflexivity].
        - destruct (Forall2_exists (fun val v => binds e (single val) [] v) vals) as (vs & Hvs); [intros; apply IH|]. destruct (IH file_only []) as (f & Hf).
          eexists. apply process_cases. rewrite Ee, Ei. exists vs, (repeat f files). split; [exact Hvs|]. split; [apply Forall_forall; intros x Hx; apply repeat_spec in Hx; subst x; exact Hf|]. split; [apply repeat_length|reflexivity].
        - exists (Ok []). apply process_cases. rewrite Ee. reflexivity. }
      destruct (Forall2_exists (fun kv s => process (binds e) p name (normalize name (fst kv)) (snd kv) 0 s) (p_vals p)) as (rv & Hv); [intros; apply PT|].
      destruct (Forall2_exists (fun kf s => process (binds e) p name (normalize name (fst kf)) [] (snd kf) s) (p_files p)) as (rf & Hf); [intros; apply PT|].
      eexists. exists (p_vals p), (p_files p), rv, rf. split; [apply Permutation_refl|]. split; [apply Permutation_refl|]. split; [exact Hv|]. split; [exact Hf|reflexivity].
    - unfold ptr_binder. destruct (aget (p_vals p) name) as [[|v l]|]; try (eexists; reflexivity). destruct (IH p name) as (r & Hr). eexists. exists r. split; [exact Hr|reflexivity].
    - assert (ML : forall kvs m, exists r, map_loop (binds k) (binds e) kvs m r).
      { induction kvs as [|(a & v) kvs IH]; intros m; [eexists; reflexivity|]. cbn [ParamsModel.map_loop]. destruct (IHk (single a) []) as ([x|] & Hx); [|exists Panic, Panic; split; [exact Hx|reflexivity]].
        destruct v as [v|]; [|exists Panic, (Ok x); split; [exact Hx|reflexivity]]. destruct (IHe (single v) []) as ([y|] & Hy).
        - destruct (IH (map_set F T m x y)) as (r & Hr). exists r, (Ok x). split; [exact Hx|]. exists (Ok y). split; assumption.
        - exists Panic, (Ok x). split; [exact Hx|]. exists Panic. split; [exact Hy|reflexivity]. }
      unfold bind_map. destruct (is_nil _).
      + destruct (ML (map_entries name (p_vals p)) []) as (r & Hr). exists r, (p_vals p). split; [apply Permutation_refl|exact Hr].
      + destruct (ML (map (fun kv => (fst kv, Some (snd kv))) (json_map (match aget (p_vals p) name with Some (v :: _) => v | _ => [] end))) []) as (r & Hr).
        exists r. eexists. split; [apply Permutation_refl|exact Hr].
    - assert (SL : forall ks done_ cur, exists r, struct_loop (rels fs) p name ks done_ cur r).
      { induction ks as [|key ks IH]; intros done_ cur; [eexists; reflexivity|]. cbn [ParamsModel.struct_loop]. destruct (negb _); [apply IH|]. destruct (existsb _ _); [apply IH|].
        destruct (field_index (rels fs) _) as [((i & s) & b)|] eqn:Ef; [|apply IH]. destruct s; [|apply IH]. apply rels_in in Ef as (t & Ht & ->). apply nth_error_In in Ht. rewrite Forall_forall in IHfs.
        destruct (IHfs _ Ht p (firstn (List.length name + 1 + List.length (next_key (skipn (List.length name + 1) key))) key)) as ([x|] & Hx).
        - destruct (IH (next_key (skipn (List.length name + 1) key) :: done_) (set_nth cur i x)) as (r & Hr). exists r, (Ok x). split; [exact Hx|exact Hr].
        - exists Panic, Panic. split; [exact Hx|reflexivity]. }
      destruct (SL (map fst (p_vals p)) [] (map (fun f => pzero F T fzero tzero (snd f)) fs)) as (r & Hr). exists r, (p_vals p). split; [apply Permutation_refl|exact Hr].
  Qed.
  (** ** ... and does not panic without huge indices and empty lists *)
  Definition total (p : params) : nat := list_sum (map (fun kv => List.length (snd kv)) (p_vals p)) + list_sum (map snd (p_files p)).
  Definition safe (p : params) : Prop :=
    (forall name key i sub, In key (keys p) -> elem_of name key = Some (i, sub) -> (i < 2 ^ 62)%Z) /\ (Z.of_nat (total p) < 2 ^ 62)%Z /\
    (forall key vals, In (key, vals) (p_vals p) -> vals <> []).
  Lemma safe_single v : safe (single v).
  Proof.
    split; [|split].
    - intros name key i sub Hk E. pose proof (single_elem name v key (or_introl Hk) i sub E). lia.
    - vm_compute. reflexivity.
    - intros key vals [E|[]]. congruence.
  Qed.
  Lemma safe_file : safe file_only.
  Proof.
    split; [|split].
    - intros name key i sub Hk E. pose proof (single_elem name [] key (or_intror Hk) i sub E). lia.
    - vm_compute. reflexivity.
    - intros key vals [].
  Qed.
  Lemma list_sum_perm a b : Permutation a b -> list_sum a = list_sum b.
  Proof.
    assert (C : forall x l, list_sum (x :: l) = x + list_sum l) by reflexivity.
    induction 1 as [|x l l' _ IH|x y l|l l' l'' _ IH1 _ IH2]; rewrite ?C; [reflexivity|rewrite IH; reflexivity|lia|congruence].
  Qed.
  Lemma unindexed_le_vals be p name : forall ov rv svs, Forall2 (fun kv s => process be p name (normalize name (fst kv)) (snd kv) 0 s) ov rv -> rv = map Ok svs ->
    List.length (List.concat (map (unindexed F T) svs)) <= list_sum (map (fun kv => List.length (snd kv)) ov).
  Proof.
    intros ov rv svs H. revert svs. induction H as [|(k & vs) r ov rv Hp H IH]; intros [|l svs] E; try discriminate; [cbn; lia|]. cbn [map] in E. injection E as -> E. specialize (IH svs E).
    apply process_ok in Hp as (_ & _ & _ & _ & B & _). cbn [map List.concat snd fst] in *. rewrite app_length. change (list_sum (List.length vs :: map (fun kv : bytes * list bytes => List.length (snd kv)) ov)) with (List.length vs + list_sum (map (fun kv : bytes * list bytes => List.length (snd kv)) ov)). lia.
  Qed.
  Lemma unindexed_le_files be p name : forall of_ rf svs, Forall2 (fun kf s => process be p name (normalize name (fst kf)) [] (snd kf) s) of_ rf -> rf = map Ok svs ->
    List.length (List.concat (map (unindexed F T) svs)) <= list_sum (map snd of_).
  Proof.
    intros of_ rf svs H. revert svs. induction H as [|(k & n) r of_ rf Hp H IH]; intros [|l svs] E; try discriminate; [cbn; lia|]. cbn [map] in E. injection E as -> E. specialize (IH svs E).
    apply process_ok in Hp as (_ & _ & _ & _ & B & _). cbn [map List.concat snd fst List.length] in *. rewrite app_length. change (list_sum (n :: map snd of_)) with (n + list_sum (map snd of_)). lia.
  Qed.
  Lemma bind_slice_safe (be : binder) zero p name r : safe p -> (forall n, ~ be p n Panic) -> (forall v, ~ be (single v) [] Panic) -> ~ be file_only [] Panic ->
    bind_slice be zero p name r -> r <> Panic.
  Proof.
    intros (S1 & S2 & _) B1 B2 B3 (ov & of_ & rv & rf & Pv & Pf & Hv & Hf & ->).
    assert (NP : forall key vals files, ~ process be p name (normalize name key) vals files Panic).
    { intros key vals files H. apply process_cases in H. destruct (elem_of name key) as [(i & sub)|]; [|discriminate]. destruct (-1 <? i)%Z.
      - destruct H as (v & Hb & E). destruct v; [discriminate|]. exact (B1 _ Hb).
      - destruct H as (vs & fs & H1 & H2 & _ & E). pose proof (all_ok_spec (vs ++ fs)) as A. destruct (all_ok (vs ++ fs)); [discriminate|]. apply in_app_iff in A as [A|A].
        + destruct (Forall2_in_r _ _ _ _ H1 A) as (x & _ & Hx). exact (B2 _ Hx).
        + rewrite Forall_forall in H2. exact (B3 (H2 _ A)). }
    pose proof (all_ok_spec (rv ++ rf)) as A. destruct (all_ok (rv ++ rf)) as [svs|] eqn:E.
    - cbn [RouterModel.bind]. destruct (slice_entries be p name _ _ _ _ _ Pv Pf Hv Hf E) as (I1 & I2 & _). intros X. apply assemble_spec in X; [|exact I1].
      assert (M : (max_index F T (List.concat svs) < 2 ^ 62)%Z).
      { destruct (max_index_spec F T (List.concat svs)) as (M1 & _ & [M3|(x & M3)]); [lia|]. destruct (Z.lt_ge_cases (max_index F T (List.concat svs)) 0) as [|M4]; [lia|].
        destruct (I2 _ x M4 M3) as (k & sub & Hk & Ek & _). exact (S1 name k _ sub Hk Ek). }
      assert (U : List.length (unindexed F T (List.concat svs)) <= total p).
      { rewrite unindexed_concat. symmetry in A. apply map_eq_app in A as (a & b & -> & Ea & Eb). rewrite map_app, concat_app, app_length.
        pose proof (unindexed_le_vals be p name ov rv a Hv (eq_sym Ea)) as C1. pose proof (unindexed_le_files be p name of_ rf b Hf (eq_sym Eb)) as C2.
        rewrite <- (list_sum_perm _ _ (Permutation_map _ Pv)) in C1. rewrite <- (list_sum_perm _ _ (Permutation_map _ Pf)) in C2. unfold total. lia. }
      lia.
    - exfalso. apply in_app_iff in A as [A|A].
      + destruct (Forall2_in_r _ _ _ _ Hv A) as (kv & _ & Hp). exact (NP _ _ _ Hp).
      + destruct (Forall2_in_r _ _ _ _ Hf A) as (kf & _ & Hp). exact (NP _ _ _ Hp).
  Qed.
  Lemma map_loop_safe (bk be : binder) : (forall v, ~ bk (single v) [] Panic) -> (forall v, ~ be (single v) [] Panic) -> forall kvs, (forall k, ~ In (k, None) kvs) -> forall m r, map_loop bk be kvs m r -> r <> Panic.
  Proof.
    intros B1 B2. induction kvs as [|(k & v) kvs IH]; intros Hn m r H; [cbn in H; subst; discriminate|]. cbn [ParamsModel.map_loop] in H. destruct H as (x & Hx & H).
    destruct x as [x|]; [|exfalso; exact (B1 _ Hx)]. destruct v as [v|]; [|exfalso; apply (Hn k); left; reflexivity]. destruct H as (y & Hy & H). destruct y as [y|]; [|exfalso; exact (B2 _ Hy)].
    eapply IH; [|exact H]. intros k' X. apply (Hn k'). right. exact X.
  Qed.
  Lemma binds_safe t : forall p, safe p -> forall name r, binds t p name r -> r <> Panic.
  Proof.
    induction t as [|w|w|w| | | |e IH|e IH|k e IHk IHe|fs IHfs] using pty_deep; intros p Hs name r H; try (cbn [ParamsModel.binds] in H; unfold value_binder in H; congruence); cbn [ParamsModel.binds] in H.
    - eapply bind_slice_safe; [exact Hs| | | |exact H].
      + intros n X. exact (IH p Hs n _ X eq_refl).
      + intros v X. exact (IH _ (safe_single v) _ _ X eq_refl).
      + intros X. exact (IH _ safe_file _ _ X eq_refl).
    - unfold ptr_binder in H. destruct (aget (p_vals p) name) as [[|v l]|]; [congruence| |congruence]. destruct H as (v' & Hv & ->). destruct v' as [x|]; [discriminate|]. exfalso. exact (IH p Hs _ _ Hv eq_refl).
    - unfold bind_map in H. assert (B1 : forall v, ~ binds k (single v) [] Panic) by (intros v X; exact (IHk _ (safe_single v) _ _ X eq_refl)). assert (B2 : forall v, ~ binds e (single v) [] Panic) by (intros v X; exact (IHe _ (safe_single v) _ _ X eq_refl)).
      destruct (is_nil _); destruct H as (o & P & H); eapply map_loop_safe; try exact H; try assumption.
      + intros k' X. unfold map_entries in X. apply in_flat_map in X as ((key & vals) & Hin & X). cbn [fst snd] in X. destruct (_ && _)%bool; [|exact X]. destruct X as [X|[]]. injection X as _ X.
        destruct Hs as (_ & _ & S3). apply (Permutation_in _ (Permutation_sym P)) in Hin. specialize (S3 key vals Hin). destruct vals; [congruence|discriminate].
      + intros k' X. apply in_map_iff in X as (? & X & _). discriminate X.
    - destruct H as (ov & P & H). apply struct_loop_spec in H; [|rewrite !map_length; reflexivity]. destruct r as [v|]; [discriminate|]. exfalso. destruct H as (n & i & b & _ & Hf & Hb).
      apply rels_in in Hf as (t & Ht & ->). apply nth_error_In in Ht. rewrite Forall_forall in IHfs. exact (IHfs _ Ht p Hs _ _ Hb eq_refl).
  Qed.
End Binders.
