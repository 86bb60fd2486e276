(** Props_ParamsOrder: C68, what the order of the maps can change in a bound value (/repo/params/binder.go). *)
From Coq Require Import List Ascii String Bool Arith ZArith Lia Permutation.
Import ListNotations.
From Verif Require Import GoStr GoNum RouterModel ConvModel ConvFacts ParamsModel ParamsFacts Props_Params Props_ParamsBind Props_ParamsPanic.

Set Default Proof Using "Type".
Lemma perm_flat_map {A B} (f : A -> list B) l1 l2 : Permutation l1 l2 -> Permutation (flat_map f l1) (flat_map f l2).
Proof. intros P. rewrite !flat_map_concat_map. apply perm_concat, Permutation_map. exact P. Qed.
Lemma Forall2_both {A B C} (R : A -> B -> Prop) (S : A -> C -> Prop) (Q : B -> C -> Prop) l r s :
  Forall2 R l r -> Forall2 S l s -> (forall a b c, In a l -> R a b -> S a c -> Q b c) -> Forall2 Q r s.
Proof.
  intros H. revert s. induction H as [|a b l r Hab H IH]; intros s Hs HQ; inversion Hs as [|a' c l' s' Hac Hs']; subst; constructor.
  - exact (HQ a b c (or_introl eq_refl) Hab Hac).
  - apply IH; [exact Hs'|]. intros x y z Hx. apply HQ. right. exact Hx.
Qed.
Lemma Forall2_of_Forall {A} (P : A -> Prop) (Q : A -> A -> Prop) l : forall m, List.length l = List.length m -> Forall P l -> Forall P m -> (forall a b, P a -> P b -> Q a b) -> Forall2 Q l m.
Proof. induction l as [|a l IH]; intros [|b m] L H1 H2 HQ; try discriminate; [constructor|]. inversion H1; inversion H2; subst. constructor; auto. Qed.
Lemma Forall2_nth {A B} (R : A -> B -> Prop) l m : List.length l = List.length m -> (forall j x y, nth_error l j = Some x -> nth_error m j = Some y -> R x y) -> Forall2 R l m.
Proof.
  revert m. induction l as [|a l IH]; intros [|b m] L H; try discriminate; [constructor|]. constructor; [exact (H 0 a b eq_refl eq_refl)|]. apply IH; [injection L; auto|]. intros j x y. exact (H (S j) x y).
Qed.

Section Orders.
  Variable F T : Type.
  Variable fzero : F.
  Variable tzero : T.
  Variable parse_float : bytes -> option F.
  Variable round_float : nat -> F -> F.
  Variable formats : list bytes.
  Variable parse_zone parse_local : bytes -> bytes -> option T.
  Variable unix : Z -> T.
  Variable json_map : bytes -> list (bytes * bytes).
  Hypothesis json_ok : forall s, NoDup (map fst (json_map s)).       (* a Go map *)
  Notation binds := (binds F T fzero tzero parse_float round_float formats parse_zone parse_local unix json_map).
  Notation pval := (pval F T).
  Notation PVSlice := (PVSlice F T).
  Notation PVPtr := (PVPtr F T).
  Notation PVMap := (PVMap F T).
  Notation PVStruct := (PVStruct F T).
  Notation PVStr := (PVStr F T).
  Notation pzero := (pzero F T fzero tzero).

  (** ** Specification *)
  (** equal Go values: the entries of a map have no order *)
  Inductive veq : pval -> pval -> Prop :=
  | ve_same v : veq v v
  | ve_slice l m : Forall2 veq l m -> veq (PVSlice l) (PVSlice m)
  | ve_ptr v w : veq v w -> veq (PVPtr v) (PVPtr w)
  | ve_struct l m : Forall2 veq l m -> veq (PVStruct l) (PVStruct m)
  | ve_map l m m' : Permutation m m' -> Forall2 (fun a b => fst a = fst b /\ veq (snd a) (snd b)) l m' -> veq (PVMap l) (PVMap m).
  (** the keys of maps are strings *)
  Fixpoint string_keys (t : pty) : Prop :=
    match t with
    | PSlice e | PPtr e => string_keys e
    | PMap k e => k = PString /\ string_keys e
    | PStruct fs => (fix all (fs : list (bytes * bool * pty)) : Prop := match fs with [] => True | f :: r => string_keys (snd f) /\ all r end) fs
    | _ => True
    end.
  (** every index is written in one way: not a[1] and a[01] *)
  Definition one_spelling (p : params) : Prop := forall name k1 k2 i e1 e2,
    In k1 (names p) -> In k2 (names p) -> at_index name k1 i e1 -> at_index name k2 i e2 -> e1 = e2.
  (** equal up to the order of the slice elements that have no index *)
  Inductive alike (p : params) : pty -> bytes -> pval -> pval -> Prop :=
  | al_equal t name v w : veq v w -> alike p t name v w
  | al_ptr e name v w : alike p e name v w -> alike p (PPtr e) name (PVPtr v) (PVPtr w)
  | al_struct fs name l m : List.length l = List.length fs -> List.length m = List.length fs ->
      (forall i n s t x y, nth_error fs i = Some (n, s, t) -> nth_error l i = Some x -> nth_error m i = Some y -> alike p t (name ++ bs "." ++ n) x y) ->
      alike p (PStruct fs) name (PVStruct l) (PVStruct m)
  | al_slice e name a b c d d' : List.length a = List.length b ->
      (forall key i el, In key (names p) -> at_index name key i el -> (i < Z.of_nat (List.length a))%Z) ->
      (a = [] \/ exists key el, In key (names p) /\ at_index name key (Z.of_nat (List.length a) - 1) el) ->
      (forall j x y, nth_error a j = Some x -> nth_error b j = Some y ->
        (x = y /\ forall key el, In key (names p) -> ~ at_index name key (Z.of_nat j) el) \/
        (exists key el, In key (names p) /\ at_index name key (Z.of_nat j) el /\ alike p e el x y)) ->
      Permutation d d' -> Forall2 veq c d' -> alike p (PSlice e) name (PVSlice (a ++ c)) (PVSlice (b ++ d)).

  (** ** What a bound slice looks like *)
  Lemma tail_files_all (be : binder F T) p name : forall of_ rf svs,
    Forall2 (fun kf s => process F T be p name (normalize name (fst kf)) [] (snd kf) s) of_ rf -> rf = map Ok svs ->
    Forall (fun y => be file_only [] (Ok y)) (List.concat (map (unindexed F T) svs)).
  Proof.
    intros of_ rf svs H. revert svs. induction H as [|(k & n) r of_ rf Hp H IH]; intros [|l svs] E; try discriminate; [constructor|]. cbn [map] in E. injection E as -> E. specialize (IH svs E).
    apply process_ok in Hp as (_ & _ & B & _ & _ & C). cbn [fst snd map List.concat] in *. apply Forall_app. split; [|exact IH]. destruct (free name k) eqn:Ef.
    - destruct (C eq_refl) as (xs & ys & E1 & E2 & E3 & E4). inversion E2; subst xs. rewrite E1. exact E4.
    - destruct (unindexed F T l) as [|x xs]; [constructor|]. destruct (B ltac:(discriminate)) as (X & _). discriminate.
  Qed.
  Lemma slice_shape e p name v : binds (PSlice e) p name (Ok v) ->
    exists base xs ys ov of_, v = PVSlice (base ++ xs ++ ys) /\ Permutation (p_vals p) ov /\ Permutation (p_files p) of_ /\
      (forall key i el, In key (names p) -> at_index name key i el -> (i < Z.of_nat (List.length base))%Z) /\
      (base = [] \/ exists key el, In key (names p) /\ at_index name key (Z.of_nat (List.length base) - 1) el) /\
      (forall j x, nth_error base j = Some x ->
        (exists key el, In key (names p) /\ at_index name key (Z.of_nat j) el /\ binds e p el (Ok x)) \/
        (x = pzero e /\ forall key el, In key (names p) -> ~ at_index name key (Z.of_nat j) el)) /\
      Forall2 (fun val x => binds e (single val) [] (Ok x)) (List.concat (map snd (filter (fun kv => free name (fst kv)) ov))) xs /\
      List.length ys = list_sum (map snd (filter (fun kf => free name (fst kf)) of_)) /\ Forall (fun y => binds e file_only [] (Ok y)) ys.
  Proof.
    intros H. cbn [ParamsModel.binds] in H. destruct H as (ov & of_ & rv & rf & Pv & Pf & Hv & Hf & E). destruct (all_ok (rv ++ rf)) as [svs|] eqn:EA; [|discriminate]. cbn [RouterModel.bind] in E. symmetry in E.
    destruct (slice_entries F T _ p name _ _ _ _ _ Pv Pf Hv Hf EA) as (I1 & I2 & I3). pose proof (assemble_spec F T _ _ _ I1 E) as (base & -> & L & N). pose proof (max_index_spec F T (List.concat svs)) as (M1 & M2 & M3).
    pose proof (all_ok_spec (rv ++ rf)) as A. rewrite EA in A. symmetry in A. apply map_eq_app in A as (a & b & -> & Ea & Eb).
    exists base, (List.concat (map (unindexed F T) a)), (List.concat (map (unindexed F T) b)), ov, of_.
    split; [rewrite unindexed_concat, map_app, (concat_app (map _ a)); reflexivity|]. split; [exact Pv|]. split; [exact Pf|].
    split; [|split; [|split; [|split; [|split]]]].
    - intros key i el Hk Ha. apply elem_of_at in Ha as (Ee & Hi). destruct (I3 key i el Hk Ee Hi) as (x & Hx). apply M2 in Hx. lia.
    - destruct M3 as [M3|(x & M3)]; [left; destruct base; [reflexivity|cbn [List.length] in L; lia]|]. destruct (Z.lt_ge_cases (max_index F T (List.concat (a ++ b))) 0) as [Hz|Hz]; [left; destruct base; [reflexivity|cbn [List.length] in L; lia]|].
      right. destruct (I2 _ x Hz M3) as (k & sub & Hk & Ee & _). exists k, sub. split; [exact Hk|]. rewrite L. replace (max_index F T (List.concat (a ++ b)) + 1 - 1)%Z with (max_index F T (List.concat (a ++ b))) by lia. apply elem_of_at. auto.
    - intros j x Hj. assert (Hl : j < List.length base) by (apply nth_error_Some; congruence). rewrite (N j Hl) in Hj. injection Hj as Hj. destruct (slot F T (List.concat (a ++ b)) (Z.of_nat j)) as [y|] eqn:Es.
      + subst y. left. apply slot_in in Es. destruct (I2 _ x (Nat2Z.is_nonneg j) Es) as (k & sub & Hk & Ee & Hb). exists k, sub. split; [exact Hk|]. split; [apply elem_of_at; split; [exact Ee|lia]|exact Hb].
      + right. split; [congruence|]. intros key el Hk Ha. apply elem_of_at in Ha as (Ee & Hi). destruct (I3 key _ el Hk Ee Hi) as (y & Hy). exact (slot_none _ _ _ _ Es y Hy).
    - apply (tail_vals F T _ _ _ _ _ _ Hv (eq_sym Ea)).
    - apply (tail_files F T _ _ _ _ _ _ Hf (eq_sym Eb)).
    - apply (tail_files_all _ _ _ _ _ _ Hf (eq_sym Eb)).
  Qed.
  Lemma base_length p name (a b : list pval) :
    (forall key i el, In key (names p) -> at_index name key i el -> (i < Z.of_nat (List.length a))%Z) -> (a = [] \/ exists key el, In key (names p) /\ at_index name key (Z.of_nat (List.length a) - 1) el) ->
    (forall key i el, In key (names p) -> at_index name key i el -> (i < Z.of_nat (List.length b))%Z) -> (b = [] \/ exists key el, In key (names p) /\ at_index name key (Z.of_nat (List.length b) - 1) el) ->
    List.length a = List.length b.
  Proof.
    intros A1 A2 B1 B2. apply Nat.le_antisymm.
    - destruct A2 as [->|(k & el & Hk & Ha)]; [cbn; lia|]. pose proof (B1 _ _ _ Hk Ha). lia.
    - destruct B2 as [->|(k & el & Hk & Ha)]; [cbn; lia|]. pose proof (A1 _ _ _ Hk Ha). lia.
  Qed.
  (** the elements without index: the same up to order *)
  Lemma tails_alike e p name ov1 of1 xs1 ys1 ov2 of2 xs2 ys2 :
    (forall val x y, binds e (single val) [] (Ok x) -> binds e (single val) [] (Ok y) -> veq x y) -> (forall x y, binds e file_only [] (Ok x) -> binds e file_only [] (Ok y) -> veq x y) ->
    Permutation (p_vals p) ov1 -> Permutation (p_files p) of1 -> Permutation (p_vals p) ov2 -> Permutation (p_files p) of2 ->
    Forall2 (fun val x => binds e (single val) [] (Ok x)) (List.concat (map snd (filter (fun kv => free name (fst kv)) ov1))) xs1 ->
    List.length ys1 = list_sum (map snd (filter (fun kf => free name (fst kf)) of1)) -> Forall (fun y => binds e file_only [] (Ok y)) ys1 ->
    Forall2 (fun val x => binds e (single val) [] (Ok x)) (List.concat (map snd (filter (fun kv => free name (fst kv)) ov2))) xs2 ->
    List.length ys2 = list_sum (map snd (filter (fun kf => free name (fst kf)) of2)) -> Forall (fun y => binds e file_only [] (Ok y)) ys2 ->
    (exists xs', Permutation xs2 xs' /\ Forall2 veq xs1 xs') /\ Forall2 veq ys1 ys2.
  Proof.
    intros D1 D2 Pv1 Pf1 Pv2 Pf2 X1 L1 Y1 X2 L2 Y2. split.
    - assert (P : Permutation (List.concat (map snd (filter (fun kv => free name (fst kv)) ov2))) (List.concat (map snd (filter (fun kv => free name (fst kv)) ov1)))).
      { apply perm_concat, Permutation_map, perm_filter. exact (perm_trans (Permutation_sym Pv2) Pv1). }
      destruct (Permutation_Forall2 P X2) as (xs' & Px & X2'). exists xs'. split; [exact Px|]. eapply Forall2_both; [exact X1|exact X2'|]. intros val x y _. apply D1.
    - apply (Forall2_of_Forall (fun y => binds e file_only [] (Ok y))); [|assumption|assumption|exact D2]. rewrite L1, L2. apply list_sum_perm, Permutation_map, perm_filter. exact (perm_trans (Permutation_sym Pf1) Pf2).
  Qed.
  Lemma map_veq e p name l m : string_keys e -> is_map (p_vals p) -> (forall val x y, binds e (single val) [] (Ok x) -> binds e (single val) [] (Ok y) -> veq x y) ->
    binds (PMap PString e) p name (Ok l) -> binds (PMap PString e) p name (Ok m) -> veq l m.
  Proof using json_ok.
    intros He N D H1 H2. cbn [ParamsModel.binds] in H1, H2. unfold bind_map in H1, H2.
    assert (G : forall k1 k2, Permutation k1 k2 -> NoDup (map fst k1) -> NoDup (map fst k2) -> map_loop F T (binds PString) (binds e) k1 [] (Ok l) -> map_loop F T (binds PString) (binds e) k2 [] (Ok m) -> veq l m).
    { intros k1 k2 P N1 N2 A B. apply map_loop_str in A as (m1 & -> & F1); [|exact N1|intros k _ []|intros a []]. apply map_loop_str in B as (m2 & -> & F2); [|exact N2|intros k _ []|intros a []]. cbn [List.app].
      destruct (Permutation_Forall2 (Permutation_sym P) F2) as (m' & Pm & F2'). apply (ve_map _ _ m' Pm). eapply Forall2_both; [exact F1|exact F2'|].
      intros kv a b _ (v1 & E1 & E2 & E3) (v2 & E4 & E5 & E6). split; [congruence|]. assert (v2 = v1) by congruence. subst v2. exact (D _ _ _ E3 E6). }
    destruct (is_nil _).
    - destruct H1 as (o1 & P1 & H1), H2 as (o2 & P2 & H2). eapply G; [|apply map_entries_nodup|apply map_entries_nodup|exact H1|exact H2].
      + apply perm_flat_map. exact (perm_trans (Permutation_sym P1) P2).
      + unfold is_map in *. eapply Permutation_NoDup; [apply Permutation_map; exact P1|exact N].
      + unfold is_map in *. eapply Permutation_NoDup; [apply Permutation_map; exact P2|exact N].
    - destruct H1 as (o1 & P1 & H1), H2 as (o2 & P2 & H2). eapply G; [| | |exact H1|exact H2].
      + apply Permutation_map. exact (perm_trans (Permutation_sym P1) P2).
      + rewrite map_map. cbn [fst]. eapply Permutation_NoDup; [apply Permutation_map; exact P1|apply json_ok].
      + rewrite map_map. cbn [fst]. eapply Permutation_NoDup; [apply Permutation_map; exact P2|apply json_ok].
  Qed.
  Lemma string_keys_struct fs : string_keys (PStruct fs) -> forall f, In f fs -> string_keys (snd f).
  Proof. induction fs as [|g fs IH]; intros H f []; destruct H as (H1 & H2); [subst g; exact H1|apply IH; assumption]. Qed.
  (** two results for a struct, field by field *)
  Lemma struct_both fs p name v w : binds (PStruct fs) p name (Ok v) -> binds (PStruct fs) p name (Ok w) ->
    exists l m, v = PVStruct l /\ w = PVStruct m /\ List.length l = List.length fs /\ List.length m = List.length fs /\
      forall i n s t x y, nth_error fs i = Some (n, s, t) -> nth_error l i = Some x -> nth_error m i = Some y ->
        x = y \/ (binds t p (name ++ bs "." ++ n) (Ok x) /\ binds t p (name ++ bs "." ++ n) (Ok y)).
  Proof.
    intros H1 H2. cbn [ParamsModel.binds] in H1, H2. destruct H1 as (o1 & P1 & H1), H2 as (o2 & P2 & H2).
    apply struct_loop_spec in H1; [|rewrite !map_length; reflexivity]. apply struct_loop_spec in H2; [|rewrite !map_length; reflexivity].
    destruct H1 as (l & -> & L1 & A1 & B1), H2 as (m & -> & L2 & A2 & B2). rewrite map_length in L1, L2. exists l, m. split; [reflexivity|]. split; [reflexivity|]. split; [exact L1|]. split; [exact L2|].
    assert (W : forall n, wants name (map fst o1) n <-> wants name (map fst o2) n).
    { intros n. split; apply wants_perm, Permutation_map; [|apply Permutation_sym]; exact (perm_trans (Permutation_sym P1) P2). }
    intros i n s t x y Hi Hx Hy.
    assert (Only : forall k b, field_index (map (fun f => (fst f, binds (snd f))) fs) k = Some (i, true, b) -> k = n /\ b = binds t).
    { intros k b Hf. apply field_index_nth in Hf. rewrite nth_error_map, Hi in Hf. cbn in Hf. injection Hf as -> _ <-. auto. }
    assert (Zero : (forall k b, wants name (map fst o1) k -> field_index (map (fun f => (fst f, binds (snd f))) fs) k <> Some (i, true, b)) -> x = y).
    { intros Hno. assert (nth_error l i = nth_error m i); [|congruence]. rewrite (B1 i), (B2 i); [reflexivity| |]; intros k b Hw _; apply Hno; [apply W|]; exact Hw. }
    destruct (wants_dec name (map fst o1) n) as [Hw|Hw].
    - destruct (field_index (map (fun f => (fst f, binds (snd f))) fs) n) as [((j & s') & b')|] eqn:Ef; [destruct (Nat.eq_dec j i) as [->|Hji]; [destruct s'|]|].
      + destruct (Only n b' Ef) as (_ & ->). right. destruct (A1 n i _ Hw (fun x => x) Ef) as (x1 & X1 & E1). destruct (A2 n i _ (proj1 (W n) Hw) (fun x => x) Ef) as (x2 & X2 & E2). split; congruence.
      + left. apply Zero. intros k b _ Hf. destruct (Only k b Hf) as (-> & _). congruence.
      + left. apply Zero. intros k b _ Hf. destruct (Only k b Hf) as (-> & _). congruence.
      + left. apply Zero. intros k b _ Hf. destruct (Only k b Hf) as (-> & _). congruence.
    - left. apply Zero. intros k b Hk Hf. destruct (Only k b Hf) as (-> & _). contradiction.
  Qed.
  (** tidy: one list of unindexed elements *)
  Lemma tidy_same (ov1 ov2 : values) name : Permutation ov1 ov2 -> List.length (filter (fun kv => free name (fst kv) && negb (is_nil (snd kv)))%bool ov1) <= 1 ->
    List.concat (map snd (filter (fun kv => free name (fst kv)) ov1)) = List.concat (map snd (filter (fun kv => free name (fst kv)) ov2)).
  Proof.
    intros P H. apply perm_lone; [apply Permutation_map, perm_filter; exact P|]. revert H. clear. induction ov1 as [|(k & l) ov IH]; intros H; [cbn; lia|]. cbn [filter fst snd] in *. destruct (free name k); cbn [andb] in H; [|exact (IH H)].
    cbn [map snd filter]. destruct (is_nil l); cbn [negb List.length] in *; [exact (IH H)|]. specialize (IH ltac:(lia)).
    assert (X : List.length (filter (fun kv => free name (fst kv) && negb (is_nil (snd kv)))%bool ov) = 0) by lia. clear H IH. apply le_n_S. rewrite Nat.le_0_r. revert X. induction ov as [|(k' & l') ov IH]; intros X; [reflexivity|].
    cbn [filter fst snd] in *. destruct (free name k'); cbn [andb] in X; [|exact (IH X)]. cbn [map snd filter]. destruct (is_nil l'); cbn [negb List.length] in *; [exact (IH X)|discriminate].
  Qed.
  Lemma binds_veq t : string_keys t -> forall p, is_map (p_vals p) -> (forall name, tidy p name) -> forall name v w, binds t p name (Ok v) -> binds t p name (Ok w) -> veq v w.
  Proof using json_ok.
    assert (Ms : forall v, is_map (p_vals (single v))) by (intros v; apply NoDup_cons; [intros []|apply NoDup_nil]).
    assert (Mf : is_map (p_vals file_only)) by apply NoDup_nil.
    induction t as [|w|w|w| | | |e IH|e IH|k e IHk IHe|fs IHfs] using pty_deep; intros Hk p Hm Ht name v w' H1 H2; cbn [string_keys] in Hk;
      try (cbn [ParamsModel.binds] in H1, H2; unfold value_binder in H1, H2; replace w' with v by congruence; apply ve_same).
    - assert (D1 : forall val x y, binds e (single val) [] (Ok x) -> binds e (single val) [] (Ok y) -> veq x y) by (intros val x y; apply (IH Hk _ (Ms val) (tidy_single val))).
      assert (D2 : forall x y, binds e file_only [] (Ok x) -> binds e file_only [] (Ok y) -> veq x y) by (intros x y; apply (IH Hk _ Mf tidy_file)).
      apply slice_shape in H1 as (a & xs1 & ys1 & ov1 & of1 & -> & Pv1 & Pf1 & A1 & A2 & A3 & A4 & A5 & A6). apply slice_shape in H2 as (b & xs2 & ys2 & ov2 & of2 & -> & Pv2 & Pf2 & B1 & B2 & B3 & B4 & B5 & B6).
      apply ve_slice. apply Forall2_app; [|apply Forall2_app].
      + apply Forall2_nth; [exact (base_length p name a b A1 A2 B1 B2)|]. intros j x y Hx Hy. destruct (A3 j x Hx) as [(k1 & e1 & K1 & At1 & X1)|(-> & N1)], (B3 j y Hy) as [(k2 & e2 & K2 & At2 & X2)|(-> & N2)].
        * apply elem_of_at in At1 as (E1 & Hj). apply elem_of_at in At2 as (E2 & _). destruct (Ht name) as (_ & Tb). rewrite (Tb k1 k2 _ e1 e2 K1 K2 Hj E1 E2) in X1. exact (IH Hk p Hm Ht e2 x y X1 X2).
        * exfalso. exact (N2 _ _ K1 At1).
        * exfalso. exact (N1 _ _ K2 At2).
        * apply ve_same.
      + destruct (Ht name) as (Ta & _). assert (E : List.concat (map snd (filter (fun kv => free name (fst kv)) ov1)) = List.concat (map snd (filter (fun kv => free name (fst kv)) ov2))).
        { apply tidy_same; [exact (perm_trans (Permutation_sym Pv1) Pv2)|]. rewrite <- (Permutation_length (perm_filter _ _ _ Pv1)). lia. }
        rewrite <- E in B4. eapply Forall2_both; [exact A4|exact B4|]. intros val x y _. apply D1.
      + exact (proj2 (tails_alike e p name _ _ _ _ _ _ _ _ D1 D2 Pv1 Pf1 Pv2 Pf2 A4 A5 A6 B4 B5 B6)).
    - cbn [ParamsModel.binds] in H1, H2. unfold ptr_binder in H1, H2. destruct (aget (p_vals p) name) as [[|v0 l]|]; [replace w' with v by congruence; apply ve_same| |replace w' with v by congruence; apply ve_same].
      destruct H1 as ([x|] & X & E1); [|discriminate]. destruct H2 as ([y|] & Y & E2); [|discriminate]. injection E1 as ->. injection E2 as ->. apply ve_ptr. exact (IH Hk p Hm Ht name x y X Y).
    - destruct Hk as (-> & Hk). apply (map_veq e p name v w' Hk Hm); [|exact H1|exact H2]. intros val x y. apply (IHe Hk _ (Ms val) (tidy_single val)).
    - destruct (struct_both fs p name v w' H1 H2) as (l & m & -> & -> & L1 & L2 & HH). apply ve_struct. apply Forall2_nth; [congruence|]. intros i x y Hx Hy.
      destruct (nth_error fs i) as [((n & s) & t)|] eqn:Ef; [|apply nth_error_None in Ef; assert (i < List.length l) by (apply nth_error_Some; congruence); lia].
      destruct (HH i n s t x y Ef Hx Hy) as [->|(X & Y)]; [apply ve_same|]. apply nth_error_In in Ef. rewrite Forall_forall in IHfs. exact (IHfs _ Ef (string_keys_struct fs Hk _ Ef) p Hm Ht _ x y X Y).
  Qed.
  Lemma binds_alike t : string_keys t -> forall p, is_map (p_vals p) -> one_spelling p -> forall name v w, binds t p name (Ok v) -> binds t p name (Ok w) -> alike p t name v w.
  Proof using json_ok.
    assert (Ms : forall v, is_map (p_vals (single v))) by (intros v; apply NoDup_cons; [intros []|apply NoDup_nil]).
    assert (Mf : is_map (p_vals file_only)) by apply NoDup_nil.
    induction t as [|w|w|w| | | |e IH|e IH|k e IHk IHe|fs IHfs] using pty_deep; intros Hk p Hm Ho name v w' H1 H2; cbn [string_keys] in Hk;
      try (cbn [ParamsModel.binds] in H1, H2; unfold value_binder in H1, H2; replace w' with v by congruence; apply al_equal, ve_same).
    - assert (D1 : forall val x y, binds e (single val) [] (Ok x) -> binds e (single val) [] (Ok y) -> veq x y) by (intros val x y; apply (binds_veq e Hk _ (Ms val) (tidy_single val))).
      assert (D2 : forall x y, binds e file_only [] (Ok x) -> binds e file_only [] (Ok y) -> veq x y) by (intros x y; apply (binds_veq e Hk _ Mf tidy_file)).
      apply slice_shape in H1 as (a & xs1 & ys1 & ov1 & of1 & -> & Pv1 & Pf1 & A1 & A2 & A3 & A4 & A5 & A6). apply slice_shape in H2 as (b & xs2 & ys2 & ov2 & of2 & -> & Pv2 & Pf2 & B1 & B2 & B3 & B4 & B5 & B6).
      destruct (tails_alike e p name _ _ _ _ _ _ _ _ D1 D2 Pv1 Pf1 Pv2 Pf2 A4 A5 A6 B4 B5 B6) as ((xs' & Px & Ex) & Ey).
      apply (al_slice p e name a b (xs1 ++ ys1) (xs2 ++ ys2) (xs' ++ ys2)); [exact (base_length p name a b A1 A2 B1 B2)|exact A1|exact A2| |apply Permutation_app_tail; exact Px|apply Forall2_app; assumption].
      intros j x y Hx Hy. destruct (A3 j x Hx) as [(k1 & e1 & K1 & At1 & X1)|(-> & N1)], (B3 j y Hy) as [(k2 & e2 & K2 & At2 & X2)|(-> & N2)].
      + right. exists k1, e1. split; [exact K1|]. split; [exact At1|]. rewrite <- (Ho name k1 k2 _ e1 e2 K1 K2 At1 At2) in X2. exact (IH Hk p Hm Ho e1 x y X1 X2).
      + exfalso. exact (N2 _ _ K1 At1).
      + exfalso. exact (N1 _ _ K2 At2).
      + left. split; [reflexivity|exact N1].
    - cbn [ParamsModel.binds] in H1, H2. unfold ptr_binder in H1, H2. destruct (aget (p_vals p) name) as [[|v0 l]|]; [replace w' with v by congruence; apply al_equal, ve_same| |replace w' with v by congruence; apply al_equal, ve_same].
      destruct H1 as ([x|] & X & E1); [|discriminate]. destruct H2 as ([y|] & Y & E2); [|discriminate]. injection E1 as ->. injection E2 as ->. apply al_ptr. exact (IH Hk p Hm Ho name x y X Y).
    - destruct Hk as (-> & Hk). apply al_equal. apply (map_veq e p name v w' Hk Hm); [|exact H1|exact H2]. intros val x y. apply (binds_veq e Hk _ (Ms val) (tidy_single val)).
    - destruct (struct_both fs p name v w' H1 H2) as (l & m & -> & -> & L1 & L2 & HH). apply al_struct; [exact L1|exact L2|]. intros i n s t x y Ef Hx Hy.
      destruct (HH i n s t x y Ef Hx Hy) as [->|(X & Y)]; [apply al_equal, ve_same|]. apply nth_error_In in Ef. rewrite Forall_forall in IHfs. exact (IHfs _ Ef (string_keys_struct fs Hk _ Ef) p Hm Ho _ x y X Y).
  Qed.

  (** ** C68 *)
  (** Whatever the order of the maps: binding a request twice panics twice or gives twice a value, and the values are equal
      up to the order of slice elements without index — for requests that spell every index in one way. *)
  Theorem C68_only_the_order_varies : forall t p name r1 r2, string_keys t -> is_map (p_vals p) -> sane p -> one_spelling p ->
    binds t p name r1 -> binds t p name r2 ->
    (r1 = Panic /\ r2 = Panic) \/ exists v w, r1 = Ok v /\ r2 = Ok w /\ alike p t name v w.
  Proof using json_ok.
    intros t p name r1 r2 Hk Hm Hs Ho H1 H2. pose proof (C103_panics_exactly F T fzero tzero parse_float round_float formats parse_zone parse_local unix json_map t p name Hs) as (P1 & P2).
    destruct r1 as [v|], r2 as [w|].
    - right. exists v, w. split; [reflexivity|]. split; [reflexivity|]. exact (binds_alike t Hk p Hm Ho name v w H1 H2).
    - exfalso. apply (proj1 P2); [exists v; exact H1|]. apply P1. exact H2.
    - exfalso. apply (proj1 P2); [exists w; exact H2|]. apply P1. exact H1.
    - left. auto.
  Qed.
  (** If moreover at most one name carries elements without index, they are equal. *)
  Theorem C68_equal_when_orderly : forall t p name r1 r2, string_keys t -> is_map (p_vals p) -> is_map (p_files p) -> sane p -> orderly p ->
    binds t p name r1 -> binds t p name r2 -> (r1 = Panic /\ r2 = Panic) \/ exists v w, r1 = Ok v /\ r2 = Ok w /\ veq v w.
  Proof using json_ok.
    intros t p name r1 r2 Hk Hm Hf Hs Ho H1 H2. pose proof (C103_panics_exactly F T fzero tzero parse_float round_float formats parse_zone parse_local unix json_map t p name Hs) as (P1 & P2).
    destruct r1 as [v|], r2 as [w|].
    - right. exists v, w. split; [reflexivity|]. split; [reflexivity|]. exact (binds_veq t Hk p Hm (orderly_tidy p Hm Hf Ho) name v w H1 H2).
    - exfalso. apply (proj1 P2); [exists v; exact H1|]. apply P1. exact H2.
    - exfalso. apply (proj1 P2); [exists w; exact H2|]. apply P1. exact H1.
    - left. auto.
  Qed.
  (** Two spellings of an index: either value may be kept *)
  Theorem C68_two_spellings_refuted : ~ (forall p name r1 r2, is_map (p_vals p) -> binds (PSlice PString) p name r1 -> binds (PSlice PString) p name r2 -> r1 = r2 \/ exists v w, r1 = Ok v /\ r2 = Ok w /\ alike p (PSlice PString) name v w).
  Proof.
    intros H. set (e1 := (bs "a[0]", [bs "x"])). set (e2 := (bs "a[00]", [bs "y"])). set (p := mkParams [e1; e2] []).
    assert (P1 : process F T (binds PString) p (bs "a") (normalize (bs "a") (fst e1)) (snd e1) 0 (Ok [(0%Z, PVStr (bs "x"))])).
    { exists (Ok (PVStr (bs "x"))). split; vm_compute; reflexivity. }
    assert (P2 : process F T (binds PString) p (bs "a") (normalize (bs "a") (fst e2)) (snd e2) 0 (Ok [(0%Z, PVStr (bs "y"))])).
    { exists (Ok (PVStr (bs "y"))). split; vm_compute; reflexivity. }
    assert (B1 : binds (PSlice PString) p (bs "a") (Ok (PVSlice [PVStr (bs "y")]))).
    { exists [e1; e2], [], [Ok [(0%Z, PVStr (bs "x"))]; Ok [(0%Z, PVStr (bs "y"))]], []. split; [apply Permutation_refl|]. split; [constructor|]. split; [constructor; [exact P1|constructor; [exact P2|constructor]]|]. split; [constructor|reflexivity]. }
    assert (B2 : binds (PSlice PString) p (bs "a") (Ok (PVSlice [PVStr (bs "x")]))).
    { exists [e2; e1], [], [Ok [(0%Z, PVStr (bs "y"))]; Ok [(0%Z, PVStr (bs "x"))]], []. split; [apply perm_swap|]. split; [constructor|]. split; [constructor; [exact P2|constructor; [exact P1|constructor]]|]. split; [constructor|reflexivity]. }
    assert (N : is_map (p_vals p)) by (apply NoDup_cons; [intros [X|[]]; discriminate X|]; apply NoDup_cons; [intros []|apply NoDup_nil]).
    assert (S : forall x y : bytes, veq (PVStr x) (PVStr y) -> x = y) by (intros x y X; inversion X; reflexivity).
    destruct (H p (bs "a") _ _ N B1 B2) as [X|(v & w & E1 & E2 & X)]; [discriminate X|]. injection E1 as <-. injection E2 as <-.
    assert (Sa : forall t nm x y, alike p t nm (PVStr x) (PVStr y) -> x = y) by (intros t nm x y Y; inversion Y; subst; apply S; assumption).
    assert (A0 : at_index (bs "a") (bs "a[0]") 0 (bs "a[0]")).
    { exists (bs "0"), []. split; [reflexivity|]. split; [intros Y; vm_compute in Y; destruct Y as [Y|[]]; discriminate Y|]. split; [discriminate|]. split; [vm_compute; reflexivity|]. split; [lia|reflexivity]. }
    inversion X as [t nm v w V| | |e nm a b c d d' La Ha1 Ha2 Hj Pd Fd Q1 Q2 Q3 Q4].
    - inversion V as [|l m V2| | |]. inversion V2 as [|x y l' m' V3 _]. apply S in V3. discriminate V3.
    - destruct a as [|x a].
      + pose proof (Ha1 (bs "a[0]") 0%Z (bs "a[0]") (or_introl eq_refl) A0) as Y. cbn in Y. lia.
      + destruct b as [|y b]; [discriminate La|]. cbn [List.app] in Q3, Q4. injection Q3 as Q3 _. injection Q4 as Q4 _. subst x y.
        destruct (Hj 0 _ _ eq_refl eq_refl) as [(Y & _)|(key & el & _ & _ & Y)]; [discriminate Y|]. apply Sa in Y. discriminate Y.
  Qed.
  (** Two spellings of a map key that is a number: likewise *)
  Theorem C68_number_keys_refuted : ~ (forall p name v w, is_map (p_vals p) -> binds (PMap (PInt 64) PString) p name (Ok v) -> binds (PMap (PInt 64) PString) p name (Ok w) -> veq v w).
  Proof.
    intros H. set (e1 := (bs "a[1]", [bs "x"])). set (e2 := (bs "a[01]", [bs "y"])). set (p := mkParams [e1; e2] []).
    assert (B1 : binds (PMap (PInt 64) PString) p (bs "a") (Ok (PVMap [(PVInt F T 1, PVStr (bs "y"))]))).
    { exists [e1; e2]. split; [apply Permutation_refl|]. exists (Ok (PVInt F T 1)). split; [vm_compute; reflexivity|]. exists (Ok (PVStr (bs "x"))). split; [reflexivity|]. exists (Ok (PVInt F T 1)). split; [vm_compute; reflexivity|]. exists (Ok (PVStr (bs "y"))). split; reflexivity. }
    assert (B2 : binds (PMap (PInt 64) PString) p (bs "a") (Ok (PVMap [(PVInt F T 1, PVStr (bs "x"))]))).
    { exists [e2; e1]. split; [apply perm_swap|]. exists (Ok (PVInt F T 1)). split; [vm_compute; reflexivity|]. exists (Ok (PVStr (bs "y"))). split; [reflexivity|]. exists (Ok (PVInt F T 1)). split; [vm_compute; reflexivity|]. exists (Ok (PVStr (bs "x"))). split; reflexivity. }
    assert (N : is_map (p_vals p)) by (apply NoDup_cons; [intros [X|[]]; discriminate X|]; apply NoDup_cons; [intros []|apply NoDup_nil]).
    pose proof (H p (bs "a") _ _ N B1 B2) as X. inversion X as [| | | |l m m' P F2]. apply Permutation_length_1_inv in P. subst m'. inversion F2 as [|a b l' m'' (_ & Y) _]. cbn [snd] in Y. inversion Y.
  Qed.
  (** a request whose slice elements come in two orders *)
  Example C68_order_case : let p := mkParams [(bs "a", [bs "x"]); (bs "a[]", [bs "y"]); (bs "a[1]", [bs "z"])] [] in one_spelling p /\ sane p /\ is_map (p_vals p).
  Proof.
    intros p. split; [|split].
    - intros name k1 k2 i e1 e2 K1 K2 (d1 & r1 & E1 & N1 & D1 & _ & _ & ->) (d2 & r2 & E2 & N2 & D2 & _ & _ & ->).
      assert (G : forall k d r, In k (names p) -> k = name ++ bs "[" ++ d ++ bs "]" ++ r -> ~ In "]"%char d -> d <> [] -> d = bs "1").
      { intros k d r Hk E Nd Dd. assert (Hk' : k = bs "a" \/ k = bs "a[]" \/ k = bs "a[1]") by (destruct Hk as [<-|[<-|[<-|[]]]]; auto). clear Hk. destruct Hk' as [->|[->| ->]].
        - exfalso. assert (X : In "["%char (bs "a")) by (rewrite E; apply in_app_iff; right; left; reflexivity). destruct X as [X|[]]; discriminate X.
        - exfalso. destruct name as [|c0 [|c1 name]]; cbn in E; [discriminate E| |].
          + injection E as _ E. destruct d as [|c d]; [congruence|]. cbn in E. injection E as <- _. apply Nd. left. reflexivity.
          + injection E as _ _ E. destruct name as [|c2 name]; [discriminate E|]. cbn in E. injection E as _ E. destruct name; discriminate E.
        - destruct name as [|c0 [|c1 name]]; cbn in E; [discriminate E| |].
          + injection E as _ E. destruct d as [|c d]; [discriminate E|]. cbn in E. injection E as <- E. destruct d as [|c d]; [reflexivity|]. cbn in E. injection E as <- _. exfalso. apply Nd. right. left. reflexivity.
          + exfalso. injection E as _ _ E. destruct name as [|c2 name]; [discriminate E|]. cbn in E. injection E as _ E. destruct name as [|c3 name]; [discriminate E|]. cbn in E. injection E as _ E. destruct name; discriminate E. }
      rewrite (G k1 d1 r1 K1 E1 N1 D1), (G k2 d2 r2 K2 E2 N2 D2). reflexivity.
    - intros k l [E|[E|[E|[]]]]; injection E as _ <-; discriminate.
    - repeat (apply NoDup_cons; [intros X; cbn in X; repeat destruct X as [X|X]; try discriminate X; exact X|]). apply NoDup_nil.
  Qed.
End Orders.

Print Assumptions C68_only_the_order_varies.
Print Assumptions C68_equal_when_orderly.
Print Assumptions C68_two_spellings_refuted.
Print Assumptions C68_number_keys_refuted.
