(** Props_ParamsBind: C67, C68, C103, C104, C105, C107, C108, C110, about /repo/params/binder.go and params.go. *)
From Coq Require Import List Ascii String Bool Arith ZArith Lia Permutation.
Import ListNotations.
From Verif Require Import GoStr GoNum RouterModel ConvModel ConvFacts ParamsModel ParamsFacts Props_Params.

Set Default Proof Using "Type".
(** ** Specification: which keys are elements of the slice [name] *)
(** strconv.Atoi without its error: 0 for texts that are not numbers, the nearest bound for numbers out of range *)
Definition atoi (s : bytes) : Z := fst (parse_int 64 s).
(** the key is name[ds] or name[ds]more, ds being the index i; the element is bound under the name name[ds] *)
Definition at_index (name key : bytes) (i : Z) (elem : bytes) : Prop :=
  exists ds rest, key = name ++ bs "[" ++ ds ++ bs "]" ++ rest /\ ~ In "]"%char ds /\ ds <> [] /\ i = atoi ds /\ (0 <= i)%Z /\ elem = name ++ bs "[" ++ ds ++ bs "]".
(** the key is name, name[] or name[]more; or its index is negative or not closed *)
Definition no_index_key (name key : bytes) : Prop :=
  key = name \/ exists t, key = name ++ bs "[" ++ t /\ (~ In "]"%char t \/ exists ds rest, t = ds ++ bs "]" ++ rest /\ ~ In "]"%char ds /\ (ds = [] \/ (atoi ds < 0)%Z)).
Lemma atoi_number s n : int_denotes s n -> (- 2 ^ 63 <= n < 2 ^ 63)%Z -> atoi s = n.
Proof. intros Hd Hr. unfold atoi. rewrite (proj2 (parse_int_ok 64 s n ltac:(lia))); [reflexivity|]. split; [exact Hd|exact Hr]. Qed.
Lemma atoi_other s : (forall n, int_denotes s n -> ~ (- 2 ^ 63 <= n < 2 ^ 63)%Z) -> atoi s = 0%Z \/ atoi s = (2 ^ 63 - 1)%Z \/ atoi s = (- 2 ^ 63)%Z.
Proof.
  intros H. unfold atoi. destruct (parse_int 64 s) as (z & [e|]) eqn:E; cbn [fst].
  - apply parse_int_err in E as [(_ & ->)|(_ & [-> | ->])]; [left; reflexivity|right; left; reflexivity|right; right; reflexivity|lia].
  - apply parse_int_ok in E as (Hd & Hr); [|lia]. exfalso. exact (H z Hd Hr).
Qed.

Lemma index_sub1 c s : index_sub s [c] = index_byte c s.
Proof.
  induction s as [|a s IH]; cbn [index_sub index_byte has_prefix]; [reflexivity|]. rewrite (Ascii.eqb_sym c a).
  replace (match s with [] => true | _ :: _ => true end) with true by (destruct s; reflexivity). rewrite andb_true_r, IH. reflexivity.
Qed.
Lemma skip_name (name t : bytes) : skipn (List.length name) (name ++ t) = t.
Proof. apply skipn_app_len. Qed.
(** name[t with t = ds]rest *)
Lemma elem_index_closed name ds rest : ~ In "]"%char ds ->
  elem_index name (name ++ bs "[" ++ ds ++ bs "]" ++ rest) = ((if is_nil ds then (-1)%Z else atoi ds), List.length (name ++ bs "[" ++ ds ++ bs "]")).
Proof.
  intros Hd. unfold elem_index. rewrite skip_name. change (bs "]") with ["]"%char] at 2. rewrite index_sub1.
  change (bs "[" ++ ds ++ bs "]" ++ rest) with (("["%char :: ds) ++ "]"%char :: rest). rewrite index_byte_app by (intros [X|X]; [discriminate|contradiction]).
  assert (L : List.length (name ++ bs "[" ++ ds ++ bs "]") = List.length ("["%char :: ds) + List.length name + 1) by (rewrite !app_length; cbn [List.length bs]; unfold bs; cbn; lia).
  rewrite L. f_equal. destruct ds as [|d ds]; cbn [is_nil].
  - replace (Nat.ltb (List.length name + 1) (List.length ["["%char] + List.length name)) with false; [reflexivity|]. symmetry. apply Nat.ltb_ge. cbn [List.length]. lia.
  - replace (Nat.ltb (List.length name + 1) (List.length ("["%char :: d :: ds) + List.length name)) with true by (symmetry; apply Nat.ltb_lt; cbn [List.length]; lia).
    unfold atoi. do 2 f_equal. replace (List.length name + 1) with (List.length (name ++ bs "[")) at 2 by (rewrite app_length; reflexivity).
    replace (name ++ ("["%char :: d :: ds) ++ "]"%char :: rest) with ((name ++ bs "[") ++ (d :: ds) ++ "]"%char :: rest) by (rewrite <- app_assoc; reflexivity). rewrite skipn_app_len.
    replace (List.length ("["%char :: d :: ds) + List.length name - (List.length name + 1)) with (List.length (d :: ds)) by (cbn [List.length]; lia). apply firstn_app_len.
Qed.
Lemma elem_index_open name t : ~ In "]"%char t -> fst (elem_index name (name ++ bs "[" ++ t)) = (-1)%Z.
Proof.
  intros Ht. unfold elem_index. rewrite skip_name. change (bs "]") with ["]"%char]. rewrite index_sub1. rewrite (proj2 (index_byte_none "]"%char (bs "[" ++ t))); [reflexivity|].
  intros [X|X]; [discriminate|contradiction].
Qed.
Lemma normalize_bracket name t : normalize name (name ++ bs "[" ++ t) = name ++ bs "[" ++ t.
Proof.
  unfold normalize, trim_prefix. rewrite (proj2 (has_prefix_spec _ _)) by (exists (bs "[" ++ t); reflexivity). rewrite skip_name. reflexivity.
Qed.
Lemma normalize_same name : normalize name name = name ++ bs "[]".
Proof. unfold normalize, trim_prefix. rewrite (proj2 (has_prefix_spec _ _)) by (exists []; rewrite app_nil_r; reflexivity). rewrite skipn_all. reflexivity. Qed.
Lemma split_closed t : ~ In "]"%char t \/ exists ds rest, t = ds ++ bs "]" ++ rest /\ ~ In "]"%char ds.
Proof.
  destruct (index_byte "]"%char t) as [i|] eqn:E; [right|left; apply index_byte_none; exact E]. apply index_byte_some in E as (l & r & -> & _ & Hl). exists l, r. split; [reflexivity|exact Hl].
Qed.
(** elem_of's three answers *)
Lemma elem_of_cases name key :
  match elem_of name key with
  | None => ~ no_index_key name key /\ forall i e, ~ at_index name key i e
  | Some (i, sub) => if (-1 <? i)%Z then at_index name key i sub /\ ~ no_index_key name key /\ (forall j e, at_index name key j e -> j = i /\ e = sub)
                     else no_index_key name key /\ forall j e, ~ at_index name key j e
  end.
Proof.
  assert (Uniq : forall ds rest ds' rest' : bytes, ds ++ bs "]" ++ rest = ds' ++ bs "]" ++ rest' -> ~ In "]"%char ds -> ~ In "]"%char ds' -> ds = ds').
  { intros ds rest ds' rest' E H1 H2. pose proof (index_byte_app "]"%char ds rest H1) as A. pose proof (index_byte_app "]"%char ds' rest' H2) as B.
    change (ds ++ "]"%char :: rest) with (ds ++ bs "]" ++ rest) in A. change (ds' ++ "]"%char :: rest') with (ds' ++ bs "]" ++ rest') in B. rewrite E, B in A. injection A as A.
    apply (f_equal (firstn (List.length ds))) in E. rewrite firstn_app_len in E. rewrite <- A, firstn_app_len in E. exact E. }
  destruct (bytes_eq_dec key name) as [->|Hk].
  - (* name itself *)
    unfold elem_of. rewrite normalize_same. replace (has_prefix (name ++ bs "[]") (name ++ bs "[")) with true by (symmetry; apply has_prefix_spec; exists (bs "]"); rewrite <- app_assoc; reflexivity).
    pose proof (elem_index_closed name [] [] ltac:(intros [])) as E. change (name ++ bs "[" ++ [] ++ bs "]" ++ []) with (name ++ bs "[]") in E. rewrite E. cbn [fst snd is_nil]. change (-1 <? -1)%Z with false. cbv iota.
    split; [left; reflexivity|]. intros j e (ds & rest & X & _). apply (f_equal (@List.length _)) in X. rewrite app_length in X. cbn [List.length List.app bs] in X. unfold bs in X. cbn in X. lia.
  - destruct (has_prefix key (name ++ bs "[")) eqn:Hp.
    + apply has_prefix_spec in Hp as (t & ->). rewrite <- app_assoc in *. unfold elem_of. rewrite normalize_bracket.
      replace (has_prefix (name ++ bs "[" ++ t) (name ++ bs "[")) with true by (symmetry; apply has_prefix_spec; exists t; rewrite <- app_assoc; reflexivity).
      destruct (split_closed t) as [Ho|(ds & rest & -> & Hd)].
      * pose proof (elem_index_open name t Ho) as E. destruct (elem_index name (name ++ bs "[" ++ t)) as (i & sub). cbn [fst snd] in *. subst i. change (-1 <? -1)%Z with false. cbv iota.
        split; [right; exists t; split; [reflexivity|left; exact Ho]|]. intros j e (ds & rest & X & _). apply app_inv_head in X. apply app_inv_head in X. subst t. apply Ho. apply in_app_iff. right. left. reflexivity.
      * rewrite elem_index_closed by exact Hd. cbn [fst snd].
        assert (A : forall j e, at_index name (name ++ bs "[" ++ ds ++ bs "]" ++ rest) j e -> ds <> [] /\ j = atoi ds /\ (0 <= j)%Z /\ e = name ++ bs "[" ++ ds ++ bs "]").
        { intros j e (ds' & rest' & X & Hd' & Hn & -> & Hj & ->). apply app_inv_head in X. apply app_inv_head in X. rewrite <- (Uniq _ _ _ _ X Hd Hd') in *. auto. }
        assert (B : no_index_key name (name ++ bs "[" ++ ds ++ bs "]" ++ rest) -> ds = [] \/ (atoi ds < 0)%Z).
        { intros [X|(t & X & Y)]; [contradiction|]. apply app_inv_head in X. apply app_inv_head in X. subst t. destruct Y as [Y|(ds' & rest' & E & Hd' & Y)].
          - exfalso. apply Y. apply in_app_iff. right. left. reflexivity.
          - rewrite (Uniq _ _ _ _ E Hd Hd'). exact Y. }
        assert (Fst : firstn (List.length (name ++ bs "[" ++ ds ++ bs "]")) (name ++ bs "[" ++ ds ++ bs "]" ++ rest) = name ++ bs "[" ++ ds ++ bs "]").
        { replace (name ++ bs "[" ++ ds ++ bs "]" ++ rest) with ((name ++ bs "[" ++ ds ++ bs "]") ++ rest) by (rewrite <- !app_assoc; reflexivity). apply firstn_app_len. }
        rewrite Fst. destruct ds as [|d ds]; cbn [is_nil].
        -- change (-1 <? -1)%Z with false. cbv iota. split; [right; eexists; split; [reflexivity|]; right; exists [], rest; auto|]. intros j e X. apply A in X as (X & _). congruence.
        -- destruct (Z.ltb_spec (-1) (atoi (d :: ds))) as [Hi|Hi].
           ++ split; [exists (d :: ds), rest; repeat split; try assumption; [discriminate|lia]|]. split; [intros X; apply B in X as [X|X]; [discriminate|lia]|].
              intros j e X. apply A in X as (_ & -> & _ & ->). auto.
           ++ split; [right; eexists; split; [reflexivity|]; right; exists (d :: ds), rest; repeat split; auto; right; lia|]. intros j e X. apply A in X as (_ & -> & X & _). lia.
    + assert (N : elem_of name key = None).
      { unfold elem_of, normalize, trim_prefix. destruct (has_prefix key name) eqn:E.
        - apply has_prefix_spec in E as (t & ->). rewrite skip_name. destruct t as [|x t]; [exfalso; apply Hk; apply app_nil_r|]. cbn [is_nil]. rewrite Hp. reflexivity.
        - destruct key as [|x key]; cbn [is_nil]; [|rewrite Hp; reflexivity]. cbn [List.app]. destruct (has_prefix (bs "[]") (name ++ bs "[")) eqn:X; [|reflexivity]. exfalso.
          apply has_prefix_spec in X as (t & X). destruct name as [|a [|b n]]; [apply Hk; reflexivity| |]; cbn in X; [injection X as _ X; discriminate X|injection X as _ _ X; destruct n; discriminate X]. }
      rewrite N. split.
      * intros [X|(t & -> & _)]; [contradiction|]. rewrite (proj2 (has_prefix_spec _ _)) in Hp; [discriminate|]. exists t. rewrite <- app_assoc. reflexivity.
      * intros i e (ds & rest & -> & _). rewrite (proj2 (has_prefix_spec _ _)) in Hp; [discriminate|]. exists (ds ++ bs "]" ++ rest). rewrite <- app_assoc. reflexivity.
Qed.
Lemma elem_of_at name key i e : (elem_of name key = Some (i, e) /\ (0 <= i)%Z) <-> at_index name key i e.
Proof.
  pose proof (elem_of_cases name key) as H. split.
  - intros (E & Hi). rewrite E in H. destruct (Z.ltb_spec (-1) i); [exact (proj1 H)|lia].
  - intros X. assert (0 <= i)%Z by (destruct X as (? & ? & X); tauto). destruct (elem_of name key) as [(j & s)|]; [|destruct H as (_ & H); exfalso; exact (H _ _ X)].
    destruct (-1 <? j)%Z; [|destruct H as (_ & H); exfalso; exact (H _ _ X)]. destruct H as (_ & _ & H). destruct (H _ _ X) as (-> & ->). auto.
Qed.
Lemma free_key name key : free name key = true <-> no_index_key name key.
Proof.
  pose proof (elem_of_cases name key) as H. unfold free. destruct (elem_of name key) as [(j & s)|]; [destruct (-1 <? j)%Z; cbn [negb]|]; split; try discriminate; try tauto; intros X; exfalso; tauto.
Qed.

Section Bindings.
  Variable F T : Type.
  Variable fzero : F.
  Variable tzero : T.
  Variable parse_float : bytes -> option F.
  Variable round_float : nat -> F -> F.
  Variable formats : list bytes.
  Variable parse_zone parse_local : bytes -> bytes -> option T.
  Variable unix : Z -> T.
  Variable json_map : bytes -> list (bytes * bytes).
  Notation binds := (binds F T fzero tzero parse_float round_float formats parse_zone parse_local unix json_map).
  Notation pval := (pval F T).
  Notation PVInt := (PVInt F T).
  Notation PVStr := (PVStr F T).
  Notation PVSlice := (PVSlice F T).
  Notation PVPtr := (PVPtr F T).
  Notation PVNil := (PVNil F T).
  Notation PVMap := (PVMap F T).
  Notation PVStruct := (PVStruct F T).
  Notation pzero := (pzero F T fzero tzero).

  (** the names under which something was submitted *)
  Definition names (p : params) : list bytes := map fst (p_vals p) ++ map fst (p_files p).

  Lemma filter_split {A} (f : A -> bool) l : Permutation l (filter f l ++ filter (fun x => negb (f x)) l).
  Proof. induction l as [|a l IH]; [constructor|]. cbn [filter]. destruct (f a); cbn [negb]; [cbn [List.app]; constructor; exact IH|]. eapply perm_trans; [constructor; exact IH|]. apply Permutation_middle. Qed.
  Lemma tail_vals (be : binder F T) p name : forall ov rv svs,
    Forall2 (fun kv s => process F T be p name (normalize name (fst kv)) (snd kv) 0 s) ov rv -> rv = map Ok svs ->
    Forall2 (fun val x => be (single val) [] (Ok x)) (List.concat (map snd (filter (fun kv => free name (fst kv)) ov))) (List.concat (map (unindexed F T) svs)).
  Proof.
    intros ov rv svs H. revert svs. induction H as [|(k & vs) r ov rv Hp H IH]; intros [|l svs] E; try discriminate; [constructor|]. cbn [map] in E. injection E as -> E. specialize (IH svs E).
    apply process_ok in Hp as (_ & _ & B & _ & _ & C). cbn [filter fst snd map List.concat] in *. destruct (free name k) eqn:Ef.
    - destruct (C eq_refl) as (xs & ys & E1 & E2 & E3 & _). destruct ys; [|discriminate]. rewrite app_nil_r in E1. rewrite E1. cbn [map List.concat snd]. apply Forall2_app; assumption.
    - destruct (unindexed F T l) as [|x xs]; [exact IH|]. destruct (B ltac:(discriminate)) as (X & _). discriminate.
  Qed.
  Lemma tail_files (be : binder F T) p name : forall of_ rf svs,
    Forall2 (fun kf s => process F T be p name (normalize name (fst kf)) [] (snd kf) s) of_ rf -> rf = map Ok svs ->
    List.length (List.concat (map (unindexed F T) svs)) = list_sum (map snd (filter (fun kf => free name (fst kf)) of_)).
  Proof.
    intros of_ rf svs H. revert svs. induction H as [|(k & n) r of_ rf Hp H IH]; intros [|l svs] E; try discriminate; [reflexivity|]. cbn [map] in E. injection E as -> E. specialize (IH svs E).
    apply process_ok in Hp as (_ & _ & B & _ & _ & C). cbn [filter fst snd map List.concat] in *. rewrite app_length, IH. destruct (free name k) eqn:Ef.
    - destruct (C eq_refl) as (xs & ys & E1 & E2 & E3 & _). inversion E2; subst xs. rewrite E1. cbn [List.app map snd]. rewrite E3. reflexivity.
    - destruct (unindexed F T l) as [|x xs]; [reflexivity|]. destruct (B ltac:(discriminate)) as (X & _). discriminate.
  Qed.

  (** ** C67: slices *)
  (** A bound slice: first one element for every index up to the largest one submitted, each bound from a parameter with this
      index, or zero if there is none; then the values submitted without an index and one element per uploaded file. *)
  Theorem C67_slice_elements : forall e p name v, binds (PSlice e) p name (Ok v) ->
    exists l tail_, v = PVSlice (l ++ tail_) /\
      (forall key i el, In key (names p) -> at_index name key i el -> (i < Z.of_nat (List.length l))%Z) /\
      (l = [] \/ exists key el, In key (names p) /\ at_index name key (Z.of_nat (List.length l) - 1) el) /\
      (forall j x, nth_error l j = Some x ->
        (exists key el, In key (names p) /\ at_index name key (Z.of_nat j) el /\ binds e p el (Ok x)) \/
        (x = pzero e /\ forall key el, In key (names p) -> ~ at_index name key (Z.of_nat j) el)) /\
      exists free_ others ffree fothers xs ys, tail_ = xs ++ ys /\
        Permutation (p_vals p) (free_ ++ others) /\ Forall (fun kv => no_index_key name (fst kv)) free_ /\ Forall (fun kv => ~ no_index_key name (fst kv)) others /\
        Forall2 (fun val x => binds e (given1 val) [] (Ok x)) (List.concat (map snd free_)) xs /\
        Permutation (p_files p) (ffree ++ fothers) /\ Forall (fun kf => no_index_key name (fst kf)) ffree /\ Forall (fun kf => ~ no_index_key name (fst kf)) fothers /\
        List.length ys = list_sum (map snd ffree).
  Proof.
    intros e p name v H. cbn [ParamsModel.binds] in H. destruct H as (ov & of_ & rv & rf & Pv & Pf & Hv & Hf & E). destruct (all_ok (rv ++ rf)) as [svs|] eqn:EA; [|discriminate]. cbn [RouterModel.bind] in E. symmetry in E.
    destruct (slice_entries F T _ p name _ _ _ _ _ Pv Pf Hv Hf EA) as (I1 & I2 & I3). pose proof (assemble_spec F T _ _ _ I1 E) as (base & -> & L & N). pose proof (max_index_spec F T (List.concat svs)) as (M1 & M2 & M3).
    exists base, (unindexed F T (List.concat svs)). split; [reflexivity|].
    assert (K : forall key, In key (keys p) <-> In key (names p)) by (intros; reflexivity).
    split; [|split; [|split]].
    - intros key i el Hk Ha. apply elem_of_at in Ha as (Ee & Hi). destruct (I3 key i el Hk Ee Hi) as (x & Hx). apply M2 in Hx. lia.
    - destruct M3 as [M3|(x & M3)]; [left; destruct base; [reflexivity|cbn [List.length] in L; lia]|]. destruct (Z.lt_ge_cases (max_index F T (List.concat svs)) 0) as [Hz|Hz]; [left; destruct base; [reflexivity|cbn [List.length] in L; lia]|].
      right. destruct (I2 _ x Hz M3) as (k & sub & Hk & Ee & _). exists k, sub. split; [exact Hk|]. rewrite L. replace (max_index F T (List.concat svs) + 1 - 1)%Z with (max_index F T (List.concat svs)) by lia. apply elem_of_at. auto.
    - intros j x Hj. assert (Hl : j < List.length base) by (apply nth_error_Some; congruence). rewrite (N j Hl) in Hj. injection Hj as Hj. destruct (slot F T (List.concat svs) (Z.of_nat j)) as [y|] eqn:Es.
      + subst y. left. apply slot_in in Es. destruct (I2 _ x (Nat2Z.is_nonneg j) Es) as (k & sub & Hk & Ee & Hb). exists k, sub. split; [exact Hk|]. split; [apply elem_of_at; split; [exact Ee|lia]|exact Hb].
      + right. split; [congruence|]. intros key el Hk Ha. apply elem_of_at in Ha as (Ee & Hi). destruct (I3 key _ el Hk Ee Hi) as (y & Hy). exact (slot_none _ _ _ _ Es y Hy).
    - pose proof (all_ok_spec (rv ++ rf)) as A. rewrite EA in A. symmetry in A. apply map_eq_app in A as (a & b & -> & Ea & Eb).
      exists (filter (fun kv => free name (fst kv)) ov), (filter (fun kv => negb (free name (fst kv))) ov), (filter (fun kf => free name (fst kf)) of_), (filter (fun kf => negb (free name (fst kf))) of_).
      exists (List.concat (map (unindexed F T) a)), (List.concat (map (unindexed F T) b)).
      split; [rewrite unindexed_concat, map_app, concat_app; reflexivity|].
      split; [eapply perm_trans; [exact Pv|apply filter_split]|]. split; [apply Forall_forall; intros x Hx; apply filter_In in Hx as (_ & Hx); apply free_key; exact Hx|].
      split; [apply Forall_forall; intros x Hx; apply filter_In in Hx as (_ & Hx); rewrite <- free_key; destruct (free name (fst x)); discriminate|].
      split; [apply (tail_vals _ _ _ _ _ _ Hv (eq_sym Ea))|].
      split; [eapply perm_trans; [exact Pf|apply filter_split]|]. split; [apply Forall_forall; intros x Hx; apply filter_In in Hx as (_ & Hx); apply free_key; exact Hx|].
      split; [apply Forall_forall; intros x Hx; apply filter_In in Hx as (_ & Hx); rewrite <- free_key; destruct (free name (fst x)); discriminate|].
      apply (tail_files _ _ _ _ _ _ Hf (eq_sym Eb)).
  Qed.
  (** in particular: [name[i]=v] puts v at index i, if no other parameter has the index i *)
  Theorem C67_indexed_value : forall p name ds i v l, is_map (p_vals p) ->
    In (name ++ bs "[" ++ ds ++ bs "]", [v]) (p_vals p) -> int_denotes ds i -> (0 <= i < 2 ^ 63)%Z ->
    (forall key el, In key (names p) -> at_index name key i el -> key = name ++ bs "[" ++ ds ++ bs "]") ->
    binds (PSlice PString) p name (Ok (PVSlice l)) -> nth_error l (Z.to_nat i) = Some (PVStr v).
  Proof.
    intros p name ds i v l Hm Hin Hd Hi Hu H. destruct (C67_slice_elements _ _ _ _ H) as (base & tl_ & E & A & _ & B & _). injection E as ->.
    assert (Nb : ~ In "]"%char ds).
    { assert (Dg : forall s n, nat_denotes s n -> ~ In "]"%char s) by (intros s n Hs X; apply nat_denotes_digits in Hs; rewrite Forall_forall in Hs; destruct (Hs _ X) as (d & Y); vm_compute in Y; discriminate).
      destruct Hd as [s n Hn|s n Hn|s n Hn]; intros X; [|destruct X as [X|X]; [discriminate|]|destruct X as [X|X]; [discriminate|]]; exact (Dg _ _ Hn X). }
    assert (At : at_index name (name ++ bs "[" ++ ds ++ bs "]") i (name ++ bs "[" ++ ds ++ bs "]")).
    { exists ds, []. repeat split; try assumption; try apply Hi; [eapply int_denotes_nonnil; exact Hd|]. symmetry. apply atoi_number; [exact Hd|]. pose proof (Z.pow_pos_nonneg 2 63 ltac:(lia) ltac:(lia)). lia. }
    assert (Hk : In (name ++ bs "[" ++ ds ++ bs "]") (names p)) by (apply in_app_iff; left; apply in_map_iff; eexists; split; [|exact Hin]; reflexivity).
    pose proof (A _ _ _ Hk At) as Hlt. assert (Hl : Z.to_nat i < List.length base) by lia. rewrite nth_error_app1 by exact Hl. destruct (nth_error base (Z.to_nat i)) as [x|] eqn:En; [|apply nth_error_None in En; lia].
    destruct (B _ _ En) as [(key & el & Hkey & Ha & Hb)|(_ & Hno)]; rewrite Z2Nat.id in * by lia; [|exfalso; exact (Hno _ _ Hk At)].
    pose proof (Hu _ _ Hkey Ha) as ->. apply elem_of_at in Ha as (Ea & _). apply elem_of_at in At as (Et & _). assert (el = name ++ bs "[" ++ ds ++ bs "]") as -> by congruence.
    apply C63_string in Hb. unfold vals in Hb. rewrite (aget_of_in _ _ _ Hm Hin) in Hb. cbn [hd] in Hb. congruence.
  Qed.
  Example C67_case : binds (PSlice PString) (mkParams [(bs "a[2]", [bs "x"]); (bs "a[]", [bs "y"; bs "z"]); (bs "a[0]", [bs "w"])] []) (bs "a")
    (Ok (PVSlice [PVStr (bs "w"); PVStr []; PVStr (bs "x"); PVStr (bs "y"); PVStr (bs "z")])).
  Proof.
    exists [(bs "a[2]", [bs "x"]); (bs "a[]", [bs "y"; bs "z"]); (bs "a[0]", [bs "w"])], [], [Ok [(2%Z, PVStr (bs "x"))]; Ok [((-1)%Z, PVStr (bs "y")); ((-1)%Z, PVStr (bs "z"))]; Ok [(0%Z, PVStr (bs "w"))]], [].
    split; [apply Permutation_refl|]. split; [apply Permutation_refl|]. split; [|split; [constructor|vm_compute; reflexivity]].
    constructor; [|constructor; [|constructor; [|constructor]]].
    - exists (Ok (PVStr (bs "x"))). split; vm_compute; reflexivity.
    - exists [Ok (PVStr (bs "y")); Ok (PVStr (bs "z"))], []. split; [repeat constructor|]. split; [constructor|]. split; vm_compute; reflexivity.
    - exists (Ok (PVStr (bs "w"))). split; vm_compute; reflexivity.
  Qed.

  (** ** C103: binding does not panic *)
  Definition submitted (p : params) : nat := list_sum (map (fun kv => List.length (snd kv)) (p_vals p)) + list_sum (map snd (p_files p)).
  Theorem C103_binding_never_panics_refuted : ~ (forall t p name r, is_map (p_vals p) -> (forall k l, In (k, l) (p_vals p) -> l <> []) -> binds t p name r -> r <> Panic).
  Proof.
    intros H. set (key := bs "a[9223372036854775807]").
    apply (H (PSlice PString) (mkParams [(key, [bs "x"])] []) (bs "a") Panic); [repeat constructor; intros []|intros k l [E|[]]; injection E as _ <-; discriminate| |reflexivity].
    exists [(key, [bs "x"])], [], [Ok [((2 ^ 63 - 1)%Z, PVStr (bs "x"))]], []. split; [apply Permutation_refl|]. split; [apply Permutation_refl|]. split; [|split; [constructor|reflexivity]].
    constructor; [|constructor]. exists (Ok (PVStr (bs "x"))). split; vm_compute; reflexivity.
  Qed.
  (** it returns a value, and only a value, if every index is below 2^62 (memory permitting) and no name has an empty list of values *)
  Theorem C103_binding_never_panics_partial : forall t p name,
    (forall n key i el, In key (names p) -> at_index n key i el -> (i < 2 ^ 62)%Z) -> (Z.of_nat (submitted p) < 2 ^ 62)%Z -> (forall k l, In (k, l) (p_vals p) -> l <> []) ->
    (exists v, binds t p name (Ok v)) /\ ~ binds t p name Panic.
  Proof.
    intros t p name H1 H2 H3. assert (S : safe p).
    { split; [|split; [exact H2|exact H3]]. intros n key i sub Hk E. destruct (Z.lt_ge_cases i 0) as [Hi|Hi]; [apply (Z.lt_trans _ 0); [exact Hi|reflexivity]|]. apply (H1 n key i sub Hk). apply elem_of_at. auto. }
    assert (N : forall r, binds t p name r -> r <> Panic) by (intros r Hr; eapply binds_safe; eassumption).
    split; [|intros X; exact (N _ X eq_refl)]. destruct (binds_total F T fzero tzero parse_float round_float formats parse_zone parse_local unix json_map t p name) as ([v|] & Hr); [exists v; exact Hr|]. exfalso. exact (N _ Hr eq_refl).
  Qed.

  (** ** C110: the size of a slice *)
  Theorem C110_slice_size_is_bounded_by_the_request_refuted :
    ~ (forall e p name l, binds (PSlice e) p name (Ok (PVSlice l)) -> List.length l <= submitted p).
  Proof.
    intros H. specialize (H PString (mkParams [(bs "a[5]", [bs "x"])] []) (bs "a") [PVStr []; PVStr []; PVStr []; PVStr []; PVStr []; PVStr (bs "x")]).
    assert (B : 6 <= submitted (mkParams [(bs "a[5]", [bs "x"])] [])); [|vm_compute in B; lia]. apply H.
    exists [(bs "a[5]", [bs "x"])], [], [Ok [(5%Z, PVStr (bs "x"))]], []. split; [apply Permutation_refl|]. split; [apply Permutation_refl|]. split; [|split; [constructor|reflexivity]].
    constructor; [|constructor]. exists (Ok (PVStr (bs "x"))). split; vm_compute; reflexivity.
  Qed.
  Lemma list_sum_app_le a b : list_sum a <= list_sum (a ++ b).
  Proof. rewrite list_sum_app. lia. Qed.
  Lemma concat_length_sum {A} (l : list (list A)) : List.length (List.concat l) = list_sum (map (@List.length A) l).
  Proof. induction l as [|a l IH]; [reflexivity|]. cbn [List.concat map]. rewrite app_length, IH. reflexivity. Qed.
  (** it is at most one more than the largest index, plus the number of values and files *)
  Theorem C110_slice_size_partial : forall e p name l m, binds (PSlice e) p name (Ok (PVSlice l)) ->
    (forall key i el, In key (names p) -> at_index name key i el -> (i < Z.of_nat m)%Z) -> List.length l <= m + submitted p.
  Proof.
    intros e p name l m H Hm. destruct (C67_slice_elements _ _ _ _ H) as (base & tl_ & E & _ & A & _ & fr & ot & ff & fo & xs & ys & -> & P1 & _ & _ & F2 & P2 & _ & _ & L).
    injection E as ->. rewrite !app_length. unfold submitted.
    assert (B : List.length base <= m).
    { destruct A as [->|(key & el & Hk & Ha)]; [cbn; lia|]. pose proof (Hm _ _ _ Hk Ha). lia. }
    apply Forall2_length in F2. rewrite concat_length_sum, map_map in F2.
    rewrite (list_sum_perm _ _ (Permutation_map _ P1)), (list_sum_perm _ _ (Permutation_map _ P2)), !map_app.
    pose proof (list_sum_app_le (map (fun kv : bytes * list bytes => List.length (snd kv)) fr) (map (fun kv => List.length (snd kv)) ot)). pose proof (list_sum_app_le (map snd ff) (map snd fo)). lia.
  Qed.
  (** one short parameter suffices for any size *)
  Theorem C110_one_parameter_any_size : forall n, (0 <= n < 2 ^ 62)%Z ->
    exists l, binds (PSlice PString) (mkParams [(bs "a[" ++ format_uint n ++ bs "]", [bs "x"])] []) (bs "a") (Ok (PVSlice l)) /\ Z.of_nat (List.length l) = (n + 1)%Z.
  Proof.
    intros n Hn. set (key := bs "a[" ++ format_uint n ++ bs "]"). set (p := mkParams [(key, [bs "x"])] []).
    assert (P : (2 ^ 62 < 2 ^ 63)%Z) by reflexivity.
    assert (Ai : atoi (format_uint n) = n) by (apply atoi_number; [apply id_plain, format_uint_denotes; lia|lia]).
    assert (Nb : ~ In "]"%char (format_uint n)) by (intros X; pose proof (nat_denotes_digits _ _ (format_uint_denotes n (proj1 Hn))) as D; rewrite Forall_forall in D; destruct (D _ X) as (d & Y); vm_compute in Y; discriminate).
    assert (Nn : format_uint n <> []) by (intros X; pose proof (nat_denotes_head _ _ (format_uint_denotes n (proj1 Hn))) as (c & s & Y & _); congruence).
    assert (At : at_index (bs "a") key n key) by (exists (format_uint n), []; repeat split; try assumption; [symmetry; exact Ai|lia]).
    assert (El : elem_of (bs "a") key = Some (n, key)) by (apply elem_of_at in At; tauto).
    assert (Bd : binds PString p key (Ok (PVStr (bs "x")))).
    { cbn [ParamsModel.binds]. unfold value_binder. cbn [p p_vals aget]. rewrite beq_refl. reflexivity. }
    assert (Pr : process F T (binds PString) p (bs "a") (normalize (bs "a") key) [bs "x"] 0 (Ok [(n, PVStr (bs "x"))])).
    { apply process_cases. rewrite El. replace (-1 <? n)%Z with true by (symmetry; apply Z.ltb_lt; lia). exists (Ok (PVStr (bs "x"))). split; [exact Bd|reflexivity]. }
    assert (Io : indices_ok F T [(n, PVStr (bs "x"))]) by (intros i v' [X|[]]; injection X as <- <-; lia).
    destruct (assemble F T (PVStr []) [(n, PVStr (bs "x"))]) as [v|] eqn:Ea.
    - pose proof (assemble_spec F T _ _ _ Io Ea) as (base & -> & L & _). exists (base ++ unindexed F T [(n, PVStr (bs "x"))]). split.
      + exists [(key, [bs "x"])], [], [Ok [(n, PVStr (bs "x"))]], []. split; [apply Permutation_refl|]. split; [apply Permutation_refl|]. split; [constructor; [exact Pr|constructor]|]. split; [constructor|].
        cbn [List.app all_ok RouterModel.bind List.concat]. symmetry. exact Ea.
      + unfold unindexed. cbn [filter fst]. destruct (Z.eqb_spec n (-1)); [lia|]. cbn [map]. rewrite app_nil_r, L. unfold max_index. cbn [fold_left fst]. lia.
    - pose proof (assemble_spec F T _ _ _ Io Ea) as X. unfold unindexed, max_index in X. cbn [filter fst fold_left] in X. destruct (Z.eqb_spec n (-1)); [lia|]. cbn [map List.length] in X. lia.
  Qed.

  (** ** C68: the order of the maps *)
  Theorem C68_binding_is_deterministic_refuted : ~ (forall t p name r1 r2, is_map (p_vals p) -> is_map (p_files p) -> binds t p name r1 -> binds t p name r2 -> r1 = r2).
  Proof.
    intros H. set (e1 := (bs "a", [bs "x"])). set (e2 := (bs "a[]", [bs "y"])).
    assert (P1 : process F T (binds PString) (mkParams [e1; e2] []) (bs "a") (normalize (bs "a") (fst e1)) (snd e1) 0 (Ok [((-1)%Z, PVStr (bs "x"))])).
    { exists [Ok (PVStr (bs "x"))], []. split; [repeat constructor|]. split; [constructor|]. split; vm_compute; reflexivity. }
    assert (P2 : process F T (binds PString) (mkParams [e1; e2] []) (bs "a") (normalize (bs "a") (fst e2)) (snd e2) 0 (Ok [((-1)%Z, PVStr (bs "y"))])).
    { exists [Ok (PVStr (bs "y"))], []. split; [repeat constructor|]. split; [constructor|]. split; vm_compute; reflexivity. }
    assert (X : Ok (PVSlice [PVStr (bs "x"); PVStr (bs "y")]) = Ok (PVSlice [PVStr (bs "y"); PVStr (bs "x")])); [|discriminate X].
    apply (H (PSlice PString) (mkParams [e1; e2] []) (bs "a")); [|apply NoDup_nil| |].
    { apply NoDup_cons; [intros [X|[]]; discriminate X|]. apply NoDup_cons; [intros []|apply NoDup_nil]. }
    - exists [e1; e2], [], [Ok [((-1)%Z, PVStr (bs "x"))]; Ok [((-1)%Z, PVStr (bs "y"))]], []. split; [apply Permutation_refl|]. split; [constructor|]. split; [constructor; [exact P1|constructor; [exact P2|constructor]]|]. split; [constructor|reflexivity].
    - exists [e2; e1], [], [Ok [((-1)%Z, PVStr (bs "y"))]; Ok [((-1)%Z, PVStr (bs "x"))]], []. split; [apply perm_swap|]. split; [constructor|]. split; [constructor; [exact P2|constructor; [exact P1|constructor]]|]. split; [constructor|reflexivity].
  Qed.
  (** what was submitted: the names with the number of values or files *)
  Definition entries (p : params) : list (bool * bytes * nat) :=
    map (fun kv => (true, fst kv, List.length (snd kv))) (p_vals p) ++ map (fun kf => (false, fst kf, snd kf)) (p_files p).
  (** for every slice: at most one name carries elements without an index; names with one index have the same brackets *)
  Definition orderly (p : params) : Prop := forall name,
    (forall b1 k1 n1 b2 k2 n2, In (b1, k1, S n1) (entries p) -> In (b2, k2, S n2) (entries p) -> no_index_key name k1 -> no_index_key name k2 -> b1 = b2 /\ k1 = k2) /\
    (forall k1 k2 i e1 e2, In k1 (names p) -> In k2 (names p) -> at_index name k1 i e1 -> at_index name k2 i e2 -> e1 = e2).
  Lemma at_most_one {A} (f : A -> bool) (l : list A) : NoDup l -> (forall x y, In x l -> In y l -> f x = true -> f y = true -> x = y) -> List.length (filter f l) <= 1.
  Proof.
    intros N H. assert (N' : NoDup (filter f l)) by (apply NoDup_filter; exact N). destruct (filter f l) as [|x [|y r]] eqn:E; [cbn; lia|cbn; lia|]. exfalso.
    assert (Hx : In x (filter f l)) by (rewrite E; left; reflexivity). assert (Hy : In y (filter f l)) by (rewrite E; right; left; reflexivity).
    apply filter_In in Hx as (Hx & Fx). apply filter_In in Hy as (Hy & Fy). specialize (H x y Hx Hy Fx Fy). subst y. inversion N' as [|? ? X _]; subst. apply X. left. reflexivity.
  Qed.
  Lemma map_NoDup {A} (m : list (bytes * A)) : is_map m -> NoDup m.
  Proof. unfold is_map. induction m as [|a m IH]; intros N; [constructor|]. cbn [map] in N. inversion N as [|? ? X N']; subst. constructor; [|exact (IH N')]. intros Y. apply X. apply in_map. exact Y. Qed.
  Lemma same_key {A} (m : list (bytes * A)) x y : is_map m -> In x m -> In y m -> fst x = fst y -> x = y.
  Proof. intros N Hx Hy E. destruct x as (k & v), y as (k' & v'). cbn in E. subst k'. pose proof (aget_of_in m k v' N Hy) as X. rewrite (aget_of_in m k v N Hx) in X. congruence. Qed.
  Lemma orderly_tidy p : is_map (p_vals p) -> is_map (p_files p) -> orderly p -> forall name, tidy p name.
  Proof.
    intros Nv Nf Ho name. destruct (Ho name) as (H1 & H2). split.
    - set (fv := fun kv : bytes * list bytes => (free name (fst kv) && negb (is_nil (snd kv)))%bool). set (ff := fun kf : bytes * nat => (free name (fst kf) && negb (Nat.eqb (snd kf) 0))%bool).
      assert (Ev : forall x, In x (p_vals p) -> fv x = true -> exists n, In (true, fst x, S n) (entries p) /\ no_index_key name (fst x)).
      { intros (k & l) Hx Fx. unfold fv in Fx. cbn [fst snd] in *. apply andb_true_iff in Fx as (F1 & F2). destruct l as [|v l]; [discriminate|]. exists (List.length l). split; [|apply free_key; exact F1]. apply in_app_iff. left. apply in_map_iff. exists (k, v :: l). auto. }
      assert (Ef : forall x, In x (p_files p) -> ff x = true -> exists n, In (false, fst x, S n) (entries p) /\ no_index_key name (fst x)).
      { intros (k & n) Hx Fx. unfold ff in Fx. cbn [fst snd] in *. apply andb_true_iff in Fx as (F1 & F2). destruct n as [|n]; [discriminate|]. exists n. split; [|apply free_key; exact F1]. apply in_app_iff. right. apply in_map_iff. exists (k, S n). auto. }
      assert (A : List.length (filter fv (p_vals p)) <= 1).
      { apply at_most_one; [apply map_NoDup; exact Nv|]. intros x y Hx Hy Fx Fy. destruct (Ev x Hx Fx) as (n & E1 & E2), (Ev y Hy Fy) as (m & E3 & E4). destruct (H1 _ _ _ _ _ _ E1 E3 E2 E4) as (_ & E). eapply same_key; eassumption. }
      assert (B : List.length (filter ff (p_files p)) <= 1).
      { apply at_most_one; [apply map_NoDup; exact Nf|]. intros x y Hx Hy Fx Fy. destruct (Ef x Hx Fx) as (n & E1 & E2), (Ef y Hy Fy) as (m & E3 & E4). destruct (H1 _ _ _ _ _ _ E1 E3 E2 E4) as (_ & E). eapply same_key; eassumption. }
      destruct (filter fv (p_vals p)) as [|x lx] eqn:X; [cbn [List.length]; exact B|]. destruct (filter ff (p_files p)) as [|y ly] eqn:Y; [rewrite Nat.add_0_r; exact A|]. exfalso.
      assert (Hx : In x (filter fv (p_vals p))) by (rewrite X; left; reflexivity). assert (Hy : In y (filter ff (p_files p))) by (rewrite Y; left; reflexivity).
      apply filter_In in Hx as (Hx & Fx). apply filter_In in Hy as (Hy & Fy). destruct (Ev x Hx Fx) as (n & E1 & E2), (Ef y Hy Fy) as (m & E3 & E4). destruct (H1 _ _ _ _ _ _ E1 E3 E2 E4) as (E & _). discriminate.
    - intros k1 k2 i s1 s2 K1 K2 Hi E1 E2. apply (H2 k1 k2 i s1 s2 K1 K2); apply elem_of_at; auto.
  Qed.
  Theorem C68_binding_is_deterministic_partial : forall t p name r1 r2, no_map t -> is_map (p_vals p) -> is_map (p_files p) -> orderly p -> binds t p name r1 -> binds t p name r2 -> r1 = r2.
  Proof. intros t p name r1 r2 Hm Nv Nf Ho. apply (binds_det F T fzero tzero parse_float round_float formats parse_zone parse_local unix json_map t Hm p (orderly_tidy p Nv Nf Ho)). Qed.
  (** a request with a scalar, a struct and one list without indices is orderly *)
  Example C68_case : orderly (mkParams [(bs "id", [bs "7"]); (bs "u.Name", [bs "rob"]); (bs "tags", [bs "x"; bs "y"])] []).
  Proof.
    intros name.
    assert (Nb : forall k t, In k [bs "id"; bs "u.Name"; bs "tags"] -> k <> name ++ bs "[" ++ t).
    { intros k t Hk E. assert (X : In "["%char k) by (rewrite E; apply in_app_iff; right; left; reflexivity). destruct Hk as [<-|[<-|[<-|[]]]]; vm_compute in X; repeat destruct X as [X|X]; try discriminate X; exact X. }
    assert (Ek : forall b k n, In (b, k, n) (entries (mkParams [(bs "id", [bs "7"]); (bs "u.Name", [bs "rob"]); (bs "tags", [bs "x"; bs "y"])] [])) -> In k [bs "id"; bs "u.Name"; bs "tags"] /\ b = true).
    { intros b k n [H|[H|[H|[]]]]; injection H as <- <- _; (split; [|reflexivity]); [left|right; left|right; right; left]; reflexivity. }
    split.
    - intros b1 k1 n1 b2 k2 n2 H1 H2 K1 K2. apply Ek in H1 as (H1 & ->). apply Ek in H2 as (H2 & ->). split; [reflexivity|].
      destruct K1 as [->|(t & E & _)]; [|exfalso; exact (Nb _ _ H1 E)]. destruct K2 as [->|(t & E & _)]; [reflexivity|exfalso; exact (Nb _ _ H2 E)].
    - intros k1 k2 i e1 e2 H1 _ (ds & rest & E & _) _. exfalso. exact (Nb k1 _ H1 E).
  Qed.

  (** ** C104: pointers *)
  (** some parameter mentions the name, itself or one of its parts *)
  Definition mentioned (p : params) (name : bytes) : Prop :=
    exists key, In key (names p) /\ (key = name \/ exists t, key = name ++ bs "." ++ t \/ key = name ++ bs "[" ++ t).
  Theorem C104_pointer_set_iff_submitted_refuted :
    ~ (forall e p name r, is_map (p_vals p) -> binds (PPtr e) p name r -> mentioned p name -> r <> Ok PVNil).
  Proof.
    intros H. apply (H (PStruct [(bs "Name", true, PString)]) (mkParams [(bs "u.Name", [bs "rob"])] []) (bs "u") (Ok PVNil)); [repeat constructor; intros []|reflexivity| |reflexivity].
    exists (bs "u.Name"). split; [left; reflexivity|]. right. exists (bs "Name"). left. reflexivity.
  Qed.
  (** it points to what the name binds to if the name itself has a value, and is nil otherwise *)
  Theorem C104_pointer_partial : forall e p name r, binds (PPtr e) p name r ->
    (vals (p_vals p) name <> [] -> exists x, binds e p name x /\ r = match x with Ok v => Ok (PVPtr v) | Panic => Panic end) /\
    (vals (p_vals p) name = [] -> r = Ok PVNil).
  Proof.
    intros e p name r H. cbn [ParamsModel.binds] in H. unfold ptr_binder in H. unfold vals. destruct (aget (p_vals p) name) as [[|v l]|].
    - split; [congruence|intros _; exact H].
    - split; [|discriminate]. intros _. destruct H as (x & Hx & ->). exists x. split; [exact Hx|destruct x; reflexivity].
    - split; [congruence|intros _; exact H].
  Qed.
  Example C104_case : binds (PPtr (PInt 64)) (mkParams [(bs "id", [bs "7"])] []) (bs "id") (Ok (PVPtr (PVInt 7))).
  Proof. exists (Ok (PVInt 7)). split; vm_compute; reflexivity. Qed.

  (** ** C107: structs *)
  (** a parameter for field n of the struct [name]: name.n, name.n.more or name.n[more *)
  Definition for_field (name n key : bytes) : Prop :=
    exists rest, key = name ++ bs "." ++ n ++ rest /\ (rest = [] \/ exists t, rest = bs "." ++ t \/ rest = bs "[" ++ t).
  Definition identifier (n : bytes) : Prop := ~ In "."%char n /\ ~ In "["%char n.
  Lemma index_any_none s cs : (forall c, In c s -> ~ In c cs) -> index_any s cs = None.
  Proof.
    induction s as [|a s IH]; intros H; [reflexivity|]. cbn [index_any]. destruct (existsb (Ascii.eqb a) cs) eqn:E.
    - exfalso. apply existsb_exists in E as (x & Hx & E). apply Ascii.eqb_eq in E. subst x. exact (H a (or_introl eq_refl) Hx).
    - rewrite IH; [reflexivity|]. intros c Hc. apply H. right. exact Hc.
  Qed.
  Lemma index_any_at s sep t cs : (forall c, In c s -> ~ In c cs) -> In sep cs -> index_any (s ++ sep :: t) cs = Some (List.length s).
  Proof.
    intros Hs Hsep. induction s as [|a s IH]; cbn [List.app index_any List.length].
    - replace (existsb (Ascii.eqb sep) cs) with true; [reflexivity|]. symmetry. apply existsb_exists. exists sep. split; [exact Hsep|apply Ascii.eqb_refl].
    - replace (existsb (Ascii.eqb a) cs) with false; [rewrite IH; [reflexivity|]; intros c Hc; apply Hs; right; exact Hc|].
      symmetry. destruct (existsb (Ascii.eqb a) cs) eqn:E; [|reflexivity]. apply existsb_exists in E as (x & Hx & E). apply Ascii.eqb_eq in E. subst x. exfalso. exact (Hs a (or_introl eq_refl) Hx).
  Qed.
  Lemma index_any_found s cs i : index_any s cs = Some i -> exists a b c, s = a ++ c :: b /\ List.length a = i /\ In c cs.
  Proof.
    revert i. induction s as [|x s IH]; intros i; [discriminate|]. cbn [index_any]. destruct (existsb (Ascii.eqb x) cs) eqn:E.
    - intros [= <-]. apply existsb_exists in E as (y & Hy & E). apply Ascii.eqb_eq in E. subst y. exists [], s, x. auto.
    - destruct (index_any s cs) as [j|]; [|discriminate]. intros [= <-]. destruct (IH j eq_refl) as (a & b & c & -> & <- & Hc). exists (x :: a), b, c. auto.
  Qed.
  Lemma wants_iff name ks n : identifier n -> wants name ks n <-> exists key, In key ks /\ for_field name n key.
  Proof.
    intros (Hd & Hb). unfold wants. split; intros (key & Hk & H); exists key; (split; [exact Hk|]).
    - destruct H as (Hp & Hn). apply has_prefix_spec in Hp as (t & ->). replace (List.length name + 1) with (List.length (name ++ bs ".")) in Hn by (rewrite app_length; reflexivity). rewrite skipn_app_len in Hn.
      unfold for_field. unfold next_key in Hn. destruct (index_any t (bs ".[")) as [i|] eqn:E.
      + apply index_any_found in E as (a & b & c & -> & <- & Hc). rewrite firstn_app_len in Hn. subst a. exists (c :: b). split; [rewrite <- app_assoc; reflexivity|]. right. exists b. destruct Hc as [<-|[<-|[]]]; [left|right]; reflexivity.
      + subst t. exists []. split; [rewrite <- app_assoc, app_nil_r; reflexivity|left; reflexivity].
    - destruct H as (rest & -> & Hr). split; [apply has_prefix_spec; exists (n ++ rest); rewrite <- app_assoc; reflexivity|].
      replace (List.length name + 1) with (List.length (name ++ bs ".")) by (rewrite app_length; reflexivity). replace (name ++ bs "." ++ n ++ rest) with ((name ++ bs ".") ++ n ++ rest) by (rewrite <- app_assoc; reflexivity). rewrite skipn_app_len.
      assert (Hc : forall c, In c n -> ~ In c (bs ".[")) by (intros c Hc [<-|[<-|[]]]; contradiction).
      unfold next_key. destruct Hr as [->|(t & [-> | ->])].
      + rewrite app_nil_r, index_any_none by exact Hc. reflexivity.
      + change (n ++ bs "." ++ t) with (n ++ "."%char :: t). rewrite index_any_at; [apply firstn_app_len|exact Hc|left; reflexivity].
      + change (n ++ bs "[" ++ t) with (n ++ "["%char :: t). rewrite index_any_at; [apply firstn_app_len|exact Hc|right; left; reflexivity].
  Qed.
  Lemma field_index_first {A} (fs : list (bytes * bool * A)) : NoDup (map (fun f => fst (fst f)) fs) -> forall i n s x, nth_error fs i = Some (n, s, x) -> field_index fs n = Some (i, s, x).
  Proof.
    induction fs as [|((m & b) & a) fs IH]; intros N i n s x H; [destruct i; discriminate|]. cbn [map fst] in N. inversion N as [|? ? Hx N']; subst. destruct i as [|i]; cbn [nth_error] in H.
    - injection H as -> -> ->. cbn [field_index]. rewrite beq_refl. reflexivity.
    - cbn [field_index]. destruct (beq_spec m n) as [->|_]; [exfalso; apply Hx; apply in_map_iff; exists (n, s, x); split; [reflexivity|eapply nth_error_In; exact H]|]. rewrite (IH N' i n s x H). reflexivity.
  Qed.
  Theorem C107_struct_fields : forall fs p name v, NoDup (map (fun f => fst (fst f)) fs) -> binds (PStruct fs) p name (Ok v) ->
    exists out, v = PVStruct out /\ List.length out = List.length fs /\
      forall i n settable t, nth_error fs i = Some (n, settable, t) -> identifier n ->
        (settable = true /\ (exists key, In key (map fst (p_vals p)) /\ for_field name n key) -> exists x, nth_error out i = Some x /\ binds t p (name ++ bs "." ++ n) (Ok x)) /\
        (~ (settable = true /\ exists key, In key (map fst (p_vals p)) /\ for_field name n key) -> nth_error out i = Some (pzero t)).
  Proof.
    intros fs p name v N H. cbn [ParamsModel.binds] in H. destruct H as (ov & P & H). apply struct_loop_spec in H; [|rewrite !map_length; reflexivity]. destruct H as (out & -> & L & A & B).
    exists out. split; [reflexivity|]. rewrite map_length in L. split; [exact L|]. intros i n settable t Hi Hid.
    assert (W : wants name (map fst ov) n <-> exists key, In key (map fst (p_vals p)) /\ for_field name n key).
    { rewrite <- (wants_iff name (map fst (p_vals p)) n Hid). split; apply wants_perm, Permutation_map; [apply Permutation_sym|]; exact P. }
    assert (N' : NoDup (map (fun f : bytes * bool * binder F T => fst (fst f)) (map (fun f => (fst f, binds (snd f))) fs))).
    { rewrite map_map. cbn [fst]. exact N. }
    assert (Hr : forall m s b, field_index (map (fun f => (fst f, binds (snd f))) fs) m = Some (i, s, b) -> m = n /\ s = settable /\ b = binds t).
    { intros m s b Hf. apply field_index_nth in Hf. rewrite nth_error_map, Hi in Hf. cbn in Hf. injection Hf as <- <- <-. auto. }
    split.
    - intros (-> & Hw). apply W in Hw. destruct (A n i (binds t) Hw (fun x => x)) as (x & Hx & Ho); [|exists x; auto].
      apply field_index_first; [exact N'|]. rewrite nth_error_map, Hi. reflexivity.
    - intros Hno. rewrite (B i); [rewrite nth_error_map, Hi; reflexivity|]. intros m b Hw _ Hf. destruct (Hr m true b Hf) as (-> & <- & _). apply Hno. split; [reflexivity|]. apply W. exact Hw.
  Qed.
  Example C107_case : binds (PStruct [(bs "Name", true, PString); (bs "age", false, PInt 64)]) (mkParams [(bs "u.Name", [bs "rob"]); (bs "u.age", [bs "3"])] []) (bs "u") (Ok (PVStruct [PVStr (bs "rob"); PVInt 0])).
  Proof.
    exists [(bs "u.Name", [bs "rob"]); (bs "u.age", [bs "3"])]. split; [apply Permutation_refl|]. exists (Ok (PVStr (bs "rob"))). split; vm_compute; reflexivity.
  Qed.

  (** ** C108: maps *)
  Lemma map_set_fresh (m : list (pval * pval)) k y : ~ In (PVStr k) (map fst m) -> (forall a, In a (map fst m) -> exists s, a = PVStr s) -> map_set F T m (PVStr k) y = m ++ [(PVStr k, y)].
  Proof.
    induction m as [|(a & b) m IH]; intros Hn Hs; [reflexivity|]. cbn [map_set]. destruct (Hs a (or_introl eq_refl)) as (s & ->). cbn [pval_eq_dec_str]. destruct (beq_spec s k) as [->|_]; [exfalso; apply Hn; left; reflexivity|].
    cbn [List.app]. rewrite IH; [reflexivity| |]; [intros X; apply Hn; right; exact X|intros x Hx; apply Hs; right; exact Hx].
  Qed.
  Lemma map_loop_str e : forall kvs m v, NoDup (map fst kvs) -> (forall k, In k (map fst kvs) -> ~ In (PVStr k) (map fst m)) -> (forall a, In a (map fst m) -> exists s, a = PVStr s) ->
    map_loop F T (binds PString) (binds e) kvs m (Ok v) ->
    exists m', v = PVMap (m ++ m') /\ Forall2 (fun kv ky => exists val, snd kv = Some val /\ fst ky = PVStr (fst kv) /\ binds e (single val) [] (Ok (snd ky))) kvs m'.
  Proof.
    induction kvs as [|(k & o) kvs IH]; intros m v N Hf Hs H; cbn [ParamsModel.map_loop] in H.
    - injection H as ->. exists []. rewrite app_nil_r. split; [reflexivity|constructor].
    - destruct H as (x & Hx & H). cbn in Hx. unfold value_binder in Hx. cbn in Hx. subst x. destruct o as [val|]; [|discriminate]. destruct H as (y & Hy & H). destruct y as [y|]; [|discriminate].
      cbn [map fst] in N. inversion N as [|? ? Hk N']; subst. rewrite map_set_fresh in H; [|apply Hf; left; reflexivity|exact Hs].
      assert (A : forall k', In k' (map fst kvs) -> ~ In (PVStr k') (map fst (m ++ [(PVStr k, y)]))).
      { intros k' Hk' X. rewrite map_app in X. apply in_app_iff in X as [X|[X|[]]]; [exact (Hf k' (or_intror Hk') X)|]. cbn in X. injection X as ->. contradiction. }
      assert (B : forall a, In a (map fst (m ++ [(PVStr k, y)])) -> exists s, a = PVStr s).
      { intros a Ha. rewrite map_app in Ha. apply in_app_iff in Ha as [Ha|[<-|[]]]; [exact (Hs a Ha)|]. exists k. reflexivity. }
      destruct (IH _ _ N' A B H) as (m' & -> & F2). exists ((PVStr k, y) :: m'). split; [rewrite <- app_assoc; reflexivity|]. constructor; [exists val; auto|exact F2].
  Qed.
  Lemma map_entries_in name ov k o : In (k, o) (map_entries name ov) <-> exists l, In (name ++ bs "[" ++ k ++ bs "]", l) ov /\ o = hd_error l.
  Proof.
    assert (Cut : forall k : bytes, firstn (List.length (name ++ bs "[" ++ k ++ bs "]") - 1 - (List.length name + 1)) (skipn (List.length name + 1) (name ++ bs "[" ++ k ++ bs "]")) = k).
    { intros k0. replace (List.length name + 1) with (List.length (name ++ bs "[")) at 2 by (rewrite app_length; reflexivity).
      replace (name ++ bs "[" ++ k0 ++ bs "]") with ((name ++ bs "[") ++ k0 ++ bs "]") at 2 by (rewrite <- app_assoc; reflexivity). rewrite skipn_app_len.
      replace (List.length (name ++ bs "[" ++ k0 ++ bs "]") - 1 - (List.length name + 1)) with (List.length k0); [apply firstn_app_len|]. rewrite !app_length. unfold bs. cbn. lia. }
    unfold map_entries. rewrite in_flat_map. split.
    - intros ((key & l) & Hin & H). cbn [fst snd] in H. destruct (has_prefix key (name ++ bs "[") && has_suffix key (bs "]"))%bool eqn:E; [|destruct H]. apply andb_true_iff in E as (E1 & E2).
      apply has_prefix_spec in E1 as (t & ->). apply has_suffix_spec in E2 as (u & E2). destruct H as [H|[]]. pose proof (f_equal fst H) as H1. pose proof (f_equal snd H) as H2. clear H. cbn [fst snd] in H1, H2. exists l. split; [|auto].
      assert (X : exists w, t = w ++ bs "]").
      { destruct (rev t) as [|c w] eqn:Er.
        - apply (f_equal (@rev ascii)) in Er. rewrite rev_involutive in Er. subst t. rewrite app_nil_r in E2. apply (f_equal (@rev ascii)) in E2. rewrite !rev_app_distr in E2. cbn in E2. discriminate E2.
        - apply (f_equal (@rev ascii)) in Er. rewrite rev_involutive in Er. cbn [rev] in Er. exists (rev w). rewrite Er in *. apply (f_equal (@rev ascii)) in E2. rewrite !rev_app_distr in E2. cbn in E2. injection E2 as -> _. reflexivity. }
      destruct X as (w & ->). replace ((name ++ bs "[") ++ w ++ bs "]") with (name ++ bs "[" ++ w ++ bs "]") in * by (rewrite <- app_assoc; reflexivity). rewrite Cut in H1. subst w. exact Hin.
    - intros (l & Hin & ->). exists (name ++ bs "[" ++ k ++ bs "]", l). split; [exact Hin|]. cbn [fst snd].
      replace (has_prefix (name ++ bs "[" ++ k ++ bs "]") (name ++ bs "[")) with true by (symmetry; apply has_prefix_spec; exists (k ++ bs "]"); rewrite <- app_assoc; reflexivity).
      replace (has_suffix (name ++ bs "[" ++ k ++ bs "]") (bs "]")) with true by (symmetry; apply has_suffix_spec; exists (name ++ bs "[" ++ k); rewrite <- !app_assoc; reflexivity).
      cbn [andb]. rewrite Cut. left. reflexivity.
  Qed.
  Lemma map_entries_nodup name ov : is_map ov -> NoDup (map fst (map_entries name ov)).
  Proof.
    unfold is_map. induction ov as [|(key & l) ov IH]; intros N; [constructor|]. cbn [map fst] in N. inversion N as [|? ? Hk N']; subst. specialize (IH N').
    change (map_entries name ((key, l) :: ov)) with ((if (has_prefix key (name ++ bs "[") && has_suffix key (bs "]"))%bool then [(firstn (List.length key - 1 - (List.length name + 1)) (skipn (List.length name + 1) key), hd_error l)] else []) ++ map_entries name ov).
    destruct (has_prefix key (name ++ bs "[") && has_suffix key (bs "]"))%bool eqn:E; [|exact IH]. cbn [List.app map fst]. constructor; [|exact IH]. intros X. apply in_map_iff in X as ((k & o) & Ek & X). cbn [fst] in Ek.
    apply map_entries_in in X as (l2 & X & _).
    assert (Y : In (k, hd_error l) (map_entries name [(key, l)])) by (unfold map_entries; cbn [flat_map fst snd]; rewrite E, app_nil_r, Ek; left; reflexivity).
    apply map_entries_in in Y as (l3 & [Y|[]] & _). injection Y as -> _. apply Hk. apply in_map_iff. exists (name ++ bs "[" ++ k ++ bs "]", l2). auto.
  Qed.
  (** With no value under the name itself, name[k]=v gives the map exactly the entries k -> v *)
  Theorem C108_map_entries : forall e p name v, is_map (p_vals p) -> hd [] (vals (p_vals p) name) = [] -> binds (PMap PString e) p name (Ok v) ->
    exists m, v = PVMap m /\ NoDup (map fst m) /\
      (forall key y, In (key, y) m -> exists k val rest, key = PVStr k /\ In (name ++ bs "[" ++ k ++ bs "]", val :: rest) (p_vals p) /\ binds e (given1 val) [] (Ok y)) /\
      (forall k l, In (name ++ bs "[" ++ k ++ bs "]", l) (p_vals p) -> exists y, In (PVStr k, y) m).
  Proof.
    intros e p name v N Hv H. cbn [ParamsModel.binds] in H. unfold bind_map in H.
    assert (E0 : is_nil (match aget (p_vals p) name with Some (v :: _) => v | _ => [] end) = true) by (unfold vals in Hv; destruct (aget (p_vals p) name) as [[|x l]|]; try reflexivity; cbn in Hv; rewrite Hv; reflexivity).
    rewrite E0 in H. destruct H as (ov & P & H).
    assert (N2 : is_map ov) by (unfold is_map in *; eapply Permutation_NoDup; [apply Permutation_map; exact P|exact N]).
    apply map_loop_str in H; [|apply map_entries_nodup; exact N2|intros k _ []|intros a []]. destruct H as (m & -> & F2). exists m. split; [reflexivity|].
    assert (K : map fst m = map PVStr (map fst (map_entries name ov))).
    { clear - F2. induction F2 as [|kv ky l l' (val & _ & E & _) _ IH]; [reflexivity|]. cbn [map]. rewrite IH, E. reflexivity. }
    split; [|split].
    - rewrite K. apply FinFun.Injective_map_NoDup; [intros a b X; injection X; auto|apply map_entries_nodup; exact N2].
    - intros key y Hin. destruct (Forall2_in_r _ _ _ _ F2 Hin) as ((k & o) & Hk & val & Eo & Ek & Hb). cbn [fst snd] in *. subst key o.
      apply map_entries_in in Hk as (l & Hl & E). destruct l as [|val' rest]; [discriminate|]. injection E as <-. exists k, val, rest. split; [reflexivity|]. split; [eapply Permutation_in; [apply Permutation_sym; exact P|exact Hl]|exact Hb].
    - intros k l Hin. apply (Permutation_in _ P) in Hin. assert (X : In (k, hd_error l) (map_entries name ov)) by (apply map_entries_in; exists l; auto).
      destruct (Forall2_in_l _ _ _ _ F2 X) as ((key & y) & Hy & val & _ & Ek & _). cbn [fst] in Ek. subst key. exists y. exact Hy.
  Qed.
  (** A JSON object under the name itself wins: its members are the entries, parameters name[k] are ignored *)
  Theorem C108_map_from_json : forall e p name v json l, vals (p_vals p) name = json :: l -> json <> [] -> NoDup (map fst (json_map json)) -> binds (PMap PString e) p name (Ok v) ->
    exists m, v = PVMap m /\ NoDup (map fst m) /\
      (forall key y, In (key, y) m -> exists k s, key = PVStr k /\ In (k, s) (json_map json) /\ binds e (given1 s) [] (Ok y)) /\
      (forall k s, In (k, s) (json_map json) -> exists y, In (PVStr k, y) m).
  Proof.
    intros e p name v json l Hv Hj N H. cbn [ParamsModel.binds] in H. unfold bind_map in H. unfold vals in Hv. destruct (aget (p_vals p) name) as [l'|]; [subst l'|discriminate].
    destruct json as [|c json]; [congruence|]. cbn [is_nil] in H. destruct H as (oj & P & H).
    assert (N2 : NoDup (map fst (map (fun kv : bytes * bytes => (fst kv, Some (snd kv))) oj))).
    { rewrite map_map. cbn [fst]. eapply Permutation_NoDup; [apply Permutation_map; exact P|exact N]. }
    apply map_loop_str in H; [|exact N2|intros k _ []|intros a []]. destruct H as (m & -> & F2). exists m. split; [reflexivity|].
    assert (K : map fst m = map PVStr (map fst (map (fun kv : bytes * bytes => (fst kv, Some (snd kv))) oj))).
    { clear - F2. induction F2 as [|kv ky l l' (val & _ & E & _) _ IH]; [reflexivity|]. cbn [map]. rewrite IH, E. reflexivity. }
    split; [|split].
    - rewrite K. apply FinFun.Injective_map_NoDup; [intros a b X; injection X; auto|exact N2].
    - intros key y Hin. destruct (Forall2_in_r _ _ _ _ F2 Hin) as (kv & Hk & val & Eo & Ek & Hb). apply in_map_iff in Hk as ((k & s) & <- & Hk). cbn [fst snd] in *. injection Eo as <-. exists k, s. split; [exact Ek|]. split; [eapply Permutation_in; [apply Permutation_sym; exact P|exact Hk]|exact Hb].
    - intros k s Hin. apply (Permutation_in _ P) in Hin. assert (X : In (k, Some s) (map (fun kv : bytes * bytes => (fst kv, Some (snd kv))) oj)) by (apply in_map_iff; exists (k, s); auto).
      destruct (Forall2_in_l _ _ _ _ F2 X) as ((key & y) & Hy & val & _ & Ek & _). cbn [fst] in Ek. subst key. exists y. exact Hy.
  Qed.
  (** *** keys of other types: texts that stand for the same key share an entry *)
  Definition keyval (a : pval) : Prop := match a with ParamsModel.PVBool _ _ _ | ParamsModel.PVInt _ _ _ | ParamsModel.PVUint _ _ _ | ParamsModel.PVStr _ _ _ => True | _ => False end.
  Definition key_type (t : pty) : Prop := match t with PBool | PInt _ | PUint _ | PString => True | _ => False end.
  Lemma scalar_eq a b : keyval a -> keyval b -> pval_eq_dec_str F T a b = true <-> a = b.
  Proof.
    destruct a, b; cbn; try contradiction; intros _ _; split; intros H; try discriminate H; try (injection H as ->); try (apply Z.eqb_refl || apply beq_refl || apply Bool.eqb_reflx).
    - apply Bool.eqb_prop in H. congruence.
    - apply Z.eqb_eq in H. congruence.
    - apply Z.eqb_eq in H. congruence.
    - apply beq_true in H. congruence.
  Qed.
  Lemma key_binds t k x : key_type t -> binds t (single k) [] x -> exists y, x = Ok y /\ keyval y.
  Proof.
    destruct t; cbn; try contradiction; intros _ H; unfold value_binder in H; cbn in H; subst x; eexists; (split; [reflexivity|]); unfold bind_bool, bind_int, bind_uint; cbn [pzero]; try exact Logic.I.
    all: repeat match goal with |- keyval (if ?x then _ else _) => destruct x | |- keyval (let (_, _) := ?x in _) => destruct x | |- keyval (match ?x with _ => _ end) => destruct x end; cbn; exact Logic.I.
  Qed.
  Lemma map_set_in m k y : Forall keyval (map fst m) -> keyval k -> NoDup (map fst m) ->
    NoDup (map fst (map_set F T m k y)) /\ Forall keyval (map fst (map_set F T m k y)) /\
    (forall a b, In (a, b) (map_set F T m k y) -> In (a, b) m /\ a <> k \/ a = k /\ b = y) /\ (forall a, In a (map fst m) \/ a = k -> In a (map fst (map_set F T m k y))).
  Proof.
    induction m as [|(k0 & y0) m IH]; intros S Sk N; cbn [map_set].
    - split; [repeat constructor; intros []|]. split; [repeat constructor; exact Sk|]. split; [intros a b [X|[]]; injection X as <- <-; auto|]. intros a [[]|X]. left. symmetry. exact X.
    - inversion S as [|? ? S1 S2]; subst. inversion N as [|? ? N1 N2]; subst. destruct (pval_eq_dec_str F T k0 k) eqn:E.
      + apply scalar_eq in E; [|assumption..]. subst k0. split; [exact N|]. split; [exact S|]. split.
        * intros a b [X|X]; [injection X as <- <-; auto|]. left. split; [right; exact X|]. intros ->. apply N1. apply in_map_iff. exists (k, b). auto.
        * intros a [X|X]; [exact X|]. left. cbn. symmetry. exact X.
      + assert (Hn : k0 <> k) by (intros X; apply scalar_eq in X; [congruence|assumption..]). destruct (IH S2 Sk N2) as (A & B & C & D). cbn [map fst]. split; [|split; [|split]].
        * constructor; [|exact A]. intros X. apply in_map_iff in X as ((a & b) & Ea & X). cbn in Ea. subst a. destruct (C k0 b X) as [(X1 & _)|(X1 & _)]; [|exact (Hn X1)]. apply N1. apply in_map_iff. exists (k0, b). auto.
        * constructor; assumption.
        * intros a b [X|X]; [injection X as <- <-; left; split; [left; reflexivity|exact Hn]|]. destruct (C a b X) as [(X1 & X2)|X1]; [left; split; [right; exact X1|exact X2]|right; exact X1].
        * intros a [[X|X]|X]; [left; exact X|right; apply D; left; exact X|right; apply D; right; exact X].
  Qed.
  Lemma map_loop_scalar kt e : key_type kt -> forall kvs m v, Forall keyval (map fst m) -> NoDup (map fst m) -> map_loop F T (binds kt) (binds e) kvs m (Ok v) ->
    exists m', v = PVMap m' /\ NoDup (map fst m') /\
      (forall a b, In (a, b) m' -> In (a, b) m \/ exists k val, In (k, Some val) kvs /\ binds kt (single k) [] (Ok a) /\ binds e (single val) [] (Ok b)) /\
      (forall a, In a (map fst m) -> In a (map fst m')) /\
      (forall k o, In (k, o) kvs -> exists a b, In (a, b) m' /\ binds kt (single k) [] (Ok a)).
  Proof.
    intros Hk. induction kvs as [|(k & o) kvs IH]; intros m v S N H; cbn [ParamsModel.map_loop] in H.
    - injection H as ->. exists m. split; [reflexivity|]. split; [exact N|]. split; [auto|]. split; [auto|]. intros k o [].
    - destruct H as (x & Hx & H). destruct (key_binds kt k x Hk Hx) as (a & -> & Sa). destruct o as [val|]; [|discriminate]. destruct H as (y & Hy & H). destruct y as [y|]; [|discriminate].
      destruct (map_set_in m a y S Sa N) as (N' & S' & C & D). destruct (IH _ _ S' N' H) as (m' & -> & M1 & M2 & M3 & M4). exists m'. split; [reflexivity|]. split; [exact M1|]. split; [|split].
      + intros a' b' Hin. destruct (M2 a' b' Hin) as [Hm|(k' & val' & H1 & H2 & H3)].
        * destruct (C a' b' Hm) as [(Hm' & _)|(-> & ->)]; [left; exact Hm'|]. right. exists k, val. split; [left; reflexivity|]. auto.
        * right. exists k', val'. split; [right; exact H1|]. auto.
      + intros a' Ha. apply M3, D. left. exact Ha.
      + intros k' o' [X|X]; [|exact (M4 k' o' X)]. injection X as <- <-. assert (Ha : In a (map fst m')) by (apply M3, D; right; reflexivity).
        apply in_map_iff in Ha as ((a' & b') & Ea & Ha). cbn in Ea. subst a'. exists a, b'. auto.
  Qed.
  (** a map with bool, integer or string keys: one entry for each key that is submitted, with the value of one of the texts that stand for it *)
  Theorem C108_scalar_keys : forall kt e p name v, key_type kt -> hd [] (vals (p_vals p) name) = [] -> binds (PMap kt e) p name (Ok v) ->
    exists m, v = PVMap m /\ NoDup (map fst m) /\
      (forall a b, In (a, b) m -> exists k val rest, In (name ++ bs "[" ++ k ++ bs "]", val :: rest) (p_vals p) /\ binds kt (given1 k) [] (Ok a) /\ binds e (given1 val) [] (Ok b)) /\
      (forall k l, In (name ++ bs "[" ++ k ++ bs "]", l) (p_vals p) -> exists a b, In (a, b) m /\ binds kt (given1 k) [] (Ok a)).
  Proof.
    intros kt e p name v Hk Hv H. cbn [ParamsModel.binds] in H. unfold bind_map in H.
    assert (E0 : is_nil (match aget (p_vals p) name with Some (v :: _) => v | _ => [] end) = true) by (unfold vals in Hv; destruct (aget (p_vals p) name) as [[|x l]|]; try reflexivity; cbn in Hv; rewrite Hv; reflexivity).
    rewrite E0 in H. destruct H as (ov & P & H). apply (map_loop_scalar kt e Hk) in H; [|constructor|constructor]. destruct H as (m & -> & M1 & M2 & _ & M4). exists m. split; [reflexivity|]. split; [exact M1|]. split.
    - intros a b Hin. destruct (M2 a b Hin) as [[]|(k & val & H1 & H2 & H3)]. apply map_entries_in in H1 as (l & Hl & E). destruct l as [|val' rest]; [discriminate|]. injection E as <-.
      exists k, val, rest. split; [eapply Permutation_in; [apply Permutation_sym; exact P|exact Hl]|]. split; [exact H2|exact H3].
    - intros k l Hin. apply (Permutation_in _ P) in Hin. apply (M4 k (hd_error l)). apply map_entries_in. exists l. auto.
  Qed.
  Theorem C108_scalar_keys_json : forall kt e p name v json l, key_type kt -> vals (p_vals p) name = json :: l -> json <> [] -> binds (PMap kt e) p name (Ok v) ->
    exists m, v = PVMap m /\ NoDup (map fst m) /\
      (forall a b, In (a, b) m -> exists k s, In (k, s) (json_map json) /\ binds kt (given1 k) [] (Ok a) /\ binds e (given1 s) [] (Ok b)) /\
      (forall k s, In (k, s) (json_map json) -> exists a b, In (a, b) m /\ binds kt (given1 k) [] (Ok a)).
  Proof.
    intros kt e p name v json l Hk Hv Hj H. cbn [ParamsModel.binds] in H. unfold bind_map in H. unfold vals in Hv. destruct (aget (p_vals p) name) as [l'|]; [subst l'|discriminate].
    destruct json as [|c json]; [congruence|]. cbn [is_nil] in H. destruct H as (oj & P & H). apply (map_loop_scalar kt e Hk) in H; [|constructor|constructor]. destruct H as (m & -> & M1 & M2 & _ & M4). exists m. split; [reflexivity|]. split; [exact M1|]. split.
    - intros a b Hin. destruct (M2 a b Hin) as [[]|(k & val & H1 & H2 & H3)]. apply in_map_iff in H1 as ((k' & s) & E & H1). cbn in E. injection E as -> ->. exists k, val. split; [eapply Permutation_in; [apply Permutation_sym; exact P|exact H1]|]. auto.
    - intros k s Hin. apply (Permutation_in _ P) in Hin. apply (M4 k (Some s)). apply in_map_iff. exists (k, s). auto.
  Qed.
  Example C108_keys_case : binds (PMap (PInt 64) PString) (mkParams [(bs "a[1]", [bs "x"]); (bs "a[01]", [bs "y"]); (bs "a[-2]", [bs "z"])] []) (bs "a") (Ok (PVMap [(PVInt 1, PVStr (bs "y")); (PVInt (-2), PVStr (bs "z"))])).
  Proof.
    exists [(bs "a[1]", [bs "x"]); (bs "a[01]", [bs "y"]); (bs "a[-2]", [bs "z"])]. split; [apply Permutation_refl|].
    exists (Ok (PVInt 1)). split; [reflexivity|]. exists (Ok (PVStr (bs "x"))). split; [reflexivity|]. exists (Ok (PVInt 1)). split; [reflexivity|]. exists (Ok (PVStr (bs "y"))). split; [reflexivity|]. exists (Ok (PVInt (-2))). split; [reflexivity|]. exists (Ok (PVStr (bs "z"))). split; reflexivity.
  Qed.
  Example C108_case : binds (PMap PString (PInt 64)) (mkParams [(bs "a[x]", [bs "1"]); (bs "b", [bs "2"]); (bs "a[y]", [bs "3"; bs "4"])] []) (bs "a") (Ok (PVMap [(PVStr (bs "x"), PVInt 1); (PVStr (bs "y"), PVInt 3)])).
  Proof.
    exists [(bs "a[x]", [bs "1"]); (bs "b", [bs "2"]); (bs "a[y]", [bs "3"; bs "4"])]. split; [apply Permutation_refl|].
    exists (Ok (PVStr (bs "x"))). split; [reflexivity|]. exists (Ok (PVInt 1)). split; [vm_compute; reflexivity|]. exists (Ok (PVStr (bs "y"))). split; [reflexivity|]. exists (Ok (PVInt 3)). split; vm_compute; reflexivity.
  Qed.

  (** ** C105: BindValuesToStruct *)
  Notation bnode := (bnode F T).
  Notation bind_fields := (bind_fields F T fzero tzero parse_float round_float formats parse_zone parse_local unix json_map).
  Notation bind_node := (bind_node F T fzero tzero parse_float round_float formats parse_zone parse_local unix json_map).
  Notation bind_values_to_struct := (bind_values_to_struct F T fzero tzero parse_float round_float formats parse_zone parse_local unix json_map).
  Notation BPlain := (BPlain F T).
  Notation BStruct := (BStruct F T).
  Notation BPtr := (BPtr F T).
  Notation BOtherNode := (BOtherNode F T).
  (** the parameter of a field: the tag up to its comma, the field's name without a tag *)
  Definition param_of (name tag param : bytes) : Prop :=
    (tag = [] /\ param = name) \/ (tag <> [] /\ ~ In ","%char tag /\ param = tag) \/ (exists opts, tag = param ++ bs "," ++ opts /\ ~ In ","%char param).
  Lemma param_name_of name tag : param_of name tag (param_name name tag).
  Proof.
    unfold param_name, param_of. destruct (index_byte ","%char tag) as [i|] eqn:E.
    - apply index_byte_some in E as (l & r & -> & <- & Hl). rewrite firstn_app_len. right. right. exists r. split; [reflexivity|exact Hl].
    - apply index_byte_none in E. destruct tag as [|c tag]; [left; auto|]. right. left. split; [discriminate|]. auto.
  Qed.
  Lemma param_of_fun name tag a b : param_of name tag a -> param_of name tag b -> a = b.
  Proof.
    assert (C : forall x o, In ","%char (x ++ bs "," ++ o)) by (intros; apply in_app_iff; right; left; reflexivity).
    intros [(-> & ->)|[(H1 & H2 & ->)|(o & -> & H2)]] [(E & ->)|[(H3 & H4 & ->)|(o' & E & H4)]]; try reflexivity; try congruence.
    - exfalso. destruct b; discriminate.
    - exfalso. apply H2. rewrite E. apply C.
    - exfalso. destruct a; discriminate.
    - exfalso. exact (H4 (C a o)).
    - pose proof (index_byte_app ","%char a o H2) as A. pose proof (index_byte_app ","%char b o' H4) as B. change (a ++ ","%char :: o) with (a ++ bs "," ++ o) in A. change (b ++ ","%char :: o') with (b ++ bs "," ++ o') in B.
      rewrite E, B in A. injection A as A. apply (f_equal (firstn (List.length a))) in E. rewrite firstn_app_len in E. rewrite <- A, firstn_app_len in E. exact E.
  Qed.
  (** a plain field that takes part, and whose parameter has a value *)
  Definition submitted_field (p : params) (f : bnode) : Prop :=
    exists name tag t v param, f = BPlain name tag true t v /\ tag <> bs "-" /\ param_of name tag param /\ vals (p_vals p) param <> [].
  (** what binding does to a field *)
  Inductive filled (p : params) : bnode -> bnode -> Prop :=
  | fl_skipped : forall name tag exported t v, exported = false \/ tag = bs "-" -> filled p (BPlain name tag exported t v) (BPlain name tag exported t v)
  | fl_bound : forall name tag t v x param, tag <> bs "-" -> param_of name tag param -> binds t p param (Ok x) -> filled p (BPlain name tag true t v) (BPlain name tag true t x)
  | fl_struct_skipped : forall fs, filled p (BStruct (bs "-") fs) (BStruct (bs "-") fs)
  | fl_struct : forall tag fs fs', tag <> bs "-" -> Forall2 (filled p) fs fs' -> filled p (BStruct tag fs) (BStruct tag fs')
  | fl_ptr_skipped : forall exported zero cur, filled p (BPtr (bs "-") exported zero cur) (BPtr (bs "-") exported zero cur)
  | fl_ptr : forall tag exported zero fs fs', tag <> bs "-" -> Forall2 (filled p) fs fs' -> filled p (BPtr tag exported zero (Some fs)) (BPtr tag exported zero (Some fs'))
  | fl_ptr_stays_nil : forall tag exported zero, tag <> bs "-" -> (forall f, In f zero -> ~ submitted_field p f) -> filled p (BPtr tag exported zero None) (BPtr tag exported zero None)
  | fl_ptr_allocated : forall tag exported zero fs', tag <> bs "-" -> (exists f, In f zero /\ submitted_field p f) -> Forall2 (filled p) zero fs' -> filled p (BPtr tag exported zero None) (BPtr tag exported zero (Some fs'))
  | fl_other : forall v, filled p (BOtherNode v) (BOtherNode v).
  Lemma bnode_deep (P : bnode -> Prop) :
    (forall name tag exported t v, P (BPlain name tag exported t v)) -> (forall tag fs, Forall P fs -> P (BStruct tag fs)) ->
    (forall tag exported zero cur, Forall P zero -> match cur with Some fs => Forall P fs | None => True end -> P (BPtr tag exported zero cur)) -> (forall v, P (BOtherNode v)) -> forall f, P f.
  Proof.
    intros H1 H2 H3 H4. fix IH 1. assert (L : forall fs, Forall P fs) by (fix IHl 1; intros [|f fs]; [constructor|constructor; [apply IH|apply IHl]]).
    intros [name tag exported t v|tag fs|tag exported zero cur|v]; [apply H1|apply H2, L|apply H3; [apply L|destruct cur as [fs|]; [apply L|exact I]]|apply H4].
  Qed.
  Lemma given_vals p n : given p n = true <-> vals (p_vals p) n <> [].
  Proof. unfold given, vals. destruct (aget (p_vals p) n) as [[|v l]|]; split; try discriminate; try congruence. Qed.
  (** every embedded pointer is of an exported type *)
  Inductive exported_pointers : bnode -> Prop :=
  | ep_plain : forall name tag exported t v, exported_pointers (BPlain name tag exported t v)
  | ep_struct : forall tag fs, Forall exported_pointers fs -> exported_pointers (BStruct tag fs)
  | ep_ptr : forall tag zero cur, Forall exported_pointers zero -> (forall fs, cur = Some fs -> Forall exported_pointers fs) -> exported_pointers (BPtr tag true zero cur)
  | ep_other : forall v, exported_pointers (BOtherNode v).
  Definition node_ok (p : params) (f : bnode) : Prop := forall r, bind_node p f r ->
    match r with
    | Ok (f', e) => filled p f f' /\ (e = true <-> submitted_field p f)
    | Panic => (exists t n, binds t p n Panic) \/ ~ exported_pointers f
    end.
  Lemma fields_ok p fs : Forall (node_ok p) fs -> forall r, bind_fields p fs r ->
    match r with
    | Ok (fs', e) => Forall2 (filled p) fs fs' /\ (e = true <-> exists f, In f fs /\ submitted_field p f)
    | Panic => (exists t n, binds t p n Panic) \/ ~ Forall exported_pointers fs
    end.
  Proof.
    induction 1 as [|f fs Hf _ IH]; intros r H; cbn [ParamsModel.bind_fields] in H.
    - subst r. split; [constructor|]. split; [discriminate|intros (f & [] & _)].
    - destruct H as (a & Ha & H). apply Hf in Ha. destruct a as [(f' & e)|].
      + destruct H as (b & Hb & H). apply IH in Hb. destruct b as [(fs' & e')|]; subst r.
        * destruct Ha as (A1 & A2), Hb as (B1 & B2). split; [constructor; assumption|]. rewrite orb_true_iff, A2, B2. split.
          -- intros [X|(g & Hg & X)]; [exists f; split; [left; reflexivity|exact X]|exists g; split; [right; exact Hg|exact X]].
          -- intros (g & [<-|Hg] & X); [left; exact X|right; exists g; auto].
        * destruct Hb as [Hb|Hb]; [left; exact Hb|right; intros X; apply Hb; inversion X; assumption].
      + subst r. destruct Ha as [Ha|Ha]; [left; exact Ha|right; intros X; apply Ha; inversion X; assumption].
  Qed.
  Lemma not_submitted p f : (match f with ParamsModel.BPlain _ _ _ tag exported _ _ => exported = false \/ tag = bs "-" | _ => True end) -> ~ submitted_field p f.
  Proof. intros H (name & tag & t & v & param & -> & Ht & _). destruct H as [H|H]; [discriminate|contradiction]. Qed.
  Lemma bind_node_ok p f : node_ok p f.
  Proof.
    induction f as [name tag exported t v|tag fs IH|tag exported zero cur IHz IHc|v] using bnode_deep; intros r H.
    - cbn [ParamsModel.bind_node] in H. destruct (negb exported || beq tag (bs "-"))%bool eqn:E.
      + subst r. assert (X : exported = false \/ tag = bs "-") by (apply orb_true_iff in E as [E|E]; [left; destruct exported; [discriminate|reflexivity]|right; apply beq_true; exact E]).
        split; [apply fl_skipped; exact X|]. split; [discriminate|]. intros Y. exfalso. exact (not_submitted p (BPlain name tag exported t v) X Y).
      + apply orb_false_iff in E as (E1 & E2). apply negb_false_iff in E1. subst exported. assert (Ht : tag <> bs "-") by (intros X; subst tag; rewrite beq_refl in E2; discriminate).
        destruct H as (x & Hx & ->). destruct x as [x|]; cbn [res_map].
        * split; [apply (fl_bound p name tag t v x (param_name name tag) Ht (param_name_of name tag) Hx)|]. rewrite given_vals. split.
          -- intros X. exists name, tag, t, v, (param_name name tag). split; [reflexivity|]. split; [exact Ht|]. split; [apply param_name_of|exact X].
          -- intros (n' & tag' & t' & v' & param & E & _ & Hp & X). injection E as <- <- <- <-. rewrite (param_of_fun _ _ _ _ (param_name_of name tag) Hp). exact X.
        * left. exists t, (param_name name tag). exact Hx.
    - change (bind_node p (BStruct tag fs) r) with (if beq tag (bs "-") then r = Ok (BStruct tag fs, false) else exists b, bind_fields p fs b /\ r = res_map (fun b => (BStruct tag (fst b), false)) b) in H.
      destruct (beq_spec tag (bs "-")) as [->|Ht].
      + subst r. split; [apply fl_struct_skipped|]. split; [discriminate|]. intros Y. exfalso. exact (not_submitted p (BStruct (bs "-") fs) I Y).
      + destruct H as (b & Hb & ->). apply fields_ok in Hb; [|exact IH]. destruct b as [(fs' & e)|]; cbn [res_map fst].
        * split; [apply fl_struct; [exact Ht|apply Hb]|]. split; [discriminate|]. intros Y. exfalso. exact (not_submitted p (BStruct tag fs) I Y).
        * destruct Hb as [Hb|Hb]; [left; exact Hb|right; intros X; apply Hb; inversion X; assumption].
    - change (bind_node p (BPtr tag exported zero cur) r) with (if beq tag (bs "-") then r = Ok (BPtr tag exported zero cur, false) else
        exists b, bind_fields p (match cur with Some fs => fs | None => zero end) b /\
        match b with
        | Panic => r = Panic
        | Ok (fs', true) => r = if exported then Ok (BPtr tag exported zero (Some fs'), false) else Panic
        | Ok (fs', false) => r = Ok (BPtr tag exported zero (match cur with Some _ => Some fs' | None => None end), false)
        end) in H.
      assert (NS : false = true <-> submitted_field p (BPtr tag exported zero cur)) by (split; [discriminate|intros Y; exfalso; exact (not_submitted p (BPtr tag exported zero cur) I Y)]).
      destruct (beq_spec tag (bs "-")) as [->|Ht]; [subst r; split; [apply fl_ptr_skipped|exact NS]|].
      destruct H as (b & Hb & H). apply fields_ok in Hb; [|destruct cur as [fs|]; assumption]. destruct b as [(fs' & e)|].
      + destruct Hb as (F2 & He). destruct e.
        * destruct exported; [|subst r; right; intros X; inversion X]. subst r. split; [|exact NS]. destruct cur as [fs|]; [apply fl_ptr; assumption|]. apply fl_ptr_allocated; [exact Ht|apply He; reflexivity|exact F2].
        * subst r. split; [|exact NS]. destruct cur as [fs|]; [apply fl_ptr; assumption|]. apply fl_ptr_stays_nil; [exact Ht|]. intros f Hf X. assert (Y : false = true) by (apply He; exists f; auto). discriminate.
      + subst r. destruct Hb as [Hb|Hb]; [left; exact Hb|]. right. intros X. apply Hb. inversion X as [| |tag' zero' cur' Hz Hc|]; subst. destruct cur as [fs|]; [exact (Hc fs eq_refl)|exact Hz].
    - cbn [ParamsModel.bind_node] in H. subst r. split; [apply fl_other|]. split; [discriminate|]. intros Y. exfalso. exact (not_submitted p (BOtherNode v) I Y).
  Qed.
  (** Every field is filled as the specification says *)
  Theorem C105_bind_values_to_struct : forall p fs fs', bind_values_to_struct p fs (Ok fs') -> Forall2 (filled p) fs fs'.
  Proof.
    intros p fs fs' (b & Hb & E). apply fields_ok in Hb; [|apply Forall_forall; intros f _; apply bind_node_ok]. destruct b as [(fs1 & e)|]; [|discriminate]. injection E as ->. apply Hb.
  Qed.
  (** and it panics only if Bind does or if there is an embedded pointer of an unexported type *)
  Theorem C105_panics_only : forall p fs, bind_values_to_struct p fs Panic -> (exists t n, binds t p n Panic) \/ ~ Forall exported_pointers fs.
  Proof.
    intros p fs (b & Hb & E). apply fields_ok in Hb; [|apply Forall_forall; intros f _; apply bind_node_ok]. destruct b as [(fs1 & e)|]; [discriminate|]. exact Hb.
  Qed.
  (** Fields whose parameter was not submitted do not keep their value ... *)
  Theorem C105_unsubmitted_fields_are_kept_refuted :
    ~ (forall p name t v v', scalar t = true -> vals (p_vals p) name = [] -> bind_values_to_struct p [BPlain name [] true t v] (Ok [BPlain name [] true t v']) -> v' = v).
  Proof.
    intros H. specialize (H (mkParams [] []) (bs "N") (PInt 64) (PVInt 7) (PVInt 0) eq_refl eq_refl). assert (X : PVInt 0 = PVInt 7); [|discriminate X]. apply H.
    exists (Ok ([BPlain (bs "N") [] true (PInt 64) (PVInt 0)], false)). split; [|reflexivity]. exists (Ok (BPlain (bs "N") [] true (PInt 64) (PVInt 0), false)). split.
    - exists (Ok (PVInt 0)). split; vm_compute; reflexivity.
    - exists (Ok ([], false)). split; reflexivity.
  Qed.
  (** ... they become zero *)
  Theorem C105_unsubmitted_scalars_become_zero : forall p name tag param t v f', scalar t = true -> tag <> bs "-" -> param_of name tag param -> vals (p_vals p) param = [] ->
    filled p (BPlain name tag true t v) f' -> f' = BPlain name tag true t (pzero t).
  Proof.
    intros p name tag param t v f' Hs Ht Hp Hv H. inversion H as [? ? ? ? ? X|? ? ? ? x param' _ Hp' Hb| | | | | | |]; subst; [destruct X; [discriminate|contradiction]|].
    rewrite (param_of_fun _ _ _ _ Hp' Hp) in Hb. apply C63_first_value_is_bound in Hb; [|exact Hs]. rewrite Hv in Hb. congruence.
  Qed.
  Example C105_case : bind_values_to_struct (mkParams [(bs "id", [bs "7"]); (bs "v", [bs "x"])] [])
      [BPlain (bs "Id") (bs "id,omitempty") true (PInt 64) (PVInt 0); BPlain (bs "hidden") [] false PString (PVStr (bs "h")); BPtr [] true [BPlain (bs "v") [] true PString (PVStr [])] None; BPtr [] true [BPlain (bs "w") [] true PString (PVStr [])] None]
      (Ok [BPlain (bs "Id") (bs "id,omitempty") true (PInt 64) (PVInt 7); BPlain (bs "hidden") [] false PString (PVStr (bs "h")); BPtr [] true [BPlain (bs "v") [] true PString (PVStr [])] (Some [BPlain (bs "v") [] true PString (PVStr (bs "x"))]); BPtr [] true [BPlain (bs "w") [] true PString (PVStr [])] None]).
  Proof.
    eexists (Ok (_, true)). split; [|reflexivity].
    exists (Ok (BPlain (bs "Id") (bs "id,omitempty") true (PInt 64) (PVInt 7), true)). split; [exists (Ok (PVInt 7)); split; vm_compute; reflexivity|].
    exists (Ok ([BPlain (bs "hidden") [] false PString (PVStr (bs "h")); BPtr [] true [BPlain (bs "v") [] true PString (PVStr [])] (Some [BPlain (bs "v") [] true PString (PVStr (bs "x"))]); BPtr [] true [BPlain (bs "w") [] true PString (PVStr [])] None], false)). split; [|reflexivity].
    exists (Ok (BPlain (bs "hidden") [] false PString (PVStr (bs "h")), false)). split; [vm_compute; reflexivity|].
    exists (Ok ([BPtr [] true [BPlain (bs "v") [] true PString (PVStr [])] (Some [BPlain (bs "v") [] true PString (PVStr (bs "x"))]); BPtr [] true [BPlain (bs "w") [] true PString (PVStr [])] None], false)). split; [|reflexivity].
    exists (Ok (BPtr [] true [BPlain (bs "v") [] true PString (PVStr [])] (Some [BPlain (bs "v") [] true PString (PVStr (bs "x"))]), false)). split.
    - exists (Ok ([BPlain (bs "v") [] true PString (PVStr (bs "x"))], true)). split; [|reflexivity]. exists (Ok (BPlain (bs "v") [] true PString (PVStr (bs "x")), true)). split; [exists (Ok (PVStr (bs "x"))); split; vm_compute; reflexivity|]. exists (Ok ([], false)). split; reflexivity.
    - exists (Ok ([BPtr [] true [BPlain (bs "w") [] true PString (PVStr [])] None], false)). split; [|reflexivity]. exists (Ok (BPtr [] true [BPlain (bs "w") [] true PString (PVStr [])] None, false)). split.
      + exists (Ok ([BPlain (bs "w") [] true PString (PVStr [])], false)). split; [|reflexivity]. exists (Ok (BPlain (bs "w") [] true PString (PVStr []), false)). split; [exists (Ok (PVStr [])); split; vm_compute; reflexivity|]. exists (Ok ([], false)). split; reflexivity.
      + exists (Ok ([], false)). split; reflexivity.
  Qed.

  (** ** C67, C105, C107: the zero value of a type *)
  (** false, zero, the empty text, the zero time; no slice, no pointer, no map; a struct of zero values *)
  Inductive zero_of : pty -> pval -> Prop :=
  | z_bool : zero_of PBool (PVBool F T false) | z_int w : zero_of (PInt w) (PVInt 0) | z_uint w : zero_of (PUint w) (PVUint F T 0)
  | z_float w : zero_of (PFloat w) (PVFloat F T fzero) | z_string : zero_of PString (PVStr []) | z_time : zero_of PTime (PVTime F T tzero)
  | z_slice e : zero_of (PSlice e) (PVNilSlice F T) | z_ptr e : zero_of (PPtr e) PVNil | z_map k e : zero_of (PMap k e) (PVNilMap F T)
  | z_other : zero_of POther (PVOther F T)
  | z_struct fs vs : List.length vs = List.length fs -> (forall j f v, nth_error fs j = Some f -> nth_error vs j = Some v -> zero_of (snd f) v) -> zero_of (PStruct fs) (PVStruct vs).
  Lemma pty_nested (P : pty -> Prop) : (forall t, match t with PStruct fs => Forall (fun f => P (snd f)) fs -> P t | _ => P t end) -> forall t, P t.
  Proof.
    intros H. fix IH 1. intros t. destruct t as [| w | w | w | | | e | e | k e | | fs];
      [exact (H PBool)|exact (H (PInt w))|exact (H (PUint w))|exact (H (PFloat w))|exact (H PString)|exact (H PTime)|exact (H (PSlice e))|exact (H (PPtr e))|exact (H (PMap k e))|exact (H POther)|].
    apply (H (PStruct fs)). induction fs as [|f fs IHf]; constructor; [apply IH|exact IHf].
  Qed.
  Theorem C67_zero_values : forall t v, zero_of t v <-> v = pzero t.
  Proof.
    intros t. pattern t. apply pty_nested. clear t. intros t. destruct t as [| w | w | w | | | e | e | k e | | fs];
      try (intros v; split; [intros H; inversion H; reflexivity|intros ->; constructor]).
    intros IH v. split.
    - intros H. inversion H as [| | | | | | | | | |fs' vs L Hz]; subst. cbn [ParamsModel.pzero]. f_equal. clear H. revert vs L Hz. induction IH as [|f fs Hf IH IHf]; intros vs L Hz; destruct vs as [|v vs]; try discriminate; [reflexivity|].
      cbn [map]. f_equal.
      + apply Hf. apply (Hz 0%nat f v); reflexivity.
      + apply IHf; [cbn in L; congruence|]. intros j g x Hg Hx. apply (Hz (S j) g x); assumption.
    - intros ->. cbn [ParamsModel.pzero]. constructor; [apply map_length|].
      induction IH as [|f fs Hf IH IHf]; intros j g x Hg Hx; [destruct j; discriminate|].
      destruct j as [|j]; cbn [nth_error map] in Hg, Hx; [injection Hg as <-; injection Hx as <-; apply Hf; reflexivity|exact (IHf j g x Hg Hx)].
  Qed.
End Bindings.

Print Assumptions C67_slice_elements.
Print Assumptions C67_indexed_value.
Print Assumptions C103_binding_never_panics_refuted.
Print Assumptions C103_binding_never_panics_partial.
Print Assumptions C110_slice_size_is_bounded_by_the_request_refuted.
Print Assumptions C110_slice_size_partial.
Print Assumptions C110_one_parameter_any_size.
Print Assumptions C68_binding_is_deterministic_refuted.
Print Assumptions C68_binding_is_deterministic_partial.
Print Assumptions C104_pointer_set_iff_submitted_refuted.
Print Assumptions C104_pointer_partial.
Print Assumptions C107_struct_fields.
Print Assumptions C108_map_entries.
Print Assumptions C108_map_from_json.
Print Assumptions C105_bind_values_to_struct.
Print Assumptions C105_panics_only.
Print Assumptions C105_unsubmitted_fields_are_kept_refuted.
Print Assumptions C105_unsubmitted_scalars_become_zero.
Print Assumptions C108_scalar_keys.
Print Assumptions C108_scalar_keys_json.
Print Assumptions C67_zero_values.
