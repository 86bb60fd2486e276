(** Props_ParamsPanic: C103, exactly when binding panics (/repo/params/binder.go). *)
From Coq Require Import List Ascii String Bool Arith ZArith Lia Permutation.
Import ListNotations.
From Verif Require Import GoStr GoNum RouterModel ConvModel ConvFacts ParamsModel ParamsFacts Props_Params Props_ParamsBind.

Set Default Proof Using "Type".
(** ** Specification *)
(** i is an index submitted for the slice [name], or -1 *)
Definition index_or_none (p : params) (name : bytes) (i : Z) : Prop :=
  i = (-1)%Z \/ exists key el, In key (names p) /\ at_index name key i el.
(** n is the number of values and files submitted for the slice [name] without an index *)
Definition without_index (p : params) (name : bytes) (n : nat) : Prop :=
  exists free_ others ffree fothers,
    Permutation (p_vals p) (free_ ++ others) /\ Forall (fun kv => no_index_key name (fst kv)) free_ /\ Forall (fun kv => ~ no_index_key name (fst kv)) others /\
    Permutation (p_files p) (ffree ++ fothers) /\ Forall (fun kf => no_index_key name (fst kf)) ffree /\ Forall (fun kf => ~ no_index_key name (fst kf)) fothers /\
    n = list_sum (map (fun kv => List.length (snd kv)) free_) + list_sum (map snd ffree).
(** somewhere in the value to be bound there is a slice whose length does not fit an int *)
Inductive too_big (p : params) : pty -> bytes -> Prop :=
| tb_here e name i n : index_or_none p name i -> without_index p name n -> (2 ^ 63 <= i + 1 + Z.of_nat n)%Z -> too_big p (PSlice e) name
| tb_element e name key i el : In key (names p) -> at_index name key i el -> too_big p e el -> too_big p (PSlice e) name
| tb_pointed e name : vals (p_vals p) name <> [] -> too_big p e name -> too_big p (PPtr e) name
| tb_field before n t after name key : ~ In n (map (fun f : bytes * bool * pty => fst (fst f)) before) -> identifier n ->
    In key (map fst (p_vals p)) -> for_field name n key -> too_big p t (name ++ bs "." ++ n) -> too_big p (PStruct (before ++ (n, true, t) :: after)) name.

Lemma without_index_filter p name : without_index p name
  (list_sum (map (fun kv => List.length (snd kv)) (filter (fun kv => free name (fst kv)) (p_vals p))) + list_sum (map snd (filter (fun kf => free name (fst kf)) (p_files p)))).
Proof.
  exists (filter (fun kv => free name (fst kv)) (p_vals p)), (filter (fun kv => negb (free name (fst kv))) (p_vals p)), (filter (fun kv => free name (fst kv)) (p_files p)), (filter (fun kv => negb (free name (fst kv))) (p_files p)).
  split; [apply filter_split|]. split; [apply Forall_forall; intros x Hx; apply filter_In in Hx as (_ & Hx); apply free_key; exact Hx|].
  split; [apply Forall_forall; intros x Hx; apply filter_In in Hx as (_ & Hx); rewrite <- free_key; destruct (free name (fst x)); discriminate|].
  split; [apply filter_split|]. split; [apply Forall_forall; intros x Hx; apply filter_In in Hx as (_ & Hx); apply free_key; exact Hx|].
  split; [apply Forall_forall; intros x Hx; apply filter_In in Hx as (_ & Hx); rewrite <- free_key; destruct (free name (fst x)); discriminate|reflexivity].
Qed.
Lemma filter_parts {A} (f : A -> bool) l a b : Permutation l (a ++ b) -> Forall (fun x => f x = true) a -> Forall (fun x => f x <> true) b -> Permutation (filter f l) a.
Proof.
  intros P Ha Hb. eapply perm_trans; [apply perm_filter; exact P|]. rewrite filter_app.
  assert (Ea : filter f a = a) by (clear - Ha; induction Ha as [|x a Hx Ha IH]; [reflexivity|]; cbn [filter]; rewrite Hx, IH; reflexivity).
  assert (Eb : filter f b = []) by (clear - Hb; induction Hb as [|x b Hx Hb IH]; [reflexivity|]; cbn [filter]; destruct (f x); [congruence|exact IH]).
  rewrite Ea, Eb, app_nil_r. apply Permutation_refl.
Qed.
(** the number is unique *)
Lemma without_index_fun p name n : without_index p name n ->
  n = list_sum (map (fun kv => List.length (snd kv)) (filter (fun kv => free name (fst kv)) (p_vals p))) + list_sum (map snd (filter (fun kf => free name (fst kf)) (p_files p))).
Proof.
  intros (a & b & c & d & P1 & Fa & Fb & P2 & Fc & Fd & ->).
  assert (X1 : Permutation (filter (fun kv => free name (fst kv)) (p_vals p)) a).
  { eapply filter_parts; [exact P1| |]; (eapply Forall_impl; [|eassumption]); cbn; intros x Hx; [apply free_key; exact Hx|intros E; apply Hx; apply free_key; exact E]. }
  assert (X2 : Permutation (filter (fun kv => free name (fst kv)) (p_files p)) c).
  { eapply filter_parts; [exact P2| |]; (eapply Forall_impl; [|eassumption]); cbn; intros x Hx; [apply free_key; exact Hx|intros E; apply Hx; apply free_key; exact E]. }
  rewrite (list_sum_perm _ _ (Permutation_map _ X1)), (list_sum_perm _ _ (Permutation_map _ X2)). reflexivity.
Qed.
Lemma index_any_before s cs : forall i, index_any s cs = Some i -> forall c, In c (firstn i s) -> ~ In c cs.
Proof.
  induction s as [|x s IH]; intros i; [discriminate|]. cbn [index_any]. destruct (existsb (Ascii.eqb x) cs) eqn:E; [intros [= <-] c []|].
  destruct (index_any s cs) as [j|]; [|discriminate]. intros [= <-] c. cbn [firstn]. intros [<-|Hc]; [|exact (IH j eq_refl c Hc)].
  intros X. assert (Y : existsb (Ascii.eqb x) cs = true) by (apply existsb_exists; exists x; split; [exact X|apply Ascii.eqb_refl]). congruence.
Qed.
Lemma index_any_no s cs : index_any s cs = None -> forall c, In c s -> ~ In c cs.
Proof.
  induction s as [|x s IH]; [intros _ c []|]. cbn [index_any]. destruct (existsb (Ascii.eqb x) cs) eqn:E; [discriminate|]. destruct (index_any s cs); [discriminate|]. intros _ c [<-|Hc]; [|exact (IH eq_refl c Hc)].
  intros X. assert (Y : existsb (Ascii.eqb x) cs = true) by (apply existsb_exists; exists x; split; [exact X|apply Ascii.eqb_refl]). congruence.
Qed.
Lemma wants_identifier name ks n : wants name ks n -> identifier n.
Proof.
  intros (key & _ & _ & <-). assert (H : forall c, In c (next_key (skipn (List.length name + 1) key)) -> ~ In c (bs ".[")).
  { unfold next_key. destruct (index_any _ _) as [i|] eqn:E; [exact (index_any_before _ _ i E)|exact (index_any_no _ _ E)]. }
  split; intros X; apply (H _ X); [left|right; left]; reflexivity.
Qed.
Lemma field_index_join {A} (before after : list (bytes * bool * A)) n s x : ~ In n (map (fun f => fst (fst f)) before) -> field_index (before ++ (n, s, x) :: after) n = Some (List.length before, s, x).
Proof.
  induction before as [|((m & s0) & a) before IH]; intros H; cbn [List.app field_index List.length]; [rewrite beq_refl; reflexivity|].
  destruct (beq_spec m n) as [->|_]; [exfalso; apply H; left; reflexivity|]. rewrite IH; [reflexivity|]. intros X. apply H. right. exact X.
Qed.

Section Panics.
  Variable F T : Type.
  Variable fzero : F.
  Variable tzero : T.
  Variable parse_float : bytes -> option F.
  Variable round_float : nat -> F -> F.
  Variable formats : list bytes.
  Variable parse_zone parse_local : bytes -> bytes -> option T.
  Variable unix : Z -> T.
  Variable json_map : bytes -> list (bytes * bytes).
  Notation binds := (binds F T fzero tzero parse_float round_float formats parse_zone parse_local unix json_map).
  Notation pval := (pval F T).

  Notation rels := (fun fs : list (bytes * bool * pty) => map (fun f => (fst f, binds (snd f))) fs).
  Lemma rels_field before n t after : ~ In n (map (fun f : bytes * bool * pty => fst (fst f)) before) ->
    field_index (rels (before ++ (n, true, t) :: after)) n = Some (List.length before, true, binds t).
  Proof.
    intros H. rewrite map_app. cbn [map fst snd]. rewrite <- (map_length (fun f : bytes * bool * pty => (fst f, binds (snd f))) before). apply field_index_join.
    rewrite map_map. cbn [fst]. exact H.
  Qed.
  Lemma rels_split fs n : forall i s b, field_index (rels fs) n = Some (i, s, b) ->
    exists before t after, fs = before ++ (n, s, t) :: after /\ ~ In n (map (fun f : bytes * bool * pty => fst (fst f)) before) /\ b = binds t.
  Proof.
    induction fs as [|((m & s0) & u) fs IH]; intros i s b; [discriminate|]. cbn [map field_index fst snd]. destruct (beq_spec m n) as [->|Hn].
    - intros [= <- <- <-]. exists [], u, fs. split; [reflexivity|]. split; [intros []|reflexivity].
    - destruct (field_index (rels fs) n) as [((j & s1) & y)|]; [|discriminate]. intros [= <- <- <-]. destruct (IH j s1 y eq_refl) as (x & t & z & -> & Hx & E). exists ((m, s0, u) :: x), t, z.
      split; [reflexivity|]. split; [|exact E]. intros [X|X]; [exact (Hn X)|exact (Hx X)].
  Qed.
  (** a value does not come from something too big *)
  Lemma too_big_no_value t : forall p name v, binds t p name (Ok v) -> ~ too_big p t name.
  Proof.
    induction t as [|w|w|w| | | |e IH|e IH|k e IHk IHe|fs IHfs] using pty_deep; intros p name v H B; inversion B as [e0 name0 i n H0 H1 H2 Q1 Q2|e0 name0 key i el H1 H3 H4 Q1 Q2|e0 name0 H1 H3 Q1 Q2|before n t after name0 key H1 H2 H3 H4 H5 Q1 Q2]; subst; cbn [ParamsModel.binds] in H.
    - destruct H as (ov & of_ & rv & rf & Pv & Pf & Hv & Hf & E). pose proof (all_ok_spec (rv ++ rf)) as A. destruct (all_ok (rv ++ rf)) as [svs|] eqn:EA; [|discriminate]. cbn [RouterModel.bind] in E. symmetry in E.
      destruct (slice_entries F T _ p name _ _ _ _ _ Pv Pf Hv Hf EA) as (I1 & I2 & I3). pose proof (max_index_spec F T (List.concat svs)) as (M1 & M2 & M3).
      unfold assemble in E. rewrite no_index_unindexed in E. destruct (Z.ltb_spec (max_index F T (List.concat svs) + 1 + Z.of_nat (List.length (unindexed F T (List.concat svs)))) (2 ^ 63)) as [Hlt|]; [|discriminate].
      assert (Hi : (i <= max_index F T (List.concat svs))%Z).
      { destruct H0 as [->|(key & el & Hk & Ha)]; [exact M1|]. apply elem_of_at in Ha as (Ee & Hi). destruct (I3 key i el Hk Ee Hi) as (x & Hx). exact (M2 _ _ Hx). }
      apply without_index_fun in H1. symmetry in A. apply map_eq_app in A as (a & b & -> & Ea & Eb).
      pose proof (tail_vals F T _ _ _ _ _ _ Hv (eq_sym Ea)) as C1. apply Forall2_length in C1. rewrite concat_length_sum, map_map in C1. pose proof (tail_files F T _ _ _ _ _ _ Hf (eq_sym Eb)) as C2.
      rewrite unindexed_concat, map_app, (concat_app (map _ a)), app_length in Hlt.
      rewrite (list_sum_perm _ _ (Permutation_map _ (perm_filter _ _ _ Pv))), (list_sum_perm _ _ (Permutation_map _ (perm_filter _ _ _ Pf))) in H1. lia.
    - destruct H as (ov & of_ & rv & rf & Pv & Pf & Hv & Hf & E). pose proof (all_ok_spec (rv ++ rf)) as A. destruct (all_ok (rv ++ rf)) as [svs|] eqn:EA; [|discriminate].
      assert (X : exists vs n l, process F T (binds e) p name (normalize name key) vs n (Ok l)).
      { apply in_app_iff in H1 as [Hk|Hk]; apply in_map_iff in Hk as ((k' & w) & <- & Hk).
        - apply (Permutation_in _ Pv) in Hk. destruct (Forall2_in_l _ _ _ _ Hv Hk) as (b & Hb & Hp). assert (Y : In b (rv ++ rf)) by (apply in_app_iff; left; exact Hb). rewrite A in Y. apply in_map_iff in Y as (l & <- & _). eauto.
        - apply (Permutation_in _ Pf) in Hk. destruct (Forall2_in_l _ _ _ _ Hf Hk) as (b & Hb & Hp). assert (Y : In b (rv ++ rf)) by (apply in_app_iff; right; exact Hb). rewrite A in Y. apply in_map_iff in Y as (l & <- & _). eauto. }
      destruct X as (vs & n & l & X). apply elem_of_at in H3 as (Ee & Hi). apply process_cases in X. rewrite Ee in X. replace (-1 <? i)%Z with true in X by (symmetry; apply Z.ltb_lt; lia). destruct X as ([x|] & Hb & X); [|discriminate].
      exact (IH p el x Hb H4).
    - unfold ptr_binder in H. unfold vals in H1. destruct (aget (p_vals p) name) as [[|v0 l]|]; [congruence| |congruence]. destruct H as ([x|] & Hb & E); [|discriminate]. exact (IH p name x Hb H3).
    - destruct H as (ov & P & H). apply struct_loop_spec in H; [|rewrite !map_length; reflexivity]. destruct H as (out & _ & _ & A & _).
      assert (W : wants name (map fst ov) n) by (apply wants_iff; [assumption|]; exists key; split; [|assumption]; eapply Permutation_in; [apply Permutation_map; exact P|assumption]).
      destruct (A n _ _ W (fun x => x) (rels_field before n t after H1)) as (x & Hb & _). rewrite Forall_forall in IHfs.
      exact (IHfs (n, true, t) ltac:(apply in_app_iff; right; left; reflexivity) p _ x Hb H5).
  Qed.
  Definition sane (p : params) : Prop := forall k l, In (k, l) (p_vals p) -> l <> [].
  (** a panic comes from something too big *)
  Lemma panic_too_big t : forall p, sane p -> forall name, binds t p name Panic -> too_big p t name.
  Proof.
    induction t as [|w|w|w| | | |e IH|e IH|k e IHk IHe|fs IHfs] using pty_deep; intros p Hs name H; try discriminate H; cbn [ParamsModel.binds] in H.
    - destruct H as (ov & of_ & rv & rf & Pv & Pf & Hv & Hf & E). pose proof (all_ok_spec (rv ++ rf)) as A. destruct (all_ok (rv ++ rf)) as [svs|] eqn:EA.
      + cbn [RouterModel.bind] in E. symmetry in E. destruct (slice_entries F T _ p name _ _ _ _ _ Pv Pf Hv Hf EA) as (I1 & I2 & I3). pose proof (max_index_spec F T (List.concat svs)) as (M1 & M2 & M3).
        apply assemble_spec in E; [|exact I1]. apply (tb_here p e name (max_index F T (List.concat svs)) (list_sum (map (fun kv => List.length (snd kv)) (filter (fun kv => free name (fst kv)) (p_vals p))) + list_sum (map snd (filter (fun kf => free name (fst kf)) (p_files p))))).
        * destruct M3 as [M3|(x & M3)]; [left; exact M3|]. destruct (Z.lt_ge_cases (max_index F T (List.concat svs)) 0) as [Hz|Hz]; [left; lia|]. right. destruct (I2 _ x Hz M3) as (key & sub & Hk & Ee & _). exists key, sub. split; [exact Hk|]. apply elem_of_at. auto.
        * apply without_index_filter.
        * symmetry in A. apply map_eq_app in A as (a & b & -> & Ea & Eb).
          pose proof (tail_vals F T _ _ _ _ _ _ Hv (eq_sym Ea)) as C1. apply Forall2_length in C1. rewrite concat_length_sum, map_map in C1. pose proof (tail_files F T _ _ _ _ _ _ Hf (eq_sym Eb)) as C2.
          rewrite (list_sum_perm _ _ (Permutation_map _ (perm_filter _ _ _ Pv))), (list_sum_perm _ _ (Permutation_map _ (perm_filter _ _ _ Pf))).
          rewrite unindexed_concat, map_app, (concat_app (map _ a)), app_length in E. lia.
      + assert (NP : forall key vals files, In key (names p) -> process F T (binds e) p name (normalize name key) vals files Panic -> too_big p (PSlice e) name).
        { intros key vs n Hk H. apply process_cases in H. destruct (elem_of name key) as [(i & sub)|] eqn:Ee; [|discriminate]. destruct (Z.ltb_spec (-1) i) as [Hi|Hi].
          - destruct H as (v & Hb & X). destruct v; [discriminate|]. apply (tb_element p e name key i sub Hk); [apply elem_of_at; split; [exact Ee|lia]|]. exact (IH p Hs _ Hb).
          - exfalso. destruct H as (vs' & fs & H1 & H2 & _ & X). pose proof (all_ok_spec (vs' ++ fs)) as Y. destruct (all_ok (vs' ++ fs)); [discriminate|]. apply in_app_iff in Y as [Y|Y].
            + destruct (Forall2_in_r _ _ _ _ H1 Y) as (x & _ & Hx). exact (binds_safe F T fzero tzero parse_float round_float formats parse_zone parse_local unix json_map e _ (safe_single x) _ _ Hx eq_refl).
            + rewrite Forall_forall in H2. exact (binds_safe F T fzero tzero parse_float round_float formats parse_zone parse_local unix json_map e _ safe_file _ _ (H2 _ Y) eq_refl). }
        apply in_app_iff in A as [A|A].
        * destruct (Forall2_in_r _ _ _ _ Hv A) as (kv & Hin & Hp). eapply NP; [|exact Hp]. apply in_app_iff. left. apply in_map. eapply Permutation_in; [apply Permutation_sym|]; eassumption.
        * destruct (Forall2_in_r _ _ _ _ Hf A) as (kf & Hin & Hp). eapply NP; [|exact Hp]. apply in_app_iff. right. apply in_map. eapply Permutation_in; [apply Permutation_sym|]; eassumption.
    - unfold ptr_binder in H. destruct (aget (p_vals p) name) as [[|v l]|] eqn:Ea; [discriminate| |discriminate]. destruct H as ([x|] & Hb & E); [discriminate|]. apply tb_pointed; [unfold vals; rewrite Ea; discriminate|]. exact (IH p Hs name Hb).
    - exfalso. unfold bind_map in H.
      assert (B1 : forall v, ~ binds k (single v) [] Panic) by (intros v X; exact (binds_safe F T fzero tzero parse_float round_float formats parse_zone parse_local unix json_map k _ (safe_single v) _ _ X eq_refl)).
      assert (B2 : forall v, ~ binds e (single v) [] Panic) by (intros v X; exact (binds_safe F T fzero tzero parse_float round_float formats parse_zone parse_local unix json_map e _ (safe_single v) _ _ X eq_refl)).
      destruct (is_nil _); destruct H as (o & P & H); apply (map_loop_safe F T (binds k) (binds e) B1 B2) in H; try (apply H; reflexivity).
      + intros k' X. unfold map_entries in X. apply in_flat_map in X as ((key & vs) & Hin & X). cbn [fst snd] in X. destruct (_ && _)%bool; [|exact X]. destruct X as [X|[]]. injection X as _ X.
        apply (Permutation_in _ (Permutation_sym P)) in Hin. specialize (Hs key vs Hin). destruct vs; [congruence|discriminate].
      + intros k' X. apply in_map_iff in X as (? & X & _). discriminate X.
    - destruct H as (ov & P & H). apply struct_loop_spec in H; [|rewrite !map_length; reflexivity]. destruct H as (n & i & b & Hw & Hf & Hb).
      apply rels_split in Hf as (b' & t & a' & -> & Hn' & ->). pose proof (wants_identifier _ _ _ Hw) as Hid. apply wants_iff in Hw as (key & Hk & Hfor); [|exact Hid].
      rewrite Forall_forall in IHfs. eapply tb_field; [exact Hn'|exact Hid| |exact Hfor|].
      + eapply Permutation_in; [apply Permutation_map, Permutation_sym; exact P|exact Hk].
      + apply (IHfs (n, true, t)); [apply in_app_iff; right; left; reflexivity|exact Hs|exact Hb].
  Qed.

  (** ** C103 *)
  (** Binding panics exactly if some slice that it reaches is too long for an int; otherwise it returns a value. The map
      order has no influence on this. (net/http gives every name at least one value: [sane].) *)
  Theorem C103_panics_exactly : forall t p name, sane p ->
    (binds t p name Panic <-> too_big p t name) /\ ((exists v, binds t p name (Ok v)) <-> ~ too_big p t name).
  Proof.
    intros t p name Hs. destruct (binds_total F T fzero tzero parse_float round_float formats parse_zone parse_local unix json_map t p name) as (r & Hr). split; split.
    - apply panic_too_big. exact Hs.
    - intros B. destruct r as [v|]; [exfalso; exact (too_big_no_value t p name v Hr B)|exact Hr].
    - intros (v & Hv). exact (too_big_no_value t p name v Hv).
    - intros B. destruct r as [v|]; [exists v; exact Hr|]. exfalso. apply B. exact (panic_too_big t p Hs name Hr).
  Qed.
  (** so never for a type without slices *)
  Fixpoint no_slice (t : pty) : Prop :=
    match t with
    | PPtr e => no_slice e
    | PSlice _ => False
    | PStruct fs => (fix all (fs : list (bytes * bool * pty)) : Prop := match fs with [] => True | f :: r => no_slice (snd f) /\ all r end) fs
    | _ => True
    end.
  Theorem C103_no_slice_no_panic : forall t p name r, no_slice t -> sane p -> binds t p name r -> exists v, r = Ok v.
  Proof.
    intros t p name r Ht Hs H. destruct r as [v|]; [exists v; reflexivity|]. exfalso. apply (proj1 (C103_panics_exactly t p name Hs)) in H. revert Ht. clear Hs.
    induction H as [| | e name _ _ IH|before n t after name key _ _ _ _ _ IH]; intros Ht; [exact Ht|exact Ht|exact (IH Ht)|].
    apply IH. cbn [no_slice] in Ht. clear IH. induction before as [|f before IHb]; [exact (proj1 Ht)|]. apply IHb. exact (proj2 Ht).
  Qed.
  (** one parameter a[9223372036854775807] in a field of a struct is enough *)
  Example C103_deep_panic : too_big (mkParams [(bs "u.Tags[9223372036854775807]", [bs "x"])] []) (PStruct [(bs "Id", true, PInt 64); (bs "Tags", true, PSlice PString)]) (bs "u").
  Proof.
    apply (tb_field _ [(bs "Id", true, PInt 64)] (bs "Tags") (PSlice PString) [] (bs "u") (bs "u.Tags[9223372036854775807]")).
    - intros [X|[]]. discriminate X.
    - split; intros X; vm_compute in X; repeat destruct X as [X|X]; try discriminate X; exact X.
    - left. reflexivity.
    - exists (bs "[9223372036854775807]"). split; [reflexivity|]. right. exists (bs "9223372036854775807]"). right. reflexivity.
    - apply (tb_here _ _ _ (2 ^ 63 - 1)%Z 0).
      + right. exists (bs "u.Tags[9223372036854775807]"), (bs "u.Tags[9223372036854775807]"). split; [left; reflexivity|]. exists (bs "9223372036854775807"), []. split; [reflexivity|].
        split; [intros X; vm_compute in X; repeat destruct X as [X|X]; try discriminate X; exact X|]. split; [discriminate|]. split; [vm_compute; reflexivity|]. split; [vm_compute; discriminate|reflexivity].
      + exists [], [(bs "u.Tags[9223372036854775807]", [bs "x"])], [], []. split; [apply Permutation_refl|]. split; [constructor|]. split.
        * constructor; [|constructor]. cbn [fst]. rewrite <- free_key. vm_compute. discriminate.
        * split; [constructor|]. split; [constructor|]. split; [constructor|reflexivity].
      + vm_compute. discriminate.
  Qed.
  (** and these are not too big *)
  Example C103_fine : sane (mkParams [(bs "a[2]", [bs "x"])] []) /\ exists v, binds (PSlice PString) (mkParams [(bs "a[2]", [bs "x"])] []) (bs "a") (Ok v).
  Proof.
    split; [intros k l [E|[]]; injection E as _ <-; discriminate|]. exists (PVSlice F T [PVStr F T []; PVStr F T []; PVStr F T (bs "x")]).
    exists [(bs "a[2]", [bs "x"])], [], [Ok [(2%Z, PVStr F T (bs "x"))]], []. split; [apply Permutation_refl|]. split; [apply Permutation_refl|]. split; [|split; [constructor|vm_compute; reflexivity]].
    constructor; [|constructor]. exists (Ok (PVStr F T (bs "x"))). split; vm_compute; reflexivity.
  Qed.
End Panics.

Print Assumptions C103_panics_exactly.
Print Assumptions C103_no_slice_no_panic.
