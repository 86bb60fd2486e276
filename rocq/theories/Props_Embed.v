(** Props_Embed: C192, promoted fields of bound structs. *)
From Coq Require Import List Ascii String Bool Arith Lia Permutation.
Import ListNotations.
From Verif Require Import GoStr EmbedModel.

Section Embed.
  Context {V : Type}.
  Notation field := (field V). Notation sval := (sval V).

  (** ** Specification *)
  (** [f] is the field of the struct with the fields [fs] at the index sequence [p], through
      embedded structs and pointers *)
  Inductive field_at : list field -> list nat -> field -> Prop :=
  | fa_here : forall fs i f, nth_error fs i = Some f -> field_at fs [i] f
  | fa_in : forall fs i f p g, nth_error fs i = Some f -> field_at (embedded f) p g -> field_at fs (i :: p) g.
  (** Go's rule: a name selects the field of that name at the shallowest depth, if that is only one *)
  Definition selects (fs : list field) (n : bytes) (p : list nat) (f : field) : Prop :=
    field_at fs p f /\ f_name f = n /\ forall p' f', field_at fs p' f' -> f_name f' = n -> p' = p \/ List.length p < List.length p'.
  Definition is_ptr (f : field) : Prop := match f_kind f with KPtr _ => True | _ => False end.
  Definition proper_prefix (q p : list nat) : Prop := exists r, r <> [] /\ p = q ++ r.
  Definition prefix_of (q p : list nat) : Prop := exists r, p = q ++ r.
  (** the name is promoted through an embedded pointer *)
  Definition through_pointer (fs : list field) (p : list nat) : Prop := exists q g, field_at fs q g /\ is_ptr g /\ proper_prefix q p.
  (** the value at an index sequence *)
  Fixpoint at_path (p : list nat) (vs : list sval) : option sval :=
    match p with
    | [] => None
    | i :: q =>
        match q with
        | [] => nth_error vs i
        | _ => match nth_error vs i with Some (VStruct l) | Some (VPtr l) => at_path q l | _ => None end
        end
    end.
  (** a value of the field's type *)
  Inductive has_type : field -> sval -> Prop :=
  | ht_plain : forall n e z v, has_type (Field n e (KPlain z)) (VPlain v)
  | ht_struct : forall n e fs l, Forall2 has_type fs l -> has_type (Field n e (KStruct fs)) (VStruct l)
  | ht_nil : forall n e fs, has_type (Field n e (KPtr fs)) VNil
  | ht_ptr : forall n e fs l, Forall2 has_type fs l -> has_type (Field n e (KPtr fs)) (VPtr l).

  (** ** FieldByName *)
  Lemma indexed_In (fs : list field) i f : In ([i], f) (indexed fs) <-> nth_error fs i = Some f.
  Proof.
    unfold indexed. assert (X : forall (l : list field) k, In ([i], f) (combine (map (fun i => [i]) (seq k (List.length l))) l) <-> k <= i /\ nth_error l (i - k) = Some f).
    { induction l as [|g l IH]; intros k; cbn [List.length seq map combine In]; [split; [intros []|intros (_ & H); destruct (i - k); discriminate]|].
      rewrite IH. split.
      - intros [E|(L & H)]; [injection E as -> ->; rewrite Nat.sub_diag; split; [lia|reflexivity]|]. split; [lia|]. replace (i - k) with (S (i - S k)) by lia. exact H.
      - intros (L & H). destruct (Nat.eq_dec k i) as [->|]; [rewrite Nat.sub_diag in H; injection H as ->; left; reflexivity|right]. split; [lia|]. replace (i - k) with (S (i - S k)) in H by lia. exact H. }
    rewrite X, Nat.sub_0_r. split; [tauto|]. split; [lia|assumption].
  Qed.
  Lemma indexed_shape (fs : list field) p f : In (p, f) (indexed fs) -> exists i, p = [i].
  Proof. unfold indexed. intros H. apply in_combine_l in H. apply in_map_iff in H as (i & <- & _). eauto. Qed.
  (** the fields at depth [k] *)
  Definition level (fs : list field) (k : nat) := Nat.iter k deeper (indexed fs).
  Lemma level_0 (fs : list field) : level fs 0 = indexed fs. Proof. reflexivity. Qed.
  Lemma level_S (fs : list field) k : level fs (S k) = deeper (level fs k). Proof. reflexivity. Qed.
  Lemma field_at_snoc (fs : list field) p f : field_at fs p f -> forall j g, nth_error (embedded f) j = Some g -> field_at fs (p ++ [j]) g.
  Proof. induction 1 as [fs i f H|fs i f p g H A IH]; intros j g' E; cbn [app]; [eapply fa_in; [exact H|apply fa_here; exact E]|eapply fa_in; [exact H|apply IH; exact E]]. Qed.
  Lemma field_at_unsnoc (fs : list field) p f : field_at fs p f -> (exists i, p = [i] /\ nth_error fs i = Some f) \/ exists q j g, p = q ++ [j] /\ field_at fs q g /\ nth_error (embedded g) j = Some f.
  Proof.
    induction 1 as [fs i f H|fs i f p g H A IH]; [left; eauto|]. right. destruct IH as [(j & -> & E)|(q & j & g' & -> & B & E)].
    - exists [i], j, f. split; [reflexivity|]. split; [apply fa_here; exact H|exact E].
    - exists (i :: q), j, g'. split; [reflexivity|]. split; [eapply fa_in; eauto|exact E].
  Qed.
  Lemma level_In (fs : list field) k : forall p f, In (p, f) (level fs k) <-> field_at fs p f /\ List.length p = S k.
  Proof.
    induction k as [|k IH]; intros p f; [rewrite level_0|rewrite level_S].
    - split.
      + intros H. destruct (indexed_shape _ _ _ H) as (i & ->). apply indexed_In in H. split; [apply fa_here; exact H|reflexivity].
      + intros (A & L). destruct p as [|i [|]]; try discriminate. inversion A as [? ? ? H|? ? ? ? ? H B]; subst; [apply indexed_In; exact H|inversion B].
    - unfold deeper. rewrite in_flat_map. split.
      + intros ((q & g) & I & J). apply in_map_iff in J as ((r & h) & E & J). cbn [fst snd] in *. injection E as <- <-. apply IH in I as (A & L). destruct (indexed_shape _ _ _ J) as (j & ->). apply indexed_In in J.
        split; [eapply field_at_snoc; eauto|]. rewrite app_length, L. cbn. lia.
      + intros (A & L). apply field_at_unsnoc in A as [(i & -> & _)|(q & j & g & -> & A & E)]; [discriminate|]. rewrite app_length in L. cbn in L.
        exists (q, g). split; [apply IH; split; [exact A|lia]|]. apply in_map_iff. exists ([j], f). split; [reflexivity|]. apply indexed_In. exact E.
  Qed.
  Lemma field_at_fun (fs : list field) p f : field_at fs p f -> forall g, field_at fs p g -> f = g.
  Proof. induction 1 as [fs i f H|fs i f p g H A IH]; intros g' B; inversion B as [? ? ? H'|? ? ? ? ? H' B']; subst; try congruence; try (inversion B'; fail); [inversion A|]. rewrite H in H'. injection H' as <-. apply IH. exact B'. Qed.
  Lemma nodup_indexed (fs : list field) : NoDup (map fst (indexed fs)).
  Proof.
    unfold indexed. assert (E : forall (a : list (list nat)) (b : list field), List.length a = List.length b -> map fst (combine a b) = a) by (induction a as [|x a IH]; intros [|y b] L; try discriminate; [reflexivity|cbn; f_equal; apply IH; injection L; auto]).
    rewrite E by (rewrite map_length, seq_length; reflexivity). apply FinFun.Injective_map_NoDup; [intros x y [= ->]; reflexivity|apply seq_NoDup].
  Qed.
  Lemma nodup_deeper (l : list (list nat * field)) : NoDup (map fst l) -> (forall x y : list nat * field, In x l -> In y l -> List.length (fst x) = List.length (fst y)) -> NoDup (map fst (deeper l)).
  Proof.
    induction l as [|(p & f) l IH]; intros N L; [constructor|]. cbn [deeper flat_map]. rewrite map_app. cbn [map fst] in N. inversion N as [|? ? N1 N2]; subst.
    assert (G : NoDup (map fst (deeper l))) by (apply IH; [exact N2|intros x y Hx Hy; apply L; right; assumption]).
    assert (M : map fst (map (fun qg : list nat * field => (fst (p, f) ++ fst qg, snd qg)) (indexed (embedded (snd (p, f))))) = map (app p) (map fst (indexed (embedded f)))) by (rewrite !map_map; reflexivity).
    rewrite M. clear M. fold (deeper l). set (A := map (app p) (map fst (indexed (embedded f)))).
    assert (NA : NoDup A) by (apply FinFun.Injective_map_NoDup; [intros x y E; apply app_inv_head in E; exact E|apply nodup_indexed]).
    assert (D : forall x, In x A -> ~ In x (map fst (deeper l))).
    { intros x I J. unfold A in I. apply in_map_iff in I as (r & <- & I). apply in_map_iff in I as ((r' & g) & E & I). cbn in E. subst r'. destruct (indexed_shape _ _ _ I) as (j & ->).
      apply in_map_iff in J as ((y & h) & E & J). cbn in E. subst y. unfold deeper in J. apply in_flat_map in J as ((q & g') & J1 & J2). apply in_map_iff in J2 as ((r2 & h2) & E2 & J2). cbn [fst snd] in *. injection E2 as E2 _. destruct (indexed_shape _ _ _ J2) as (j2 & ->).
      pose proof (L (p, f) (q, g') (or_introl eq_refl) (or_intror J1)) as LL. cbn in LL. apply app_inj_tail in E2 as (-> & _). apply N1. apply in_map_iff. exists (p, g'). auto. }
    clearbody A. induction A as [|x A IHA]; [exact G|]. inversion NA as [|? ? NA1 NA2]; subst. cbn [app]. constructor; [|apply IHA; [exact NA2|intros y Iy; apply D; right; exact Iy]].
    intros I. apply in_app_or in I as [I|I]; [contradiction|]. exact (D x (or_introl eq_refl) I).
  Qed.
  Lemma nodup_level (fs : list field) k : NoDup (map fst (level fs k)).
  Proof.
    induction k as [|k IH]; [apply nodup_indexed|]. rewrite level_S. apply nodup_deeper; [exact IH|]. intros (x & f) (y & g) Hx Hy. apply level_In in Hx as (_ & Hx). apply level_In in Hy as (_ & Hy). cbn. lia.
  Qed.
  Lemma depth_pos (f : field) : 1 <= depth f. Proof. destruct f as [n e [z|fs|fs]]; cbn; lia. Qed.
  Lemma field_at_depth (fs : list field) p f : field_at fs p f -> List.length p <= list_max (map depth fs).
  Proof.
    assert (M : forall (l : list field) i g, nth_error l i = Some g -> depth g <= list_max (map depth l)).
    { intros l i g H. pose proof (proj1 (list_max_le (map depth l) _) (le_n _)) as F. rewrite Forall_forall in F. apply F. apply in_map. eapply nth_error_In; eauto. }
    induction 1 as [fs i f H|fs i f p g H A IH]; [cbn [List.length]; pose proof (M _ _ _ H); pose proof (depth_pos f); lia|].
    pose proof (M _ _ _ H) as L. cbn [List.length]. destruct f as [n e [z|gs|gs]]; cbn [embedded f_kind] in *; [inversion A; subst; destruct i0; discriminate| |]; cbn [depth] in L; lia.
  Qed.
  Lemma by_name_level (fs : list field) n fuel : forall k p f, by_name fuel (level fs k) n = Some (p, f) <->
    exists j, k <= j < k + fuel /\ (forall i, k <= i < j -> filter (fun pf => beq (f_name (snd pf)) n) (level fs i) = []) /\ filter (fun pf => beq (f_name (snd pf)) n) (level fs j) = [(p, f)].
  Proof.
    induction fuel as [|fuel IH]; intros k p f; cbn [by_name]; [split; [discriminate|intros (j & J & _); lia]|]. rewrite <- level_S.
    destruct (filter _ (level fs k)) as [|pf [|pf2 r]] eqn:E.
    - rewrite IH. split; intros (j & J & A & B).
      + exists j. split; [lia|]. split; [|exact B]. intros i Hi. destruct (Nat.eq_dec i k) as [->|]; [exact E|apply A; lia].
      + exists j. split; [|split; [intros i Hi; apply A; lia|exact B]]. destruct (Nat.eq_dec j k) as [->|]; [congruence|lia].
    - split.
      + intros [= ->]. exists k. split; [lia|]. split; [intros i Hi; lia|exact E].
      + intros (j & J & A & B). destruct (Nat.eq_dec j k) as [->|]; [congruence|]. rewrite A in E by lia. discriminate.
    - split; [discriminate|]. intros (j & J & A & B). destruct (Nat.eq_dec j k) as [->|]; [congruence|]. rewrite A in E by lia. discriminate.
  Qed.
  (** The model's FieldByName is Go's rule. *)
  Theorem C192_field_by_name (fs : list field) n p f : field_by_name fs n = Some (p, f) <-> selects fs n p f.
  Proof.
    unfold field_by_name. rewrite <- level_0, by_name_level. set (P := fun pf : list nat * field => beq (f_name (snd pf)) n). split.
    - intros (j & J & A & B). assert (I : In (p, f) (filter P (level fs j))) by (rewrite B; left; reflexivity). apply filter_In in I as (I & E). apply level_In in I as (I & L). unfold P in E. cbn in E. apply beq_true in E.
      split; [exact I|]. split; [exact E|]. intros p' f' F' E'. destruct (Nat.lt_trichotomy (List.length p') (List.length p)) as [C|[C|C]]; [|left|right; exact C].
      + exfalso. assert (Q : 0 < List.length p') by (inversion F'; cbn; lia). assert (I' : In (p', f') (filter P (level fs (List.length p' - 1)))) by (apply filter_In; split; [apply level_In; split; [exact F'|lia]|unfold P; cbn; rewrite E'; apply beq_refl]).
        rewrite A in I' by lia. destruct I'.
      + assert (I' : In (p', f') (filter P (level fs j))) by (apply filter_In; split; [apply level_In; split; [exact F'|lia]|unfold P; cbn; rewrite E'; apply beq_refl]). rewrite B in I'. destruct I' as [[= <- _]|[]]. reflexivity.
    - intros (I & E & U). assert (Q : 0 < List.length p) by (inversion I; cbn; lia). pose proof (field_at_depth _ _ _ I). exists (List.length p - 1). split; [lia|]. split.
      + intros i Hi. destruct (filter P (level fs i)) as [|(p' & f') r] eqn:R; [reflexivity|exfalso]. assert (I' : In (p', f') (filter P (level fs i))) by (rewrite R; left; reflexivity). apply filter_In in I' as (I' & E'). apply level_In in I' as (I' & L'). apply beq_true in E'. cbn in E'. destruct (U _ _ I' E') as [->|]; lia.
      + pose proof (nodup_level fs (List.length p - 1)) as N. assert (K : In (p, f) (filter P (level fs (List.length p - 1)))) by (apply filter_In; split; [apply level_In; split; [exact I|lia]|unfold P; cbn; rewrite E; apply beq_refl]).
        assert (S0 : forall x, In x (filter P (level fs (List.length p - 1))) -> x = (p, f)).
        { intros (p' & f') I'. apply filter_In in I' as (I' & E'). apply level_In in I' as (I' & L'). apply beq_true in E'. cbn in E'. destruct (U _ _ I' E') as [->|]; [|lia]. f_equal. eapply field_at_fun; eauto. }
        assert (ND : NoDup (filter P (level fs (List.length p - 1)))) by (apply NoDup_filter; eapply NoDup_map_inv; exact N).
        destruct (filter P (level fs (List.length p - 1))) as [|x [|y r]]; [destruct K|rewrite (S0 x (or_introl eq_refl)); reflexivity|]. exfalso. inversion ND as [|? ? N1 _]; subst. apply N1. rewrite (S0 x (or_introl eq_refl)), <- (S0 y (or_intror (or_introl eq_refl))). left. reflexivity.
  Qed.

  (** ** Values *)
  Lemma replace_same (i : nat) (x : sval) l : i < List.length l -> nth_error (replace i x l) i = Some x.
  Proof. revert i. induction l as [|y l IH]; intros i H; [cbn in H; lia|]. destruct i; [reflexivity|]. cbn. apply IH. cbn in H. lia. Qed.
  Lemma replace_other (i j : nat) (x : sval) l : i <> j -> nth_error (replace i x l) j = nth_error l j.
  Proof. revert i j. induction l as [|y l IH]; intros i j H; [destruct i; reflexivity|]. destruct i; destruct j; try reflexivity; [congruence|]. cbn. apply IH. congruence. Qed.
  Lemma put_cons i j q (x : sval) vs : put (i :: j :: q) x vs =
    match nth_error vs i with
    | Some (VStruct l) => match put (j :: q) x l with Some l' => Some (replace i (VStruct l') vs) | None => None end
    | Some (VPtr l) => match put (j :: q) x l with Some l' => Some (replace i (VPtr l') vs) | None => None end
    | _ => None
    end.
  Proof. reflexivity. Qed.
  Lemma at_cons i j q (vs : list sval) : at_path (i :: j :: q) vs = match nth_error vs i with Some (VStruct l) | Some (VPtr l) => at_path (j :: q) l | _ => None end.
  Proof. reflexivity. Qed.
  Lemma nth_lt {A} (l : list A) i x : nth_error l i = Some x -> i < List.length l.
  Proof. intros H. apply nth_error_Some. congruence. Qed.
  Lemma at_put_same p (x : sval) : forall vs vs', put p x vs = Some vs' -> at_path p vs' = Some x.
  Proof.
    induction p as [|i p IH]; intros vs vs' H; [discriminate|]. destruct p as [|j q].
    - cbn [put] in H. destruct (Nat.ltb_spec i (List.length vs)) as [L|L]; [|discriminate]. injection H as <-. cbn. apply replace_same. exact L.
    - rewrite put_cons in H. rewrite at_cons. destruct (nth_error vs i) as [[v|l| |l]|] eqn:E; try discriminate; destruct (put (j :: q) x l) as [l'|] eqn:P; try discriminate; injection H as <-; rewrite replace_same by (eapply nth_lt; eauto); eapply IH; eauto.
  Qed.
  Lemma at_put_other p (x : sval) : forall vs vs' q, put p x vs = Some vs' -> ~ prefix_of p q -> ~ prefix_of q p -> at_path q vs' = at_path q vs.
  Proof.
    induction p as [|i p IH]; intros vs vs' q H N N'; [discriminate|]. destruct q as [|k q]; [reflexivity|].
    destruct p as [|j p].
    - cbn [put] in H. destruct (Nat.ltb i (List.length vs)); [|discriminate]. injection H as <-.
      assert (D : i <> k) by (intros ->; apply N; exists q; reflexivity). destruct q as [|k2 q]; [cbn|rewrite !at_cons]; rewrite replace_other by exact D; reflexivity.
    - rewrite put_cons in H. destruct (Nat.eq_dec i k) as [<-|D].
      + assert (M : ~ prefix_of (j :: p) q) by (intros (r & ->); apply N; exists r; reflexivity). assert (M' : ~ prefix_of q (j :: p)) by (intros (r & E); apply N'; exists r; rewrite E; reflexivity).
        destruct q as [|k2 q]; [exfalso; apply M'; exists (j :: p); reflexivity|]. rewrite !at_cons.
        destruct (nth_error vs i) as [[v|l| |l]|] eqn:E; try discriminate; destruct (put (j :: p) x l) as [l'|] eqn:P; try discriminate; injection H as <-; rewrite replace_same by (eapply nth_lt; eauto); eapply IH; eauto.
      + destruct q as [|k2 q]; [cbn|rewrite !at_cons]; destruct (nth_error vs i) as [[v|l| |l]|] eqn:E; try discriminate; destruct (put (j :: p) x l) as [l'|] eqn:P; try discriminate; injection H as <-; rewrite replace_other by exact D; reflexivity.
  Qed.
  Lemma put_nil q : forall r (x : sval) vs, at_path q vs = Some VNil -> r <> [] -> put (q ++ r) x vs = None.
  Proof.
    induction q as [|i q IH]; intros r x vs H N; [discriminate|]. destruct q as [|j q].
    - cbn [app]. destruct r as [|k r]; [congruence|]. rewrite put_cons. cbn in H. rewrite H. reflexivity.
    - cbn [app]. rewrite put_cons. rewrite at_cons in H. destruct (nth_error vs i) as [[v|l| |l]|]; try discriminate; [|]; change (j :: q ++ r) with ((j :: q) ++ r); rewrite (IH r x l H N); reflexivity.
  Qed.
  Lemma f2_len {A B} (R : A -> B -> Prop) l m : Forall2 R l m -> List.length l = List.length m.
  Proof. induction 1; cbn; congruence. Qed.
  Lemma put_ok (fs : list field) p f : field_at fs p f -> forall vs (x : sval), Forall2 has_type fs vs -> ~ through_pointer fs p -> exists vs', put p x vs = Some vs'.
  Proof.
    induction 1 as [fs i f H|fs i f p g H A IH]; intros vs x T N.
    - exists (replace i x vs). cbn [put]. apply f2_len in T. apply nth_lt in H. destruct (Nat.ltb_spec i (List.length vs)); [reflexivity|unfold bytes in *; lia].
    - destruct p as [|j p]; [inversion A|]. rewrite put_cons.
      assert (T' : exists v, nth_error vs i = Some v /\ has_type f v).
      { clear - T H. revert i H. induction T as [|a b fs vs Hab T IH]; intros i H; [destruct i; discriminate|]. destruct i; [injection H as ->; exists b; split; [reflexivity|exact Hab]|]. apply IH. exact H. }
      destruct T' as (v & E & Hv). rewrite E. assert (NP : ~ is_ptr f) by (intros P; apply N; exists [i], f; split; [apply fa_here; exact H|split; [exact P|exists (j :: p); split; [discriminate|reflexivity]]]).
      assert (NT : ~ through_pointer (embedded f) (j :: p)).
      { intros (q & h & Q1 & Q2 & r & Q3 & Q4). apply N. exists (i :: q), h. split; [eapply fa_in; eauto|]. split; [exact Q2|]. exists r. split; [exact Q3|]. cbn. rewrite <- Q4. reflexivity. }
      inversion Hv as [n e z w E1 E2|n e gs l F E1 E2|n e gs E1 E2|n e gs l F E1 E2]; subst; cbn [embedded f_kind] in *.
      + inversion A; subst; destruct j; discriminate.
      + destruct (IH l x F NT) as (l' & ->). eauto.
      + exfalso. apply NP. exact I.
      + exfalso. apply NP. exact I.
  Qed.
  Lemma put_type (fs : list field) p f : field_at fs p f -> forall vs (x : sval) vs', Forall2 has_type fs vs -> has_type f x -> put p x vs = Some vs' -> Forall2 has_type fs vs'.
  Proof.
    assert (R : forall (fs : list field) vs, Forall2 has_type fs vs -> forall i f x, nth_error fs i = Some f -> has_type f x -> Forall2 has_type fs (replace i x vs)).
    { induction 1 as [|a b gs vs Hab T IH]; intros i f0 x H Hx; [destruct i; discriminate|]. destruct i; cbn in *; [injection H as ->; constructor; auto|]. constructor; [exact Hab|eapply IH; eauto]. }
    induction 1 as [fs i f H|fs i f p g H A IH]; intros vs x vs' T Hx P.
    - cbn [put] in P. destruct (Nat.ltb i (List.length vs)); [|discriminate]. injection P as <-. eapply R; eauto.
    - destruct p as [|j p]; [inversion A|]. rewrite put_cons in P.
      assert (T' : exists v, nth_error vs i = Some v /\ has_type f v).
      { clear - T H. revert i H. induction T as [|a b fs vs Hab T IH]; intros i H; [destruct i; discriminate|]. destruct i; [injection H as ->; exists b; split; [reflexivity|exact Hab]|]. apply IH. exact H. }
      destruct T' as (v & E & Hv). rewrite E in P.
      inversion Hv as [n e z w E1 E2|n e gs l F E1 E2|n e gs E1 E2|n e gs l F E1 E2]; subst; cbn [embedded f_kind] in *; try discriminate.
      + destruct (put (j :: p) x l) as [l'|] eqn:Q; [|discriminate]. injection P as <-. eapply R; [exact T|exact H|]. constructor. eapply IH; eauto.
      + destruct (put (j :: p) x l) as [l'|] eqn:Q; [|discriminate]. injection P as <-. eapply R; [exact T|exact H|]. constructor. eapply IH; eauto.
  Qed.
  Lemma zero_type_d : forall d (f : field), depth f <= d -> has_type f (zero_of f).
  Proof.
    induction d as [|d IH]; intros f L; [pose proof (depth_pos f); lia|]. destruct f as [n e [z|fs|fs]]; cbn [zero_of]; [constructor| |constructor]. constructor. cbn [depth] in L.
    assert (F : Forall (fun g => depth g <= d) fs) by (pose proof (proj1 (list_max_le (map depth fs) (list_max (map depth fs))) (le_n _)) as F; rewrite Forall_map in F; eapply Forall_impl; [|exact F]; cbn; intros; lia).
    clear L. induction F as [|g fs Hg F IHF]; constructor; auto.
  Qed.
  Lemma zero_types (fs : list field) : Forall2 has_type fs (map zero_of fs).
  Proof. induction fs as [|f fs IH]; constructor; [eapply zero_type_d; apply le_n|exact IH]. Qed.

  (** ** Binding *)
  Variable bound : bytes -> sval.
  (** the submitted names select the index sequences *)
  Definition submitted (fs : list field) (names : list bytes) (p : list nat) : Prop := exists n f, In n names /\ selects fs n p f.
  Lemma prefix_dec (p q : list nat) : prefix_of p q \/ ~ prefix_of p q.
  Proof.
    revert q. induction p as [|i p IH]; intros q; [left; exists q; reflexivity|]. destruct q as [|j q]; [right; intros (r & E); discriminate|]. destruct (Nat.eq_dec i j) as [->|D]; [|right; intros (r & E); injection E as E _; congruence].
    destruct (IH q) as [(r & ->)|N]; [left; exists r; reflexivity|right; intros (r & E); injection E as E; apply N; exists r; exact E].
  Qed.
  Lemma zero_at (fs : list field) q g : field_at fs q g -> ~ through_pointer fs q -> at_path q (map zero_of fs) = Some (zero_of g).
  Proof.
    induction 1 as [fs i f H|fs i f p g H A IH]; intros N; [cbn; rewrite nth_error_map, H; reflexivity|]. destruct p as [|j p]; [inversion A|]. rewrite at_cons, nth_error_map, H. cbn [option_map].
    assert (NP : ~ is_ptr f) by (intros P; apply N; exists [i], f; split; [apply fa_here; exact H|split; [exact P|exists (j :: p); split; [discriminate|reflexivity]]]).
    destruct f as [n e [z|gs|gs]]; cbn [embedded f_kind] in *; [inversion A; subst; destruct j; discriminate| |exfalso; apply NP; exact I]. cbn [zero_of]. apply IH.
    intros (q & h & Q1 & Q2 & r & Q3 & Q4). apply N. exists (i :: q), h. split; [eapply fa_in; eauto|]. split; [exact Q2|]. exists r. split; [exact Q3|]. cbn. rewrite <- Q4. reflexivity.
  Qed.

  Lemma first_pointer (fs : list field) : forall d p, List.length p <= d -> through_pointer fs p -> exists q g, field_at fs q g /\ is_ptr g /\ proper_prefix q p /\ ~ through_pointer fs q.
  Proof.
    induction d as [|d IH]; intros p L (q & g & A & B & r & C & ->); [destruct r; [congruence|rewrite app_length in L; cbn in L; lia]|].
    assert (X : through_pointer fs q \/ ~ through_pointer fs q).
    { assert (Y : forall (gs : list field) q h, field_at gs q h -> through_pointer gs q \/ ~ through_pointer gs q).
      { clear. induction 1 as [fs i f H|fs i f p g H A IH].
        - right. intros (q & g & Q1 & _ & r & R & E). assert (q <> []) by (inversion Q1; discriminate). destruct q as [|j [|]]; try congruence; destruct r; try congruence; discriminate.
        - destruct (f_kind f) as [z|gs|gs] eqn:K.
          + unfold embedded in A. rewrite K in A. inversion A; subst; destruct i0; discriminate.
          + destruct IH as [(q & h & Q1 & Q2 & r & Q3 & ->)|N].
            * left. exists (i :: q), h. split; [eapply fa_in; eauto|]. split; [exact Q2|]. exists r. split; [exact Q3|reflexivity].
            * right. intros (q & h & Q1 & Q2 & r & Q3 & E). destruct q as [|j q]; [inversion Q1|]. injection E as -> E. inversion Q1 as [? ? ? H1|? ? f1 ? ? H1 B1]; subst.
              -- rewrite H in H1. injection H1 as <-. unfold is_ptr in Q2. rewrite K in Q2. exact Q2.
              -- rewrite H in H1. injection H1 as <-. apply N. exists q, h. split; [exact B1|]. split; [exact Q2|]. exists r. auto.
          + left. exists [i], f. split; [apply fa_here; exact H|]. split; [unfold is_ptr; rewrite K; exact I|]. exists p. split; [intros ->; inversion A|reflexivity]. }
      eapply Y. exact A. }
    destruct X as [X|X].
    - rewrite app_length in L. assert (List.length q <= d) by (destruct r; [congruence|cbn in L; lia]). destruct (IH q H X) as (q' & g' & A' & B' & (r' & C' & ->) & D). exists q', g'. split; [exact A'|]. split; [exact B'|]. split; [|exact D]. exists (r' ++ r). split; [intros E; apply app_eq_nil in E as (-> & _); congruence|rewrite app_assoc; reflexivity].
    - exists q, g. split; [exact A|]. split; [exact B|]. split; [exists r; auto|exact X].
  Qed.
  Lemma mem_In n (l : list bytes) : existsb (beq n) l = true <-> In n l.
  Proof. rewrite existsb_exists. split; [intros (x & I & E); apply beq_true in E; subst; exact I|intros I; exists n; split; [exact I|apply beq_refl]]. Qed.
  Lemma loop_ok (fs : list field) : (forall n p f, selects fs n p f -> has_type f (bound n)) -> forall names vs done, Forall2 has_type fs vs ->
    (forall p, submitted fs names p -> ~ through_pointer fs p) -> exists vs', bind_loop bound fs names vs done = Some vs' /\ Forall2 has_type fs vs'.
  Proof.
    intros B. induction names as [|n names IH]; intros vs done T N; cbn [bind_loop]; [eauto|].
    assert (N' : forall p, submitted fs names p -> ~ through_pointer fs p) by (intros p (m & f & I & X); apply N; exists m, f; split; [right; exact I|exact X]).
    destruct (existsb (beq n) done); [apply IH; auto|]. destruct (field_by_name fs n) as [(p & f)|] eqn:E; [|apply IH; auto]. apply C192_field_by_name in E.
    destruct (put_ok fs p f (proj1 E) vs (bound n) T) as (vs' & P); [apply N; exists n, f; split; [left; reflexivity|exact E]|]. rewrite P. destruct (f_exported f); [|apply IH; auto].
    apply IH; [|exact N']. eapply put_type; eauto. exact (proj1 E).
  Qed.
  Lemma loop_frame (fs : list field) q : forall names vs done vs', bind_loop bound fs names vs done = Some vs' ->
    (forall n p f, In n names -> ~ In n done -> selects fs n p f -> f_exported f = true -> ~ prefix_of p q /\ ~ prefix_of q p) -> at_path q vs' = at_path q vs.
  Proof.
    induction names as [|n names IH]; intros vs done vs' H N; cbn [bind_loop] in H; [congruence|].
    destruct (existsb (beq n) done) eqn:M; [eapply IH; [exact H|]; intros m p f I D X; eapply N; eauto; right; exact I|].
    destruct (field_by_name fs n) as [(p & f)|] eqn:E; [|eapply IH; [exact H|]; intros m p f I D X; eapply N; eauto; right; exact I]. apply C192_field_by_name in E.
    destruct (put p (bound n) vs) as [v1|] eqn:P; [|discriminate]. destruct (f_exported f) eqn:X.
    - rewrite (IH _ _ _ H); [|intros m p' f' I D; eapply N; [right; exact I|intros J; apply D; right; exact J]].
      assert (M' : ~ In n done) by (intros J; apply mem_In in J; congruence). destruct (N n p f (or_introl eq_refl) M' E X) as (N1 & N2). eapply at_put_other; eauto.
    - eapply IH; [exact H|]. intros m p' f' I D. eapply N; [right; exact I|exact D].
  Qed.
  Lemma selects_fun (fs : list field) n p f p' f' : selects fs n p f -> selects fs n p' f' -> p = p' /\ f = f'.
  Proof. intros E E'. apply C192_field_by_name in E. apply C192_field_by_name in E'. rewrite E in E'. injection E' as -> ->. auto. Qed.
  Lemma loop_field (fs : list field) n p f : selects fs n p f -> f_exported f = true -> forall names vs done vs', bind_loop bound fs names vs done = Some vs' ->
    (forall n' p' f', In n' names -> n' <> n -> selects fs n' p' f' -> f_exported f' = true -> ~ prefix_of p' p /\ ~ prefix_of p p') ->
    In n names \/ In n done -> (In n done -> at_path p vs = Some (bound n)) -> at_path p vs' = Some (bound n).
  Proof.
    intros Sel X. induction names as [|m names IH]; intros vs done vs' H N I0 D0; cbn [bind_loop] in H.
    - injection H as <-. destruct I0 as [[]|I0]; auto.
    - assert (N' : forall n' p' f', In n' names -> n' <> n -> selects fs n' p' f' -> f_exported f' = true -> ~ prefix_of p' p /\ ~ prefix_of p p') by (intros n' p' f' I; apply N; right; exact I).
      destruct (existsb (beq m) done) eqn:M.
      + apply mem_In in M. eapply IH; [exact H|exact N'| |exact D0]. destruct I0 as [[->|I0]|I0]; auto.
      + assert (M' : ~ In m done) by (intros J; apply mem_In in J; congruence). destruct (list_eq_dec Ascii.ascii_dec m n) as [->|NE].
        * rewrite (proj2 (C192_field_by_name fs n p f) Sel) in H. destruct (put p (bound n) vs) as [v1|] eqn:P; [|discriminate]. rewrite X in H. eapply IH; [exact H|exact N'|right; left; reflexivity|]. intros _. eapply at_put_same; eauto.
        * assert (I1 : In n names \/ In n done) by (destruct I0 as [[->|I0]|I0]; [congruence|auto|auto]).
          destruct (field_by_name fs m) as [(p' & f')|] eqn:E; [|eapply IH; eauto]. apply C192_field_by_name in E. destruct (put p' (bound m) vs) as [v1|] eqn:P; [|discriminate].
          destruct (f_exported f') eqn:X'; [|eapply IH; eauto]. destruct (N m p' f' (or_introl eq_refl) NE E X') as (N1 & N2). eapply IH; [exact H|exact N'|destruct I1; [left; assumption|right; right; assumption]|].
          intros [->|J]; [congruence|]. rewrite (at_put_other _ _ _ _ _ P N1 N2). auto.
  Qed.
  Lemma loop_panics (fs : list field) n p f q : selects fs n p f -> proper_prefix q p -> forall names vs done, In n names -> ~ In n done -> at_path q vs = Some VNil ->
    (forall n' p' f', In n' names -> selects fs n' p' f' -> f_exported f' = true -> prefix_of p' q -> p' = q /\ bound n' = VNil) -> bind_loop bound fs names vs done = None.
  Proof.
    intros Sel Q. induction names as [|m names IH]; intros vs done I0 D0 A N; [destruct I0|]. cbn [bind_loop].
    assert (N' : forall n' p' f', In n' names -> selects fs n' p' f' -> f_exported f' = true -> prefix_of p' q -> p' = q /\ bound n' = VNil) by (intros n' p' f' I; apply N; right; exact I).
    destruct (list_eq_dec Ascii.ascii_dec m n) as [->|NE].
    - assert (M : existsb (beq n) done = false) by (destruct (existsb (beq n) done) eqn:M; [apply mem_In in M; contradiction|reflexivity]). rewrite M, (proj2 (C192_field_by_name fs n p f) Sel).
      destruct Q as (r & R & ->). rewrite (put_nil q r (bound n) vs A R). reflexivity.
    - assert (I1 : In n names) by (destruct I0 as [->|I0]; [congruence|exact I0]). destruct (existsb (beq m) done); [apply IH; auto|].
      destruct (field_by_name fs m) as [(p' & f')|] eqn:E; [|apply IH; auto]. apply C192_field_by_name in E. destruct (put p' (bound m) vs) as [v1|] eqn:P; [|reflexivity].
      destruct (f_exported f') eqn:X'; [|apply IH; auto]. pose proof (N m p' f' (or_introl eq_refl) E X') as N1.
      apply IH; [exact I1|intros [J|J]; [congruence|contradiction]| |exact N']. destruct (prefix_dec p' q) as [Y|Y]; [destruct (N1 Y) as (-> & Z1); rewrite Z1 in P; exact (at_put_same _ _ _ _ P)|]. rewrite (at_put_other _ _ _ _ _ P Y); [exact A|].
      intros (r & ->). destruct r as [|j r]; [apply Y; exists []; rewrite app_nil_r; rewrite app_nil_r in *; reflexivity|]. rewrite (put_nil q (j :: r) (bound m) vs A) in P by discriminate. discriminate.
  Qed.

  (** C192. No submitted name is promoted through an embedded pointer: the struct is bound
      whatever the order of the names; a field whose name is submitted has the value Bind gives
      for it, promoted or not, unless an embedded struct around it or a field in it is submitted
      too; what no submitted name selects, contains or is contained in keeps its zero value. *)
  Theorem C192_bound (fs : list field) names : (forall n p f, selects fs n p f -> has_type f (bound n)) ->
    (forall p, submitted fs names p -> ~ through_pointer fs p) ->
    exists vs, bind_embedded bound fs names = Some vs /\ Forall2 has_type fs vs /\
      (forall n p f, In n names -> selects fs n p f -> f_exported f = true ->
        (forall n' p' f', In n' names -> n' <> n -> selects fs n' p' f' -> f_exported f' = true -> ~ prefix_of p' p /\ ~ prefix_of p p') -> at_path p vs = Some (bound n)) /\
      (forall q g, field_at fs q g -> ~ through_pointer fs q ->
        (forall n p f, In n names -> selects fs n p f -> f_exported f = true -> ~ prefix_of p q /\ ~ prefix_of q p) -> at_path q vs = Some (zero_of g)).
  Proof.
    intros B N. destruct (loop_ok fs B names (map zero_of fs) [] (zero_types fs) N) as (vs & E & T). exists vs. split; [exact E|]. split; [exact T|]. split.
    - intros n p f I Sel X D. eapply loop_field; eauto. intros [].
    - intros q g A NT D. rewrite (loop_frame fs q names (map zero_of fs) [] vs E); [apply zero_at; assumption|]. intros n p f I _. apply D. exact I.
  Qed.
  (** A submitted name that is promoted through an embedded pointer makes Bind panic, in every
      order of the names, unless a submitted name selects the embedded pointer itself, and Bind
      gives it a pointer that is not nil, or an embedded struct around it. *)
  Theorem C192_pointer_panics (fs : list field) names n p f : In n names -> selects fs n p f -> through_pointer fs p ->
    (forall n' p' f' q g, In n' names -> selects fs n' p' f' -> f_exported f' = true -> field_at fs q g -> is_ptr g -> proper_prefix q p -> ~ through_pointer fs q -> prefix_of p' q -> p' = q /\ bound n' = VNil) ->
    bind_embedded bound fs names = None.
  Proof.
    intros I Sel TP N. destruct (first_pointer fs _ p (le_n _) TP) as (q & g & A & P & Q & NT). eapply loop_panics; [exact Sel|exact Q|exact I|intros []| |].
    - rewrite (zero_at fs q g A NT). destruct g as [m e [z|gs|gs]]; cbn in P; try contradiction. reflexivity.
    - intros n' p' f' I' Sel' X'. eapply N; eauto.
  Qed.

  Lemma replace_comm (i k : nat) (x y : sval) l : i <> k -> replace i x (replace k y l) = replace k y (replace i x l).
  Proof. revert i k. induction l as [|z l IH]; intros i k D; [destruct i; destruct k; reflexivity|]. destruct i; destruct k; cbn; try reflexivity; [congruence|]. f_equal. apply IH. congruence. Qed.
  Lemma replace_twice (i : nat) (x y : sval) l : replace i x (replace i y l) = replace i x l.
  Proof. revert i. induction l as [|z l IH]; intros i; [destruct i; reflexivity|]. destruct i; cbn; [reflexivity|f_equal; apply IH]. Qed.
  Lemma replace_length (i : nat) (x : sval) l : List.length (replace i x l) = List.length l.
  Proof. revert i. induction l as [|z l IH]; intros i; [destruct i; reflexivity|]. destruct i; cbn; [reflexivity|f_equal; apply IH]. Qed.
  (** two writes at places neither of which contains the other, in both orders *)
  Definition put_then p (x : sval) q y vs := match put p x vs with Some v => put q y v | None => None end.
  Lemma put_one i (x : sval) vs : put [i] x vs = if Nat.ltb i (List.length vs) then Some (replace i x vs) else None.
  Proof. reflexivity. Qed.
  (** every write changes one element, in a way that depends on this element only *)
  Lemma put_local i p (x : sval) : exists h : option sval -> option sval, forall vs, put (i :: p) x vs = match h (nth_error vs i) with Some v => Some (replace i v vs) | None => None end.
  Proof.
    destruct p as [|j p].
    - exists (fun o => match o with Some _ => Some x | None => None end). intros vs. rewrite put_one. destruct (Nat.ltb_spec i (List.length vs)) as [L|L].
      + apply nth_error_Some in L. destruct (nth_error vs i); [reflexivity|congruence].
      + apply nth_error_None in L. rewrite L. reflexivity.
    - exists (fun o => match o with Some (VStruct l) => option_map VStruct (put (j :: p) x l) | Some (VPtr l) => option_map VPtr (put (j :: p) x l) | _ => None end).
      intros vs. rewrite put_cons. destruct (nth_error vs i) as [[v|l| |l]|]; try reflexivity; destruct (put (j :: p) x l); reflexivity.
  Qed.
  Lemma put_comm p (x : sval) : forall q y vs, ~ prefix_of p q -> ~ prefix_of q p -> put_then p x q y vs = put_then q y p x vs.
  Proof.
    unfold put_then. induction p as [|i p IH]; intros q y vs N N'; [exfalso; apply N; exists q; reflexivity|]. destruct q as [|k q]; [exfalso; apply N'; exists (i :: p); reflexivity|].
    destruct (Nat.eq_dec i k) as [<-|D].
    - assert (M : ~ prefix_of p q) by (intros (r & ->); apply N; exists r; reflexivity). assert (M' : ~ prefix_of q p) by (intros (r & ->); apply N'; exists r; reflexivity).
      destruct p as [|j p]; [exfalso; apply M; exists q; reflexivity|]. destruct q as [|k2 q]; [exfalso; apply M'; exists (j :: p); reflexivity|].
      rewrite (put_cons i j p x vs), (put_cons i k2 q y vs). destruct (nth_error vs i) as [[v|l| |l]|] eqn:E; try reflexivity; specialize (IH (k2 :: q) y l M M'); destruct (put (j :: p) x l) as [l1|] eqn:P1; destruct (put (k2 :: q) y l) as [l2|] eqn:P2; try reflexivity;
        rewrite ?put_cons, ?replace_same by (eapply nth_lt; eauto).
      1,4: rewrite IH; destruct (put (j :: p) x l2); rewrite ?replace_twice; reflexivity.
      1,3: rewrite IH; reflexivity.
      1,2: rewrite <- IH; reflexivity.
    - destruct (put_local i p x) as (h & H). destruct (put_local k q y) as (g & G). rewrite H, G. destruct (h (nth_error vs i)) as [a|] eqn:A; destruct (g (nth_error vs k)) as [b|] eqn:B; rewrite ?H, ?G, ?replace_other by congruence; rewrite ?A, ?B; try reflexivity. rewrite replace_comm by congruence. reflexivity.
  Qed.
  Lemma put_still p (x : sval) q y vs v : put p x vs = Some v -> ~ prefix_of p q -> ~ prefix_of q p -> put q y vs = None <-> put q y v = None.
  Proof.
    revert q vs v. induction p as [|i p IH]; intros q vs v P N N'; [discriminate|]. destruct q as [|k q]; [tauto|]. destruct (Nat.eq_dec i k) as [<-|D].
    - assert (M : ~ prefix_of p q) by (intros (r & ->); apply N; exists r; reflexivity). assert (M' : ~ prefix_of q p) by (intros (r & ->); apply N'; exists r; reflexivity).
      destruct p as [|j p]; [exfalso; apply M; exists q; reflexivity|]. destruct q as [|k2 q]; [exfalso; apply M'; exists (j :: p); reflexivity|].
      rewrite put_cons in P. rewrite !put_cons. destruct (nth_error vs i) as [[w|l| |l]|] eqn:E; try discriminate; destruct (put (j :: p) x l) as [l1|] eqn:P1; try discriminate; injection P as <-; rewrite replace_same by (eapply nth_lt; eauto);
        pose proof (IH (k2 :: q) l l1 P1 M M') as X; destruct (put (k2 :: q) y l); destruct (put (k2 :: q) y l1); split; intros; try reflexivity; try discriminate; destruct X as (X1 & X2); try (specialize (X1 eq_refl)); try (specialize (X2 eq_refl)); discriminate.
    - destruct (put_local i p x) as (h & H). destruct (put_local k q y) as (g & G). rewrite H in P. destruct (h (nth_error vs i)) as [a|]; [|discriminate]. injection P as <-. rewrite !G, replace_other by exact D. destruct (g (nth_error vs k)); split; intros; try reflexivity; discriminate.
  Qed.
  Lemma done_ext (fs : list field) names : forall vs d d', (forall n, existsb (beq n) d = existsb (beq n) d') -> bind_loop bound fs names vs d = bind_loop bound fs names vs d'.
  Proof.
    induction names as [|n names IH]; intros vs d d' H; [reflexivity|]. cbn [bind_loop]. rewrite <- H. destruct (existsb (beq n) d); [apply IH; exact H|]. destruct (field_by_name fs n) as [(p & f)|]; [|apply IH; exact H].
    destruct (put p (bound n) vs); [|reflexivity]. destruct (f_exported f); apply IH; [|exact H]. intros m. cbn [existsb]. rewrite H. reflexivity.
  Qed.
  (** the fields set by the names do not contain each other, nor another field tried *)
  Definition apart (fs : list field) (names : list bytes) : Prop :=
    forall n m p f q g, In n names -> In m names -> n <> m -> selects fs n p f -> selects fs m q g -> f_exported f = true -> ~ prefix_of p q /\ ~ prefix_of q p.
  Lemma loop_swap (fs : list field) n m names vs d : (forall p f q g, n <> m -> selects fs n p f -> selects fs m q g -> f_exported f = true \/ f_exported g = true -> ~ prefix_of p q /\ ~ prefix_of q p) ->
    bind_loop bound fs (n :: m :: names) vs d = bind_loop bound fs (m :: n :: names) vs d.
  Proof.
    intros A. destruct (list_eq_dec Ascii.ascii_dec n m) as [->|D]; [reflexivity|]. assert (E1 : beq n m = false) by (apply beq_false; exact D). assert (E2 : beq m n = false) by (apply beq_false; congruence).
    cbn [bind_loop existsb]. destruct (existsb (beq n) d) eqn:Dn; destruct (existsb (beq m) d) eqn:Dm; destruct (field_by_name fs n) as [(p & f)|] eqn:Fn; destruct (field_by_name fs m) as [(q & g)|] eqn:Fm; try reflexivity; rewrite ?E1, ?E2, ?Dn, ?Dm; cbn [orb];
      try (destruct (put q (bound m) vs); [|reflexivity]; destruct (f_exported g); cbn [existsb]; rewrite ?E1, ?E2, ?Dn; reflexivity);
      try (destruct (put p (bound n) vs); [|reflexivity]; destruct (f_exported f); cbn [existsb]; rewrite ?E1, ?E2, ?Dm; reflexivity).
    apply C192_field_by_name in Fn. apply C192_field_by_name in Fm. pose proof (A p f q g D Fn Fm) as B.
    destruct (f_exported f) eqn:Xf; destruct (f_exported g) eqn:Xg; cbn [existsb]; rewrite ?E1, ?E2, ?Dn, ?Dm; cbn [orb].
    - destruct (B (or_introl eq_refl)) as (B1 & B2). pose proof (put_comm p (bound n) q (bound m) vs B1 B2) as C. unfold put_then in C.
      destruct (put p (bound n) vs) as [v1|] eqn:P1; destruct (put q (bound m) vs) as [v2|] eqn:P2; [rewrite C|rewrite C; reflexivity|rewrite <- C; reflexivity|reflexivity].
      destruct (put p (bound n) v2); [|reflexivity]. apply done_ext. intros z. cbn [existsb]. destruct (beq z m); destruct (beq z n); reflexivity.
    - destruct (B (or_introl eq_refl)) as (B1 & B2). destruct (put p (bound n) vs) as [v1|] eqn:P1; [|destruct (put q (bound m) vs); reflexivity].
      pose proof (put_still _ _ q (bound m) _ _ P1 B1 B2) as C. destruct (put q (bound m) vs) as [v2|]; destruct (put q (bound m) v1); try reflexivity; destruct C as (C1 & C2); try (specialize (C1 eq_refl)); try (specialize (C2 eq_refl)); discriminate.
    - destruct (B (or_intror eq_refl)) as (B1 & B2). destruct (put q (bound m) vs) as [v1|] eqn:P1; [|destruct (put p (bound n) vs); reflexivity].
      pose proof (put_still _ _ p (bound n) _ _ P1 B2 B1) as C. destruct (put p (bound n) vs) as [v2|]; destruct (put p (bound n) v1); try reflexivity; destruct C as (C1 & C2); try (specialize (C1 eq_refl)); try (specialize (C2 eq_refl)); discriminate.
    - destruct (put p (bound n) vs); destruct (put q (bound m) vs); reflexivity.
  Qed.
  (** Where these fields are apart the order of the names makes no difference, panics included. *)
  Theorem C192_order_irrelevant (fs : list field) names names' : Permutation names names' -> apart fs names -> bind_embedded bound fs names = bind_embedded bound fs names'.
  Proof.
    unfold bind_embedded. generalize (map zero_of fs) as vs. generalize (@nil bytes) as d. intros d vs P. revert d vs. induction P as [|n l l' P IH|n m l|l1 l2 l3 P1 IH1 P2 IH2]; intros d vs A; [reflexivity| | |].
    - assert (A' : apart fs l) by (intros x y p f q g Ix Iy; apply A; right; assumption). cbn [bind_loop]. destruct (existsb (beq n) d); [apply IH; exact A'|]. destruct (field_by_name fs n) as [(p & f)|]; [|apply IH; exact A'].
      destruct (put p (bound n) vs); [|reflexivity]. destruct (f_exported f); apply IH; exact A'.
    - apply loop_swap. intros p f q g D Sn Sm [X|X].
      + exact (A m n p f q g (or_introl eq_refl) (or_intror (or_introl eq_refl)) D Sn Sm X).
      + destruct (A n m q g p f (or_intror (or_introl eq_refl)) (or_introl eq_refl) (fun e => D (eq_sym e)) Sm Sn X) as (A1 & A2). split; assumption.
    - rewrite IH1 by exact A. apply IH2. intros x y p f q g Ix Iy. apply A; [exact (Permutation_in _ (Permutation_sym P1) Ix)|exact (Permutation_in _ (Permutation_sym P1) Iy)].
  Qed.
End Embed.


(** The order of the names, which is that of a Go map, can decide: a field set by its promoted
    name and the embedded struct set by its own. *)
Definition user : list (field nat) := [Field (bs "Base") true (KStruct [Field (bs "X") true (KPlain 0); Field (bs "Y") true (KPlain 0)]); Field (bs "Name") true (KPlain 0)].
Definition user_bound (n : bytes) : sval nat := if beq n (bs "Base") then VStruct [VPlain 0; VPlain 2] else VPlain 1.
Theorem C192_order_refuted : exists (fs : list (field nat)) bound names names', Permutation names names' /\ (forall n p f, selects fs n p f -> has_type f (bound n)) /\
  bind_embedded bound fs names = Some [VStruct [VPlain 1; VPlain 2]; VPlain 0] /\ bind_embedded bound fs names' = Some [VStruct [VPlain 0; VPlain 2]; VPlain 0].
Proof.
  exists user, user_bound, [bs "Base"; bs "X"], [bs "X"; bs "Base"]. split; [apply perm_swap|]. split; [|split; vm_compute; reflexivity].
  intros n p f (A & E & U). inversion A as [? i ? H|? i g q ? H B]; subst.
  - destruct i as [|[|i]]; [| |destruct i; discriminate]; injection H as <-; cbn [f_name] in *; unfold user_bound; [rewrite beq_refl; repeat constructor|]. change (beq (bs "Name") (bs "Base")) with false. constructor.
  - destruct i as [|[|i]]; [| |destruct i; discriminate]; injection H as <-; cbn [embedded f_kind] in B.
    + inversion B as [? j ? H|? j g q' ? H B']; subst.
      * destruct j as [|[|j]]; [| |destruct j; discriminate]; injection H as <-; cbn [f_name]; unfold user_bound; [change (beq (bs "X") (bs "Base")) with false|change (beq (bs "Y") (bs "Base")) with false]; constructor.
      * destruct j as [|[|j]]; [| |destruct j; discriminate]; injection H as <-; inversion B'; subst; destruct i; discriminate.
    + inversion B; subst; destruct i; discriminate.
Qed.
(** With an embedded pointer the order can decide between a panic and a value. *)
Definition user_ptr : list (field nat) := [Field (bs "Base") true (KPtr [Field (bs "X") true (KPlain 0)]); Field (bs "Name") true (KPlain 0)].
Definition ptr_bound (n : bytes) : sval nat := if beq n (bs "Base") then VPtr [VPlain 0] else VPlain 1.
Theorem C192_pointer_order_refuted :
  bind_embedded ptr_bound user_ptr [bs "Base"; bs "X"] = Some [VPtr [VPlain 1]; VPlain 0] /\ bind_embedded ptr_bound user_ptr [bs "X"; bs "Base"] = None.
Proof. split; vm_compute; reflexivity. Qed.
Example C192_hypotheses_met :
  selects user (bs "X") [0; 0] (Field (bs "X") true (KPlain 0)) /\ ~ through_pointer user [0; 0] /\
  bind_embedded user_bound user [bs "Name"; bs "X"; bs "Z"] = Some [VStruct [VPlain 1; VPlain 0]; VPlain 1] /\
  selects user_ptr (bs "X") [0; 0] (Field (bs "X") true (KPlain 0)) /\ through_pointer user_ptr [0; 0] /\ bind_embedded ptr_bound user_ptr [bs "Name"; bs "X"] = None.
Proof.
  split; [apply C192_field_by_name; vm_compute; reflexivity|]. split.
  { intros (q & g & A & P & r & R & E). destruct q as [|i [|j q]]; [inversion A| |destruct r; [congruence|destruct q; discriminate]].
    injection E as <- _. inversion A as [? ? ? H|? ? ? ? ? H B]; subst; [injection H as <-; exact P|inversion B]. }
  split; [vm_compute; reflexivity|]. split; [apply C192_field_by_name; vm_compute; reflexivity|]. split; [|vm_compute; reflexivity].
  exists [0], (Field (bs "Base") true (KPtr [Field (bs "X") true (KPlain 0)])). split; [apply fa_here; reflexivity|]. split; [exact I|]. exists [0]. split; [discriminate|reflexivity].
Qed.
(** names whose fields are apart: a promoted one and one of the outer struct *)
Example C192_apart_met : apart user [bs "X"; bs "Name"] /\
  bind_embedded user_bound user [bs "X"; bs "Name"] = Some [VStruct [VPlain 1; VPlain 0]; VPlain 1].
Proof.
  split; [|vm_compute; reflexivity]. intros n m p f q g In_n In_m D Sn Sm _. apply C192_field_by_name in Sn. apply C192_field_by_name in Sm.
  destruct In_n as [<-|[<-|[]]]; destruct In_m as [<-|[<-|[]]]; try congruence; vm_compute in Sn, Sm; injection Sn as <- _; injection Sm as <- _; split; intros (r & H); discriminate.
Qed.

Print Assumptions C192_field_by_name.
Print Assumptions C192_bound.
Print Assumptions C192_pointer_panics.
Print Assumptions C192_order_refuted.
Print Assumptions C192_pointer_order_refuted.
Print Assumptions C192_order_irrelevant.
