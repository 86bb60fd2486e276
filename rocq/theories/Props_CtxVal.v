(** Props_CtxVal: C91, C132 -- values kept in a context. *)
From Coq Require Import List Ascii String Bool Arith Lia.
Import ListNotations.
From Verif Require Import GoStr CtxValModel.

(** *** Specification *)
Definition colon : ascii := ":"%char.
(** the types the API is for: declared at package level (or error), T or *T; import
    paths and identifiers have no colon *)
Definition plain_base (t : ty) : Prop :=
  match t with
  | TNamed p n s => p <> [] /\ ~ In colon p /\ ~ In colon n /\ n <> [] /\ s = 0
  | TPredecl n b => b = false /\ ~ In colon n /\ n = bs "error"
  | _ => False
  end.
Definition plain (t : ty) : Prop := plain_base (base t).
(** T and *T share an entry; names must be equal *)
Definition matches (t : ty) (extra : bytes) (e : entry) : Prop := base t = base (n_ty e) /\ extra = n_extra e.

(** *** Lemmas *)
Lemma cut_colon a b x y : ~ In colon a -> ~ In colon b -> a ++ colon :: x = b ++ colon :: y -> a = b /\ x = y.
Proof.
  revert b. induction a as [|c a IH]; intros [|d b] Ha Hb E; cbn in E.
  - injection E as E. auto.
  - injection E as E1 E2. exfalso. apply Hb. left. congruence.
  - injection E as E1 E2. exfalso. apply Ha. left. congruence.
  - injection E as -> E2. destruct (IH b) as (-> & ->); auto; intros K; [apply Ha|apply Hb]; now right.
Qed.
Lemma plain_key t extra : plain t -> key_of t extra = Some (pkg_path (base t) ++ colon :: ty_name (base t) ++ colon :: extra).
Proof.
  unfold plain, key_of. destruct (base t) as [p n s|n b|i|t']; cbn; intros H; try contradiction; [reflexivity|].
  destruct H as (-> & _). reflexivity.
Qed.
(** different types or names never share a key *)
Theorem key_injective t1 x1 t2 x2 : plain t1 -> plain t2 -> key_of t1 x1 = key_of t2 x2 -> base t1 = base t2 /\ x1 = x2.
Proof.
  intros P1 P2 E. rewrite !plain_key in E by assumption. injection E as E.
  unfold plain in *. destruct (base t1) as [p n s|n b|i|t'], (base t2) as [p' n' s'|n' b'|i'|t'']; try contradiction; cbn [pkg_path ty_name plain_base] in *.
  - destruct P1 as (A1 & A2 & A3 & A4 & A5), P2 as (B1 & B2 & B3 & B4 & B5).
    apply cut_colon in E; auto. destruct E as (-> & E). apply cut_colon in E; auto. destruct E as (-> & ->). subst. auto.
  - destruct P1 as (A1 & A2 & A3 & A4 & A5), P2 as (B1 & B2 & B3).
    apply (cut_colon p []) in E; auto. destruct E as (-> & _). congruence.
  - destruct P1 as (A1 & A2 & A3), P2 as (B1 & B2 & B3 & B4 & B5).
    apply (cut_colon [] p') in E; auto. destruct E as (<- & _). congruence.
  - destruct P1 as (A1 & A2 & A3), P2 as (B1 & B2 & B3).
    apply (cut_colon [] []) in E; auto. destruct E as (_ & E). apply cut_colon in E; auto. destruct E as (-> & ->). subst. auto.
Qed.

Section Ctx.
  Variable D : Type.
  Variable assignable : ty -> ty -> bool.
  Hypothesis same_assignable : forall t, assignable t t = true.
  Notation find := (find_value D assignable).

  Lemma lookup_none c t x : plain t -> Forall (fun e => plain (n_ty e)) c -> Forall (fun e => ~ matches t x e) c ->
    forall k, key_of t x = Some k -> lookup c k = None.
  Proof using Type.
    intros P Pc Nc k K. induction c as [|e c IH]; [reflexivity|]. cbn [lookup].
    inversion Pc; subst. inversion Nc; subst. rewrite (plain_key (n_ty e)) by assumption.
    destruct (beq_spec k (pkg_path (base (n_ty e)) ++ colon :: ty_name (base (n_ty e)) ++ colon :: n_extra e)) as [E|_]; [|auto].
    exfalso. apply H3. unfold matches. apply key_injective; auto. rewrite K, (plain_key (n_ty e)) by assumption. now rewrite E.
  Qed.
  Lemma lookup_first pre e post t x : plain t -> Forall (fun e => plain (n_ty e)) (pre ++ e :: post) ->
    Forall (fun e => ~ matches t x e) pre -> matches t x e ->
    forall k, key_of t x = Some k -> lookup (pre ++ e :: post) k = Some e.
  Proof using Type.
    intros P Pc Nc M k K. induction pre as [|e' pre IH]; cbn [List.app lookup].
    - inversion Pc; subst. rewrite (plain_key (n_ty e)) by assumption. rewrite (plain_key t) in K by assumption.
      destruct M as (M1 & M2). rewrite <- M1, <- M2. injection K as <-. now rewrite beq_refl.
    - inversion Pc; subst. inversion Nc; subst. rewrite (plain_key (n_ty e')) by assumption.
      destruct (beq_spec k (pkg_path (base (n_ty e')) ++ colon :: ty_name (base (n_ty e')) ++ colon :: n_extra e')) as [E|_]; [|auto].
      exfalso. apply H3. unfold matches. apply key_injective; auto. rewrite K, (plain_key (n_ty e')) by assumption. now rewrite E.
  Qed.

  (** C91 (partial). In a context made of package-level types: nothing stored under
      the type and name, nothing found; otherwise the nearest stored pointer of
      that type and name decides, and gives the present content of the variable
      it points to. T and *T find each other: a *T asked for where a T was stored
      points to the very variable, a T asked for where a *T was stored is what it
      points to. A nil pointer stored leaves the target alone. Missing: types
      without a package-level name, and a nil *T looked up as T. *)
  Theorem C91_find_partial m c t x :
    plain t -> Forall (fun e => plain (n_ty e)) c ->
    (Forall (fun e => ~ matches t x e) c -> find m c t x = NotFound D) /\
    (forall pre e post, c = pre ++ e :: post -> Forall (fun e => ~ matches t x e) pre -> matches t x e ->
       match n_var e with
       | None => find m c t x = Unchanged D
       | Some a =>
           (t = n_ty e -> find m c t x = SetTo D (m a)) /\
           (t = TPtr (n_ty e) -> find m c t x = SetTo D (GPtr D (Some a))) /\
           (forall b, TPtr t = n_ty e -> m a = GPtr D (Some b) -> find m c t x = SetTo D (m b)) /\
           (t = n_ty e \/ t = TPtr (n_ty e) \/ TPtr t = n_ty e)
       end).
  Proof using same_assignable.
    intros P Pc. unfold find_value. rewrite (plain_key t) by assumption. pose proof (plain_key t x P) as K. split.
    - intros N. rewrite (lookup_none c t x P Pc N _ K). reflexivity.
    - intros pre e post -> N M. rewrite (lookup_first pre e post t x P Pc N M _ K).
      destruct (n_var e) as [a|]; [|reflexivity].
      assert (Pe : plain (n_ty e)) by (apply Forall_app in Pc; destruct Pc as (_ & Pc); now inversion Pc).
      repeat split.
      + intros E. rewrite <- E. destruct (is_ptr t); cbn; now rewrite same_assignable.
      + intros E. assert (I : is_ptr (n_ty e) = false).
        { destruct M as (M & _). rewrite E in P. unfold plain in P. cbn in P. destruct (n_ty e); try reflexivity. contradiction. }
        rewrite E, I. cbn. now rewrite same_assignable.
      + intros b E Ha. assert (I : is_ptr t = false).
        { rewrite <- E in Pe. unfold plain in Pe. cbn in Pe. destruct t; try reflexivity. contradiction. }
        rewrite <- E, I, Ha. cbn. now rewrite same_assignable.
      + destruct M as (M & _). unfold plain in P, Pe.
        destruct t as [p n s|n b|i|t'], (n_ty e) as [p' n' s'|n' b'|i'|t'']; cbn [base] in *; try contradiction;
          try (left; congruence); try (right; left; congruence); try (right; right; congruence); try (left; f_equal; assumption).
  Qed.
  (** storing is always possible for these types, and hides nothing else *)
  Theorem C91_store c e : plain (n_ty e) ->
    with_value c e = Some (e :: c) /\
    (forall m t x, plain t -> ~ matches t x e -> find m (e :: c) t x = find m c t x).
  Proof using same_assignable.
    intros P. split; [unfold with_value; now rewrite plain_key|]. intros m t x Pt N. unfold find_value.
    rewrite (plain_key t) by assumption. cbn [lookup]. rewrite (plain_key (n_ty e)) by assumption.
    destruct (beq_spec (pkg_path (base t) ++ colon :: ty_name (base t) ++ colon :: x) (pkg_path (base (n_ty e)) ++ colon :: ty_name (base (n_ty e)) ++ colon :: n_extra e)) as [E|_]; [|reflexivity].
    exfalso. apply N. apply key_injective; auto. rewrite !plain_key by assumption. now rewrite E.
  Qed.
  (** what is not accepted: predeclared basic types, and more than two pointers *)
  Theorem C91_rejected c n x a t : 
    with_value c (Entry (TPredecl n true) x a) = None /\ with_value c (Entry (TPtr (TPredecl n true)) x a) = None /\
    with_value c (Entry (TPtr (TPtr t)) x a) = None /\
    (forall m, find m c (TPredecl n true) x = FPanic D /\ find m c (TPtr (TPredecl n true)) x = FPanic D /\ find m c (TPtr (TPtr t)) x = FPanic D).
  Proof using Type. repeat split. Qed.
  (** C91 (refutations). Lookups that must not find anything panic: between unnamed
      types, and between types of two functions with the same name. *)
  Theorem C91_unnamed_refuted : (forall i j, i <> j -> assignable (TLit i) (TLit j) = false) ->
    ~ (forall m c e t x, with_value c e = Some (e :: c) -> base t <> base (n_ty e) -> find m [] t x = NotFound D -> find m [e] t x = NotFound D).
  Proof using Type.
    intros H K. specialize (K (fun _ => GPtr D None) [] (Entry (TLit 1) [] (Some 0)) (TLit 2) [] eq_refl ltac:(discriminate) eq_refl).
    unfold find_value in K. cbn in K. rewrite H in K by discriminate. discriminate K.
  Qed.
  Theorem C91_local_refuted : (forall p n i j, i <> j -> assignable (TNamed p n i) (TNamed p n j) = false) ->
    ~ (forall m c e t x, with_value c e = Some (e :: c) -> base t <> base (n_ty e) -> find m [] t x = NotFound D -> find m [e] t x = NotFound D).
  Proof using Type.
    intros H K. specialize (K (fun _ => GPtr D None) [] (Entry (TNamed (bs "app") (bs "user") 1) [] (Some 0)) (TNamed (bs "app") (bs "user") 2) [] eq_refl ltac:(discriminate) eq_refl).
    unfold find_value in K. cbn in K. rewrite H in K by discriminate. discriminate K.
  Qed.
  (** a nil *T stored and looked up as T: panic *)
  Theorem C91_nil_refuted : ~ (forall m e t, plain t -> plain (n_ty e) -> matches t (n_extra e) e -> find m [e] t (n_extra e) <> FPanic D).
  Proof using Type.
    intros K. set (T := TNamed (bs "app") (bs "User") 0).
    assert (P : plain T) by (repeat split; try discriminate; cbn; intros H; repeat (destruct H as [H|H]; [discriminate H|]); exact H).
    apply (K (fun _ => GPtr D None) (Entry (TPtr T) [] (Some 0)) T); try exact P; [split; reflexivity|]. reflexivity.
  Qed.
  (** *** Exact form, for all types *)
  (** what CtxWithValue accepts: T or *T, T not a basic predeclared type *)
  Definition storable (t : ty) : Prop := match base t with TPtr _ | TPredecl _ true => False | _ => True end.
  Definition no_colon (t : ty) : Prop := ~ In colon (pkg_path (base t)) /\ ~ In colon (ty_name (base t)).
  (** what reflect shows of the type, and the name, are the same: all unnamed types
      look alike, and so do equally named types of different functions *)
  Definition same_slot (t : ty) (extra : bytes) (e : entry) : Prop :=
    pkg_path (base t) = pkg_path (base (n_ty e)) /\ ty_name (base t) = ty_name (base (n_ty e)) /\ extra = n_extra e.
  Lemma storable_key t extra : storable t -> key_of t extra = Some (pkg_path (base t) ++ colon :: ty_name (base t) ++ colon :: extra).
  Proof using Type.
    unfold storable, key_of. destruct (base t) as [p n s|n [] |i|t']; cbn; intros H; try contradiction; reflexivity.
  Qed.
  Lemma slot_key t x e : storable t -> no_colon t -> storable (n_ty e) -> no_colon (n_ty e) ->
    (key_of t x = key_of (n_ty e) (n_extra e) <-> same_slot t x e).
  Proof using Type.
    intros S1 (N1 & N2) S2 (M1 & M2). rewrite !storable_key by assumption. split.
    - intros E. injection E as E. apply cut_colon in E; auto. destruct E as (E1 & E). apply cut_colon in E; auto. destruct E as (E2 & E3). now repeat split.
    - intros (-> & -> & ->). reflexivity.
  Qed.
  Lemma lookup_exact c t x k : storable t -> no_colon t -> Forall (fun e => storable (n_ty e) /\ no_colon (n_ty e)) c -> key_of t x = Some k ->
    (Forall (fun e => ~ same_slot t x e) c -> lookup c k = None) /\
    (forall pre e post, c = pre ++ e :: post -> Forall (fun e => ~ same_slot t x e) pre -> same_slot t x e -> lookup c k = Some e).
  Proof using Type.
    intros S N. revert k. induction c as [|e0 c IH]; intros k F K.
    - split; [reflexivity|]. intros pre e post E. destruct pre; discriminate E.
    - inversion F as [|? ? (F1 & F2) F3]; subst. destruct (IH k F3 K) as (I1 & I2). cbn [lookup].
      pose proof (slot_key t x e0 S N F1 F2) as SK. rewrite K in SK. rewrite (storable_key (n_ty e0)) in SK |- * by assumption. split.
      + intros G. inversion G as [|? ? G1 G2]; subst.
        destruct (beq_spec k (pkg_path (base (n_ty e0)) ++ colon :: ty_name (base (n_ty e0)) ++ colon :: n_extra e0)) as [E|_]; [exfalso; apply G1, SK; now rewrite E|auto].
      + intros pre e post E G M. destruct pre as [|e' pre]; cbn [List.app] in E; injection E as -> E.
        * apply SK in M. injection M as <-. now rewrite beq_refl.
        * inversion G as [|? ? G1 G2]; subst.
          destruct (beq_spec k (pkg_path (base (n_ty e')) ++ colon :: ty_name (base (n_ty e')) ++ colon :: n_extra e')) as [E|_]; [exfalso; apply G1, SK; now rewrite E|].
          eapply I2; eauto.
  Qed.
  (** C91, exactly. For everything CtxWithValue accepts: the nearest entry of the
      same package path, type name and extra name decides; a T asked for where a T
      is stored, or *T where *T, is its content; a pointer asked for where a T is
      stored points to the variable; a T asked for where a *T is stored is what
      that points to, and a panic if that is nil; values of a type that does not
      fit (another unnamed or local type) are a panic. *)
  Theorem C91_find_exact m c t x :
    storable t -> no_colon t -> Forall (fun e => storable (n_ty e) /\ no_colon (n_ty e)) c ->
    (Forall (fun e => ~ same_slot t x e) c -> find m c t x = NotFound D) /\
    (forall pre e post, c = pre ++ e :: post -> Forall (fun e => ~ same_slot t x e) pre -> same_slot t x e ->
       match n_var e with
       | None => find m c t x = Unchanged D
       | Some a =>
           (is_ptr t = is_ptr (n_ty e) -> find m c t x = if assignable t (n_ty e) then SetTo D (m a) else FPanic D) /\
           (is_ptr t = true -> is_ptr (n_ty e) = false -> find m c t x = if assignable t (TPtr (n_ty e)) then SetTo D (GPtr D (Some a)) else FPanic D) /\
           (is_ptr t = false -> is_ptr (n_ty e) = true ->
              (forall b, m a = GPtr D (Some b) -> find m c t x = if assignable t (base (n_ty e)) then SetTo D (m b) else FPanic D) /\
              (m a = GPtr D None -> find m c t x = FPanic D))
       end).
  Proof using Type.
    intros S N F. pose proof (storable_key t x S) as K. destruct (lookup_exact c t x _ S N F K) as (L1 & L2).
    unfold find_value. rewrite K. split.
    - intros G. now rewrite (L1 G).
    - intros pre e post E G M. rewrite (L2 pre e post E G M). destruct (n_var e) as [a|]; [|reflexivity].
      repeat split.
      + intros P. rewrite P. destruct (is_ptr (n_ty e)); reflexivity.
      + intros P Q. now rewrite P, Q.
      + intros b A. rewrite H, H0, A. reflexivity.
      + intros A. rewrite H, H0, A. reflexivity.
  Qed.
  (** for types declared at package level this is C91_find_partial: the slot is the
      type itself *)
  Theorem C91_plain_slots t x e : plain t -> plain (n_ty e) ->
    storable t /\ no_colon t /\ (same_slot t x e <-> matches t x e).
  Proof using Type.
    intros P1 P2. assert (G : forall u, plain u -> storable u /\ no_colon u).
    { intros u P. unfold plain, storable, no_colon in *. destruct (base u) as [p n s|n b|i|t']; cbn in *; try contradiction.
      - destruct P as (_ & A & B & _). auto.
      - destruct P as (-> & A & _). auto. }
    destruct (G t P1) as (S1 & N1), (G (n_ty e) P2) as (S2 & N2). split; [exact S1|]. split; [exact N1|].
    rewrite <- slot_key by assumption. split.
    - intros K. now apply key_injective.
    - intros (A & B). rewrite !storable_key by assumption. now rewrite A, B.
  Qed.
  (** MustCtxFindValue panics where CtxFindValue finds nothing, and is the same otherwise *)
  Theorem C91_must m c t x :
    storable t -> no_colon t -> Forall (fun e => storable (n_ty e) /\ no_colon (n_ty e)) c ->
    (Forall (fun e => ~ same_slot t x e) c -> must_find D assignable m c t x = FPanic D) /\
    (Exists (fun e => same_slot t x e) c -> must_find D assignable m c t x = find m c t x /\ find m c t x <> NotFound D).
  Proof using Type.
    intros S N F. destruct (C91_find_exact m c t x S N F) as (A & B). unfold must_find. split.
    - intros H. rewrite (A H). reflexivity.
    - intros H. assert (X : exists pre e post, c = pre ++ e :: post /\ Forall (fun e => ~ same_slot t x e) pre /\ same_slot t x e).
      { clear - H. induction c as [|e c IH]; [inversion H|].
        assert (Dec : same_slot t x e \/ ~ same_slot t x e).
        { unfold same_slot. destruct (bytes_eq_dec (pkg_path (base t)) (pkg_path (base (n_ty e)))) as [E1|E1]; [|right; intros (K & _); exact (E1 K)].
          destruct (bytes_eq_dec (ty_name (base t)) (ty_name (base (n_ty e)))) as [E2|E2]; [|right; intros (_ & K & _); exact (E2 K)].
          destruct (bytes_eq_dec x (n_extra e)) as [E3|E3]; [left; auto|right; intros (_ & _ & K); exact (E3 K)]. }
        destruct Dec as [Y|Y]; [exists [], e, c; auto|]. inversion H as [? ? K|? ? K]; subst; [contradiction|].
        destruct (IH K) as (pre & e' & post & -> & P & Q). exists (e :: pre), e', post. split; [reflexivity|]. split; [constructor; auto|exact Q]. }
      destruct X as (pre & e & post & E & P & Q).
      assert (NN : find m c t x <> NotFound D).
      { unfold find_value. rewrite (storable_key t x S).
        destruct (lookup_exact c t x _ S N F (storable_key t x S)) as (_ & L). rewrite (L pre e post E P Q).
        destruct (n_var e) as [a|]; [|discriminate].
        repeat match goal with |- context [if ?b then _ else _] => destruct b end; try discriminate; destruct (m a) as [[?|]|]; discriminate. }
      split; [|exact NN]. destruct (find m c t x); congruence.
  Qed.
End Ctx.

Example C91_case :
  let T := TNamed (bs "app/models") (bs "User") 0 in
  let U := TNamed (bs "app/models") (bs "Users") 0 in
  let c := [Entry U [] (Some 4); Entry (TPtr T) (bs "admin") (Some 3); Entry T [] (Some 1); Entry T [] (Some 2)] in
  let m := fun a => match a with 1 => GData nat 10 | 2 => GData nat 20 | 3 => GPtr nat (Some 2) | _ => GData nat 0 end in
  let eqty := fun a b => true in
  (plain T /\ plain U) /\
  find_value nat eqty m c T [] = SetTo nat (GData nat 10) /\
  find_value nat eqty m c (TPtr T) [] = SetTo nat (GPtr nat (Some 1)) /\
  find_value nat eqty m c T (bs "admin") = SetTo nat (GData nat 20) /\
  find_value nat eqty m c T (bs "other") = NotFound nat.
Proof.
  cbv zeta. split; [|repeat split].
  split; (repeat split; try discriminate; cbn; intros H; repeat (destruct H as [H|H]; [discriminate H|]); exact H).
Qed.

Print Assumptions C91_find_partial.
Print Assumptions C91_store.
Print Assumptions C91_rejected.
Print Assumptions C91_unnamed_refuted.
Print Assumptions C91_local_refuted.
Print Assumptions C91_nil_refuted.
Print Assumptions C91_find_exact.
Print Assumptions C91_plain_slots.
Print Assumptions C91_must.
