(** Props_Ctl: C161, C162, controllers and concurrent requests. *)
From Coq Require Import List Bool Arith Lia.
Import ListNotations.
From Verif Require Import CtlModel.

(** ** Specification *)
(** the field reached by value, through structs only, has an inject tag with this name *)
Inductive tagged : list nat -> object -> nat -> Prop :=
| tag_here : forall i fs key v, nth_error fs i = Some (FInject key v) -> tagged [i] fs key
| tag_in : forall i p fs sub key, nth_error fs i = Some (FStruct sub) -> tagged p sub key -> tagged (i :: p) fs key.
(** the tagged fields behind a pointer that Apply still reaches, at most three structs deep *)
Inductive behind (h : heap) : nat -> object -> nat -> list nat -> nat -> Prop :=
| beh_here : forall n fs i a p key, nth_error fs i = Some (FRef (Some a)) -> tagged p (nth a h []) key -> List.length p <= n -> behind h (S n) fs a p key
| beh_struct : forall n fs i sub a p key, nth_error fs i = Some (FStruct sub) -> behind h n sub a p key -> behind h (S n) fs a p key
| beh_ref : forall n fs i b a p key, nth_error fs i = Some (FRef (Some b)) -> behind h n (nth b h []) a p key -> behind h (S n) fs a p key.
(** a method that uses no other fields than those of its own struct *)
Inductive own_code : code -> Prop :=
| own_end : own_code CEnd
| own_read : forall p k, (forall x, own_code (k x)) -> own_code (CRead (Own, p) k)
| own_write : forall p v k, own_code k -> own_code (CWrite (Own, p) v k).
(** a method that does not write the object at an address *)
Inductive code_spares (a : nat) : code -> Prop :=
| sp_end : code_spares a CEnd
| sp_read : forall l k, (forall x, code_spares a (k x)) -> code_spares a (CRead l k)
| sp_write : forall l v k, fst l <> At a -> code_spares a k -> code_spares a (CWrite l v k).
(** the registered struct stays as it is: it was registered by value or as nil, or nobody writes it *)
Definition undisturbed (h : heap) (qs : list request) (t : template) : Prop :=
  match t with
  | TPtr a => forall q, In q qs -> (forall p key, ~ behind h 3 (copy_of (q_template q) h) a p key) /\ code_spares a (q_code q)
  | _ => True
  end.

(** ** Facts *)
Lemma nth_upd {A} (l : list A) i j x : nth_error (upd l i x) j = if Nat.eqb i j then match nth_error l j with Some _ => Some x | None => None end else nth_error l j.
Proof. revert i j. induction l as [|y l IH]; intros [|i] [|j]; cbn; try reflexivity; [destruct (Nat.eqb i j); reflexivity|apply IH]. Qed.
Lemma upd_length {A} (l : list A) i x : List.length (upd l i x) = List.length l.
Proof. revert i. induction l as [|y l IH]; intros [|i]; cbn; congruence. Qed.
Lemma nth_upd_d {A} (l : list A) i j x d : nth j (upd l i x) d = if Nat.eqb i j && Nat.ltb j (List.length l) then x else nth j l d.
Proof. revert i j. induction l as [|y l IH]; intros [|i] [|j]; cbn; try reflexivity; [destruct (Nat.eqb i j); reflexivity|]. rewrite IH. reflexivity. Qed.
Lemma upd_map {A B} (f : A -> B) l i x y : nth_error l i = Some y -> f x = f y -> map f (upd l i x) = map f l.
Proof. revert i. induction l as [|z l IH]; intros [|i] H E; cbn in *; try discriminate; [injection H as ->; congruence|f_equal; eauto]. Qed.
(** contents aside *)
Fixpoint erase (f : field) : field :=
  match f with FInject k _ => FInject k 0 | FStruct fs => FStruct (map erase fs) | FRef a => FRef a | FPlain _ => FPlain 0 end.
Definition eraseo (fs : object) : object := map erase fs.
Lemma erase_write p : forall v fs, eraseo (write_in p v fs) = eraseo fs.
Proof.
  unfold eraseo. induction p as [|i p IH]; intros v fs; [reflexivity|]. cbn [write_in]. destruct (nth_error fs i) as [[k w|sub|a|w]|] eqn:E; try reflexivity.
  - destruct p; [|reflexivity]. eapply upd_map; [exact E|reflexivity].
  - eapply upd_map; [exact E|]. cbn. f_equal. apply IH.
  - destruct p; [|reflexivity]. eapply upd_map; [exact E|reflexivity].
Qed.
Lemma nth_erase a h : nth a (map eraseo h) [] = eraseo (nth a h []).
Proof. change (@nil field) with (eraseo []) at 1. apply map_nth. Qed.
Lemma targets_erase l : forall h pl path fs, targets_lvl l (map eraseo h) pl path (eraseo fs) = targets_lvl l h pl path fs.
Proof.
  induction l as [|l IH]; intros h pl path fs; cbn [targets_lvl]; generalize 0 as i; induction fs as [|f fs IHf]; intros i; cbn [eraseo map]; try reflexivity; fold (eraseo fs); rewrite IHf; f_equal; destruct f as [k v|sub|[a|]|v]; cbn [erase]; try reflexivity.
  - fold (eraseo sub). apply IH.
  - rewrite nth_erase. apply IH.
Qed.
Lemma targets_shape l h h' pl path fs fs' : map eraseo h = map eraseo h' -> eraseo fs = eraseo fs' -> targets_lvl l h pl path fs = targets_lvl l h' pl path fs'.
Proof. intros E1 E2. rewrite <- targets_erase, <- (targets_erase l h'), E1, E2. reflexivity. Qed.
Lemma read_write_same p : forall v fs, read_in p fs <> None -> read_in p (write_in p v fs) = Some v.
Proof.
  induction p as [|i p IH]; intros v fs H; [exfalso; apply H; reflexivity|]. cbn [read_in write_in] in *. destruct (nth_error fs i) as [[k w|sub|a|w]|] eqn:E; try (exfalso; apply H; reflexivity).
  - destruct p; [|exfalso; apply H; reflexivity]. rewrite nth_upd, Nat.eqb_refl, E. reflexivity.
  - rewrite nth_upd, Nat.eqb_refl, E. apply IH. exact H.
  - destruct p; [|exfalso; apply H; reflexivity]. rewrite nth_upd, Nat.eqb_refl, E. reflexivity.
Qed.
Lemma read_write_other p : forall p' v fs, p <> p' -> read_in p (write_in p' v fs) = read_in p fs.
Proof.
  induction p as [|i p IH]; intros p' v fs N; [reflexivity|]. destruct p' as [|j p']; [reflexivity|]. cbn [read_in write_in]. destruct (Nat.eqb_spec j i) as [->|Nij].
  - destruct (nth_error fs i) as [[k w|sub|a|w]|] eqn:E; try (rewrite E; reflexivity).
    + destruct p'; [|rewrite E; reflexivity]. rewrite nth_upd, Nat.eqb_refl, E. destruct p; [congruence|reflexivity].
    + rewrite nth_upd, Nat.eqb_refl, E. apply IH. congruence.
    + destruct p'; [|rewrite E; reflexivity]. rewrite nth_upd, Nat.eqb_refl, E. destruct p; [congruence|reflexivity].
  - assert (X : forall x, nth_error (upd fs j x) i = nth_error fs i) by (intros x; rewrite nth_upd; destruct (Nat.eqb_spec j i); [congruence|reflexivity]).
    destruct (nth_error fs j) as [[k w|sub|a|w]|]; try reflexivity; try (destruct p'; [rewrite X|]; reflexivity). rewrite X. reflexivity.
Qed.
Lemma tagged_erase p : forall fs fs' key, eraseo fs = eraseo fs' -> tagged p fs key -> tagged p fs' key.
Proof.
  induction p as [|i p IH]; intros fs fs' key E H; [inversion H|].
  assert (X : forall f, nth_error fs i = Some f -> exists f', nth_error fs' i = Some f' /\ erase f' = erase f).
  { intros f Hf. pose proof (map_nth_error erase i fs Hf) as M. unfold eraseo in E. rewrite E in M. destruct (nth_error fs' i) as [f'|] eqn:E'; [|rewrite (proj2 (nth_error_None (map erase fs') i)) in M; [discriminate|rewrite map_length; apply nth_error_None; exact E']]. exists f'. split; [reflexivity|]. rewrite (map_nth_error erase i fs' E') in M. congruence. }
  inversion H as [? ? ? v Hi|? ? ? sub ? Hi Hp]; subst.
  - destruct (X _ Hi) as (f' & F1 & F2). destruct f'; try discriminate F2. cbn in F2. injection F2 as ->. econstructor. exact F1.
  - destruct (X _ Hi) as (f' & F1 & F2). destruct f' as [|sub'| |]; try discriminate F2. cbn in F2. injection F2 as F2. eapply tag_in; [exact F1|]. eapply IH; [|exact Hp]. unfold eraseo. congruence.
Qed.
Lemma tagged_read p : forall fs key, tagged p fs key -> read_in p fs <> None.
Proof. induction p as [|i p IH]; intros fs key H; inversion H as [? ? ? v Hi|? ? ? sub ? Hi Hp]; subst; cbn [read_in]; rewrite Hi; [discriminate|]. eapply IH. exact Hp. Qed.
Lemma tagged_fun p : forall fs k1 k2, tagged p fs k1 -> tagged p fs k2 -> k1 = k2.
Proof.
  induction p as [|i p IH]; intros fs k1 k2 H1 H2; [inversion H1|]. inversion H1 as [? ? ? v Hi|? ? ? sub ? Hi Hp]; subst; inversion H2 as [? ? ? v2 Hi2|? ? ? sub2 ? Hi2 Hp2]; subst; try congruence.
  rewrite Hi in Hi2. injection Hi2 as <-. eapply IH; eassumption.
Qed.
(** what the list of fields to fill contains *)
Lemma tagged_tail j q f fs key : tagged (S j :: q) (f :: fs) key <-> tagged (j :: q) fs key.
Proof. split; intros H; inversion H as [? ? ? v Hi|? ? ? sub ? Hi Hp]; subst; [eapply tag_here|eapply tag_in|eapply tag_here|eapply tag_in]; try eassumption; exact Hi. Qed.
Lemma tagged_head q f fs key : tagged (0 :: q) (f :: fs) key <-> (q = [] /\ exists v, f = FInject key v) \/ (exists sub, f = FStruct sub /\ tagged q sub key).
Proof.
  split.
  - intros H. inversion H as [? ? ? v Hi|? ? ? sub ? Hi Hp]; subst; cbn in Hi; injection Hi as ->; [left; split; [reflexivity|exists v; reflexivity]|right; exists sub; auto].
  - intros [(-> & v & ->)|(sub & -> & H)]; [eapply tag_here; reflexivity|eapply tag_in; [reflexivity|exact H]].
Qed.
Lemma behind_cons h n f fs a p key : behind h (S n) (f :: fs) a p key <->
  (f = FRef (Some a) /\ tagged p (nth a h []) key /\ List.length p <= n) \/ (exists sub, f = FStruct sub /\ behind h n sub a p key) \/ (exists b, f = FRef (Some b) /\ behind h n (nth b h []) a p key) \/ behind h (S n) fs a p key.
Proof.
  split.
  - intros H. inversion H as [? ? i ? ? ? Hi Ht L|? ? i sub ? ? ? Hi Hb|? ? i b ? ? ? Hi Hb]; subst; destruct i as [|i]; cbn in Hi.
    + injection Hi as ->. left. auto.
    + right. right. right. eapply beh_here; eassumption.
    + injection Hi as ->. right. left. exists sub. auto.
    + right. right. right. eapply beh_struct; eassumption.
    + injection Hi as ->. right. right. left. exists b. auto.
    + right. right. right. eapply beh_ref; eassumption.
  - intros [(-> & Ht & L)|[(sub & -> & H)|[(b & -> & H)|H]]].
    + apply (beh_here h n _ 0); [reflexivity|exact Ht|exact L].
    + apply (beh_struct h n _ 0 sub); [reflexivity|exact H].
    + apply (beh_ref h n _ 0 b); [reflexivity|exact H].
    + inversion H as [? ? i ? ? ? Hi Ht L|? ? i sub ? ? ? Hi Hb|? ? i b ? ? ? Hi Hb]; subst; [apply (beh_here h n _ (S i))|apply (beh_struct h n _ (S i) sub)|apply (beh_ref h n _ (S i) b)]; assumption.
Qed.
Lemma tagged_nonempty p fs key : tagged p fs key -> exists i q, p = i :: q.
Proof. intros H. inversion H; subst; eauto. Qed.
Lemma nil_none {A} i : nth_error (@nil A) i = None.
Proof. destruct i; reflexivity. Qed.
Lemma targets_in l : forall h pl path fs pl' p key, In ((pl', p), key) (targets_lvl l h pl path fs) <->
  (pl' = pl /\ exists q, p = path ++ q /\ tagged q fs key /\ List.length q <= S l) \/ (exists a, pl' = At a /\ behind h (S l) fs a p key).
Proof.
  induction l as [l IH] using lt_wf_ind. intros h pl path fs pl' p key.
  set (go := fix go (i : nat) (fs : object) : list (loc * nat) :=
     match fs with
     | [] => []
     | f :: fs' =>
         (match f with
          | FInject key _ => [((pl, path ++ [i]), key)]
          | FStruct sub => match l with O => [] | S l => targets_lvl l h pl (path ++ [i]) sub end
          | FRef (Some a) => match l with O => [] | S l => targets_lvl l h (At a) [] (nth a h []) end
          | FRef None | FPlain _ => []
          end) ++ go (S i) fs'
     end).
  assert (Unf : targets_lvl l h pl path fs = go 0 fs) by (destruct l; reflexivity). rewrite Unf. clear Unf.
  assert (G : forall fs i, In ((pl', p), key) (go i fs) <-> (pl' = pl /\ exists j q, p = path ++ (i + j) :: q /\ tagged (j :: q) fs key /\ List.length q <= l) \/ (exists a, pl' = At a /\ behind h (S l) fs a p key)).
  { clear fs. induction fs as [|f fs IHf]; intros i.
    - cbn [go]. split; [intros []|]. intros [(_ & j & q & _ & H & _)|(a & _ & H)].
      + inversion H as [? ? ? v Hi|? ? ? sub ? Hi Hp]; subst; rewrite nil_none in Hi; discriminate.
      + inversion H as [? ? k ? ? ? Hi Ht L|? ? k sub ? ? ? Hi Hb|? ? k b ? ? ? Hi Hb]; subst; rewrite nil_none in Hi; discriminate.
    - cbn [go]. rewrite in_app_iff, IHf.
      assert (Head : In ((pl', p), key) (match f with
          | FInject key _ => [((pl, path ++ [i]), key)]
          | FStruct sub => match l with O => [] | S l => targets_lvl l h pl (path ++ [i]) sub end
          | FRef (Some a) => match l with O => [] | S l => targets_lvl l h (At a) [] (nth a h []) end
          | FRef None | FPlain _ => [] end) <->
        (pl' = pl /\ exists q, p = path ++ i :: q /\ tagged (0 :: q) (f :: fs) key /\ List.length q <= l) \/
        (exists a, pl' = At a /\ ((f = FRef (Some a) /\ tagged p (nth a h []) key /\ List.length p <= l) \/ (exists sub, f = FStruct sub /\ behind h l sub a p key) \/ (exists b, f = FRef (Some b) /\ behind h l (nth b h []) a p key)))).
      { destruct f as [k v|sub|[b|]|v].
        - split.
          + intros [E|[]]. injection E as <- <- <-. left. split; [reflexivity|]. exists []. split; [reflexivity|]. split; [apply tagged_head; left; split; [reflexivity|exists v; reflexivity]|cbn; lia].
          + intros [(-> & q & -> & H & _)|(a & -> & [(X & _)|[(s & X & _)|(b & X & _)]])]; try discriminate X. apply tagged_head in H as [(-> & v' & E)|(s & E & _)]; [|discriminate E]. injection E as -> ->. left. reflexivity.
        - destruct l as [|l].
          + split; [intros []|]. intros [(-> & q & -> & H & L)|(a & -> & [(X & _)|[(s & _ & H)|(b & X & _)]])]; try discriminate X; [|inversion H]. apply tagged_head in H as [(-> & v' & E)|(s & E & H)]; [discriminate E|]. apply tagged_nonempty in H as (x & y & ->). cbn in L. lia.
          + rewrite (IH l) by lia. split.
            * intros [(-> & q & -> & H & L)|(a & -> & H)].
              -- left. split; [reflexivity|]. exists q. rewrite <- app_assoc. split; [reflexivity|]. split; [apply tagged_head; right; exists sub; auto|exact L].
              -- right. exists a. split; [reflexivity|]. right. left. exists sub. auto.
            * intros [(-> & q & -> & H & L)|(a & -> & [(X & _)|[(s & X & H)|(b & X & _)]])]; try discriminate X.
              -- apply tagged_head in H as [(-> & v' & E)|(s & E & H)]; [discriminate E|]. injection E as <-. left. split; [reflexivity|]. exists q. rewrite <- app_assoc. auto.
              -- injection X as <-. right. exists a. auto.
        - destruct l as [|l].
          + split; [intros []|]. intros [(-> & q & -> & H & L)|(a & -> & [(X & H & L)|[(s & X & _)|(b' & X & H)]])]; try discriminate X; [|apply tagged_nonempty in H as (x & y & ->); cbn in L; lia|inversion H]. apply tagged_head in H as [(-> & v' & E)|(s & E & _)]; discriminate E.
          + rewrite (IH l) by lia. split.
            * intros [(-> & q & -> & H & L)|(a & -> & H)].
              -- right. exists b. split; [reflexivity|]. left. cbn [List.app]. auto.
              -- right. exists a. split; [reflexivity|]. right. right. exists b. auto.
            * intros [(-> & q & -> & H & L)|(a & -> & [(X & H & L)|[(s & X & _)|(b' & X & H)]])]; try discriminate X.
              -- apply tagged_head in H as [(-> & v' & E)|(s & E & _)]; discriminate E.
              -- injection X as <-. left. split; [reflexivity|]. exists p. auto.
              -- injection X as <-. right. exists a. auto.
        - split; [intros []|]. intros [(-> & q & -> & H & L)|(a & -> & [(X & _)|[(s & X & _)|(b' & X & _)]])]; try discriminate X. apply tagged_head in H as [(-> & v' & E)|(s & E & _)]; discriminate E.
        - split; [intros []|]. intros [(-> & q & -> & H & L)|(a & -> & [(X & _)|[(s & X & _)|(b' & X & _)]])]; try discriminate X. apply tagged_head in H as [(-> & v' & E)|(s & E & _)]; discriminate E. }
      rewrite Head. clear Head. split.
      + intros [[(-> & q & -> & H & L)|(a & -> & H)]|[(-> & j & q & -> & H & L)|(a & -> & H)]].
        * left. split; [reflexivity|]. exists 0, q. rewrite Nat.add_0_r. auto.
        * right. exists a. split; [reflexivity|]. apply behind_cons. intuition.
        * left. split; [reflexivity|]. exists (S j), q. rewrite Nat.add_succ_r. split; [reflexivity|]. split; [apply tagged_tail; exact H|exact L].
        * right. exists a. split; [reflexivity|]. apply behind_cons. intuition.
      + intros [(-> & [|j] & q & -> & H & L)|(a & -> & H)].
        * left. left. split; [reflexivity|]. exists q. rewrite Nat.add_0_r. auto.
        * right. left. split; [reflexivity|]. exists j, q. rewrite Nat.add_succ_r. split; [reflexivity|]. split; [apply tagged_tail in H; exact H|exact L].
        * apply behind_cons in H as [H|[H|[H|H]]]; [left; right; exists a; auto..|right; right; exists a; auto]. }
  rewrite G. split.
  - intros [(-> & j & q & -> & H & L)|H]; [|right; exact H]. left. split; [reflexivity|]. exists (j :: q). cbn. split; [reflexivity|]. split; [exact H|lia].
  - intros [(-> & q & -> & H & L)|H]; [|right; exact H]. left. split; [reflexivity|]. destruct (tagged_nonempty _ _ _ H) as (j & q' & ->). exists j, q'. cbn in L. split; [reflexivity|]. split; [exact H|lia].
Qed.
Local Arguments targets : simpl never.
Local Arguments targets_lvl : simpl never.
Lemma behind_tagged h n fs a p key : behind h n fs a p key -> tagged p (nth a h []) key.
Proof. induction 1; assumption. Qed.
Lemma upd_none {A} (l : list A) i x : nth_error l i = None -> upd l i x = l.
Proof. revert i. induction l as [|y l IH]; intros [|i] H; cbn in *; try reflexivity; try discriminate. f_equal. auto. Qed.
Definition same_shape (h h' : heap) : Prop := map eraseo h = map eraseo h'.
Lemma upd_shape h a p v : same_shape (upd h a (write_in p v (nth a h []))) h.
Proof.
  unfold same_shape. destruct (nth_error h a) as [o|] eqn:E; [|rewrite (upd_none _ _ _ E); reflexivity]. eapply upd_map; [exact E|]. rewrite erase_write. f_equal. apply nth_error_nth. exact E.
Qed.
Lemma write_shape l v own h : same_shape (snd (mem_write l v own h)) h.
Proof. destruct l as ([|a] & p); [reflexivity|apply upd_shape]. Qed.
Lemma shape_nth h h' a : same_shape h h' -> eraseo (nth a h []) = eraseo (nth a h' []).
Proof. intros E. rewrite <- !nth_erase. unfold same_shape in E. rewrite E. reflexivity. Qed.
Lemma step_shape q pc h : same_shape (snd (step q pc h)) h.
Proof.
  destruct pc as [|own [|(l & key) todo]|own [|l k|l v k] seen|seen|]; cbn; try reflexivity.
  - destruct (q_inject q key) as [v| |]; [|reflexivity..]. pose proof (write_shape l v own h) as X. destruct (mem_write l v own h). exact X.
  - pose proof (write_shape l v own h) as X. destruct (mem_write l v own h). exact X.
Qed.
Lemma copy_shape t h h' : same_shape h h' -> eraseo (copy_of t h) = eraseo (copy_of t h').
Proof. intros E. destruct t; cbn; [reflexivity|apply shape_nth; exact E|reflexivity]. Qed.
Lemma copy_targets t h h' : same_shape h h' -> targets h (copy_of t h) = targets h' (copy_of t h').
Proof. intros E. apply targets_shape; [exact E|apply copy_shape; exact E]. Qed.

(** an address nobody reaches *)
Definition spared (h : heap) (qs : list request) (a : nat) : Prop :=
  forall q, In q qs -> (forall p key, ~ behind h 3 (copy_of (q_template q) h) a p key) /\ code_spares a (q_code q).
Definition pc_spares (h : heap) (a : nat) (q : request) (pc : rpc) : Prop :=
  match pc with
  | Filling _ todo => exists done, targets h (copy_of (q_template q) h) = done ++ todo
  | Running _ c _ => code_spares a c
  | _ => True
  end.
Lemma step_spares h0 a q pc h : (forall p key, ~ behind h0 3 (copy_of (q_template q) h0) a p key) -> code_spares a (q_code q) -> same_shape h h0 -> pc_spares h0 a q pc ->
  pc_spares h0 a q (fst (step q pc h)) /\ nth a (snd (step q pc h)) [] = nth a h [].
Proof.
  intros NB CS Sh P. destruct pc as [|own [|(l & key) todo]|own [|l k|l v k] seen|seen|]; cbn in *; auto.
  - split; [|reflexivity]. exists []. symmetry. apply copy_targets. exact Sh.
  - destruct P as (done & E). assert (Nl : fst l <> At a).
    { intros X. destruct l as (pl & p). cbn in X. subst pl. apply (NB p key). assert (I : In ((At a, p), key) (targets h0 (copy_of (q_template q) h0))) by (rewrite E; apply in_or_app; right; left; reflexivity).
      apply targets_in in I as [(X & _)|(b & X & H)]; [discriminate X|]. injection X as <-. exact H. }
    destruct (q_inject q key) as [v| |]; cbn; [|split; [exists (done ++ [(l, key)]); rewrite <- app_assoc; exact E|reflexivity]|auto].
    destruct l as ([|b] & p); cbn in *; (split; [eexists (done ++ [(_, key)]); rewrite <- app_assoc; exact E|]); [reflexivity|]. rewrite nth_upd_d. destruct (Nat.eqb_spec b a); [congruence|reflexivity].
  - inversion P as [|? ? X|]; subst. split; [apply X|reflexivity].
  - inversion P as [| |? ? ? Nl X]; subst. destruct l as ([|b] & p); cbn in *; (split; [exact X|]); [reflexivity|]. rewrite nth_upd_d. destruct (Nat.eqb_spec b a); [congruence|reflexivity].
Qed.
Definition inv (h0 : heap) (qs : list request) (s : state) : Prop :=
  same_shape (snd s) h0 /\ List.length (fst s) = List.length qs.
Lemma sched_inv h0 qs s r : inv h0 qs s -> inv h0 qs (sched_step qs s r).
Proof.
  intros (Sh & L). unfold sched_step. destruct (nth_error qs r) as [q|]; [|split; assumption]. destruct (nth_error (fst s) r) as [pc|]; [|split; assumption]. pose proof (step_shape q pc (snd s)) as X. destruct (step q pc (snd s)) as (pc' & h'). split; [|cbn; rewrite upd_length; exact L]. cbn in *. unfold same_shape in *. congruence.
Qed.
Lemma start_inv h qs : inv h qs (map (fun _ => Start) qs, h).
Proof. split; [reflexivity|cbn; apply map_length]. Qed.
Lemma fold_inv h0 qs sched : forall s, inv h0 qs s -> inv h0 qs (fold_left (sched_step qs) sched s).
Proof. induction sched as [|r sched IH]; intros s H; [exact H|]. cbn. apply IH. apply sched_inv. exact H. Qed.
Lemma sched_spares h0 qs a s r : spared h0 qs a -> inv h0 qs s -> (forall i q pc, nth_error qs i = Some q -> nth_error (fst s) i = Some pc -> pc_spares h0 a q pc) ->
  (forall i q pc, nth_error qs i = Some q -> nth_error (fst (sched_step qs s r)) i = Some pc -> pc_spares h0 a q pc) /\ nth a (snd (sched_step qs s r)) [] = nth a (snd s) [].
Proof.
  intros Sp (Sh & L) P. unfold sched_step. destruct (nth_error qs r) as [q|] eqn:Eq; [|auto]. destruct (nth_error (fst s) r) as [pc|] eqn:Ep; [|auto].
  destruct (Sp q (nth_error_In _ _ Eq)) as (NB & CS). destruct (step_spares h0 a q pc (snd s) NB CS Sh (P _ _ _ Eq Ep)) as (X & Y). destruct (step q pc (snd s)) as (pc' & h'). cbn in *. split; [|exact Y].
  intros i qi pci Ei Epi. rewrite nth_upd in Epi. destruct (Nat.eqb_spec r i) as [->|N]; [|eauto]. rewrite Ep in Epi. injection Epi as <-. assert (qi = q) as -> by congruence. exact X.
Qed.
Lemma fold_spares h0 qs a sched : spared h0 qs a -> forall s, inv h0 qs s -> (forall i q pc, nth_error qs i = Some q -> nth_error (fst s) i = Some pc -> pc_spares h0 a q pc) -> nth a (snd (fold_left (sched_step qs) sched s)) [] = nth a (snd s) [].
Proof.
  intros Sp. induction sched as [|r sched IH]; intros s I P; [reflexivity|]. cbn. destruct (sched_spares h0 qs a s r Sp I P) as (P' & E). rewrite IH; [exact E|apply sched_inv; exact I|exact P'].
Qed.
Lemma start_spares h a qs : forall i q pc, nth_error qs i = Some q -> nth_error (fst (map (fun _ : request => Start) qs, h)) i = Some pc -> pc_spares h a q pc.
Proof. intros i q pc E X. cbn in X. rewrite (map_nth_error _ i qs E) in X. injection X as <-. exact Logic.I. Qed.

(** ** C161 *)
(** structs that no request reaches through a pointer stay as they are *)
Theorem C161_unreached_structs_stay : forall qs h a sched, spared h qs a -> nth a (snd (run qs h sched)) [] = nth a h [].
Proof. intros qs h a sched Sp. unfold run. rewrite (fold_spares h qs a sched Sp _ (start_inv h qs) (start_spares h a qs)). reflexivity. Qed.
Lemma template_stays qs h t sched : undisturbed h qs t -> copy_of t (snd (run qs h sched)) = copy_of t h.
Proof. destruct t; cbn; intros U; [reflexivity| |reflexivity]. apply C161_unreached_structs_stay. exact U. Qed.

(** the request's own struct while it is filled *)
Definition fill1 (inj : nat -> lookup) (own : object) (t : loc * nat) : object :=
  match t with ((Own, p), key) => match inj key with LSet v => write_in p v own | _ => own end | _ => own end.
Definition pc_own (h : heap) (q : request) (pc : rpc) : Prop :=
  match pc with
  | Filling own todo => exists done, targets h (copy_of (q_template q) h) = done ++ todo /\ own = fold_left (fill1 (q_inject q)) done (copy_of (q_template q) h)
  | _ => True
  end.
Lemma step_own h0 q pc h : same_shape h h0 -> copy_of (q_template q) h = copy_of (q_template q) h0 -> pc_own h0 q pc -> pc_own h0 q (fst (step q pc h)).
Proof.
  intros Sh C P. destruct pc as [|own [|(l & key) todo]|own [|l k|l v k] seen|seen|]; cbn in *; auto.
  - exists []. split; [symmetry; apply copy_targets; exact Sh|]. exact C.
  - destruct P as (done & E1 & E2). destruct (q_inject q key) as [v| |] eqn:EI; cbn; auto.
    + destruct l as ([|b] & p); cbn; (eexists (done ++ [(_, key)]); split; [rewrite <- app_assoc; exact E1|]); rewrite fold_left_app; cbn; [rewrite EI|]; congruence.
    + exists (done ++ [(l, key)]). split; [rewrite <- app_assoc; exact E1|]. rewrite fold_left_app. cbn. destruct l as ([|b] & p); cbn; [rewrite EI|]; exact E2.
  - destruct (mem_write l v own h); exact Logic.I.
Qed.
Lemma run_snoc qs h sched r : run qs h (sched ++ [r]) = sched_step qs (run qs h sched) r.
Proof. unfold run. rewrite fold_left_app. reflexivity. Qed.
Lemma run_inv qs h sched : inv h qs (run qs h sched).
Proof. apply fold_inv, start_inv. Qed.
Lemma run_own qs h r q : nth_error qs r = Some q -> undisturbed h qs (q_template q) -> forall sched pc, nth_error (fst (run qs h sched)) r = Some pc -> pc_own h q pc.
Proof.
  intros Eq U. induction sched as [|i sched IH] using rev_ind; intros pc Ep.
  - unfold run in Ep. cbn in Ep. rewrite (map_nth_error _ r qs Eq) in Ep. injection Ep as <-. exact Logic.I.
  - rewrite run_snoc in Ep. unfold sched_step in Ep. destruct (nth_error qs i) as [qi|] eqn:Ei; [|eauto]. destruct (nth_error (fst (run qs h sched)) i) as [pci|] eqn:Epi; [|eauto].
    destruct (step qi pci (snd (run qs h sched))) as (pc' & h') eqn:Es. cbn in Ep. rewrite nth_upd in Ep. destruct (Nat.eqb_spec i r) as [->|N]; [|eauto]. rewrite Epi in Ep. injection Ep as <-.
    assert (qi = q) as -> by congruence. replace pc' with (fst (step q pci (snd (run qs h sched)))) by (rewrite Es; reflexivity). apply step_own; [apply run_inv|apply template_stays; exact U|apply IH; exact Epi].
Qed.
Lemma fill1_shape inj own t : eraseo (fill1 inj own t) = eraseo own.
Proof. destruct t as (([|a] & p) & key); cbn; [|reflexivity]. destruct (inj key); [apply erase_write|reflexivity..]. Qed.
Lemma fill_read inj p : forall done own,
  (forall p' k, In ((Own, p'), k) done -> tagged p' own k) ->
  read_in p (fold_left (fill1 inj) done own) =
  match find (fun t => match fst t with (Own, p') => if list_eq_dec Nat.eq_dec p' p then true else false | _ => false end) done with
  | Some (_, key) => match inj key with LSet v => Some v | _ => read_in p own end
  | None => read_in p own
  end.
Proof.
  intros done. induction done as [|t done IH] using rev_ind; intros own T; [reflexivity|].
  rewrite fold_left_app. cbn [fold_left]. assert (T' : forall p' k, In (Own, p', k) done -> tagged p' own k) by (intros p' k H; apply T, in_or_app; left; exact H).
  assert (Sh : eraseo (fold_left (fill1 inj) done own) = eraseo own) by (clear; revert own; induction done as [|t done IH]; intros own; [reflexivity|cbn; rewrite IH; apply fill1_shape]).
  specialize (IH own T'). set (o1 := fold_left (fill1 inj) done own) in Sh, IH.
  match goal with |- read_in p (fill1 inj ?x t) = _ => change (read_in p (fill1 inj o1 t) = match find (fun t => match fst t with (Own, p') => if list_eq_dec Nat.eq_dec p' p then true else false | _ => false end) (done ++ [t]) with
  | Some (_, key) => match inj key with LSet v => Some v | _ => read_in p own end
  | None => read_in p own end) end. clearbody o1.
  assert (F : forall f, find f (done ++ [t]) = match find f done with Some x => Some x | None => if f t then Some t else None end) by (intros f; clear; induction done as [|x done IH]; [reflexivity|cbn; destruct (f x); auto]).
  rewrite F. clear F. destruct t as (([|a] & p') & key).
  2:{ cbn [fill1]. rewrite IH. destruct (find _ done) as [(l & k)|]; reflexivity. }
  cbn [fill1 fst]. destruct (find _ done) as [(l & k)|] eqn:Ef.
  - destruct (find_some _ _ Ef) as (I1 & I2). cbn in I2. destruct l as ([|b] & p2); [|discriminate I2]. cbn in I2. destruct (list_eq_dec Nat.eq_dec p2 p) as [->|]; [|discriminate I2].
    destruct (inj key) as [v| |] eqn:EI; try exact IH. destruct (list_eq_dec Nat.eq_dec p' p) as [->|N]; [|rewrite read_write_other by congruence; exact IH].
    assert (key = k) as ->. { apply (tagged_fun p own); [apply T, in_or_app; right; left; reflexivity|apply T'; exact I1]. }
    rewrite EI in IH |- *. apply read_write_same. rewrite IH. discriminate.
  - destruct (list_eq_dec Nat.eq_dec p' p) as [->|N].
    + destruct (inj key) as [v| |] eqn:EI; try exact IH. apply read_write_same. rewrite IH. eapply tagged_read. apply T, in_or_app. right. left. reflexivity.
    + destruct (inj key) as [v| |] eqn:EI; try exact IH. rewrite read_write_other by congruence. exact IH.
Qed.
(** when its method is about to run, the fields of the request's own struct, at most three structs deep, hold what was found for this request, and all others what was registered - whatever other requests do *)
Theorem C161_own_fields : forall qs h sched r q own, nth_error qs r = Some q -> undisturbed h qs (q_template q) -> nth_error (fst (run qs h sched)) r = Some (Filling own []) ->
  let registered := copy_of (q_template q) h in
  forall p, (forall key, tagged p registered key -> List.length p <= 3 -> read_in p own = match q_inject q key with LSet v => Some v | _ => read_in p registered end) /\
            ((forall key, tagged p registered key -> 3 < List.length p) -> read_in p own = read_in p registered).
Proof.
  intros qs h sched r q own Eq U Ep registered p. destruct (run_own qs h r q Eq U sched _ Ep) as (done & E1 & E2). rewrite app_nil_r in E1. subst own. fold registered in E1 |- *.
  assert (T : forall p' k, In ((Own, p'), k) done <-> tagged p' registered k /\ List.length p' <= 3).
  { intros p' k. rewrite <- E1. unfold targets. rewrite targets_in. split; [intros [(_ & x & -> & H & L)|(a & X & _)]; [exact (conj H L)|discriminate X]|]. intros (H & L). left. split; [reflexivity|]. exists p'. auto. }
  rewrite (fill_read (q_inject q) p done registered) by (intros p' k H; apply T in H; apply H).
  match goal with |- context [find ?f ?d] => destruct (find f d) as [(l & k)|] eqn:Ef end.
  - destruct (find_some _ _ Ef) as (I1 & I2). cbn in I2. destruct l as ([|b] & p2); [|discriminate I2]. destruct (list_eq_dec Nat.eq_dec p2 p) as [->|]; [|discriminate I2]. apply T in I1 as (I1 & I3). split.
    + intros key H _. rewrite (tagged_fun _ _ _ _ H I1). reflexivity.
    + intros X. specialize (X k I1). lia.
  - split; [|reflexivity]. intros key H L. exfalso. assert (I1 : In ((Own, p), key) done) by (apply T; auto). apply (find_none _ _ Ef) in I1. cbn in I1. destruct (list_eq_dec Nat.eq_dec p p); congruence.
Qed.
(** a method that only uses its own struct does, and sees, in any schedule what it does alone *)
Definition solo (q : request) (h : heap) (n : nat) : rpc := Nat.iter n (fun pc => fst (step q pc h)) Start.
Definition pc_private (pc : rpc) : Prop := match pc with Running _ c _ => own_code c | _ => True end.
Lemma step_private q pc h h' : own_code (q_code q) -> same_shape h h' -> copy_of (q_template q) h = copy_of (q_template q) h' -> pc_private pc ->
  fst (step q pc h) = fst (step q pc h') /\ pc_private (fst (step q pc h)).
Proof.
  intros OC Sh C P. destruct pc as [|own [|(l & key) todo]|own [|l k|l v k] seen|seen|]; cbn in *; auto.
  - split; [|exact Logic.I]. rewrite C. f_equal. rewrite <- C at 1. rewrite <- C. rewrite C at 2. apply targets_shape; [exact Sh|congruence].
  - destruct (q_inject q key) as [v| |]; auto. destruct l as ([|b] & p); cbn; auto.
  - inversion P as [|p ? X|]; subst. cbn. split; [reflexivity|apply X].
  - inversion P as [| |p ? ? X]; subst. cbn. auto.
Qed.
Lemma run_solo qs h r q : nth_error qs r = Some q -> undisturbed h qs (q_template q) -> own_code (q_code q) ->
  forall sched, nth_error (fst (run qs h sched)) r = Some (solo q h (count_occ Nat.eq_dec sched r)) /\ pc_private (solo q h (count_occ Nat.eq_dec sched r)).
Proof.
  intros Eq U OC. induction sched as [|i sched (IH & PI)] using rev_ind.
  - cbn. rewrite (map_nth_error _ r qs Eq). split; [reflexivity|exact Logic.I].
  - rewrite run_snoc, count_occ_app. cbn [count_occ]. unfold sched_step. destruct (Nat.eq_dec i r) as [->|N].
    + rewrite Eq, IH. rewrite Nat.add_1_r. change (solo q h (S (count_occ Nat.eq_dec sched r))) with (fst (step q (solo q h (count_occ Nat.eq_dec sched r)) h)). set (pc := solo q h (count_occ Nat.eq_dec sched r)) in *.
      destruct (step_private q pc (snd (run qs h sched)) h OC ltac:(apply run_inv) (template_stays qs h _ sched U) PI) as (X & Y). destruct (step q pc (snd (run qs h sched))) as (pc' & h'). cbn [fst snd] in X, Y |- *.
      rewrite nth_upd, Nat.eqb_refl, IH. rewrite <- X. auto.
    + rewrite Nat.add_0_r. destruct (nth_error qs i) as [qi|]; [|auto]. destruct (nth_error (fst (run qs h sched)) i) as [pci|]; [|auto]. destruct (step qi pci (snd (run qs h sched))) as (pc' & h'). cbn. rewrite nth_upd. destruct (Nat.eqb_spec i r); [congruence|]. auto.
Qed.
Theorem C161_as_alone : forall qs h sched r q, nth_error qs r = Some q -> undisturbed h qs (q_template q) -> own_code (q_code q) ->
  nth_error (fst (run qs h sched)) r = nth_error (fst (run [q] h (repeat 0 (count_occ Nat.eq_dec sched r)))) 0.
Proof.
  intros qs h sched r q Eq U OC. rewrite (proj1 (run_solo qs h r q Eq U OC sched)). assert (U' : undisturbed h [q] (q_template q)).
  { destruct (q_template q) eqn:E; cbn in *; auto. intros q' [<-|[]]. apply U. eapply nth_error_In. exact Eq. }
  rewrite (proj1 (run_solo [q] h 0 q eq_refl U' OC _)). rewrite count_occ_repeat_eq by reflexivity. reflexivity.
Qed.
Example C161_case : let q v := Req (TVal [FInject 7 0; FStruct [FInject 8 0; FPlain 5]]) (fun k => LSet (v + k)) (CRead (Own, [1; 0]) (fun _ => CEnd)) in
  nth_error (fst (run [q 100; q 200] [] [0; 1; 1; 1; 0; 0; 1; 0; 0; 0])) 0 = Some (Answered [Some 108]) /\ undisturbed [] [q 100; q 200] (q_template (q 100)) /\ own_code (q_code (q 100)).
Proof. cbv zeta. split; [reflexivity|]. split; [exact Logic.I|]. constructor. intros x. constructor. Qed.

(** a lookup that fails: the name of some tagged field that Apply reaches *)
Definition reached (h : heap) (registered : object) (key : nat) : Prop :=
  (exists p, tagged p registered key /\ List.length p <= 3) \/ (exists a p, behind h 3 registered a p key).
Lemma reached_targets h fs key : reached h fs key <-> exists l, In (l, key) (targets h fs).
Proof.
  unfold reached, targets. split.
  - intros [(p & H & L)|(a & p & H)]; [exists (Own, p)|exists (At a, p)]; apply targets_in; [left; split; [reflexivity|]; exists p; auto|right; exists a; auto].
  - intros ((pl & p) & H). apply targets_in in H as [(_ & q & _ & H & L)|(a & _ & H)]; [left; exists q; auto|right; exists a, p; exact H].
Qed.
Definition pc_fail (h : heap) (q : request) (n : nat) (pc : rpc) : Prop :=
  let ts := targets h (copy_of (q_template q) h) in
  match pc with
  | Start => n = 0
  | Filling _ todo => exists done, ts = done ++ todo /\ (forall t, In t done -> q_inject q (snd t) <> LFail) /\ n = S (List.length done)
  | Running _ _ _ | Answered _ => forall t, In t ts -> q_inject q (snd t) <> LFail
  | Failed => exists t, In t ts /\ q_inject q (snd t) = LFail
  end.
Lemma step_fail h0 q pc n h : same_shape h h0 -> pc_fail h0 q n pc -> pc_fail h0 q (S n) (fst (step q pc h)).
Proof.
  intros Sh P. unfold pc_fail in *. set (ts := targets h0 (copy_of (q_template q) h0)) in *.
  destruct pc as [|own [|(l & key) todo]|own [|l k|l v k] seen|seen|]; cbn [step] in *; try exact P.
  - subst n. exists []. split; [symmetry; apply copy_targets; exact Sh|]. split; [intros t []|reflexivity].
  - destruct P as (done & E & A & _). rewrite app_nil_r in E. cbn [fst]. rewrite E. exact A.
  - destruct P as (done & E & A & ->). assert (Go : q_inject q key <> LFail -> exists d2, ts = d2 ++ todo /\ (forall t, In t d2 -> q_inject q (snd t) <> LFail) /\ S (S (List.length done)) = S (List.length d2)).
    { intros NF. exists (done ++ [(l, key)]). split; [rewrite <- app_assoc; exact E|]. split; [intros t I; apply in_app_or in I as [I|[<-|[]]]; [exact (A t I)|exact NF]|rewrite app_length; cbn; lia]. }
    destruct (q_inject q key) as [v| |] eqn:EI.
    + destruct (mem_write l v own h). cbn [fst]. apply Go. discriminate.
    + cbn [fst]. apply Go. discriminate.
    + cbn [fst]. exists (l, key). split; [rewrite E; apply in_or_app; right; left; reflexivity|exact EI].
  - destruct (mem_write l v own h). cbn [fst]. exact P.
Qed.
Lemma run_fail qs h r q : nth_error qs r = Some q -> forall sched, exists pc, nth_error (fst (run qs h sched)) r = Some pc /\ pc_fail h q (count_occ Nat.eq_dec sched r) pc.
Proof.
  intros Eq. induction sched as [|i sched (pc & Ep & IH)] using rev_ind.
  - exists Start. cbn. rewrite (map_nth_error _ r qs Eq). split; reflexivity.
  - rewrite run_snoc, count_occ_app. cbn [count_occ]. unfold sched_step. destruct (Nat.eq_dec i r) as [->|N].
    + rewrite Eq, Ep. assert (Sh : same_shape (snd (run qs h sched)) h) by apply run_inv. pose proof (step_fail h q pc _ _ Sh IH) as X. destruct (step q pc (snd (run qs h sched))) as (pc' & h'). cbn [fst] in X |- *.
      exists pc'. rewrite nth_upd, Nat.eqb_refl, Ep. split; [reflexivity|]. rewrite Nat.add_1_r. exact X.
    + rewrite Nat.add_0_r. exists pc. split; [|exact IH]. destruct (nth_error qs i) as [qi|]; [|exact Ep]. destruct (nth_error (fst (run qs h sched)) i) as [pci|]; [|exact Ep]. destruct (step qi pci (snd (run qs h sched))) as (pc' & h'). cbn [fst]. rewrite nth_upd. destruct (Nat.eqb_spec i r); [congruence|exact Ep].
Qed.
(** A failing lookup: the method never runs, in no schedule, and the request panics once it was given enough steps. Without one the
    request never panics and its method does run. Registered pointers may be written by others meanwhile. *)
Theorem C161_failed_lookup : forall qs h r q, nth_error qs r = Some q ->
  let registered := copy_of (q_template q) h in
  ((exists key, reached h registered key /\ q_inject q key = LFail) ->
     exists n, forall sched pc, nth_error (fst (run qs h sched)) r = Some pc ->
       (forall own c seen, pc <> Running own c seen) /\ (forall seen, pc <> Answered seen) /\ (n <= count_occ Nat.eq_dec sched r -> pc = Failed)) /\
  ((forall key, reached h registered key -> q_inject q key <> LFail) ->
     exists n, forall sched pc, nth_error (fst (run qs h sched)) r = Some pc ->
       pc <> Failed /\ (n <= count_occ Nat.eq_dec sched r -> (exists own c seen, pc = Running own c seen) \/ exists seen, pc = Answered seen)).
Proof.
  intros qs h r q Eq registered. set (ts := targets h registered).
  assert (Todo : forall own todo done, ts = done ++ todo -> S (S (List.length ts)) <= S (List.length done) -> Filling own todo = Failed).
  { intros own todo done E L. exfalso. rewrite E, app_length in L. lia. }
  split.
  - intros (key & R & F). apply reached_targets in R as (l & R). fold ts in R. exists (S (S (List.length ts))). intros sched pc Ep. destruct (run_fail qs h r q Eq sched) as (pc0 & Ep0 & P). rewrite Ep in Ep0. injection Ep0 as <-. unfold pc_fail in P. fold registered in P. fold ts in P.
    destruct pc as [|own todo|own c seen|seen|].
    + split; [discriminate|]. split; [discriminate|]. intros L. rewrite P in L. lia.
    + split; [discriminate|]. split; [discriminate|]. intros L. destruct P as (done & E & _ & Ec). rewrite Ec in L. eapply Todo; eassumption.
    + exfalso. exact (P _ R F).
    + exfalso. exact (P _ R F).
    + split; [discriminate|]. split; [discriminate|]. reflexivity.
  - intros NF. assert (NF' : forall t, In t ts -> q_inject q (snd t) <> LFail) by (intros (l & k) I; apply NF, reached_targets; exists l; exact I).
    exists (S (S (List.length ts))). intros sched pc Ep. destruct (run_fail qs h r q Eq sched) as (pc0 & Ep0 & P). rewrite Ep in Ep0. injection Ep0 as <-. unfold pc_fail in P. fold registered in P. fold ts in P.
    destruct pc as [|own todo|own c seen|seen|].
    + split; [discriminate|]. intros L. rewrite P in L. lia.
    + split; [discriminate|]. intros L. destruct P as (done & E & _ & Ec). rewrite Ec in L. discriminate (Todo own todo done E L).
    + split; [discriminate|]. intros _. left. exists own, c, seen. reflexivity.
    + split; [discriminate|]. intros _. right. exists seen. reflexivity.
    + destruct P as (t & I & F). exfalso. exact (NF' t I F).
Qed.
Example C161_failed_case : let q := Req (TVal [FInject 7 0; FInject 8 0]) (fun k => if Nat.eqb k 8 then LFail else LSet k) CEnd in
  nth_error (fst (run [q] [] [0; 0; 0; 0; 0])) 0 = Some Failed /\ reached [] (copy_of (q_template q) []) 8.
Proof. cbv zeta. split; [reflexivity|]. left. exists [1]. split; [apply (tag_here 1 _ 8 0); reflexivity|cbn; lia]. Qed.

(** ** C162 *)
Lemma find_dec_in (todo : list (loc * nat)) l : (exists key, In (l, key) todo) \/ (forall key, ~ In (l, key) todo).
Proof.
  induction todo as [|(l' & k) todo [(key & IH)|IH]]; [right; intros key []|left; exists key; right; exact IH|].
  assert (D : {l' = l} + {l' <> l}) by (repeat decide equality). destruct D as [->|N]; [left; exists k; left; reflexivity|]. right. intros key [X|X]; [congruence|exact (IH key X)].
Qed.
Lemma heap_write_other l v own h a p : l <> (At a, p) -> read_in p (nth a (snd (mem_write l v own h)) []) = read_in p (nth a h []).
Proof.
  intros N. destruct l as ([|b] & p'); [reflexivity|]. cbn. rewrite nth_upd_d. destruct (Nat.eqb_spec b a) as [->|Nb]; [|reflexivity]. match goal with |- context [Nat.ltb ?x ?y] => destruct (Nat.ltb x y) eqn:L end; [|reflexivity]. cbn. apply read_write_other. congruence.
Qed.
Lemma heap_write_same v own h a p key : tagged p (nth a h []) key -> read_in p (nth a (snd (mem_write (At a, p) v own h)) []) = Some v.
Proof.
  intros T. cbn. rewrite nth_upd_d, Nat.eqb_refl. match goal with |- context [Nat.ltb ?x ?y] => destruct (Nat.ltb_spec x y) as [L|L] end; cbn; [apply read_write_same; eapply tagged_read; exact T|]. rewrite nth_overflow in T by exact L. exfalso. inversion T as [? ? ? x Hi|? ? ? sub ? Hi _]; subst; rewrite nil_none in Hi; discriminate.
Qed.
(** one request fills all its fields *)
Lemma fill_run qs r q : nth_error qs r = Some q -> (forall key, q_inject q key <> LFail) -> forall todo pcs h own,
  nth_error pcs r = Some (Filling own todo) -> (forall a p k, In ((At a, p), k) todo -> tagged p (nth a h []) k) ->
  exists pcs' h' own', fold_left (sched_step qs) (repeat r (List.length todo)) (pcs, h) = (pcs', h') /\ nth_error pcs' r = Some (Filling own' []) /\ (forall i, i <> r -> nth_error pcs' i = nth_error pcs i) /\ same_shape h' h /\
    (forall a p k v, In ((At a, p), k) todo -> q_inject q k = LSet v -> read_in p (nth a h' []) = Some v) /\
    (forall a p, (forall k, ~ In ((At a, p), k) todo) -> read_in p (nth a h' []) = read_in p (nth a h [])).
Proof.
  intros Eq NF. induction todo as [|(l & key) todo IH]; intros pcs h own Ep T.
  - exists pcs, h, own. cbn. repeat split; auto. intros a p k v [].
  - cbn [List.length repeat fold_left]. unfold sched_step at 2. cbn [fst snd]. rewrite Eq, Ep. cbn [step].
    assert (Next : forall own1 h1, same_shape h1 h -> (forall a p, l <> (At a, p) -> read_in p (nth a h1 []) = read_in p (nth a h [])) -> (forall a p v, l = (At a, p) -> q_inject q key = LSet v -> read_in p (nth a h1 []) = Some v) ->
      exists pcs' h' own', fold_left (sched_step qs) (repeat r (List.length todo)) (upd pcs r (Filling own1 todo), h1) = (pcs', h') /\ nth_error pcs' r = Some (Filling own' []) /\ (forall i, i <> r -> nth_error pcs' i = nth_error pcs i) /\ same_shape h' h /\
       (forall a p k v, In ((At a, p), k) ((l, key) :: todo) -> q_inject q k = LSet v -> read_in p (nth a h' []) = Some v) /\
       (q_inject q key = LKeep \/ (forall a p, (forall k, ~ In ((At a, p), k) ((l, key) :: todo)) -> read_in p (nth a h' []) = read_in p (nth a h [])))).
    { intros own1 h1 Sh O1 S1. destruct (IH (upd pcs r (Filling own1 todo)) h1 own1) as (pcs' & h' & own' & F & P1 & P2 & Sh' & R1 & R2).
      - rewrite nth_upd, Nat.eqb_refl, Ep. reflexivity.
      - intros a p k I. eapply tagged_erase; [|apply T; right; exact I]. apply shape_nth. unfold same_shape in *. congruence.
      - exists pcs', h', own'. split; [exact F|]. split; [exact P1|]. split; [intros i N; rewrite (P2 i N), nth_upd; destruct (Nat.eqb_spec r i); [congruence|reflexivity]|]. split; [unfold same_shape in *; congruence|]. split.
        + intros a p k v [I|I] EI; [|eapply R1; eassumption]. injection I as -> ->. destruct (find_dec_in todo (At a, p)) as [(k2 & I2)|N].
          * assert (k2 = k) as -> by (apply (tagged_fun p (nth a h [])); [apply T; right; exact I2|apply T; left; reflexivity]). eapply R1; eassumption.
          * rewrite (R2 a p N). apply (S1 a p v eq_refl EI).
        + right. intros a p N. rewrite R2 by (intros k I; apply (N k); right; exact I). apply O1. intros X. apply (N key). left. rewrite X. reflexivity. }
    destruct (q_inject q key) as [v| |] eqn:EI; [| |exfalso; exact (NF key EI)].
    + pose proof (write_shape l v own h) as Sh. assert (O1 : forall a p, l <> (At a, p) -> read_in p (nth a (snd (mem_write l v own h)) []) = read_in p (nth a h [])) by (intros a p; apply heap_write_other).
      assert (S1 : forall a p, l = (At a, p) -> read_in p (nth a (snd (mem_write l v own h)) []) = Some v) by (intros a p ->; eapply heap_write_same; apply T; left; reflexivity).
      destruct (mem_write l v own h) as (own1 & h1). cbn [snd] in *. destruct (Next own1 h1 Sh O1) as (pcs' & h' & own' & F & P1 & P2 & Sh' & R1 & [R2|R2]); [intros a p v' X Y; injection Y as <-; apply S1; exact X| |]; [discriminate R2|]. exists pcs', h', own'. auto 10.
    + assert (Next2 := IH (upd pcs r (Filling own todo)) h own). destruct Next2 as (pcs' & h' & own' & F & P1 & P2 & Sh' & R1 & R2); [rewrite nth_upd, Nat.eqb_refl, Ep; reflexivity|intros a p k I; apply T; right; exact I|].
      exists pcs', h', own'. split; [exact F|]. split; [exact P1|]. split; [intros i N; rewrite (P2 i N), nth_upd; destruct (Nat.eqb_spec r i); [congruence|reflexivity]|]. split; [exact Sh'|]. split.
      * intros a p k v [I|I] E2; [injection I as _ <-; congruence|eapply R1; eassumption].
      * intros a p N. apply R2. intros k I. apply (N k). right. exact I.
Qed.
Lemma targets_at h t a p k : In ((At a, p), k) (targets h (copy_of t h)) -> tagged p (nth a h []) k.
Proof. intros I. apply targets_in in I as [(X & _)|(b & X & H)]; [discriminate X|]. injection X as <-. eapply behind_tagged. exact H. Qed.
(** a tagged field behind a pointer of the registered struct is shared: whatever was found for a request, there is a schedule in which its method reads there what was found for another one *)
Theorem C162_shared_behind_pointers : forall h q1 q2 a p key v k,
  behind h 3 (copy_of (q_template q2) h) a p key -> q_inject q2 key = LSet v ->
  (forall n, q_inject q1 n <> LFail) -> (forall n, q_inject q2 n <> LFail) -> q_code q1 = CRead (At a, p) k ->
  exists sched own, nth_error (fst (run [q1; q2] h sched)) 0 = Some (Running own (k (Some v)) [Some v]).
Proof.
  intros h q1 q2 a p key v k B Ev N1 N2 EC. set (qs := [q1; q2]).
  set (t1 := targets h (copy_of (q_template q1) h)).
  destruct (fill_run qs 0 q1 eq_refl N1 t1 [Filling (copy_of (q_template q1) h) t1; Start] h (copy_of (q_template q1) h) eq_refl) as (pcs1 & h1 & own1 & F1 & P1 & O1 & Sh1 & _).
  { intros a' p' k'. apply targets_at. }
  set (c2 := copy_of (q_template q2) h1). set (t2 := targets h1 c2). set (pcs2 := upd (upd pcs1 0 (Running own1 (q_code q1) [])) 1 (Filling c2 t2)).
  assert (P2 : nth_error pcs2 1 = Some (Filling c2 t2)) by (unfold pcs2; rewrite nth_upd; cbn [Nat.eqb]; rewrite nth_upd; cbn [Nat.eqb]; rewrite (O1 1) by lia; reflexivity).
  assert (P20 : nth_error pcs2 0 = Some (Running own1 (q_code q1) [])) by (unfold pcs2; rewrite nth_upd; cbn [Nat.eqb]; rewrite nth_upd; cbn [Nat.eqb]; rewrite P1; reflexivity).
  destruct (fill_run qs 1 q2 eq_refl N2 t2 pcs2 h1 c2 P2) as (pcs3 & h3 & own3 & F2 & P3 & O3 & Sh3 & R3 & _).
  { intros a' p' k'. apply targets_at. }
  assert (I2 : In ((At a, p), key) t2). { unfold t2, c2. rewrite (copy_targets (q_template q2) h1 h Sh1). unfold targets. apply targets_in. right. exists a. split; [reflexivity|exact B]. }
  exists ([0] ++ repeat 0 (List.length t1) ++ [0] ++ [1] ++ repeat 1 (List.length t2) ++ [0]), own1.
  assert (Chain : forall l1 l2 (s s1 s2 : state), fold_left (sched_step qs) l1 s = s1 -> fold_left (sched_step qs) l2 s1 = s2 -> fold_left (sched_step qs) (l1 ++ l2) s = s2) by (intros l1 l2 s s1 s2 X Y; rewrite fold_left_app, X; exact Y).
  assert (E : run qs h ([0] ++ repeat 0 (List.length t1) ++ [0] ++ [1] ++ repeat 1 (List.length t2) ++ [0]) = sched_step qs (pcs3, h3) 0).
  { unfold run. eapply Chain; [reflexivity|]. eapply Chain; [exact F1|].
    eapply (Chain [0] _ _ (upd pcs1 0 (Running own1 (q_code q1) []), h1)); [cbn [fold_left]; unfold sched_step; cbn [fst snd]; rewrite P1; reflexivity|].
    eapply (Chain [1] _ _ (pcs2, h1)); [cbn [fold_left]; unfold sched_step; cbn [fst snd]; match goal with |- context [nth_error ?l 1] => match l with upd _ _ _ => assert (Q1 : nth_error l 1 = Some Start) by (rewrite nth_upd; cbn [Nat.eqb]; rewrite (O1 1) by lia; reflexivity) end end; rewrite Q1; reflexivity|].
    eapply Chain; [exact F2|]. reflexivity. }
  rewrite E. unfold sched_step. cbn [fst snd]. rewrite (O3 0) by lia. rewrite P20. change (nth_error qs 0) with (Some q1). cbn [step]. rewrite EC. cbv iota beta zeta. cbn [fst]. rewrite nth_upd. cbn [Nat.eqb]. rewrite (O3 0) by lia. rewrite P20.
  unfold mem_read. cbn [fst snd]. rewrite (R3 a p key v I2 Ev). reflexivity.
Qed.
Example C162_case : let base := [[FInject 7 0]] in let q v := Req (TVal [FRef (Some 0)]) (fun _ => LSet v) (CRead (At 0, [0]) (fun _ => CEnd)) in
  nth_error (fst (run [q 100; q 200] base [0; 0; 0; 1; 1; 0; 0])) 0 = Some (Answered [Some 200]) /\ behind base 3 (copy_of (q_template (q 200)) base) 0 [0] 7.
Proof. cbv zeta. split; [reflexivity|]. apply (beh_here _ 2 _ 0 0); [reflexivity|apply (tag_here 0 _ 7 0); reflexivity|cbn; lia]. Qed.

Print Assumptions C161_unreached_structs_stay.
Print Assumptions C161_own_fields.
Print Assumptions C161_as_alone.
Print Assumptions C162_shared_behind_pointers.
Print Assumptions C161_failed_lookup.
