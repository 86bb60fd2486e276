(** Props_Reent: C165 and C166, functions that call the injector back *)
From Coq Require Import List Ascii String Bool Arith Lia.
Import ListNotations.
From Verif Require Import GoStr InjectModel InjectWorld ReentModel ReentFacts.

(** programs from the start: operations on injectors, whose functions may do operations *)
Inductive reached (assignable : rtype -> rtype -> bool) (call : list callev -> nat -> list val -> act) : rworld -> Prop :=
| re_start : reached assignable call (RW world0 [])
| re_step : forall w fuel o, reached assignable call w -> reached assignable call (fst (r_exec assignable call fuel w o)).

(** ** C165: what a filter provides is what the handlers after it get *)
(** nothing provided to the slot, nor a result kept for it *)
Definition untouched (i : nat) (n : bytes) (l : list ev) : Prop := forall e, In e l -> (forall k, e <> EProv i n k) /\ (forall o, e <> EKeep i n o).
(** nothing provided to the slot, no result kept or dropped *)
Definition undisturbed (i : nat) (n : bytes) (l : list ev) : Prop := untouched i n l /\ ~ In (EDrop i n) l.

Lemma kept_untouched i n l L : untouched i n l -> kept i n L = None -> kept i n (l ++ L) = None.
Proof.
  intros H K. induction l as [|e l IH]; [exact K|]. assert (H' : untouched i n l) by (intros e' He; apply H; right; exact He). specialize (IH H').
  destruct (H e (or_introl eq_refl)) as [H1 H2]. destruct e; cbn [List.app kept]; try exact IH; destruct (slot_eq i n i0 n0) eqn:E; try exact IH; try reflexivity. apply slot_eq_true in E as [<- <-]. exfalso. exact (H2 o eq_refl).
Qed.
Lemma given_untouched i n l L : untouched i n l -> given i n (l ++ L) = given i n L.
Proof.
  intros H. induction l as [|e l IH]; [reflexivity|]. assert (H' : untouched i n l) by (intros e' He; apply H; right; exact He). specialize (IH H').
  destruct (H e (or_introl eq_refl)) as [H1 H2]. destruct e; cbn [List.app given]; try exact IH. destruct (slot_eq i n i0 n0) eqn:E; [|exact IH]. apply slot_eq_true in E as [<- <-]. exfalso. exact (H1 k eq_refl).
Qed.
Lemma kept_undisturbed i n l L : undisturbed i n l -> kept i n (l ++ L) = kept i n L.
Proof.
  intros [H Hd]. induction l as [|e l IH]; [reflexivity|]. assert (H' : untouched i n l) by (intros e' He; apply H; right; exact He). specialize (IH H' ltac:(intros X; apply Hd; right; exact X)).
  destruct (H e (or_introl eq_refl)) as [H1 H2]. destruct e; cbn [List.app kept]; try exact IH; destruct (slot_eq i n i0 n0) eqn:E; try exact IH; apply slot_eq_true in E as [<- <-]; exfalso; [exact (H2 o eq_refl)|apply Hd; left; reflexivity|exact (H1 k eq_refl)].
Qed.
Lemma slot_refl i n : slot_eq i n i n = true.
Proof. apply slot_eq_true. auto. Qed.
(** what is found after the slot was provided with a value *)
Lemma got_value i n v l L a : untouched i n l -> got (l ++ EProv i n (KVal v) :: L) i n a -> a = v.
Proof.
  intros H G. assert (K : kept i n (l ++ EProv i n (KVal v) :: L) = None) by (apply kept_untouched; [exact H|cbn; rewrite slot_refl; reflexivity]).
  assert (V : given i n (l ++ EProv i n (KVal v) :: L) = Some (KVal v)) by (rewrite given_untouched by exact H; cbn; rewrite slot_refl; reflexivity).
  destruct G as [(o & G)|(_ & G)]; [congruence|]. inversion G; subst; [|congruence]. congruence.
Qed.
Lemma got_kept i n v o l L a : undisturbed i n l -> got (l ++ EKeep i n (v :: o) :: L) i n a -> a = v.
Proof.
  intros H G. assert (K : kept i n (l ++ EKeep i n (v :: o) :: L) = Some (v :: o)) by (rewrite kept_undisturbed by exact H; cbn; rewrite slot_refl; reflexivity).
  destruct G as [(o' & G)|(G & _)]; congruence.
Qed.
Lemma log_ok_app l L : log_ok (l ++ L) -> log_ok L.
Proof. induction l as [|e l IH]; [auto|]. intros H. apply IH. inversion H; assumption. Qed.
(** the place where the argument for [n] was found *)
Lemma in_order_nth i deps args L0 L : in_order i deps args L0 L -> forall x n, nth_error deps x = Some n ->
  exists a l2 l1, nth_error args x = Some a /\ L = l2 ++ EFound i n a :: l1 ++ L0.
Proof.
  induction 1 as [L|d ds a args l L L1 HI IH]; intros x n Hx; [destruct x; discriminate|]. destruct x as [|x].
  - injection Hx as ->. destruct (in_order_in _ _ _ _ _ HI) as (m & ->). exists a, m, l. split; reflexivity.
  - destruct (IH x n Hx) as (a' & l2 & l1 & H1 & H2). exists a', l2, (l1 ++ EFound i d a :: l). split; [exact H1|]. rewrite H2, <- app_assoc. reflexivity.
Qed.
Lemma split_at {A} (a : list A) x b : forall c y d, a ++ x :: b = c ++ y :: d ->
  (exists m, a = c ++ y :: m /\ d = m ++ x :: b) \/ (a = c /\ x = y /\ b = d) \/ (exists m, c = a ++ x :: m /\ b = m ++ y :: d).
Proof.
  induction a as [|z a IH]; intros [|z' c] y d H; cbn in H; injection H as H1 H2.
  - right. left. auto.
  - right. right. exists c. subst. split; reflexivity.
  - left. exists a. subst. split; reflexivity.
  - subst z'. destruct (IH _ _ _ H2) as [(m & -> & ->)|[(-> & -> & ->)|(m & -> & ->)]]; [left; exists m; split; reflexivity|right; left; repeat split|right; right; exists m; split; reflexivity].
Qed.

Section C165.
  Variable assignable : rtype -> rtype -> bool.
  Variable call : list callev -> nat -> list val -> act.
  Notation reached := (reached assignable call).
  Lemma reached_agree w : reached w -> agree w.
  Proof. induction 1 as [|w fuel o _ IH]; [apply agree0|]. apply exec_ok. exact IH. Qed.

  (** Whatever is found - as an argument, by Find, for a field - is what the injector keeps for the slot at that moment, else the
      value its nearest provider gives. *)
  Theorem C165_found w later i n v before : reached w -> r_log w = later ++ EFound i n v :: before -> got before i n v.
  Proof. intros R E. pose proof (ag_log _ (reached_agree w R)) as O. rewrite E in O. apply log_ok_app in O. inversion O; assumption. Qed.
  (** The arguments of a call were found, in the order of the parameters, since its preparation began. *)
  Theorem C165_arguments w later i q n f deps args before : reached w -> r_log w = later ++ ECall i q n f deps args :: before ->
    exists L0, in_order i deps args (EStart i q :: L0) before.
  Proof. intros R E. pose proof (ag_log _ (reached_agree w R)) as O. rewrite E in O. apply log_ok_app in O. inversion O; subst. eauto. Qed.
  (** A result is kept only when a function for the slot was called. *)
  Theorem C165_kept_after_call w later i n o before : reached w -> r_log w = later ++ EKeep i n o :: before -> exists q f deps args, In (ECall i q n f deps args) before.
  Proof. intros R E. pose proof (ag_log _ (reached_agree w R)) as O. rewrite E in O. apply log_ok_app in O. inversion O; subst. eauto 10. Qed.

  Lemma invoked_since w l4 i q m f deps args l3 before : reached w -> r_log w = l4 ++ ECall i q m f deps args :: l3 ++ EInv i q :: before ->
    forall x n, nth_error deps x = Some n -> exists a l5 l6, nth_error args x = Some a /\ l3 = l5 ++ EFound i n a :: l6 /\ got (l6 ++ EInv i q :: before) i n a.
  Proof.
    intros R E x n Hx. destruct (C165_arguments w l4 i q m f deps args _ R E) as (L0 & HO).
    pose proof (ag_log _ (reached_agree w R)) as O. rewrite E in O. apply log_ok_app in O. inversion O as [| | |? ? ? ? ? ? ? ? _ O'| | | | |]; subst. clear O.
    destruct (in_order_nth _ _ _ _ _ HO x n Hx) as (a & l2 & l1 & Ha & El).
    (* the preparation began after the Invoke *)
    assert (Hs : ~ In (EStart i q) before). { apply log_ok_app in O'. inversion O'; subst. auto. }
    replace (l2 ++ EFound i n a :: l1 ++ EStart i q :: L0) with ((l2 ++ EFound i n a :: l1) ++ EStart i q :: L0) in El by (rewrite <- app_assoc; reflexivity).
    destruct (split_at _ _ _ _ _ _ El) as [(z & Ez1 & Ez2)|[(_ & Ez & _)|(z & Ez1 & Ez2)]]; [|discriminate|exfalso; apply Hs; rewrite Ez2; apply in_app_iff; right; left; reflexivity].
    exists a, l2, (l1 ++ EStart i q :: z). split; [exact Ha|]. split; [rewrite Ez1, <- app_assoc; reflexivity|].
    eapply (C165_found w (l4 ++ ECall i q m f deps args :: l2)); [exact R|]. rewrite E, Ez1. rewrite <- !app_assoc. reflexivity.
  Qed.
  (** A value was provided to the injector; then a function was invoked on it, perhaps from inside other functions; nothing was
      provided to the slot or kept for it in between: the function gets the value, whatever else all the functions called did. *)
  Theorem C165_provided_is_given w l4 i q m f deps args l3 l2 n v l1 x : reached w ->
    r_log w = l4 ++ ECall i q m f deps args :: l3 ++ EInv i q :: l2 ++ EProv i n (KVal v) :: l1 ->
    untouched i n l3 -> untouched i n l2 -> nth_error deps x = Some n -> nth_error args x = Some v.
  Proof.
    intros R E H3 H2 Hx. destruct (invoked_since w l4 i q m f deps args l3 _ R E x n Hx) as (a & l5 & l6 & Ha & El & G).
    rewrite Ha. f_equal. eapply (got_value i n v (l6 ++ EInv i q :: l2) l1); [|rewrite <- app_assoc; exact G].
    intros e He. apply in_app_iff in He as [He|[<-|He]]; [|split; intros; discriminate|exact (H2 e He)]. apply H3. rewrite El. apply in_app_iff. right. right. exact He.
  Qed.
  (** The same for a result the injector keeps. *)
  Theorem C165_kept_is_given w l4 i q m f deps args l3 l2 n v o l1 x : reached w ->
    r_log w = l4 ++ ECall i q m f deps args :: l3 ++ EInv i q :: l2 ++ EKeep i n (v :: o) :: l1 ->
    undisturbed i n l3 -> undisturbed i n l2 -> nth_error deps x = Some n -> nth_error args x = Some v.
  Proof.
    intros R E H3 H2 Hx. destruct (invoked_since w l4 i q m f deps args l3 _ R E x n Hx) as (a & l5 & l6 & Ha & El & G).
    rewrite Ha. f_equal. eapply (got_kept i n v o (l6 ++ EInv i q :: l2) l1); [|rewrite <- app_assoc; exact G].
    destruct H3 as [H3 D3], H2 as [H2 D2]. split.
    - intros e He. apply in_app_iff in He as [He|[<-|He]]; [|split; intros; discriminate|exact (H2 e He)]. apply H3. rewrite El. apply in_app_iff. right. right. exact He.
    - intros X. apply in_app_iff in X as [X|[X|X]]; [|discriminate|exact (D2 X)]. apply D3. rewrite El. apply in_app_iff. right. right. exact X.
  Qed.
  (** Find, and Apply for a field *)
  Theorem C165_find_gives_provided w l3 i n a l2 v l1 : reached w ->
    r_log w = l3 ++ EFound i n a :: l2 ++ EProv i n (KVal v) :: l1 -> untouched i n l2 -> a = v.
  Proof. intros R E H2. eapply got_value; [exact H2|]. eapply C165_found; eassumption. Qed.
End C165.

(** *** InjectModel is the case of functions that do not call back *)
Section Plain.
  Variable assignable : rtype -> rtype -> bool.
  Variable call : list callev -> nat -> list val -> option (nat -> option nat).
  Definition plain : list callev -> nat -> list val -> act := fun tr f args => match call tr f args with Some g => ARet g | None => APanic end.
  Lemma upd_upd {A} (l : list A) i x y : upd (upd l i x) i y = upd l i y.
  Proof. revert i. induction l as [|z l IH]; intros [|i]; cbn; try reflexivity. now rewrite IH. Qed.
  Section At.
    Variables (w0 : world) (i : nat).
    Hypothesis Hi : i < List.length (w_inj w0).
    Lemma jget_commit s : jget (commit w0 i s) i = Inj (j_values (jget w0 i)) (i_cache s) (j_parent (jget w0 i)).
    Proof. unfold jget at 1. unfold commit. cbn [w_inj]. rewrite nth_upd_same by exact Hi. reflexivity. Qed.
    Lemma jget_commit_v s j : j_values (jget (commit w0 i s) j) = j_values (jget w0 j) /\ j_parent (jget (commit w0 i s) j) = j_parent (jget w0 j).
    Proof. destruct (Nat.eq_dec j i) as [->|H]; [rewrite jget_commit; auto|]. unfold jget at 1 3. unfold commit. cbn [w_inj]. rewrite nth_upd_other by congruence. auto. Qed.
    Lemma look_commit s fuel : forall j n, look_up (commit w0 i s) fuel j n = look_up w0 fuel j n.
    Proof. induction fuel as [|f IH]; intros j n; [reflexivity|]. cbn [look_up]. destruct (jget_commit_v s j) as [-> ->]. destruct (aget _ n); [reflexivity|]. destruct (j_parent (jget w0 j)); [apply IH|reflexivity]. Qed.
    Lemma look_in_commit s n : look_in (commit w0 i s) i n = look_in w0 i n.
    Proof. unfold look_in. unfold commit at 2. cbn [w_inj]. rewrite upd_length. apply look_commit. Qed.
    Lemma kput_commit s n o : kput (commit w0 i s) i n o = commit w0 i (set_cache s n o).
    Proof. unfold kput. rewrite jget_commit. unfold set_inj, commit, set_cache. cbn [w_inj w_prov w_done w_tr i_cache i_done i_tr j_values j_cache j_parent]. rewrite upd_upd. reflexivity. Qed.
    Definition follows (iv : inv) (mv : nat -> ist -> ires * ist) : Prop := forall q s L, exists L', iv i q (i_status s) (RW (commit w0 i s) L) = (fst (mv q s), i_status (snd (mv q s)), RW (commit w0 i (snd (mv q s))) L').
    Lemma deps_plain iv mv : follows iv mv -> forall deps s L, exists L', r_deps iv i deps (i_status s) (RW (commit w0 i s) L) =
      (fst (eval_deps (look_in w0 i) (info_of w0) mv deps s), i_status (snd (eval_deps (look_in w0 i) (info_of w0) mv deps s)), RW (commit w0 i (snd (eval_deps (look_in w0 i) (info_of w0) mv deps s))) L').
    Proof.
      intros F. induction deps as [|d deps IH]; intros s L; [exists L; reflexivity|]. cbn [r_deps eval_deps]. cbn [r_w]. rewrite look_in_commit.
      destruct (look_in w0 i d) as [q| |]; try (exists L; reflexivity).
      change (existsb (Nat.eqb q) (w_done (commit w0 i s))) with (is_done s q). change (info_of (commit w0 i s) q) with (info_of w0 q).
      change (existsb (beq (p_name (info_of w0 q))) (i_status s)) with (in_status s (p_name (info_of w0 q))).
      destruct (negb (is_done s q) && in_status s (p_name (info_of w0 q))); [exists L; reflexivity|].
      destruct (F q s L) as (L1 & E1). rewrite E1. destruct (mv q s) as [r s1]. cbn [fst snd].
      destruct r as [[|v o]|e| |]; try (exists L1; reflexivity).
      destruct (IH s1 (EFound i d v :: L1)) as (L2 & E2). unfold log. cbn [r_w r_log]. rewrite E2.
      destruct (eval_deps (look_in w0 i) (info_of w0) mv deps s1) as [x s2]. cbn [fst snd]. destruct x; exists L2; reflexivity.
    Qed.
    Lemma invoke_plain fuel : follows (r_invoke assignable plain fuel) (invoke assignable call i (look_in w0 i) (info_of w0) fuel).
    Proof.
      induction fuel as [|f IH]; intros q s L; [exists L; reflexivity|]. cbn [r_invoke invoke]. cbn [r_w]. change (info_of (commit w0 i s) q) with (info_of w0 q). rewrite jget_commit. cbn [j_cache].
      destruct (aget (i_cache s) (p_name (info_of w0 q))) as [o|]; [exists L; reflexivity|].
      destruct (p_kind (info_of w0 q)) as [v|fn ins outs]; [exists L; reflexivity|].
      destruct (deps_plain _ _ IH (p_deps (info_of w0 q)) (set_status s (p_name (info_of w0 q))) (EStart i q :: L)) as (L1 & E1).
      change (i_status (set_status s (p_name (info_of w0 q)))) with (p_name (info_of w0 q) :: i_status s) in E1. change (commit w0 i (set_status s (p_name (info_of w0 q)))) with (commit w0 i s) in E1.
      unfold log at 1. cbn [r_w r_log]. rewrite E1. clear E1.
      destruct (eval_deps (look_in w0 i) (info_of w0) (invoke assignable call i (look_in w0 i) (info_of w0) f) (p_deps (info_of w0 q)) (set_status s (p_name (info_of w0 q)))) as [x s1].
      cbn [fst snd]. destruct x as [args|r].
      - unfold call_fun. destruct (args_ok assignable args ins); [|exists L1; reflexivity]. unfold plain. cbn [r_w]. change (w_tr (commit w0 i s1)) with (i_tr s1).
        destruct (call (i_tr s1) fn args) as [g|]; cbn [r_act]; [|eexists; reflexivity]. destruct outs as [|t outs]; [eexists; reflexivity|].
        eexists. unfold log, on_w. cbn [r_w r_log fst snd].
        change (wcall (commit w0 i s1) (Called i q fn args true)) with (commit w0 i (add_call s1 (Called i q fn args true))). rewrite kput_commit. reflexivity.
      - destruct r; cbn [fst snd]; eexists; reflexivity.
    Qed.
    Lemma fields_plain fuel (sub : list field -> list nat -> status -> rworld -> ares * status * rworld) (msub : list field -> list nat -> ist -> ares * ist) :
      (forall fs path s L, exists L', sub fs path (i_status s) (RW (commit w0 i s) L) = (fst (msub fs path s), i_status (snd (msub fs path s)), RW (commit w0 i (snd (msub fs path s))) L')) ->
      forall fs n path s L, exists L', r_fields assignable (r_invoke assignable plain fuel) i sub fs n path (i_status s) (RW (commit w0 i s) L) =
        (fst (apply_fields assignable call w0 i fuel msub fs n path s), i_status (snd (apply_fields assignable call w0 i fuel msub fs n path s)), RW (commit w0 i (snd (apply_fields assignable call w0 i fuel msub fs n path s))) L').
    Proof.
      intros Hs. induction fs as [|[settable tg ty sb] fs IH]; intros n path s L; [exists L; reflexivity|]. cbn [r_fields apply_fields]. destruct (negb settable); [apply IH|].
      destruct tg as [| |label].
      - destruct sb as [fs1|]; [|apply IH]. destruct (Hs fs1 (path ++ [n]) s L) as (L1 & E1). rewrite E1. destruct (msub fs1 (path ++ [n]) s) as [a s1]. cbn [fst snd]. destruct a as [l|r]; [|exists L1; reflexivity].
        destruct (IH (S n) path s1 L1) as (L2 & E2). rewrite E2. destruct (apply_fields assignable call w0 i fuel msub fs (S n) path s1) as [a s2]. cbn [fst snd]. destruct a; exists L2; reflexivity.
      - apply IH.
      - cbn [r_w]. rewrite look_in_commit. destruct (look_in w0 i (create_name (indirect ty) label)) as [q| |]; try (exists L; reflexivity).
        destruct (invoke_plain fuel q s L) as (L1 & E1). rewrite E1. unfold run_invoke. destruct (invoke assignable call i (look_in w0 i) (info_of w0) fuel q s) as [r s1]. cbn [fst snd].
        destruct r as [[|v o]|e| |]; try (exists L1; reflexivity).
        + destruct (IH (S n) path s1 L1) as (L2 & E2). rewrite E2. destruct (apply_fields assignable call w0 i fuel msub fs (S n) path s1) as [a s2]. cbn [fst snd]. destruct a; exists L2; reflexivity.
        + unfold log. cbn [r_w r_log]. destruct (IH (S n) path s1 (EFound i (create_name (indirect ty) label) v :: L1)) as (L2 & E2).
          destruct (assign_value assignable v ty); rewrite E2; destruct (apply_fields assignable call w0 i fuel msub fs (S n) path s1) as [a s2]; cbn [fst snd]; destruct a; exists L2; reflexivity.
    Qed.
    Lemma apply_plain fuel left : forall fs path s L, exists L', r_apply assignable (r_invoke assignable plain fuel) i left fs path (i_status s) (RW (commit w0 i s) L) =
      (fst (apply_lvl assignable call w0 i fuel left fs path s), i_status (snd (apply_lvl assignable call w0 i fuel left fs path s)), RW (commit w0 i (snd (apply_lvl assignable call w0 i fuel left fs path s))) L').
    Proof.
      induction left as [|l IH]; intros fs path s L; cbn [r_apply apply_lvl]; apply fields_plain; [|exact IH]. intros fs1 p1 s1 L1. exists L1. reflexivity.
    Qed.
  End At.
  Theorem C165_without_callbacks fuel w L o : op_ok w o -> exists L', r_exec assignable plain fuel (RW w L) o = (RW (fst (exec_op assignable call fuel w o)) L', snd (exec_op assignable call fuel w o)).
  Proof.
    intros H. unfold r_exec. destruct o as [|i k|i p|i t l|i p|i fs|i t l]; cbn [r_op exec_op r_w op_ok] in *.
    - eexists. reflexivity.
    - destruct H as [H1 H2]. apply Nat.ltb_lt in H1, H2. rewrite H1, H2. eexists. reflexivity.
    - apply Nat.ltb_lt in H. rewrite H. unfold provide. destruct (new_provider p); [|eexists; reflexivity]. eexists. reflexivity.
    - pose proof H as Hi. apply Nat.ltb_lt in H. rewrite H. unfold find_op. destruct (look_in w i (create_name (indirect t) l)) as [q| |]; try (eexists; reflexivity).
      destruct (invoke_plain w i Hi fuel q (begin w i) L) as (L1 & E1). rewrite commit_begin in E1. change (i_status (begin w i)) with (@nil bytes) in E1. rewrite E1. unfold run_invoke.
      destruct (invoke assignable call i (look_in w i) (info_of w) fuel q (begin w i)) as [r s1]. cbn [fst snd]. destruct r as [[|v o]|e| |]; eexists; reflexivity.
    - pose proof H as Hi. apply Nat.ltb_lt in H. rewrite H. unfold invoke_op. destruct (new_provider p) as [pi|]; [|eexists; reflexivity].
      destruct (invoke_plain (add_prov w pi) i Hi fuel (List.length (w_prov w)) (begin (add_prov w pi) i) (EInv i (List.length (w_prov w)) :: L)) as (L1 & E1).
      rewrite commit_begin in E1. change (i_status (begin (add_prov w pi) i)) with (@nil bytes) in E1. unfold log, on_w. cbn [r_w r_log]. rewrite E1. unfold run_invoke.
      destruct (invoke assignable call i (look_in (add_prov w pi) i) (info_of (add_prov w pi)) fuel (List.length (w_prov w)) (begin (add_prov w pi) i)) as [r s1]. cbn [fst snd]. destruct r; eexists; reflexivity.
    - pose proof H as Hi. apply Nat.ltb_lt in H. rewrite H. unfold apply_op, apply_struct.
      destruct (apply_plain w i Hi fuel (max_level - 1) fs [] (begin w i) L) as (L1 & E1). rewrite commit_begin in E1. change (i_status (begin w i)) with (@nil bytes) in E1. rewrite E1.
      destruct (apply_lvl assignable call w i fuel (max_level - 1) fs [] (begin w i)) as [a s1]. cbn [fst snd]. destruct a; eexists; reflexivity.
    - apply Nat.ltb_lt in H. rewrite H. unfold exists_op. destruct (look_in w i (create_name (indirect t) l)); try (eexists; reflexivity). destruct (p_kind (info_of w q)); eexists; reflexivity.
  Qed.
End Plain.

(** *** cases *)
Definition tU := TNamed (bs "app") (bs "U") 0.
Definition eq_type (a b : rtype) : bool := match a, b with TPtr (TNamed p n s), TPtr (TNamed p' n' s') => beq p p' && beq n n' && Nat.eqb s s' | _, _ => false end.
Definition provides (t : rtype) (d : nat) : iop := PProvide 0 (OVal (Val (TPtr t) (Some d)) None []).
Fixpoint exec_all (call : list callev -> nat -> list val -> act) (w : rworld) (os : list iop) : rworld * list iobs :=
  match os with [] => (w, []) | o :: os' => let (w1, b) := r_exec eq_type call 20 w o in let (w2, bs) := exec_all call w1 os' in (w2, b :: bs) end.
Lemma exec_all_reached call os : forall w, reached eq_type call w -> reached eq_type call (fst (exec_all call w os)).
Proof.
  induction os as [|o os IH]; intros w R; [exact R|]. cbn [exec_all]. pose proof (re_step _ _ w 20 o R) as R1. destruct (r_exec eq_type call 20 w o) as [w1 b]. specialize (IH w1 R1). destruct (exec_all call w1 os) as [w2 bs']. exact IH.
Qed.
(** a filter (function 1) provides a user and invokes the handler (function 2), which takes a user *)
Definition filter_call : list callev -> nat -> list val -> act := fun _ f _ =>
  if Nat.eqb f 1 then ADo (provides tU 7) (fun _ => ADo (PInvoke 0 (OFun 2 [TPtr tU] [] [] None [])) (fun _ => ARet (fun _ => None))) else ARet (fun _ => None).
Example C165_case : exists w q q' l1 l2 l3, reached eq_type filter_call w /\
  r_log w = l3 ++ ECall 0 q [] 2 [create_name tU []] [Val (TPtr tU) (Some 7)] :: l2 ++ EInv 0 q :: [] ++ EProv 0 (create_name tU []) (KVal (Val (TPtr tU) (Some 7))) :: ECall 0 q' [] 1 [] [] :: l1 /\
  untouched 0 (create_name tU []) l2.
Proof.
  exists (fst (exec_all filter_call (RW world0 []) [PNew; PInvoke 0 (OFun 1 [] [] [] None [])])).
  exists 2, 0, [EStart 0 0; EInv 0 0], [EFound 0 (create_name tU []) (Val (TPtr tU) (Some 7)); EStart 0 2], [EDrop 0 []; EDrop 0 []].
  split; [apply exec_all_reached; constructor|]. split; [vm_compute; reflexivity|]. intros e [<-|[<-|[]]]; split; intros; discriminate.
Qed.

(** A value provided while a function for the same slot is running is lost when that returns: the function (3) provides user 7 and
    returns user 9; everybody gets 9 afterwards. *)
Definition late_call : list callev -> nat -> list val -> act := fun _ _ _ => ADo (provides tU 7) (fun _ => ARet (fun _ => Some 9)).
Theorem C165_last_provided_wins_refuted : exists w l1 l2, reached eq_type late_call w /\ r_log w = l2 ++ EProv 0 (create_name tU []) (KVal (Val (TPtr tU) (Some 7))) :: l1 /\
  (forall k, ~ In (EProv 0 (create_name tU []) k) l2) /\ snd (r_exec eq_type late_call 20 w (PFind 0 (TPtr tU) [])) = RVal (ASet (Val (TPtr tU) (Some 9))).
Proof.
  exists (fst (exec_all late_call (RW world0 []) [PNew; PProvide 0 (OFun 3 [] [TPtr tU] [] None []); PFind 0 (TPtr tU) []])).
  eexists. exists [EFound 0 (create_name tU []) (Val (TPtr tU) (Some 9)); EKeep 0 (create_name tU []) [Val (TPtr tU) (Some 9)]].
  split; [apply exec_all_reached; constructor|]. split; [vm_compute; reflexivity|]. split; [|vm_compute; reflexivity]. intros k [X|[X|[]]]; discriminate.
Qed.

(** ** C166: making a slot *)
(** A lookup of what is kept calls nothing and changes nothing *)
Theorem C166_kept_calls_nothing : forall assignable call w, reached assignable call w -> forall i t l v o fuel, kept i (create_name (indirect t) l) (r_log w) = Some (v :: o) ->
  (snd (r_exec assignable call (S fuel) w (PFind i t l)) = RErr (EMissing (create_name (indirect t) l)) /\ fst (r_exec assignable call (S fuel) w (PFind i t l)) = w) \/
  (snd (r_exec assignable call (S fuel) w (PFind i t l)) = RDiv /\ fst (r_exec assignable call (S fuel) w (PFind i t l)) = w) \/
  (r_w (fst (r_exec assignable call (S fuel) w (PFind i t l))) = r_w w /\ r_log (fst (r_exec assignable call (S fuel) w (PFind i t l))) = EFound i (create_name (indirect t) l) v :: r_log w).
Proof.
  intros assignable call w R i t l v o fuel K. pose proof (reached_agree _ _ w R) as A. set (n := create_name (indirect t) l) in *.
  unfold r_exec. cbn [r_op]. fold n. rewrite <- (ag_cache _ A) in K.
  assert (Hi : i < List.length (w_inj (r_w w))). { destruct (lt_dec i (List.length (w_inj (r_w w)))) as [H|H]; [exact H|]. unfold jget in K. rewrite nth_overflow in K by lia. discriminate. }
  apply Nat.ltb_lt in Hi. rewrite Hi. destruct (look_in (r_w w) i n) as [q| |] eqn:El; [right; right|left; auto|right; left; auto].
  destruct (nearest_found w A _ _ _ _ El) as (_ & N2 & _). cbn [r_invoke]. rewrite N2, K. cbn [fst]. split; reflexivity.
Qed.
(** A function may be called twice for one slot: F (function 1) is made from G (function 2), which looks up F unless it has done so
    before (it leaves a mark M). What the inner lookup got is not what everybody gets in the end. *)
Definition tFF := TNamed (bs "app") (bs "F") 0.
Definition tGG := TNamed (bs "app") (bs "G") 0.
Definition tMM := TNamed (bs "app") (bs "M") 0.
Definition twice_call : list callev -> nat -> list val -> act := fun _ f args =>
  if Nat.eqb f 1 then ARet (fun _ => match args with [a] => v_data a | _ => None end)
  else ADo (PExists 0 (TPtr tMM) []) (fun b => match b with
       | RErr _ => ADo (provides tMM 1) (fun _ => ADo (PFind 0 (TPtr tFF) []) (fun _ => ARet (fun _ => Some 10)))
       | _ => ARet (fun _ => Some 11)
       end).
Definition calls_of (n : bytes) (L : list ev) : nat := List.length (filter (fun e => match e with ECall _ _ m _ _ _ => beq n m | _ => false end) L).
Theorem C166_made_once_refuted : exists w, reached eq_type twice_call w /\
  (forall k, In (EProv 0 (create_name tFF []) k) (r_log w) -> k = KFun 1 [TPtr tGG] [TPtr tFF]) /\ (forall i q, ~ In (EInv i q) (r_log w)) /\
  calls_of (create_name tFF []) (r_log w) = 2 /\
  In (EFound 0 (create_name tFF []) (Val (TPtr tFF) (Some 11))) (r_log w) /\
  snd (r_exec eq_type twice_call 20 w (PFind 0 (TPtr tFF) [])) = RVal (ASet (Val (TPtr tFF) (Some 10))).
Proof.
  exists (fst (exec_all twice_call (RW world0 []) [PNew; PProvide 0 (OFun 1 [TPtr tGG] [TPtr tFF] [] None []); PProvide 0 (OFun 2 [] [TPtr tGG] [] None []); PFind 0 (TPtr tFF) []])).
  split; [apply exec_all_reached; constructor|].
  set (L := r_log _).
  let x := eval vm_compute in (r_log (fst (exec_all twice_call (RW world0 []) [PNew; PProvide 0 (OFun 1 [TPtr tGG] [TPtr tFF] [] None []); PProvide 0 (OFun 2 [] [TPtr tGG] [] None []); PFind 0 (TPtr tFF) []]))) in
    assert (EL : L = x) by (vm_compute; reflexivity).
  split; [|split; [|split; [|split]]].
  - intros k H. rewrite EL in H. cbn [In] in H. repeat (destruct H as [H|H]; [try discriminate H; try (injection H as <-; reflexivity); vm_compute in H; discriminate H|]). destruct H.
  - intros i q H. rewrite EL in H. cbn [In] in H. repeat (destruct H as [H|H]; [discriminate H|]). destruct H.
  - rewrite EL. vm_compute. reflexivity.
  - rewrite EL. cbn [In]. repeat (first [left; vm_compute; reflexivity|right]).
  - vm_compute. reflexivity.
Qed.
(** A function that looks up its own slot never ends: no cycle is reported *)
Definition self_call : list callev -> nat -> list val -> act := fun _ _ _ => ADo (PFind 0 (TPtr tU) []) (fun _ => ARet (fun _ => Some 1)).
Definition self_world (d : list nat) (tr : list callev) : world := World [Inj [(create_name tU [], 0)] [] None] [PI (create_name tU []) [] (KFun 1 [] [TPtr tU])] d tr.
Theorem C166_cycles_are_reported_refuted : reached eq_type self_call (RW (self_world [] []) [EProv 0 (create_name tU []) (KFun 1 [] [TPtr tU])]) /\
  forall fuel, snd (r_exec eq_type self_call fuel (RW (self_world [] []) [EProv 0 (create_name tU []) (KFun 1 [] [TPtr tU])]) (PFind 0 (TPtr tU) [])) = RDiv.
Proof.
  split; [exact (exec_all_reached self_call [PNew; PProvide 0 (OFun 1 [] [TPtr tU] [] None [])] (RW world0 []) (re_start _ _))|].
  assert (Lk : forall d tr, look_in (self_world d tr) 0 (create_name (indirect (TPtr tU)) []) = Found 0) by (intros; vm_compute; reflexivity).
  assert (Op : forall iv d tr L st' d' tr' L', iv 0 0 [] (RW (self_world d tr) L) = (IDiv, st', RW (self_world d' tr') L') ->
    r_op eq_type iv (RW (self_world d tr) L) (PFind 0 (TPtr tU) []) = (RW (self_world d' tr') L', RDiv)).
  { intros iv d tr L st' d' tr' L' E. unfold r_op. cbn [r_w]. change (Nat.ltb 0 (List.length (w_inj (self_world d tr)))) with true. cbv iota. cbv zeta. rewrite Lk, E. reflexivity. }
  assert (I : forall fuel st d tr L, exists st' d' tr' L', r_invoke eq_type self_call fuel 0 0 st (RW (self_world d tr) L) = (IDiv, st', RW (self_world d' tr') L')).
  { induction fuel as [|f IH]; intros st d tr L; [repeat eexists; reflexivity|].
    destruct (IH [] d tr (ECall 0 0 (create_name tU []) 1 [] [] :: EStart 0 0 :: L)) as (st' & d' & tr' & L' & E).
    exists (create_name tU [] :: st), d', tr', L'. cbn [r_invoke]. cbn [r_w].
    change (info_of (self_world d tr) 0) with (PI (create_name tU []) [] (KFun 1 [] [TPtr tU])). change (j_cache (jget (self_world d tr) 0)) with (@nil (bytes * list val)).
    cbn [aget p_name p_kind p_deps r_deps args_ok]. unfold log. cbn [r_w r_log].
    change (self_call (w_tr (self_world d tr)) 1 []) with (ADo (PFind 0 (TPtr tU) []) (fun _ => ARet (fun _ => Some 1))). cbn [r_act]. erewrite Op by exact E. reflexivity. }
  intros fuel. unfold r_exec. destruct (I fuel [] [] [] [EProv 0 (create_name tU []) (KFun 1 [] [TPtr tU])]) as (st' & d' & tr' & L' & E). erewrite Op by exact E. reflexivity.
Qed.

Print Assumptions C165_found.
Print Assumptions C165_arguments.
Print Assumptions C165_kept_after_call.
Print Assumptions C165_provided_is_given.
Print Assumptions C165_kept_is_given.
Print Assumptions C165_find_gives_provided.
Print Assumptions C165_without_callbacks.
Print Assumptions C165_last_provided_wins_refuted.
Print Assumptions C166_kept_calls_nothing.
Print Assumptions C166_made_once_refuted.
Print Assumptions C166_cycles_are_reported_refuted.
