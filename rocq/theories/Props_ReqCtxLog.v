(** Props_ReqCtxLog: C173 the logger of a request, as helpers.GetLogger finds it; C174 the values other filters left. *)
From Coq Require Import List Ascii String Bool Arith ZArith Lia Sorting.Sorted.
Import ListNotations.
From Verif Require Import GoStr RespModel RespSpec RespFacts ChainModel ChainFacts Props_Chain ReqCtxModel ReqCtxFacts Props_ReqCtx.
From Verif Require CtxValModel Props_CtxVal.

(** ** Specification *)
(** What the filter does when it starts (newest first): it takes the request it is given, provides one with
    the logger in its context, and puts that context behind the Context. *)
Definition logger_set (c : lvl) (g : goctx) (n : nat) : list cev :=
  [VReplace c (GWith g log_key (VOther n)); VProvideReq (GWith g log_key (VOther n)); VReq g].
(** Other handlers spare the key [k] at [c]: what they put behind the Context (or, for the app's Context, behind that of
    the route too), and the requests they provide, are made from what was there, or from each other, by adding
    values under other keys. *)
Definition spares (k : bytes) (c : lvl) (e : cev) (t : list cev) : Prop :=
  match e with
  | VReplace l g => l = c \/ c = Outer -> derived (eq k) (stands t l) g \/ derived (eq k) (asked t) g
  | VProvideReq g => derived (eq k) (asked t) g \/ derived (eq k) (stands t c) g
  | _ => True
  end.
Fixpoint spare_all (k : bytes) (c : lvl) (new old : list cev) : Prop :=
  match new with [] => True | e :: new => spares k c e (new ++ old) /\ spare_all k c new old end.

(** ** The keys *)
Theorem C173_key : forall t x, Props_CtxVal.plain t ->
  CtxValModel.key_of t x = Some log_key <-> CtxValModel.base t = CtxValModel.TNamed (bs "github.com/wujiu2020/strip") (bs "Logger") 0 /\ x = [].
Proof.
  intros t x P. set (T := CtxValModel.TNamed (bs "github.com/wujiu2020/strip") (bs "Logger") 0).
  assert (PT : Props_CtxVal.plain T) by (repeat split; try discriminate; cbn; intros H; repeat (destruct H as [H|H]; [discriminate H|]); exact H).
  assert (K : CtxValModel.key_of T [] = Some log_key) by reflexivity.
  split.
  - intros E. rewrite <- K in E. exact (Props_CtxVal.key_injective t x T [] P PT E).
  - intros (B & ->). rewrite <- K. unfold CtxValModel.key_of. rewrite B. reflexivity.
Qed.

Section Log.
  Variable accept : list wev -> bytes -> nat.
  Variable rv : bytes -> option val.
  Variable fs rfs : list (option handler).
  Variable ra : option handler.
  Notation trace := (trace accept rv fs rfs ra).
  (** handler [i0] of chain [l0] is the filter; it makes the logger [n] *)
  Variable l0 : lvl.
  Variable i0 n : nat.
  Hypothesis here : what_at fs rfs ra l0 i0 = Handler (req_logger n).

  (** *** the filter's start is followed by what it does *)
  Definition set_at (tr : list cev) : Prop := forall t1 t2 c wr, tr = t1 ++ VStart l0 i0 c wr :: t2 ->
    exists t1' g, t1 = t1' ++ logger_set c g n /\ g = asked t2.
  Definition no_start (e : cev) : Prop := match e with VStart l i _ _ => (l, i) <> (l0, i0) | _ => True end.
  Lemma set_cons e tr : no_start e -> set_at tr -> set_at (e :: tr).
  Proof using Type.
    intros N H t1 t2 c wr E. destruct t1 as [|e' t1]; cbn in E; injection E as E1 E2.
    - subst e. cbn in N. congruence.
    - subst e'. destruct (H _ _ _ _ E2) as (t1' & g & -> & Eg). exists (e :: t1'), g. auto.
  Qed.
  Definition U (s : rs) : Prop := T rv s /\ set_at (r_tr s).
  Lemma U_note s e : no_start e -> plain_ev e -> legit rv e (r_tr s) -> U s -> U (rnote s e).
  Proof using Type. intros N P L (A & B). split; [now apply T_note|]. now apply set_cons. Qed.
  Lemma U_op o s : U s -> U (oval (rdo accept o s)).
  Proof using Type.
    intros (A & B). split; [now apply T_op|]. destruct (rdo_shape accept o s) as (_ & _ & _ & _ & _ & E). rewrite E. now apply set_cons.
  Qed.
  Lemma U_incr l s : U s -> U (incr l s).
  Proof using Type. intros (A & B). split; [now apply T_incr|]. now rewrite incr_tr. Qed.
  Lemma U_replace c g s : U s -> U (replace c g (rnote s (VReplace c g))).
  Proof using Type. intros (A & B). split; [now apply T_replace|]. destruct c; apply set_cons; auto; exact Logic.I. Qed.
  Lemma U_nest i wr s : U s -> U (nest (rnote s (VRoute i wr))).
  Proof using Type. intros (A & B). split; [now apply T_nest|]. apply set_cons; auto; exact Logic.I. Qed.
  Lemma U_provide g s : U s -> U (set_req g (rnote s (VProvideReq g))).
  Proof using Type. intros (A & B). split; [now apply T_provide|]. apply set_cons; auto; exact Logic.I. Qed.
  Lemma U_bind x f : U (oval x) -> (forall a, U a -> U (oval (f a))) -> U (oval (obind x f)).
  Proof using Type. destruct x; cbn; auto. Qed.
  Lemma U_exec next : (forall c s, U s -> U (oval (next c s))) -> forall a s, U s -> U (oval (rexec accept rv a next s)).
  Proof using Type.
    intros Hn. induction a as [|o k IH|k IH|k IH|c k IH|c k IH|c g k IH|g key k IH|k IH|g k IH|v|b IHb r IHr k IHk]; intros s H; cbn [rexec]; auto.
    - apply U_bind; [now apply U_op|exact IH].
    - apply IH. apply U_note; [exact Logic.I..| |exact H]. cbn. apply H.
    - apply U_bind; [|exact IH]. apply Hn, U_incr, U_note; auto; exact Logic.I.
    - apply IH. apply U_note; [exact Logic.I..| |exact H]. cbn. apply H.
    - now apply IH, U_replace.
    - pose proof (value_spec rv (ctx_of s) key g) as V. pose proof H as ((A & _) & _). destruct (value rv (ctx_of s) g key) as [r|].
      + apply IH. apply U_note; [exact Logic.I..| |exact H]. cbn. eapply gives_ext; [exact A|exact V].
      + apply U_note; [exact Logic.I..| |exact H]. cbn. intros r X. apply (V r). eapply gives_ext; [|exact X]. intros l. symmetry. apply A.
    - apply IH. apply U_note; [exact Logic.I..| |exact H]. cbn. apply H.
    - now apply IH, U_provide.
    - specialize (IHb s H). destruct (rexec accept rv b next s); cbn in *; auto.
  Qed.
  Lemma U_run fuel : forall l s, U s -> U (oval (rrun accept rv fs rfs ra fuel l s)).
  Proof using here.
    induction fuel as [|f IH]; intros l s H; cbn [rrun]; [exact H|].
    destruct (idx l s) as [i|]; [|exact H]. destruct (Nat.leb i (clen fs rfs l)); [|exact H].
    assert (AF : forall a, U a -> U (oval (let s'' := incr l a in if written (r_rw s'') then Done s'' else rrun accept rv fs rfs ra f l s''))).
    { intros a Ha. cbv zeta. apply (U_incr l) in Ha. destruct (written (r_rw (incr l a))); [exact Ha|now apply IH]. }
    assert (D : (l, i) = (l0, i0) \/ (l, i) <> (l0, i0)) by (destruct l, l0, (Nat.eq_dec i i0); [left; congruence|right; congruence..|left; congruence|right; congruence]).
    destruct (what_at fs rfs ra l i) as [|h|] eqn:Ew.
    - now apply IH, U_incr.
    - apply U_bind; [|exact AF]. destruct D as [D|D].
      + injection D as -> ->. rewrite here in Ew. injection Ew as <-. unfold req_logger. cbn [rexec].
        set (e := VStart l0 i0 (slot s) (written (r_rw s))). set (s1 := rnote s e). set (g := r_req s1).
        set (s2 := rnote s1 (VReq g)). set (s3 := set_req (GWith g log_key (VOther n)) (rnote s2 (VProvideReq (GWith g log_key (VOther n))))).
        set (s4 := replace (slot s) (GWith g log_key (VOther n)) (rnote s3 (VReplace (slot s) (GWith g log_key (VOther n))))).
        assert (X : U s4).
        { destruct H as (A & B). split.
          - apply T_replace, T_provide, T_note; [exact Logic.I| |apply T_note; auto; exact Logic.I]. cbn. apply A.
          - assert (Et : r_tr s4 = logger_set (slot s) (asked (r_tr s)) n ++ e :: r_tr s).
            { destruct A as (_ & _ & Q & _). unfold s4, s3, s2, s1, logger_set, g. change (r_req (rnote s e)) with (r_req s). change (asked (r_tr s)) with (asked (r_tr s)). rewrite <- Q. destruct (slot s); reflexivity. }
            rewrite Et. unfold logger_set. intros t1 t2 c wr E. cbn [List.app] in E.
            destruct t1 as [|x1 t1]; [discriminate E|]. cbn in E. injection E as <- E.
            destruct t1 as [|x2 t1]; [discriminate E|]. cbn in E. injection E as <- E.
            destruct t1 as [|x3 t1]; [discriminate E|]. cbn in E. injection E as <- E.
            destruct t1 as [|x4 t1]; cbn in E.
            + injection E as E1 _ E3. subst c t2. exists [], (asked (r_tr s)). auto.
            + injection E as E1 E2. subst x4. destruct (B _ _ _ _ E2) as (t1' & g' & -> & Eg). exists (VReplace (slot s) (GWith (asked (r_tr s)) log_key (VOther n)) :: VProvideReq (GWith (asked (r_tr s)) log_key (VOther n)) :: VReq (asked (r_tr s)) :: e :: t1'), g'. auto. }
        apply (U_bind (rrun accept rv fs rfs ra f (slot s) (incr (slot s) (rnote s4 (VNext (slot s))))) (fun a => Done a)); [|auto].
        apply IH, U_incr, U_note; auto; exact Logic.I.
      + apply U_exec; [exact IH|]. apply U_note; auto; exact Logic.I.
    - apply U_bind; [|exact AF]. now apply IH, U_nest.
  Qed.
  Lemma trace_set : set_at trace.
  Proof using here.
    apply (U_run _ Outer rs0). split; [apply T0|]. intros t1 t2 c wr E. destruct t1; discriminate E.
  Qed.

  (** *** the logger is found *)
  Definition direct (k : bytes) (v : val) (g : goctx) : Prop := forall of, gives rv of k g (Some v).
  Definition via (k : bytes) (v : val) (g : goctx) : Prop := forall of, gives rv of k (GOf Outer) (Some v) -> gives rv of k g (Some v).
  Lemma direct_derived k v b g : derived (eq k) b g -> direct k v b -> direct k v g.
  Proof using Type. intros D H of. eapply derived_key; [exact D|apply H]. Qed.
  Lemma via_derived k v b g : derived (eq k) b g -> via k v b -> via k v g.
  Proof using Type. intros D H of X. eapply derived_key; [exact D|]. now apply H. Qed.
  Definition found (c : lvl) (t : list cev) : Prop :=
    direct log_key (VOther n) (stands t c) /\ direct log_key (VOther n) (asked t) /\ (c = Outer -> routed t -> via log_key (VOther n) (stands t Inner)).
  Lemma found_keep c e t : spares log_key c e t -> (c = Inner -> forall i wr, e <> VRoute i wr) -> found c t -> found c (e :: t).
  Proof using Type.
    intros Sp Nr (A & B & C).
    assert (Rt : forall e', (forall i wr, e' <> VRoute i wr) -> routed (e' :: t) -> routed t) by (intros e' N R; now apply (routed_cons e' t N)).
    destruct e; cbn [stands asked] in *; try (split; [exact A|]; split; [exact B|]; intros Ec R; apply (C Ec); eapply Rt; [|exact R]; intros; discriminate).
    - split; [destruct c; [exact A|exfalso; eapply Nr; reflexivity]|]. split; [exact B|]. intros _ _ of X. exact X.
    - cbn [spares] in Sp. split; [|split; [exact B|]].
      + destruct c0, c; cbn [lvl_eqb]; try exact A; (destruct (Sp ltac:(auto)) as [D|D]; eapply direct_derived; eauto).
      + intros Ec R. assert (R' : routed t) by (eapply Rt; [|exact R]; intros; discriminate). specialize (C Ec R'). subst c. destruct c0; cbn [lvl_eqb]; [exact C|]. destruct (Sp ltac:(auto)) as [D|D]; [eapply via_derived; [exact D|exact C]|]. intros of _. eapply direct_derived; eauto.
    - cbn [spares] in Sp. split; [exact A|]. split; [destruct Sp as [D|D]; eapply direct_derived; eauto|].
      intros Ec R. apply (C Ec). eapply Rt; [|exact R]. intros; discriminate.
  Qed.
  Lemma found_start c wr t : (c = Outer -> ~ routed t) -> found c (logger_set c (asked t) n ++ VStart l0 i0 c wr :: t).
  Proof using Type.
    intros R. unfold logger_set, found. cbn [List.app stands asked]. split; [|split].
    - destruct c; cbn [lvl_eqb]; intros of; apply gives_here.
    - intros of. apply gives_here.
    - intros Ec X. exfalso. apply (R Ec). repeat (apply routed_cons in X; [|intros; discriminate]). exact X.
  Qed.
  Lemma found_later c new old : spare_all log_key c new old -> (c = Inner -> forall i wr, ~ In (VRoute i wr) new) -> found c old -> found c (new ++ old).
  Proof using Type.
    induction new as [|e new IH]; intros Sp Nr F; [exact F|]. cbn in Sp. destruct Sp as (S1 & S2). cbn [List.app]. apply found_keep.
    - exact S1.
    - intros Ec i wr ->. apply (Nr Ec i wr). now left.
    - apply IH; auto. intros Ec i wr X. apply (Nr Ec i wr). now right.
  Qed.
  Lemma no_route_after t1 j c wr t2 i wr' : trace = t1 ++ VStart Inner j c wr :: t2 -> ~ In (VRoute i wr') t1.
  Proof using Type.
    intros E I. destruct (C168_at_most_once_in_order accept rv fs rfs ra) as (S1 & _ & _). rewrite E in S1.
    change (t1 ++ VStart Inner j c wr :: t2) with (t1 ++ [VStart Inner j c wr] ++ t2) in S1. rewrite !vstarts_app, vstarts_one in S1. cbn [vstarts_of] in S1.
    assert (J : In (Outer, i) (vstarts t1)).
    { unfold vstarts. apply in_flat_map. exists (VRoute i wr'). split; [now apply -> in_rev|now left]. }
    rewrite <- app_assoc in S1. clear - S1 J. induction (vstarts t2) as [|x l IH].
    - cbn in S1. inversion S1 as [|? ? S2 F]; subst. rewrite Forall_forall in F. exact (F _ J).
    - cbn in S1. inversion S1; subst. auto.
  Qed.

  (** ** C173 *)
  (** as soon as the filter starts, with the Context it is given, the logger is in place *)
  Theorem C173_filter_sets_logger t1 c wr t2 : trace = t1 ++ VStart l0 i0 c wr :: t2 -> c = l0 /\ exists t1', t1 = t1' ++ logger_set c (asked t2) n.
  Proof using here.
    intros E. split.
    - apply (C168_given_context accept rv fs rfs ra l0 i0 c wr). rewrite E. apply in_or_app. right. now left.
    - destruct (trace_set _ _ _ _ E) as (t1' & g & -> & ->). eauto.
  Qed.
  (** From then on every lookup of the logger finds the one the filter made, while the other handlers spare it: in
      the Context it was given, in that of the route (if the filter is one of the app), and in the request
      handlers are given. *)
  Theorem C173_logger_of_the_request t1 g r t3 c wr t4 :
    let t2 := t3 ++ logger_set c (asked t4) n ++ VStart l0 i0 c wr :: t4 in
    trace = t1 ++ VValue g log_key r :: t2 -> spare_all log_key c t3 (logger_set c (asked t4) n ++ VStart l0 i0 c wr :: t4) ->
    g = GOf c \/ g = asked t2 \/ (g = GOf Inner /\ routed t2) -> r = Some (VOther n).
  Proof using here.
    intros t2 E Sp Hg.
    assert (E' : trace = (t1 ++ VValue g log_key r :: t3 ++ logger_set c (asked t4) n) ++ VStart l0 i0 c wr :: t4) by (rewrite E; unfold t2; rewrite <- !app_assoc; cbn [List.app]; rewrite <- !app_assoc; reflexivity).
    destruct (C173_filter_sets_logger _ _ _ _ E') as (Ec & _).
    assert (F : found c t2).
    { apply found_later; [exact Sp| |apply found_start].
      - intros Hi i w I. rewrite <- Ec, Hi in E'. refine (no_route_after _ _ _ _ _ i w E' _). apply in_or_app. right. right. apply in_or_app. now left.
      - intros Ho (i & w & I). apply in_split in I. destruct I as (a & b & ->).
        assert (E2 : trace = ((t1 ++ VValue g log_key r :: t3 ++ logger_set c (asked (a ++ VRoute i w :: b)) n) ++ VStart l0 i0 c wr :: a) ++ VRoute i w :: b) by (rewrite E'; rewrite <- !app_assoc; reflexivity).
        pose proof (C168_app_chain_is_over accept rv fs rfs ra _ _ _ _ l0 i0 c wr E2) as X.
        assert (l0 = Inner) by (apply X; apply in_or_app; right; now left). congruence. }
    destruct F as (A & B & C). pose proof (C167_values_exact accept rv fs rfs ra _ _ _ E) as V. cbn in V.
    assert (O : gives rv (stands t2) log_key (GOf c) (Some (VOther n))) by (constructor; apply A).
    destruct Hg as [-> |[-> |(-> & R)]].
    - exact (gives_fun _ _ _ _ _ _ V O).
    - exact (gives_fun _ _ _ _ _ _ V (B _)).
    - destruct c; [|exact (gives_fun _ _ _ _ _ _ V O)]. refine (gives_fun _ _ _ _ _ _ V _). constructor. apply (C eq_refl R). exact O.
  Qed.

  (** ** C174 *)
  (** The filter puts the request's context behind the Context: after it every other value is what the request
      it was given says, whatever stood behind the Context before *)
  Theorem C174_values_of_the_request t1 k r t3 c wr t4 :
    let t2 := t3 ++ logger_set c (asked t4) n ++ VStart l0 i0 c wr :: t4 in
    trace = t1 ++ VValue (GOf c) k r :: t2 -> k <> log_key -> (forall g, ~ In (VReplace c g) t3) -> (forall i w, c = Inner -> ~ In (VRoute i w) t3) ->
    gives rv (stands t2) k (asked t4) r.
  Proof using Type.
    intros t2 E Nk Nr Ni. pose proof (C167_values_exact accept rv fs rfs ra _ _ _ E) as V. cbn in V. inversion V as [| | |? ? H]; subst.
    assert (S1 : stands t2 c = GWith (asked t4) log_key (VOther n)).
    { clear - Nr Ni. unfold t2. induction t3 as [|e t3 IH]; [destruct c; reflexivity|].
      assert (X : stands (t3 ++ logger_set c (asked t4) n ++ VStart l0 i0 c wr :: t4) c = GWith (asked t4) log_key (VOther n)).
      { apply IH; [intros g I; apply (Nr g); now right|intros i w Ec I; apply (Ni i w Ec); now right]. }
      cbn [List.app]. destruct e; cbn [stands]; auto.
      - destruct c; [exact X|]. exfalso. eapply Ni; [reflexivity|now left].
      - destruct c0, c; cbn [lvl_eqb]; auto; exfalso; eapply Nr; now left. }
    rewrite S1 in H. inversion H; subst; [congruence|assumption].
  Qed.
End Log.

(** GetLogger and WithLogger by themselves: a logger given with WithLogger is found until another one is; without
    any, GetLogger gives the package's own *)
Theorem C173_with_logger accept rv x g n k next s :
  rexec accept rv (get_logger x (with_logger g n) k) next s = rexec accept rv (k n) next (rnote s (VValue (with_logger g n) log_key (Some (VOther n)))).
Proof.
  unfold get_logger, with_logger. cbn [rexec]. unfold value. cbn [walk]. rewrite beq_refl. reflexivity.
Qed.
Theorem C173_get_logger accept rv x g k next s :
  (forall r, gives rv (ctx_of s) log_key g r -> exists s', rexec accept rv (get_logger x g k) next s = rexec accept rv (k match r with Some (VOther n) => n | _ => x end) next s') /\
  ((forall r, ~ gives rv (ctx_of s) log_key g r) -> exists s', rexec accept rv (get_logger x g k) next s = Deadlock s').
Proof.
  unfold get_logger. cbn [rexec]. pose proof (value_spec rv (ctx_of s) log_key g) as V. destruct (value rv (ctx_of s) g log_key) as [r|]; (split; [|]).
  - intros r' H. rewrite (gives_fun _ _ _ _ _ _ H V). eexists. reflexivity.
  - intros N. destruct (N _ V).
  - intros r H. destruct (V _ H).
  - intros _. eexists. reflexivity.
Qed.

(** Full claim: values a filter puts behind the Context (C167_example's [adds_behind]) are found by all later handlers. With the
    logger filter after it they are not, for a key the request has no value for *)
Theorem C174_values_survive_refuted : forall accept rv, rv (bs "user") = None ->
  hd_error (trace accept rv [Some (adds_behind (bs "user") (VOther 7)); Some (req_logger 1)] [] (Some (asks (bs "user")))) = Some (VValue (GOf Inner) (bs "user") None) /\
  hd_error (trace accept rv [Some (adds_behind (bs "user") (VOther 7))] [Some (req_logger 1)] (Some (asks (bs "user")))) = Some (VValue (GOf Inner) (bs "user") None) /\
  hd_error (trace accept rv [Some (req_logger 1); Some (adds_behind (bs "user") (VOther 7))] [] (Some (asks (bs "user")))) = Some (VValue (GOf Inner) (bs "user") (Some (VOther 7))).
Proof.
  intros accept rv E. assert (X : forall r, Some (VValue (GOf Inner) (bs "user") (rv (bs "user"))) = r -> Some (VValue (GOf Inner) (bs "user") None) = r) by (intros r H; rewrite <- H, E; reflexivity).
  split; [|split]; [symmetry; apply X; reflexivity|symmetry; apply X; reflexivity|reflexivity].
Qed.
(** a filter that provides a request with the value as well keeps it *)
Definition adds_to_request (k : bytes) (v : val) : handler := fun ctx => RReq (fun g => RProvideReq (GWith g k v) (RReplace ctx (GWith g k v) (RNext ctx RRet))).
Example C174_case : forall accept rv,
  hd_error (trace accept rv [Some (adds_to_request (bs "user") (VOther 7)); Some (req_logger 1)] [] (Some (asks (bs "user")))) = Some (VValue (GOf Inner) (bs "user") (Some (VOther 7))).
Proof. intros. reflexivity. Qed.
(** the theorems' hypotheses can be met: the filter, one more that adds a value behind the Context, and a route that asks *)
Example C173_case : forall accept rv, let fs := [Some (req_logger 5); Some (adds_behind (bs "user") (VOther 7))] in
  exists t1 t3 t4, what_at fs [] (Some (asks log_key)) Outer 0 = Handler (req_logger 5) /\
    trace accept rv fs [] (Some (asks log_key)) = t1 ++ VValue (GOf Inner) log_key (Some (VOther 5)) :: t3 ++ logger_set Outer (asked t4) 5 ++ VStart Outer 0 Outer false :: t4 /\
    spare_all log_key Outer t3 (logger_set Outer (asked t4) 5 ++ VStart Outer 0 Outer false :: t4) /\ routed (t3 ++ logger_set Outer (asked t4) 5 ++ VStart Outer 0 Outer false :: t4).
Proof.
  intros accept rv fs. set (g0 := GWith GReq ctx_key (VContext Outer)). set (g1 := GWith g0 log_key (VOther 5)).
  exists [], [VStart Inner 0 Inner false; VRoute 2 false; VNext Outer; VReplace Outer (GWith g1 (bs "user") (VOther 7)); VGet Outer g1; VStart Outer 1 Outer false; VNext Outer], [].
  split; [reflexivity|]. split; [reflexivity|]. split.
  - cbn. repeat split; auto. intros _. left. apply derived_with; [discriminate|constructor].
  - exists 2, false. cbn. auto.
Qed.

Print Assumptions C173_key.
Print Assumptions C173_filter_sets_logger.
Print Assumptions C173_logger_of_the_request.
Print Assumptions C174_values_of_the_request.
Print Assumptions C173_with_logger.
Print Assumptions C173_get_logger.
Print Assumptions C174_values_survive_refuted.
