(** Props_ReqCtx: C167 what the Contexts of a request answer, C168 handlers that
    hold several Contexts. The connection, the values of the net/http context,
    the filters, the route and all handlers are arbitrary. *)
From Coq Require Import List Ascii String Bool Arith ZArith Lia Sorting.Sorted.
Import ListNotations.
From Verif Require Import GoStr RespModel RespSpec RespFacts ChainModel ChainFacts Props_Chain ReqCtxModel ReqCtxFacts.
From Verif Require CtxValModel Props_CtxVal.

(** ** Specification *)
(** What context.Context.Value answers for a key, given what stands behind each
    strip Context: there is an answer only if the lookup ends. *)
Inductive gives (rv : bytes -> option val) (behind : lvl -> goctx) (k : bytes) : goctx -> option val -> Prop :=
| gives_req : gives rv behind k GReq (rv k)
| gives_here p v : gives rv behind k (GWith p k v) (Some v)
| gives_up p k' v r : k <> k' -> gives rv behind k p r -> gives rv behind k (GWith p k' v) r
| gives_strip l r : gives rv behind k (behind l) r -> gives rv behind k (GOf l) r.

(** What stands behind a Context after the events [t] (newest first): what
    ReplaceContext was last given, else, for the app's Context, the request's context
    with that Context in it, and for the route's Context, the app's Context. *)
Fixpoint stands (t : list cev) (l : lvl) : goctx :=
  match t with
  | [] => match l with Outer => GWith GReq ctx_key (VContext Outer) | Inner => GOf Outer end
  | VReplace c g :: t => if lvl_eqb c l then g else stands t l
  | VRoute _ _ :: t => match l with Inner => GOf Outer | Outer => stands t Outer end
  | _ :: t => stands t l
  end.
(** the context of the request that handlers are given after the events [t] *)
Fixpoint asked (t : list cev) : goctx :=
  match t with
  | [] => GWith GReq ctx_key (VContext Outer)
  | VProvideReq g :: _ => g
  | _ :: t => asked t
  end.
Definition routed (t : list cev) : Prop := exists i wr, In (VRoute i wr) t.

(** [g] is [b] with values added (context.WithValue any number of times), none of
    them under a key of [not] *)
Inductive derived (not : bytes -> Prop) (b : goctx) : goctx -> Prop :=
| derived_same : derived not b b
| derived_with p k v : ~ not k -> derived not b p -> derived not b (GWith p k v).
Definition any_key : bytes -> Prop := fun _ => False.

(** ** The lookup function of the model *)
Section Value.
  Variable rv : bytes -> option val.
  Variable of : lvl -> goctx.
  Variable k : bytes.
  Inductive leads : goctx -> lvl -> Prop :=
  | leads_here l : leads (GOf l) l
  | leads_up p k' v l : k <> k' -> leads p l -> leads (GWith p k' v) l.
  Inductive gh : nat -> goctx -> option val -> Prop :=
  | gh_req n : gh n GReq (rv k)
  | gh_here n p v : gh n (GWith p k v) (Some v)
  | gh_up n p k' v r : k <> k' -> gh n p r -> gh (S n) (GWith p k' v) r
  | gh_strip n l r : gh n (of l) r -> gh (S n) (GOf l) r.
  Lemma gives_gh g r : gives rv of k g r -> exists n, gh n g r.
  Proof.
    induction 1 as [|p v|p k' v r N _ (n & IH)|l r _ (n & IH)]; [exists 0|exists 0|exists (S n)|exists (S n)]; try now constructor.
  Qed.
  Lemma leads_gh g l : leads g l -> forall n r, gh n g r -> exists n', n' <= n /\ gh n' (GOf l) r.
  Proof.
    induction 1 as [l|p k' v l N _ IH]; intros n r H; [eauto|].
    inversion H; subst; [congruence|]. destruct (IH _ _ H6) as (n' & L & K). exists n'. split; [lia|exact K].
  Qed.
  Lemma loop1 l : leads (of l) l -> forall n r, ~ gh n (GOf l) r.
  Proof.
    intros L. induction n as [n IH] using lt_wf_ind. intros r H. inversion H; subst.
    destruct (leads_gh _ _ L _ _ H2) as (n' & Ln & K). apply (IH n') with r; [lia|exact K].
  Qed.
  Lemma loop2 l l' : leads (of l) l' -> leads (of l') l -> forall n r, ~ gh n (GOf l) r.
  Proof.
    intros L L'. induction n as [n IH] using lt_wf_ind. intros r H. inversion H; subst.
    destruct (leads_gh _ _ L _ _ H2) as (n' & Ln & K). inversion K; subst.
    destruct (leads_gh _ _ L' _ _ H3) as (n'' & Ln' & K'). apply (IH n'') with r; [lia|exact K'].
  Qed.
  Lemma walk_cases g : (exists l, leads g l /\ forall via, walk rv k via g = via l) \/ (exists r, (forall via, walk rv k via g = Some r) /\ gives rv of k g r).
  Proof.
    induction g as [|p IH k' v|l]; cbn [walk].
    - right. eexists. split; [reflexivity|constructor].
    - destruct (beq k k') eqn:B.
      + apply beq_true in B. subst k'. right. eexists. split; [reflexivity|constructor].
      + assert (N : k <> k') by (intros ->; rewrite beq_refl in B; discriminate).
        destruct IH as [(l & L & W)|(r & W & Gv)]; [left; exists l|right; exists r]; (split; [|]); auto; now constructor.
    - left. exists l. split; [constructor|reflexivity].
  Qed.
  Lemma leads_gives g l r : leads g l -> gives rv of k (GOf l) r -> gives rv of k g r.
  Proof. induction 1; auto. intros H1. apply gives_up; auto. Qed.
  Lemma leads_not g l : leads g l -> (forall n r, ~ gh n (GOf l) r) -> forall r, ~ gives rv of k g r.
  Proof. intros L N r H. apply gives_gh in H. destruct H as (n & H). destruct (leads_gh _ _ L _ _ H) as (n' & _ & K). exact (N _ _ K). Qed.
  (** the model's answer is an answer; without one, there is none *)
  Lemma value_spec g : match value rv of g k with Some r => gives rv of k g r | None => forall r, ~ gives rv of k g r end.
  Proof.
    unfold value. destruct (walk_cases g) as [(l & L & ->)|(r & -> & Gv)]; [|exact Gv].
    destruct (walk_cases (of l)) as [(l' & L' & ->)|(r & -> & Gv)].
    2:{ eapply leads_gives; [exact L|]. now constructor. }
    destruct (lvl_eqb l' l) eqn:E.
    { assert (l' = l) by (destruct l', l; congruence || discriminate). subst l'. eapply leads_not; [exact L|]. now apply loop1. }
    destruct (walk_cases (of l')) as [(l'' & L'' & ->)|(r & -> & Gv)].
    - eapply leads_not; [exact L|]. assert (X : l'' = l \/ l'' = l') by (destruct l, l', l''; auto; discriminate E).
      destruct X as [-> | ->]; [now apply (loop2 l l')|].
      intros n r H. inversion H; subst. destruct (leads_gh _ _ L' _ _ H2) as (n' & _ & K). exact (loop1 l' L'' _ _ K).
    - eapply leads_gives; [exact L|]. constructor. eapply leads_gives; [exact L'|]. now constructor.
  Qed.
  Lemma gives_fun g r r' : gives rv of k g r -> gives rv of k g r' -> r = r'.
  Proof. intros H. revert r'. induction H; intros r' H'; inversion H'; subst; auto; congruence. Qed.
End Value.

(** ** Every event is as the events before it say *)
Section Trace.
  Variable accept : list wev -> bytes -> nat.
  Variable rv : bytes -> option val.
  Variable fs rfs : list (option handler).
  Variable ra : option handler.
  Definition legit (e : cev) (t : list cev) : Prop :=
    match e with
    | VValue g k r => gives rv (stands t) k g r
    | VOverflow g k => forall r, ~ gives rv (stands t) k g r
    | VGet c g => g = stands t c
    | VFind c => c = Inner <-> routed t
    | VReq g => g = asked t
    | _ => True
    end.
  Fixpoint legits (t : list cev) : Prop := match t with [] => True | e :: t => legit e t /\ legits t end.
  Definition T (s : rs) : Prop :=
    (forall l, ctx_of s l = stands (r_tr s) l) /\ (slot s = Inner <-> routed (r_tr s)) /\ r_req s = asked (r_tr s) /\ legits (r_tr s).
  Lemma gives_ext of of' k g r : (forall l, of l = of' l) -> gives rv of k g r -> gives rv of' k g r.
  Proof. intros X. induction 1; try now constructor. constructor. now rewrite <- X. Qed.
  Lemma routed_cons e t : (forall i wr, e <> VRoute i wr) -> (routed (e :: t) <-> routed t).
  Proof. intros N. unfold routed. split; intros (i & wr & H); exists i, wr; [destruct H as [H|H]; [now apply N in H|exact H]|now right]. Qed.
  (** an event that leaves the Contexts alone *)
  Definition plain_ev (e : cev) : Prop := match e with VRoute _ _ | VReplace _ _ | VProvideReq _ => False | _ => True end.
  Lemma T_note s e : plain_ev e -> legit e (r_tr s) -> T s -> T (rnote s e).
  Proof.
    intros P L (A & B & Q & C). split; [|split; [|split]].
    - intros l. cbn [rnote r_tr]. rewrite <- (A l) || idtac. destruct e; cbn in P; try contradiction; cbn [stands]; rewrite <- A; destruct l; reflexivity.
    - cbn [rnote r_tr]. rewrite routed_cons by (intros i wr ->; exact P). exact B.
    - cbn [rnote r_tr r_req]. destruct e; cbn in P; try contradiction; exact Q.
    - split; [exact L|exact C].
  Qed.
  Lemma T_op o s : T s -> T (oval (rdo accept o s)).
  Proof.
    intros H. apply (T_note s (VOp o) Logic.I Logic.I) in H. destruct H as (A & B & Q & C).
    destruct (rdo_shape accept o s) as (S1 & S2 & S3 & S4 & S6 & S5). unfold T, ctx_of, slot in *. rewrite S2, S5, S6. cbn [rnote r_ii r_tr r_oc r_ic r_req] in *.
    split; [|split; [exact B|split; [exact Q|exact C]]]. intros l. specialize (A l). destruct l; [rewrite S3|rewrite S4]; exact A.
  Qed.
  Lemma T_incr l s : T s -> T (incr l s).
  Proof.
    intros (A & B & Q & C). unfold T. rewrite incr_tr. split; [|split; [|split; [destruct l; exact Q|exact C]]].
    - intros l'. rewrite <- A. destruct l, l'; reflexivity.
    - rewrite <- B. destruct l; unfold slot; cbn; [reflexivity|]. destruct (r_ii s); cbn; tauto.
  Qed.
  Lemma T_replace c g s : T s -> T (replace c g (rnote s (VReplace c g))).
  Proof.
    intros (A & B & Q & C). split; [|split; [|split]].
    - intros l. destruct c, l; cbn; auto; apply (A Outer) || apply (A Inner).
    - destruct c; cbn [replace rnote r_tr]; rewrite routed_cons by (intros; discriminate); exact B.
    - destruct c; exact Q.
    - destruct c; cbn; auto.
  Qed.
  Lemma T_nest i wr s : T s -> T (nest (rnote s (VRoute i wr))).
  Proof.
    intros (A & B & Q & C). split; [|split; [|split]].
    - intros l. destruct l; cbn; [apply (A Outer)|reflexivity].
    - cbn. split; [|reflexivity]. intros _. exists i, wr. now left.
    - exact Q.
    - cbn. auto.
  Qed.
  Lemma T_provide g s : T s -> T (set_req g (rnote s (VProvideReq g))).
  Proof.
    intros (A & B & Q & C). split; [|split; [|split]].
    - intros l. specialize (A l). destruct l; exact A.
    - cbn [set_req rnote r_tr]. rewrite routed_cons by (intros; discriminate). exact B.
    - reflexivity.
    - cbn. auto.
  Qed.
  Lemma T_bind x f : T (oval x) -> (forall a, T a -> T (oval (f a))) -> T (oval (obind x f)).
  Proof. destruct x; cbn; auto. Qed.
  Lemma T_exec next : (forall c s, T s -> T (oval (next c s))) -> forall a s, T s -> T (oval (rexec accept rv a next s)).
  Proof.
    intros Hn. induction a as [|o k IH|k IH|k IH|c k IH|c k IH|c g k IH|g key k IH|k IH|g k IH|v|b IHb r IHr k IHk]; intros s H; cbn [rexec]; auto.
    - apply T_bind; [now apply T_op|exact IH].
    - apply IH. apply T_note; [exact Logic.I| |exact H]. cbn. apply H.
    - apply T_bind; [|exact IH]. apply Hn, T_incr, T_note; auto; exact Logic.I.
    - apply IH. apply T_note; [exact Logic.I| |exact H]. cbn. apply H.
    - now apply IH, T_replace.
    - pose proof (value_spec rv (ctx_of s) key g) as V. pose proof H as (A & _). destruct (value rv (ctx_of s) g key) as [r|].
      + apply IH. apply T_note; [exact Logic.I| |exact H]. cbn. eapply gives_ext; [exact A|exact V].
      + apply T_note; [exact Logic.I| |exact H]. cbn. intros r X. apply (V r). eapply gives_ext; [|exact X]. intros l. symmetry. apply A.
    - apply IH. apply T_note; [exact Logic.I| |exact H]. cbn. apply H.
    - now apply IH, T_provide.
    - specialize (IHb s H). destruct (rexec accept rv b next s); cbn in *; auto.
  Qed.
  Lemma T_run fuel : forall l s, T s -> T (oval (rrun accept rv fs rfs ra fuel l s)).
  Proof.
    induction fuel as [|f IH]; intros l s H; cbn [rrun]; [exact H|].
    destruct (idx l s) as [i|]; [|exact H]. destruct (Nat.leb i (clen fs rfs l)); [|exact H].
    assert (AF : forall a, T a -> T (oval (let s'' := incr l a in if written (r_rw s'') then Done s'' else rrun accept rv fs rfs ra f l s''))).
    { intros a Ha. cbv zeta. apply (T_incr l) in Ha. destruct (written (r_rw (incr l a))); [exact Ha|now apply IH]. }
    destruct (what_at fs rfs ra l i) as [|h|].
    - now apply IH, T_incr.
    - apply T_bind; [|exact AF]. apply T_exec; [exact IH|]. apply T_note; auto; exact Logic.I.
    - apply T_bind; [|exact AF]. now apply IH, T_nest.
  Qed.
  Lemma T0 : T rs0.
  Proof. repeat split; auto; try discriminate; intros X; try (destruct X as (i & wr & [])); destruct l; reflexivity. Qed.
  Lemma legits_at t1 e t2 : legits (t1 ++ e :: t2) -> legit e t2.
  Proof. induction t1 as [|x t1 IH]; cbn; [tauto|]. intros (_ & H). auto. Qed.
  Definition trace : list cev := r_tr (oval (rserve accept rv fs rfs ra)).
  Lemma trace_legits : legits trace.
  Proof. apply (T_run _ Outer rs0 T0). Qed.

  (** ** C167 *)
  (** Every lookup of every handler is answered from what the Contexts were last
      given, and a lookup that never returns is one for which there is no
      answer; GetContext gives what ReplaceContext was last given. *)
  Theorem C167_values_exact t1 e t2 : trace = t1 ++ e :: t2 ->
    match e with
    | VValue g k r => gives rv (stands t2) k g r
    | VOverflow g k => forall r, ~ gives rv (stands t2) k g r
    | VGet c g => g = stands t2 c
    | _ => True
    end.
  Proof using Type.
    intros E. pose proof trace_legits as L. rewrite E in L. apply legits_at in L. destruct e; auto.
  Qed.
  (** the route's Context answers like the app's until it is replaced *)
  Theorem C167_route_sees_app t1 k r t2 : trace = t1 ++ VValue (GOf Inner) k r :: t2 ->
    (forall g, ~ In (VReplace Inner g) t2) -> gives rv (stands t2) k (GOf Outer) r.
  Proof using Type.
    intros E N. pose proof (C167_values_exact _ _ _ E) as H. cbn in H.
    assert (S1 : stands t2 Inner = GOf Outer).
    { clear - N. induction t2 as [|e t2 IH]; [reflexivity|].
      assert (N' : forall g, ~ In (VReplace Inner g) t2) by (intros g I; apply (N g); now right). specialize (IH N').
      destruct e; cbn; auto. destruct c; cbn; auto. exfalso. eapply N. now left. }
    inversion H; subst. now rewrite S1 in *.
  Qed.
  (** what the route's Context was given never shows in the app's *)
  Theorem C167_app_keeps_its_values t1 k r t2 : trace = t1 ++ VValue (GOf Outer) k r :: t2 ->
    (forall g, ~ In (VReplace Outer g) t2) -> r = if bytes_eq_dec k ctx_key then Some (VContext Outer) else rv k.
  Proof using Type.
    intros E N. pose proof (C167_values_exact _ _ _ E) as H. cbn in H.
    assert (S1 : stands t2 Outer = GWith GReq ctx_key (VContext Outer)).
    { clear - N. induction t2 as [|e t2 IH]; [reflexivity|].
      assert (N' : forall g, ~ In (VReplace Outer g) t2) by (intros g I; apply (N g); now right). specialize (IH N').
      destruct e; cbn; auto. destruct c; cbn; auto. exfalso. eapply N. now left. }
    inversion H; subst. rewrite S1 in *. destruct (bytes_eq_dec k ctx_key) as [->|Nk].
    - match goal with X : gives _ _ _ (GWith _ _ _) _ |- _ => inversion X; subst; [reflexivity|congruence] end.
    - match goal with X : gives _ _ _ (GWith _ _ _) _ |- _ => inversion X; subst; [congruence|] end.
      match goal with X : gives _ _ _ GReq _ |- _ => inversion X; subst; reflexivity end.
  Qed.
  (** Lookups return if every replacement is made from what it replaces (or from the
      plain request context) by adding values *)
  Definition replacements_derived (not : bytes -> Prop) : Prop := forall t1 c g t2, trace = t1 ++ VReplace c g :: t2 ->
    derived not (stands t2 c) g \/ derived not GReq g.
  (** strip Contexts [g] ends in *)
  Fixpoint tail (g : goctx) : option lvl := match g with GReq => None | GWith p _ _ => tail p | GOf l => Some l end.
  Lemma derived_tail not b g : derived not b g -> tail g = tail b.
  Proof. induction 1; auto. Qed.
  Lemma stands_tail t2 : (forall t1 c g t3, t2 = t1 ++ VReplace c g :: t3 -> derived any_key (stands t3 c) g \/ derived any_key GReq g) ->
    tail (stands t2 Outer) = None /\ tail (stands t2 Inner) <> Some Inner.
  Proof.
    induction t2 as [|e t2 IH]; intros D; [split; [reflexivity|discriminate]|].
    assert (D' : forall t1 c g t3, t2 = t1 ++ VReplace c g :: t3 -> derived any_key (stands t3 c) g \/ derived any_key GReq g).
    { intros t1 c g t3 ->. apply (D (e :: t1)). reflexivity. }
    specialize (IH D'). destruct IH as (I1 & I2). destruct e; cbn [stands]; auto.
    - split; [exact I1|discriminate].
    - specialize (D [] c g t2 eq_refl). destruct c; cbn [lvl_eqb]; (split; [|]); auto.
      + destruct D as [D|D]; apply derived_tail in D; now rewrite D.
      + destruct D as [D|D]; apply derived_tail in D; rewrite D; [exact I2|discriminate].
  Qed.
  Lemma tail_gives of k g : (forall l, tail g = Some l -> exists r, gives rv of k (GOf l) r) -> exists r, gives rv of k g r.
  Proof.
    induction g as [|p IH k' v|l]; cbn [tail]; intros H.
    - eexists. constructor.
    - destruct (bytes_eq_dec k k') as [->|N]; [eexists; constructor|]. destruct (IH H) as (r & X). eexists. apply gives_up; eauto.
    - now apply H.
  Qed.
  Theorem C167_derived_lookups_return g k : replacements_derived any_key -> ~ In (VOverflow g k) trace.
  Proof using Type.
    intros D I. apply in_split in I. destruct I as (t1 & t2 & E). pose proof (C167_values_exact _ _ _ E) as H. cbn in H.
    destruct (stands_tail t2) as (S1 & S2).
    { intros t0 c g' t3 E2. apply (D (t1 ++ VOverflow g k :: t0) c g' t3). rewrite E, E2, <- app_assoc. reflexivity. }
    assert (X1 : exists r, gives rv (stands t2) k (GOf Outer) r).
    { destruct (tail_gives (stands t2) k (stands t2 Outer)) as (r & X); [rewrite S1; discriminate|]. exists r. now constructor. }
    assert (X2 : exists r, gives rv (stands t2) k (GOf Inner) r).
    { destruct (tail_gives (stands t2) k (stands t2 Inner)) as (r & X); [|exists r; now constructor].
      intros l. destruct l; [auto|]. intros K. now apply S2 in K. }
    destruct (tail_gives (stands t2) k g) as (r & X); [intros [] _; auto|]. exact (H r X).
  Qed.
  (** and then the Context found under the request is the app's, for every handler:
      also for those of the route *)
  Lemma derived_key b g k of r : derived (eq k) b g -> gives rv of k b r -> gives rv of k g r.
  Proof. induction 1 as [|p k' v N _ IH]; auto. intros H. apply gives_up; auto. Qed.
  Theorem C167_context_of_the_request l t1 r t2 : trace = t1 ++ VValue (GOf l) ctx_key r :: t2 ->
    (forall t1 c g t3, trace = t1 ++ VReplace c g :: t3 -> derived (eq ctx_key) (stands t3 c) g) -> r = Some (VContext Outer).
  Proof using Type.
    intros E D. pose proof (C167_values_exact _ _ _ E) as H. cbn in H.
    assert (D2 : forall t0 c g t3, t2 = t0 ++ VReplace c g :: t3 -> derived (eq ctx_key) (stands t3 c) g).
    { intros t0 c g t3 E2. apply (D (t1 ++ VValue (GOf l) ctx_key r :: t0) c g t3). rewrite E, E2, <- app_assoc. reflexivity. }
    assert (X : (forall of, gives rv of ctx_key (stands t2 Outer) (Some (VContext Outer))) /\
                (forall of, gives rv of ctx_key (GOf Outer) (Some (VContext Outer)) -> gives rv of ctx_key (stands t2 Inner) (Some (VContext Outer)))).
    { clear - D2. induction t2 as [|e t2 IH].
      - split; [intros of; apply gives_here|auto].
      - assert (D' : forall t0 c g t3, t2 = t0 ++ VReplace c g :: t3 -> derived (eq ctx_key) (stands t3 c) g) by (intros t0 c g t3 ->; apply (D2 (e :: t0)); reflexivity).
        destruct (IH D') as (I1 & I2). destruct e; cbn [stands]; auto. specialize (D2 [] c g t2 eq_refl).
        destruct c; cbn [lvl_eqb]; (split; [|]); auto; intros of; [|intros K]; eapply derived_key; eauto. }
    destruct X as (X1 & X2).
    assert (Y1 : gives rv (stands t2) ctx_key (GOf Outer) (Some (VContext Outer))) by (constructor; apply X1).
    destruct l; [exact (gives_fun _ _ _ _ _ _ H Y1)|]. refine (gives_fun _ _ _ _ _ _ H _). constructor. now apply X2.
  Qed.
End Trace.

(** a Context that stands behind itself answers no key but those added on the way *)
Theorem C167_behind_itself : forall rv behind c k r, derived (eq k) (GOf c) (behind c) -> ~ gives rv behind k (GOf c) r.
Proof.
  intros rv of c k r D H. apply gives_gh in H. destruct H as (n & H).
  assert (L : leads k (of c) c) by (clear - D; induction D; constructor; auto).
  exact (loop1 rv of k c L n r H).
Qed.
(** Full claim: every lookup returns. False: a filter that adds a value to the
    Context itself, instead of to what GetContext gives. *)
Definition adds_to_itself : handler := fun ctx =>
  RReplace ctx (GWith (GOf ctx) (bs "user") (VOther 7)) (RNext ctx RRet).
Definition asks (k : bytes) : handler := fun ctx => RValue (GOf ctx) k (fun _ => RRet).
Theorem C167_lookups_return_refuted : forall accept rv,
  trace accept rv [Some adds_to_itself] [] (Some (asks (bs "user"))) =
    [VValue (GOf Inner) (bs "user") (Some (VOther 7)); VStart Inner 0 Inner false; VRoute 1 false; VNext Outer;
     VReplace Outer (GWith (GOf Outer) (bs "user") (VOther 7)); VStart Outer 0 Outer false] /\
  exists s, rserve accept rv [Some adds_to_itself] [] (Some (asks (bs "reqid"))) = Deadlock s /\
    hd_error (r_tr s) = Some (VOverflow (GOf Inner) (bs "reqid")).
Proof. intros accept rv. split; [reflexivity|]. eexists. split; reflexivity. Qed.
(** with GetContext both return *)
Definition adds_behind (k : bytes) (v : val) : handler := fun ctx => RGet ctx (fun g => RReplace ctx (GWith g k v) (RNext ctx RRet)).
Example C167_example : forall accept rv,
  let tr := trace accept rv [Some (fun ctx => RGet ctx (fun g => RReplace ctx (GWith g (bs "user") (VOther 7)) (RNext ctx (RValue (GOf ctx) (bs "page") (fun _ => RRet)))))]
                  [Some (adds_behind (bs "page") (VOther 8))] (Some (fun ctx => RValue (GOf ctx) (bs "user") (fun _ => RValue (GOf ctx) (bs "page") (fun _ => RValue (GOf ctx) ctx_key (fun _ => RRet))))) in
  In (VValue (GOf Inner) (bs "user") (Some (VOther 7))) tr /\ In (VValue (GOf Inner) (bs "page") (Some (VOther 8))) tr /\
  In (VValue (GOf Inner) ctx_key (Some (VContext Outer))) tr /\ In (VValue (GOf Outer) (bs "page") (rv (bs "page"))) tr.
Proof. intros accept rv. vm_compute. repeat split; tauto. Qed.

(** ** C168 *)
Section Next.
  Variable accept : list wev -> bytes -> nat.
  Variable rv : bytes -> option val.
  Variable fs rfs : list (option handler).
  Variable ra : option handler.
  Notation tr := (trace accept rv fs rfs ra).
  (** the handlers of the request *)
  Definition is_handler (p : lvl * nat) : Prop :=
    match p with
    | (Outer, i) => (exists h, nth_error fs i = Some (Some h)) \/ i = List.length fs
    | (Inner, j) => (exists h, nth_error rfs j = Some (Some h)) \/ (j = List.length rfs /\ ra <> None)
    end.
  (** Whatever Contexts the handlers call Next on, each handler starts at most
      once, the app's before the route's, in the order of the chain *)
  Theorem C168_at_most_once_in_order :
    StronglySorted earlier (vstarts tr) /\ NoDup (vstarts tr) /\ Forall is_handler (vstarts tr).
  Proof using Type.
    destruct (rrun_good accept rv fs rfs ra (List.length fs + List.length rfs + 4) Outer rs0 (entry0 fs)) as (_ & _ & _ & d & E & S1 & _ & F).
    change (r_tr rs0) with (@nil cev) in E. rewrite app_nil_r in E. unfold trace, rserve. rewrite E.
    split; [exact S1|]. split; [|eapply Forall_impl; [|exact F]; intros [[|] i] (_ & _ & P); exact P].
    clear - S1. induction S1 as [|x l S IH F]; constructor; auto. intros Hin. rewrite Forall_forall in F. specialize (F _ Hin).
    destruct x as [[|] i]; cbn in F; lia.
  Qed.
  (** a handler is given the Context of its own chain *)
  Theorem C168_given_context l i c wr : In (VStart l i c wr) tr -> c = l.
  Proof using Type.
    destruct (rrun_good accept rv fs rfs ra (List.length fs + List.length rfs + 4) Outer rs0 (entry0 fs)) as (_ & _ & _ & d & E & _ & K & _).
    change (r_tr rs0) with (@nil cev) in E. rewrite app_nil_r in E. unfold trace, rserve. rewrite E. intros I.
    rewrite Forall_forall in K. apply K in I. apply I.
  Qed.
  (** a lookup of the Context gives the route's from when the router starts, to
      the app's filters too *)
  Theorem C168_found_context t1 c t2 : tr = t1 ++ VFind c :: t2 -> (c = Inner <-> routed t2).
  Proof using Type.
    intros E. pose proof (trace_legits accept rv fs rfs ra) as L. rewrite E in L. now apply legits_at in L.
  Qed.
  (** once the router runs no Next starts a handler of the app's chain *)
  Theorem C168_app_chain_is_over t1 i wr t2 l j c wr' : tr = t1 ++ VRoute i wr :: t2 -> In (VStart l j c wr') t1 -> l = Inner.
  Proof using Type.
    intros E I. destruct C168_at_most_once_in_order as (S1 & _ & F). rewrite E in S1, F.
    change (t1 ++ VRoute i wr :: t2) with (t1 ++ [VRoute i wr] ++ t2) in *. rewrite !vstarts_app, vstarts_one in *. cbn [vstarts_of] in *.
    destruct l; [|reflexivity]. exfalso.
    assert (J : In (Outer, j) (vstarts t1)).
    { unfold vstarts. apply in_flat_map. exists (VStart Outer j c wr'). split; [now apply -> in_rev|now left]. }
    rewrite <- app_assoc in S1, F.
    assert (X : earlier (Outer, i) (Outer, j)).
    { clear - S1 J. induction (vstarts t2) as [|x l IH].
      - cbn in S1. inversion S1 as [|? ? S2 F]; subst. rewrite Forall_forall in F. now apply F.
      - cbn in S1. inversion S1; subst. auto. }
    destruct (rrun_good accept rv fs rfs ra (List.length fs + List.length rfs + 4) Outer rs0 (entry0 fs)) as (_ & _ & _ & d & Ed & _ & K & Fd).
    change (r_tr rs0) with (@nil cev) in Ed. rewrite app_nil_r in Ed. unfold trace, rserve in E. rewrite Ed in E. subst d.
    rewrite Forall_forall in K. assert (I1 : okev fs rfs ra (VStart Outer j c wr')) by (apply K, in_or_app; now left).
    assert (I2 : okev fs rfs ra (VRoute i wr)) by (apply K, in_or_app; right; now left).
    cbn in I1, I2, X. destruct I1 as (_ & _ & I1). specialize (I1 eq_refl). lia.
  Qed.
  (** a request ends, but for a lookup that never returns or a write whose hooks
      block it: no use of Next keeps it going *)
  Theorem C168_requests_end s : rserve accept rv fs rfs ra = Deadlock s ->
    exists e t, r_tr s = e :: t /\ ((exists g k, e = VOverflow g k) \/ (exists o, e = VOp o)).
  Proof using Type.
    intros H. pose proof (rrun_ends accept rv fs rfs ra (List.length fs + List.length rfs + 4) Outer rs0 (entry0 fs)) as X.
    unfold rserve in H. rewrite H in X. apply X. unfold rem. cbn [rs0 r_io r_ii]. lia.
  Qed.
End Next.
(** Full claim: Next, called by a filter, continues the chain the filter is in. False for
    a filter of the app that looks the Context up after its own Next returned:
    it starts a handler of the route, after the response was written, and leaves
    one out. The route has three filters; the first writes. *)
Definition all_of_ : list wev -> bytes -> nat := fun _ b => List.length b.
Definition looks_up_late : handler := fun ctx => RNext ctx (RFind (fun found => RNext found RRet)).
Definition writes : handler := fun _ => ROp (OWrite (bs "x")) RRet.
Definition idle : handler := fun _ => RRet.
Theorem C168_next_on_found_context_refuted : forall rv,
  vstarts (trace all_of_ rv [Some looks_up_late] [Some writes; Some idle; Some idle] (Some idle)) =
    [(Outer, 0); (Outer, 1); (Inner, 0); (Inner, 2)] /\
  In (VStart Inner 2 Inner true) (trace all_of_ rv [Some looks_up_late] [Some writes; Some idle; Some idle] (Some idle)).
Proof. intros rv. vm_compute. split; [reflexivity|]. tauto. Qed.
(** and after a panic it goes on behind the handler that panicked *)
Definition retries : handler := fun ctx => RTry (RNext ctx RRet) (fun _ => RFind (fun found => RNext found RRet)) RRet.
Theorem C168_goes_on_after_panic : forall rv,
  vstarts (trace all_of_ rv [Some retries] [Some (fun _ => RPanic false); Some idle] (Some idle)) =
    [(Outer, 0); (Outer, 1); (Inner, 0); (Inner, 1); (Inner, 2)].
Proof. intros rv. vm_compute. reflexivity. Qed.
(** a route's handler that calls Next on the app's Context, found under the request *)
Example C168_example : forall rv,
  let tr := trace all_of_ rv [Some idle; Some idle] [Some (fun ctx => RValue (GOf ctx) ctx_key (fun r => match r with Some (VContext c) => RNext c (RNext c RRet) | _ => RRet end))] (Some idle) in
  vstarts tr = [(Outer, 0); (Outer, 1); (Outer, 2); (Inner, 0); (Inner, 1)] /\ In (VNext Outer) tr.
Proof. intros rv. vm_compute. split; [reflexivity|]. tauto. Qed.

(** ** Handlers that only call Next on the Context they are given *)
(** Here the model agrees with ChainModel, so C16 to C20 and C93 hold for them *)
Fixpoint own (a : act) (c : lvl) : ract :=
  match a with
  | ARet => RRet
  | AOp o k => ROp o (own k c)
  | ASee k => RSee (fun a b w => own (k a b w) c)
  | ANext k => RNext c (own k c)
  | APanic v => RPanic v
  | ATry b r k => RTry (own b c) (fun v => own (r v) c) (own k c)
  end.
Definition ev_of (e : cev) : list ev :=
  match e with VStart l i _ wr => [EStart l i wr] | VRoute i wr => [EStart Outer i wr] | VNext _ => [ENext] | VOp o => [EOp o] | _ => [] end.
Definition world_of (s : rs) : world := W (r_rw s) (flat_map ev_of (r_tr s)).
Section Sim.
  Variable accept : list wev -> bytes -> nat.
  Variable rv : bytes -> option val.
  Variable fs : list (option act).
  Variable rc : route_chain.
  Notation n := (List.length fs).
  Notation m := (List.length (rc_filters rc)).
  Notation tr_ := (map (option_map own)).
  Notation fs' := (map (option_map own) fs).
  Notation rfs' := (map (option_map own) (rc_filters rc)).
  Notation ra' := (option_map own (rc_action rc)).
  Notation run_ := (rrun accept rv fs' rfs' ra').

  Definition R (l : lvl) (io lim : nat) (s : rs) (s' : st) : Prop :=
    idx l s = Some (fst s') /\ world_of s = snd s' /\
    match l with Inner => r_io s = io | Outer => r_ii s = None \/ lim <= fst s' end.
  Definition Rout (l : lvl) (io low : nat) (o : out rs) (o' : out st) : Prop :=
    match o, o' with
    | Done s, Done s' | Deadlock s, Deadlock s' => R l io n s s' /\ low <= fst s'
    | Panicked v s, Panicked v' s' => v = v' /\ R l io n s s' /\ low <= fst s'
    | _, _ => False
    end.
  Lemma Rout_low l io a b o o' : a <= b -> Rout l io b o o' -> Rout l io a o o'.
  Proof. intros L. destruct o, o'; cbn; try tauto; intuition lia. Qed.
  Lemma op_sim l io o s s' : R l io n s s' -> Rout l io (fst s') (rdo accept o s) (do_op accept o s').
  Proof.
    intros (A & B & C). unfold rdo, do_op. destruct s' as [i w]. cbn [fst snd] in *. subst w. cbn [note w_rw world_of rnote r_rw w_tr].
    destruct (run_op accept o (r_rw s)); cbn; repeat split; auto; destruct l; auto.
  Qed.
  Lemma bind_sim l io low x x' f f' : Rout l io low x x' -> (forall a a', x = Done a -> R l io n a a' -> low <= fst a' -> Rout l io low (f a) (f' a')) -> Rout l io low (obind x f) (obind x' f').
  Proof. destruct x, x'; cbn; try tauto. intros (A & B) H. apply H; auto. Qed.
  Lemma exec_sim l io i0 next next' :
    (forall s s', R l io (S n) s s' -> i0 < fst s' -> Rout l io (fst s') (next l s) (next' s')) ->
    forall a s s', R l io n s s' -> i0 <= fst s' -> Rout l io (fst s') (rexec accept rv (own a l) next s) (exec accept a next' s').
  Proof.
    intros Hn. induction a as [|o k IH|k IH|k IH|v|b IHb r IHr k IHk]; intros s s' HR L; cbn [own rexec exec].
    - cbn. auto.
    - apply bind_sim; [now apply op_sim|]. intros a a' _ Ra La. eapply Rout_low; [exact La|]. apply IH; [exact Ra|lia].
    - destruct HR as (A & B & C). assert (E : w_rw (snd s') = r_rw s) by (rewrite <- B; reflexivity). rewrite E. apply IH; [repeat split; auto|exact L].
    - apply bind_sim.
      + eapply Rout_low; [|apply Hn].
        * cbn. lia.
        * destruct HR as (A & B & C). destruct s' as [i w]. cbn [fst snd] in *. subst w. split; [|split].
          -- destruct l; cbn in *; [congruence|]. rewrite A. reflexivity.
          -- destruct l; reflexivity.
          -- destruct l; cbn in *; [|exact C]. destruct C as [C|C]; [auto|right; lia].
        * cbn. lia.
      + intros a a' _ Ra La. eapply Rout_low; [exact La|]. apply IH; [exact Ra|lia].
    - cbn. auto.
    - specialize (IHb s s' HR L). destruct (rexec accept rv (own b l) next s) as [x|v x|x], (exec accept b next' s') as [x'|v' x'|x']; cbn in IHb; try tauto.
      + destruct IHb as (Rx & Lx). eapply Rout_low; [exact Lx|]. apply IHk; [exact Rx|lia].
      + destruct IHb as (<- & Rx & Lx). eapply Rout_low; [exact Lx|]. apply IHr; [exact Rx|lia].
      + exact IHb.
  Qed.
  Definition hsim (l : lvl) (w : what) (h : option hsem) : Prop :=
    match w, h with
    | Skip, None => True
    | Handler g, Some h => exists a, g = own a /\ h = exec accept a
    | Route, Some h => l = Outer /\ h = route_handler accept rc
    | _, _ => False
    end.
  Lemma inner_what i : i <= m -> hsim Inner (what_at fs' rfs' ra' Inner i) (ch_handler (inner_chain accept rc) i).
  Proof.
    intros L. unfold what_at, ch_handler, inner_chain, ch_len. cbn [ch_filters ch_action]. rewrite !map_length.
    destruct (Nat.ltb_spec i m).
    - rewrite !nth_error_map. destruct (nth_error (rc_filters rc) i) as [[a|]|]; cbn; eauto.
    - replace (Nat.eqb i m) with true by (symmetry; apply Nat.eqb_eq; lia). destruct (rc_action rc); cbn; eauto.
  Qed.
  Lemma outer_what i : i <= n -> hsim Outer (what_at fs' rfs' ra' Outer i) (ch_handler (app_chain accept fs rc) i).
  Proof.
    intros L. unfold what_at, ch_handler, app_chain, ch_len. cbn [ch_filters ch_action]. rewrite !map_length.
    destruct (Nat.ltb_spec i n).
    - rewrite !nth_error_map. destruct (nth_error fs i) as [[a|]|]; cbn; eauto.
    - replace (Nat.eqb i n) with true by (symmetry; apply Nat.eqb_eq; lia). cbn. auto.
  Qed.
  Lemma R_incr l io lim s i w : R l io lim s (i, w) -> R l io (S lim) (incr l s) (S i, w).
  Proof.
    intros (A & B & C). cbn [fst snd] in *. split; [|split].
    - destruct l; cbn in *; [congruence|now rewrite A].
    - rewrite <- B. destruct l; reflexivity.
    - destruct l; cbn in *; [|exact C]. destruct C; [auto|right; lia].
  Qed.
  Lemma R_weak l io s s' : R l io (S n) s s' -> R l io n s s'.
  Proof. intros (A & B & C). repeat split; auto. destruct l; auto. destruct C; [auto|right; lia]. Qed.
  Lemma inner_sim : forall f f' io s s', R Inner io (S n) s s' -> S m - fst s' < f -> S m - fst s' < f' ->
    Rout Inner io (fst s') (run_ f Inner s) (run Inner (inner_chain accept rc) f' s').
  Proof.
    induction f as [|f IH]; intros f' io s s' HR F1 F2; [lia|]. destruct f' as [|f']; [lia|]. destruct s' as [i w]. cbn [rrun run].
    assert (Ei : idx Inner s = Some i) by apply HR. rewrite Ei. cbn [clen fst] in *. rewrite map_length.
    assert (EL : ch_len (inner_chain accept rc) = m) by (unfold ch_len, inner_chain; cbn; now rewrite map_length). rewrite EL.
    destruct (Nat.leb_spec i m) as [Li|Li]; [|cbn; split; [now apply R_weak|lia]].
    pose proof (inner_what i Li) as Hw. destruct (what_at fs' rfs' ra' Inner i) as [|g|], (ch_handler (inner_chain accept rc) i) as [h|]; cbn in Hw; try tauto.
    - apply (Rout_low _ _ i (S i)); [lia|]. apply (IH f' io (incr Inner s) (S i, w)); [apply (R_incr Inner io (S n)) in HR; exact HR|cbn; lia|cbn; lia].
    - destruct Hw as (a & -> & ->).
      assert (SL : slot s = Inner) by (unfold slot; cbn in Ei; now rewrite Ei). rewrite SL.
      assert (EW : w_rw w = r_rw s) by (destruct HR as (_ & B & _); cbn in B; now rewrite <- B). rewrite EW.
      apply bind_sim.
      + apply (exec_sim Inner io i (run_ f) (run Inner (inner_chain accept rc) f')) with (s' := (i, note w (EStart Inner i (written (r_rw s))))).
        * intros x x' Rx Lx. apply IH; [exact Rx|lia|lia].
        * destruct HR as (A & B & C). cbn [fst snd] in *. subst w. repeat split; auto.
        * cbn. lia.
      + intros x [i' w'] _ Rx Lx. cbn [fst snd] in *. cbv zeta.
        assert (EX : r_rw (incr Inner x) = w_rw w') by (destruct Rx as (_ & B & _); cbn in B; rewrite <- B; reflexivity). rewrite EX.
        assert (RI : R Inner io (S n) (incr Inner x) (S i', w')) by (apply (R_incr Inner io n); exact Rx).
        destruct (written (w_rw w')); [cbn; split; [now apply R_weak|lia]|].
        apply (Rout_low _ _ i (S i')); [lia|]. apply (IH f' io (incr Inner x) (S i', w')); [exact RI|cbn; lia|cbn; lia].
    - destruct Hw as (X & _). discriminate X.
  Qed.
  Lemma outer_sim : forall f f' s s', R Outer 0 (S n) s s' -> (S n - fst s') + S (S m) < f -> S n - fst s' < f' ->
    Rout Outer 0 (fst s') (run_ f Outer s) (run Outer (app_chain accept fs rc) f' s').
  Proof.
    induction f as [|f IH]; intros f' s s' HR F1 F2; [lia|]. destruct f' as [|f']; [lia|]. destruct s' as [i w]. cbn [rrun run].
    assert (Ei : idx Outer s = Some i) by apply HR. rewrite Ei. cbn [clen fst] in *. rewrite map_length.
    rewrite (app_len accept fs rc).
    destruct (Nat.leb_spec i n) as [Li|Li]; [|cbn; split; [now apply R_weak|lia]].
    assert (EN : r_ii s = None) by (destruct HR as (_ & _ & [C|C]); [exact C|cbn in C; lia]).
    assert (EW : w_rw w = r_rw s) by (destruct HR as (_ & B & _); cbn in B; now rewrite <- B).
    assert (AF : forall x x', Rout Outer 0 i x x' -> Rout Outer 0 i (obind x (fun s' => let s'' := incr Outer s' in if written (r_rw s'') then Done s'' else run_ f Outer s''))
       (obind x' (fun s' => let s'' := (S (fst s'), snd s') in if written (w_rw (snd s'')) then Done s'' else run Outer (app_chain accept fs rc) f' s''))).
    { intros x0 x0' H0. apply bind_sim; [exact H0|]. intros x [i' w'] _ Rx Lx. cbn [fst snd] in *. cbv zeta.
      assert (EX : r_rw (incr Outer x) = w_rw w') by (destruct Rx as (_ & B & _); cbn in B; rewrite <- B; reflexivity). rewrite EX.
      assert (RI : R Outer 0 (S n) (incr Outer x) (S i', w')) by (apply (R_incr Outer 0 n); exact Rx).
      destruct (written (w_rw w')); [cbn; split; [now apply R_weak|lia]|].
      apply (Rout_low _ _ i (S i')); [lia|]. apply (IH f' (incr Outer x) (S i', w')); [exact RI|cbn [fst]; lia|cbn [fst]; lia]. }
    pose proof (outer_what i Li) as Hw. destruct (what_at fs' rfs' ra' Outer i) as [|g|] eqn:Ew, (ch_handler (app_chain accept fs rc) i) as [h|]; cbn in Hw; try tauto.
    - apply (Rout_low _ _ i (S i)); [lia|]. apply (IH f' (incr Outer s) (S i, w)); [|cbn [fst]; lia|cbn [fst]; lia].
      destruct HR as (A & B & C). cbn in A, B. injection A as A. split; [cbn; now rewrite A|]. split; [exact B|]. left. exact EN.
    - destruct Hw as (a & -> & ->). assert (SL : slot s = Outer) by (unfold slot; now rewrite EN). rewrite SL, EW. apply AF.
      apply (exec_sim Outer 0 i (run_ f) (run Outer (app_chain accept fs rc) f')) with (s' := (i, note w (EStart Outer i (written (r_rw s))))).
      + intros x x' Rx Lx. apply IH; [exact Rx|lia|lia].
      + destruct HR as (A & B & C). cbn [fst snd] in *. subst w. repeat split; auto.
      + cbn. lia.
    - destruct Hw as (_ & ->). rewrite EW. apply AF. unfold route_handler, start. cbn [fst snd].
      assert (EL : ch_len (inner_chain accept rc) = m) by (unfold ch_len, inner_chain; cbn; now rewrite map_length). rewrite EL.
      assert (In_ : i = n).
      { apply what_route in Ew. rewrite map_length in Ew. lia. }
      set (s1 := nest (rnote s (VRoute i (written (r_rw s))))).
      assert (R1 : R Inner i (S n) s1 (0, note w (EStart Outer i (written (r_rw s))))).
      { destruct HR as (A & B & C). cbn in A, B. injection A as A. subst w. repeat split; cbn; auto. }
      pose proof (inner_sim f (S (S m)) i s1 _ R1) as H. cbn [fst] in H.
      assert (H' := H ltac:(lia) ltac:(lia)). clear H.
      destruct (run_ f Inner s1) as [x|v x|x], (run Inner (inner_chain accept rc) (S (S m)) (0, note w (EStart Outer i (written (r_rw s))))) as [x'|v' x'|x']; cbn in H' |- *; try tauto.
      + destruct H' as ((A & B & C) & _). repeat split; auto; cbn; [congruence|right; lia].
      + destruct H' as (V & (A & B & C) & _). repeat split; auto; cbn; [congruence|right; lia].
      + destruct H' as ((A & B & C) & _). repeat split; auto; cbn; [congruence|right; lia].
  Qed.
  (** same outcome, same response, same starts, Next calls and writes *)
  Theorem C168_own_contexts_only :
    match rserve accept rv (map (option_map own) fs) (map (option_map own) (rc_filters rc)) (option_map own (rc_action rc)), serve_chain accept fs rc with
    | Done s, Done s' | Deadlock s, Deadlock s' => r_rw s = w_rw (snd s') /\ flat_map ev_of (r_tr s) = w_tr (snd s')
    | Panicked v s, Panicked v' s' => v = v' /\ r_rw s = w_rw (snd s') /\ flat_map ev_of (r_tr s) = w_tr (snd s')
    | _, _ => False
    end.
  Proof using Type.
    unfold rserve, serve_chain, start. rewrite (app_len accept fs rc), !map_length.
    assert (R0 : R Outer 0 (S n) rs0 (0, w0)) by (repeat split; auto).
    pose proof (outer_sim (n + m + 4) (S (S n)) rs0 (0, w0) R0 ltac:(cbn [fst]; lia) ltac:(cbn [fst]; lia)) as H.
    destruct (run_ (n + m + 4) Outer rs0) as [x|v x|x], (run Outer (app_chain accept fs rc) (S (S n)) (0, w0)) as [x'|v' x'|x']; cbn in H; try contradiction.
    - destruct H as ((_ & B & _) & _). rewrite <- B. auto.
    - destruct H as (V & (_ & B & _) & _). rewrite <- B. auto.
    - destruct H as ((_ & B & _) & _). rewrite <- B. auto.
  Qed.
End Sim.

(** ** C167, the key *)
(** The request's context holds the app's Context under the key CtxFindValue uses for
    an unnamed variable of type strip.Context or *strip.Context, and for no other
    type (declared at package level) or name. *)
Theorem C167_key : forall t x, Props_CtxVal.plain t ->
  CtxValModel.key_of t x = Some ctx_key <-> CtxValModel.base t = CtxValModel.TNamed (bs "github.com/wujiu2020/strip") (bs "Context") 0 /\ x = [].
Proof.
  intros t x P. set (T := CtxValModel.TNamed (bs "github.com/wujiu2020/strip") (bs "Context") 0).
  assert (PT : Props_CtxVal.plain T) by (repeat split; try discriminate; cbn; intros H; repeat (destruct H as [H|H]; [discriminate H|]); exact H).
  assert (K : CtxValModel.key_of T [] = Some ctx_key) by reflexivity.
  split.
  - intros E. rewrite <- K in E. exact (Props_CtxVal.key_injective t x T [] P PT E).
  - intros (B & ->). rewrite <- K. unfold CtxValModel.key_of. rewrite B. reflexivity.
Qed.
Example C167_key_case : Props_CtxVal.plain (CtxValModel.TPtr (CtxValModel.TNamed (bs "github.com/wujiu2020/strip") (bs "Context") 0)) /\
  CtxValModel.key_of (CtxValModel.TNamed (bs "github.com/wujiu2020/strip") (bs "Logger") 0) [] <> Some ctx_key.
Proof. split; [repeat split; try discriminate; cbn; intros H; repeat (destruct H as [H|H]; [discriminate H|]); exact H|discriminate]. Qed.

Print Assumptions C167_values_exact.
Print Assumptions C167_route_sees_app.
Print Assumptions C167_app_keeps_its_values.
Print Assumptions C167_derived_lookups_return.
Print Assumptions C167_context_of_the_request.
Print Assumptions C167_behind_itself.
Print Assumptions C167_lookups_return_refuted.
Print Assumptions C168_at_most_once_in_order.
Print Assumptions C168_given_context.
Print Assumptions C168_found_context.
Print Assumptions C168_app_chain_is_over.
Print Assumptions C168_requests_end.
Print Assumptions C168_next_on_found_context_refuted.
Print Assumptions C168_goes_on_after_panic.
Print Assumptions C168_own_contexts_only.
Print Assumptions C167_key.
