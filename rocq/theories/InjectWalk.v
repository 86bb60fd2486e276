(** InjectWalk: how a lookup that does not succeed goes about it. Going from a
    slot to the first of its parameters that cannot be built, a lookup ends at a
    missing slot, or comes back to a slot it is already working on. *)
From Coq Require Import List Ascii String Bool Arith Lia Relations.
Import ListNotations.
From Verif Require Import GoStr InjectModel InjectFacts.

(** ** Functional relations *)
Section Functional.
  Context {A : Type}.
  Variable R : A -> A -> Prop.
  Hypothesis R_fun : forall x y z, R x y -> R x z -> y = z.
  Notation star := (clos_refl_trans A R).
  Notation plus := (clos_trans A R).
  Lemma star_linear x y z : star x y -> star x z -> star y z \/ star z y.
  Proof.
    intros H. apply clos_rt_rt1n in H. revert z. induction H as [x|x u y Hxu Huy IH]; intros z Hz; [auto|].
    apply clos_rt_rt1n in Hz. inversion Hz as [|v z' Hxv Hvz]; subst.
    - right. apply clos_rt1n_rt in Huy. eapply rt_trans; [apply rt_step; exact Hxu|exact Huy].
    - assert (v = u) as -> by (eapply R_fun; eassumption). apply IH. apply clos_rt1n_rt. exact Hvz.
  Qed.
  Lemma plus_first x y : plus x y -> exists z, R x z /\ star z y.
  Proof.
    intros H. apply clos_trans_t1n in H. destruct H as [y0 H|z y0 H1 H2]; [exists y0; split; [exact H|apply rt_refl]|].
    exists z. split; [exact H1|]. apply clos_t1n_trans in H2. clear -H2. induction H2; [apply rt_step; assumption|eapply rt_trans; eassumption].
  Qed.
  Lemma step_star_plus x y z : R x y -> star y z -> plus x z.
  Proof.
    intros H Hs. apply clos_rt_rt1n in Hs. revert x H. induction Hs as [y|y u z Hyu Huz IH]; intros x H; [apply t_step; exact H|].
    eapply t_trans; [apply t_step; exact H|apply IH; exact Hyu].
  Qed.
  Lemma star_step_plus x y z : star x y -> R y z -> plus x z.
  Proof.
    intros Hs H. apply clos_rt_rtn1 in Hs. revert z H. induction Hs as [|u y Huy Hxu IH]; intros z H; [apply t_step; exact H|].
    eapply t_trans; [apply IH; exact Huy|apply t_step; exact H].
  Qed.
  Lemma plus_star x y : plus x y -> star x y.
  Proof. induction 1; [apply rt_step; assumption|eapply rt_trans; eassumption]. Qed.
  (** everything reached from a slot on a cycle leads back to it *)
  Lemma cycle_back m x : plus m m -> star m x -> star x m.
  Proof.
    intros Hc Hs. apply clos_rt_rtn1 in Hs. induction Hs as [|y z Hyz _ IH]; [apply rt_refl|].
    destruct (clos_rt_rt1n _ _ _ _ IH) as [|u m0 Hyu Hum].
    - destruct (plus_first _ _ Hc) as (u & Hu & Hum). assert (u = z) as -> by (eapply R_fun; eassumption). exact Hum.
    - assert (u = z) as -> by (eapply R_fun; eassumption). apply clos_rt1n_rt. exact Hum.
  Qed.
  Lemma cycle_all m x : plus m m -> star m x -> plus x x.
  Proof.
    intros Hc Hs. pose proof (cycle_back m x Hc Hs) as Hb. destruct (plus_first _ _ Hc) as (u & Hu & Hum).
    apply clos_rt_rtn1 in Hs. destruct Hs as [|y x0 Hyx Hmy]; [exact Hc|]. apply clos_rtn1_rt in Hmy.
    eapply star_step_plus; [|exact Hyx]. eapply rt_trans; eassumption.
  Qed.
  (** two ways to end, from the same start *)
  Lemma one_cycle n m x : star n m -> plus m m -> star n x -> plus x x -> star m x.
  Proof.
    intros Hm Cm Hx Cx. destruct (star_linear _ _ _ Hm Hx) as [H|H]; [exact H|]. apply cycle_back; assumption.
  Qed.
  Lemma end_or_cycle n m x : star n m -> (forall y, ~ R m y) -> star n x -> plus x x -> False.
  Proof.
    intros Hm Em Hx Cx. destruct (star_linear _ _ _ Hm Hx) as [H|H].
    - apply clos_rt_rt1n in H. destruct H as [|y x0 Hmy _]; [|exact (Em y Hmy)]. destruct (plus_first _ _ Cx) as (u & Hu & _). exact (Em u Hu).
    - pose proof (cycle_all _ _ Cx H) as C. destruct (plus_first _ _ C) as (u & Hu & _). exact (Em u Hu).
  Qed.
  Lemma one_end n m m' : star n m -> (forall y, ~ R m y) -> star n m' -> (forall y, ~ R m' y) -> m = m'.
  Proof.
    intros H E H' E'. destruct (star_linear _ _ _ H H') as [X|X]; apply clos_rt_rt1n in X; destruct X as [|u z Hu _]; try reflexivity; exfalso; [exact (E u Hu)|exact (E' u Hu)].
  Qed.
End Functional.

Lemma dup_or_nodup (l : list bytes) d : NoDup l \/ exists i j, i < j < List.length l /\ nth i l d = nth j l d.
Proof.
  induction l as [|x l IH]; [left; constructor|]. destruct IH as [IH|(i & j & Hij & E)].
  - destruct (in_dec bytes_eq_dec x l) as [Hx|Hx]; [|left; constructor; assumption].
    right. apply (In_nth _ _ d) in Hx as (j & Hj & E). exists 0, (S j). cbn. split; [lia|symmetry; exact E].
  - right. exists (S i), (S j). cbn. split; [lia|exact E].
Qed.
Lemma pigeon (f : nat -> bytes) (D : list bytes) base N : List.length D < N -> (forall j, base <= j < base + N -> In (f j) D) ->
  exists i j, base <= i /\ i < j /\ j < base + N /\ f i = f j.
Proof.
  intros HN HD. destruct (dup_or_nodup (map f (seq base N)) []) as [Hn|(i & j & Hij & E)].
  - exfalso. assert (Hin : incl (map f (seq base N)) D).
    { intros x Hx. apply in_map_iff in Hx as (j & <- & Hj). apply in_seq in Hj. apply HD. exact Hj. }
    pose proof (NoDup_incl_length Hn Hin) as Hl. rewrite map_length, seq_length in Hl. lia.
  - rewrite map_length, seq_length in Hij. exists (base + i), (base + j). split; [lia|]. split; [lia|]. split; [lia|].
    assert (X : forall k, k < N -> nth k (map f (seq base N)) [] = f (base + k)).
    { intros k Hk. rewrite nth_indep with (d' := f 0) by (rewrite map_length, seq_length; exact Hk). rewrite map_nth, seq_nth by exact Hk. reflexivity. }
    rewrite !X in E by lia. exact E.
Qed.

Section Walk.
  Variable assignable : rtype -> rtype -> bool.
  Variable call : list callev -> nat -> list val -> option (nat -> option nat).
  Variable inj : nat.
  Variable look : bytes -> found.
  Variable info : nat -> pinfo.
  Hypothesis look_name : forall n q, look n = Found q -> p_name (info q) = n.
  Hypothesis look_outs : forall n q f ins, look n = Found q -> p_kind (info q) <> KFun f ins [].
  Variable C0 : list (bytes * list val).
  Hypothesis no_loop : forall n, look n <> Loop.
  (** providers used before, and the slot of the function given to Invoke *)
  Variable d0 : list nat.
  Variable own : bytes -> Prop.

  Notation invoke := (invoke assignable call inj look info).
  Notation eval_deps := (eval_deps look info).
  Notation Avail := (Avail look info C0).
  Notation Inv := (Inv look info C0).
  Notation inv_good := (inv_good inj look info C0).

  (** [d] is a parameter of the function for [n], everything before it can be built *)
  Definition wstep (n d : bytes) : Prop :=
    exists q f ins outs pre post, look n = Found q /\ p_kind (info q) = KFun f ins outs /\ aget C0 n = None /\
      p_deps (info q) = pre ++ d :: post /\ (forall x, In x pre -> Avail x).
  Definition stuck (n d : bytes) : Prop := wstep n d /\ ~ Avail d.
  Definition done0 (n : bytes) : Prop := exists q, look n = Found q /\ In q d0.
  Notation wstar := (clos_refl_trans bytes wstep).
  Notation wplus := (clos_trans bytes wstep).
  Notation sstar := (clos_refl_trans bytes stuck).
  Notation splus := (clos_trans bytes stuck).

  Lemma wstep_needs n d : wstep n d -> needs look info C0 n d.
  Proof.
    intros (q & f & ins & outs & pre & post & Hl & Hk & Hc & Hd & _). exists q, f, ins, outs. split; [exact Hl|]. split; [exact Hk|].
    split; [exact Hc|]. rewrite Hd. apply in_or_app. right. left. reflexivity.
  Qed.
  Lemma wstep_unavail n d : wstep n d -> ~ Avail d -> ~ Avail n.
  Proof.
    intros H Hd Hn. apply Hd. eapply avail_closed; [exact Hn|]. apply rt_step. apply wstep_needs. exact H.
  Qed.
  Lemma stuck_fun n d d' : stuck n d -> stuck n d' -> d = d'.
  Proof.
    intros ((q & f & ins & outs & pre & post & Hl & Hk & Hc & Hd & Ha) & Hn)
           ((q' & f' & ins' & outs' & pre' & post' & Hl' & Hk' & Hc' & Hd' & Ha') & Hn').
    assert (q' = q) as -> by congruence. rewrite Hd in Hd'. clear -Hd' Ha Ha' Hn Hn'.
    revert pre' Hd' Ha'. induction pre as [|x pre IH]; intros [|y pre']; cbn; intros E Ha'.
    - congruence.
    - injection E as <- _. exfalso. apply Hn, Ha'. left. reflexivity.
    - injection E as -> _. exfalso. apply Hn', Ha. left. reflexivity.
    - injection E as -> E. apply IH with pre'; [|exact E|].
      + intros z Hz. apply Ha. right. exact Hz.
      + intros z Hz. apply Ha'. right. exact Hz.
  Qed.
  Lemma wstar_stuck n m : wstar n m -> ~ Avail m -> sstar n m /\ ~ Avail n.
  Proof.
    intros H Hm. apply clos_rt_rt1n in H. induction H as [|x y z Hxy Hyz IH]; [split; [apply rt_refl|exact Hm]|].
    destruct (IH Hm) as (A & B). split; [|eapply wstep_unavail; eassumption].
    eapply rt_trans; [apply rt_step; split; eassumption|exact A].
  Qed.
  Lemma wplus_stuck n m : wplus n m -> ~ Avail m -> splus n m /\ ~ Avail n.
  Proof.
    intros H Hm. destruct (plus_first _ _ _ H) as (z & Hz & Hzm). destruct (wstar_stuck _ _ Hzm Hm) as (A & B).
    split; [eapply step_star_plus; [split; [exact Hz|exact B]|exact A]|eapply wstep_unavail; eassumption].
  Qed.
  Lemma wplus_unavail x : wplus x x -> ~ Avail x.
  Proof.
    intros H Ha. apply (avail_acyclic look info C0 x Ha). clear Ha. generalize dependent x.
    intros x H. assert (X : forall a b, wplus a b -> reach1 look info C0 a b).
    { intros a b. induction 1 as [a b H1|a b c _ IH1 _ IH2]; [apply t_step, wstep_needs; exact H1|eapply t_trans; eassumption]. }
    apply X. exact H.
  Qed.

  (** the slots being worked on, newest first *)
  Inductive path : list bytes -> Prop :=
  | pa_one : forall n, path [n]
  | pa_cons : forall n m p, wstep m n -> (In n (m :: p) -> done0 n \/ Avail n) -> path (m :: p) -> path (n :: m :: p).
  Lemma path_link n p x : path (n :: p) -> In x (n :: p) -> wstar x n.
  Proof.
    revert n. induction p as [|m p IH]; intros n Hp [<-|Hx]; try apply rt_refl; [destruct Hx|].
    inversion Hp as [|n' m' p' Hmn _ Hp']; subst. eapply rt_trans; [apply IH; [exact Hp'|exact Hx]|apply rt_step; exact Hmn].
  Qed.

  Record walk_ok (stack : list bytes) (s : ist) : Prop := {
    wo_status : forall m, in_status s m = true -> In m stack \/ own m \/ exists q, look m = Found q /\ is_done s q = true;
    wo_stack : forall m, In m stack -> in_status s m = true;
    wo_done : forall q, is_done s q = true -> In q d0 \/ Avail (p_name (info q));
    wo_d0 : forall q, In q d0 -> is_done s q = true
  }.
  (** how [e] came about, starting from [n] *)
  Definition blocked (n : bytes) (e : ierr) : Prop :=
    (exists m, e = EMissing m /\ wstar n m /\ look m = Missing) \/
    (exists x q, e = ECycle x /\ wstar n x /\ (wplus x x \/ own x) /\ look x = Found q /\ ~ In q d0).
  Definition walk_inv (fuel : nat) (inv : nat -> ist -> ires * ist) (stack : list bytes) : Prop :=
    forall n q s, look n = Found q -> Inv s -> path (n :: stack) -> walk_ok stack s ->
      (forall e, fst (inv q s) = IErr e -> blocked n e) /\
      (fst (inv q s) = IDiv -> exists p, List.length p = fuel /\ path (p ++ n :: stack)) /\
      (forall out, fst (inv q s) = IOk out -> walk_ok stack (snd (inv q s))).

  Section Deps.
    Variable all : list bytes.
    Definition front (d : bytes) : Prop := exists pre post, all = pre ++ d :: post /\ (forall x, In x pre -> Avail x).
    Lemma eval_deps_walk fuel inv stk : inv_good inv -> walk_inv fuel inv stk ->
      (forall d, front d -> In d stk -> wplus d d) ->
      (forall d, front d -> (In d stk -> done0 d \/ Avail d) -> path (d :: stk)) ->
      forall ds pre s, all = pre ++ ds -> (forall x, In x pre -> Avail x) -> Inv s -> walk_ok stk s ->
      (forall e, fst (eval_deps inv ds s) = DFail (IErr e) -> exists d, front d /\ blocked d e) /\
      (fst (eval_deps inv ds s) = DFail IDiv -> exists d p, front d /\ List.length p = fuel /\ path (p ++ d :: stk)) /\
      (forall l, fst (eval_deps inv ds s) = DArgs l -> walk_ok stk (snd (eval_deps inv ds s))).
    Proof using look_name no_loop.
      intros Hg Hw Hcy Hpa. induction ds as [|d ds IH]; intros pre s Eall Hpre Hs Hok; cbn [InjectModel.eval_deps].
      { split; [discriminate|]. split; [discriminate|]. intros l _. exact Hok. }
      assert (Hfr : front d) by (exists pre, ds; auto).
      destruct (look d) as [q| |] eqn:El; [| |exfalso; exact (no_loop _ El)].
      2:{ cbn [fst snd]. split; [|split; discriminate]. intros e [= <-]. exists d. split; [exact Hfr|]. left. exists d.
          split; [reflexivity|]. split; [apply rt_refl|exact El]. }
      rewrite (look_name _ _ El).
      destruct (negb (is_done s q) && in_status s d) eqn:Ec.
      { apply andb_true_iff in Ec as (E1 & E2). apply negb_true_iff in E1. cbn [fst snd]. split; [|split; discriminate].
        intros e [= <-]. exists d. split; [exact Hfr|]. right. exists d, q. split; [reflexivity|]. split; [apply rt_refl|]. split; [|split; [exact El|]].
        - destruct (wo_status _ _ Hok d E2) as [Hin|[Ho|(q' & Hq' & Hd)]]; [left; apply Hcy; assumption|right; exact Ho|].
          rewrite El in Hq'. injection Hq' as <-. congruence.
        - intros Hin. rewrite (wo_d0 _ _ Hok q Hin) in E1. discriminate. }
      assert (Hp : path (d :: stk)).
      { apply Hpa; [exact Hfr|]. intros Hin. rewrite (wo_stack _ _ Hok d Hin), andb_true_r in Ec. apply negb_false_iff in Ec.
        destruct (wo_done _ _ Hok q Ec) as [Hq|Hq]; [left; exists q; auto|right]. rewrite (look_name _ _ El) in Hq. exact Hq. }
      destruct (Hw d q s El Hs Hp Hok) as (H1 & H2 & H3). destruct (Hg d q s El Hs) as (n1 & P1 & _ & Hk1).
      destruct (inv q s) as [r s1]. cbn [fst snd] in *. destruct r as [[|v o]|e| |]; cbn [fst snd].
      - split; [|split]; discriminate.
      - destruct (Hk1 _ eq_refl) as (Ha & _ & _).
        destruct (IH (pre ++ [d]) s1) as (I1 & I2 & I3).
        { rewrite Eall, <- app_assoc. reflexivity. }
        { intros x Hx. apply in_app_iff in Hx as [Hx|[<-|[]]]; [apply Hpre; exact Hx|exact Ha]. }
        { exact (po_inv _ _ _ _ _ _ _ _ P1). }
        { eapply H3. reflexivity. }
        destruct (eval_deps inv ds s1) as [[l|r] s2]; cbn [fst snd] in *.
        + split; [discriminate|]. split; [discriminate|]. intros l' _. eapply I3. reflexivity.
        + split; [exact I1|]. split; [exact I2|discriminate].
      - split; [intros e' [= <-]; exists d; split; [exact Hfr|apply H1; reflexivity]|split; discriminate].
      - split; [|split]; discriminate.
      - split; [discriminate|]. split; [|discriminate]. intros _. destruct (H2 eq_refl) as (p & Hl & Hpp). exists d, p. auto.
    Qed.
  End Deps.

  Lemma walk_ok_set n stack s : walk_ok stack s -> walk_ok (n :: stack) (set_status s n).
  Proof.
    intros [A B C D]. constructor.
    - intros m Hm. unfold in_status, set_status in Hm. cbn in Hm. apply orb_true_iff in Hm as [Hm|Hm].
      + apply beq_true in Hm as ->. left. left. reflexivity.
      + destruct (A m Hm) as [H|H]; [left; right; exact H|right; exact H].
    - intros m [<-|Hm]; unfold in_status, set_status; cbn; apply orb_true_iff; [left; apply beq_refl|right; apply B; exact Hm].
    - exact C.
    - exact D.
  Qed.
  Lemma walk_ok_out n q stack s s' : look n = Found q -> Avail n -> walk_ok (n :: stack) s ->
    i_status s' = i_status s -> i_done s' = q :: i_done s -> walk_ok stack s'.
  Proof.
    intros Hl Ha [A B C D] Es Ed. unfold in_status, is_done in *.
    constructor; unfold in_status, is_done; rewrite ?Es, ?Ed.
    - intros m Hm. destruct (A m Hm) as [[<-|H]|[H|(q' & H1 & H2)]]; auto.
      + right. right. exists q. split; [exact Hl|]. cbn. rewrite Nat.eqb_refl. reflexivity.
      + right. right. exists q'. split; [exact H1|]. cbn. rewrite H2. apply orb_true_r.
    - intros m Hm. apply B. right. exact Hm.
    - intros q' Hq. cbn in Hq. apply orb_true_iff in Hq as [Hq|Hq]; [|apply C; exact Hq].
      apply Nat.eqb_eq in Hq as ->. right. rewrite (look_name _ _ Hl). exact Ha.
    - intros q' Hq. cbn. rewrite (D q' Hq). apply orb_true_r.
  Qed.

  Lemma invoke_walk fuel : forall stack, walk_inv fuel (invoke fuel) stack.
  Proof using look_name look_outs no_loop.
    induction fuel as [|f IH]; intros stack n q s Hl Hs Hp Hok.
    { cbn [InjectModel.invoke fst snd]. split; [discriminate|]. split; [|discriminate]. intros _. exists []. split; [reflexivity|exact Hp]. }
    pose proof (invoke_good assignable call inj look info look_name look_outs C0 (S f) n q s Hl Hs) as (nn & PP & _ & Hav).
    cbn [InjectModel.invoke] in *. rewrite (look_name _ _ Hl) in *.
    destruct (aget (i_cache s) n) as [o|] eqn:Ec.
    { cbn [fst snd]. split; [discriminate|]. split; [discriminate|]. intros _ _. exact Hok. }
    cbv zeta in *. set (s0 := set_status s n) in *.
    pose proof (walk_ok_set n stack s Hok) as Hok0. fold s0 in Hok0. assert (Hs0 : Inv s0) by exact Hs.
    destruct (p_kind (info q)) as [v|fn ins outs] eqn:Ek; cbn [fst snd] in *.
    { split; [discriminate|]. split; [discriminate|]. intros out _.
      eapply (walk_ok_out n q stack s0); [exact Hl|eapply av_value; eassumption|exact Hok0|reflexivity|reflexivity]. }
    assert (HC0 : aget C0 n = None).
    { destruct (aget C0 n) eqn:E; [|reflexivity]. apply (proj1 Hs) in E. congruence. }
    assert (Hstep : forall d, front (p_deps (info q)) d -> wstep n d).
    { intros d (pre & post & E & Ha). exists q, fn, ins, outs, pre, post. auto. }
    pose proof (eval_deps_good inj look info C0 (invoke f) (invoke_good assignable call inj look info look_name look_outs C0 f) (p_deps (info q)) s0 Hs0) as (n1 & P1 & _ & Hk1).
    destruct (eval_deps_walk (p_deps (info q)) f (invoke f) (n :: stack)
      (invoke_good assignable call inj look info look_name look_outs C0 f) (IH (n :: stack))) with (ds := p_deps (info q)) (pre := @nil bytes) (s := s0) as (W1 & W2 & W3).
    { intros d Hd Hin. eapply star_step_plus; [eapply path_link; [exact Hp|exact Hin]|apply Hstep; exact Hd]. }
    { intros d Hd Hin. constructor; [apply Hstep; exact Hd|exact Hin|exact Hp]. }
    { reflexivity. }
    { intros x []. }
    { exact Hs0. }
    { exact Hok0. }
    pose proof (eval_deps_fail look info (invoke f) (p_deps (info q)) s0) as Hnf.
    destruct (eval_deps (invoke f) (p_deps (info q)) s0) as [dr s1]. cbn [fst snd] in *.
    destruct dr as [args|r].
    - specialize (W3 args eq_refl). destruct (Hk1 args eq_refl) as (_ & HA). assert (Han : Avail n) by (eapply av_fun; eassumption).
      unfold call_fun. destruct (args_ok assignable args ins); cbn [fst snd]; [|split; [|split]; discriminate].
      destruct (call (i_tr s1) fn args) as [g|]; cbn [fst snd]; [|split; [|split]; discriminate].
      split; [discriminate|]. split; [discriminate|]. intros out _.
      destruct outs; (eapply (walk_ok_out n q stack s1); [exact Hl|exact Han|exact W3|reflexivity|reflexivity]).
    - destruct r as [o|er| |]; cbn [fst snd].
      + exfalso. exact (Hnf o eq_refl).
      + split; [|split; discriminate]. intros e [= <-]. destruct (W1 er eq_refl) as (d & Hd & Hb). pose proof (Hstep d Hd) as Hst.
        destruct Hb as [(m & -> & Hm & Hmm)|(x & qx & -> & Hx & Hrest)].
        * left. exists m. split; [reflexivity|]. split; [eapply rt_trans; [apply rt_step; exact Hst|exact Hm]|exact Hmm].
        * right. exists x, qx. split; [reflexivity|]. split; [eapply rt_trans; [apply rt_step; exact Hst|exact Hx]|exact Hrest].
      + split; [|split]; discriminate.
      + split; [discriminate|]. split; [|discriminate]. intros _. destruct (W2 eq_refl) as (d & p & Hd & Hlen & Hpp).
        exists (p ++ [d]). split; [rewrite app_length, Hlen; cbn; lia|]. rewrite <- app_assoc. exact Hpp.
  Qed.

  (** *** Never ending *)
  Lemma path_nth l : path l ->
    (forall j, S j < List.length l -> wstep (nth j (rev l) []) (nth (S j) (rev l) [])) /\
    (forall i j, i < j -> j < List.length l -> nth i (rev l) [] = nth j (rev l) [] -> done0 (nth j (rev l) []) \/ Avail (nth j (rev l) [])).
  Proof.
    induction 1 as [n|n m p Hmn Hin Hp (IH1 & IH2)]; [split; cbn; intros; lia|].
    assert (Hlen : List.length (rev (m :: p)) = S (List.length p)) by (rewrite rev_length; reflexivity).
    change (rev (n :: m :: p)) with (rev (m :: p) ++ [n]).
    assert (En : nth (S (List.length p)) (rev (m :: p) ++ [n]) [] = n).
    { rewrite app_nth2 by lia. rewrite Hlen, Nat.sub_diag. reflexivity. }
    assert (Eo : forall k, k <= List.length p -> nth k (rev (m :: p) ++ [n]) [] = nth k (rev (m :: p)) []).
    { intros k Hk. apply app_nth1. lia. }
    assert (Em : nth (List.length p) (rev (m :: p) ++ [n]) [] = m).
    { rewrite Eo by lia. cbn [rev]. rewrite app_nth2 by (rewrite rev_length; lia). rewrite rev_length, Nat.sub_diag. reflexivity. }
    split.
    - intros j Hj. cbn [List.length] in Hj. destruct (Nat.eq_dec j (List.length p)) as [->|Hne].
      + rewrite En, Em. exact Hmn.
      + rewrite !Eo by lia. apply IH1. cbn [List.length]. lia.
    - intros i j Hij Hj E. cbn [List.length] in Hj. destruct (Nat.eq_dec j (S (List.length p))) as [->|Hne].
      + rewrite En in *. rewrite Eo in E by lia. apply Hin. rewrite <- E. apply in_rev. apply nth_In. lia.
      + rewrite !Eo in * by lia. apply IH2 with i; [exact Hij|cbn [List.length]; lia|exact E].
  Qed.
  Section Forever.
    Variable D : list bytes.
    Hypothesis in_D : forall n q f ins outs, look n = Found q -> p_kind (info q) = KFun f ins outs -> In n D.
    Lemma long_path n p : path (p ++ [n]) -> 3 * List.length D + 4 <= List.length p ->
      exists m, sstar n m /\ splus m m /\ forall x, sstar m x -> done0 x.
    Proof using in_D.
      intros Hp Hlen. set (K := List.length D) in *. destruct (path_nth _ Hp) as (Hs & Hr).
      set (a := fun j => nth j (rev (p ++ [n])) []) in *.
      assert (Hl : List.length (p ++ [n]) = S (List.length p)) by (rewrite app_length; cbn; lia). rewrite Hl in *.
      assert (Ha0 : a 0 = n) by (unfold a; rewrite rev_app_distr; reflexivity).
      change (forall j, S j < S (List.length p) -> wstep (a j) (a (S j))) in Hs.
      change (forall i j, i < j -> j < S (List.length p) -> a i = a j -> done0 (a j) \/ Avail (a j)) in Hr.
      assert (HD : forall j, j < List.length p -> In (a j) D).
      { intros j Hj. destruct (Hs j ltac:(lia)) as (q & f & ins & outs & _ & _ & Hlk & Hk & _). eapply in_D; eassumption. }
      assert (Hreach : forall k j, j + k <= List.length p -> wstar (a j) (a (j + k))).
      { induction k as [|k IH]; intros j Hjk; [rewrite Nat.add_0_r; apply rt_refl|].
        eapply rt_trans; [apply IH; lia|]. rewrite Nat.add_succ_r. apply rt_step, Hs. lia. }
      destruct (pigeon a D (2 * K + 2) (S K)) as (i & j & Hi & Hij & Hj & E); [lia|intros x Hx; apply HD; lia|].
      assert (Hcyc : wplus (a j) (a j)).
      { rewrite <- E at 1. eapply step_star_plus; [apply (Hs i); lia|]. replace j with (S i + (j - S i)) by lia. apply Hreach. lia. }
      pose proof (wplus_unavail _ Hcyc) as Hun.
      assert (Hna : forall k, k <= j -> ~ Avail (a k)).
      { intros k Hk. apply (proj2 (wstar_stuck (a k) (a j) ltac:(replace j with (k + (j - k)) by lia; apply Hreach; lia) Hun)). }
      assert (Hst : forall k, k < j -> stuck (a k) (a (S k))).
      { intros k Hk. split; [apply Hs; lia|apply Hna; lia]. }
      destruct (pigeon a D 0 (S K)) as (u & v & _ & Huv & Hv & Euv); [lia|intros x Hx; apply HD; lia|].
      assert (Hper : forall k, v + k <= j -> a (u + k) = a (v + k)).
      { induction k as [|k IH]; intros Hk; [rewrite !Nat.add_0_r; exact Euv|]. rewrite !Nat.add_succ_r.
        eapply stuck_fun; [apply Hst; lia|]. rewrite IH by lia. apply Hst. lia. }
      assert (Hsst : forall k x, x + k <= j -> sstar (a x) (a (x + k))).
      { induction k as [|k IH]; intros x Hx; [rewrite Nat.add_0_r; apply rt_refl|].
        eapply rt_trans; [apply IH; lia|]. rewrite Nat.add_succ_r. apply rt_step, Hst. lia. }
      exists (a u). split; [|split].
      - rewrite <- Ha0. replace u with (0 + u) by lia. apply Hsst. lia.
      - rewrite Euv at 2. eapply step_star_plus; [apply (Hst u); lia|]. replace v with (S u + (v - S u)) by lia. apply Hsst. lia.
      - intros x Hx. assert (X : exists k, k < v - u /\ x = a (u + k)).
        { apply clos_rt_rtn1 in Hx. induction Hx as [|y z Hyz _ (k & Hk & ->)]; [exists 0; split; [lia|rewrite Nat.add_0_r; reflexivity]|].
          assert (Ez : z = a (S (u + k))) by (eapply stuck_fun; [exact Hyz|apply Hst; lia]).
          destruct (Nat.eq_dec (S k) (v - u)) as [Ek|Ek].
          - exists 0. split; [lia|]. rewrite Nat.add_0_r, Euv, Ez. f_equal. lia.
          - exists (S k). split; [lia|]. rewrite Ez. f_equal. lia. }
        destruct X as (k & Hk & ->). rewrite Hper by lia.
        destruct (Hr (u + k) (v + k)) as [H|H]; [lia|lia|apply Hper; lia|exact H|].
        exfalso. apply (Hna (v + k)); [lia|exact H].
    Qed.
  End Forever.
End Walk.

(** ** The function given to Invoke *)
Section Root.
  Variable assignable : rtype -> rtype -> bool.
  Variable call : list callev -> nat -> list val -> option (nat -> option nat).
  Variable inj : nat.
  Variable look : bytes -> found.
  Variable info : nat -> pinfo.
  Hypothesis look_name : forall n q, look n = Found q -> p_name (info q) = n.
  Hypothesis look_outs : forall n q f ins, look n = Found q -> p_kind (info q) <> KFun f ins [].
  Hypothesis no_loop : forall n, look n <> Loop.
  Variable D : list bytes.
  Hypothesis in_D : forall n q f ins outs, look n = Found q -> p_kind (info q) = KFun f ins outs -> In n D.
  Variables (s : ist) (q : nat) (fn : nat) (ins outs : list rtype).
  Hypothesis Hk : p_kind (info q) = KFun fn ins outs.
  Hypothesis Hno : aget (i_cache s) (p_name (info q)) = None.
  Hypothesis Hst : i_status s = [].
  Hypothesis Hs : Inv look info (i_cache s) s.
  Notation own := (eq (p_name (info q))).
  Notation C0 := (i_cache s).
  Notation Av := (Avail look info C0).
  Notation run fuel := (fst (invoke assignable call inj look info fuel q s)).

  Lemma root_walk fuel :
    (forall e, run (S fuel) = IErr e -> exists d, In d (p_deps (info q)) /\ front look info C0 (p_deps (info q)) d /\ blocked look info C0 (i_done s) own d e) /\
    (run (S fuel) = IDiv -> 3 * List.length D + 4 <= fuel -> exists d, In d (p_deps (info q)) /\ ~ Av d) /\
    (forall out, run (S fuel) = IOk out -> forall d, In d (p_deps (info q)) -> Av d).
  Proof.
    cbn [InjectModel.invoke]. rewrite Hno, Hk. cbv zeta. set (s0 := set_status s (p_name (info q))).
    assert (Hs0 : Inv look info C0 s0) by exact Hs.
    assert (Hok0 : walk_ok look info C0 (i_done s) own [] s0).
    { constructor.
      - intros m Hm. unfold s0, in_status, set_status in Hm. cbn in Hm. rewrite Hst in Hm. cbn in Hm. rewrite orb_false_r in Hm. apply beq_true in Hm as ->. auto.
      - intros m [].
      - intros q' Hq'. left. unfold is_done in Hq'. apply existsb_exists in Hq' as (x & Hx & E). apply Nat.eqb_eq in E as ->. exact Hx.
      - intros q' Hq'. unfold is_done. apply existsb_exists. exists q'. split; [exact Hq'|apply Nat.eqb_refl]. }
    pose proof (invoke_good assignable call inj look info look_name look_outs C0 fuel) as Hg.
    destruct (eval_deps_good inj look info C0 _ Hg (p_deps (info q)) s0 Hs0) as (n1 & P1 & _ & Hk1).
    destruct (eval_deps_walk inj look info look_name C0 no_loop (i_done s) own (p_deps (info q)) fuel _ [] Hg
      (invoke_walk assignable call inj look info look_name look_outs C0 no_loop (i_done s) own fuel [])) with (ds := p_deps (info q)) (pre := @nil bytes) (s := s0) as (W1 & W2 & _).
    { intros d _ []. }
    { intros d _ _. constructor. }
    { reflexivity. }
    { intros x []. }
    { exact Hs0. }
    { exact Hok0. }
    pose proof (eval_deps_fail look info (invoke assignable call inj look info fuel) (p_deps (info q)) s0) as Hnf.
    destruct (eval_deps look info (invoke assignable call inj look info fuel) (p_deps (info q)) s0) as [dr s1]. cbn [fst snd] in *.
    assert (Hfr : forall d, front look info C0 (p_deps (info q)) d -> In d (p_deps (info q))).
    { intros d (pre & post & E & _). rewrite E. apply in_or_app. right. left. reflexivity. }
    destruct dr as [args|r].
    - destruct (Hk1 args eq_refl) as (_ & HA). unfold call_fun. destruct (args_ok assignable args ins); cbn [fst snd]; [|split; [|split]; discriminate].
      destruct (call (i_tr s1) fn args) as [g|]; cbn [fst snd]; [|split; [|split]; discriminate].
      split; [discriminate|]. split; [discriminate|]. intros _ _. exact HA.
    - destruct r as [o|er| |]; cbn [fst snd].
      + exfalso. exact (Hnf o eq_refl).
      + split; [|split; discriminate]. intros e [= <-]. destruct (W1 er eq_refl) as (d & Hd & Hb). exists d. auto.
      + split; [|split]; discriminate.
      + split; [discriminate|]. split; [|discriminate]. intros _ Hf. destruct (W2 eq_refl) as (d & p & Hd & Hlen & Hpp).
        exists d. split; [apply Hfr; exact Hd|].
        destruct (long_path look info C0 (i_done s) D in_D d p Hpp) as (m & A & B & _); [lia|].
        assert (Y : forall a b, clos_trans bytes (stuck look info C0) a b -> reach1 look info C0 a b).
        { clear. induction 1 as [x y E|x y z _ IH1 _ IH2]; [apply t_step; eapply wstep_needs; exact (proj1 E)|eapply t_trans; eassumption]. }
        assert (Z0 : forall a b, clos_refl_trans bytes (stuck look info C0) a b -> reach look info C0 a b).
        { clear. induction 1 as [x y E|x|x y z _ IH1 _ IH2]; [apply rt_step; eapply wstep_needs; exact (proj1 E)|apply rt_refl|eapply rt_trans; eassumption]. }
        intros X. apply (avail_no_cycle look info C0 d X m); [apply Z0; exact A|apply Y; exact B].
  Qed.
  (** if the function's own slot is not in the way, it runs iff its parameters can be built *)
  Lemma root_iff : (forall qo, look (p_name (info q)) = Found qo -> In qo (i_done s)) -> (forall fuel, run fuel <> IPanic) ->
    ((exists fuel out, run fuel = IOk out) <-> forall d, In d (p_deps (info q)) -> Av d).
  Proof.
    intros Hown Hnp. split.
    - intros (fuel & out & E). destruct fuel as [|fuel]; [discriminate E|]. exact (proj2 (proj2 (root_walk fuel)) out E).
    - intros Ha. set (F := 3 * List.length D + 4). exists (S F). destruct (root_walk F) as (A & B & _). specialize (Hnp (S F)).
      destruct (run (S F)) as [out|e| |] eqn:E; [eauto|..].
      + exfalso. destruct (A e eq_refl) as (d & Hd & _ & Hb). specialize (Ha d Hd).
        destruct Hb as [(m & -> & Hm & Hmm)|(x & qx & -> & Hx & Hor & Hl & Hq)].
        * refine (proj2 (wstar_stuck look info C0 d m Hm _) Ha). intros X. inversion X; congruence.
        * destruct Hor as [Hxx|<-]; [|exact (Hq (Hown qx Hl))].
          exact (proj2 (wstar_stuck look info C0 d x Hx (wplus_unavail look info C0 x Hxx)) Ha).
      + congruence.
      + exfalso. destruct (B eq_refl (le_n _)) as (d & Hd & Hn). exact (Hn (Ha d Hd)).
  Qed.
End Root.

(** an unused slot that is being worked on might as well not be there *)
Section Hide.
  Variable assignable : rtype -> rtype -> bool.
  Variable call : list callev -> nat -> list val -> option (nat -> option nat).
  Variable inj : nat.
  Variable look : bytes -> found.
  Variable info : nat -> pinfo.
  Hypothesis look_name : forall n q, look n = Found q -> p_name (info q) = n.
  Variable o : bytes.
  Variable qo : nat.
  Hypothesis Hlo : look o = Found qo.
  Definition hide (n : bytes) : found := if beq n o then Missing else look n.
  Definition conv (r : ires) : ires := match r with IErr (EMissing m) => if beq m o then IErr (ECycle o) else r | _ => r end.
  Definition convd (r : dres) : dres := match r with DFail r => DFail (conv r) | _ => r end.
  Definition open_o (s : ist) : Prop := in_status s o = true /\ is_done s qo = false.
  Lemma conv_ok r out : conv r = IOk out <-> r = IOk out.
  Proof. unfold conv. destruct r as [x|[m|m|a b]| |]; try (split; exact (fun e => e)). destruct (beq m o); split; discriminate. Qed.
  Lemma conv_panic r : conv r = IPanic <-> r = IPanic.
  Proof. unfold conv. destruct r as [x|[m|m|a b]| |]; try (split; exact (fun e => e)). destruct (beq m o); split; discriminate. Qed.
  Lemma eval_deps_hide inv inv' :
    (forall q s, q <> qo -> open_o s -> inv q s = (conv (fst (inv' q s)), snd (inv' q s)) /\ open_o (snd (inv' q s))) ->
    forall ds s, open_o s -> eval_deps look info inv ds s = (convd (fst (eval_deps hide info inv' ds s)), snd (eval_deps hide info inv' ds s)) /\
      open_o (snd (eval_deps hide info inv' ds s)).
  Proof.
    intros Hi. induction ds as [|d ds IH]; intros s Ho; cbn [InjectModel.eval_deps]; [auto|].
    destruct (beq d o) eqn:Eb.
    - assert (Hh : hide d = Missing) by (unfold hide; rewrite Eb; reflexivity). rewrite Hh.
      apply beq_true in Eb as ->. rewrite Hlo, (look_name _ _ Hlo). destruct Ho as (O1 & O2). rewrite O1, O2. cbn. rewrite beq_refl. unfold open_o. auto.
    - assert (Hh : hide d = look d) by (unfold hide; rewrite Eb; reflexivity). rewrite Hh.
      destruct (look d) as [q| |] eqn:El; [| |cbn; auto].
      2:{ cbn. rewrite Eb. auto. }
      destruct (negb (is_done s q) && in_status s (p_name (info q))); [cbn; auto|].
      assert (Hne : q <> qo).
      { intros ->. rewrite <- (look_name _ _ El), (look_name _ _ Hlo), beq_refl in Eb. discriminate. }
      destruct (Hi q s Hne Ho) as (E & Ho1). destruct (inv' q s) as [r s1]. cbn [fst snd] in *. rewrite E.
      destruct r as [[|v x]|[m|m|a b]| |]; cbn [conv fst snd convd]; auto.
      + destruct (IH s1 Ho1) as (E2 & Ho2). rewrite E2.
        destruct (eval_deps hide info inv' ds s1) as [[l|r] s2]; cbn [fst snd convd] in *; auto.
      + destruct (beq m o); auto.
  Qed.
  Lemma invoke_hide fuel : forall q s, q <> qo -> open_o s ->
    invoke assignable call inj look info fuel q s =
      (conv (fst (invoke assignable call inj hide info fuel q s)), snd (invoke assignable call inj hide info fuel q s)) /\
    open_o (snd (invoke assignable call inj hide info fuel q s)).
  Proof.
    induction fuel as [|f IH]; intros q s Hq Ho; cbn [InjectModel.invoke]; [auto|].
    destruct (aget (i_cache s) (p_name (info q))) as [x|]; [auto|]. cbv zeta. set (s0 := set_status s (p_name (info q))).
    assert (Hmark : forall s', open_o s' -> open_o (mark_done s' q)).
    { intros s' (A & B). split; [exact A|]. unfold is_done, mark_done. cbn. unfold is_done in B. rewrite B.
      destruct (Nat.eqb_spec qo q) as [E|_]; [congruence|reflexivity]. }
    assert (Ho0 : open_o s0).
    { destruct Ho as (A & B). split; [|exact B]. unfold s0, in_status, set_status. cbn. unfold in_status in A. rewrite A. apply orb_true_r. }
    destruct (p_kind (info q)) as [v|fn ins outs]; cbn [fst snd]; [split; [reflexivity|apply Hmark; exact Ho0]|].
    destruct (eval_deps_hide (invoke assignable call inj look info f) (invoke assignable call inj hide info f) IH (p_deps (info q)) s0 Ho0) as (E & Ho1).
    rewrite E. destruct (eval_deps hide info (invoke assignable call inj hide info f) (p_deps (info q)) s0) as [dr s1]. cbn [fst snd] in *.
    destruct dr as [args|r]; cbn [convd].
    - unfold call_fun. destruct (args_ok assignable args ins); cbn [fst snd conv]; [|split; [reflexivity|apply Hmark; exact Ho1]].
      destruct (call (i_tr s1) fn args) as [g|]; cbn [fst snd conv]; (split; [reflexivity|]); apply Hmark; [destruct outs|]; exact Ho1.
    - destruct r as [x|[m|m|a b]| |]; cbn [conv fst snd]; try (split; [reflexivity|apply Hmark; exact Ho1]); auto.
      destruct (beq m o) eqn:Em; cbn [fst snd]; auto.
  Qed.
  (** the function given to Invoke opens its own slot *)
  Lemma root_hide fuel q s : q <> qo -> p_name (info q) = o -> is_done s qo = false -> is_fun (info q) = true ->
    fst (invoke assignable call inj look info fuel q s) = conv (fst (invoke assignable call inj hide info fuel q s)).
  Proof.
    intros Hq Hn Hd Hf. destruct fuel as [|f]; cbn [InjectModel.invoke]; [reflexivity|].
    destruct (aget (i_cache s) (p_name (info q))) as [x|]; [reflexivity|]. cbv zeta. set (s0 := set_status s (p_name (info q))).
    assert (Ho0 : open_o s0).
    { split; [|exact Hd]. unfold s0, in_status, set_status. cbn. rewrite Hn, beq_refl. reflexivity. }
    unfold is_fun in Hf. destruct (p_kind (info q)) as [v|fn ins outs]; [discriminate|].
    destruct (eval_deps_hide (invoke assignable call inj look info f) (invoke assignable call inj hide info f) (invoke_hide f) (p_deps (info q)) s0 Ho0) as (E & _).
    rewrite E. destruct (eval_deps hide info (invoke assignable call inj hide info f) (p_deps (info q)) s0) as [dr s1]. cbn [fst snd] in *.
    destruct dr as [args|r]; cbn [convd].
    - unfold call_fun. destruct (args_ok assignable args ins); cbn [fst snd conv]; [|reflexivity].
      destruct (call (i_tr s1) fn args) as [g|]; reflexivity.
    - destruct r as [x|[m|m|a b]| |]; cbn [conv fst snd]; try reflexivity.
      destruct (beq m o) eqn:Em; reflexivity.
  Qed.
End Hide.
