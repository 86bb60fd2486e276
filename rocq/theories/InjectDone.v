(** InjectDone: the [done] counters and the numbers of providers, read off the log. *)
From Coq Require Import List Ascii String Bool Arith Lia Relations.
Import ListNotations.
From Verif Require Import GoStr InjectModel InjectFacts InjectWorld InjectSpec InjectHist InjectNear InjectMain Props_Inject Props_InjectExact.

(** ** Specification *)
(** the number (position in [given]) of what injector [i] was provided last for slot [n] *)
Fixpoint last_no (L : list entry) (i : nat) (n : bytes) : option nat :=
  match L with
  | [] => None
  | e :: L' =>
      match op_of e with
      | PProvide j o => if Nat.eqb j i && fills o n then Some (List.length (given L')) else last_no L' i n
      | _ => last_no L' i n
      end
  end.
(** the number of the nearest provider *)
Inductive nearest_no (L : list entry) : nat -> bytes -> nat -> Prop :=
| nn_here : forall i n q, last_no L i n = Some q -> nearest_no L i n q
| nn_up : forall i k n q, last_no L i n = None -> parent_of (ops L) i = Some k -> nearest_no L k n q -> nearest_no L i n q.
(** provider number [q] was called, by whatever injector *)
Definition used (L : list entry) (q : nat) : Prop := exists e, In e (calls L) /\ c_prov e = q.
(** no operation of the program panicked *)
Definition no_panic (L : list entry) : Prop := Forall (fun e => snd (fst e) <> RPanic) L.

(** ** Counters during an invocation *)
Definition ev_done (s : ist) : Prop := forall e, In e (i_tr s) -> In (c_prov e) (i_done s).
Section Done.
  Variable asg : rtype -> rtype -> bool.
  Variable call : list callev -> nat -> list val -> option (nat -> option nat).
  Section Core.
    Variable info : nat -> pinfo.
    Definition done_ev (s : ist) : Prop := forall q, In q (i_done s) -> is_fun (info q) = true -> exists e, In e (i_tr s) /\ c_prov e = q.
    Lemma eval_deps_done look inv :
      (forall q s, ev_done s -> ev_done (snd (inv q s))) -> (forall q s, done_ev s -> fst (inv q s) <> IPanic -> done_ev (snd (inv q s))) ->
      forall ds s, (ev_done s -> ev_done (snd (eval_deps look info inv ds s))) /\
        (done_ev s -> fst (eval_deps look info inv ds s) <> DFail IPanic -> done_ev (snd (eval_deps look info inv ds s))).
    Proof using Type.
      intros H1 H2. induction ds as [|d ds IH]; intros s; cbn [eval_deps]; [auto|].
      destruct (look d) as [q| |]; [|auto|auto].
      destruct (negb (is_done s q) && in_status s (p_name (info q))); [auto|].
      specialize (H1 q s). specialize (H2 q s). destruct (inv q s) as [r s1]. cbn [fst snd] in *.
      destruct r as [[|v o]|e| |]; cbn [fst snd].
      - split; [exact H1|]. intros A B. congruence.
      - destruct (IH s1) as (I1 & I2). destruct (eval_deps look info inv ds s1) as [[l|r] s2]; cbn [fst snd] in *.
        + split; [auto|]. intros A B. apply I2; [apply H2; [exact A|discriminate]|discriminate].
        + split; [auto|]. intros A B. apply I2; [apply H2; [exact A|discriminate]|exact B].
      - split; [exact H1|]. intros A B. apply H2; [exact A|discriminate].
      - split; [exact H1|]. intros A B. congruence.
      - split; [exact H1|]. intros A B. apply H2; [exact A|discriminate].
    Qed.
    Lemma invoke_done inj look fuel : forall q s,
      (ev_done s -> ev_done (snd (invoke asg call inj look info fuel q s))) /\
      (done_ev s -> fst (invoke asg call inj look info fuel q s) <> IPanic -> done_ev (snd (invoke asg call inj look info fuel q s))).
    Proof using Type.
      induction fuel as [|f IH]; intros q s; cbn [invoke]; [auto|].
      destruct (aget (i_cache s) (p_name (info q))) as [o|]; [auto|]. cbv zeta.
      set (s0 := set_status s (p_name (info q))).
      destruct (p_kind (info q)) as [v|fn ins outs] eqn:Ek; cbn [fst snd].
      { split; [intros A e He; right; exact (A e He)|]. intros A _ x [<-|Hx] Hf; [unfold is_fun in Hf; rewrite Ek in Hf; discriminate|]. exact (A x Hx Hf). }
      destruct (eval_deps_done look (invoke asg call inj look info f)) with (ds := p_deps (info q)) (s := s0) as (D1 & D2).
      { intros q' s'. apply (proj1 (IH q' s')). }
      { intros q' s'. apply (proj2 (IH q' s')). }
      pose proof (eval_deps_fail look info (invoke asg call inj look info f) (p_deps (info q)) s0) as Hnf.
      destruct (eval_deps look info (invoke asg call inj look info f) (p_deps (info q)) s0) as [dr s1]. cbn [fst snd] in *.
      assert (D1' : ev_done s -> ev_done s1) by (intros A; apply D1; exact A).
      assert (D2' : done_ev s -> dr <> DFail IPanic -> done_ev s1) by (intros A B; apply D2; [exact A|exact B]).
      destruct dr as [args|r].
      - unfold call_fun. destruct (args_ok asg args ins); cbn [fst snd].
        2:{ split; [intros A e He; right; exact (D1' A e He)|congruence]. }
        destruct (call (i_tr s1) fn args) as [g|]; cbn [fst snd].
        + split.
          * intros A e He. assert (X : e = Called inj q fn args true \/ In e (i_tr s1)) by (destruct outs; cbn in He; destruct He as [<-|He]; auto).
            destruct X as [-> |X]; [cbn; left; reflexivity|]. apply (D1' A) in X. destruct outs; right; exact X.
          * intros A _ x Hx Hf. assert (X : x = q \/ In x (i_done s1)) by (destruct outs; cbn in Hx; destruct Hx as [<-|Hx]; auto).
            destruct X as [-> |X].
            -- exists (Called inj q fn args true). split; [destruct outs; left; reflexivity|reflexivity].
            -- destruct (D2' A ltac:(discriminate) x X Hf) as (e & He & E). exists e. split; [destruct outs; right; exact He|exact E].
        + split; [|congruence]. intros A e [<-|He]; [left; reflexivity|right; exact (D1' A e He)].
      - destruct r as [o|er| |]; cbn [fst snd].
        + split; [intros A e He; right; exact (D1' A e He)|]. intros A _ x [<-|Hx] Hf; [|exact (D2' A ltac:(discriminate) x Hx Hf)].
          exfalso. exact (Hnf o eq_refl).
        + split; [exact D1'|]. intros A _. apply D2'; [exact A|discriminate].
        + split; [intros A e He; right; exact (D1' A e He)|congruence].
        + split; [exact D1'|]. intros A _. apply D2'; [exact A|discriminate].
    Qed.
  End Core.

  (** *** Apply *)
  Section App.
    Variable w : world.
    Variable i : nat.
    Notation DE := (done_ev (info_of w)).
    Definition ares_np (r : ares) : Prop := r <> AppFail IPanic.
    Lemma apply_fields_done fuel sub :
      (forall fs p s, (ev_done s -> ev_done (snd (sub fs p s))) /\ (DE s -> ares_np (fst (sub fs p s)) -> DE (snd (sub fs p s)))) ->
      forall fs k p s, (ev_done s -> ev_done (snd (apply_fields asg call w i fuel sub fs k p s))) /\
        (DE s -> ares_np (fst (apply_fields asg call w i fuel sub fs k p s)) -> DE (snd (apply_fields asg call w i fuel sub fs k p s))).
    Proof using Type.
      intros Hsub. induction fs as [|[settable tg ty sb] fs IH]; intros k p s; cbn [apply_fields]; [auto|].
      destruct settable; cbn [negb]; [|apply IH]. destruct tg as [| |label].
      - destruct sb as [fs1|]; [|apply IH]. destruct (Hsub fs1 (p ++ [k]) s) as (A & B).
        destruct (sub fs1 (p ++ [k]) s) as [[l|r] s1]; cbn [fst snd] in *; [|auto].
        destruct (IH (S k) p s1) as (A2 & B2). destruct (apply_fields asg call w i fuel sub fs (S k) p s1) as [[l'|r'] s2]; cbn [fst snd] in *.
        + split; [auto|]. intros X Y. apply B2; [apply B; [exact X|discriminate]|discriminate].
        + split; [auto|]. intros X Y. apply B2; [apply B; [exact X|discriminate]|exact Y].
      - apply IH.
      - destruct (look_in w i (create_name (indirect ty) label)) as [q| |]; [|auto|auto].
        destruct (invoke_done (info_of w) i (look_in w i) fuel q s) as (A & B).
        change (invoke asg call i (look_in w i) (info_of w) fuel q s) with (run_invoke asg call w i fuel q s) in A, B.
        assert (C : forall l s1, (ev_done s -> ev_done s1) -> (DE s -> DE s1) ->
          let x := match apply_fields asg call w i fuel sub fs (S k) p s1 with (AppOk l', s2) => (AppOk (l ++ l'), s2) | y => y end in
          (ev_done s -> ev_done (snd x)) /\ (DE s -> ares_np (fst x) -> DE (snd x))).
        { intros l s1 A1 B1. destruct (IH (S k) p s1) as (A2 & B2).
          destruct (apply_fields asg call w i fuel sub fs (S k) p s1) as [[l'|r'] s2]; cbn [fst snd] in *.
          - split; [auto|]. intros X Y. apply B2; [auto|discriminate].
          - split; [auto|]. intros X Y. apply B2; [auto|exact Y]. }
        destruct (run_invoke asg call w i fuel q s) as [[[|v o]|e| |] s1]; cbn [fst snd] in *.
        + apply C; [exact A|intros X; apply B; [exact X|discriminate]].
        + assert (B' : DE s -> DE s1) by (intros X; apply B; [exact X|discriminate]).
          destruct (assign_value asg v ty) as [v'| |]; apply C; assumption.
        + split; [exact A|]. intros X _. apply B; [exact X|discriminate].
        + split; [exact A|]. intros X Y. exfalso. apply Y. reflexivity.
        + split; [exact A|]. intros X _. apply B; [exact X|discriminate].
    Qed.
    Lemma apply_lvl_done fuel lv : forall fs p s, (ev_done s -> ev_done (snd (apply_lvl asg call w i fuel lv fs p s))) /\
        (DE s -> ares_np (fst (apply_lvl asg call w i fuel lv fs p s)) -> DE (snd (apply_lvl asg call w i fuel lv fs p s))).
    Proof using Type.
      induction lv as [|lv IH]; intros fs p s; cbn [apply_lvl]; apply apply_fields_done; [auto|exact IH].
    Qed.
  End App.

  (** *** Programs *)
  Definition wev (w : world) : Prop := forall e, In e (w_tr w) -> In (c_prov e) (w_done w).
  Definition wdone (w : world) : Prop := forall q, In q (w_done w) -> is_fun (info_of w q) = true -> exists e, In e (w_tr w) /\ c_prov e = q.
  Lemma exec_done fuel w o w' b : winv w -> op_ok w o -> exec_op asg call fuel w o = (w', b) ->
    (wev w -> wev w') /\ (wdone w -> b <> RPanic -> wdone w').
  Proof using Type.
    intros W Hok E.
    assert (Hadd : forall p, wdone w -> wdone (add_prov w p)).
    { intros p H q Hq Hf. unfold add_prov in Hf. rewrite info_old in Hf by (apply (wi_done _ W); exact Hq). exact (H q Hq Hf). }
    destruct o as [|i k|i o|i t l|i o|i fs|i t l]; cbn [exec_op] in E.
    - injection E as <- <-. auto.
    - injection E as <- <-. auto.
    - unfold provide in E. destruct (new_provider o) as [p|]; injection E as <- <-; [|auto]. split; [auto|]. intros H _. exact (Hadd p H).
    - unfold find_op in E. cbv zeta in E. destruct (look_in w i (create_name (indirect t) l)) as [q| |]; [|injection E as <- <-; auto..].
      destruct (invoke_done (info_of w) i (look_in w i) fuel q (begin w i)) as (A & B).
      change (invoke asg call i (look_in w i) (info_of w) fuel q (begin w i)) with (run_invoke asg call w i fuel q (begin w i)) in A, B.
      destruct (run_invoke asg call w i fuel q (begin w i)) as [[[|v x]|e| |] s]; cbn [fst snd obs_fail] in *; injection E as <- <-;
        (split; [exact A|]; intros X Y; first [exfalso; apply Y; reflexivity|apply B; [exact X|discriminate]]).
    - unfold invoke_op in E. destruct (new_provider o) as [p|]; [|injection E as <- <-; auto]. cbv zeta in E.
      destruct (invoke_done (info_of (add_prov w p)) i (look_in (add_prov w p) i) fuel (List.length (w_prov w)) (begin (add_prov w p) i)) as (A & B).
      match type of E with context [run_invoke ?a ?b ?c ?d ?e ?f ?g] => change (invoke a b d (look_in c d) (info_of c) e f g) with (run_invoke a b c d e f g) in A, B;
        destruct (run_invoke a b c d e f g) as [[x|er| |] s] end; cbn [fst snd obs_fail] in *; injection E as <- <-;
        (split; [exact A|]; intros X Y; first [exfalso; apply Y; reflexivity|apply B; [exact (Hadd p X)|discriminate]]).
    - unfold apply_op, apply_struct in E. destruct (apply_lvl_done w i fuel (max_level - 1) fs [] (begin w i)) as (A & B).
      destruct (apply_lvl asg call w i fuel (max_level - 1) fs [] (begin w i)) as [[l|r] s]; cbn [fst snd] in *; injection E as <- <-.
      + split; [exact A|]. intros X _. apply B; [exact X|discriminate].
      + split; [exact A|]. intros X Y. apply B; [exact X|]. intros [= ->]. apply Y. reflexivity.
    - unfold exists_op in E. cbv zeta in E. destruct (look_in w i (create_name (indirect t) l)) as [q| |]; [destruct (p_kind (info_of w q))|..]; injection E as <- <-; auto.
  Qed.
  Notation logged := (logged asg call).
  Lemma logged_done L w : logged L w -> wev w /\ (no_panic L -> wdone w).
  Proof using Type.
    induction 1 as [|L w o fuel w' b new Lg (IH1 & IH2) Hok E Hb T]; [split; intros; intros ? []|].
    destruct (exec_done fuel w o w' b (logged_winv _ _ _ _ Lg) Hok E) as (A & B). split; [auto|].
    intros N. inversion N as [|x l N1 N2]; subst. apply B; [apply IH2; exact N2|exact N1].
  Qed.
  (** the counter of a function is set iff it was called *)
  Lemma done_used L w q : logged L w -> used L q -> In q (w_done w).
  Proof using Type. intros Lg (e & He & <-). rewrite <- (logged_calls _ _ _ _ Lg) in He. exact (proj1 (logged_done L w Lg) e He). Qed.
  Lemma used_done L w q : logged L w -> no_panic L -> In q (w_done w) -> is_fun (info_of w q) = true -> used L q.
  Proof using Type.
    intros Lg N Hq Hf. destruct (proj2 (logged_done L w Lg) N q Hq Hf) as (e & He & E). exists e. rewrite <- (logged_calls _ _ _ _ Lg). auto.
  Qed.

  (** *** Numbers *)
  Lemma logged_values L w i n : logged L w -> aget (j_values (jget w i)) n = last_no L i n.
  Proof using Type.
    intros Lg. revert i n. induction Lg as [|L w o fuel w' b new Lg IH Hok E Hb T]; intros i n; [rewrite jget0; reflexivity|].
    pose proof (logged_winv _ _ _ _ Lg) as W.
    assert (Hlen : List.length (given L) = List.length (w_prov w)) by (apply numbered_len; eapply logged_numbered; exact Lg).
    pose proof (exec_eff asg call fuel w o w' b W Hok E) as Ef. cbn [last_no op_of fst]. rewrite Hlen.
    destruct Ef as [|j k|j o p w' Hp P|j o Hp| |j t l b w' Ef|j fs b w' Ef| |j o p b w' Hp Ef].
    - rewrite jget_new. apply IH.
    - destruct Hok as (Hi & Hk). rewrite (proj1 (set_parent_jget w j k i Hi)). apply IH.
    - destruct (Nat.eqb_spec j i) as [<-|Hne]; cbn [andb].
      + rewrite (pv_val _ _ _ _ P), (fills_name _ _ n Hp). destruct (beq (p_name p) n) eqn:Eb.
        * apply beq_true in Eb as <-. rewrite aget_aset_same. reflexivity.
        * rewrite aget_aset_other by (intros <-; rewrite beq_refl in Eb; discriminate). apply IH.
      + rewrite (pv_other _ _ _ _ P i) by congruence. apply IH.
    - unfold fills, slot. rewrite Hp. cbn [option_map]. rewrite andb_false_r. apply IH.
    - apply IH.
    - rewrite (we_values _ _ _ _ _ Ef). apply IH.
    - rewrite (we_values _ _ _ _ _ Ef). apply IH.
    - apply IH.
    - rewrite (we_values _ _ _ _ _ Ef). apply IH.
  Qed.
  Lemma look_no L w i n q : logged L w -> i < List.length (w_inj w) -> (look_in w i n = Found q <-> nearest_no L i n q).
  Proof using Type.
    intros Lg Hi. pose proof (logged_winv _ _ _ _ Lg) as W. pose proof (logged_hist _ _ _ _ Lg) as H. split.
    - unfold look_in. clear Hi. revert i. induction (S (List.length (w_inj w))) as [|f IH]; intros i; cbn [look_up]; [discriminate|].
      rewrite (logged_values L w i n Lg), (hi_par _ _ H). destruct (last_no L i n) as [q'|] eqn:El; [intros [= ->]; apply nn_here; exact El|].
      destruct (parent_of (ops L) i) as [k|] eqn:Ep; [|discriminate]. intros X. eapply nn_up; [exact El|exact Ep|apply IH; exact X].
    - intros Hn. assert (X : exists f, look_up w f i n = Found q).
      { clear Hi. induction Hn as [i n q E|i k n q E1 E2 Hn (f & IH)].
        - exists 1. cbn. rewrite (logged_values L w i n Lg), E. reflexivity.
        - exists (S f). cbn [look_up]. rewrite (logged_values L w i n Lg), E1, (hi_par _ _ H), E2. exact IH. }
      destruct X as (f & X). eapply look_enough; [exact W|exact Hi|exact X|discriminate].
  Qed.
End Done.
