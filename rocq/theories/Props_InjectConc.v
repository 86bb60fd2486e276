(** Props_InjectConc: C163 and C164, lookups of concurrent requests *)
From Coq Require Import List Ascii String Bool Arith NArith Lia.
Import ListNotations.
From Verif Require Import GoStr InjectModel InjectConc InjectConcFacts.

(** ** C163: a request looks things up as if it were alone *)
(** the answers of request [r] when the accesses of all requests were made in the order of the schedule *)
Definition answered (ts : list (tree answer)) (c : counters) (sched : list nat) (r : nat) (bs : list iobs) (w : world) : Prop :=
  nth_error (fst (run_all ts c sched)) r = Some (TRet (bs, w)).
(** the same injectors with the same values and kept results, the same providers, the same functions called *)
Definition same_world (w w' : world) : Prop := w_inj w = w_inj w' /\ w_prov w = w_prov w' /\ w_tr w = w_tr w'.
Definition reports_cycle (bs : list iobs) : Prop := exists n, In (RErr (ECycle n)) bs.

Section C163.
  Variable assignable : rtype -> rtype -> bool.
  Variable call : list callev -> nat -> list val -> option (nat -> option nat).
  Variable fuel : nat.
  (** Whatever other requests do and whenever they do it (no counter passing 2^32), and whatever was looked up before (d: some
      of it): the request gets the answers it gets alone and ends with the same injectors, kept values and functions called,
      after a number of accesses that the others do not influence - provided that alone it is told of no cycle. *)
  Theorem C163_as_alone : forall p w, ~ reports_cycle (fst (alone assignable call fuel p w [])) ->
    exists n, forall ts c sched r,
      nth_error ts r = Some (t_prog assignable call fuel p w []) ->
      (forall q, In q (w_done w) -> c q <> 0%N) ->
      (forall q, (c q + N.of_nat (List.length sched) < 4294967296)%N) ->
      (n <= count_occ Nat.eq_dec sched r -> exists bs w', answered ts c sched r bs w') /\
      forall bs w', answered ts c sched r bs w' -> bs = fst (alone assignable call fuel p w []) /\ same_world w' (snd (alone assignable call fuel p w [])).
  Proof.
    intros p w Hb. pose proof (t_prog_ok assignable call fuel p w (w_done w) []) as E. change (wput w (w_done w)) with (World (w_inj w) (w_prov w) (w_done w) (w_tr w)) in E.
    assert (Ew : World (w_inj w) (w_prov w) (w_done w) (w_tr w) = w) by (destruct w; reflexivity). rewrite Ew in E.
    destruct (alone assignable call fuel p w []) as [bs0 w0]. cbn [fst snd] in *.
    exists (fsteps (t_prog assignable call fuel p w []) (w_done w)). intros ts c sched r Hr Hd Hs.
    destruct (same_way answer saw_cycle (t_prog assignable call fuel p w []) (w_done w) r (prog_tame _ _ _ _ _ _) ltac:(rewrite E; exact Hb) sched ts c 0 Hr Hd Hs) as (m & Em & Hm).
    split.
    - intros Hn. exists bs0, (wput w0 (w_done w)). unfold answered. rewrite Hm, fiter_end by lia. rewrite E. reflexivity.
    - intros bs w' Ha. unfold answered in Ha. rewrite Hm in Ha. injection Ha as Ha. apply fiter_ret in Ha. rewrite E in Ha. cbn [fst] in Ha. injection Ha as -> ->. split; [reflexivity|]. split; [reflexivity|]. split; reflexivity.
  Qed.

  (** a program that works on its own injectors, those from [base] on *)
  Inductive own_prog (base : nat) : prog -> Prop :=
  | op_stop : own_prog base Stop
  | op_do : forall o k, match o with PNew => True | PSetParent i _ | PProvide i _ | PFind i _ _ | PInvoke i _ | PApply i _ | PExists i _ _ => base <= i end ->
      (forall b, own_prog base (k b)) -> own_prog base (Do o k).
  Lemma upd_other {A} (l : list A) i x j d : i <> j -> nth j (upd l i x) d = nth j l d.
  Proof. revert i j. induction l as [|y l IH]; intros [|i] [|j] H; cbn; try reflexivity; try congruence. apply IH. congruence. Qed.
  Lemma set_inj_other w i x j : i <> j -> jget (set_inj w i x) j = jget w j.
  Proof. apply upd_other. Qed.
  Lemma commit_other w i s j : i <> j -> jget (commit w i s) j = jget w j.
  Proof. apply upd_other. Qed.
  Lemma len_upd {A} (l : list A) i x : List.length (upd l i x) = List.length l.
  Proof. revert i. induction l as [|y l IH]; intros [|i]; cbn; try reflexivity. now rewrite IH. Qed.
  Lemma op_frame o w base : base <= List.length (w_inj w) -> match o with PNew => True | PSetParent i _ | PProvide i _ | PFind i _ _ | PInvoke i _ | PApply i _ | PExists i _ _ => base <= i end ->
    base <= List.length (w_inj (fst (exec_op assignable call fuel w o))) /\ forall j, j < base -> jget (fst (exec_op assignable call fuel w o)) j = jget w j.
  Proof.
    intros Hb Ho.
    assert (K : forall w1 i s, base <= i -> List.length (w_inj w1) = List.length (w_inj w) -> (forall j, j < base -> jget w1 j = jget w j) -> base <= List.length (w_inj (commit w1 i s)) /\ forall j, j < base -> jget (commit w1 i s) j = jget w j).
    { intros w1 i s H1 H2 H3. cbn [commit w_inj]. rewrite len_upd, H2. split; [exact Hb|]. intros j Hj. rewrite commit_other by lia. auto. }
    destruct o as [|i p|i o|i t l|i o|i fs|i t l]; cbn [exec_op].
    - cbn. rewrite app_length. split; [lia|]. intros j Hj. unfold jget. cbn. apply app_nth1. lia.
    - cbn [fst]. unfold set_inj at 1. cbn [w_inj]. rewrite len_upd. split; [exact Hb|]. intros j Hj. apply set_inj_other. lia.
    - unfold provide. destruct (new_provider o) as [p|]; cbn [fst]; [|auto]. split.
      + unfold set_inj, drop_cache, set_inj, add_prov. cbn [w_inj]. rewrite !len_upd. exact Hb.
      + intros j Hj. rewrite set_inj_other by lia. unfold drop_cache. rewrite set_inj_other by lia. reflexivity.
    - unfold find_op. destruct (look_in w i _) as [q| |]; cbn [fst]; auto. destruct (run_invoke _ _ _ _ _ _ _) as [r s]. destruct r as [[|v out]| | |]; cbn [fst]; apply K; auto.
    - unfold invoke_op. destruct (new_provider o) as [p|]; cbn [fst]; [|auto]. destruct (run_invoke _ _ _ _ _ _ _) as [r s].
      assert (K1 : base <= List.length (w_inj (commit (add_prov w p) i s)) /\ forall j, j < base -> jget (commit (add_prov w p) i s) j = jget w j) by (apply K; auto).
      destruct r; cbn [fst]; try exact K1. destruct K1 as [K1 K2]. split; [unfold drop_cache, set_inj; cbn [w_inj]; rewrite len_upd; exact K1|]. intros j Hj. unfold drop_cache. rewrite set_inj_other by lia. auto.
    - unfold apply_op. destruct (apply_struct _ _ _ _ _ _) as [a s]. destruct a; cbn [fst]; apply K; auto.
    - unfold exists_op. destruct (look_in w i _); cbn [fst]; auto. destruct (p_kind _); cbn [fst]; auto.
  Qed.
  (** such a program leaves the other injectors, the application's above all, as they are *)
  Theorem C163_shared_injectors_stay : forall base p, own_prog base p -> forall w, base <= List.length (w_inj w) ->
    forall seen j, j < base -> jget (snd (alone assignable call fuel p w seen)) j = jget w j.
  Proof.
    intros base p Hp. induction Hp as [|o k Ho Hk IH]; intros w Hw seen j Hj; [reflexivity|]. cbn [alone].
    destruct (op_frame o w base Hw Ho) as [F1 F2]. destruct (exec_op assignable call fuel w o) as [w1 b]. cbn [fst] in *. rewrite IH by assumption. auto.
  Qed.
End C163.

(** the providers of an application: A made from B and B made from A *)
Definition tA := TNamed (bs "app") (bs "A") 0.
Definition tB := TNamed (bs "app") (bs "B") 0.
Definition eq_ty (a b : rtype) : bool := match a, b with TPtr (TNamed p n s), TPtr (TNamed p' n' s') => beq p p' && beq n n' && Nat.eqb s s' | TNamed p n s, TNamed p' n' s' => beq p p' && beq n n' && Nat.eqb s s' | _, _ => false end.
Definition some_call : list callev -> nat -> list val -> option (nat -> option nat) := fun _ f _ => Some (fun _ => Some f).
Definition p_a := PI (create_name tA []) [create_name tB []] (KFun 1 [TPtr tB] [TPtr tA]).
Definition p_b := PI (create_name tB []) [create_name tA []] (KFun 2 [TPtr tA] [TPtr tB]).
(** injector 0 is the application's, 1 the request's *)
Definition app_w : world := World [Inj [(create_name tA [], 0); (create_name tB [], 1)] [] None; Inj [] [] (Some 0)] [p_a; p_b] [] [].
Definition asks_a : prog := Do (PFind 1 (TPtr tA) []) (fun _ => Stop).
(** a request that brings its own B, and one that brings its own A *)
Definition brings_b : prog := Do (PProvide 1 (OVal (Val (TPtr tB) (Some 7)) None [])) (fun _ => Do (PFind 1 (TPtr tA) []) (fun _ => Stop)).
Definition brings_a : prog := Do (PProvide 1 (OVal (Val (TPtr tA) (Some 8)) None [])) (fun _ => Do (PFind 1 (TPtr tB) []) (fun _ => Stop)).
Example app_w_ok : exists obs, runs eq_ty some_call world0 [PNew; PProvide 0 (OFun 1 [TPtr tB] [TPtr tA] [] None []); PProvide 0 (OFun 2 [TPtr tA] [TPtr tB] [] None []); PNew; PSetParent 1 0] obs app_w.
Proof. eexists. repeat (eapply (runs_cons _ _ _ _ _ 1); [cbn; try exact Logic.I; lia|reflexivity|discriminate|]). vm_compute. constructor. Qed.
(** three requests at the same time: the two that can be served are, as alone *)
Example C163_case : answered [t_prog eq_ty some_call 9 asks_a app_w []; t_prog eq_ty some_call 9 brings_b app_w []; t_prog eq_ty some_call 9 brings_a app_w []] (fun _ => 0%N) [0; 1; 2; 1; 0; 2; 1; 2; 1; 2; 0; 0; 0] 1
    (fst (alone eq_ty some_call 9 brings_b app_w [])) (wput (snd (alone eq_ty some_call 9 brings_b app_w [])) []) /\
  fst (alone eq_ty some_call 9 brings_b app_w []) = [RVal (ASet (Val (TPtr tA) (Some 1))); RNone] /\
  ~ reports_cycle (fst (alone eq_ty some_call 9 brings_b app_w [])) /\ own_prog 1 brings_b.
Proof.
  split; [vm_compute; reflexivity|]. split; [vm_compute; reflexivity|]. split; [|repeat constructor].
  intros (n & H). replace (fst (alone eq_ty some_call 9 brings_b app_w [])) with [RVal (ASet (Val (TPtr tA) (Some 1))); RNone] in H by (vm_compute; reflexivity). destruct H as [H|[H|[]]]; discriminate.
Qed.

(** A cycle is not always reported: once other requests, which bring one of the two themselves, got the other one made, the
    lookup that alone is an error never ends (in Go: the stack overflows and the process dies). *)
Lemma endless (c : counters) : c 0 <> 0%N -> c 1 <> 0%N -> forall X (look : bytes -> found), look (create_name tA []) = Found 0 -> look (create_name tB []) = Found 1 ->
  forall fuel q s k, q < 2 -> i_cache s = [] -> exists n s', i_cache s' = [] /\ i_tr s' = i_tr s /\ i_done s' = i_done s /\
    fold_left (@sched_step X) (repeat 0 n) ([t_invoke eq_ty some_call X 1 look (info_of app_w) fuel q s k], c) = ([k IDiv s'], c).
Proof.
  intros C0 C1 X look LA LB. induction fuel as [|f IH]; intros q s k Hq Hc; [exists 0, s; auto|].
  assert (Hcase : q = 0 \/ q = 1) by lia. destruct Hcase as [-> | ->].
  - set (s1 := set_status s (create_name tA [])).
    edestruct (IH 1 s1) as (n & s' & E1 & E2 & E3 & E); [lia|exact Hc|]. exists (S n), s'. split; [exact E1|]. split; [exact E2|]. split; [exact E3|].
    cbn [repeat fold_left]. unfold sched_step at 2. cbn [nth_error fst snd]. cbn [t_invoke]. change (info_of app_w 0) with p_a. rewrite Hc. cbn [aget p_a p_name p_kind p_deps t_deps]. rewrite LB. cbn [tstep]. apply N.eqb_neq in C1. rewrite C1. cbn [andb upd]. rewrite E. reflexivity.
  - set (s1 := set_status s (create_name tB [])).
    edestruct (IH 0 s1) as (n & s' & E1 & E2 & E3 & E); [lia|exact Hc|]. exists (S n), s'. split; [exact E1|]. split; [exact E2|]. split; [exact E3|].
    cbn [repeat fold_left]. unfold sched_step at 2. cbn [nth_error fst snd]. cbn [t_invoke]. change (info_of app_w 1) with p_b. rewrite Hc. cbn [aget p_b p_name p_kind p_deps t_deps]. rewrite LA. cbn [tstep]. apply N.eqb_neq in C0. rewrite C0. cbn [andb upd]. rewrite E. reflexivity.
Qed.
(** the counters when the two other requests have been served *)
Definition served_both : counters := snd (run_all [t_prog eq_ty some_call 9 brings_b app_w []; t_prog eq_ty some_call 9 brings_a app_w []] (fun _ => 0%N) [0; 1; 0; 1; 0; 1; 0; 1]).
Theorem C163_cycle_always_reported_refuted :
  (forall fuel, 2 <= fuel -> fst (alone eq_ty some_call fuel asks_a app_w []) = [RErr (ECycle (create_name tA []))]) /\
  forall fuel, exists n w', answered [t_prog eq_ty some_call fuel asks_a app_w []] served_both (repeat 0 n) 0 [RDiv] w'.
Proof.
  split.
  - intros [|[|fuel]] H; [lia|lia|]. reflexivity.
  - intros fuel. unfold answered, run_all, asks_a. cbn [t_prog t_op t_find].
    assert (L : look_in app_w 1 (create_name (indirect (TPtr tA)) []) = Found 0) by (vm_compute; reflexivity). unfold t_find. rewrite L. unfold t_run.
    edestruct (endless served_both ltac:(vm_compute; discriminate) ltac:(vm_compute; discriminate) answer (look_in app_w 1) ltac:(vm_compute; reflexivity) ltac:(vm_compute; reflexivity) fuel 0 (begin app_w 1)) as (n & s' & _ & _ & _ & E); [lia|reflexivity|].
    exists n. eexists. rewrite E. reflexivity.
Qed.

(** ** C164: the counters wrap *)
(** an application with a value T and a function F(T, T) *)
Definition tT := TNamed (bs "app") (bs "T") 0.
Definition tF := TNamed (bs "app") (bs "F") 0.
Definition p_t := PI (create_name tT []) [] (KVal (Val (TPtr tT) (Some 3))).
Definition p_f := PI (create_name tF []) [create_name tT []; create_name tT []] (KFun 5 [TPtr tT; TPtr tT] [TPtr tF]).
Definition val_w : world := World [Inj [(create_name tT [], 0); (create_name tF [], 1)] [] None; Inj [] [] (Some 0)] [p_t; p_f] [] [].
Definition asks_t : prog := Do (PFind 1 (TPtr tT) []) (fun _ => Stop).
Definition asks_f : prog := Do (PFind 1 (TPtr tF) []) (fun _ => Stop).
Example val_w_ok : exists obs, runs eq_ty some_call world0 [PNew; PProvide 0 (OVal (Val (TPtr tT) (Some 3)) None []); PProvide 0 (OFun 5 [TPtr tT; TPtr tT] [TPtr tF] [] None []); PNew; PSetParent 1 0] obs val_w.
Proof. eexists. repeat (eapply (runs_cons _ _ _ _ _ 1); [cbn; try exact Logic.I; lia|reflexivity|discriminate|]). vm_compute. constructor. Qed.
(** the counters after [n] requests, one after the other, that look up T *)
Fixpoint after_lookups (n : nat) : counters :=
  match n with
  | O => fun _ => 0%N
  | S n' => snd (run_all [t_prog eq_ty some_call 9 asks_t val_w []] (after_lookups n') [0])
  end.
Lemma after_lookups_ok n : after_lookups n 0 = (N.of_nat n mod two32)%N /\ after_lookups n 1 = 0%N.
Proof.
  induction n as [|n [IH1 IH2]]; [split; reflexivity|].
  assert (E : forall c, snd (run_all [t_prog eq_ty some_call 9 asks_t val_w []] c [0]) = incr c 0) by (intros c; vm_compute; reflexivity).
  cbn [after_lookups]. rewrite E. unfold incr. cbn [Nat.eqb]. split; [|exact IH2]. rewrite IH1. rewrite N.add_mod_idemp_l by discriminate. f_equal. lia.
Qed.
(** Alone the request gets its F. It gets it after any number of earlier lookups of T - except that, when they are one less than
    a multiple of 2^32, it is told of a cycle that does not exist. *)
Theorem C164_counter_wraps_refuted : forall n, exists steps b w',
  answered [t_prog eq_ty some_call 9 asks_f val_w []] (after_lookups n) steps 0 [b] w' /\
  fst (alone eq_ty some_call 9 asks_f val_w []) = [RVal (ASet (Val (TPtr tF) (Some 5)))] /\
  ((N.of_nat n mod 4294967296 = 4294967295)%N -> b = RErr (ECycle (create_name tT []))) /\
  ((N.of_nat n mod 4294967296 <> 4294967295)%N -> b = RVal (ASet (Val (TPtr tF) (Some 5)))).
Proof.
  intros n. destruct (after_lookups_ok n) as [H1 H2]. set (m := (N.of_nat n mod 4294967296)%N). assert (Hm : after_lookups n 0 = m) by exact H1.
  assert (Lt : (m < 4294967296)%N) by (apply N.mod_lt; discriminate).
  generalize dependent (after_lookups n). intros c H1 H2 Hm. clear H1. clearbody m.
  assert (S1 : forall z, match t_prog eq_ty some_call 9 asks_f val_w [] with TAsk _ k => k z | t => t end = match t_prog eq_ty some_call 9 asks_f val_w [] with TAsk _ k => k true | t => t end) by (intros [|]; vm_compute; reflexivity).
  set (t0 := t_prog eq_ty some_call 9 asks_f val_w []) in *.
  assert (E0 : exists k, t0 = TAsk 0 k /\ exists k1, k true = TMark 0 (TAsk 0 k1) /\ (exists w1, k1 true = TRet ([RErr (ECycle (create_name tT []))], w1)) /\ exists w2, k1 false = TMark 0 (TMark 1 (TRet ([RVal (ASet (Val (TPtr tF) (Some 5)))], w2)))).
  { eexists. split; [vm_compute; reflexivity|]. eexists. split; [vm_compute; reflexivity|]. split; eexists; vm_compute; reflexivity. }
  destruct E0 as (k & E0 & k1 & E1 & (w1 & E2) & (w2 & E3)). rewrite E0 in S1. cbn in S1. clearbody t0. subst t0.
  assert (St : forall sched, fold_left sched_step (0 :: 0 :: 0 :: sched) ([TAsk 0 k], c) = fold_left sched_step sched ([k1 (N.eqb (incr c 0 0) 0)], incr c 0)).
  { intros sched. cbn [fold_left].
    replace (sched_step ([TAsk 0 k], c) 0) with ([TMark 0 (TAsk 0 k1)], c) by (rewrite <- E1, <- (S1 (N.eqb (c 0) 0)); reflexivity). reflexivity. }
  assert (Ei : incr c 0 0 = ((m + 1) mod two32)%N) by (unfold incr; cbn [Nat.eqb]; rewrite Hm; reflexivity).
  assert (Ha : fst (alone eq_ty some_call 9 asks_f val_w []) = [RVal (ASet (Val (TPtr tF) (Some 5)))]) by (vm_compute; reflexivity).
  destruct (N.eq_dec m 4294967295) as [Em|Em].
  - exists [0; 0; 0]. do 2 eexists. split; [|split; [exact Ha|split; [reflexivity|congruence]]].
    unfold answered, run_all. rewrite St. cbn [fold_left fst nth_error]. rewrite Ei, Em. change (((4294967295 + 1) mod two32 =? 0)%N) with true. rewrite E2. reflexivity.
  - exists [0; 0; 0; 0; 0]. do 2 eexists. split; [|split; [exact Ha|split; [congruence|reflexivity]]].
    unfold answered, run_all. rewrite St. cbn [fold_left]. replace (N.eqb (incr c 0 0) 0) with false.
    + rewrite E3. reflexivity.
    + symmetry. apply N.eqb_neq. rewrite Ei, N.mod_small; [lia|]. unfold two32. lia.
Qed.

Print Assumptions C163_as_alone.
Print Assumptions C163_shared_injectors_stay.
Print Assumptions C163_cycle_always_reported_refuted.
Print Assumptions C164_counter_wraps_refuted.
