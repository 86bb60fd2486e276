(** Props_Inject: C26-C34, C95, C96.
    A history [h] is a list of operations; [runs asg call world0 h obs w] says that
    the program [h], started with nothing, ended in [w], each operation returning the
    corresponding element of [obs]. [asg] (reflect.AssignableTo) and [call] (what the
    provided functions do) are arbitrary. *)
From Coq Require Import List Ascii String Bool Arith Lia Relations.
Import ListNotations.
From Verif Require Import GoStr InjectModel InjectFacts InjectWorld InjectSpec InjectHist InjectNear InjectMain.

(** ** Running programs by computation (for the witnesses) *)
Definition op_okb (w : world) (o : iop) : bool :=
  let n := List.length (w_inj w) in
  match o with
  | PNew => true
  | PSetParent i k => Nat.ltb i n && Nat.ltb k n
  | PProvide i _ | PFind i _ _ | PInvoke i _ | PApply i _ | PExists i _ _ => Nat.ltb i n
  end.
Fixpoint exec_all asg call (fuel : nat) (w : world) (h : list iop) : option (list iobs * world) :=
  match h with
  | [] => Some ([], w)
  | o :: os =>
      if op_okb w o then
        match exec_op asg call fuel w o with
        | (_, RDiv) => None
        | (w1, b) => match exec_all asg call fuel w1 os with Some (bs, w2) => Some (b :: bs, w2) | None => None end
        end
      else None
  end.
Lemma op_okb_ok w o : op_okb w o = true -> op_ok w o.
Proof.
  destruct o; cbn; intros H; try exact Logic.I; try (apply Nat.ltb_lt; exact H).
  apply andb_true_iff in H as (A & B). split; apply Nat.ltb_lt; assumption.
Qed.
Lemma exec_all_runs asg call fuel h : forall w obs w', exec_all asg call fuel w h = Some (obs, w') -> runs asg call w h obs w'.
Proof.
  induction h as [|o os IH]; intros w obs w'; cbn [exec_all].
  - intros [= <- <-]. constructor.
  - destruct (op_okb w o) eqn:Hok; [|discriminate]. destruct (exec_op asg call fuel w o) as [w1 b] eqn:E.
    assert (b <> RDiv -> match exec_all asg call fuel w1 os with Some (bs, w2) => Some (b :: bs, w2) | None => None end = Some (obs, w') ->
            runs asg call w (o :: os) obs w') as X.
    { intros Hb. destruct (exec_all asg call fuel w1 os) as [[bs w2]|] eqn:E2; [|discriminate]. intros [= <- <-].
      econstructor; [apply op_okb_ok; exact Hok|exact E|exact Hb|apply IH; exact E2]. }
    destruct b; try (apply X; discriminate). discriminate.
Qed.
(** the end of a program, for reading witnesses *)
Definition end_of asg call fuel h : world := match exec_all asg call fuel world0 h with Some (_, w) => w | None => world0 end.
Definition seen asg call fuel h : list iobs := match exec_all asg call fuel world0 h with Some (b, _) => b | None => [] end.
Lemma end_of_runs asg call fuel h : exec_all asg call fuel world0 h <> None -> runs asg call world0 h (seen asg call fuel h) (end_of asg call fuel h).
Proof. unfold end_of, seen. destruct (exec_all asg call fuel world0 h) as [[b w]|] eqn:E; [|congruence]. intros _. eapply exec_all_runs. exact E. Qed.

(** ** Types and functions of the witnesses *)
Definition tT := TNamed (bs "p") (bs "T") 0.
Definition tU := TNamed (bs "p") (bs "U") 0.
Definition tV := TNamed (bs "p") (bs "V") 0.
Definition any_asg (_ _ : rtype) : bool := true.
(** each call returns the number of calls made before it *)
Definition counting (tr : list callev) (_ : nat) (_ : list val) : option (nat -> option nat) := Some (fun _ => Some (List.length tr)).
Definition ptr_val (t : rtype) (d : nat) : val := Val (TPtr t) (Some d).
Definition fn (f : nat) (ins outs : list rtype) : pobj := OFun f ins outs [] None [].
Definition value (t : rtype) (d : nat) : pobj := OVal (ptr_val t d) None [].

Section Props.
  Variable asg : rtype -> rtype -> bool.
  Variable call : list callev -> nat -> list val -> option (nat -> option nat).
  Notation exec := (exec_op asg call).
  Notation runs0 := (runs asg call world0).

  Lemma runs0_winv h obs w : runs0 h obs w -> winv w.
  Proof. intros R. eapply runs_winv; [apply winv0|exact R]. Qed.

  (** *** C26 *)
  Theorem C26_nearest_value_partial h obs w i t l fuel v typ lab :
    runs0 h obs w -> i < List.length (w_inj w) -> ~ called_for w i (slot_name t l) ->
    nearest (rev h) i (slot_name t l) (OVal v typ lab) ->
    snd (exec (S fuel) w (PFind i t l)) = assigned asg v t.
  Proof.
    intros R Hi Hc Hn. pose proof (runs0_winv _ _ _ R) as W. pose proof (runs0_hist _ _ _ _ _ R) as H.
    destruct (nearest_look _ _ W H i _ _ Hi Hn) as (q & Hl & Hp).
    destruct (has_find asg call w i t l v [] fuel W) as (w' & E & _); [|rewrite E; reflexivity].
    split; [exact Hi|]. exists q. split; [exact Hl|]. right. split.
    - destruct (aget (j_cache (jget w i)) (slot_name t l)) eqn:E; [|reflexivity]. exfalso. apply Hc, (hi_called _ _ H). congruence.
    - exists v. split; [exact (val_info _ _ _ _ Hp)|reflexivity].
  Qed.
  Lemma find_uncached_fun w i t l fuel q f ins outs w' r :
    winv w -> look_in w i (slot_name t l) = Found q -> p_kind (info_of w q) = KFun f ins outs ->
    aget (j_cache (jget w i)) (slot_name t l) = None ->
    exec fuel w (PFind i t l) = (w', RVal r) ->
    exists args tr g t0, w_tr w' = Called i q f args true :: tr /\ call tr f args = Some g /\
      hd_error outs = Some t0 /\ RVal r = assigned asg (Val t0 (g 0)) t.
  Proof.
    intros W Hl Hk Hno E.
    cbn [exec_op] in E. unfold find_op in E. fold (slot_name t l) in E. cbv zeta in E. rewrite Hl in E.
    destruct (run_invoke asg call w i fuel q (begin w i)) as [ri s'] eqn:Er.
    assert (Hnm : p_name (info_of w q) = slot_name t l).
    { apply (visible_name w i W). rewrite visible_eq; [exact Hl|apply create_name_colon]. }
    rewrite <- Hnm in Hno.
    destruct (root_run asg call w i fuel q ri s' W Er) as (s1 & n1 & P & _ & [(_ & _ & Hcase)|(f' & ins' & outs' & args & ok & Hk' & T & _ & Hcase)]).
    - exfalso. destruct ri as [out|e| |]; try (injection E as _ E'; discriminate E').
      apply (Hcase Hno) with out; [|reflexivity]. unfold is_fun. rewrite Hk. reflexivity.
    - rewrite Hk in Hk'. injection Hk' as <- <- <-.
      destruct Hcase as [(_ & -> & _ & _)|(g & -> & Hg & -> & _)]; [injection E as _ E'; discriminate E'|].
      destruct outs as [|t0 ts]; cbn [results] in E; [injection E as _ E'; discriminate E'|].
      injection E as <- E'. exists args, (i_tr s1), g, t0. split; [exact T|]. split; [exact Hg|]. split; [reflexivity|]. symmetry. exact E'.
  Qed.
  Theorem C26_nearest_function_partial h obs w i t l fuel f ins outs deps typ lab w' r :
    runs0 h obs w -> i < List.length (w_inj w) -> ~ called_for w i (slot_name t l) ->
    nearest (rev h) i (slot_name t l) (OFun f ins outs deps typ lab) ->
    exec fuel w (PFind i t l) = (w', RVal r) ->
    exists q args tr g t0, w_tr w' = Called i q f args true :: tr /\ call tr f args = Some g /\
      hd_error outs = Some t0 /\ RVal r = assigned asg (Val t0 (g 0)) t.
  Proof.
    intros R Hi Hc Hn E. pose proof (runs0_winv _ _ _ R) as W. pose proof (runs0_hist _ _ _ _ _ R) as H.
    destruct (nearest_look _ _ W H i _ _ Hi Hn) as (q & Hl & Hp). destruct (fun_info _ _ _ _ _ _ _ Hp) as (Hk & _).
    exists q. eapply find_uncached_fun; [exact W|exact Hl|exact Hk| |exact E].
    destruct (aget (j_cache (jget w i)) (slot_name t l)) eqn:Eo; [|reflexivity]. exfalso. apply Hc, (hi_called _ _ H). congruence.
  Qed.
  Theorem C26_nowhere h obs w i t l fuel :
    runs0 h obs w -> i < List.length (w_inj w) -> nowhere (rev h) i (slot_name t l) ->
    exec fuel w (PFind i t l) = (w, RErr (EMissing (slot_name t l))).
  Proof.
    intros R Hi Hn. pose proof (runs0_winv _ _ _ R) as W. pose proof (runs0_hist _ _ _ _ _ R) as H.
    cbn [exec_op]. unfold find_op. fold (slot_name t l). cbv zeta. rewrite (nowhere_look _ _ W H i _ Hi Hn). reflexivity.
  Qed.

  (** *** C27 *)
  Theorem C27_built_once_partial h obs w i t l q :
    runs0 h obs w -> Forall (fun o => ~ invokes_slot i (slot_name t l) o) h ->
    p_name (info_of w q) = slot_name t l -> made i q (w_tr w) <= 1.
  Proof.
    intros R F Hq. pose proof (runs0_winv _ _ _ R) as W.
    pose proof (runs_built asg call i (slot_name t l) world0 h obs w winv0 (create_name_colon _ _) F (built0 _ _) R) as B.
    destruct (Nat.lt_ge_cases q (List.length (w_prov w))) as [Hlt|Hge]; [exact (proj1 (B q Hlt Hq))|].
    rewrite made_zero; [lia|]. intros e He _ Hp _. apply (wi_called _ W) in He. lia.
  Qed.
  Theorem C27_same_value_partial h1 obs1 w1 i t l fuel w2 r h2 obs2 w3 fuel' :
    runs0 h1 obs1 w1 -> i < List.length (w_inj w1) -> exec fuel w1 (PFind i t l) = (w2, RVal r) ->
    runs asg call w2 h2 obs2 w3 -> Forall (fun o => ~ rewires i (slot_name t l) o) h2 ->
    snd (exec (S fuel') w3 (PFind i t l)) = RVal r /\ w_tr (fst (exec (S fuel') w3 (PFind i t l))) = w_tr w3.
  Proof.
    intros R Hi E R2 F. pose proof (runs0_winv _ _ _ R) as W.
    destruct (find_has asg call w1 i t l fuel w2 _ W Hi E) as [(v & o & Hh & Hb)|(_ & Hb)]; [|exfalso; exact (Hb r eq_refl)].
    assert (W2 : winv w2).
    { eapply eff_winv; [exact W| |exact (exec_eff asg call _ _ (PFind i t l) _ _ W Hi E)]. exact Hi. }
    pose proof (has_runs asg call _ _ _ _ i _ _ R2 W2 F (create_name_colon _ _) Hh) as Hh3.
    assert (W3 : winv w3) by (eapply runs_winv; eassumption).
    destruct (has_find asg call w3 i t l v o fuel' W3 Hh3) as (w4 & E4 & T). rewrite E4. cbn [fst snd]. split; [symmetry; exact Hb|exact T].
  Qed.

  (** *** C28 *)
  (** every function called by a lookup had all its parameters provided, directly
      or through functions whose parameters were; otherwise it was not called *)
  Theorem C28_only_supported_calls h obs w i t l fuel w' b :
    runs0 h obs w -> i < List.length (w_inj w) -> exec fuel w (PFind i t l) = (w', b) ->
    (exists new, w_tr w' = new ++ w_tr w /\
      forall e, In e new -> exists n ins outs deps typ lab,
        c_inj e = i /\ nearest (rev h) i n (OFun (c_fun e) ins outs deps typ lab) /\
        forall d, In d (param_slots deps ins) -> can_build (rev h) i (called_for w i) d) /\
    (~ can_build (rev h) i (called_for w i) (slot_name t l) -> forall r, b <> RVal r).
  Proof.
    intros R Hi E. pose proof (runs0_winv _ _ _ R) as W. pose proof (runs0_hist _ _ _ _ _ R) as H.
    cbn [exec_op] in E. unfold find_op in E. fold (slot_name t l) in E. cbv zeta in E.
    destruct (look_in w i (slot_name t l)) as [q| |] eqn:Hl.
    2,3: injection E as <- <-; split; [exists []; split; [reflexivity|intros e []]|discriminate].
    assert (Hv : visible w i (slot_name t l) = Found q) by (rewrite visible_eq; [exact Hl|apply create_name_colon]).
    destruct (run_good asg call w i W fuel _ q (begin w i) Hv (begin_inv w i W)) as (new & P & _ & H2).
    destruct (run_invoke asg call w i fuel q (begin w i)) as [ri s]. cbn [fst snd] in *.
    assert (Htr : w_tr w' = w_tr (commit w i s)).
    { destruct ri as [[|v o]|e| |]; injection E as <- _; reflexivity. }
    split.
    - exists new. rewrite Htr. cbn. split; [exact (po_tr _ _ _ _ _ _ _ _ P)|]. intros e He.
      pose proof (proj1 (Forall_forall _ _) (po_calls _ _ _ _ _ _ _ _ P) e He) as G.
      destruct (gc_fun _ _ _ _ _ _ _ G) as (ins & outs & Hk).
      destruct (br_find (rev h) w i H _ _ (gc_look _ _ _ _ _ _ _ G)) as (o & Ho & Hp).
      destruct (info_fun _ _ _ _ _ Hp Hk) as (deps & typ & lab & -> & Ed).
      exists (ev_name (info_of w) e), ins, outs, deps, typ, lab. split; [exact (gc_inj _ _ _ _ _ _ _ G)|]. split; [exact Ho|].
      intros d Hd. apply avail_can_build; [exact H|]. apply (gc_supp _ _ _ _ _ _ _ G). rewrite Ed. exact Hd.
    - intros Hno r Hb. subst b. destruct ri as [out|e| |]; try (injection E as _ E'; discriminate E').
      destruct (H2 out eq_refl) as (Hav & _ & _). apply Hno. apply avail_can_build; [exact H|exact Hav].
  Qed.

  Lemma term_find h obs w i t l fuel :
    runs0 h obs w -> i < List.length (w_inj w) -> rooted (rev h) i ->
    no_cycle (visible w i) (info_of w) (j_cache (jget w i)) (slot_name t l) \/ clean (visible w i) (info_of w) (begin w i) ->
    List.length h < fuel -> snd (exec fuel w (PFind i t l)) <> RDiv.
  Proof.
    intros R Hi Hr Hc Hf. pose proof (runs0_winv _ _ _ R) as W. pose proof (runs0_hist _ _ _ _ _ R) as H.
    pose proof (rooted_look (rev h) w i W H Hi (slot_name t l) Hr) as Hnl.
    rewrite visible_eq in Hnl by apply create_name_colon.
    cbn [exec_op]. unfold find_op. fold (slot_name t l). cbv zeta.
    destruct (look_in w i (slot_name t l)) as [q| |] eqn:Hl; [|discriminate|congruence].
    assert (Hv : visible w i (slot_name t l) = Found q) by (rewrite visible_eq; [exact Hl|apply create_name_colon]).
    pose proof (runs_prov _ _ _ _ _ _ R) as Hp. cbn [world0 w_prov List.length] in Hp.
    destruct (invoke_term asg call i (visible w i) (info_of w) (visible_name w i W) (visible_outs w i W) (j_cache (jget w i)) (map p_name (w_prov w))
      (fun n => rooted_look (rev h) w i W H Hi n Hr) (visible_in_D w i W) fuel []) with (n := slot_name t l) (q := q) (s := begin w i) as (T & _).
    - rewrite map_length. cbn. lia.
    - exact Hv.
    - intros [].
    - apply begin_inv. exact W.
    - constructor; [constructor|intros ? []|intros ? []].
    - intros ? [].
    - exact Hc.
    - rewrite <- run_invoke_visible in T by exact W. destruct (run_invoke asg call w i fuel q (begin w i)) as [[[|v o]|e| |] s]; cbn [fst snd] in *; try discriminate; [|congruence].
      destruct (assign_value asg v t); discriminate.
  Qed.
  Lemma np_find h obs w i t l fuel :
    runs0 h obs w -> i < List.length (w_inj w) -> fresh w i -> typed asg (rev h) i -> (forall tr f args, call tr f args <> None) ->
    snd (exec fuel w (PFind i t l)) <> RPanic.
  Proof.
    intros R Hi F T Hnp. pose proof (runs0_winv _ _ _ R) as W. pose proof (runs0_hist _ _ _ _ _ R) as H.
    cbn [exec_op]. unfold find_op. fold (slot_name t l). cbv zeta.
    destruct (look_in w i (slot_name t l)) as [q| |] eqn:Hl; [|discriminate..].
    assert (Hv : visible w i (slot_name t l) = Found q) by (rewrite visible_eq; [exact Hl|apply create_name_colon]).
    destruct (invoke_np asg call i (visible w i) (info_of w) (visible_name w i W) (visible_outs w i W) Hnp
      (fresh_typed asg (rev h) w i H T) fuel _ q (begin w i) Hv (fresh_cache_typed (rev h) w i H F)) as (N1 & _ & N3).
    rewrite <- run_invoke_visible in N1, N3 by exact W.
    destruct (run_invoke asg call w i fuel q (begin w i)) as [[out|e| |] s]; cbn [fst snd] in *; try discriminate; [|congruence].
    destruct (N3 out eq_refl) as (v & o & -> & _). cbn [snd]. destruct (assign_value asg v t); discriminate.
  Qed.
  Lemma find_avail h obs w i t l fuel r :
    runs0 h obs w -> snd (exec fuel w (PFind i t l)) = RVal r -> Avail (visible w i) (info_of w) (j_cache (jget w i)) (slot_name t l).
  Proof.
    intros R Hb. pose proof (runs0_winv _ _ _ R) as W. cbn [exec_op] in Hb. unfold find_op in Hb. fold (slot_name t l) in Hb. cbv zeta in Hb.
    destruct (look_in w i (slot_name t l)) as [q| |] eqn:Hl; try discriminate.
    assert (Hv : visible w i (slot_name t l) = Found q) by (rewrite visible_eq; [exact Hl|apply create_name_colon]).
    destruct (run_good asg call w i W fuel _ q (begin w i) Hv (begin_inv w i W)) as (new & P & _ & H2).
    destruct (run_invoke asg call w i fuel q (begin w i)) as [ri s]. cbn [fst snd] in *.
    destruct ri as [out|e| |]; try discriminate. exact (proj1 (H2 out eq_refl)).
  Qed.
  Lemma find_cases fuel w i t l : winv w ->
    (exists r, snd (exec fuel w (PFind i t l)) = RVal r) \/ (exists e, snd (exec fuel w (PFind i t l)) = RErr e) \/
    snd (exec fuel w (PFind i t l)) = RPanic \/ snd (exec fuel w (PFind i t l)) = RDiv.
  Proof.
    intros W. cbn [exec_op]. unfold find_op. cbv zeta. destruct (look_in w i _) as [q| |] eqn:El; cbn [snd]; eauto 6.
    destruct (inject_run asg call w i W fuel t l (begin w i) (begin_inv w i W) q El) as (new & P & _ & H2).
    destruct (run_invoke asg call w i fuel q (begin w i)) as [[out|e| |] s]; cbn [fst snd obs_fail] in *; eauto 6.
    destruct (H2 out eq_refl) as (v & o & -> & _). cbn [snd]. destruct (assign_value asg v t); eauto.
  Qed.
  (** with functions that do not panic and fitting types, a missing dependency is an error *)
  Theorem C28_missing_is_error h obs w i t l fuel m :
    runs0 h obs w -> i < List.length (w_inj w) -> rooted (rev h) i -> fresh w i -> typed asg (rev h) i ->
    (forall tr f args, call tr f args <> None) -> List.length h < fuel ->
    clos_refl_trans bytes (wants (rev h) i) (slot_name t l) m -> (forall o, ~ nearest (rev h) i m o) ->
    (forall x, clos_refl_trans bytes (wants (rev h) i) (slot_name t l) x -> ~ clos_trans bytes (wants (rev h) i) x x) ->
    exists e, snd (exec fuel w (PFind i t l)) = RErr e.
  Proof.
    intros R Hi Hr F T Hnp Hf Hm Hno Hac. pose proof (runs0_winv _ _ _ R) as W. pose proof (runs0_hist _ _ _ _ _ R) as H.
    pose proof (np_find h obs w i t l fuel R Hi F T Hnp) as N1.
    assert (N3 : snd (exec fuel w (PFind i t l)) <> RDiv).
    { apply (term_find h obs); try assumption. left. intros x Hx Hx1. apply (Hac x); [eapply reach_wants; eassumption|eapply reach1_wants; eassumption]. }
    destruct (find_cases fuel w i t l W) as [(r & Hb)|[(e & Hb)|[Hb|Hb]]]; try congruence; eauto.
    exfalso. pose proof (find_avail h obs w i t l fuel r R Hb) as Hav.
    destruct (wants_reach (rev h) w i W H Hi F (slot_name t l) m (create_name_colon _ _) Hm) as (Hre & Hcol).
    destruct (avail_complete _ _ _ _ m Hav Hre) as (q & Hq).
    destruct (br_find (rev h) w i H m q Hq) as (o & Ho & _). exact (Hno o Ho).
  Qed.

  (** *** C29 *)
  Lemma setup_clean h obs w i : runs0 h obs w -> Forall is_setup h -> fresh w i /\ clean (visible w i) (info_of w) (begin w i).
  Proof.
    intros R F. destruct (setup_done _ _ _ _ _ _ R F eq_refl eq_refl) as (D & T). split.
    - intros e He. rewrite T in He. destruct He.
    - intros m q f ins outs _ _ Hd. unfold is_done in Hd. cbn in Hd. rewrite D in Hd. discriminate.
  Qed.
  (** in a program that has only set things up, a lookup that runs into a cycle
      ends, and fails; with an error if the functions do not panic and types fit *)
  Theorem C29_cycle_is_error h obs w i t l fuel m :
    runs0 h obs w -> Forall is_setup h -> i < List.length (w_inj w) -> rooted (rev h) i -> List.length h < fuel ->
    clos_refl_trans bytes (wants (rev h) i) (slot_name t l) m -> clos_trans bytes (wants (rev h) i) m m ->
    ((exists e, snd (exec fuel w (PFind i t l)) = RErr e) \/ snd (exec fuel w (PFind i t l)) = RPanic) /\
    (typed asg (rev h) i -> (forall tr f args, call tr f args <> None) -> exists e, snd (exec fuel w (PFind i t l)) = RErr e).
  Proof.
    intros R Fs Hi Hr Hf Hm Hcy. pose proof (runs0_winv _ _ _ R) as W. pose proof (runs0_hist _ _ _ _ _ R) as H.
    destruct (setup_clean h obs w i R Fs) as (F & Hcl).
    assert (N3 : snd (exec fuel w (PFind i t l)) <> RDiv) by (apply (term_find h obs); auto).
    assert (N4 : forall r, snd (exec fuel w (PFind i t l)) <> RVal r).
    { intros r Hb. pose proof (find_avail h obs w i t l fuel r R Hb) as Hav.
      destruct (wants_reach (rev h) w i W H Hi F (slot_name t l) m (create_name_colon _ _) Hm) as (Hre & Hcol).
      apply (avail_no_cycle _ _ _ _ Hav m Hre). eapply wants_reach1; eassumption. }
    destruct (find_cases fuel w i t l W) as [(r & Hb)|[(e & Hb)|[Hb|Hb]]]; [| | |congruence].
    - exfalso. exact (N4 r Hb).
    - split; [eauto|]. eauto.
    - split; [tauto|]. intros T Hnp. pose proof (np_find h obs w i t l fuel R Hi F T Hnp) as N1. congruence.
  Qed.

  (** *** C30 *)
  (** any history; no cycle among what the slot needs *)
  Theorem C30_terminates_acyclic_partial h obs w i t l fuel :
    runs0 h obs w -> i < List.length (w_inj w) -> rooted (rev h) i -> List.length h < fuel ->
    (forall m, clos_refl_trans bytes (wants (rev h) i) (slot_name t l) m -> ~ clos_trans bytes (wants (rev h) i) m m) ->
    snd (exec fuel w (PFind i t l)) <> RDiv.
  Proof.
    intros R Hi Hr Hf Hac. pose proof (runs0_hist _ _ _ _ _ R) as H. apply (term_find h obs); try assumption.
    left. intros x Hx Hx1. apply (Hac x); [eapply reach_wants; eassumption|eapply reach1_wants; eassumption].
  Qed.

  (** *** C31 *)
  Theorem C31_invoke_once_partial h obs w i f ins outs deps typ lab fuel w' out :
    runs0 h obs w -> i < List.length (w_inj w) ->
    (forall n, slot (OFun f ins outs deps typ lab) = Some n -> outs <> [] -> ~ called_for w i n) ->
    exec fuel w (PInvoke i (OFun f ins outs deps typ lab)) = (w', ROut out) ->
    exists args tr g,
      w_tr w' = Called i (List.length (w_prov w)) f args true :: tr ++ w_tr w /\
      Forall (fun e => c_prov e < List.length (w_prov w)) tr /\
      call (tr ++ w_tr w) f args = Some g /\ out = results g 0 outs.
  Proof.
    intros R Hi Hc E. pose proof (runs0_winv _ _ _ R) as W. pose proof (runs0_hist _ _ _ _ _ R) as H.
    cbn [exec_op] in E. unfold invoke_op in E. set (o := OFun f ins outs deps typ lab) in *.
    destruct (new_provider o) as [p|] eqn:Hp; [|discriminate]. cbv zeta in E. set (w1 := add_prov w p) in *. set (q := List.length (w_prov w)) in *.
    assert (W1 : winv w1) by (apply add_prov_winv; [exact W|eapply new_provider_ok; exact Hp]).
    assert (Hq : info_of w1 q = p) by apply info_new. destruct (fun_info _ _ _ _ _ _ _ Hp) as (Hk & Hd).
    destruct (run_invoke asg call w1 i fuel q (begin w1 i)) as [r s'] eqn:Er.
    destruct (root_run asg call w1 i fuel q r s' W1 Er) as (s1 & n1 & P & _ & Hcase). rewrite Hq in *.
    assert (Hno : aget (j_cache (jget w1 i)) (p_name p) = None).
    { change (jget w1 i) with (jget w i). destruct (aget (j_cache (jget w i)) (p_name p)) eqn:Eo; [exfalso|reflexivity].
      assert (Hx : aget (j_cache (jget w i)) (p_name p) <> None) by congruence.
      destruct outs as [|t0 ts].
      - pose proof (pk_name _ (new_provider_ok _ _ Hp)) as Hn. rewrite Hk in Hn. apply (hi_colon _ _ H) in Hx. rewrite Hn in Hx. discriminate.
      - apply (Hc (p_name p)); [unfold slot; rewrite Hp; reflexivity|discriminate|]. apply (hi_called _ _ H). exact Hx. }
    destruct Hcase as [(_ & _ & Hcase)|(f' & ins' & outs' & args & ok & Hk' & T & _ & Hcase)].
    - exfalso. destruct r as [o'|e| |]; try (injection E as _ E'; discriminate E').
      apply (Hcase Hno) with o'; [|reflexivity]. unfold is_fun. rewrite Hk. reflexivity.
    - rewrite Hk in Hk'. injection Hk' as <- <- <-.
      destruct Hcase as [(_ & -> & _ & _)|(g & -> & Hg & -> & _)]; [injection E as _ E'; discriminate E'|].
      injection E as <- <-. pose proof (po_tr _ _ _ _ _ _ _ _ P) as Ht. cbn [i_tr set_status begin] in Ht.
      change (w_tr w1) with (w_tr w) in Ht. exists args, n1, g. split; [cbn; rewrite T, Ht; reflexivity|]. split.
      + eapply Forall_impl; [|exact (po_calls _ _ _ _ _ _ _ _ P)]. intros e G.
        pose proof (gc_look _ _ _ _ _ _ _ G) as GL. unfold w1 in GL. rewrite visible_add in GL. eapply visible_lt; eassumption.
      + split; [rewrite <- Ht; exact Hg|reflexivity].
  Qed.

  (** *** C32 *)
  Theorem C32_find_succeeds_partial h obs w i t l fuel o :
    runs0 h obs w -> i < List.length (w_inj w) -> rooted (rev h) i -> fresh w i -> typed asg (rev h) i ->
    (forall tr f args, call tr f args <> None) -> List.length h < fuel ->
    nearest (rev h) i (slot_name t l) o ->
    (forall m, clos_refl_trans bytes (wants (rev h) i) (slot_name t l) m -> exists o, nearest (rev h) i m o) ->
    (forall m, clos_refl_trans bytes (wants (rev h) i) (slot_name t l) m -> ~ clos_trans bytes (wants (rev h) i) m m) ->
    exists v, v_ty v = yields o /\ snd (exec fuel w (PFind i t l)) = assigned asg v t.
  Proof.
    intros R Hi Hr F T Hnp Hf Ho Hco Hac. pose proof (runs0_winv _ _ _ R) as W. pose proof (runs0_hist _ _ _ _ _ R) as H.
    pose proof (complete_avail (rev h) w i W H Hi F _ (create_name_colon (indirect t) l) Hco Hac) as Hav. fold (slot_name t l) in Hav.
    destruct (nearest_look _ _ W H i _ _ Hi Ho) as (q & Hl & Hp).
    assert (Hv : visible w i (slot_name t l) = Found q) by (rewrite visible_eq; [exact Hl|apply create_name_colon]).
    assert (N3 : snd (exec fuel w (PFind i t l)) <> RDiv).
    { apply (term_find h obs); try assumption. left. intros x Hx Hx1. apply (Hac x); [eapply reach_wants; eassumption|eapply reach1_wants; eassumption]. }
    destruct (invoke_succ asg call i (visible w i) (info_of w) (visible_name w i W) (visible_outs w i W) (j_cache (jget w i)) Hnp
      (fresh_typed asg (rev h) w i H T) fuel [] _ q (begin w i) Hv Hav (begin_inv w i W)) as [X|(v & o' & X & Ht & _)].
    - intros m _ [].
    - intros m q' Hm. discriminate Hm.
    - exact (fresh_cache_typed (rev h) w i H F).
    - exfalso. apply N3. cbn [exec_op]. unfold find_op. fold (slot_name t l). cbv zeta. rewrite Hl.
      rewrite <- run_invoke_visible in X by exact W. destruct (run_invoke asg call w i fuel q (begin w i)) as [r s]. cbn [fst] in X. subst r. reflexivity.
    - exists v. split; [rewrite Ht; eapply yields_type; exact Hp|]. cbn [exec_op]. unfold find_op. fold (slot_name t l). cbv zeta. rewrite Hl.
      rewrite <- run_invoke_visible in X by exact W. destruct (run_invoke asg call w i fuel q (begin w i)) as [r s]. cbn [fst] in X. subst r. reflexivity.
  Qed.

  Lemma hist_inv_add rh w p : winv w -> hist_inv rh w -> hist_inv rh (add_prov w p).
  Proof.
    intros W H. constructor.
    - intros k m. pose proof (hi_val _ _ H k m) as V. change (jget (add_prov w p) k) with (jget w k).
      destruct (last_provided rh k m) as [o|]; [|exact V]. destruct V as (q & V1 & V2). exists q. split; [exact V1|].
      unfold add_prov. rewrite info_old; [exact V2|]. apply (wi_values _ W) in V1. tauto.
    - exact (hi_par _ _ H).
    - intros k m Hc. destruct (hi_called _ _ H k m Hc) as (e & He & H1 & H2). exists e. split; [exact He|]. split; [exact H1|].
      unfold add_prov. rewrite info_old; [exact H2|]. exact (wi_called _ W e He).
    - exact (hi_colon _ _ H).
  Qed.
  Lemma results_len g k outs : List.length (results g k outs) = List.length outs.
  Proof. revert k. induction outs; intros k; cbn; auto. Qed.
  Theorem C32_invoke_succeeds_partial h obs w i f ins outs deps typ lab fuel :
    runs0 h obs w -> i < List.length (w_inj w) -> rooted (rev h) i -> fresh w i -> typed asg (rev h) i ->
    (forall tr f args, call tr f args <> None) -> S (S (List.length h)) < fuel ->
    Forall2 (fun d t => forall o, nearest (rev h) i d o -> asg (yields o) t = true) (param_slots deps ins) ins ->
    (forall d m, In d (param_slots deps ins) -> clos_refl_trans bytes (wants (rev h) i) d m ->
       (exists o, nearest (rev h) i m o) /\ ~ clos_trans bytes (wants (rev h) i) m m /\
       slot (OFun f ins outs deps typ lab) <> Some m) ->
    exists out, List.length out = List.length outs /\
      snd (exec fuel w (PInvoke i (OFun f ins outs deps typ lab))) = ROut out.
  Proof.
    intros R Hi Hr F T Hnp Hf Harg Hd. pose proof (runs0_winv _ _ _ R) as W. pose proof (runs0_hist _ _ _ _ _ R) as H.
    cbn [exec_op]. unfold invoke_op. set (o := OFun f ins outs deps typ lab) in *.
    destruct (new_provider o) as [p|] eqn:Hp; [|discriminate]. cbv zeta. set (w1 := add_prov w p) in *. set (q := List.length (w_prov w)) in *.
    assert (W1 : winv w1) by (apply add_prov_winv; [exact W|eapply new_provider_ok; exact Hp]).
    assert (H1 : hist_inv (rev h) w1) by (apply hist_inv_add; assumption).
    assert (F1 : fresh w1 i) by exact F. assert (Hi1 : i < List.length (w_inj w1)) by exact Hi.
    assert (Hq : info_of w1 q = p) by apply info_new. destruct (fun_info _ _ _ _ _ _ _ Hp) as (Hk & Hds).
    assert (Hslot : slot o = Some (p_name p)) by (unfold slot; rewrite Hp; reflexivity).
    pose proof (runs_prov _ _ _ _ _ _ R) as Hlen. cbn [world0 w_prov List.length] in Hlen.
    destruct fuel as [|fuel]; [lia|].
    set (L := visible w1 i). set (C0 := j_cache (jget w1 i)). set (s0 := set_status (begin w1 i) (p_name p)).
    assert (Hs0 : Inv L (info_of w1) C0 s0) by exact (begin_inv w1 i W1).
    assert (Hcol : forall d, In d (p_deps p) -> has_colon d = true) by (intros d Hin; exact (pk_deps _ (new_provider_ok _ _ Hp) d Hin)).
    assert (Hav : forall d, In d (p_deps p) -> Avail L (info_of w1) C0 d).
    { intros d Hin. apply (complete_avail (rev h) w1 i W1 H1 Hi1 F1); [auto|intros m Hm|intros m Hm]; rewrite Hds in Hin; apply (Hd d m Hin Hm). }
    assert (Hnc : forall d, In d (p_deps p) -> no_cycle L (info_of w1) C0 d).
    { intros d Hin m Hm Hx. rewrite Hds in Hin. destruct (Hd d m Hin (reach_wants (rev h) w1 i H1 _ _ Hm)) as (_ & A & _).
      apply A. exact (reach1_wants (rev h) w1 i H1 _ _ Hx). }
    pose proof (visible_name w1 i W1) as VN. pose proof (visible_outs w1 i W1) as VO.
    assert (HD : List.length (map p_name (w_prov w1)) - List.length (@nil bytes) < fuel).
    { rewrite map_length. unfold w1. cbn. rewrite app_length. cbn. lia. }
    destruct (eval_deps_term i L (info_of w1) VN C0 (map p_name (w_prov w1)) 
       (fun n => rooted_look (rev h) w1 i W1 H1 Hi1 n Hr) (invoke asg call i L (info_of w1) fuel) []
       (invoke_good asg call i L (info_of w1) VN VO C0 fuel)
       (invoke_term asg call i L (info_of w1) VN VO C0 (map p_name (w_prov w1)) (fun n => rooted_look (rev h) w1 i W1 H1 Hi1 n Hr) (visible_in_D w1 i W1) fuel [] HD)
       (p_deps p) s0 Hs0) as (T1 & _); [intros d m _ []|constructor; [constructor|intros ? []|intros ? []]|left; exact Hnc|].
    destruct (eval_deps_succ i L (info_of w1) VN C0 (invoke asg call i L (info_of w1) fuel) [p_name p]
       (invoke_good asg call i L (info_of w1) VN VO C0 fuel)
       (invoke_succ asg call i L (info_of w1) VN VO C0 Hnp (fresh_typed asg (rev h) w1 i H1 T) fuel [p_name p])
       (p_deps p) s0 Hav Hs0) as [X|(args & X & HF & _)].
    - intros d m Hin Hm [<-|[]]. rewrite Hds in Hin. destruct (Hd d (p_name p) Hin (reach_wants (rev h) w1 i H1 _ _ Hm)) as (_ & _ & A).
      apply A. exact Hslot.
    - intros m q' Hm _. left. unfold in_status, s0 in Hm. cbn in Hm. rewrite orb_false_r in Hm. apply beq_true in Hm as ->. left. reflexivity.
    - intros m q' o' Hm. cbn in Hm. rewrite (fresh_cache (rev h) w1 i H1 F1) in Hm. discriminate.
    - exfalso. apply T1. exact X.
    - rewrite run_invoke_visible by exact W1. cbn [invoke]. rewrite Hq. change (i_cache (begin w1 i)) with C0.
      unfold C0 at 1. rewrite (fresh_cache (rev h) w1 i H1 F1). cbv zeta. rewrite Hk. fold L. fold s0.
      destruct (eval_deps L (info_of w1) (invoke asg call i L (info_of w1) fuel) (p_deps p) s0) as [dr s1]. cbn [fst snd] in *. subst dr.
      unfold call_fun. rewrite (args_ok_typed asg L (info_of w1) (p_deps p) ins args); [|rewrite Hds|exact HF].
      + destruct (call (i_tr s1) f args) as [g|] eqn:Eg; [|exfalso; exact (Hnp _ _ _ Eg)]. cbn [fst snd].
        exists (results g 0 outs). split; [apply results_len|reflexivity].
      + eapply Forall2_weak; [|exact Harg]. cbn. intros d t Hdt q' Hl'. destruct (br_find (rev h) w1 i H1 d q' Hl') as (o' & Ho' & Hp').
        rewrite (yields_type _ _ _ Hp'). apply Hdt. exact Ho'.
  Qed.

  (** *** C34 *)
  Lemma after_provide h obs w i o t l : runs0 h obs w -> i < List.length (w_inj w) -> slot o = Some (slot_name t l) ->
    forall f0, exists q p, let w1 := fst (exec f0 w (PProvide i o)) in
      new_provider o = Some p /\ winv w1 /\ i < List.length (w_inj w1) /\ look_in w1 i (slot_name t l) = Found q /\ info_of w1 q = p /\
      aget (j_cache (jget w1 i)) (slot_name t l) = None.
  Proof.
    intros R Hi Hs f0. pose proof (runs0_winv _ _ _ R) as W. unfold slot in Hs. destruct (new_provider o) as [p|] eqn:Hp; [|discriminate].
    cbn in Hs. injection Hs as Hs. destruct (provide_spec w i o p Hi Hp) as (P & _). exists (List.length (w_prov w)), p. cbn [exec_op].
    set (w1 := fst (provide w i o)) in *. cbv zeta. split; [reflexivity|].
    split; [eapply provided_winv; [exact W|eapply new_provider_ok; exact Hp|exact P]|].
    split; [rewrite (pv_inv _ _ _ _ P); exact Hi|]. split.
    - unfold look_in. cbn [look_up]. rewrite (pv_val _ _ _ _ P), Hs, aget_aset_same. reflexivity.
    - split; [exact (provided_info_new _ _ _ _ P)|]. rewrite (pv_cache _ _ _ _ P), Hs. apply aget_adel_same.
  Qed.
  Theorem C34_new_value_is_found h obs w i v typ lab t l f0 fuel :
    runs0 h obs w -> i < List.length (w_inj w) -> slot (OVal v typ lab) = Some (slot_name t l) ->
    snd (exec (S fuel) (fst (exec f0 w (PProvide i (OVal v typ lab)))) (PFind i t l)) = assigned asg v t.
  Proof.
    intros R Hi Hs. destruct (after_provide h obs w i _ t l R Hi Hs f0) as (q & p & Hp & W1 & Hi1 & Hl & Hinf & Hc).
    destruct (has_find asg call _ i t l v [] fuel W1) as (w' & E & _); [|rewrite E; reflexivity].
    split; [exact Hi1|]. exists q. split; [exact Hl|]. right. split; [exact Hc|]. exists v. split; [|reflexivity].
    rewrite Hinf. eapply val_info. exact Hp.
  Qed.
  Theorem C34_new_function_is_called h obs w i f ins outs deps typ lab t l f0 fuel w' r :
    runs0 h obs w -> i < List.length (w_inj w) -> slot (OFun f ins outs deps typ lab) = Some (slot_name t l) ->
    exec fuel (fst (exec f0 w (PProvide i (OFun f ins outs deps typ lab)))) (PFind i t l) = (w', RVal r) ->
    exists q args tr g t0, w_tr w' = Called i q f args true :: tr /\ call tr f args = Some g /\
      hd_error outs = Some t0 /\ RVal r = assigned asg (Val t0 (g 0)) t.
  Proof.
    intros R Hi Hs E. destruct (after_provide h obs w i _ t l R Hi Hs f0) as (q & p & Hp & W1 & Hi1 & Hl & Hinf & Hc).
    exists q. eapply find_uncached_fun; [exact W1|exact Hl| |exact Hc|exact E]. rewrite Hinf. exact (proj1 (fun_info _ _ _ _ _ _ _ Hp)).
  Qed.
  Theorem C34_built_values_stay h obs w i t l fuel w1 r j o f0 fuel' :
    runs0 h obs w -> i < List.length (w_inj w) -> exec fuel w (PFind i t l) = (w1, RVal r) ->
    j < List.length (w_inj w1) -> slot o <> Some (slot_name t l) ->
    snd (exec (S fuel') (fst (exec f0 w1 (PProvide j o))) (PFind i t l)) = RVal r.
  Proof.
    intros R Hi E Hj Hs. destruct (exec f0 w1 (PProvide j o)) as [w2 b] eqn:E2. cbn [fst].
    apply (C27_same_value_partial h obs w i t l fuel w1 r [PProvide j o] [b] w2 fuel' R Hi E).
    - econstructor; [exact Hj|exact E2| |constructor]. cbn [exec_op] in E2. unfold provide in E2. destruct (new_provider o); injection E2 as _ <-; discriminate.
    - constructor; [exact Hs|constructor].
  Qed.

  (** *** C95 *)
  Lemma assigned_set v t v' : assigned asg v t = RVal (ASet v') <-> assign_value asg v t = ASet v'.
  Proof. unfold assigned. destruct (assign_value asg v t); split; congruence. Qed.
  (** a successful Apply has found something for every tagged field within three
      levels, and has set exactly those whose type fits, to what Find gives for them *)
  Theorem C95_apply_sets_tagged_fields_partial h obs w i fs fuel w' l :
    runs0 h obs w -> i < List.length (w_inj w) -> exec fuel w (PApply i fs) = (w', RApplied l) ->
    (forall path ty lab, target 2 fs path ty lab -> exists v, snd (exec 1 w' (PFind i ty lab)) = assigned asg v ty) /\
    (forall path v, In (path, v) l <->
       exists ty lab, target 2 fs path ty lab /\ snd (exec 1 w' (PFind i ty lab)) = RVal (ASet v)).
  Proof.
    intros R Hi E. pose proof (runs0_winv _ _ _ R) as W.
    assert (W' : winv w') by (eapply eff_winv; [exact W| |exact (exec_eff asg call _ _ (PApply i fs) _ _ W Hi E)]; exact Hi).
    cbn [exec_op] in E. unfold apply_op, apply_struct in E.
    destruct (apply_lvl_sub asg call w i W fuel (max_level - 1) fs [] (begin w i) (begin_inv w i W)) as (new & P & _ & H2).
    destruct (apply_lvl asg call w i fuel (max_level - 1) fs [] (begin w i)) as [[l0|r] s]; cbn [fst snd] in *.
    2:{ destruct r; discriminate. }
    injection E as <- <-. destruct (H2 l0 eq_refl) as (A & B). cbn [max_level Nat.sub below] in A, B.
    assert (Hf : forall ty lab v o, held w i s (create_name (indirect ty) lab) (v :: o) ->
       snd (exec 1 (commit w i s) (PFind i ty lab)) = assigned asg v ty).
    { intros ty lab v o (Hh & Hl).
      pose proof (holds_has w i s (slot_name ty lab) (v :: o) Hi W W' (create_name_colon _ _) Hl Hh) as Hh'.
      destruct (has_find asg call _ i ty lab v o 0 W' Hh') as (w2 & E2 & _). rewrite E2. reflexivity. }
    split.
    - intros path ty lab Ht. destruct (A path ty lab Ht) as (v & o & Hh & _). eauto.
    - intros path v'. split.
      + intros Hin. destruct (B path v' Hin) as (rest & ty & lab & v & o & -> & Ht & Hh & Ha). exists ty, lab. split; [exact Ht|].
        rewrite (Hf ty lab v o Hh). apply assigned_set. exact Ha.
      + intros (ty & lab & Ht & Hs). destruct (A path ty lab Ht) as (v & o & Hh & Ha). apply Ha. apply assigned_set. rewrite <- Hs. symmetry. eapply Hf. exact Hh.
  Qed.

  (** *** C96 *)
  Theorem C96_exists_is_pure h obs w i t l fuel w' b :
    runs0 h obs w -> i < List.length (w_inj w) -> exec fuel w (PExists i t l) = (w', b) ->
    w' = w /\
    (nowhere (rev h) i (slot_name t l) -> b = RErr (EMissing (slot_name t l))) /\
    (forall v typ lab, nearest (rev h) i (slot_name t l) (OVal v typ lab) -> b = assigned asg v t) /\
    (forall f ins outs deps typ lab, nearest (rev h) i (slot_name t l) (OFun f ins outs deps typ lab) -> b = RNone).
  Proof.
    intros R Hi E. pose proof (runs0_winv _ _ _ R) as W. pose proof (runs0_hist _ _ _ _ _ R) as H.
    cbn [exec_op] in E. unfold exists_op in E. fold (slot_name t l) in E. cbv zeta in E.
    split; [|split; [|split]].
    - destruct (look_in w i (slot_name t l)) as [q| |]; [destruct (p_kind (info_of w q))|..]; injection E as <- _; reflexivity.
    - intros Hn. rewrite (nowhere_look _ _ W H i _ Hi Hn) in E. injection E as _ <-. reflexivity.
    - intros v typ lab Hn. destruct (nearest_look _ _ W H i _ _ Hi Hn) as (q & Hl & Hp). rewrite Hl, (val_info _ _ _ _ Hp) in E. injection E as _ <-. reflexivity.
    - intros f ins outs deps typ lab Hn. destruct (nearest_look _ _ W H i _ _ Hi Hn) as (q & Hl & Hp).
      rewrite Hl, (proj1 (fun_info _ _ _ _ _ _ _ Hp)) in E. injection E as _ <-. reflexivity.
  Qed.
  (** *** C97 *)
  Lemma Forall2_length' {A B} (P : A -> B -> Prop) xs ys : Forall2 P xs ys -> List.length xs = List.length ys.
  Proof. induction 1; cbn; congruence. Qed.
  Lemma Forall2_nth {A B} (P : A -> B -> Prop) xs ys k x y : Forall2 P xs ys -> nth_error xs k = Some x -> nth_error ys k = Some y -> P x y.
  Proof.
    intros F. revert k. induction F as [|a b xs ys Hab F IH]; intros [|k] Hx Hy; cbn in *; try discriminate; [congruence|eauto].
  Qed.
  Lemma param_slots_nth deps ins k t : nth_error ins k = Some t -> nth_error (param_slots deps ins) k = Some (slot_name t (label_for deps k)).
  Proof.
    intros Hk. assert (Hlt : k < List.length ins) by (apply nth_error_Some; congruence). unfold param_slots.
    rewrite nth_error_map, (nth_error_nth' _ 0) by (rewrite seq_length; exact Hlt). rewrite seq_nth by exact Hlt. cbn [Nat.add option_map].
    rewrite (nth_error_nth ins k (TLit 0) Hk). reflexivity.
  Qed.
  Lemma param_slots_length deps ins : List.length (param_slots deps ins) = List.length ins.
  Proof. unfold param_slots. rewrite map_length, seq_length. reflexivity. Qed.
  Lemma avail_found w i n : has_colon n = true -> Avail (visible w i) (info_of w) (j_cache (jget w i)) n -> exists q, look_in w i n = Found q.
  Proof. intros Hn H. destruct H as [m q o Hq _|m q v Hq _|m q f ins outs Hq _ _]; exists q; rewrite visible_eq in Hq by exact Hn; exact Hq. Qed.
  (** every function called by a lookup got, for each parameter, what Find of that
      type under that parameter's label gives *)
  Theorem C97_arguments_of_providers h obs w i t l fuel w' b :
    runs0 h obs w -> i < List.length (w_inj w) -> exec fuel w (PFind i t l) = (w', b) ->
    exists new, w_tr w' = new ++ w_tr w /\
      forall e, In e new -> exists n ins outs deps typ lab,
        c_inj e = i /\ nearest (rev h) i n (OFun (c_fun e) ins outs deps typ lab) /\
        List.length (c_args e) = List.length ins /\
        forall k tk a, nth_error ins k = Some tk -> nth_error (c_args e) k = Some a ->
          snd (exec 1 w' (PFind i tk (label_for deps k))) = assigned asg a tk.
  Proof.
    intros R Hi E. pose proof (runs0_winv _ _ _ R) as W. pose proof (runs0_hist _ _ _ _ _ R) as H.
    assert (W' : winv w') by (eapply eff_winv; [exact W| |exact (exec_eff asg call _ _ (PFind i t l) _ _ W Hi E)]; exact Hi).
    cbn [exec_op] in E. unfold find_op in E. fold (slot_name t l) in E. cbv zeta in E.
    destruct (look_in w i (slot_name t l)) as [q| |] eqn:Hl.
    2,3: injection E as <- <-; exists []; split; [reflexivity|intros e []].
    assert (Hv : visible w i (slot_name t l) = Found q) by (rewrite visible_eq; [exact Hl|apply create_name_colon]).
    destruct (run_good asg call w i W fuel _ q (begin w i) Hv (begin_inv w i W)) as (new & P & _ & _).
    destruct (run_invoke asg call w i fuel q (begin w i)) as [ri s]. cbn [fst snd] in *.
    assert (Ew : w' = commit w i s) by (destruct ri as [[|v o]|e| |]; injection E as <- _; reflexivity). subst w'.
    exists new. split; [exact (po_tr _ _ _ _ _ _ _ _ P)|]. intros e He.
    pose proof (proj1 (Forall_forall _ _) (po_calls _ _ _ _ _ _ _ _ P) e He) as G.
    destruct (gc_fun _ _ _ _ _ _ _ G) as (ins & outs & Hk).
    destruct (br_find (rev h) w i H _ _ (gc_look _ _ _ _ _ _ _ G)) as (o & Ho & Hp).
    destruct (info_fun _ _ _ _ _ Hp Hk) as (deps & typ & lab & -> & Ed).
    exists (ev_name (info_of w) e), ins, outs, deps, typ, lab. split; [exact (gc_inj _ _ _ _ _ _ _ G)|]. split; [exact Ho|].
    pose proof (gc_args _ _ _ _ _ _ _ G) as Ga. unfold args_from in Ga. rewrite Ed in Ga.
    split; [rewrite <- (Forall2_length' _ _ _ Ga); apply param_slots_length|].
    intros k tk a Hk1 Hk2. destruct (Forall2_nth _ _ _ k _ _ Ga (param_slots_nth deps ins k tk Hk1) Hk2) as (o & Hh).
    assert (Hav : Avail (visible w i) (info_of w) (j_cache (jget w i)) (slot_name tk (label_for deps k))).
    { apply (gc_supp _ _ _ _ _ _ _ G). rewrite Ed. eapply nth_error_In. apply param_slots_nth. exact Hk1. }
    assert (Hlook : exists q', look_in w i (slot_name tk (label_for deps k)) = Found q').
    { apply avail_found; [apply create_name_colon|exact Hav]. }
    pose proof (holds_has w i s _ (a :: o) Hi W W' (create_name_colon _ _) Hlook Hh) as Hh'.
    destruct (has_find asg call _ i tk _ a o 0 W' Hh') as (w2 & E2 & _). rewrite E2. reflexivity.
  Qed.
  (** the same for the function given to Invoke, except for parameters of the
      function's own slot *)
  Theorem C97_arguments_of_invoke_partial h obs w i f ins outs deps typ lab fuel w' out :
    runs0 h obs w -> i < List.length (w_inj w) ->
    (forall n, slot (OFun f ins outs deps typ lab) = Some n -> outs <> [] -> ~ called_for w i n) ->
    exec fuel w (PInvoke i (OFun f ins outs deps typ lab)) = (w', ROut out) ->
    exists args tr, w_tr w' = Called i (List.length (w_prov w)) f args true :: tr ++ w_tr w /\
      List.length args = List.length ins /\
      forall k tk a, nth_error ins k = Some tk -> nth_error args k = Some a ->
        slot (OFun f ins outs deps typ lab) <> Some (slot_name tk (label_for deps k)) ->
        snd (exec 1 w' (PFind i tk (label_for deps k))) = assigned asg a tk.
  Proof.
    intros R Hi Hc E. pose proof (runs0_winv _ _ _ R) as W. pose proof (runs0_hist _ _ _ _ _ R) as H.
    set (o := OFun f ins outs deps typ lab) in *.
    assert (W' : winv w') by (eapply eff_winv; [exact W| |exact (exec_eff asg call _ _ (PInvoke i o) _ _ W Hi E)]; exact Hi).
    cbn [exec_op] in E. unfold invoke_op in E.
    destruct (new_provider o) as [p|] eqn:Hp; [|discriminate]. cbv zeta in E. set (w1 := add_prov w p) in *. set (q := List.length (w_prov w)) in *.
    assert (W1 : winv w1) by (apply add_prov_winv; [exact W|eapply new_provider_ok; exact Hp]).
    assert (Hq : info_of w1 q = p) by apply info_new. destruct (fun_info _ _ _ _ _ _ _ Hp) as (Hk & Hd).
    destruct (run_invoke asg call w1 i fuel q (begin w1 i)) as [r s'] eqn:Er.
    destruct (root_run asg call w1 i fuel q r s' W1 Er) as (s1 & n1 & P & _ & Hcase). rewrite Hq in *.
    assert (Hno : aget (j_cache (jget w1 i)) (p_name p) = None).
    { change (jget w1 i) with (jget w i). destruct (aget (j_cache (jget w i)) (p_name p)) eqn:Eo; [exfalso|reflexivity].
      assert (Hx : aget (j_cache (jget w i)) (p_name p) <> None) by congruence.
      destruct outs as [|t0 ts].
      - pose proof (pk_name _ (new_provider_ok _ _ Hp)) as Hn. rewrite Hk in Hn. apply (hi_colon _ _ H) in Hx. rewrite Hn in Hx. discriminate.
      - apply (Hc (p_name p)); [unfold slot; rewrite Hp; reflexivity|discriminate|]. apply (hi_called _ _ H). exact Hx. }
    destruct Hcase as [(_ & _ & Hcase)|(f' & ins' & outs' & args & ok & Hk' & T & (_ & Ga & Gs) & Hcase)].
    { exfalso. destruct r as [o'|e| |]; try (injection E as _ E'; discriminate E').
      apply (Hcase Hno) with o'; [|reflexivity]. unfold is_fun. rewrite Hk. reflexivity. }
    rewrite Hk in Hk'. injection Hk' as <- <- <-. rewrite Hd in Ga, Gs.
    destruct Hcase as [(_ & -> & _ & _)|(g & -> & Hg & -> & Hcc)]; [injection E as _ E'; discriminate E'|].
    injection E as <- <-. pose proof (po_tr _ _ _ _ _ _ _ _ P) as Ht. cbn [i_tr set_status begin] in Ht.
    change (w_tr w1) with (w_tr w) in Ht. exists args, n1. split; [cbn; rewrite T, Ht; reflexivity|].
    split; [rewrite <- (Forall2_length' _ _ _ Ga); apply param_slots_length|].
    intros k tk a Hk1 Hk2 Hslot. destruct (Forall2_nth _ _ _ k _ _ Ga (param_slots_nth deps ins k tk Hk1) Hk2) as (o' & Hh).
    assert (Hav : Avail (visible w1 i) (info_of w1) (j_cache (jget w1 i)) (slot_name tk (label_for deps k))).
    { apply Gs. eapply nth_error_In. apply param_slots_nth. exact Hk1. }
    assert (Hlook : exists q', look_in w1 i (slot_name tk (label_for deps k)) = Found q').
    { apply avail_found; [apply create_name_colon|exact Hav]. }
    assert (Hne : p_name p <> slot_name tk (label_for deps k)).
    { intros En. apply Hslot. unfold slot. rewrite Hp, <- En. reflexivity. }
    assert (Hca : aget (i_cache s') (slot_name tk (label_for deps k)) = aget (i_cache s1) (slot_name tk (label_for deps k))).
    { rewrite Hcc. destruct outs; [reflexivity|]. apply aget_aset_other. exact Hne. }
    assert (Hh2 : holds (visible w1 i) (info_of w1) s' (slot_name tk (label_for deps k)) (a :: o')).
    { unfold holds in *. rewrite Hca. exact Hh. }
    set (w2 := drop_cache (commit w1 i s') i (p_name p)) in *.
    assert (Hi1 : i < List.length (w_inj (commit w1 i s'))) by (cbn; rewrite upd_length; exact Hi).
    assert (Hi2 : i < List.length (w_inj w2)) by (cbn; rewrite !upd_length; exact Hi).
    assert (Hh' : has w2 i (slot_name tk (label_for deps k)) (a :: o')).
    { split; [exact Hi2|]. destruct Hlook as (q' & Hq'). exists q'. split.
      - eapply look_same; [exact W'|exact Hi2| | |exact Hq'].
        + intros j. unfold w2. rewrite drop_values. destruct (Nat.eq_dec i j) as [<-|Hj]; [rewrite jget_commit_same by exact Hi; reflexivity|rewrite jget_commit_other by exact Hj; reflexivity].
        + intros j. unfold w2. rewrite drop_parent. destruct (Nat.eq_dec i j) as [<-|Hj]; [rewrite jget_commit_same by exact Hi; reflexivity|rewrite jget_commit_other by exact Hj; reflexivity].
      - unfold w2. rewrite drop_cache_same by exact Hi1. rewrite aget_adel_other by exact Hne. rewrite jget_commit_same by exact Hi. cbn [j_cache].
        destruct Hh2 as [Hh2|(Hh2 & q2 & v & Hl2 & Hk3 & Ho)]; [left; exact Hh2|right]. split; [exact Hh2|]. exists v.
        rewrite visible_eq in Hl2 by apply create_name_colon. assert (q2 = q') as -> by congruence. auto. }
    destruct (has_find asg call _ i tk _ a o' 0 W' Hh') as (w3 & E2 & _). rewrite E2. reflexivity.
  Qed.
End Props.

(** *** C33 *)
Lemma cut_colon a b x y : ~ In colon a -> ~ In colon b -> a ++ colon :: x = b ++ colon :: y -> a = b /\ x = y.
Proof.
  revert b. induction a as [|c a IH]; intros [|d b] Ha Hb; cbn; intros E.
  - injection E as ->. auto.
  - injection E as <- _. exfalso. apply Hb. left. reflexivity.
  - injection E as -> _. exfalso. apply Ha. left. reflexivity.
  - injection E as <- E. destruct (IH b) with (3 := E) as (-> & ->); auto; intros H; [apply Ha|apply Hb]; right; exact H.
Qed.
Theorem C33_named_slots_differ_partial p n k l p' n' k' l' :
  ~ In colon p -> ~ In colon n -> ~ In colon p' -> ~ In colon n' ->
  slot_name (TNamed p n k) l = slot_name (TNamed p' n' k') l' -> p = p' /\ n = n' /\ l = l'.
Proof.
  intros A B C D E. unfold slot_name, create_name in E. cbn in E. destruct (cut_colon _ _ _ _ A C E) as (-> & E1).
  destruct (cut_colon _ _ _ _ B D E1) as (-> & ->). auto.
Qed.

(** ** Witnesses *)
Fixpoint rt_eqb (a b : rtype) : bool :=
  match a, b with
  | TNamed p n k, TNamed p' n' k' => beq p p' && beq n n' && Nat.eqb k k'
  | TLit k, TLit k' => Nat.eqb k k'
  | TPtr a', TPtr b' => rt_eqb a' b'
  | _, _ => false
  end.
Notation go h := (end_of rt_eqb counting 20 h).
Lemma fills_fn f ins t ts n : Nat.eqb 0 0 && fills (fn f ins (t :: ts)) n = true -> n = slot_name t [].
Proof. intros H. change (beq (slot_name t []) n = true) in H. apply beq_true in H as ->. reflexivity. Qed.
Ltac running := apply end_of_runs; vm_compute; discriminate.

(** *** C26: after the parent has provided T again, the child that looked it up before still gets the old one *)
Definition prog26 : list iop :=
  [PNew; PNew; PSetParent 1 0; PProvide 0 (fn 10 [] [tT]); PFind 1 tT []; PProvide 0 (fn 11 [] [tT])].
Theorem C26_nearest_refuted :
  exists h obs w, runs rt_eqb counting world0 h obs w /\
    nearest (rev h) 1 (slot_name tT []) (fn 11 [] [tT]) /\
    exists w' r, exec_op rt_eqb counting 20 w (PFind 1 tT []) = (w', RVal r) /\ w_tr w' = w_tr w /\
      (forall e, In e (w_tr w') -> c_fun e <> 11).
Proof.
  exists prog26, (seen rt_eqb counting 20 prog26), (go prog26). split; [running|]. split.
  - eapply nr_up with (k := 0); [vm_compute; reflexivity|reflexivity|]. apply nr_here. vm_compute. reflexivity.
  - eexists _, _. split; [vm_compute; reflexivity|]. split; [vm_compute; reflexivity|].
    intros e [<-|[]]. vm_compute. discriminate.
Qed.
(** hypotheses of the theorems are met: a value two levels up, a function at home *)
Example C26_example :
  let h := [PNew; PNew; PNew; PSetParent 1 0; PSetParent 2 1; PProvide 0 (value tT 7); PProvide 0 (value tT 8); PProvide 2 (fn 10 [TPtr tT] [tU])] in
  runs rt_eqb counting world0 h (seen rt_eqb counting 20 h) (go h) /\
  nearest (rev h) 2 (slot_name tT []) (value tT 8) /\ ~ called_for (go h) 2 (slot_name tT []) /\
  snd (exec_op rt_eqb counting 20 (go h) (PFind 2 tT [])) = RVal (ASet (Val tT (Some 8))) /\
  nearest (rev h) 2 (slot_name tU []) (fn 10 [TPtr tT] [tU]) /\
  snd (exec_op rt_eqb counting 20 (go h) (PFind 2 tU [])) = RVal (ASet (Val tU (Some 0))) /\
  nowhere (rev h) 2 (slot_name tV []).
Proof.
  cbv zeta. split; [running|]. split.
  - eapply nr_up with (k := 1); [vm_compute; reflexivity|reflexivity|]. eapply nr_up with (k := 0); [vm_compute; reflexivity|reflexivity|].
    apply nr_here. vm_compute. reflexivity.
  - split; [intros (e & [] & _)|]. split; [vm_compute; reflexivity|]. split; [apply nr_here; vm_compute; reflexivity|].
    split; [vm_compute; reflexivity|]. eapply nw_up with (k := 1); [vm_compute; reflexivity|reflexivity|].
    eapply nw_up with (k := 0); [vm_compute; reflexivity|reflexivity|]. apply nw_root; vm_compute; reflexivity.
Qed.

(** *** C27: Invoke of a function that returns T throws away the T built before *)
Definition prog27 : list iop := [PNew; PProvide 0 (fn 10 [] [tT]); PFind 0 tT []; PInvoke 0 (fn 12 [] [tT]); PFind 0 tT []].
Theorem C27_built_once_refuted :
  exists h obs w q, runs rt_eqb counting world0 h obs w /\ (forall i p, In (PProvide i p) h -> p = fn 10 [] [tT]) /\
    p_name (info_of w q) = slot_name tT [] /\ made 0 q (w_tr w) = 2 /\
    nth_error obs 2 <> nth_error obs 4 /\ nth_error h 2 = nth_error h 4.
Proof.
  exists prog27, (seen rt_eqb counting 20 prog27), (go prog27), 0. split; [running|]. split.
  - intros i p Hin. cbn in Hin. destruct Hin as [Hin|[Hin|[Hin|[Hin|[Hin|[]]]]]]; try discriminate Hin. injection Hin as _ <-. reflexivity.
  - split; [vm_compute; reflexivity|]. split; [vm_compute; reflexivity|]. split; [vm_compute; discriminate|reflexivity].
Qed.
Example C27_example :
  let h := [PNew; PProvide 0 (fn 10 [] [tT]); PProvide 0 (fn 11 [tT; tT] [tU]); PFind 0 tU []; PFind 0 tT []; PFind 0 tU []] in
  runs rt_eqb counting world0 h (seen rt_eqb counting 20 h) (go h) /\
  Forall (fun o => ~ invokes_slot 0 (slot_name tT []) o) h /\ p_name (info_of (go h) 0) = slot_name tT [] /\
  made 0 0 (w_tr (go h)) = 1 /\ made 0 1 (w_tr (go h)) = 1 /\ Forall (fun o => ~ rewires 0 (slot_name tU []) o) [PFind 0 tT []; PNew].
Proof.
  cbv zeta. split; [running|]. split; [repeat constructor; intros []|]. split; [vm_compute; reflexivity|].
  split; [vm_compute; reflexivity|]. split; [vm_compute; reflexivity|]. repeat constructor; intros [].
Qed.

(** *** C28 *)
Definition prog28 : list iop := [PNew; PProvide 0 (fn 10 [] [tU]); PProvide 0 (fn 11 [tU; tV] [tT])].
Example C28_example :
  runs rt_eqb counting world0 prog28 (seen rt_eqb counting 20 prog28) (go prog28) /\ rooted (rev prog28) 0 /\ fresh (go prog28) 0 /\
  wants (rev prog28) 0 (slot_name tT []) (slot_name tV []) /\ (forall o, ~ nearest (rev prog28) 0 (slot_name tV []) o) /\
  snd (exec_op rt_eqb counting 20 (go prog28) (PFind 0 tT [])) = RErr (EMissing (slot_name tV [])) /\
  map c_fun (w_tr (fst (exec_op rt_eqb counting 20 (go prog28) (PFind 0 tT [])))) = [10] /\
  typed rt_eqb (rev prog28) 0 /\
  (forall x, clos_refl_trans bytes (wants (rev prog28) 0) (slot_name tT []) x -> ~ clos_trans bytes (wants (rev prog28) 0) x x).
Proof.
  assert (Hw : forall n d, wants (rev prog28) 0 n d -> n = slot_name tT []).
  { intros n d (f & ins & outs & deps & typ & lab & Hn & Hd). inversion Hn as [i' n' o' E|i' k' n' o' E1 E2]; subst; [|vm_compute in E2; discriminate].
    cbn [rev prog28 app last_provided] in E. destruct (Nat.eqb 0 0 && fills (fn 11 [tU; tV] [tT]) n) eqn:Ef.
    - apply fills_fn in Ef. exact Ef.
    - destruct (Nat.eqb 0 0 && fills (fn 10 [] [tU]) n) eqn:Ef2; [|discriminate]. injection E as <- <- <- <- <- <-. destruct Hd. }
  assert (HT : forall d, wants (rev prog28) 0 (slot_name tT []) d -> d <> slot_name tT []).
  { intros d (f & ins & outs & deps & typ & lab & Hn & Hd). inversion Hn as [i' n' o' E|i' k' n' o' E1 E2]; subst; [|vm_compute in E2; discriminate].
    vm_compute in E. injection E as <- <- <- <- <- <-. cbn in Hd. destruct Hd as [<-|[<-|[]]]; vm_compute; discriminate. }
  split; [running|]. split; [apply rt_root; reflexivity|]. split; [intros e []|]. split.
  { exists 11, [tU; tV], [tT], [], None, []. split; [apply nr_here; vm_compute; reflexivity|]. vm_compute. right. left. reflexivity. }
  split; [intros o Ho; inversion Ho as [i' n' o' E|i' k' n' o' E1 E2]; subst; [vm_compute in E|vm_compute in E2]; discriminate|].
  split; [vm_compute; reflexivity|]. split; [vm_compute; reflexivity|]. split.
  - intros n f ins outs deps typ lab Hn. inversion Hn as [i' n' o' E|i' k' n' o' E1 E2]; subst; [|vm_compute in E2; discriminate].
    cbn [rev prog28 app last_provided] in E. destruct (Nat.eqb 0 0 && fills (fn 11 [tU; tV] [tT]) n).
    + injection E as <- <- <- <- <- <-. repeat constructor; intros o Ho; inversion Ho as [i' n' o' E|i' k' n' o' E1 E2]; subst; try (vm_compute in E2; discriminate); vm_compute in E; [|discriminate].
      injection E as <-. vm_compute. reflexivity.
    + destruct (Nat.eqb 0 0 && fills (fn 10 [] [tU]) n); [|discriminate]. injection E as <- <- <- <- <- <-. constructor.
  - intros x _ Hx. assert (forall y, clos_trans bytes (wants (rev prog28) 0) x y -> x = slot_name tT [] /\ y <> slot_name tT []) as X.
    { intros y Hy. apply clos_trans_tn1 in Hy. induction Hy as [y Hy|y z Hyz _ (A & B)].
      - pose proof (Hw _ _ Hy) as ->. split; [reflexivity|apply HT; exact Hy].
      - pose proof (Hw _ _ Hyz). contradiction. }
    destruct (X x Hx) as (A & B). contradiction.
Qed.

(** *** C29 *)
Definition prog29 : list iop := [PNew; PProvide 0 (fn 10 [tU] [tT]); PProvide 0 (fn 11 [tV; tT] [tU]); PProvide 0 (fn 12 [] [tV])].
Lemma prog29_TU : wants (rev prog29) 0 (slot_name tT []) (slot_name tU []).
Proof. exists 10, [tU], [tT], [], None, []. split; [apply nr_here; vm_compute; reflexivity|]. left. reflexivity. Qed.
Lemma prog29_UT : wants (rev prog29) 0 (slot_name tU []) (slot_name tT []).
Proof. exists 11, [tV; tT], [tU], [], None, []. split; [apply nr_here; vm_compute; reflexivity|]. right. left. reflexivity. Qed.
Example C29_example :
  runs rt_eqb counting world0 prog29 (seen rt_eqb counting 20 prog29) (go prog29) /\ Forall is_setup prog29 /\ rooted (rev prog29) 0 /\
  clos_trans bytes (wants (rev prog29) 0) (slot_name tU []) (slot_name tU []) /\
  snd (exec_op rt_eqb counting 20 (go prog29) (PFind 0 tT [])) = RErr (ECycle (slot_name tT [])).
Proof.
  split; [running|]. split; [repeat constructor|]. split; [apply rt_root; reflexivity|].
  split; [eapply t_trans; apply t_step; [apply prog29_UT|apply prog29_TU]|vm_compute; reflexivity].
Qed.

(** *** C30: T needs U, U needs T; each was resolved once in a child with the other given *)
Definition prog30 : list iop :=
  [PNew; PProvide 0 (fn 10 [TPtr tU] [TPtr tT]); PProvide 0 (fn 11 [TPtr tT] [TPtr tU]);
   PNew; PSetParent 1 0; PProvide 1 (value tT 7); PFind 1 (TPtr tU) [];
   PNew; PSetParent 2 0; PProvide 2 (value tU 8); PFind 2 (TPtr tT) [];
   PNew; PSetParent 3 0].
Definition nT := slot_name tT [].
Definition nU := slot_name tU [].
Lemma prog30_diverges fuel : forall s, aget (i_cache s) nT = None -> aget (i_cache s) nU = None -> is_done s 0 = true -> is_done s 1 = true ->
  fst (run_invoke rt_eqb counting (go prog30) 3 fuel 0 s) = IDiv /\ fst (run_invoke rt_eqb counting (go prog30) 3 fuel 1 s) = IDiv.
Proof.
  assert (I0 : info_of (go prog30) 0 = PI nT [nU] (KFun 10 [TPtr tU] [TPtr tT])) by (vm_compute; reflexivity).
  assert (I1 : info_of (go prog30) 1 = PI nU [nT] (KFun 11 [TPtr tT] [TPtr tU])) by (vm_compute; reflexivity).
  assert (L0 : look_in (go prog30) 3 nT = Found 0) by (vm_compute; reflexivity).
  assert (L1 : look_in (go prog30) 3 nU = Found 1) by (vm_compute; reflexivity).
  unfold run_invoke. induction fuel as [|f IH]; intros s C0 C1 D0 D1; [split; reflexivity|].
  cbn [invoke]. rewrite I0, I1. cbn [p_name p_kind p_deps eval_deps]. rewrite C0, C1, L0, L1, I0, I1. cbv zeta.
  cbn [p_name]. split.
  - assert (E : is_done (set_status s nT) 1 = true) by exact D1. rewrite E. cbn [negb andb].
    destruct (IH (set_status s nT) C0 C1 D0 D1) as (_ & H). destruct (invoke rt_eqb counting 3 (look_in (go prog30) 3) (info_of (go prog30)) f 1 (set_status s nT)) as [r s1].
    cbn [fst] in H. subst r. reflexivity.
  - assert (E : is_done (set_status s nU) 0 = true) by exact D0. rewrite E. cbn [negb andb].
    destruct (IH (set_status s nU) C0 C1 D0 D1) as (H & _). destruct (invoke rt_eqb counting 3 (look_in (go prog30) 3) (info_of (go prog30)) f 0 (set_status s nU)) as [r s1].
    cbn [fst] in H. subst r. reflexivity.
Qed.
Theorem C30_terminates_refuted :
  exists h obs w, runs rt_eqb counting world0 h obs w /\ rooted (rev h) 3 /\ fresh w 3 /\
    forall fuel, snd (exec_op rt_eqb counting fuel w (PFind 3 (TPtr tT) [])) = RDiv.
Proof.
  exists prog30, (seen rt_eqb counting 20 prog30), (go prog30). split; [running|]. split.
  - eapply rt_up with (k := 0); [reflexivity|]. apply rt_root. reflexivity.
  - assert (Hf : forallb (fun e => negb (Nat.eqb (c_inj e) 3)) (w_tr (go prog30)) = true) by (vm_compute; reflexivity).
    split; [intros e He Hc; rewrite forallb_forall in Hf; specialize (Hf e He); rewrite Hc in Hf; discriminate Hf|]. intros fuel.
    assert (B1 : aget (i_cache (begin (go prog30) 3)) nT = None) by (vm_compute; reflexivity).
    assert (B2 : aget (i_cache (begin (go prog30) 3)) nU = None) by (vm_compute; reflexivity).
    assert (B3 : is_done (begin (go prog30) 3) 0 = true) by (vm_compute; reflexivity).
    assert (B4 : is_done (begin (go prog30) 3) 1 = true) by (vm_compute; reflexivity).
    destruct (prog30_diverges fuel (begin (go prog30) 3) B1 B2 B3 B4) as (H & _).
    cbn [exec_op]. unfold find_op. change (create_name (indirect (TPtr tT)) []) with nT. cbv zeta.
    assert (L0 : look_in (go prog30) 3 nT = Found 0) by (vm_compute; reflexivity). rewrite L0.
    destruct (run_invoke rt_eqb counting (go prog30) 3 fuel 0 (begin (go prog30) 3)) as [r s]. cbn [fst] in H. subst r. reflexivity.
Qed.
Example C30_example :
  let h := [PNew; PProvide 0 (fn 10 [] [tT]); PFind 0 tT []; PProvide 0 (fn 11 [tT] [tU])] in
  runs rt_eqb counting world0 h (seen rt_eqb counting 20 h) (go h) /\ rooted (rev h) 0 /\
  snd (exec_op rt_eqb counting 5 (go h) (PFind 0 tU [])) = RVal (ASet (Val tU (Some 1))).
Proof. cbv zeta. split; [running|]. split; [apply rt_root; reflexivity|vm_compute; reflexivity]. Qed.

(** *** C31: a T was built before, so Invoke of a function that returns T does not call it *)
Definition prog31 : list iop := [PNew; PProvide 0 (fn 10 [] [tT]); PFind 0 tT []].
Theorem C31_invoke_once_refuted :
  exists h obs w w' out, runs rt_eqb counting world0 h obs w /\
    exec_op rt_eqb counting 20 w (PInvoke 0 (fn 12 [] [tT])) = (w', ROut out) /\ w_tr w' = w_tr w /\
    (forall e, In e (w_tr w') -> c_fun e <> 12).
Proof.
  exists prog31, (seen rt_eqb counting 20 prog31), (go prog31). eexists _, _. split; [running|]. split; [vm_compute; reflexivity|].
  split; [vm_compute; reflexivity|]. intros e He. vm_compute in He. destruct He as [<-|[]]. discriminate.
Qed.
Example C31_example :
  (forall n, slot (fn 12 [tT] [tU]) = Some n -> [tU] <> [] -> ~ called_for (go prog31) 0 n) /\
  (exists w' out, exec_op rt_eqb counting 20 (go prog31) (PInvoke 0 (fn 12 [tT] [tU])) = (w', ROut out) /\ map c_fun (w_tr w') = [12; 10]) /\
  (exists w' out, exec_op rt_eqb counting 20 (go prog31) (PInvoke 0 (fn 13 [tT] [])) = (w', ROut out) /\ map c_fun (w_tr w') = [13; 10]).
Proof.
  split; [|split; eexists _, _; split; vm_compute; reflexivity].
  intros n [= <-] _ (e & He & _ & Hn). vm_compute in He. destruct He as [<-|[]]. vm_compute in Hn. discriminate.
Qed.

(** *** C32: f needs U, U is built from T, and f returns a T: reported as a cycle *)
Definition prog32 : list iop := [PNew; PProvide 0 (fn 10 [] [tT]); PProvide 0 (fn 11 [tT] [tU])].
Theorem C32_invoke_succeeds_refuted :
  exists h obs w e, runs rt_eqb counting world0 h obs w /\
    snd (exec_op rt_eqb counting 20 w (PFind 0 tU [])) = RVal (ASet (Val tU (Some 1))) /\
    snd (exec_op rt_eqb counting 20 w (PInvoke 0 (fn 12 [tU] [tV]))) = ROut [Val tV (Some 2)] /\
    snd (exec_op rt_eqb counting 20 w (PInvoke 0 (fn 12 [tU] [tT]))) = RErr (ECycle e).
Proof.
  exists prog32, (seen rt_eqb counting 20 prog32), (go prog32), nT. split; [running|]. repeat split; vm_compute; reflexivity.
Qed.
Lemma prog32_wants n d : wants (rev prog32) 0 n d -> n = nU /\ d = nT.
Proof.
  intros (f & ins & outs & deps & typ & lab & Hn & Hd). inversion Hn as [i' n' o' E|i' k' n' o' E1 E2]; subst; [|vm_compute in E2; discriminate].
  cbn [rev prog32 app last_provided] in E. destruct (Nat.eqb 0 0 && fills (fn 11 [tT] [tU]) n) eqn:Ef.
  - injection E as <- <- <- <- <- <-. destruct Hd as [<-|[]]. apply fills_fn in Ef. split; [exact Ef|reflexivity].
  - destruct (Nat.eqb 0 0 && fills (fn 10 [] [tT]) n) eqn:Ef2; [|discriminate]. injection E as <- <- <- <- <- <-. destruct Hd.
Qed.
Example C32_example :
  runs rt_eqb counting world0 prog32 (seen rt_eqb counting 20 prog32) (go prog32) /\ rooted (rev prog32) 0 /\ fresh (go prog32) 0 /\
  typed rt_eqb (rev prog32) 0 /\ nearest (rev prog32) 0 nU (fn 11 [tT] [tU]) /\
  (forall m, clos_refl_trans bytes (wants (rev prog32) 0) nU m ->
     (exists o, nearest (rev prog32) 0 m o) /\ ~ clos_trans bytes (wants (rev prog32) 0) m m /\ slot (fn 12 [tU] [tV]) <> Some m).
Proof.
  split; [running|]. split; [apply rt_root; reflexivity|]. split; [intros e []|]. split.
  - intros n f ins outs deps typ lab Hn. inversion Hn as [i' n' o' E|i' k' n' o' E1 E2]; subst; [|vm_compute in E2; discriminate].
    cbn [rev prog32 app last_provided] in E. destruct (Nat.eqb 0 0 && fills (fn 11 [tT] [tU]) n).
    + injection E as <- <- <- <- <- <-. repeat constructor. intros o Ho. inversion Ho as [i' n' o' E|i' k' n' o' E1 E2]; subst; [|vm_compute in E2; discriminate].
      vm_compute in E. injection E as <-. vm_compute. reflexivity.
    + destruct (Nat.eqb 0 0 && fills (fn 10 [] [tT]) n); [|discriminate]. injection E as <- <- <- <- <- <-. constructor.
  - split; [apply nr_here; vm_compute; reflexivity|]. intros m Hm.
    assert (Hmm : m = nU \/ m = nT).
    { apply clos_rt_rtn1 in Hm. destruct Hm as [|y z Hyz _]; [left; reflexivity|right]. exact (proj2 (prog32_wants _ _ Hyz)). }
    split; [destruct Hmm as [-> | ->]; eexists; apply nr_here; vm_compute; reflexivity|]. split.
    + intros Hc. assert (X : forall y, clos_trans bytes (wants (rev prog32) 0) m y -> m = nU /\ y = nT).
      { intros y Hy. apply clos_trans_tn1 in Hy. induction Hy as [y Hy|y z Hyz _ (A & B)]; [apply prog32_wants; exact Hy|].
        destruct (prog32_wants _ _ Hyz) as (-> & _). vm_compute in B. discriminate. }
      destruct (X m Hc) as (A & B). rewrite A in B. vm_compute in B. discriminate.
    + destruct Hmm as [-> | ->]; vm_compute; discriminate.
Qed.

(** *** C33: two unnamed types, or two local types of the same name, share a slot *)
Theorem C33_slots_differ_refuted :
  (exists h obs w, runs rt_eqb counting world0 h obs w /\ In (PProvide 0 (value (TLit 1) 7)) h /\
     snd (exec_op rt_eqb counting 20 w (PFind 0 (TLit 1) [])) = RErr (EAssign (TPtr (TLit 2)) (TLit 1))) /\
  slot_name (TNamed (bs "p") (bs "T") 1) [] = slot_name (TNamed (bs "p") (bs "T") 2) [] /\
  slot_name (TPtr tT) [] = slot_name tT [] /\
  slot_name (TNamed (bs "p") (bs "T") 1) (bs "a") <> slot_name (TNamed (bs "p") (bs "T") 1) (bs "b").
Proof.
  split; [|repeat split; vm_compute; discriminate || reflexivity].
  set (h := [PNew; PProvide 0 (value (TLit 1) 7); PProvide 0 (value (TLit 2) 8)]).
  exists h, (seen rt_eqb counting 20 h), (go h). split; [running|]. split; [right; left; reflexivity|vm_compute; reflexivity].
Qed.
Example C33_example : ~ In colon (bs "github.com/a/b") /\ ~ In colon (bs "T").
Proof. split; cbn; intuition discriminate. Qed.

(** *** C34 for a child that looked the slot up before: [C26_nearest_refuted] *)
Theorem C34_reprovide_refuted :
  exists h obs w o, runs rt_eqb counting world0 h obs w /\ parent_of (rev h) 1 = Some 0 /\ slot o = Some (slot_name tT []) /\
    let w1 := fst (exec_op rt_eqb counting 20 w (PProvide 0 o)) in
    nearest (PProvide 0 o :: rev h) 1 (slot_name tT []) o /\
    snd (exec_op rt_eqb counting 20 w1 (PFind 1 tT [])) = snd (exec_op rt_eqb counting 20 w (PFind 1 tT [])) /\
    snd (exec_op rt_eqb counting 20 w1 (PFind 0 tT [])) <> snd (exec_op rt_eqb counting 20 w (PFind 0 tT [])).
Proof.
  set (h := [PNew; PNew; PSetParent 1 0; PProvide 0 (fn 10 [] [tT]); PFind 1 tT []; PFind 0 tT []]).
  exists h, (seen rt_eqb counting 20 h), (go h), (value tT 77). split; [running|]. split; [reflexivity|]. split; [reflexivity|].
  cbv zeta. split.
  - eapply nr_up with (k := 0); [vm_compute; reflexivity|reflexivity|]. apply nr_here. vm_compute. reflexivity.
  - split; vm_compute; [reflexivity|discriminate].
Qed.
Example C34_example :
  let w := go prog31 in
  slot (value tT 9) = Some (slot_name tT []) /\
  snd (exec_op rt_eqb counting 20 w (PFind 0 tT [])) = RVal (ASet (Val tT (Some 0))) /\
  snd (exec_op rt_eqb counting 20 (fst (exec_op rt_eqb counting 20 w (PProvide 0 (value tT 9)))) (PFind 0 tT [])) = RVal (ASet (Val tT (Some 9))) /\
  snd (exec_op rt_eqb counting 20 (fst (exec_op rt_eqb counting 20 w (PProvide 0 (fn 15 [] [tT])))) (PFind 0 tT [])) = RVal (ASet (Val tT (Some 1))).
Proof. cbv zeta. repeat split; vm_compute; reflexivity. Qed.

(** *** C95: a tagged field whose type does not fit stays unset without an error, and so do tagged fields four levels down *)
Definition deep (k : nat) : list field :=
  (fix go (k : nat) := match k with O => [Field true (TagInject []) tT None] | S k' => [Field true TagNone (TLit 5) (Some (go k'))] end) k.
Theorem C95_apply_refuted :
  exists h obs w, runs rt_eqb counting world0 h obs w /\
    (exists ty, target 2 [Field true (TagInject []) ty None] [0] ty [] /\
       snd (exec_op rt_eqb counting 20 w (PApply 0 [Field true (TagInject []) ty None])) = RApplied []) /\
    target 3 (deep 3) [0; 0; 0; 0] tT [] /\ snd (exec_op rt_eqb counting 20 w (PApply 0 (deep 3))) = RApplied [] /\
    snd (exec_op rt_eqb counting 20 w (PApply 0 (deep 2))) = RApplied [([0; 0; 0], Val tT (Some 0))].
Proof.
  exists prog31, (seen rt_eqb counting 20 prog31), (go prog31). split; [running|]. split.
  - exists (TPtr tT). split; [eapply tg_here; reflexivity|vm_compute; reflexivity].
  - split; [|split; vm_compute; reflexivity]. repeat (eapply tg_sub; [reflexivity|]). eapply tg_here. reflexivity.
Qed.
Example C95_example :
  let fs := [Field true TagNone (TLit 1) None; Field true (TagInject []) tT None; Field false (TagInject []) tV None;
             Field true TagNone (TLit 2) (Some [Field true TagSkip tV None; Field true (TagInject []) tU None])] in
  snd (exec_op rt_eqb counting 20 (go prog32) (PApply 0 fs)) = RApplied [([1], Val tT (Some 0)); ([3; 1], Val tU (Some 1))].
Proof. vm_compute. reflexivity. Qed.
Example C96_example :
  snd (exec_op rt_eqb counting 20 (go prog32) (PExists 0 tU [])) = RNone /\
  snd (exec_op rt_eqb counting 20 (go prog32) (PExists 0 tV [])) = RErr (EMissing (slot_name tV [])).
Proof. split; vm_compute; reflexivity. Qed.

(** *** C97: two values of one type under different labels, and a function of both *)
Definition prog97 : list iop :=
  [PNew; PProvide 0 (OVal (ptr_val tT 5) None (bs "a")); PProvide 0 (OVal (ptr_val tT 6) None (bs "b"));
   PProvide 0 (OFun 10 [TPtr tT; TPtr tT; TPtr tT] [tU] [(1, bs "b"); (0, bs "a"); (2, bs "b")] None [])].
Example C97_example :
  runs rt_eqb counting world0 prog97 (seen rt_eqb counting 20 prog97) (go prog97) /\
  (exists w' r, exec_op rt_eqb counting 20 (go prog97) (PFind 0 tU []) = (w', RVal r) /\
     w_tr w' = [Called 0 2 10 [ptr_val tT 5; ptr_val tT 6; ptr_val tT 6] true]) /\
  (exists w' out, exec_op rt_eqb counting 20 (go prog97) (PInvoke 0 (OFun 11 [TPtr tT] [] [(0, bs "b")] None [])) = (w', ROut out) /\
     w_tr w' = [Called 0 3 11 [ptr_val tT 6] true]).
Proof. split; [running|]. split; eexists _, _; split; vm_compute; reflexivity. Qed.

Print Assumptions C26_nearest_value_partial.
Print Assumptions C26_nearest_function_partial.
Print Assumptions C26_nowhere.
Print Assumptions C27_built_once_partial.
Print Assumptions C27_same_value_partial.
Print Assumptions C28_only_supported_calls.
Print Assumptions C28_missing_is_error.
Print Assumptions C29_cycle_is_error.
Print Assumptions C30_terminates_acyclic_partial.
Print Assumptions C31_invoke_once_partial.
Print Assumptions C32_find_succeeds_partial.
Print Assumptions C32_invoke_succeeds_partial.
Print Assumptions C34_new_value_is_found.
Print Assumptions C34_new_function_is_called.
Print Assumptions C34_built_values_stay.
Print Assumptions C95_apply_sets_tagged_fields_partial.
Print Assumptions C96_exists_is_pure.
Print Assumptions C33_named_slots_differ_partial.
Print Assumptions C26_nearest_refuted.
Print Assumptions C27_built_once_refuted.
Print Assumptions C30_terminates_refuted.
Print Assumptions C31_invoke_once_refuted.
Print Assumptions C32_invoke_succeeds_refuted.
Print Assumptions C33_slots_differ_refuted.
Print Assumptions C34_reprovide_refuted.
Print Assumptions C95_apply_refuted.
Print Assumptions C97_arguments_of_providers.
Print Assumptions C97_arguments_of_invoke_partial.
