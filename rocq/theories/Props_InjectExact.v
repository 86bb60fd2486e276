(** Props_InjectExact: exact forms of C26, C27, C31, C33, C34 (and C95).
    What an injector keeps for a slot is read off the log of the program: the
    operations, what they answered and the functions they called. *)
From Coq Require Import List Ascii String Bool Arith Lia Relations.
Import ListNotations.
From Verif Require Import GoStr InjectModel InjectFacts InjectWorld InjectSpec InjectHist InjectNear InjectMain Props_Inject.

(** ** Specification *)
(** one step of a program: the operation, its answer, the functions it called (newest first);
    a log is a list of steps, newest first *)
Definition entry : Type := (iop * iobs * list callev)%type.
Definition op_of (e : entry) : iop := fst (fst e).
Definition ops (L : list entry) : list iop := map op_of L.
Definition calls (L : list entry) : list callev := flat_map snd L.
(** the object an operation hands over *)
Definition hands (o : iop) : list pobj :=
  match o with
  | PProvide _ p | PInvoke _ p => match slot p with Some _ => [p] | None => [] end
  | _ => []
  end.
(** everything handed over, oldest first: [c_prov e = q] means that call [e] was of number [q] *)
Fixpoint given (L : list entry) : list pobj :=
  match L with [] => [] | e :: L' => given L' ++ hands (op_of e) end.
(** the operation makes injector [i] forget what it keeps for slot [n]: providing
    [n] anew on [i], and Invoke on [i] of something for slot [n] that succeeds *)
Definition drops (i : nat) (n : bytes) (o : iop) (b : iobs) : bool :=
  match o, b with
  | PProvide j p, _ => Nat.eqb j i && fills p n
  | PInvoke j p, ROut _ => Nat.eqb j i && fills p n
  | _, _ => false
  end.
Section Spec.
  Variable call : list callev -> nat -> list val -> option (nat -> option nat).
  (** call [e], made after [before], returned the values of slot [n] *)
  Definition yielded (G : list pobj) (n : bytes) (e : callev) (before : list callev) : option (list val) :=
    match nth_error G (c_prov e) with
    | Some (OFun f ins outs deps typ lab) =>
        if c_ok e && fills (OFun f ins outs deps typ lab) n
        then option_map (fun g => results g 0 outs) (call before (c_fun e) (c_args e)) else None
    | _ => None
    end.
  (** what the newest of the calls made for injector [i] for slot [n] returned *)
  Fixpoint built (G : list pobj) (i : nat) (n : bytes) (new older : list callev) : option (list val) :=
    match new with
    | [] => None
    | e :: new' =>
        match (if Nat.eqb (c_inj e) i then yielded G n e (new' ++ older) else None) with
        | Some x => Some x
        | None => built G i n new' older
        end
    end.
  (** what injector [i] keeps for slot [n] after [L] *)
  Fixpoint kept (i : nat) (n : bytes) (L : list entry) : option (list val) :=
    match L with
    | [] => None
    | (o, b, new) :: L' =>
        if drops i n o b then None
        else match built (given ((o, b, new) :: L')) i n new (calls L') with
             | Some x => Some x
             | None => kept i n L'
             end
    end.
End Spec.
(** the program with log [L] ends in [w] *)
Inductive logged asg call : list entry -> world -> Prop :=
| lg0 : logged asg call [] world0
| lg1 : forall L w o fuel w' b new, logged asg call L w -> op_ok w o -> exec_op asg call fuel w o = (w', b) -> b <> RDiv ->
    w_tr w' = new ++ w_tr w -> logged asg call ((o, b, new) :: L) w'.

(** ** What an invocation does to the cache *)
Definition or_else {A} (x y : option A) : option A := match x with Some _ => x | None => y end.
Lemma or_else_assoc {A} (x y z : option A) : or_else x (or_else y z) = or_else (or_else x y) z.
Proof. destruct x; reflexivity. Qed.

Section Core.
  Variable asg : rtype -> rtype -> bool.
  Variable call : list callev -> nat -> list val -> option (nat -> option nat).
  Variable info : nat -> pinfo.
  Definition gives (n : bytes) (e : callev) (before : list callev) : option (list val) :=
    match p_kind (info (c_prov e)) with
    | KFun _ _ outs =>
        if c_ok e && beq (p_name (info (c_prov e))) n
        then option_map (fun g => results g 0 outs) (call before (c_fun e) (c_args e)) else None
    | KVal _ => None
    end.
  Fixpoint newest (n : bytes) (new older : list callev) : option (list val) :=
    match new with [] => None | e :: new' => or_else (gives n e (new' ++ older)) (newest n new' older) end.
  Lemma newest_app n l2 l1 older : newest n (l2 ++ l1) older = or_else (newest n l2 (l1 ++ older)) (newest n l1 older).
  Proof using Type.
    induction l2 as [|e l2 IH]; [reflexivity|]. cbn [newest List.app]. rewrite IH, or_else_assoc, app_assoc. reflexivity.
  Qed.

  Variable inj : nat.
  Record ce (s s' : ist) : Prop := {
    ce_ex : exists new, i_tr s' = new ++ i_tr s /\ Forall (fun e => c_inj e = inj) new /\
      forall n, has_colon n = true -> aget (i_cache s') n = or_else (newest n new (i_tr s)) (aget (i_cache s) n) }.
  Lemma ce_same s s' : i_tr s' = i_tr s -> i_cache s' = i_cache s -> ce s s'.
  Proof using Type. intros H1 H2. constructor. exists []. rewrite H1, H2. repeat split; auto. Qed.
  Lemma ce_trans s s1 s2 : ce s s1 -> ce s1 s2 -> ce s s2.
  Proof using Type.
    intros [(n1 & A1 & A2 & A3)] [(n2 & B1 & B2 & B3)]. constructor. exists (n2 ++ n1). split; [rewrite B1, A1; apply app_assoc|].
    split; [apply Forall_app; auto|]. intros n Hn. rewrite (B3 n Hn), (A3 n Hn), newest_app, A1. apply or_else_assoc.
  Qed.
  Hypothesis ok : forall q, prov_ok (info q).
  Variable look : bytes -> found.
  Lemma eval_deps_ce inv : (forall q s, ce s (snd (inv q s))) -> forall ds s, ce s (snd (eval_deps look info inv ds s)).
  Proof using Type.
    intros H. induction ds as [|d ds IH]; intros s; cbn [eval_deps]; [apply ce_same; reflexivity|].
    destruct (look d) as [q| |]; [|apply ce_same; reflexivity..].
    destruct (negb (is_done s q) && in_status s (p_name (info q))); [apply ce_same; reflexivity|].
    specialize (H q s). destruct (inv q s) as [[[|v o]|e| |] s1]; cbn [snd] in *; try exact H.
    specialize (IH s1). destruct (eval_deps look info inv ds s1) as [[l|r] s2]; cbn [snd] in *; eapply ce_trans; eassumption.
  Qed.
  Lemma call_fun_ce q fn ins outs args s : p_kind (info q) = KFun fn ins outs -> ce s (snd (call_fun asg call inj info q fn ins outs args s)).
  Proof using ok.
    intros Hk. unfold call_fun. destruct (args_ok asg args ins); [|apply ce_same; reflexivity].
    destruct (call (i_tr s) fn args) as [g|] eqn:Eg; cbn [snd].
    - constructor. exists [Called inj q fn args true]. split; [destruct outs; reflexivity|]. split; [repeat constructor|].
      intros n Hn. cbn [newest List.app]. unfold gives. cbn [c_prov c_ok c_fun c_args andb]. rewrite Hk, Eg. cbn [option_map].
      pose proof (pk_name _ (ok q)) as Hp. rewrite Hk in Hp. destruct outs as [|t0 ts].
      + cbn [i_cache add_call]. destruct (beq (p_name (info q)) n) eqn:E; [|reflexivity].
        apply beq_true in E. rewrite Hp in E. subst n. discriminate Hn.
      + cbn [i_cache set_cache add_call]. destruct (beq (p_name (info q)) n) eqn:E.
        * apply beq_true in E as <-. apply aget_aset_same.
        * apply aget_aset_other. intros Hx. rewrite Hx, beq_refl in E. discriminate.
    - constructor. exists [Called inj q fn args false]. split; [reflexivity|]. split; [repeat constructor|].
      intros n Hn. cbn [newest]. unfold gives. cbn [c_prov c_ok andb]. rewrite Hk. reflexivity.
  Qed.
  Lemma invoke_ce fuel : forall q s, ce s (snd (invoke asg call inj look info fuel q s)).
  Proof using ok.
    induction fuel as [|f IH]; intros q s; cbn [invoke]; [apply ce_same; reflexivity|].
    destruct (aget (i_cache s) (p_name (info q))); [apply ce_same; reflexivity|]. cbv zeta.
    set (s0 := set_status s (p_name (info q))).
    assert (H0 : ce s s0) by (apply ce_same; reflexivity).
    destruct (p_kind (info q)) as [v|fn ins outs] eqn:Ek; cbn [fst snd].
    { apply ce_same; reflexivity. }
    pose proof (eval_deps_ce _ IH (p_deps (info q)) s0) as H1.
    destruct (eval_deps look info (invoke asg call inj look info f) (p_deps (info q)) s0) as [[args|r] s1]; cbn [snd] in H1.
    - pose proof (call_fun_ce q fn ins outs args s1 Ek) as H2.
      destruct (call_fun asg call inj info q fn ins outs args s1) as [r s2]. cbn [fst snd] in *.
      assert (H : ce s s2) by (eapply ce_trans; [exact H0|]; eapply ce_trans; eassumption).
      destruct r; cbn [fst snd]; try exact H; (eapply ce_trans; [exact H|]; apply ce_same; reflexivity).
    - assert (H : ce s s1) by (eapply ce_trans; eassumption).
      destruct r; cbn [fst snd]; try exact H; (eapply ce_trans; [exact H|]; apply ce_same; reflexivity).
  Qed.
End Core.

Section CoreApply.
  Variable asg : rtype -> rtype -> bool.
  Variable call : list callev -> nat -> list val -> option (nat -> option nat).
  Variables (w : world) (i : nat).
  Hypothesis W : winv w.
  Notation CE := (ce call (info_of w) i).
  Lemma run_ce fuel q s : CE s (snd (run_invoke asg call w i fuel q s)).
  Proof using W. apply invoke_ce. intros q'. apply info_ok. exact W. Qed.
  Lemma apply_fields_ce fuel sub : (forall fs p s, CE s (snd (sub fs p s))) -> forall fs k p s, CE s (snd (apply_fields asg call w i fuel sub fs k p s)).
  Proof using W.
    intros Hs. induction fs as [|[st tg ty sb] fs IH]; intros k p s; cbn [apply_fields]; [apply ce_same; reflexivity|]. cbv zeta.
    assert (Hc : forall l s1, CE s s1 -> CE s (snd (match apply_fields asg call w i fuel sub fs (S k) p s1 with
       | (AppOk l', s2) => (AppOk (l ++ l'), s2) | x => x end))).
    { intros l s1 H. specialize (IH (S k) p s1). destruct (apply_fields asg call w i fuel sub fs (S k) p s1) as [[l'|r] s2]; cbn [snd] in *; eapply ce_trans; eassumption. }
    destruct (negb st); [apply IH|]. destruct tg as [| |lab]; [|apply IH|].
    - destruct sb as [fs1|]; [|apply IH]. specialize (Hs fs1 (p ++ [k]) s).
      destruct (sub fs1 (p ++ [k]) s) as [[l|r] s1]; cbn [snd] in *; [apply Hc; exact Hs|exact Hs].
    - destruct (look_in w i (create_name (indirect ty) lab)) as [q| |]; [|apply ce_same; reflexivity..].
      pose proof (run_ce fuel q s) as Hr. destruct (run_invoke asg call w i fuel q s) as [[[|v o]|e| |] s1]; cbn [snd] in *; try exact Hr.
      + apply Hc. exact Hr.
      + destruct (assign_value asg v ty); apply Hc; exact Hr.
  Qed.
  Lemma apply_lvl_ce fuel lv : forall fs p s, CE s (snd (apply_lvl asg call w i fuel lv fs p s)).
  Proof using W.
    induction lv as [|lv IH]; intros fs p s; cbn [apply_lvl]; apply apply_fields_ce; [|exact IH].
    intros fs' p' s'. apply ce_same; reflexivity.
  Qed.
End CoreApply.

(** ** Logs and worlds *)
Lemma info_add_old w p q : q < List.length (w_prov w) -> info_of (add_prov w p) q = info_of w q.
Proof. intros H. unfold info_of. cbn. apply app_nth1. exact H. Qed.

Section Log.
  Variable asg : rtype -> rtype -> bool.
  Variable call : list callev -> nat -> list val -> option (nat -> option nat).
  Notation exec := (exec_op asg call).
  Notation logged := (logged asg call).
  Notation built := (built call).
  Notation kept := (kept call).

  Lemma runs_snoc w h obs w1 o fuel b w2 : runs asg call w h obs w1 -> op_ok w1 o -> exec fuel w1 o = (w2, b) -> b <> RDiv ->
    runs asg call w (h ++ [o]) (obs ++ [b]) w2.
  Proof using Type.
    induction 1 as [w|w o' os f' w1 b' bs' w2' Hok E Hb R IH]; intros Ho Ex Hd; cbn [List.app].
    - econstructor; [exact Ho|exact Ex|exact Hd|constructor].
    - econstructor; [exact Hok|exact E|exact Hb|]. apply IH; assumption.
  Qed.
  Lemma logged_runs L w : logged L w -> exists obs, runs asg call world0 (rev (ops L)) obs w.
  Proof using Type.
    induction 1 as [|L w o fuel w' b new Lg (obs & R) Hok E Hb T]; [exists []; constructor|].
    exists (obs ++ [b]). unfold ops. cbn [map rev]. eapply runs_snoc; eassumption.
  Qed.
  Lemma logged_winv L w : logged L w -> winv w.
  Proof using Type. intros H. destruct (logged_runs L w H) as (obs & R). eapply runs0_winv. exact R. Qed.
  Lemma logged_hist L w : logged L w -> hist_inv (ops L) w.
  Proof using Type. intros H. destruct (logged_runs L w H) as (obs & R). rewrite <- (rev_involutive (ops L)). eapply runs0_hist. exact R. Qed.
  Lemma logged_calls L w : logged L w -> w_tr w = calls L.
  Proof using Type. induction 1 as [|L w o fuel w' b new Lg IH Hok E Hb T]; [reflexivity|]. rewrite T, IH. reflexivity. Qed.
  (** every operation only adds calls *)
  Lemma exec_calls fuel w o w' b : winv w -> op_ok w o -> exec fuel w o = (w', b) -> exists new, w_tr w' = new ++ w_tr w.
  Proof using Type.
    intros W Hok E. pose proof (exec_eff asg call fuel w o w' b W Hok E) as Ef.
    inversion Ef; subst; try (exists []; reflexivity);
      try match goal with H : weff _ _ _ _ _ |- _ => destruct (we_tr _ _ _ _ _ H) as (new & T & _); exists new; exact T end.
    exists []. match goal with H : provided _ _ _ _ |- _ => exact (pv_tr _ _ _ _ H) end.
  Qed.
  (** every program has a log *)
  Lemma runs_logged w h obs w' : runs asg call w h obs w' -> forall L, logged L w -> exists L', logged (L' ++ L) w' /\ ops L' = rev h.
  Proof using Type.
    induction 1 as [w|w o os fuel w1 b bs w2 Hok E Hb R IH]; intros L Lg; [exists []; auto|].
    destruct (exec_calls fuel w o w1 b (logged_winv _ _ Lg) Hok E) as (new & T).
    destruct (IH ((o, b, new) :: L)) as (L' & A & B); [econstructor; eassumption|].
    exists (L' ++ [(o, b, new)]). rewrite <- app_assoc. split; [exact A|]. unfold ops in *. rewrite map_app, B. reflexivity.
  Qed.

  (** *** Numbers of providers *)
  Definition numbered (G : list pobj) (w : world) : Prop := map new_provider G = map Some (w_prov w).
  Lemma numbered_nth G w q : numbered G w ->
    match nth_error G q with Some o => new_provider o = Some (info_of w q) /\ q < List.length (w_prov w) | None => info_of w q = pdummy end.
  Proof using Type.
    intros N. assert (H : option_map new_provider (nth_error G q) = option_map Some (nth_error (w_prov w) q)).
    { rewrite <- !nth_error_map. rewrite N. reflexivity. }
    destruct (nth_error G q) as [o|]; cbn in H.
    - destruct (nth_error (w_prov w) q) as [p|] eqn:Ep; cbn in H; [|discriminate]. injection H as H. split.
      + rewrite H. unfold info_of. rewrite (nth_error_nth _ _ pdummy Ep). reflexivity.
      + apply nth_error_Some. congruence.
    - destruct (nth_error (w_prov w) q) eqn:Ep; [discriminate|]. apply nth_error_None in Ep. unfold info_of. apply nth_overflow. exact Ep.
  Qed.
  Lemma numbered_add G w o p : numbered G w -> new_provider o = Some p -> numbered (G ++ [o]) (add_prov w p).
  Proof using Type. intros N H. unfold numbered in *. rewrite map_app, N. cbn. rewrite map_app, H. reflexivity. Qed.
  Lemma numbered_len G w : numbered G w -> List.length G = List.length (w_prov w).
  Proof using Type. intros N. apply (f_equal (@List.length _)) in N. rewrite !map_length in N. exact N. Qed.
  Lemma exec_numbered G fuel w o w' b : numbered G w -> op_ok w o -> exec fuel w o = (w', b) -> numbered (G ++ hands o) w'.
  Proof using Type.
    intros N Hok E. destruct o as [|i k|i o|i t l|i o|i fs|i t l]; cbn [exec_op hands] in *; rewrite ?app_nil_r.
    - injection E as <- <-. exact N.
    - injection E as <- <-. exact N.
    - unfold provide, slot in *. destruct (new_provider o) as [p|] eqn:Hp; injection E as <- <-; cbn [option_map].
      + exact (numbered_add G w o p N Hp).
      + rewrite app_nil_r. exact N.
    - unfold find_op in E. cbv zeta in E. destruct (look_in w i (create_name (indirect t) l)); [|injection E as <- <-; exact N..].
      destruct (run_invoke asg call w i fuel q (begin w i)) as [[[|v x]|e| |] s]; injection E as <- <-; exact N.
    - unfold invoke_op, slot in *. destruct (new_provider o) as [p|] eqn:Hp; cbn [option_map].
      + cbv zeta in E. destruct (run_invoke asg call (add_prov w p) i fuel (List.length (w_prov w)) (begin (add_prov w p) i)) as [[x|e| |] s];
          injection E as <- <-; exact (numbered_add G w o p N Hp).
      + injection E as <- <-. rewrite app_nil_r. exact N.
    - unfold apply_op in E. destruct (apply_struct asg call w i fuel fs) as [[l|r] s]; injection E as <- <-; exact N.
    - unfold exists_op in E. cbv zeta in E. destruct (look_in w i (create_name (indirect t) l)) as [q| |]; [destruct (p_kind (info_of w q))|..]; injection E as <- <-; exact N.
  Qed.
  Lemma logged_numbered L w : logged L w -> numbered (given L) w.
  Proof using Type.
    induction 1 as [|L w o fuel w' b new Lg IH Hok E Hb T]; [reflexivity|]. cbn [given op_of fst].
    eapply exec_numbered; eassumption.
  Qed.

  Lemma fills_name o p n : new_provider o = Some p -> fills o n = beq (p_name p) n.
  Proof using Type. intros H. unfold fills, slot. rewrite H. reflexivity. Qed.
  Lemma gives_yielded G w n e before : numbered G w -> gives call (info_of w) n e before = yielded call G n e before.
  Proof using Type.
    intros N. pose proof (numbered_nth G w (c_prov e) N) as H. unfold gives, yielded.
    destruct (nth_error G (c_prov e)) as [o|].
    - destruct H as (H & _). destruct o as [v typ lab|f ins outs deps typ lab].
      + rewrite (val_info _ _ _ _ H). reflexivity.
      + rewrite (proj1 (fun_info _ _ _ _ _ _ _ H)), (fills_name _ _ n H). reflexivity.
    - rewrite H. reflexivity.
  Qed.
  Lemma newest_built G w i n new older : numbered G w -> Forall (fun e => c_inj e = i) new ->
    newest call (info_of w) n new older = built G i n new older.
  Proof using Type.
    intros N. induction 1 as [|e new He F IH]; [reflexivity|]. cbn [newest Props_InjectExact.built].
    rewrite He, Nat.eqb_refl, IH, (gives_yielded G w n e _ N). unfold or_else. destruct (yielded call G n e (new ++ older)); reflexivity.
  Qed.
  Lemma built_other G i j n new older : i <> j -> Forall (fun e => c_inj e = i) new -> built G j n new older = None.
  Proof using Type.
    intros Hij. induction 1 as [|e new He F IH]; [reflexivity|]. cbn. rewrite He.
    destruct (Nat.eqb_spec i j) as [H|_]; [contradiction|]. exact IH.
  Qed.

  (** *** One operation *)
  Lemma ce_cache G w i s new : numbered G w -> i < List.length (w_inj w) -> ce call (info_of w) i (begin w i) s ->
    i_tr s = new ++ w_tr w -> Forall (fun e => c_inj e = i) new /\
    forall j n, has_colon n = true ->
      aget (j_cache (jget (commit w i s) j)) n = or_else (built G j n new (w_tr w)) (aget (j_cache (jget w j)) n).
  Proof using Type.
    intros N Hi [(new' & T & F & H)] T'. cbn [begin i_tr] in T. rewrite T in T'. apply app_inv_tail in T' as ->. split; [exact F|].
    intros j n Hn. destruct (Nat.eq_dec i j) as [<-|Hij].
    - rewrite jget_commit_same by exact Hi. cbn [j_cache]. rewrite (H n Hn). cbn [begin i_tr i_cache].
      rewrite (newest_built G w i n new (w_tr w) N F). reflexivity.
    - rewrite jget_commit_other by exact Hij. rewrite (built_other G i j n new _ Hij F). reflexivity.
  Qed.
  Lemma numbered_prov G w w' : w_prov w' = w_prov w -> numbered G w -> numbered G w'.
  Proof using Type. unfold numbered. intros ->. auto. Qed.

  Lemma step_cache G fuel w o w' b new i n : winv w -> numbered G w -> op_ok w o -> exec fuel w o = (w', b) -> w_tr w' = new ++ w_tr w ->
    has_colon n = true ->
    aget (j_cache (jget w' i)) n =
      if drops i n o b then None else or_else (built (G ++ hands o) i n new (w_tr w)) (aget (j_cache (jget w i)) n).
  Proof using Type.
    intros W N Hok E T Hn.
    assert (Hnil : w_tr w' = w_tr w -> new = []).
    { intros H. rewrite H in T. apply (app_inv_tail (w_tr w) [] new) in T. auto. }
    destruct o as [|j k|j o|j t l|j o|j fs|j t l]; cbn [exec_op op_ok hands] in *; cbv zeta in Hok; rewrite ?app_nil_r.
    - injection E as <- <-. rewrite (Hnil eq_refl), jget_new. reflexivity.
    - injection E as <- <-. rewrite (Hnil eq_refl). cbn [drops Props_InjectExact.built or_else].
      rewrite (proj1 (proj2 (set_parent_jget w j k i (proj1 Hok)))). reflexivity.
    - destruct (new_provider o) as [p|] eqn:Hp.
      + destruct (provide_spec w j o p Hok Hp) as (P & S). rewrite E in P, S. cbn [fst snd] in P, S. subst b.
        rewrite (Hnil (pv_tr _ _ _ _ P)). cbn [drops Props_InjectExact.built or_else]. rewrite (fills_name _ _ n Hp).
        destruct (Nat.eqb_spec j i) as [<-|Hij]; cbn [andb].
        * rewrite (pv_cache _ _ _ _ P). destruct (beq (p_name p) n) eqn:Eb.
          -- apply beq_true in Eb as <-. apply aget_adel_same.
          -- apply aget_adel_other. intros Hx. rewrite Hx, beq_refl in Eb. discriminate.
        * rewrite (pv_other _ _ _ _ P i) by congruence. reflexivity.
      + unfold provide in E. rewrite Hp in E. injection E as <- <-. rewrite (Hnil eq_refl).
        cbn [drops Props_InjectExact.built or_else]. unfold fills, slot. rewrite Hp. cbn [option_map]. rewrite andb_false_r. reflexivity.
    - assert (Hd : drops i n (PFind j t l) b = false) by reflexivity. rewrite Hd. unfold find_op in E. cbv zeta in E.
      destruct (look_in w j (create_name (indirect t) l)) as [q| |];
        [|injection E as <- <-; rewrite (Hnil eq_refl); reflexivity..].
      pose proof (run_ce asg call w j W fuel q (begin w j)) as C.
      destruct (run_invoke asg call w j fuel q (begin w j)) as [r s]. cbn [snd] in C.
      assert (Ew : w' = commit w j s) by (destruct r as [[|v x]|e| |]; injection E as <- _; reflexivity). subst w'.
      apply (proj2 (ce_cache G w j s new N Hok C T)). exact Hn.
    - unfold slot. destruct (new_provider o) as [p|] eqn:Hp.
      2:{ unfold invoke_op in E. rewrite Hp in E. injection E as <- <-. rewrite (Hnil eq_refl). reflexivity. }
      unfold invoke_op in E. rewrite Hp in E. cbv zeta in E. cbn [option_map]. set (w1 := add_prov w p) in *.
      assert (W1 : winv w1) by (apply add_prov_winv; [exact W|eapply new_provider_ok; exact Hp]).
      pose proof (run_ce asg call w1 j W1 fuel (List.length (w_prov w)) (begin w1 j)) as C.
      destruct (run_invoke asg call w1 j fuel (List.length (w_prov w)) (begin w1 j)) as [r s]. cbn [snd] in C.
      assert (Hcm : i_tr s = new ++ w_tr w -> forall m, has_colon m = true -> aget (j_cache (jget (commit w1 j s) i)) m =
                or_else (built (G ++ [o]) i m new (w_tr w)) (aget (j_cache (jget w i)) m)).
      { intros T' m Hm. exact (proj2 (ce_cache (G ++ [o]) w1 j s new (numbered_add G w o p N Hp) Hok C T') i m Hm). }
      destruct r as [out|e| |]; cbn [obs_fail] in E; injection E as <- <-; cbn [drops]; try (apply Hcm; [exact T|exact Hn]).
      rewrite (fills_name _ _ n Hp). destruct (Nat.eqb_spec j i) as [<-|Hij]; cbn [andb].
      + assert (Hj : j < List.length (w_inj (commit w1 j s))) by (cbn; rewrite upd_length; exact Hok).
        rewrite drop_cache_same by exact Hj. destruct (beq (p_name p) n) eqn:Eb.
        * apply beq_true in Eb as <-. apply aget_adel_same.
        * rewrite aget_adel_other; [apply Hcm; [exact T|exact Hn]|]. intros Hx. rewrite Hx, beq_refl in Eb. discriminate.
      + rewrite drop_cache_other by congruence. apply Hcm; [exact T|exact Hn].
    - assert (Hd : drops i n (PApply j fs) b = false) by reflexivity. rewrite Hd. unfold apply_op, apply_struct in E.
      pose proof (apply_lvl_ce asg call w j W fuel (max_level - 1) fs [] (begin w j)) as C.
      destruct (apply_lvl asg call w j fuel (max_level - 1) fs [] (begin w j)) as [r s]. cbn [snd] in C.
      assert (Ew : w' = commit w j s) by (destruct r as [x|e]; injection E as <- _; reflexivity). subst w'.
      apply (proj2 (ce_cache G w j s new N Hok C T)). exact Hn.
    - assert (w' = w) as ->; [|rewrite (Hnil eq_refl); reflexivity]. unfold exists_op in E. cbv zeta in E.
      destruct (look_in w j (create_name (indirect t) l)) as [q| |]; [destruct (p_kind (info_of w q))|..]; injection E as <- _; reflexivity.
  Qed.

  (** the cache of the code is what the log says is kept *)
  Theorem logged_kept L w i n : logged L w -> has_colon n = true -> aget (j_cache (jget w i)) n = kept i n L.
  Proof using Type.
    intros Lg Hn. induction Lg as [|L w o fuel w' b new Lg IH Hok E Hb T]; [destruct i; reflexivity|].
    rewrite (step_cache (given L) fuel w o w' b new i n (logged_winv _ _ Lg) (logged_numbered _ _ Lg) Hok E T Hn), IH.
    cbn [Props_InjectExact.kept given op_of fst]. rewrite (logged_calls _ _ Lg). unfold or_else.
    destruct (drops i n o b); [reflexivity|]. destruct (built (given L ++ hands o) i n new (calls L)); reflexivity.
  Qed.


  (** a Find that has nothing kept calls the function last and answers with its result *)
  Lemma find_calls_fun w i t l fuel q f ins outs w' r :
    winv w -> look_in w i (slot_name t l) = Found q -> p_kind (info_of w q) = KFun f ins outs ->
    aget (j_cache (jget w i)) (slot_name t l) = None ->
    exec fuel w (PFind i t l) = (w', RVal r) ->
    exists args tr g t0, w_tr w' = Called i q f args true :: tr ++ w_tr w /\ call (tr ++ w_tr w) f args = Some g /\
      hd_error outs = Some t0 /\ RVal r = assigned asg (Val t0 (g 0)) t.
  Proof using Type.
    intros W Hl Hk Hno E.
    cbn [exec_op] in E. unfold find_op in E. fold (slot_name t l) in E. cbv zeta in E. rewrite Hl in E.
    destruct (run_invoke asg call w i fuel q (begin w i)) as [ri s'] eqn:Er.
    assert (Hnm : p_name (info_of w q) = slot_name t l).
    { apply (visible_name w i W). rewrite visible_eq; [exact Hl|apply create_name_colon]. }
    rewrite <- Hnm in Hno.
    destruct (root_run asg call w i fuel q ri s' W Er) as (s1 & n1 & P & _ & [(_ & _ & Hcase)|(f' & ins' & outs' & args & ok & Hk' & T & _ & Hcase)]).
    - exfalso. destruct ri as [out|e| |]; try (injection E as _ E'; discriminate E').
      apply (Hcase Hno) with out; [|reflexivity]. unfold is_fun. rewrite Hk. reflexivity.
    - rewrite Hk in Hk'. injection Hk' as <- <- <-.
      destruct Hcase as [(_ & -> & _ & _)|(g & -> & Hg & -> & _)]; [injection E as _ E'; discriminate E'|].
      destruct outs as [|t0 ts]; cbn [results] in E; [injection E as _ E'; discriminate E'|].
      pose proof (po_tr _ _ _ _ _ _ _ _ P) as Ht. cbn [i_tr set_status begin] in Ht. rewrite Ht in T, Hg.
      injection E as <- E'. exists args, n1, g, t0. split; [exact T|]. split; [exact Hg|]. split; [reflexivity|]. symmetry. exact E'.
  Qed.

  (** *** C26 *)
  (** [calls L] are the functions called before; [tr ++ calls L] those before [f] *)
  Theorem C26_find_exact L w i t l fuel w' b :
    logged L w -> i < List.length (w_inj w) -> exec fuel w (PFind i t l) = (w', b) -> b <> RDiv ->
    (nowhere (ops L) i (slot_name t l) -> w' = w /\ b = RErr (EMissing (slot_name t l))) /\
    (forall o, nearest (ops L) i (slot_name t l) o ->
       match kept i (slot_name t l) L, o with
       | Some (v :: _), _ => w_tr w' = calls L /\ b = assigned asg v t
       | Some [], _ => False
       | None, OVal v _ _ => w_tr w' = calls L /\ b = assigned asg v t
       | None, OFun f ins outs _ _ _ =>
           forall r, b = RVal r ->
             exists q args tr g t0, w_tr w' = Called i q f args true :: tr ++ calls L /\
               call (tr ++ calls L) f args = Some g /\ hd_error outs = Some t0 /\ b = assigned asg (Val t0 (g 0)) t
       end).
  Proof using Type.
    intros Lg Hi E Hb. pose proof (logged_winv _ _ Lg) as W. pose proof (logged_hist _ _ Lg) as H.
    pose proof (logged_calls _ _ Lg) as Hc. pose proof (create_name_colon (indirect t) l) as Hcol. fold (slot_name t l) in Hcol.
    split.
    - intros Hn. cbn [exec_op] in E. unfold find_op in E. fold (slot_name t l) in E. cbv zeta in E.
      rewrite (nowhere_look _ _ W H i _ Hi Hn) in E. injection E as <- <-. auto.
    - intros o Ho. destruct (nearest_look _ _ W H i _ _ Hi Ho) as (q & Hl & Hp).
      assert (Hf : exists f', fuel = S f').
      { destruct fuel as [|f]; [exfalso|exists f; reflexivity]. cbn [exec_op] in E. unfold find_op in E. fold (slot_name t l) in E. cbv zeta in E.
        rewrite Hl in E. cbn in E. injection E as _ <-. apply Hb. reflexivity. }
      destruct Hf as (f' & ->).
      pose proof (logged_kept L w i (slot_name t l) Lg Hcol) as Hk. rewrite <- Hk.
      destruct (aget (j_cache (jget w i)) (slot_name t l)) as [[|v vs]|] eqn:Ec.
      + exact (wi_caches _ W _ _ _ Ec eq_refl).
      + destruct (has_find asg call w i t l v vs f' W) as (w2 & E2 & T).
        { split; [exact Hi|]. exists q. split; [exact Hl|]. left. exact Ec. }
        rewrite E in E2. injection E2 as <- ->. rewrite T. auto.
      + destruct o as [v typ lab|f ins outs deps typ lab].
        * destruct (has_find asg call w i t l v [] f' W) as (w2 & E2 & T).
          { split; [exact Hi|]. exists q. split; [exact Hl|]. right. split; [exact Ec|]. exists v. split; [exact (val_info _ _ _ _ Hp)|reflexivity]. }
          rewrite E in E2. injection E2 as <- ->. rewrite T. auto.
        * intros r ->. destruct (fun_info _ _ _ _ _ _ _ Hp) as (Hkind & _). rewrite <- Hc. exists q.
          exact (find_calls_fun w i t l (S f') q f ins outs w' r W Hl Hkind Ec E).
  Qed.

  (** *** C27 *)
  (** call [e] was of something handed over for slot [n] *)
  Definition for_slot (G : list pobj) (n : bytes) (e : callev) : Prop :=
    exists o, nth_error G (c_prov e) = Some o /\ fills o n = true.
  Lemma for_slot_name G w n e : numbered G w -> for_slot G n e -> p_name (info_of w (c_prov e)) = n.
  Proof using Type.
    intros N (o & Ho & Hf). pose proof (numbered_nth G w (c_prov e) N) as H. rewrite Ho in H. destruct H as (H & _).
    rewrite (fills_name _ _ n H) in Hf. apply beq_true in Hf. exact Hf.
  Qed.
  (** as long as injector [i] keeps values for a slot, whatever the program does next
      calls nothing for that slot on that injector, and the values stay, unless the
      operation is one of the two that drop them *)
  Theorem C27_kept_exact L w i t l x o fuel w' b :
    logged L w -> kept i (slot_name t l) L = Some x -> op_ok w o -> exec fuel w o = (w', b) -> b <> RDiv ->
    exists new, w_tr w' = new ++ calls L /\ logged ((o, b, new) :: L) w' /\
      (forall e, In e new -> c_inj e = i -> ~ for_slot (given ((o, b, new) :: L)) (slot_name t l) e) /\
      kept i (slot_name t l) ((o, b, new) :: L) = (if drops i (slot_name t l) o b then None else Some x).
  Proof using Type.
    intros Lg Hk Hok E Hb. pose proof (logged_winv _ _ Lg) as W. pose proof (logged_calls _ _ Lg) as Hc.
    pose proof (create_name_colon (indirect t) l) as Hcol. fold (slot_name t l) in Hcol.
    pose proof (logged_kept L w i (slot_name t l) Lg Hcol) as Hk2. rewrite Hk in Hk2.
    destruct (exec_calls fuel w o w' b W Hok E) as (new & T).
    assert (Lg' : logged ((o, b, new) :: L) w') by (econstructor; eassumption).
    exists new. split; [rewrite <- Hc; exact T|]. split; [exact Lg'|].
    assert (Hno : forall e, In e new -> c_inj e = i -> ~ for_slot (given ((o, b, new) :: L)) (slot_name t l) e).
    { intros e He Hi Hs. pose proof (for_slot_name _ w' _ _ (logged_numbered _ _ Lg') Hs) as Hn.
      assert (Hw : forall j n root, weff w w' j n root -> (j = i -> n <> slot_name t l) ->
         (c_prov e = root -> root = List.length (w_prov w) -> p_name (info_of w' root) = n) -> False).
      { intros j n root Ew Hne Hroot. destruct (we_tr _ _ _ _ _ Ew) as (new' & T' & _ & F). rewrite T in T'. apply app_inv_tail in T' as <-.
        destruct (proj1 (Forall_forall _ _) F e He) as (Hj & [(Hr & Hr2 & _)|(V & U & _)]).
        - apply Hne; [congruence|]. rewrite <- (Hroot Hr Hr2), <- Hr. exact Hn.
        - pose proof (visible_lt w j _ _ W V) as Hlt. rewrite (weff_info _ _ _ _ _ _ Ew Hlt) in Hn. rewrite Hn in U.
          assert (j = i) by congruence. subst j. congruence. }
      assert (Hnil : w_tr w' = w_tr w -> False).
      { intros Hx. rewrite Hx in T. apply (app_inv_tail (w_tr w) [] new) in T. subst new. destruct He. }
      pose proof (exec_eff asg call fuel w o w' b W Hok E) as Ef. destruct o as [|j k|j o|j t' l'|j o|j fs|j t' l'].
      - inversion Ef; subst. apply Hnil. reflexivity.
      - inversion Ef; subst. apply Hnil. reflexivity.
      - inversion Ef; subst; apply Hnil; [match goal with P : provided _ _ _ _ |- _ => exact (pv_tr _ _ _ _ P) end|reflexivity].
      - inversion Ef; subst. match goal with X : weff _ _ _ _ _ |- _ => apply (Hw _ _ _ X) end; [intros _ Hx; rewrite <- Hx in Hcol; discriminate Hcol|].
        intros Hr _. exfalso. destruct Hs as (o & Ho & _). cbn [given op_of fst hands] in Ho. rewrite app_nil_r in Ho.
        assert (c_prov e < List.length (given L)) by (apply nth_error_Some; congruence).
        rewrite (numbered_len _ _ (logged_numbered _ _ Lg)) in *. lia.
      - destruct (new_provider o) as [p|] eqn:Hp.
        + inversion Ef; subst; [congruence|]. assert (p0 = p) as -> by congruence.
          destruct (Nat.eq_dec j (c_inj e)) as [->|Hji].
          * destruct (bytes_eq_dec (p_name p) (slot_name t l)) as [Hpn|Hpn].
            -- cbn [exec_op] in E. unfold invoke_op in E. rewrite Hp in E. cbv zeta in E. unfold run_invoke in E. destruct fuel as [|f].
               ++ cbn in E. injection E as _ <-. apply Hb. reflexivity.
               ++ cbn [invoke] in E. rewrite info_new, Hpn in E. change (i_cache (begin (add_prov w p) (c_inj e))) with (j_cache (jget w (c_inj e))) in E.
                  rewrite Hk2 in E. injection E as <- _. apply Hnil. reflexivity.
            -- match goal with X : weff _ _ _ _ _ |- _ => apply (Hw _ _ _ X) end; [intros _; exact Hpn|]. intros _ _.
               match goal with X : weff _ _ _ _ _ |- _ => destruct (we_provs _ _ _ _ _ X) as (ps & Hps & _) end.
               assert (ps = [p]) as ->.
               { cbn [exec_op] in E. unfold invoke_op in E. rewrite Hp in E. cbv zeta in E.
                 destruct (run_invoke asg call (add_prov w p) (c_inj e) fuel (List.length (w_prov w)) (begin (add_prov w p) (c_inj e))) as [[x0|e0| |] s];
                   injection E as <- _; cbn in Hps; apply app_inv_head in Hps; auto. }
               unfold info_of. rewrite Hps, app_nth2, Nat.sub_diag by lia. reflexivity.
          * match goal with X : weff _ _ _ _ _ |- _ => apply (Hw _ _ _ X) end; [intros; contradiction|].
            match goal with X : weff _ _ _ _ _ |- _ => destruct (we_tr _ _ _ _ _ X) as (new' & T' & _ & F) end. rewrite T in T'. apply app_inv_tail in T' as <-.
            exfalso. apply Hji. rewrite <- (proj1 (proj1 (Forall_forall _ _) F e He)). reflexivity.
        + inversion Ef; subst; [apply Hnil; reflexivity|congruence].
      - inversion Ef; subst. match goal with X : weff _ _ _ _ _ |- _ => apply (Hw _ _ _ X) end; [intros _ Hx; rewrite <- Hx in Hcol; discriminate Hcol|].
        intros Hr _. exfalso. destruct Hs as (o & Ho & _). cbn [given op_of fst hands] in Ho. rewrite app_nil_r in Ho.
        assert (c_prov e < List.length (given L)) by (apply nth_error_Some; congruence).
        rewrite (numbered_len _ _ (logged_numbered _ _ Lg)) in *. lia.
      - inversion Ef; subst. apply Hnil. reflexivity. }
    split; [exact Hno|]. cbn [Props_InjectExact.kept]. destruct (drops i (slot_name t l) o b); [reflexivity|]. rewrite Hk.
    assert (Hbn : built (given ((o, b, new) :: L)) i (slot_name t l) new (calls L) = None); [|rewrite Hbn; reflexivity].
    revert Hno. generalize (given ((o, b, new) :: L)). clear. intros G Hno. induction new as [|e new IH]; [reflexivity|].
    cbn [Props_InjectExact.built]. rewrite IH by (intros e' He'; apply Hno; right; exact He').
    destruct (Nat.eqb_spec (c_inj e) i) as [Hi|_]; [|reflexivity].
    specialize (Hno e (or_introl eq_refl) Hi). unfold yielded. destruct (nth_error G (c_prov e)) as [[v typ lab|f ins outs deps typ lab]|] eqn:En; try reflexivity.
    destruct (fills (OFun f ins outs deps typ lab) (slot_name t l)) eqn:Ef; [|rewrite andb_false_r; reflexivity].
    exfalso. apply Hno. exists (OFun f ins outs deps typ lab). auto.
  Qed.

  Lemma results_length g outs : forall i, List.length (results g i outs) = List.length outs.
  Proof using Type. induction outs as [|t outs IH]; intros i; [reflexivity|]. cbn [results List.length]. rewrite IH. reflexivity. Qed.
  Lemma results_nth_from g outs : forall i k t, nth_error outs k = Some t -> nth_error (results g i outs) k = Some (Val t (g (i + k))).
  Proof using Type.
    induction outs as [|t0 outs IH]; intros i [|k] t H; try discriminate; cbn [results nth_error] in *; [injection H as ->; rewrite Nat.add_0_r; reflexivity|].
    rewrite (IH (S i) k t H). rewrite Nat.add_succ_r. reflexivity.
  Qed.
  Lemma results_nth g outs : forall k t, nth_error outs k = Some t -> nth_error (results g 0 outs) k = Some (Val t (g k)).
  Proof using Type. intros k t H. exact (results_nth_from g outs 0 k t H). Qed.
  (** *** C31 *)
  (** a successful Invoke: if the injector keeps values for the slot of f's first result, they are
      returned, and f is not called; otherwise f is called exactly once, last. Then nothing is kept. *)
  Theorem C31_invoke_exact L w i f ins outs deps typ lab fuel w' out :
    logged L w -> i < List.length (w_inj w) ->
    exec fuel w (PInvoke i (OFun f ins outs deps typ lab)) = (w', ROut out) ->
    exists n, slot (OFun f ins outs deps typ lab) = Some n /\
      match (match outs with [] => None | _ => kept i n L end) with
      | Some x => out = x /\ w_tr w' = calls L
      | None => exists args tr g,
          w_tr w' = Called i (List.length (given L)) f args true :: tr ++ calls L /\
          Forall (fun e => c_prov e < List.length (given L)) (tr ++ calls L) /\
          call (tr ++ calls L) f args = Some g /\ List.length out = List.length outs /\ (forall k tk, nth_error outs k = Some tk -> nth_error out k = Some (Val tk (g k)))
      end /\
      (forall new, w_tr w' = new ++ calls L -> outs <> [] -> kept i n ((PInvoke i (OFun f ins outs deps typ lab), ROut out, new) :: L) = None).
  Proof using Type.
    intros Lg Hi E. pose proof (logged_winv _ _ Lg) as W. pose proof (logged_hist _ _ Lg) as H. pose proof (logged_calls _ _ Lg) as Hc.
    rewrite (numbered_len _ _ (logged_numbered _ _ Lg)), <- Hc.
    cbn [exec_op] in E. unfold invoke_op in E. set (o := OFun f ins outs deps typ lab) in *.
    destruct (new_provider o) as [p|] eqn:Hp; [|discriminate]. cbv zeta in E. set (w1 := add_prov w p) in *. set (q := List.length (w_prov w)) in *.
    assert (W1 : winv w1) by (apply add_prov_winv; [exact W|eapply new_provider_ok; exact Hp]).
    assert (Hq : info_of w1 q = p) by apply info_new. destruct (fun_info _ _ _ _ _ _ _ Hp) as (Hk & Hd).
    exists (p_name p). split; [unfold slot; rewrite Hp; reflexivity|]. split.
    2:{ intros new T Ho. cbn [Props_InjectExact.kept drops]. rewrite Nat.eqb_refl, (fills_name _ _ (p_name p) Hp), beq_refl. reflexivity. }
    pose proof (pk_name _ (new_provider_ok _ _ Hp)) as Hn. rewrite Hk in Hn.
    assert (Hcache : (match outs with [] => None | _ => kept i (p_name p) L end) = aget (j_cache (jget w1 i)) (p_name p)).
    { change (jget w1 i) with (jget w i). destruct outs as [|t0 ts].
      - rewrite Hn. destruct (aget (j_cache (jget w i)) []) eqn:Eo; [|reflexivity].
        assert (Hx : aget (j_cache (jget w i)) [] <> None) by congruence. apply (hi_colon _ _ H) in Hx. discriminate.
      - symmetry. apply logged_kept; assumption. }
    rewrite Hcache. destruct (aget (j_cache (jget w1 i)) (p_name p)) as [x|] eqn:Ec.
    - unfold run_invoke in E. destruct fuel as [|f']; [discriminate|]. cbn [invoke] in E. rewrite Hq in E.
      change (i_cache (begin w1 i)) with (j_cache (jget w1 i)) in E. rewrite Ec in E. injection E as <- <-. split; reflexivity.
    - destruct (run_invoke asg call w1 i fuel q (begin w1 i)) as [r s'] eqn:Er.
      destruct (root_run asg call w1 i fuel q r s' W1 Er) as (s1 & n1 & P & _ & Hcase). rewrite Hq in *.
      destruct Hcase as [(_ & _ & Hcase)|(f' & ins' & outs' & args & ok & Hk' & T & _ & Hcase)].
      + exfalso. destruct r as [o'|e| |]; try (injection E as _ E'; discriminate E').
        apply (Hcase Ec) with o'; [|reflexivity]. unfold is_fun. rewrite Hk. reflexivity.
      + rewrite Hk in Hk'. injection Hk' as <- <- <-.
        destruct Hcase as [(_ & -> & _ & _)|(g & -> & Hg & -> & _)]; [injection E as _ E'; discriminate E'|].
        injection E as <- <-. pose proof (po_tr _ _ _ _ _ _ _ _ P) as Ht. cbn [i_tr set_status begin] in Ht.
        change (w_tr w1) with (w_tr w) in Ht. exists args, n1, g. split; [cbn; rewrite T, Ht; reflexivity|]. split.
        * apply Forall_app. split; [|apply Forall_forall; exact (wi_called _ W)].
          eapply Forall_impl; [|exact (po_calls _ _ _ _ _ _ _ _ P)]. intros e G.
          pose proof (gc_look _ _ _ _ _ _ _ G) as GL. unfold w1 in GL. rewrite visible_add in GL. eapply visible_lt; eassumption.
        * split; [rewrite <- Ht; exact Hg|]. split; [apply results_length|exact (results_nth g outs)].
  Qed.

  (** *** C34 *)
  (** Providing for slot [n] on [i] makes [i] answer from the new provider; every other slot
      of [i], and every slot of every other injector, keeps what it keeps. *)
  Theorem C34_provide_exact L w i o n f0 w1 b :
    logged L w -> i < List.length (w_inj w) -> slot o = Some n -> has_colon n = true -> exec f0 w (PProvide i o) = (w1, b) ->
    b = RNone /\ logged ((PProvide i o, b, []) :: L) w1 /\
    nearest (ops ((PProvide i o, b, []) :: L)) i n o /\ kept i n ((PProvide i o, b, []) :: L) = None /\
    (forall j t l, j <> i \/ slot_name t l <> n ->
       forall v vs fuel1 fuel2, kept j (slot_name t l) L = Some (v :: vs) -> j < List.length (w_inj w) ->
       (exists o', nearest (ops L) j (slot_name t l) o') -> (exists o', nearest (ops ((PProvide i o, b, []) :: L)) j (slot_name t l) o') ->
       snd (exec (S fuel1) w (PFind j t l)) = assigned asg v t /\ snd (exec (S fuel2) w1 (PFind j t l)) = assigned asg v t /\
       w_tr (fst (exec (S fuel2) w1 (PFind j t l))) = calls L).
  Proof using Type.
    intros Lg Hi Hs Hcol E. pose proof (logged_winv _ _ Lg) as W. pose proof Hs as Hs'. unfold slot in Hs'.
    destruct (new_provider o) as [p|] eqn:Hp; [|discriminate]. cbn in Hs'. injection Hs' as Hs'.
    destruct (provide_spec w i o p Hi Hp) as (P & S). cbn [exec_op] in E. rewrite E in P, S. cbn [fst snd] in P, S. subst b.
    assert (Hf : fills o n = true) by (rewrite (fills_name _ _ n Hp), Hs'; apply beq_refl).
    assert (Lg1 : logged ((PProvide i o, RNone, []) :: L) w1).
    { apply (lg1 asg call L w (PProvide i o) f0 w1 RNone []); [exact Lg|exact Hi|exact E|discriminate|exact (pv_tr _ _ _ _ P)]. }
    split; [reflexivity|]. split; [exact Lg1|]. split.
    { apply nr_here. cbn. rewrite Nat.eqb_refl, Hf. reflexivity. }
    split; [cbn; rewrite Nat.eqb_refl, Hf; reflexivity|].
    intros j t l Hne v vs fuel1 fuel2 Hk Hj (o1 & Ho1) (o2 & Ho2).
    assert (Hk1 : kept j (slot_name t l) ((PProvide i o, RNone, []) :: L) = Some (v :: vs)).
    { cbn [Props_InjectExact.kept drops Props_InjectExact.built].
      assert (Hx : Nat.eqb i j && fills o (slot_name t l) = false).
      { destruct (Nat.eqb_spec i j) as [<-|]; [|reflexivity]. destruct Hne as [Hne|Hne]; [contradiction|].
        rewrite (fills_name _ _ _ Hp), Hs'. destruct (beq n (slot_name t l)) eqn:Eb; [|reflexivity]. apply beq_true in Eb. congruence. }
      rewrite Hx. exact Hk. }
    assert (Hres : forall L0 w0 o0 fuel, logged L0 w0 -> j < List.length (w_inj w0) -> kept j (slot_name t l) L0 = Some (v :: vs) ->
       nearest (ops L0) j (slot_name t l) o0 ->
       snd (exec (Datatypes.S fuel) w0 (PFind j t l)) = assigned asg v t /\ w_tr (fst (exec (Datatypes.S fuel) w0 (PFind j t l))) = calls L0).
    { intros L0 w0 o0 fuel Lg0 Hj0 Hk0 Ho0. pose proof (logged_winv _ _ Lg0) as W0.
      destruct (nearest_look _ _ W0 (logged_hist _ _ Lg0) j _ _ Hj0 Ho0) as (q & Hl & _).
      destruct (has_find asg call w0 j t l v vs fuel W0) as (w2 & E2 & T).
      { split; [exact Hj0|]. exists q. split; [exact Hl|]. left. rewrite <- Hk0. apply logged_kept; [exact Lg0|apply create_name_colon]. }
      rewrite E2. cbn [fst snd]. split; [reflexivity|]. rewrite T. apply logged_calls. exact Lg0. }
    destruct (Hres L w o1 fuel1 Lg Hj Hk Ho1) as (A & _).
    assert (Hj1 : j < List.length (w_inj w1)) by (rewrite (pv_inv _ _ _ _ P); exact Hj).
    destruct (Hres _ w1 o2 fuel2 Lg1 Hj1 Hk1 Ho2) as (B & C). split; [exact A|]. split; [exact B|]. exact C.
  Qed.
End Log.

(** ** C33 *)
(** two (type, label) pairs share a slot exactly if, pointers aside, the types have
    the same import path and the same name, and the labels are equal *)
Theorem C33_slots_exact t l t' l' :
  ~ In colon (pkg_path (indirect t)) -> ~ In colon (type_name (indirect t)) ->
  ~ In colon (pkg_path (indirect t')) -> ~ In colon (type_name (indirect t')) ->
  slot_name t l = slot_name t' l' <->
  pkg_path (indirect t) = pkg_path (indirect t') /\ type_name (indirect t) = type_name (indirect t') /\ l = l'.
Proof.
  intros A B C D. unfold slot_name, create_name. split.
  - intros E. destruct (cut_colon _ _ _ _ A C E) as (-> & E1). destruct (cut_colon _ _ _ _ B D E1) as (-> & ->). auto.
  - intros (-> & -> & ->). reflexivity.
Qed.
(** the same in full: [stars m t] is *...*t with m stars, [ident t] the import path and the name
    of a type that is no pointer, both empty if it has no name *)
Fixpoint stars (m : nat) (t : rtype) : rtype := match m with 0 => t | S m => TPtr (stars m t) end.
Inductive ident : rtype -> bytes -> bytes -> Prop :=
| id_named : forall p n k, ident (TNamed p n k) p n
| id_literal : forall k, ident (TLit k) [] [].
Theorem C33_pointers_aside m t p n l m' t' p' n' l' : ident t p n -> ident t' p' n' ->
  ~ In colon p -> ~ In colon n -> ~ In colon p' -> ~ In colon n' ->
  slot_name (stars m t) l = slot_name (stars m' t') l' <-> p = p' /\ n = n' /\ l = l'.
Proof.
  intros I I' A B C D. assert (X : forall m t p n, ident t p n -> pkg_path (indirect (stars m t)) = p /\ type_name (indirect (stars m t)) = n).
  { clear. intros m t p n I. induction m as [|m IH]; [destruct I; split; reflexivity|exact IH]. }
  destruct (X m t p n I) as (E1 & E2). destruct (X m' t' p' n' I') as (E1' & E2').
  rewrite C33_slots_exact; rewrite ?E1, ?E2, ?E1', ?E2'; try assumption. reflexivity.
Qed.
Example C33_pointers_example : ident (TNamed (bs "a/b") (bs "T") 0) (bs "a/b") (bs "T") /\ slot_name (stars 2 (TNamed (bs "a/b") (bs "T") 0)) (bs "x") = bs "a/b:T:x".
Proof. split; [constructor|vm_compute; reflexivity]. Qed.
(** with neither path nor name, as all type literals, only the label counts *)
Theorem C33_literals_share k k' l l' : slot_name (TLit k) l = slot_name (TLit k') l' <-> l = l'.
Proof. rewrite C33_slots_exact by (cbn; tauto). cbn. intuition. Qed.

(** ** C95 *)
(** [target 2] are the tagged settable fields within three levels of structs *)
Theorem C95_apply_exact asg call h obs w i fs fuel w' l :
  runs asg call world0 h obs w -> i < List.length (w_inj w) -> exec_op asg call fuel w (PApply i fs) = (w', RApplied l) ->
  (forall path ty lab, target 2 fs path ty lab -> exists v, snd (exec_op asg call 1 w' (PFind i ty lab)) = assigned asg v ty) /\
  (forall path v, In (path, v) l <->
     exists ty lab, target 2 fs path ty lab /\ snd (exec_op asg call 1 w' (PFind i ty lab)) = RVal (ASet v)).
Proof. apply C95_apply_sets_tagged_fields_partial. Qed.

(** ** Witnesses *)
Fixpoint log_all asg call (fuel : nat) (w : world) (L : list entry) (h : list iop) : list entry * world :=
  match h with
  | [] => (L, w)
  | o :: os =>
      let (w1, b) := exec_op asg call fuel w o in
      log_all asg call fuel w1 ((o, b, firstn (List.length (w_tr w1) - List.length (w_tr w)) (w_tr w1)) :: L) os
  end.
Definition the_log h := fst (log_all rt_eqb counting 20 world0 [] h).
Lemma log_all_logged asg call fuel h : forall w L, logged asg call L w -> exec_all asg call fuel w h <> None ->
  logged asg call (fst (log_all asg call fuel w L h)) (snd (log_all asg call fuel w L h)).
Proof.
  induction h as [|o os IH]; intros w L Lg; cbn [log_all exec_all]; [intros _; exact Lg|].
  destruct (op_okb w o) eqn:Hok; [|congruence]. apply op_okb_ok in Hok.
  destruct (exec_op asg call fuel w o) as [w1 b] eqn:E.
  destruct (exec_calls asg call fuel w o w1 b (logged_winv _ _ _ _ Lg) Hok E) as (new & T).
  assert (Hn : firstn (List.length (w_tr w1) - List.length (w_tr w)) (w_tr w1) = new).
  { rewrite T, app_length, Nat.add_sub. rewrite firstn_app, firstn_all, Nat.sub_diag. cbn. apply app_nil_r. }
  rewrite Hn. intros Hx. apply IH.
  - apply (lg1 asg call L w o fuel w1 b new Lg Hok E); [|exact T]. intros ->. congruence.
  - intros Hy. rewrite Hy in Hx. destruct b; congruence.
Qed.
Definition the_end h := snd (log_all rt_eqb counting 20 world0 [] h).
Lemma the_log_logged h : exec_all rt_eqb counting 20 world0 h <> None -> logged rt_eqb counting (the_log h) (the_end h).
Proof. intros H. apply log_all_logged; [apply lg0|exact H]. Qed.
Ltac logging := apply the_log_logged; vm_compute; discriminate.
(** a child builds T with its parent's function, then the parent provides T anew *)
Definition prog26 : list iop :=
  [PNew; PNew; PSetParent 1 0; PProvide 0 (fn 10 [] [tT]); PFind 1 tT []; PFind 0 tT []; PProvide 0 (value tT 77)].
Example C26_exact_example :
  exists w, logged rt_eqb counting (the_log prog26) w /\
    kept counting 1 (slot_name tT []) (the_log prog26) = Some [Val tT (Some 0)] /\
    kept counting 0 (slot_name tT []) (the_log prog26) = None /\
    nearest (ops (the_log prog26)) 1 (slot_name tT []) (value tT 77) /\
    snd (exec_op rt_eqb counting 20 w (PFind 1 tT [])) = RVal (ASet (Val tT (Some 0))) /\
    snd (exec_op rt_eqb counting 20 w (PFind 0 tT [])) = RVal (ASet (Val tT (Some 77))).
Proof.
  exists (the_end prog26). split; [logging|]. split; [vm_compute; reflexivity|]. split; [vm_compute; reflexivity|].
  split; [|split; vm_compute; reflexivity].
  eapply nr_up with (k := 0); [vm_compute; reflexivity|vm_compute; reflexivity|]. apply nr_here. vm_compute. reflexivity.
Qed.
(** kept values, an Invoke that uses them, and one that does not *)
Example C27_C31_exact_example :
  let L := the_log prog31 in let w := the_end prog31 in logged rt_eqb counting L w /\
    kept counting 0 (slot_name tT []) L = Some [Val tT (Some 0)] /\
    snd (exec_op rt_eqb counting 20 w (PInvoke 0 (fn 12 [] [tT]))) = ROut [Val tT (Some 0)] /\
    map c_fun (w_tr (fst (exec_op rt_eqb counting 20 w (PInvoke 0 (fn 12 [] [tT]))))) = [10] /\
    kept counting 0 (slot_name tU []) L = None /\
    snd (exec_op rt_eqb counting 20 w (PInvoke 0 (fn 12 [tT] [tU]))) = ROut [Val tU (Some 1)] /\
    map c_fun (w_tr (fst (exec_op rt_eqb counting 20 w (PInvoke 0 (fn 12 [tT] [tU]))))) = [12; 10].
Proof. cbv zeta. split; [logging|repeat split; vm_compute; reflexivity]. Qed.
Example C34_exact_example :
  exists w, logged rt_eqb counting (the_log (prog31 ++ [PProvide 0 (fn 11 [] [tU]); PFind 0 tU []])) w /\
    kept counting 0 (slot_name tT []) (the_log (prog31 ++ [PProvide 0 (fn 11 [] [tU]); PFind 0 tU []])) = Some [Val tT (Some 0)] /\
    kept counting 0 (slot_name tU []) (the_log (prog31 ++ [PProvide 0 (fn 11 [] [tU]); PFind 0 tU []])) = Some [Val tU (Some 1)] /\
    slot (value tU 5) = Some (slot_name tU []).
Proof.
  exists (the_end (prog31 ++ [PProvide 0 (fn 11 [] [tU]); PFind 0 tU []])). split; [logging|repeat split; vm_compute; reflexivity].
Qed.
Example C33_exact_example : ~ In colon (pkg_path (indirect (TPtr tT))) /\ slot_name (TPtr tT) (bs "a") <> slot_name tU (bs "a").
Proof. split; [vm_compute; intuition discriminate|vm_compute; discriminate]. Qed.

Print Assumptions C26_find_exact.
Print Assumptions C27_kept_exact.
Print Assumptions C31_invoke_exact.
Print Assumptions C34_provide_exact.
Print Assumptions C33_slots_exact.
Print Assumptions C33_literals_share.
Print Assumptions C95_apply_exact.
Print Assumptions C33_pointers_aside.
