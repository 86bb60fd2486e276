(** Props_Setup: C145-C147, about setting up an application. *)
From Coq Require Import List Ascii String Bool Arith ZArith Lia.
Import ListNotations.
From Verif Require Import GoStr GoPath GoTy GoNum RouterModel ConvModel ConvFacts ConfigModel Props_Config Props_ConfigFind SetupModel.

(** ** C145: the effective settings *)
Section Settings.
  Variable env : bytes -> bytes.
  Variable F : Type.
  Variable fzero : F.
  Variable parse_float : nat -> bytes -> option F.
  Variable fs : bytes -> file.
  Notation new_and_load := (new_and_load env F fzero parse_float fs).

  Lemma bind_string_eq c s name : bind_string env F fzero parse_float c s name = Ok (match conf_find env c name with [] => s | v => v end).
  Proof. unfold bind_string, ConfigModel.bind, app_find. destruct (conf_find env c name) as [|x v] eqn:E; reflexivity. Qed.
  Lemma plain_name name : ~ In ":"%char name -> means name [] name.
  Proof. intros H. apply m_key. intros a b E. apply H. rewrite E. apply in_app_iff. right. left. reflexivity. Qed.
  Ltac no_colon := let X := fresh in intros X; vm_compute in X; repeat destruct X as [X|X]; try discriminate X; exact X.

  (** the first of these that is not empty: the environment variable, the config files' values from the last file on, the default *)
  Definition effective (files : list data) (var key def : bytes) : bytes :=
    first_nonempty ([env var] ++ map (fun d => value d (bs "default") key) (rev files) ++ [def]).
  Lemma fn_app a b : first_nonempty (a ++ b) = match first_nonempty a with [] => first_nonempty b | v => v end.
  Proof. induction a as [|[|x v] a IH]; cbn; [reflexivity|exact IH|reflexivity]. Qed.
  Lemma fn_one v : first_nonempty [v] = v.
  Proof. destruct v; reflexivity. Qed.
  (** After New and LoadConfigFiles every setting is the environment's, else that of the last config file that has one, else
      the default. Which files are read depends on the environment's RUN_MODE (else prod), not on a run_mode in the files. *)
  Theorem C145_effective_settings : forall cwd name exe wd dir add target s t,
    new_and_load cwd name exe wd dir add target = Ok (s, t) ->
    let mode := match env (bs "RUN_MODE") with [] => bs "prod" | m => m end in
    let files := contents fs (tried (standard_files name mode (dirs_of exe wd dir)) add) in
    run_path s = effective files (bs "RUN_PATH") (bs "run_path") cwd /\
    run_mode s = effective files (bs "RUN_MODE") (bs "run_mode") (bs "prod") /\
    http_addr s = effective files (bs "HTTP_ADDR") (bs "http_addr") (bs "127.0.0.1") /\
    http_port s = effective files (bs "HTTP_PORT") (bs "http_port") (bs "3000") /\
    address s = http_addr s ++ bs ":" ++ http_port s.
  Proof.
    intros cwd name exe wd dir add target s t H mode files. unfold SetupModel.new_and_load in H.
    assert (Hm : run_mode (new_config env cwd) = mode) by (unfold new_config, get_env, mode; cbn [run_mode]; destruct (env (bs "RUN_MODE")); reflexivity).
    rewrite Hm in H. destruct (load_config_files env F fzero parse_float fs name mode exe wd dir add target) as [[[c errs] t']|] eqn:El; [|discriminate]. cbn [RouterModel.bind] in H.
    assert (Fi : forall key, ~ In ":"%char key -> key <> [] -> conf_find env c key = first_nonempty (env (env_key [] key) :: map (fun d => value d (bs "default") key) (rev files))).
    { intros key H1 H2. destruct (C62_later_files_win env F fzero parse_float fs name mode exe wd dir add target c errs t' key [] key El (plain_name key H1) H2) as (E & _). exact E. }
    unfold import_config in H. rewrite !bind_string_eq in H. cbn [RouterModel.bind] in H. injection H as <- _. cbn [run_path run_mode http_addr http_port].
    assert (G : forall var key def, ~ In ":"%char key -> key <> [] -> env_key [] key = var -> match conf_find env c key with [] => get_env env var def | v => v end = effective files var key def).
    { intros var key def H1 H2 H3. rewrite (Fi key H1 H2), H3. unfold effective. cbn [List.app first_nonempty]. unfold get_env. destruct (env var) as [|x v]; [|reflexivity]. cbn [is_nil]. rewrite fn_app, fn_one. destruct (first_nonempty _); reflexivity. }
    unfold new_config. cbn [run_path run_mode http_addr http_port]. split; [apply G; [no_colon|discriminate|vm_compute; reflexivity]|]. split; [apply G; [no_colon|discriminate|vm_compute; reflexivity]|].
    split; [apply G; [no_colon|discriminate|vm_compute; reflexivity]|]. split; [apply G; [no_colon|discriminate|vm_compute; reflexivity]|reflexivity].
  Qed.
End Settings.
(** a run_mode given in a file does not choose the files *)
Theorem C145_mode_from_file_refuted : exists fs s t,
  new_and_load (fun _ => []) unit tt (fun _ _ => None) fs (bs "/w") (bs "web") (bs "/e") (bs "/w") [] [] (FStruct unit []) = Ok (s, t) /\
  run_mode s = bs "dev" /\ fs (bs "/w/web.dev.ini") = FText (bs "http_port = 8080") /\ http_port s = bs "3000".
Proof.
  exists (fun p => if beq p (bs "/w/default.ini") then FText (bs "run_mode = dev") else if beq p (bs "/w/web.dev.ini") then FText (bs "http_port = 8080") else FMissing).
  eexists. eexists. split; [vm_compute; reflexivity|]. repeat split; vm_compute; reflexivity.
Qed.
Definition ex_fs (p : bytes) : file :=
  if beq p (bs "/w/default.ini") then FText (bs "http_port = 1
http_addr = a") else if beq p (bs "/w/web.prod.ini") then FText (bs "http_port = 2") else FMissing.
Definition ex_env (n : bytes) : bytes := if beq n (bs "RUN_PATH") then bs "/srv" else [].
Example C145_case : exists t, new_and_load ex_env unit tt (fun _ _ => None) ex_fs (bs "/w") (bs "web") (bs "/e") (bs "/w") [] [] (FStruct unit []) = Ok (mkSettings (bs "/srv") (bs "prod") (bs "a") (bs "2"), t).
Proof. eexists. vm_compute. reflexivity. Qed.

(** ** C146: the classic filters *)
Section Classic.
  Variable R : Type.
  Variable nofuncs : R.
  Notation load := (load_classic_filters R nofuncs).
  Notation filter_ := (filter_ R).
  Definition hooks_of (os : list (option_ R)) : list (list filter_ -> list filter_) := flat_map (fun o => match o with OHook _ h => [h] | _ => [] end) os.
  Definition options_of (os : list (option_ R)) : list (logger_option R) := flat_map (fun o => match o with OLogger _ l => [l] | _ => [] end) os.
  Lemma read_ok os : ~ In (OOther R) os -> forall lo hs, read_options R os lo hs = Ok (match rev (options_of os) with o :: _ => Some o | [] => lo end, hs ++ hooks_of os).
  Proof.
    induction os as [|o os IH]; intros H lo hs; [cbn; rewrite app_nil_r; reflexivity|]. cbn [In] in H. assert (Hs : ~ In (OOther R) os) by tauto.
    destruct o as [l|h|]; [| |exfalso; apply H; left; reflexivity]; cbn [read_options].
    - rewrite (IH Hs). unfold options_of, hooks_of. cbn [flat_map List.app rev]. fold (options_of os). destruct (rev (options_of os)); reflexivity.
    - rewrite (IH Hs). unfold options_of, hooks_of. cbn [flat_map List.app]. rewrite <- app_assoc. reflexivity.
  Qed.
  Lemma read_panic os : In (OOther R) os -> forall lo hs, read_options R os lo hs = Panic.
  Proof.
    induction os as [|o os IH]; intros H lo hs; [destruct H|]. destruct H as [->|H]; [reflexivity|]. destruct o; cbn [read_options]; [apply IH; exact H|apply IH; exact H|reflexivity].
  Qed.
  (** An option of another type panics before any filter is added. *)
  Theorem C146_other_options_panic : forall mode inst os fs, load mode inst os fs = Panic <-> In (OOther R) os.
  Proof.
    intros mode inst os fs. unfold load_classic_filters. split.
    - intros H.
      assert (D : {In (OOther R) os} + {~ In (OOther R) os}).
      { clear. induction os as [|o os [IH|IH]]; [right; intros []|left; right; exact IH|]. destruct o as [l|h|]; [right; intros [X|X]; [discriminate X|exact (IH X)]|right; intros [X|X]; [discriminate X|exact (IH X)]|left; left; reflexivity]. }
      destruct D as [D|D]; [exact D|]. rewrite (read_ok os D) in H. discriminate H.
    - intros H. rewrite (read_panic os H). reflexivity.
  Qed.
  (** the filters after the hooks ran, in the order given, each once *)
  Inductive hooked : list (list filter_ -> list filter_) -> list filter_ -> list filter_ -> Prop :=
  | hk_nil fs : hooked [] fs fs
  | hk_cons h hs fs ns fs' : h fs = ns -> hooked hs (fs ++ ns) fs' -> hooked (h :: hs) fs fs'.
  (** a hook that adds only the program's own filters, none twice *)
  Definition is_user (f : filter_) : Prop := exists n, f = FUser R n.
  Definition clean (hs : list (list filter_ -> list filter_)) : Prop :=
    Forall (fun h => forall fs, Forall is_user (h fs) /\ NoDup (h fs) /\ forall f, In f (h fs) -> ~ In f fs) hs.
  Lemma same_user f g : is_user f -> (same R g f = true <-> g = f).
  Proof. intros (n & ->). destruct g; cbn; try (split; discriminate). rewrite Nat.eqb_eq. split; congruence. Qed.
  Lemma append_users ns : Forall is_user ns -> NoDup ns -> forall fs, (forall f, In f ns -> ~ In f fs) -> app_filter R fs ns = fs ++ ns.
  Proof.
    induction 1 as [|f ns Hf _ IH]; intros Hn fs Hd; [cbn; rewrite app_nil_r; reflexivity|]. inversion Hn as [|? ? Hin Hn']; subst. cbn [app_filter].
    replace (existsb (fun v => same R v f) fs) with false.
    - rewrite (IH Hn'); [rewrite <- app_assoc; reflexivity|]. intros g Hg X. apply in_app_iff in X as [X|[<-|[]]]; [exact (Hd g (or_intror Hg) X)|exact (Hin Hg)].
    - symmetry. destruct (existsb _ fs) eqn:E; [|reflexivity]. apply existsb_exists in E as (g & Hg & E). apply same_user in E; [|exact Hf]. subst g. exfalso. exact (Hd f (or_introl eq_refl) Hg).
  Qed.
  (** On a fresh application: recovery is first, then come the hooks' filters, then the request log with the last LoggerOption
      given (else coloured in dev, short and flat lines in prod, stacks from critical on), then the generic output. *)
  Theorem C146_classic_filters : forall mode inst os, ~ In (OOther R) os -> clean (hooks_of os) -> exists users,
    hooked (hooks_of os) [FRecovery R] (FRecovery R :: users) /\ Forall is_user users /\
    load mode inst os [] = Ok (FRecovery R :: users ++
      [FReqLogger R inst (match rev (options_of os) with o :: _ => o | [] => mkOpt R (beq mode (bs "dev")) true (beq mode (bs "prod")) (beq mode (bs "prod")) 3 nofuncs end); FGenericOut R]).
  Proof.
    intros mode inst os Ho Hc. unfold load_classic_filters. rewrite (read_ok os Ho). cbn [RouterModel.bind fst snd List.app].
    replace (app_filter R [] [FRecovery R]) with [FRecovery R] by reflexivity.
    assert (G : forall hs, clean hs -> forall us, Forall is_user us -> exists us', hooked hs (FRecovery R :: us) (FRecovery R :: us') /\ Forall is_user us' /\ fold_left (fun fs h => app_filter R fs (h fs)) hs (FRecovery R :: us) = FRecovery R :: us').
    { induction hs as [|h hs IH]; intros C us U; [exists us; split; [constructor|auto]|]. inversion C as [|? ? Ch C']; subst. destruct (Ch (FRecovery R :: us)) as (H1 & H2 & H3). cbn [fold_left]. rewrite (append_users _ H1 H2 _ H3). cbn [List.app].
      destruct (IH C' (us ++ h (FRecovery R :: us))) as (us' & K1 & K2 & K3); [apply Forall_app; auto|]. exists us'. split; [econstructor; [reflexivity|exact K1]|auto]. }
    destruct (G (hooks_of os) Hc [] (Forall_nil _)) as (us & K1 & K2 & K3). exists us. split; [exact K1|]. split; [exact K2|]. rewrite K3.
    set (o := match match rev (options_of os) with [] => None | o :: _ => Some o end with Some o => o | None => _ end).
    assert (Eo : o = match rev (options_of os) with [] => mkOpt R (beq mode (bs "dev")) true (beq mode (bs "prod")) (beq mode (bs "prod")) 3 nofuncs | o :: _ => o end) by (unfold o, default_option; destruct (rev (options_of os)); reflexivity).
    rewrite <- Eo. clearbody o. f_equal. cbn [app_filter existsb same].
    assert (N : forall f, (forall n, same R (FUser R n) f = false) -> existsb (fun v => same R v f) us = false).
    { intros f Hf. clear - K2 Hf. induction K2 as [|u us (n & ->) _ IH]; [reflexivity|]. cbn [existsb]. rewrite Hf, IH. reflexivity. }
    rewrite (N (FReqLogger R inst o)) by reflexivity. cbn [orb List.app existsb same]. rewrite existsb_app. cbn [existsb same orb]. rewrite (N (FGenericOut R)) by reflexivity. cbn [orb]. rewrite <- app_assoc. reflexivity.
  Qed.
  (** On an application that has filters already (and no hooks given): what is there stays first, recovery and the generic output
      come only if they are not there yet, the request log always comes *)
  Theorem C146_on_a_used_application : forall mode inst fs, (forall o, ~ In (FReqLogger R inst o) fs) -> exists rec out,
    load mode inst [] fs = Ok (fs ++ rec ++ [FReqLogger R inst (mkOpt R (beq mode (bs "dev")) true (beq mode (bs "prod")) (beq mode (bs "prod")) 3 nofuncs)] ++ out) /\
    (In (FRecovery R) fs -> rec = []) /\ (~ In (FRecovery R) fs -> rec = [FRecovery R]) /\
    (In (FGenericOut R) fs -> out = []) /\ (~ In (FGenericOut R) fs -> out = [FGenericOut R]).
  Proof.
    intros mode inst fs Hl. unfold load_classic_filters. cbn [read_options RouterModel.bind fst snd fold_left].
    change (default_option R nofuncs mode) with (mkOpt R (beq mode (bs "dev")) true (beq mode (bs "prod")) (beq mode (bs "prod")) 3 nofuncs).
    set (o := mkOpt R _ _ _ _ _ _). clearbody o.
    assert (P : forall f g, (g = FRecovery R \/ g = FGenericOut R) -> (same R f g = true <-> f = g)).
    { intros f g [-> | ->]; destruct f; cbn; split; congruence. }
    assert (Q : forall l g, (g = FRecovery R \/ g = FGenericOut R) -> (existsb (fun v => same R v g) l = true <-> In g l)).
    { intros l g Hg. rewrite existsb_exists. split; [intros (x & Hx & E); apply (P x g Hg) in E; subst; exact Hx|intros X; exists g; split; [exact X|apply (P g g Hg); reflexivity]]. }
    assert (NL : forall l, (forall o', ~ In (FReqLogger R inst o') l) -> existsb (fun v => same R v (FReqLogger R inst o)) l = false).
    { intros l H. destruct (existsb _ l) eqn:E; [|reflexivity]. exfalso. apply existsb_exists in E as (x & Hx & E). destruct x; cbn in E; try discriminate. apply Nat.eqb_eq in E. subst. exact (H _ Hx). }
    cbn [app_filter].
    set (rec := if existsb (fun v => same R v (FRecovery R)) fs then [] else [FRecovery R]).
    replace (if existsb (fun v => same R v (FRecovery R)) fs then fs else fs ++ [FRecovery R]) with (fs ++ rec) by (unfold rec; destruct (existsb _ fs); [apply app_nil_r|reflexivity]).
    assert (Hr : forall x, In x rec -> x = FRecovery R) by (unfold rec; destruct (existsb _ fs); cbn; intuition congruence).
    rewrite NL; [|intros o' X; apply in_app_iff in X as [X|X]; [exact (Hl o' X)|apply Hr in X; discriminate]].
    exists rec, (if existsb (fun v => same R v (FGenericOut R)) fs then [] else [FGenericOut R]).
    pose proof (Q fs (FRecovery R) (or_introl eq_refl)) as Q1. pose proof (Q fs (FGenericOut R) (or_intror eq_refl)) as Q2.
    assert (E2 : existsb (fun v => same R v (FGenericOut R)) ((fs ++ rec) ++ [FReqLogger R inst o]) = existsb (fun v => same R v (FGenericOut R)) fs).
    { rewrite !existsb_app. cbn. replace (existsb (fun v => same R v (FGenericOut R)) rec) with false by (unfold rec; destruct (existsb (fun v => same R v (FRecovery R)) fs); reflexivity). rewrite !orb_false_r. reflexivity. }
    rewrite E2. split; [f_equal; destruct (existsb (fun v => same R v (FGenericOut R)) fs); rewrite <- ?app_assoc, ?app_nil_r; reflexivity|].
    unfold rec. split; [|split; [|split]]; intros H.
    - apply Q1 in H. rewrite H. reflexivity.
    - destruct (existsb _ fs) eqn:E; [exfalso; apply H, Q1; reflexivity|reflexivity].
    - apply Q2 in H. rewrite H. reflexivity.
    - destruct (existsb (fun v => same R v (FGenericOut R)) fs) eqn:E; [exfalso; apply H, Q2; reflexivity|reflexivity].
  Qed.
  (** loading them again adds a second request log, behind the generic output *)
  Theorem C146_again_adds_nothing_refuted : forall mode i j, i <> j -> exists fs o, load mode i [] [] = Ok fs /\ load mode j [] fs = Ok (fs ++ [FReqLogger R j o]).
  Proof. intros mode i j H. eexists. eexists. split; [reflexivity|]. unfold load_classic_filters. cbn. apply Nat.eqb_neq in H. rewrite H. reflexivity. Qed.
End Classic.
Example C146_case : clean unit (hooks_of unit [OHook unit (fun fs => if existsb (fun v => same unit v (FUser unit 5)) fs then [] else [FUser unit 5])]) /\
  load_classic_filters unit tt (bs "dev") 0 [OHook unit (fun fs => if existsb (fun v => same unit v (FUser unit 5)) fs then [] else [FUser unit 5])] [] = Ok [FRecovery unit; FUser unit 5; FReqLogger unit 0 (mkOpt unit true true false false 3 tt); FGenericOut unit].
Proof.
  split; [|vm_compute; reflexivity]. constructor; [|constructor]. intros fs. destruct (existsb _ fs) eqn:E; [repeat split; [constructor|constructor|intros f []]|]. repeat split; [repeat constructor; exists 5; reflexivity|repeat constructor; intros []|].
  intros f [<-|[]] X. assert (Y : existsb (fun v => same unit v (FUser unit 5)) fs = true) by (apply existsb_exists; exists (FUser unit 5); split; [exact X|reflexivity]). congruence.
Qed.

(** ** C147: when sessions are collected *)
Local Open Scope Z_scope.
(** the pause after the n-th collection *)
Definition pause (intervals : list Z) (n : nat) : Z :=
  match intervals with
  | [] => match n with O => 0 | S _ => 60 * 60 * 1000000000 end
  | i :: _ => if i <? 60 * 1000000000 then 60 * 60 * 1000000000 else i
  end.
Lemma pause_ok ivs n : pause [gc_interval ivs] n = pause ivs (S n).
Proof.
  destruct ivs as [|i ivs]; [reflexivity|]. unfold gc_interval, pause, hour, minute. destruct (Z.ltb_spec i (60 * 1000000000)).
  - reflexivity.
  - destruct (Z.ltb_spec i (60 * 1000000000)); [lia|reflexivity].
Qed.
Lemma pause_first ivs : Z.max 0 (gc_interval ivs) = pause ivs 0.
Proof. destruct ivs as [|i ivs]; [reflexivity|]. unfold gc_interval, pause, hour, minute. destruct (Z.ltb_spec i (60 * 1000000000)); lia. Qed.
(** Once GC was called the provider is collected for ever: the (n+1)-th collection begins the pause after the n-th one ended (and
    as late as the timer is). Without an interval there are two collections at once, then one an hour; an interval under a
    minute counts as an hour. *)
Theorem C147_gc_schedule : forall dur late ivs t n, gc_start dur late ivs t 0 = t /\ gc_start dur late ivs t (S n) = gc_start dur late ivs t n + dur n + pause ivs n + late n.
Proof.
  intros dur late ivs t n. split; [reflexivity|]. revert dur late ivs t. induction n as [|n IH]; intros dur late ivs t.
  - cbn [gc_start]. rewrite pause_first. reflexivity.
  - change (gc_start dur late ivs t (S (S n))) with (gc_start (fun k => dur (S k)) (fun k => late (S k)) [gc_interval ivs] (t + dur O + Z.max 0 (gc_interval ivs) + late O) (S n)).
    rewrite IH. rewrite pause_ok. reflexivity.
Qed.
(** The interval given is not used when it is under a minute *)
Theorem C147_interval_used_refuted : gc_start (fun _ => 0) (fun _ => 0) [30 * 1000000000] 0 1 = 60 * 60 * 1000000000.
Proof. vm_compute. reflexivity. Qed.
Example C147_case : map (gc_start (fun _ => 0) (fun _ => 0) [] 0) [0; 1; 2; 3]%nat = [0; 0; 3600 * 1000000000; 7200 * 1000000000].
Proof. vm_compute. reflexivity. Qed.
Theorem C147_no_secret_no_manager : forall secret, new_session_manager secret = Panic <-> secret = [].
Proof. intros [|c s]; cbn; split; congruence. Qed.

Print Assumptions C145_effective_settings.
Print Assumptions C145_mode_from_file_refuted.
Print Assumptions C146_other_options_panic.
Print Assumptions C146_classic_filters.
Print Assumptions C146_again_adds_nothing_refuted.
Print Assumptions C147_gc_schedule.
Print Assumptions C147_interval_used_refuted.
Print Assumptions C147_no_secret_no_manager.
Print Assumptions C146_on_a_used_application.
