(** SetupModel: setting up an application: /repo/config.go:41-58 (newConfig) with app_util.go:346-352 (getEnv),
    app.go:58-64 (ImportConfig), app.go:126-130 (the address of Run), utils/helpers/config.go:46-108 with them,
    utils/helpers/filters.go (LoadClassicFilters), sessions/manager.go:14-46 (NewSessionManager, GC).

    Simplifications:
    - the environment does not change after New;
    - os.Getwd and filepath.Abs of it give [cwd];
    - Mode is a string;
    - of a LoggerOption the functions are kept as one thing ([o_rest]);
    - hooks may only add filters, and are not given a second call (the code has no HookFlagAfterAll call). *)
From Coq Require Import List Ascii String Bool Arith ZArith Lia.
Import ListNotations.
From Verif Require Import GoStr GoTy RouterModel ConvModel ConfigModel.

(** ** Settings *)
(** config.go:34-41 Config, without the Configer *)
Record settings := mkSettings { run_path : bytes; run_mode : bytes; http_addr : bytes; http_port : bytes }.
Section Settings.
  Variable env : bytes -> bytes.                               (* os.Getenv *)
  (** app_util.go:346-352 getEnv *)
  Definition get_env (key def : bytes) : bytes := let value := env key in if is_nil value then def else value.
  (** config.go:43-58 newConfig *)
  Definition new_config (cwd : bytes) : settings :=
    mkSettings (get_env (bs "RUN_PATH") cwd) (get_env (bs "RUN_MODE") (bs "prod")) (get_env (bs "HTTP_ADDR") (bs "127.0.0.1")) (get_env (bs "HTTP_PORT") (bs "3000")).

  Variable F : Type.
  Variable fzero : F.
  Variable parse_float : nat -> bytes -> option F.
  (** Config.Bind of a string variable (ConfigModel) *)
  Definition bind_string (c : conf) (s name : bytes) : res bytes :=
    do x <- ConfigModel.bind env F fzero parse_float (Some c) (VVal F (VStr F s)) name;
    match x with VVal _ (VStr _ s') => Ok s' | _ => Panic end.
  (** app.go:58-64 ImportConfig *)
  Definition import_config (c : conf) (s : settings) : res settings :=
    do p <- bind_string c (run_path s) (bs "run_path");
    do m <- bind_string c (run_mode s) (bs "run_mode");
    do a <- bind_string c (http_addr s) (bs "http_addr");
    do q <- bind_string c (http_port s) (bs "http_port");
    Ok (mkSettings p m a q).
  (** New, then LoadConfigFiles (helpers/config.go:46-108): the run mode in the file names is the one of New *)
  Variable fs : bytes -> file.
  Definition new_and_load (cwd name exe wd dir : bytes) (add : list bytes) (target : fval F) : res (settings * fval F) :=
    let s := new_config cwd in
    do r <- load_config_files env F fzero parse_float fs name (run_mode s) exe wd dir add target;
    let '(c, _, t) := r in
    do s' <- import_config c s;
    Ok (s', t).
  (** app.go:126-130 Run *)
  Definition address (s : settings) : bytes := http_addr s ++ bs ":" ++ http_port s.
End Settings.

(** ** LoadClassicFilters *)
Section Classic.
  Variable R : Type.                                           (* the functions of a LoggerOption *)
  Variable nofuncs : R.
  Record logger_option := mkOpt { o_color : bool; o_line : bool; o_short : bool; o_flat : bool; o_stack : Z; o_rest : R }.
  (** filters; the functions RecoveryFilter and GenericOutFilter return capture nothing and so are always the same, those of
      ReqLoggerFilter are new each time ([inst]) *)
  Inductive filter_ := FRecovery | FReqLogger (inst : nat) (o : logger_option) | FGenericOut | FUser (n : nat).
  Definition same (a b : filter_) : bool :=
    match a, b with
    | FRecovery, FRecovery | FGenericOut, FGenericOut => true
    | FReqLogger i _, FReqLogger j _ => Nat.eqb i j
    | FUser n, FUser m => Nat.eqb n m
    | _, _ => false
    end.
  (** router_filter.go:17-28 append (also RouterModel.fappend), app.go:91-93 Filter *)
  Fixpoint app_filter (h vs : list filter_) : list filter_ :=
    match vs with
    | [] => h
    | f :: vs' => app_filter (if existsb (fun v => same v f) h then h else h ++ [f]) vs'
    end.
  (** an option: a LoggerOption, a HookFunc (the filters it adds, given those there are), or anything else *)
  Inductive option_ := OLogger (o : logger_option) | OHook (h : list filter_ -> list filter_) | OOther.
  (** filters.go:26-37: the loop over the options, with loggerOption and hooks *)
  Fixpoint read_options (os : list option_) (lo : option logger_option) (hs : list (list filter_ -> list filter_)) : res (option logger_option * list (list filter_ -> list filter_)) :=
    match os with
    | [] => Ok (lo, hs)
    | OLogger o :: r => read_options r (Some o) hs
    | OHook h :: r => read_options r lo (hs ++ [h])
    | OOther :: _ => Panic
    end.
  (** filters.go:38-46; strip.LevelCritical is 3 *)
  Definition default_option (mode : bytes) : logger_option :=
    let dev := beq mode (bs "dev") in let prod := beq mode (bs "prod") in
    mkOpt dev true prod prod 3 nofuncs.
  (** filters.go:23-64 *)
  Definition load_classic_filters (mode : bytes) (inst : nat) (os : list option_) (fs : list filter_) : res (list filter_) :=
    do r <- read_options os None [];
    let o := match fst r with Some o => o | None => default_option mode end in
    let fs := app_filter fs [FRecovery] in
    let fs := fold_left (fun fs h => app_filter fs (h fs)) (snd r) fs in
    Ok (app_filter fs [FReqLogger inst o; FGenericOut]).
End Classic.

(** ** Garbage collection of sessions *)
Local Open Scope Z_scope.
Definition minute : Z := 60 * 1000000000.
Definition hour : Z := 60 * minute.
(** manager.go:24-34 *)
Definition gc_interval (intervals : list Z) : Z :=
  match intervals with
  | [] => 0
  | i :: _ => if i <? minute then hour else i
  end.
(** manager.go:24-46 GC at time [t]: the times at which the provider's GC is called. The n-th call takes [dur n]; its timer is
    [late n] late. A negative duration fires the timer at once. *)
Fixpoint gc_start (dur late : nat -> Z) (intervals : list Z) (t : Z) (n : nat) : Z :=
  match n with
  | O => t
  | S n' => gc_start (fun k => dur (S k)) (fun k => late (S k)) [gc_interval intervals] (t + dur O + Z.max 0 (gc_interval intervals) + late O) n'
  end.
(** manager.go:14-22 NewSessionManager *)
Definition new_session_manager (secret : bytes) : res unit := if is_nil secret then Panic else Ok tt.
