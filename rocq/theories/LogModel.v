(** LogModel: /repo/log.go (baseLogger, reqLogger) and newBrush of /repo/app_util.go.

    Modelled: every setter, every level method (the eight [X] and eight [Xf]
    methods differ only in the level they pass), Recover, the level filter,
    parseValues, getPrefix, print, and what reaches LogPrinter.Print.

    Not modelled: unsynchronised concurrent use of one logger; the text made by
    package fmt (a section parameter, any function of the arguments); the call
    stack and the caller position (section parameters, any function of the
    depth); a user prefix parser that itself panics. *)
From Coq Require Import List Ascii String Bool Arith ZArith Lia.
Import ListNotations.
From Verif Require Import GoStr RouterModel.
Local Open Scope Z_scope.

Definition nl : ascii := byte 10.

(** log.go:11-27 *)
Definition LevelEmergency : Z := 1.
Definition LevelAlert : Z := 2.
Definition LevelCritical : Z := 3.
Definition LevelError : Z := 4.
Definition LevelWarning : Z := 5.
Definition LevelNotice : Z := 6.
Definition LevelInformational : Z := 7.
Definition LevelDebug : Z := 8.

(** log.go:172-234: the level each method (and its f variant) passes on *)
Definition methods : list (bytes * Z) :=
  [(bs "Emergency", LevelEmergency); (bs "Alert", LevelAlert); (bs "Critcial", LevelCritical); (bs "Error", LevelError);
   (bs "Warn", LevelWarning); (bs "Notice", LevelNotice); (bs "Info", LevelInformational); (bs "Debug", LevelDebug)].

(** log.go:30-39 DefaultLevelTag, a [9]string: the ninth is empty *)
Definition level_tags : list bytes :=
  [bs "[EMERGENCY]"; bs "[ALERT]"; bs "[CRITCIAL]"; bs "[ERROR]"; bs "[WARN]"; bs "[NOTICE]";
   bs "[INFO]"; bs "[DEBUG]"; []].
(** app_util.go:332-342 newBrush *)
Definition esc : ascii := byte 27.
Definition new_brush (color : string) (text : bytes) : bytes :=
  (esc :: bs "[1;") ++ bs color ++ bs "m" ++ text ++ (esc :: bs "[0m").
(** log.go:41-50 DefaultColors, a [9]brush: the ninth is a nil func and calling it panics *)
Definition colors : list (option (bytes -> bytes)) :=
  map (fun c => Some (new_brush c)) ["37"; "36"; "35"; "31"; "33"; "32"; "34"; "30"]%string ++ [None].

(** a[i] of a Go array: out of range panics *)
Definition arr_get {A} (l : list A) (i : Z) : res A :=
  if (i <? 0) then Panic else match nth_error l (Z.to_nat i) with Some x => Ok x | None => Panic end.

(** log.go:55-59 *)
Record line_opt := LineOpt { o_depth : Z; o_stack : bool; o_hidden : bool }.

Section Log.
  (** any Go value but a LineOpt *)
  Variable V : Type.
  (** one argument of a log call *)
  Inductive arg := AVal (v : V) | AOpt (o : line_opt).
  Variable sprintf : bytes -> list arg -> bytes.     (* fmt.Sprintf *)
  Variable sprintln : list arg -> bytes.             (* fmt.Sprintln *)
  Variable caller : Z -> option (bytes * bytes).     (* runtime.Caller: file, line number as text *)
  Variable stack_text : Z -> bytes.                  (* app_util.go:264 Stack *)

  Definition prefix_parser := list arg -> bytes * list arg.

  (** log.go:106-121 baseLogger; log.go:356-361 reqLogger adds reqPrefix.
      [l_req] is [None] for a baseLogger. *)
  Record logger := Logger {
    l_prefix : bytes; l_level : Z; l_stack : Z; l_color : bool; l_line : bool;
    l_short : bool; l_depth : Z; l_flat : bool; l_parser : option prefix_parser;
    l_req : option bytes
  }.
  (** log.go:125-134 NewLogger *)
  Definition new_logger : logger :=
    Logger [] LevelDebug 0 false false false 4 true None None.
  (** log.go:370 *)
  Definition req_prefix (id : bytes) : bytes := bs "[" ++ id ++ bs "]".
  (** log.go:363-374 NewReqLogger *)
  Definition new_req_logger (id : bytes) : logger :=
    Logger (req_prefix id) LevelDebug 0 false false false 4 true None (Some id).
  (** log.go:380-382 ReqId *)
  Definition req_id (l : logger) : option bytes := l_req l.

  (** log.go:136-138 and log.go:376-378 SetPrefix *)
  Definition set_prefix (l : logger) (p : bytes) : logger :=
    Logger (match l_req l with None => p | Some id => req_prefix id ++ p end)
      (l_level l) (l_stack l) (l_color l) (l_line l) (l_short l) (l_depth l) (l_flat l) (l_parser l) (l_req l).
  (** log.go:140-170 the other setters *)
  Definition set_parser (l : logger) (p : option prefix_parser) : logger :=
    Logger (l_prefix l) (l_level l) (l_stack l) (l_color l) (l_line l) (l_short l) (l_depth l) (l_flat l) p (l_req l).
  Definition set_level (l : logger) (n : Z) : logger :=
    Logger (l_prefix l) n (l_stack l) (l_color l) (l_line l) (l_short l) (l_depth l) (l_flat l) (l_parser l) (l_req l).
  Definition set_color (l : logger) (c : bool) : logger :=
    Logger (l_prefix l) (l_level l) (l_stack l) c (l_line l) (l_short l) (l_depth l) (l_flat l) (l_parser l) (l_req l).
  Definition set_depth (l : logger) (d : Z) : logger :=
    Logger (l_prefix l) (l_level l) (l_stack l) (l_color l) (l_line l) (l_short l) d (l_flat l) (l_parser l) (l_req l).
  Definition set_line (l : logger) (b : bool) : logger :=
    Logger (l_prefix l) (l_level l) (l_stack l) (l_color l) b (l_short l) (l_depth l) (l_flat l) (l_parser l) (l_req l).
  Definition set_short (l : logger) (b : bool) : logger :=
    Logger (l_prefix l) (l_level l) (l_stack l) (l_color l) (l_line l) b (l_depth l) (l_flat l) (l_parser l) (l_req l).
  Definition set_flat (l : logger) (b : bool) : logger :=
    Logger (l_prefix l) (l_level l) (l_stack l) (l_color l) (l_line l) (l_short l) (l_depth l) b (l_parser l) (l_req l).
  Definition set_stack (l : logger) (n : Z) : logger :=
    Logger (l_prefix l) (l_level l) n (l_color l) (l_line l) (l_short l) (l_depth l) (l_flat l) (l_parser l) (l_req l).

  (** log.go:252-263 parseValues: a LineOpt in last position is taken off *)
  Definition parse_values (l : logger) (vs : list arg) : list arg * line_opt :=
    match rev vs with
    | AOpt o :: r => (rev r, LineOpt (o_depth o + l_depth l) (o_stack o) (o_hidden o))
    | _ => (vs, LineOpt (l_depth l) false false)
    end.
  (** log.go:320-328 getPrefix *)
  Definition get_prefix (l : logger) (vs : list arg) : bytes * list arg :=
    match l_parser l with
    | None => (l_prefix l, vs)
    | Some p => let (t, vs') := p vs in (l_prefix l ++ t, vs')
    end.
  (** log.go:330-344 funcCallMsg; [strings.SplitN(file, "/src/", 2)] and its last part *)
  Definition func_call_msg (l : logger) (depth : Z) : bytes :=
    if 0 <? depth then
      match caller depth with
      | Some (file, line) =>
          let file := if l_short l then last (split2_sub file (bs "/src/")) file else file in
          bs "[""" ++ file ++ bs ":" ++ line ++ bs """]"
      | None => []
      end
    else [].
  (** strings.Replace(s, "\n", "\\n", -1) *)
  Definition escape_nl (s : bytes) : bytes :=
    flat_map (fun c => if Ascii.eqb c nl then bs "\n" else [c]) s.
  (** log.go:306-307 *)
  Definition skip_stack (msg : bytes) : bool :=
    ((5 <? Z.of_nat (List.length msg)) && (beq (firstn 5 msg) (bs "PANIC") || beq (firstn 5 msg) (bs "STACK")))%bool.
  (** log.go:312-315 *)
  Definition flatten (l : logger) (s : bytes) : bytes :=
    if l_flat l then escape_nl (trim_suffix s [nl]) else s.
  (** log.go:291-318 print: the argument of out.Print, or a panic *)
  Definition print (l : logger) (level : Z) (prefix msg : bytes) (o : line_opt) : res bytes :=
    do tag <- arr_get level_tags (level - 1);
    let head := tag ++ prefix in
    let head := if (l_line l && negb (o_hidden o))%bool then head ++ func_call_msg l (o_depth o) else head in
    do head <- (if l_color l
                then do c <- arr_get colors (level - 1);
                     match c with Some f => Ok (f head) | None => Panic end
                else Ok head);
    let text := head ++ bs " " ++ msg in
    let text := if (((level <=? l_stack l) || o_stack o) && negb (skip_stack msg))%bool
                then text ++ [nl] ++ stack_text (o_depth o) else text in
    Ok (flatten l text).

  (** log.go:265-276 writef; log.go:278-289 write. [fmt] is the format of an Xf
      method, [None] for an X method. The result: what is passed to Print, if
      anything. [glob] is the package variable GlobalLevel. *)
  Definition write (glob : Z) (l : logger) (level : Z) (fmt : option bytes) (vs : list arg) : res (option bytes) :=
    if ((l_level l <? level) || (glob <? level))%bool then Ok None else
    let (vs, o) := parse_values l vs in
    let (prefix, vs) := get_prefix l vs in
    let msg := match fmt with Some f => sprintf f vs | None => sprintln vs end in
    do t <- print l level prefix msg o;
    Ok (Some t).

  (** log.go:236-250 Recover. [f]: [None] if the function returns, [Some v] if it
      panics with the value v ([inr tt]: panic(nil), seen as nil by recover under
      the go version of go.mod). The result: what is passed to Print, and the
      returned value. *)
  Definition recover (glob : Z) (l : logger) (f : option (V + unit)) (level : option Z)
    : res (option bytes * option V) :=
    match f with
    | None | Some (inr _) => Ok (None, None)
    | Some (inl v) =>
        do t <- (match level with
                 | Some n => write glob l n None [AVal v; AOpt (LineOpt 4 true false)]
                 | None => write glob l LevelError None [AVal v; AOpt (LineOpt 5 true false)]
                 end);
        Ok (t, Some v)
    end.

  (** *** A program using the logger *)
  Inductive lop :=
  | LSetPrefix (p : bytes) | LSetParser (p : option prefix_parser) | LSetLevel (n : Z)
  | LSetColor (b : bool) | LSetDepth (d : Z) | LSetLine (b : bool) | LSetShort (b : bool)
  | LSetFlat (b : bool) | LSetStack (n : Z)
  | LSetGlobal (n : Z)                                    (* GlobalLevel = n *)
  | LLog (level : Z) (fmt : option bytes) (vs : list arg)
  | LRecover (f : option (V + unit)) (level : option Z).

  (** one call: the new logger and GlobalLevel, and what is passed to Print.
      A call that panics leaves the logger as it was. *)
  Definition lstep (st : logger * Z) (o : lop) : (logger * Z) * res (option bytes) :=
    let (l, g) := st in
    match o with
    | LSetPrefix p => (set_prefix l p, g, Ok None)
    | LSetParser p => (set_parser l p, g, Ok None)
    | LSetLevel n => (set_level l n, g, Ok None)
    | LSetColor b => (set_color l b, g, Ok None)
    | LSetDepth d => (set_depth l d, g, Ok None)
    | LSetLine b => (set_line l b, g, Ok None)
    | LSetShort b => (set_short l b, g, Ok None)
    | LSetFlat b => (set_flat l b, g, Ok None)
    | LSetStack n => (set_stack l n, g, Ok None)
    | LSetGlobal n => (l, n, Ok None)
    | LLog level fmt vs => (l, g, write g l level fmt vs)
    | LRecover f level => (l, g, match recover g l f level with Ok (t, _) => Ok t | Panic => Panic end)
    end.
  (** a history, and what each of its calls did *)
  Fixpoint lrun (st : logger * Z) (os : list lop) : (logger * Z) * list (res (option bytes)) :=
    match os with
    | [] => (st, [])
    | o :: os => let (st, r) := lstep st o in let (st', rs) := lrun st os in (st', r :: rs)
    end.
End Log.

Arguments AVal {V}. Arguments AOpt {V}.
