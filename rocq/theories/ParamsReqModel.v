(** ParamsReqModel: how /repo/params uses the request: which bodies are parsed
    (params.go:44-78), the memory limit ParamsParser remembers (params.go:245-267),
    BindJsonBody (params.go:98-121). *)
From Coq Require Import List Ascii String Bool Arith ZArith Lia.
Import ListNotations.
From Verif Require Import GoStr GoNum RouterModel ParamsModel.

(** ** params.go:49-54, 57-76: the content type *)
Inductive form_kind := FUrlencoded | FMultipart | FOther.
(** req.Header.Get("Content-Type"); strings.ToLower is modelled for ASCII; simplification: a capital I with a dot (U+0130), which Go makes an i too, is left out *)
Definition kind_of (content_type : bytes) : form_kind :=
  let ct := if is_nil content_type then bs "text/html" else to_lower (trim_space (hd [] (split_byte ";"%char content_type))) in
  if beq ct (bs "application/x-www-form-urlencoded") then FUrlencoded
  else if beq ct (bs "multipart/form-data") then FMultipart
  else FOther.
(** what net/http makes of the body when asked: [url] is ParseForm's result, [multi] ParseMultipartForm's, [None] an error *)
Definition body_of (content_type : bytes) (url : option values) (multi : option (values * list (bytes * nat))) : body :=
  match kind_of content_type with FUrlencoded => BUrlencoded url | FMultipart => BMultipart multi | FOther => BOther end.

(** ** params.go:18, 245-267: the limit for multipart bodies *)
Definition default_max : Z := (32 * 2 ^ 20)%Z.
(** ParseParams, params.go:66-70 *)
Definition effective (limit : Z) : Z := if Z.leb limit 0 then default_max else limit.
(** one request in ParamsParser's function. The variable maxMemory belongs to the
    closure and is shared by all requests; every read and write of it is one step
    (64-bit loads and stores). [conf] is what config.Bind stores for this request:
    [None] if there is no such setting. *)
Inductive mpc :=
| MStart                     (* line 260: if maxMemory == 0 *)
| MBind                      (* line 261: config.Bind(&maxMemory, "max_memory") *)
| MCheck                     (* line 262: if maxMemory == 0 *)
| MDefault                   (* line 263 *)
| MPass                      (* line 267: ParseParams(params, maxMemory) *)
| MDone (limit : Z).         (* what ParseParams was called with *)
Definition mstep (conf : option Z) (var : Z) (pc : mpc) : Z * mpc :=
  match pc with
  | MStart => (var, if Z.eqb var 0 then MBind else MPass)
  | MBind => (match conf with Some z => z | None => var end, MCheck)
  | MCheck => (var, if Z.eqb var 0 then MDefault else MPass)
  | MDefault => (default_max, MPass)
  | MPass => (var, MDone var)
  | MDone l => (var, MDone l)
  end.
(** the requests of a program, each with the setting it sees and where it is *)
Record mstate := MSt { m_var : Z; m_req : list (option Z * mpc) }.
Inductive msteps : mstate -> mstate -> Prop :=
| ms_refl : forall s, msteps s s
| ms_new : forall s conf s', msteps (MSt (m_var s) (m_req s ++ [(conf, MStart)])) s' -> msteps s s'
| ms_run : forall v before conf pc after v' pc' s', mstep conf v pc = (v', pc') ->
    msteps (MSt v' (before ++ (conf, pc') :: after)) s' -> msteps (MSt v (before ++ (conf, pc) :: after)) s'.
(** sp.Provide(params.ParamsParser()): the closure, before any request *)
Definition mstart : mstate := MSt 0 [].
(** one request served from start to end *)
Definition mserve (conf : option Z) (var : Z) : Z * Z :=
  if Z.eqb var 0
  then let var := match conf with Some z => z | None => var end in
       let var := if Z.eqb var 0 then default_max else var in (var, var)
  else (var, var).
Fixpoint mserve_all (var : Z) (confs : list (option Z)) : list Z :=
  match confs with [] => [] | c :: cs => let (v, l) := mserve c var in l :: mserve_all v cs end.

(** ** params.go:98-121 BindJsonBody *)
Section Json.
  Variable D E : Type.                                     (* what dest points to; errors *)
  Variable decode : bool -> bytes -> D -> D * option bytes.   (* json.Decoder.Decode, with UseNumber or not: the value afterwards, the error's text *)
  (** the body of the request: what has not been read yet; the read error at its end *)
  Record stream := Str { st_rest : bytes; st_err : option E }.
  Inductive jerr := JRead (e : E) | JDecode (text : bytes).
  (** ioutil.ReadAll *)
  Definition read_all (s : stream) : stream * bytes * option E := (Str [] (st_err s), st_rest s, st_err s).
  Definition bind_json (use_number : list bool) (s : stream) (dest : D) : stream * D * option jerr :=
    let '(s', body, err) := read_all s in
    match err with
    | Some e => (s', dest, Some (JRead e))
    | None =>
        if is_nil body then (s', dest, None) else
        let (dest', derr) := decode (match use_number with b :: _ => b | [] => false end) body dest in
        (s', dest', option_map (fun e => JDecode (bs "decode body err: " ++ e ++ bs ", " ++ (if Nat.ltb 512 (List.length body) then firstn 512 body else body))) derr)
    end.
  (** what can read the body of a request: ParseParams of a form that is read to its end (of a POST, PUT or PATCH), BindJsonBody *)
  Inductive use := UForm | UJson (use_number : list bool).
  Definition use_run (u : use) (s : stream) (dest : D) : stream * D * option jerr :=
    match u with UForm => (fst (fst (read_all s)), dest, None) | UJson un => bind_json un s dest end.
  Fixpoint uses_run (us : list use) (s : stream) (dest : D) : stream * D * list (option jerr) :=
    match us with
    | [] => (s, dest, [])
    | u :: us => let '(s1, d1, r) := use_run u s dest in let '(s2, d2, rs) := uses_run us s1 d1 in (s2, d2, r :: rs)
    end.
End Json.

(** ** params.go:66-77, 245-292: uploaded files *)
(** multipart.FileHeader: the content, or the name of a temporary file *)
Inductive fheader := HMem (content : bytes) | HTmp (name : nat).
(** the temporary directory: names and contents *)
Definition disk := list (nat * bytes).
(** mime/multipart (Go 1.13, the version of go.mod) Reader.ReadForm's treatment of the file
    parts, in the order of the body: a file that still fits in [memory] bytes is kept, any
    other one is written to a new temporary file. Simplification: no write errors. *)
Fixpoint read_files (memory : Z) (fresh : nat) (d : disk) (parts : list (bytes * bytes)) : list (bytes * fheader) * disk :=
  match parts with
  | [] => ([], d)
  | (name, content) :: parts =>
      let n := Z.of_nat (List.length content) in
      if Z.ltb memory n
      then let (hs, d') := read_files memory (S fresh) ((fresh, content) :: d) parts in ((name, HTmp fresh) :: hs, d')
      else let (hs, d') := read_files (memory - n) fresh d parts in ((name, HMem content) :: hs, d')
  end.
(** multipart.Form.RemoveAll *)
Definition remove_all (hs : list (bytes * fheader)) (d : disk) : disk :=
  filter (fun f => negb (existsb (fun h => match snd h with HTmp n => Nat.eqb n (fst f) | HMem _ => false end) hs)) d.
(** what ParamsParser's function leaves: the headers in Params.Files, and the disk after its
    deferred function, which runs when it returns, that is before any handler gets the Params.
    (params.tmpFiles, lines 282-287, is never filled.) *)
Definition provide_files (limit : Z) (fresh : nat) (d : disk) (parts : list (bytes * bytes)) : list (bytes * fheader) * disk :=
  let (hs, d') := read_files (effective limit) fresh d parts in (hs, remove_all hs d').
(** FileHeader.Open and reading it: [None] is an error *)
Definition open_file (d : disk) (h : fheader) : option bytes :=
  match h with
  | HMem c => Some c
  | HTmp n => option_map snd (find (fun f => Nat.eqb (fst f) n) d)
  end.
