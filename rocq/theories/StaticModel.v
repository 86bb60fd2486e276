(** StaticModel: /repo/static-serve/static.go (ServeFilter), with the parts of
    net/http, net/url and path/filepath it relies on.

    The file system is a parameter: [fs i p] is what the i-th open of a request
    finds at the absolute path p (so it may change between two opens), [stat_ok i]
    whether Stat on the file opened by the i-th open succeeds. Symbolic links are
    the file system's business: containment is about the paths given to it.
    Not modelled: the bytes http.ServeContent sends (ranges, caching headers);
    the log lines. Unix separators. *)
From Coq Require Import List Ascii String Bool Arith ZArith Lia.
Import ListNotations.
From Verif Require Import GoStr GoPath GoEnc.

Inductive node := NDir | NFile (content : bytes).

(** what the filter does, in order *)
Inductive sev :=
| EOpen (h : nat) (path : bytes)      (* os.Open succeeded: handle h *)
| EFail (path : bytes)                (* os.Open failed *)
| EClose (h : nat)
| EServe (name : bytes) (h : nat)     (* http.ServeContent(rw, req, name, _, file h) *)
| ERedirect (location : bytes)        (* 302 with this Location *)
| ENotFound.                          (* http.NotFound *)

(** filepath.Abs on a path, given the working directory *)
Definition abs_dir (cwd dir : bytes) : bytes :=
  if has_prefix dir [slash] then path_clean_rooted dir else path_clean_rooted (cwd ++ [slash] ++ dir).
(** http.Dir.Open: filepath.Join(dir, path.Clean("/" + name)) *)
Definition full_name (root name : bytes) : bytes :=
  path_clean_rooted (root ++ [slash] ++ path_clean_rooted (slash :: name)).
(** path.Join(file, "index.html") for a rooted file (request paths that are not
    rooted never get there: they do not end in a slash) *)
Definition join_index (file : bytes) : bytes := path_clean_rooted (file ++ bs "/index.html").

(** strings.TrimRight(s, "/") *)
Fixpoint drop_slashes (s : bytes) : bytes :=
  match s with c :: r => if Ascii.eqb c slash then drop_slashes r else s | [] => [] end.
Definition trim_right_slash (s : bytes) : bytes := rev (drop_slashes (rev s)).
(** static.go:35-43 *)
Definition normalize_prefix (p : bytes) : bytes :=
  match p with
  | [] => []
  | c :: _ => trim_right_slash (if Ascii.eqb c slash then p else slash :: p)
  end.

(** url.URL{Path, RawQuery}.String(): EscapedPath and the query. The "./" put in
    front of a relative path whose first segment has a colon is not modelled. *)
Definition path_keeps (c : ascii) : bool :=
  (unreserved c || existsb (Ascii.eqb c) (bs "$&+,/:;=@"))%bool.
Definition escape_path (s : bytes) : bytes :=
  flat_map (fun c => if path_keeps c then [c] else [("%"%char); hex_upper (code c / 16); hex_upper (code c mod 16)]) s.
Definition url_string (path query : bytes) : bytes :=
  escape_path path ++ (if is_nil query then [] else bs "?" ++ query).

Section Redir.
  (** url.Parse fails on this authority *)
  Variable bad_authority : bytes -> bool.
  (** url.Parse(u): an error, or whether there is a host, for a u without scheme *)
  Definition before (c : ascii) (s : bytes) : bytes := hd [] (split_byte c s).
  Definition parse_host (u : bytes) : option bytes :=
    if (has_prefix u (bs "//") && negb (has_prefix u (bs "///")))%bool then
      let authority := before slash (before "?"%char (skipn 2 u)) in
      if bad_authority authority then None
      else Some (last (split_byte "@"%char authority) [])
    else Some [].
  (** hexEscapeNonASCII: strconv.AppendInt(b, c, 16), so lower case digits *)
  Definition hex_lower (n : nat) : ascii := nth n (bs "0123456789abcdef") "0"%char.
  Definition hex_ascii (s : bytes) : bytes :=
    flat_map (fun c => if Nat.ltb (code c) 128 then [c] else [("%"%char); hex_lower (code c / 16); hex_lower (code c mod 16)]) s.
  (** http.Redirect: the Location header, for a rooted url *)
  Definition location (u : bytes) : bytes :=
    hex_ascii match parse_host u with
    | Some [] =>
        let p := before "?"%char u in
        let query := skipn (List.length p) u in
        let c := path_clean_rooted p in
        (if (has_suffix p [slash] && negb (has_suffix c [slash]))%bool then c ++ [slash] else c) ++ query
    | _ => u
    end.

  (** static.go:14-18 *)
  Record options := Options { any_method : bool; try_files : bytes; skip_prefix : list bytes }.
  (** the request: method, URL.Path, URL.RawQuery *)
  Record request := Request { q_method : bytes; q_path : bytes; q_query : bytes }.

  Variable fs : nat -> bytes -> option node.
  Variable stat_ok : nat -> bool.

  (** static.go:45-62 serveFile with the [i]-th open: the events, and the node if
      it succeeded *)
  Definition serve_file (root : bytes) (i : nat) (file : bytes) : list sev * option node :=
    match fs i (full_name root file) with
    | None => ([EFail (full_name root file)], None)
    | Some n =>
        if stat_ok i then ([EOpen i (full_name root file)], Some n)
        else ([EOpen i (full_name root file); EClose i], None)
    end.

  (** static.go:95-148, from the first open on; [file] is the path behind the
      prefix. Deferred calls run last in, first out: closing the index file,
      closing the first file, then the 404 if err is set. *)
  Definition serve_rest (root : bytes) (opt : options) (rq : request) (file : bytes) : list sev :=
    let (ev, n) := serve_file root 0 file in
    match n with
    | Some NDir =>
        if negb (has_suffix (q_path rq) [slash]) then
          ev ++ [ERedirect (location (url_string (q_path rq ++ [slash]) (q_query rq))); EClose 0]
        else
          let file := join_index file in
          match fs 1 (full_name root file) with
          | None => ev ++ [EFail (full_name root file); EClose 0; ENotFound]
          | Some n1 =>
              let ev := ev ++ [EOpen 1 (full_name root file)] in
              if negb (stat_ok 1) then ev ++ [EClose 1; EClose 0; ENotFound]
              else match n1 with
                   | NDir => ev ++ [EClose 1; EClose 0]
                   | NFile _ => ev ++ [EServe file 1; EClose 1; EClose 0]
                   end
          end
    | Some (NFile _) => ev ++ [EServe file 0; EClose 0]
    | None =>
        if is_nil (try_files opt) then ev ++ [ENotFound] else
        let (ev2, n2) := serve_file root 1 (try_files opt) in
        match n2 with
        | None => ev ++ ev2 ++ [ENotFound]
        | Some _ => ev ++ ev2 ++ [EServe file 1]    (* no deferred Close here *)
        end
    end.

  (** static.go:64-149 the filter, with the guards (66-93) *)
  Definition serve (prefix root : bytes) (opt : options) (rq : request) : list sev :=
    if (negb (any_method opt) && negb (beq (q_method rq) (bs "GET")) && negb (beq (q_method rq) (bs "HEAD")))%bool then [] else
    let file := q_path rq in
    let under :=
      if is_nil prefix then Some file
      else if negb (has_prefix file prefix) then None
      else let rest := skipn (List.length prefix) file in
           match rest with
           | c :: _ => if negb (Ascii.eqb c slash) then None else Some rest
           | [] => Some rest
           end in
    match under with
    | None => []
    | Some file =>
        if existsb (has_prefix file) (skip_prefix opt) then [] else serve_rest root opt rq file
    end.

  (** static.go:21-64 ServeFilter *)
  Definition serve_filter (cwd prefix directory : bytes) (opt : options) (rq : request) : list sev :=
    serve (normalize_prefix prefix) (abs_dir cwd directory) opt rq.
End Redir.
