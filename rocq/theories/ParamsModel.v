(** ParamsModel: /repo/params/params.go, binder.go and real.go.

    Simplifications:
    - a request is given by what net/http parses from it: the query values, the outcome of
      parsing the body; a map is a list of its entries with distinct keys;
    - types are finite (no recursive struct types), a named type is its underlying type,
      struct fields are not promoted from embedded structs in bindStruct (EmbedModel is about that);
    - TypeBinders, KindBinders and TimeFormats are as the package initialises them, the
      formats being a parameter;
    - floats, times and the JSON form of maps are given by parameters;
    - memory is unlimited: a slice can have every length an int can hold;
    - embedded pointers of BindValuesToStruct are distinct and not cyclic. *)
From Coq Require Import List Ascii String Bool Arith ZArith Lia Permutation.
Import ListNotations.
From Verif Require Import GoStr GoNum RouterModel ConvModel.

Definition values := list (bytes * list bytes).                (* url.Values *)

(** ** params.go:44-78, 212-243: ParseParams, calcValues *)
(** lines 233-241: append(values[k], v...) for every entry *)
Definition add_all (into from : values) : values :=
  fold_left (fun m kv => aset m (fst kv) (match aget m (fst kv) with Some l => l | None => [] end ++ snd kv)) from into.
Definition calc_values (query route form : values) : values :=
  let n := List.length query + List.length route + List.length form in
  if Nat.eqb n 0 then [] else
  if Nat.eqb n (List.length query) then query else
  if Nat.eqb n (List.length route) then route else
  if Nat.eqb n (List.length form) then form else
  add_all (add_all (add_all [] query) route) form.
(** the request: query, body by content type; None is a parse error *)
Inductive body :=
| BUrlencoded (posted : option values)         (* what the body of a POST, PUT or PATCH holds *)
| BMultipart (posted : option (values * list (bytes * nat)))   (* values and numbers of files *)
| BOther.
(** net/http ParseForm: req.Form is the body's values followed by the query's *)
Definition http_form (posted query : values) : values := add_all (add_all [] posted) query.
(** None: an error; Values stays nil. [query_ok]: req.ParseForm also reports a malformed query *)
Definition parse_params (query route : values) (query_ok : bool) (b : body) : option (values * list (bytes * nat)) :=
  match b with
  | BUrlencoded None => None
  | BUrlencoded (Some posted) => if query_ok then Some (calc_values query route (http_form posted query), []) else None
  | BMultipart None => None
  | BMultipart (Some (posted, files)) => if query_ok then Some (calc_values query route posted, files) else None
  | BOther => Some (calc_values query route [], [])
  end.

(** ** binder.go *)
Inductive pty :=
| PBool | PInt (w : nat) | PUint (w : nat) | PFloat (w : nat) | PString | PTime
| PSlice (e : pty) | PPtr (e : pty) | PMap (k e : pty) | POther
| PStruct (fs : list (bytes * bool * pty)).    (* name, settable, type *)

Record params := mkParams { p_vals : values; p_files : list (bytes * nat) }.

Section Binder.
  Variable F T : Type.
  Variable fzero : F.
  Variable tzero : T.
  Variable parse_float : bytes -> option F.
  Variable round_float : nat -> F -> F.                         (* SetFloat on a float32 *)
  Variable formats : list bytes.                                (* TimeFormats *)
  Variable parse_zone parse_local : bytes -> bytes -> option T. (* time.Parse, ParseInLocation *)
  Variable unix : Z -> T.
  Variable json_map : bytes -> list (bytes * bytes).            (* keys and printed values; [] on errors *)

  Inductive pval :=
  | PVBool (b : bool) | PVInt (z : Z) | PVUint (z : Z) | PVFloat (f : F) | PVStr (s : bytes) | PVTime (t : T)
  | PVNilSlice | PVSlice (l : list pval) | PVNil | PVPtr (v : pval) | PVNilMap | PVMap (m : list (pval * pval)) | PVOther
  | PVStruct (fs : list pval).

  (** reflect.Zero *)
  Fixpoint pzero (t : pty) : pval :=
    match t with
    | PBool => PVBool false | PInt _ => PVInt 0 | PUint _ => PVUint 0 | PFloat _ => PVFloat fzero | PString => PVStr [] | PTime => PVTime tzero
    | PSlice _ => PVNilSlice | PPtr _ => PVNil | PMap _ _ => PVNilMap | POther => PVOther
    | PStruct fs => PVStruct (map (fun f => pzero (snd f)) fs)
    end.

  (** two's complement: SetInt and SetUint keep the low bits *)
  Definition wrap_int (w : nat) (z : Z) : Z := ((z + 2 ^ (Z.of_nat w - 1)) mod 2 ^ Z.of_nat w - 2 ^ (Z.of_nat w - 1))%Z.
  Definition wrap_uint (w : nat) (z : Z) : Z := (z mod 2 ^ Z.of_nat w)%Z.
  (** binder.go:64-77 *)
  Definition bind_int (w : nat) (v : bytes) : pval :=
    if is_nil v then PVInt 0 else match parse_int 64 v with (z, None) => PVInt (wrap_int w z) | _ => PVInt 0 end.
  (** binder.go:79-92 *)
  Definition bind_uint (w : nat) (v : bytes) : pval :=
    if is_nil v then PVUint 0 else match parse_uint 64 v with (z, None) => PVUint (wrap_uint w z) | _ => PVUint 0 end.
  (** binder.go:94-107 *)
  Definition bind_float (w : nat) (v : bytes) : pval :=
    if is_nil v then PVFloat fzero else match parse_float v with Some f => PVFloat (round_float w f) | None => PVFloat fzero end.
  (** binder.go:119-129 *)
  Definition bind_bool (v : bytes) : pval :=
    let v := trim_space (to_lower v) in
    PVBool (beq v (bs "true") || beq v (bs "on") || beq v (bs "1")).
  (** binder.go:147-171 *)
  Fixpoint try_formats (fs : list bytes) (v : bytes) : option T :=
    match fs with
    | [] => None
    | f :: r =>
        if is_nil f then try_formats r v else
        match (if (contains f (bs "07") || contains f (bs "MST"))%bool then parse_zone f v else parse_local f v) with
        | Some t => Some t
        | None => try_formats r v
        end
    end.
  Definition bind_time (v : bytes) : pval :=
    match try_formats formats v with
    | Some t => PVTime t
    | None => match parse_int 64 v with (z, None) => PVTime (unix z) | _ => PVTime tzero end
    end.

  Definition res_map {A B} (f : A -> B) (r : res A) : res B := match r with Ok a => Ok (f a) | Panic => Panic end.
  Fixpoint all_ok {A} (l : list (res A)) : res (list A) :=
    match l with
    | [] => Ok []
    | r :: l' => do x <- r; do xs <- all_ok l'; Ok (x :: xs)
    end.
  (** BindValue's and BindFile's parameters (binder.go:377-383) *)
  Definition single (v : bytes) : params := mkParams [([], [v])] [].
  Definition file_only : params := mkParams [] [([], 1)].
  Definition binder := params -> bytes -> res pval -> Prop.     (* what Bind may return for a name *)

  (** *** bindSlice, binder.go:218-292 *)
  (** lines 268-273 normalizeKey *)
  Definition normalize (name key : bytes) : bytes := if is_nil (trim_prefix key name) then key ++ bs "[]" else key.
  (** lines 230-236: the index (-1: none) and where the element's own name ends; [key] has the prefix name[ *)
  Definition elem_index (name key : bytes) : Z * nat :=
    let left_ := List.length name in
    match index_sub (skipn left_ key) (bs "]") with
    | None => ((-1)%Z, left_)
    | Some i =>
        let right_ := i + left_ in
        ((if Nat.ltb (left_ + 1) right_ then fst (parse_int 64 (firstn (right_ - (left_ + 1)) (skipn (left_ + 1) key))) else (-1)%Z), right_ + 1)
    end.
  (** lines 225-266 processElement: the entries added to sliceValues *)
  Definition process (be : binder) (p : params) (name key : bytes) (vals : list bytes) (files : nat) (r : res (list (Z * pval))) : Prop :=
    if negb (has_prefix key (name ++ bs "[")) then r = Ok [] else
    let (index, sub) := elem_index name key in
    if (-1 <? index)%Z then exists v, be p (firstn sub key) v /\ r = res_map (fun x => [(index, x)]) v
    else exists vs fs, Forall2 (fun val v => be (single val) [] v) vals vs /\ Forall (fun v => be file_only [] v) fs /\ List.length fs = files /\
           r = res_map (map (fun x => ((-1)%Z, x))) (all_ok (vs ++ fs)).
  (** lines 275-291: max index, MakeSlice, filling *)
  Definition max_index (svs : list (Z * pval)) : Z := fold_left (fun m sv => Z.max m (fst sv)) svs (-1)%Z.
  Definition no_index (svs : list (Z * pval)) : Z := Z.of_nat (List.length (filter (fun sv => Z.eqb (fst sv) (-1)) svs)).
  Fixpoint set_nth {A} (l : list A) (i : nat) (x : A) : list A :=
    match l, i with [], _ => [] | _ :: l', 0 => x :: l' | a :: l', S i' => a :: set_nth l' i' x end.
  Fixpoint fill (svs : list (Z * pval)) (arr : list pval) : list pval :=
    match svs with
    | [] => arr
    | (i, v) :: r => fill r (if Z.eqb i (-1) then arr ++ [v] else set_nth arr (Z.to_nat i) v)
    end.
  Definition assemble (zero : pval) (svs : list (Z * pval)) : res pval :=
    if (max_index svs + 1 + no_index svs <? 2 ^ 63)%Z then Ok (PVSlice (fill svs (repeat zero (Z.to_nat (max_index svs + 1))))) else Panic.
  (** the loops over params.Values and params.Files run in any order *)
  Definition bind_slice (be : binder) (zero : pval) (p : params) (name : bytes) (r : res pval) : Prop :=
    exists ov of_ rv rf, Permutation (p_vals p) ov /\ Permutation (p_files p) of_ /\
      Forall2 (fun kv s => process be p name (normalize name (fst kv)) (snd kv) 0 s) ov rv /\
      Forall2 (fun kf s => process be p name (normalize name (fst kf)) [] (snd kf) s) of_ rf /\
      r = do svs <- all_ok (rv ++ rf); assemble zero (List.concat svs).

  (** *** bindStruct, binder.go:294-334 *)
  Definition next_key (key : bytes) : bytes := match index_any key (bs ".[") with None => key | Some n => firstn n key end.
  Fixpoint field_index {A} (fs : list (bytes * bool * A)) (n : bytes) : option (nat * bool * A) :=
    match fs with
    | [] => None
    | (m, s, x) :: r => if beq m n then Some (0, s, x) else match field_index r n with Some (i, s', y) => Some (S i, s', y) | None => None end
    end.
  Fixpoint struct_loop (fs : list (bytes * bool * binder)) (p : params) (name : bytes) (keys : list bytes) (done_ : list bytes) (cur : list pval) (r : res pval) : Prop :=
    match keys with
    | [] => r = Ok (PVStruct cur)
    | key :: ks =>
        if negb (has_prefix key (name ++ bs ".")) then struct_loop fs p name ks done_ cur r else
        let fn := next_key (skipn (List.length name + 1) key) in
        if existsb (beq fn) done_ then struct_loop fs p name ks done_ cur r else
        match field_index fs fn with
        | None => struct_loop fs p name ks done_ cur r
        | Some (_, false, _) => struct_loop fs p name ks done_ cur r
        | Some (i, true, b) =>
            exists v, b p (firstn (List.length name + 1 + List.length fn) key) v /\
              match v with Panic => r = Panic | Ok x => struct_loop fs p name ks (fn :: done_) (set_nth cur i x) r end
        end
    end.

  (** *** bindMap, binder.go:338-363 *)
  Definition pval_eq_dec_str (a b : pval) : bool :=            (* map keys: bools, integers, strings; the equality of float, time and struct keys is not modelled *)
    match a, b with
    | PVBool x, PVBool y => Bool.eqb x y
    | PVInt x, PVInt y | PVUint x, PVUint y => Z.eqb x y
    | PVStr x, PVStr y => beq x y
    | _, _ => false
    end.
  Fixpoint map_set (m : list (pval * pval)) (k v : pval) : list (pval * pval) :=
    match m with
    | [] => [(k, v)]
    | (k', v') :: r => if pval_eq_dec_str k' k then (k, v) :: r else (k', v') :: map_set r k v
    end.
  Fixpoint map_loop (bk be : binder) (kvs : list (bytes * option bytes)) (m : list (pval * pval)) (r : res pval) : Prop :=
    match kvs with
    | [] => r = Ok (PVMap m)
    | (k, v) :: rest =>
        exists x, bk (single k) [] x /\
        match x, v with
        | Panic, _ => r = Panic
        | _, None => r = Panic                              (* values[0] of an empty list *)
        | Ok k', Some v => exists y, be (single v) [] y /\ match y with Panic => r = Panic | Ok v' => map_loop bk be rest (map_set m k' v') r end
        end
    end.
  Definition map_entries (name : bytes) (ov : values) : list (bytes * option bytes) :=
    flat_map (fun kv => let key := fst kv in
      if (has_prefix key (name ++ bs "[") && has_suffix key (bs "]"))%bool
      then [(firstn (List.length key - 1 - (List.length name + 1)) (skipn (List.length name + 1) key), hd_error (snd kv))] else []) ov.
  Definition bind_map (bk be : binder) (p : params) (name : bytes) (r : res pval) : Prop :=
    let v := match aget (p_vals p) name with Some (v :: _) => v | _ => [] end in
    if is_nil v
    then exists ov, Permutation (p_vals p) ov /\ map_loop bk be (map_entries name ov) [] r
    else exists oj, Permutation (json_map v) oj /\ map_loop bk be (map (fun kv => (fst kv, Some (snd kv))) oj) [] r.

  (** ValueBinder, binder.go:37-46 *)
  Definition value_binder (f : bytes -> pval) (zero : pval) : binder := fun p name r =>
    r = Ok (match aget (p_vals p) name with Some (v :: _) => f v | _ => zero end).
  (** PointerBinder, binder.go:131-145 *)
  Definition ptr_binder (be : binder) : binder := fun p name r =>
    match aget (p_vals p) name with
    | Some (_ :: _) => exists v, be p name v /\ r = res_map PVPtr v
    | _ => r = Ok PVNil
    end.
  (** Bind, binder.go:366-375, 390-400 *)
  Fixpoint binds (t : pty) : binder :=
    match t with
    | PBool => value_binder bind_bool (pzero PBool)
    | PInt w => value_binder (bind_int w) (pzero (PInt w))
    | PUint w => value_binder (bind_uint w) (pzero (PUint w))
    | PFloat w => value_binder (bind_float w) (pzero (PFloat w))
    | PString => value_binder PVStr (pzero PString)
    | PTime => value_binder bind_time (pzero PTime)
    | POther => fun _ _ r => r = Ok (pzero POther)
    | PPtr e => ptr_binder (binds e)
    | PSlice e => bind_slice (binds e) (pzero e)
    | PMap k e => bind_map (binds k) (binds e)
    | PStruct fs => fun p name r => exists ov, Permutation (p_vals p) ov /\
        struct_loop (map (fun f => (fst f, binds (snd f))) fs) p name (map fst ov) [] (map (fun f => pzero (snd f)) fs) r
    end.

  (** ** params.go:124-210 BindValuesToStruct *)
  (** a struct value: its fields with name, param tag (empty: none), exported *)
  Inductive bnode :=
  | BPlain (name tag : bytes) (exported : bool) (t : pty) (v : pval)      (* not embedded *)
  | BStruct (tag : bytes) (fs : list bnode)                               (* an embedded struct *)
  | BPtr (tag : bytes) (exported : bool) (zero : list bnode) (cur : option (list bnode))   (* an embedded *struct: its zero fields, what it points to *)
  | BOtherNode (v : nat).                                                 (* embedded, not a struct or pointer to one *)
  (** params.go:146-158 *)
  Definition param_name (name tag : bytes) : bytes :=
    match index_byte ","%char tag with
    | Some i => firstn i tag
    | None => if is_nil tag then name else tag
    end.
  Definition given (p : params) (name : bytes) : bool := match aget (p_vals p) name with Some (_ :: _) => true | _ => false end.
  (** one field; the flag: a plain field had a value (params.go:138-208) *)
  Fixpoint bind_node (p : params) (f : bnode) (r : res (bnode * bool)) : Prop :=
    let loop := (fix loop (fs : list bnode) (r : res (list bnode * bool)) : Prop :=
      match fs with
      | [] => r = Ok ([], false)
      | f :: fs' => exists a, bind_node p f a /\
          match a with
          | Panic => r = Panic
          | Ok (f', e) => exists b, loop fs' b /\ match b with Panic => r = Panic | Ok (fs'', e') => r = Ok (f' :: fs'', (e || e')%bool) end
          end
      end) in
    match f with
    | BPlain name tag exported t v =>
        if (negb exported || beq tag (bs "-"))%bool then r = Ok (f, false) else
        exists x, binds t p (param_name name tag) x /\ r = res_map (fun x => (BPlain name tag exported t x, given p (param_name name tag))) x
    | BStruct tag fs =>
        if beq tag (bs "-") then r = Ok (f, false) else
        exists b, loop fs b /\ r = res_map (fun b => (BStruct tag (fst b), false)) b
    | BPtr tag exported zero cur =>
        if beq tag (bs "-") then r = Ok (f, false) else
        exists b, loop (match cur with Some fs => fs | None => zero end) b /\
        match b with
        | Panic => r = Panic
        | Ok (fs', true) => r = if exported then Ok (BPtr tag exported zero (Some fs'), false) else Panic   (* field.Set of an unexported field *)
        | Ok (fs', false) => r = Ok (BPtr tag exported zero (match cur with Some _ => Some fs' | None => None end), false)
        end
    | BOtherNode v => r = Ok (f, false)
    end.
  Definition bind_fields (p : params) : list bnode -> res (list bnode * bool) -> Prop :=
    fix loop (fs : list bnode) (r : res (list bnode * bool)) : Prop :=
      match fs with
      | [] => r = Ok ([], false)
      | f :: fs' => exists a, bind_node p f a /\
          match a with
          | Panic => r = Panic
          | Ok (f', e) => exists b, loop fs' b /\ match b with Panic => r = Panic | Ok (fs'', e') => r = Ok (f' :: fs'', (e || e')%bool) end
          end
      end.
  Definition bind_values_to_struct (p : params) (fs : list bnode) (r : res (list bnode)) : Prop :=
    exists b, bind_fields p fs b /\ r = res_map fst b.
End Binder.

(** ** params.go:245-292 ParamsParser: the uploaded files
    mime/multipart keeps a file in memory while the budget lasts and else writes it to a
    temporary file; RemoveAll deletes these. The deferred clean-up runs when ParamsParser's
    function returns, which is before the handler that asked for *Params is called. *)
Inductive upload := InMemory (content : bytes) | OnDisk (path : nat).
Fixpoint store (budget : nat) (next : nat) (files : list bytes) : list upload * list (nat * bytes) :=
  match files with
  | [] => ([], [])
  | c :: r =>
      if Nat.leb (List.length c) budget then let (us, disk) := store (budget - List.length c) next r in (InMemory c :: us, disk)
      else let (us, disk) := store budget (S next) r in (OnDisk next :: us, (next, c) :: disk)
  end.
(** MultipartForm.RemoveAll: every temporary file of the form *)
Definition remove_all (us : list upload) (disk : list (nat * bytes)) : list (nat * bytes) :=
  filter (fun d => negb (existsb (fun u => match u with OnDisk n => Nat.eqb n (fst d) | _ => false end) us)) disk.
(** what the handler gets: the headers and the disk *)
Definition params_parser_files (max_memory : nat) (files : list bytes) : list upload * list (nat * bytes) :=
  let (us, disk) := store max_memory 0 files in (us, remove_all us disk).
(** FileHeader.Open and reading it all *)
Definition open_read (disk : list (nat * bytes)) (u : upload) : option bytes :=
  match u with
  | InMemory c => Some c
  | OnDisk n => match find (fun d => Nat.eqb (fst d) n) disk with Some d => Some (snd d) | None => None end
  end.

(** ** real.go *)
Definition first_part (sep : ascii) (s : bytes) : bytes := hd [] (split_byte sep s).
(** real.go:9-30: X-Real-Ip, X-Forwarded-For, RemoteAddr *)
Definition real_ip (x_real_ip x_forwarded_for remote_addr : bytes) : bytes :=
  if negb (is_nil x_real_ip) then x_real_ip else
  let ip := first_part ","%char x_forwarded_for in
  if negb (is_nil ip) then first_part ":"%char ip else
  let ip := first_part ":"%char remote_addr in
  if negb (beq ip (bs "[")) then ip else bs "127.0.0.1".
(** real.go:32-42 *)
Definition real_host (x_forwarded_host host : bytes) : bytes := first_part ":"%char (if is_nil x_forwarded_host then host else x_forwarded_host).
(** real.go:44-53 *)
Definition real_proto (x_forwarded_proto scheme : bytes) : bytes :=
  let p := if is_nil x_forwarded_proto then scheme else x_forwarded_proto in if is_nil p then bs "http" else p.
(** real.go:55-61 *)
Definition real_uri (x_original_uri request_uri : bytes) : bytes := if is_nil x_original_uri then request_uri else x_original_uri.
