(** ConfigModel: /repo/config/config.go, config_parse.go, /repo/config.go (Find, Bind) and
    /repo/utils/helpers/config.go.

    Simplifications:
    - the environment is a function and does not change during a call; upper-casing a
      variable's name is modelled for ASCII letters only;
    - parents form a finite chain (SetParent can make a cycle, on which Find does not end);
    - a reader is its content and whether it ends in an error other than EOF, which then
      persists;
    - directories given to LoadConfigFiles are absolute already;
    - of the log only the paths reported as errors are kept. *)
From Coq Require Import List Ascii String Bool Arith ZArith Lia.
Import ListNotations.
From Verif Require Import GoStr GoPath GoTy GoNum RouterModel ConvModel.

(** Section -> key : value (config.go:30) *)
Definition data := amap (amap bytes).
Definition default_section : bytes := bs "default".            (* config.go:12 *)

(** slices with bounds checks *)
Definition slice (s : bytes) (lo hi : nat) : res bytes :=
  if (Nat.leb lo hi && Nat.leb hi (List.length s))%bool then Ok (firstn (hi - lo) (skipn lo s)) else Panic.
Definition slice_from (s : bytes) (lo : nat) : res bytes := slice s lo (List.length s).
Definition at_ (s : bytes) (i : nat) : res ascii := match nth_error s i with Some c => Ok c | None => Panic end.

(** config.go:128-144 setValue *)
Definition set_value (d : data) (section key value : bytes) : data :=
  let section := if is_nil section then default_section else section in
  let d := match aget d section with Some _ => d | None => aset d section [] end in
  if is_nil key then d else
  match aget d section with
  | Some m => aset d section (aset m key value)
  | None => d
  end.

(** what a line is: config.go:189-297. [LPair]: key, still possibly "-", and value *)
Inductive line_is := LSkip | LSection (name : bytes) | LBlankSection | LPair (key value : bytes) | LBad.
Definition quote3 : bytes := bs """""""".
Definition quote1 : bytes := bs """".
Definition back : bytes := bs "`".
Definition eq_colon : bytes := bs "=:".
(** config.go:262-295: the value, right of position [i] *)
Definition parse_value (line : bytes) (i : nat) (key : bytes) : res line_is :=
  do right0 <- slice_from line (i + 1);
  let right := trim_space right0 in
  let n := List.length right in
  do first <- (if Nat.leb 2 n then slice right 0 1 else Ok []);
  do triple <- (if Nat.leb 6 n then do p <- slice right 0 3; Ok (beq p quote3) else Ok false);
  let quote := if beq first back then back else if triple then quote3 else [] in
  if is_nil quote then Ok (LPair key (trim_space right)) else
  let ql := List.length quote in
  do rest <- slice_from right ql;
  match last_index_sub rest quote with
  | None => Ok LBad
  | Some pos => do v <- slice right ql (pos + ql); Ok (LPair key v)
  end.
(** config.go:189-295, [line] trimmed *)
Definition parse_line (line : bytes) : res line_is :=
  let n := List.length line in
  if Nat.eqb n 0 then Ok LSkip else
  do c0 <- at_ line 0;
  if (Ascii.eqb c0 "#" || Ascii.eqb c0 ";")%bool then Ok LSkip else
  do cl <- at_ line (n - 1);
  if (Ascii.eqb c0 "[" && Ascii.eqb cl "]")%bool then
    do name0 <- slice line 1 (n - 1);
    let name := trim_space name0 in
    if is_nil name then Ok LBlankSection else Ok (LSection name)
  else
  do triple <- (if Nat.leb 6 n then do p <- slice line 0 3; Ok (beq p quote3) else Ok false);
  let quote := if Ascii.eqb c0 """" then (if triple then quote3 else quote1)
               else if Ascii.eqb c0 "`" then back else [] in
  if is_nil quote then
    match index_any line eq_colon with
    | None | Some 0 => Ok LBad
    | Some i => do k <- slice line 0 i; parse_value line i (trim_space k)
    end
  else
    let ql := List.length quote in
    do rest <- slice_from line ql;
    match index_sub rest quote with
    | None => Ok LBad
    | Some pos0 =>
        let pos := pos0 + ql in
        do tail_ <- slice_from line pos;
        match index_any tail_ eq_colon with
        | None | Some 0 => Ok LBad
        | Some i => do k <- slice line ql pos; parse_value line (i + pos) k
        end
    end.

(** config.go:166-172, 257-260: the section and the counter of "-" keys *)
Record lstate := mkL { l_data : data; l_section : bytes; l_count : nat }.
Inductive lerr := ErrBlankSection | ErrParse | ErrRead.
Definition load_line (line : bytes) (st : lstate) : res (lstate + lerr) :=
  do k <- parse_line (trim_space line);
  match k with
  | LSkip => Ok (inl st)
  | LSection name => Ok (inl (mkL (set_value (l_data st) name [] []) name 1))
  | LBlankSection => Ok (inr ErrBlankSection)
  | LBad => Ok (inr ErrParse)
  | LPair key v =>
      if beq key (bs "-") then
        Ok (inl (mkL (set_value (l_data st) (l_section st) ("#"%char :: format_int (Z.of_nat (l_count st))) v) (l_section st) (S (l_count st))))
      else Ok (inl (mkL (set_value (l_data st) (l_section st) key v) (l_section st) (l_count st)))
  end.
Definition nl : ascii := byte 10.
(** the lines ReadString returns; the last one, without a line end, comes with the error *)
Fixpoint load_lines (lines : list bytes) (fails : bool) (st : lstate) : res (lstate + lerr) :=
  match lines with
  | [] => Ok (inl st)
  | [last] => if fails then Ok (inr ErrRead) else load_line last st
  | l :: rest =>
      do r <- load_line (l ++ [nl]) st;
      match r with
      | inl st' => load_lines rest fails st'
      | inr e => Ok (inr e)
      end
  end.
Definition bom : bytes := [byte 239; byte 187; byte 191].
(** config.go:39-70, 155-301 NewConfiger with a reader, LoadIniFromReader, loadFromReader *)
Definition load (content : bytes) (fails : bool) : res (data + lerr) :=
  let content := if has_prefix content bom then skipn 3 content else content in
  do r <- load_lines (split_byte nl content) fails (mkL [] [] 1);
  match r with
  | inl st => Ok (inl (l_data st))
  | inr e => Ok (inr e)
  end.

(** config.go:326-338 convertToEnvKey *)
Definition env_byte (c : ascii) : ascii :=
  if (Ascii.eqb c "." || Ascii.eqb c "-" || Ascii.eqb c ":" || Ascii.eqb c " ")%bool then "_"%char else c.
Definition env_key (section key : bytes) : bytes :=
  let section := if is_nil section then section else section ++ bs "_" in
  to_upper (map env_byte (section ++ key)).

Section Find.
  Variable env : bytes -> bytes.                               (* os.Getenv; empty if not set *)

  (** a config and its parents *)
  Inductive conf := Conf (own : data) (parent : option conf).
  (** config.go:88-126 Find *)
  Fixpoint conf_find (c : conf) (name : bytes) : bytes :=
    let parts := split2_sub name (bs "::") in
    let key := last parts [] in
    let section := match parts with s :: _ :: _ => s | _ => [] end in
    if is_nil key then [] else
    let value := env (env_key section key) in
    if negb (is_nil value) then value else
    match c with
    | Conf own parent =>
        let section := if is_nil section then default_section else section in
        let value := match aget own section with
                     | None => []
                     | Some m => match aget m key with Some v => v | None => [] end
                     end in
        match value, parent with
        | [], Some p => conf_find p name
        | v, _ => v
        end
    end.
  (** config.go:76-86 ListSection *)
  Definition list_section (d : data) (section : bytes) : option (amap bytes) := aget d section.

  (** /repo/config.go:61-70 Find; the Configer may be missing *)
  Definition app_find (c : option conf) (name : bytes) (def : option bytes) : bytes :=
    match c with
    | None => []
    | Some c =>
        let value := conf_find c name in
        match value, def with
        | [], Some d => d
        | v, _ => v
        end
    end.

  (** ** Bind *)
  Variable F : Type.
  Variable fzero : F.
  Variable parse_float : nat -> bytes -> option F.
  (** a variable: a value, or a pointer, nil or to another one *)
  Inductive var := VVal (v : gval F) | VNil (t : gty) | VTo (x : var).
  Fixpoint var_type (x : var) : gty :=
    match x with VVal v => type_of F v | VNil t => TPtr t | VTo y => TPtr (var_type y) end.
  (** /repo/config.go:72-94 Bind, the pointer's target being [x]. Setting a value of
      another type panics. *)
  Definition bind (c : option conf) (x : var) (name : bytes) : res var :=
    match c with
    | None => Ok x
    | Some _ =>
        let value := app_find c name None in
        if is_nil value then Ok x else
        do v <- convert_as F fzero parse_float value (var_type x);
        match v with
        | None => Ok x
        | Some v =>
            match var_type x with
            | TPtr t => if gty_eqb (type_of F v) t then Ok (VTo (VVal v)) else Panic
            | t => if gty_eqb (type_of F v) t then Ok (VVal v) else Panic
            end
        end
    end.

  (** ** Decode *)
  (** a struct's fields: embedded?, exported?, the conf tag, and a struct or a variable *)
  Inductive fval := FStruct (fs : list field) | FVar (x : var)
  with field := Fld (anon exported : bool) (tag : bytes) (v : fval).
  Definition skipped (tag : bytes) : bool := (is_nil tag || beq tag (bs "-"))%bool.
  (** a struct as target of Bind: convertStringAsType does not know it *)
  Definition bind_field (c : option conf) (v : fval) (name : bytes) : res fval :=
    match v with
    | FStruct fs => do _ <- convert_as F fzero parse_float [] TOther; Ok v
    | FVar x => do x' <- bind c x name; Ok (FVar x')
    end.
  (** config_parse.go:45-58 parseSection; [ro]: the struct was reached through an
      unexported field. Interface() of an unexported field panics. *)
  Fixpoint parse_section (c : option conf) (ro : bool) (fs : list field) (sec : bytes) : res (list field) :=
    match fs with
    | [] => Ok []
    | Fld anon exported tag v :: rest =>
        do v' <- (if skipped tag then Ok v else
                  if (ro || negb exported)%bool then Panic else bind_field c v (sec ++ bs "::" ++ tag));
        do rest' <- parse_section c ro rest sec;
        Ok (Fld anon exported tag v' :: rest')
    end.
  (** config_parse.go:9-43 Decode, the argument being a pointer to a struct *)
  Fixpoint decode_val (c : option conf) (v : fval) : res fval :=
    match v with
    | FVar x => Ok v
    | FStruct fs =>
        do fs' <- (fix go (fs : list field) : res (list field) :=
          match fs with
          | [] => Ok []
          | Fld anon exported tag v :: rest =>
              do v' <- match v with
                       | FStruct gs =>
                           if anon then (if exported then decode_val c v else Panic)
                           else if skipped tag then Ok v
                           else do gs' <- parse_section c (negb exported) gs tag; Ok (FStruct gs')
                       | FVar x =>
                           if skipped tag then Ok v
                           else if negb exported then Panic
                           else bind_field c v tag
                       end;
              do rest' <- go rest;
              Ok (Fld anon exported tag v' :: rest')
          end) fs;
        Ok (FStruct fs')
    end.

  (** ** LoadConfigFiles *)
  Inductive file := FMissing | FUnreadable | FText (content : bytes).
  Variable fs : bytes -> file.
  (** config.go:60-64, 146-153 LoadIniFile: the config, or whether the file does not exist *)
  Definition load_file (path : bytes) : res (data + bool) :=
    match fs path with
    | FMissing => Ok (inr true)
    | FUnreadable => Ok (inr false)
    | FText t => do r <- load t false; match r with inl d => Ok (inl d) | inr _ => Ok (inr false) end
    end.
  (** filepath.Join of an absolute directory *)
  Definition path_in (d f : bytes) : bytes := path_clean_rooted (d ++ bs "/" ++ f).
  (** helpers/config.go:51-77: the files that are tried *)
  Definition standard_files (app mode : bytes) (dirs : list bytes) : list bytes :=
    let both name := flat_map (fun d => [path_in d (name ++ bs ".ini"); path_in d (name ++ bs "." ++ mode ++ bs ".ini")]) dirs in
    both (bs "default") ++ both app ++ both (bs "override").
  Definition dirs_of (exe wd dir : bytes) : list bytes := [exe; wd] ++ (if is_nil dir then [] else [path_clean_rooted dir]).
  (** helpers/config.go:81-99: n counts the files, [seen] is maps *)
  Fixpoint load_files (files : list bytes) (n skip : nat) (seen : list bytes) (last : option conf) (errs : list bytes) : res (option conf * list bytes) :=
    match files with
    | [] => Ok (last, errs)
    | path :: rest =>
        if (Nat.ltb n skip && existsb (beq path) seen)%bool then load_files rest (S n) skip seen last errs else
        let seen := path :: seen in
        do r <- load_file path;
        match r with
        | inr missing => load_files rest (S n) skip seen last (if (negb missing || Nat.leb skip n)%bool then errs ++ [path] else errs)
        | inl d => load_files rest (S n) skip seen (Some (Conf d last)) errs
        end
    end.
  (** helpers/config.go:46-108 LoadConfigFiles: the new config and the decoded struct *)
  Definition load_config_files (app mode exe wd dir : bytes) (add : list bytes) (target : fval) : res (conf * list bytes * fval) :=
    let std := standard_files app mode (dirs_of exe wd dir) in
    do r <- load_files (std ++ add) 0 (List.length std) [] None [];
    let c := match fst r with Some c => c | None => Conf [] None end in
    do t <- decode_val (Some c) target;
    Ok (c, snd r, t).
End Find.

(** ** helpers/config.go:13-40 SliceValue *)
(** lines 15-23 Set: every non-empty part appends the whole argument *)
Definition slice_value_set (s : list bytes) (v : bytes) : list bytes :=
  s ++ flat_map (fun p => if is_nil (trim_space p) then [] else [v]) (split_byte "," v).
(** lines 25-27 *)
Definition slice_value_string (s : list bytes) : bytes := join (bs ",") s.
(** lines 29-40 Unique *)
Fixpoint uniq (seen s : list bytes) : list bytes :=
  match s with
  | [] => []
  | p :: r => if existsb (beq p) seen then uniq seen r else p :: uniq (p :: seen) r
  end.
Definition slice_value_unique (s : list bytes) : list bytes := uniq [] s.
