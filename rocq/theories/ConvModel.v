(** ConvModel: string conversions of app_util.go:19-254 and utils/converter.go,
    utils/converter_value_to.go.
    Platform: int and uint are 64 bits wide.  Floats are opaque: their parser
    and formatter are parameters. *)
From Coq Require Import List Ascii String Bool Arith ZArith.
Import ListNotations.
From Verif Require Import GoStr GoTy GoNum RouterModel.

(** app_util.go:20-27 [StrTo.Bool]; the same code is utils/converter.go:14-19 *)
Definition strto_bool (s : bytes) : conv bool := if beq s (bs "on") then (true, None) else parse_bool s.

(** app_util.go:47-90: [StrTo.Int], Int8, Int16, Int32, Int64 (width 64, 8, 16, 32, 64):
    0 with every error *)
Definition strip_int (w : Z) (s : bytes) : conv Z :=
  match parse_int w s with
  | (v, None) => (v, None)
  | (_, Some e) => (0%Z, Some e)
  end.
(** app_util.go:92-135: Uint8, Uint16, Uint32, Uint64, and Uint (which asks
    for 32 bits, app_util.go:93-99) *)
Definition strip_uint (w : Z) (s : bytes) : conv Z :=
  match parse_uint w s with
  | (v, None) => (v, None)
  | (_, Some e) => (0%Z, Some e)
  end.
Definition strip_uint_word (s : bytes) : conv Z := strip_uint 32 s.

(** utils/converter.go:30-78: the parser's value is returned together with its
    error; Uint asks for 64 bits *)
Definition utils_int (w : Z) (s : bytes) : conv Z := parse_int w s.
Definition utils_uint (w : Z) (s : bytes) : conv Z := parse_uint w s.
Definition utils_uint_word (s : bytes) : conv Z := parse_uint 64 s.
(** utils/converter.go:80-143: the Must* family drops the error *)
Definition must {A} (c : conv A) : A := fst c.


(** ** Values *)
Section Values.
  Variable F : Type.
  Variable fzero : F.
  (** strconv.ParseFloat for the given width; None is an error *)
  Variable parse_float : nat -> bytes -> option F.

  Inductive gval : Type :=
  | VBool (b : bool)
  | VInt (w : nat) (z : Z)
  | VUint (w : nat) (z : Z)
  | VUintWord (z : Z)
  | VFloat (w : nat) (f : F)
  | VStr (s : bytes)
  | VBytes (s : option bytes)           (* None: nil slice *)
  | VStrs (l : option (list bytes))
  | VZero (t : gty).                    (* the zero value of any other type *)

  Definition type_of (v : gval) : gty :=
    match v with
    | VBool _ => TBool
    | VInt w _ => TInt w
    | VUint w _ => TUint w
    | VUintWord _ => TUintWord
    | VFloat w _ => TFloat w
    | VStr _ => TString
    | VBytes _ => TBytes
    | VStrs _ => TStrings
    | VZero t => t
    end.

  (** reflect.New(typ).Elem() *)
  Definition zero_of (t : gty) : gval :=
    match t with
    | TBool => VBool false
    | TInt w => VInt w 0
    | TUint w => VUint w 0
    | TUintWord => VUintWord 0
    | TFloat w => VFloat w fzero
    | TString => VStr []
    | TBytes => VBytes None
    | TStrings => VStrs None
    | _ => VZero t
    end.

  (** app_util.go:190-195 [indirectType] *)
  Fixpoint indirect (t : gty) : gty := match t with TPtr t' => indirect t' | _ => t end.

  (** app_util.go:197-254 [convertStringAsType].  [Ok None] is the invalid
      reflect.Value.  A slice of other elements leaves v == nil, whose Type()
      panics.  Named types convert (ConvertibleTo holds for equal kinds);
      slices of named string types are not modelled. *)
  Definition convert_as (s : bytes) (t : gty) : res (option gval) :=
    match indirect t with
    | TBool => Ok (Some (VBool (fst (strto_bool s))))
    | TFloat w => Ok (Some (VFloat w (match parse_float w s with Some f => f | None => fzero end)))
    | TInt w => Ok (Some (VInt w (fst (strip_int (Z.of_nat w) s))))
    | TUint w => Ok (Some (VUint w (fst (strip_uint (Z.of_nat w) s))))
    | TUintWord => Ok (Some (VUintWord (fst (strip_uint_word s))))
    | TString => Ok (Some (VStr s))
    | TBytes => Ok (Some (VBytes (Some s)))
    | TStrings => Ok (Some (VStrs (Some (filter (fun x => negb (is_nil x)) (map trim_space (split_byte ","%char s))))))
    | TSliceOther => Panic
    | TPtr _ => Ok None
    | TOther => Ok None
    end.

  (** ** callStructFunc (router_action.go:112-151) *)
  (** router_action.go:115-134: the arguments from the cached types and params *)
  Fixpoint call_args (i : nat) (tys : list gty) (params : list (bytes * bytes)) : res (list gval) :=
    match tys with
    | [] => Ok []
    | t :: tys' =>
        do v <- (match nth_error params i with
                 | Some (_, p) => convert_as p t
                 | None => Ok None
                 end);
        do vs <- call_args (S i) tys' params;
        Ok ((match v with Some x => x | None => zero_of t end) :: vs)
    end.

  (** reflect.Value.Call: the number and the types of the arguments must be
      those of the method *)
  Definition types_ok (tys : list gty) (args : list gval) : Prop := map type_of args = tys.
  Fixpoint all_types (tys : list gty) (args : list gval) : bool :=
    match tys, args with
    | [], [] => true
    | t :: tys', a :: args' => gty_eqb (type_of a) t && all_types tys' args'
    | _, _ => false
    end.

  (** router_action.go:93-151: the arguments a struct action is called with, or
      a panic.  Simplification: ctx.Apply (field injection) is the injector's
      business and taken to succeed. *)
  Definition call_struct (ra : raction) (act : bytes) (params : list (bytes * bytes)) : res (list gval) :=
    do args <- call_args 0 (c_cached (ra_ctl ra)) params;
    match aget (c_methods (ra_ctl ra)) act with
    | None => Panic
    | Some tys => if all_types tys args then Ok args else Panic
    end.
End Values.

(** ** ToStr *)
(** the kinds utils.ToStr and strip.ToStr distinguish; [KNamedBytes] is a named
    type whose underlying type is []byte, [KOther] any other kind, printed by
    fmt in strip.ToStr *)
Inductive anyval :=
| ABool (b : bool) | AInt (z : Z) | AUint (z : Z) | AStr (s : bytes) | ABytes (s : bytes)
| ANamedBytes (s : bytes) | AOther (printed : bytes).

Definition format_bool (b : bool) : bytes := if b then bs "true" else bs "false".
(** utils/converter.go:159-184 [ToStr] without the base argument; floats are not
    modelled.  In the default branch the formatted variable is the nil []byte
    of the failed type assertion, not the value. *)
Definition utils_tostr (v : anyval) : bytes :=
  match v with
  | ABool b => format_bool b
  | AInt z => format_int z
  | AUint z => format_uint z
  | AStr s => s
  | ABytes s => s
  | ANamedBytes _ => bs "[]byte(nil)"
  | AOther _ => bs "[]byte(nil)"
  end.
(** app_util.go:154-179 [strip.ToStr]; when the result is empty fmt.Sprint(value)
    is used: "" for a string, "[]" for an empty byte slice *)
Definition strip_tostr (v : anyval) : bytes :=
  match v with
  | ABool b => format_bool b
  | AInt z => format_int z
  | AUint z => format_uint z
  | AStr s => s
  | ABytes s | ANamedBytes s => if is_nil s then bs "[]" else s
  | AOther p => p
  end.

(** int64 arithmetic wraps *)
Definition wrap64 (z : Z) : Z := ((z + 2 ^ 63) mod 2 ^ 64 - 2 ^ 63)%Z.

(** utils/converter_value_to.go: the rest is in ValueModel. [Value.Uint]: a value of
    exactly the asked type is returned as it is, otherwise the printed form is parsed.
    [same] says whether the dynamic type is the asked one. *)
Definition value_string (v : option anyval) : bytes :=
  match v with None => [] | Some (AStr s) => s | Some x => utils_tostr x end.
(** Uint asks for 32 bits (converter_value_to.go:79-85) *)
Definition value_uint_word (same : bool) (v : option anyval) : conv Z :=
  match same, v with
  | true, Some (AUint z) => (z, None)
  | _, _ => parse_uint 32 (value_string v)
  end.
