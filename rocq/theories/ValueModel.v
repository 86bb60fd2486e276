(** ValueModel: /repo/utils/converter_value_to.go, Value and its accessors, and ToInt64 of
    /repo/utils/converter.go.

    A value is an interface: its dynamic type and content. Platform: int and uint are 64
    bits wide. Floats: only as a source, by the text strconv.FormatFloat gives for them;
    Float32, Float64 and their Must variants are not modelled. *)
From Coq Require Import List Ascii String Bool Arith ZArith Lia.
Import ListNotations.
From Verif Require Import GoStr GoTy GoNum RouterModel ConvModel.
Local Open Scope Z_scope.

(** int, int8, int16, int32, int64, and the same for uint *)
Inductive size := SWord | S8 | S16 | S32 | S64.
Definition size_eqb (a b : size) : bool :=
  match a, b with SWord, SWord | S8, S8 | S16, S16 | S32, S32 | S64, S64 => true | _, _ => false end.
(** bits of the types *)
Definition bits (k : size) : Z := match k with SWord | S64 => 64 | S8 => 8 | S16 => 16 | S32 => 32 end.

(** the dynamic value; [named]: of a declared type (type T int), not the predeclared one *)
Inductive dyn :=
| DNil
| DBool (named : bool) (b : bool)
| DInt (named : bool) (k : size) (z : Z)
| DUint (named : bool) (k : size) (z : Z)
| DFloat (printed : bytes)
| DStr (named : bool) (s : bytes)
| DBytes (named : bool) (s : bytes)
| DStrs (named : bool) (l : list bytes)
| DOther.

(** converter.go:159-184 ToStr without base. In the default branch the variable formatted
    is the nil []byte of the failed assertion. *)
Definition to_str (d : dyn) : bytes :=
  match d with
  | DBool _ b => format_bool b
  | DInt _ _ z => format_int z
  | DUint _ _ z => format_uint z
  | DFloat p => p
  | DStr _ s => s
  | DBytes false s => s
  | _ => bs "[]byte(nil)"
  end.
(** converter_value_to.go:119-127 String; the nil interface is empty *)
Definition v_string (d : dyn) : bytes :=
  match d with
  | DStr false s => s
  | DNil => []
  | _ => to_str d
  end.
(** lines 14-22 Bool; [v.value == "on"] compares dynamic types too *)
Definition v_bool (d : dyn) : conv bool :=
  match d with
  | DBool false b => (b, None)
  | _ => if match d with DStr false s => beq s (bs "on") | _ => false end then (true, None)
         else parse_bool (v_string d)
  end.
(** lines 39-77 Int, Int8, Int16, Int32, Int64 *)
Definition v_int (k : size) (d : dyn) : conv Z :=
  match d with
  | DInt false k' z => if size_eqb k k' then (z, None) else parse_int (bits k) (v_string d)
  | _ => parse_int (bits k) (v_string d)
  end.
(** lines 79-117 Uint, Uint8, ...; Uint parses with 32 bits *)
Definition parsed_bits (k : size) : Z := match k with SWord => 32 | _ => bits k end.
Definition v_uint (k : size) (d : dyn) : conv Z :=
  match d with
  | DUint false k' z => if size_eqb k k' then (z, None) else parse_uint (parsed_bits k) (v_string d)
  | _ => parse_uint (parsed_bits k) (v_string d)
  end.
(** lines 129-197 MustBool, MustInt..., MustUint...: the value, whatever the error *)
Definition v_must_bool (d : dyn) : bool := fst (v_bool d).
Definition v_must_int (k : size) (d : dyn) : Z := fst (v_int k d).
Definition v_must_uint (k : size) (d : dyn) : Z := fst (v_uint k d).
(** lines 199-207 MustSliceString, MustBytes: the zero value (nil) for any other type *)
Definition v_must_strings (d : dyn) : option (list bytes) := match d with DStrs false l => Some l | _ => None end.
Definition v_must_bytes (d : dyn) : option bytes := match d with DBytes false s => Some s | _ => None end.
(** lines 213-215 IsNil *)
Definition v_is_nil (d : dyn) : bool := match d with DNil => true | _ => false end.
(** converter.go:186-198 ToInt64; [None] is the error. int64(x) of a uint64 wraps. *)
Definition to_int64 (d : dyn) : option Z :=
  match d with
  | DInt _ _ z => Some z
  | DUint _ _ z => Some (if z <? 9223372036854775808 then z else z - 18446744073709551616)
  | _ => None
  end.
