(** BaseModel: /repo/utils/converter.go, ToStr with its optional arguments. *)
From Coq Require Import List Ascii String Bool Arith ZArith Lia.
Import ListNotations.
From Verif Require Import GoStr GoTy GoNum ValueModel.
Local Open Scope Z_scope.

(** strconv/itoa.go: const digits *)
Definition digits : bytes := bs "0123456789abcdefghijklmnopqrstuvwxyz".
(** digits[d] *)
Definition digit_in (d : Z) : ascii := nth (Z.to_nat d) digits "?"%char.
(** strconv/itoa.go formatBits, the digit loop (its special cases for base 10 and powers of
    two compute the same digits); [fuel] bounds their number. *)
Fixpoint base_loop (b : Z) (fuel : nat) (n : Z) (acc : bytes) : bytes :=
  match fuel with
  | O => acc
  | S f => let acc' := digit_in (n mod b) :: acc in
           if n <? b then acc' else base_loop b f (n / b) acc'
  end.
(** formatBits for a number that is not negative; [None]: it panics on an illegal base *)
Definition format_base (b n : Z) : option bytes :=
  if (b <? 2) || (36 <? b) then None else Some (base_loop b (S (Z.to_nat (Z.log2 n))) n []).
(** strconv.FormatInt *)
Definition format_int_base (b z : Z) : option bytes :=
  if z <? 0 then option_map (cons "-"%char) (format_base b (- z)) else format_base b z.

(** converter.go:213-220 argInt.Get with a default *)
Definition arg_int (args : list Z) (i : nat) (default : Z) : Z := nth i args default.

(** A float, as its text for each precision; the size (32 or 64) of its type *)
Record gofloat := mkFloat { f_size : Z; f_text : Z -> Z -> bytes }.
Inductive value := VFloat (f : gofloat) | VOther (d : dyn).
(** converter.go:159-184 ToStr; [None] is a panic of strconv. FormatFloat panics on a bit size
    other than 32 and 64; the text it gives for a precision and bit size is the float's own.
    [VOther (DFloat p)] is not used. *)
Definition to_str_args (v : value) (args : list Z) : option bytes :=
  match v with
  | VFloat f =>
      let prec := arg_int args 0 (-1) in
      let size := arg_int args 1 (f_size f) in
      if (size =? 32) || (size =? 64) then Some (f_text f prec size) else None
  | VOther (DInt _ _ z) => format_int_base (arg_int args 0 10) z
  | VOther (DUint _ _ z) => format_base (arg_int args 0 10) z
  | VOther d => Some (to_str d)
  end.
