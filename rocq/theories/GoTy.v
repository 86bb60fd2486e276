(** GoTy: the Go types that /repo distinguishes by reflect.Kind when it converts
    strings to action arguments or config values (app_util.go:197-254).
    Simplification: a named type is identified with its underlying type;
    [TOther] stands for any kind not listed (struct, map, interface, chan...). *)
From Coq Require Import List ZArith.
Import ListNotations.

Inductive gty : Type :=
| TBool
| TInt (w : nat)        (* int8/16/32/64 and int = 64 *)
| TUint (w : nat)       (* uint8/16/32/64 *)
| TUintWord             (* uint: 64 bits wide on the platforms considered *)
| TFloat (w : nat)
| TString
| TBytes                (* []byte *)
| TStrings              (* []string *)
| TSliceOther           (* any other slice *)
| TPtr (t : gty)
| TOther.

Definition sig := list gty.

Definition gty_eq_dec : forall a b : gty, {a = b} + {a <> b}.
Proof. decide equality; apply PeanoNat.Nat.eq_dec. Defined.
Definition gty_eqb (a b : gty) : bool := if gty_eq_dec a b then true else false.
