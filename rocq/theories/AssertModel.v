(** AssertModel: the test assertions /repo/assert.go.

    Simplifications: of a value only its reflect.Kind and whether it is nil; a failed assertion
    ends the test (testing.T.FailNow), reporting the source line [callerInfo] finds (not modelled further). *)
From Coq Require Import List Bool Arith Lia.
Import ListNotations.

(** the kinds of package reflect, in their order (Invalid is 0; UnsafePointer 26) *)
Inductive rkind :=
| KInvalid | KBool | KInt | KInt8 | KInt16 | KInt32 | KInt64 | KUint | KUint8 | KUint16 | KUint32 | KUint64 | KUintptr
| KFloat32 | KFloat64 | KComplex64 | KComplex128 | KArray | KChan | KFunc | KInterface | KMap | KPtr | KSlice
| KString | KStruct | KUnsafePointer.
Definition kinds : list rkind :=
  [KInvalid; KBool; KInt; KInt8; KInt16; KInt32; KInt64; KUint; KUint8; KUint16; KUint32; KUint64; KUintptr;
   KFloat32; KFloat64; KComplex64; KComplex128; KArray; KChan; KFunc; KInterface; KMap; KPtr; KSlice; KString; KStruct; KUnsafePointer].
Definition rk_eq_dec (a b : rkind) : {a = b} + {a <> b}.
Proof. decide equality. Defined.
Fixpoint place (k : rkind) (l : list rkind) : nat :=
  match l with [] => 0 | x :: l' => if rk_eq_dec x k then 0 else S (place k l') end.
Definition knum (k : rkind) : nat := place k kinds.

(** a value in an interface{}: nil, or of a kind; [isnil] matters for the kinds that can be nil.
    reflect.ValueOf never gives kind Interface, nor Invalid except for nil. *)
Inductive ival := INil | IVal (k : rkind) (isnil : bool).
Definition can_be_nil (k : rkind) : bool :=
  match k with KChan | KFunc | KInterface | KMap | KPtr | KSlice | KUnsafePointer => true | _ => false end.
Definition kind_of (v : ival) : rkind := match v with INil => KInvalid | IVal k _ => k end.
Definition is_itf_nil (v : ival) : bool := match v with INil => true | _ => false end.
(** reflect.Value.IsNil: panics ([None]) for other kinds *)
Definition is_nil_v (v : ival) : option bool :=
  match v with INil => None | IVal k b => if can_be_nil k then Some b else None end.

Inductive aout := APass | AFail | APanicked.
(** kind >= reflect.Chan && kind <= reflect.Slice && val.IsNil(), with its short circuits *)
Definition nil_ref (v : ival) : option bool :=
  let k := knum (kind_of v) in
  if Nat.leb (knum KChan) k then (if Nat.leb k (knum KSlice) then is_nil_v v else Some false) else Some false.
(** assert.go:21-28 Nil: fails if ni != nil && !(...) *)
Definition assert_nil (v : ival) : aout :=
  if is_itf_nil v then APass else match nil_ref v with None => APanicked | Some true => APass | Some false => AFail end.
(** assert.go:30-37 NotNil: fails if ni == nil || ... *)
Definition assert_not_nil (v : ival) : aout :=
  if is_itf_nil v then AFail else match nil_ref v with None => APanicked | Some true => AFail | Some false => APass end.
(** assert.go:14-19 NoError: fails if err != nil, also for a nil pointer in it *)
Definition assert_no_error (err : ival) : aout := if is_itf_nil err then APass else AFail.
(** assert.go:39-51 True and False *)
Definition assert_true (b : bool) : aout := if negb b then AFail else APass.
Definition assert_false (b : bool) : aout := if b then AFail else APass.
