(** Props_Assert: C178, the test assertions. *)
From Coq Require Import List Bool Arith Lia.
Import ListNotations.
From Verif Require Import AssertModel.

(** values reflect.ValueOf can give *)
Definition a_value (v : ival) : Prop := match v with INil => True | IVal k _ => k <> KInvalid /\ k <> KInterface end.
(** nil itself, or a nil channel, function, map, pointer or slice *)
Definition means_nil (v : ival) : Prop :=
  v = INil \/ exists k, v = IVal k true /\ (k = KChan \/ k = KFunc \/ k = KMap \/ k = KPtr \/ k = KSlice).
(** Nil and NotNil never panic, and on every value exactly one of them passes: Nil on what means nil. *)
Theorem C178_nil_or_not v : a_value v ->
  (assert_nil v = APass <-> means_nil v) /\ (assert_not_nil v = APass <-> ~ means_nil v) /\
  (assert_nil v = APass \/ assert_nil v = AFail) /\ (assert_nil v = APass <-> assert_not_nil v = AFail).
Proof.
  intros A.
  assert (X : (assert_nil v = APass /\ assert_not_nil v = AFail /\ means_nil v) \/ (assert_nil v = AFail /\ assert_not_nil v = APass /\ ~ means_nil v)).
  { destruct v as [|k b]; [left; repeat split; left; reflexivity|]. cbn in A. destruct A as (A1 & A2).
    destruct k; try congruence; destruct b;
      first [ left; split; [vm_compute; reflexivity|]; split; [vm_compute; reflexivity|]; right; eexists; split; [reflexivity|]; tauto
            | right; split; [vm_compute; reflexivity|]; split; [vm_compute; reflexivity|];
              intros [H|(k' & H & K)]; [discriminate H|]; injection H; intros; subst; repeat destruct K as [K|K]; discriminate ]. }
  destruct X as [(-> & -> & M)|(-> & -> & M)]; repeat split; intros; auto; try discriminate; try contradiction.
Qed.
(** a nil unsafe.Pointer counts as not nil; an error value holding a nil pointer is an error *)
Theorem C178_odd_nils :
  assert_nil (IVal KUnsafePointer true) = AFail /\ assert_not_nil (IVal KUnsafePointer true) = APass /\
  (forall v, assert_no_error v = APass <-> v = INil) /\ assert_no_error (IVal KPtr true) = AFail.
Proof. repeat split; try reflexivity; destruct v; try discriminate; try congruence; reflexivity. Qed.
Theorem C178_booleans b : (assert_true b = APass <-> b = true) /\ (assert_false b = APass <-> b = false) /\ (assert_true b = APass <-> assert_false b = AFail).
Proof. destruct b; repeat split; intros; try reflexivity; discriminate. Qed.
Example C178_example : a_value (IVal KMap true) /\ assert_nil (IVal KMap true) = APass /\ assert_nil (IVal KString false) = AFail.
Proof. repeat split; try discriminate; reflexivity. Qed.

Print Assumptions C178_nil_or_not.
Print Assumptions C178_odd_nils.
Print Assumptions C178_booleans.
