(** Props_Assign: C26, what a target gets of a value that is found. *)
From Coq Require Import List Ascii String Bool Arith Lia.
Import ListNotations.
From Verif Require Import GoStr GoTy InjectModel InjectSpec.

Section Assign.
  Variable asg : rtype -> rtype -> bool.
  (** the value may be assigned as it is; or only what it points to may *)
  Definition fits (v : val) (t : rtype) : Prop := asg (v_ty v) t = true.
  Definition pointee_fits (v : val) (t : rtype) : Prop := asg (v_ty v) t = false /\ exists e, v_ty v = TPtr e /\ asg e t = true.
  Theorem C26_assigned v t :
    (fits v t -> assigned asg v t = RVal (ASet (Val t (v_data v)))) /\
    (forall d, pointee_fits v t -> v_data v = Some d -> assigned asg v t = RVal (ASet (Val t (Some d)))) /\
    (pointee_fits v t -> v_data v = None -> assigned asg v t = RVal ANilPtr) /\
    (~ fits v t -> ~ pointee_fits v t -> assigned asg v t = RErr (EAssign (v_ty v) t)).
  Proof.
    unfold assigned, assign_value, fits, pointee_fits. split; [|split; [|split]].
    - intros ->. reflexivity.
    - intros d (-> & e & -> & ->) ->. reflexivity.
    - intros (-> & e & -> & ->) ->. reflexivity.
    - intros N M. destruct (asg (v_ty v) t) eqn:A; [exfalso; apply N; reflexivity|]. destruct (v_ty v) eqn:T; try reflexivity. destruct (asg r t) eqn:B; [|reflexivity]. exfalso. apply M. split; [reflexivity|]. eexists. split; [reflexivity|exact B].
  Qed.
End Assign.
Example C26_assigned_example :
  let t := TNamed [] (bs "T") 0 in let same a b := match a, b with TNamed _ _ _, TNamed _ _ _ | TPtr _, TPtr _ => true | _, _ => false end in
  assigned same (Val (TPtr t) (Some 3)) t = RVal (ASet (Val t (Some 3))) /\ assigned same (Val (TPtr t) None) t = RVal ANilPtr /\
  assigned same (Val t (Some 3)) t = RVal (ASet (Val t (Some 3))) /\ assigned same (Val t (Some 3)) (TPtr t) = RErr (EAssign t (TPtr t)).
Proof. vm_compute. repeat split. Qed.

Print Assumptions C26_assigned.
