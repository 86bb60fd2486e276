(** EmbedModel: bindStruct of /repo/params/binder.go for structs with embedded structs and
    embedded pointers to structs, whose fields reflect's FieldByName promotes.
    Simplifications: what Bind returns for a field of the struct is a parameter (ParamsModel
    models it); a struct does not embed itself through pointers. *)
From Coq Require Import List Ascii String Bool Arith Lia.
Import ListNotations.
From Verif Require Import GoStr.

Section Embed.
  Variable V : Type.      (* values of fields that are no embedded structs or pointers *)

  (** a field: its name (of an embedded one: its type's), whether it is exported, its kind *)
  Inductive field := Field (name : bytes) (exported : bool) (k : kind)
  with kind := KPlain (zero : V) | KStruct (fs : list field) | KPtr (fs : list field).
  Definition f_name (f : field) : bytes := match f with Field n _ _ => n end.
  Definition f_exported (f : field) : bool := match f with Field _ e _ => e end.
  Definition f_kind (f : field) : kind := match f with Field _ _ k => k end.
  Definition embedded (f : field) : list field := match f_kind f with KPlain _ => [] | KStruct gs | KPtr gs => gs end.

  (** values: of a plain field, an embedded struct, an embedded pointer *)
  Inductive sval := VPlain (v : V) | VStruct (l : list sval) | VNil | VPtr (l : list sval).
  (** reflect.New(typ).Elem() *)
  Fixpoint zero_of (f : field) : sval :=
    match f with Field _ _ k => match k with KPlain z => VPlain z | KStruct fs => VStruct (map zero_of fs) | KPtr _ => VNil end end.

  (** reflect Type.FieldByName: the fields at one depth with their index sequences ... *)
  Definition indexed (fs : list field) : list (list nat * field) := combine (map (fun i => [i]) (seq 0 (List.length fs))) fs.
  Definition deeper (l : list (list nat * field)) : list (list nat * field) :=
    flat_map (fun pf => map (fun qg => (fst pf ++ fst qg, snd qg)) (indexed (embedded (snd pf)))) l.
  (** ... the shallowest depth that has the name decides; none if it has it more than once *)
  Fixpoint by_name (fuel : nat) (l : list (list nat * field)) (n : bytes) : option (list nat * field) :=
    match fuel with
    | O => None
    | S fuel' =>
        match filter (fun pf => beq (f_name (snd pf)) n) l with
        | [] => by_name fuel' (deeper l) n
        | [pf] => Some pf
        | _ => None
        end
    end.
  Fixpoint depth (f : field) : nat :=
    match f with Field _ _ k => match k with KPlain _ => 1 | KStruct fs | KPtr fs => S (list_max (map depth fs)) end end.
  Definition field_by_name (fs : list field) (n : bytes) : option (list nat * field) :=
    by_name (list_max (map depth fs)) (indexed fs) n.

  (** reflect Value.FieldByIndex, then Set; [None]: FieldByIndex panics at a nil pointer *)
  Fixpoint replace (i : nat) (x : sval) (l : list sval) : list sval :=
    match l, i with [], _ => [] | _ :: r, O => x :: r | y :: r, S i' => y :: replace i' x r end.
  Fixpoint put (p : list nat) (x : sval) (vs : list sval) : option (list sval) :=
    match p with
    | [] => None
    | [i] => if Nat.ltb i (List.length vs) then Some (replace i x vs) else None
    | i :: q =>
        match nth_error vs i with
        | Some (VStruct l) => match put q x l with Some l' => Some (replace i (VStruct l') vs) | None => None end
        | Some (VPtr l) => match put q x l with Some l' => Some (replace i (VPtr l') vs) | None => None end
        | _ => None
        end
    end.

  (** binder.go:305-334: the loop over the keys that begin with the name and a dot, here their
      field names (nextKey) in the order of the map; [bound n]: Bind's result for field [n];
      [None] is the panic. *)
  Variable bound : bytes -> sval.
  Fixpoint bind_loop (fs : list field) (names : list bytes) (vs : list sval) (done : list bytes) : option (list sval) :=
    match names with
    | [] => Some vs
    | n :: rest =>
        if existsb (beq n) done then bind_loop fs rest vs done else
        match field_by_name fs n with
        | None => bind_loop fs rest vs done
        | Some (p, f) =>
            match put p (bound n) vs with
            | None => None
            | Some vs' => if f_exported f then bind_loop fs rest vs' (n :: done) else bind_loop fs rest vs done
            end
        end
    end.
  Definition bind_embedded (fs : list field) (names : list bytes) : option (list sval) := bind_loop fs names (map zero_of fs) [].
End Embed.
Arguments Field {V}. Arguments KPlain {V}. Arguments KStruct {V}. Arguments KPtr {V}.
Arguments VPlain {V}. Arguments VStruct {V}. Arguments VNil {V}. Arguments VPtr {V}.
Arguments f_name {V}. Arguments f_exported {V}. Arguments f_kind {V}. Arguments embedded {V}. Arguments zero_of {V}. Arguments indexed {V}. Arguments deeper {V}.
Arguments by_name {V}. Arguments depth {V}. Arguments field_by_name {V}. Arguments replace {V}. Arguments put {V}. Arguments bind_loop {V}. Arguments bind_embedded {V}.
