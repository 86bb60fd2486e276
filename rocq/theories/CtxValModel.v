(** CtxValModel: /repo/utils/context.go (CtxWithValue, CtxFindValue).
    Go types as far as reflect shows them here. Named pointer types (type P *T) are
    not modelled; targets are valid non-nil pointers. *)
From Coq Require Import List Ascii String Bool Arith Lia.
Import ListNotations.
From Verif Require Import GoStr.

(** [scope] is 0 for types declared at package level; types declared inside
    functions have their own scope, which reflect does not show *)
Inductive ty :=
| TNamed (pkg name : bytes) (scope : nat)
| TPredecl (name : bytes) (basic : bool)   (* int, string, ... (basic) and error *)
| TLit (id : nat)                          (* unnamed slice, map, struct, interface, func, chan, array types *)
| TPtr (t : ty).
Definition is_ptr (t : ty) : bool := match t with TPtr _ => true | _ => false end.
(** reflect.Type.PkgPath, Name *)
Definition pkg_path (t : ty) : bytes := match t with TNamed p _ _ => p | _ => [] end.
Definition ty_name (t : ty) : bytes := match t with TNamed _ n _ => n | TPredecl n _ => n | _ => [] end.
Definition base (t : ty) : ty := match t with TPtr t => t | _ => t end.

(** context.go:54-75 ctxValueToKey for a value of type *t; [None]: it panics *)
Definition key_of (t : ty) (extra : bytes) : option bytes :=
  let elm := base t in
  if is_ptr elm then None
  else match elm with
       | TPredecl _ true => None
       | _ => Some (pkg_path elm ++ bs ":" ++ ty_name elm ++ bs ":" ++ extra)
       end.

Section Find.
  Variable D : Type.
  (** reflect: can a value of the second type be set to a variable of the first *)
  Variable assignable : ty -> ty -> bool.
  (** the content of a variable: a pointer to a variable, or anything else *)
  Inductive gval := GPtr (a : option nat) | GData (d : D).
  (** the variables of the program *)
  Definition vars := nat -> gval.
  (** what a context was given: the type t of a *t pointer, the name, the variable
      it points to (None: a nil pointer); nearest first *)
  Record entry := Entry { n_ty : ty; n_extra : bytes; n_var : option nat }.
  Definition ctx := list entry.
  (** context.go:15-18 CtxWithValue *)
  Definition with_value (c : ctx) (e : entry) : option ctx :=
    match key_of (n_ty e) (n_extra e) with Some _ => Some (e :: c) | None => None end.
  (** context.Context.Value *)
  Fixpoint lookup (c : ctx) (k : bytes) : option entry :=
    match c with
    | [] => None
    | e :: c => match key_of (n_ty e) (n_extra e) with
                | Some k' => if beq k k' then Some e else lookup c k
                | None => lookup c k
                end
    end.
  Inductive found := NotFound | Unchanged | SetTo (v : gval) | FPanic.
  (** context.go:20-45 CtxFindValue into a variable of type t *)
  Definition find_value (m : vars) (c : ctx) (t : ty) (extra : bytes) : found :=
    match key_of t extra with
    | None => FPanic
    | Some k =>
        match lookup c k with
        | None => NotFound
        | Some e =>
            match n_var e with
            | None => Unchanged
            | Some a =>
                if is_ptr t && negb (is_ptr (n_ty e)) then
                  if assignable t (TPtr (n_ty e)) then SetTo (GPtr (Some a)) else FPanic
                else if negb (is_ptr t) && is_ptr (n_ty e) then
                  match m a with
                  | GPtr (Some b) => if assignable t (base (n_ty e)) then SetTo (m b) else FPanic
                  | _ => FPanic
                  end
                else if assignable t (n_ty e) then SetTo (m a) else FPanic
            end
        end
    end%bool.
  (** context.go:47-52 MustCtxFindValue *)
  Definition must_find (m : vars) (c : ctx) (t : ty) (extra : bytes) : found :=
    match find_value m c t extra with NotFound => FPanic | r => r end.
End Find.
