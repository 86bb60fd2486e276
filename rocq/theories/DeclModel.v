(** DeclModel: what the declaring functions accept: Router (router.go:22-28), the
    controllers of Get, Post, ... (router_action.go:23-40, router_method.go:68-110), the
    filters of Filter and Exempt (router_filter.go:17-104), and what a filter is at each
    request (context.go:79-107). *)
From Coq Require Import List Ascii String Bool Arith Lia.
Import ListNotations.
From Verif Require Import GoStr GoTy RouterModel.

(** ** Controllers *)
(** the type of a value, as far as it matters: a struct type with the methods of its pointer
    type, a function type (which may have methods too), a pointer, anything else *)
Inductive vty := VStruct (methods : list (bytes * sig)) | VFunc (methods : list (bytes * sig)) | VPtr (t : vty) | VOther.
(** app_util.go:190-195 indirectType *)
Fixpoint indirect_ty (t : vty) : vty := match t with VPtr t' => indirect_ty t' | _ => t end.
(** router_action.go:23-40 makeRouterController; [None]: the nil interface, whose reflect.Value has
    no type. [id] names the value. *)
Definition make_controller (id : nat) (v : option vty) : res ctl :=
  match v with
  | None => Panic
  | Some t =>
      match indirect_ty t with
      | VStruct ms => Ok (Ctl id KStruct ms [])
      | VFunc ms => Ok (Ctl id (match t with VFunc _ => KFunc | _ => KPtrFunc end) ms [])
      | _ => Panic
      end
  end.
(** Get(v), All(v) ... with the options of the builder, in a router level with the filters [fs] *)
Definition declare (id : nat) (v : option vty) (m : meth) (opts : list mopt) (fs : filters) : res raction :=
  do c <- make_controller id v; mk_raction fs c m opts.

(** ** Filters *)
(** the dynamic type of an argument of Filter or Exempt: strip.FilterFunc, func() inject.Provider,
    inject.Provide, any other function type, anything else *)
Inductive fty := FTFilterFunc | FTFactory | FTProvide | FTFunc (n : nat) | FTOther (n : nat).
(** an argument before its conversion to interface{}: a function is its closure's address (0: nil);
    an inject.Provide is a slice; an interface holds a type and a data word *)
Inductive farg := AFun (t : fty) (p : nat) | ASlice (content : nat) | AIface (t : fty) (word : nat) | ANil.
(** reflect.ValueOf: type and data word. Converting a function stores its address, converting a
    slice stores the address [box] of a new copy *)
Definition value_of (box : nat) (a : farg) : option (fty * nat) :=
  match a with AFun t p => Some (t, p) | ASlice _ => Some (FTProvide, box) | AIface t w => Some (t, w) | ANil => None end.
(** router_filter.go:68-92: the function made of it *)
Inductive ffun := FCall (p : nat)                  (* calls the function p at each request; 0: nil *)
                | FReturn (t : fty) (w : nat).     (* returns the value itself *)
(** a filter: newFilter *)
Record mfilter := MF { mf_fun : ffun; mf_type : fty; mf_word : nat }.
Definition make_filter (box : nat) (a : farg) : res mfilter :=
  match value_of box a with
  | Some (FTFilterFunc, w) => Ok (MF (FCall w) FTFilterFunc w)
  | Some (FTFactory, w) => Ok (MF (FCall w) FTFactory w)
  | Some (FTProvide, w) => Ok (MF (FReturn FTProvide w) FTProvide w)
  | Some (FTFunc n, w) => Ok (MF (FReturn (FTFunc n) w) (FTFunc n) w)
  | Some (FTOther _, _) => Panic
  | None => Panic
  end.
(** router_filter.go:56-66 makeFilters; [box] is the next free address *)
Fixpoint make_filters (box : nat) (l : list farg) : res (list mfilter) :=
  match l with [] => Ok [] | a :: l' => do f <- make_filter box a; do fs <- make_filters (S box) l'; Ok (f :: fs) end.
(** reflect.Value ==, for values made by reflect.ValueOf *)
Definition fty_eqb (a b : fty) : bool :=
  match a, b with
  | FTFilterFunc, FTFilterFunc | FTFactory, FTFactory | FTProvide, FTProvide => true
  | FTFunc n, FTFunc m | FTOther n, FTOther m => Nat.eqb n m
  | _, _ => false
  end.
Definition mf_same (a b : mfilter) : bool := fty_eqb (mf_type a) (mf_type b) && Nat.eqb (mf_word a) (mf_word b).
(** router_filter.go:17-28 filters.append *)
Definition mf_append (h values : list mfilter) : list mfilter :=
  fold_left (fun h f => if existsb (fun v => mf_same v f) h then h else h ++ [f]) values h.
(** router_filter.go:30-46 filters.remove *)
Definition mf_remove (h values : list mfilter) : list mfilter :=
  filter (fun v => negb (existsb (mf_same v) values)) h.
(** context.go:79-107 handler, run: what is invoked for a filter in one request, if anything;
    [call] is what the function at an address returns this time (a type and a word, if not nil) *)
Definition invoked (call : nat -> option (fty * nat)) (f : mfilter) : option (option (fty * nat)) :=
  match mf_fun f with
  | FCall 0 => None                    (* f == nil: skipped *)
  | FCall p => Some (call p)
  | FReturn t w => Some (Some (t, w))
  end.
