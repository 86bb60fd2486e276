(** InjectSpec: what a program has arranged, read off its history alone. *)
From Coq Require Import List Ascii String Bool Arith Lia.
Import ListNotations.
From Verif Require Import GoStr InjectModel.

(** the slot (type and name) a provider is filed under; [None] if providing it panics *)
Definition slot (o : pobj) : option bytes := option_map p_name (new_provider o).
Definition fills (o : pobj) (n : bytes) : bool := match slot o with Some m => beq m n | None => false end.
(** histories, newest operation first *)
Fixpoint parent_of (rh : list iop) (i : nat) : option nat :=
  match rh with
  | [] => None
  | PSetParent j k :: r => if Nat.eqb j i then Some k else parent_of r i
  | _ :: r => parent_of r i
  end.
Fixpoint last_provided (rh : list iop) (i : nat) (n : bytes) : option pobj :=
  match rh with
  | [] => None
  | PProvide j o :: r => if Nat.eqb j i && fills o n then Some o else last_provided r i n
  | _ :: r => last_provided r i n
  end.
(** [nearest rh i n o]: going from injector [i] to its parents, [o] is what the
    first injector with a provider for [n] was given last *)
Inductive nearest (rh : list iop) : nat -> bytes -> pobj -> Prop :=
| nr_here : forall i n o, last_provided rh i n = Some o -> nearest rh i n o
| nr_up : forall i k n o, last_provided rh i n = None -> parent_of rh i = Some k -> nearest rh k n o -> nearest rh i n o.
(** the whole chain of parents has no provider for [n] *)
Inductive nowhere (rh : list iop) : nat -> bytes -> Prop :=
| nw_root : forall i n, last_provided rh i n = None -> parent_of rh i = None -> nowhere rh i n
| nw_up : forall i k n, last_provided rh i n = None -> parent_of rh i = Some k -> nowhere rh k n -> nowhere rh i n.

(** a function that provides [n] was called for injector [i] *)
Definition called_for (w : world) (i : nat) (n : bytes) : Prop :=
  exists e, In e (w_tr w) /\ c_inj e = i /\ p_name (info_of w (c_prov e)) = n.

(** number of successful calls of provider [q] for injector [i] *)
Definition made (i q : nat) (tr : list callev) : nat :=
  List.length (filter (fun e => Nat.eqb (c_inj e) i && Nat.eqb (c_prov e) q && c_ok e) tr).
Definition invokes_slot (i : nat) (n : bytes) (o : iop) : Prop :=
  match o with PInvoke j f => j = i /\ slot f = Some n | _ => False end.
(** operations that can change where [n] leads for injector [i], or drop what it has *)
Definition rewires (i : nat) (n : bytes) (o : iop) : Prop :=
  match o with
  | PProvide _ p => slot p = Some n
  | PInvoke j p => j = i /\ slot p = Some n
  | PSetParent _ _ => True
  | _ => False
  end.

(** ** Slots of parameters *)
Definition slot_name (t : rtype) (label : bytes) : bytes := create_name (indirect t) label.
(** the label given to parameter [k] (inject_provider.go:12 Dep), empty if none *)
Definition label_for (deps : list (nat * bytes)) (k : nat) : bytes :=
  match find (fun x => Nat.eqb (fst x) k) deps with Some x => snd x | None => [] end.
(** parameter number [k] is for the slot of its type and its label *)
Definition param_slots (deps : list (nat * bytes)) (ins : list rtype) : list bytes :=
  map (fun k => slot_name (nth k ins (TLit 0)) (label_for deps k)) (seq 0 (List.length ins)).

(** ** What a history lets an injector build *)
(** [wants rh i n d]: the nearest provider of [n] is a function with a parameter for slot [d] *)
Definition wants (rh : list iop) (i : nat) (n d : bytes) : Prop :=
  exists f ins outs deps typ lab, nearest rh i n (OFun f ins outs deps typ lab) /\ In d (param_slots deps ins).
(** [n] is there already, or is provided as a value, or as a function all of whose parameters can be built *)
Inductive can_build (rh : list iop) (i : nat) (have : bytes -> Prop) : bytes -> Prop :=
| cb_have : forall n o, nearest rh i n o -> have n -> can_build rh i have n
| cb_val : forall n v typ lab, nearest rh i n (OVal v typ lab) -> can_build rh i have n
| cb_fun : forall n f ins outs deps typ lab, nearest rh i n (OFun f ins outs deps typ lab) ->
    (forall d, In d (param_slots deps ins) -> can_build rh i have d) -> can_build rh i have n.
(** the chain of parents of [i] ends *)
Inductive rooted (rh : list iop) : nat -> Prop :=
| rt_root : forall i, parent_of rh i = None -> rooted rh i
| rt_up : forall i k, parent_of rh i = Some k -> rooted rh k -> rooted rh i.
(** nothing was ever called for [i] *)
Definition fresh (w : world) (i : nat) : Prop := forall e, In e (w_tr w) -> c_inj e <> i.
(** only set-up so far: nothing was looked up anywhere *)
Definition is_setup (o : iop) : Prop :=
  match o with PNew | PSetParent _ _ | PProvide _ _ | PExists _ _ _ => True | _ => False end.
(** the type a provider yields, and: parameters get values of fitting types *)
Definition yields (o : pobj) : rtype :=
  match o with OVal v _ _ => v_ty v | OFun _ _ (t :: _) _ _ _ => t | OFun _ _ [] _ _ _ => TLit 0 end.
Definition typed (assignable : rtype -> rtype -> bool) (rh : list iop) (i : nat) : Prop :=
  forall n f ins outs deps typ lab, nearest rh i n (OFun f ins outs deps typ lab) ->
    Forall2 (fun d t => forall o, nearest rh i d o -> assignable (yields o) t = true) (param_slots deps ins) ins.
(** what Find leaves behind when it got value [v] for a target of type [t] *)
Definition assigned (assignable : rtype -> rtype -> bool) (v : val) (t : rtype) : iobs :=
  match assign_value assignable v t with ANo => RErr (EAssign (v_ty v) t) | r => RVal r end.
