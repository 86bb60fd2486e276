(** SliceModel: Go slices with shared backing arrays, the filter lists and the
    MethodHandler builders written over them.
    Files modelled: router_filter.go:17-46, router_method.go:48-66,
    router_util.go:20-44 and the filter handling of router.go:290-442.

    The growth policy of append is a parameter: [grow n] is the capacity of the
    array allocated when a slice of [n] elements is full and one is appended
    (any function with n < grow n). *)
From Coq Require Import List Ascii String Bool Arith.
Import ListNotations.
From Verif Require Import GoStr GoPath GoTy RouterModel.

(** ** Heap of backing arrays *)
Section Heap.
  Context {A : Type}.
  (** an array is the list of its cells; the capacity is its length; a cell that
      was never written holds the zero value [None] *)
  Definition heap := list (list (option A)).
  (** a slice starting at cell 0 of array [s_arr].  All slices of the modelled
      code start at cell 0; the nil slice is an array of capacity 0. *)
  Record slice : Type := Sl { s_arr : nat; s_len : nat }.

  Definition arr (h : heap) (a : nat) : list (option A) := nth a h [].
  (** the elements of a slice *)
  Definition sread (h : heap) (s : slice) : list (option A) := firstn (s_len s) (arr h (s_arr s)).

  Fixpoint set_nth {B} (n : nat) (b : B) (l : list B) : list B :=
    match l, n with
    | [], _ => []
    | _ :: l', O => b :: l'
    | x :: l', S n' => x :: set_nth n' b l'
    end.
  Definition cell_set (h : heap) (a i : nat) (v : A) : heap := set_nth a (set_nth i (Some v) (arr h a)) h.

  (** make([]T, len(l), cap) with the elements [l] *)
  Definition smake (h : heap) (l : list (option A)) (cap : nat) : heap * slice :=
    (h ++ [l ++ repeat None (cap - List.length l)], Sl (List.length h) (List.length l)).

  (** append(s, v): in place when there is capacity, else in a new array *)
  Definition sappend (grow : nat -> nat) (h : heap) (s : slice) (v : A) : heap * slice :=
    if Nat.ltb (s_len s) (List.length (arr h (s_arr s)))
    then (cell_set h (s_arr s) (s_len s) v, Sl (s_arr s) (S (s_len s)))
    else smake h (sread h s ++ [Some v]) (grow (s_len s)).
End Heap.
Arguments heap A : clear implicits.

(** ** filters over the heap (router_filter.go) *)
Section Filters.
  Variable grow : nat -> nat.
  Definition fheap := heap filter_id.

  Definition holds (h : fheap) (s : slice) (f : filter_id) : bool :=
    existsb (fun o => match o with Some g => Nat.eqb f g | None => false end) (sread h s).

  (** router_filter.go:17-28 [filters.append]; the values are read from the
      argument slice before the loop starts (they never share an array with the
      receiver in the modelled code) *)
  Fixpoint happend (h : fheap) (s : slice) (vs : filters) : fheap * slice :=
    match vs with
    | [] => (h, s)
    | f :: vs' =>
        if holds h s f then happend h s vs'
        else let '(h1, s1) := sappend grow h s f in happend h1 s1 vs'
    end.

  Definition vals (h : fheap) (s : slice) : filters :=
    flat_map (fun o => match o with Some f => [f] | None => [] end) (sread h s).

  (** router_filter.go:30-46 [filters.remove]: make(filters, 0, len(h)) and
      append the kept ones (they fit the capacity) *)
  Definition hremove (h : fheap) (s : slice) (ex : slice) : fheap * slice :=
    smake h (filter (fun o => match o with Some v => negb (fmem v (vals h ex)) | None => true end) (sread h s)) (s_len s).

  (** router_util.go:22, 27-30: args.filters / args.exempts start nil and
      collect the Filter (Exempt) arguments of a list of handlers; [chunks] are
      those arguments *)
  Fixpoint hcollect (h : fheap) (s : slice) (chunks : list filters) : fheap * slice :=
    match chunks with
    | [] => (h, s)
    | fs :: chunks' => let '(h1, s1) := happend h s fs in hcollect h1 s1 chunks'
    end.
  Definition hcalc (h : fheap) (chunks : list filters) : fheap * slice :=
    let '(h1, s) := smake h [] 0 in hcollect h1 s chunks.

  Definition h_adds (hs : list handler) : list filters :=
    flat_map (fun x => match x with HFilter fs => [fs] | _ => [] end) hs.
  Definition h_exempts (hs : list handler) : list filters :=
    flat_map (fun x => match x with HExempt fs => [fs] | _ => [] end) hs.
  Definition o_adds (os : list mopt) : list filters :=
    flat_map (fun x => match x with OFilter fs => [fs] | _ => [] end) os.
  Definition o_exempts (os : list mopt) : list filters :=
    flat_map (fun x => match x with OExempt fs => [fs] | _ => [] end) os.

  (** what registration stores: for the declaration written [m(c).opts...] at a
      level, the filter slice of its routerAction.  A stored entry carries the
      declaring text so that it can be compared with the specification. *)
  Record stored : Type := St { st_ctl : ctl; st_meth : meth; st_opts : list mopt; st_slice : slice }.

  (** router.go:322-323, 342, 355: args.filters.append(m.filters...).remove(m.exempts...) *)
  Definition hmethod (h : fheap) (fs : slice) (os : list mopt) : fheap * slice :=
    let '(h1, mf) := hcalc h (o_adds os) in
    let '(h2, me) := hcalc h1 (o_exempts os) in
    let '(h3, s) := happend h2 fs (vals h2 mf) in
    hremove h3 s me.

  (** router.go:299-356: the methods of a level.  Simplification: All and Any
      declarations are handled in declaration order, and each one, not only the
      last, is stored; the panics of the controller checks are in RouterModel *)
  Fixpoint hmethods (h : fheap) (fs : slice) (hs : list handler) : fheap * list stored :=
    match hs with
    | [] => (h, [])
    | HMethod c m os :: hs' =>
        let '(h1, s) := hmethod h fs os in
        let '(h2, l) := hmethods h1 fs hs' in
        (h2, St c m os s :: l)
    | _ :: hs' => hmethods h fs hs'
    end.

  (** router.go:290-292 and the rest of configRoutes; [inh] is the slice of the
      enclosing level ([None] at the root, router_util.go: own list only).
      router.go:438: rtArgs.filters = args.filters.append(rtArgs.filters...) *)
  Definition hlevel (h : fheap) (inh : option slice) (hs : list handler) : fheap * slice :=
    let '(h1, own) := hcalc h (h_adds hs) in
    let '(h2, ex) := hcalc h1 (h_exempts hs) in
    let '(h3, all) := match inh with Some fs => happend h2 fs (vals h2 own) | None => (h2, own) end in
    hremove h3 all ex.

  Fixpoint hhandler (h : fheap) (fs : slice) (x : handler) {struct x} : fheap * list stored :=
    match x with
    | HRouter path hs =>
        match split_route_path path with
        | [] => (h, [])
        | p0 :: _ =>
            if is_nil p0 then (h, [])
            else
              let '(h1, fs') := hlevel h (Some fs) hs in
              let '(h2, l) := hmethods h1 fs' hs in
              let '(h3, l') :=
                (fix loop (h : fheap) (xs : list handler) : fheap * list stored :=
                   match xs with
                   | [] => (h, [])
                   | y :: xs' =>
                       let '(h1, l1) := hhandler h fs' y in
                       let '(h2, l2) := loop h1 xs' in (h2, l1 ++ l2)
                   end) h2 hs in
              (h3, l ++ l')
        end
    | _ => (h, [])
    end.
  Fixpoint hhandlers (h : fheap) (fs : slice) (xs : list handler) : fheap * list stored :=
    match xs with
    | [] => (h, [])
    | y :: xs' =>
        let '(h1, l1) := hhandler h fs y in
        let '(h2, l2) := hhandlers h1 fs xs' in (h2, l1 ++ l2)
    end.

  (** app.go:95-100: one Routers call; then a sequence of them *)
  Definition hrouters1 (h : fheap) (hs : list handler) : fheap * list stored :=
    let '(h1, fs) := hlevel h None hs in
    let '(h2, l) := hmethods h1 fs hs in
    let '(h3, l') := hhandlers h2 fs hs in (h3, l ++ l').
  Fixpoint hrouters (h : fheap) (prog : list (list handler)) : fheap * list stored :=
    match prog with
    | [] => (h, [])
    | hs :: prog' =>
        let '(h1, l1) := hrouters1 h hs in
        let '(h2, l2) := hrouters h1 prog' in (h2, l1 ++ l2)
    end.
End Filters.

(** ** MethodHandler builders (router_method.go) *)
Section Builders.
  Variable grow : nat -> nat.

  (** the elements of a methodParams slice *)
  Inductive bcell := BCtl (c : ctl) | BMeth (m : meth) | BOpt (o : mopt).
  Definition bheap := heap bcell.

  (** router_method.go:68-110: methodParams{makeRouterController(c), M} *)
  Definition bnew (h : bheap) (c : ctl) (m : meth) : bheap * slice :=
    smake h [Some (BCtl c); Some (BMeth m)] 2.

  (** router_method.go:48-66: Action stores the controller with the cached
      argument types back into element 0 of the (shared) array, then all three
      append their option *)
  Definition bderive (h : bheap) (s : slice) (o : mopt) : res (bheap * slice) :=
    match o with
    | OAction n =>
        match sread h s with
        | Some (BCtl c) :: _ =>
            do c' <- ensure_action c n;
            Ok (sappend grow (cell_set h (s_arr s) 0 (BCtl c')) s (BOpt o))
        | _ => Panic
        end
    | _ => Ok (sappend grow h s (BOpt o))
    end.

  (** a program of builder calls; results are numbered in order *)
  Inductive bop := BNew (c : ctl) (m : meth) | BDerive (i : nat) (o : mopt).
  Fixpoint brun (h : bheap) (hs : list slice) (ops : list bop) : res (bheap * list slice) :=
    match ops with
    | [] => Ok (h, hs)
    | BNew c m :: ops' => let '(h1, s) := bnew h c m in brun h1 (hs ++ [s]) ops'
    | BDerive i o :: ops' =>
        match nth_error hs i with
        | None => Panic
        | Some s => do x <- bderive h s o; let '(h1, s1) := x in brun h1 (hs ++ [s1]) ops'
        end
    end.

  (** what registration reads from a handler (router_util.go:23-44): the
      controller, the method and the options *)
  Definition bview (h : bheap) (s : slice) : list (option bcell) := sread h s.
End Builders.
