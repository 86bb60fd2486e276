(** StoreModel: the two session stores of /repo/sessions, provider.go:19-128,205-218 and store_dummy.go:7-93, with the
    maps they use kept on a heap, so that it can be seen who shares a map with whom.

    Simplifications:
    - a value is of any type [V] with a nil value; Get's wrapper utils.Value is the value it wraps;
    - what the cache and the converter answer to save, Destroy and Touch is an oracle of everything asked before
      ([None]: no error); the map saved is passed to it as it is at that moment;
    - one goroutine uses a store and its maps at a time. *)
From Coq Require Import List Ascii String Bool Arith Lia.
Import ListNotations.
From Verif Require Import GoStr.

Section Store.
  Variable V E : Type.
  Variable vnil : V.

  (** what a session asks of its provider *)
  Inductive ask := ASave (sid : bytes) (m : amap V) | ADelete (sid : bytes) | ATouch (sid : bytes).
  Variable reply : list ask -> ask -> option E.

  (** a reference to a map is its place on the heap *)
  Definition heap := list (amap V).
  Definition at_ (h : heap) (r : nat) : amap V := nth r h [].
  Fixpoint put (h : heap) (r : nat) (m : amap V) : heap :=
    match h, r with
    | [], _ => []
    | _ :: h', 0 => m :: h'
    | x :: h', S r' => x :: put h' r' m
    end.

  (** What a program does with a store. It holds maps too: the one it gave when it made the store and those it got from
      Values, numbered in this order. *)
  Inductive cmd :=
  | CSid | CSet (k : bytes) (v : V) | CGet (k : bytes) | CDelete (k : bytes) | CHas (k : bytes) | CValues | CClean
  | CFlush | CDestroy | CTouch
  | UPut (i : nat) (k : bytes) (v : V) | UDel (i : nat) (k : bytes) | UGet (i : nat) (k : bytes) | ULen (i : nat).
  Inductive out := OUnit | OSid (s : bytes) | OVal (v : V) | OBool (b : bool) | OErr (e : option E) | OFound (v : option V) | OLen (n : nat).

  (** provider.go:19-22, 39-45 sessData with its sessStore; store_dummy.go:7-13 *)
  Record store := mkStore { st_sid : bytes; st_ref : nat; st_changed : bool; st_closed : bool }.
  Record world := mkWorld { w_heap : heap; w_user : list nat; w_store : store; w_asked : list ask }.

  Definition set_store (w : world) (s : store) : world := mkWorld (w_heap w) (w_user w) s (w_asked w).
  Definition set_heap (w : world) (h : heap) : world := mkWorld h (w_user w) (w_store w) (w_asked w).
  Definition asking (w : world) (a : ask) : world * out := (mkWorld (w_heap w) (w_user w) (w_store w) (w_asked w ++ [a]), OErr (reply (w_asked w) a)).
  Definition current (w : world) : amap V := at_ (w_heap w) (st_ref (w_store w)).

  (** provider.go:67-102, store_dummy.go:22-55: Set, Get, Delete, Has, Values, Clean are the same text *)
  Definition s_set (k : bytes) (v : V) (w : world) : world :=
    let s := w_store w in set_store (set_heap w (put (w_heap w) (st_ref s) (aset (current w) k v))) (mkStore (st_sid s) (st_ref s) true (st_closed s)).
  Definition s_get (k : bytes) (w : world) : V := match aget (current w) k with Some v => v | None => vnil end.
  Definition s_delete (k : bytes) (w : world) : world :=
    let s := w_store w in set_store (set_heap w (put (w_heap w) (st_ref s) (adel (current w) k))) (mkStore (st_sid s) (st_ref s) true (st_closed s)).
  Definition s_has (k : bytes) (w : world) : bool := match aget (current w) k with Some _ => true | None => false end.
  Definition s_values (w : world) : world := mkWorld (w_heap w ++ [current w]) (w_user w ++ [List.length (w_heap w)]) (w_store w) (w_asked w).
  Definition s_clean (w : world) : world :=
    let s := w_store w in set_store (set_heap w (w_heap w ++ [[]])) (mkStore (st_sid s) (List.length (w_heap w)) true (st_closed s)).

  (** provider.go:105-118 Flush, with 211-218 save *)
  Definition sess_flush (w : world) : world * out :=
    let s := w_store w in
    if st_closed s then (w, OErr None) else
    if negb (st_changed s) then (w, OErr None) else
    let w := set_store w (mkStore (st_sid s) (st_ref s) false (st_closed s)) in
    asking w (ASave (st_sid s) (current w)).
  (** provider.go:121-125 Destroy *)
  Definition sess_destroy (w : world) : world * out :=
    let s := w_store w in
    asking (set_store (set_heap w (w_heap w ++ [[]])) (mkStore (st_sid s) (List.length (w_heap w)) (st_changed s) true)) (ADelete (st_sid s)).
  (** provider.go:127-129 Touch *)
  Definition sess_touch (w : world) : world * out := asking w (ATouch (st_sid (w_store w))).

  (** store_dummy.go:57-70 Flush *)
  Definition dummy_flush (w : world) : world * out :=
    let s := w_store w in
    if st_closed s then (w, OErr None) else
    if negb (st_changed s) then (w, OErr None) else
    (set_store w (mkStore (st_sid s) (st_ref s) false (st_closed s)), OErr None).
  (** store_dummy.go:72-76 Destroy *)
  Definition dummy_destroy (w : world) : world * out :=
    let s := w_store w in
    (set_store (set_heap w (w_heap w ++ [[]])) (mkStore (st_sid s) (List.length (w_heap w)) (st_changed s) true), OErr None).
  (** store_dummy.go:78-80 Touch *)
  Definition dummy_touch (w : world) : world * out := (w, OErr None).

  (** the program's own maps *)
  Definition user_map (w : world) (i : nat) (f : amap V -> amap V) : world :=
    match nth_error (w_user w) i with Some r => set_heap w (put (w_heap w) r (f (at_ (w_heap w) r))) | None => w end.
  Definition user_look {A} (w : world) (i : nat) (f : amap V -> A) (d : A) : A :=
    match nth_error (w_user w) i with Some r => f (at_ (w_heap w) r) | None => d end.

  Section Step.
    Variable flush destroy touch : world -> world * out.
    Definition step (c : cmd) (w : world) : world * out :=
      match c with
      | CSid => (w, OSid (st_sid (w_store w)))
      | CSet k v => (s_set k v w, OUnit)
      | CGet k => (w, OVal (s_get k w))
      | CDelete k => (s_delete k w, OUnit)
      | CHas k => (w, OBool (s_has k w))
      | CValues => (s_values w, OUnit)
      | CClean => (s_clean w, OUnit)
      | CFlush => flush w
      | CDestroy => destroy w
      | CTouch => touch w
      | UPut i k v => (user_map w i (fun m => aset m k v), OUnit)
      | UDel i k => (user_map w i (fun m => adel m k), OUnit)
      | UGet i k => (w, OFound (user_look w i (fun m => aget m k) None))
      | ULen i => (w, OLen (user_look w i (@List.length _) 0))
      end.
    Fixpoint run (cs : list cmd) (w : world) : world * list out :=
      match cs with
      | [] => (w, [])
      | c :: cs => let (w, o) := step c w in let (w, os) := run cs w in (w, o :: os)
      end.
  End Step.
  Definition sess_run := run sess_flush sess_destroy sess_touch.
  Definition dummy_run := run dummy_flush dummy_destroy dummy_touch.

  (** The map given by the program: [None] none at all, [Some None] a nil map, [Some (Some m)] the map m, at place 0. *)
  (** provider.go:24-37, 49-60, 205-209 create: sharing the map; changed iff a map was given, be it nil *)
  Definition sess_create (sid : bytes) (given : option (option (amap V))) : world :=
    match given with
    | Some (Some m) => mkWorld [m] [0] (mkStore sid 0 true false) []
    | Some None => mkWorld [[]] [] (mkStore sid 0 true false) []
    | None => mkWorld [[]] [] (mkStore sid 0 false false) []
    end.
  (** provider.go:152-169 Read: the map is what was unmarshalled, nobody else has it *)
  Definition sess_read (sid : bytes) (m : amap V) : world := mkWorld [m] [] (mkStore sid 0 false false) [].
  (** store_dummy.go:82-93 NewDummySessionStore: changed iff the map is nil *)
  Definition dummy_create (sid : bytes) (given : option (amap V)) : world :=
    match given with
    | Some m => mkWorld [m] [0] (mkStore sid 0 false false) []
    | None => mkWorld [[]] [] (mkStore sid 0 true false) []
    end.
End Store.
