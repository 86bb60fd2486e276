(** CtlModel: the struct controllers of concurrent requests. A controller is registered once;
    callStructFunc (router_action.go:113-152) copies the registered struct for each request,
    Apply (inject/inject.go:186-266) fills the tagged fields, then the method runs on the copy.
    Here the memory is explicit: what is copied and what stays shared.

    Simplifications:
    - what the injector finds for a name is given ([lookup]); InjectModel says what it is;
    - one write of a field, one read of a field and the copying of the struct are atomic steps
      (in Go the copy is not: a race then only makes more outcomes possible);
    - handlers read and write fields; they neither store pointers nor start goroutines. *)
From Coq Require Import List Bool Arith Lia.
Import ListNotations.

(** a field, as Apply sees it (inject.go:207-263) *)
Inductive field :=
| FInject (key : nat) (v : nat)      (* can be set and has an inject tag: key is the name looked up, v the content *)
| FStruct (fs : list field)          (* a struct, no tag *)
| FRef (a : option nat)              (* no tag; a pointer to a struct, or an interface holding one (None: nil) *)
| FPlain (v : nat).                  (* everything else: cannot be set, tag -, or neither struct nor pointer to one *)
Definition object := list field.
Definition heap := list object.
(** a field of the request's own struct, or of the object at an address; fields of structs inside by path *)
Inductive place := Own | At (a : nat).
Definition loc := (place * list nat)%type.

(** reading and writing a leaf *)
Fixpoint read_in (p : list nat) (fs : object) : option nat :=
  match p with
  | [] => None
  | i :: p' =>
      match nth_error fs i with
      | Some (FInject _ v) | Some (FPlain v) => match p' with [] => Some v | _ => None end
      | Some (FStruct sub) => read_in p' sub
      | _ => None
      end
  end.
Fixpoint upd {A} (l : list A) (i : nat) (x : A) : list A :=
  match l, i with [], _ => [] | _ :: l', O => x :: l' | y :: l', S i' => y :: upd l' i' x end.
Fixpoint write_in (p : list nat) (v : nat) (fs : object) : object :=
  match p with
  | [] => fs
  | i :: p' =>
      match nth_error fs i with
      | Some (FInject k w) => match p' with [] => upd fs i (FInject k v) | _ => fs end
      | Some (FPlain w) => match p' with [] => upd fs i (FPlain v) | _ => fs end
      | Some (FStruct sub) => upd fs i (FStruct (write_in p' v sub))
      | _ => fs
      end
  end.

(** inject.go:195-266 apply: the tagged fields in the order they are filled. [left] levels may
    still be entered (INJECT_MAX_RECURSIVE_LEVEL = 3 in all). Apply changes no pointer, so
    the places can be listed beforehand. *)
Fixpoint targets_lvl (left : nat) (h : heap) (pl : place) (path : list nat) (fs : object) : list (loc * nat) :=
  (fix go (i : nat) (fs : object) : list (loc * nat) :=
     match fs with
     | [] => []
     | f :: fs' =>
         (match f with
          | FInject key _ => [((pl, path ++ [i]), key)]
          | FStruct sub => match left with O => [] | S l => targets_lvl l h pl (path ++ [i]) sub end
          | FRef (Some a) => match left with O => [] | S l => targets_lvl l h (At a) [] (nth a h []) end
          | FRef None | FPlain _ => []
          end) ++ go (S i) fs'
     end) 0 fs.
Definition max_level : nat := 3.                                (* inject.go:8-10 *)
Definition targets (h : heap) (fs : object) : list (loc * nat) := targets_lvl (max_level - 1) h Own [] fs.

(** what a lookup gives for a field: a value to set; nothing (a nil pointer, or a value that cannot
    be assigned: the error is dropped, inject.go:240); an error *)
Inductive lookup := LSet (v : nat) | LKeep | LFail.
(** the method: reads and writes fields of the memory; what it sees is its answer *)
Inductive code := CEnd | CRead (l : loc) (k : option nat -> code) | CWrite (l : loc) (v : nat) (k : code).
(** how the controller was registered: by value, by pointer, or as a nil pointer (router_action.go:138-141) *)
Inductive template := TVal (fs : object) | TPtr (a : nat) | TNil (zero : object).
Record request : Type := Req { q_template : template; q_inject : nat -> lookup; q_code : code }.

(** where a request is; [seen]: what its method read, newest first *)
Inductive rpc :=
| Start
| Filling (own : object) (todo : list (loc * nat))
| Running (own : object) (c : code) (seen : list (option nat))
| Answered (seen : list (option nat))
| Failed.                                          (* Apply gave an error: panic *)
Definition copy_of (t : template) (h : heap) : object := match t with TVal fs => fs | TPtr a => nth a h [] | TNil z => z end.
Definition mem_read (l : loc) (own : object) (h : heap) : option nat :=
  match fst l with Own => read_in (snd l) own | At a => read_in (snd l) (nth a h []) end.
Definition mem_write (l : loc) (v : nat) (own : object) (h : heap) : object * heap :=
  match fst l with Own => (write_in (snd l) v own, h) | At a => (own, upd h a (write_in (snd l) v (nth a h []))) end.

(** one step of a request: router_action.go:113-152 *)
Definition step (q : request) (pc : rpc) (h : heap) : rpc * heap :=
  match pc with
  | Start => let own := copy_of (q_template q) h in (Filling own (targets h own), h)
  | Filling own [] => (Running own (q_code q) [], h)
  | Filling own ((l, key) :: todo) =>
      match q_inject q key with
      | LSet v => let (own', h') := mem_write l v own h in (Filling own' todo, h')
      | LKeep => (Filling own todo, h)
      | LFail => (Failed, h)
      end
  | Running own CEnd seen => (Answered seen, h)
  | Running own (CRead l k) seen => let x := mem_read l own h in (Running own (k x) (x :: seen), h)
  | Running own (CWrite l v k) seen => let (own', h') := mem_write l v own h in (Running own' k seen, h')
  | Answered _ | Failed => (pc, h)
  end.

(** concurrent requests: a schedule names the request that makes the next step *)
Definition state := (list rpc * heap)%type.
Definition sched_step (qs : list request) (s : state) (r : nat) : state :=
  match nth_error qs r, nth_error (fst s) r with
  | Some q, Some pc => let (pc', h') := step q pc (snd s) in (upd (fst s) r pc', h')
  | _, _ => s
  end.
Definition run (qs : list request) (h : heap) (sched : list nat) : state :=
  fold_left (sched_step qs) sched (map (fun _ => Start) qs, h).
