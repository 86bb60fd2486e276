(** SessConc: several requests with the same session at once. Every request has a session object of its own
    (/repo/sessions/manager.go:49-69 Start reads it from the cache, provider.go:152-169); its values live in the object
    until Flush writes all of them back (provider.go:105-118, 211-218). Nothing locks: requests meet in the cache only.

    Simplifications, beyond those of SessModel: the cookie is valid and carries the same id for all requests; one method
    call is one step (each makes at most one round trip; what a step does to the object is seen by its own request only). *)
From Coq Require Import List Ascii String Bool Arith ZArith Lia.
Import ListNotations.
From Verif Require Import GoStr GoNum ConvModel CacheModel SessModel.
Local Open Scope Z_scope.

Section Conc.
  Variable V : Type.
  Variable marshal : amap V -> option bytes.
  Variable unmarshal : bytes -> option (amap V).
  Variable c : scfg.
  Variable sid : bytes.

  Inductive rop := QStart | QSet (k : bytes) (v : V) | QDelete (k : bytes) | QClean | QGet (k : bytes) | QFlush | QDestroy.
  (** time passes; request r makes a call, with the fault of its round trip *)
  Inductive sev := EWait (d : Z) | EOp (r : nat) (f : fault) (o : rop).
  Inductive obs := OStarted | OStartErr | OGot (v : option V) | OFlushed (ok : bool) | ODone | ONil.
  Record cst := CSt { c_store : store; c_now : Z; c_objs : nat -> option (sess V) }.
  Definition set_obj (s : cst) (r : nat) (x : option (sess V)) : nat -> option (sess V) := fun q => if Nat.eqb q r then x else c_objs s q.

  Definition cstep (s : cst) (e : sev) : cst * list (nat * obs) :=
    match e with
    | EWait d => (CSt (c_store s) (c_now s + d) (c_objs s), [])
    | EOp r f QStart =>
        (* manager.go:55-66 *)
        let rd := p_read V unmarshal c (c_now s) sid (c_store s, [f]) in
        match snd rd with
        | RdOk x => (CSt (fst (fst rd)) (c_now s) (set_obj s r (Some x)), [(r, OStarted)])
        | RdNotFound => (CSt (fst (fst rd)) (c_now s) (set_obj s r (Some (p_create V sid None))), [(r, OStarted)])
        | RdErr => (CSt (fst (fst rd)) (c_now s) (set_obj s r None), [(r, OStartErr)])
        end
    | EOp r f o =>
        match c_objs s r with
        | None => (s, [(r, ONil)])
        | Some x =>
            match o with
            | QSet k v => (CSt (c_store s) (c_now s) (set_obj s r (Some (s_set V k v x))), [(r, ODone)])
            | QDelete k => (CSt (c_store s) (c_now s) (set_obj s r (Some (s_delete V k x))), [(r, ODone)])
            | QClean => (CSt (c_store s) (c_now s) (set_obj s r (Some (s_clean V x))), [(r, ODone)])
            | QGet k => (s, [(r, OGot (s_get V k x))])
            | QFlush =>
                let '(x', n, e) := s_flush V marshal c (c_now s) x (c_store s, [f]) in
                (CSt (fst n) (c_now s) (set_obj s r (Some x')), [(r, OFlushed match e with SFine => true | SFailed => false end)])
            | QDestroy =>
                let '(x', n, _) := s_destroy V c (c_now s) x (c_store s, [f]) in
                (CSt (fst n) (c_now s) (set_obj s r (Some x')), [(r, ODone)])
            | QStart => (s, [])
            end
        end
    end.
  Fixpoint crun (s : cst) (h : list sev) : cst * list (nat * obs) :=
    match h with
    | [] => (s, [])
    | e :: h' => let (s1, o1) := cstep s e in let (s2, o2) := crun s1 h' in (s2, o1 ++ o2)
    end.
End Conc.
Arguments QStart {V}. Arguments QSet {V}. Arguments QDelete {V}. Arguments QClean {V}. Arguments QGet {V}. Arguments QFlush {V}. Arguments QDestroy {V}.
Arguments EWait {V}. Arguments EOp {V}.
Arguments OStarted {V}. Arguments OStartErr {V}. Arguments OGot {V}. Arguments OFlushed {V}. Arguments ODone {V}. Arguments ONil {V}.
Arguments CSt {V}. Arguments c_store {V}. Arguments c_now {V}. Arguments c_objs {V}.
