(** RegenConc: Regenerate of a session while other requests use the session. /repo/sessions/provider.go:172-188
    (Regenerate: four round trips; each is a step here, and steps of other requests come between), called by
    manager.go:98-127 with a valid cookie.

    Simplifications, beyond those of SessConc: one Regenerate; the other requests have the old id (the new one is
    not known to anybody before Regenerate returns). *)
From Coq Require Import List Ascii String Bool Arith ZArith Lia.
Import ListNotations.
From Verif Require Import GoStr GoNum ConvModel CacheModel SessModel SessConc.
Local Open Scope Z_scope.

Section Regen.
  Variable V : Type.
  Variable marshal : amap V -> option bytes.
  Variable unmarshal : bytes -> option (amap V).
  Variable c : scfg.
  Variables old new : bytes.

  (** provider.go:172-188: where Regenerate is *)
  Inductive rpc :=
  | AtGet                          (* 173 *)
  | AtSet (v : bytes)              (* 181 *)
  | AtDel                          (* 186 *)
  | AtRead                         (* 187 *)
  | AtEnd (r : rdres V).
  (** one round trip *)
  Definition rstep (now : Z) (s : store) (p : rpc) (f : fault) : store * rpc :=
    match p with
    | AtGet =>
        let r := call c now (OGet old) (s, [f]) in
        (fst (fst r), match snd r with RVal v => AtSet v | RMissed => AtEnd RdNotFound | _ => AtEnd RdErr end)
    | AtSet v =>
        let r := call c now (OSet new (AStr v) (Some (cf_expire c))) (s, [f]) in
        (fst (fst r), match snd r with RDone => AtDel | _ => AtEnd RdErr end)
    | AtDel => (fst (fst (p_destroy c now old (s, [f]))), AtRead)
    | AtRead => let r := p_read V unmarshal c now new (s, [f]) in (fst (fst r), AtEnd (snd r))
    | AtEnd _ => (s, p)
    end.
  (** what happens: something of SessConc (time passes, another request makes a call), or the next round trip of Regenerate *)
  Inductive xev := XOther (e : sev V) | XRegen (f : fault).
  Definition xst := (cst V * rpc)%type.
  Definition xstep (s : xst) (e : xev) : xst * list (nat * obs V) :=
    match e with
    | XOther e => let r := cstep V marshal unmarshal c old (fst s) e in ((fst r, snd s), snd r)
    | XRegen f => let r := rstep (c_now (fst s)) (c_store (fst s)) (snd s) f in ((CSt (fst r) (c_now (fst s)) (c_objs (fst s)), snd r), [])
    end.
  Fixpoint xrun (s : xst) (h : list xev) : xst * list (nat * obs V) :=
    match h with
    | [] => (s, [])
    | e :: h' => let (s1, o1) := xstep s e in let (s2, o2) := xrun s1 h' in (s2, o1 ++ o2)
    end.
End Regen.
Arguments AtGet {V}. Arguments AtSet {V}. Arguments AtDel {V}. Arguments AtRead {V}. Arguments AtEnd {V}.
Arguments XOther {V}. Arguments XRegen {V}.
