(** WorkerModel: utils/worker.go as a small-step interleaving machine.

    Any number of goroutines run at once; one scheduler step executes one
    atomic action of one goroutine.  The actions are the operations of the
    code of /repo/utils/worker.go on its shared state (read/write lock, wait
    group, channel, the fields closed and err), one action per operation, so
    every interleaving of those operations is an execution here.

    Simplifications:
    - a panic inside a task (which ends the process) is not modelled;
    - accesses to err are atomic here (in Wait, lines 37-38, they are not
      protected by the lock, so in Go they are data races as well);
    - user code is a possibly infinite tree whose only interaction with the
      rest is through this worker; whatever else it does (computing, reading
      clocks or other shared variables) is the action [Ask], which may take
      arbitrarily long and yields an arbitrary number;
    - the read/write lock: a writer first announces itself, which keeps new
      readers out, then waits for the present readers (sync.RWMutex). When a
      writer leaves, waiting readers compete with the next writer, which is
      one more behaviour than Go has;
    - the number given to NewWorker is not negative (make would panic). *)
From Coq Require Import List Bool Arith.
Import ListNotations.

(** error values *)
Definition err_t := nat.
(** the dynamic type of the task: func(), func() error, or anything else
    (worker.go:49-64, the type switch) *)
Inductive kind := KFunc | KErr | KOther.

(** what a goroutine of the user (a main goroutine or a task body) does *)
CoInductive prog :=
| Ret (e : option err_t)                       (* returns; the value only matters in a func() error *)
| Ask (k : nat -> prog)                        (* anything else *)
| Submit (kd : kind) (body next : prog)        (* w.RunTask(body) *)
| WaitFor (k : option err_t -> prog)           (* err := w.Wait() *)
| CloseIt (next : prog).                       (* w.Close() *)

(** who a goroutine is: one of the user's, or the goroutine of a task *)
Inductive role := RMain | RTask (i : nat) (kd : kind).

(** where a goroutine is *)
Inductive pc :=
| PUser (p : prog)                             (* in user code *)
(* RunTask, worker.go:22-33; i names the call *)
| PRLock (i : nat) (kd : kind) (b nx : prog)   (* 23: w.rw.RLock() *)
| PCheck (i : nat) (kd : kind) (b nx : prog)   (* 24: if w.closed *)
| PAdd (i : nat) (kd : kind) (b nx : prog)     (* 28: w.wg.Add(1) *)
| PSend (i : nat) (kd : kind) (b nx : prog)    (* 29: w.pools <- true *)
| PRUnlock (acc : bool) (i : nat) (kd : kind) (b nx : prog)  (* 25 or 30: w.rw.RUnlock() *)
| PGo (i : nat) (kd : kind) (b nx : prog)      (* 32: go w.run(task) *)
(* Wait, worker.go:35-40; j names the call *)
| PWait (j : nat) (k : option err_t -> prog)   (* 36: w.wg.Wait(), reading the counter *)
| PSleep (j : nat) (k : option err_t -> prog)  (* 36: asleep in w.wg.Wait() *)
| PWake (j : nat) (k : option err_t -> prog)   (* 36: woken, checks that the wait group was not reused *)
| PRead (j : nat) (k : option err_t -> prog)   (* 37: err = w.err *)
| PClear (j : nat) (e : option err_t) (k : option err_t -> prog)  (* 38: w.err = nil *)
(* Close, worker.go:42-46; j names the call *)
| PLock (j : nat) (nx : prog)                  (* 43: w.rw.Lock(), announcing *)
| PPend (j : nat) (nx : prog)                  (* 43: w.rw.Lock(), waiting for the readers *)
| PClose1 (j : nat) (nx : prog)                (* 44, 73-76: close(): test and set closed *)
| PClose2 (j : nat) (nx : prog)                (* 44, 77: close(w.pools) *)
| PUnlock (j : nat) (nx : prog)                (* 45: w.rw.Unlock() *)
(* run, worker.go:48-65, around the user's task *)
| PStart (b : prog)                            (* 49: the type switch *)
| PRecv (r : option err_t)                     (* 68: <-w.pools *)
| PDone (r : option err_t)                     (* 69: w.wg.Done(), the decrement *)
| PNotify (w : nat) (r : option err_t)         (* 69: w.wg.Done(), waking the w waiters *)
| PELock (e : err_t)                           (* 57: w.rw.Lock(), announcing *)
| PEPend (e : err_t)                           (* 57: w.rw.Lock(), waiting *)
| PEClose1 (e : err_t)                         (* 58, 59, 76: if !w.closed, set closed *)
| PEClose2 (e : err_t)                         (* 59, 77: close(w.pools) *)
| PEStore (e : err_t)                          (* 60: w.err = err *)
| PEUnlock                                     (* 62: w.rw.Unlock() *)
| PHung                                        (* run returned without calling done: 49-64, no case matches *)
| PEnd.                                        (* the goroutine is over *)

Record thread := Th { rl : role; at_ : pc }.

(** the writer's side of the lock *)
Inductive wstate := WNone | WPend | WHeld.
(** ways the process can die *)
Inductive crash :=
| SendOnClosed | CloseOfClosed
| NegativeCounter                              (* sync: negative WaitGroup counter *)
| AddWithWait                                  (* sync: WaitGroup misuse: Add called concurrently with Wait *)
| ReusedWait.                                  (* sync: WaitGroup is reused before previous Wait has returned *)

(** worker.go:12-20, with the state of the lock, the wait group and the channel *)
Record sh := Sh {
  cap : nat;                                   (* cap(w.pools) *)
  buf : nat;                                   (* len(w.pools) *)
  chclosed : bool;                             (* the channel is closed *)
  closed : bool;                               (* w.closed *)
  err : option err_t;                          (* w.err *)
  rds : nat;                                   (* readers holding w.rw *)
  ws : wstate;
  cnt : nat;                                   (* counter of w.wg *)
  wts : nat;                                   (* sleeping waiters of w.wg *)
  sema : nat;                                  (* wake-ups not yet taken *)
  ntask : nat; nwait : nat; nclose : nat;      (* names for the next calls; not in the code *)
  dead : option crash }.

(** what can be seen from outside *)
Inductive event :=
| ECall (by_task : bool) (i : nat)             (* RunTask is called *)
| ERet (by_task : bool) (i : nat) (acc : bool) (* RunTask returns; acc: it started a goroutine for the task *)
| EStart (i : nat)                             (* the task's function is entered *)
| EEnd (i : nat) (r : option err_t)            (* the task's function has returned; r: its error *)
| EStored (i : nat) (e : err_t)                (* the worker has recorded the task's error (worker.go:60) *)
| EOver (i : nat)                              (* the goroutine of a failed task is over (worker.go:62) *)
| EWait (j : nat) | EWaited (j : nat) (r : option err_t)  (* Wait is called, returns *)
| EClose (j : nat) | EClosed (j : nat).        (* Close is called, returns *)

Definition set_rds s x := Sh (cap s) (buf s) (chclosed s) (closed s) (err s) x (ws s) (cnt s) (wts s) (sema s) (ntask s) (nwait s) (nclose s) (dead s).
Definition set_ws s x := Sh (cap s) (buf s) (chclosed s) (closed s) (err s) (rds s) x (cnt s) (wts s) (sema s) (ntask s) (nwait s) (nclose s) (dead s).
Definition set_wg s c w m := Sh (cap s) (buf s) (chclosed s) (closed s) (err s) (rds s) (ws s) c w m (ntask s) (nwait s) (nclose s) (dead s).
Definition set_buf s x := Sh (cap s) x (chclosed s) (closed s) (err s) (rds s) (ws s) (cnt s) (wts s) (sema s) (ntask s) (nwait s) (nclose s) (dead s).
Definition set_chclosed s := Sh (cap s) (buf s) true (closed s) (err s) (rds s) (ws s) (cnt s) (wts s) (sema s) (ntask s) (nwait s) (nclose s) (dead s).
Definition set_closed s := Sh (cap s) (buf s) (chclosed s) true (err s) (rds s) (ws s) (cnt s) (wts s) (sema s) (ntask s) (nwait s) (nclose s) (dead s).
Definition set_err s x := Sh (cap s) (buf s) (chclosed s) (closed s) x (rds s) (ws s) (cnt s) (wts s) (sema s) (ntask s) (nwait s) (nclose s) (dead s).
Definition set_names s a b c := Sh (cap s) (buf s) (chclosed s) (closed s) (err s) (rds s) (ws s) (cnt s) (wts s) (sema s) a b c (dead s).
Definition die s x := Sh (cap s) (buf s) (chclosed s) (closed s) (err s) (rds s) (ws s) (cnt s) (wts s) (sema s) (ntask s) (nwait s) (nclose s) (Some x).

Definition is_task (r : role) : bool := match r with RMain => false | RTask _ _ => true end.
(** the error a task of that kind reports: none for func() (worker.go:50-52) *)
Definition reported (kd : kind) (e : option err_t) : option err_t := match kd with KErr => e | _ => None end.

Definition outcome := (sh * option event * thread * list thread)%type.

(** one action of one goroutine: the new shared state, the visible event, the
    goroutine afterwards and the goroutines it started; None if it must wait.
    [x] is what an [Ask] yields. *)
Definition lstep (s : sh) (t : thread) (x : nat) : option outcome :=
  let r := rl t in
  let go s' p := Some (s', None, Th r p, []) in
  let ev s' e p := Some (s', Some e, Th r p, []) in
  let fatal c := Some (die s c, None, t, []) in
  match at_ t with
  | PUser (Ret e) =>
    match r with
    | RMain => go s PEnd
    | RTask i kd => ev s (EEnd i (reported kd e)) (PRecv (reported kd e))
    end
  | PUser (Ask k) => go s (PUser (k x))
  | PUser (Submit kd b nx) => ev (set_names s (S (ntask s)) (nwait s) (nclose s)) (ECall (is_task r) (ntask s)) (PRLock (ntask s) kd b nx)
  | PUser (WaitFor k) => ev (set_names s (ntask s) (S (nwait s)) (nclose s)) (EWait (nwait s)) (PWait (nwait s) k)
  | PUser (CloseIt nx) => ev (set_names s (ntask s) (nwait s) (S (nclose s))) (EClose (nclose s)) (PLock (nclose s) nx)
  (* RunTask *)
  | PRLock i kd b nx => match ws s with WNone => go (set_rds s (S (rds s))) (PCheck i kd b nx) | _ => None end
  | PCheck i kd b nx => if closed s then go s (PRUnlock false i kd b nx) else go s (PAdd i kd b nx)
  | PAdd i kd b nx =>
    if (negb (wts s =? 0) && (cnt s =? 0))%bool then fatal AddWithWait
    else go (set_wg s (S (cnt s)) (wts s) (sema s)) (PSend i kd b nx)
  | PSend i kd b nx =>
    if chclosed s then fatal SendOnClosed
    else if buf s <? cap s then go (set_buf s (S (buf s))) (PRUnlock true i kd b nx) else None
  | PRUnlock acc i kd b nx =>
    if acc then go (set_rds s (pred (rds s))) (PGo i kd b nx)
    else ev (set_rds s (pred (rds s))) (ERet (is_task r) i false) (PUser nx)
  | PGo i kd b nx => Some (s, Some (ERet (is_task r) i true), Th r (PUser nx), [Th (RTask i kd) (PStart b)])
  (* Wait *)
  | PWait j k => if cnt s =? 0 then go s (PRead j k) else go (set_wg s (cnt s) (S (wts s)) (sema s)) (PSleep j k)
  | PSleep j k => match sema s with S m => go (set_wg s (cnt s) (wts s) m) (PWake j k) | O => None end
  | PWake j k => if ((cnt s =? 0) && (wts s =? 0))%bool then go s (PRead j k) else fatal ReusedWait
  | PRead j k => go s (PClear j (err s) k)
  | PClear j e k => ev (set_err s None) (EWaited j e) (PUser (k e))
  (* Close *)
  | PLock j nx => match ws s with WNone => go (set_ws s WPend) (PPend j nx) | _ => None end
  | PPend j nx => if rds s =? 0 then go (set_ws s WHeld) (PClose1 j nx) else None
  | PClose1 j nx => if closed s then go s (PUnlock j nx) else go (set_closed s) (PClose2 j nx)
  | PClose2 j nx => if chclosed s then fatal CloseOfClosed else go (set_chclosed s) (PUnlock j nx)
  | PUnlock j nx => ev (set_ws s WNone) (EClosed j) (PUser nx)
  (* run *)
  | PStart b =>
    match r with
    | RTask i KOther => go s PHung
    | RTask i _ => ev s (EStart i) (PUser b)
    | RMain => None
    end
  | PRecv e =>
    if 0 <? buf s then go (set_buf s (pred (buf s))) (PDone e)
    else if chclosed s then go s (PDone e) else None
  | PDone e =>
    match cnt s with
    | O => fatal NegativeCounter
    | S c =>
      let s' := set_wg s c (wts s) (sema s) in
      if ((c =? 0) && negb (wts s =? 0))%bool then go s' (PNotify (wts s) e)
      else match e with Some e' => go s' (PELock e') | None => go s' PEnd end
    end
  | PNotify w e =>
    let s' := set_wg s 0 0 (sema s + w) in
    if ((cnt s =? 0) && (wts s =? w))%bool then match e with Some e' => go s' (PELock e') | None => go s' PEnd end
    else fatal AddWithWait
  | PELock e => match ws s with WNone => go (set_ws s WPend) (PEPend e) | _ => None end
  | PEPend e => if rds s =? 0 then go (set_ws s WHeld) (PEClose1 e) else None
  | PEClose1 e => if closed s then go s PEUnlock else go (set_closed s) (PEClose2 e)
  | PEClose2 e => if chclosed s then fatal CloseOfClosed else go (set_chclosed s) (PEStore e)
  | PEStore e => match r with RTask i _ => ev (set_err s (Some e)) (EStored i e) PEUnlock | RMain => None end
  | PEUnlock => match r with RTask i _ => ev (set_ws s WNone) (EOver i) PEnd | RMain => None end
  | PHung => None
  | PEnd => None
  end.

Record conf := Conf { shared : sh; ths : list thread }.

Fixpoint upd {A} (l : list A) (i : nat) (a : A) : list A :=
  match l, i with
  | [], _ => []
  | _ :: l', O => a :: l'
  | b :: l', S i' => b :: upd l' i' a
  end.

(** the scheduler lets goroutine [i] make a step; a dead process makes none *)
Definition gstep (c : conf) (i x : nat) : option (option event * conf) :=
  match dead (shared c) with
  | Some _ => None
  | None =>
    match nth_error (ths c) i with
    | None => None
    | Some t =>
      match lstep (shared c) t x with
      | None => None
      | Some (s', e, t', new) => Some (e, Conf s' (upd (ths c) i t' ++ new))
      end
    end
  end.

(** NewWorker(n), worker.go:80-84, in a program whose goroutines run [mains] *)
Definition start (n : nat) (mains : list prog) : conf :=
  Conf (Sh n 0 false false None 0 WNone 0 0 0 0 0 0 None) (map (fun p => Th RMain (PUser p)) mains).

Definition opt_list {A} (o : option A) : list A := match o with Some a => [a] | None => [] end.

(** executions with what is seen of them *)
Inductive exec : conf -> list event -> conf -> Prop :=
| exec_nil c : exec c [] c
| exec_step c tr c1 i x e c2 : exec c tr c1 -> gstep c1 i x = Some (e, c2) -> exec c (tr ++ opt_list e) c2.

(** to run a given schedule *)
Fixpoint play (c : conf) (sched : list (nat * nat)) (tr : list event) : option (list event * conf) :=
  match sched with
  | [] => Some (tr, c)
  | (i, x) :: r => match gstep c i x with Some (e, c') => play c' r (tr ++ opt_list e) | None => None end
  end.
