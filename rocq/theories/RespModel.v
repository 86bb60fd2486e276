(** RespModel: /repo/response.go (responseWriter), over the net/http server
    connection it wraps.  *)
From Coq Require Import List Ascii String Bool Arith ZArith Lia.
Import ListNotations.
From Verif Require Import GoStr.
Local Open Scope Z_scope.

(** *** What can be seen on the connection and around it
    Newest event first. [WHook i] marks the start of the i-th registered hook
    (registration order), the other events are what net/http puts on the wire. *)
Inductive wev :=
| WHeader (status : Z)     (* the final response header left with this status *)
| WInfo (status : Z)       (* an informational 1xx header left (net/http >= 1.19) *)
| WBody (b : bytes)        (* body bytes accepted by the connection, non-empty *)
| WHook (i : nat).

(** *** net/http's response (server.go), the wrapped http.ResponseWriter.
    Not in /repo; modelled from its documented behaviour:
    - WriteHeader after the header left or after Hijack: ignored (logged);
    - WriteHeader with a code outside 100..999: panic;
    - 1xx other than 101: informational header, the response stays open;
    - Write before any header: implicit WriteHeader(200);
    - Write of no bytes: nothing; with status 1xx, 204, 304: ErrBodyNotAllowed, 0 bytes;
    - Write after Hijack: ErrHijacked, 0 bytes;
    - Flush before any header: implicit WriteHeader(200).
    The connection may accept fewer bytes than offered: [accept] decides, from
    everything seen so far, how many. Header maps, Content-Length checks and
    trailers are not modelled. *)
Inductive hook :=
| HRet
| HWriteHeader (s : Z) (k : hook)
| HWrite (b : bytes) (k : hook)
| HBefore (h : hook) (k : hook)
| HFlush (k : hook)
| HSee (k : Z -> Z -> bool -> hook)   (* Status(), Size(), Written() *)
| HPanic.

(** response.go:43-52 plus the wrapped writer's own state *)
Record rw : Type := RW {
  r_status : Z;                (* status *)
  r_size : Z;                  (* size *)
  r_hooks : list hook;         (* beforeFuncs *)
  r_once : bool;               (* once has fired *)
  r_hij : bool;                (* hijacked (both ours and net/http's flag) *)
  r_sent : option Z;           (* net/http wroteHeader, with the status *)
  r_log : list wev
}.
(** response.go:33-41 *)
Definition rw0 : rw := RW 0 0 [] false false None [].

Definition set_status (w : rw) (s : Z) : rw := RW s (r_size w) (r_hooks w) (r_once w) (r_hij w) (r_sent w) (r_log w).
Definition add_size (w : rw) (n : Z) : rw := RW (r_status w) (r_size w + n) (r_hooks w) (r_once w) (r_hij w) (r_sent w) (r_log w).
Definition add_hook (w : rw) (h : hook) : rw := RW (r_status w) (r_size w) (r_hooks w ++ [h]) (r_once w) (r_hij w) (r_sent w) (r_log w).
Definition set_once (w : rw) : rw := RW (r_status w) (r_size w) (r_hooks w) true (r_hij w) (r_sent w) (r_log w).
Definition set_hij (w : rw) : rw := RW (r_status w) (r_size w) (r_hooks w) (r_once w) true (r_sent w) (r_log w).
Definition sent_ev (w : rw) (s : Z) : rw :=
  RW (r_status w) (r_size w) (r_hooks w) (r_once w) (r_hij w) (Some s) (WHeader s :: r_log w).
Definition log_ev (w : rw) (e : wev) : rw :=
  RW (r_status w) (r_size w) (r_hooks w) (r_once w) (r_hij w) (r_sent w) (e :: r_log w).

(** A call may return, panic, or never return (Deadlock: sync.Once.Do called
    from inside its own function). [nilv] says whether recover() yields nil
    (panic(nil) under the go 1.13 of go.mod). *)
Inductive out (A : Type) : Type := Done (a : A) | Panicked (nilv : bool) (a : A) | Deadlock (a : A).
Arguments Done {A}. Arguments Panicked {A}. Arguments Deadlock {A}.
Definition obind {A} (x : out A) (f : A -> out A) : out A :=
  match x with Done a => f a | Panicked v a => Panicked v a | Deadlock a => Deadlock a end.

Section Conn.
  Variable accept : list wev -> bytes -> nat.

  (** net/http response.WriteHeader *)
  Definition u_write_header (w : rw) (s : Z) : out rw :=
    if r_hij w then Done w else
    match r_sent w with
    | Some _ => Done w
    | None =>
        if (s <? 100) || (999 <? s) then Panicked false w
        else if (s <=? 199) && negb (s =? 101) then Done (log_ev w (WInfo s))
        else Done (sent_ev w s)
    end.
  Definition no_body (s : Z) : bool := (s <=? 199) || (s =? 204) || (s =? 304).
  (** net/http response.Write: the new state and the number of bytes accepted *)
  Definition u_write (w : rw) (b : bytes) : rw * Z :=
    if r_hij w then (w, 0) else
    let w1 := match r_sent w with Some _ => w | None => sent_ev w 200 end in
    let s := match r_sent w1 with Some s => s | None => 200 end in
    match b with
    | [] => (w1, 0)
    | _ =>
        if no_body s then (w1, 0) else
        let b' := firstn (accept (r_log w1) b) b in
        match b' with [] => (w1, 0) | _ => (log_ev w1 (WBody b'), Z.of_nat (List.length b')) end
    end.
  (** net/http response.Flush *)
  Definition u_flush (w : rw) : rw :=
    if r_hij w then w else match r_sent w with Some _ => w | None => sent_ev w 200 end.

  (** response.go:54-60 WriteHeader *)
  Definition write_header (w : rw) (s : Z) : out rw :=
    if s =? 0 then Panicked false w else Done (set_status w s).
  (** response.go:94-96 Before *)
  Definition before (w : rw) (h : hook) : rw := add_hook w h.
  (** response.go:82-92 Status, Size, Written *)
  Definition status (w : rw) : Z := r_status w.
  Definition size (w : rw) : Z := r_size w.
  Definition written (w : rw) : bool := negb (r_status w =? 0).
  (** response.go:98-110 Hijack: the wrapped writer is a Hijacker and the
      call succeeds, or it fails and nothing changes *)
  Definition hijack (w : rw) (ok : bool) : rw := if ok then set_hij w else w.
  (** response.go:116-121 Flush *)
  Definition flush (w : rw) : rw := u_flush w.

  (** a hook body running inside once.Do: a Write from here blocks forever *)
  Fixpoint run_hook (h : hook) (w : rw) : out rw :=
    match h with
    | HRet => Done w
    | HWriteHeader s k => obind (write_header w s) (run_hook k)
    | HWrite _ _ => Deadlock w
    | HBefore h' k => run_hook k (before w h')
    | HFlush k => run_hook k (flush w)
    | HSee k => run_hook (k (status w) (size w) (written w)) w
    | HPanic => Panicked false w
    end.
  (** response.go:123-127 callBefore. The bound is read once, before the loop:
      [hs] is the slice as it was, i its length. Hooks appended meanwhile are
      never reached because i only goes down. *)
  Fixpoint call_before (hs : list hook) (i : nat) (w : rw) : out rw :=
    match i with
    | O => Done w
    | S j => match nth_error hs j with
             | Some h => obind (run_hook h (log_ev w (WHook j))) (call_before hs j)
             | None => Panicked false w
             end
    end.
  (** response.go:62-80 Write. sync.Once marks itself done even if the function panics. *)
  Definition fire (w : rw) : out rw :=
    let w := set_once w in
    obind (call_before (r_hooks w) (List.length (r_hooks w)) w) (fun w =>
    let w := if r_status w =? 0 then set_status w 200 else w in
    if r_hij w then Done w else u_write_header w (r_status w)).
  Definition write (w : rw) (b : bytes) : out rw :=
    obind (if r_once w then Done w else fire w) (fun w =>
    let (w', n) := u_write w b in Done (add_size w' n)).

  (** the calls a handler can make on its ResponseWriter *)
  Inductive op :=
  | OWriteHeader (s : Z) | OWrite (b : bytes) | OBefore (h : hook) | OFlush | OHijack (ok : bool).
  Definition run_op (o : op) (w : rw) : out rw :=
    match o with
    | OWriteHeader s => write_header w s
    | OWrite b => write w b
    | OBefore h => Done (before w h)
    | OFlush => Done (flush w)
    | OHijack ok => Done (hijack w ok)
    end.

  (** any calls in a row. A call that panics is recovered by somebody and
      further calls may follow; [None]: a call never returns. *)
  Fixpoint run_ops (os : list op) (w : rw) : option rw :=
    match os with
    | [] => Some w
    | o :: os => match run_op o w with
                 | Done w' => run_ops os w'
                 | Panicked _ w' => run_ops os w'
                 | Deadlock _ => None
                 end
    end.
  (** a whole exchange at this level: any calls, then the Write(nil) that
      ServeHTTP always ends with (app.go:122-123) and that must return *)
  Definition exchange (os : list op) : option rw :=
    match run_ops os rw0 with
    | Some w => match write w [] with Done w' => Some w' | _ => None end
    | None => None
    end.
End Conn.
