(** HeadModel: /repo/response.go seen together with the header map of the
    response. RespModel treats the same file in full detail but without header
    maps; this one keeps header maps and simplifies the connection: it accepts
    every byte, nothing is hijacked, and every status is a final one that allows
    a body (no 1xx/204/304 special cases, see RespModel for those). *)
From Coq Require Import List Ascii String Bool Arith ZArith Lia.
Import ListNotations.
From Verif Require Import GoStr.
Local Open Scope Z_scope.

(** http.Header; keys are canonical already *)
Definition header := amap (list bytes).
(** http.Header.Get *)
Definition hget (h : header) (k : bytes) : bytes :=
  match aget h k with Some (v :: _) => v | _ => [] end.
(** http.Header.Set *)
Definition hset (h : header) (k v : bytes) : header := aset h k [v].
(** http.Header.Add *)
Definition hadd (h : header) (k v : bytes) : header :=
  aset h k ((match aget h k with Some vs => vs | None => [] end) ++ [v]).
(** http.Header.Del *)
Definition hdel (h : header) (k : bytes) : header := adel h k.

(** what a Before hook may do to the response: change headers, set the status *)
Inductive hstep := SSet (k v : bytes) | SAdd (k v : bytes) | SDel (k : bytes) | SStatus (s : Z).
Definition hook := list hstep.

(** response.go:43-52, the header map, and what has left: the header block (status
    and headers at that moment) and the body *)
Record hw := HW {
  h_hdr : header; h_status : Z; h_size : Z; h_hooks : list hook; h_once : bool;
  h_sent : option (Z * header); h_body : bytes
}.
(** response.go:34-41, app.go:104 (X-Powered-By) *)
Definition hw0 : hw := HW (hset [] (bs "X-Powered-By") (bs "Teapot")) 0 0 [] false None [].

Definition with_hdr (w : hw) (h : header) : hw := HW h (h_status w) (h_size w) (h_hooks w) (h_once w) (h_sent w) (h_body w).
Definition with_status (w : hw) (s : Z) : hw := HW (h_hdr w) s (h_size w) (h_hooks w) (h_once w) (h_sent w) (h_body w).
Definition with_hook (w : hw) (k : hook) : hw := HW (h_hdr w) (h_status w) (h_size w) (h_hooks w ++ [k]) (h_once w) (h_sent w) (h_body w).
Definition with_once (w : hw) : hw := HW (h_hdr w) (h_status w) (h_size w) (h_hooks w) true (h_sent w) (h_body w).
Definition with_sent (w : hw) (s : Z) : hw :=
  match h_sent w with
  | Some _ => w
  | None => HW (h_hdr w) (h_status w) (h_size w) (h_hooks w) (h_once w) (Some (s, h_hdr w)) (h_body w)
  end.
Definition with_body (w : hw) (b : bytes) : hw :=
  HW (h_hdr w) (h_status w) (h_size w + Z.of_nat (List.length b)) (h_hooks w) (h_once w) (h_sent w) (h_body w ++ b).

Definition run_hstep (w : hw) (s : hstep) : hw :=
  match s with
  | SSet k v => with_hdr w (hset (h_hdr w) k v)
  | SAdd k v => with_hdr w (hadd (h_hdr w) k v)
  | SDel k => with_hdr w (hdel (h_hdr w) k)
  | SStatus s => if s =? 0 then w else with_status w s
  end.
Definition run_hook (w : hw) (k : hook) : hw := fold_left run_hstep k w.
(** response.go:123-127 callBefore: last registered first *)
Definition call_before (w : hw) : hw := fold_left run_hook (rev (h_hooks w)) w.
(** response.go:63-75, the function given to once.Do *)
Definition fire (w : hw) : hw :=
  let w := call_before (with_once w) in
  let w := if h_status w =? 0 then with_status w 200 else w in
  with_sent w (h_status w).
(** response.go:62-80 Write *)
Definition hwrite (w : hw) (b : bytes) : hw :=
  let w := if h_once w then w else fire w in
  with_body (with_sent w 200) b.
(** response.go:116-121 Flush: goes straight to the connection *)
Definition hflush (w : hw) : hw := with_sent w 200.

(** what the handlers of a chain may do to the response *)
Inductive rop :=
| RStep (s : hstep)                (* header changes and WriteHeader *)
| RBefore (k : hook)
| RWrite (b : bytes)
| RFlush.
Definition run_rop (w : hw) (o : rop) : hw :=
  match o with
  | RStep s => run_hstep w s
  | RBefore k => with_hook w k
  | RWrite b => hwrite w b
  | RFlush => hflush w
  end.
Definition run_rops (w : hw) (os : list rop) : hw := fold_left run_rop os w.
(** app.go:122-123 the end of ServeHTTP *)
Definition finish (w : hw) : hw := hwrite w [].
