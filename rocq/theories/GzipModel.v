(** GzipModel: /repo/gzip/gzip.go, over HeadModel's response. The compressor
    (compress/gzip.Writer) is a parameter: [emit ps p] are the chunks it passes to
    the underlying writer when given p after the writes ps, [tail ps] those it
    passes at Close. *)
From Coq Require Import List Ascii String Bool Arith ZArith Lia.
Import ListNotations.
From Verif Require Import GoStr HeadModel.

Definition h_encoding := bs "Content-Encoding".
Definition h_vary := bs "Vary".
Definition h_length := bs "Content-Length".
Definition h_type := bs "Content-Type".
Definition h_accept := bs "Accept-Encoding".

Section Gzip.
  Variable emit : list bytes -> bytes -> list bytes.
  Variable tail : list bytes -> list bytes.
  (** http.DetectContentType *)
  Variable detect : bytes -> bytes.

  (** gzip.go:43-47: the response below, the writes given to the compressor if it
      was created, and whether it was closed *)
  Record gst := GSt { g_w : hw; g_writes : option (list bytes); g_closed : bool }.
  Definition below (g : gst) (w : hw) : gst := GSt w (g_writes g) (g_closed g).
  (** gzip.go:49-62 Write. A closed compressor refuses. *)
  Definition g_write (g : gst) (p : bytes) : gst :=
    match g_writes g with
    | None =>
        let h := hdel (h_hdr (g_w g)) h_length in
        let h := if is_nil (hget h h_type) then hset h h_type (detect p) else h in
        GSt (fold_left hwrite (emit [] p) (with_hdr (g_w g) h)) (Some [p]) (g_closed g)
    | Some ps =>
        if g_closed g then g
        else GSt (fold_left hwrite (emit ps p) (g_w g)) (Some (ps ++ [p])) false
    end.
  (** the embedded strip.ResponseWriter does the rest *)
  Definition g_op (g : gst) (o : rop) : gst :=
    match o with
    | RWrite p => g_write g p
    | o => below g (run_rop (g_w g) o)
    end.
  (** gzip.go:72-76 close *)
  Definition g_close (g : gst) : gst :=
    match g_writes g with
    | Some ps => if g_closed g then g else GSt (fold_left hwrite (tail ps) (g_w g)) (Some ps) true
    | None => g
    end.
  (** gzip.go:23-41 All: the filter around what the rest of the chain does ([os], up
      to its end or panic). A compressor created after close is not closed. *)
  Definition accepts (accept : bytes) : bool := contains accept (bs "gzip").
  Definition start (w : hw) : gst :=
    GSt (with_hdr w (hset (hset (h_hdr w) h_encoding (bs "gzip")) h_vary h_accept)) None false.
  Definition gzip_all (accept : bytes) (w : hw) (os : list rop) : gst :=
    if accepts accept then g_close (fold_left g_op os (start w))
    else GSt (run_rops w os) None false.
  (** what outer filters do afterwards with the writer they find in the context
      (recovery.go:79, router_action_out.go:41): the gzip writer if there is one *)
  Definition later (accept : bytes) (g : gst) (os : list rop) : gst :=
    if accepts accept then fold_left g_op os g else below g (run_rops (g_w g) os).
End Gzip.
