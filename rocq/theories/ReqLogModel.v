(** ReqLogModel: /repo/request-logger/reqid.go and logger.go.

    Modelled: NewReqId, DecodeReqId, ReqLoggerFilter, realIp.
    Simplified: the process random number, the clock, and the texts of elapsed
    times and sizes are parameters; the four LoggerContentFilter options are
    functions from text to text (in the code they also see the context and could
    write to the response); the providers and request context values registered
    by the filter are not modelled (setLoggerInContext); the rest of the chain is
    any list of response operations, ending normally or by a panic.
    Not modelled: curGoroutineID (unused). *)
From Coq Require Import List Ascii String Bool Arith ZArith Lia.
Import ListNotations.
From Verif Require Import GoStr GoNum GoEnc RouterModel LogModel HeadModel.
Local Open Scope Z_scope.

(** binary.LittleEndian.PutUintN: k bytes, lowest first *)
Fixpoint le_bytes (k : nat) (n : Z) : bytes :=
  match k with
  | O => []
  | S k => byte (Z.to_nat (n mod 256)) :: le_bytes k (n / 256)
  end.
(** binary.LittleEndian.UintN *)
Fixpoint le_num (s : bytes) : Z :=
  match s with [] => 0 | c :: s => Z.of_nat (code c) + 256 * le_num s end.
(** the conversions uint64(x) of an int64 and int64(x) of a uint64 *)
Definition to_uint64 (x : Z) : Z := x mod 18446744073709551616.
Definition to_int64 (x : Z) : Z := if x <? 9223372036854775808 then x else x - 18446744073709551616.

(** reqid.go:17-22 NewReqId; [rnd] is the package variable of reqid.go:15 *)
Definition new_req_id (rnd nano : Z) : bytes :=
  b64_encode (le_bytes 4 rnd ++ le_bytes 8 (to_uint64 nano)).
(** reqid.go:24-32 DecodeReqId *)
Definition decode_req_id (s : bytes) : Z * Z :=
  let (b, ok) := b64_decode s in
  if (negb ok || (List.length b <? 12)%nat)%bool then (0, 0)
  else (le_num (firstn 4 b), to_int64 (le_num (firstn 8 (skipn 4 b)))).

(** logger.go:15-18 *)
Definition HeaderReqid : bytes := bs "X-Reqid".
Definition HeaderResponseTime : bytes := bs "X-Response-Time".
Definition HeaderXRealIp : bytes := bs "X-Real-Ip".
Definition HeaderXForwardedFor : bytes := bs "X-Forwarded-For".

(** the fields of *http.Request used *)
Record request := Request {
  rq_method : bytes; rq_host : bytes; rq_url : bytes; rq_remote : bytes; rq_hdr : header
}.

(** logger.go:110-127 realIp *)
Definition real_ip (rq : request) : bytes :=
  let ip := hget (rq_hdr rq) HeaderXRealIp in
  if negb (is_nil ip) then trim_space ip else
  let parts := split_byte ","%char (hget (rq_hdr rq) HeaderXForwardedFor) in
  match parts with
  | p :: _ => if negb (is_nil p) then trim_space (hd [] (split_byte ":"%char p)) else
      match last_index_sub (rq_remote rq) (bs ":") with
      | Some i => firstn i (rq_remote rq)
      | None => rq_remote rq
      end
  | [] => rq_remote rq   (* strings.Split never returns an empty slice here *)
  end.

(** logger.go:23-33 LoggerOption *)
Record options := Options {
  op_color : bool; op_line : bool; op_short : bool; op_flat : bool; op_stack : Z;
  op_reqid : option (bytes -> bytes); op_prefix : option (bytes -> bytes);
  op_beg : option (bytes -> bytes); op_end : option (bytes -> bytes)
}.
Definition use (f : option (bytes -> bytes)) (s : bytes) : bytes := match f with Some f => f s | None => s end.

(** logger.go:43-52: the id of a request *)
Definition choose_id (opt : options) (fresh : bytes) (rq : request) : bytes :=
  let id := hget (rq_hdr rq) HeaderReqid in
  let n := List.length id in
  let id := if ((n <? 10) || (32 <? n))%nat%bool then fresh else id in
  use (op_reqid opt) id.

Section Filter.
  Variable caller : Z -> option (bytes * bytes).
  Variable stack_text : Z -> bytes.
  (** fmt.Sprintln of strings *)
  Definition println (vs : list (arg bytes)) : bytes :=
    join (bs " ") (map (fun a => match a with AVal b => b | AOpt _ => [] end) vs) ++ [nl].
  (** unused by the filter: it never calls an Xf method *)
  Definition printf_unused (f : bytes) (vs : list (arg bytes)) : bytes := f.
  Variable elapsed_header elapsed_end : bytes.      (* "%0.3fms" of the elapsed times *)
  Variable kilo : Z -> bytes.                       (* "%0.3fk" of a size *)

  (** logger.go:59-70 *)
  Definition request_logger (opt : options) (id : bytes) : logger bytes :=
    let l := set_prefix _ (new_req_logger _ id) (use (op_prefix opt) []) in
    let l := set_line _ l (op_line opt) in
    let l := set_short _ l (op_short opt) in
    let l := set_flat _ l (op_flat opt) in
    let l := set_color _ l (op_color opt) in
    set_stack _ l (op_stack opt).
  (** log.Info(text, LineOpt{Hidden: true}) *)
  Definition info (g : Z) (l : logger bytes) (text : bytes) : list bytes :=
    match LogModel.write bytes printf_unused println caller stack_text g l LevelInformational None
            [AVal text; AOpt (LineOpt 0 false true)] with
    | Ok (Some t) => [t]
    | _ => []
    end.

  (** what is seen of one request going through the filter *)
  Record outcome := Outcome {
    oc_id : bytes;               (* ReqId of the logger given to later handlers *)
    oc_req : request;            (* the request they get *)
    oc_lines : list bytes;       (* what the filter itself printed *)
    oc_rw : hw;                  (* the response when the filter is left *)
    oc_panic : bool              (* left by a panic *)
  }.

  (** logger.go:41-107. [rest]: what the rest of the chain does to the response,
      and whether it ends by a panic, which goes through this filter. *)
  Definition req_logger (opt : options) (g : Z) (fresh : bytes) (rq : request) (w : hw)
      (rest : list rop) (panics : bool) : outcome :=
    let id := choose_id opt fresh rq in
    let l := request_logger opt id in
    let rq := Request (rq_method rq) (rq_host rq) (rq_url rq) (rq_remote rq) (hset (rq_hdr rq) HeaderReqid id) in
    let w := with_hdr w (hset (h_hdr w) HeaderReqid id) in
    let addr := real_ip rq in
    let beg := bs "[REQ_BEG] " ++ rq_method rq ++ bs " " ++ rq_host rq ++ rq_url rq ++ bs " " ++ addr in
    let beg := use (op_beg opt) beg in
    let lines := if is_nil beg then [] else info g l beg in
    let w := with_hook w [SDel HeaderReqid; SSet HeaderReqid id; SSet HeaderResponseTime elapsed_header] in
    let w := run_rops w rest in
    if panics then Outcome id rq lines w true else
    let status := if h_status w =? 0 then 200 else h_status w in
    let fin := bs "[REQ_END] " ++ format_int status ++ bs " " ++ kilo (h_size w) ++ bs " " ++ elapsed_end in
    let fin := use (op_end opt) fin in
    Outcome id rq (lines ++ (if is_nil fin then [] else info g l fin)) w false.
End Filter.
