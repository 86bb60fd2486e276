(** ResultModel: what becomes of the values an action returns.
    /repo/router_action_out.go (GenericOutFilter), /repo/utils/apires/res.go and
    raw.go (results written to the response), /repo/utils/apires/error.go (error
    values on a heap). The response is HeadModel's: a connection that takes every
    byte; write errors are not modelled. Statuses below 100 or above 999 make
    net/http panic later and 1xx ones are not final: HeadModel does not show
    that, so the theorems speak of statuses 200..999. *)
From Coq Require Import List Ascii String Bool Arith ZArith Lia.
Import ListNotations.
From Verif Require Import GoStr HeadModel.
Local Open Scope Z_scope.

(** the response, and how often Close was called on the body being sent *)
Record rst := RSt { r_w : hw; r_closed : nat }.
Inductive rout := ROk (s : rst) | RPanic (s : rst).

(** response.go:54-60 WriteHeader: 0 panics *)
Definition put_status (w : hw) (s : Z) : option hw := if s =? 0 then None else Some (with_status w s).
(** io.Copy / io.CopyBuffer into the response: one Write per non-empty chunk the
    reader gives before its end or error *)
Definition copy_chunks (w : hw) (chunks : list bytes) : hw :=
  fold_left hwrite (filter (fun c => negb (is_nil c)) chunks) w.

(** *** router_action_out.go *)
(** the dynamic value of a result, by what the type switch (74-88) can see *)
Record dyn := Dyn {
  d_result : option (hw -> hw);      (* ActionResult: what its Write does to the response *)
  d_handler : option (hw -> hw);     (* http.Handler: what its ServeHTTP does *)
  d_read : option (list bytes);      (* io.Reader: the chunks it gives *)
  d_close : bool;                    (* io.Closer *)
  d_text : option bytes              (* its type is exactly string or []byte *)
}.
(** reflect.Kind of the result as declared: Int; the kinds IsNil accepts (pointer,
    slice, map, func, chan, interface); the others, on which IsNil panics *)
Inductive kind := KInt (z : Z) | KNilable (nil : bool) | KPlain.
Record oval := OVal { o_kind : kind; o_dyn : dyn }.

(** router_action_out.go:73-89 the type switch *)
Definition write_dyn (s : rst) (d : dyn) : rst :=
  match d_result d with
  | Some f => RSt (f (r_w s)) (r_closed s)
  | None =>
  match d_handler d with
  | Some f => RSt (f (r_w s)) (r_closed s)
  | None =>
  match d_read d with
  | Some cs => RSt (copy_chunks (r_w s) cs) (if d_close d then S (r_closed s) else r_closed s)
  | None =>
  match d_text d with
  | Some b => RSt (hwrite (r_w s) b) (r_closed s)
  | None => s
  end end end end.
(** router_action_out.go:69-71: CanInterface holds for what Call returns *)
Definition write_body (s : rst) (o : oval) : rout :=
  match o_kind o with
  | KNilable true => ROk s
  | KNilable false => ROk (write_dyn s (o_dyn o))
  | KInt _ | KPlain => RPanic s                  (* reflect: IsNil on a plain kind *)
  end.
(** router_action_out.go:34-90 GenericOutFilter, after Next: [out] is the provided
    ActionOut, if any *)
Definition generic_out (w : hw) (out : option (list oval)) : rout :=
  let s := RSt w 0 in
  if negb (h_status w =? 0) then ROk s else
  match out with
  | None => ROk s
  | Some os =>
      match rev os with
      | [] => ROk s
      | o :: before =>
          match o_kind o with
          | KInt code =>
              match put_status w code with
              | None => RPanic s
              | Some w => match before with
                          | [] => ROk (RSt w 0)
                          | b :: _ => write_body (RSt w 0) b
                          end
              end
          | _ => write_body s o
          end
      end
  end.

(** *** utils/apires *)
Section ApiRes.
  (** the other values a body can be *)
  Variable V : Type.
  Inductive val := VText (b : bytes) | VReader (chunks : list bytes) (closer : bool) | VOther (v : V) | VEmptyStruct.
  (** json.Marshal / MarshalIndent (the flag), or the error text *)
  Variable marshal : bool -> val -> bytes + bytes.
  (** the same for the map of res.go:67-70, {"code":500,"message":msg} *)
  Variable marshal_err : bool -> bytes -> bytes.
  (** Config.RunMode.IsDev(); is a Logger provided *)
  Variables (dev has_logger : bool).

  Definition json_type : bytes := bs "application/json; charset=UTF-8".
  (** res.go:49-79 writeJsonBody: the response, and whether an error is returned *)
  Definition write_json (w : hw) (status : Z) (v : val) : option hw * bool :=
    let w := with_hdr w (hset (h_hdr w) (bs "Content-Type") json_type) in
    match put_status w status with
    | None => (None, false)
    | Some w =>
        match marshal dev v with
        | inl b => (Some (hwrite w b), false)
        | inr msg => (Some (hwrite w (marshal_err dev msg)), true)
        end
    end.
  (** a result object *)
  Record res := Res { rs_status : Z; rs_body : option val }.
  Definition log_error (s : rst) (err : bool) : rout := if (err && negb has_logger)%bool then RPanic s else ROk s.
  (** res.go:17-35 ResBody.Write: the object afterwards and the response *)
  Definition res_write (r : res) (w : hw) : res * rout :=
    let st := if rs_status r =? 0 then 200 else rs_status r in
    let v := match rs_body r with None => VEmptyStruct | Some v => v end in
    (Res st (Some v),
     if st =? 204 then match put_status w st with Some w => ROk (RSt w 0) | None => RPanic (RSt w 0) end
     else match write_json w st v with
          | (None, _) => RPanic (RSt w 0)
          | (Some w, err) => log_error (RSt w 0) err
          end).
  (** raw.go:15-49 RawBody.Write *)
  Definition raw_write (r : res) (w : hw) : res * rout :=
    let st := if rs_status r =? 0 then 200 else rs_status r in
    (Res st (rs_body r),
     if st =? 204 then match put_status w st with Some w => ROk (RSt w 0) | None => RPanic (RSt w 0) end
     else match rs_body r with
          | None => ROk (RSt w 0)
          | Some (VText b) => ROk (RSt (hwrite w b) 0)
          | Some (VReader cs closer) => ROk (RSt (copy_chunks w cs) (if closer then 1 else 0)%nat)
          | Some v => match write_json w st v with
                      | (None, _) => RPanic (RSt w 0)
                      | (Some w, err) => log_error (RSt w 0) err
                      end
          end).
  (** res.go:37-47 With, Ret; raw.go:51-61 RawWith, RawRet *)
  Definition with_ (b : option val) (status : list Z) : res := Res (match status with s :: _ => s | [] => 200 end) b.
  Definition ret_ (s : Z) : res := Res s None.
End ApiRes.
Arguments VText {V}. Arguments VReader {V}. Arguments VOther {V}. Arguments VEmptyStruct {V}. Arguments Res {V}.
Arguments rs_status {V}. Arguments rs_body {V}. Arguments with_ {V}. Arguments ret_ {V}.

(** *** error.go on a heap: references are indices *)
Section ApiErr.
  Variable D : Type.
  (** what a data value says as error or as string (error.go:45-50) *)
  Variable text_of : D -> option bytes.
  (** ResError with its embedded ResBody{Status, Body}; Body always is a *ResError *)
  Record rerr := RErr { e_status : Z; e_body : nat; e_code : Z; e_msg : bytes; e_data : option D }.
  Definition eheap := list rerr.
  Inductive ecall :=
  | ENew (status code : Z) (msg : bytes) (data : list D)
  | EWithData (e : nat) (data : option D) (msg : list bytes)
  | EWithMsg (e : nat) (msg : bytes)
  | EWrite (e : nat).
  Fixpoint upd (h : eheap) (i : nat) (x : rerr) : eheap :=
    match h, i with
    | [], _ => []
    | _ :: h, O => x :: h
    | y :: h, S i => y :: upd h i x
    end.
  (** error.go:15-24, 37-62 and res.go:17-20 (the status of the object becomes 200 if
      it was 0). [None]: a nil or dangling receiver, which cannot happen *)
  Definition ecall_run (h : eheap) (c : ecall) : option eheap :=
    match c with
    | ENew st code msg data =>
        Some (h ++ [RErr st (List.length h) code msg (match data with d :: _ => Some d | [] => None end)])
    | EWithData e data msg =>
        match nth_error h e with
        | None => None
        | Some o =>
            let m := match msg with
                     | m :: _ => m
                     | [] => match data with
                             | Some d => match text_of d with Some t => t | None => e_msg o end
                             | None => e_msg o
                             end
                     end in
            Some (h ++ [RErr (e_status o) (List.length h) (e_code o) m data])
        end
    | EWithMsg e msg =>
        match nth_error h e with
        | None => None
        | Some o => Some (h ++ [RErr (e_status o) (List.length h) (e_code o) msg (e_data o)])
        end
    | EWrite e =>
        match nth_error h e with
        | None => None
        | Some o => Some (if e_status o =? 0 then upd h e (RErr 200 (e_body o) (e_code o) (e_msg o) (e_data o)) else h)
        end
    end.
  Fixpoint ecalls (h : eheap) (cs : list ecall) : option eheap :=
    match cs with
    | [] => Some h
    | c :: cs => match ecall_run h c with Some h => ecalls h cs | None => None end
    end.
  (** what Write of error [e] hands to writeJsonBody: the status, and the members
      of the JSON object, those empty left out (error.go:8-13) *)
  Inductive member := MCode (z : Z) | MMsg (b : bytes) | MData (d : D).
  Definition members (o : rerr) : list member :=
    (if e_code o =? 0 then [] else [MCode (e_code o)]) ++
    (if is_nil (e_msg o) then [] else [MMsg (e_msg o)]) ++
    (match e_data o with Some d => [MData d] | None => [] end).
  Definition sends (h : eheap) (e : nat) : option (Z * list member) :=
    match nth_error h e with
    | None => None
    | Some o => match nth_error h (e_body o) with
                | None => None
                | Some b => Some (if e_status o =? 0 then 200 else e_status o, members b)
                end
    end.
  (** error.go:68-75 EqualAny *)
  Definition equal_any (h : eheap) (e : nat) (es : list nat) : bool :=
    match nth_error h e with
    | None => false
    | Some o => existsb (fun x => match nth_error h x with
                                  | Some y => (e_status o =? e_status y) && (e_code o =? e_code y)
                                  | None => false
                                  end) es
    end%bool.
  (** a value of type error: nil, a *ResError (nil or not), or another, with the method HttpCode() int or without *)
  Inductive errv := VNoErr | VRes (e : option nat) | VOtherErr (code : option Z).
  (** error.go:75-78 IsResError *)
  Definition is_res_error (v : errv) : bool := match v with VRes _ => true | _ => false end.
  (** error.go:34-36 HttpCode and 80-90 GetHttpCode; [None]: HttpCode of a nil *ResError panics *)
  Definition get_http_code (h : eheap) (v : errv) : option (bool * Z) :=
    match v with
    | VNoErr => Some (false, 0)
    | VRes None => None
    | VRes (Some e) => match nth_error h e with Some o => Some (true, e_status o) | None => None end
    | VOtherErr (Some c) => Some (true, c)
    | VOtherErr None => Some (false, 0)
    end.
  (** error.go:26-32 Error; [marshal] is json.Marshal of an object of these members, [None] an error *)
  Definition error_text (marshal : list member -> option bytes) (h : eheap) (e : option nat) : bytes :=
    match e with
    | None => []
    | Some e => match nth_error h e with
                | Some o => match marshal (members o) with Some b => b | None => [] end
                | None => []
                end
    end.
End ApiErr.
