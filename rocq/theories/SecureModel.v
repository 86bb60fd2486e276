(** SecureModel: /repo/sessions/utils.go and /repo/sessions/remember.go.

    Simplifications:
    - HMAC-SHA1 is a parameter [hmac key message];
    - a time.Time is its number of nanoseconds since the epoch (an integer in the
      int64 range, as UnixNano needs);
    - a request is the list of its cookies as net/http parsed them; of the cookies
      that are set, only name and value are kept. *)
From Coq Require Import List Ascii String Bool Arith ZArith Lia.
Import ListNotations.
From Verif Require Import GoStr GoNum GoEnc ConvModel.
Local Open Scope Z_scope.

Definition comma : ascii := ","%char.                          (* sessions.go:11 COOKIE_VALUE_SPLIT *)
Definition bar : ascii := "|"%char.                            (* sessions.go:12 COOKIE_VALUE_PARTS_SPLIT *)

Section Secure.
  Variable hmac : bytes -> bytes -> bytes.

  (** utils.go:27-68 DecodeSecureValue; the error of DecodeString and of ParseInt are dropped *)
  Definition decode_secure (value key : bytes) : option (bytes * Z) :=
    match splitn_byte comma 3 (fst (b64_decode value)) with
    | p0 :: p1 :: p2 :: _ =>
        let vraw := trim_space p0 in
        let vcreated := trim_space p1 in
        let vhash := trim_space p2 in
        if (is_nil vraw || is_nil vcreated || is_nil vhash)%bool then None else
        let vtime := fst (parse_int 64 vcreated) in
        if vtime <=? 0 then None else
        match query_unescape vraw with
        | None => None
        | Some raw =>
            if beq (hex_encode (hmac key (raw ++ vcreated))) vhash then Some (raw, vtime) else None
        end
    | _ => None
    end.

  (** utils.go:70-90 EncodeSecureValue *)
  Definition encode_secure (raw key : bytes) (created : Z) : option bytes :=
    if (is_nil raw || is_nil key)%bool then None else
    let tv := format_int created in
    let hash := hex_encode (hmac key (raw ++ tv)) in
    Some (b64_encode (query_escape raw ++ [comma] ++ tv ++ [comma] ++ hash)).

  (** utils.go:92-107 GetRawFromSecureValue *)
  Definition get_raw (value : bytes) : bytes :=
    match b64_decode value with
    | (_, false) => []
    | (b, true) =>
        match splitn_byte comma 3 b with
        | [] => []
        | p :: _ => match query_unescape p with Some s => s | None => [] end
        end
    end.

  (** utils.go:126-128 int2SecsDuration: int64 multiplication wraps *)
  Definition secs (n : Z) : Z := wrap64 (n * 1000000000).
  (** utils.go:109-111 isExpired, [now] being the clock's reading *)
  Definition is_expired (created d now : Z) : bool := created + d <? now.

  (** utils.go:113-124 getCookie: the last cookie of that name *)
  Definition cookie : Type := (bytes * bytes)%type.
  Definition get_cookie (cs : list cookie) (name : bytes) : option bytes :=
    option_map snd (find (fun c => beq (fst c) name) (rev cs)).

  (** remember.go:10-47 HasRemember: psk, saltHash, ok. The cookie whose value
      has no separator returns at line 30 with ok still true. *)
  Definition has_remember (sk name : bytes) (expire now : Z) (cs : list cookie) : bytes * bytes * bool :=
    match get_cookie cs name with
    | None => ([], [], false)
    | Some v =>
        match decode_secure v sk with
        | None => ([], [], false)
        | Some (value, created) =>
            if is_expired created (secs expire) now then ([], [], false) else
            match splitn_byte bar 2 value with
            | [a; b] =>
                match query_unescape a, query_unescape b with
                | Some psk, Some sh => (psk, sh, true)
                | _, _ => ([], [], false)
                end
            | _ => ([], [], true)
            end
        end
    end.

  (** remember.go:49-72 ValidRemember *)
  Definition valid_remember (sk : bytes) (expire now : Z) (psk salt salthash : bytes) : bool :=
    if (is_nil psk || is_nil salt || is_nil salthash)%bool then false else
    match decode_secure salthash (sk ++ salt) with
    | None => false
    | Some (upsk, created) =>
        if is_expired created (secs expire) now then false else beq upsk psk
    end.

  (** remember.go:105-118 createRememberCookieValue *)
  Definition remember_value (sk psk salt : bytes) (created : Z) : option bytes :=
    if (is_nil sk || is_nil psk || is_nil salt)%bool then None else
    match encode_secure psk (sk ++ salt) created with
    | None => None
    | Some sh => encode_secure (query_escape psk ++ [bar] ++ query_escape sh) sk created
    end.

  (** remember.go:74-93 WriteRemember: the cookie it sets, [now] being the clock's reading *)
  Definition write_remember (sk name : bytes) (now : Z) (psk salt : bytes) : option cookie :=
    option_map (fun v => (name, v)) (remember_value sk psk salt now).
End Secure.
