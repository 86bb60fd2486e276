(** SessModel: /repo/sessions/provider.go, manager.go and store_dummy.go, on the cache
    of CacheModel.

    Simplifications:
    - session values are of any type [V]; bson.Marshal and Unmarshal of the map are
      parameters (the map's order of keys is not observable);
    - each method call reads the clock once;
    - faults of the cache's round trips are a list, one for each;
    - of a cookie that is set only its name, value and Max-Age are kept;
    - the map given to Create is copied (in the code the session and its creator share it). *)
From Coq Require Import List Ascii String Bool Arith ZArith Lia.
Import ListNotations.
From Verif Require Import GoStr GoNum GoEnc ConvModel SecureModel RandModel CacheModel.
Local Open Scope Z_scope.

Section Sess.
  Variable V : Type.
  Variable marshal : amap V -> option bytes.
  Variable unmarshal : bytes -> option (amap V).
  Variable hmac : bytes -> bytes -> bytes.

  (** config.go:18-21, with the cache behind *)
  Record scfg := mkCfg { cf_key : bytes; cf_expire : Z; cf_cache : backend }.
  (** the server and the faults to come *)
  Definition net := (store * list fault)%type.
  Definition call (c : scfg) (now : Z) (o : cop) (n : net) : net * cout :=
    let f := hd NoFault (snd n) in
    let r := cache_do (cf_cache c) now f (fst n) o in
    ((fst r, tl (snd n)), snd r).

  (** provider.go:19-22, 39-45: store and data of a session *)
  Record sess := mkSess { ss_sid : bytes; ss_values : amap V; ss_changed : bool; ss_closed : bool }.

  (** *** provider.go:67-102 *)
  Definition s_set (k : bytes) (v : V) (s : sess) : sess := mkSess (ss_sid s) (aset (ss_values s) k v) true (ss_closed s).
  Definition s_get (k : bytes) (s : sess) : option V := aget (ss_values s) k.
  Definition s_delete (k : bytes) (s : sess) : sess := mkSess (ss_sid s) (adel (ss_values s) k) true (ss_closed s).
  Definition s_has (k : bytes) (s : sess) : bool := match aget (ss_values s) k with Some _ => true | None => false end.
  Definition s_clean (s : sess) : sess := mkSess (ss_sid s) [] true (ss_closed s).

  Inductive serr := SFine | SFailed.
  (** provider.go:211-218 save *)
  Definition save (c : scfg) (now : Z) (s : sess) (n : net) : net * serr :=
    match marshal (ss_values s) with
    | None => (n, SFailed)
    | Some b =>
        let r := call c now (OSet (ss_sid s) (ABytes b) (Some (cf_expire c))) n in
        (fst r, match snd r with RDone => SFine | _ => SFailed end)
    end.
  (** provider.go:105-118 Flush *)
  Definition s_flush (c : scfg) (now : Z) (s : sess) (n : net) : sess * net * serr :=
    if ss_closed s then (s, n, SFine) else
    if negb (ss_changed s) then (s, n, SFine) else
    let r := save c now s n in
    (mkSess (ss_sid s) (ss_values s) false (ss_closed s), fst r, snd r).
  (** provider.go:190-193 Destroy of the provider *)
  Definition p_destroy (c : scfg) (now : Z) (sid : bytes) (n : net) : net * serr :=
    let r := call c now (ODelete sid) n in
    (fst r, match snd r with RDone => SFine | _ => SFailed end).
  (** provider.go:121-125 Destroy of the session *)
  Definition s_destroy (c : scfg) (now : Z) (s : sess) (n : net) : sess * net * serr :=
    let r := p_destroy c now (ss_sid s) n in
    (mkSess (ss_sid s) [] (ss_changed s) true, fst r, snd r).
  (** provider.go:127-129 Touch *)
  Definition s_touch (c : scfg) (now : Z) (s : sess) (n : net) : sess * net * serr :=
    let r := call c now (OTouch (ss_sid s) (Some (cf_expire c))) n in
    (s, fst r, match snd r with RDone => SFine | _ => SFailed end).

  (** provider.go:24-37, 49-60, 147-150, 205-209 create *)
  Definition p_create (sid : bytes) (params : option (amap V)) : sess :=
    mkSess sid (match params with Some m => m | None => [] end) (match params with Some _ => true | None => false end) false.
  Inductive rdres := RdOk (s : sess) | RdNotFound | RdErr.
  (** provider.go:152-169 Read *)
  Definition p_read (c : scfg) (now : Z) (sid : bytes) (n : net) : net * rdres :=
    let r := call c now (OGet sid) n in
    (fst r, match snd r with
            | RVal v => match unmarshal v with
                        | Some m => RdOk (mkSess sid m false false)
                        | None => RdErr
                        end
            | RMissed => RdNotFound
            | _ => RdErr
            end).
  (** provider.go:172-188 Regenerate: the error of Destroy is dropped *)
  Definition p_regenerate (c : scfg) (now : Z) (old sid : bytes) (n : net) : net * rdres :=
    let r := call c now (OGet old) n in
    match snd r with
    | RVal v =>
        let r2 := call c now (OSet sid (AStr v) (Some (cf_expire c))) (fst r) in
        match snd r2 with
        | RDone =>
            let r3 := p_destroy c now old (fst r2) in
            p_read c now sid (fst r3)
        | _ => (fst r2, RdErr)
        end
    | RMissed => (fst r, RdNotFound)
    | _ => (fst r, RdErr)
    end.

  (** *** manager.go *)
  (** CookieConfig: name and CookieExpire *)
  Record ccfg := mkCcfg { cc_name : bytes; cc_expire : Z }.
  Record setcookie := mkSetCookie { sc_name : bytes; sc_value : bytes; sc_max_age : Z }.
  (** manager.go:166-196 ReadSidFromRequest *)
  Definition read_sid (c : scfg) (name : bytes) (now : Z) (cs : list cookie) : option (bytes * Z) :=
    match get_cookie cs name with
    | None => None
    | Some v0 =>
        match query_unescape v0 with
        | None => None
        | Some v =>
            match decode_secure hmac v (cf_key c) with
            | None => None
            | Some (value, created) => if is_expired created (secs (cf_expire c)) now then None else Some (value, created)
            end
        end
    end.
  (** manager.go:130-158 WriteSessionCookie: the cookie set, also added to the request *)
  Definition write_cookie (c : scfg) (cc : ccfg) (sid : bytes) (created : Z) : option setcookie :=
    match encode_secure hmac sid (cf_key c) created with
    | None => None
    | Some v => Some (mkSetCookie (cc_name cc) v (if 0 <=? cc_expire cc then cc_expire cc else 0))
    end.
  (** the session, when it was created, the cookie set; [MPanic]: CreateSid panicked, or a
      method of a nil session was called *)
  Inductive mres := MOk (s : sess) (created : Z) (ck : option setcookie) | MErr (ck : option setcookie) | MPanic.
  (** manager.go:49-69 Start *)
  Definition start (c : scfg) (cc : ccfg) (rd : nat -> option bytes) (now : Z) (cs : list cookie) (n : net) : net * mres :=
    match read_sid c (cc_name cc) now cs with
    | None =>
        match create_sid rd now with
        | ROk sid => (n, MOk (p_create sid None) now (write_cookie c cc sid now))
        | _ => (n, MPanic)
        end
    | Some (sid, created) =>
        let r := p_read c now sid n in
        (fst r, match snd r with
                | RdOk s => MOk s created None
                | RdNotFound => MOk (p_create sid None) created None
                | RdErr => MErr None
                end)
    end.
  (** manager.go:73-95 Destroy: the session's error is dropped; the cookie is expired *)
  Definition m_destroy (c : scfg) (cc : ccfg) (now : Z) (cs : list cookie) (n : net) : net * option setcookie :=
    match read_sid c (cc_name cc) now cs with
    | None => (n, None)
    | Some (sid, _) => (fst (p_destroy c now sid n), Some (mkSetCookie (cc_name cc) [] (-1)))
    end.
  (** manager.go:98-127 Regenerate: on an error of the cache sess is nil, and sess.Sid() panics *)
  Definition regenerate (c : scfg) (cc : ccfg) (rd : nat -> option bytes) (now : Z) (cs : list cookie) (params : option (amap V)) (n : net) : net * mres :=
    match create_sid rd now with
    | ROk sid =>
        match read_sid c (cc_name cc) now cs with
        | None => (n, MOk (p_create sid params) now (write_cookie c cc sid now))
        | Some (old, _) =>
            let r := p_regenerate c now old sid n in
            (fst r, match snd r with
                    | RdOk s => MOk s now (write_cookie c cc (ss_sid s) now)
                    | RdNotFound => MOk (p_create sid params) now (write_cookie c cc sid now)
                    | RdErr => MPanic
                    end)
        end
    | _ => (n, MPanic)
    end.
End Sess.
Arguments mkSess {V}. Arguments ss_sid {V}. Arguments ss_values {V}. Arguments ss_changed {V}. Arguments ss_closed {V}.
Arguments RdOk {V}. Arguments RdNotFound {V}. Arguments RdErr {V}.
Arguments MOk {V}. Arguments MErr {V}. Arguments MPanic {V}.
