(** CacheModel: /repo/caches (caches.go and the three providers), over small models of
    the servers behind them.

    Simplifications:
    - a clock reading is a number of nanoseconds since the epoch;
    - of the variadic [params ...int] only the first is ever read: [None] is "not given";
    - every provider method makes one round trip; [fault] says whether the connection
      failed before or after the server executed it;
    - a MongoDB document is its value and its expiry time, the three configured field
      names being different; index creation (NewMgoProvider) is not modelled;
    - server semantics follow the documentation of memcached 1.6, Redis 6 and MongoDB 4;
      item size limits and Redis evictions are left out;
    - floats are not modelled, neither as values nor the rounding of fractional seconds
      (they only arise for timeouts over 9223372036 seconds). *)
From Coq Require Import List Ascii String Bool Arith ZArith Lia.
Import ListNotations.
From Verif Require Import GoStr GoNum ConvModel.
Local Open Scope Z_scope.

Definition second : Z := 1000000000.
Definition msec : Z := 1000000.

(** caches.go:11, 30-49 getTimeoutDur: the multiplication wraps *)
Definition default_timeout : Z := 60 * second.
Definition timeout_dur (ps : option Z) : Z :=
  match ps with
  | Some n => if 0 <? n then wrap64 (n * second)
              else let timeout := n in
                   let timeout := if timeout =? 0 then default_timeout else timeout in
                   if timeout <? 0 then 0 else timeout
  | None => default_timeout
  end.
(** caches.go:51-57 getTimeoutDurEx *)
Definition timeout_dur_ex (ps : option Z) : Z :=
  let timeout := timeout_dur ps in
  if timeout =? 0 then 9999 * 24 * 3600 * second else timeout.

(** caches.go:18-28 CacheProvider *)
Inductive cop :=
| OGet (k : bytes)
| OSet (k : bytes) (v : anyval) (ps : option Z)
| OTouch (k : bytes) (ps : option Z)
| ODelete (k : bytes)
| OIncr (k : bytes) (ps : option Z)
| ODecr (k : bytes) (ps : option Z)
| OHas (k : bytes)
| OClean
| OGC.
Inductive cout :=
| RVal (s : bytes)         (* value, nil *)
| RBool (b : bool)         (* b, nil *)
| RDone                    (* nil *)
| RMissed                  (* ErrMissedKey *)
| RFail.                   (* any other error *)

(** an entry of a server: its value and when it expires, in the server's unit *)
Record entry := mkEntry { e_val : anyval; e_exp : option Z }.
Definition store := amap entry.

(** keep the entries that satisfy [f] (keys being unique) *)
Definition akeep {V} (f : bytes -> V -> bool) (m : amap V) : amap V :=
  filter (fun p => match aget m (fst p) with Some v => f (fst p) v | None => false end) m.

Inductive fault := NoFault | FaultBefore | FaultAfter.

(** ** MongoDB *)
(** BSON dates are in milliseconds; times here are nanoseconds that are multiples of that *)
Definition bson_time (t : Z) : Z := t / msec * msec.
(** what a Go value is after being stored and fetched; [None]: bson.Marshal fails *)
Definition bson_val (v : anyval) : option anyval :=
  match v with
  | AUint z => if z <? 2 ^ 63 then Some (AInt z) else None
  | ANamedBytes s => Some (ABytes s)
  | v => Some v
  end.
(** the server's $inc *)
Definition mongo_inc (v : anyval) (d : Z) : option anyval :=
  match v with
  | AInt z => if (- 2 ^ 63 <=? z + d) && (z + d <? 2 ^ 63) then Some (AInt (z + d)) else None
  | _ => None
  end.
(** provider_mgo.go:220-236 getValue *)
Definition mgo_get_value (now : Z) (e : entry) : option anyval :=
  match e_exp e with
  | Some t => if now <? t then Some (e_val e) else None
  | None => None
  end.
(** provider_mgo.go:135-138, 155-158: the counts of Incr and Decr, an int *)
Definition cnt_of (ps : option Z) : Z := match ps with Some c => c | None => 1 end.
Definition neg_cnt_of (ps : option Z) : Z := match ps with Some c => wrap64 (0 - c) | None => -1 end.

(** provider_mgo.go:72-208 Get, Set, Touch, Delete, Incr, Decr, Has, Clean, GC *)
Definition mgo_do (auto : bool) (now : Z) (s : store) (o : cop) : store * cout :=
  match o with
  | OGet k =>
      match aget s k with
      | None => (s, RMissed)
      | Some e => match mgo_get_value now e with
                  | Some v => (s, RVal (utils_tostr v))
                  | None => (s, RMissed)
                  end
      end
  | OSet k v ps =>
      match bson_val v with
      | None => (s, RFail)
      | Some v' => (aset s k (mkEntry v' (Some (bson_time (now + timeout_dur_ex ps)))), RDone)
      end
  | OTouch k ps =>
      match aget s k with
      | None => (s, RMissed)
      | Some e => (aset s k (mkEntry (e_val e) (Some (bson_time (now + timeout_dur_ex ps)))), RDone)
      end
  | ODelete k => match aget s k with None => (s, RMissed) | Some _ => (adel s k, RDone) end
  | OIncr k ps =>
      match aget s k with
      | None => (s, RMissed)
      | Some e => match mongo_inc (e_val e) (cnt_of ps) with
                  | None => (s, RFail)
                  | Some v => (aset s k (mkEntry v (e_exp e)), RDone)
                  end
      end
  | ODecr k ps =>
      match aget s k with
      | None => (s, RMissed)
      | Some e => match mongo_inc (e_val e) (neg_cnt_of ps) with
                  | None => (s, RFail)
                  | Some v => (aset s k (mkEntry v (e_exp e)), RDone)
                  end
      end
  | OHas k =>
      match aget s k with
      | None => (s, RBool false)
      | Some e => match mgo_get_value now e with Some _ => (s, RBool true) | None => (s, RBool false) end
      end
  | OClean => ([], RDone)
  | OGC =>
      if auto then (s, RDone) else
      (akeep (fun _ e => negb match e_exp e with Some t => t <=? bson_time now | None => false end) s, RDone)
  end.
(** provider_mgo.go:49-52: with AutoExpire the server's TTL monitor, whenever it runs,
    removes documents a minute after their expiry. [ks]: those it gets to. *)
Definition mongo_ttl_monitor (now : Z) (ks : list bytes) (s : store) : store :=
  akeep (fun k e => negb (existsb (beq k) ks && match e_exp e with Some t => t + 60 * second <=? now | None => false end)) s.

(** ** Redis *)
(** expiry times are in milliseconds; an expired key is gone *)
Definition redis_live (now : Z) (e : entry) : bool :=
  match e_exp e with Some t => now / msec <=? t | None => true end.
Definition redis_get (now : Z) (s : store) (k : bytes) : option entry :=
  match aget s k with
  | Some e => if redis_live now e then Some e else None
  | None => None
  end.
(** INCRBY takes strings that are exactly the decimal form of an int64 *)
Definition redis_int (v : bytes) : option Z :=
  match parse_int 64 v with
  | (n, None) => if beq (format_int n) v then Some n else None
  | _ => None
  end.
Definition redis_incrby (now : Z) (s : store) (k : bytes) (d : Z) : store * cout :=
  let old := match redis_get now s k with Some e => redis_int (utils_tostr (e_val e)) | None => Some 0 end in
  match old with
  | None => (s, RFail)
  | Some z =>
      if (- 2 ^ 63 <=? z + d) && (z + d <? 2 ^ 63) then
        let exp := match redis_get now s k with Some e => e_exp e | None => None end in
        (aset s k (mkEntry (AStr (format_int (z + d))) exp), RDone)
      else (s, RFail)
  end.
(** provider_redis.go:26-184; [prefix] is KeyPrefix *)
Definition redis_do (prefix : bytes) (now : Z) (s : store) (o : cop) : store * cout :=
  match o with
  | OGet k0 =>
      let k := prefix ++ k0 in
      match redis_get now s k with
      | None => (s, RMissed)
      | Some e => (s, RVal (utils_tostr (e_val e)))
      end
  | OSet k0 v ps =>
      let k := prefix ++ k0 in
      let timeout := timeout_dur ps in
      if 0 <? timeout then
        if timeout mod second =? 0 then
          (aset s k (mkEntry (AStr (utils_tostr v)) (Some (now / msec + timeout / second * 1000))), RDone)
        else (s, RFail)
      else (aset s k (mkEntry (AStr (utils_tostr v)) None), RDone)
  | OTouch k0 ps =>
      let k := prefix ++ k0 in
      let timeout := timeout_dur ps in
      if negb (timeout mod second =? 0) then (s, RFail) else
      match redis_get now s k with
      | None => (s, RMissed)
      | Some e =>
          (* EXPIRE with a time that is not positive deletes the key *)
          if 0 <? timeout then (aset s k (mkEntry (e_val e) (Some (now / msec + timeout / second * 1000))), RDone)
          else (adel s k, RDone)
      end
  | ODelete k0 =>
      let k := prefix ++ k0 in
      match redis_get now s k with None => (s, RMissed) | Some _ => (adel s k, RDone) end
  | OIncr k0 ps => redis_incrby now s (prefix ++ k0) (cnt_of ps)
  | ODecr k0 ps =>
      (* DECRBY refuses the least int64 *)
      if cnt_of ps =? - 2 ^ 63 then (s, RFail) else redis_incrby now s (prefix ++ k0) (- cnt_of ps)
  | OHas k0 =>
      match redis_get now s (prefix ++ k0) with None => (s, RBool false) | Some _ => (s, RBool true) end
  | OClean => ([], RDone)
  | OGC => (s, RDone)
  end.

(** ** memcached *)
(** expiry times are in seconds; an expired key is gone *)
Definition mc_live (now : Z) (e : entry) : bool :=
  match e_exp e with Some t => now / second <? t | None => true end.
Definition mc_get (now : Z) (s : store) (k : bytes) : option entry :=
  match aget s k with
  | Some e => if mc_live now e then Some e else None
  | None => None
  end.
(** gomemcache legalKey *)
Definition mc_legal (k : bytes) : bool :=
  Nat.leb (List.length k) 250 && forallb (fun c => negb (Nat.leb (code c) 32 || Nat.eqb (code c) 127)) k.
(** int32(timeout.Seconds()), amd64: what does not fit becomes the least int32 *)
Definition to_int32 (z : Z) : Z := if (- 2 ^ 31 <=? z) && (z <? 2 ^ 31) then z else - 2 ^ 31.
(** the server's reading of an exptime: 0 never, negative at once, up to 30 days
    relative, beyond that a Unix time *)
Definition mc_deadline (now e : Z) : option Z :=
  if e =? 0 then None
  else if e <? 0 then Some (now / second)
  else if e <=? 2592000 then Some (now / second + e)
  else Some e.
(** incr and decr take decimal digits, blanks after them allowed *)
Fixpoint drop_blanks (s : bytes) : bytes :=
  match s with c :: r => if Nat.eqb (code c) 32 then drop_blanks r else s | [] => [] end.
Definition mc_num (v : bytes) : option Z :=
  let d := rev (drop_blanks (rev v)) in
  if is_nil d || Nat.ltb 20 (List.length v) then None else
  match parse_uint 64 d with (n, None) => Some n | _ => None end.
(** the new number is written over the old one, padded with blanks *)
Definition mc_write (old : bytes) (n : Z) : bytes :=
  let t := format_uint n in t ++ repeat " "%char (List.length old - List.length t).
Definition mc_delta (now : Z) (s : store) (k : bytes) (f : Z -> Z) : store * cout :=
  match mc_get now s k with
  | None => (s, RMissed)
  | Some e =>
      let old := utils_tostr (e_val e) in
      match mc_num old with
      | None => (s, RFail)
      | Some n => (aset s k (mkEntry (AStr (mc_write old (f n))) (e_exp e)), RDone)
      end
  end.
(** provider_memcache.go:25-107 *)
Definition mc_do (prefix : bytes) (now : Z) (s : store) (o : cop) : store * cout :=
  let guard k r := if mc_legal k then r else (s, RFail) in
  match o with
  | OGet k0 =>
      let k := prefix ++ k0 in
      guard k match mc_get now s k with
              | None => (s, RMissed)
              | Some e => (s, RVal (utils_tostr (e_val e)))
              end
  | OSet k0 v ps =>
      let k := prefix ++ k0 in
      guard k (aset s k (mkEntry (AStr (utils_tostr v)) (mc_deadline now (to_int32 (timeout_dur ps / second)))), RDone)
  | OTouch k0 ps =>
      let k := prefix ++ k0 in
      guard k match mc_get now s k with
              | None => (s, RMissed)
              | Some e => (aset s k (mkEntry (e_val e) (mc_deadline now (to_int32 (timeout_dur ps / second)))), RDone)
              end
  | ODelete k0 =>
      let k := prefix ++ k0 in
      guard k match mc_get now s k with None => (s, RMissed) | Some _ => (adel s k, RDone) end
  | OIncr k0 ps =>
      let k := prefix ++ k0 in
      (* uint64(cnt) wraps; so does the addition *)
      guard k (mc_delta now s k (fun n => (n + cnt_of ps mod 2 ^ 64) mod 2 ^ 64))
  | ODecr k0 ps =>
      let k := prefix ++ k0 in
      guard k (mc_delta now s k (fun n => let d := cnt_of ps mod 2 ^ 64 in if n <? d then 0 else n - d))
  | OHas k0 =>
      let k := prefix ++ k0 in
      guard k match mc_get now s k with None => (s, RBool false) | Some _ => (s, RBool true) end
  | OClean => ([], RDone)
  | OGC => (s, RDone)
  end.

(** ** Any provider *)
Inductive backend := BMgo (auto : bool) | BRedis (prefix : bytes) | BMc (prefix : bytes).
Definition server_do (b : backend) : Z -> store -> cop -> store * cout :=
  match b with BMgo auto => mgo_do auto | BRedis p => redis_do p | BMc p => mc_do p end.
(** GC of redis and memcache, and of Mongo with AutoExpire, makes no round trip *)
Definition round_trip (b : backend) (o : cop) : bool :=
  match o, b with OGC, BMgo auto => negb auto | OGC, _ => false | _, _ => true end.
Definition cache_do (b : backend) (now : Z) (f : fault) (s : store) (o : cop) : store * cout :=
  if negb (round_trip b o) then server_do b now s o else
  match f with
  | NoFault => server_do b now s o
  | FaultBefore => (s, RFail)
  | FaultAfter => (fst (server_do b now s o), RFail)
  end.
