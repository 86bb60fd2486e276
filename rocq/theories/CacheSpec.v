(** CacheSpec: what a cache with timeouts is, for C50-C56. *)
From Coq Require Import List Ascii String Bool Arith ZArith Lia.
Import ListNotations.
From Verif Require Import GoStr GoNum ConvModel CacheModel.
Local Open Scope Z_scope.

(** ** Histories *)
(** Time passes, an operation is called (its connection possibly failing), or the
    server cleans up on its own. *)
Inductive hev := HWait (d : Z) | HOp (f : fault) (o : cop) | HServer (ks : list bytes).

(** what servers do on their own: MongoDB's TTL monitor, memcached's evictions *)
Definition server_env (b : backend) (now : Z) (ks : list bytes) (s : store) : store :=
  match b with
  | BMgo auto => if auto then mongo_ttl_monitor now ks s else s
  | BRedis _ => s
  | BMc _ => akeep (fun k _ => negb (existsb (beq k) ks)) s
  end.
Definition hstep (b : backend) (now : Z) (s : store) (e : hev) : Z * store * list cout :=
  match e with
  | HWait d => (now + d, s, [])
  | HOp f o => (now, fst (cache_do b now f s o), [snd (cache_do b now f s o)])
  | HServer ks => (now, server_env b now ks s, [])
  end.
(** the clock, the server's contents and the answers after a history *)
Fixpoint hrun (b : backend) (now : Z) (s : store) (h : list hev) : Z * store * list cout :=
  match h with
  | [] => (now, s, [])
  | e :: h' =>
      let '(now1, s1, r1) := hstep b now s e in
      let '(now2, s2, r2) := hrun b now1 s1 h' in
      (now2, s2, r1 ++ r2)
  end.
Definition answers (b : backend) (now : Z) (s : store) (h : list hev) : list cout := snd (hrun b now s h).
Definition after (b : backend) (now : Z) (s : store) (h : list hev) : Z * store := fst (hrun b now s h).
(** the clock does not run backwards *)
Definition forwards (h : list hev) : Prop := Forall (fun e => match e with HWait d => 0 <= d | _ => True end) h.

(** ** The specification: a map whose entries end at some time, if ever *)
Definition ttlmap := amap (bytes * option Z).
(** positive: that many seconds; absent or zero: a minute; negative: no end *)
Definition lifetime (ps : option Z) : option Z :=
  match ps with
  | None => Some (60 * 1000000000)
  | Some n => if n =? 0 then Some (60 * 1000000000) else if 0 <? n then Some (n * 1000000000) else None
  end.
Definition whole_ms (t : Z) : Z := t - t mod 1000000.
Definition whole_s (t : Z) : Z := t - t mod 1000000000.
(** when an entry set now ends. The servers keep whole milliseconds or seconds; on Mongo
    "no end" is 9999 days *)
Definition ends (b : backend) (now : Z) (ps : option Z) : option Z :=
  match b, lifetime ps with
  | BMgo _, Some d => Some (whole_ms (now + d))
  | BMgo _, None => Some (whole_ms (now + 9999 * 24 * 60 * 60 * 1000000000))
  | BRedis _, Some d => Some (whole_ms now + d + 1000000)
  | BMc _, Some d => Some (whole_s now + d)
  | _, None => None
  end.
Definition ended (now : Z) (t : option Z) : bool := match t with Some t => t <=? now | None => false end.
Definition present (now : Z) (s : ttlmap) (k : bytes) : option bytes :=
  match aget s k with Some (v, t) => if ended now t then None else Some v | None => None end.
Definition outdated (now : Z) (s : ttlmap) (k : bytes) : bool :=
  match aget s k with Some (_, t) => ended now t | None => false end.
(** the new state and the answers allowed: deleting an outdated entry may or may not find it *)
Definition ttl_do (b : backend) (now : Z) (s : ttlmap) (o : cop) : ttlmap * list cout :=
  match o with
  | OGet k => (s, [match present now s k with Some v => RVal v | None => RMissed end])
  | OHas k => (s, [RBool match present now s k with Some _ => true | None => false end])
  | OSet k v ps => (aset s k (utils_tostr v, ends b now ps), [RDone])
  | OTouch k ps =>
      match present now s k with
      | Some v => (aset s k (v, ends b now ps), [RDone])
      | None => (s, [RMissed])
      end
  | ODelete k =>
      match present now s k with
      | Some _ => (adel s k, [RDone])
      | None => (adel s k, if outdated now s k then [RMissed; RDone] else [RMissed])
      end
  | OClean => ([], [RDone])
  | OGC => (s, [RDone])
  | OIncr _ _ | ODecr _ _ => (s, [])           (* see C98 *)
  end.
(** a failed connection is reported, unless none was needed *)
Definition failed (o : cop) : list cout := match o with OGC => [RFail; RDone] | _ => [RFail] end.
Fixpoint ttl_run (b : backend) (now : Z) (s : ttlmap) (h : list hev) : list (list cout) :=
  match h with
  | [] => []
  | HWait d :: h' => ttl_run b (now + d) s h'
  | HServer _ :: h' => ttl_run b now s h'
  | HOp NoFault o :: h' => snd (ttl_do b now s o) :: ttl_run b now (fst (ttl_do b now s o)) h'
  | HOp FaultBefore o :: h' => failed o :: ttl_run b now s h'
  | HOp FaultAfter o :: h' => failed o :: ttl_run b now (fst (ttl_do b now s o)) h'
  end.
(** no Touch hits an outdated entry *)
Fixpoint no_late_touch (b : backend) (now : Z) (s : ttlmap) (h : list hev) : Prop :=
  match h with
  | [] => True
  | HWait d :: h' => no_late_touch b (now + d) s h'
  | HServer _ :: h' => no_late_touch b now s h'
  | HOp f o :: h' =>
      match o with OTouch k _ => outdated now s k = false | _ => True end /\
      no_late_touch b now (match f with FaultBefore => s | _ => fst (ttl_do b now s o) end) h'
  end.
(** values that print, keys and timeouts the server takes, no counting, no "no end" for Touch on Redis (C53) *)
Definition plain (v : anyval) : Prop :=
  match v with ABool _ | AInt _ | AStr _ | ABytes _ => True | AUint z => 0 <= z < 2 ^ 63 | ANamedBytes _ | AOther _ => False end.
(** the longest timeout, in seconds *)
Definition cap (b : backend) : Z := match b with BMc _ => 2592000 | _ => 9223372036 end.
Definition fits (b : backend) (ps : option Z) : Prop := match ps with Some n => n <= cap b | None => True end.
(** keys memcached takes; the others take any *)
Definition storable (b : backend) (k : bytes) : Prop := match b with BMc p => mc_legal (p ++ k) = true | _ => True end.
Definition plain_op (b : backend) (o : cop) : Prop :=
  match o with
  | OSet k v ps => plain v /\ fits b ps /\ storable b k
  | OTouch k ps => fits b ps /\ storable b k /\ match b with BRedis _ => lifetime ps <> None | _ => True end
  | OGet k | OHas k | ODelete k => storable b k
  | OIncr _ _ | ODecr _ _ => False
  | OClean | OGC => True
  end.
(** memcached does not evict *)
Definition plain_history (b : backend) (h : list hev) : Prop :=
  Forall (fun e => match e with HOp _ o => plain_op b o | HServer _ => match b with BMc _ => False | _ => True end | HWait _ => True end) h.

(** ** Clean-ups (C51) *)
Definition is_cleanup (e : hev) : bool := match e with HServer _ | HOp _ OGC => true | _ => false end.
Definition without_cleanups (h : list hev) : list hev := filter (fun e => negb (is_cleanup e)) h.
(** the answers to everything but GC *)
Fixpoint client_answers (b : backend) (now : Z) (s : store) (h : list hev) : list cout :=
  match h with
  | [] => []
  | e :: h' =>
      (if is_cleanup e then [] else snd (hstep b now s e)) ++
      client_answers b (fst (fst (hstep b now s e))) (snd (fst (hstep b now s e))) h'
  end.
(** keys of operations that change an entry that is there *)
Definition modifies (o : cop) : option bytes :=
  match o with OTouch k _ | ODelete k | OIncr k _ | ODecr k _ => Some k | _ => None end.
Definition overdue (now : Z) (s : store) (k : bytes) : bool :=
  match aget s k with Some e => match e_exp e with Some t => t <=? now | None => true end | None => false end.
(** no Touch, Delete, Incr or Decr comes after the timeout of an entry *)
Fixpoint none_late (b : backend) (now : Z) (s : store) (h : list hev) : Prop :=
  match h with
  | [] => True
  | e :: h' =>
      match e with HOp _ o => match modifies o with Some k => overdue now s k = false | None => True end | _ => True end /\
      none_late b (fst (fst (hstep b now s e))) (snd (fst (hstep b now s e))) h'
  end.

(** ** Keys *)
Definition okey (o : cop) : option bytes :=
  match o with
  | OGet k | OSet k _ _ | OTouch k _ | ODelete k | OIncr k _ | ODecr k _ | OHas k => Some k
  | OClean | OGC => None
  end.
(** operations that may make key [k] appear (C52): Set, Touch on Mongo, Incr and Decr on Redis *)
Definition may_set (b : backend) (k : bytes) (o : cop) : Prop :=
  match o with
  | OSet k' _ _ => k' = k
  | OTouch k' _ => match b with BMgo _ => k' = k | _ => False end
  | OIncr k' _ | ODecr k' _ => match b with BRedis _ => k' = k | _ => False end
  | _ => False
  end.

(** ** Two clients of one server (C55) *)
Inductive client := One | Two.
Inductive sev := SWait (d : Z) | SOp (c : client) (f : fault) (o : cop) | SServer (ks : list bytes).
(** the answers client Two gets *)
Fixpoint answers_two (b1 b2 : backend) (now : Z) (s : store) (h : list sev) : list cout :=
  match h with
  | [] => []
  | SWait d :: h' => answers_two b1 b2 (now + d) s h'
  | SServer ks :: h' => answers_two b1 b2 now (server_env b2 now ks s) h'
  | SOp One f o :: h' => answers_two b1 b2 now (fst (cache_do b1 now f s o)) h'
  | SOp Two f o :: h' => snd (cache_do b2 now f s o) :: answers_two b1 b2 now (fst (cache_do b2 now f s o)) h'
  end.
Definition without_one (h : list sev) : list sev := filter (fun e => match e with SOp One _ _ => false | _ => true end) h.
(** neither is the beginning of the other *)
Definition apart (p q : bytes) : Prop := (forall x, q <> p ++ x) /\ (forall x, p <> q ++ x).
