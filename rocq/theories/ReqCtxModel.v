(** ReqCtxModel: the Context values of one request. /repo/context.go whole
    (newContext, GetContext, ReplaceContext, Next, run, newNestContext), the way
    /repo/app.go:109-123 ServeHTTP and /repo/router.go:146-150, 181-185, 193-197
    use them. ChainModel lets every handler call Next on the Context of its own
    chain; here handlers hold Contexts as values: the one injected into them,
    one they look up later, the one kept in the request's context.Context; they
    may call Next on any of them, read and replace the context.Context behind
    each, and look values up. *)
From Coq Require Import List Ascii String Bool Arith ZArith Lia.
Import ListNotations.
From Verif Require Import GoStr RespModel ChainModel.

(** *** context.Context values
    A request has two strip Contexts, [Outer] (newContext) and, once the router
    handles the request, [Inner] (newNestContext). Both are context.Contexts
    themselves ([GOf]): their Value method is the one of the embedded Context.
    Deadlines and cancellation are not modelled. *)
Inductive val := VContext (l : lvl) | VOther (n : nat).
Inductive goctx :=
| GReq                                     (* req.Context() as net/http made it *)
| GWith (p : goctx) (k : bytes) (v : val)  (* context.WithValue(p, k, v), utils.CtxWithValue *)
| GOf (l : lvl).                           (* a strip Context *)

(** the key utils.CtxWithValue makes for a *strip.Context (utils/context.go:54-75,
    see CtxValModel.key_of) *)
Definition ctx_key : bytes := bs "github.com/wujiu2020/strip:Context:".

(** *** Handlers
    As ChainModel's [act], with Contexts as values. A handler gets the injected
    Context as its argument. *)
Inductive ract :=
| RRet
| ROp (o : op) (k : ract)
| RSee (k : Z -> Z -> bool -> ract)
| RFind (k : lvl -> ract)                                (* a lookup of strip.Context in the injector *)
| RNext (c : lvl) (k : ract)                             (* c.Next() *)
| RGet (c : lvl) (k : goctx -> ract)                     (* c.GetContext() *)
| RReplace (c : lvl) (g : goctx) (k : ract)              (* c.ReplaceContext(g) *)
| RValue (g : goctx) (key : bytes) (k : option val -> ract)  (* g.Value(key) *)
| RReq (k : goctx -> ract)                               (* Context() of the injector's *http.Request *)
| RProvideReq (g : goctx) (k : ract)                     (* Provide(req.WithContext(g)) *)
| RPanic (nilv : bool)
| RTry (b : ract) (r : bool -> ract) (k : ract).
Definition handler := lvl -> ract.

(** what happened, newest first *)
Inductive cev :=
| VStart (l : lvl) (i : nat) (given : lvl) (wr : bool)   (* handler i of chain l starts with this Context *)
| VRoute (i : nat) (wr : bool)                           (* routeRoot.handle starts, as action of the app's chain *)
| VNext (c : lvl)
| VOp (o : op)
| VFind (c : lvl)
| VGet (c : lvl) (g : goctx)
| VReplace (c : lvl) (g : goctx)
| VValue (g : goctx) (k : bytes) (r : option val)
| VOverflow (g : goctx) (k : bytes)                      (* a lookup that never returns *)
| VReq (g : goctx)
| VProvideReq (g : goctx).

(** context.index and the embedded Context of both; [r_ii] is [None] before the
    nested one exists. [r_req] is the context of the request that was provided last
    to the injector both Contexts share (app.go:117, request-logger/logger.go:136) *)
Record rs : Type := RS { r_io : nat; r_ii : option nat; r_oc : goctx; r_ic : goctx; r_req : goctx; r_rw : rw; r_tr : list cev }.
Definition rnote (s : rs) (e : cev) : rs := RS (r_io s) (r_ii s) (r_oc s) (r_ic s) (r_req s) (r_rw s) (e :: r_tr s).
Definition set_rw (s : rs) (w : rw) : rs := RS (r_io s) (r_ii s) (r_oc s) (r_ic s) (r_req s) w (r_tr s).
Definition set_req (g : goctx) (s : rs) : rs := RS (r_io s) (r_ii s) (r_oc s) (r_ic s) g (r_rw s) (r_tr s).
Definition idx (l : lvl) (s : rs) : option nat := match l with Outer => Some (r_io s) | Inner => r_ii s end.
(** c.index += 1 *)
Definition incr (l : lvl) (s : rs) : rs :=
  match l with
  | Outer => RS (S (r_io s)) (r_ii s) (r_oc s) (r_ic s) (r_req s) (r_rw s) (r_tr s)
  | Inner => RS (r_io s) (option_map S (r_ii s)) (r_oc s) (r_ic s) (r_req s) (r_rw s) (r_tr s)
  end.
Definition ctx_of (s : rs) (l : lvl) : goctx := match l with Outer => r_oc s | Inner => r_ic s end.
(** context.go:66-68 *)
Definition replace (l : lvl) (g : goctx) (s : rs) : rs :=
  match l with
  | Outer => RS (r_io s) (r_ii s) g (r_ic s) (r_req s) (r_rw s) (r_tr s)
  | Inner => RS (r_io s) (r_ii s) (r_oc s) g (r_req s) (r_rw s) (r_tr s)
  end.
(** the injector's strip.Context: what was provided last (context.go:53, 124);
    InjectModel has the injector *)
Definition slot (s : rs) : lvl := match r_ii s with None => Outer | Some _ => Inner end.

Section Conn.
  Variable accept : list wev -> bytes -> nat.
  (** the values of the net/http context *)
  Variable req_value : bytes -> option val.

  (** Value, down the chain of parents; a strip Context passes it on to the
      context.Context behind it. [None]: it comes back to a strip Context it has
      been through, and so never returns *)
  Fixpoint walk (k : bytes) (via : lvl -> option (option val)) (g : goctx) : option (option val) :=
    match g with
    | GReq => Some (req_value k)
    | GWith p k' v => if beq k k' then Some (Some v) else walk k via p
    | GOf l => via l
    end.
  Definition lvl_eqb (a b : lvl) : bool := match a, b with Outer, Outer | Inner, Inner => true | _, _ => false end.
  Definition value (of : lvl -> goctx) (g : goctx) (k : bytes) : option (option val) :=
    walk k (fun l => walk k (fun l' => if lvl_eqb l' l then None else walk k (fun _ => None) (of l')) (of l)) g.

  Definition rdo (o : op) (s : rs) : out rs :=
    let s := rnote s (VOp o) in
    match run_op accept o (r_rw s) with
    | Done r => Done (set_rw s r)
    | Panicked v r => Panicked v (set_rw s r)
    | Deadlock r => Deadlock (set_rw s r)
    end.

  (** [next c] is context.run (context.go:89) of the Context c; a Context that does
      not exist yet cannot be named, the model panics *)
  Fixpoint rexec (a : ract) (next : lvl -> rs -> out rs) (s : rs) : out rs :=
    match a with
    | RRet => Done s
    | ROp o k => obind (rdo o s) (rexec k next)
    | RSee k => rexec (k (status (r_rw s)) (size (r_rw s)) (written (r_rw s))) next s
    | RFind k => rexec (k (slot s)) next (rnote s (VFind (slot s)))
    (* context.go:70-73 Next *)
    | RNext c k => obind (next c (incr c (rnote s (VNext c)))) (rexec k next)
    | RGet c k => rexec (k (ctx_of s c)) next (rnote s (VGet c (ctx_of s c)))
    | RReplace c g k => rexec k next (replace c g (rnote s (VReplace c g)))
    | RValue g key k =>
        match value (ctx_of s) g key with
        | Some r => rexec (k r) next (rnote s (VValue g key r))
        | None => Deadlock (rnote s (VOverflow g key))
        end
    | RReq k => rexec (k (r_req s)) next (rnote s (VReq (r_req s)))
    | RProvideReq g k => rexec k next (set_req g (rnote s (VProvideReq g)))
    | RPanic v => Panicked v s
    | RTry b r k =>
        match rexec b next s with
        | Done s' => rexec k next s'
        | Panicked v s' => rexec (r v) next s'
        | Deadlock s' => Deadlock s'
        end
    end.

  (** app filters, then the filters and action of the route (or NotFound: no action) *)
  Variable fs : list (option handler).
  Variable rfs : list (option handler).
  Variable ract_ : option handler.
  Definition clen (l : lvl) : nat := match l with Outer => List.length fs | Inner => List.length rfs end.
  Inductive what := Skip | Handler (h : handler) | Route.
  (** context.go:79-87 handler *)
  Definition what_at (l : lvl) (i : nat) : what :=
    let opt o := match o with Some (Some h) => Handler h | _ => Skip end in
    match l with
    | Outer => if Nat.ltb i (List.length fs) then opt (nth_error fs i) else Route
    | Inner => if Nat.ltb i (List.length rfs) then opt (nth_error rfs i) else opt (Some ract_)
    end.
  (** context.go:113-130 newNestContext: its context.Context is the Context it
      nests in, and it is provided to the same injector *)
  Definition nest (s : rs) : rs := RS (r_io s) (Some 0) (r_oc s) (GOf Outer) (r_req s) (r_rw s) (r_tr s).
  (** context.go:89-107 run; fuel as in ChainModel.run, enough as shown in Props_ReqCtx *)
  Fixpoint rrun (fuel : nat) (l : lvl) (s : rs) : out rs :=
    match fuel with
    | O => Deadlock s
    | S f =>
        match idx l s with
        | None => Panicked false s
        | Some i =>
            if Nat.leb i (clen l) then
              let after s' := let s'' := incr l s' in if written (r_rw s'') then Done s'' else rrun f l s'' in
              match what_at l i with
              | Skip => rrun f l (incr l s)
              | Handler h => obind (rexec (h (slot s)) (rrun f) (rnote s (VStart l i (slot s) (written (r_rw s))))) after
              | Route => obind (rrun f Inner (nest (rnote s (VRoute i (written (r_rw s)))))) after
              end
            else Done s
        end
    end.
  (** app.go:109-123: the Context is put into the request's context.Context, and
      that context.Context behind the Context; the request that has it is provided *)
  Definition rs0 : rs := RS 0 None (GWith GReq ctx_key (VContext Outer)) (GOf Outer) (GWith GReq ctx_key (VContext Outer)) rw0 [].
  Definition rserve : out rs := rrun (List.length fs + List.length rfs + 4) Outer rs0.
End Conn.

(** ** The request's logger *)
(** the key of a strip.Logger *)
Definition log_key : bytes := bs "github.com/wujiu2020/strip:Logger:".
(** request-logger/logger.go:35-107 ReqLoggerFilter, what it does to Contexts: lines 71,
    131-139 setLoggerInContext; [n] is the logger it makes. Its headers, hook and lines
    are ReqLogModel's. *)
Definition req_logger (n : nat) : handler := fun ctx =>
  RReq (fun g => RProvideReq (GWith g log_key (VOther n)) (RReplace ctx (GWith g log_key (VOther n)) (RNext ctx RRet))).
(** utils/helpers/log.go:36-39 WithLogger *)
Definition with_logger (g : goctx) (n : nat) : goctx := GWith g log_key (VOther n).
(** utils/helpers/log.go:29-34 GetLogger; [x] is the package's own logger. A value that is
    no logger cannot be under this key (CtxValModel has the types). *)
Definition get_logger (x : nat) (g : goctx) (k : nat -> ract) : ract :=
  RValue g log_key (fun r => k match r with Some (VOther n) => n | _ => x end).
