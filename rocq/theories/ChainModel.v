(** ChainModel: /repo/context.go (run, Next), the two nested chains of a request
    (app.go ServeHTTP, router.go handle) and /repo/recovery.go. *)
From Coq Require Import List Ascii String Bool Arith ZArith Lia.
Import ListNotations.
From Verif Require Import GoStr RespModel.

(** *** Handlers
    A filter or action is a Go function; what matters here is what it does to
    the response and when it calls ctx.Next. Its behaviour is a tree, branching
    on what it sees of the response; [ATry b r k] is a call of [b] under a
    deferred recover: [r] runs if [b] panicked (its argument says whether the
    recovered value is nil), [k] if it returned.
    Simplifications: arguments are injected elsewhere (InjectModel); a handler
    has no result values (results only matter for the injector's cache); every
    handler uses the Context of its own chain. *)
Inductive act :=
| ARet
| AOp (o : op) (k : act)
| ASee (k : Z -> Z -> bool -> act)
| ANext (k : act)
| APanic (nilv : bool)
| ATry (b : act) (r : bool -> act) (k : act).

(** *** What happened, newest first *)
Inductive lvl := Outer | Inner.
Inductive ev :=
| EStart (l : lvl) (i : nat) (wr : bool)   (* handler i of a chain starts; [wr] is Written() at that moment *)
| ENext                                    (* ctx.Next() was called *)
| EOp (o : op).                            (* a call on the ResponseWriter *)
Record world : Type := W { w_rw : rw; w_tr : list ev }.
Definition note (w : world) (e : ev) : world := W (w_rw w) (e :: w_tr w).

(** a chain's state: context.index (context.go:39) and the world *)
Definition st := (nat * world)%type.
Definition hsem := (st -> out st) -> st -> out st.

Section Conn.
  Variable accept : list wev -> bytes -> nat.

  Definition do_op (o : op) (s : st) : out st :=
    let w := note (snd s) (EOp o) in
    match run_op accept o (w_rw w) with
    | Done r => Done (fst s, W r (w_tr w))
    | Panicked v r => Panicked v (fst s, W r (w_tr w))
    | Deadlock r => Deadlock (fst s, W r (w_tr w))
    end.

  (** [next] is context.run (context.go:89) *)
  Fixpoint exec (a : act) (next : st -> out st) (s : st) : out st :=
    match a with
    | ARet => Done s
    | AOp o k => obind (do_op o s) (exec k next)
    | ASee k => let r := w_rw (snd s) in exec (k (status r) (size r) (written r)) next s
    (* context.go:70-73 Next *)
    | ANext k => obind (next (S (fst s), note (snd s) ENext)) (exec k next)
    | APanic v => Panicked v s
    | ATry b r k =>
        match exec b next s with
        | Done s' => exec k next s'
        | Panicked v s' => exec (r v) next s'
        | Deadlock s' => Deadlock s'
        end
    end.

  (** context.go:79-87 handler: the filters, then the action; nil entries are [None] *)
  Record chain : Type := Ch { ch_filters : list (option hsem); ch_action : option hsem }.
  Definition ch_len (c : chain) : nat := List.length (ch_filters c).
  Definition ch_handler (c : chain) (i : nat) : option hsem :=
    if Nat.ltb i (ch_len c) then match nth_error (ch_filters c) i with Some h => h | None => None end
    else if Nat.eqb i (ch_len c) then ch_action c else None.

  (** context.go:89-107 run. A chain of n filters starts at most n+1 handlers, so fuel
      n+2 always suffices; running out is reported as [Deadlock] and shown not
      to happen (ChainFacts). *)
  Fixpoint run (l : lvl) (c : chain) (fuel : nat) (s : st) : out st :=
    match fuel with
    | O => Deadlock s
    | S f =>
        let (i, w) := s in
        if Nat.leb i (ch_len c) then
          match ch_handler c i with
          | None => run l c f (S i, w)
          | Some h =>
              obind (h (run l c f) (i, note w (EStart l i (written (w_rw w))))) (fun s' =>
              let s'' := (S (fst s'), snd s') in
              if written (w_rw (snd s'')) then Done s'' else run l c f s'')
          end
        else Done s
    end.
  Definition start (l : lvl) (c : chain) (w : world) : out st := run l c (S (S (ch_len c))) (0, w).

  (** *** The chain of a matched route, or of NotFound (then no action)
      router.go:146-150, 181-185, 193-197: newNestContext(...).run() *)
  Record route_chain : Type := RC { rc_filters : list (option act); rc_action : option act }.
  Definition inner_chain (rc : route_chain) : chain :=
    Ch (map (option_map exec) (rc_filters rc)) (option_map exec (rc_action rc)).
  (** routeRoot.handle as the action of the app's chain: it runs the nested
      chain to its end; the outer index is not touched by it *)
  Definition route_handler (rc : route_chain) : hsem := fun _ s =>
    match start Inner (inner_chain rc) (snd s) with
    | Done s' => Done (fst s, snd s')
    | Panicked v s' => Panicked v (fst s, snd s')
    | Deadlock s' => Deadlock (fst s, snd s')
    end.
  (** app.go:110 newContext(nil, trw, s.filters, s.route.handle) *)
  Definition app_chain (fs : list (option act)) (rc : route_chain) : chain :=
    Ch (map (option_map exec) fs) (Some (route_handler rc)).
  Definition w0 : world := W rw0 [].
  (** app.go:120 run *)
  Definition serve_chain (fs : list (option act)) (rc : route_chain) : out st :=
    start Outer (app_chain fs rc) w0.
  (** app.go:102-124 ServeHTTP: the chain, then Write(nil) *)
  Definition serve (fs : list (option act)) (rc : route_chain) : out st :=
    obind (serve_chain fs rc) (do_op (OWrite [])).
End Conn.

(** *** recovery.go:63-102 RecoveryFilter
    [dev] is config.RunMode.IsDev(), [page] the rendered HTML. The logger and
    the strip ResponseWriter are found (strip.New provides both). With a
    recovered nil value the deferred function does nothing (line 66). *)
Definition recovery (dev : bool) (page : bytes) : act :=
  ATry (ANext ARet)
    (fun nilv =>
       if nilv then ARet
       else ASee (fun _ _ wr =>
              if wr then ARet
              else AOp (OWriteHeader 500) (if dev then AOp (OWrite page) ARet else ARet)))
    ARet.
(** default.go:7-10, router_util.go handleStatus: see Props_Chain for 404 *)
