(** AppModel: a whole application: router (RouterModel) and chains (ChainModel). *)
From Coq Require Import List Ascii String Bool Arith ZArith Lia.
Import ListNotations.
From Verif Require Import GoStr RouterModel RespModel ChainModel.

(** app.go:17-34: global filters, routes, not-found handlers *)
Record appl : Type := App { a_filters : list filter_id; a_root : route; a_notfound : list filter_id }.
(** app.go:91-93 Filter(handlers...) called any number of times: filters.append *)
Definition app_filter_calls (calls : list (list filter_id)) : filters := fold_left fappend calls [].

Section App.
  (** what the filters and actions do when invoked *)
  Variable ef : filter_id -> act.
  Variable ea : raction -> bytes -> list (bytes * bytes) -> act.
  Variable accept : list wev -> bytes -> nat.

  (** router.go:145-150, 181-198: the nested chain of a request *)
  Definition request_chain (a : appl) (method path : bytes) : route_chain :=
    match handle (a_root a) method path with
    | NotFound => RC (map (fun f => Some (ef f)) (a_notfound a)) None
    | Serve ra act ps _ => RC (map (fun f => Some (ef f)) (ra_filters ra)) (Some (ea ra act ps))
    end.
  (** app.go:102-124 ServeHTTP *)
  Definition app_chain_run (a : appl) (method path : bytes) : out st :=
    serve_chain accept (map (fun f => Some (ef f)) (a_filters a)) (request_chain a method path).
  Definition app_serve (a : appl) (method path : bytes) : out st :=
    serve accept (map (fun f => Some (ef f)) (a_filters a)) (request_chain a method path).

  (** what a started handler is, by name *)
  Inductive who := RanFilter (f : filter_id) | RanRouting | RanAction (ctl_id : nat) (action : bytes).
  Definition who_of (a : appl) (method path : bytes) (p : lvl * nat) : option who :=
    match p with
    | (Outer, i) => match nth_error (a_filters a) i with Some f => Some (RanFilter f) | None => Some RanRouting end
    | (Inner, j) =>
        match handle (a_root a) method path with
        | NotFound => option_map RanFilter (nth_error (a_notfound a) j)
        | Serve ra act _ _ =>
            match nth_error (ra_filters ra) j with
            | Some f => Some (RanFilter f)
            | None => Some (RanAction (c_id (ra_ctl ra)) act)
            end
        end
    end.
End App.
