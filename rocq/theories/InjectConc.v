(** InjectConc: lookups of concurrent requests. Every request has an injector of its own (context.go:44-60 newContext,
    app.go:102-124 ServeHTTP) whose parent is the application's; what the requests share and write is the [done] counter of
    the application's providers (inject_provider.go:36, :135 atomic.AddUint32, :156 atomic.LoadUint32). Here a lookup is a
    tree of its accesses to these counters; between two of them a request works on things of its own (its injector's values
    and caches, its status map), see InjectModel.

    Simplifications:
    - the functions provided answer a request as if it were alone (as in InjectModel, [call] is given the calls of the request);
    - the counters of the requests' own providers are shared as well if they have the same number: more interference than
      there is;
    - the application's injector is not written while requests are served: a program here works on its own injectors. *)
From Coq Require Import List Ascii String Bool Arith NArith Lia.
Import ListNotations.
From Verif Require Import GoStr InjectModel.

(** what is done to the shared counters: reading whether one is zero, adding one *)
Inductive tree (X : Type) := TRet (x : X) | TAsk (q : nat) (k : bool -> tree X) | TMark (q : nat) (t : tree X).
Arguments TRet {X}. Arguments TAsk {X}. Arguments TMark {X}.

Section Lookup.
  Variable assignable : rtype -> rtype -> bool.
  Variable call : list callev -> nat -> list val -> option (nat -> option nat).
  Variable X : Type.
  Section Invoke.
    Variable inj : nat.
    Variable look : bytes -> found.
    Variable info : nat -> pinfo.
    (** inject_provider.go:147-176; [i_done] of the states is not used *)
    Fixpoint t_deps (inv : nat -> ist -> (ires -> ist -> tree X) -> tree X) (deps : list bytes) (s : ist) (k : dres -> ist -> tree X) : tree X :=
      match deps with
      | [] => k (DArgs []) s
      | d :: ds =>
          match look d with
          | Missing => k (DFail (IErr (EMissing d))) s
          | Loop => k (DFail IDiv) s
          | Found q =>
              TAsk q (fun zero =>
                if zero && in_status s (p_name (info q)) then k (DFail (IErr (ECycle d))) s
                else inv q s (fun r s1 =>
                  match r with
                  | IOk (v :: _) => t_deps inv ds s1 (fun x s2 => match x with DArgs l => k (DArgs (v :: l)) s2 | _ => k x s2 end)
                  | IOk [] => k (DFail IPanic) s1
                  | _ => k (DFail r) s1
                  end))
          end
      end.
    (** the deferred function, inject_provider.go:133-137 *)
    Definition t_defer (q : nat) (r : ires) (t : tree X) : tree X :=
      match r with IOk _ | IPanic => TMark q t | _ => t end.
    (** inject_provider.go:127-184 invoke *)
    Fixpoint t_invoke (fuel : nat) (q : nat) (s : ist) (k : ires -> ist -> tree X) : tree X :=
      match fuel with
      | O => k IDiv s
      | S f =>
          let p := info q in
          match aget (i_cache s) (p_name p) with
          | Some o => k (IOk o) s
          | None =>
              let s0 := set_status s (p_name p) in
              match p_kind p with
              | KVal v => t_defer q (IOk [v]) (k (IOk [v]) s0)
              | KFun fn ins outs =>
                  t_deps (t_invoke f) (p_deps p) s0 (fun x s1 =>
                    match x with
                    | DArgs args => let rs := call_fun assignable call inj info q fn ins outs args s1 in t_defer q (fst rs) (k (fst rs) (snd rs))
                    | DFail r => t_defer q r (k r s1)
                    end)
              end
          end
      end.
  End Invoke.

  Definition t_run (w : world) (i fuel q : nat) (s : ist) (k : ires -> ist -> tree X) : tree X := t_invoke i (look_in w i) (info_of w) fuel q s k.
  (** inject.go:195-266 apply: the fields of one level *)
  Fixpoint t_fields (w : world) (i fuel : nat) (sub_apply : list field -> list nat -> ist -> (ares -> ist -> tree X) -> tree X)
           (fs : list field) (n : nat) (path : list nat) (s : ist) (k : ares -> ist -> tree X) : tree X :=
    match fs with
    | [] => k (AppOk []) s
    | Field settable tg ty sub :: fs' =>
        let rest s1 k1 := t_fields w i fuel sub_apply fs' (S n) path s1 k1 in
        let continue_with l s1 := rest s1 (fun a s2 => match a with AppOk l' => k (AppOk (l ++ l')) s2 | x => k x s2 end) in
        if negb settable then rest s k else
        match tg with
        | TagSkip => rest s k
        | TagInject label =>
            let nm := create_name (indirect ty) label in
            match look_in w i nm with
            | Missing => k (AppFail (IErr (EMissing nm))) s
            | Loop => k (AppFail IDiv) s
            | Found q =>
                t_run w i fuel q s (fun r s1 =>
                  match r with
                  | IOk (v :: _) => match assign_value assignable v ty with ASet v' => continue_with [(path ++ [n], v')] s1 | _ => continue_with [] s1 end
                  | IOk [] => continue_with [] s1
                  | _ => k (AppFail r) s1
                  end)
            end
        | TagNone =>
            match sub with
            | Some fs1 => sub_apply fs1 (path ++ [n]) s (fun a s1 => match a with AppOk l => continue_with l s1 | x => k x s1 end)
            | None => rest s k
            end
        end
    end.
  Fixpoint t_apply (w : world) (i fuel left : nat) (fs : list field) (path : list nat) (s : ist) (k : ares -> ist -> tree X) : tree X :=
    t_fields w i fuel (match left with O => fun _ _ s k => k (AppOk []) s | S l => t_apply w i fuel l end) fs 0 path s k.

  (** the operations (InjectModel.exec_op) *)
  Definition t_find (w : world) (i fuel : nat) (target : rtype) (label : bytes) (k : world -> iobs -> tree X) : tree X :=
    let n := create_name (indirect target) label in
    match look_in w i n with
    | Missing => k w (RErr (EMissing n))
    | Loop => k w RDiv
    | Found q =>
        t_run w i fuel q (begin w i) (fun r s =>
          match r with
          | IOk [] => k (commit w i s) RNone
          | IOk (v :: _) => k (commit w i s) (match assign_value assignable v target with ANo => RErr (EAssign (v_ty v) target) | a => RVal a end)
          | _ => k (commit w i s) (obs_fail r)
          end)
    end.
  Definition t_invoke_op (w : world) (i fuel : nat) (o : pobj) (k : world -> iobs -> tree X) : tree X :=
    match new_provider o with
    | None => k w RPanic
    | Some p =>
        let w1 := add_prov w p in
        t_run w1 i fuel (List.length (w_prov w)) (begin w1 i) (fun r s =>
          match r with
          | IOk out => k (drop_cache (commit w1 i s) i (p_name p)) (ROut out)
          | _ => k (commit w1 i s) (obs_fail r)
          end)
    end.
  Definition t_apply_op (w : world) (i fuel : nat) (fs : list field) (k : world -> iobs -> tree X) : tree X :=
    t_apply w i fuel (max_level - 1) fs [] (begin w i) (fun a s => match a with AppOk l => k (commit w i s) (RApplied l) | AppFail r => k (commit w i s) (obs_fail r) end).
  Definition t_op (fuel : nat) (w : world) (o : iop) (k : world -> iobs -> tree X) : tree X :=
    match o with
    | PFind i t l => t_find w i fuel t l k
    | PInvoke i p => t_invoke_op w i fuel p k
    | PApply i fs => t_apply_op w i fuel fs k
    | _ => let r := exec_op assignable call fuel w o in k (fst r) (snd r)   (* these do not look at the counters *)
    end.
End Lookup.

(** what a request does: operations on the injector, each may depend on what came of those before *)
Inductive prog := Stop | Do (o : iop) (k : iobs -> prog).
(** what it has seen (newest first) and its injectors *)
Definition answer := (list iobs * world)%type.
Section Requests.
  Variable assignable : rtype -> rtype -> bool.
  Variable call : list callev -> nat -> list val -> option (nat -> option nat).
  Variable fuel : nat.
  Fixpoint t_prog (p : prog) (w : world) (seen : list iobs) : tree answer :=
    match p with
    | Stop => TRet (seen, w)
    | Do o k => t_op assignable call answer fuel w o (fun w' b => t_prog (k b) w' (b :: seen))
    end.
  (** alone, in InjectModel *)
  Fixpoint alone (p : prog) (w : world) (seen : list iobs) : answer :=
    match p with
    | Stop => (seen, w)
    | Do o k => let (w', b) := exec_op assignable call fuel w o in alone (k b) w' (b :: seen)
    end.
End Requests.

(** the counters: done uint32, inject_provider.go:36 *)
Definition counters := nat -> N.
Definition two32 : N := 4294967296.
Definition incr (c : counters) (q : nat) : counters := fun x => if Nat.eqb x q then ((c q + 1) mod two32)%N else c x.
(** one access to the counters *)
Definition tstep {X} (t : tree X) (c : counters) : tree X * counters :=
  match t with
  | TRet x => (TRet x, c)
  | TAsk q k => (k (N.eqb (c q) 0), c)
  | TMark q t' => (t', incr c q)
  end.
(** several requests; a schedule says which makes the next access *)
Definition sched_step {X} (st : list (tree X) * counters) (r : nat) : list (tree X) * counters :=
  match nth_error (fst st) r with
  | Some t => let (t', c') := tstep t (snd st) in (upd (fst st) r t', c')
  | None => st
  end.
Definition run_all {X} (ts : list (tree X)) (c : counters) (sched : list nat) : list (tree X) * counters := fold_left sched_step sched (ts, c).
