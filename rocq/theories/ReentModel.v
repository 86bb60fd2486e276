(** ReentModel: /repo/inject with functions that call back. InjectModel takes what is provided or invoked as black boxes; but
    filters and handlers are given the Context, which is an injector (context.go:19-42): inside an Invoke they provide, find,
    apply and invoke again (ctx.Next, context.go:101-118, is an Invoke). Here a function is a program of such operations.

    Simplifications: as in InjectModel, without the first one. A nested operation that panics hands the panic to the function,
    which may recover. An operation on an injector that was not made is a panic (Go programs cannot name one). *)
From Coq Require Import List Ascii String Bool Arith Lia.
Import ListNotations.
From Verif Require Import GoStr InjectModel.

(** what a function does when it is called *)
Inductive act := ARet (g : nat -> option nat) | APanic | ADo (o : iop) (k : iobs -> act).

(** what has happened, newest first *)
Inductive ev :=
| EStart (i q : nat)                                                   (* a function of injector i's lookup begins to be prepared *)
| EFound (i : nat) (n : bytes) (v : val)                               (* a dependency, a Find or a field got this *)
| ECall (i q : nat) (n : bytes) (f : nat) (deps : list bytes) (args : list val)  (* the function of slot n is called *)
| EKeep (i : nat) (n : bytes) (o : list val)                           (* its results are kept *)
| EDrop (i : nat) (n : bytes)                                          (* an Invoke ends: nothing is kept *)
| EProv (i : nat) (n : bytes) (k : pkind)                              (* Provide *)
| EInv (i q : nat)                                                     (* Invoke of a function, it is provider q *)
| EParent (i k : nat).                                                 (* SetParent *)
Record rworld : Type := RW { r_w : world; r_log : list ev }.
Definition log (w : rworld) (e : ev) : rworld := RW (r_w w) (e :: r_log w).
Definition on_w (w : rworld) (f : world -> world) : rworld := RW (f (r_w w)) (r_log w).

(** writing to the world what InjectModel keeps in its state *)
Definition kput (w : world) (i : nat) (n : bytes) (o : list val) : world :=
  set_inj w i (Inj (j_values (jget w i)) (aset (j_cache (jget w i)) n o) (j_parent (jget w i))).
Definition wmark (w : world) (q : nat) : world := World (w_inj w) (w_prov w) (q :: w_done w) (w_tr w).
Definition wcall (w : world) (e : callev) : world := World (w_inj w) (w_prov w) (w_done w) (e :: w_tr w).

Definition status := list bytes.
(** a lookup: the injector, the provider, the status map of the operation it belongs to *)
Definition inv := nat -> nat -> status -> rworld -> ires * status * rworld.

Section Reent.
  Variable assignable : rtype -> rtype -> bool.
  Variable call : list callev -> nat -> list val -> act.

  (** inject_provider.go:147-176 *)
  Fixpoint r_deps (iv : inv) (i : nat) (deps : list bytes) (st : status) (w : rworld) : dres * status * rworld :=
    match deps with
    | [] => (DArgs [], st, w)
    | d :: ds =>
        match look_in (r_w w) i d with
        | Missing => (DFail (IErr (EMissing d)), st, w)
        | Loop => (DFail IDiv, st, w)
        | Found q =>
            if negb (existsb (Nat.eqb q) (w_done (r_w w))) && existsb (beq (p_name (info_of (r_w w) q))) st then (DFail (IErr (ECycle d)), st, w)
            else
              match iv i q st w with
              | (IOk (v :: _), st1, w1) =>
                  match r_deps iv i ds st1 (log w1 (EFound i d v)) with
                  | (DArgs l, st2, w2) => (DArgs (v :: l), st2, w2)
                  | x => x
                  end
              | (IOk [], st1, w1) => (DFail IPanic, st1, w1)
              | (r, st1, w1) => (DFail r, st1, w1)
              end
        end
    end.

  (** *** the operations, given the lookup *)
  Section Ops.
    Variable iv : inv.
    (** inject.go:195-266 *)
    Fixpoint r_fields (i : nat) (sub_apply : list field -> list nat -> status -> rworld -> ares * status * rworld)
             (fs : list field) (n : nat) (path : list nat) (st : status) (w : rworld) : ares * status * rworld :=
      match fs with
      | [] => (AppOk [], st, w)
      | Field settable tg ty sub :: fs' =>
          let rest := r_fields i sub_apply fs' (S n) path in
          let continue_with (l : list assignment) (st1 : status) (w1 : rworld) :=
            match rest st1 w1 with
            | (AppOk l', st2, w2) => (AppOk (l ++ l'), st2, w2)
            | x => x
            end in
          if negb settable then rest st w else
          match tg with
          | TagSkip => rest st w
          | TagInject label =>
              let nm := create_name (indirect ty) label in
              match look_in (r_w w) i nm with
              | Missing => (AppFail (IErr (EMissing nm)), st, w)
              | Loop => (AppFail IDiv, st, w)
              | Found q =>
                  match iv i q st w with
                  | (IOk (v :: _), st1, w1) =>
                      match assign_value assignable v ty with
                      | ASet v' => continue_with [(path ++ [n], v')] st1 (log w1 (EFound i nm v))
                      | _ => continue_with [] st1 (log w1 (EFound i nm v))
                      end
                  | (IOk [], st1, w1) => continue_with [] st1 w1
                  | (r, st1, w1) => (AppFail r, st1, w1)
                  end
              end
          | TagNone =>
              match sub with
              | Some fs1 =>
                  match sub_apply fs1 (path ++ [n]) st w with
                  | (AppOk l, st1, w1) => continue_with l st1 w1
                  | x => x
                  end
              | None => rest st w
              end
          end
      end.
    Fixpoint r_apply (i left : nat) (fs : list field) (path : list nat) (st : status) (w : rworld) : ares * status * rworld :=
      r_fields i (match left with O => fun _ _ st w => (AppOk [], st, w) | S l => r_apply i l end) fs 0 path st w.
    (** inject.go:86-112, 114-141, 143-169, 171-184, 282-286 *)
    Definition r_op (w : rworld) (o : iop) : rworld * iobs :=
      let there (i : nat) (x : rworld * iobs) := if Nat.ltb i (List.length (w_inj (r_w w))) then x else (w, RPanic) in
      match o with
      | PNew => (on_w w (fun w => World (w_inj w ++ [inj0]) (w_prov w) (w_done w) (w_tr w)), RNone)
      | PSetParent i k => there i (there k (log (on_w w (fun w => set_inj w i (Inj (j_values (jget w i)) (j_cache (jget w i)) (Some k)))) (EParent i k), RNone))
      | PProvide i p => there i
          match new_provider p with
          | None => (w, RPanic)
          | Some pi => (log (on_w w (fun w => fst (provide w i p))) (EProv i (p_name pi) (p_kind pi)), RNone)
          end
      | PFind i target label => there i
          (let n := create_name (indirect target) label in
           match look_in (r_w w) i n with
           | Missing => (w, RErr (EMissing n))
           | Loop => (w, RDiv)
           | Found q =>
               match iv i q [] w with
               | (IOk [], _, w1) => (w1, RNone)
               | (IOk (v :: _), _, w1) => (log w1 (EFound i n v), match assign_value assignable v target with ANo => RErr (EAssign (v_ty v) target) | r => RVal r end)
               | (r, _, w1) => (w1, obs_fail r)
               end
           end)
      | PInvoke i p => there i
          match new_provider p with
          | None => (w, RPanic)
          | Some pi =>
              let q := List.length (w_prov (r_w w)) in
              match iv i q [] (log (on_w w (fun w => add_prov w pi)) (EInv i q)) with
              | (IOk out, _, w1) => (log (on_w w1 (fun w => drop_cache w i (p_name pi))) (EDrop i (p_name pi)), ROut out)
              | (r, _, w1) => (w1, obs_fail r)
              end
          end
      | PApply i fs => there i
          match r_apply i (max_level - 1) fs [] [] w with
          | (AppOk l, _, w1) => (w1, RApplied l)
          | (AppFail r, _, w1) => (w1, obs_fail r)
          end
      | PExists i target label => there i (w, snd (exists_op assignable (r_w w) i target label))
      end.
    (** the body of a function; a nested operation that does not return keeps it from returning *)
    Fixpoint r_act (a : act) (w : rworld) : (ires + (nat -> option nat)) * rworld :=
      match a with
      | ARet g => (inr g, w)
      | APanic => (inl IPanic, w)
      | ADo o k =>
          match r_op w o with
          | (w1, RDiv) => (inl IDiv, w1)
          | (w1, b) => r_act (k b) w1
          end
      end.
  End Ops.

  (** inject_provider.go:127-184 invoke *)
  Fixpoint r_invoke (fuel : nat) (i q : nat) (st : status) (w : rworld) : ires * status * rworld :=
    match fuel with
    | O => (IDiv, st, w)
    | S f =>
        let p := info_of (r_w w) q in
        match aget (j_cache (jget (r_w w) i)) (p_name p) with
        | Some o => (IOk o, st, w)
        | None =>
            let st0 := p_name p :: st in
            let finish (x : ires * status * rworld) :=
              match x with
              | (IOk o, st1, w1) => (IOk o, st1, on_w w1 (fun w => wmark w q))
              | (IPanic, st1, w1) => (IPanic, st1, on_w w1 (fun w => wmark w q))
              | x => x
              end in
            match p_kind p with
            | KVal v => finish (IOk [v], st0, w)
            | KFun fn ins outs =>
                match r_deps (r_invoke f) i (p_deps p) st0 (log w (EStart i q)) with
                | (DArgs args, st1, w1) =>
                    finish
                      (if args_ok assignable args ins then
                         match r_act (r_invoke f) (call (w_tr (r_w w1)) fn args) (log w1 (ECall i q (p_name p) fn (p_deps p) args)) with
                         | (inr g, w2) =>
                             let o := results g 0 outs in
                             let w3 := on_w w2 (fun w => wcall w (Called i q fn args true)) in
                             (IOk o, st1, match outs with [] => w3 | _ => log (on_w w3 (fun w => kput w i (p_name p) o)) (EKeep i (p_name p) o) end)
                         | (inl IPanic, w2) => (IPanic, st1, on_w w2 (fun w => wcall w (Called i q fn args false)))
                         | (inl r, w2) => (r, st1, w2)
                         end
                       else (IPanic, st1, w1))
                | (DFail r, st1, w1) => finish (r, st1, w1)
                end
            end
        end
    end.
  Definition r_exec (fuel : nat) (w : rworld) (o : iop) : rworld * iobs := r_op (r_invoke fuel) w o.
End Reent.
