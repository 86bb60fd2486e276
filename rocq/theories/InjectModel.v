(** InjectModel: /repo/inject/inject.go and /repo/inject/inject_provider.go.

    Simplifications:
    - a provided function is a black box: what it returns, and whether it
      panics, is decided by an oracle that sees everything called so far; it
      does not itself call back into the injector;
    - one goroutine (the shared [done] counters are atomic, caches are not
      protected at all in the code);
    - reflect values are a dynamic type and an opaque datum; a nil pointer or
      nil interface is [None]. reflect.Value.Call always returns valid values,
      so the IsValid branches (inject.go:133-135, 161-163, 236-238, inject_provider.go:168-173)
      are never taken and are left out;
    - a provided pointer to a pointer is not to a nil pointer (else, without an
      overriding type, inject_provider.go:113 panics: there is no type to read);
    - provided functions are not variadic (reflect.Value.Call would want the
      elements, not the slice the dependency is named by, and panic). *)
From Coq Require Import List Ascii String Bool Arith Lia.
Import ListNotations.
From Verif Require Import GoStr.

(** ** Types (package reflect) *)
(** A named type has an import path, a name, and a scope that tells apart types
    of the same name declared in different functions of one package; predeclared
    types have the empty path. [TLit k] are the type literals ([]int, map[..].., func,
    anonymous structs, ...): both PkgPath() and Name() are empty. *)
Inductive rtype := TNamed (pkg name : bytes) (scope : nat) | TLit (k : nat) | TPtr (t : rtype).

(** reflect.Type.PkgPath and Name *)
Definition pkg_path (t : rtype) : bytes := match t with TNamed p _ _ => p | _ => [] end.
Definition type_name (t : rtype) : bytes := match t with TNamed _ n _ => n | _ => [] end.
(** inject_provider.go:199-205 indirectType *)
Fixpoint indirect (t : rtype) : rtype := match t with TPtr t' => indirect t' | _ => t end.
Definition colon : ascii := ":"%char.
(** inject_provider.go:186-189 createName *)
Definition create_name (t : rtype) (label : bytes) : bytes :=
  pkg_path t ++ colon :: type_name t ++ colon :: label.

(** ** Values *)
Record val : Type := Val { v_ty : rtype; v_data : option nat }.

(** ** Providers (inject_provider.go:12-37) *)
Inductive pkind :=
| KVal (v : val)                                      (* value, val *)
| KFun (f : nat) (ins outs : list rtype).             (* pval, ptyp; f is the function *)
Record pinfo : Type := PI { p_name : bytes; p_deps : list bytes; p_kind : pkind }.
Definition is_fun (p : pinfo) : bool := match p_kind p with KFun _ _ _ => true | _ => false end.

(** what a program passes to ProvideAs (inject.go:86-102) and Invoke: a value, or a
    function with the labels of its dependencies (Provide{Dep{..}, fn}), an
    overriding type and a label *)
Inductive pobj :=
| OVal (v : val) (typ : option rtype) (label : bytes)
| OFun (f : nat) (ins outs : list rtype) (deps : list (nat * bytes)) (typ : option rtype) (label : bytes).
Fixpoint dep_label (deps : list (nat * bytes)) (i : nat) : bytes :=
  match deps with [] => [] | (j, l) :: ds => if Nat.eqb i j then l else dep_label ds i end.
Fixpoint dep_names (deps : list (nat * bytes)) (i : nat) (ins : list rtype) : list bytes :=
  match ins with
  | [] => []
  | t :: ts => create_name (indirect t) (dep_label deps i) :: dep_names deps (S i) ts
  end.
(** inject_provider.go:39-125 newProvider, newProviderValue, setName; [None] is a panic *)
Definition new_provider (o : pobj) : option pinfo :=
  match o with
  | OVal v typ label =>
      match v_ty v, v_data v with
      | TPtr _, Some _ =>
          Some (PI (create_name (indirect (match typ with Some t => t | None => v_ty v end)) label) [] (KVal v))
      | _, _ => None
      end
  | OFun f ins outs deps typ label =>
      Some (PI (match outs with
                | [] => []
                | t0 :: _ => create_name (indirect (match typ with Some t => t | None => t0 end)) label
                end)
               (dep_names deps 0 ins) (KFun f ins outs))
  end.

(** ** Invoking a provider (inject_provider.go:127-184) *)
Record callev : Type := Called { c_inj : nat; c_prov : nat; c_fun : nat; c_args : list val; c_ok : bool (* it returned *) }.
Inductive ierr := EMissing (name : bytes) | ECycle (name : bytes) | EAssign (from to : rtype).
(** [IDiv]: still running when the fuel is used up *)
Inductive ires := IOk (out : list val) | IErr (e : ierr) | IPanic | IDiv.
(** what an invocation changes: the caches of the injector it was started on,
    the [done] counters (only zero or not matters), the status map of the
    current call, and the functions called so far (newest first) *)
Record ist : Type := IS { i_cache : list (bytes * list val); i_done : list nat; i_status : list bytes; i_tr : list callev }.
Definition is_done (s : ist) (q : nat) : bool := existsb (Nat.eqb q) (i_done s).
Definition in_status (s : ist) (n : bytes) : bool := existsb (beq n) (i_status s).
Definition set_status (s : ist) (n : bytes) : ist := IS (i_cache s) (i_done s) (n :: i_status s) (i_tr s).
Definition mark_done (s : ist) (q : nat) : ist := IS (i_cache s) (q :: i_done s) (i_status s) (i_tr s).
Definition set_cache (s : ist) (n : bytes) (o : list val) : ist := IS (aset (i_cache s) n o) (i_done s) (i_status s) (i_tr s).
Definition add_call (s : ist) (e : callev) : ist := IS (i_cache s) (i_done s) (i_status s) (e :: i_tr s).

(** where a name leads: inject.go:268-280 get *)
Inductive found := Found (q : nat) | Missing | Loop.
Inductive dres := DArgs (l : list val) | DFail (r : ires).

Section Invoke.
  (** reflect.Type.AssignableTo *)
  Variable assignable : rtype -> rtype -> bool.
  (** what the function returns: the data of its results, or a panic *)
  Variable call : list callev -> nat -> list val -> option (nat -> option nat).
  Variable inj : nat.                    (* the injector Find/Invoke/Apply was called on *)
  Variable look : bytes -> found.
  Variable info : nat -> pinfo.

  Fixpoint results (g : nat -> option nat) (i : nat) (outs : list rtype) : list val :=
    match outs with [] => [] | t :: ts => Val t (g i) :: results g (S i) ts end.
  Fixpoint args_ok (args : list val) (ins : list rtype) : bool :=
    match args, ins with
    | [], [] => true
    | a :: args', t :: ins' => assignable (v_ty a) t && args_ok args' ins'
    | _, _ => false
    end.

  (** inject_provider.go:147-176: the loop over the dependencies *)
  Fixpoint eval_deps (inv : nat -> ist -> ires * ist) (deps : list bytes) (s : ist) : dres * ist :=
    match deps with
    | [] => (DArgs [], s)
    | d :: ds =>
        match look d with
        | Missing => (DFail (IErr (EMissing d)), s)
        | Loop => (DFail IDiv, s)
        | Found q =>
            if negb (is_done s q) && in_status s (p_name (info q)) then (DFail (IErr (ECycle d)), s)
            else
              match inv q s with
              | (IOk (v :: _), s1) =>
                  match eval_deps inv ds s1 with
                  | (DArgs l, s2) => (DArgs (v :: l), s2)
                  | x => x
                  end
              | (IOk [], s1) => (DFail IPanic, s1)   (* ot[0] *)
              | (r, s1) => (DFail r, s1)
              end
        end
    end.

  (** the function itself: inject_provider.go:178-183 *)
  Definition call_fun (q : nat) (f : nat) (ins outs : list rtype) (args : list val) (s : ist) : ires * ist :=
    if args_ok args ins then
      match call (i_tr s) f args with
      | Some g =>
          let o := results g 0 outs in
          let s1 := add_call s (Called inj q f args true) in
          (IOk o, match outs with [] => s1 | _ => set_cache s1 (p_name (info q)) o end)
      | None => (IPanic, add_call s (Called inj q f args false))
      end
    else (IPanic, s).

  (** inject_provider.go:127-184 invoke. The deferred function also runs when
      a panic passes through, with err still nil. *)
  Fixpoint invoke (fuel : nat) (q : nat) (s : ist) : ires * ist :=
    match fuel with
    | O => (IDiv, s)
    | S f =>
        let p := info q in
        match aget (i_cache s) (p_name p) with
        | Some o => (IOk o, s)
        | None =>
            let s0 := set_status s (p_name p) in
            let rs :=
              match p_kind p with
              | KVal v => (IOk [v], s0)
              | KFun fn ins outs =>
                  match eval_deps (invoke f) (p_deps p) s0 with
                  | (DArgs args, s1) => call_fun q fn ins outs args s1
                  | (DFail r, s1) => (r, s1)
                  end
              end in
            match fst rs with
            | IOk _ | IPanic => (fst rs, mark_done (snd rs) q)
            | _ => rs
            end
        end
    end.
End Invoke.

(** ** Injectors and programs (inject.go) *)
Record injector : Type := Inj { j_values : list (bytes * nat); j_cache : list (bytes * list val); j_parent : option nat }.
Record world : Type := World { w_inj : list injector; w_prov : list pinfo; w_done : list nat; w_tr : list callev }.
Definition world0 : world := World [] [] [] [].

Definition inj0 : injector := Inj [] [] None.                    (* inject.go:72-77 New *)
Definition jget (w : world) (i : nat) : injector := nth i (w_inj w) inj0.
Fixpoint upd {A} (l : list A) (i : nat) (x : A) : list A :=
  match l, i with
  | [], _ => []
  | _ :: l', O => x :: l'
  | y :: l', S i' => y :: upd l' i' x
  end.
Definition set_inj (w : world) (i : nat) (j : injector) : world := World (upd (w_inj w) i j) (w_prov w) (w_done w) (w_tr w).
Definition pdummy : pinfo := PI [colon] [] (KVal (Val (TLit 0) None)).
Definition info_of (w : world) (q : nat) : pinfo := nth q (w_prov w) pdummy.

(** inject.go:268-280 get; the fuel counts injectors, a longer chain of parents
    goes round in circles for ever *)
Fixpoint look_up (w : world) (fuel : nat) (i : nat) (n : bytes) : found :=
  match fuel with
  | O => Loop
  | S f =>
      match aget (j_values (jget w i)) n with
      | Some q => Found q
      | None => match j_parent (jget w i) with Some k => look_up w f k n | None => Missing end
      end
  end.
Definition look_in (w : world) (i : nat) (n : bytes) : found := look_up w (S (List.length (w_inj w))) i n.

(** the parts of the world an invocation works on, and back *)
Definition begin (w : world) (i : nat) : ist := IS (j_cache (jget w i)) (w_done w) [] (w_tr w).
Definition commit (w : world) (i : nat) (s : ist) : world :=
  World (upd (w_inj w) i (Inj (j_values (jget w i)) (i_cache s) (j_parent (jget w i)))) (w_prov w) (i_done s) (i_tr s).

(** inject.go:295-307 assignValue: the value set, or nothing because of a nil
    pointer, or an error *)
Inductive aset_res := ASet (v : val) | ANilPtr | ANo.
Section Programs.
  Variable assignable : rtype -> rtype -> bool.
  Variable call : list callev -> nat -> list val -> option (nat -> option nat).

  Definition assign_value (v : val) (t : rtype) : aset_res :=
    if assignable (v_ty v) t then ASet (Val t (v_data v))
    else match v_ty v with
         | TPtr e => if assignable e t then match v_data v with Some d => ASet (Val t (Some d)) | None => ANilPtr end
                     else ANo
         | _ => ANo
         end.

  Definition run_invoke (w : world) (i : nat) (fuel q : nat) (s : ist) : ires * ist :=
    invoke assignable call i (look_in w i) (info_of w) fuel q s.

  (** *** Apply (inject.go:186-266)
      The struct is described by what Apply can see of it: per field whether
      it can be set, its "inject" tag, its type, and, when the field is a
      struct or holds a pointer to one, the fields of that struct. *)
  Inductive tag := TagNone | TagSkip | TagInject (label : bytes).
  Inductive field := Field (settable : bool) (tg : tag) (ty : rtype) (sub : option (list field)).
  (** fields are written by path *)
  Definition assignment := (list nat * val)%type.
  Inductive ares := AppOk (l : list assignment) | AppFail (r : ires).

  (** the loop over the fields at one level; [sub_apply] is the recursive call *)
  Fixpoint apply_fields (w : world) (i fuel : nat) (sub_apply : list field -> list nat -> ist -> ares * ist)
           (fs : list field) (k : nat) (path : list nat) (s : ist) : ares * ist :=
    match fs with
    | [] => (AppOk [], s)
    | Field settable tg ty sub :: fs' =>
        let rest := apply_fields w i fuel sub_apply fs' (S k) path in
        let continue_with (l : list assignment) (s1 : ist) : ares * ist :=
          match rest s1 with
          | (AppOk l', s2) => (AppOk (l ++ l'), s2)
          | x => x
          end in
        if negb settable then rest s else
        match tg with
        | TagSkip => rest s
        | TagInject label =>
            let n := create_name (indirect ty) label in
            match look_in w i n with
            | Missing => (AppFail (IErr (EMissing n)), s)
            | Loop => (AppFail IDiv, s)
            | Found q =>
                match run_invoke w i fuel q s with
                | (IOk (v :: _), s1) =>
                    (* inject.go:240: the error of assignValue is dropped *)
                    match assign_value v ty with
                    | ASet v' => continue_with [(path ++ [k], v')] s1
                    | _ => continue_with [] s1
                    end
                | (IOk [], s1) => continue_with [] s1
                | (r, s1) => (AppFail r, s1)
                end
            end
        | TagNone =>
            match sub with
            | Some fs1 =>
                match sub_apply fs1 (path ++ [k]) s with
                | (AppOk l, s1) => continue_with l s1
                | x => x
                end
            | None => rest s
            end
        end
    end.
  (** inject.go:195-266 apply; [left] = INJECT_MAX_RECURSIVE_LEVEL - level *)
  Fixpoint apply_lvl (w : world) (i fuel : nat) (left : nat) (fs : list field) (path : list nat) (s : ist) : ares * ist :=
    apply_fields w i fuel
      (match left with
       | O => fun _ _ s => (AppOk [], s)
       | S l => apply_lvl w i fuel l
       end) fs 0 path s.
  Definition max_level : nat := 3.                               (* inject.go:8-10 *)
  Definition apply_struct (w : world) (i fuel : nat) (fs : list field) : ares * ist :=
    apply_lvl w i fuel (max_level - 1) fs [] (begin w i).

  (** *** The operations of a program *)
  Inductive iop :=
  | PNew
  | PSetParent (i : nat) (p : nat)
  | PProvide (i : nat) (o : pobj)
  | PFind (i : nat) (target : rtype) (label : bytes)             (* target: what the pointer points to *)
  | PInvoke (i : nat) (o : pobj)
  | PApply (i : nat) (fs : list field)
  | PExists (i : nat) (target : rtype) (label : bytes).
  Inductive iobs :=
  | RNone | RPanic | RErr (e : ierr) | RDiv
  | RVal (r : aset_res)                       (* Find: what the target was set to *)
  | ROut (l : list val)                       (* Invoke *)
  | RApplied (l : list assignment).

  Definition obs_fail (r : ires) : iobs :=
    match r with IErr e => RErr e | IPanic => RPanic | IDiv => RDiv | IOk _ => RNone end.

  Definition add_prov (w : world) (p : pinfo) : world := World (w_inj w) (w_prov w ++ [p]) (w_done w) (w_tr w).
  Definition drop_cache (w : world) (i : nat) (n : bytes) : world :=
    set_inj w i (Inj (j_values (jget w i)) (adel (j_cache (jget w i)) n) (j_parent (jget w i))).
  (** inject.go:86-112 ProvideAs *)
  Definition provide (w : world) (i : nat) (o : pobj) : world * iobs :=
    match new_provider o with
    | None => (w, RPanic)
    | Some p =>
        let q := List.length (w_prov w) in
        let w1 := drop_cache (add_prov w p) i (p_name p) in
        (set_inj w1 i (Inj (aset (j_values (jget w1 i)) (p_name p) q) (j_cache (jget w1 i)) (j_parent (jget w1 i))), RNone)
    end.
  (** inject.go:114-141 Find; [target] is the type of val.Elem() *)
  Definition find_op (w : world) (i fuel : nat) (target : rtype) (label : bytes) : world * iobs :=
    let n := create_name (indirect target) label in
    match look_in w i n with
    | Missing => (w, RErr (EMissing n))
    | Loop => (w, RDiv)
    | Found q =>
        match run_invoke w i fuel q (begin w i) with
        | (IOk [], s) => (commit w i s, RNone)
        | (IOk (v :: _), s) =>
            (commit w i s, match assign_value v target with ANo => RErr (EAssign (v_ty v) target) | r => RVal r end)
        | (r, s) => (commit w i s, obs_fail r)
        end
    end.
  (** inject.go:143-169 Exists: only values are read, functions are not called *)
  Definition exists_op (w : world) (i : nat) (target : rtype) (label : bytes) : world * iobs :=
    let n := create_name (indirect target) label in
    match look_in w i n with
    | Missing => (w, RErr (EMissing n))
    | Loop => (w, RDiv)
    | Found q =>
        match p_kind (info_of w q) with
        | KVal v => (w, match assign_value v target with ANo => RErr (EAssign (v_ty v) target) | r => RVal r end)
        | KFun _ _ _ => (w, RNone)
        end
    end.
  (** inject.go:171-184 Invoke *)
  Definition invoke_op (w : world) (i fuel : nat) (o : pobj) : world * iobs :=
    match new_provider o with
    | None => (w, RPanic)
    | Some p =>
        let w1 := add_prov w p in
        match run_invoke w1 i fuel (List.length (w_prov w)) (begin w1 i) with
        | (IOk out, s) => (drop_cache (commit w1 i s) i (p_name p), ROut out)
        | (r, s) => (commit w1 i s, obs_fail r)
        end
    end.
  Definition apply_op (w : world) (i fuel : nat) (fs : list field) : world * iobs :=
    match apply_struct w i fuel fs with
    | (AppOk l, s) => (commit w i s, RApplied l)
    | (AppFail r, s) => (commit w i s, obs_fail r)
    end.
  Definition exec_op (fuel : nat) (w : world) (o : iop) : world * iobs :=
    match o with
    | PNew => (World (w_inj w ++ [inj0]) (w_prov w) (w_done w) (w_tr w), RNone)
    | PSetParent i k => (set_inj w i (Inj (j_values (jget w i)) (j_cache (jget w i)) (Some k)), RNone)
    | PProvide i p => provide w i p
    | PFind i t l => find_op w i fuel t l
    | PInvoke i p => invoke_op w i fuel p
    | PApply i fs => apply_op w i fuel fs
    | PExists i t l => exists_op w i t l
    end.
  (** a program uses the injectors it has created *)
  Definition op_ok (w : world) (o : iop) : Prop :=
    let n := List.length (w_inj w) in
    match o with
    | PNew => True
    | PSetParent i k => i < n /\ k < n
    | PProvide i _ | PFind i _ _ | PInvoke i _ | PApply i _ | PExists i _ _ => i < n
    end.
  (** a program ran from [w] to [w'] and saw [obs]; every operation returned
      (with some fuel; a panic counts as returning, it was recovered) *)
  Inductive runs : world -> list iop -> list iobs -> world -> Prop :=
  | runs_nil : forall w, runs w [] [] w
  | runs_cons : forall w o os fuel w1 b bs w2,
      op_ok w o -> exec_op fuel w o = (w1, b) -> b <> RDiv -> runs w1 os bs w2 -> runs w (o :: os) (b :: bs) w2.
End Programs.
