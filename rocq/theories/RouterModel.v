(** RouterModel: the routing code of /repo, function by function.
    Files modelled: router.go, router_util.go, router_filter.go,
    router_method.go and the registration half of router_action.go.

    General simplifications:
    - Go pointers to [route] form a tree (a route is only ever linked from the
      node it was created under); we use an inductive tree and return updated
      trees.  The [parent] pointer is replaced by the trail of path texts that
      [rmatch] collects on its way down.
    - Go maps become association lists used through lookup and assignment.
    - a Go panic is the result [Panic]; what a recovered panic leaves behind in
      the tree is not modelled.
    - filters are compared by reflect.Value identity; a filter is its identity. *)
From Coq Require Import List Ascii String Bool Arith.
Import ListNotations.
From Verif Require Import GoStr GoPath GoTy.

Inductive res (A : Type) : Type := Ok (a : A) | Panic.
Arguments Ok {A} a. Arguments Panic {A}.
Definition bind {A B} (x : res A) (f : A -> res B) : res B :=
  match x with Ok a => f a | Panic => Panic end.
Notation "'do' x <- e ; f" := (bind e (fun x => f)) (at level 200, x pattern, e at level 100, f at level 200).

(** ** Filters (router_filter.go) *)

(** router_filter.go:94-97: a filter; its identity is the reflect.Value [value] *)
Definition filter_id := nat.
Definition filters := list filter_id.

Definition fmem (f : filter_id) (l : filters) : bool := existsb (Nat.eqb f) l.

(** router_filter.go:17-28 [filters.append]: append each value not yet present.
    Simplification: pure lists; the sharing of Go backing arrays is modelled
    separately in SliceModel.v. *)
Fixpoint fappend (h vs : filters) : filters :=
  match vs with
  | [] => h
  | f :: vs' => fappend (if fmem f h then h else h ++ [f]) vs'
  end.

(** router_filter.go:30-46 [filters.remove] *)
Definition fremove (h vs : filters) : filters := filter (fun v => negb (fmem v vs)) h.

(** ** Methods (router_method.go) *)

Definition meth := bytes.
(** router_method.go:3-13 *)
Definition mGET : meth := bs "GET".
Definition mHEAD : meth := bs "HEAD".
Definition mPOST : meth := bs "POST".
(** router_method.go:104-110: the pseudo methods of All and Any *)
Definition mALL : meth := bs "*".
Definition mANY : meth := bs "**".
(** router_method.go:21-27 *)
Definition is_all (m : meth) : bool := beq m mALL.
Definition is_any (m : meth) : bool := beq m mANY.

(** router_method.go:29-38 [method.action]: every rune but the first gets +32.
    Runes are modelled for 7-bit bytes (an HTTP method token is ASCII): the sum
    is re-encoded as UTF-8, i.e. 0x80..0x9f becomes two bytes. Simplification:
    bytes >= 0x80 are copied. *)
Definition shift32 (c : ascii) : bytes :=
  let n := code c in
  if Nat.ltb n 96 then [byte (n + 32)]
  else if Nat.ltb n 128 then [byte 194; byte (n + 32)]
  else [c].
Definition meth_action (m : meth) : bytes :=
  match m with
  | [] => []
  | c :: m' => c :: flat_map shift32 m'
  end.

(** ** Controllers (router_action.go) *)

(** router_action.go:11-21: what the router asks a controller: reflect.Kind of
    the value ([isFunc], router_action.go:42-44), kind of the pointed-to type,
    the method set of *T with the argument types, and the argument types cached
    by the last [ensureHasAction].  [c_id] names the controller value. *)
Inductive ckind := KFunc | KPtrFunc | KStruct.
Record ctl : Type := Ctl {
  c_id : nat;
  c_kind : ckind;
  c_methods : list (bytes * sig);
  c_cached : sig (* actionIn *)
}.

(** router_action.go:42-44 *)
Definition is_func (c : ctl) : bool := match c_kind c with KFunc => true | _ => false end.

(** router_action.go:74-77 [actionFuncExists] *)
Definition action_exists (c : ctl) (a : bytes) : bool :=
  match aget (c_methods c) a with Some _ => true | None => false end.

(** router_action.go:46-72 [ensureHasAction] and [cacheStructAction] *)
Definition ensure_action (c : ctl) (a : bytes) : res ctl :=
  match c_kind c with
  | KStruct =>
      match aget (c_methods c) a with
      | Some s => Ok (Ctl (c_id c) (c_kind c) (c_methods c) s)
      | None => Panic
      end
  | _ => if is_nil a then Ok c else Panic
  end.

(** ** Handlers: the arguments a program passes to Routers / Router *)

(** router_method.go:48-66: options added by the MethodHandler builder *)
Inductive mopt := OAction (a : bytes) | OFilter (fs : filters) | OExempt (fs : filters).

(** router.go:10-28, router_util.go:23-44.  [HMethod c m opts] is
    [m(c).opt1.opt2...] built linearly (shared builders are in SliceModel.v).
    [HRouter path hs] is [Router(path, hs...)]; [HOther] is any other value
    (ignored by calcRouterArgs). *)
Inductive handler :=
| HStr (s : bytes)
| HName (s : bytes)
| HOther
| HFilter (fs : filters)
| HExempt (fs : filters)
| HRouter (path : bytes) (hs : list handler)
| HMethod (c : ctl) (m : meth) (opts : list mopt).

(** router.go:22-28 [Router]: trims the path, panics on "" and "/" *)
Definition mk_router (path : bytes) (hs : list handler) : res handler :=
  let p := trim_space path in
  if is_nil p || beq p (bs "/") then Panic else Ok (HRouter p hs).

(** router_util.go:60-67 [splitRoutePath] *)
Definition split_route_path (p : bytes) : list bytes :=
  tl (split_byte slash (path_clean_rooted (slash :: trim_space p))).

(** ** pathParam (router.go:50-102) *)
Record path_param : Type := PP {
  pp_path : bytes;
  pp_isParam : bool;
  pp_isWild : bool;
  pp_name : bytes;
  pp_verb : bytes
}.

(** the zero value *)
Definition pp_zero : path_param := PP [] false false [] [].

Definition colon : ascii := ":"%char.
Definition star : ascii := "*"%char.

(** router.go:59-86 [pathParam.set]; indexing p[0] panics on "", which cannot
    happen because segments are non-empty; here "" gives a static segment *)
Definition pp_set (p : bytes) : path_param :=
  let isParam := match p with c :: _ => Ascii.eqb c colon | [] => false end in
  let isWild := match p with c :: d :: _ => Ascii.eqb c star && Ascii.eqb d colon | _ => false end in
  let pname := if isWild then skipn 2 p else if isParam then skipn 1 p else [] in
  let suffix := if is_nil pname then p else pname in
  let '(verb, pname') :=
    match index_byte colon suffix with
    | Some i => (skipn i suffix, firstn i suffix)
    | None => ([], pname)
    end in
  PP p isParam isWild (if isParam || isWild then pname' else []) verb.

(** router.go:88-102 [matchParamRoute] *)
Definition match_param (d : path_param) (p : bytes) : option bytes :=
  if negb (pp_isParam d) then None
  else if negb (is_nil (pp_verb d)) then
    let value := trim_suffix p (pp_verb d) in
    if Nat.eqb (List.length value) (List.length p) then None else Some value
  else Some p.

(** ** Route tree (router.go:200-226) *)
Record raction : Type := RA {
  ra_ctl : ctl;
  ra_action : bytes;
  ra_filters : filters
}.

Inductive route : Type := Route {
  r_pp : path_param;
  r_end : bool;
  r_acts : list (bytes * raction);
  r_static : list (bytes * route);
  r_params : list route;
  r_wild : option route;
  r_all : option raction;
  r_any : option raction
}.

(** router.go:218-226 [newRoute], followed by [pathParam.set] where used *)
Definition new_route (pp : path_param) : route := Route pp false [] [] [] None None None.

(** router.go:112-117 [newRouteRoot] *)
Definition root0 : route := Route pp_zero true [] [] [] None None None.

Definition with_end (r : route) : route :=
  Route (r_pp r) true (r_acts r) (r_static r) (r_params r) (r_wild r) (r_all r) (r_any r).
Definition with_acts (r : route) (a : list (bytes * raction)) (all any : option raction) : route :=
  Route (r_pp r) (r_end r) a (r_static r) (r_params r) (r_wild r) all any.

(** ** Registration *)

(** router_util.go:20-44 [calcRouterArgs] on Routers/Router arguments *)
Fixpoint calc_filters (acc : filters) (hs : list handler) : filters :=
  match hs with
  | [] => acc
  | HFilter fs :: hs' => calc_filters (fappend acc fs) hs'
  | _ :: hs' => calc_filters acc hs'
  end.
Fixpoint calc_exempts (acc : filters) (hs : list handler) : filters :=
  match hs with
  | [] => acc
  | HExempt fs :: hs' => calc_exempts (fappend acc fs) hs'
  | _ :: hs' => calc_exempts acc hs'
  end.

(** router_util.go:20-57 [calcRouterArgs] on methodParams, together with the
    builder methods of router_method.go:48-66: returns controller (with the
    cached argument types), action name, filters, exempts *)
Record margs : Type := MArgs { ma_ctl : ctl; ma_action : bytes; ma_filters : filters; ma_exempts : filters }.

Fixpoint calc_opts (a : margs) (opts : list mopt) : res margs :=
  match opts with
  | [] => Ok a
  | OAction n :: os =>
      do c <- ensure_action (ma_ctl a) n;
      calc_opts (MArgs c n (ma_filters a) (ma_exempts a)) os
  | OFilter fs :: os => calc_opts (MArgs (ma_ctl a) (ma_action a) (fappend (ma_filters a) fs) (ma_exempts a)) os
  | OExempt fs :: os => calc_opts (MArgs (ma_ctl a) (ma_action a) (ma_filters a) (fappend (ma_exempts a) fs)) os
  end.

Definition calc_method (c : ctl) (m : meth) (opts : list mopt) : res margs :=
  do a <- calc_opts (MArgs c [] [] []) opts;
  (* router_util.go:46-55 *)
  if is_nil (ma_action a) && negb (is_func (ma_ctl a)) && negb (is_all m) && negb (is_any m)
  then do c' <- ensure_action (ma_ctl a) (meth_action m);
       Ok (MArgs c' (ma_action a) (ma_filters a) (ma_exempts a))
  else Ok a.

(** router.go:318-324, 332-344, 346-356: the routerAction made for one method
    declaration, given the filters in force at its router level and the
    arguments computed by calcRouterArgs *)
Definition finish (fs : filters) (m : meth) (a : margs) : res raction :=
  let actFilters := fremove (fappend fs (ma_filters a)) (ma_exempts a) in
  if is_all m then
    let act :=
      if is_nil (ma_action a) && negb (is_func (ma_ctl a)) then
        if action_exists (ma_ctl a) (bs "All") then bs "All" else ma_action a
      else ma_action a in
    do c' <- (if is_nil act then Ok (ma_ctl a) else ensure_action (ma_ctl a) act);
    Ok (RA c' act actFilters)
  else if is_any m then
    let act :=
      if is_nil (ma_action a) && negb (is_func (ma_ctl a)) then bs "Any" else ma_action a in
    do c' <- (if is_nil act then Ok (ma_ctl a) else ensure_action (ma_ctl a) act);
    Ok (RA c' act actFilters)
  else
    let act := if is_nil (ma_action a) then meth_action m else ma_action a in
    Ok (RA (ma_ctl a) act actFilters).

Definition mk_raction (fs : filters) (c : ctl) (m : meth) (opts : list mopt) : res raction :=
  do a <- calc_method c m opts; finish fs m a.

(** router.go:293-325: the loop over the method declarations of one level; the
    last All / Any declaration is remembered ([al], [an]) *)
Fixpoint methods_loop (fs : filters) (hs : list handler) (r : route) (al an : option (meth * margs))
  : res (route * option (meth * margs) * option (meth * margs)) :=
  match hs with
  | [] => Ok (r, al, an)
  | HMethod c m opts :: hs' =>
      do a <- calc_method c m opts;
      if is_all m then methods_loop fs hs' r (Some (m, a)) an
      else if is_any m then methods_loop fs hs' r al (Some (m, a))
      else
        do ra <- finish fs m a;
        methods_loop fs hs' (with_acts r (aset (r_acts r) m ra) (r_all r) (r_any r)) al an
  | _ :: hs' => methods_loop fs hs' r al an
  end.

(** router.go:327-330 *)
Definition head_default (r : route) : route :=
  match aget (r_acts r) mHEAD, aget (r_acts r) mGET with
  | None, Some g => with_acts r (aset (r_acts r) mHEAD g) (r_all r) (r_any r)
  | _, _ => r
  end.

(** router.go:293-356: methods, HEAD default, then All, then Any *)
Definition config_methods (fs : filters) (hs : list handler) (r : route) : res route :=
  do x <- methods_loop fs hs r None None;
  let '(r1, al, an) := x in
  let r2 := head_default r1 in
  do r3 <- match al with
           | Some (m, a) => do ra <- finish fs m a; Ok (with_acts r2 (r_acts r2) (Some ra) (r_any r2))
           | None => Ok r2
           end;
  match an with
  | Some (m, a) => do ra <- finish fs m a; Ok (with_acts r3 (r_acts r3) (r_all r3) (Some ra))
  | None => Ok r3
  end.

(** router.go:370-387: the existing child for segment text [p] *)
Definition find_child (r : route) (p : bytes) : option route :=
  match find (fun er => beq (pp_path (r_pp er)) p) (r_params r) with
  | Some rt => Some rt
  | None =>
      match aget (r_static r) p with
      | Some rt => Some rt
      | None =>
          match r_wild r with
          | Some w => if beq (pp_path (r_pp w)) p then Some w else None
          | None => None
          end
      end
  end.

(** write a changed child back (the pointer found by [find_child]) *)
Fixpoint put_param (l : list route) (p : bytes) (rt : route) : list route :=
  match l with
  | [] => []
  | er :: l' => if beq (pp_path (r_pp er)) p then rt :: l' else er :: put_param l' p rt
  end.

(** router.go:395-423: link the child [rt] into [r] *)
Definition attach (r : route) (isNew : bool) (rt : route) : res route :=
  let pp := r_pp rt in
  if pp_isParam pp then
    if existsb (fun er => negb (beq (pp_name (r_pp er)) (pp_name pp))) (r_params r) then Panic
    else
      let params :=
        if isNew then
          if negb (is_nil (pp_verb pp)) then rt :: r_params r else r_params r ++ [rt]
        else put_param (r_params r) (pp_path pp) rt in
      Ok (Route (r_pp r) (r_end r) (r_acts r) (r_static r) params (r_wild r) (r_all r) (r_any r))
  else if pp_isWild pp then
    let conflict :=
      match r_wild r with
      | Some w => negb (beq (pp_name (r_pp w)) (pp_name pp))
      | None => false
      end in
    if conflict then Panic
    else Ok (Route (r_pp r) (r_end r) (r_acts r) (r_static r) (r_params r) (Some rt) (r_all r) (r_any r))
  else
    Ok (Route (r_pp r) (r_end r) (r_acts r) (aset (r_static r) (pp_path pp) rt) (r_params r) (r_wild r) (r_all r) (r_any r)).

(** router.go:368-440: walk down [paths] from [r], creating nodes, and apply
    [k] (the configuration of the target route) at the end.  The Go code links
    a child before descending; as every failure is a panic the order of linking
    and descending is immaterial. *)
Fixpoint walk (ps : list bytes) (k : route -> res route) (r : route) : res route :=
  match ps with
  | [] => k r
  | p :: ps' =>
      let found := find_child r p in
      let rt := match found with Some rt => rt | None => new_route (pp_set p) end in
      let isNew := match found with Some _ => false | None => true end in
      let isEnd := is_nil ps' in
      let rt1 := if isEnd then with_end rt else rt in
      if pp_isWild (r_pp rt) && negb isEnd then Panic
      else
        do rt2 <- walk ps' k rt1;
        attach r isNew rt2
  end.

(** router.go:290-442 [configRoutes], where [inh] are the filters of the
    enclosing level (router.go:438) and [hs] the handlers of this level *)
Fixpoint config_handler (h : handler) (inh : filters) (r : route) {struct h} : res route :=
  match h with
  | HRouter path hs =>
      let paths := split_route_path path in
      match paths with
      | [] => Panic
      | p0 :: _ =>
          if is_nil p0 then Ok r
          else
            walk paths
              (fun target =>
                 let fs := fremove (fappend inh (calc_filters [] hs)) (calc_exempts [] hs) in
                 do t1 <- config_methods fs hs target;
                 (fix loop (l : list handler) (t : route) : res route :=
                    match l with
                    | [] => Ok t
                    | h' :: l' => do t' <- config_handler h' fs t; loop l' t'
                    end) hs t1)
              r
      end
  | _ => Ok r
  end.

(** app.go:95-100 [Routers]: configRoutes on the root route.  (At the root
    [args.filters] is the level's own filter list, i.e. [inh] = [].) *)
Fixpoint config_list (fs : filters) (l : list handler) (t : route) : res route :=
  match l with
  | [] => Ok t
  | h' :: l' => do t' <- config_handler h' fs t; config_list fs l' t'
  end.

Definition config_level (inh : filters) (hs : list handler) (r : route) : res route :=
  let fs := fremove (fappend inh (calc_filters [] hs)) (calc_exempts [] hs) in
  do t1 <- config_methods fs hs r;
  config_list fs hs t1.

(** app.go:95-100: a program is a sequence of Routers calls on a new app *)
Fixpoint routers (prog : list (list handler)) (r : route) : res route :=
  match prog with
  | [] => Ok r
  | hs :: prog' => do r' <- config_level [] hs r; routers prog' r'
  end.

(** ** Matching (router.go:228-287) *)
Record mres : Type := MRes {
  m_trail : list bytes;                (* path texts from the start node: calcPath *)
  m_route : route;
  m_params : list (bytes * bytes)      (* paramList, outermost first *)
}.

Definition push (c : route) (ps : list (bytes * bytes)) (m : mres) : mres :=
  MRes (pp_path (r_pp c) :: m_trail m) (m_route m) (ps ++ m_params m).

(** router.go:234-242 and 244-275, 277-286 *)
Fixpoint rmatch (next : list bytes) (r : route) {struct next} : option mres :=
  match next with
  | [] => None
  | p :: paths =>
      let st : option mres :=
        match aget (r_static r) p with
        | None => None
        | Some c =>
            match paths with
            | [] => Some (push c [] (MRes [] c []))
            | _ :: _ =>
                match rmatch paths c with
                | None => None
                | Some m => Some (push c [] (if r_end (m_route m) then m else MRes (m_trail m) (m_route m) []))
                end
            end
        end in
      let rt : option mres :=
        match st with
        | Some m => Some m
        | None =>
            (fix loop (prs : list route) : option mres :=
               match prs with
               | [] => None
               | pr :: prs' =>
                   match match_param (r_pp pr) p with
                   | None => loop prs'
                   | Some v =>
                       match paths with
                       | [] =>
                           if r_end pr then Some (push pr [(pp_name (r_pp pr), v)] (MRes [] pr []))
                           else loop prs'
                       | _ :: _ =>
                           match rmatch paths pr with
                           | Some m => if r_end (m_route m) then Some (push pr [(pp_name (r_pp pr), v)] m) else loop prs'
                           | None => loop prs'
                           end
                       end
                   end
               end) (r_params r)
        end in
      let is_end := match rt with Some m => r_end (m_route m) | None => false end in
      match is_end, r_wild r with
      | true, _ => rt
      | false, None => rt
      | false, Some w => Some (push w [(pp_name (r_pp w), join [slash] next)] (MRes [] w []))
      end
  end.

(** ** Dispatch (router.go:123-198) *)
Inductive outcome :=
| NotFound                                   (* the not-found chain runs *)
| Serve (ra : raction) (act : bytes) (params : list (bytes * bytes)) (trail : list bytes).

(** router.go:152-178: which routerAction of the selected route *)
Definition select_action (r : route) (m : meth) : option (raction * bytes) :=
  match aget (r_acts r) m with
  | Some ra => Some (ra, ra_action ra)
  | None =>
      let try_any :=
        match r_any r with
        | Some y =>
            if is_func (ra_ctl y) || action_exists (ra_ctl y) (ra_action y)
            then Some (y, ra_action y) else None
        | None => None
        end in
      match r_all r with
      | Some a =>
          if is_func (ra_ctl a) || action_exists (ra_ctl a) (meth_action m)
          then Some (a, meth_action m)
          else if negb (is_nil (ra_action a)) then Some (a, ra_action a)
          else try_any
      | None => try_any
      end
  end.

(** router.go:128-143: the route selected for a path (None: nil or not isEnd) *)
Definition select_route (root : route) (path : bytes) : option mres :=
  let paths := split_route_path path in
  match paths with
  | [] => None
  | p0 :: _ =>
      if is_nil p0 then Some (MRes [] root [])
      else match rmatch paths root with
           | Some x => if r_end (m_route x) then Some x else None
           | None => None
           end
  end.

(** router.go:123-198 [routeRoot.handle].  Simplification: strings.ToUpper is
    modelled for ASCII (HTTP method tokens are ASCII). *)
Definition handle (root : route) (method path : bytes) : outcome :=
  let m := to_upper method in
  match select_route root path with
  | None => NotFound
  | Some x =>
      match select_action (m_route x) m with
      | None => NotFound
      | Some (ra, act) => Serve ra act (m_params x) (m_trail x)
      end
  end.

(** router.go:444-457 [calcPath] from the trail of path texts *)
Definition calc_path (trail : list bytes) : bytes :=
  match trail with
  | [] => [slash]
  | _ => flat_map (fun p => slash :: p) trail
  end.

(** router.go:38-48 [paramList.values]: the key list, and the url.Values in
    which a later key of the same name replaces the earlier *)
Definition param_keys (ps : list (bytes * bytes)) : list bytes := map fst ps.
Fixpoint param_values (acc : list (bytes * list bytes)) (ps : list (bytes * bytes)) : list (bytes * list bytes) :=
  match ps with
  | [] => acc
  | (k, v) :: ps' => param_values (aset acc k [v]) ps'
  end.
