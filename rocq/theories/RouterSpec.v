(** RouterSpec: what a routing program means, independently of the route tree.

    A program is a list of [Routers(...)] calls.  It is read as a flat sequence
    of events: "pattern P is now a declared route", "method declaration D at
    pattern P", "HEAD default at P".  Patterns are lists of segments. *)
From Coq Require Import List Ascii String Bool Arith.
Import ListNotations.
From Verif Require Import GoStr GoPath GoTy RouterModel.

(** ** Segments and conformance *)

(** the segments a path or pattern text denotes *)
Definition segs (p : bytes) : list bytes := clean_segs [] (split_byte slash (trim_space p)).

Inductive seg :=
| SStatic (s : bytes)                 (* literal *)
| SParam (name verb : bytes)          (* :name or :name:verb (verb with its colon) *)
| SWild (name : bytes).               (* *:name *)

(** cut [x] at its first colon: (before, from the colon on) *)
Definition cut_colon (x : bytes) : bytes * bytes :=
  match index_byte colon x with
  | Some i => (firstn i x, skipn i x)
  | None => (x, [])
  end.

(** reading of one pattern segment.  A bare ":" is a parameter with empty name
    and verb ":"; a bare "*:" is a wildcard called "*". *)
Definition parse_seg (p : bytes) : seg :=
  match p with
  | c :: x =>
      if Ascii.eqb c colon then
        match x with [] => SParam [] [colon] | _ => let '(n, v) := cut_colon x in SParam n v end
      else
        match x with
        | d :: y =>
            if Ascii.eqb c star && Ascii.eqb d colon then
              match y with [] => SWild [star] | _ => SWild (fst (cut_colon y)) end
            else SStatic p
        | [] => SStatic p
        end
  | [] => SStatic p
  end.

Definition is_wild_seg (p : bytes) : bool := match parse_seg p with SWild _ => true | _ => false end.
Definition is_static_seg (p : bytes) : bool := match parse_seg p with SStatic _ => true | _ => false end.

(** [conforms pat path params]: the pattern accepts the path and binds [params] *)
Inductive conforms : list bytes -> list bytes -> list (bytes * bytes) -> Prop :=
| cf_nil : conforms [] [] []
| cf_static : forall p pat path ps,
    parse_seg p = SStatic p -> conforms pat path ps -> conforms (p :: pat) (p :: path) ps
| cf_param : forall p n x pat path ps,
    parse_seg p = SParam n [] -> conforms pat path ps ->
    conforms (p :: pat) (x :: path) ((n, x) :: ps)
| cf_verb : forall p n v x pat path ps,
    parse_seg p = SParam n v -> v <> [] -> conforms pat path ps ->
    conforms (p :: pat) ((x ++ v) :: path) ((n, x) :: ps)
| cf_wild : forall p n path,
    parse_seg p = SWild n -> path <> [] ->
    conforms [p] path [(n, join [slash] path)].

(** ** Declarations *)

(** filters added and exempted at one router level *)
Record level : Type := Lv { lv_add : filters; lv_exempt : filters }.
Definition level_of (hs : list handler) : level :=
  Lv (flat_map (fun h => match h with HFilter fs => fs | _ => [] end) hs)
     (flat_map (fun h => match h with HExempt fs => fs | _ => [] end) hs).

(** one method declaration, with the enclosing levels, outermost first *)
Record decl : Type := Decl {
  d_pat : list bytes; d_levels : list level; d_ctl : ctl; d_meth : meth; d_opts : list mopt }.

Definition opt_adds (os : list mopt) : filters :=
  flat_map (fun o => match o with OFilter fs => fs | _ => [] end) os.
Definition opt_exempts (os : list mopt) : filters :=
  flat_map (fun o => match o with OExempt fs => fs | _ => [] end) os.

(** filter [f] is in force for a declaration *)
Definition in_force (lvls : list level) (os : list mopt) (f : filter_id) : Prop :=
  (In f (opt_adds os)
   \/ exists outer l inner, lvls = outer ++ l :: inner /\ In f (lv_add l) /\
        Forall (fun l' => ~ In f (lv_exempt l')) (l :: inner))
  /\ ~ In f (opt_exempts os).

Inductive event :=
| EEnd (pat : list bytes)      (* a Router with this full pattern is declared *)
| EDecl (d : decl)
| EHead (pat : list bytes).    (* end of the method declarations of a level *)

Definition level_decls (lvls : list level) (pat : list bytes) (hs : list handler) : list event :=
  flat_map (fun h => match h with
                     | HMethod c m os => [EDecl (Decl pat lvls c m os)]
                     | _ => [] end) hs.

(** events of one handler below pattern [pat] and levels [lvls]: a Router whose
    path has no segment (e.g. "//") contributes nothing *)
Fixpoint events_h (lvls : list level) (pat : list bytes) (h : handler) {struct h} : list event :=
  match h with
  | HRouter p hs =>
      match segs p with
      | [] => []
      | _ :: _ =>
          let pat' := pat ++ segs p in
          let lv := lvls ++ [level_of hs] in
          EEnd pat' :: level_decls lv pat' hs ++ EHead pat' :: flat_map (events_h lv pat') hs
      end
  | _ => []
  end.

Definition events_call (hs : list handler) : list event :=
  let lv := [level_of hs] in
  level_decls lv [] hs ++ EHead [] :: flat_map (events_h lv []) hs.

(** all events of a program, in order *)
Definition events (prog : list (list handler)) : list event := flat_map events_call prog.

(** [d] is a method declaration of the program *)
Definition declared (prog : list (list handler)) (d : decl) : Prop := In (EDecl d) (events prog).
(** [pat] is a declared route (the root always is) *)
Definition route_pattern (prog : list (list handler)) (pat : list bytes) : Prop :=
  pat = [] \/ In (EEnd pat) (events prog).

(** the method the request asks for, against a declaration: exact, HEAD served
    by GET, All, Any *)
Definition method_ok (m : meth) (d : decl) : Prop :=
  d_meth d = m \/ (m = mHEAD /\ d_meth d = mGET) \/ d_meth d = mALL \/ d_meth d = mANY.

(** the latest declaration of method [m] for pattern [pat] *)
Definition latest (prog : list (list handler)) (pat : list bytes) (m : meth) (d : decl) : Prop :=
  exists e1 e2, events prog = e1 ++ EDecl d :: e2 /\ d_pat d = pat /\ d_meth d = m /\
    forall d', In (EDecl d') e2 -> d_pat d' = pat -> d_meth d' <> m.

Definition undeclared (prog : list (list handler)) (pat : list bytes) (m : meth) : Prop :=
  forall d, declared prog d -> d_pat d = pat -> d_meth d <> m.

(** a wildcard route that another wildcard text at the same place replaces
    (`*:rest` and `*:rest:verb` have the same parameter name, so they are not
    rejected as a conflict) *)
Definition evicted (prog : list (list handler)) (pat : list bytes) : Prop :=
  exists front w w' rest, pat = front ++ w :: rest /\ In (EEnd (front ++ [w'])) (events prog) /\
    is_wild_seg w = true /\ is_wild_seg w' = true /\ w <> w'.

(** an inner position of some declared pattern that is itself not a declared
    route, ends in a static segment, and accepts the path *)
Definition shadows (prog : list (list handler)) (path : bytes) : Prop :=
  exists u longer front s pv,
    longer <> [] /\ In (EEnd (u ++ longer)) (events prog) /\
    ~ route_pattern prog u /\ conforms u (segs path) pv /\
    u = front ++ [s] /\ is_static_seg s = true.

(** some Router pattern declared in [es] starts with [u] *)
Definition mentions (es : list event) (u : list bytes) : Prop :=
  exists pat x, In (EEnd pat) es /\ pat = u ++ x.

(** [s] was declared (at position [front]) strictly before [s'] *)
Definition older (es : list event) (front : list bytes) (s s' : bytes) : Prop :=
  exists e1 e2, es = e1 ++ e2 /\ mentions e1 (front ++ [s]) /\ ~ mentions e1 (front ++ [s']).

(** segment priority: static, verb parameter (newest first), plain parameter,
    wildcard *)
Inductive seg_before (es : list event) (front : list bytes) : bytes -> bytes -> Prop :=
| sb_static : forall s s', is_static_seg s = true -> is_static_seg s' = false -> seg_before es front s s'
| sb_verb : forall s s' n v n',
    parse_seg s = SParam n v -> v <> [] -> parse_seg s' = SParam n' [] -> seg_before es front s s'
| sb_newer : forall s s' n v n' v',
    parse_seg s = SParam n v -> v <> [] -> parse_seg s' = SParam n' v' -> v' <> [] ->
    older es front s' s -> seg_before es front s s'
| sb_wild : forall s s', is_wild_seg s = false -> is_wild_seg s' = true -> seg_before es front s s'.

(** pattern [t] has priority over [t'] *)
Definition preferred (es : list event) (t t' : list bytes) : Prop :=
  t = t' \/ exists front s u s' u', t = front ++ s :: u /\ t' = front ++ s' :: u' /\ seg_before es front s s'.

(** ** Names of actions *)
(** the action name the options ask for: the last Action call *)
Fixpoint opt_action (acc : bytes) (os : list mopt) : bytes :=
  match os with
  | [] => acc
  | OAction a :: os' => opt_action a os'
  | _ :: os' => opt_action acc os'
  end.

(** the action name stored for a declaration *)
Definition stored_action (d : decl) : bytes :=
  let a := opt_action [] (d_opts d) in
  if negb (is_nil a) then a
  else if is_all (d_meth d) then
    if is_func (d_ctl d) then [] else if action_exists (d_ctl d) (bs "All") then bs "All" else []
  else if is_any (d_meth d) then if is_func (d_ctl d) then [] else bs "Any"
  else meth_action (d_meth d).

(** ** Order of filters *)
(** keep the first occurrence of every element *)
Fixpoint first_occ (seen : filters) (l : filters) : filters :=
  match l with
  | [] => []
  | f :: l' => if in_dec Nat.eq_dec f seen then first_occ seen l' else f :: first_occ (f :: seen) l'
  end.


(** the filters of a declaration in the order they run: level by level from the
    outermost, each level first adding its own filters (first occurrence only)
    behind the inherited ones and then dropping the exempted ones; the options
    of the method declaration act like a last, innermost level *)
Definition without (ex : filters) (l : filters) : filters :=
  filter (fun f => if in_dec Nat.eq_dec f ex then false else true) l.
Fixpoint run_order (inherited : filters) (lvls : list level) : filters :=
  match lvls with
  | [] => inherited
  | l :: lvls' => run_order (without (lv_exempt l) (first_occ [] (inherited ++ lv_add l))) lvls'
  end.
Definition filter_order (d : decl) : filters :=
  run_order [] (d_levels d ++ [Lv (opt_adds (d_opts d)) (opt_exempts (d_opts d))]).

(** ** Parameters of a pattern *)
(** the parameter names of a pattern, in order *)
Definition seg_names (p : bytes) : list bytes :=
  match parse_seg p with SStatic _ => [] | SParam n _ => [n] | SWild n => [n] end.
Definition pattern_names (pat : list bytes) : list bytes := flat_map seg_names pat.

(** put values into a pattern *)
Fixpoint fill (pat : list bytes) (vs : list bytes) : list bytes :=
  match pat with
  | [] => []
  | p :: pat' =>
      match parse_seg p, vs with
      | SStatic s, _ => s :: fill pat' vs
      | SParam _ verb, v :: vs' => (v ++ verb) :: fill pat' vs'
      | SWild _, v :: vs' => v :: fill pat' vs'
      | _, [] => []
      end
  end.

(** ** Router paths reached by registration (a Router without a segment is skipped
    together with everything below it) *)
Fixpoint router_paths (h : handler) : list bytes :=
  match h with
  | HRouter p hs => match segs p with [] => [] | _ :: _ => p :: flat_map router_paths hs end
  | _ => []
  end.

(** ** Method dispatch on the selected pattern *)
Definition names_method (c : ctl) (a : bytes) : Prop := exists s, aget (c_methods c) a = Some s.

(** [dispatch prog pat m o]: a request with (upper-case) method [m] for which
    pattern [pat] was selected is served by declaration d with action name a
    ([o = Some (d, a)]) or by the not-found chain ([o = None]) *)
Inductive dispatch (prog : list (list handler)) (pat : list bytes) (m : meth) : option (decl * bytes) -> Prop :=
| di_exact : forall d,
    m <> mALL -> m <> mANY -> latest prog pat m d -> dispatch prog pat m (Some (d, stored_action d))
| di_all : forall d,
    undeclared prog pat m \/ m = mALL \/ m = mANY ->
    latest prog pat mALL d -> is_func (d_ctl d) = true \/ names_method (d_ctl d) (meth_action m) ->
    dispatch prog pat m (Some (d, meth_action m))
| di_all_named : forall d,
    undeclared prog pat m \/ m = mALL \/ m = mANY ->
    latest prog pat mALL d -> is_func (d_ctl d) = false -> ~ names_method (d_ctl d) (meth_action m) ->
    stored_action d <> [] -> dispatch prog pat m (Some (d, stored_action d))
| di_any : forall d,
    undeclared prog pat m \/ m = mALL \/ m = mANY ->
    undeclared prog pat mALL \/
      (exists a, latest prog pat mALL a /\ is_func (d_ctl a) = false /\
                 ~ names_method (d_ctl a) (meth_action m) /\ stored_action a = []) ->
    latest prog pat mANY d -> dispatch prog pat m (Some (d, stored_action d))
| di_none :
    undeclared prog pat m \/ m = mALL \/ m = mANY ->
    undeclared prog pat mALL \/
      (exists a, latest prog pat mALL a /\ is_func (d_ctl a) = false /\
                 ~ names_method (d_ctl a) (meth_action m) /\ stored_action a = []) ->
    undeclared prog pat mANY -> dispatch prog pat m None.
