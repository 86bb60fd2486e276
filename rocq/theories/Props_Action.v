(** Props_Action: filters over shared slices (C10), builders (C13), action
    arguments (C15). *)
From Coq Require Import List Ascii String Bool Arith ZArith Lia.
Import ListNotations.
From Verif Require Import GoStr GoPath GoTy GoNum RouterModel RouterSpec RouterTree RouterRefine RouterTable RouterFacts
  Props_Router SliceModel SliceFacts BuilderFacts ConvModel ConvFacts.

(** ** C10 *)
(** Registration over Go slices, for every growth policy of append and every
    initial heap: at the end of registration the filter slice stored for each
    method declaration still reads as the list its own enclosing levels and
    options determine ([filter_order], see C09), for all declarations, in
    declaration order. *)
Theorem C10_sibling_filters_do_not_interfere :
  forall grow h prog h' stored,
    hrouters grow h prog = (h', stored) ->
    map (fun st => (st_ctl st, st_meth st, st_opts st, sread h' (st_slice st))) stored =
    map (fun d => (d_ctl d, d_meth d, d_opts d, map Some (filter_order d)))
        (flat_map (fun e => match e with EDecl d => [d] | _ => [] end) (events prog)).
Proof. intros grow h prog h' st E. apply (hrouters_spec grow prog h h' st E). Qed.
(** the in-place append of a sibling does happen on the way: here two methods
    append into the spare slot left by an exemption *)
Definition share_prog : list (list handler) :=
  [ [ HFilter [1; 2; 3]; HExempt [2];
      HMethod (fn 1) mGET [OFilter [7]]; HMethod (fn 2) mPOST [OFilter [8]];
      HRouter (bs "/a") [HFilter [9]; HMethod (fn 3) mGET []] ] ].
Example C10_example : forall st, snd (hrouters (fun n => 2 * n) [] share_prog) = st ->
  map (fun x => sread (fst (hrouters (fun n => 2 * n) [] share_prog)) (st_slice x)) st =
  [ [Some 1; Some 3; Some 7]; [Some 1; Some 3; Some 8]; [Some 1; Some 3; Some 9] ] /\
  existsb (fun a => match a with [Some 1; Some 3; Some 9] => true | _ => false end)
          (fst (hrouters (fun n => 2 * n) [] share_prog)) = true.
Proof. intros st <-. vm_compute. split; reflexivity. Qed.

(** ** C13 *)
(** Full claim: each handler derived from a common one has exactly its own
    options.  It fails when a handler that was itself derived is used twice:
    with Go's growth (2 -> 4) the second use overwrites the option of the first. *)
Theorem C13_builders_independent_refuted :
  exists ops h hs s,
    brun (fun n => 2 * n) [] [] ops = Ok (h, hs) /\ nth_error hs 2 = Some s /\
    nth_error (describe [] ops) 2 = Some (fn 1, mGET, [OFilter [1]; OFilter [2]]) /\
    bview h s = [Some (BCtl (fn 1)); Some (BMeth mGET); Some (BOpt (OFilter [1])); Some (BOpt (OFilter [3]))].
Proof.
  exists [BNew (fn 1) mGET; BDerive 0 (OFilter [1]); BDerive 1 (OFilter [2]); BDerive 1 (OFilter [3])].
  do 2 eexists. exists (Sl 1 4). split; [vm_compute; reflexivity|]. vm_compute. repeat split; reflexivity.
Qed.
(** What holds, for every growth policy: if only fresh method handlers
    (Get(c), Post(c), ...) are used more than once, every handler keeps its
    controller, method and own options. *)
Theorem C13_builders_independent_partial :
  forall grow ops h hs i c m os,
    brun grow [] [] ops = Ok (h, hs) -> derived_once ops ->
    nth_error (describe [] ops) i = Some (c, m, os) ->
    exists s c', nth_error hs i = Some s /\ same_ctl c c' /\
      bview h s = Some (BCtl c') :: Some (BMeth m) :: map (fun o => Some (BOpt o)) os.
Proof.
  intros grow ops h hs i c m os E Hd Hi.
  pose proof (brun_inv grow ops [] [] [] [] h hs inv_nil Hd E) as [A1 A2 A3 _ _]. cbn [app] in *.
  destruct (nth_error hs i) as [s|] eqn:Es.
  - exists s. destruct (A3 i s _ Es Hi) as (_ & c' & Hc & Hv). exists c'. auto.
  - apply nth_error_None in Es. apply nth_error_lt in Hi. lia.
Qed.
Definition safe_ops : list bop :=
  [BNew (fn 1) mGET; BDerive 0 (OFilter [1]); BDerive 0 (OExempt [2]); BDerive 1 (OFilter [3]); BDerive 3 (OFilter [4]); BDerive 2 (OFilter [5])].
Example C13_example : derived_once safe_ops /\ exists h hs, brun (fun n => 2 * n) [] [] safe_ops = Ok (h, hs) /\
  nth_error (describe [] safe_ops) 4 = Some (fn 1, mGET, [OFilter [1]; OFilter [3]; OFilter [4]]).
Proof.
  split; [|do 2 eexists; split; vm_compute; reflexivity].
  intros i n1 n2 o1 o2. unfold safe_ops.
  destruct n1 as [|[|[|[|[|[|n1]]]]]]; cbn [nth_error]; try discriminate; try (destruct n1; discriminate);
    intros H1; injection H1 as <- <-;
    destruct n2 as [|[|[|[|[|[|n2]]]]]]; cbn [nth_error]; try discriminate; try (destruct n2; discriminate);
    intros H2; try discriminate; try (right; reflexivity); left; do 2 eexists; reflexivity.
Qed.

(** ** C15 *)
(** Full claim: a served struct action is called with one argument per declared
    argument type, the i-th being the i-th route parameter read as that type and
    the zero value when there are fewer parameters.  False when All dispatches
    to the method named like the request method: the argument types used are
    those of the All action (or none). *)
Definition sctl (i : nat) (ms : list (bytes * sig)) : ctl := Ctl i KStruct ms [].
Definition all_prog : list (list handler) :=
  [ [ HRouter (bs "/x/:id") [HMethod (sctl 1 [(bs "Get", [TInt 64])]) mALL []] ] ].
Theorem C15_arguments_refuted :
  exists prog root ra act ps trail tys,
    routers prog root0 = Ok root /\
    handle root (bs "GET") (bs "/x/7") = Serve ra act ps trail /\
    c_kind (ra_ctl ra) = KStruct /\ aget (c_methods (ra_ctl ra)) act = Some tys /\ Forall plain tys /\
    forall F fz pf, call_struct F fz pf ra act ps = Panic.
Proof.
  exists all_prog. do 6 eexists. split; [vm_compute; reflexivity|]. split; [vm_compute; reflexivity|].
  split; [reflexivity|]. split; [vm_compute; reflexivity|]. split; [constructor; [cbn; lia|constructor]|].
  intros F fz pf. reflexivity.
Qed.
(** In every other case (the served action name is the declared one, or has
    the argument types of the declared one) it holds for argument types that
    are no pointers and no slices other than []byte and []string. *)
Theorem C15_arguments_partial :
  forall F fzero parse_float prog root meth path ra act ps trail tys,
    routers prog root0 = Ok root ->
    handle root meth path = Serve ra act ps trail ->
    c_kind (ra_ctl ra) = KStruct ->
    ra_action ra <> [] ->
    aget (c_methods (ra_ctl ra)) act = Some tys ->
    act = ra_action ra \/ aget (c_methods (ra_ctl ra)) (ra_action ra) = Some tys ->
    Forall plain tys ->
    exists args, call_struct F fzero parse_float ra act ps = Ok args /\
      List.length args = List.length tys /\
      forall i t, nth_error tys i = Some t ->
        exists v, nth_error args i = Some v /\
          match nth_error ps i with
          | Some (_, p) => reads F fzero parse_float t p v
          | None => v = zero_of F fzero t
          end.
Proof.
  intros F fz pf prog root meth path ra act ps trail tys Hroot Hh Hk Ha Ht Hact Hp. unfold handle in Hh.
  destruct (select_route root path) as [x|] eqn:Ex; [|discriminate].
  destruct (select_action (m_route x) (to_upper meth)) as [[ra' act']|] eqn:Ea; [|discriminate].
  injection Hh as -> -> <- <-.
  destruct (select_sound prog root Hroot path x Ex) as (Hl & _ & Hc).
  destruct (select_action_cases prog root _ _ _ _ _ Hroot Hl Ea) as (d & Hd & Hpat & Hda & Hm & _).
  unfold decl_action in Hda.
  destruct (mk_raction (eff (d_levels d)) (d_ctl d) (d_meth d) (d_opts d)) as [ra0|] eqn:Em; [|discriminate].
  injection Hda as ->.
  pose proof (mk_raction_cached _ _ _ _ _ Em Hk Ha) as Hcached.
  assert (Hty : c_cached (ra_ctl ra) = tys) by (destruct Hact as [->|H]; congruence).
  destruct (call_args_spec F fz pf tys 0 (m_params x) Hp) as (args & E & T & N).
  exists args. unfold call_struct. rewrite Hty, E. cbn [bind]. rewrite Ht, all_types_ok by exact T.
  split; [reflexivity|]. split; [rewrite <- T, map_length; reflexivity|exact N].
Qed.
Definition arg_prog : list (list handler) :=
  [ [ HRouter (bs "/x/:id/:name") [HMethod (sctl 1 [(bs "Show", [TInt 8; TString; TBool])]) mGET [OAction (bs "Show")]] ] ].
Example C15_example : exists root ra ps trail,
  routers arg_prog root0 = Ok root /\ handle root (bs "GET") (bs "/x/42/bob") = Serve ra (bs "Show") ps trail /\
  c_kind (ra_ctl ra) = KStruct /\ ra_action ra = bs "Show" /\
  aget (c_methods (ra_ctl ra)) (bs "Show") = Some [TInt 8; TString; TBool] /\
  forall F fz pf, call_struct F fz pf ra (bs "Show") ps = Ok [VInt F 8 42; VStr F (bs "bob"); VBool F false].
Proof.
  do 4 eexists. split; [vm_compute; reflexivity|]. split; [vm_compute; reflexivity|]. repeat (split; [vm_compute; reflexivity|]).
  intros F fz pf. vm_compute. reflexivity.
Qed.

Print Assumptions C10_sibling_filters_do_not_interfere.
Print Assumptions C13_builders_independent_refuted.
Print Assumptions C13_builders_independent_partial.
Print Assumptions C15_arguments_refuted.
Print Assumptions C15_arguments_partial.
