(** Props_App: C94, whole requests: routing, filters and chains together. *)
From Coq Require Import List Ascii String Bool Arith ZArith Lia Sorting.Sorted.
Import ListNotations.
From Verif Require Import GoStr GoPath GoTy RouterModel RouterSpec RouterTable RouterFacts Props_Router RespModel RespSpec RespFacts ChainModel ChainFacts Props_Resp Props_Chain AppModel.

Lemma here_map ef (l : list filter_id) : forall k n, k + n <= List.length l ->
  filter (here (map (fun f => Some (ef f : act)) l)) (seq k n) = seq k n.
Proof.
  intros k n. revert k. induction n as [|n IH]; intros k H; [reflexivity|]. cbn [seq filter].
  assert (E : here (map (fun f => Some (ef f)) l) k = true).
  { unfold here. rewrite nth_error_map. destruct (nth_error l k) eqn:E; [reflexivity|]. apply nth_error_None in E. lia. }
  rewrite E, IH by lia. reflexivity.
Qed.
Lemma map_nth_seq {A B} (l : list A) (g : A -> B) (h : nat -> option B) :
  (forall i x, nth_error l i = Some x -> h i = Some (g x)) -> map h (seq 0 (List.length l)) = map (fun x => Some (g x)) l.
Proof.
  revert h. induction l as [|x l IH]; intros h H; [reflexivity|]. cbn [List.length seq map]. f_equal; [apply H; reflexivity|].
  rewrite <- seq_shift, map_map. apply IH. intros i y E. apply H. exact E.
Qed.
Lemma ran_all_seq ef l a m p lv (other : option who) :
  (forall i f, nth_error l i = Some f -> who_of a m p (lv, i) = Some (RanFilter f)) ->
  map (who_of a m p) (map (pair lv) (filter (here (map (fun f => Some (ef f : act)) l)) (seq 0 (List.length l)))) =
  map (fun f => Some (RanFilter f)) l.
Proof. intros H. rewrite here_map by lia. rewrite map_map. apply map_nth_seq. exact H. Qed.

(** If none of the handlers involved writes, sets a status or panics, a request
    runs exactly: the app's filters, routing, then either the filters in force
    for the served declaration (C09) followed by its action, or the not-found
    handlers; each once, in this order. *)
Theorem C94_request_runs_exactly : forall ef ea accept prog root fs nf meth path,
  routers prog root0 = Ok root ->
  (forall f, silent (ef f)) -> (forall ra act ps, silent (ea ra act ps)) ->
  let a := App fs root nf in
  exists s, app_chain_run ef ea accept a meth path = Done s /\
    let ran := map (who_of a meth path) (starts (w_tr (snd s))) in
    match handle root meth path with
    | NotFound => ran = map Some (map RanFilter fs ++ [RanRouting] ++ map RanFilter nf)
    | Serve ra act ps trail =>
        exists d, declared prog d /\ d_pat d = trail /\ method_ok (to_upper meth) d /\ conforms (d_pat d) (segs path) ps /\
          ran = map Some (map RanFilter fs ++ [RanRouting] ++ map RanFilter (filter_order d) ++ [RanAction (c_id (d_ctl d)) act])
    end.
Proof.
  intros ef ea accept prog root fs nf meth path Hroot Hf Ha a.
  assert (Hall : forall l, Forall (opt_all silent) (map (fun f => Some (ef f)) l)).
  { induction l; constructor; auto. cbn. apply Hf. }
  destruct (C17_untouched_chains_complete accept (map (fun f => Some (ef f)) fs) (request_chain ef ea a meth path)) as (s & E & S & _).
  - apply Hall.
  - unfold request_chain. destruct (handle (a_root a) meth path); apply Hall.
  - unfold request_chain. destruct (handle (a_root a) meth path); cbn; auto.
  - exists s. split; [exact E|]. cbv zeta. rewrite S. clear S E.
    assert (Ho : map (who_of a meth path) (map (pair Outer) (filter (here (map (fun f => Some (ef f)) fs)) (seq 0 (List.length fs)))) = map (fun f => Some (RanFilter f)) fs).
    { apply (ran_all_seq ef fs a meth path Outer None). intros i f Ei. cbn [who_of a a_filters]. rewrite Ei. reflexivity. }
    assert (Hr : who_of a meth path (Outer, List.length fs) = Some RanRouting).
    { cbn. destruct (nth_error fs (List.length fs)) eqn:En; [|reflexivity].
      assert (X : nth_error fs (List.length fs) <> None) by congruence. apply nth_error_Some in X. lia. }
    unfold all_starts. rewrite !map_app, map_length, Ho. cbn [map]. rewrite Hr. unfold request_chain. cbn [a_root a].
    destruct (handle root meth path) as [|ra act ps trail] eqn:Eh.
    + cbn [rc_filters rc_action a_notfound a map app]. rewrite app_nil_r, map_length.
      rewrite (ran_all_seq ef nf a meth path Inner None).
      * rewrite !map_map. reflexivity.
      * intros i f Ei. cbn [who_of a a_root]. rewrite Eh. cbn. rewrite Ei. reflexivity.
    + destruct (C01_served_action_was_declared prog root meth path ra act ps trail Hroot Eh) as (d & Hd & Hid & Hc & Ht & Hm & _ & Hfo).
      exists d. split; [exact Hd|]. split; [exact Ht|]. split; [exact Hm|]. split; [exact Hc|].
      cbn [rc_filters rc_action map app]. rewrite map_length, map_app.
      rewrite (ran_all_seq ef (ra_filters ra) a meth path Inner None).
      * cbn [map who_of a a_root]. rewrite Eh.
        destruct (nth_error (ra_filters ra) (List.length (ra_filters ra))) eqn:En.
        { assert (X : nth_error (ra_filters ra) (List.length (ra_filters ra)) <> None) by congruence. apply nth_error_Some in X. lia. }
        rewrite Hfo, Hid, !map_app, !map_map. reflexivity.
      * intros i f Ei. cbn [who_of a a_root]. rewrite Eh, Ei. reflexivity.
Qed.
Example C94_example : exists s, app_chain_run (fun _ => ANext ARet) (fun _ _ _ => ARet) all_of (App [90; 91] ex_root [99]) (bs "POST") (bs "/user/7/edit") = Done s /\
  exists act c, map (who_of (App [90; 91] ex_root [99]) (bs "POST") (bs "/user/7/edit")) (starts (w_tr (snd s))) =
    map Some [RanFilter 90; RanFilter 91; RanRouting; RanFilter 1; RanFilter 2; RanAction c act].
Proof. eexists. split; [vm_compute; reflexivity|]. do 2 eexists. vm_compute. reflexivity. Qed.

(** *** C94 whatever the handlers do
    [part_of l m]: [l] is [m] with some elements left out. *)
Inductive part_of {A} : list A -> list A -> Prop :=
| po_nil : part_of [] []
| po_skip : forall x l m, part_of l m -> part_of l (x :: m)
| po_keep : forall x l m, part_of l m -> part_of (x :: l) (x :: m).
Lemma part_of_map {A B} (f : A -> B) l m : part_of l m -> part_of (map f l) (map f m).
Proof. induction 1; cbn; constructor; assumption. Qed.
Lemma earlier_irrefl x : ~ earlier x x.
Proof. destruct x as [[|] i]; cbn; lia. Qed.
Lemma sorted_part m : StronglySorted earlier m -> forall l, StronglySorted earlier l -> incl l m -> part_of l m.
Proof.
  induction 1 as [|y m S IH F]; intros l Sl I.
  - destruct l as [|x l]; [constructor|]. destruct (I x (or_introl eq_refl)).
  - assert (Hd : forall x, {x = y} + {x <> y}) by (intros x; decide equality; [apply Nat.eq_dec|decide equality]).
    destruct l as [|x l].
    { apply po_skip. apply IH; [constructor|]. intros z []. }
    inversion Sl as [|? ? Sl' Fl]; subst. rewrite Forall_forall in Fl.
    destruct (Hd x) as [-> |Hx].
    + apply po_keep. apply IH; [exact Sl'|]. intros z Hz. destruct (I z (or_intror Hz)) as [<- |Hm]; [destruct (earlier_irrefl _ (Fl _ Hz))|exact Hm].
    + apply po_skip. apply IH; [exact Sl|]. destruct (I x (or_introl eq_refl)) as [E|Hxm]; [congruence|].
      rewrite Forall_forall in F. specialize (F _ Hxm). intros z Hz. destruct (I z Hz) as [<- |Hm]; [|exact Hm].
      destruct Hz as [E|Hz]; [congruence|]. specialize (Fl _ Hz). exfalso.
      destruct x as [[|] i], y as [[|] j]; cbn in *; try contradiction; lia.
Qed.
Lemma sorted_app a b : StronglySorted earlier a -> StronglySorted earlier b -> (forall x y, In x a -> In y b -> earlier x y) -> StronglySorted earlier (a ++ b).
Proof.
  induction 1 as [|x a S IH F]; intros Sb H; [exact Sb|]. cbn. constructor.
  - apply IH; [exact Sb|]. intros u v Hu Hv. apply H; [right; exact Hu|exact Hv].
  - apply Forall_app. split; [exact F|]. apply Forall_forall. intros y Hy. apply H; [left; reflexivity|exact Hy].
Qed.
Lemma sorted_seq (lv : lvl) : forall n k, StronglySorted earlier (map (pair lv) (seq k n)).
Proof.
  induction n as [|n IH]; intros k; [constructor|]. cbn. constructor; [apply IH|].
  apply Forall_forall. intros p Hp. apply in_map_iff in Hp as (j & <- & Hj). apply in_seq in Hj. destruct lv; cbn; lia.
Qed.
Lemma sorted_filter (g : nat -> bool) (lv : lvl) : forall n k, StronglySorted earlier (map (pair lv) (filter g (seq k n))).
Proof.
  induction n as [|n IH]; intros k; [constructor|]. cbn [seq filter]. destruct (g k); [|apply IH]. cbn. constructor; [apply IH|].
  apply Forall_forall. intros p Hp. apply in_map_iff in Hp as (j & <- & Hj). apply filter_In in Hj as (Hj & _). apply in_seq in Hj. destruct lv; cbn; lia.
Qed.
Lemma in_filters (fs : list (option act)) (lv : lvl) x : In x (map (pair lv) (filter (here fs) (seq 0 (List.length fs)))) <->
  exists i a, x = (lv, i) /\ nth_error fs i = Some (Some a).
Proof.
  rewrite in_map_iff. split.
  - intros (i & <- & H). apply filter_In in H as (_ & H). unfold here in H. destruct (nth_error fs i) as [[a|]|] eqn:E; try discriminate. eauto.
  - intros (i & a & -> & E). exists i. split; [reflexivity|]. apply filter_In. split; [|unfold here; rewrite E; reflexivity].
    apply in_seq. assert (X : nth_error fs i <> None) by congruence. apply nth_error_Some in X. lia.
Qed.
Lemma all_starts_sorted fs rc : StronglySorted earlier (all_starts fs rc).
Proof.
  assert (B : forall (l : list (option act)) i a, nth_error l i = Some (Some a) -> i < List.length l).
  { intros l i a E. apply nth_error_Some. congruence. }
  unfold all_starts. apply sorted_app; [apply sorted_filter| |].
  - cbn [app]. constructor.
    + apply sorted_app; [apply sorted_filter|destruct (rc_action rc); repeat constructor|].
      intros x y Hx Hy. apply in_filters in Hx as (i & a & -> & E). apply B in E. destruct (rc_action rc); [|destruct Hy]. destruct Hy as [<- |[]]. exact E.
    + apply Forall_forall. intros y Hy. apply in_app_iff in Hy as [Hy|Hy].
      * apply in_filters in Hy as (i & a & -> & E). exact Logic.I.
      * destruct (rc_action rc); [|destruct Hy]. destruct Hy as [<- |[]]. exact Logic.I.
  - intros x y Hx Hy. apply in_filters in Hx as (i & a & -> & E). apply B in E. cbn [app] in Hy. destruct Hy as [<- |Hy]; [exact E|].
    apply in_app_iff in Hy as [Hy|Hy].
    + apply in_filters in Hy as (j & b & -> & _). exact Logic.I.
    + destruct (rc_action rc); [|destruct Hy]. destruct Hy as [<- |[]]. exact Logic.I.
Qed.
Lemma exists_handler_in fs rc p : exists_handler fs rc p -> In p (all_starts fs rc).
Proof.
  unfold all_starts. rewrite !in_app_iff, !in_filters. destruct p as [[|] i]; cbn [exists_handler].
  - intros [(a & E)| ->]; [left; eauto|right; left; left; reflexivity].
  - intros [(a & E)|(-> & H)]; [right; right; left; eauto|]. right; right; right. destruct (rc_action rc); [left; reflexivity|congruence].
Qed.
Lemma serve_starts accept fs rc : starts (w_tr (snd (oval (serve accept fs rc)))) = starts (w_tr (snd (oval (serve_chain accept fs rc)))).
Proof.
  unfold serve. destruct (serve_chain accept fs rc) as [s|v s|s]; cbn [obind oval]; try reflexivity.
  unfold do_op. destruct (run_op accept (OWrite []) (w_rw (note (snd s) (EOp (OWrite []))))); cbn [oval snd w_tr note]; rewrite starts_cons; cbn [starts_of]; apply app_nil_r.
Qed.
(** Whatever the handlers do - write, panic, call Next any number of times - and however the request ends, the handlers
    it started are, in this order and each at most once, some of: the app's filters, routing, and the filters in force
    for the one served declaration followed by its action, or the not-found handlers. If the request ends, the
    client gets the response of the calls the handlers made and of the final empty Write. *)
Theorem C94_request_starts_only : forall ef ea accept prog root fs nf meth path,
  routers prog root0 = Ok root ->
  let a := App fs root nf in
  let o := app_serve ef ea accept a meth path in
  let ran := map (who_of a meth path) (starts (w_tr (snd (oval o)))) in
  match handle root meth path with
  | NotFound => part_of ran (map Some (map RanFilter fs ++ [RanRouting] ++ map RanFilter nf))
  | Serve ra act ps trail =>
      exists d, declared prog d /\ d_pat d = trail /\ method_ok (to_upper meth) d /\ conforms (d_pat d) (segs path) ps /\
        part_of ran (map Some (map RanFilter fs ++ [RanRouting] ++ map RanFilter (filter_order d) ++ [RanAction (c_id (d_ctl d)) act]))
  end /\
  (forall s, o = Done s -> exists os, ops (w_tr (snd s)) = os ++ [OWrite []] /\ exchange accept os = Some (w_rw (snd s))).
Proof.
  intros ef ea accept prog root fs nf meth path Hroot a o ran.
  assert (P : part_of ran (map (who_of a meth path) (all_starts (map (fun f => Some (ef f)) fs) (request_chain ef ea a meth path)))).
  { unfold ran, o, app_serve. apply part_of_map. change (a_filters a) with fs. rewrite serve_starts.
    destruct (C16_at_most_once_in_order accept (map (fun f => Some (ef f)) fs) (request_chain ef ea a meth path)) as (S & _ & F).
    apply sorted_part; [apply all_starts_sorted|exact S|]. intros x Hx. apply exists_handler_in. rewrite Forall_forall in F. apply F, Hx. }
  split; [|intros s E; exact (C93_request_is_an_exchange _ _ _ _ E)].
  destruct (C94_request_runs_exactly (fun _ => ARet) (fun _ _ _ => ARet) accept prog root fs nf meth path Hroot (fun _ => Logic.I) (fun _ _ _ => Logic.I)) as (s & E & R).
  assert (Q : map (who_of a meth path) (all_starts (map (fun f => Some (ef f)) fs) (request_chain ef ea a meth path)) =
              map (who_of a meth path) (starts (w_tr (snd s)))).
  { destruct (C17_untouched_chains_complete accept (map (fun f => Some (ARet)) fs) (request_chain (fun _ => ARet) (fun _ _ _ => ARet) a meth path)) as (s' & E' & S' & _).
    - apply Forall_forall. intros x Hx. apply in_map_iff in Hx as (y & <- & _). exact Logic.I.
    - unfold request_chain. destruct (handle (a_root a) meth path); apply Forall_forall; intros x Hx; apply in_map_iff in Hx as (y & <- & _); exact Logic.I.
    - unfold request_chain. destruct (handle (a_root a) meth path); exact Logic.I.
    - unfold app_chain_run in E. change (a_filters (App fs root nf)) with fs in E. change (App fs root nf) with a in E.
      assert (Y : @Done st s' = Done s) by exact (eq_trans (eq_sym E') E). injection Y as ->. rewrite S'. f_equal. unfold all_starts. rewrite !map_length.
      f_equal; [rewrite !here_map by lia; reflexivity|]. f_equal. unfold request_chain. destruct (handle (a_root a) meth path); cbn [rc_filters rc_action]; rewrite !map_length, !here_map by lia; reflexivity. }
  rewrite Q in P. cbv zeta in R. fold a in R. destruct (handle root meth path) as [|ra act ps trail].
  - rewrite R in P. exact P.
  - destruct R as (d & H1 & H2 & H3 & H4 & R). exists d. rewrite R in P. auto.
Qed.
Definition ex_wild (f : filter_id) : act := if Nat.eqb f 90 then ATry (ANext (ANext ARet)) (fun _ => ANext ARet) ARet else if Nat.eqb f 1 then AOp (OWrite (bs "x")) ARet else ARet.
Example C94_starts_example : exists s, app_serve ex_wild (fun _ _ _ => APanic false) all_of (App [90; 91] ex_root [99]) (bs "POST") (bs "/user/7/edit") = Done s /\
  map (who_of (App [90; 91] ex_root [99]) (bs "POST") (bs "/user/7/edit")) (starts (w_tr (snd s))) =
    map Some [RanFilter 90; RanFilter 91; RanRouting; RanFilter 1] /\ r_log (w_rw (snd s)) = [WBody (bs "x"); WHeader 200].
Proof. eexists. split; [vm_compute; reflexivity|]. vm_compute. split; reflexivity. Qed.

Print Assumptions C94_request_runs_exactly.
Print Assumptions C94_request_starts_only.
