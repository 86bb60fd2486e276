(** Props_Result: C88-C90, C128-C131 -- what becomes of action results. *)
From Coq Require Import List Ascii String Bool Arith ZArith Lia.
Import ListNotations.
From Verif Require Import GoStr HeadModel ResultModel.
Local Open Scope Z_scope.

(** *** Specification *)
(** net/http sends no body with these *)
Definition no_body (s : Z) : bool := ((s <? 200) || (s =? 204) || (s =? 304))%bool.
(** what the client gets: status, headers, body *)
Definition client (w : hw) : option (Z * header * bytes) :=
  match h_sent w with
  | Some (s, h) => Some (s, h, if no_body s then [] else h_body w)
  | None => None
  end.
(** hooks that leave the status alone *)
Definition quiet (ks : list hook) : Prop := forall k s, In k ks -> ~ In (SStatus s) k.
(** a response nobody has written to or given a status; headers and hooks may be set *)
Definition fresh (w : hw) : Prop :=
  h_status w = 0 /\ h_once w = false /\ h_sent w = None /\ h_body w = [] /\ quiet (h_hooks w).
Definition final (s : Z) : Prop := 200 <= s <= 999.
(** the headers once the hooks have run *)
Definition final_hdr (w : hw) : header := h_hdr (call_before w).

(** the documented shapes (router_action_out.go:24-32) *)
Inductive payload := PString (b : bytes) | PBytes (b : bytes) | PReader (chunks : list bytes) (closer : bool).
Inductive shape := ShBody (p : payload) | ShBodyInt (p : payload) (code : Z) | ShInt (code : Z).
Definition content (p : payload) : bytes := match p with PString b | PBytes b => b | PReader cs _ => List.concat cs end.
Definition value (p : payload) : oval :=
  match p with
  | PString b => OVal KPlain (Dyn None None None false (Some b))
  | PBytes b => OVal (KNilable false) (Dyn None None None false (Some b))
  | PReader cs closer => OVal (KNilable false) (Dyn None None (Some cs) closer None)
  end.
Definition int_value (z : Z) : oval := OVal (KInt z) (Dyn None None None false None).
Definition outs (sh : shape) : list oval :=
  match sh with ShBody p => [value p] | ShBodyInt p z => [value p; int_value z] | ShInt z => [int_value z] end.
Definition status_of (sh : shape) : Z := match sh with ShBody _ => 200 | ShBodyInt _ z | ShInt z => z end.
Definition body_of (sh : shape) : bytes := match sh with ShBody p | ShBodyInt p _ => content p | ShInt _ => [] end.
Definition closable (sh : shape) : bool :=
  match sh with ShBody (PReader _ c) | ShBodyInt (PReader _ c) _ => c | _ => false end.
Definition is_string (sh : shape) : bool :=
  match sh with ShBody (PString _) | ShBodyInt (PString _) _ => true | _ => false end.

(** *** Lemmas on the response *)
Lemma hstep_status w s : (forall z, s <> SStatus z) -> h_status (run_hstep w s) = h_status w.
Proof. intros H. destruct s; try reflexivity. exfalso. eapply H. reflexivity. Qed.
Lemma hstep_rest w s : h_once (run_hstep w s) = h_once w /\ h_sent (run_hstep w s) = h_sent w /\ h_body (run_hstep w s) = h_body w /\ h_hooks (run_hstep w s) = h_hooks w.
Proof. destruct s; cbn; try (destruct (s =? 0)); auto. Qed.
Lemma hook_facts k : forall w, (forall s, ~ In (SStatus s) k) ->
  let w' := run_hook w k in
  h_status w' = h_status w /\ h_once w' = h_once w /\ h_sent w' = h_sent w /\ h_body w' = h_body w /\ h_hooks w' = h_hooks w.
Proof.
  induction k as [|s k IH]; intros w H; [repeat split|]. unfold run_hook. cbn [fold_left]. fold (run_hook (run_hstep w s) k).
  destruct (IH (run_hstep w s)) as (A & B & C & D & E); [intros z K; apply (H z); now right|].
  destruct (hstep_rest w s) as (B' & C' & D' & E').
  assert (A' : h_status (run_hstep w s) = h_status w) by (apply hstep_status; intros z ->; apply (H z); now left).
  cbv zeta. rewrite A, B, C, D, E. auto.
Qed.
Lemma hooks_facts ks : forall w, quiet ks ->
  let w' := fold_left run_hook ks w in
  h_status w' = h_status w /\ h_once w' = h_once w /\ h_sent w' = h_sent w /\ h_body w' = h_body w.
Proof.
  induction ks as [|k ks IH]; intros w H; [repeat split|]. cbn [fold_left].
  destruct (IH (run_hook w k)) as (A & B & C & D); [intros k' s K; apply H; now right|].
  destruct (hook_facts k w) as (A' & B' & C' & D' & _); [intros s; apply H; now left|].
  cbv zeta. rewrite A, B, C, D. auto.
Qed.
Lemma quiet_rev ks : quiet ks -> quiet (rev ks).
Proof. intros H k s K. apply H. now apply in_rev. Qed.
(** headers depend on the headers and hooks only *)
Lemma hstep_hdr w w' s : h_hdr w = h_hdr w' -> h_hdr (run_hstep w s) = h_hdr (run_hstep w' s).
Proof. intros H. destruct s; cbn; try (destruct (s =? 0)); cbn; congruence. Qed.
Lemma hook_hdr k : forall w w', h_hdr w = h_hdr w' -> h_hdr (run_hook w k) = h_hdr (run_hook w' k).
Proof. induction k as [|s k IH]; intros w w' H; [exact H|]. apply IH. now apply hstep_hdr. Qed.
Lemma hooks_hdr ks : forall w w', h_hdr w = h_hdr w' -> h_hdr (fold_left run_hook ks w) = h_hdr (fold_left run_hook ks w').
Proof. induction ks as [|k ks IH]; intros w w' H; [exact H|]. apply IH. now apply hook_hdr. Qed.

Definition unsent (w : hw) : Prop := h_once w = false /\ h_sent w = None /\ quiet (h_hooks w).
Definition eff (s : Z) : Z := if s =? 0 then 200 else s.
Lemma fire_facts w : unsent w ->
  h_once (fire w) = true /\ h_sent (fire w) = Some (eff (h_status w), final_hdr w) /\ h_body (fire w) = h_body w.
Proof.
  intros (A & B & C). unfold fire. 
  destruct (hooks_facts (rev (h_hooks w)) (with_once w) (quiet_rev _ C)) as (X & Y & Z & T).
  fold (call_before (with_once w)) in *.
  change (fold_left run_hook (rev (h_hooks w)) (with_once w)) with (call_before (with_once w)) in *.
  cbn [with_once h_status h_once h_sent h_body] in *.
  assert (H : h_hdr (call_before (with_once w)) = final_hdr w) by (unfold final_hdr, call_before; cbn [with_once h_hooks]; now apply hooks_hdr).
  unfold eff. rewrite <- X. destruct (h_status (call_before (with_once w)) =? 0) eqn:E; unfold with_sent; cbn [with_status h_sent h_status h_hdr h_once h_body].
  - rewrite Z, B. cbn [h_once h_sent h_body]. rewrite Y, H, T. auto.
  - rewrite Z, B. cbn [h_once h_sent h_body]. rewrite Y, H, T. auto.
Qed.
Lemma hwrite_fired w s h b : h_once w = true -> h_sent w = Some (s, h) ->
  h_once (hwrite w b) = true /\ h_sent (hwrite w b) = Some (s, h) /\ h_body (hwrite w b) = h_body w ++ b.
Proof. intros A B. unfold hwrite. rewrite A. unfold with_sent. rewrite B. cbn. auto. Qed.
Lemma hwrite_unsent w b : unsent w ->
  h_once (hwrite w b) = true /\ h_sent (hwrite w b) = Some (eff (h_status w), final_hdr w) /\ h_body (hwrite w b) = h_body w ++ b.
Proof.
  intros U. destruct (fire_facts w U) as (A & B & C). unfold hwrite. destruct U as (U & _). rewrite U.
  unfold with_sent. rewrite B. cbn. rewrite C. auto.
Qed.
Lemma writes_fired l : forall w s h, h_once w = true -> h_sent w = Some (s, h) ->
  let w' := fold_left hwrite l w in h_once w' = true /\ h_sent w' = Some (s, h) /\ h_body w' = h_body w ++ List.concat l.
Proof.
  induction l as [|b l IH]; intros w s h A B; cbn [fold_left List.concat]; [rewrite app_nil_r; auto|].
  destruct (hwrite_fired w s h b A B) as (A' & B' & C'). destruct (IH _ s h A' B') as (X & Y & Z).
  cbv zeta. rewrite X, Y, Z, C', <- app_assoc. auto.
Qed.
(** writing any chunks to a response and finishing *)
Lemma finish_writes w l : unsent w ->
  client (finish (fold_left hwrite l w)) =
    Some (eff (h_status w), final_hdr w, if no_body (eff (h_status w)) then [] else h_body w ++ List.concat l).
Proof.
  intros U. unfold finish. change (hwrite (fold_left hwrite l w) []) with (fold_left hwrite [[]] (fold_left hwrite l w)).
  rewrite <- fold_left_app. 
  assert (X : exists b l', l ++ [[]] = b :: l') by (destruct l; cbn; eauto). destruct X as (b & l' & E).
  rewrite E. cbn [fold_left]. destruct (hwrite_unsent w b U) as (A & B & C).
  destruct (writes_fired l' _ _ _ A B) as (A' & B' & C'). unfold client. rewrite B', C', C, <- app_assoc.
  assert (K : List.concat (l ++ [[]]) = List.concat l) by (rewrite concat_app; cbn; now rewrite app_nil_r).
  rewrite E in K. cbn [List.concat] in K. now rewrite K.
Qed.
Lemma finish_unsent w : unsent w ->
  client (finish w) = Some (eff (h_status w), final_hdr w, if no_body (eff (h_status w)) then [] else h_body w).
Proof. intros U. pose proof (finish_writes w [] U) as X. cbn [fold_left List.concat] in X. now rewrite app_nil_r in X. Qed.
Lemma finish_write w b : unsent w ->
  client (finish (hwrite w b)) = Some (eff (h_status w), final_hdr w, if no_body (eff (h_status w)) then [] else h_body w ++ b).
Proof. intros U. pose proof (finish_writes w [b] U) as X. cbn [fold_left List.concat] in X. now rewrite app_nil_r in X. Qed.
Lemma concat_nonempty (cs : list bytes) : List.concat (filter (fun c => negb (is_nil c)) cs) = List.concat cs.
Proof. induction cs as [|[|x c] cs IH]; cbn; [reflexivity|exact IH|now rewrite IH]. Qed.
Lemma fresh_unsent w : fresh w -> unsent w.
Proof. intros (A & B & C & D & E). repeat split; auto. Qed.
Lemma status_unsent w s : unsent w -> unsent (with_status w s).
Proof. intros (A & B & C). repeat split; auto. Qed.
Lemma hdr_unsent w h : unsent w -> unsent (with_hdr w h).
Proof. intros (A & B & C). repeat split; auto. Qed.
Lemma final_hdr_status w s : final_hdr (with_status w s) = final_hdr w.
Proof. unfold final_hdr, call_before. cbn [with_status h_hooks]. now apply hooks_hdr. Qed.
Lemma final_pos s : final s -> (s =? 0) = false.
Proof. unfold final. intros H. apply Z.eqb_neq. lia. Qed.

(** *** C90 *)
(** C90 (partial). With GenericOutFilter and a response not written before, every
    documented shape without a plain string reaches the client: its int as
    status (200 without), its bytes or everything the reader gives as body; a
    reader that can be closed is closed once. *)
Theorem C90_documented_partial w sh :
  fresh w -> final (status_of sh) -> is_string sh = false ->
  exists s, generic_out w (Some (outs sh)) = ROk s /\
    client (finish (r_w s)) = Some (status_of sh, final_hdr w, if no_body (status_of sh) then [] else body_of sh) /\
    r_closed s = if closable sh then 1%nat else 0%nat.
Proof.
  intros F St Ns. pose proof (fresh_unsent w F) as U. destruct F as (F1 & _ & _ & F4 & _).
  unfold generic_out. rewrite F1. cbn [Z.eqb negb].
  assert (H200 : eff (h_status w) = 200) by (rewrite F1; reflexivity).
  assert (U2 : forall z, final z -> eff (h_status (with_status w z)) = z) by (intros z Hz; unfold eff; cbn [with_status h_status]; now rewrite final_pos).
  destruct sh as [p|p z|z]; cbn [outs rev List.app status_of] in *.
  - destruct p as [b|b|cs c]; [discriminate Ns| |]; cbn [value o_kind o_dyn write_body write_dyn d_result d_handler d_read d_text d_close r_w r_closed].
    + eexists. split; [reflexivity|]. cbn [r_w r_closed]. split; [|reflexivity].
      rewrite finish_write by assumption. now rewrite H200, F4.
    + eexists. split; [reflexivity|]. cbn [r_w r_closed]. split; [|reflexivity].
      unfold copy_chunks. rewrite finish_writes by assumption. rewrite concat_nonempty. now rewrite H200, F4.
  - unfold put_status. cbn [int_value o_kind]. rewrite final_pos by assumption.
    destruct p as [b|b|cs c]; [discriminate Ns| |]; cbn [value o_kind o_dyn write_body write_dyn d_result d_handler d_read d_text d_close r_w r_closed].
    + eexists. split; [reflexivity|]. cbn [r_w r_closed]. split; [|reflexivity].
      rewrite finish_write by now apply status_unsent. rewrite U2, final_hdr_status by assumption. cbn [with_status h_body]. now rewrite F4.
    + eexists. split; [reflexivity|]. cbn [r_w r_closed]. split; [|reflexivity].
      unfold copy_chunks. rewrite finish_writes by now apply status_unsent. rewrite concat_nonempty.
      rewrite U2, final_hdr_status by assumption. cbn [with_status h_body]. now rewrite F4.
  - unfold put_status. cbn [int_value o_kind]. rewrite final_pos by assumption.
    eexists. split; [reflexivity|]. cbn [r_w r_closed]. split; [|reflexivity].
    rewrite finish_unsent by now apply status_unsent. rewrite U2, final_hdr_status by assumption. cbn [with_status h_body]. now rewrite F4.
Qed.
(** C90, the rest: a nil body sends the status only; a result that writes itself is
    given the response; a response already written, and an action without
    results, are left alone. *)
Theorem C90_other_results w :
  fresh w ->
  (forall d z, final z -> exists s, generic_out w (Some [OVal (KNilable true) d; int_value z]) = ROk s /\
      client (finish (r_w s)) = Some (z, final_hdr w, [])) /\
  (forall d, generic_out w (Some [OVal (KNilable true) d]) = ROk (RSt w 0)) /\
  (forall d f, d_result d = Some f -> generic_out w (Some [OVal (KNilable false) d]) = ROk (RSt (f w) 0)) /\
  (forall d f, d_result d = None -> d_handler d = Some f -> generic_out w (Some [OVal (KNilable false) d]) = ROk (RSt (f w) 0)) /\
  generic_out w None = ROk (RSt w 0) /\ generic_out w (Some []) = ROk (RSt w 0) /\
  (forall w' os, h_status w' <> 0 -> generic_out w' os = ROk (RSt w' 0)).
Proof.
  intros F. pose proof (fresh_unsent w F) as U. destruct F as (F1 & _ & _ & F4 & _).
  repeat split.
  - intros d z Hz. unfold generic_out. rewrite F1. cbn [Z.eqb negb rev List.app int_value o_kind].
    unfold put_status. rewrite final_pos by assumption. eexists. split; [reflexivity|]. cbn [r_w].
    rewrite finish_unsent by now apply status_unsent. rewrite final_hdr_status. unfold eff. cbn [with_status h_status h_body].
    rewrite final_pos, F4 by assumption. now destruct (no_body z).
  - intros d. unfold generic_out. now rewrite F1.
  - intros d f E. unfold generic_out. rewrite F1. cbn. unfold write_dyn. now rewrite E.
  - intros d f E1 E2. unfold generic_out. rewrite F1. cbn. unfold write_dyn. now rewrite E1, E2.
  - unfold generic_out. now rewrite F1.
  - unfold generic_out. now rewrite F1.
  - intros w' os H. unfold generic_out. apply Z.eqb_neq in H. now rewrite H.
Qed.
(** C90 (refutation). Every action documented with a plain string result panics. *)
Theorem C90_string_panics w sh : fresh w -> final (status_of sh) -> is_string sh = true ->
  exists s, generic_out w (Some (outs sh)) = RPanic s.
Proof.
  intros (F1 & _) St Hs. unfold generic_out. rewrite F1. cbn [Z.eqb negb].
  destruct sh as [[b|b|cs c]|[b|b|cs c] z|z]; try discriminate Hs; cbn [outs rev List.app value int_value o_kind status_of] in *.
  - eexists. reflexivity.
  - unfold put_status. rewrite final_pos by assumption. eexists. reflexivity.
Qed.
(** an int result of 0 is no status: the filter panics, whatever else was returned *)
Theorem C90_zero_status w os : fresh w -> exists s, generic_out w (Some (os ++ [int_value 0])) = RPanic s.
Proof.
  intros (F1 & _). unfold generic_out. rewrite F1. cbn [Z.eqb negb]. rewrite rev_app_distr. cbn. eexists. reflexivity.
Qed.
Definition w_fresh : hw := hw0.
Lemma w_fresh_ok : fresh w_fresh.
Proof. repeat split. intros k s []. Qed.
Theorem C90_documented_refuted : ~ (forall w sh, fresh w -> final (status_of sh) ->
  exists s, generic_out w (Some (outs sh)) = ROk s).
Proof.
  intros H. destruct (H w_fresh (ShBody (PString (bs "hello"))) w_fresh_ok) as (s & E); [unfold final; cbn; lia|]. discriminate E.
Qed.
Example C90_case :
  match generic_out w_fresh (Some (outs (ShBodyInt (PReader [bs "he"; []; bs "llo"] true) 201))) with
  | ROk s => (client (finish (r_w s)), r_closed s) | RPanic _ => (None, 9%nat) end
  = (Some (201, [(bs "X-Powered-By", [bs "Teapot"])], bs "hello"), 1%nat).
Proof. reflexivity. Qed.

(** *** C88, C128-C130: apires results *)
Section Api.
  Variable V : Type.
  Variable marshal : bool -> val V -> bytes + bytes.
  Variable marshal_err : bool -> bytes -> bytes.
  Variables (dev has_logger : bool).
  Notation res_write := (res_write V marshal marshal_err dev has_logger).
  Notation raw_write := (raw_write V marshal marshal_err dev has_logger).

  Definition rst_of (o : rout) : rst := match o with ROk s | RPanic s => s end.
  Definition ok (o : rout) : Prop := match o with ROk _ => True | RPanic _ => False end.
  (** the status asked for: 0 means 200 *)
  Definition asked (r : res V) : Z := if rs_status r =? 0 then 200 else rs_status r.
  (** what is to be encoded: an empty object for no body *)
  Definition to_encode (r : res V) : val V := match rs_body r with Some v => v | None => VEmptyStruct end.
  Definition json_hdr (w : hw) : header := final_hdr (with_hdr w (hset (h_hdr w) (bs "Content-Type") (bs "application/json; charset=UTF-8"))).

  Lemma json_client w st v : fresh w -> final st ->
    exists w', fst (write_json V marshal marshal_err dev w st v) = Some w' /\
      snd (write_json V marshal marshal_err dev w st v) = (match marshal dev v with inl _ => false | inr _ => true end) /\
      client (finish w') = Some (st, json_hdr w,
        if no_body st then [] else match marshal dev v with inl b => b | inr msg => marshal_err dev msg end).
  Proof using Type.
    intros F St. pose proof (fresh_unsent w F) as U. destruct F as (F1 & _ & _ & F4 & _).
    unfold write_json, put_status. rewrite final_pos by assumption.
    assert (X : forall b, client (finish (hwrite (with_status (with_hdr w (hset (h_hdr w) (bs "Content-Type") json_type)) st) b)) =
      Some (st, json_hdr w, if no_body st then [] else b)).
    { intros b. rewrite finish_write by now apply status_unsent, hdr_unsent.
      rewrite final_hdr_status. unfold eff. cbn [with_status with_hdr h_status h_body]. rewrite final_pos, F4 by assumption. reflexivity. }
    destruct (marshal dev v) as [b|msg]; eexists; (split; [reflexivity|]); (split; [reflexivity|]); apply X.
  Qed.

  (** C88 for ResBody. The client gets the status asked for (200 for 0), the JSON
      content type and the encoding of the body; 204 goes without both. *)
  Theorem C88_resbody r w : fresh w -> final (asked r) ->
    let s := rst_of (snd (res_write r w)) in
    (asked r = 204 -> client (finish (r_w s)) = Some (204, final_hdr w, [])) /\
    (asked r <> 204 -> forall b, marshal dev (to_encode r) = inl b ->
       ok (snd (res_write r w)) /\
       client (finish (r_w s)) = Some (asked r, json_hdr w, if no_body (asked r) then [] else b)).
  Proof using Type.
    intros F St. pose proof (fresh_unsent w F) as U. unfold ResultModel.res_write. cbn [snd]. fold (asked r). fold (to_encode r). split.
    - intros E. rewrite E. cbn. rewrite finish_unsent by now apply status_unsent. rewrite final_hdr_status. reflexivity.
    - intros N b M. apply Z.eqb_neq in N. rewrite N.
      destruct (json_client w (asked r) (to_encode r) F St) as (w' & E1 & E2 & E3).
      destruct (write_json V marshal marshal_err dev w (asked r) (to_encode r)) as (o & e). cbn [fst snd] in *. subst o e.
      rewrite M in *. cbn. split; [exact I|exact E3].
  Qed.
  (** the results apires makes: With(body) goes out with 200, With(body, status, ...) with the first status given, Ret(status) with an empty object *)
  Definition sent (r : res V) (w : hw) := client (finish (r_w (rst_of (snd (res_write r w))))).
  Theorem C88_with v w b e : fresh w -> marshal dev v = inl b -> marshal dev VEmptyStruct = inl e ->
    sent (with_ (Some v) []) w = Some (200, json_hdr w, b) /\
    forall s more, final s -> s <> 204 ->
      sent (with_ (Some v) (s :: more)) w = Some (s, json_hdr w, if no_body s then [] else b) /\
      sent (ret_ s) w = Some (s, json_hdr w, if no_body s then [] else e).
  Proof using Type.
    intros F M ME. unfold sent. split.
    - destruct (C88_resbody (with_ (Some v) []) w F) as (_ & X); [unfold final, asked; cbn; lia|]. apply (X ltac:(unfold asked; cbn; lia) b M).
    - intros s more Fs N. assert (As : forall bd, asked (Res s bd) = s) by (intros bd; unfold asked; cbn; destruct (Z.eqb_spec s 0); [unfold final in Fs; lia|reflexivity]).
      split.
      + destruct (C88_resbody (with_ (Some v) (s :: more)) w F) as (_ & X); [unfold with_; rewrite As; exact Fs|]. unfold with_ in *. rewrite As in X. apply (X N b M).
      + destruct (C88_resbody (ret_ s) w F) as (_ & X); [unfold ret_; rewrite As; exact Fs|]. unfold ret_ in *. rewrite As in X. apply (X N e ME).
  Qed.
  (** the JSON content type is there unless a hook changes it *)
  Theorem C88_content_type w : h_hooks w = [] -> hget (json_hdr w) (bs "Content-Type") = bs "application/json; charset=UTF-8".
  Proof using Type.
    intros H. unfold json_hdr, final_hdr, call_before. cbn [with_hdr h_hooks]. rewrite H. cbn [rev fold_left with_hdr h_hdr].
    unfold hget, hset. now rewrite aget_aset_same.
  Qed.
  (** C88 for RawBody, exactly: the status asked for is sent for 204 and for
      bodies that are encoded as JSON; text and readers are sent, and no body at
      all is answered, with status 200. *)
  Definition encoded (r : res V) : Prop := match rs_body r with Some (VOther _) | Some VEmptyStruct => True | _ => False end.
  Theorem C88_rawbody_partial r w : fresh w -> final (asked r) ->
    let s := rst_of (snd (raw_write r w)) in
    (asked r = 204 -> client (finish (r_w s)) = Some (204, final_hdr w, [])) /\
    (asked r <> 204 -> encoded r -> forall b, marshal dev (to_encode r) = inl b ->
       client (finish (r_w s)) = Some (asked r, json_hdr w, if no_body (asked r) then [] else b)) /\
    (asked r <> 204 -> ~ encoded r -> client (finish (r_w s)) = Some (200, final_hdr w,
       match rs_body r with Some (VText b) => b | Some (VReader cs _) => List.concat cs | _ => [] end)).
  Proof using Type.
    intros F St. pose proof (fresh_unsent w F) as U. unfold ResultModel.raw_write. cbn [snd]. fold (asked r).
    assert (H200 : eff (h_status w) = 200) by (destruct F as (F1 & _); rewrite F1; reflexivity).
    assert (F4 : h_body w = []) by apply F.
    split; [|split].
    - intros E. rewrite E. cbn. rewrite finish_unsent by now apply status_unsent. rewrite final_hdr_status. reflexivity.
    - intros N En b M. apply Z.eqb_neq in N. rewrite N.
      destruct (json_client w (asked r) (to_encode r) F St) as (w' & E1 & E2 & E3).
      unfold encoded in En. unfold to_encode in *. destruct (rs_body r) as [[| |v|]|]; try contradiction;
        (destruct (write_json V marshal marshal_err dev w (asked r) _) as (o & e); cbn [fst snd] in *; subst o e; rewrite M in *; cbn; exact E3).
    - intros N En. apply Z.eqb_neq in N. rewrite N. unfold encoded in En.
      destruct (rs_body r) as [[b|cs c|v|]|]; try (exfalso; apply En; exact I); cbn [rst_of r_w].
      + rewrite finish_write by assumption. now rewrite H200, F4.
      + unfold copy_chunks. rewrite finish_writes by assumption. now rewrite H200, F4, concat_nonempty.
      + rewrite finish_unsent by assumption. now rewrite H200, F4.
  Qed.
  (** RawRet with any status but 200 and 204 is answered with 200 *)
  Theorem C88_rawret_refuted : ~ (forall w s, fresh w -> final s ->
    exists h b, client (finish (r_w (rst_of (snd (raw_write (ret_ s) w))))) = Some (s, h, b)).
  Proof using Type.
    intros H. destruct (H w_fresh 404 w_fresh_ok) as (h & b & E); [unfold final; lia|]. discriminate E.
  Qed.
  Theorem C88_rawtext_refuted : ~ (forall w b s, fresh w -> final s ->
    exists h b', client (finish (r_w (rst_of (snd (raw_write (with_ (Some (VText b)) [s]) w))))) = Some (s, h, b')).
  Proof using Type.
    intros H. destruct (H w_fresh (bs "no such user") 404 w_fresh_ok) as (h & b & E); [unfold final; lia|]. discriminate E.
  Qed.

  (** C128. A body that cannot be encoded is never sent in part: the
      client gets the encoded error report instead, under the status asked for. *)
  Theorem C128_encode_failure r w msg : fresh w -> final (asked r) -> asked r <> 204 ->
    marshal dev (to_encode r) = inr msg ->
    client (finish (r_w (rst_of (snd (res_write r w))))) =
      Some (asked r, json_hdr w, if no_body (asked r) then [] else marshal_err dev msg) /\
    (ok (snd (res_write r w)) <-> has_logger = true).
  Proof using Type.
    intros F St N M. unfold ResultModel.res_write. cbn [snd]. fold (asked r). fold (to_encode r). apply Z.eqb_neq in N. rewrite N.
    destruct (json_client w (asked r) (to_encode r) F St) as (w' & E1 & E2 & E3).
    destruct (write_json V marshal marshal_err dev w (asked r) (to_encode r)) as (o & e). cbn [fst snd] in *. subst o e.
    rewrite M in *. unfold log_error. cbn [andb]. destruct has_logger; cbn [negb rst_of r_w ok]; (split; [exact E3|]); split; intros K; auto; try contradiction; discriminate K.
  Qed.
  Theorem C128_encode_failure_refuted v msg : marshal dev v = inr msg ->
    ~ (forall r w, fresh w -> final (asked r) -> to_encode r = v ->
        exists h b, client (finish (r_w (rst_of (snd (res_write r w))))) = Some (500, h, b)).
  Proof using Type.
    intros M H. destruct (H (with_ (Some v) []) w_fresh w_fresh_ok) as (h & b & E); [unfold final, asked; cbn; lia|reflexivity|].
    destruct (C128_encode_failure (with_ (Some v) []) w_fresh msg w_fresh_ok) as (X & _);
      [unfold final, asked; cbn; lia|unfold asked; cbn; lia|exact M|].
    rewrite X in E. discriminate E.
  Qed.

  (** C129. A result can be kept and sent again: sending changes nothing about what
      later sends of the same object do, for both kinds (a reader, of course,
      gives its content once). *)
  Theorem C129_reusable r w w' :
    snd (res_write (fst (res_write r w)) w') = snd (res_write r w') /\
    snd (raw_write (fst (raw_write r w)) w') = snd (raw_write r w').
  Proof using Type.
    unfold ResultModel.res_write, ResultModel.raw_write. cbn [fst snd rs_status rs_body]. fold (asked r).
    assert (E : (if asked r =? 0 then 200 else asked r) = asked r).
    { unfold asked. destruct (rs_status r =? 0) eqn:K; [reflexivity|]. now rewrite K. }
    rewrite E. split; reflexivity.
  Qed.

  (** C130 (partial). A reader given to RawBody is closed once, after reading, if it
      can be; nothing else is closed. Missing: 204. *)
  Theorem C130_reader_closed_partial r w : asked r <> 204 ->
    r_closed (rst_of (snd (raw_write r w))) = match rs_body r with Some (VReader _ true) => 1%nat | _ => 0%nat end.
  Proof using Type.
    intros N. unfold ResultModel.raw_write. cbn [snd]. fold (asked r). apply Z.eqb_neq in N. rewrite N.
    destruct (rs_body r) as [[b|cs []|v|]|]; try reflexivity;
      destruct (write_json V marshal marshal_err dev w (asked r) _) as ([w'|] & e); try reflexivity; unfold log_error; destruct (e && negb has_logger)%bool; reflexivity.
  Qed.
  Theorem C130_reader_closed_refuted : ~ (forall r w cs, rs_body r = Some (VReader cs true) ->
    r_closed (rst_of (snd (raw_write r w))) = 1%nat).
  Proof using Type. intros H. specialize (H (with_ (Some (VReader [] true)) [204]) w_fresh [] eq_refl). discriminate H. Qed.
  (** *** Exact forms *)
  (** C88, exactly: a RawBody result is sent with the status asked for if and only
      if that is 200 or 204 or the body is one that is encoded as JSON. *)
  Theorem C88_raw_status_exact r w : fresh w -> final (asked r) ->
    exists s h b, client (finish (r_w (rst_of (snd (raw_write r w))))) = Some (s, h, b) /\
      (s = asked r <-> asked r = 204 \/ asked r = 200 \/ encoded r).
  Proof using Type.
    intros F St. destruct (Z.eq_dec (asked r) 204) as [E|N].
    - destruct (C88_rawbody_partial r w F St) as (A & _). rewrite (A E). do 3 eexists. split; [reflexivity|]. rewrite E. tauto.
    - assert (D : encoded r \/ ~ encoded r) by (unfold encoded; destruct (rs_body r) as [[]|]; tauto).
      destruct D as [D|D].
      + unfold ResultModel.raw_write. cbn [snd]. fold (asked r). apply Z.eqb_neq in N. rewrite N.
        destruct (json_client w (asked r) (to_encode r) F St) as (w' & E1 & E2 & E3).
        assert (X : encoded r) by exact D.
        unfold encoded in D. unfold to_encode in *. destruct (rs_body r) as [[| |v|]|]; try contradiction;
          (destruct (write_json V marshal marshal_err dev w (asked r) _) as (o & e); cbn [fst snd] in *; subst o e; unfold log_error;
           do 3 eexists; split; [destruct (_ && negb has_logger)%bool; cbn [rst_of r_w]; exact E3|intuition]).
      + destruct (C88_rawbody_partial r w F St) as (_ & _ & A). rewrite (A N D). do 3 eexists. split; [reflexivity|]. intuition congruence.
  Qed.
  (** C128 for RawBody: as for ResBody, a body that cannot be encoded is replaced by
      the report, under the status asked for. *)
  Theorem C128_raw_failure r w msg : fresh w -> final (asked r) -> asked r <> 204 -> encoded r ->
    marshal dev (to_encode r) = inr msg ->
    client (finish (r_w (rst_of (snd (raw_write r w))))) =
      Some (asked r, json_hdr w, if no_body (asked r) then [] else marshal_err dev msg) /\
    (ok (snd (raw_write r w)) <-> has_logger = true).
  Proof using Type.
    intros F St N En M. unfold ResultModel.raw_write. cbn [snd]. fold (asked r). apply Z.eqb_neq in N. rewrite N.
    destruct (json_client w (asked r) (to_encode r) F St) as (w' & E1 & E2 & E3).
    unfold encoded in En. unfold to_encode in *. destruct (rs_body r) as [[| |v|]|]; try contradiction;
      (destruct (write_json V marshal marshal_err dev w (asked r) _) as (o & e); cbn [fst snd] in *; subst o e; rewrite M in *;
       unfold log_error; cbn [andb]; destruct has_logger; cbn [negb rst_of r_w ok]; (split; [exact E3|]); split; intros K; auto; try contradiction; discriminate K).
  Qed.
  (** C130, exactly: a reader given to RawBody is closed, once, if and only if it can
      be and the status is not 204; ResBody never closes anything. *)
  Theorem C130_reader_closed_exact r w :
    r_closed (rst_of (snd (raw_write r w))) =
      (match rs_body r with Some (VReader _ true) => if (asked r =? 204)%Z then 0 else 1 | _ => 0 end)%nat /\
    r_closed (rst_of (snd (res_write r w))) = 0%nat.
  Proof using Type.
    split.
    - destruct (Z.eqb_spec (asked r) 204) as [E|N].
      + unfold ResultModel.raw_write. cbn [snd]. fold (asked r). rewrite E. cbn. destruct (rs_body r) as [[b|cs []|v|]|]; reflexivity.
      + rewrite C130_reader_closed_partial by assumption. destruct (rs_body r) as [[b|cs []|v|]|]; reflexivity.
    - unfold ResultModel.res_write. cbn [snd]. fold (asked r). destruct (asked r =? 204).
      + destruct (put_status w (asked r)); reflexivity.
      + destruct (write_json V marshal marshal_err dev w (asked r) _) as ([w'|] & e); try reflexivity; unfold log_error; destruct (e && negb has_logger)%bool; reflexivity.
  Qed.
End Api.

(** C130 for GenericOutFilter: not closed if the response was written before *)
Theorem C130_generic_refuted : ~ (forall w cs s, generic_out w (Some (outs (ShBody (PReader cs true)))) = ROk s -> r_closed s = 1%nat).
Proof. intros H. specialize (H (with_status hw0 200) [] _ eq_refl). discriminate H. Qed.

(** C130 for GenericOutFilter, exactly: a documented reader result is closed once if
    the response was not given a status before, and not at all otherwise *)
Theorem C130_generic_exact w sh s : closable sh = true -> final (status_of sh) ->
  generic_out w (Some (outs sh)) = ROk s -> r_closed s = (if (h_status w =? 0)%Z then 1 else 0)%nat.
Proof.
  intros C F. unfold generic_out. destruct (h_status w =? 0) eqn:E; cbn [negb]; [|intros [= <-]; reflexivity].
  destruct sh as [[b|b|cs c]|[b|b|cs c] z|z]; try discriminate C; cbn [closable] in C; subst c; cbn [outs rev List.app value int_value o_kind status_of] in *.
  - intros [= <-]. reflexivity.
  - unfold put_status. rewrite final_pos by assumption. intros [= <-]. reflexivity.
Qed.
(** C90, exactly: among the documented shapes, those with a plain string panic and
    all others are sent *)
Theorem C90_exact w sh : fresh w -> final (status_of sh) ->
  (is_string sh = true -> exists s, generic_out w (Some (outs sh)) = RPanic s) /\
  (is_string sh = false -> exists s, generic_out w (Some (outs sh)) = ROk s /\
    client (finish (r_w s)) = Some (status_of sh, final_hdr w, if no_body (status_of sh) then [] else body_of sh)).
Proof.
  intros F St. split; intros H; [now apply C90_string_panics|].
  destruct (C90_documented_partial w sh F St H) as (s & A & B & _). eauto.
Qed.

(** *** C89, C131: error values *)
Section Err.
  Variable D : Type.
  Variable text_of : D -> option bytes.
  Notation ecalls := (ecalls D text_of).
  Notation ecall_run := (ecall_run D text_of).

  (** heaps built by any history of API calls *)
  Definition reachable (h : eheap D) : Prop := exists cs, ecalls [] cs = Some h.

  Lemma ecalls_app cs1 : forall h cs2, ecalls h (cs1 ++ cs2) = match ecalls h cs1 with Some h' => ecalls h' cs2 | None => None end.
  Proof using Type. induction cs1 as [|c cs1 IH]; intros h cs2; [reflexivity|]. cbn. destruct (ecall_run h c); [apply IH|reflexivity]. Qed.
  Lemma nth_upd_same h : forall i x, (i < List.length h)%nat -> nth_error (upd D h i x) i = Some x.
  Proof using Type. induction h as [|y h IH]; intros [|i] x H; cbn in *; try lia; [reflexivity|apply IH; lia]. Qed.
  Lemma nth_upd_other h : forall i j x, i <> j -> nth_error (upd D h i x) j = nth_error h j.
  Proof using Type. induction h as [|y h IH]; intros [|i] [|j] x H; cbn; try reflexivity; try congruence. apply IH. congruence. Qed.

  (** what may happen to an object: its status becomes 200 if it was 0 *)
  Definition evolves (o o' : rerr D) : Prop :=
    e_body D o' = e_body D o /\ e_code D o' = e_code D o /\ e_msg D o' = e_msg D o /\ e_data D o' = e_data D o /\
    (e_status D o' = e_status D o \/ (e_status D o = 0 /\ e_status D o' = 200)).
  Lemma evolves_refl o : evolves o o.
  Proof using Type. repeat split; auto. Qed.
  Lemma evolves_trans a b c : evolves a b -> evolves b c -> evolves a c.
  Proof using Type.
    intros (A1 & A2 & A3 & A4 & A5) (B1 & B2 & B3 & B4 & B5). repeat split; try congruence.
    destruct A5 as [A5|(A5 & A6)], B5 as [B5|(B5 & B6)]; [left; congruence|right; split; congruence|right; split; congruence|lia].
  Qed.
  Lemma call_evolves h c h' i o : ecall_run h c = Some h' -> nth_error h i = Some o ->
    exists o', nth_error h' i = Some o' /\ evolves o o'.
  Proof using Type.
    intros R N. assert (L : (i < List.length h)%nat) by (apply nth_error_Some; congruence).
    assert (A : forall x, nth_error (h ++ [x]) i = Some o) by (intros x; rewrite nth_error_app1; assumption).
    destruct c as [st code m d|e d m|e m|e]; cbn [ResultModel.ecall_run] in R.
    - injection R as <-. exists o. split; [apply A|apply evolves_refl].
    - destruct (nth_error h e) as [x|]; [|discriminate R]. injection R as <-. exists o. split; [apply A|apply evolves_refl].
    - destruct (nth_error h e) as [x|]; [|discriminate R]. injection R as <-. exists o. split; [apply A|apply evolves_refl].
    - destruct (nth_error h e) as [x|] eqn:E; [|discriminate R]. injection R as <-.
      destruct (e_status D x =? 0) eqn:Z0; [|exists o; split; [exact N|apply evolves_refl]].
      destruct (Nat.eq_dec e i) as [->|Ne].
      + rewrite N in E. injection E as <-. eexists. split; [apply nth_upd_same; exact L|].
        repeat split. right. split; [now apply Z.eqb_eq|reflexivity].
      + exists o. split; [rewrite nth_upd_other by assumption; exact N|apply evolves_refl].
  Qed.
  Lemma calls_evolve cs : forall h h' i o, ecalls h cs = Some h' -> nth_error h i = Some o ->
    exists o', nth_error h' i = Some o' /\ evolves o o'.
  Proof using Type.
    induction cs as [|c cs IH]; intros h h' i o R N; cbn in R.
    - injection R as <-. exists o. split; [exact N|apply evolves_refl].
    - destruct (ecall_run h c) as [h1|] eqn:E; [|discriminate R].
      destruct (call_evolves h c h1 i o E N) as (o1 & N1 & V1). destruct (IH h1 h' i o1 R N1) as (o2 & N2 & V2).
      exists o2. split; [exact N2|]. eapply evolves_trans; eauto.
  Qed.
  Definition self (h : eheap D) : Prop := forall i o, nth_error h i = Some o -> e_body D o = i.
  Lemma self_app h o : self h -> e_body D o = List.length h -> self (h ++ [o]).
  Proof using Type.
    intros S B i x N. destruct (Nat.lt_ge_cases i (List.length h)) as [L|L].
    - rewrite nth_error_app1 in N by assumption. now apply S.
    - rewrite nth_error_app2 in N by assumption. destruct (i - List.length h)%nat as [|k] eqn:K; cbn in N.
      + injection N as <-. lia.
      + destruct k; discriminate N.
  Qed.
  Lemma call_self h c h' : self h -> ecall_run h c = Some h' -> self h'.
  Proof using Type.
    intros S R. destruct c as [st code m d|e d m|e m|e]; cbn [ResultModel.ecall_run] in R.
    - injection R as <-. now apply self_app.
    - destruct (nth_error h e) as [x|]; [|discriminate R]. injection R as <-. now apply self_app.
    - destruct (nth_error h e) as [x|]; [|discriminate R]. injection R as <-. now apply self_app.
    - destruct (nth_error h e) as [x|] eqn:E; [|discriminate R]. injection R as <-.
      destruct (e_status D x =? 0); [|exact S]. intros i o N. destruct (Nat.eq_dec e i) as [->|Ne].
      + rewrite nth_upd_same in N by (apply nth_error_Some; congruence). injection N as <-. cbn. now apply S.
      + rewrite nth_upd_other in N by assumption. now apply S.
  Qed.
  Lemma reachable_self h : reachable h -> self h.
  Proof using Type.
    intros (cs & R). revert R. assert (S0 : self []) by (intros [|i] o N; discriminate N).
    revert S0. generalize (@nil (rerr D)). induction cs as [|c cs IH]; intros h0 S0 R; cbn in R; [injection R as <-; exact S0|].
    destruct (ecall_run h0 c) as [h1|] eqn:E; [|discriminate R]. apply (IH h1); [|exact R]. eapply call_self; eauto.
  Qed.
  Lemma sends_own h e o : self h -> nth_error h e = Some o -> sends D h e = Some (if e_status D o =? 0 then 200 else e_status D o, members D o).
  Proof using Type. intros S N. unfold sends. rewrite N, (S e o N), N. reflexivity. Qed.

  (** C89. Whatever is called on shared errors, deriving others from them and
      sending them included, an existing error keeps what it sends: status, code,
      message and data. *)
  Theorem C89_no_mutation h cs h' e x :
    reachable h -> sends D h e = Some x -> ecalls h cs = Some h' -> sends D h' e = Some x.
  Proof using Type.
    intros R S C. pose proof (reachable_self h R) as Sf.
    assert (Sf' : self h').
    { apply reachable_self. destruct R as (cs0 & R). exists (cs0 ++ cs). rewrite ecalls_app, R. exact C. }
    destruct (nth_error h e) as [o|] eqn:N; [|unfold sends in S; rewrite N in S; discriminate S].
    rewrite (sends_own h e o Sf N) in S. injection S as <-.
    destruct (calls_evolve cs h h' e o C N) as (o' & N' & (E1 & E2 & E3 & E4 & E5)).
    rewrite (sends_own h' e o' Sf' N'). do 2 f_equal.
    - destruct E5 as [->|(-> & ->)]; reflexivity.
    - unfold members. now rewrite E2, E3, E4.
  Qed.
  (** ... and every call returns the error asked for: created with exactly its
      arguments, or derived with status and code of the original and the new
      message and data; WithData takes the message from an error or string given
      as data unless one is given. *)
  Definition eff_status (s : Z) : Z := if s =? 0 then 200 else s.
  Definition shown (code : Z) (msg : bytes) (data : option D) : list (member D) :=
    (if code =? 0 then [] else [MCode D code]) ++ (if is_nil msg then [] else [MMsg D msg]) ++
    (match data with Some d => [MData D d] | None => [] end).
  Theorem C89_new h st code msg data h' : reachable h -> ecall_run h (ENew D st code msg data) = Some h' ->
    sends D h' (List.length h) = Some (eff_status st, shown code msg (hd_error data)).
  Proof using Type.
    intros R C. assert (S : self h') by (eapply call_self; [apply reachable_self; exact R|exact C]).
    cbn in C. injection C as <-. erewrite sends_own; [|exact S|rewrite nth_error_app2, Nat.sub_diag by lia; reflexivity].
    destruct data; reflexivity.
  Qed.
  Theorem C89_derived h e o h' : reachable h -> nth_error h e = Some o ->
    (forall msg, ecall_run h (EWithMsg D e msg) = Some h' ->
       sends D h' (List.length h) = Some (eff_status (e_status D o), shown (e_code D o) msg (e_data D o))) /\
    (forall data m ms, ecall_run h (EWithData D e data (m :: ms)) = Some h' ->
       sends D h' (List.length h) = Some (eff_status (e_status D o), shown (e_code D o) m data)) /\
    (forall d t, text_of d = Some t -> ecall_run h (EWithData D e (Some d) []) = Some h' ->
       sends D h' (List.length h) = Some (eff_status (e_status D o), shown (e_code D o) t (Some d))) /\
    (forall d, text_of d = None -> ecall_run h (EWithData D e (Some d) []) = Some h' ->
       sends D h' (List.length h) = Some (eff_status (e_status D o), shown (e_code D o) (e_msg D o) (Some d))) /\
    (ecall_run h (EWithData D e None []) = Some h' ->
       sends D h' (List.length h) = Some (eff_status (e_status D o), shown (e_code D o) (e_msg D o) None)).
  Proof using Type.
    intros R N.
    assert (K : forall c, ecall_run h c = Some h' -> self h') by (intros c C; eapply call_self; [apply reachable_self; exact R|exact C]).
    assert (L : forall x, nth_error (h ++ [x]) (List.length h) = Some x) by (intros x; rewrite nth_error_app2, Nat.sub_diag by lia; reflexivity).
    repeat split.
    - intros msg C. pose proof (K _ C) as S. cbn in C. rewrite N in C. injection C as <-. erewrite sends_own; [|exact S|apply L]. reflexivity.
    - intros data m ms C. pose proof (K _ C) as S. cbn in C. rewrite N in C. injection C as <-. erewrite sends_own; [|exact S|apply L]. reflexivity.
    - intros d t T C. pose proof (K _ C) as S. cbn in C. rewrite N, T in C. injection C as <-. erewrite sends_own; [|exact S|apply L]. reflexivity.
    - intros d T C. pose proof (K _ C) as S. cbn in C. rewrite N, T in C. injection C as <-. erewrite sends_own; [|exact S|apply L]. reflexivity.
    - intros C. pose proof (K _ C) as S. cbn in C. rewrite N in C. injection C as <-. erewrite sends_own; [|exact S|apply L]. reflexivity.
  Qed.

  (** C131 (partial). An error derived from another, at any later time, is equal to
      it in the sense of EqualAny, if the status is not 0. *)
  Definition derives (c : ecall D) (e : nat) : Prop :=
    match c with EWithData _ e' _ _ => e' = e | EWithMsg _ e' _ => e' = e | _ => False end.
  Theorem C131_derived_equal_partial h e o c h1 cs h2 others :
    nth_error h e = Some o -> e_status D o <> 0 -> derives c e ->
    ecall_run h c = Some h1 -> ecalls h1 cs = Some h2 -> In e others ->
    equal_any D h2 (List.length h) others = true.
  Proof using Type.
    intros N NZ Dv C1 C2 I.
    assert (X : exists n, nth_error h1 (List.length h) = Some n /\ e_status D n = e_status D o /\ e_code D n = e_code D o).
    { destruct c as [st code m d|e' d m|e' m|e']; cbn in Dv; try contradiction; subst e'; cbn in C1; rewrite N in C1; injection C1 as <-;
        (eexists; split; [rewrite nth_error_app2, Nat.sub_diag by lia; reflexivity|split; reflexivity]). }
    destruct X as (n & N1 & S1 & K1).
    assert (Y : exists o1, nth_error h1 e = Some o1 /\ evolves o o1) by (eapply call_evolves; eauto).
    destruct Y as (o1 & N2 & V1).
    destruct (calls_evolve cs h1 h2 _ n C2 N1) as (n' & M1 & V2).
    destruct (calls_evolve cs h1 h2 _ o1 C2 N2) as (o2 & M2 & V3).
    pose proof (evolves_trans _ _ _ V1 V3) as V4.
    destruct V2 as (_ & A2 & _ & _ & A5). destruct V4 as (_ & B2 & _ & _ & B5).
    unfold equal_any. rewrite M1. apply existsb_exists. exists e. split; [exact I|]. rewrite M2.
    apply andb_true_intro. split; apply Z.eqb_eq; [|congruence].
    destruct A5 as [A5|(A5 & _)]; [|congruence]. destruct B5 as [B5|(B5 & _)]; congruence.
  Qed.
  Theorem C131_derived_equal_refuted : ~ (forall h e o c h1 cs h2,
    nth_error h e = Some o -> derives c e ->
    ecall_run h c = Some h1 -> ecalls h1 cs = Some h2 -> equal_any D h2 (List.length h) [e] = true).
  Proof using Type.
    intros H.
    specialize (H [RErr D 0 0 1 [] None] 0%nat _ (EWithMsg D 0 []) _ [EWrite D 0] _ eq_refl eq_refl eq_refl eq_refl).
    discriminate H.
  Qed.
  (** C131, exactly: for an origin whose status is not 0 the derived error stays
      equal to it; for status 0 it is equal exactly as long as either both or
      neither have been sent since. *)
  Definition sent_in (i : nat) (cs : list (ecall D)) : Prop := In (EWrite D i) cs.
  Lemma status_after cs : forall h h' i o, ecalls h cs = Some h' -> nth_error h i = Some o -> e_status D o = 0 ->
    exists o', nth_error h' i = Some o' /\ e_code D o' = e_code D o /\
      ((sent_in i cs /\ e_status D o' = 200) \/ (~ sent_in i cs /\ e_status D o' = 0)).
  Proof using Type.
    induction cs as [|c cs IH]; intros h h' i o R N Z0; cbn in R.
    - injection R as <-. exists o. split; [exact N|]. split; [reflexivity|]. right. split; [intros []|exact Z0].
    - destruct (ecall_run h c) as [h1|] eqn:E; [|discriminate R].
      assert (C : c = EWrite D i \/ c <> EWrite D i).
      { destruct c as [| | |e]; try (right; discriminate). destruct (Nat.eq_dec e i); [left; congruence|right; congruence]. }
      destruct C as [->|C].
      + cbn in E. rewrite N in E. injection E as <-. rewrite Z0 in R. cbn in R.
        destruct (calls_evolve cs _ h' i (RErr D 200 (e_body D o) (e_code D o) (e_msg D o) (e_data D o)) R) as (o' & N' & (_ & K & _ & _ & S)).
        { apply nth_upd_same. apply nth_error_Some. congruence. }
        exists o'. split; [exact N'|]. split; [exact K|]. left. split; [now left|].
        cbn in S. destruct S as [S|(S & _)]; [exact S|discriminate S].
      + assert (N1 : nth_error h1 i = Some o).
        { assert (L : (i < List.length h)%nat) by (apply nth_error_Some; congruence).
          assert (A : forall x, nth_error (h ++ [x]) i = Some o) by (intros x; rewrite nth_error_app1; assumption).
          destruct c as [st code m d|e d m|e m|e]; cbn [ResultModel.ecall_run] in E.
          - injection E as <-. apply A.
          - destruct (nth_error h e); [|discriminate E]. injection E as <-. apply A.
          - destruct (nth_error h e); [|discriminate E]. injection E as <-. apply A.
          - destruct (nth_error h e) as [x|] eqn:Ex; [|discriminate E]. injection E as <-. destruct (e_status D x =? 0); [|exact N].
            rewrite nth_upd_other by congruence. exact N. }
        destruct (IH h1 h' i o R N1 Z0) as (o' & A & B & [(S & T)|(S & T)]); exists o'; (split; [exact A|]); (split; [exact B|]).
        * left. split; [now right|exact T].
        * right. split; [|exact T]. intros [K|K]; [congruence|contradiction].
  Qed.
  Theorem C131_derived_equal_exact h e o c h1 cs h2 :
    nth_error h e = Some o -> derives c e -> ecall_run h c = Some h1 -> ecalls h1 cs = Some h2 ->
    (equal_any D h2 (List.length h) [e] = true <->
     e_status D o <> 0 \/ (sent_in e cs <-> sent_in (List.length h) cs)).
  Proof using Type.
    intros N Dv C1 C2. destruct (Z.eq_dec (e_status D o) 0) as [Z0|NZ].
    2:{ split; [auto|]. intros _. eapply C131_derived_equal_partial; eauto. now left. }
    assert (X : exists n, nth_error h1 (List.length h) = Some n /\ e_status D n = e_status D o /\ e_code D n = e_code D o).
    { destruct c as [st code m d|e' d m|e' m|e']; cbn in Dv; try contradiction; subst e'; cbn in C1; rewrite N in C1; injection C1 as <-;
        (eexists; split; [rewrite nth_error_app2, Nat.sub_diag by lia; reflexivity|split; reflexivity]). }
    destruct X as (n & N1 & S1 & K1).
    assert (Y : nth_error h1 e = Some o).
    { assert (L : (e < List.length h)%nat) by (apply nth_error_Some; congruence).
      destruct c as [st code m d|e' d m|e' m|e']; cbn in Dv; try contradiction; subst e'; cbn in C1; rewrite N in C1; injection C1 as <-; rewrite nth_error_app1; assumption. }
    destruct (status_after cs h1 h2 _ n C2 N1) as (n' & M1 & A1 & A2); [congruence|].
    destruct (status_after cs h1 h2 _ o C2 Y Z0) as (o' & M2 & B1 & B2).
    unfold equal_any. rewrite M1. cbn [existsb]. rewrite M2, orb_false_r.
    assert (EC : (e_code D n' =? e_code D o') = true) by (apply Z.eqb_eq; congruence). rewrite EC, andb_true_r, Z.eqb_eq.
    destruct A2 as [(A2 & A3)|(A2 & A3)], B2 as [(B2 & B3)|(B2 & B3)]; rewrite A3, B3; intuition congruence.
  Qed.

  (** *** C177 *)
  (** what a call on error values gives: the new error it returns (a constructor or With...) has the status asked for *)
  Definition asked_status (h : eheap D) (c : ecall D) : option Z :=
    match c with
    | ENew _ st _ _ _ => Some st
    | EWithData _ e _ _ => option_map (e_status D) (nth_error h e)
    | EWithMsg _ e _ => option_map (e_status D) (nth_error h e)
    | EWrite _ _ => None
    end.
  (** An error reports the status it was made with, or derived with, for ever; if that is 0, it
      reports 0 until it is sent and 200 from then on. *)
  Theorem C177_status_reported h c h1 cs h2 st :
    ecall_run h c = Some h1 -> asked_status h c = Some st -> ecalls h1 cs = Some h2 ->
    get_http_code D h2 (VRes (Some (List.length h))) =
      Some (true, if st =? 0 then (if existsb (fun c => match c with EWrite _ e => Nat.eqb e (List.length h) | _ => false end) cs then 200 else 0) else st).
  Proof using Type.
    intros C1 A C2.
    assert (X : exists n, nth_error h1 (List.length h) = Some n /\ e_status D n = st).
    { destruct c as [s0 code m d|e d m|e m|e]; cbn in A; [injection A as <-; cbn in C1; injection C1 as <-| | |discriminate A].
      - eexists; split; [rewrite nth_error_app2, Nat.sub_diag by lia; reflexivity|reflexivity].
      - cbn in C1. destruct (nth_error h e) as [o|]; [|discriminate A]. injection A as <-. injection C1 as <-.
        eexists; split; [rewrite nth_error_app2, Nat.sub_diag by lia; reflexivity|reflexivity].
      - cbn in C1. destruct (nth_error h e) as [o|]; [|discriminate A]. injection A as <-. injection C1 as <-.
        eexists; split; [rewrite nth_error_app2, Nat.sub_diag by lia; reflexivity|reflexivity]. }
    destruct X as (n & N & S). cbn [get_http_code]. destruct (Z.eqb_spec st 0) as [Z0|NZ].
    - destruct (status_after cs h1 h2 _ n C2 N) as (n' & N' & _ & K); [congruence|]. rewrite N'.
      assert (W : sent_in (List.length h) cs <-> existsb (fun c => match c with EWrite _ e => Nat.eqb e (List.length h) | _ => false end) cs = true).
      { unfold sent_in. rewrite existsb_exists. split.
        - intros I. eexists. split; [exact I|]. apply Nat.eqb_refl.
        - intros (c' & I & E). destruct c' as [| | |e]; try discriminate E. apply Nat.eqb_eq in E. subst e. exact I. }
      destruct K as [(K & ->)|(K & ->)].
      + apply W in K. rewrite K. reflexivity.
      + destruct (existsb _ cs) eqn:E; [|reflexivity]. destruct (K (proj2 W eq_refl)).
    - destruct (calls_evolve cs h1 h2 _ n C2 N) as (n' & N' & (_ & _ & _ & _ & V)). rewrite N'.
      destruct V as [V|(V & _)]; congruence.
  Qed.
  (** its text is the JSON object it sends as body, also if it was derived or sent before (empty if the data is no JSON) *)
  Theorem C177_text_is_body marshal h e : reachable h -> (e < List.length h)%nat ->
    exists st ms, sends D h e = Some (st, ms) /\ error_text D marshal h (Some e) = match marshal ms with Some b => b | None => [] end.
  Proof using Type.
    intros R L. apply nth_error_Some in L. destruct (nth_error h e) as [o|] eqn:N; [|congruence].
    exists (eff_status (e_status D o)), (members D o). split; [apply sends_own; [apply reachable_self; exact R|exact N]|].
    unfold error_text. rewrite N. reflexivity.
  Qed.
  (** other errors: only those with HttpCode report one; a nil *ResError in an error value is a ResError with the empty
      text, but asking for its status panics *)
  Theorem C177_other_errors marshal (h : eheap D) :
    get_http_code D h VNoErr = Some (false, 0) /\
    (forall z, get_http_code D h (VOtherErr (Some z)) = Some (true, z)) /\
    get_http_code D h (VOtherErr None) = Some (false, 0) /\
    get_http_code D h (VRes None) = None /\ error_text D marshal h None = [] /\
    (forall v, is_res_error v = true <-> exists e, v = VRes e).
  Proof using Type.
    repeat split. - destruct v; try discriminate. eauto. - intros (e & ->). reflexivity.
  Qed.
End Err.

(** *** Cases *)
Example C177_case :
  let cs := [ENew bytes 0 7 (bs "odd") []; EWithMsg bytes 0 (bs "x"); EWrite bytes 0; EWithMsg bytes 0 (bs "y")] in
  match ecalls bytes (fun d => Some d) [] cs with
  | Some h => map (fun e => get_http_code bytes h (VRes (Some e))) [0; 1; 2]%nat
  | None => []
  end = [Some (true, 200); Some (true, 0); Some (true, 200)].
Proof. reflexivity. Qed.
(** a run: create a 404, derive with data, send both; then the original sends the same *)
Example C89_case :
  let cs := [ENew bytes 404 1001 (bs "not found") []; EWithData bytes 0 (Some (bs "user 7")) []; EWrite bytes 1; EWithMsg bytes 0 (bs "gone"); EWrite bytes 0] in
  match ecalls bytes (fun d => Some d) [] cs with
  | Some h => map (sends bytes h) [0; 1; 2]%nat
  | None => []
  end = [ Some (404, [MCode bytes 1001; MMsg bytes (bs "not found")]);
          Some (404, [MCode bytes 1001; MMsg bytes (bs "user 7"); MData bytes (bs "user 7")]);
          Some (404, [MCode bytes 1001; MMsg bytes (bs "gone")]) ].
Proof. reflexivity. Qed.
Example C88_case :
  let m := fun (_ : bool) (v : val nat) => match v with VOther n => inl (repeat "1"%char n) | _ => inr (bs "unsupported") end in
  client (finish (r_w (rst_of (snd (res_write nat m (fun _ e => e) false true (with_ (Some (VOther 3%nat)) [201]) w_fresh))))) =
  Some (201, [(bs "X-Powered-By", [bs "Teapot"]); (bs "Content-Type", [bs "application/json; charset=UTF-8"])], bs "111") /\
  client (finish (r_w (rst_of (snd (res_write nat m (fun _ e => e) false true (ret_ 404) w_fresh))))) =
  Some (404, [(bs "X-Powered-By", [bs "Teapot"]); (bs "Content-Type", [bs "application/json; charset=UTF-8"])], bs "unsupported").
Proof. split; reflexivity. Qed.

Print Assumptions C90_documented_partial.
Print Assumptions C90_other_results.
Print Assumptions C90_string_panics.
Print Assumptions C90_documented_refuted.
Print Assumptions C88_resbody.
Print Assumptions C88_content_type.
Print Assumptions C88_rawbody_partial.
Print Assumptions C88_rawret_refuted.
Print Assumptions C88_rawtext_refuted.
Print Assumptions C128_encode_failure.
Print Assumptions C128_encode_failure_refuted.
Print Assumptions C129_reusable.
Print Assumptions C130_reader_closed_partial.
Print Assumptions C130_reader_closed_refuted.
Print Assumptions C130_generic_refuted.
Print Assumptions C89_no_mutation.
Print Assumptions C89_new.
Print Assumptions C89_derived.
Print Assumptions C131_derived_equal_partial.
Print Assumptions C131_derived_equal_refuted.
Print Assumptions C90_zero_status.
Print Assumptions C88_raw_status_exact.
Print Assumptions C128_raw_failure.
Print Assumptions C130_reader_closed_exact.
Print Assumptions C130_generic_exact.
Print Assumptions C90_exact.
Print Assumptions C131_derived_equal_exact.
Print Assumptions C177_status_reported.
Print Assumptions C177_text_is_body.
Print Assumptions C177_other_errors.
Print Assumptions C88_with.
