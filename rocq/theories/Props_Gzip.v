(** Props_Gzip: C92, C132-C134 -- the gzip filter. *)
From Coq Require Import List Ascii String Bool Arith ZArith Lia.
Import ListNotations.
From Verif Require Import GoStr HeadModel GzipModel Props_Result.
Local Open Scope Z_scope.

(** *** Specification *)
(** the bytes the handlers wrote *)
Fixpoint written (os : list rop) : bytes :=
  match os with [] => [] | RWrite b :: os => b ++ written os | _ :: os => written os end.
Definition writes (os : list rop) : Prop := exists b, In (RWrite b) os.
(** header fields the filter is about *)
Definition gz_field (k : bytes) : Prop := In k [bs "Content-Encoding"; bs "Vary"; bs "Content-Length"; bs "Content-Type"].
(** no handler or hook changes this field *)
Definition steps_leave (k : bytes) (ss : list hstep) : Prop :=
  forall s, In s ss -> match s with SSet k' _ | SAdd k' _ | SDel k' => k' <> k | SStatus _ => True end.
Definition leave (k : bytes) (os : list rop) : Prop :=
  forall o, In o os -> match o with RStep s => steps_leave k [s] | RBefore ss => steps_leave k ss | _ => True end.
Definition hooks_leave (k : bytes) (ks : list hook) : Prop := forall ss, In ss ks -> steps_leave k ss.

Lemma contains_spec sub : forall s, contains s sub = true <-> exists a b, s = a ++ sub ++ b.
Proof.
  unfold contains. induction s as [|c s IH]; cbn [index_sub].
  - destruct (has_prefix [] sub) eqn:H.
    + split; [intros _|reflexivity]. apply has_prefix_spec in H. destruct H as (t & H). exists [], t. exact H.
    + split; [discriminate|]. intros (a & b & E). symmetry in E. apply app_eq_nil in E. destruct E as (-> & E). apply app_eq_nil in E. destruct E as (-> & ->). discriminate H.
  - destruct (has_prefix (c :: s) sub) eqn:H.
    + split; [intros _|reflexivity]. apply has_prefix_spec in H. destruct H as (t & H). exists [], t. exact H.
    + destruct (index_sub s sub) as [i|]; cbn [option_map].
      * split; [intros _|reflexivity]. destruct IH as (IH & _). destruct (IH eq_refl) as (a & b & ->). exists (c :: a), b. reflexivity.
      * split; [discriminate|]. intros (a & b & E). destruct a as [|d a].
        -- assert (K : has_prefix (c :: s) sub = true) by (apply has_prefix_spec; exists b; exact E). congruence.
        -- injection E as -> E. apply IH. eauto.
Qed.

Section Gzip.
  Variable emit : list bytes -> bytes -> list bytes.
  Variable tail : list bytes -> list bytes.
  Variable detect : bytes -> bytes.
  Variable gunzip : bytes -> option bytes.
  (** everything the compressor passes on for these writes *)
  Fixpoint emitted (before ps : list bytes) : list bytes :=
    match ps with [] => [] | p :: ps => emit before p ++ emitted (before ++ [p]) ps end.
  (** compress/gzip: the whole stream decompresses to what was written; the first
      write passes the gzip header on; an unclosed stream is not complete *)
  Hypothesis gunzip_all : forall p ps, gunzip (List.concat (emitted [] (p :: ps) ++ tail (p :: ps))) = Some (List.concat (p :: ps)).
  Hypothesis emit_first : forall p, emit [] p <> [].
  Hypothesis gunzip_cut : forall p ps, gunzip (List.concat (emitted [] (p :: ps))) = None.
  Hypothesis gunzip_empty : gunzip [] = None.

  Notation gzip_all := (gzip_all emit tail detect).
  Notation g_op := (g_op emit detect).
  Notation g_write := (g_write emit detect).

  (** *** The two runs side by side: with the filter and without *)
  (** they agree on everything but sizes, bodies and the filter's fields *)
  Definition same_hdr (h h' : header) : Prop := forall k, ~ gz_field k -> aget h k = aget h' k.
  Definition same_sent (s s' : option (Z * header)) : Prop :=
    match s, s' with
    | Some (z, h), Some (z', h') => z = z' /\ same_hdr h h'
    | None, None => True
    | _, _ => False
    end.
  Definition sim (w w' : hw) : Prop :=
    same_hdr (h_hdr w) (h_hdr w') /\ h_status w = h_status w' /\ h_hooks w = h_hooks w' /\ h_once w = h_once w' /\ same_sent (h_sent w) (h_sent w').
  Lemma same_set h h' k v : same_hdr h h' -> same_hdr (aset h k v) (aset h' k v).
  Proof using Type.
    intros H x N. destruct (beq_spec x k) as [->|D]; [now rewrite !aget_aset_same|]. rewrite !aget_aset_other by congruence. now apply H.
  Qed.
  Lemma same_del h h' k : same_hdr h h' -> same_hdr (adel h k) (adel h' k).
  Proof using Type.
    intros H x N. destruct (beq_spec x k) as [->|D]; [now rewrite !aget_adel_same|]. rewrite !aget_adel_other by congruence. now apply H.
  Qed.
  Lemma same_add h h' k v : same_hdr h h' -> same_hdr (hadd h k v) (hadd h' k v).
  Proof using Type.
    intros H x N. unfold hadd. destruct (beq_spec x k) as [->|D].
    - rewrite !aget_aset_same. now rewrite (H k N).
    - rewrite !aget_aset_other by congruence. now apply H.
  Qed.
  Lemma sim_step w w' s : sim w w' -> sim (run_hstep w s) (run_hstep w' s).
  Proof using Type.
    intros (A & B & C & D & E). destruct s as [k v|k v|k|z]; cbn [run_hstep].
    - repeat split; auto. now apply same_set.
    - repeat split; auto. now apply same_add.
    - repeat split; auto. now apply same_del.
    - destruct (z =? 0); repeat split; auto.
  Qed.
  Lemma sim_hook k : forall w w', sim w w' -> sim (run_hook w k) (run_hook w' k).
  Proof using Type. induction k as [|s k IH]; intros w w' H; [exact H|]. apply IH. now apply sim_step. Qed.
  Lemma sim_hooks ks : forall w w', sim w w' -> sim (fold_left run_hook ks w) (fold_left run_hook ks w').
  Proof using Type. induction ks as [|k ks IH]; intros w w' H; [exact H|]. apply IH. now apply sim_hook. Qed.
  Lemma sim_sent w w' z : sim w w' -> sim (with_sent w z) (with_sent w' z).
  Proof using Type.
    intros (A & B & C & D & E). unfold with_sent. destruct (h_sent w) as [(s & h)|] eqn:S1, (h_sent w') as [(s' & h')|] eqn:S2; cbn in E; try contradiction.
    - repeat split; auto. rewrite S1, S2. exact E.
    - repeat split; auto. 
  Qed.
  Lemma sim_fire w w' : sim w w' -> sim (fire w) (fire w').
  Proof using Type.
    intros H. unfold fire.
    assert (H1 : sim (call_before (with_once w)) (call_before (with_once w'))).
    { unfold call_before. cbn [with_once h_hooks]. destruct H as (A & B & C & D & E). rewrite C. apply sim_hooks. repeat split; auto. }
    assert (H2 : sim (if h_status (call_before (with_once w)) =? 0 then with_status (call_before (with_once w)) 200 else call_before (with_once w))
                     (if h_status (call_before (with_once w')) =? 0 then with_status (call_before (with_once w')) 200 else call_before (with_once w'))).
    { destruct H1 as (A & B & C & D & E). rewrite B. destruct (h_status (call_before (with_once w')) =? 0); repeat split; auto. }
    assert (B : forall x y, sim x y -> h_status x = h_status y) by (intros x y K; apply K).
    rewrite <- (B _ _ H2). now apply sim_sent.
  Qed.
  Lemma sim_write w w' b b' : sim w w' -> sim (hwrite w b) (hwrite w' b').
  Proof using Type.
    intros H. unfold hwrite. assert (O : h_once w = h_once w') by apply H.
    assert (K : sim (with_sent (if h_once w then w else fire w) 200) (with_sent (if h_once w' then w' else fire w') 200)).
    { apply sim_sent. rewrite <- O. destruct (h_once w); [exact H|now apply sim_fire]. }
    destruct K as (A & B & C & D & E). repeat split; auto.
  Qed.
  (** further writes change nothing but size and body *)
  Lemma sent_sent w z : h_once w = true -> h_sent w <> None -> sim (with_sent w z) w.
  Proof using Type. intros _ H. unfold with_sent. destruct (h_sent w) as [(s & h)|] eqn:E; [|congruence]. repeat split. rewrite E. split; [reflexivity|]. intros k _. reflexivity. Qed.
  Lemma sim_refl w : sim w w.
  Proof using Type. repeat split. destruct (h_sent w) as [(s & h)|]; cbn; [|exact I]. split; [reflexivity|]. intros k _. reflexivity. Qed.
  Lemma sim_trans a b c : sim a b -> sim b c -> sim a c.
  Proof using Type.
    intros (A & B & C & D & E) (A' & B' & C' & D' & E'). repeat split; try congruence.
    - intros k N. now rewrite A, A'.
    - destruct (h_sent a) as [(s & h)|], (h_sent b) as [(s1 & h1)|], (h_sent c) as [(s2 & h2)|]; cbn in *; try contradiction; [|exact I].
      destruct E as (E1 & E2), E' as (E3 & E4). split; [congruence|]. intros k N. now rewrite E2, E4.
  Qed.
  Lemma sim_sym a b : sim a b -> sim b a.
  Proof using Type.
    intros (A & B & C & D & E). repeat split; try congruence.
    - intros k N. symmetry. now apply A.
    - destruct (h_sent a) as [(s & h)|], (h_sent b) as [(s1 & h1)|]; cbn in *; try contradiction; [|exact I].
      destruct E as (E1 & E2). split; [congruence|]. intros k N. symmetry. now apply E2.
  Qed.
  Lemma fire_after w : h_once (fire w) = true /\ h_sent (fire w) <> None.
  Proof using Type.
    unfold fire.
    assert (O : forall ks w, h_once (fold_left run_hook ks w) = h_once w).
    { induction ks as [|k ks IH]; intros v; [reflexivity|]. cbn [fold_left]. rewrite IH. clear. revert v.
      induction k as [|s k IHk]; intros v; [reflexivity|]. unfold run_hook. cbn [fold_left]. fold (run_hook (run_hstep v s) k). rewrite IHk.
      apply hstep_rest. }
    split.
    - unfold with_sent. set (v := call_before (with_once w)). assert (Ov : h_once v = true) by (unfold v, call_before; now rewrite O).
      destruct (h_status v =? 0); cbn [with_status h_sent]; destruct (h_sent v); cbn; exact Ov.
    - unfold with_sent. generalize (call_before (with_once w)). intros v. destruct (h_status v =? 0); cbn [with_status h_sent]; destruct (h_sent v) eqn:E; cbn; try rewrite E; discriminate.
  Qed.
  Lemma write_after w b : h_once (hwrite w b) = true /\ h_sent (hwrite w b) <> None.
  Proof using Type.
    unfold hwrite. destruct (h_once w) eqn:O.
    - unfold with_sent. destruct (h_sent w) eqn:S; cbn; rewrite ?O, ?S; split; auto; discriminate.
    - destruct (fire_after w) as (A & B). unfold with_sent. destruct (h_sent (fire w)) eqn:S; cbn; [|congruence].
      rewrite A, S. split; [reflexivity|discriminate].
  Qed.
  Lemma write_again w b : h_once w = true -> h_sent w <> None -> sim w (hwrite w b).
  Proof using Type.
    intros O S. unfold hwrite. rewrite O. apply sim_sym.
    assert (K := sent_sent w 200 O S). destruct K as (A & B & C & D & E). repeat split; auto.
  Qed.
  Lemma writes_again l : forall w, h_once w = true -> h_sent w <> None -> sim w (fold_left hwrite l w).
  Proof using Type.
    induction l as [|b l IH]; intros w O S; [apply sim_refl|]. cbn [fold_left].
    destruct (write_after w b). eapply sim_trans; [apply (write_again w b O S)|]. now apply IH.
  Qed.

  (** the body below is what the compressor passed on *)
  Lemma fire_body w : h_body (fire w) = h_body w.
  Proof using Type.
    unfold fire. assert (O : forall ks w, h_body (fold_left run_hook ks w) = h_body w).
    { induction ks as [|k ks IH]; intros v; [reflexivity|]. cbn [fold_left]. rewrite IH. clear. revert v.
      induction k as [|s k IHk]; intros v; [reflexivity|]. unfold run_hook. cbn [fold_left]. fold (run_hook (run_hstep v s) k). rewrite IHk.
      apply hstep_rest. }
    unfold with_sent. set (v := call_before (with_once w)). assert (Ov : h_body v = h_body w) by (unfold v, call_before; now rewrite O).
    destruct (h_status v =? 0); cbn [with_status h_sent]; destruct (h_sent v); cbn; exact Ov.
  Qed.
  Lemma write_body_ w b : h_body (hwrite w b) = h_body w ++ b.
  Proof using Type.
    unfold hwrite. destruct (h_once w); unfold with_sent.
    - destruct (h_sent w); reflexivity.
    - destruct (h_sent (fire w)); cbn; now rewrite fire_body.
  Qed.
  Lemma writes_body l : forall w, h_body (fold_left hwrite l w) = h_body w ++ List.concat l.
  Proof using Type.
    induction l as [|b l IH]; intros w; cbn [fold_left List.concat]; [now rewrite app_nil_r|].
    now rewrite IH, write_body_, <- app_assoc.
  Qed.

  (** the invariant between the filtered and the plain run *)
  Definition ps_of (g : gst) : list bytes := match g_writes g with Some ps => ps | None => [] end.
  Definition inv (b0 : bytes) (g : gst) (w : hw) : Prop :=
    sim (g_w g) w /\ g_closed g = false /\ h_body (g_w g) = b0 ++ List.concat (emitted [] (ps_of g)) /\
    h_body w = b0 ++ List.concat (ps_of g) /\
    match g_writes g with None => True | Some ps => ps <> [] /\ h_once w = true /\ h_sent w <> None end.
  Lemma emitted_app bf ps p : emitted bf (ps ++ [p]) = emitted bf ps ++ emit (bf ++ ps) p.
  Proof using Type.
    revert bf. induction ps as [|q ps IH]; intros bf; cbn [List.app emitted]; [now rewrite !app_nil_r|].
    rewrite IH, <- app_assoc. now rewrite <- app_assoc.
  Qed.
  Lemma below_body w o : (forall b, o <> RWrite b) -> h_body (run_rop w o) = h_body w.
  Proof using Type.
    intros H. destruct o; cbn; try (exfalso; eapply H; reflexivity); try reflexivity.
    - apply hstep_rest.
    - unfold hflush, with_sent. destruct (h_sent w); reflexivity.
  Qed.
  Lemma below_sim w w' o : (forall b, o <> RWrite b) -> sim w w' -> sim (run_rop w o) (run_rop w' o).
  Proof using Type.
    intros N H. destruct o; cbn [run_rop]; try (exfalso; eapply N; reflexivity).
    - now apply sim_step.
    - destruct H as (A & B & C & D & E). repeat split; cbn; auto. now rewrite C.
    - now apply sim_sent.
  Qed.
  Lemma below_flags w o : (forall b, o <> RWrite b) -> h_once w = true -> h_sent w <> None ->
    h_once (run_rop w o) = true /\ h_sent (run_rop w o) <> None.
  Proof using Type.
    intros N A B. destruct o; cbn [run_rop]; try (exfalso; eapply N; reflexivity).
    - destruct (hstep_rest w s) as (C & D & _). rewrite C, D. auto.
    - cbn. auto.
    - unfold hflush, with_sent. destruct (h_sent w) eqn:E; [rewrite E; auto|congruence].
  Qed.
  Lemma inv_other b0 g w o : (forall b, o <> RWrite b) -> inv b0 g w -> inv b0 (below g (run_rop (g_w g) o)) (run_rop w o).
  Proof using Type.
    intros N (A & B & C & D & E). unfold inv, below, ps_of in *. cbn [g_w g_writes g_closed].
    rewrite !below_body by assumption. split; [now apply below_sim|]. repeat split; auto.
    destruct (g_writes g) as [ps|]; [|exact I]. destruct E as (E1 & E2 & E3). split; [exact E1|]. now apply below_flags.
  Qed.
  Lemma inv_write b0 g w p : inv b0 g w -> inv b0 (g_write g p) (hwrite w p).
  Proof using emit_first.
    intros (A & B & C & D & E). unfold GzipModel.g_write. destruct (g_writes g) as [ps|] eqn:G.
    - destruct E as (E1 & E2 & E3). rewrite B. unfold inv, ps_of in *. rewrite G in *. cbn [g_w g_writes g_closed].
      destruct (write_after w p) as (W1 & W2).
      split; [|split; [reflexivity|split; [|split]]].
      + eapply sim_trans; [apply sim_sym, writes_again|].
        * destruct A as (_ & _ & _ & A & _). congruence.
        * destruct A as (_ & _ & _ & _ & A). destruct (h_sent (g_w g)) as [(s & h)|], (h_sent w) as [(s' & h')|]; cbn in A; try contradiction; congruence.
        * eapply sim_trans; [exact A|]. now apply write_again.
      + rewrite writes_body, C, emitted_app, concat_app, <- app_assoc. reflexivity.
      + rewrite write_body_, D, concat_app, <- app_assoc. cbn. now rewrite app_nil_r.
      + split; [destruct ps; discriminate|auto].
    - unfold inv, ps_of in *. rewrite G in *. cbn [g_w g_writes g_closed].
      set (h := if is_nil (hget (hdel (h_hdr (g_w g)) h_length) h_type) then hset (hdel (h_hdr (g_w g)) h_length) h_type (detect p) else hdel (h_hdr (g_w g)) h_length).
      assert (Sh : same_hdr h (h_hdr w)).
      { destruct A as (A & _). intros k N. rewrite <- (A k N). unfold h, hset, hdel.
        assert (K1 : k <> h_type) by (intros ->; apply N; unfold gz_field; cbn; auto).
        assert (K2 : k <> h_length) by (intros ->; apply N; unfold gz_field; cbn; auto).
        destruct (is_nil _); [rewrite aget_aset_other by congruence|]; now rewrite aget_adel_other by congruence. }
      assert (S1 : sim (with_hdr (g_w g) h) w).
      { destruct A as (A1 & A2 & A3 & A4 & A5). repeat split; auto. }
      destruct (emit [] p) as [|c cs] eqn:Em; [exfalso; now apply (emit_first p)|].
      destruct (write_after w p) as (W1 & W2). destruct (write_after (with_hdr (g_w g) h) c) as (V1 & V2).
      split; [|split; [exact B|split; [|split]]].
      + cbn [fold_left]. eapply sim_trans; [apply sim_sym, writes_again; assumption|]. now apply sim_write.
      + rewrite writes_body. cbn [with_hdr h_body]. rewrite C. cbn [emitted List.app]. rewrite Em, !app_nil_r. reflexivity.
      + rewrite write_body_, D. cbn. now rewrite !app_nil_r.
      + split; [discriminate|auto].
  Qed.
  Lemma inv_ops b0 os : forall g w, inv b0 g w -> inv b0 (fold_left g_op os g) (run_rops w os).
  Proof using emit_first.
    induction os as [|o os IH]; intros g w H; [exact H|]. cbn [fold_left]. unfold run_rops. cbn [fold_left]. apply IH.
    destruct o; [apply inv_other; [discriminate|exact H]|apply inv_other; [discriminate|exact H]|now apply inv_write|apply inv_other; [discriminate|exact H]].
  Qed.
  Lemma plain_body os : forall w, h_body (run_rops w os) = h_body w ++ written os.
  Proof using Type.
    induction os as [|o os IH]; intros w; [cbn; now rewrite app_nil_r|]. unfold run_rops. cbn [fold_left]. fold (run_rops (run_rop w o) os).
    rewrite IH. destruct o; cbn [written]; try (rewrite below_body by discriminate; reflexivity). cbn [run_rop]. now rewrite write_body_, <- app_assoc.
  Qed.
  Lemma created os : forall g, writes os \/ g_writes g <> None -> g_writes (fold_left g_op os g) <> None.
  Proof using Type.
    induction os as [|o os IH]; intros g [H|H]; cbn [fold_left]; [destruct H as (b & [])|exact H| |].
    - destruct H as (b & [->|H]).
      + apply IH. right. cbn. unfold GzipModel.g_write. destruct (g_writes g) as [ps|] eqn:G; [destruct (g_closed g); cbn; congruence|discriminate].
      + apply IH. left. exists b. exact H.
    - apply IH. right. destruct o; cbn; try exact H. unfold GzipModel.g_write. destruct (g_writes g) as [ps|] eqn:G; [destruct (g_closed g); cbn; congruence|discriminate].
  Qed.
  Lemma start_inv w : inv (h_body w) (start w) w.
  Proof using Type.
    unfold inv, start, ps_of. cbn [g_w g_writes g_closed with_hdr h_body emitted List.concat]. rewrite !app_nil_r. repeat split; auto.
    - intros k N. unfold with_hdr. cbn [h_hdr]. unfold hset.
      assert (K1 : k <> h_encoding) by (intros ->; apply N; unfold gz_field; cbn; auto).
      assert (K2 : k <> h_vary) by (intros ->; apply N; unfold gz_field; cbn; auto).
      now rewrite !aget_aset_other by congruence.
    - unfold with_hdr. cbn [h_sent]. destruct (h_sent w) as [(s & h)|]; cbn; [|exact I]. split; [reflexivity|]. intros k _. reflexivity.
  Qed.
  Lemma finish_body w : h_body (finish w) = h_body w.
  Proof using Type. unfold finish. now rewrite write_body_, app_nil_r. Qed.

  (** C92 (partial). For a request that accepts gzip and a chain that writes
      something (in any pieces, with any header changes, hooks, status and flush
      calls between), the response below the filter is the one of the same chain
      without the filter, with status and all fields but the filter's own the
      same, and with a body that decompresses to exactly what was written.
      Missing: chains that write nothing. *)
  Theorem C92_transparent_partial accept w os :
    h_body w = [] -> accepts accept = true -> writes os ->
    let z := finish (g_w (gzip_all accept w os)) in
    let p := finish (run_rops w os) in
    (exists s h h', h_sent z = Some (s, h) /\ h_sent p = Some (s, h') /\ same_hdr h h') /\
    h_body p = written os /\ gunzip (h_body z) = Some (written os).
  Proof using emit_first gunzip_all.
    intros B0 Acc W. cbv zeta. unfold GzipModel.gzip_all. rewrite Acc.
    pose proof (inv_ops (h_body w) os (start w) w (start_inv w)) as (A & B & C & D & E).
    pose proof (created os (start w) (or_introl W)) as Cr.
    set (g := fold_left g_op os (start w)) in *. unfold g_close. rewrite B. unfold ps_of in *.
    destruct (g_writes g) as [ps|]; [|congruence]. destruct E as (E1 & E2 & E3). cbn [g_w].
    assert (S2 : sim (finish (fold_left hwrite (tail ps) (g_w g))) (finish (run_rops w os))).
    { apply sim_write. eapply sim_trans; [apply sim_sym, writes_again|exact A].
      - destruct A as (_ & _ & _ & A & _). congruence.
      - destruct A as (_ & _ & _ & _ & A). destruct (h_sent (g_w g)) as [(s & h)|], (h_sent (run_rops w os)) as [(s' & h')|]; cbn in A; try contradiction; congruence. }
    split; [|split].
    - destruct S2 as (_ & _ & _ & _ & S2). destruct (write_after (run_rops w os) []) as (_ & W2). fold (finish (run_rops w os)) in W2.
      destruct (h_sent (finish (fold_left hwrite (tail ps) (g_w g)))) as [(s & h)|], (h_sent (finish (run_rops w os))) as [(s' & h')|]; cbn in S2; try contradiction; try congruence.
      destruct S2 as (-> & S2). exists s', h, h'. auto.
    - rewrite finish_body, plain_body, B0. reflexivity.
    - rewrite finish_body, writes_body, C, B0. cbn [List.app]. rewrite <- concat_app.
      destruct ps as [|q ps]; [congruence|]. rewrite gunzip_all. f_equal. rewrite plain_body in D. apply app_inv_head in D. congruence.
  Qed.
  (** requests that do not accept gzip are left alone *)
  Theorem C92_not_accepted accept w os : accepts accept = false -> g_w (gzip_all accept w os) = run_rops w os.
  Proof using Type. intros H. unfold GzipModel.gzip_all. now rewrite H. Qed.
  (** C92 (refutation). A chain that writes nothing (a redirect, a 404 without
      body) is labelled gzip, but an empty body is not a gzip stream. *)
  Theorem C92_empty_refuted : ~ (forall accept w os, h_body w = [] -> accepts accept = true ->
    let z := finish (g_w (gzip_all accept w os)) in
    exists s h, h_sent z = Some (s, h) /\ (aget h (bs "Content-Encoding") = Some [bs "gzip"] -> gunzip (h_body z) = Some (written os))).
  Proof using gunzip_empty.
    intros H. destruct (H (bs "gzip") hw0 [RStep (SStatus 404)] eq_refl eq_refl) as (s & h & E & K).
    cbn in E. injection E as <- <-. specialize (K eq_refl). cbn in K. congruence.
  Qed.

  (** *** C132: the label *)
  Lemma hook_field k ss : forall v, steps_leave k ss -> aget (h_hdr (run_hook v ss)) k = aget (h_hdr v) k.
  Proof using Type.
    induction ss as [|s ss IH]; intros v H; [reflexivity|]. unfold run_hook. cbn [fold_left]. fold (run_hook (run_hstep v s) ss).
    rewrite IH by (intros x Hx; apply H; now right).
    assert (K := H s (or_introl eq_refl)). destruct s as [k' x|k' x|k'|z]; cbn [run_hstep with_hdr h_hdr].
    - unfold hset. now rewrite aget_aset_other by congruence.
    - unfold hadd. now rewrite aget_aset_other by congruence.
    - unfold hdel. now rewrite aget_adel_other by congruence.
    - now destruct (z =? 0).
  Qed.
  Lemma hooks_field k ks : forall v, hooks_leave k ks -> aget (h_hdr (fold_left run_hook ks v)) k = aget (h_hdr v) k.
  Proof using Type.
    induction ks as [|ss ks IH]; intros v H; [reflexivity|]. cbn [fold_left]. rewrite IH by (intros x Hx; apply H; now right).
    apply hook_field. apply H. now left.
  Qed.
  (** a field with value [v] in the header map and, if the header left, in it *)
  Definition field_is (k : bytes) (x : option (list bytes)) (w : hw) : Prop :=
    aget (h_hdr w) k = x /\ hooks_leave k (h_hooks w) /\ forall s h, h_sent w = Some (s, h) -> aget h k = x.
  Lemma field_sent k x w z : field_is k x w -> field_is k x (with_sent w z).
  Proof using Type.
    intros (A & B & C). unfold with_sent. destruct (h_sent w) eqn:E; [repeat split; auto|].
    - intros s h K. apply (C s h). congruence.
    - repeat split; auto. cbn. intros s h [= <- <-]. exact A.
  Qed.
  Lemma hook_keeps k : forall w, h_hooks (run_hook w k) = h_hooks w /\ h_sent (run_hook w k) = h_sent w.
  Proof using Type.
    induction k as [|s k IH]; intros w; [auto|]. unfold run_hook. cbn [fold_left]. fold (run_hook (run_hstep w s) k).
    destruct (IH (run_hstep w s)) as (A & B). destruct (hstep_rest w s) as (_ & C & _ & D). rewrite A, B. auto.
  Qed.
  Lemma hooks_keep ks : forall w, h_hooks (fold_left run_hook ks w) = h_hooks w /\ h_sent (fold_left run_hook ks w) = h_sent w.
  Proof using Type.
    induction ks as [|k ks IH]; intros w; [auto|]. cbn [fold_left]. destruct (IH (run_hook w k)) as (A & B).
    destruct (hook_keeps k w) as (C & D). rewrite A, B. auto.
  Qed.
  Lemma field_fire k x w : field_is k x w -> field_is k x (fire w).
  Proof using Type.
    intros (A & B & C). unfold fire.
    assert (F : field_is k x (call_before (with_once w))).
    { unfold call_before. cbn [with_once h_hooks]. destruct (hooks_keep (rev (h_hooks w)) (with_once w)) as (H1 & H2).
      split; [|split].
      - rewrite hooks_field; [exact A|]. intros ss Hs. apply B. now apply in_rev.
      - rewrite H1. exact B.
      - rewrite H2. exact C. }
    apply field_sent. destruct (h_status (call_before (with_once w)) =? 0); exact F.
  Qed.
  Lemma field_write k x w b : field_is k x w -> field_is k x (hwrite w b).
  Proof using Type.
    intros F. unfold hwrite. assert (G : field_is k x (with_sent (if h_once w then w else fire w) 200)).
    { apply field_sent. destruct (h_once w); [exact F|now apply field_fire]. }
    exact G.
  Qed.
  Lemma field_writes k x l : forall w, field_is k x w -> field_is k x (fold_left hwrite l w).
  Proof using Type. induction l as [|b l IH]; intros w F; [exact F|]. apply IH. now apply field_write. Qed.
  Lemma field_rop k x w o : leave k [o] -> field_is k x w -> field_is k x (run_rop w o).
  Proof using Type.
    intros L F. specialize (L o (or_introl eq_refl)). destruct o as [s|ss|b|]; cbn [run_rop].
    - destruct F as (A & B & C). destruct (hstep_rest w s) as (_ & H2 & _ & H4). split; [|split].
      + rewrite <- A. apply (hook_field k [s] w L).
      + now rewrite H4.
      + now rewrite H2.
    - destruct F as (A & B & C). split; [exact A|split; [|exact C]]. cbn. intros y Hy. apply in_app_or in Hy. destruct Hy as [Hy|[<-|[]]]; auto.
    - now apply field_write.
    - now apply field_sent.
  Qed.
  (** C132. A response the filter compresses is labelled: exactly
      one Content-Encoding, gzip, and Vary: Accept-Encoding, if the chain leaves
      those fields alone. *)
  Lemma field_gop k x g o : (k = h_encoding \/ k = h_vary) -> leave k [o] -> field_is k x (g_w g) -> field_is k x (g_w (g_op g o)).
  Proof using Type.
    intros K L F. destruct o as [s|ss|b|]; try (apply (field_rop k x (g_w g) _ L F)).
    cbn. unfold GzipModel.g_write. destruct (g_writes g) as [ps|].
    - destruct (g_closed g); [exact F|]. cbn [g_w]. now apply field_writes.
    - cbn [g_w]. apply field_writes. destruct F as (A & B & C). split; [|split; auto]. cbn [with_hdr h_hdr]. unfold hset, hdel.
      assert (K1 : k <> h_type) by (destruct K; subst; discriminate).
      assert (K2 : k <> h_length) by (destruct K; subst; discriminate).
      destruct (is_nil _); [rewrite aget_aset_other by congruence|]; now rewrite aget_adel_other by congruence.
  Qed.
  Lemma field_gops k x os : forall g, (k = h_encoding \/ k = h_vary) -> leave k os -> field_is k x (g_w g) -> field_is k x (g_w (fold_left g_op os g)).
  Proof using Type.
    induction os as [|o os IH]; intros g K L F; [exact F|]. cbn [fold_left]. apply IH; [exact K|intros y Hy; apply L; now right|].
    apply field_gop; [exact K| |exact F]. intros y [<-|[]]. apply L. now left.
  Qed.
  Theorem C132_labelled accept w os k v :
    (k = bs "Content-Encoding" /\ v = bs "gzip") \/ (k = bs "Vary" /\ v = bs "Accept-Encoding") ->
    accepts accept = true -> h_sent w = None -> hooks_leave k (h_hooks w) -> leave k os ->
    exists s h, h_sent (finish (g_w (gzip_all accept w os))) = Some (s, h) /\ aget h k = Some [v].
  Proof using Type.
    change (bs "Content-Encoding") with h_encoding. change (bs "Vary") with h_vary. change (bs "Accept-Encoding") with h_accept. intros K Acc S H L. unfold GzipModel.gzip_all. rewrite Acc.
    assert (F0 : field_is k (Some [v]) (g_w (start w))).
    { split; [|split; [exact H|cbn; rewrite S; discriminate]].
      unfold start, with_hdr. cbn [g_w h_hdr]. unfold hset. destruct K as [(-> & ->)|(-> & ->)].
      - rewrite aget_aset_other by discriminate. apply aget_aset_same.
      - apply aget_aset_same. }
    assert (F1 : field_is k (Some [v]) (g_w (fold_left g_op os (start w)))) by (apply field_gops; auto; destruct K as [(-> & _)|(-> & _)]; auto).
    set (g := fold_left g_op os (start w)) in *.
    assert (F2 : field_is k (Some [v]) (g_w (g_close tail g))).
    { unfold g_close. destruct (g_writes g); [|exact F1]. destruct (g_closed g); [exact F1|]. cbn [g_w]. now apply field_writes. }
    assert (F3 : field_is k (Some [v]) (finish (g_w (g_close tail g)))) by now apply field_write.
    destruct (write_after (g_w (g_close tail g)) []) as (_ & N). fold (finish (g_w (g_close tail g))) in N.
    destruct (h_sent (finish (g_w (g_close tail g)))) as [(s & h)|] eqn:E; [|congruence].
    exists s, h. split; [reflexivity|]. destruct F3 as (_ & _ & F3). eapply F3. exact E.
  Qed.


  (** the header block, once sent, stays *)
  Lemma sent_hstep w s x : h_sent w = Some x -> h_sent (run_hstep w s) = Some x.
  Proof using Type. intros H. destruct (hstep_rest w s) as (_ & E & _). congruence. Qed.
  Lemma sent_write w b x : h_sent w = Some x -> h_sent (hwrite w b) = Some x.
  Proof using Type.
    intros H. unfold hwrite. assert (F : h_sent (if h_once w then w else fire w) = Some x).
    { destruct (h_once w); [exact H|]. unfold fire.
      assert (C : h_sent (call_before (with_once w)) = Some x) by (unfold call_before; destruct (hooks_keep (rev (h_hooks (with_once w))) (with_once w)) as (_ & E); rewrite E; exact H).
      set (v := call_before (with_once w)) in *. unfold with_sent. destruct (h_status v =? 0); cbn [with_status h_sent]; rewrite C; exact C. }
    set (v := if h_once w then w else fire w) in *. unfold with_sent. rewrite F. exact F.
  Qed.
  Lemma sent_writes l : forall w x, h_sent w = Some x -> h_sent (fold_left hwrite l w) = Some x.
  Proof using Type. induction l as [|b l IH]; intros w x H; [exact H|]. apply IH. now apply sent_write. Qed.
  Lemma sent_gop g o x : h_sent (g_w g) = Some x -> h_sent (g_w (g_op g o)) = Some x.
  Proof using Type.
    intros H. destruct o as [s|ss|b|]; cbn.
    - now apply sent_hstep.
    - exact H.
    - unfold GzipModel.g_write. destruct (g_writes g) as [ps|]; [destruct (g_closed g); [exact H|]|]; cbn [g_w]; now apply sent_writes.
    - unfold hflush, with_sent. rewrite H. exact H.
  Qed.
  Lemma sent_gops os : forall g x, h_sent (g_w g) = Some x -> h_sent (g_w (fold_left g_op os g)) = Some x.
  Proof using Type. induction os as [|o os IH]; intros g x H; [exact H|]. apply IH. now apply sent_gop. Qed.
  (** handlers before the first write: headers, status, hooks *)
  Definition quiet_pre (os : list rop) : Prop := forall o, In o os -> match o with RStep _ | RBefore _ => True | _ => False end.
  Definition pre_hooks (os : list rop) : list hook := flat_map (fun o => match o with RBefore ss => [ss] | _ => [] end) os.
  Lemma pre_state os : forall g, quiet_pre os -> h_sent (g_w g) = None -> g_writes g = None -> h_once (g_w g) = false ->
    let g' := fold_left g_op os g in
    h_sent (g_w g') = None /\ g_writes g' = None /\ h_once (g_w g') = false /\ h_hooks (g_w g') = h_hooks (g_w g) ++ pre_hooks os.
  Proof using Type.
    induction os as [|o os IH]; intros g Q A B C; [cbn; rewrite app_nil_r; auto|]. cbn [fold_left pre_hooks flat_map].
    specialize (IH (g_op g o)). pose proof (Q o (or_introl eq_refl)) as Qo.
    destruct o as [s|ss|b|]; try contradiction; cbn in IH |- *.
    - destruct (hstep_rest (g_w g) s) as (H1 & H2 & _ & H4). rewrite H1, H2, H4 in IH.
      apply IH; auto. intros y Hy. apply Q. now right.
    - destruct IH as (I1 & I2 & I3 & I4); auto; [intros y Hy; apply Q; now right|]. repeat split; auto. rewrite I4, <- app_assoc. reflexivity.
  Qed.
  (** the length of the uncompressed body is never sent with a compressed one, if
      nothing was flushed before the first write and no hook sets it *)
  Theorem C132_no_length accept w pre b post :
    accepts accept = true -> h_sent w = None -> h_once w = false -> quiet_pre pre ->
    hooks_leave (bs "Content-Length") (h_hooks w ++ pre_hooks pre) ->
    exists s h, h_sent (finish (g_w (gzip_all accept w (pre ++ RWrite b :: post)))) = Some (s, h) /\ aget h (bs "Content-Length") = None.
  Proof using emit_first.
    change (bs "Content-Length") with h_length.
    intros Acc S O Q L. unfold GzipModel.gzip_all. rewrite Acc, fold_left_app. cbn [fold_left].
    destruct (pre_state pre (start w) Q S eq_refl O) as (A & B & C & D). set (g := fold_left g_op pre (start w)) in *.
    assert (W : exists s h, h_sent (g_w (g_op g (RWrite b))) = Some (s, h) /\ aget h h_length = None).
    { unfold GzipModel.g_op, GzipModel.g_write. rewrite B. cbn [g_w].
      set (h := if is_nil (hget (hdel (h_hdr (g_w g)) h_length) h_type) then hset (hdel (h_hdr (g_w g)) h_length) h_type (detect b) else hdel (h_hdr (g_w g)) h_length).
      assert (F : field_is h_length None (with_hdr (g_w g) h)).
      { split; [|split].
        - unfold h, hset, hdel. unfold with_hdr. cbn [h_hdr]. destruct (is_nil _); [rewrite aget_aset_other by discriminate|]; apply aget_adel_same.
        - change (h_hooks (with_hdr (g_w g) h)) with (h_hooks (g_w g)). rewrite D. exact L.
        - unfold with_hdr. cbn [h_sent]. rewrite A. discriminate. }
      destruct (emit [] b) as [|c cs] eqn:Em; [exfalso; now apply (emit_first b)|]. cbn [fold_left].
      destruct (write_after (with_hdr (g_w g) h) c) as (_ & N). pose proof (field_write _ _ _ c F) as (_ & _ & F3).
      destruct (h_sent (hwrite (with_hdr (g_w g) h) c)) as [(s & h')|] eqn:E; [|congruence].
      exists s, h'. split; [now apply sent_writes|]. now apply (F3 s h'). }
    destruct W as (s & h & W & N). exists s, h. split; [|exact N].
    apply sent_write. set (g2 := fold_left g_op post (g_op g (RWrite b))).
    assert (W2 : h_sent (g_w g2) = Some (s, h)) by now apply sent_gops.
    unfold g_close. destruct (g_writes g2); [|exact W2]. destruct (g_closed g2); [exact W2|]. cbn [g_w]. now apply sent_writes.
  Qed.

  (** the content type is the one the handlers set before the first write, and
      detected from the uncompressed first write otherwise *)
  Theorem C132_type accept w pre b post :
    accepts accept = true -> h_sent w = None -> h_once w = false -> quiet_pre pre ->
    hooks_leave (bs "Content-Type") (h_hooks w ++ pre_hooks pre) ->
    let before := h_hdr (g_w (fold_left g_op pre (start w))) in
    exists s h, h_sent (finish (g_w (gzip_all accept w (pre ++ RWrite b :: post)))) = Some (s, h) /\
      (hget before (bs "Content-Type") <> [] -> aget h (bs "Content-Type") = aget before (bs "Content-Type")) /\
      (hget before (bs "Content-Type") = [] -> aget h (bs "Content-Type") = Some [detect b]).
  Proof using emit_first.
    change (bs "Content-Type") with h_type.
    intros Acc S O Q L. cbv zeta. unfold GzipModel.gzip_all. rewrite Acc, fold_left_app. cbn [fold_left].
    destruct (pre_state pre (start w) Q S eq_refl O) as (A & B & C & D). set (g := fold_left g_op pre (start w)) in *.
    assert (HG : hget (hdel (h_hdr (g_w g)) h_length) h_type = hget (h_hdr (g_w g)) h_type).
    { unfold hget, hdel. now rewrite aget_adel_other by discriminate. }
    assert (W : exists s h, h_sent (g_w (g_op g (RWrite b))) = Some (s, h) /\
      aget h h_type = (if is_nil (hget (h_hdr (g_w g)) h_type) then Some [detect b] else aget (h_hdr (g_w g)) h_type)).
    { unfold GzipModel.g_op, GzipModel.g_write. rewrite B. cbn [g_w]. rewrite HG.
      set (h := if is_nil (hget (h_hdr (g_w g)) h_type) then hset (hdel (h_hdr (g_w g)) h_length) h_type (detect b) else hdel (h_hdr (g_w g)) h_length).
      assert (F : field_is h_type (if is_nil (hget (h_hdr (g_w g)) h_type) then Some [detect b] else aget (h_hdr (g_w g)) h_type) (with_hdr (g_w g) h)).
      { split; [|split].
        - unfold h, hset, hdel, with_hdr. cbn [h_hdr]. destruct (is_nil (hget (h_hdr (g_w g)) h_type)); [apply aget_aset_same|]. now rewrite aget_adel_other by discriminate.
        - change (h_hooks (with_hdr (g_w g) h)) with (h_hooks (g_w g)). rewrite D. exact L.
        - unfold with_hdr. cbn [h_sent]. rewrite A. discriminate. }
      destruct (emit [] b) as [|c cs] eqn:Em; [exfalso; now apply (emit_first b)|]. cbn [fold_left].
      destruct (write_after (with_hdr (g_w g) h) c) as (_ & N). pose proof (field_write _ _ _ c F) as (_ & _ & F3).
      destruct (h_sent (hwrite (with_hdr (g_w g) h) c)) as [(s & h')|] eqn:E; [|congruence].
      exists s, h'. split; [now apply sent_writes|]. now apply (F3 s h'). }
    destruct W as (s & h & W & N). exists s, h. split.
    - apply sent_write. set (g2 := fold_left g_op post (g_op g (RWrite b))).
      assert (W2 : h_sent (g_w g2) = Some (s, h)) by now apply sent_gops.
      unfold g_close. destruct (g_writes g2); [|exact W2]. destruct (g_closed g2); [exact W2|]. cbn [g_w]. now apply sent_writes.
    - rewrite N. destruct (hget (h_hdr (g_w g)) h_type); cbn [is_nil]; split; intros K; auto; congruence.
  Qed.

  (** *** C133: who accepts gzip *)
  (** C133, exactly: the filter compresses if and only if "gzip" occurs
      anywhere in Accept-Encoding. *)
  Theorem C133_accepts_exact accept : accepts accept = true <-> exists a b, accept = a ++ bs "gzip" ++ b.
  Proof using Type. unfold accepts. apply contains_spec. Qed.
  (** C133 (refutation). A client that refuses gzip by a zero quality gets it. *)
  Definition refuses (accept : bytes) : Prop := In (bs "gzip;q=0") (split_byte ","%char accept).
  Theorem C133_refused_refuted : ~ (forall accept, refuses accept -> accepts accept = false).
  Proof using Type. intros H. specialize (H (bs "gzip;q=0,identity") ltac:(now left)). discriminate H. Qed.

  (** *** C134: what outer filters write *)
  (** C134 (refutation). What an outer filter writes after the chain, for example
      the recovery page after a panic before the first write, goes through a
      compressor nobody closes: the client gets an incomplete stream. *)
  Theorem C134_outer_writes_refuted : forall accept w page, accepts accept = true -> h_body w = [] ->
    let g := later emit detect accept (gzip_all accept w []) [RWrite page] in
    gunzip (h_body (finish (g_w g))) = None.
  Proof using gunzip_cut.
    intros accept w page Acc B0. cbv zeta. unfold later, GzipModel.gzip_all. rewrite Acc. cbn [fold_left g_close start g_writes].
    unfold GzipModel.g_op, GzipModel.g_write, g_close, start. cbn [g_writes g_w]. rewrite finish_body, writes_body. cbn [with_hdr h_body].
    rewrite B0. cbn [List.app]. pose proof (gunzip_cut page []) as K. cbn [emitted] in K. rewrite app_nil_r in K. exact K.
  Qed.
  (** ... and after the chain has written, what outer filters write is dropped *)
  Theorem C134_outer_dropped accept w os page : accepts accept = true -> writes os ->
    g_w (later emit detect accept (gzip_all accept w os) [RWrite page]) = g_w (gzip_all accept w os).
  Proof using Type.
    intros Acc W. unfold later, GzipModel.gzip_all. rewrite Acc. cbn [fold_left].
    pose proof (created os (start w) (or_introl W)) as Cr. set (g := fold_left g_op os (start w)) in *.
    unfold GzipModel.g_op, GzipModel.g_write, g_close. destruct (g_writes g) as [ps|] eqn:G; [|congruence].
    destruct (g_closed g) eqn:C; cbn [g_writes g_closed g_w]; [rewrite G, C; reflexivity|reflexivity].
  Qed.
  (** *** Exact forms *)
  Lemma writes_dec os : writes os \/ ~ writes os.
  Proof using Type.
    induction os as [|o os [(b & IH)|IH]]; [right; intros (b & [])|left; exists b; now right|].
    destruct o.
    - right. intros (b' & [K|K]); [discriminate K|apply IH; exists b'; exact K].
    - right. intros (b' & [K|K]); [discriminate K|apply IH; exists b'; exact K].
    - left. exists b. now left.
    - right. intros (b' & [K|K]); [discriminate K|apply IH; exists b'; exact K].
  Qed.
  Lemma no_writes_step g o : ~ writes [o] -> g_writes (g_op g o) = g_writes g /\ g_closed (g_op g o) = g_closed g /\ h_body (g_w (g_op g o)) = h_body (g_w g).
  Proof using Type.
    intros N. assert (K : forall b, o <> RWrite b) by (intros b ->; apply N; exists b; now left).
    destruct o; try (exfalso; eapply K; reflexivity); cbn [GzipModel.g_op below g_writes g_closed g_w]; repeat split; apply below_body; discriminate.
  Qed.
  Lemma no_writes os : forall g, ~ writes os ->
    g_writes (fold_left g_op os g) = g_writes g /\ g_closed (fold_left g_op os g) = g_closed g /\ h_body (g_w (fold_left g_op os g)) = h_body (g_w g).
  Proof using Type.
    induction os as [|o os IH]; intros g N; [auto|]. cbn [fold_left].
    destruct (no_writes_step g o) as (A & B & C); [intros (b & [->|[]]); apply N; exists b; now left|].
    destruct (IH (g_op g o)) as (A' & B' & C'); [intros (b & I); apply N; exists b; now right|].
    now rewrite A', B', C'.
  Qed.
  Lemma no_writes_written os : ~ writes os -> written os = [].
  Proof using Type.
    induction os as [|o os IH]; intros N; [reflexivity|]. assert (K : ~ writes os) by (intros (b & I); apply N; exists b; now right).
    destruct o; cbn [written]; auto. exfalso. apply N. exists b. now left.
  Qed.
  (** C92, exactly. For every request that accepts gzip and every chain: status and
      all fields but the filter's own are those of the chain without the filter;
      the body decompresses to what was written exactly if something was written
      (if only an empty string), and otherwise it is empty. *)
  Theorem C92_exact accept w os :
    h_body w = [] -> accepts accept = true ->
    let z := finish (g_w (gzip_all accept w os)) in
    let p := finish (run_rops w os) in
    (exists s h h', h_sent z = Some (s, h) /\ h_sent p = Some (s, h') /\ same_hdr h h') /\
    h_body p = written os /\ (gunzip (h_body z) = Some (written os) <-> writes os) /\ (~ writes os -> h_body z = []).
  Proof using emit_first gunzip_all gunzip_empty.
    intros B0 Acc. cbv zeta. destruct (writes_dec os) as [W|W].
    - destruct (C92_transparent_partial accept w os B0 Acc W) as (A & B & C). repeat split; auto; intros; contradiction.
    - unfold GzipModel.gzip_all. rewrite Acc.
      pose proof (inv_ops (h_body w) os (start w) w (start_inv w)) as (A & _).
      destruct (no_writes os (start w) W) as (N1 & N2 & N3). set (g := fold_left g_op os (start w)) in *.
      unfold g_close. rewrite N1. cbn [start g_writes].
      assert (E : h_body (finish (g_w g)) = []) by (rewrite finish_body, N3; exact B0).
      split; [|split; [|split]].
      + assert (S2 : sim (finish (g_w g)) (finish (run_rops w os))) by now apply sim_write.
        destruct S2 as (_ & _ & _ & _ & S2). destruct (write_after (run_rops w os) []) as (_ & W2). fold (finish (run_rops w os)) in W2.
        destruct (h_sent (finish (g_w g))) as [(s & h)|], (h_sent (finish (run_rops w os))) as [(s' & h')|]; cbn in S2; try contradiction; try congruence.
        destruct S2 as (-> & S2). exists s', h, h'. auto.
      + rewrite finish_body, plain_body, B0. reflexivity.
      + rewrite E, gunzip_empty. split; [discriminate|contradiction].
      + intros _. exact E.
  Qed.
  (** C134, exactly. What outer filters do with the writer after the gzip filter has
      returned ([ls]): without compression it reaches the client; with it, the
      body does not change if the chain wrote anything, and otherwise the client
      gets a stream that does not decompress (or nothing, if nothing is written
      again). *)
  Lemma closed_drops ls : forall g ps, g_writes g = Some ps -> g_closed g = true -> h_body (g_w (fold_left g_op ls g)) = h_body (g_w g).
  Proof using Type.
    induction ls as [|o ls IH]; intros g ps A B; [reflexivity|]. cbn [fold_left].
    destruct o; try (rewrite (IH _ ps) by assumption; cbn [GzipModel.g_op below g_w]; apply below_body; discriminate).
    assert (E : g_op g (RWrite b) = g) by (cbn [GzipModel.g_op]; unfold GzipModel.g_write; now rewrite A, B).
    rewrite E. now apply (IH g ps).
  Qed.
  Lemma inv_body b0 ls : forall g, g_closed g = false -> h_body (g_w g) = b0 ++ List.concat (emitted [] (ps_of g)) ->
    let g' := fold_left g_op ls g in
    g_closed g' = false /\ h_body (g_w g') = b0 ++ List.concat (emitted [] (ps_of g')).
  Proof using emit_first.
    induction ls as [|o ls IH]; intros g A B; [auto|]. cbn [fold_left]. apply IH.
    - destruct o; cbn [GzipModel.g_op below g_closed]; auto. unfold GzipModel.g_write. destruct (g_writes g); [rewrite A; reflexivity|exact A].
    - destruct o; cbn [GzipModel.g_op]; try (cbn [below g_w]; unfold ps_of; cbn [below g_writes]; fold (ps_of g); rewrite below_body by discriminate; exact B).
      unfold GzipModel.g_write. unfold ps_of in *. destruct (g_writes g) as [ps|].
      + rewrite A. cbn [g_w g_writes]. rewrite writes_body, B, emitted_app, concat_app, <- app_assoc. reflexivity.
      + cbn [g_w g_writes]. rewrite writes_body. cbn [with_hdr h_body]. rewrite B. cbn [emitted List.app]. now rewrite !app_nil_r.
  Qed.
  Lemma kept_nonempty ls : forall g, ps_of g <> [] -> ps_of (fold_left g_op ls g) <> [].
  Proof using Type.
    induction ls as [|o ls IH]; intros g H; [exact H|]. apply IH. destruct o; cbn [GzipModel.g_op below]; try exact H.
    unfold GzipModel.g_write, ps_of in *. destruct (g_writes g) as [ps|] eqn:G; [|discriminate].
    destruct (g_closed g); [rewrite G; exact H|]. cbn [g_writes]. destruct ps; discriminate.
  Qed.
  Lemma writes_nonempty ls : forall g, (g_writes g = None \/ ps_of g <> []) -> writes ls -> ps_of (fold_left g_op ls g) <> [].
  Proof using Type.
    induction ls as [|o ls IH]; intros g H (b & W); [destruct W|]. cbn [fold_left]. destruct W as [->|W].
    - apply kept_nonempty. cbn [GzipModel.g_op]. unfold GzipModel.g_write. destruct (g_writes g) as [ps|] eqn:G; [|discriminate].
      destruct H as [H|H]; [discriminate H|]. destruct (g_closed g); [exact H|]. unfold ps_of. cbn [g_writes]. destruct ps; discriminate.
    - apply IH; [|exists b; exact W]. destruct o; cbn [GzipModel.g_op below]; try exact H.
      right. unfold GzipModel.g_write. destruct (g_writes g) as [ps|] eqn:G; [|discriminate].
      destruct H as [H|H]; [discriminate H|]. destruct (g_closed g); [exact H|]. unfold ps_of. cbn [g_writes]. destruct ps; discriminate.
  Qed.
  Theorem C134_outer_exact accept w os ls :
    h_body w = [] ->
    let g := gzip_all accept w os in
    let l := later emit detect accept g ls in
    (accepts accept = false -> g_w l = run_rops w (os ++ ls)) /\
    (accepts accept = true -> writes os -> h_body (finish (g_w l)) = h_body (finish (g_w g))) /\
    (accepts accept = true -> ~ writes os -> writes ls -> gunzip (h_body (finish (g_w l))) = None) /\
    (accepts accept = true -> ~ writes os -> ~ writes ls -> h_body (finish (g_w l)) = []).
  Proof using emit_first gunzip_cut.
    intros B0. cbv zeta. unfold later, GzipModel.gzip_all. destruct (accepts accept); [|repeat split; try discriminate].
    2:{ intros _. cbn [below g_w]. unfold run_rops. now rewrite fold_left_app. }
    split; [discriminate|]. rewrite !finish_body. split; [|split]; intros _.
    - intros W. pose proof (created os (start w) (or_introl W)) as Cr.
      destruct (inv_ops (h_body w) os (start w) w (start_inv w)) as (_ & B & _). set (g := fold_left g_op os (start w)) in *.
      unfold g_close. destruct (g_writes g) as [ps|] eqn:G; [|congruence]. rewrite B.
      now rewrite (closed_drops ls _ ps) by reflexivity.
    - intros N W. destruct (no_writes os (start w) N) as (N1 & N2 & N3). set (g := fold_left g_op os (start w)) in *.
      unfold g_close. rewrite N1. cbn [start g_writes].
      assert (I1 : g_closed g = false) by (rewrite N2; reflexivity).
      assert (I2 : h_body (g_w g) = [] ++ List.concat (emitted [] (ps_of g))).
      { unfold ps_of. rewrite N1, N3. cbn. exact B0. }
      destruct (inv_body [] ls g I1 I2) as (J1 & J2). rewrite J2.
      pose proof (created ls g (or_introl W)) as Cr.
      assert (NE : ps_of (fold_left g_op ls g) <> []) by (apply writes_nonempty; [left; rewrite N1; reflexivity|exact W]).
      destruct (ps_of (fold_left g_op ls g)) as [|q qs]; [congruence|]. apply gunzip_cut.
    - intros N1 N2. destruct (no_writes os (start w) N1) as (A1 & A2 & A3). set (g := fold_left g_op os (start w)) in *.
      unfold g_close. rewrite A1. cbn [start g_writes]. destruct (no_writes ls g N2) as (_ & _ & C3). rewrite C3, A3. exact B0.
  Qed.
End Gzip.

(** *** Case: a toy compressor meets the hypotheses *)
(** "G", then "." before every byte, then "!" at the end *)
Definition toy_emit (ps : list bytes) (p : bytes) : list bytes :=
  [ (match ps with [] => bs "G" | _ => [] end) ++ flat_map (fun c => ["."%char; c]) p ].
Definition toy_tail (ps : list bytes) : list bytes := [bs "!"].
Fixpoint toy_body (s : bytes) : option bytes :=
  match s with
  | c :: r => if Ascii.eqb c "!" then match r with [] => Some [] | _ => None end
              else match r with
                   | d :: r => match toy_body r with Some b => Some (d :: b) | None => None end
                   | [] => None
                   end
  | [] => None
  end.
Definition toy_gunzip (s : bytes) : option bytes := match s with c :: r => if Ascii.eqb c "G" then toy_body r else None | [] => None end.
Lemma toy_emitted ps : forall bf, bf <> [] -> List.concat (emitted toy_emit bf ps) = flat_map (fun c => ["."%char; c]) (List.concat ps).
Proof.
  induction ps as [|p ps IH]; intros bf H; [reflexivity|]. cbn [emitted]. rewrite concat_app, IH by (destruct bf; discriminate).
  unfold toy_emit. destruct bf; [congruence|]. cbn [List.concat List.app]. rewrite app_nil_r. now rewrite flat_map_app.
Qed.
Lemma toy_all p ps : List.concat (emitted toy_emit [] (p :: ps)) = "G"%char :: flat_map (fun c => ["."%char; c]) (List.concat (p :: ps)).
Proof.
  cbn [emitted]. rewrite concat_app. unfold toy_emit at 1. cbn [List.concat]. rewrite app_nil_r.
  cbn [List.app]. rewrite toy_emitted by discriminate. rewrite flat_map_app. reflexivity.
Qed.
Lemma toy_decode b t : toy_body (flat_map (fun c => ["."%char; c]) b ++ t) = match toy_body t with Some r => Some (b ++ r) | None => None end.
Proof. induction b as [|c b IH]; [cbn; now destruct (toy_body t)|]. cbn. rewrite IH. now destruct (toy_body t). Qed.
Example C92_case :
  (forall p ps, toy_gunzip (List.concat (emitted toy_emit [] (p :: ps) ++ toy_tail (p :: ps))) = Some (List.concat (p :: ps))) /\
  (forall p, toy_emit [] p <> []) /\
  (forall p ps, toy_gunzip (List.concat (emitted toy_emit [] (p :: ps))) = None) /\
  toy_gunzip [] = None /\
  client (finish (g_w (gzip_all toy_emit toy_tail (fun _ => bs "text/plain") (bs "br, gzip") hw0
    [RStep (SSet h_length (bs "2")); RStep (SStatus 201); RWrite (bs "h"); RStep (SStatus 500); RWrite (bs "i")]))) =
  Some (201, [(bs "X-Powered-By", [bs "Teapot"]); (h_encoding, [bs "gzip"]); (h_vary, [h_accept]); (h_type, [bs "text/plain"])], bs "G.h.i!").
Proof.
  repeat split.
  - intros p ps. rewrite concat_app, toy_all. unfold toy_gunzip. cbn [List.app]. rewrite Ascii.eqb_refl. rewrite toy_decode. cbn. now rewrite app_nil_r.
  - discriminate.
  - intros p ps. rewrite toy_all. unfold toy_gunzip. rewrite Ascii.eqb_refl.
    pose proof (toy_decode (List.concat (p :: ps)) []) as K. rewrite app_nil_r in K. exact K.
Qed.

Print Assumptions C92_transparent_partial.
Print Assumptions C92_not_accepted.
Print Assumptions C92_empty_refuted.
Print Assumptions C132_labelled.
Print Assumptions C132_no_length.
Print Assumptions C133_accepts_exact.
Print Assumptions C133_refused_refuted.
Print Assumptions C134_outer_writes_refuted.
Print Assumptions C134_outer_dropped.
Print Assumptions C132_type.
Print Assumptions C92_exact.
Print Assumptions C134_outer_exact.
