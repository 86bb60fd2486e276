(** Props_ReqLog: C80, C81, C118-C121 -- request ids and the request logger of
    /repo/request-logger. *)
From Coq Require Import List Ascii String Bool Arith ZArith Lia.
Import ListNotations.
From Verif Require Import GoStr GoNum GoEnc RouterModel LogModel HeadModel ReqLogModel Props_Params Props_Config Props_Log.
Local Open Scope Z_scope.

(** *** Specification *)
Definition is_uint32 (x : Z) : Prop := 0 <= x < 2 ^ 32.
Definition is_int64 (x : Z) : Prop := - 2 ^ 63 <= x < 2 ^ 63.

(** *** C80, C118: the id text *)
Lemma le_bytes_length k : forall n, List.length (le_bytes k n) = k.
Proof. induction k as [|k IH]; intros n; [reflexivity|]. cbn [le_bytes List.length]. now rewrite IH. Qed.
Lemma byte_mod n : Z.of_nat (code (byte (Z.to_nat (n mod 256)))) = n mod 256.
Proof.
  assert (H : 0 <= n mod 256 < 256) by (apply Z.mod_pos_bound; lia).
  rewrite code_byte by lia. rewrite Z2Nat.id by lia. reflexivity.
Qed.
Lemma le_num_bytes k : forall n, 0 <= n < 256 ^ Z.of_nat k -> le_num (le_bytes k n) = n.
Proof.
  induction k as [|k IH]; intros n H.
  - cbn in *. lia.
  - cbn [le_bytes le_num]. rewrite byte_mod.
    rewrite IH.
    + pose proof (Z.div_mod n 256). lia.
    + rewrite Nat2Z.inj_succ, Z.pow_succ_r in H by lia. split.
      * apply Z.div_pos; lia.
      * apply Z.div_lt_upper_bound; lia.
Qed.

Lemma to_int64_uint64 x : is_int64 x -> to_int64 (to_uint64 x) = x.
Proof.
  unfold is_int64, to_int64, to_uint64. change (2 ^ 63) with 9223372036854775808. intros H.
  destruct (Z.ltb_spec (x mod 18446744073709551616) 9223372036854775808) as [L|L].
  - destruct (Z_lt_le_dec x 0) as [N|N].
    + exfalso. replace (x mod 18446744073709551616) with (x + 18446744073709551616) in L; [lia|].
      apply Z.mod_unique with (-1); lia.
    + apply Z.mod_small. lia.
  - destruct (Z_lt_le_dec x 0) as [N|N].
    + replace (x mod 18446744073709551616) with (x + 18446744073709551616); [lia|].
      apply Z.mod_unique with (-1); lia.
    + exfalso. rewrite Z.mod_small in L; lia.
Qed.

Lemma b64_decode_encode s : b64_decode (b64_encode s) = (s, true).
Proof. unfold b64_decode. rewrite b64_filter by apply b64_encode_bytes. apply b64_quanta_encode. Qed.

(** C80. An id made from any process number and any time decodes to exactly them. *)
Theorem C80_round_trip : forall rnd nano, is_uint32 rnd -> is_int64 nano ->
  decode_req_id (new_req_id rnd nano) = (rnd, nano).
Proof.
  intros rnd nano Hr Hn. unfold decode_req_id, new_req_id. rewrite b64_decode_encode.
  rewrite app_length, !le_bytes_length. cbn [negb orb Nat.add Nat.ltb Nat.leb].
  assert (A : forall u v : bytes, List.length u = 4%nat -> firstn 4 (u ++ v) = u /\ skipn 4 (u ++ v) = v)
    by (intros u v L; rewrite <- L; split; [apply firstn_app_len|apply skipn_app_len]).
  destruct (A (le_bytes 4 rnd) (le_bytes 8 (to_uint64 nano)) (le_bytes_length _ _)) as (-> & ->).
  assert (B : forall u : bytes, List.length u = 8%nat -> firstn 8 u = u) by (intros u L; rewrite <- L; apply firstn_all).
  rewrite (B _ (le_bytes_length _ _)).
  rewrite !le_num_bytes; [now rewrite to_int64_uint64| |].
  - unfold to_uint64. change (256 ^ Z.of_nat 8) with 18446744073709551616. apply Z.mod_pos_bound. lia.
  - exact Hr.
Qed.
Lemma code_byte_bound s : Forall (fun c => 0 <= Z.of_nat (code c) < 256) s.
Proof. apply Forall_forall. intros c _. pose proof (code_lt c). lia. Qed.
Lemma le_num_bound s : 0 <= le_num s < 256 ^ Z.of_nat (List.length s).
Proof.
  induction s as [|c s IH]; cbn [le_num List.length]; [cbn; lia|].
  rewrite Nat2Z.inj_succ, Z.pow_succ_r by lia. pose proof (code_lt c). lia.
Qed.
(** decoding any text whatever -- the header is the client's -- gives a process
    number and a time in range, and (0, 0) for text that is not at least twelve
    encoded bytes *)
Theorem C80_decode_any : forall s, is_uint32 (fst (decode_req_id s)) /\ is_int64 (snd (decode_req_id s)).
Proof.
  intros s. unfold decode_req_id. destruct (b64_decode s) as [b ok].
  destruct (negb ok || (List.length b <? 12)%nat)%bool eqn:E.
  - cbn [fst snd]. unfold is_uint32, is_int64. lia.
  - apply orb_false_iff in E. destruct E as [_ E]. apply Nat.ltb_ge in E. cbn [fst snd].
    pose proof (le_num_bound (firstn 4 b)) as A. pose proof (le_num_bound (firstn 8 (skipn 4 b))) as B.
    rewrite firstn_length_le in A by lia. rewrite firstn_length_le in B by (rewrite skipn_length; lia).
    split; [exact A|]. revert B. generalize (le_num (firstn 8 (skipn 4 b))). intros z B.
    change (256 ^ Z.of_nat 8) with 18446744073709551616 in B. unfold is_int64, to_int64.
    change (2 ^ 63) with 9223372036854775808.
    destruct (Z.ltb_spec z 9223372036854775808); lia.
Qed.
Example C80_case : decode_req_id (new_req_id 123456789 1600000000000000001) = (123456789, 1600000000000000001)
  /\ new_req_id 123456789 1600000000000000001 = bs "Fc1bBwEAoNiFVzQW" /\ decode_req_id (bs "hello") = (0, 0).
Proof. vm_compute. auto. Qed.

(** C118 (partial). Ids made by processes with different numbers or at different
    nanoseconds are different. Missing: two ids of one process at one clock reading. *)
Theorem C118_ids_distinct_partial : forall r t r' t',
  is_uint32 r -> is_uint32 r' -> is_int64 t -> is_int64 t' ->
  new_req_id r t = new_req_id r' t' -> r = r' /\ t = t'.
Proof.
  intros r t r' t' A B C D E. pose proof (C80_round_trip r t A C) as X. pose proof (C80_round_trip r' t' B D) as Y.
  rewrite E in X. rewrite X in Y. injection Y as -> ->. auto.
Qed.
(** C118 (refutation). Ids are not unique: requests that get the same clock
    reading get the same id, for any reading and any number of requests. *)
Theorem C118_ids_refuted : ~ (forall rnd clock, is_uint32 rnd ->
  (forall i, is_int64 (clock i)) -> (forall i j, (i <= j)%nat -> clock i <= clock j) ->
  forall i j : nat, i <> j -> new_req_id rnd (clock i) <> new_req_id rnd (clock j)).
Proof.
  intros H. apply (H 1 (fun _ => 5)) with (i := 0%nat) (j := 1%nat); try reflexivity; unfold is_uint32, is_int64; try lia.
Qed.

(** *** C81 *)
Definition no_filters (opt : options) : Prop := op_reqid opt = None.
Lemma new_req_id_length r t : List.length (new_req_id r t) = 16%nat.
Proof. reflexivity. Qed.
(** C81. An id generated by any instance is kept when it comes in the request
    header (it has 16 characters, all of them visible ASCII); any client id of 10
    to 32 bytes is kept as it is; any other header gets a generated one. *)
Theorem C81_own_ids_accepted : forall opt fresh rq rnd nano,
  no_filters opt -> hget (rq_hdr rq) HeaderReqid = new_req_id rnd nano ->
  choose_id opt fresh rq = new_req_id rnd nano.
Proof.
  intros opt fresh rq rnd nano Hf E. unfold choose_id. rewrite E, new_req_id_length, Hf. reflexivity.
Qed.
Theorem C81_visible : forall rnd nano, forallb graphic (new_req_id rnd nano) = true /\ List.length (new_req_id rnd nano) = 16%nat.
Proof.
  intros. split; [|apply new_req_id_length]. apply forallb_forall. intros c Hc.
  pose proof (b64_encode_bytes (le_bytes 4 rnd ++ le_bytes 8 (to_uint64 nano))) as H. rewrite forallb_forall in H.
  specialize (H c Hc). clear Hc. unfold b64_byte in H. destruct c as [[] [] [] [] [] [] [] []]; vm_compute in H |- *; congruence.
Qed.
Theorem C81_which_ids : forall opt fresh rq, no_filters opt ->
  (10 <= List.length (hget (rq_hdr rq) HeaderReqid) <= 32)%nat /\ choose_id opt fresh rq = hget (rq_hdr rq) HeaderReqid \/
  ~ (10 <= List.length (hget (rq_hdr rq) HeaderReqid) <= 32)%nat /\ choose_id opt fresh rq = fresh.
Proof.
  intros opt fresh rq Hf. unfold choose_id. rewrite Hf. cbn [use].
  destruct (Nat.ltb_spec (List.length (hget (rq_hdr rq) HeaderReqid)) 10); cbn [orb]; [right; split; [lia|reflexivity]|].
  destruct (Nat.ltb_spec 32 (List.length (hget (rq_hdr rq) HeaderReqid))); [right; split; [lia|reflexivity]|].
  left; split; [lia|reflexivity].
Qed.

(** *** C119: the id on the request and on the response *)
Definition touches (s : hstep) (k : bytes) : Prop :=
  match s with SSet k' _ | SAdd k' _ | SDel k' => k' = k | SStatus _ => False end.
(** the hooks registered by a list of operations *)
Definition hooks_of (os : list rop) : list hook :=
  flat_map (fun o => match o with RBefore k => [k] | _ => [] end) os.
Definition nothing_sent (os : list rop) : Prop := forall o, In o os -> match o with RWrite _ | RFlush => False | _ => True end.
Definition no_flush (os : list rop) : Prop := ~ In RFlush os.

Lemma run_hstep_hooks w s : h_hooks (run_hstep w s) = h_hooks w /\ h_once (run_hstep w s) = h_once w /\ h_sent (run_hstep w s) = h_sent w.
Proof. destruct s; cbn; auto. destruct (s =? 0); auto. Qed.
Lemma run_hook_hooks k : forall w, h_hooks (run_hook w k) = h_hooks w /\ h_once (run_hook w k) = h_once w /\ h_sent (run_hook w k) = h_sent w.
Proof.
  induction k as [|s k IH]; intros w; [auto|]. unfold run_hook in *. cbn [fold_left].
  destruct (IH (run_hstep w s)) as (A & B & C). destruct (run_hstep_hooks w s) as (D & E & F).
  rewrite A, B, C. auto.
Qed.
Lemma run_hook_untouched key k : forall w, Forall (fun s => ~ touches s key) k ->
  aget (h_hdr (run_hook w k)) key = aget (h_hdr w) key.
Proof.
  induction k as [|s k IH]; intros w H; [reflexivity|]. inversion H as [|? ? Hs Hk]; subst.
  unfold run_hook in *. cbn [fold_left]. rewrite IH by assumption.
  destruct s; cbn in *; try (destruct (s =? 0); reflexivity); unfold hset, hadd, hdel;
    (apply aget_aset_other || apply aget_adel_other); congruence.
Qed.
Lemma fold_hooks_untouched key ks : forall w, Forall (Forall (fun s => ~ touches s key)) ks ->
  aget (h_hdr (fold_left run_hook ks w)) key = aget (h_hdr w) key.
Proof.
  induction ks as [|k ks IH]; intros w H; [reflexivity|]. inversion H; subst. cbn [fold_left].
  rewrite IH by assumption. now apply run_hook_untouched.
Qed.
Lemma fold_hooks_same ks : forall w, h_once (fold_left run_hook ks w) = h_once w /\ h_sent (fold_left run_hook ks w) = h_sent w.
Proof.
  induction ks as [|k ks IH]; intros w; [auto|]. cbn [fold_left].
  destruct (IH (run_hook w k)) as (A & B). destruct (run_hook_hooks k w) as (_ & C & D). rewrite A, B. auto.
Qed.

Section Sent.
  Variable key v : bytes.
  Variable own : hook.
  Variable before : list hook.
  (** the own hook leaves the key at v; earlier hooks leave it alone *)
  Hypothesis own_sets : forall w, aget (h_hdr (run_hook w own)) key = Some [v].
  Hypothesis before_ok : Forall (Forall (fun s => ~ touches s key)) before.

  Definition Inv (w : hw) : Prop :=
    (h_once w = false /\ h_sent w = None /\ exists later, h_hooks w = before ++ own :: later) \/
    (exists s hd, h_sent w = Some (s, hd) /\ aget hd key = Some [v]).

  Lemma fire_inv w : h_once w = false -> h_sent w = None -> (exists later, h_hooks w = before ++ own :: later) ->
    exists s hd, h_sent (fire w) = Some (s, hd) /\ aget hd key = Some [v].
  Proof using own_sets before_ok.
    intros O S (later & H). unfold fire.
    set (w1 := call_before (with_once w)).
    assert (E : aget (h_hdr w1) key = Some [v] /\ h_sent w1 = None).
    { unfold w1, call_before. cbn [with_once h_hooks]. rewrite H. rewrite rev_app_distr. cbn [rev].
      rewrite <- app_assoc. cbn [List.app]. rewrite !fold_left_app. cbn [fold_left].
      set (w2 := fold_left run_hook (rev later) (with_once w)). split.
      - rewrite fold_hooks_untouched; [apply own_sets|]. now apply Forall_rev.
      - destruct (fold_hooks_same (rev before) (run_hook w2 own)) as (_ & ->).
        destruct (run_hook_hooks own w2) as (_ & _ & ->). unfold w2.
        destruct (fold_hooks_same (rev later) (with_once w)) as (_ & ->). exact S. }
    destruct E as (E1 & E2).
    destruct (h_status w1 =? 0); unfold with_sent; cbn [with_status h_sent h_hdr h_status]; rewrite E2; cbn [h_sent]; eauto.
  Qed.
  Lemma with_sent_some w s x : h_sent w = Some x -> h_sent (with_sent w s) = Some x.
  Proof using Type. intros E. unfold with_sent. rewrite E. exact E. Qed.
  Lemma fire_sent w x : h_sent w = Some x -> h_sent (fire w) = Some x.
  Proof using Type.
    intros S. unfold fire. set (w1 := call_before (with_once w)).
    assert (E : h_sent w1 = Some x).
    { unfold w1, call_before. destruct (fold_hooks_same (rev (h_hooks (with_once w))) (with_once w)) as (_ & ->). exact S. }
    destruct (h_status w1 =? 0); apply with_sent_some; exact E.
  Qed.
  Lemma hwrite_inv w b : Inv w -> exists s hd, h_sent (hwrite w b) = Some (s, hd) /\ aget hd key = Some [v].
  Proof using own_sets before_ok.
    intros [(O & S & L)|(s & hd & S & A)].
    - destruct (fire_inv w O S L) as (s & hd & F & A). exists s, hd. split; [|exact A].
      unfold hwrite. rewrite O. cbn [with_body h_sent]. apply with_sent_some, F.
    - exists s, hd. split; [|exact A]. unfold hwrite. cbn [with_body h_sent]. apply with_sent_some.
      destruct (h_once w); [exact S|apply fire_sent, S].
  Qed.
  Lemma rop_inv w o : o <> RFlush -> Inv w -> Inv (run_rop w o).
  Proof using own_sets before_ok.
    intros N H. destruct o as [s|k|b|]; cbn [run_rop].
    - destruct (run_hstep_hooks w s) as (A & B & C).
      destruct H as [(O & S & later & L)|(s' & hd & S & X)].
      + left. rewrite A, B, C. eauto.
      + right. rewrite C. eauto.
    - destruct H as [(O & S & later & L)|(s' & hd & S & X)].
      + left. cbn [with_hook h_once h_sent h_hooks]. repeat split; auto. exists (later ++ [k]). rewrite L. now rewrite <- app_assoc.
      + right. exists s', hd. auto.
    - right. now apply hwrite_inv.
    - congruence.
  Qed.
  Lemma rops_inv os : forall w, no_flush os -> Inv w -> Inv (run_rops w os).
  Proof using own_sets before_ok.
    induction os as [|o os IH]; intros w N H; [exact H|]. unfold run_rops in *. cbn [fold_left].
    apply IH; [intros K; apply N; now right|]. apply rop_inv; [|exact H]. intros ->. apply N. now left.
  Qed.
End Sent.

Lemma pre_state os : forall w, nothing_sent os -> h_once w = false -> h_sent w = None ->
  h_once (run_rops w os) = false /\ h_sent (run_rops w os) = None /\ h_hooks (run_rops w os) = h_hooks w ++ hooks_of os.
Proof.
  induction os as [|o os IH]; intros w N O S; [unfold run_rops; cbn; now rewrite app_nil_r|].
  unfold run_rops in *. cbn [fold_left].
  assert (K : h_once (run_rop w o) = false /\ h_sent (run_rop w o) = None /\ h_hooks (run_rop w o) = h_hooks w ++ hooks_of [o]).
  { pose proof (N o (or_introl eq_refl)) as No. destruct o as [s|k|b|]; try contradiction; cbn [run_rop hooks_of flat_map].
    - destruct (run_hstep_hooks w s) as (A & B & C). rewrite A, B, C. now rewrite app_nil_r.
    - cbn. auto. }
  destruct K as (K1 & K2 & K3). destruct (IH (run_rop w o)) as (A & B & C); [intros x Hx; apply N; now right|assumption|assumption|].
  rewrite A, B, C, K3. repeat split. rewrite <- app_assoc. unfold hooks_of. cbn [flat_map]. now rewrite app_nil_r.
Qed.

Section Filter.
  Variable caller : Z -> option (bytes * bytes).
  Variable stack_text : Z -> bytes.
  Variable elapsed_header elapsed_end : bytes.
  Variable kilo : Z -> bytes.
  Notation req_logger := (req_logger caller stack_text elapsed_header elapsed_end kilo).

  (** C119 (partial). Whatever the outer filters did before [pre] (without sending
      anything, and without a hook of theirs on this header), whatever the rest of
      the chain and then the outer filters do -- changing or deleting that very
      header, panicking, adding hooks -- the response leaves with exactly one
      X-Reqid, the id that the logger has and that the later handlers see on the
      request, and with the response time. Missing: handlers that call Flush
      before the first Write. *)
  Theorem C119_response_carries_id_partial opt g fresh rq pre rest panics post :
    nothing_sent pre ->
    Forall (Forall (fun s => ~ touches s HeaderReqid /\ ~ touches s HeaderResponseTime)) (hooks_of pre) ->
    no_flush rest -> no_flush post ->
    let o := req_logger opt g fresh rq (run_rops hw0 pre) rest panics in
    hget (rq_hdr (oc_req o)) HeaderReqid = oc_id o /\
    exists status hdr, h_sent (finish (run_rops (oc_rw o) post)) = Some (status, hdr) /\
      aget hdr HeaderReqid = Some [oc_id o] /\ aget hdr HeaderResponseTime = Some [elapsed_header].
  Proof using Type.
    intros N HB NR NP o.
    destruct (pre_state pre hw0 N eq_refl eq_refl) as (P1 & P2 & P3). cbn [hw0 h_hooks List.app] in P3.
    set (own := [SDel HeaderReqid; SSet HeaderReqid (oc_id o); SSet HeaderResponseTime elapsed_header]).
    assert (W : exists w1, h_once w1 = false /\ h_sent w1 = None /\ h_hooks w1 = hooks_of pre ++ [own] /\
                 oc_rw o = run_rops w1 rest /\ oc_id o = choose_id opt fresh rq /\
                 rq_hdr (oc_req o) = hset (rq_hdr rq) HeaderReqid (choose_id opt fresh rq)).
    { unfold o, ReqLogModel.req_logger.
      exists (with_hook (with_hdr (run_rops hw0 pre) (hset (h_hdr (run_rops hw0 pre)) HeaderReqid (choose_id opt fresh rq)))
         [SDel HeaderReqid; SSet HeaderReqid (choose_id opt fresh rq); SSet HeaderResponseTime elapsed_header]).
      cbn [with_hook with_hdr h_once h_sent h_hooks]. rewrite P1, P2, P3. repeat split.
      - unfold own, o, ReqLogModel.req_logger. destruct panics; reflexivity.
      - destruct panics; reflexivity.
      - destruct panics; reflexivity.
      - destruct panics; reflexivity. }
    destruct W as (w1 & O1 & S1 & H1 & R1 & I1 & Q1).
    split. { rewrite Q1, I1. unfold hget, hset. now rewrite aget_aset_same. }
    rewrite R1. unfold finish.
    assert (X : forall key v, (forall w, aget (h_hdr (run_hook w own)) key = Some [v]) ->
        Forall (Forall (fun s => ~ touches s key)) (hooks_of pre) ->
        exists s hd, h_sent (hwrite (run_rops (run_rops w1 rest) post) []) = Some (s, hd) /\ aget hd key = Some [v]).
    { intros key v Hown Hbef. apply (hwrite_inv key v own (hooks_of pre) Hown Hbef).
      apply (rops_inv key v own (hooks_of pre) Hown Hbef _ _ NP).
      apply (rops_inv key v own (hooks_of pre) Hown Hbef _ _ NR).
      left. repeat split; auto. exists []. exact H1. }
    destruct (X HeaderReqid (oc_id o)) as (s & hd & S & A).
    { intros w. unfold own, run_hook. cbn [fold_left run_hstep with_hdr h_hdr]. unfold hset.
      rewrite aget_aset_other by discriminate. apply aget_aset_same. }
    { eapply Forall_impl; [|exact HB]. intros k Hk. eapply Forall_impl; [|exact Hk]. cbn. tauto. }
    destruct (X HeaderResponseTime elapsed_header) as (s' & hd' & S' & A').
    { intros w. unfold own, run_hook. cbn [fold_left run_hstep with_hdr h_hdr]. apply aget_aset_same. }
    { eapply Forall_impl; [|exact HB]. intros k Hk. eapply Forall_impl; [|exact Hk]. cbn. tauto. }
    rewrite S in S'. injection S' as <- <-. exists s, hd. auto.
  Qed.
  (** C119 (refutation). A handler that drops the header and flushes sends a
      response without the id. *)
  Theorem C119_response_carries_id_refuted opt g fresh rq :
    ~ (forall rest, exists status hdr,
         h_sent (finish (oc_rw (req_logger opt g fresh rq hw0 rest false))) = Some (status, hdr) /\
         aget hdr HeaderReqid = Some [oc_id (req_logger opt g fresh rq hw0 rest false)]).
  Proof using Type.
    intros H. destruct (H [RStep (SDel HeaderReqid); RFlush]) as (s & hd & S & A).
    cbn -[choose_id] in S. injection S as <- <-. cbn -[choose_id] in A. discriminate.
  Qed.

  (** *** C120: one line when a request begins and one when it ends *)
  (** the text of one line of this logger without colours and stack traces *)
  Definition one_line (s : bytes) : bytes := flat_map (fun c => if Ascii.eqb c (byte 10) then bs "\n" else [c]) s.
  Definition plain (opt : options) : Prop :=
    op_color opt = false /\ op_flat opt = true /\ op_stack opt < 7 /\ op_beg opt = None /\ op_end opt = None.

  Lemma escape_one_line s : escape_nl s = one_line s.
  Proof using Type. reflexivity. Qed.
  Lemma info_line opt id g text : plain opt -> 7 <= g ->
    info caller stack_text g (request_logger opt id) text =
    [one_line (bs "[INFO][" ++ id ++ bs "]" ++ use (op_prefix opt) [] ++ bs " " ++ text)].
  Proof using Type.
    intros (C & F & S & _) G. unfold info, LogModel.write.
    cbn [request_logger set_stack set_color set_flat set_short set_line set_prefix new_req_logger
         l_level l_prefix l_req l_parser l_line l_color l_stack l_flat l_depth].
    change (LevelDebug <? LevelInformational) with false. cbn [orb].
    destruct (Z.ltb_spec g LevelInformational) as [K|K]; [unfold LevelInformational in K; lia|].
    cbn [parse_values rev List.app].
    unfold get_prefix. cbn [request_logger set_stack set_color set_flat set_short set_line set_prefix new_req_logger
         l_level l_prefix l_req l_parser l_line l_color l_stack l_flat l_depth].
    unfold print, flatten. cbn [request_logger set_stack set_color set_flat set_short set_line set_prefix new_req_logger
         l_level l_prefix l_req l_parser l_line l_color l_stack l_flat l_depth o_depth o_stack o_hidden negb].
    rewrite andb_false_r, C, F. change (arr_get level_tags (LevelInformational - 1)) with (Ok (bs "[INFO]")). cbn [bind].
    destruct (Z.leb_spec LevelInformational (op_stack opt)) as [L|L]; [unfold LevelInformational in L; lia|]. cbn [orb andb].
    change (println [AVal text]) with (text ++ [nl]). rewrite !app_assoc, trim_suffix_app, escape_one_line.
    reflexivity.
  Qed.

  Definition no_status_hooks (ks : list hook) : Prop := Forall (Forall (fun s => match s with SStatus _ => False | _ => True end)) ks.
  Definition sets_status (o : rop) : Prop := match o with RStep (SStatus _) => True | _ => False end.
  (** no WriteHeader once the first Write has happened *)
  Definition status_before_body (os : list rop) : Prop :=
    forall a b, os = a ++ b -> (exists x, In (RWrite x) a) -> forall o, In o b -> ~ sets_status o.

  Lemma hook_status k : forall w, Forall (fun s => match s with SStatus _ => False | _ => True end) k ->
    h_status (run_hook w k) = h_status w.
  Proof using Type.
    induction k as [|s k IH]; intros w H; [reflexivity|]. inversion H; subst. unfold run_hook in *. cbn [fold_left].
    rewrite IH by assumption. destruct s; try contradiction; reflexivity.
  Qed.
  Lemma hooks_status ks : forall w, no_status_hooks ks -> h_status (fold_left run_hook ks w) = h_status w.
  Proof using Type.
    induction ks as [|k ks IH]; intros w H; [reflexivity|]. inversion H; subst. cbn [fold_left]. rewrite IH by assumption. now apply hook_status.
  Qed.
  Definition SInv (w : hw) : Prop :=
    no_status_hooks (h_hooks w) /\
    ((h_once w = false /\ h_sent w = None) \/
     (h_once w = true /\ h_status w <> 0 /\ exists hd, h_sent w = Some (h_status w, hd))).
  Lemma hooks_kept ks : forall w, h_hooks (fold_left run_hook ks w) = h_hooks w.
  Proof using Type.
    induction ks as [|k ks IH]; intros w; [reflexivity|]. cbn [fold_left]. rewrite IH. apply run_hook_hooks.
  Qed.
  Lemma write_sinv w b : SInv w ->
    SInv (hwrite w b) /\ h_once (hwrite w b) = true /\
    h_status (hwrite w b) = (if h_status w =? 0 then 200 else h_status w).
  Proof using Type.
    intros (NH & [(O & S)|(O & Z0 & hd & S)]).
    - unfold hwrite. rewrite O. unfold fire. set (w1 := call_before (with_once w)).
      assert (E : h_status w1 = h_status w /\ h_sent w1 = None /\ h_once w1 = true /\ h_hooks w1 = h_hooks w).
      { unfold w1, call_before. cbn [with_once h_hooks]. rewrite hooks_status by (now apply Forall_rev).
        destruct (fold_hooks_same (rev (h_hooks w)) (with_once w)) as (A & B). rewrite A, B, hooks_kept. auto. }
      destruct E as (E1 & E2 & E3 & E4).
      destruct (Z.eqb_spec (h_status w1) 0) as [K|K].
      + assert (Q : h_status w =? 0 = true) by (rewrite <- E1; now apply Z.eqb_eq). rewrite Q.
        unfold with_sent, with_body. cbn [with_status h_sent h_status h_hdr h_once h_hooks]. rewrite E2. cbn [h_sent h_status h_once h_hooks].
        split; [|split; [exact E3|reflexivity]]. split; [cbn [h_hooks]; rewrite E4; exact NH|]. right. cbn [h_once h_status h_sent].
        split; [exact E3|]. split; [discriminate|]. eexists. reflexivity.
      + assert (Q : h_status w =? 0 = false) by (rewrite <- E1; now apply Z.eqb_neq). rewrite Q.
        unfold with_sent, with_body. rewrite E2. cbn [h_sent h_status h_once h_hooks].
        split; [|split; [exact E3|exact E1]]. split; [cbn [h_hooks]; rewrite E4; exact NH|]. right. cbn [h_once h_status h_sent].
        split; [exact E3|]. split; [exact K|]. eexists. reflexivity.
    - unfold hwrite, with_sent, with_body. rewrite O, S. cbn [h_once h_status].
      apply Z.eqb_neq in Z0. rewrite Z0. apply Z.eqb_neq in Z0.
      split; [|split; [exact O|reflexivity]]. split; [exact NH|]. right. cbn [h_once h_status h_sent]. eauto.
  Qed.
  Lemma rops_sinv os : forall w, no_flush os -> status_before_body os -> no_status_hooks (hooks_of os) -> SInv w ->
    (h_once w = true -> forall o, In o os -> ~ sets_status o) -> SInv (run_rops w os).
  Proof using Type.
    induction os as [|o os IH]; intros w N B NH H HO; [exact H|].
    unfold run_rops in *. cbn [fold_left]. apply IH.
    - intros K; apply N; now right.
    - intros a b -> E. apply (B (o :: a) b eq_refl). destruct E as (x & E). exists x. now right.
    - unfold hooks_of in *. cbn [flat_map] in NH. apply Forall_app in NH. tauto.
    - destruct o as [s|k|x|]; cbn [run_rop].
      + destruct (run_hstep_hooks w s) as (A1 & A2 & A3). unfold SInv. rewrite A1, A2, A3.
        destruct H as (H1 & [(O & S)|(O & Z0 & hd & S)]); split; auto.
        right. destruct s; cbn [run_hstep with_hdr h_status]; eauto.
        exfalso. apply (HO O (RStep (SStatus s))); [now left|exact I].
      + unfold SInv. cbn [with_hook h_hooks h_once h_sent h_status]. destruct H as (H1 & H2). split; [|exact H2].
        apply Forall_app. split; [exact H1|]. unfold hooks_of in NH. cbn [flat_map List.app] in NH.
        constructor; [|constructor]. now inversion NH.
      + apply (write_sinv w x H).
      + exfalso. apply N. now left.
    - destruct o as [s|k|x|]; cbn [run_rop].
      + destruct (run_hstep_hooks w s) as (_ & A2 & _). rewrite A2. intros K o' Ho'. apply HO; [exact K|now right].
      + cbn [with_hook h_once]. intros K o' Ho'. apply HO; [exact K|now right].
      + intros _ o' Ho'. apply (B [RWrite x] os eq_refl); [exists x; now left|exact Ho'].
      + exfalso. apply N. now left.
  Qed.
  Lemma pre_sinv pre : nothing_sent pre -> no_status_hooks (hooks_of pre) -> SInv (run_rops hw0 pre).
  Proof using Type.
    intros N NH. destruct (pre_state pre hw0 N eq_refl eq_refl) as (A & B & C). split.
    - rewrite C. exact NH.
    - left. auto.
  Qed.

  (** C120 (partial). For a plainly configured filter (no colours, flat lines, no
      content filters) and a global level that lets information through: if the
      rest of the chain returns, exactly two lines are printed, the first naming
      method, host, URL and client address, the second the status; both carry
      the id; and the status is the one the client gets, provided statuses are set
      before the body, not by hooks, and without Flush. Missing: panicking chains. *)
  Theorem C120_begin_and_end_partial opt g fresh rq pre rest :
    plain opt -> 7 <= g -> nothing_sent pre -> no_status_hooks (hooks_of pre) ->
    no_flush rest -> status_before_body rest -> no_status_hooks (hooks_of rest) ->
    let o := req_logger opt g fresh rq (run_rops hw0 pre) rest false in
    exists status hdr size, h_sent (finish (oc_rw o)) = Some (status, hdr) /\
      oc_lines o =
      [one_line (bs "[INFO][" ++ oc_id o ++ bs "]" ++ use (op_prefix opt) [] ++ bs " [REQ_BEG] " ++
                 rq_method rq ++ bs " " ++ rq_host rq ++ rq_url rq ++ bs " " ++ real_ip rq);
       one_line (bs "[INFO][" ++ oc_id o ++ bs "]" ++ use (op_prefix opt) [] ++ bs " [REQ_END] " ++
                 format_int status ++ bs " " ++ kilo size ++ bs " " ++ elapsed_end)].
  Proof using Type.
    intros P G N NH NF SB NR o.
    set (id := choose_id opt fresh rq).
    set (own := [SDel HeaderReqid; SSet HeaderReqid id; SSet HeaderResponseTime elapsed_header]).
    set (w1 := with_hook (with_hdr (run_rops hw0 pre) (hset (h_hdr (run_rops hw0 pre)) HeaderReqid id)) own).
    assert (I1 : SInv w1).
    { destruct (pre_sinv pre N NH) as (A & B). split.
      - cbn. apply Forall_app. split; [exact A|]. repeat constructor.
      - cbn. exact B. }
    destruct (pre_state pre hw0 N eq_refl eq_refl) as (O1 & _).
    assert (I2 : SInv (run_rops w1 rest)).
    { apply rops_sinv; auto. cbn. congruence. }
    destruct (write_sinv _ [] I2) as ((_ & [(O & _)|(O & Z0 & hd & S)]) & Ot & St); [congruence|].
    assert (W : oc_rw o = run_rops w1 rest) by reflexivity. unfold finish. rewrite W.
    rewrite St in S. exists (if h_status (run_rops w1 rest) =? 0 then 200 else h_status (run_rops w1 rest)), hd, (h_size (run_rops w1 rest)).
    split; [exact S|].
    assert (L : exists b e, oc_lines o = info caller stack_text g (request_logger opt id) b ++ info caller stack_text g (request_logger opt id) e /\
       b = bs "[REQ_BEG] " ++ rq_method rq ++ bs " " ++ rq_host rq ++ rq_url rq ++ bs " " ++ real_ip rq /\
       e = bs "[REQ_END] " ++ format_int (if h_status (run_rops w1 rest) =? 0 then 200 else h_status (run_rops w1 rest)) ++ bs " " ++
           kilo (h_size (run_rops w1 rest)) ++ bs " " ++ elapsed_end).
    { destruct P as (_ & _ & _ & PB & PE).
      unfold o, ReqLogModel.req_logger. rewrite PB, PE. cbn [use].
      eexists _, _. split; [|split; reflexivity].
      match goal with |- context [real_ip ?r] =>
        replace (real_ip r) with (real_ip rq) by (unfold real_ip; cbn [rq_hdr rq_remote]; unfold hget, hset; now rewrite !aget_aset_other by discriminate) end.
      reflexivity. }
    destruct L as (b & e & L & -> & ->). rewrite L, !info_line by assumption. cbn [List.app].
    repeat f_equal.
  Qed.
  (** C120 (refutation). A chain that panics leaves the begin line without an end
      line, whatever recovers the panic outside. *)
  Theorem C120_begin_and_end_refuted opt g fresh rq w rest :
    plain opt -> 7 <= g ->
    oc_lines (req_logger opt g fresh rq w rest true) =
      [one_line (bs "[INFO][" ++ choose_id opt fresh rq ++ bs "]" ++ use (op_prefix opt) [] ++ bs " [REQ_BEG] " ++
                 rq_method rq ++ bs " " ++ rq_host rq ++ rq_url rq ++ bs " " ++ real_ip rq)].
  Proof using Type.
    intros P G. unfold ReqLogModel.req_logger. cbn [oc_lines].
    match goal with |- context [real_ip ?r] =>
      replace (real_ip r) with (real_ip rq) by (unfold real_ip; cbn [rq_hdr rq_remote]; unfold hget, hset; now rewrite !aget_aset_other by discriminate) end.
    pose proof P as (_ & _ & _ & PB & _). rewrite PB. cbn [use].
    match goal with |- (if ?c then _ else _) = _ => change c with false end. cbv iota.
    rewrite info_line by assumption. reflexivity.
  Qed.
End Filter.

(** *** C121: the client address in the log *)
Definition plain_host (h : bytes) : Prop := h <> [] /\ forallb graphic h = true /\ ~ In ":"%char h /\ ~ In ","%char h.

Lemma last_index_app h p : ~ In ":"%char p -> last_index_sub (h ++ ":"%char :: p) (bs ":") = Some (List.length h).
Proof.
  intros Hp. induction h as [|c h IH].
  - cbn [List.app last_index_sub].
    assert (E : last_index_sub p (bs ":") = None).
    { apply (last_index_byte_none ":"%char). exact Hp. }
    rewrite E. destruct p; reflexivity.
  - cbn [List.app last_index_sub List.length]. now rewrite IH.
Qed.

Lemma blanks_free s c : blanks s -> graphic c = true -> ~ In c s.
Proof.
  intros B G. induction B as [|d s Hd B IH|u s Hu B IH].
  - intros [].
  - intros [->|K]; [|auto]. cbn in Hd. repeat (destruct Hd as [<-|Hd]; [vm_compute in G; discriminate|]). destruct Hd.
  - intros K. apply in_app_iff in K. destruct K as [K|K]; [|auto].
    assert (X : forallb (forallb (fun c => negb (graphic c))) uspaces = true) by (vm_compute; reflexivity).
    rewrite forallb_forall in X. specialize (X u Hu). rewrite forallb_forall in X. specialize (X c K).
    rewrite G in X. discriminate.
Qed.

(** C121 (partial). The address in the begin line: the X-Real-Ip header without
    surrounding blanks; without it the first X-Forwarded-For entry, without
    blanks and without a port, when that is a name or an IPv4 address; without
    both, the peer address without its port, IPv6 included. Missing: IPv6
    addresses in X-Forwarded-For. *)
Theorem C121_client_address_partial : forall rq a b h,
  blanks a -> blanks b ->
  (h <> [] -> forallb graphic h = true -> hget (rq_hdr rq) HeaderXRealIp = a ++ h ++ b -> real_ip rq = h) /\
  (forall port more, plain_host h -> (port = [] \/ exists p, port = bs ":" ++ p /\ ~ In ","%char p) ->
     (more = [] \/ exists m, more = bs "," ++ m) ->
     hget (rq_hdr rq) HeaderXRealIp = [] -> hget (rq_hdr rq) HeaderXForwardedFor = (a ++ h ++ b) ++ port ++ more -> real_ip rq = h) /\
  (forall port, ~ In ":"%char port ->
     hget (rq_hdr rq) HeaderXRealIp = [] -> hget (rq_hdr rq) HeaderXForwardedFor = [] ->
     rq_remote rq = h ++ bs ":" ++ port -> real_ip rq = h).
Proof.
  intros rq a b h Ha Hb. split; [|split].
  - intros Hne Hg E. unfold real_ip. rewrite E.
    assert (N : is_nil (a ++ h ++ b) = false) by (destruct a; [destruct h; [congruence|reflexivity]|reflexivity]).
    rewrite N. cbn [negb]. apply trim_space_word; eauto.
  - intros port more (Hne & Hg & Hc & Hk) Hp Hm E1 E2. unfold real_ip. rewrite E1, E2. cbn [is_nil negb].
    assert (F : forall c, In c h \/ In c a \/ In c b -> c <> ","%char).
    { intros c [K|[K|K]] ->; [exact (Hk K)|..]; revert K; apply blanks_free; auto. }
    assert (F2 : ~ In ":"%char (a ++ h ++ b)).
    { intros K. rewrite !in_app_iff in K. destruct K as [K|[K|K]]; [revert K; apply blanks_free; auto|auto|revert K; apply blanks_free; auto]. }
    assert (F3 : ~ In ","%char ((a ++ h ++ b) ++ port)).
    { intros K. rewrite !in_app_iff in K. destruct K as [[K|[K|K]]|K]; try (apply (F ","%char); tauto).
      destruct Hp as [->|(p & -> & Hp)]; [destruct K|]. apply in_app_iff in K. destruct K as [[K|[]]|K]; [discriminate|auto]. }
    assert (S1 : exists ps, split_byte ","%char ((a ++ h ++ b) ++ port ++ more) = ((a ++ h ++ b) ++ port) :: ps).
    { destruct Hm as [->|(m & ->)].
      - rewrite app_nil_r. rewrite split_byte_nosep by assumption. eauto.
      - rewrite app_assoc. change (bs "," ++ m) with (","%char :: m). rewrite split_byte_app by assumption. eauto. }
    destruct S1 as (ps & ->).
    assert (N : is_nil ((a ++ h ++ b) ++ port) = false) by (destruct a; [destruct h; [congruence|reflexivity]|reflexivity]).
    rewrite N. cbn [negb].
    assert (S2 : hd [] (split_byte ":"%char ((a ++ h ++ b) ++ port)) = a ++ h ++ b).
    { destruct Hp as [->|(p & -> & _)].
      - rewrite app_nil_r, split_byte_nosep by assumption. reflexivity.
      - change (bs ":" ++ p) with (":"%char :: p). rewrite split_byte_app by assumption. reflexivity. }
    rewrite S2. apply trim_space_word; eauto.
  - intros port Hp E1 E2 E3. unfold real_ip. rewrite E1, E2. cbn [is_nil negb split_byte].
    rewrite E3. change (bs ":" ++ port) with (":"%char :: port). rewrite last_index_app by assumption. apply firstn_app_len.
Qed.
(** C121 (refutation). An IPv6 client behind a proxy is logged as its first group. *)
Theorem C121_client_address_refuted : ~ (forall rq ip,
  hget (rq_hdr rq) HeaderXRealIp = [] -> hget (rq_hdr rq) HeaderXForwardedFor = ip -> ip <> [] ->
  forallb graphic ip = true -> ~ In ","%char ip -> real_ip rq = ip \/ real_ip rq = bs "[" ++ ip ++ bs "]").
Proof.
  intros H.
  destruct (H (Request (bs "GET") [] [] (bs "10.0.0.1:80") [(HeaderXForwardedFor, [bs "2001:db8::1"])]) (bs "2001:db8::1")) as [E|E];
    try reflexivity; try (vm_compute in E; discriminate); try discriminate.
  intros K. cbn in K. repeat (destruct K as [K|K]; [discriminate|]). exact K.
Qed.
Example C121_case :
  real_ip (Request (bs "GET") [] [] (bs "10.0.0.1:80") [(HeaderXForwardedFor, [bs "  1.1.1.1:99 , 0.0.0.0"])]) = bs "1.1.1.1" /\
  real_ip (Request (bs "GET") [] [] (bs "[::1]:80") []) = bs "[::1]".
Proof. vm_compute. auto. Qed.

(** *** A whole request, hypotheses met *)
Definition sample_opt : options := Options false true true true 3 None None None None.
Definition sample_rq : request :=
  Request (bs "GET") (bs "example.org") (bs "/a?b=1") (bs "10.0.0.1:80") [(HeaderReqid, [bs "client-id-0001"])].
Definition sample_rest : list rop :=
  [RStep (SSet HeaderReqid (bs "mine")); RStep (SStatus 404); RBefore [SDel HeaderReqid]; RWrite (bs "nope"); RStep (SDel HeaderReqid)].
Definition sample_out := req_logger (fun _ => None) (fun _ => []) (bs "1ms") (bs "2ms") format_int sample_opt 8 (new_req_id 7 7) sample_rq hw0 sample_rest false.
Example sample_request :
  oc_lines sample_out = [bs "[INFO][client-id-0001] [REQ_BEG] GET example.org/a?b=1 10.0.0.1";
                         bs "[INFO][client-id-0001] [REQ_END] 404 4 2ms"] /\
  option_map fst (h_sent (finish (oc_rw sample_out))) = Some 404 /\
  option_map (fun x => aget (snd x) HeaderReqid) (h_sent (finish (oc_rw sample_out))) = Some (Some [bs "client-id-0001"]).
Proof. vm_compute. auto. Qed.
Example sample_meets : plain sample_opt /\ no_flush sample_rest /\ status_before_body sample_rest /\ no_status_hooks (hooks_of sample_rest).
Proof.
  split; [repeat split|]. split; [intros K; cbn in K; repeat (destruct K as [K|K]; [discriminate|]); exact K|]. split; [|repeat constructor].
  intros a b E (x & Hx) o Ho So.
  destruct o as [[ | | |s]| | |]; try contradiction.
  unfold sample_rest in E.
  do 5 (destruct a as [|? a]; [cbn in E; subst; cbn in Ho, Hx; intuition congruence|cbn in E; injection E as <- E]).
  destruct a; [cbn in E; subst; destruct Ho|discriminate E].
Qed.

Print Assumptions C80_round_trip.
Print Assumptions C80_decode_any.
Print Assumptions C118_ids_distinct_partial.
Print Assumptions C118_ids_refuted.
Print Assumptions C81_own_ids_accepted.
Print Assumptions C81_visible.
Print Assumptions C81_which_ids.
Print Assumptions C119_response_carries_id_partial.
Print Assumptions C119_response_carries_id_refuted.
Print Assumptions C120_begin_and_end_partial.
Print Assumptions C120_begin_and_end_refuted.
Print Assumptions C121_client_address_partial.
Print Assumptions C121_client_address_refuted.
