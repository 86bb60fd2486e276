(** Props_ReqLogExact: exact forms of C117-C121. *)
From Coq Require Import List Ascii String Bool Arith ZArith Lia.
Import ListNotations.
From Verif Require Import GoStr GoNum GoEnc RouterModel LogModel HeadModel ReqLogModel Props_Params Props_Config Props_Log Props_ReqLog.
Local Open Scope Z_scope.

(** *** C117: Recover, for every level *)
Section Recover.
  Context {V : Type}.
  Variable sprintf : bytes -> list (arg V) -> bytes.
  Variable sprintln : list (arg V) -> bytes.
  Variable caller : Z -> option (bytes * bytes).
  Variable stack_text : Z -> bytes.
  Notation recover := (LogModel.recover V sprintf sprintln caller stack_text).
  Notation write := (LogModel.write V sprintf sprintln caller stack_text).
  Notation lrun := (LogModel.lrun V sprintf sprintln caller stack_text).
  (** the levels with neither a tag nor, if colours are on, a colour *)
  Definition untagged (hist : list (lop V)) (n : Z) : Prop := n < 1 \/ 9 < n \/ (n = 9 /\ color_now hist = true).
  Definition passes (hist : list (lop V)) (n : Z) : Prop := n <= level_now hist /\ n <= global_now hist.

  Lemma write_exact id hist st rs n fmt vs : lrun (fresh id, 8) hist = (st, rs) ->
    (passes hist n /\ untagged hist n /\ write (snd st) (fst st) n fmt vs = Panic) \/
    (passes hist n /\ ~ untagged hist n /\ exists t, write (snd st) (fst st) n fmt vs = Ok (Some t)) \/
    (~ passes hist n /\ write (snd st) (fst st) n fmt vs = Ok None).
  Proof using Type.
    intros R. apply reached in R. destruct R as (H1 & H2 & H3 & H4 & _). unfold passes, untagged, LogModel.write. rewrite H1, H2.
    destruct (Z.ltb_spec (level_now hist) n); [right; right; split; [lia|reflexivity]|].
    destruct (Z.ltb_spec (global_now hist) n); [right; right; split; [lia|reflexivity]|]. cbn [orb].
    destruct (parse_values V (fst st) vs) as [vs' o]. destruct (get_prefix V (fst st) vs') as [p vs''].
    unfold LogModel.print, arr_get. rewrite ?H4.
    destruct (Z.ltb_spec (n - 1) 0) as [Hz|Hz]; [left; split; [lia|]; split; [left; lia|reflexivity]|].
    assert (Hcase : n = 1 \/ n = 2 \/ n = 3 \/ n = 4 \/ n = 5 \/ n = 6 \/ n = 7 \/ n = 8 \/ n = 9 \/ 9 < n) by lia.
    destruct Hcase as [->|[->|[->|[->|[->|[->|[->|[->|[->|Hn]]]]]]]]].
    1-8: right; left; (split; [lia|]); (split; [lia|]); change (Z.to_nat (_ - 1)) with (Z.to_nat (Z.pred 1)) at 1 || idtac;
      cbv [level_tags colors map List.app nth_error Z.to_nat Z.sub Z.add Z.opp Z.pos_sub Pos.pred_double Z.pred_double Pos.to_nat Pos.iter_op Nat.add Z.succ_double Z.double]; cbn [bind RouterModel.bind];
      destruct (color_now hist); cbn [bind RouterModel.bind]; eexists; reflexivity.
    - cbv [level_tags colors map List.app nth_error Z.to_nat Z.sub Z.add Z.opp Z.pos_sub Pos.pred_double Z.pred_double Pos.to_nat Pos.iter_op Nat.add Z.succ_double Z.double]; cbn [bind RouterModel.bind].
      destruct (color_now hist) eqn:Ec; cbn [bind RouterModel.bind].
      + left. split; [lia|]. split; [right; right; auto|]. reflexivity.
      + right. left. split; [lia|]. split; [intros [?|[?|(_ & ?)]]; [lia|lia|discriminate]|]. eexists. reflexivity.
    - left. split; [lia|]. split; [lia|]. replace (nth_error level_tags (Z.to_nat (n - 1))) with (@None bytes); [reflexivity|].
      symmetry. apply nth_error_None. cbn [level_tags List.length]. lia.
  Qed.
  (** Recover panics itself iff the function panicked with a value that is not nil and the level given lets
      it through but has no tag, or no colour when colours are on *)
  Theorem C117_recover_panics_iff id hist st rs f lv : lrun (fresh id, 8) hist = (st, rs) ->
    (recover (snd st) (fst st) f lv = Panic <->
     (exists v, f = Some (inl v)) /\ exists n, lv = Some n /\ passes hist n /\ untagged hist n).
  Proof using Type.
    intros R. unfold LogModel.recover. destruct f as [[v|u]|].
    2, 3: split; [discriminate|intros ((v & E) & _); discriminate].
    destruct lv as [n|].
    - destruct (write_exact _ _ _ _ n None [AVal v; AOpt (LineOpt 4 true false)] R) as [(A & B & ->)|[(A & B & t & ->)|(A & ->)]]; cbn [bind RouterModel.bind].
      + split; [|reflexivity]. intros _. split; [eauto|]. eauto.
      + split; [discriminate|]. intros (_ & m & [= <-] & _ & D). contradiction.
      + split; [discriminate|]. intros (_ & m & [= <-] & D & _). contradiction.
    - destruct (write_exact _ _ _ _ LevelError None [AVal v; AOpt (LineOpt 5 true false)] R) as [(A & B & ->)|[(A & B & t & ->)|(A & ->)]]; cbn [bind RouterModel.bind].
      + exfalso. unfold untagged, LevelError in B. lia.
      + split; [discriminate|]. intros (_ & m & K & _). discriminate.
      + split; [discriminate|]. intros (_ & m & K & _). discriminate.
  Qed.
  (** otherwise it returns the value the function panicked with, nil for none and for panic(nil), and logs
      it iff there is one and the level lets it through *)
  Theorem C117_recover_returns id hist st rs f lv line ret : lrun (fresh id, 8) hist = (st, rs) ->
    recover (snd st) (fst st) f lv = Ok (line, ret) ->
    ret = (match f with Some (inl v) => Some v | _ => None end) /\
    (line <> None <-> ret <> None /\ passes hist (match lv with Some n => n | None => LevelError end)).
  Proof using Type.
    intros R. unfold LogModel.recover. destruct f as [[v|u]|].
    2, 3: intros E; apply Ok_inj in E; injection E as <- <-; split; [reflexivity|]; split; [congruence|intros (K & _); congruence].
    set (n := match lv with Some n => n | None => LevelError end).
    assert (X : forall vs, (do t <- write (snd st) (fst st) n None vs; Ok (t, Some v)) = Ok (line, ret) -> ret = Some v /\ (line <> None <-> ret <> None /\ passes hist n)).
    { intros vs. destruct (write_exact _ _ _ _ n None vs R) as [(A & B & ->)|[(A & B & t & ->)|(A & ->)]]; cbn [bind RouterModel.bind]; intros E; try discriminate E; apply Ok_inj in E; injection E as <- <-; (split; [reflexivity|]).
      - split; [intros _; split; [discriminate|exact A]|discriminate].
      - split; [congruence|intros (_ & D); contradiction]. }
    destruct lv as [m|]; apply X.
  Qed.
End Recover.
Example C117_exact_case :
  let r := LogModel.recover nat sample_f sample_ln (fun _ => None) (fun _ => []) in
  (r 9 (set_color nat (set_level nat (new_logger nat) 9) true) (Some (inl 5%nat)) (Some 9) = Panic) /\
  (exists t, r 9 (set_level nat (new_logger nat) 9) (Some (inl 5%nat)) (Some 9) = Ok (Some t, Some 5%nat)) /\
  r 8 (new_logger nat) (Some (inl 5%nat)) (Some 9) = Ok (None, Some 5%nat).
Proof. cbv zeta. split; [reflexivity|]. split; [eexists; vm_compute; reflexivity|vm_compute; reflexivity]. Qed.

(** *** C118: when two request ids are the same *)
Theorem C118_ids_equal_iff : forall r t r' t', is_uint32 r -> is_uint32 r' -> is_int64 t -> is_int64 t' ->
  (new_req_id r t = new_req_id r' t' <-> r = r' /\ t = t').
Proof. intros r t r' t' A B C D. split; [apply C118_ids_distinct_partial; assumption|intros (-> & ->); reflexivity]. Qed.

(** *** C121: the address, exactly *)
(** s up to the first occurrence of a byte *)
Definition up_to (c : ascii) (s p : bytes) : Prop := ~ In c p /\ (s = p \/ exists r, s = p ++ c :: r).
Lemma up_to_split c s p : up_to c s p -> exists ps, split_byte c s = p :: ps.
Proof. intros (H & [->|(r & ->)]); [rewrite split_byte_nosep by assumption; eauto|rewrite split_byte_app by assumption; eauto]. Qed.
Lemma up_to_ex c s : exists p, up_to c s p.
Proof.
  induction s as [|a s (p & H & E)]; [exists []; split; [intros []|left; reflexivity]|]. destruct (ascii_dec a c) as [->|Hn].
  - exists []. split; [intros []|right; exists s; reflexivity].
  - exists (a :: p). split; [intros [K|K]; [congruence|auto]|]. destruct E as [->|(r & ->)]; [left; reflexivity|right; exists r; reflexivity].
Qed.
Theorem C121_address_is : forall rq entry host, up_to ","%char (hget (rq_hdr rq) HeaderXForwardedFor) entry -> up_to ":"%char entry host ->
  real_ip rq =
    if is_nil (hget (rq_hdr rq) HeaderXRealIp) then
      if is_nil entry then
        match last_index_sub (rq_remote rq) (bs ":") with Some i => firstn i (rq_remote rq) | None => rq_remote rq end
      else trim_space host
    else trim_space (hget (rq_hdr rq) HeaderXRealIp).
Proof.
  intros rq entry host He Hh. unfold real_ip. destruct (up_to_split _ _ _ He) as (ps & ->). destruct (up_to_split _ _ _ Hh) as (qs & ->).
  destruct (is_nil (hget (rq_hdr rq) HeaderXRealIp)); cbn [negb]; [|reflexivity]. destruct (is_nil entry); reflexivity.
Qed.
(** such an entry and host always exist *)
Theorem C121_entry_exists : forall s, exists entry host, up_to ","%char s entry /\ up_to ":"%char entry host.
Proof. intros s. destruct (up_to_ex ","%char s) as (e & He). destruct (up_to_ex ":"%char e) as (h & Hh). eauto. Qed.
(** so a forwarded address without blanks is logged as it is iff it has no colon *)
Theorem C121_forwarded_iff : forall rq ip more,
  hget (rq_hdr rq) HeaderXRealIp = [] -> ip <> [] -> forallb graphic ip = true -> ~ In ","%char ip ->
  (more = [] \/ exists m, more = bs "," ++ m) -> hget (rq_hdr rq) HeaderXForwardedFor = ip ++ more ->
  (real_ip rq = ip <-> ~ In ":"%char ip).
Proof.
  intros rq ip more E1 Hne Hg Hc Hm E2.
  assert (He : up_to ","%char (hget (rq_hdr rq) HeaderXForwardedFor) ip).
  { split; [exact Hc|]. rewrite E2. destruct Hm as [->|(m & ->)]; [left; apply app_nil_r|right; exists m; reflexivity]. }
  destruct (up_to_ex ":"%char ip) as (h & Hh). rewrite (C121_address_is rq ip h He Hh), E1. cbn [is_nil].
  assert (Hn0 : is_nil ip = false) by (destruct ip; [congruence|reflexivity]). rewrite Hn0.
  assert (T : trim_space h = h).
  { apply trim_space_id. apply forallb_forall. intros x Hx. rewrite forallb_forall in Hg. apply Hg. destruct Hh as (_ & [->|(r & ->)]); [exact Hx|apply in_or_app; left; exact Hx]. }
  rewrite T. destruct Hh as (Hn & [E|(r & E)]).
  - rewrite <- E in *. split; auto.
  - split.
    + intros X. rewrite X in E. exfalso. assert (L : List.length ip = List.length (ip ++ ":"%char :: r)) by (rewrite <- E; reflexivity). rewrite app_length in L. cbn in L. lia.
    + intros X. exfalso. apply X. rewrite E. apply in_or_app. right. left. reflexivity.
Qed.
Example C121_exact_case : exists rq, hget (rq_hdr rq) HeaderXRealIp = [] /\ hget (rq_hdr rq) HeaderXForwardedFor = bs "10.1.2.3" ++ bs "," ++ bs " ::1" /\ real_ip rq = bs "10.1.2.3".
Proof. exists (Request (bs "GET") [] [] (bs "10.0.0.1:80") [(HeaderXForwardedFor, [bs "10.1.2.3, ::1"])]). vm_compute. auto. Qed.

(** *** C119: the header that leaves, exactly *)
(** what header changes make of the values of one header *)
Definition key_step (key : bytes) (s : hstep) (v : option (list bytes)) : option (list bytes) :=
  match s with
  | SSet k x => if beq k key then Some [x] else v
  | SAdd k x => if beq k key then Some ((match v with Some vs => vs | None => [] end) ++ [x]) else v
  | SDel k => if beq k key then None else v
  | SStatus _ => v
  end.
Definition key_after (key : bytes) (ss : list hstep) (v : option (list bytes)) : option (list bytes) := fold_left (fun v s => key_step key s v) ss v.
(** the header changes a handler makes itself *)
Definition own_steps (os : list rop) : list hstep := flat_map (fun o => match o with RStep s => [s] | _ => [] end) os.

Lemma run_hstep_key key w s : aget (h_hdr (run_hstep w s)) key = key_step key s (aget (h_hdr w) key).
Proof.
  destruct s as [k x|k x|k|st]; cbn [run_hstep key_step with_hdr h_hdr]; unfold hset, hadd, hdel; [..|destruct (st =? 0); reflexivity].
  all: destruct (beq_spec k key) as [->|Hn]; [|rewrite ?aget_aset_other, ?aget_adel_other by congruence; reflexivity].
  - apply aget_aset_same.
  - apply aget_aset_same.
  - apply aget_adel_same.
Qed.
Lemma run_hook_key key k : forall w, aget (h_hdr (run_hook w k)) key = key_after key k (aget (h_hdr w) key).
Proof. induction k as [|s k IH]; intros w; [reflexivity|]. unfold run_hook, key_after in *. cbn [fold_left]. rewrite IH, run_hstep_key. reflexivity. Qed.
Lemma hooks_key key ks : forall w, aget (h_hdr (fold_left run_hook ks w)) key = key_after key (List.concat ks) (aget (h_hdr w) key).
Proof.
  induction ks as [|k ks IH]; intros w; [reflexivity|]. cbn [fold_left List.concat]. rewrite IH, run_hook_key. unfold key_after. rewrite fold_left_app. reflexivity.
Qed.
Lemma quiet_rops os : forall w, nothing_sent os -> h_once w = false -> h_sent w = None ->
  forall key, aget (h_hdr (run_rops w os)) key = key_after key (own_steps os) (aget (h_hdr w) key).
Proof.
  induction os as [|o os IH]; intros w N O S key; [reflexivity|]. unfold run_rops in *. cbn [fold_left].
  pose proof (N o (or_introl eq_refl)) as No. destruct o as [s|k|b|]; try contradiction; cbn [run_rop].
  - destruct (run_hstep_hooks w s) as (A & B & C). rewrite IH; [|intros x Hx; apply N; right; exact Hx|congruence|congruence]. rewrite run_hstep_key. reflexivity.
  - rewrite IH; [|intros x Hx; apply N; right; exact Hx|exact O|exact S]. reflexivity.
Qed.
Lemma sent_stays os : forall w x, h_sent w = Some x -> h_sent (run_rops w os) = Some x.
Proof.
  induction os as [|o os IH]; intros w x S; [exact S|]. unfold run_rops in *. cbn [fold_left]. apply IH. destruct o as [s|k|b|]; cbn [run_rop].
  - destruct (run_hstep_hooks w s) as (_ & _ & ->). exact S.
  - exact S.
  - unfold hwrite. cbn [with_body h_sent]. apply with_sent_some. destruct (h_once w); [exact S|apply fire_sent; exact S].
  - unfold hflush. apply with_sent_some. exact S.
Qed.
Lemma finish_sent w x : h_sent w = Some x -> h_sent (finish w) = Some x.
Proof. intros S. exact (sent_stays [RWrite []] w x S). Qed.

Section FilterExact.
  Variable caller : Z -> option (bytes * bytes).
  Variable stack_text : Z -> bytes.
  Variable elapsed_header elapsed_end : bytes.
  Variable kilo : Z -> bytes.
  Notation req_logger := (req_logger caller stack_text elapsed_header elapsed_end kilo).

  (** What happens first after the filter was entered, in the rest of the chain, then in the outer filters, then at
      the end of the request: *)
  (** a Write: the id leaves in exactly one X-Reqid, unless a hook registered by an outer filter changes it *)
  Theorem C119_first_is_a_write opt g fresh rq pre rest panics post quiet more :
    nothing_sent pre -> nothing_sent quiet -> ((exists b, rest ++ post = quiet ++ RWrite b :: more) \/ rest ++ post = quiet) ->
    let o := req_logger opt g fresh rq (run_rops hw0 pre) rest panics in
    exists status hdr, h_sent (finish (run_rops (oc_rw o) post)) = Some (status, hdr) /\
      aget hdr HeaderReqid = key_after HeaderReqid (List.concat (rev (hooks_of pre))) (Some [oc_id o]) /\
      aget hdr HeaderResponseTime = key_after HeaderResponseTime (List.concat (rev (hooks_of pre))) (Some [elapsed_header]).
  Proof using Type.
    intros N NQ HQ o. destruct (pre_state pre hw0 N eq_refl eq_refl) as (P1 & P2 & P3). cbn [hw0 h_hooks List.app] in P3.
    set (own := [SDel HeaderReqid; SSet HeaderReqid (oc_id o); SSet HeaderResponseTime elapsed_header]).
    assert (W : exists w1, h_once w1 = false /\ h_sent w1 = None /\ h_hooks w1 = hooks_of pre ++ [own] /\ oc_rw o = run_rops w1 rest).
    { unfold o, ReqLogModel.req_logger.
      exists (with_hook (with_hdr (run_rops hw0 pre) (hset (h_hdr (run_rops hw0 pre)) HeaderReqid (choose_id opt fresh rq)))
         [SDel HeaderReqid; SSet HeaderReqid (choose_id opt fresh rq); SSet HeaderResponseTime elapsed_header]).
      cbn [with_hook with_hdr h_once h_sent h_hooks]. rewrite P1, P2, P3. repeat split.
      - unfold own, o, ReqLogModel.req_logger. destruct panics; reflexivity.
      - destruct panics; reflexivity. }
    destruct W as (w1 & O1 & S1 & H1 & ->).
    assert (E : exists b more', finish (run_rops (run_rops w1 rest) post) = run_rops (hwrite (run_rops w1 quiet) b) more').
    { unfold finish, run_rops in *. rewrite <- fold_left_app. destruct HQ as [(b & ->)|E].
      - exists b, (more ++ [RWrite []]). rewrite !fold_left_app. reflexivity.
      - exists [], []. rewrite E. reflexivity. }
    destruct E as (b & more' & ->).
    destruct (pre_state quiet w1 NQ O1 S1) as (O2 & S2 & H2). set (w2 := run_rops w1 quiet) in *.
    assert (F : exists s hd, h_sent (fire w2) = Some (s, hd) /\
      aget hd HeaderReqid = key_after HeaderReqid (List.concat (rev (hooks_of pre))) (Some [oc_id o]) /\
      aget hd HeaderResponseTime = key_after HeaderResponseTime (List.concat (rev (hooks_of pre))) (Some [elapsed_header])).
    { unfold fire. set (w3 := call_before (with_once w2)).
      assert (X : forall key, aget (h_hdr w3) key = key_after key (List.concat (rev (hooks_of pre))) (key_after key own (key_after key (List.concat (rev (hooks_of quiet))) (aget (h_hdr w2) key)))).
      { intros key. unfold w3, call_before. rewrite hooks_key. cbn [with_once h_hooks h_hdr]. rewrite H2, H1. rewrite !rev_app_distr. cbn [rev List.app]. rewrite !List.concat_app. cbn [List.concat]. unfold key_after. rewrite !fold_left_app. cbn [List.app]. reflexivity. }
      assert (S3 : h_sent w3 = None). { unfold w3, call_before. destruct (fold_hooks_same (rev (h_hooks (with_once w2))) (with_once w2)) as (_ & ->). exact S2. }
      assert (Hd : exists s, h_sent (with_sent (if h_status w3 =? 0 then with_status w3 200 else w3) (h_status (if h_status w3 =? 0 then with_status w3 200 else w3))) = Some (s, h_hdr w3)).
      { destruct (h_status w3 =? 0); unfold with_sent; cbn [with_status h_sent h_hdr h_status]; rewrite S3; cbn [h_sent]; eauto. }
      destruct Hd as (s & Hd). exists s, (h_hdr w3). split; [exact Hd|]. rewrite !X. split; reflexivity. }
    destruct F as (s & hd & F & G). exists s, hd. split; [|exact G]. apply sent_stays. unfold hwrite. rewrite O2. cbn [with_body h_sent]. apply with_sent_some. exact F.
  Qed.
  (** a Flush: no hook runs; what leaves is what the handlers themselves made of the headers by then, with status 200 *)
  Theorem C119_first_is_a_flush opt g fresh rq pre rest panics post quiet more :
    nothing_sent pre -> nothing_sent quiet -> rest ++ post = quiet ++ RFlush :: more ->
    let o := req_logger opt g fresh rq (run_rops hw0 pre) rest panics in
    exists hdr, h_sent (finish (run_rops (oc_rw o) post)) = Some (200, hdr) /\
      aget hdr HeaderReqid = key_after HeaderReqid (own_steps quiet) (Some [oc_id o]) /\
      aget hdr HeaderResponseTime = key_after HeaderResponseTime (own_steps quiet) (key_after HeaderResponseTime (own_steps pre) None).
  Proof using Type.
    intros N NQ HQ o. destruct (pre_state pre hw0 N eq_refl eq_refl) as (P1 & P2 & P3).
    assert (W : exists w1, h_once w1 = false /\ h_sent w1 = None /\ oc_rw o = run_rops w1 rest /\ h_hdr w1 = hset (h_hdr (run_rops hw0 pre)) HeaderReqid (oc_id o)).
    { unfold o, ReqLogModel.req_logger.
      exists (with_hook (with_hdr (run_rops hw0 pre) (hset (h_hdr (run_rops hw0 pre)) HeaderReqid (choose_id opt fresh rq)))
         [SDel HeaderReqid; SSet HeaderReqid (choose_id opt fresh rq); SSet HeaderResponseTime elapsed_header]).
      cbn [with_hook with_hdr h_once h_sent h_hooks h_hdr]. rewrite P1, P2. repeat split; destruct panics; reflexivity. }
    destruct W as (w1 & O1 & S1 & -> & D1).
    assert (E : exists more', finish (run_rops (run_rops w1 rest) post) = run_rops (hflush (run_rops w1 quiet)) more').
    { unfold finish, run_rops in *. rewrite <- fold_left_app, HQ. exists (more ++ [RWrite []]). rewrite !fold_left_app. reflexivity. }
    destruct E as (more' & ->). destruct (pre_state quiet w1 NQ O1 S1) as (O2 & S2 & _).
    exists (h_hdr (run_rops w1 quiet)). split; [apply sent_stays; unfold hflush, with_sent; rewrite S2; reflexivity|].
    rewrite !(quiet_rops quiet w1 NQ O1 S1), D1. unfold hset. rewrite aget_aset_same, aget_aset_other by discriminate.
    rewrite (quiet_rops pre hw0 N eq_refl eq_refl). split; reflexivity.
  Qed.
  (** one of the two always happens first *)
  Theorem C119_one_is_first os : (exists quiet more, nothing_sent quiet /\ os = quiet ++ RFlush :: more) \/
    (exists quiet more, nothing_sent quiet /\ ((exists b, os = quiet ++ RWrite b :: more) \/ os = quiet)).
  Proof using Type.
    induction os as [|o os IH]; [right; exists [], []; split; [intros x []|right; reflexivity]|].
    destruct o as [s|k|b|].
    3: right; exists [], os; split; [intros x []|left; exists b; reflexivity].
    3: left; exists [], os; split; [intros x []|reflexivity].
    all: destruct IH as [(q & m & N & E)|(q & m & N & E)].
    1, 3: left; eexists (_ :: q), m; (split; [|rewrite E; reflexivity]); intros x [<-|Hx]; [exact I|exact (N x Hx)].
    1, 2: right; eexists (_ :: q), m; (split; [|destruct E as [(b & ->)|E]; [left; exists b; reflexivity|right; rewrite <- E; reflexivity]]); intros x [<-|Hx]; [exact I|exact (N x Hx)].
  Qed.

  (** *** C120: the lines, exactly *)
  (** no colours, flat lines, no stack traces; any content filters *)
  Definition plain_lines (opt : options) : Prop := op_color opt = false /\ op_flat opt = true /\ op_stack opt < 7.
  Definition begin_text (rq : request) : bytes := bs "[REQ_BEG] " ++ rq_method rq ++ bs " " ++ rq_host rq ++ rq_url rq ++ bs " " ++ real_ip rq.
  Definition end_text (status size : Z) : bytes := bs "[REQ_END] " ++ format_int status ++ bs " " ++ kilo size ++ bs " " ++ elapsed_end.
  (** the lines made of a text: none if the level is filtered out or the content filter left nothing *)
  Definition lines_of (opt : options) (g : Z) (id : bytes) (text : bytes) : list bytes :=
    if ((7 <=? g) && negb (is_nil text))%bool then [one_line (bs "[INFO][" ++ id ++ bs "]" ++ use (op_prefix opt) [] ++ bs " " ++ text)] else [].
  Lemma info_any opt id g text : plain_lines opt ->
    info caller stack_text g (request_logger opt id) text =
    if 7 <=? g then [one_line (bs "[INFO][" ++ id ++ bs "]" ++ use (op_prefix opt) [] ++ bs " " ++ text)] else [].
  Proof using Type.
    intros (C & F & S). destruct (Z.leb_spec 7 g) as [G|G].
    - pose proof (info_line caller stack_text (Options (op_color opt) (op_line opt) (op_short opt) (op_flat opt) (op_stack opt) (op_reqid opt) (op_prefix opt) None None) id g text) as L.
      cbn [op_prefix op_color op_flat op_stack op_beg op_end] in L. apply L; [repeat split; assumption|exact G].
    - unfold info, LogModel.write. cbn [request_logger set_stack set_color set_flat set_short set_line set_prefix new_req_logger l_level].
      change (LevelDebug <? LevelInformational) with false. cbn [orb]. destruct (Z.ltb_spec g LevelInformational) as [K|K]; [reflexivity|unfold LevelInformational in K; lia].
  Qed.
  (** For every level, content filters, chain and way of ending: the begin line, if it passes; then the end line if it
      passes and the chain did not panic, with the status and size the response reports when the chain returned *)
  Theorem C120_lines_are opt g fresh rq w rest panics : plain_lines opt ->
    let o := req_logger opt g fresh rq w rest panics in
    oc_lines o = lines_of opt g (oc_id o) (use (op_beg opt) (begin_text rq)) ++
      (if panics then [] else lines_of opt g (oc_id o) (use (op_end opt)
         (end_text (if h_status (oc_rw o) =? 0 then 200 else h_status (oc_rw o)) (h_size (oc_rw o))))).
  Proof using Type.
    intros P o. assert (Q : forall id text, (if is_nil text then [] else info caller stack_text g (request_logger opt id) text) = lines_of opt g id text).
    { intros id text. unfold lines_of. rewrite info_any by exact P. destruct (is_nil text), (7 <=? g); reflexivity. }
    unfold o, ReqLogModel.req_logger. cbv zeta.
    match goal with |- context [real_ip ?r] =>
      replace (real_ip r) with (real_ip rq) by (unfold real_ip; cbn [rq_hdr rq_remote]; unfold hget, hset; now rewrite !aget_aset_other by discriminate) end.
    destruct panics; cbn [oc_lines oc_id oc_rw].
    - rewrite app_nil_r, <- Q. reflexivity.
    - rewrite <- !Q. reflexivity.
  Qed.
  (** that status is not always the one sent: a status set after the body began, or before a Flush, is logged but not sent *)
  Theorem C120_logged_status_not_sent opt g fresh rq s body :
    plain_lines opt -> op_beg opt = None -> op_end opt = None -> 7 <= g -> s <> 0 -> s <> 200 ->
    forall rest, rest = [RWrite body; RStep (SStatus s)] \/ rest = [RStep (SStatus s); RFlush] ->
    let o := req_logger opt g fresh rq hw0 rest false in
    option_map fst (h_sent (finish (oc_rw o))) = Some 200 /\
    exists b size, oc_lines o = [b; one_line (bs "[INFO][" ++ oc_id o ++ bs "]" ++ use (op_prefix opt) [] ++ bs " " ++ end_text s size)].
  Proof using Type.
    intros P B E G S0 S2 rest HR o. assert (Z0 : (s =? 0) = false) by (apply Z.eqb_neq; exact S0).
    pose proof (C120_lines_are opt g fresh rq hw0 rest false P) as L. cbv zeta in L. fold o in L. rewrite B, E in L. cbn [use] in L.
    assert (St : h_status (oc_rw o) = s).
    { destruct HR as [->| ->]; unfold o, ReqLogModel.req_logger, run_rops; cbn [oc_rw fold_left run_rop run_hstep]; rewrite Z0; reflexivity. }
    rewrite St, Z0 in L. split.
    - destruct HR as [->| ->]; unfold o, ReqLogModel.req_logger, run_rops; cbn [oc_rw fold_left run_rop run_hstep]; rewrite Z0; (erewrite finish_sent; [|reflexivity]); reflexivity.
    - rewrite L. unfold lines_of. destruct (Z.leb_spec 7 g); [|lia]. eexists _, _. reflexivity.
  Qed.
End FilterExact.
Example C119_flush_case :
  let o := req_logger (fun _ => None) (fun _ => []) (bs "1ms") (bs "2ms") format_int sample_opt 8 (new_req_id 7 7) sample_rq hw0 [RStep (SDel HeaderReqid); RFlush] false in
  option_map (fun x => aget (snd x) HeaderReqid) (h_sent (finish (oc_rw o))) = Some None.
Proof. vm_compute. reflexivity. Qed.
Example C120_exact_case : plain_lines sample_opt /\ op_beg sample_opt = None /\ op_end sample_opt = None.
Proof. vm_compute. auto. Qed.

(** *** C81, C119, C121: the names of the headers *)
Theorem C119_header_names : HeaderReqid = bs "X-Reqid" /\ HeaderResponseTime = bs "X-Response-Time" /\
  HeaderXRealIp = bs "X-Real-Ip" /\ HeaderXForwardedFor = bs "X-Forwarded-For".
Proof. repeat split. Qed.

Print Assumptions C117_recover_panics_iff.
Print Assumptions C117_recover_returns.
Print Assumptions C118_ids_equal_iff.
Print Assumptions C121_address_is.
Print Assumptions C121_entry_exists.
Print Assumptions C121_forwarded_iff.
Print Assumptions C119_first_is_a_write.
Print Assumptions C119_first_is_a_flush.
Print Assumptions C119_one_is_first.
Print Assumptions C120_lines_are.
Print Assumptions C120_logged_status_not_sent.
Print Assumptions C119_header_names.
