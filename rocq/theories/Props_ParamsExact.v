(** Props_ParamsExact: exact forms of C64, C84, C104, C105, C106, C109, C110, and C135,
    about /repo/params. *)
From Coq Require Import List Ascii String Bool Arith ZArith Lia Permutation.
Import ListNotations.
From Verif Require Import GoStr GoNum RouterModel ConvModel ConvFacts ParamsModel ParamsFacts Props_Params Props_ParamsBind.

Set Default Proof Using "Type".

(** ** C64: how often a value appears *)
Definition times (v : bytes) (l : list bytes) : nat := count_occ bytes_eq_dec l v.
Theorem C64_each_value_count : forall query route ok b vs files name v,
  is_map query -> is_map route -> body_map b -> parse_params query route ok b = Some (vs, files) ->
  times v (vals vs name) = (if urlencoded b then 2 else 1) * times v (vals query name) + times v (vals route name) + times v (body_vals b name).
Proof.
  intros query route ok b vs files name v Nq Nr Nb H. rewrite (C63_unified_values _ _ _ _ _ _ name Nq Nr Nb H). unfold times. rewrite !count_occ_app.
  destruct (urlencoded b); cbn [count_occ]; lia.
Qed.
(** so every value is there exactly as often as submitted iff the body is not a url-encoded form or the query lacks the name *)
Theorem C64_each_value_once_iff : forall query route ok b vs files name,
  is_map query -> is_map route -> body_map b -> parse_params query route ok b = Some (vs, files) ->
  ((forall v, times v (vals vs name) = times v (vals query name) + times v (vals route name) + times v (body_vals b name)) <->
   urlencoded b = false \/ vals query name = []).
Proof.
  intros query route ok b vs files name Nq Nr Nb H. split.
  - intros E. destruct (urlencoded b) eqn:U; [right|left; reflexivity]. destruct (vals query name) as [|v l] eqn:V; [reflexivity|]. exfalso.
    specialize (E v). rewrite (C64_each_value_count _ _ _ _ _ _ name v Nq Nr Nb H), U, V in E. unfold times in E. cbn [count_occ] in E. destruct (bytes_eq_dec v v); [lia|congruence].
  - intros [U|V] v; rewrite (C64_each_value_count _ _ _ _ _ _ name v Nq Nr Nb H); [rewrite U; lia|]. rewrite V. unfold times. cbn [count_occ]. lia.
Qed.
Example C64_count_case : exists vs files,
  parse_params [(bs "a", [bs "1"; bs "2"])] [(bs "a", [bs "1"])] true (BUrlencoded (Some [(bs "a", [bs "1"]); (bs "b", [bs "1"])])) = Some (vs, files) /\
  times (bs "1") (vals vs (bs "a")) = 4 /\ times (bs "2") (vals vs (bs "a")) = 2 /\ times (bs "1") (vals vs (bs "b")) = 1.
Proof. eexists _, _. split; [vm_compute; reflexivity|]. repeat split; vm_compute; reflexivity. Qed.

(** ** C106: what a parse error hides *)
(** the request has a form body, and it or the query string is malformed *)
Definition form_error (ok : bool) (b : body) : Prop :=
  b = BUrlencoded None \/ b = BMultipart None \/ (b <> BOther /\ ok = false).
Theorem C106_parameters_after_errors : forall query route ok b, is_map query -> is_map route -> body_map b ->
  (form_error ok b -> forall name, parsed_vals query route ok b name = []) /\
  (~ form_error ok b -> forall name v, In v (parsed_vals query route ok b name) <-> In v (vals query name) \/ In v (vals route name) \/ In v (body_vals b name)).
Proof.
  intros query route ok b Nq Nr Nb. split.
  - intros [-> | [-> | (H & ->)]] name; try reflexivity. destruct b as [[m|]|[(m & fl)|]|]; try reflexivity. congruence.
  - intros H name v. unfold parsed_vals. destruct (parse_params query route ok b) as [(vs & files)|] eqn:E.
    + rewrite (C63_unified_values _ _ _ _ _ _ name Nq Nr Nb E). rewrite !in_app_iff. destruct (urlencoded b); cbn [In]; tauto.
    + exfalso. apply H. unfold form_error. destruct b as [[m|]|[(m & fl)|]|]; try tauto; cbn [parse_params] in E; try discriminate; destruct ok; try discriminate; right; right; split; congruence.
Qed.
Example C106_exact_case : form_error false (BMultipart (Some ([], []))) /\ ~ form_error true (BUrlencoded (Some [(bs "a", [bs "1"])])) /\ ~ form_error false BOther.
Proof. unfold form_error. repeat split; [right; right; split; [discriminate|reflexivity]| |]; intros [X|[X|(X & Y)]]; congruence. Qed.

(** ** C109: which uploads can be read *)
(** [kept] says for every file whether it stays in memory: it does iff it fits into what the files before it that stayed have left *)
Fixpoint kept_size (files : list bytes) (kept : list bool) : nat :=
  match files, kept with c :: fs, k :: ks => (if k then List.length c else 0) + kept_size fs ks | _, _ => 0 end.
Definition stays (max : nat) (files : list bytes) (kept : list bool) : Prop :=
  List.length kept = List.length files /\
  forall i c, nth_error files i = Some c -> (nth_error kept i = Some true <-> kept_size (firstn i files) (firstn i kept) + List.length c <= max).
Fixpoint keeps (budget : nat) (files : list bytes) : list bool :=
  match files with [] => [] | c :: r => if Nat.leb (List.length c) budget then true :: keeps (budget - List.length c) r else false :: keeps budget r end.
Lemma keeps_stays : forall files budget, stays budget files (keeps budget files).
Proof.
  induction files as [|c files IH]; intros budget; [split; [reflexivity|]; intros [|i] d H; discriminate H|]. cbn [keeps]. destruct (Nat.leb_spec (List.length c) budget) as [L|L].
  - destruct (IH (budget - List.length c)) as (A & B). split; [cbn [List.length]; rewrite A; reflexivity|]. intros [|i] d H; cbn [nth_error firstn kept_size] in *; [injection H as <-; split; intros; [lia|reflexivity]|].
    rewrite (B i d H). lia.
  - destruct (IH budget) as (A & B). split; [cbn [List.length]; rewrite A; reflexivity|]. intros [|i] d H; cbn [nth_error firstn kept_size] in *; [injection H as <-; split; intros X; [discriminate|lia]|].
    rewrite (B i d H). reflexivity.
Qed.
Lemma stays_fun max files k1 k2 : stays max files k1 -> stays max files k2 -> k1 = k2.
Proof.
  intros (L1 & H1) (L2 & H2). assert (X : forall i, i <= List.length files -> firstn i k1 = firstn i k2).
  { induction i as [|i IH]; intros Hi; [reflexivity|]. specialize (IH ltac:(lia)). destruct (nth_error files i) as [c|] eqn:E; [|apply nth_error_None in E; lia]. specialize (H1 i c E). specialize (H2 i c E). rewrite IH in H1.
    destruct (nth_error k1 i) as [b1|] eqn:E1; [|apply nth_error_None in E1; lia]. destruct (nth_error k2 i) as [b2|] eqn:E2; [|apply nth_error_None in E2; lia].
    assert (b1 = b2) as -> by (destruct b1, b2; try reflexivity; exfalso; [assert (Q : Some false = Some true) by (apply H2, H1; reflexivity)|assert (Q : Some false = Some true) by (apply H1, H2; reflexivity)]; discriminate).
    assert (S : forall (k : list bool) b, nth_error k i = Some b -> firstn (S i) k = firstn i k ++ [b]).
    { intros k b Hk. apply nth_error_split in Hk as (l & r & -> & <-). rewrite firstn_app_len. rewrite firstn_app, firstn_all2 by lia. replace (S (List.length l) - List.length l) with 1 by lia. reflexivity. }
    rewrite (S k1 b2 E1), (S k2 b2 E2), IH. reflexivity. }
  specialize (X (List.length files) ltac:(lia)). rewrite <- L1 in X at 1. rewrite <- L2 in X. rewrite !firstn_all in X. exact X.
Qed.
Lemma store_keeps : forall files budget next us disk, store budget next files = (us, disk) ->
  Forall2 (fun u (ck : bytes * bool) => if snd ck then u = InMemory (fst ck) else exists n, u = OnDisk n) us (combine files (keeps budget files)).
Proof.
  induction files as [|c files IH]; intros budget next us disk H; cbn [store] in H; [injection H as <- <-; constructor|]. cbn [keeps]. destruct (Nat.leb (List.length c) budget).
  - destruct (store (budget - List.length c) next files) as (us' & d') eqn:E. injection H as <- <-. cbn [combine]. constructor; [reflexivity|]. exact (IH _ _ _ _ E).
  - destruct (store budget (S next) files) as (us' & d') eqn:E. injection H as <- <-. cbn [combine]. constructor; [exists next; reflexivity|]. exact (IH _ _ _ _ E).
Qed.
(** A handler reads exactly the files that stayed in memory; the others cannot be opened any more *)
Theorem C109_which_uploads_can_be_read : forall max files kept us disk, stays max files kept -> params_parser_files max files = (us, disk) ->
  map (open_read disk) us = map (fun ck : bytes * bool => if snd ck then Some (fst ck) else None) (combine files kept).
Proof.
  intros max files kept us disk Hk H. rewrite (stays_fun _ _ _ _ Hk (keeps_stays files max)).
  assert (G : forall n, In (OnDisk n) us -> open_read disk (OnDisk n) = None) by (intros n; apply (C109_uploads_on_disk_are_gone _ _ _ _ _ H)).
  unfold params_parser_files in H. destruct (store max 0 files) as (us' & d) eqn:E. assert (us' = us) as -> by congruence. apply store_keeps in E. clear H Hk. revert G. generalize dependent disk.
  induction E as [|u (c & k) us l Hu _ IH]; intros disk G; [reflexivity|]. cbn [map]. rewrite IH by (intros n Hn; apply G; right; exact Hn). f_equal. cbn [fst snd] in *.
  destruct k; [subst u; reflexivity|]. destruct Hu as (n & ->). apply G. left. reflexivity.
Qed.
Theorem C109_one_such_list : forall max files, exists kept, stays max files kept.
Proof. intros max files. exists (keeps max files). apply keeps_stays. Qed.
Example C109_exact_case : stays 4 [bs "abc"; bs "de"; bs "f"] [true; false; true].
Proof. exact (keeps_stays [bs "abc"; bs "de"; bs "f"] 4). Qed.

(** ** C84: real.go *)
(** the text before the first c; all of it if there is none *)
Definition upto (c : ascii) (s t : bytes) : Prop := ~ In c t /\ (s = t \/ exists r, s = t ++ c :: r).
Lemma first_part_upto c s : upto c s (first_part c s).
Proof.
  destruct (index_byte c s) as [i|] eqn:E.
  - apply index_byte_some in E as (l & r & -> & _ & H). rewrite first_part_app by exact H. split; [exact H|right; exists r; reflexivity].
  - apply index_byte_none in E. rewrite first_part_clean by exact E. split; [exact E|left; reflexivity].
Qed.
Lemma upto_fun c s t u : upto c s t -> upto c s u -> t = u.
Proof.
  assert (X : forall t, upto c s t -> first_part c s = t); [|intros A B; rewrite <- (X t A), <- (X u B); reflexivity].
  intros x (H & [-> | (r & ->)]); [apply first_part_clean|apply first_part_app]; exact H.
Qed.
Theorem C84_real_ip : forall real fwd remote,
  (real <> [] -> real_ip real fwd remote = real) /\
  (real = [] -> forall entry, upto ","%char fwd entry ->
    (entry <> [] -> upto ":"%char entry (real_ip real fwd remote)) /\
    (entry = [] -> forall host, upto ":"%char remote host -> real_ip real fwd remote = if bytes_eq_dec host (bs "[") then bs "127.0.0.1" else host)).
Proof.
  intros real fwd remote. split; [intros H; unfold real_ip; destruct real; [congruence|reflexivity]|]. intros -> entry He. unfold real_ip. cbn [is_nil negb].
  rewrite (upto_fun _ _ _ _ (first_part_upto ","%char fwd) He). split.
  - intros Hn. destruct entry as [|c e]; [congruence|]. cbn [is_nil negb]. apply first_part_upto.
  - intros -> host Hh. cbn [is_nil negb]. rewrite (upto_fun _ _ _ _ (first_part_upto ":"%char remote) Hh). destruct (beq_spec host (bs "[")) as [->|N]; cbn [negb]; destruct (bytes_eq_dec _ _); congruence.
Qed.
(** so the client's address is right for exactly the hosts without colons: never for IPv6 addresses *)
Theorem C84_right_for : forall remote host, host_port remote host -> (real_ip [] [] remote = host <-> ~ In ":"%char host).
Proof.
  intros remote host H. split.
  - intros E. pose proof (proj2 (C84_real_ip [] [] remote) eq_refl [] (first_part_upto ","%char [])) as (_ & X). specialize (X eq_refl _ (first_part_upto ":"%char remote)). rewrite E in X. rewrite X.
    destruct (bytes_eq_dec _ _) as [_|_]; [intros Y; vm_compute in Y; repeat destruct Y as [Y|Y]; try discriminate Y; exact Y|exact (proj1 (first_part_upto ":"%char remote))].
  - intros Hn. apply (C84_real_ip_partial [] [] remote); assumption.
Qed.
Theorem C84_right_for_forwarded : forall entry more remote, entry <> [] -> ~ In ","%char entry -> more = [] \/ (exists m, more = bs "," ++ m) ->
  (real_ip [] (entry ++ more) remote = entry <-> ~ In ":"%char entry).
Proof.
  intros entry more remote Hn Hc Hm. assert (U : upto ","%char (entry ++ more) entry) by (split; [exact Hc|]; destruct Hm as [-> | (m & ->)]; [left; apply app_nil_r|right; exists m; reflexivity]).
  pose proof (proj1 (proj2 (C84_real_ip [] (entry ++ more) remote) eq_refl entry U) Hn) as X. split.
  - intros E. rewrite E in X. exact (proj1 X).
  - intros Hp. apply (upto_fun ":"%char entry); [exact X|]. split; [exact Hp|left; reflexivity].
Qed.
Theorem C84_real_host : forall fwd host, upto ":"%char (match fwd with [] => host | _ => fwd end) (real_host fwd host).
Proof. intros [|c fwd] host; apply first_part_upto. Qed.
Example C84_exact_case : upto ","%char (bs "1.2.3.4, 5.6.7.8") (bs "1.2.3.4") /\ host_port (bs "1.2.3.4:80") (bs "1.2.3.4") /\ host_port (bs "[fe80::1]:80") (bs "fe80::1").
Proof.
  assert (D : forall (c : ascii) s, existsb (Ascii.eqb c) s = false -> ~ In c s) by (intros c s E X; assert (Y : existsb (Ascii.eqb c) s = true) by (apply existsb_exists; exists c; split; [exact X|apply Ascii.eqb_refl]); congruence).
  split; [|split].
  - split; [apply D; reflexivity|right; exists (bs " 5.6.7.8"); reflexivity].
  - apply (hp_plain (bs "1.2.3.4") (bs "80")); try discriminate; apply D; reflexivity.
  - apply (hp_v6 (bs "fe80::1") (bs "80")); [vm_compute; tauto|apply D; reflexivity].
Qed.

(** ** C135: RealURL *)
(** a *url.URL without its user, which RealURL does not touch *)
Record url := mkUrl { u_scheme : bytes; u_opaque : bytes; u_host : bytes; u_path : bytes; u_rawpath : bytes; u_query : bytes; u_fragment : bytes }.
Section RealURL.
  (** url.ParseRequestURI; None is an error *)
  Variable parse_request_uri : bytes -> option url.
  (** params/real.go:63-75. [request_uri]: what req.URL.RequestURI() gives *)
  Definition real_url (fwd_host fwd_proto orig_uri host : bytes) (u : url) (request_uri : bytes) : option url :=
    match parse_request_uri (real_uri orig_uri request_uri) with
    | None => None
    | Some ins => Some (mkUrl (real_proto fwd_proto (u_scheme u)) (u_opaque ins) (real_host fwd_host host) (u_path ins) (u_rawpath u) (u_query ins) (u_fragment u))
    end.
  (** Scheme: the proxy's, else the request's, else http. Path and query: the proxy's original URI, else the request's own. *)
  Theorem C135_real_url : forall fwd_host fwd_proto orig_uri host u request_uri r,
    real_url fwd_host fwd_proto orig_uri host u request_uri = Some r ->
    u_scheme r = match fwd_proto, u_scheme u with [], [] => bs "http" | [], s => s | p, _ => p end /\
    upto ":"%char (match fwd_host with [] => host | _ => fwd_host end) (u_host r) /\
    exists ins, parse_request_uri (match orig_uri with [] => request_uri | _ => orig_uri end) = Some ins /\
      u_path r = u_path ins /\ u_query r = u_query ins /\ u_opaque r = u_opaque ins /\ u_rawpath r = u_rawpath u /\ u_fragment r = u_fragment u.
  Proof.
    intros fwd_host fwd_proto orig_uri host u request_uri r H. unfold real_url in H. destruct (parse_request_uri (real_uri orig_uri request_uri)) as [ins|] eqn:E; [|discriminate]. injection H as <-. cbn [u_scheme u_host u_path u_query u_opaque u_rawpath u_fragment].
    split; [unfold real_proto; destruct fwd_proto, (u_scheme u); reflexivity|]. split; [apply C84_real_host|]. exists ins. split; [unfold real_uri in E; destruct orig_uri; exact E|]. repeat split.
  Qed.
  (** an error exactly if that URI cannot be parsed *)
  Theorem C135_real_url_error : forall fwd_host fwd_proto orig_uri host u request_uri,
    real_url fwd_host fwd_proto orig_uri host u request_uri = None <-> parse_request_uri (match orig_uri with [] => request_uri | _ => orig_uri end) = None.
  Proof.
    intros fwd_host fwd_proto orig_uri host u request_uri. unfold real_url, real_uri. destruct orig_uri as [|c o]; cbn [is_nil]; destruct (parse_request_uri _); split; intros; congruence.
  Qed.
End RealURL.
Example C135_case : real_url (fun s => Some (mkUrl [] [] [] s [] [] [])) (bs "example.org:8080") (bs "https") [] (bs "10.0.0.1:80") (mkUrl [] [] [] (bs "/x") [] [] []) (bs "/x")
  = Some (mkUrl (bs "https") [] (bs "example.org") (bs "/x") [] [] []).
Proof. vm_compute. reflexivity. Qed.

Section Bindings.
  Variable F T : Type.
  Variable fzero : F.
  Variable tzero : T.
  Variable parse_float : bytes -> option F.
  Variable round_float : nat -> F -> F.
  Variable formats : list bytes.
  Variable parse_zone parse_local : bytes -> bytes -> option T.
  Variable unix : Z -> T.
  Variable json_map : bytes -> list (bytes * bytes).
  Notation binds := (binds F T fzero tzero parse_float round_float formats parse_zone parse_local unix json_map).
  Notation filled := (filled F T fzero tzero parse_float round_float formats parse_zone parse_local unix json_map).
  Notation pval := (pval F T).
  Notation PVStr := (PVStr F T).
  Notation PVInt := (PVInt F T).
  Notation PVSlice := (PVSlice F T).
  Notation PVPtr := (PVPtr F T).
  Notation PVNil := (PVNil F T).
  Notation PVMap := (PVMap F T).
  Notation PVStruct := (PVStruct F T).
  Notation BPlain := (BPlain F T).
  Notation pzero := (pzero F T fzero tzero).

  (** ** C104: pointers *)
  (** Nil iff the name itself has no value; else it points to what its element type binds to *)
  Theorem C104_pointer : forall e p name r, binds (PPtr e) p name r <->
    (vals (p_vals p) name = [] /\ r = Ok PVNil) \/
    (vals (p_vals p) name <> [] /\ exists x, binds e p name x /\ r = match x with Ok v => Ok (PVPtr v) | Panic => Panic end).
  Proof.
    intros e p name r. cbn [ParamsModel.binds]. unfold ptr_binder, vals. destruct (aget (p_vals p) name) as [[|v l]|].
    - split; [intros ->; left; auto|intros [(_ & ->)|(X & _)]; [reflexivity|congruence]].
    - split.
      + intros (x & Hx & ->). right. split; [discriminate|]. exists x. split; [exact Hx|destruct x; reflexivity].
      + intros [(X & _)|(_ & x & Hx & ->)]; [discriminate|]. exists x. split; [exact Hx|destruct x; reflexivity].
    - split; [intros ->; left; auto|intros [(_ & ->)|(X & _)]; [reflexivity|congruence]].
  Qed.
  (** so parameters for the parts of what it points to, name.x or name[i], have no effect without one called name *)
  Theorem C104_parts_alone : forall e p name r, (forall l, In (name, l) (p_vals p) -> l = []) -> binds (PPtr e) p name r -> r = Ok PVNil.
  Proof.
    intros e p name r H Hb. apply C104_pointer in Hb as [(_ & ->)|(X & _)]; [reflexivity|]. exfalso. apply X. unfold vals. destruct (aget (p_vals p) name) as [l|] eqn:E; [|reflexivity]. apply aget_some in E. exact (H l E).
  Qed.
  Example C104_exact_case : binds (PPtr (PSlice PString)) (mkParams [(bs "u[0]", [bs "a"])] []) (bs "u") (Ok PVNil) /\ mentioned (mkParams [(bs "u[0]", [bs "a"])] []) (bs "u").
  Proof. split; [reflexivity|]. exists (bs "u[0]"). split; [left; reflexivity|]. right. exists (bs "0]"). right. reflexivity. Qed.

  (** ** C110: the size of a slice *)
  (** the number of values and files under names of the slice without an index *)
  Definition unindexed_count (p : params) (name : bytes) (n : nat) : Prop :=
    exists free_ others ffree fothers,
      Permutation (p_vals p) (free_ ++ others) /\ Forall (fun kv => no_index_key name (fst kv)) free_ /\ Forall (fun kv => ~ no_index_key name (fst kv)) others /\
      Permutation (p_files p) (ffree ++ fothers) /\ Forall (fun kf => no_index_key name (fst kf)) ffree /\ Forall (fun kf => ~ no_index_key name (fst kf)) fothers /\
      n = list_sum (map (fun kv => List.length (snd kv)) free_) + list_sum (map snd ffree).
  (** m is one more than the largest index submitted, 0 if there is none *)
  Definition index_bound (p : params) (name : bytes) (m : nat) : Prop :=
    (forall key i el, In key (names p) -> at_index name key i el -> (i < Z.of_nat m)%Z) /\
    (m = 0 \/ exists key el, In key (names p) /\ at_index name key (Z.of_nat m - 1) el).
  Theorem C110_slice_size : forall e p name l, binds (PSlice e) p name (Ok (PVSlice l)) ->
    exists m n, index_bound p name m /\ unindexed_count p name n /\ List.length l = m + n.
  Proof.
    intros e p name l H. destruct (C67_slice_elements _ _ _ _ _ _ _ _ _ _ _ _ _ _ _ H) as (base & tl_ & E & A1 & A2 & _ & fr & ot & ff & fo & xs & ys & -> & P1 & Q1 & Q2 & F2 & P2 & R1 & R2 & L).
    injection E as ->. exists (List.length base), (List.length (xs ++ ys)). split; [|split; [|rewrite app_length; reflexivity]].
    - split; [exact A1|]. destruct A2 as [->|A2]; [left; reflexivity|right; exact A2].
    - exists fr, ot, ff, fo. repeat (split; [assumption|]). apply Forall2_length in F2. rewrite concat_length_sum, map_map in F2. rewrite app_length. lia.
  Qed.
  (** the two numbers are determined by the request *)
  Theorem C110_size_is_determined : forall p name m m' n n', index_bound p name m -> index_bound p name m' -> unindexed_count p name n -> unindexed_count p name n' -> m = m' /\ n = n'.
  Proof.
    intros p name m m' n n' (A & B) (A' & B') C C'. split.
    - destruct B as [-> | (key & el & Hk & Ha)]; destruct B' as [-> | (key' & el' & Hk' & Ha')]; [reflexivity| | |].
      + destruct m' as [|m']; [reflexivity|]. pose proof (A _ _ _ Hk' Ha'). lia.
      + destruct m as [|m]; [reflexivity|]. pose proof (A' _ _ _ Hk Ha). lia.
      + pose proof (A' _ _ _ Hk Ha). pose proof (A _ _ _ Hk' Ha'). lia.
    - destruct C as (fr & ot & ff & fo & P1 & F1 & O1 & P2 & F2 & O2 & ->), C' as (fr' & ot' & ff' & fo' & P1' & F1' & O1' & P2' & F2' & O2' & ->).
      assert (X : forall {A} (l a b a' b' : list (bytes * A)), Permutation l (a ++ b) -> Permutation l (a' ++ b') -> Forall (fun x => no_index_key name (fst x)) a -> Forall (fun x => ~ no_index_key name (fst x)) b ->
        Forall (fun x => no_index_key name (fst x)) a' -> Forall (fun x => ~ no_index_key name (fst x)) b' -> Permutation a a').
      { intros A0 l a b a' b' Pa Pb Ha Hb Ha' Hb'.
        assert (Y : forall c d : list (bytes * A0), Forall (fun x => no_index_key name (fst x)) c -> Forall (fun x => ~ no_index_key name (fst x)) d -> filter (fun x => free name (fst x)) (c ++ d) = c).
        { intros c d Hc Hd. rewrite filter_app. replace (filter (fun x => free name (fst x)) d) with (@nil (bytes * A0)).
          - rewrite app_nil_r. clear Hd. induction Hc as [|x c Hx _ IH]; [reflexivity|]. cbn [filter]. rewrite (proj2 (free_key name (fst x)) Hx), IH. reflexivity.
          - clear Hc. induction Hd as [|x d Hx _ IH]; [reflexivity|]. cbn [filter]. destruct (free name (fst x)) eqn:E; [exfalso; apply Hx, free_key; exact E|exact IH]. }
        assert (Pf : forall (f : bytes * A0 -> bool) l1 l2, Permutation l1 l2 -> Permutation (filter f l1) (filter f l2)).
        { intros f l1 l2. induction 1 as [|x l1 l2 _ IH|x y l1|l1 l2 l3 _ IH1 _ IH2]; cbn [filter]; [constructor|destruct (f x); [constructor; exact IH|exact IH]|destruct (f x), (f y); try apply Permutation_refl; apply perm_swap|exact (perm_trans IH1 IH2)]. }
        rewrite <- (Y a b Ha Hb), <- (Y a' b' Ha' Hb'). eapply perm_trans; [apply Permutation_sym, Pf; exact Pa|apply Pf; exact Pb]. }
      pose proof (X _ _ _ _ _ _ P1 P1' F1 O1 F1' O1') as Q1. pose proof (X _ _ _ _ _ _ P2 P2' F2 O2 F2' O2') as Q2.
      rewrite (list_sum_perm _ _ (Permutation_map _ Q1)), (list_sum_perm _ _ (Permutation_map _ Q2)). reflexivity.
  Qed.
  Example C110_exact_case : index_bound (mkParams [(bs "a[2]", [bs "x"])] []) (bs "a") 3.
  Proof.
    assert (E : elem_of (bs "a") (bs "a[2]") = Some (2%Z, bs "a[2]")) by (vm_compute; reflexivity). split.
    - intros key i el [<-|[]] Ha. apply elem_of_at in Ha as (Ha & _). cbn [fst] in Ha. rewrite E in Ha. injection Ha as <- _. lia.
    - right. exists (bs "a[2]"), (bs "a[2]"). split; [left; reflexivity|]. apply elem_of_at. split; [exact E|lia].
  Qed.

  (** ** C105: fields nobody submitted *)
  (** what they become: the zero value, an empty slice and an empty map *)
  Definition reset_value (t : pty) : pval := match t with PSlice _ => PVSlice [] | PMap _ _ => PVMap [] | _ => pzero t end.
  Lemma unmentioned_elem p name key : ~ mentioned p name -> In key (names p) -> elem_of name key = None.
  Proof.
    intros Hm Hk. pose proof (elem_of_cases name key) as H. destruct (elem_of name key) as [(i & sub)|]; [|reflexivity]. exfalso. apply Hm. destruct (-1 <? i)%Z.
    - destruct H as ((ds & rest & E & _) & _). exists key. split; [exact Hk|]. right. exists (ds ++ bs "]" ++ rest). right. exact E.
    - destruct H as ([E|(t & E & _)] & _); exists key; (split; [exact Hk|]); [left; exact E|right; exists t; right; exact E].
  Qed.
  Lemma unmentioned_vals p name : ~ mentioned p name -> vals (p_vals p) name = [].
  Proof.
    intros Hm. unfold vals. destruct (aget (p_vals p) name) as [l|] eqn:E; [|reflexivity]. exfalso. apply Hm. apply aget_some in E. exists name. split; [|left; reflexivity]. apply in_app_iff. left. apply in_map_iff. exists (name, l). auto.
  Qed.
  Lemma struct_loop_nothing fs p name : forall keys done_ cur r, (forall key, In key keys -> has_prefix key (name ++ bs ".") = false) -> struct_loop F T fs p name keys done_ cur r -> r = Ok (PVStruct cur).
  Proof. induction keys as [|k keys IH]; intros done_ cur r Hk H; cbn [struct_loop] in H; [exact H|]. rewrite (Hk k (or_introl eq_refl)) in H. cbn [negb] in H. exact (IH _ _ _ (fun key Hin => Hk key (or_intror Hin)) H). Qed.
  Lemma process_nothing be p name key vs fl r : elem_of name key = None -> process F T be p name (normalize name key) vs fl r -> r = Ok [].
  Proof. intros E H. apply process_cases in H. rewrite E in H. exact H. Qed.
  Theorem C105_unmentioned_is_reset : forall t p name r, ~ mentioned p name -> binds t p name r -> r = Ok (reset_value t).
  Proof.
    intros t p name r Hm H. destruct t as [| | | | | |e|e|k e| |fs]; try (apply C63_first_value_is_bound in H; [|reflexivity]; rewrite (unmentioned_vals _ _ Hm) in H; exact H).
    - cbn [ParamsModel.binds] in H. destruct H as (ov & of_ & rv & rf & Pv & Pf & Hv & Hf & E).
      assert (Ev : rv = map (fun _ => Ok []) ov).
      { assert (K : forall kv, In kv ov -> In (fst kv) (names p)) by (intros kv Hin; apply in_app_iff; left; apply in_map; eapply Permutation_in; [apply Permutation_sym; exact Pv|exact Hin]).
        clear E Pv. induction Hv as [|kv s ov rv Hp _ IH]; [reflexivity|]. cbn [map]. f_equal; [|apply IH; intros x Hx; apply K; right; exact Hx].
        eapply process_nothing; [|exact Hp]. apply (unmentioned_elem p); [exact Hm|apply K; left; reflexivity]. }
      assert (Ef : rf = map (fun _ => Ok []) of_).
      { assert (K : forall kv, In kv of_ -> In (fst kv) (names p)) by (intros kv Hin; apply in_app_iff; right; apply in_map; eapply Permutation_in; [apply Permutation_sym; exact Pf|exact Hin]).
        clear E Pf. induction Hf as [|kv s of_ rf Hp _ IH]; [reflexivity|]. cbn [map]. f_equal; [|apply IH; intros x Hx; apply K; right; exact Hx].
        eapply process_nothing; [|exact Hp]. apply (unmentioned_elem p); [exact Hm|apply K; left; reflexivity]. }
      assert (ZZ : forall {A B} (l1 : list A) (l2 : list B), all_ok (map (fun _ => Ok (@nil (Z * pval))) l1 ++ map (fun _ => Ok []) l2) = Ok (repeat [] (List.length l1 + List.length l2))).
      { intros A B l1 l2. induction l1 as [|a l1 IH]; cbn [map List.app all_ok RouterModel.bind List.length plus repeat].
        - induction l2 as [|b l2 IH]; [reflexivity|]. cbn [map all_ok RouterModel.bind List.length plus repeat]. rewrite IH. reflexivity.
        - rewrite IH. reflexivity. }
      subst rv rf. rewrite ZZ in E. cbn [RouterModel.bind] in E. assert (C : forall n, List.concat (repeat (@nil (Z * pval)) n) = []) by (induction n; [reflexivity|assumption]). rewrite C in E. exact E.
    - apply C104_pointer in H as [(_ & ->)|(X & _)]; [reflexivity|]. exfalso. apply X, unmentioned_vals, Hm.
    - cbn [ParamsModel.binds] in H. unfold bind_map in H. pose proof (unmentioned_vals _ _ Hm) as V. unfold vals in V.
      replace (match aget (p_vals p) name with Some (v :: _) => v | _ => [] end) with (@nil ascii) in H by (destruct (aget (p_vals p) name) as [[|v l]|]; [reflexivity|discriminate|reflexivity]).
      cbn [is_nil] in H. destruct H as (ov & Pv & H). replace (map_entries name ov) with (@nil (bytes * option bytes)) in H; [exact H|]. symmetry.
      assert (K : forall kv, In kv ov -> has_prefix (fst kv) (name ++ bs "[") = false).
      { intros kv Hin. destruct (has_prefix (fst kv) (name ++ bs "[")) eqn:E; [|reflexivity]. exfalso. apply Hm. apply has_prefix_spec in E as (t & E). exists (fst kv). split.
        - apply in_app_iff. left. apply in_map. eapply Permutation_in; [apply Permutation_sym; exact Pv|exact Hin].
        - right. exists t. right. rewrite app_assoc. exact E. }
      clear Pv H. induction ov as [|kv ov IH]; [reflexivity|]. unfold map_entries. cbn [flat_map]. rewrite (K kv (or_introl eq_refl)). cbn [andb List.app]. apply IH. intros x Hx. apply K. right. exact Hx.
    - cbn in H. exact H.
    - cbn [ParamsModel.binds] in H. destruct H as (ov & Pv & H). apply struct_loop_nothing in H; [exact H|]. intros key Hin. destruct (has_prefix key (name ++ bs ".")) eqn:E; [|reflexivity]. exfalso. apply Hm. apply has_prefix_spec in E as (t & E). exists key. split.
      + apply in_app_iff. left. eapply Permutation_in; [apply Permutation_map, Permutation_sym; exact Pv|exact Hin].
      + right. exists t. left. rewrite app_assoc. exact E.
  Qed.
  (** an exported field whose parameter nobody mentions loses its value *)
  Theorem C105_unmentioned_fields_are_reset : forall p name tag param t v f', tag <> bs "-" -> param_of name tag param -> ~ mentioned p param ->
    filled p (BPlain name tag true t v) f' -> f' = BPlain name tag true t (reset_value t).
  Proof.
    intros p name tag param t v f' Ht Hp Hm H. inversion H as [? ? ? ? ? X|? ? ? ? x param' _ Hp' Hb| | | | | | |]; subst; [destruct X; [discriminate|contradiction]|].
    rewrite (param_of_fun _ _ _ _ Hp' Hp) in Hb. apply C105_unmentioned_is_reset in Hb; [congruence|exact Hm].
  Qed.
  Example C105_exact_case : ~ mentioned (mkParams [(bs "N", [bs "1"]); (bs "Tags2[0]", [bs "1"])] []) (bs "Tags") /\ reset_value (PSlice PString) = PVSlice [].
  Proof. split; [|reflexivity]. intros (key & [<-|[<-|[]]] & [E|(t & [E|E])]); discriminate. Qed.
End Bindings.

Print Assumptions C64_each_value_count.
Print Assumptions C64_each_value_once_iff.
Print Assumptions C106_parameters_after_errors.
Print Assumptions C109_which_uploads_can_be_read.
Print Assumptions C109_one_such_list.
Print Assumptions C84_real_ip.
Print Assumptions C84_right_for.
Print Assumptions C84_right_for_forwarded.
Print Assumptions C84_real_host.
Print Assumptions C135_real_url.
Print Assumptions C135_real_url_error.
Print Assumptions C104_pointer.
Print Assumptions C104_parts_alone.
Print Assumptions C110_slice_size.
Print Assumptions C110_size_is_determined.
Print Assumptions C105_unmentioned_is_reset.
Print Assumptions C105_unmentioned_fields_are_reset.
