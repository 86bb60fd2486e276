(** Props_Static: C82, C83, C122-C127 -- the static file filter. *)
From Coq Require Import List Ascii String Bool Arith ZArith Lia.
Import ListNotations.
From Verif Require Import GoStr GoPath GoEnc StaticModel.

(** *** Specification *)
(** the absolute path with these components *)
Definition path_of (segs : list bytes) : bytes := slash :: join [slash] segs.
(** the components of a path once ".", ".." and empty ones are resolved; ".." at
    the top is dropped. [resolves stack parts result], stack reversed *)
Inductive resolves : list bytes -> list bytes -> list bytes -> Prop :=
| rs_end st : resolves st [] (rev st)
| rs_skip st s ss r : (s = [] \/ s = bs ".") -> resolves st ss r -> resolves st (s :: ss) r
| rs_up st ss r : resolves (tl st) ss r -> resolves st (bs ".." :: ss) r
| rs_down st s ss r : good_seg s -> resolves (s :: st) ss r -> resolves st (s :: ss) r.
(** a path below (or at) a directory *)
Definition inside (root p : bytes) : Prop :=
  exists rs segs, Forall good_seg rs /\ Forall good_seg segs /\ root = path_of rs /\ p = path_of (rs ++ segs).
(** the prefix as configured and as used: a leading slash added, trailing ones removed *)
Definition prefix_used (configured used : bytes) : Prop :=
  (configured = [] /\ used = []) \/
  (configured <> [] /\ exists k, used ++ repeat slash k = (if has_prefix configured [slash] then configured else slash :: configured) /\
    ~ exists t, used = t ++ [slash]).
Definition allowed (opt : options) (rq : request) : Prop :=
  any_method opt = true \/ q_method rq = bs "GET" \/ q_method rq = bs "HEAD".
(** the path is the prefix followed by [rest], cut at a segment boundary (with no
    prefix, everything) *)
Definition under (used path rest : bytes) : Prop :=
  path = used ++ rest /\ (used = [] \/ rest = [] \/ exists r, rest = slash :: r).
Definition skipped (opt : options) (rest : bytes) : Prop := exists p r, In p (skip_prefix opt) /\ rest = p ++ r.
(** what the client gets *)
Definition is_answer (e : sev) : bool := match e with EServe _ _ | ERedirect _ | ENotFound => true | _ => false end.
Definition answers (es : list sev) : list sev := filter is_answer es.

(** *** Lemmas on paths *)
Lemma split_any c a b : split_byte c (a ++ c :: b) = split_byte c a ++ split_byte c b.
Proof.
  induction a as [|x a IH]; cbn [List.app split_byte].
  - now rewrite Ascii.eqb_refl.
  - destruct (Ascii.eqb_spec x c) as [->|N]; [now rewrite IH|].
    rewrite IH. destruct (split_byte c a) as [|p ps] eqn:E; [exfalso; exact (split_byte_not_nil c a E)|reflexivity].
Qed.
Lemma clean_app l1 : forall st l2, clean_segs st (l1 ++ l2) = clean_segs (rev (clean_segs st l1)) l2.
Proof.
  induction l1 as [|s l1 IH]; intros st l2; cbn [List.app clean_segs]; [now rewrite rev_involutive|].
  destruct (is_nil s); [apply IH|]. destruct (beq s (bs ".")); [apply IH|]. destruct (beq s (bs "..")); apply IH.
Qed.
Lemma split_path_of segs : Forall good_seg segs -> clean_segs [] (split_byte slash (path_of segs)) = segs.
Proof.
  intros H. unfold path_of. change (slash :: join [slash] segs) with ([] ++ slash :: join [slash] segs).
  rewrite split_any. cbn [split_byte List.app clean_segs is_nil].
  destruct segs as [|s segs]; [reflexivity|].
  rewrite split_join.
  - rewrite clean_segs_id by assumption. reflexivity.
  - discriminate.
  - eapply Forall_impl; [|exact H]. intros x (_ & _ & _ & G). exact G.
Qed.
Lemma full_name_spec rs name : Forall good_seg rs ->
  full_name (path_of rs) name = path_of (rs ++ clean_segs [] (split_byte slash name)).
Proof.
  intros H. unfold full_name, path_clean_rooted at 1.
  change ([slash] ++ path_clean_rooted (slash :: name)) with (slash :: path_clean_rooted (slash :: name)).
  rewrite split_any, clean_app, split_path_of by assumption.
  set (ns := clean_segs [] (split_byte slash (slash :: name))).
  assert (En : ns = clean_segs [] (split_byte slash name)).
  { unfold ns. change (slash :: name) with ([] ++ slash :: name). rewrite split_any. reflexivity. }
  rewrite <- En.
  assert (G : Forall good_seg ns) by apply clean_split_good.
  change (path_clean_rooted (slash :: name)) with (path_of ns).
  assert (X : forall st, clean_segs st (split_byte slash (path_of ns)) = rev st ++ ns).
  { intros st. unfold path_of. change (slash :: join [slash] ns) with ([] ++ slash :: join [slash] ns).
    rewrite split_any. cbn [split_byte List.app clean_segs is_nil].
    destruct ns as [|s segs] eqn:E; [cbn; now rewrite app_nil_r|]. rewrite split_join.
    - now apply clean_segs_id.
    - discriminate.
    - eapply Forall_impl; [|exact G]. intros x (_ & _ & _ & K). exact K. }
  rewrite X, rev_involutive. reflexivity.
Qed.
Lemma abs_dir_spec cwd dir : exists rs, Forall good_seg rs /\ abs_dir cwd dir = path_of rs.
Proof.
  unfold abs_dir, path_clean_rooted. destruct (has_prefix dir [slash]); eexists; (split; [|reflexivity]); apply clean_split_good.
Qed.
Lemma resolves_to st segs r : resolves st segs r -> clean_segs st segs = r.
Proof.
  induction 1 as [st|st s ss r [->| ->] _ IH|st ss r _ IH|st s ss r (G1 & G2 & G3 & _) _ IH]; cbn [clean_segs]; auto.
  destruct s as [|c s]; [congruence|]. cbn [is_nil].
  destruct (beq_spec (c :: s) (bs ".")); [congruence|]. destruct (beq_spec (c :: s) (bs "..")); [congruence|exact IH].
Qed.
Lemma resolves_clean segs : forall st, Forall (fun s => ~ In slash s) segs -> resolves st segs (clean_segs st segs).
Proof.
  induction segs as [|s ss IH]; intros st H; cbn [clean_segs]; [constructor|].
  inversion H as [|? ? Hs Hss]; subst. destruct s as [|c s]; cbn [is_nil]; [apply rs_skip; auto|].
  destruct (beq_spec (c :: s) (bs ".")) as [E|N1]; [apply rs_skip; auto|].
  destruct (beq_spec (c :: s) (bs "..")) as [E|N2]; [rewrite E; apply rs_up; auto|].
  apply rs_down; [|auto]. repeat split; auto. discriminate.
Qed.
Lemma resolves_split p : resolves [] (split_byte slash p) (clean_segs [] (split_byte slash p)).
Proof. apply resolves_clean. apply split_slash_clean. Qed.
Lemma resolves_fun p r : resolves [] (split_byte slash p) r -> r = clean_segs [] (split_byte slash p).
Proof. intros H. symmetry. now apply resolves_to. Qed.

(** *** The prefix *)
Lemma drop_slashes_spec s : exists k, s = repeat slash k ++ drop_slashes s /\ (forall r, drop_slashes s <> slash :: r).
Proof.
  induction s as [|c s (k & E & N)]; [exists 0; split; [reflexivity|discriminate]|].
  cbn [drop_slashes]. destruct (Ascii.eqb_spec c slash) as [->|K].
  - exists (S k). split; [cbn; now rewrite <- E|exact N].
  - exists 0. split; [reflexivity|]. intros r [=]. congruence.
Qed.
Lemma rev_repeat {A} (x : A) k : rev (repeat x k) = repeat x k.
Proof.
  induction k as [|k IH]; [reflexivity|]. cbn [repeat rev]. rewrite IH. symmetry.
  clear IH. induction k as [|k IH]; [reflexivity|]. cbn [repeat List.app]. now rewrite <- IH.
Qed.
Lemma trim_right_spec s : exists k, trim_right_slash s ++ repeat slash k = s /\ ~ exists t, trim_right_slash s = t ++ [slash].
Proof.
  destruct (drop_slashes_spec (rev s)) as (k & E & N). exists k. unfold trim_right_slash. split.
  - apply (f_equal (@rev ascii)) in E. rewrite rev_involutive, rev_app_distr, rev_repeat in E. symmetry. exact E.
  - intros (t & K). apply (f_equal (@rev ascii)) in K. rewrite rev_involutive, rev_app_distr in K. exact (N _ K).
Qed.
Lemma prefix_used_spec p : prefix_used p (normalize_prefix p).
Proof.
  destruct p as [|c p]; [left; auto|]. right. split; [discriminate|].
  unfold normalize_prefix. cbn [has_prefix]. rewrite andb_true_r, Ascii.eqb_sym.
  destruct (Ascii.eqb slash c); apply trim_right_spec.
Qed.
(** the specification determines the used prefix *)
Lemma repeat_tail k : forall (x y : bytes) j, x ++ repeat slash k = y ++ repeat slash j ->
  (~ exists t, x = t ++ [slash]) -> (~ exists t, y = t ++ [slash]) -> x = y.
Proof.
  assert (TL : forall k, repeat slash (S k) = repeat slash k ++ [slash]).
  { intros n. induction n as [|n IH]; [reflexivity|]. cbn [repeat List.app] in *. now rewrite <- IH. }
  induction k as [|k IH]; intros x y j E Nx Ny.
  - cbn in E. rewrite app_nil_r in E. destruct j as [|j]; [cbn in E; now rewrite app_nil_r in E|].
    exfalso. apply Nx. rewrite TL, app_assoc in E. eauto.
  - destruct j as [|j].
    + exfalso. apply Ny. change (repeat slash 0) with (@nil ascii) in E. rewrite app_nil_r in E. rewrite TL, app_assoc in E. eauto.
    + rewrite !TL, !app_assoc in E. apply app_inj_tail in E. destruct E as (E & _). now apply (IH x y j).
Qed.
Theorem prefix_used_unique p u : prefix_used p u -> u = normalize_prefix p.
Proof.
  intros H. pose proof (prefix_used_spec p) as K.
  destruct H as [(-> & ->)|(N & k & E & Nx)]; [reflexivity|].
  destruct K as [(-> & _)|(_ & j & E2 & Ny)]; [congruence|].
  apply (repeat_tail k _ _ j); auto. congruence.
Qed.

Section Static.
  Variable bad_authority : bytes -> bool.
  Variable fs : nat -> bytes -> option node.
  Variable stat_ok : nat -> bool.
  Notation filter_ := (serve_filter bad_authority fs stat_ok).
  Notation serve := (serve bad_authority fs stat_ok).

  (** the three guards at once *)
  Lemma serve_under prefix root opt rq :
    (serve prefix root opt rq = [] /\ ~ (allowed opt rq /\ exists rest, under prefix (q_path rq) rest /\ ~ skipped opt rest)) \/
    (exists rest, allowed opt rq /\ under prefix (q_path rq) rest /\ ~ skipped opt rest /\
       serve prefix root opt rq = serve_rest bad_authority fs stat_ok root opt rq rest).
  Proof using Type.
    unfold StaticModel.serve.
    destruct (negb (any_method opt) && negb (beq (q_method rq) (bs "GET")) && negb (beq (q_method rq) (bs "HEAD")))%bool eqn:M.
    { left. split; [reflexivity|]. intros (A & _). apply andb_true_iff in M as (M & M3). apply andb_true_iff in M as (M1 & M2).
      apply negb_true_iff in M1, M2, M3. destruct A as [A|[A|A]]; [congruence|rewrite A in M2; discriminate|rewrite A in M3; discriminate]. }
    assert (A : allowed opt rq).
    { unfold allowed. destruct (any_method opt); [auto|]. cbn [negb andb] in M.
      destruct (beq_spec (q_method rq) (bs "GET")); [auto|]. destruct (beq_spec (q_method rq) (bs "HEAD")); [auto|discriminate M]. }
    clear M.
    match goal with |- context [match ?u with None => [] | Some _ => _ end] => set (U := u) end.
    assert (HU : match U with
                 | Some rest => under prefix (q_path rq) rest /\ forall r, under prefix (q_path rq) r -> r = rest
                 | None => forall r, ~ under prefix (q_path rq) r
                 end).
    { unfold U. destruct prefix as [|c p]; cbn [is_nil].
      - split; [split; auto|]. intros r (E & _). exact (eq_sym E).
      - destruct (has_prefix (q_path rq) (c :: p)) eqn:HP; cbn [negb].
        + apply has_prefix_spec in HP. destruct HP as (t & E). rewrite E, skipn_app_len.
          destruct t as [|d t].
          * split; [split; auto|]. intros r (K & _). symmetry. now apply app_inv_head in K.
          * destruct (Ascii.eqb_spec d slash) as [->|N]; cbn [negb].
            -- split; [split; [reflexivity|right; right; eauto]|]. intros r (K & _). symmetry. now apply app_inv_head in K.
            -- intros r (K & B). apply app_inv_head in K. subst r. destruct B as [B|[B|(x & B)]]; congruence.
        + intros r (K & _). assert (has_prefix (q_path rq) (c :: p) = true); [|congruence]. apply has_prefix_spec. eauto. }
    destruct U as [rest|].
    - destruct HU as (HU & Huniq).
      assert (SK : existsb (has_prefix rest) (skip_prefix opt) = true <-> skipped opt rest).
      { rewrite existsb_exists. unfold skipped. split.
        - intros (p & Ip & Hp). apply has_prefix_spec in Hp. destruct Hp as (r & Hr). eauto.
        - intros (p & r & Ip & Hr). exists p. split; [exact Ip|]. apply has_prefix_spec. eauto. }
      destruct (existsb (has_prefix rest) (skip_prefix opt)) eqn:S.
      + left. split; [reflexivity|]. intros (_ & r & Hr & Ns). apply Huniq in Hr. subst r. apply Ns, SK. reflexivity.
      + right. exists rest. repeat split; try (apply HU); auto. intros K. apply SK in K. congruence.
    - left. split; [reflexivity|]. intros (_ & r & Hr & _). exact (HU r Hr).
  Qed.

  (** C82. Every path handed to the file system, in every request, is the
      configured directory or below it; and every file that is served was opened
      through such a path. *)
  Theorem C82_inside_root cwd prefix dir opt rq :
    let evs := filter_ cwd prefix dir opt rq in
    (forall h p, In (EOpen h p) evs -> inside (abs_dir cwd dir) p) /\
    (forall p, In (EFail p) evs -> inside (abs_dir cwd dir) p) /\
    (forall name h, In (EServe name h) evs -> exists p, In (EOpen h p) evs /\ fs h p <> None).
  Proof using Type.
    cbv zeta. unfold serve_filter. destruct (abs_dir_spec cwd dir) as (rs & Hrs & Er).
    assert (FN : forall name, inside (abs_dir cwd dir) (full_name (abs_dir cwd dir) name)).
    { intros name. exists rs, (clean_segs [] (split_byte slash name)). rewrite Er at 2. rewrite full_name_spec by assumption.
      repeat split; auto. apply clean_split_good. }
    set (root := abs_dir cwd dir) in *.
    destruct (serve_under (normalize_prefix prefix) root opt rq) as [(-> & _)|(rest & _ & _ & _ & ->)].
    { repeat split; intros; contradiction. }
    unfold serve_rest, serve_file.
    assert (G0 : forall name, fs 0 (full_name root name) = None \/ exists n, fs 0 (full_name root name) = Some n) by (intros name; destruct (fs 0 (full_name root name)); eauto).
    repeat split; intros *; 
      (destruct (fs 0 (full_name root rest)) as [[|x]|] eqn:F0; [destruct (stat_ok 0)|destruct (stat_ok 0)|];
       try (destruct (negb (has_suffix (q_path rq) [slash]))); 
       try (destruct (fs 1 (full_name root (join_index rest))) as [[|y]|] eqn:F1; try destruct (stat_ok 1));
       try (destruct (is_nil (try_files opt)));
       try (destruct (fs 1 (full_name root (try_files opt))) as [[|z]|] eqn:F2; try destruct (stat_ok 1)));
      cbn [List.app negb In]; intros I;
      repeat (destruct I as [I|I]; [try discriminate I|]); try contradiction;
      try (injection I as <- <-); try (injection I as <-); subst; auto;
      try (eexists; split; [left; reflexivity|congruence]);
      try (eexists; split; [right; left; reflexivity|congruence]);
      try (eexists; split; [right; right; left; reflexivity|congruence]).
  Qed.

  (** C83. With the configured prefix in its normal form, the filter does anything
      at all for a request exactly when its method is allowed, its path is the
      prefix itself or the prefix followed by a slash, and the rest of the path
      has none of the skipped prefixes. *)
  Theorem C83_prefix_boundary cwd prefix used dir opt rq :
    prefix_used prefix used ->
    (filter_ cwd prefix dir opt rq <> [] <->
     allowed opt rq /\ exists rest, under used (q_path rq) rest /\ ~ skipped opt rest).
  Proof using Type.
    intros Hu. apply prefix_used_unique in Hu. subst used. unfold serve_filter.
    destruct (serve_under (normalize_prefix prefix) (abs_dir cwd dir) opt rq) as [(E & N)|(rest & A & U & K & E)].
    - rewrite E. split; [congruence|]. intros H. contradiction.
    - split; [eauto|]. intros _. rewrite E. unfold serve_rest, serve_file.
      destruct (fs 0 (full_name (abs_dir cwd dir) rest)) as [[|x]|]; [destruct (stat_ok 0)|destruct (stat_ok 0)|];
       try (destruct (negb (has_suffix (q_path rq) [slash]))); 
       try (destruct (fs 1 (full_name (abs_dir cwd dir) (join_index rest))) as [[|y]|]; try destruct (stat_ok 1));
       try (destruct (is_nil (try_files opt)));
       try (destruct (fs 1 (full_name (abs_dir cwd dir) (try_files opt))) as [[|z]|]; try destruct (stat_ok 1)); cbn; discriminate.
  Qed.

  (** at most one answer is given, and only the case of a directory named
      index.html gives none *)
  Theorem C124_one_answer cwd prefix dir opt rq :
    (List.length (answers (filter_ cwd prefix dir opt rq)) <= 1)%nat.
  Proof using Type.
    unfold serve_filter.
    destruct (serve_under (normalize_prefix prefix) (abs_dir cwd dir) opt rq) as [(-> & _)|(rest & A & U & K & ->)]; [cbn; lia|].
    unfold serve_rest, serve_file.
    destruct (fs 0 (full_name (abs_dir cwd dir) rest)) as [[|x]|]; [destruct (stat_ok 0)|destruct (stat_ok 0)|];
       try (destruct (negb (has_suffix (q_path rq) [slash]))); 
       try (destruct (fs 1 (full_name (abs_dir cwd dir) (join_index rest))) as [[|y]|]; try destruct (stat_ok 1));
       try (destruct (is_nil (try_files opt)));
       try (destruct (fs 1 (full_name (abs_dir cwd dir) (try_files opt))) as [[|z]|]; try destruct (stat_ok 1)); cbn; lia.
  Qed.

  (** C123 (partial). Without TryFilesThen every file that is opened is closed,
      exactly once and after its use, in every request. Missing: TryFilesThen. *)
  Definition closed_ok (evs : list sev) : Prop :=
    forall h p, In (EOpen h p) evs -> exists a b c, evs = a ++ EOpen h p :: b ++ EClose h :: c /\
      ~ In (EClose h) a /\ ~ In (EClose h) b /\ ~ In (EClose h) c /\ (forall name, ~ In (EServe name h) c).
  Theorem C123_files_closed_partial cwd prefix dir opt rq :
    try_files opt = [] -> closed_ok (filter_ cwd prefix dir opt rq).
  Proof using Type.
    intros T. unfold serve_filter, closed_ok.
    destruct (serve_under (normalize_prefix prefix) (abs_dir cwd dir) opt rq) as [(-> & _)|(rest & A & U & K & ->)]; [contradiction|].
    unfold serve_rest, serve_file. rewrite T. cbn [is_nil].
    destruct (fs 0 (full_name (abs_dir cwd dir) rest)) as [[|x]|]; [destruct (stat_ok 0)|destruct (stat_ok 0)|];
       try (destruct (negb (has_suffix (q_path rq) [slash]))); 
       try (destruct (fs 1 (full_name (abs_dir cwd dir) (join_index rest))) as [[|y]|]; try destruct (stat_ok 1));
       cbn [List.app negb In]; intros h p I;
       repeat (destruct I as [I|I]; [try discriminate I|]); try contradiction; injection I as <- <-.
    all: match goal with
      | |- exists a b c, EOpen 0 ?p :: ?l = _ /\ _ =>
          first [ exists [], [], (skipn 1 l)
                ; split; [reflexivity|cbn; repeat split; intros; intuition discriminate]
                | exists [], (firstn 1 l), (skipn 2 l)
                ; split; [reflexivity|cbn; repeat split; intros; intuition discriminate]
                | exists [], (firstn 2 l), (skipn 3 l)
                ; split; [reflexivity|cbn; repeat split; intros; intuition discriminate]
                | exists [], (firstn 3 l), (skipn 4 l)
                ; split; [reflexivity|cbn; repeat split; intros; intuition discriminate] ]
      | |- exists a b c, ?e :: EOpen 1 ?p :: ?l = _ /\ _ =>
          first [ exists [e], [], (skipn 1 l)
                ; split; [reflexivity|cbn; repeat split; intros; intuition discriminate]
                | exists [e], (firstn 1 l), (skipn 2 l)
                ; split; [reflexivity|cbn; repeat split; intros; intuition discriminate] ]
      end.
  Qed.
End Static.

(** *** C124: what is served *)
Lemma join_index_spec rest : clean_segs [] (split_byte slash (join_index rest)) = clean_segs [] (split_byte slash rest) ++ [bs "index.html"].
Proof.
  unfold join_index, path_clean_rooted. change (bs "/index.html") with (slash :: bs "index.html").
  rewrite (split_any slash rest (bs "index.html")), clean_app. change (split_byte slash (bs "index.html")) with [bs "index.html"].
  assert (G : good_seg (bs "index.html")).
  { repeat split; try discriminate. intros K. cbn in K. unfold slash in K. repeat (destruct K as [K|K]; [discriminate K|]). exact K. }
  rewrite (clean_segs_id _ [bs "index.html"]) by (constructor; [exact G|constructor]). rewrite rev_involutive.
  apply split_path_of. apply Forall_app. split; [apply clean_split_good|]. constructor; [exact G|constructor].
Qed.


(** *** C122: redirects *)
Definition same_host (loc : bytes) : Prop :=
  exists l, loc = slash :: l /\ (forall r, l <> slash :: r) /\ (forall r, l <> "\"%char :: r).

Lemma hex_upper_plain n : n < 16 -> hex_upper n <> slash /\ hex_upper n <> "?"%char /\ hex_upper n <> "\"%char.
Proof. intros H. do 16 (destruct n as [|n]; [repeat split; discriminate|]). lia. Qed.
Lemma escape_path_bytes s c : In c (escape_path s) -> path_keeps c = true \/ c = "%"%char \/ exists n, n < 16 /\ c = hex_upper n.
Proof.
  unfold escape_path. intros H. apply in_flat_map in H. destruct H as (d & _ & Hd).
  destruct (path_keeps d) eqn:K.
  - destruct Hd as [<-|[]]. auto.
  - pose proof (code_lt d). destruct Hd as [<-|[<-|[<-|[]]]]; [auto| |]; right; right.
    + exists (code d / 16). split; [|reflexivity]. apply Nat.div_lt_upper_bound; lia.
    + exists (code d mod 16). split; [|reflexivity]. apply Nat.mod_upper_bound. lia.
Qed.
Lemma escape_path_free s c : path_keeps c = false -> c <> "%"%char -> (forall n, n < 16 -> hex_upper n <> c) -> ~ In c (escape_path s).
Proof.
  intros K P H I. apply escape_path_bytes in I. destruct I as [I|[I|(n & L & I)]]; [congruence|congruence|]. exact (H n L (eq_sym I)).
Qed.
Lemma escape_no_question s : ~ In "?"%char (escape_path s).
Proof. apply escape_path_free; [reflexivity|discriminate|]. intros n L. apply (hex_upper_plain n L). Qed.
Lemma escape_no_backslash s : ~ In "\"%char (escape_path s).
Proof. apply escape_path_free; [reflexivity|discriminate|]. intros n L. apply (hex_upper_plain n L). Qed.
Lemma escape_app a b : escape_path (a ++ b) = escape_path a ++ escape_path b.
Proof. apply flat_map_app. Qed.
Lemma escape_slash s : escape_path (slash :: s) = slash :: escape_path s.
Proof. reflexivity. Qed.

Lemma before_question p q : ~ In "?"%char p -> (q = [] \/ exists r, q = "?"%char :: r) -> before "?"%char (p ++ q) = p.
Proof.
  intros H [->|(r & ->)]; unfold before.
  - rewrite app_nil_r, split_byte_nosep by assumption. reflexivity.
  - rewrite split_byte_app by assumption. reflexivity.
Qed.
(** the paths that are not an authority when read as a URL reference *)
Definition not_authority (p : bytes) : Prop :=
  p = [] \/ (exists c r, p = slash :: c :: r /\ c <> slash) \/ exists r, p = slash :: slash :: slash :: r.

Lemma clean_seg_bytes segs : forall st c s, In s (clean_segs st segs) -> In c s ->
  (exists s', In s' st /\ In c s') \/ exists s', In s' segs /\ In c s'.
Proof.
  induction segs as [|x segs IH]; intros st c s Hs Hc; cbn [clean_segs] in Hs.
  - left. exists s. split; [now apply in_rev|exact Hc].
  - assert (W : forall st', In s (clean_segs st' segs) -> (forall y, In y st' -> In y st \/ y = x) ->
      (exists s', In s' st /\ In c s') \/ (exists s', In s' (x :: segs) /\ In c s')).
    { intros st' H1 H2. destruct (IH st' c s H1 Hc) as [(s' & A & B)|(s' & A & B)].
      - destruct (H2 _ A) as [K| ->]; [left; eauto|right; exists x; split; [now left|exact B]].
      - right. exists s'. split; [now right|exact B]. }
    destruct (is_nil x); [apply (W st); auto|]. destruct (beq x (bs ".")); [apply (W st); auto|].
    destruct (beq x (bs "..")).
    + apply (W (tl st)); auto. intros y Hy. left. destruct st; [destruct Hy|now right].
    + apply (W (x :: st)); auto. intros y [<-|Hy]; auto.
Qed.
Lemma split_bytes sep s p c : In p (split_byte sep s) -> In c p -> In c s.
Proof.
  revert p. induction s as [|a s IH]; intros p Hp Hc; cbn [split_byte] in Hp.
  - destruct Hp as [<-|[]]. exact Hc.
  - destruct (Ascii.eqb a sep).
    + destruct Hp as [<-|Hp]; [destruct Hc|]. right. eauto.
    + destruct (split_byte sep s) as [|q qs] eqn:E.
      * destruct Hp as [<-|[]]. destruct Hc as [->|[]]. now left.
      * destruct Hp as [<-|Hp].
        -- destruct Hc as [->|Hc]; [now left|]. right. apply (IH q); [now left|exact Hc].
        -- right. apply (IH p); [now right|exact Hc].
Qed.

Lemma parse_host_none bad p query : not_authority p -> (query = [] \/ exists r, query = "?"%char :: r) ->
  parse_host bad (escape_path (p ++ [slash]) ++ query) = Some [].
Proof.
  intros Hp Hq. set (E := escape_path (p ++ [slash])).
  unfold parse_host. destruct Hp as [->|[(c & r & -> & Hc)|(r & ->)]].
    - unfold E. cbn [List.app]. change (escape_path [slash]) with [slash]. destruct Hq as [->|(x & ->)]; reflexivity.
    - assert (N : has_prefix (E ++ query) (bs "//") = false).
      { unfold E. cbn [List.app]. rewrite escape_slash. cbn [List.app has_prefix bs list_ascii_of_string].
        change (slash :: c :: r ++ [slash]) with ([slash; c] ++ r ++ [slash]) in *.
        change (c :: r ++ [slash]) with ([c] ++ r ++ [slash]). rewrite escape_app. unfold escape_path at 1. cbn [flat_map].
        destruct (path_keeps c); cbn [List.app has_prefix].
        - destruct (Ascii.eqb_spec "/" c) as [<-|_]; [exfalso; apply Hc; reflexivity|]. cbn. now rewrite ?andb_false_r.
        - cbn. now rewrite ?andb_false_r. }
      rewrite N. reflexivity.
    - unfold E. cbn [List.app]. rewrite !escape_slash. reflexivity.
Qed.

(** the Location of the redirect, in terms of the resolved path *)
Definition dir_url (segs : list bytes) : bytes := match segs with [] => [slash] | _ => path_of segs ++ [slash] end.
Lemma code_slash_keeps c : path_keeps c = true -> c <> "%"%char.
Proof. intros H ->. discriminate H. Qed.
Lemma escape_byte_slash c : c <> slash -> ~ In slash (escape_path [c]).
Proof.
  intros N I. unfold escape_path in I. cbn [flat_map] in I. rewrite app_nil_r in I. pose proof (code_lt c).
  destruct (path_keeps c).
  - destruct I as [I|[]]. congruence.
  - destruct I as [I|[I|[I|[]]]]; [discriminate I| |].
    + destruct (hex_upper_plain (code c / 16)) as (X & _); [apply Nat.div_lt_upper_bound; lia|exact (X I)].
    + destruct (hex_upper_plain (code c mod 16)) as (X & _); [apply Nat.mod_upper_bound; lia|exact (X I)].
Qed.
Lemma split_prepend sep u v : ~ In sep u -> split_byte sep (u ++ v) =
  match split_byte sep v with q :: qs => (u ++ q) :: qs | [] => [u] end.
Proof.
  induction u as [|x u IH]; intros H; cbn [List.app split_byte].
  - destruct (split_byte sep v) eqn:E; [exfalso; revert E; apply split_byte_not_nil|reflexivity].
  - destruct (Ascii.eqb_spec x sep) as [->|N]; [exfalso; apply H; now left|].
    rewrite IH by (intros K; apply H; now right). destruct (split_byte sep v); reflexivity.
Qed.
Lemma split_escape s : split_byte slash (escape_path s) = map escape_path (split_byte slash s).
Proof.
  induction s as [|c s IH]; [reflexivity|]. change (c :: s) with ([c] ++ s). rewrite escape_app.
  destruct (Ascii.eqb_spec c slash) as [->|N].
  - cbn [List.app split_byte]. change (escape_path [slash]) with [slash]. cbn [List.app split_byte].
    rewrite Ascii.eqb_refl. cbn [map]. now rewrite IH.
  - rewrite (split_prepend slash [c]) by (intros [K|[]]; congruence).
    rewrite split_prepend by now apply escape_byte_slash. rewrite IH.
    destruct (split_byte slash s) as [|q qs] eqn:E; [reflexivity|]. cbn [map]. now rewrite <- escape_app.
Qed.
Lemma escape_nil s : is_nil (escape_path s) = is_nil s.
Proof. destruct s as [|c s]; [reflexivity|]. unfold escape_path. cbn [flat_map]. destruct (path_keeps c); reflexivity. Qed.
Lemma escape_dot s : beq (escape_path s) (bs ".") = beq s (bs ".").
Proof.
  destruct s as [|c s]; [reflexivity|]. change (c :: s) with ([c] ++ s) at 1. rewrite escape_app. unfold escape_path at 1. cbn [flat_map].
  destruct (path_keeps c) eqn:K; cbn [List.app].
  - cbn [bs list_ascii_of_string beq]. destruct (Ascii.eqb c "."); [|reflexivity]. cbn [andb].
    destruct s as [|d s]; [reflexivity|]. pose proof (escape_nil (d :: s)) as X. destruct (escape_path (d :: s)); [discriminate X|reflexivity].
  - cbn [bs list_ascii_of_string beq]. destruct (Ascii.eqb_spec c ".") as [->|_]; [discriminate K|]. reflexivity.
Qed.
Lemma escape_dotdot s : beq (escape_path s) (bs "..") = beq s (bs "..").
Proof.
  destruct s as [|c s]; [reflexivity|]. change (c :: s) with ([c] ++ s) at 1. rewrite escape_app. unfold escape_path at 1. cbn [flat_map].
  pose proof (escape_dot s) as D.
  destruct (path_keeps c) eqn:K; cbn [List.app].
  - change (bs "..") with ("."%char :: bs "."). cbn [beq]. rewrite D. reflexivity.
  - change (bs "..") with ("."%char :: bs "."). cbn [beq]. destruct (Ascii.eqb_spec c ".") as [->|_]; [discriminate K|]. reflexivity.
Qed.
Lemma clean_escape segs : forall st, clean_segs (map escape_path st) (map escape_path segs) = map escape_path (clean_segs st segs).
Proof.
  induction segs as [|s segs IH]; intros st; cbn [map clean_segs]; [symmetry; apply map_rev|].
  rewrite escape_nil, escape_dot, escape_dotdot. destruct (is_nil s); [apply IH|]. destruct (beq s (bs ".")); [apply IH|].
  destruct (beq s (bs "..")).
  - rewrite <- IH. f_equal. now destruct st.
  - rewrite <- (IH (s :: st)). reflexivity.
Qed.
Lemma escape_join segs : join [slash] (map escape_path segs) = escape_path (join [slash] segs).
Proof.
  induction segs as [|s segs IH]; [reflexivity|]. destruct segs as [|s2 segs]; [reflexivity|].
  cbn [map] in *. cbn [join] in *. rewrite !escape_app, <- IH. reflexivity.
Qed.
Lemma path_keeps_ascii c : path_keeps c = true -> code c < 128.
Proof. destruct c as [[] [] [] [] [] [] [] []]; vm_compute; intros H; try discriminate H; repeat constructor. Qed.
Lemma hex_escape s : hex_ascii (escape_path s) = escape_path s.
Proof.
  assert (H : Forall (fun c => code c < 128) (escape_path s)).
  { apply Forall_forall. intros c I. apply escape_path_bytes in I. destruct I as [I|[->|(n & L & ->)]].
    - now apply path_keeps_ascii.
    - vm_compute. repeat constructor.
    - do 16 (destruct n as [|n]; [vm_compute; repeat constructor|]). lia. }
  induction H as [|c l Hc _ IH]; [reflexivity|]. unfold hex_ascii in *. cbn [flat_map]. rewrite IH.
  apply Nat.ltb_lt in Hc. now rewrite Hc.
Qed.
Lemma last_suffix (x : bytes) (c : ascii) : has_suffix (x ++ [c]) [slash] = Ascii.eqb c slash.
Proof.
  destruct (Ascii.eqb_spec c slash) as [->|N].
  - apply has_suffix_spec. eauto.
  - destruct (has_suffix (x ++ [c]) [slash]) eqn:H; [|reflexivity]. apply has_suffix_spec in H. destruct H as (t & E).
    apply app_inj_tail in E. destruct E as (_ & E). congruence.
Qed.
Lemma join_last_slash segs : segs <> [] -> Forall good_seg segs -> has_suffix (slash :: join [slash] segs) [slash] = false.
Proof.
  intros N G. destruct (exists_last N) as (l & s & E). rewrite E in G. apply Forall_app in G. destruct G as (_ & G).
  inversion G as [|? ? (G1 & _ & _ & G4) _]; subst.
  assert (X : exists pre, join [slash] (l ++ [s]) = pre ++ s).
  { clear. induction l as [|a l IH]; [exists []; reflexivity|]. destruct IH as (pre & IH).
    destruct l as [|b l].
    - cbn. exists (a ++ [slash]). now rewrite <- app_assoc.
    - cbn [List.app join] in *. rewrite IH. exists (a ++ [slash] ++ pre). now rewrite <- !app_assoc. }
  destruct X as (pre & X). rewrite X. destruct (exists_last G1) as (s' & c & ->).
  rewrite app_assoc, app_comm_cons. rewrite last_suffix. apply Ascii.eqb_neq. intros ->. apply G4. apply in_or_app. right. now left.
Qed.
Lemma location_exact bad p q segs : not_authority p -> resolves [] (split_byte slash p) segs ->
  location bad (url_string (p ++ [slash]) q) = escape_path (dir_url segs) ++ hex_ascii (if is_nil q then [] else bs "?" ++ q).
Proof.
  intros Hp R. apply resolves_fun in R. unfold url_string.
  set (query := if is_nil q then [] else bs "?" ++ q).
  assert (Hq : query = [] \/ exists r, query = "?"%char :: r) by (unfold query; destruct q; cbn; eauto).
  unfold location. rewrite parse_host_none by assumption.
  rewrite before_question; [|apply escape_no_question|exact Hq]. rewrite skipn_app_len.
  assert (C : path_clean_rooted (escape_path (p ++ [slash])) = escape_path (path_of segs)).
  { unfold path_clean_rooted, path_of. rewrite split_escape. rewrite (clean_escape _ []), escape_join, escape_slash. do 3 f_equal.
    rewrite split_any. cbn [split_byte]. rewrite clean_app. cbn [clean_segs is_nil]. rewrite rev_involutive. symmetry. exact R. }
  rewrite C.
  assert (S1 : has_suffix (escape_path (p ++ [slash])) [slash] = true).
  { rewrite escape_app. change (escape_path [slash]) with [slash]. now rewrite last_suffix. }
  rewrite S1. cbn [andb].
  assert (H2 : forall a b, hex_ascii (a ++ b) = hex_ascii a ++ hex_ascii b) by (intros; apply flat_map_app).
  rewrite H2. f_equal.
  assert (G : Forall good_seg segs) by (rewrite R; apply clean_split_good).
  unfold dir_url. destruct segs as [|s segs].
  - change (has_suffix (escape_path (path_of [])) [slash]) with true. apply hex_escape.
  - assert (S2 : has_suffix (escape_path (path_of (s :: segs))) [slash] = false).
    { unfold path_of. rewrite escape_slash, <- escape_join. apply join_last_slash; [discriminate|].
      apply Forall_map. apply Forall_forall. intros x Hx. rewrite Forall_forall in G. destruct (G x Hx) as (G1 & G2 & G3 & G4).
      repeat split.
      - intros K. apply G1. pose proof (escape_nil x) as Y. rewrite K in Y. destruct x; [reflexivity|discriminate Y].
      - intros K. apply G2. apply beq_true. rewrite <- escape_dot, K. reflexivity.
      - intros K. apply G3. apply beq_true. rewrite <- escape_dotdot, K. reflexivity.
      - clear - G4. intros K. unfold escape_path in K. apply in_flat_map in K. destruct K as (c & Hc & K).
        assert (N : c <> slash) by congruence. apply (escape_byte_slash c N). unfold escape_path. cbn [flat_map]. rewrite app_nil_r. exact K. }
    rewrite S2. cbn [negb]. rewrite H2, hex_escape. rewrite escape_app. reflexivity.
Qed.

(** The bytes of an ASCII rendering: those below 128 stand, the others are a percent
    sign and two hexadecimal digits. *)
Inductive ascii_only : bytes -> bytes -> Prop :=
| AO_nil : ascii_only [] []
| AO_plain c s r : code c < 128 -> ascii_only s r -> ascii_only (c :: s) (c :: r)
| AO_hex c s r h l dh dl : 128 <= code c -> code c = 16 * h + l ->
    nth_error (bs "0123456789abcdef") h = Some dh -> nth_error (bs "0123456789abcdef") l = Some dl ->
    ascii_only s r -> ascii_only (c :: s) ("%"%char :: dh :: dl :: r).
Lemma hex_ascii_spec s : ascii_only s (hex_ascii s).
Proof.
  assert (H16 : forall n, n < 16 -> nth_error (bs "0123456789abcdef") n = Some (hex_lower n))
    by (intros n Hn; do 16 (destruct n as [|n]; [reflexivity|]); lia).
  induction s as [|c s IH]; [constructor|]. unfold hex_ascii in *. cbn [flat_map].
  pose proof (code_lt c) as L. destruct (Nat.ltb_spec (code c) 128) as [H|H]; cbn [List.app]; [now constructor|].
  apply (AO_hex c s _ (code c / 16) (code c mod 16)); [exact H|apply Nat.div_mod; discriminate| | |exact IH].
  - apply H16. apply Nat.div_lt_upper_bound; lia.
  - apply H16. apply Nat.mod_upper_bound. discriminate.
Qed.

Section Stable.
  Variable bad_authority : bytes -> bool.
  (** a file system that does not change during the request *)
  Variable disk : bytes -> option node.
  Notation filter_ := (serve_filter bad_authority (fun _ => disk) (fun _ => true)).

  (** C124. For a request the filter handles (C83), with [target] the resolved
      components of the path behind the prefix: a file there is served; for a
      directory there, a path without a final slash is redirected to the same (resolved)
      path with a slash, query kept, and otherwise
      the index.html in it is served, or 404 if there is none (no answer, so the
      request goes on, if index.html is a directory); if there is nothing, the
      fallback is served if configured and there, else 404. *)
  Theorem C124_what_is_served cwd prefix used dir opt rq rest root target fallback :
    prefix_used prefix used -> allowed opt rq -> under used (q_path rq) rest -> ~ skipped opt rest ->
    Forall good_seg root -> abs_dir cwd dir = path_of root ->
    resolves [] (split_byte slash rest) target ->
    resolves [] (split_byte slash (try_files opt)) fallback ->
    let evs := filter_ cwd prefix dir opt rq in
    let there := path_of (root ++ target) in
    let index := path_of (root ++ target ++ [bs "index.html"]) in
    let fall := path_of (root ++ fallback) in
    match disk there with
    | Some (NFile _) => answers evs = [EServe rest 0] /\ In (EOpen 0 there) evs
    | Some NDir =>
        if has_suffix (q_path rq) [slash] then
          match disk index with
          | Some (NFile _) => exists name, answers evs = [EServe name 1] /\ In (EOpen 1 index) evs
          | Some NDir => answers evs = []
          | None => answers evs = [ENotFound]
          end
        else (forall self, not_authority (q_path rq) -> resolves [] (split_byte slash (q_path rq)) self ->
                exists query, ascii_only (if is_nil (q_query rq) then [] else bs "?" ++ q_query rq) query /\
                answers evs = [ERedirect (escape_path (dir_url self) ++ query)]) /\
             exists loc, answers evs = [ERedirect loc]
    | None =>
        if is_nil (try_files opt) then answers evs = [ENotFound]
        else match disk fall with
             | Some _ => answers evs = [EServe rest 1] /\ In (EOpen 1 fall) evs
             | None => answers evs = [ENotFound]
             end
    end.
  Proof using Type.
    intros Hu A U Sk Gr Er Rt Rf. cbv zeta. apply prefix_used_unique in Hu. subst used.
    apply resolves_fun in Rt, Rf. subst target fallback.
    unfold serve_filter. rewrite Er.
    destruct (serve_under bad_authority (fun _ => disk) (fun _ => true) (normalize_prefix prefix) (path_of root) opt rq) as [(_ & N)|(rest' & _ & U' & _ & ->)].
    { exfalso. apply N. eauto. }
    assert (rest' = rest).
    { destruct U as (E1 & _), U' as (E2 & _). rewrite E1 in E2. now apply app_inv_head in E2. }
    subst rest'. unfold serve_rest, serve_file. cbn [negb].
    rewrite !full_name_spec by assumption. rewrite join_index_spec.
    destruct (disk (path_of (root ++ clean_segs [] (split_byte slash rest)))) as [[|x]|].
    - destruct (has_suffix (q_path rq) [slash]); cbn [negb].
      + destruct (disk (path_of (root ++ clean_segs [] (split_byte slash rest) ++ [bs "index.html"]))) as [[|y]|]; cbn; eauto.
      + cbn. split; [|eauto]. intros self NA RS. rewrite (location_exact _ _ _ self) by assumption. eexists. split; [apply hex_ascii_spec|reflexivity].
    - cbn. auto.
    - destruct (is_nil (try_files opt)); [reflexivity|].
      destruct (disk (path_of (root ++ clean_segs [] (split_byte slash (try_files opt))))) as [n|]; cbn; auto.
  Qed.
End Stable.

(** C124. A file that can be opened but whose Stat fails is answered for as if it were not there. *)
Theorem C124_stat_failure : forall bad fs stat_ok cwd prefix dir opt rq,
  answers (serve_filter bad fs stat_ok cwd prefix dir opt rq) =
  answers (serve_filter bad (fun i p => if stat_ok i : bool then fs i p else None) (fun _ => true) cwd prefix dir opt rq).
Proof.
  intros bad fs stat_ok cwd prefix dir opt rq. unfold serve_filter, serve. cbv zeta.
  destruct (negb (any_method opt) && _ && _)%bool; [reflexivity|].
  match goal with |- context [match ?X with Some _ => _ | None => _ end] => destruct X as [file|]; [|reflexivity] end.
  destruct (existsb _ _); [reflexivity|]. unfold serve_rest, serve_file.
  destruct (stat_ok 0) eqn:S0; destruct (stat_ok 1) eqn:S1; destruct (fs 0 _) as [[|x]|]; cbn [negb]; try reflexivity;
    try (destruct (negb (has_suffix _ _)); [reflexivity|]); try (destruct (is_nil (try_files opt)); [reflexivity|]);
    try (destruct (fs 1 _) as [[|y]|]; reflexivity); reflexivity.
Qed.

(** C122 (partial). For a path that does not read as an authority (not exactly two
    leading slashes), the redirect of a directory stays on the host: its Location
    starts with one slash, not followed by a slash or backslash. *)
Lemma location_same_host bad p q : not_authority p -> same_host (location bad (url_string (p ++ [slash]) q)).
Proof.
  intros Hp. unfold url_string.
  set (query := if is_nil q then [] else bs "?" ++ q).
  assert (Hq : query = [] \/ exists r, query = "?"%char :: r) by (unfold query; destruct q; cbn; eauto).
  set (E := escape_path (p ++ [slash])).
  assert (PH : parse_host bad (E ++ query) = Some []) by now apply parse_host_none.
  unfold location. rewrite PH.
  rewrite before_question; [|apply escape_no_question|exact Hq].
  rewrite skipn_app_len.
  set (segs := clean_segs [] (split_byte slash E)).
  assert (GS : Forall good_seg segs) by apply clean_split_good.
  assert (BS : forall s, In s segs -> ~ In "\"%char s).
  { intros s Hs Hc. destruct (clean_seg_bytes _ _ _ _ Hs Hc) as [(s' & [] & _)|(s' & A & B)].
    apply (escape_no_backslash (p ++ [slash])). exact (split_bytes _ _ _ _ A B). }
  assert (PC : path_clean_rooted E = slash :: join [slash] segs) by reflexivity. rewrite PC.
  assert (F : exists l, hex_ascii ((if (has_suffix E [slash] && negb (has_suffix (slash :: join [slash] segs) [slash]))%bool
               then (slash :: join [slash] segs) ++ [slash] else slash :: join [slash] segs) ++ query) =
             slash :: hex_ascii l /\ (forall r, l <> slash :: r) /\ (forall r, l <> "\"%char :: r)).
  { assert (J : (segs = [] /\ join [slash] segs = []) \/
      exists c l, join [slash] segs = c :: l /\ c <> slash /\ c <> "\"%char).
    { destruct segs as [|s ss] eqn:Es; [left; auto|right].
      inversion GS as [|? ? (G1 & _ & _ & G4) _]; subst. destruct s as [|c s]; [congruence|].
      exists c. destruct ss as [|s2 ss]; cbn [join List.app]; eexists; (split; [reflexivity|]); split;
        solve [intros ->; apply G4; now left | intros ->; apply (BS ("\"%char :: s)); left; reflexivity]. }
    destruct J as [(S0 & J)|(c & l & J & C1 & C2)].
    - rewrite J. assert (X : has_suffix [slash] [slash] = true) by reflexivity. rewrite X, andb_false_r.
      exists query. split; [reflexivity|]. destruct Hq as [->|(x & ->)]; split; intros r; discriminate.
    - rewrite J. destruct (has_suffix E [slash] && negb (has_suffix (slash :: c :: l) [slash]))%bool; cbn [List.app].
      + exists (c :: (l ++ [slash]) ++ query). split; [reflexivity|]. split; intros r [=]; congruence.
      + exists (c :: l ++ query). split; [reflexivity|]. split; intros r [=]; congruence. }
  destruct F as (l & F & L1 & L2). rewrite F. exists (hex_ascii l). split; [reflexivity|].
  destruct l as [|c l]; [split; discriminate|]. unfold hex_ascii at 1 2. cbn [flat_map].
  destruct (Nat.ltb (code c) 128); cbn [List.app]; split; intros r [= K _]; congruence || (eapply L1; rewrite K; reflexivity) || (eapply L2; rewrite K; reflexivity) || (unfold slash in K; discriminate K).
Qed.
Theorem C122_redirect_stays_partial : forall bad fs stat_ok cwd prefix dir opt rq loc,
  In (ERedirect loc) (serve_filter bad fs stat_ok cwd prefix dir opt rq) ->
  not_authority (q_path rq) -> same_host loc.
Proof.
  intros bad fs stat_ok cwd prefix dir opt rq loc I Hp. unfold serve_filter in I.
  destruct (serve_under bad fs stat_ok (normalize_prefix prefix) (abs_dir cwd dir) opt rq) as [(E & _)|(rest & A & U & K & E)]; rewrite E in I; [destruct I|].
  assert (L : loc = location bad (url_string (q_path rq ++ [slash]) (q_query rq))).
  { unfold serve_rest, serve_file in I.
    destruct (fs 0 (full_name (abs_dir cwd dir) rest)) as [[|x]|]; [destruct (stat_ok 0)|destruct (stat_ok 0)|];
       try (destruct (negb (has_suffix (q_path rq) [slash]))); 
       try (destruct (fs 1 (full_name (abs_dir cwd dir) (join_index rest))) as [[|y]|]; try destruct (stat_ok 1));
       try (destruct (is_nil (try_files opt)));
       try (destruct (fs 1 (full_name (abs_dir cwd dir) (try_files opt))) as [[|z]|]; try destruct (stat_ok 1));
       cbn [List.app negb In] in I;
       repeat (destruct I as [I|I]; [try discriminate I|]); try contradiction; congruence. }
  subst loc. now apply location_same_host.
Qed.
(** with a prefix that is a proper path every redirect stays on the host *)
Theorem C122_with_prefix : forall bad fs stat_ok cwd prefix used dir opt rq loc c r,
  prefix_used prefix used -> used = slash :: c :: r -> c <> slash ->
  In (ERedirect loc) (serve_filter bad fs stat_ok cwd prefix dir opt rq) -> same_host loc.
Proof.
  intros bad fs stat_ok cwd prefix used dir opt rq loc c r Hu -> Hc I.
  eapply C122_redirect_stays_partial; [exact I|].
  assert (N : serve_filter bad fs stat_ok cwd prefix dir opt rq <> []) by (intros E; rewrite E in I; destruct I).
  apply (C83_prefix_boundary bad fs stat_ok cwd prefix _ dir opt rq Hu) in N.
  destruct N as (_ & rest & (E & _) & _). right. left. exists c, (r ++ rest). split; [exact E|exact Hc].
Qed.
(** C122 (refutation). Without a prefix, a request for //evil.com/.. on any
    directory is sent to another host. *)
Theorem C122_redirect_stays_refuted : forall bad, ~ (forall fs stat_ok cwd prefix dir opt rq loc,
  In (ERedirect loc) (serve_filter bad fs stat_ok cwd prefix dir opt rq) -> same_host loc).
Proof.
  intros bad H.
  specialize (H (fun _ p => if beq p (bs "/srv") then Some NDir else None) (fun _ => true) [] [] (bs "/srv")
    (Options false [] []) (Request (bs "GET") (bs "//evil.com/..") []) (bs "//evil.com/../")).
  destruct H as (l & E & N & _).
  - unfold serve_filter, serve, serve_rest, location, parse_host. cbn -[Nat.div Nat.modulo]. 
    destruct (bad _); cbn -[Nat.div Nat.modulo]; right; left; reflexivity.
  - injection E as <-. eapply N. reflexivity.
Qed.

(** *** C123: the fallback file is never closed *)
Theorem C123_files_closed_refuted : forall bad, ~ (forall fs stat_ok cwd prefix dir opt rq,
  closed_ok (serve_filter bad fs stat_ok cwd prefix dir opt rq)).
Proof.
  intros bad H.
  specialize (H (fun _ p => if beq p (bs "/srv/index.html") then Some (NFile (bs "app")) else None) (fun _ => true) [] [] (bs "/srv")
    (Options false (bs "index.html") []) (Request (bs "GET") (bs "/users/7") [])).
  destruct (H 1 (bs "/srv/index.html")) as (a & b & c & E & _); [cbn; auto|].
  assert (I : In (EClose 1) (serve_filter bad (fun _ p => if beq p (bs "/srv/index.html") then Some (NFile (bs "app")) else None) (fun _ => true) [] [] (bs "/srv")
    (Options false (bs "index.html") []) (Request (bs "GET") (bs "/users/7") []))).
  { rewrite E. apply in_or_app. right. right. apply in_or_app. right. now left. }
  cbn in I. intuition discriminate.
Qed.

(** *** C125: skipped prefixes *)
(** C125 (partial). A request whose path behind the prefix is written in resolved
    form and lies in a skipped prefix is left alone. *)
Theorem C125_skip_partial : forall bad fs stat_ok cwd prefix used dir opt rq target p,
  prefix_used prefix used -> Forall good_seg target -> q_path rq = used ++ path_of target ->
  In p (skip_prefix opt) -> (exists r, path_of target = p ++ r) ->
  serve_filter bad fs stat_ok cwd prefix dir opt rq = [].
Proof.
  intros bad fs stat_ok cwd prefix used dir opt rq target p Hu G E Ip (r & Er).
  destruct (serve_filter bad fs stat_ok cwd prefix dir opt rq) as [|e es] eqn:S; [reflexivity|exfalso].
  assert (N : serve_filter bad fs stat_ok cwd prefix dir opt rq <> []) by (rewrite S; discriminate).
  apply (C83_prefix_boundary bad fs stat_ok cwd prefix used dir opt rq Hu) in N.
  destruct N as (_ & rest & (E2 & _) & Nk). rewrite E in E2. apply app_inv_head in E2. subst rest.
  apply Nk. exists p, r. auto.
Qed.
(** C125 (refutation). Files below a skipped prefix are served through a path that
    only resolves to it. *)
Theorem C125_skip_refuted : forall bad, ~ (forall fs stat_ok cwd dir opt rq h root target p,
  abs_dir cwd dir = path_of root -> In p (skip_prefix opt) -> (exists r, path_of target = p ++ r) ->
  ~ In (EOpen h (path_of (root ++ target))) (serve_filter bad fs stat_ok cwd [] dir opt rq)).
Proof.
  intros bad H.
  apply (H (fun _ p => Some (NFile [])) (fun _ => true) [] (bs "/srv") (Options false [] [bs "/private"])
           (Request (bs "GET") (bs "/./private/key") []) 0 [bs "srv"] [bs "private"; bs "key"] (bs "/private")).
  - reflexivity.
  - now left.
  - exists (bs "/key"). reflexivity.
  - cbn. now left.
Qed.

(** *** C126: the fallback *)
(** C126 (partial). When nothing can be opened for the path, a configured fallback
    that is there is what the client gets. Missing: directories without index. *)
Theorem C126_fallback_partial : forall bad disk cwd prefix used dir opt rq rest root target fallback n,
  prefix_used prefix used -> allowed opt rq -> under used (q_path rq) rest -> ~ skipped opt rest ->
  Forall good_seg root -> abs_dir cwd dir = path_of root ->
  resolves [] (split_byte slash rest) target -> try_files opt <> [] ->
  resolves [] (split_byte slash (try_files opt)) fallback ->
  disk (path_of (root ++ target)) = None -> disk (path_of (root ++ fallback)) = Some n ->
  exists name h, answers (serve_filter bad (fun _ => disk) (fun _ => true) cwd prefix dir opt rq) = [EServe name h] /\
    In (EOpen h (path_of (root ++ fallback))) (serve_filter bad (fun _ => disk) (fun _ => true) cwd prefix dir opt rq).
Proof.
  intros bad disk cwd prefix used dir opt rq rest root target fallback n Hu A U Sk G E R T RF D1 D2.
  pose proof (C124_what_is_served bad disk cwd prefix used dir opt rq rest root target fallback Hu A U Sk G E R RF) as X.
  cbv zeta in X. rewrite D1, D2 in X. destruct (try_files opt) eqn:Et; [congruence|]. cbn [is_nil] in X. eauto.
Qed.
Theorem C126_fallback_refuted : forall bad, ~ (forall disk cwd dir opt rq root fallback c,
  abs_dir cwd dir = path_of root -> allowed opt rq -> skip_prefix opt = [] ->
  try_files opt <> [] -> resolves [] (split_byte slash (try_files opt)) fallback -> disk (path_of (root ++ fallback)) = Some (NFile c) ->
  ~ In ENotFound (serve_filter bad (fun _ => disk) (fun _ => true) cwd [] dir opt rq)).
Proof.
  intros bad H.
  apply (H (fun p => if beq p (bs "/srv/app.html") then Some (NFile (bs "app")) else if beq p (bs "/srv/docs") then Some NDir else None)
           [] (bs "/srv") (Options false (bs "app.html") []) (Request (bs "GET") (bs "/docs/") []) [bs "srv"] [bs "app.html"] (bs "app")).
  - reflexivity.
  - right. now left.
  - reflexivity.
  - discriminate.
  - apply resolves_split.
  - reflexivity.
  - cbn. auto.
Qed.

(** *** C127: the name that decides the content type *)
(** C127 (partial). Without fallback, a file is served under a name that resolves
    to the very path it was opened at, so its extension decides the type. *)
Theorem C127_name_partial : forall bad fs stat_ok cwd prefix dir opt rq root name h p target,
  Forall good_seg root -> abs_dir cwd dir = path_of root -> try_files opt = [] ->
  let evs := serve_filter bad fs stat_ok cwd prefix dir opt rq in
  In (EServe name h) evs -> In (EOpen h p) evs -> resolves [] (split_byte slash name) target ->
  p = path_of (root ++ target).
Proof.
  intros bad fs stat_ok cwd prefix dir opt rq root name h p target G E T evs I1 I2 R.
  apply resolves_fun in R. subst target. unfold evs, serve_filter in I1, I2.
  rewrite <- full_name_spec by assumption. rewrite <- E.
  destruct (serve_under bad fs stat_ok (normalize_prefix prefix) (abs_dir cwd dir) opt rq) as [(X & _)|(rest & A & U & K & X)]; rewrite X in I1, I2; [destruct I1|].
  unfold serve_rest, serve_file in I1, I2. rewrite T in I1, I2. cbn [is_nil] in I1, I2.
  destruct (fs 0 (full_name (abs_dir cwd dir) rest)) as [[|x]|]; [destruct (stat_ok 0)|destruct (stat_ok 0)|];
       try (destruct (negb (has_suffix (q_path rq) [slash]))); 
       try (destruct (fs 1 (full_name (abs_dir cwd dir) (join_index rest))) as [[|y]|]; try destruct (stat_ok 1));
       cbn [List.app negb In] in I1, I2;
       repeat (destruct I1 as [I1|I1]; [try discriminate I1|]); try contradiction;
       repeat (destruct I2 as [I2|I2]; [try discriminate I2|]); try contradiction; congruence.
Qed.
Theorem C127_name_refuted : forall bad, ~ (forall disk cwd dir opt rq root name h p target,
  abs_dir cwd dir = path_of root ->
  In (EServe name h) (serve_filter bad (fun _ => disk) (fun _ => true) cwd [] dir opt rq) ->
  In (EOpen h p) (serve_filter bad (fun _ => disk) (fun _ => true) cwd [] dir opt rq) ->
  resolves [] (split_byte slash name) target -> p = path_of (root ++ target)).
Proof.
  intros bad H.
  specialize (H (fun p => if beq p (bs "/srv/app.html") then Some (NFile (bs "app")) else None)
           [] (bs "/srv") (Options false (bs "app.html") []) (Request (bs "GET") (bs "/main.js") []) [bs "srv"] (bs "/main.js") 1 (bs "/srv/app.html")
           _ eq_refl ltac:(cbn; auto) ltac:(cbn; auto) (resolves_split _)).
  vm_compute in H. discriminate H.
Qed.

(** *** Cases: the hypotheses are met *)
Definition sample_disk (p : bytes) : option node :=
  if beq p (bs "/srv/www") then Some NDir else if beq p (bs "/srv/www/a.css") then Some (NFile (bs "css"))
  else if beq p (bs "/srv/www/d") then Some NDir else if beq p (bs "/srv/www/d/index.html") then Some (NFile (bs "idx"))
  else if beq p (bs "/etc/passwd") then Some (NFile (bs "secret")) else None.
Definition sample_serve (path : string) : list sev :=
  serve_filter (fun _ => false) (fun _ => sample_disk) (fun _ => true) (bs "/srv") (bs "static/") (bs "www/.") (Options false [] [bs "/skip"]) (Request (bs "GET") (bs path) (bs "q=1")).
Example C82_case :
  sample_serve "/static/../../etc/passwd" = [EFail (bs "/srv/www/etc/passwd"); ENotFound] /\
  sample_serve "/static/x/..//a.css" = [EOpen 0 (bs "/srv/www/a.css"); EServe (bs "/x/..//a.css") 0; EClose 0] /\
  sample_serve "/staticx" = [] /\ sample_serve "/static/skip/a" = [] /\
  sample_serve "/static/d" = [EOpen 0 (bs "/srv/www/d"); ERedirect (bs "/static/d/?q=1"); EClose 0] /\
  sample_serve "/static/d/" = [EOpen 0 (bs "/srv/www/d"); EOpen 1 (bs "/srv/www/d/index.html"); EServe (bs "/d/index.html") 1; EClose 1; EClose 0].
Proof. vm_compute. repeat split. Qed.
Example C83_case : prefix_used (bs "static/") (bs "/static") /\ under (bs "/static") (bs "/static/d") (bs "/d").
Proof.
  split.
  - right. split; [discriminate|]. exists 1. split; [reflexivity|]. intros (t & E).
    apply (f_equal (@rev ascii)) in E. rewrite rev_app_distr in E. discriminate E.
  - split; [reflexivity|]. right. right. exists (bs "d"). reflexivity.
Qed.

Print Assumptions C82_inside_root.
Print Assumptions C83_prefix_boundary.
Print Assumptions C124_one_answer.
Print Assumptions C123_files_closed_partial.
Print Assumptions C124_what_is_served.
Print Assumptions C122_redirect_stays_partial.
Print Assumptions C122_with_prefix.
Print Assumptions C122_redirect_stays_refuted.
Print Assumptions C123_files_closed_refuted.
Print Assumptions C125_skip_partial.
Print Assumptions C125_skip_refuted.
Print Assumptions C126_fallback_partial.
Print Assumptions C126_fallback_refuted.
Print Assumptions C127_name_partial.
Print Assumptions C127_name_refuted.
Print Assumptions C124_stat_failure.
