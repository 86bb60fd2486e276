(** Props_StaticExact: exact forms of C122, C123, C125, C126, C127 -- the static
    file filter: where the natural claims of Props_Static fail, these theorems say
    precisely when they hold. *)
From Coq Require Import List Ascii String Bool Arith ZArith Lia.
Import ListNotations.
From Verif Require Import GoStr GoPath GoEnc StaticModel Props_Static.

(** *** C122: which redirects leave the host *)
(** the path reads as a URL reference to another host: two slashes, then a
    non-empty segment that does not end in "@" (or that url.Parse refuses) *)
Definition names_a_host (bad : bytes -> bool) (p : bytes) : Prop :=
  exists a r, p = slash :: slash :: a ++ r /\ a <> [] /\ ~ In slash a /\ (r = [] \/ exists r', r = slash :: r') /\
    (bad (escape_path a) = true \/ ~ exists t, a = t ++ ["@"%char]).

Lemma rooted_cases p : (exists l, p = slash :: l) -> ~ (exists t, p = t ++ [slash]) ->
  not_authority p \/ exists a r, p = slash :: slash :: a ++ r /\ a <> [] /\ ~ In slash a /\ (r = [] \/ exists r', r = slash :: r').
Proof.
  intros (l & ->) NS. destruct l as [|c l]; [exfalso; apply NS; exists []; reflexivity|].
  destruct (Ascii.eqb_spec c slash) as [->|N].
  2:{ left. right. left. eauto. }
  destruct l as [|d l]; [exfalso; apply NS; exists [slash]; reflexivity|].
  destruct (Ascii.eqb_spec d slash) as [->|N].
  { left. right. right. eauto. }
  right. destruct (split_byte slash (d :: l)) as [|a ps] eqn:E; [exfalso; revert E; apply split_byte_not_nil|].
  pose proof (join_split slash (d :: l)) as J. rewrite E in J.
  assert (C : ~ In slash a).
  { pose proof (split_byte_clean slash (d :: l)) as F. rewrite E in F. apply F. now left. }
  exists a, (match ps with [] => [] | _ => slash :: join [slash] ps end).
  assert (J2 : d :: l = a ++ match ps with [] => [] | _ => slash :: join [slash] ps end).
  { rewrite <- J. destruct ps; [cbn; now rewrite app_nil_r|reflexivity]. }
  rewrite <- J2. repeat split; auto.
  - intros ->. cbn [List.app] in J2. destruct ps; [discriminate J2|]. injection J2 as K _. contradiction.
  - destruct ps; eauto.
Qed.
Lemma escape_at a : ~ In "@"%char a -> ~ In "@"%char (escape_path a).
Proof.
  intros N I. unfold escape_path in I. apply in_flat_map in I. destruct I as (c & Hc & I). pose proof (code_lt c).
  destruct (path_keeps c).
  - destruct I as [->|[]]. contradiction.
  - assert (HX : forall n, n < 16 -> hex_upper n <> "@"%char) by (intros n L; do 16 (destruct n as [|n]; [discriminate|]); lia).
    destruct I as [I|[I|[I|[]]]]; [discriminate I| |].
    + apply (HX (code c / 16)); [apply Nat.div_lt_upper_bound; lia|exact I].
    + apply (HX (code c mod 16)); [apply Nat.mod_upper_bound; lia|exact I].
Qed.
(** the host of an authority is empty exactly when it ends in "@" or is empty *)
Lemma last_split_empty c s : last (split_byte c s) [] = [] <-> s = [] \/ exists t, s = t ++ [c].
Proof.
  assert (L : forall t, last (split_byte c (t ++ [c])) [] = []).
  { intros t. rewrite split_any. change (split_byte c []) with [@nil ascii]. apply last_last. }
  split.
  - intros H. destruct s as [|x s] using rev_ind; [now left|]. clear IHs.
    right. exists s. f_equal. f_equal. destruct (Ascii.eqb_spec x c) as [->|N]; [reflexivity|exfalso].
    assert (K : exists l q, split_byte c (s ++ [x]) = l ++ [q ++ [x]]).
    { clear H. induction s as [|y s IH]; cbn [List.app split_byte].
      - destruct (Ascii.eqb_spec x c); [contradiction|]. exists [], []. reflexivity.
      - destruct IH as (l & q & ->). destruct (Ascii.eqb y c).
        + exists ([] :: l), q. reflexivity.
        + destruct l as [|z l]; [exists [], (y :: q); reflexivity|]. exists ((y :: z) :: l), q. reflexivity. }
    destruct K as (l & q & K). rewrite K, last_last in H. destruct q; discriminate H.
  - intros [->|(t & ->)]; [reflexivity|apply L].
Qed.
Lemma escape_last_at a : (exists t, escape_path a = t ++ ["@"%char]) <-> exists t, a = t ++ ["@"%char].
Proof.
  split.
  - intros (t & E). destruct a as [|x a] using rev_ind; [destruct t; discriminate E|]. clear IHa.
    exists a. f_equal. f_equal. rewrite escape_app in E.
    destruct (Ascii.eqb_spec x "@") as [->|N]; [reflexivity|exfalso].
    assert (I : In "@"%char (escape_path [x])).
    { apply (f_equal (@rev ascii)) in E. rewrite !rev_app_distr in E. cbn [rev List.app] in E.
      apply in_rev. destruct (rev (escape_path [x])) as [|z zs] eqn:R.
      - exfalso. apply (f_equal (@rev ascii)) in R. rewrite rev_involutive in R. pose proof (escape_nil [x]) as Y. rewrite R in Y. discriminate Y.
      - injection E as -> _. now left. }
    revert I. apply escape_at. intros [K|[]]. congruence.
  - intros (t & ->). rewrite escape_app. exists (escape_path t). reflexivity.
Qed.
Lemma not_authority_no_host bad p : not_authority p -> ~ names_a_host bad p.
Proof.
  intros H (a & r & -> & A & N & _). destruct H as [H|[(c & x & [= <- _] & K)|(x & [= E])]]; [discriminate H|congruence|].
  destruct a as [|y a]; [congruence|]. injection E as -> _. apply N. now left.
Qed.
Lemma authority_location bad a r q : a <> [] -> ~ In slash a -> (r = [] \/ exists r', r = slash :: r') ->
  same_host (location bad (url_string ((slash :: slash :: a ++ r) ++ [slash]) q)) <-> ~ (bad (escape_path a) = true \/ ~ exists t, a = t ++ ["@"%char]).
Proof.
  intros A N R. unfold url_string. set (query := if is_nil q then [] else bs "?" ++ q).
  assert (Hq : query = [] \/ exists x, query = "?"%char :: x) by (unfold query; destruct q; cbn; eauto).
  set (E := escape_path ((slash :: slash :: a ++ r) ++ [slash])).
  assert (EE : E = slash :: slash :: escape_path a ++ slash :: escape_path (match r with [] => [] | _ :: r' => r' ++ [slash] end)).
  { unfold E. cbn [List.app]. rewrite !escape_slash, <- app_assoc, escape_app. do 3 f_equal.
    destruct R as [->|(r' & ->)]; [reflexivity|]. cbn [List.app]. now rewrite escape_slash. }
  assert (NS : ~ In slash (escape_path a)).
  { intros I. unfold escape_path in I. apply in_flat_map in I. destruct I as (c & Hc & I).
    apply (escape_byte_slash c); [congruence|]. unfold escape_path. cbn [flat_map]. now rewrite app_nil_r. }
  assert (NE : escape_path a <> []).
  { intros K. pose proof (escape_nil a) as Y. rewrite K in Y. destruct a; [congruence|discriminate Y]. }
  assert (PH : parse_host bad (E ++ query) = if bad (escape_path a) then None else Some (last (split_byte "@"%char (escape_path a)) [])).
  { unfold parse_host.
    assert (P2 : has_prefix (E ++ query) (bs "//") = true) by (rewrite EE; apply has_prefix_spec; eexists; reflexivity).
    assert (P3 : has_prefix (E ++ query) (bs "///") = false).
    { rewrite EE. destruct (escape_path a) as [|c ea]; [congruence|]. cbn [List.app has_prefix bs list_ascii_of_string].
      destruct (Ascii.eqb_spec "/" c) as [<-|_]; [exfalso; apply NS; now left|]. now rewrite !andb_false_r. }
    rewrite P2, P3. cbn [andb negb].
    assert (BQ : before "?"%char (skipn 2 (E ++ query)) = escape_path a ++ slash :: escape_path (match r with [] => [] | _ :: r' => r' ++ [slash] end)).
    { rewrite EE. cbn [List.app skipn]. apply before_question; [|exact Hq].
      intros I. apply (escape_no_question ((slash :: slash :: a ++ r) ++ [slash])). fold E. rewrite EE. right. right. exact I. }
    rewrite BQ. assert (BS : before slash (escape_path a ++ slash :: escape_path (match r with [] => [] | _ :: r' => r' ++ [slash] end)) = escape_path a).
    { unfold before. now rewrite split_byte_app. }
    rewrite BS. reflexivity. }
  assert (OUT : ~ same_host (hex_ascii (E ++ query))).
  { rewrite EE. intros (l & K & K1 & _). cbn [List.app] in K. unfold hex_ascii in K. cbn [flat_map] in K.
    change (code slash <? 128) with true in K. cbn [List.app] in K. injection K as K. eapply K1. symmetry. exact K. }
  unfold location. rewrite PH. destruct (bad (escape_path a)).
  { split; [intros H; contradiction|]. intros H. exfalso. apply H. now left. }
  destruct (last (split_byte "@"%char (escape_path a)) []) as [|x xs] eqn:LS.
  - apply last_split_empty in LS. destruct LS as [LS|LS]; [contradiction|]. apply (proj1 (escape_last_at a)) in LS.
    split; [intros _ [K|K]; [discriminate K|exact (K LS)]|]. intros _.
    rewrite before_question; [|apply escape_no_question|exact Hq]. rewrite skipn_app_len.
    set (segs := clean_segs [] (split_byte slash E)).
    assert (GS : Forall good_seg segs) by apply clean_split_good.
    assert (BS : forall s, In s segs -> ~ In "\"%char s).
    { intros s Hs Hc. destruct (clean_seg_bytes _ _ _ _ Hs Hc) as [(s' & [] & _)|(s' & A1 & B)].
      apply (escape_no_backslash ((slash :: slash :: a ++ r) ++ [slash])). exact (split_bytes _ _ _ _ A1 B). }
    assert (PC : path_clean_rooted E = slash :: join [slash] segs) by reflexivity. rewrite PC.
    assert (F : exists l, hex_ascii ((if (has_suffix E [slash] && negb (has_suffix (slash :: join [slash] segs) [slash]))%bool
                 then (slash :: join [slash] segs) ++ [slash] else slash :: join [slash] segs) ++ query) =
               slash :: hex_ascii l /\ (forall r, l <> slash :: r) /\ (forall r, l <> "\"%char :: r)).
    { assert (J : (segs = [] /\ join [slash] segs = []) \/
        exists c l, join [slash] segs = c :: l /\ c <> slash /\ c <> "\"%char).
      { destruct segs as [|s ss] eqn:Es; [left; auto|right].
        inversion GS as [|? ? (G1 & _ & _ & G4) _]; subst. destruct s as [|c s]; [congruence|].
        exists c. destruct ss as [|s2 ss]; cbn [join List.app]; eexists; (split; [reflexivity|]); split;
          solve [intros ->; apply G4; now left | intros ->; apply (BS ("\"%char :: s)); left; reflexivity]. }
      destruct J as [(S0 & J)|(c & l & J & C1 & C2)].
      - rewrite J. assert (X : has_suffix [slash] [slash] = true) by reflexivity. rewrite X, andb_false_r.
        exists query. split; [reflexivity|]. destruct Hq as [->|(x & ->)]; split; intros r0; discriminate.
      - rewrite J. destruct (has_suffix E [slash] && negb (has_suffix (slash :: c :: l) [slash]))%bool; cbn [List.app].
        + exists (c :: (l ++ [slash]) ++ query). split; [reflexivity|]. split; intros r0 [=]; congruence.
        + exists (c :: l ++ query). split; [reflexivity|]. split; intros r0 [=]; congruence. }
    destruct F as (l & F & L1 & L2). rewrite F. exists (hex_ascii l). split; [reflexivity|].
    destruct l as [|c l]; [split; discriminate|]. unfold hex_ascii at 1 2. cbn [flat_map].
    destruct (Nat.ltb (code c) 128); cbn [List.app]; split; intros r0 [= K _]; congruence || (eapply L1; rewrite K; reflexivity) || (eapply L2; rewrite K; reflexivity) || (unfold slash in K; discriminate K).
  - split; [intros H; contradiction|]. intros H. exfalso. apply H. right. intros K. apply (proj2 (escape_last_at a)) in K.
    assert (Z : last (split_byte "@"%char (escape_path a)) [] = []) by (apply last_split_empty; now right).
    rewrite LS in Z. discriminate Z.
Qed.

Lemma redirect_of bad fs stat_ok cwd prefix dir opt rq loc :
  In (ERedirect loc) (serve_filter bad fs stat_ok cwd prefix dir opt rq) ->
  loc = location bad (url_string (q_path rq ++ [slash]) (q_query rq)) /\ ~ exists t, q_path rq = t ++ [slash].
Proof.
  intros I. unfold serve_filter in I.
  destruct (serve_under bad fs stat_ok (normalize_prefix prefix) (abs_dir cwd dir) opt rq) as [(E & _)|(rest & A & U & K & E)]; rewrite E in I; [destruct I|].
  unfold serve_rest, serve_file in I.
  destruct (has_suffix (q_path rq) [slash]) eqn:HS.
  - exfalso. cbn [negb] in I.
    destruct (fs 0 (full_name (abs_dir cwd dir) rest)) as [[|x]|]; [destruct (stat_ok 0)|destruct (stat_ok 0)|];
       try (destruct (fs 1 (full_name (abs_dir cwd dir) (join_index rest))) as [[|y]|]; try destruct (stat_ok 1));
       try (destruct (is_nil (try_files opt)));
       try (destruct (fs 1 (full_name (abs_dir cwd dir) (try_files opt))) as [[|z]|]; try destruct (stat_ok 1));
       cbn [List.app negb In] in I;
       repeat (destruct I as [I|I]; [try discriminate I|]); try contradiction.
  - split.
    + destruct (fs 0 (full_name (abs_dir cwd dir) rest)) as [[|x]|]; [destruct (stat_ok 0)|destruct (stat_ok 0)|]; cbn [negb] in I;
       try (destruct (is_nil (try_files opt)));
       try (destruct (fs 1 (full_name (abs_dir cwd dir) (try_files opt))) as [[|z]|]; try destruct (stat_ok 1));
       cbn [List.app negb In] in I;
       repeat (destruct I as [I|I]; [try discriminate I|]); try contradiction; congruence.
    + intros Hs. apply has_suffix_spec in Hs. congruence.
Qed.
(** C122. For a rooted request path, the redirect of a directory stays on the host
    unless the path names a host, and then it leaves it. *)
Theorem C122_redirect_exact : forall bad fs stat_ok cwd prefix dir opt rq loc,
  In (ERedirect loc) (serve_filter bad fs stat_ok cwd prefix dir opt rq) ->
  (exists l, q_path rq = slash :: l) ->
  (same_host loc <-> ~ names_a_host bad (q_path rq)).
Proof.
  intros bad fs stat_ok cwd prefix dir opt rq loc I Hr.
  apply redirect_of in I. destruct I as (-> & NS).
  destruct (rooted_cases (q_path rq) Hr NS) as [NA|(a & r & E & A & N & R)].
  - split; intros _; [now apply not_authority_no_host|now apply location_same_host].
  - rewrite E, authority_location by assumption. split.
    + intros H (a' & r' & E2 & A2 & N2 & R2 & B). apply H.
      assert (a' = a); [|subst a'; exact B].
      injection E2 as E2. apply (f_equal (split_byte slash)) in E2.
      assert (S : forall x y, ~ In slash x -> (y = [] \/ exists y', y = slash :: y') -> hd [] (split_byte slash (x ++ y)) = x).
      { intros x y Hx [->|(y' & ->)]; [rewrite app_nil_r, split_byte_nosep by assumption; reflexivity|].
        rewrite split_byte_app by assumption. reflexivity. }
      apply (f_equal (hd [])) in E2. rewrite !S in E2 by assumption. congruence.
    + intros H B. apply H. exists a, r. auto 10.
Qed.

(** *** C123: which files are closed *)
(** C123. Every file that is opened is closed, exactly once and after its use --
    except the fallback file: it is served last and never closed. *)
Theorem C123_files_closed_exact : forall bad fs stat_ok cwd prefix dir opt rq h p,
  let evs := serve_filter bad fs stat_ok cwd prefix dir opt rq in
  In (EOpen h p) evs ->
  (exists a b c, evs = a ++ EOpen h p :: b ++ EClose h :: c /\
      ~ In (EClose h) a /\ ~ In (EClose h) b /\ ~ In (EClose h) c /\ (forall name, ~ In (EServe name h) c)) \/
  (try_files opt <> [] /\ p = full_name (abs_dir cwd dir) (try_files opt) /\ ~ In (EClose h) evs /\
   exists a name, evs = a ++ [EOpen h p; EServe name h]).
Proof.
  intros bad fs stat_ok cwd prefix dir opt rq h p. cbv zeta. unfold serve_filter.
  destruct (serve_under bad fs stat_ok (normalize_prefix prefix) (abs_dir cwd dir) opt rq) as [(-> & _)|(rest & A & U & K & ->)]; [contradiction|].
  unfold serve_rest, serve_file.
  destruct (fs 0 (full_name (abs_dir cwd dir) rest)) as [[|x]|]; [destruct (stat_ok 0)|destruct (stat_ok 0)|];
       try (destruct (negb (has_suffix (q_path rq) [slash]))); 
       try (destruct (fs 1 (full_name (abs_dir cwd dir) (join_index rest))) as [[|y]|]; try destruct (stat_ok 1));
       try (destruct (try_files opt) as [|t tf]; cbn [is_nil]);
       try (destruct (fs 1 (full_name (abs_dir cwd dir) (t :: tf))) as [[|z]|]; try destruct (stat_ok 1));
       cbn [List.app negb In]; intros I;
       repeat (destruct I as [I|I]; [try discriminate I|]); try contradiction; injection I as <- <-.
  all: match goal with
      | |- (exists a b c, EOpen 0 ?p :: ?l = _ /\ _) \/ _ => left;
          first [ exists [], [], (skipn 1 l)
                ; split; [reflexivity|cbn; repeat split; intros; intuition discriminate]
                | exists [], (firstn 1 l), (skipn 2 l)
                ; split; [reflexivity|cbn; repeat split; intros; intuition discriminate]
                | exists [], (firstn 2 l), (skipn 3 l)
                ; split; [reflexivity|cbn; repeat split; intros; intuition discriminate]
                | exists [], (firstn 3 l), (skipn 4 l)
                ; split; [reflexivity|cbn; repeat split; intros; intuition discriminate] ]
      | |- (exists a b c, ?e :: EOpen 1 ?p :: ?l = _ /\ _) \/ _ =>
          first [ left; exists [e], [], (skipn 1 l)
                ; split; [reflexivity|cbn; repeat split; intros; intuition discriminate]
                | left; exists [e], (firstn 1 l), (skipn 2 l)
                ; split; [reflexivity|cbn; repeat split; intros; intuition discriminate]
                | right; split; [discriminate|]; split; [reflexivity|]; split; [cbn; intuition discriminate|exists [e]; eexists; reflexivity] ]
      | |- (exists a b c, ?e :: ?f :: EOpen 1 ?p :: ?l = _ /\ _) \/ _ =>
          first [ left; exists [e; f], [], (skipn 1 l)
                ; split; [reflexivity|cbn; repeat split; intros; intuition discriminate]
                | right; split; [discriminate|]; split; [reflexivity|]; split; [cbn; intuition discriminate|exists [e; f]; eexists; reflexivity] ]
      end.
Qed.
(** ... so the files of a request are all closed exactly if it is not answered with
    the fallback *)
Theorem C123_all_closed_iff : forall bad fs stat_ok cwd prefix dir opt rq,
  let evs := serve_filter bad fs stat_ok cwd prefix dir opt rq in
  closed_ok evs <-> ~ exists a h p name, evs = a ++ [EOpen h p; EServe name h].
Proof.
  intros bad fs stat_ok cwd prefix dir opt rq. cbv zeta. split.
  - intros C (a' & h & p & name & E').
    destruct (C h p) as (a & b & c & E & _ & _ & _ & N); [rewrite E'; apply in_or_app; right; now left|].
    rewrite E in E'. change [EOpen h p; EServe name h] with ([EOpen h p] ++ [EServe name h]) in E'. rewrite app_assoc in E'.
    destruct c as [|e c] using rev_ind.
    + rewrite app_comm_cons, !app_assoc in E'. apply app_inj_tail in E'. destruct E' as (_ & E'). discriminate E'.
    + replace (a ++ EOpen h p :: b ++ EClose h :: c ++ [e]) with ((a ++ EOpen h p :: b ++ EClose h :: c) ++ [e]) in E'
        by now rewrite <- !app_assoc, <- app_comm_cons, <- app_assoc.
      apply app_inj_tail in E'. destruct E' as (_ & ->). apply (N name). apply in_or_app. right. now left.
  - intros N h p I. destruct (C123_files_closed_exact bad fs stat_ok cwd prefix dir opt rq h p I) as [X|(_ & _ & _ & a & name & E)]; [exact X|].
    exfalso. apply N. exists a, h, p, name. exact E.
Qed.

(** *** C125: the skip list *)
(** C125. The skip list is matched against the path as it was sent: for a request
    that is allowed and under the prefix, the file its path resolves to is tried
    exactly if the unresolved rest begins with none of the skipped prefixes. *)
Theorem C125_skip_exact : forall bad fs stat_ok cwd prefix used dir opt rq rest root target,
  prefix_used prefix used -> allowed opt rq -> under used (q_path rq) rest ->
  Forall good_seg root -> abs_dir cwd dir = path_of root ->
  resolves [] (split_byte slash rest) target ->
  let evs := serve_filter bad fs stat_ok cwd prefix dir opt rq in
  ((In (EOpen 0 (path_of (root ++ target))) evs \/ In (EFail (path_of (root ++ target))) evs) <-> ~ skipped opt rest) /\
  (skipped opt rest -> evs = []).
Proof.
  intros bad fs stat_ok cwd prefix used dir opt rq rest root target Hu A U G E R. cbv zeta.
  apply prefix_used_unique in Hu. subst used. apply resolves_fun in R. subst target. unfold serve_filter.
  destruct (serve_under bad fs stat_ok (normalize_prefix prefix) (abs_dir cwd dir) opt rq) as [(-> & N)|(rest' & _ & U' & K & X)].
  - split; [|reflexivity]. split; [intros [[]|[]]|]. intros S. exfalso. apply N. eauto.
  - assert (rest' = rest) by (destruct U as (E1 & _), U' as (E2 & _); rewrite E1 in E2; now apply app_inv_head in E2).
    subst rest'. split; [|intros S; contradiction]. split; [intros _; exact K|]. intros _. rewrite X, E.
    rewrite <- full_name_spec by assumption. unfold serve_rest, serve_file.
    destruct (fs 0 (full_name (path_of root) rest)) as [[|x]|]; [destruct (stat_ok 0)|destruct (stat_ok 0)|];
       try (destruct (negb (has_suffix (q_path rq) [slash]))); 
       try (destruct (fs 1 (full_name (path_of root) (join_index rest))) as [[|y]|]; try destruct (stat_ok 1));
       try (destruct (is_nil (try_files opt)));
       try (destruct (fs 1 (full_name (path_of root) (try_files opt))) as [[|z]|]; try destruct (stat_ok 1));
       cbn [List.app negb In]; auto.
Qed.

(** *** C126: when the fallback replaces the 404 *)
(** C126. With a fallback that is there, on a disk that does not change during the
    request, the filter answers 404 exactly for a directory without index.html
    asked for with a final slash. *)
Theorem C126_fallback_exact : forall bad disk cwd prefix used dir opt rq rest root target fallback n,
  prefix_used prefix used -> allowed opt rq -> under used (q_path rq) rest -> ~ skipped opt rest ->
  Forall good_seg root -> abs_dir cwd dir = path_of root ->
  resolves [] (split_byte slash rest) target -> try_files opt <> [] ->
  resolves [] (split_byte slash (try_files opt)) fallback -> disk (path_of (root ++ fallback)) = Some n ->
  (In ENotFound (serve_filter bad (fun _ => disk) (fun _ => true) cwd prefix dir opt rq) <->
   disk (path_of (root ++ target)) = Some NDir /\ (exists t, q_path rq = t ++ [slash]) /\
   disk (path_of (root ++ target ++ [bs "index.html"])) = None).
Proof.
  intros bad disk cwd prefix used dir opt rq rest root target fallback n Hu A U Sk G E R T RF D.
  pose proof (C124_what_is_served bad disk cwd prefix used dir opt rq rest root target fallback Hu A U Sk G E R RF) as X.
  cbv zeta in X. rewrite D in X.
  set (evs := serve_filter bad (fun _ => disk) (fun _ => true) cwd prefix dir opt rq) in *.
  assert (AN : In ENotFound evs <-> In ENotFound (answers evs)).
  { unfold answers. rewrite filter_In. intuition. }
  rewrite AN. clear AN. destruct (try_files opt) eqn:Et; [congruence|]. cbn [is_nil] in X.
  destruct (disk (path_of (root ++ target))) as [[|x]|].
  - destruct (has_suffix (q_path rq) [slash]) eqn:HS.
    + apply has_suffix_spec in HS. destruct (disk (path_of (root ++ target ++ [bs "index.html"]))) as [[|y]|].
      * rewrite X. split; [intros []|intros (_ & _ & K); discriminate K].
      * destruct X as (nm & -> & _). split; [intros [K|[]]; discriminate K|intros (_ & _ & K); discriminate K].
      * rewrite X. split; [auto|intros _; now left].
    + destruct X as (_ & loc & ->). split; [intros [K|[]]; discriminate K|].
      intros (_ & K & _). apply has_suffix_spec in K. congruence.
  - destruct X as (-> & _). split; [intros [K|[]]; discriminate K|intros (K & _); discriminate K].
  - destruct X as (-> & _). split; [intros [K|[]]; discriminate K|intros (K & _); discriminate K].
Qed.

(** *** C127: the name that decides the content type *)
(** C127. Whatever is served is served under a name resolving to the path it was
    opened at, except the fallback: it is served, in place of a file that could
    not be opened, under the name that was asked for. *)
Theorem C127_name_exact : forall bad fs stat_ok cwd prefix used dir opt rq rest root name h p served fallback,
  prefix_used prefix used -> under used (q_path rq) rest ->
  Forall good_seg root -> abs_dir cwd dir = path_of root ->
  let evs := serve_filter bad fs stat_ok cwd prefix dir opt rq in
  In (EServe name h) evs -> In (EOpen h p) evs ->
  resolves [] (split_byte slash name) served -> resolves [] (split_byte slash (try_files opt)) fallback ->
  (p = path_of (root ++ served) /\ h = 0 /\ name = rest) \/
  (p = path_of (root ++ served) /\ h = 1 /\ exists target, resolves [] (split_byte slash rest) target /\ served = target ++ [bs "index.html"]) \/
  (p = path_of (root ++ fallback) /\ h = 1 /\ name = rest /\ try_files opt <> [] /\
   (fs 0 (path_of (root ++ served)) = None \/ stat_ok 0 = false)).
Proof.
  intros bad fs stat_ok cwd prefix used dir opt rq rest root name h p served fallback Hu U G E evs I1 I2 RS RF.
  apply prefix_used_unique in Hu. subst used.
  apply resolves_fun in RS, RF. subst served fallback. unfold evs, serve_filter in I1, I2. rewrite E in I1, I2.
  destruct (serve_under bad fs stat_ok (normalize_prefix prefix) (path_of root) opt rq) as [(X & _)|(rest' & A & U' & K & X)]; rewrite X in I1, I2; [destruct I1|].
  assert (rest' = rest) by (destruct U as (E1 & _), U' as (E2 & _); rewrite E1 in E2; now apply app_inv_head in E2).
  subst rest'. clear X evs.
  assert (JI : exists target, resolves [] (split_byte slash rest) target /\ clean_segs [] (split_byte slash (join_index rest)) = target ++ [bs "index.html"]).
  { exists (clean_segs [] (split_byte slash rest)). split; [apply resolves_split|apply join_index_spec]. }
  rewrite <- !full_name_spec by assumption.
  unfold serve_rest, serve_file in I1, I2.
  destruct (fs 0 (full_name (path_of root) rest)) as [[|x]|] eqn:F0; [destruct (stat_ok 0) eqn:S0|destruct (stat_ok 0) eqn:S0|];
       try (destruct (negb (has_suffix (q_path rq) [slash]))); 
       try (destruct (fs 1 (full_name (path_of root) (join_index rest))) as [[|y]|]; try destruct (stat_ok 1));
       try (destruct (try_files opt) as [|t tf]; cbn [is_nil] in I1, I2);
       try (destruct (fs 1 (full_name (path_of root) (t :: tf))) as [[|z]|]; try destruct (stat_ok 1));
       cbn [List.app negb In] in I1, I2;
       repeat (destruct I1 as [I1|I1]; [try discriminate I1|]); try contradiction;
       injection I1 as <- <-;
       repeat (destruct I2 as [I2|I2]; [try discriminate I2|]); try contradiction;
       injection I2 as <-;
       first [ left; repeat split; reflexivity
             | right; left; split; [reflexivity|]; split; [reflexivity|exact JI]
             | right; right; repeat split; try discriminate; auto ].
Qed.

(** *** Cases *)
Example C122_exact_case :
  (exists l, bs "//evil.com/.." = slash :: l) /\ names_a_host (fun _ => false) (bs "//evil.com/..") /\
  ~ names_a_host (fun _ => false) (bs "//u@/..") /\ ~ names_a_host (fun _ => false) (bs "/static/d").
Proof.
  split; [eexists; reflexivity|]. split; [|split].
  - exists (bs "evil.com"), (bs "/.."). repeat split; try discriminate.
    + cbn. unfold slash. intuition discriminate.
    + right. eexists. reflexivity.
    + right. intros (t & E). apply (f_equal (@rev ascii)) in E. rewrite rev_app_distr in E. discriminate E.
  - intros (a & r & E & A & N & R & [B|B]); [discriminate B|]. apply B. exists (bs "u").
    injection E as E. destruct a as [|x a]; [congruence|]. injection E as <- E.
    destruct a as [|x a]; [cbn in E; destruct R as [->|(r' & ->)]; discriminate E|]. injection E as <- E.
    destruct a as [|x a]; [reflexivity|]. injection E as <- E. exfalso. apply N. right. right. now left.
  - intros (a & r & E & _). discriminate E.
Qed.
Example C126_exact_case :
  let disk := fun p => if beq p (bs "/srv/app.html") then Some (NFile (bs "app")) else if beq p (bs "/srv/docs") then Some NDir else None in
  serve_filter (fun _ => false) (fun _ => disk) (fun _ => true) [] [] (bs "/srv") (Options false (bs "app.html") []) (Request (bs "GET") (bs "/docs/") [])
    = [EOpen 0 (bs "/srv/docs"); EFail (bs "/srv/docs/index.html"); EClose 0; ENotFound] /\
  serve_filter (fun _ => false) (fun _ => disk) (fun _ => true) [] [] (bs "/srv") (Options false (bs "app.html") []) (Request (bs "GET") (bs "/x.js") [])
    = [EFail (bs "/srv/x.js"); EOpen 1 (bs "/srv/app.html"); EServe (bs "/x.js") 1].
Proof. vm_compute. repeat split. Qed.

(** *** C82: the directory that is served. A relative one is taken from the working directory. *)
Theorem C82_root_exact cwd dir rs :
  resolves [] (split_byte slash (match dir with c :: _ => if Ascii.eqb c slash then dir else cwd ++ [slash] ++ dir | [] => cwd ++ [slash] end)) rs ->
  abs_dir cwd dir = path_of rs.
Proof.
  intros H. unfold abs_dir. destruct dir as [|c dir].
  - cbn [has_prefix]. change (cwd ++ [slash] ++ []) with (cwd ++ [slash]). unfold path_clean_rooted. rewrite (resolves_to _ _ _ H); reflexivity.
  - cbn [has_prefix]. rewrite andb_true_r. rewrite (Ascii.eqb_sym slash c) in *. destruct (Ascii.eqb c slash); unfold path_clean_rooted; rewrite (resolves_to _ _ _ H); reflexivity.
Qed.
Example C82_root_example : exists rs, resolves [] (split_byte slash (bs "/home/u" ++ [slash] ++ bs "../v/./pub")) rs /\ rs = map bs ["home"; "v"; "pub"]%string.
Proof. eexists. split; [apply resolves_split|]. vm_compute. reflexivity. Qed.

(** *** C122: how the Location is written. Letters, digits and these stay; any other byte
    becomes a percent sign and its two hexadecimal digits. *)
Definition stays (c : ascii) : Prop :=
  In c (bs "abcdefghijklmnopqrstuvwxyzABCDEFGHIJKLMNOPQRSTUVWXYZ0123456789-_.~$&+,/:;=@").
Theorem C122_location_written s c :
  (escape_path (c :: s) = [c] ++ escape_path s <-> stays c) /\
  (~ stays c -> exists h l, nth_error (bs "0123456789ABCDEF") h = Some (hex_upper h) /\ nth_error (bs "0123456789ABCDEF") l = Some (hex_upper l) /\
     code c = (16 * h + l)%nat /\ escape_path (c :: s) = "%"%char :: hex_upper h :: hex_upper l :: escape_path s) /\ escape_path [] = [].
Proof.
  assert (K : path_keeps c = true <-> stays c).
  { assert (A : forall n, (n < 256)%nat -> path_keeps (byte n) = existsb (Ascii.eqb (byte n)) (bs "abcdefghijklmnopqrstuvwxyzABCDEFGHIJKLMNOPQRSTUVWXYZ0123456789-_.~$&+,/:;=@")).
    { assert (B : forallb (fun n => Bool.eqb (path_keeps (byte n)) (existsb (Ascii.eqb (byte n)) (bs "abcdefghijklmnopqrstuvwxyzABCDEFGHIJKLMNOPQRSTUVWXYZ0123456789-_.~$&+,/:;=@"))) (seq 0 256) = true) by (vm_compute; reflexivity).
      intros n Hn. rewrite forallb_forall in B. apply Bool.eqb_prop. apply B. apply in_seq. lia. }
    rewrite <- (byte_code c), A by apply code_lt. unfold stays. rewrite existsb_exists. split.
    - intros (x & I & E). apply Ascii.eqb_eq in E. rewrite E. exact I.
    - intros I. exists (byte (code c)). split; [exact I|apply Ascii.eqb_refl]. }
  assert (L : List.length (escape_path (c :: s)) = ((if path_keeps c then 1 else 3) + List.length (escape_path s))%nat).
  { unfold escape_path. cbn [flat_map]. rewrite app_length. destruct (path_keeps c); reflexivity. }
  split; [|split; [|reflexivity]].
  - rewrite <- K. unfold escape_path in *. cbn [flat_map] in *. destruct (path_keeps c); [split; reflexivity|]. split; [|discriminate]. intros E. rewrite E in L. cbn in L. lia.
  - intros N. assert (E : path_keeps c = false) by (destruct (path_keeps c); [exfalso; apply N, K; reflexivity|reflexivity]).
    exists (code c / 16)%nat, (code c mod 16)%nat. pose proof (code_lt c).
    assert (H16 : forall n, (n < 16)%nat -> nth_error (bs "0123456789ABCDEF") n = Some (hex_upper n)) by (intros n Hn; do 16 (destruct n as [|n]; [reflexivity|]); lia).
    split; [apply H16; apply Nat.div_lt_upper_bound; lia|]. split; [apply H16; apply Nat.mod_upper_bound; discriminate|].
    split; [apply Nat.div_mod_eq|]. unfold escape_path. cbn [flat_map]. rewrite E. reflexivity.
Qed.
Example C122_written_example : escape_path (bs "/a b/100%/~x") = bs "/a%20b/100%25/~x".
Proof. vm_compute. reflexivity. Qed.

Print Assumptions C122_redirect_exact.
Print Assumptions C123_files_closed_exact.
Print Assumptions C123_all_closed_iff.
Print Assumptions C125_skip_exact.
Print Assumptions C126_fallback_exact.
Print Assumptions C127_name_exact.
Print Assumptions C82_root_exact.
Print Assumptions C122_location_written.
