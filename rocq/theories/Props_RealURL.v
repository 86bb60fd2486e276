(** Props_RealURL: C188, the URL RealURL gives, as a text *)
From Coq Require Import List Ascii String Bool Arith ZArith Lia.
Import ListNotations.
From Verif Require Import GoStr GoNum GoEnc StaticModel ParamsModel CookieModel CookieFacts Props_Static Props_ParamsExact UrlModel.

(** ** what targets mean *)
(** a path text and, behind the first question mark, a query *)
Definition target_of (t p : bytes) (q : option bytes) : Prop :=
  t = p ++ match q with None => [] | Some q => "?"%char :: q end /\ ~ In "?"%char p.
(** the path a path text stands for: percent codes decoded *)
Inductive stands_for : bytes -> bytes -> Prop :=
| sf_nil : stands_for [] []
| sf_byte c p path : c <> "%"%char -> stands_for p path -> stands_for (c :: p) (c :: path)
| sf_code h1 h2 a b p path : unhex h1 = Some a -> unhex h2 = Some b -> stands_for p path -> stands_for ("%"%char :: h1 :: h2 :: p) (byte (16 * a + b) :: path).
Definition query_text (q : option bytes) : bytes := match q with Some q => q | None => [] end.
(** the same path and the same query; an empty query is like none *)
Definition same_resource (s t : bytes) : Prop :=
  exists p q p' q' path, target_of s p q /\ target_of t p' q' /\ stands_for p path /\ stands_for p' path /\ query_text q = query_text q'.
(** a target as HTTP requests have it: a slash in front, no control bytes *)
Definition origin_form (t : bytes) : Prop := (exists r, t = "/"%char :: r) /\ forall c, In c t -> ~ (code c < 32 \/ code c = 127).
Definition base (fwd_proto fwd_host host : bytes) : bytes :=
  match fwd_proto with [] => bs "http" | p => p end ++ bs "://" ++ escape_host (real_host fwd_host host).

(** ** lemmas *)
Lemma unescape_stands p : forall path, path_unescape p = Some path <-> stands_for p path.
Proof.
  remember (List.length p) as n eqn:Hn. assert (L : List.length p <= n) by lia. clear Hn. revert p L. induction n as [|n IH]; intros p L path.
  - destruct p; [|cbn in L; lia]. cbn. split; [intros [= <-]; constructor|intros H; inversion H; reflexivity].
  - destruct p as [|c p]; [cbn; split; [intros [= <-]; constructor|intros H; inversion H; reflexivity]|]. cbn [List.length] in L.
    cbn [path_unescape]. destruct (Ascii.eqb_spec c "%"%char) as [->|N].
    + destruct p as [|h1 [|h2 p]]; [split; [discriminate|intros H; inversion H; congruence] ..|]. cbn [List.length] in L.
      destruct (unhex h1) as [a|] eqn:E1; [|split; [discriminate|intros H; inversion H; congruence]].
      destruct (unhex h2) as [b|] eqn:E2; [|split; [discriminate|intros H; inversion H; congruence]].
      split.
      * destruct (path_unescape p) as [x|] eqn:E; [|discriminate]. intros [= <-]. apply sf_code; [assumption ..|]. apply IH; [lia|exact E].
      * intros H. inversion H; [congruence|]. subst. match goal with X : stands_for p _ |- _ => apply IH in X; [rewrite X|lia] end.
        cbn [option_map]. repeat match goal with A : unhex ?h = Some ?x, B : unhex ?h = Some ?y |- _ => assert (x = y) by congruence; clear A; subst end. reflexivity.
    + split.
      * destruct (path_unescape p) as [x|] eqn:E; [|discriminate]. intros [= <-]. apply sf_byte; [assumption|]. apply IH; [lia|exact E].
      * intros H. inversion H; [|congruence]. subst. match goal with X : stands_for p _ |- _ => apply IH in X; [rewrite X|lia] end. reflexivity.
Qed.
Lemma unescape_escape s : path_unescape (escape_path s) = Some s.
Proof.
  induction s as [|c s IH]; [reflexivity|]. change (c :: s) with ([c] ++ s). rewrite escape_app. unfold escape_path at 1. cbn [flat_map]. rewrite app_nil_r.
  destruct (path_keeps c) eqn:K; cbn [app path_unescape].
  - destruct (Ascii.eqb_spec c "%"%char) as [->|_]; [discriminate|]. rewrite IH. reflexivity.
  - change (Ascii.eqb "%" "%") with true. cbv iota.
    rewrite !unhex_upper; [|apply Nat.mod_upper_bound; discriminate|apply Nat.div_lt_upper_bound; pose proof (code_lt c); lia].
    rewrite <- Nat.div_mod_eq, byte_code, IH. reflexivity.
Qed.
Lemma escape_valid s : forallb valid_path_byte (escape_path s) = true.
Proof.
  apply forallb_forall. intros c H. apply escape_path_bytes in H as [H|[->|(n & L & ->)]]; [unfold valid_path_byte; rewrite H; reflexivity|reflexivity|].
  do 16 (destruct n as [|n]; [reflexivity|]). lia.
Qed.
Lemma ctl_spec c : ctl_byte c = false <-> ~ (code c < 32 \/ code c = 127).
Proof. unfold ctl_byte. rewrite orb_false_iff, Nat.ltb_ge, Nat.eqb_neq. lia. Qed.
Lemma valid_no_ctl c : valid_path_byte c = true -> ctl_byte c = false.
Proof. destruct c as [[] [] [] [] [] [] [] []]; vm_compute; congruence. Qed.
Lemma target_split t : exists p q, target_of t p q /\ cut "?"%char t = (p, query_text q) /\ (is_nil (query_text q) && negb (beq p t))%bool = match q with Some [] => true | _ => false end.
Proof.
  unfold cut. destruct (index_byte "?"%char t) as [i|] eqn:E.
  - pose proof (index_byte_some _ _ _ E) as (l & r & -> & Hl & Nl). subst i. exists l, (Some r). rewrite firstn_app_len, skipn_S_app. split; [split; [reflexivity|exact Nl]|]. split; [reflexivity|].
    cbn [query_text]. destruct r; [|reflexivity]. cbn [is_nil andb]. apply negb_true_iff. apply beq_false. intros X. apply (f_equal (@List.length ascii)) in X. rewrite app_length in X. cbn in X. lia.
  - apply index_byte_none in E. exists t, None. split; [split; [rewrite app_nil_r; reflexivity|exact E]|]. split; [reflexivity|]. cbn. rewrite beq_refl. reflexivity.
Qed.
Lemma target_unique t p q p' q' : target_of t p q -> target_of t p' q' -> p = p' /\ q = q'.
Proof.
  intros (E & N) (E' & N'). rewrite E in E'. clear E t. revert p' N N' E'. induction p as [|c p IH]; intros [|d p'] N N' E.
  - destruct q, q'; cbn in E; try congruence; split; congruence.
  - destruct q; cbn in E; [injection E as <- _; exfalso; apply N'; left; reflexivity|discriminate].
  - destruct q'; cbn in E; [injection E as -> _; exfalso; apply N; left; reflexivity|discriminate].
  - cbn in E. injection E as <- E. apply IH in E as (-> & ->); [split; reflexivity|..]; intros X; [apply N|apply N']; right; exact X.
Qed.
Definition own_raw (p path : bytes) : bytes := if beq p (escape_path path) then [] else p.
Definition bare (q : option bytes) : bool := match q with Some [] => true | _ => false end.
Lemma parse_origin other t p q : origin_form t -> target_of t p q ->
  parse_target other t = match path_unescape p with Some path => Some (mkUrl [] [] [] path (own_raw p path) (query_text q) [], bare q) | None => None end.
Proof.
  intros ((r & E) & C) T. destruct (target_split t) as (p' & q' & T' & Ct & B). destruct (target_unique _ _ _ _ _ T T') as (<- & <-).
  unfold parse_target. rewrite E. rewrite <- E. assert (X : existsb ctl_byte t = false).
  { destruct (existsb ctl_byte t) eqn:Q; [|reflexivity]. apply existsb_exists in Q as (c & Hc & Q). exfalso. rewrite (proj2 (ctl_spec c) (C c Hc)) in Q. discriminate. }
  rewrite X, Ct. destruct (path_unescape p) as [path|]; [|reflexivity]. unfold own_raw, bare. rewrite B. reflexivity.
Qed.
Definition shown (po path : bytes) : bytes :=
  if (forallb valid_path_byte po && match path_unescape po with Some x => beq x path | None => false end)%bool then po else escape_path path.
Definition shown_query (q : bytes) (f : bool) : bytes := if (f || negb (is_nil q))%bool then "?"%char :: q else [].
Lemma escaped_shown s o h path po pu q fr : path_unescape po = Some pu -> po <> [] -> path <> bs "*" ->
  escaped_path (mkUrl s o h path (own_raw po pu) q fr) = shown po path.
Proof.
  intros U N St. unfold escaped_path, shown. cbn [u_rawpath u_path]. unfold own_raw.
  assert (S0 : beq path (bs "*") = false) by (apply beq_false; exact St).
  destruct (beq po (escape_path pu)) eqn:B.
  - apply beq_true in B. subst po. cbn [is_nil negb andb]. rewrite S0, escape_valid, unescape_escape. cbn [andb].
    destruct (beq pu path) eqn:X; [apply beq_true in X as ->; reflexivity|reflexivity].
  - destruct po as [|c po]; [congruence|]. cbn [is_nil negb andb]. rewrite S0. reflexivity.
Qed.
Lemma shown_stands po path : stands_for (shown po path) path.
Proof.
  apply unescape_stands. unfold shown. destruct (forallb valid_path_byte po); cbn [andb]; [|apply unescape_escape].
  destruct (path_unescape po) as [x|] eqn:E; [|apply unescape_escape]. destruct (beq x path) eqn:B; [apply beq_true in B as ->; exact E|apply unescape_escape].
Qed.
Lemma shown_valid po path : forallb valid_path_byte (shown po path) = true.
Proof. unfold shown. destruct (forallb valid_path_byte po) eqn:V; cbn [andb]; [|apply escape_valid]. destruct (path_unescape po) as [x|]; [|apply escape_valid]. destruct (beq x path); [exact V|apply escape_valid]. Qed.
Lemma shown_no_question po path : ~ In "?"%char (shown po path).
Proof. intros H. pose proof (shown_valid po path) as V. rewrite forallb_forall in V. discriminate (V _ H). Qed.
Lemma unescape_slash r path : path_unescape ("/"%char :: r) = Some path -> exists x, path = "/"%char :: x.
Proof. cbn [path_unescape]. change (Ascii.eqb "/" "%") with false. cbv iota. destruct (path_unescape r); [|discriminate]. intros [= <-]. eexists. reflexivity. Qed.
Lemma shown_slash po x : (exists r, po = "/"%char :: r) -> exists r, shown po ("/"%char :: x) = "/"%char :: r.
Proof. intros (r & ->). unfold shown. destruct (_ && _)%bool; [eexists; reflexivity|]. exists (escape_path x). reflexivity. Qed.
Lemma shown_query_target p q f : ~ In "?"%char p -> exists q', target_of (p ++ shown_query q f) p q' /\ query_text q' = q /\ (f = true \/ q <> [] -> q' = Some q) /\ (f = false -> q = [] -> q' = None).
Proof.
  intros N. unfold shown_query. destruct f; cbn [orb].
  - exists (Some q). repeat split; auto; discriminate.
  - destruct q as [|c q]; cbn [is_nil negb]; [exists None|exists (Some (c :: q))]; (split; [split; [reflexivity|exact N]|]); repeat split; auto; try discriminate. intros [X|X]; congruence.
Qed.
(** a request line parsed, and a target given *)
Lemma origin_target t p q : origin_form t -> target_of t p q -> exists r, p = "/"%char :: r.
Proof. intros ((r & E) & _) (T & _). destruct p as [|c p]; [destruct q; cbn in T; congruence|]. rewrite T in E. injection E as -> _. eexists. reflexivity. Qed.
Lemma text_of_target other fh fp orig host t po qo u f t0 p q :
  origin_form t -> target_of t po qo -> parse_target other t = Some (u, f) ->
  t0 = real_uri orig (request_uri u f) -> origin_form t0 -> target_of t0 p q ->
  real_url_text other fh fp orig host u f =
    match path_unescape p with Some path => Some (base fp fh host ++ shown po path ++ shown_query (query_text q) (bare qo)) | None => None end.
Proof.
  intros O T P E0 O0 T0. rewrite (parse_origin other t po qo O T) in P. destruct (path_unescape po) as [pu|] eqn:U; [|discriminate]. injection P as <- <-.
  unfold real_url_text, real_url. rewrite <- E0. rewrite (parse_origin other t0 p q O0 T0). destruct (path_unescape p) as [path|] eqn:Up; [|reflexivity].
  cbn [option_map fst u_scheme u_opaque u_path u_rawpath u_query u_fragment]. f_equal.
  destruct (origin_target _ _ _ O T) as (ro & Ro). destruct (origin_target _ _ _ O0 T0) as (r & R). subst p. destruct (unescape_slash _ _ Up) as (x & ->).
  destruct (shown_slash po x (ex_intro _ ro Ro)) as (z & Z).
  assert (Ns : is_nil (real_proto fp []) = false) by (unfold real_proto; destruct fp; reflexivity).
  unfold url_text. cbn [u_scheme u_opaque u_host u_path u_rawpath u_query u_fragment]. rewrite Ns. cbn [is_nil andb negb].
  rewrite (escaped_shown _ _ _ _ po pu _ _ U); [|subst po; discriminate|discriminate]. cbv zeta. rewrite Z. cbn [is_nil negb hd andb]. change (Ascii.eqb "/" "/") with true. cbn [negb andb].
  rewrite andb_false_r. unfold base, query_part, shown_query. cbn [u_query]. change (bs "://") with (bs ":" ++ bs "//"). rewrite <- !app_assoc.
  assert (Sc : real_proto fp [] = match fp with [] => bs "http" | p => p end) by (unfold real_proto; destruct fp; reflexivity). rewrite Sc. reflexivity.
Qed.
(** without X-Original-URI the target parsed is RequestURI's *)
Lemma own_target other t po qo u f : origin_form t -> target_of t po qo -> parse_target other t = Some (u, f) ->
  exists pu, path_unescape po = Some pu /\ request_uri u f = shown po pu ++ shown_query (query_text qo) (bare qo) /\
    origin_form (request_uri u f) /\ target_of (request_uri u f) (shown po pu) qo.
Proof.
  intros O T P. rewrite (parse_origin other t po qo O T) in P. destruct (path_unescape po) as [pu|] eqn:U; [|discriminate]. injection P as <- <-. exists pu. split; [reflexivity|].
  destruct (origin_target _ _ _ O T) as (ro & Ro). pose proof U as U2. rewrite Ro in U2. destruct (unescape_slash _ _ U2) as (x & X).
  destruct (shown_slash po x (ex_intro _ ro Ro)) as (z & Z). rewrite <- X in Z.
  assert (R : request_uri (mkUrl [] [] [] pu (own_raw po pu) (query_text qo) []) (bare qo) = shown po pu ++ shown_query (query_text qo) (bare qo)).
  { unfold request_uri. cbn [u_opaque is_nil]. rewrite (escaped_shown _ _ _ _ po pu _ _ U); [|subst po; discriminate|subst pu; discriminate]. cbv zeta. rewrite Z at 1. cbn [is_nil]. reflexivity. }
  split; [exact R|]. rewrite R.
  assert (Q : shown_query (query_text qo) (bare qo) = match qo with None => [] | Some q => "?"%char :: q end) by (destruct qo as [[|c q]|]; reflexivity).
  split; [|split; [rewrite Q; reflexivity|apply shown_no_question]]. split; [rewrite Z; eexists; reflexivity|].
  intros c Hc. apply in_app_or in Hc as [Hc|Hc].
  - apply ctl_spec, valid_no_ctl. pose proof (shown_valid po pu) as V. rewrite forallb_forall in V. exact (V c Hc).
  - rewrite Q in Hc. destruct O as (_ & O). destruct T as (T & _). apply O. rewrite T. apply in_or_app. right. exact Hc.
Qed.

(** ** C188: the text of RealURL *)
(** the URI RealURL goes by *)
Definition asked (orig t : bytes) : bytes := match orig with [] => t | _ => orig end.
(** the scheme, the host, and a target for the same path and query *)
Theorem C188_same_resource other fwd_host fwd_proto orig host t u f text :
  origin_form t -> parse_target other t = Some (u, f) -> orig = [] \/ origin_form orig ->
  real_url_text other fwd_host fwd_proto orig host u f = Some text ->
  exists t', text = base fwd_proto fwd_host host ++ t' /\ same_resource (asked orig t) t'.
Proof.
  intros O P Oo R. destruct (target_split t) as (po & qo & T & _). destruct (own_target other t po qo u f O T P) as (pu & U & Q & Or & Tr).
  destruct orig as [|c orig].
  - rewrite (text_of_target other fwd_host fwd_proto [] host t po qo u f _ _ _ O T P eq_refl Or Tr) in R.
    rewrite (proj2 (unescape_stands _ _) (shown_stands po pu)) in R. injection R as <-. eexists. split; [reflexivity|]. cbn [asked].
    destruct (shown_query_target (shown po pu) (query_text qo) (bare qo) (shown_no_question _ _)) as (q' & T' & E' & _).
    exists po, qo, (shown po pu), q', pu. split; [exact T|]. split; [exact T'|]. split; [apply unescape_stands; exact U|]. split; [apply shown_stands|symmetry; exact E'].
  - destruct Oo as [Oo|Oo]; [discriminate|]. destruct (target_split (c :: orig)) as (p & q & T0 & _).
    rewrite (text_of_target other fwd_host fwd_proto (c :: orig) host t po qo u f _ p q O T P eq_refl Oo T0) in R. destruct (path_unescape p) as [path|] eqn:Up; [|discriminate].
    injection R as <-. eexists. split; [reflexivity|]. cbn [asked].
    destruct (shown_query_target (shown po path) (query_text q) (bare qo) (shown_no_question _ _)) as (q' & T' & E' & _).
    exists p, q, (shown po path), q', path. split; [exact T0|]. split; [exact T'|]. split; [apply unescape_stands; exact Up|]. split; [apply shown_stands|symmetry; exact E'].
Qed.
(** an error exactly if a percent code in the path of X-Original-URI is broken; never without that header *)
Theorem C188_errors other fwd_host fwd_proto orig host t u f :
  origin_form t -> parse_target other t = Some (u, f) -> orig = [] \/ origin_form orig ->
  (real_url_text other fwd_host fwd_proto orig host u f = None <->
   exists p q, target_of orig p q /\ forall path, ~ stands_for p path).
Proof.
  intros O P Oo. destruct (target_split t) as (po & qo & T & _). destruct (own_target other t po qo u f O T P) as (pu & U & Q & Or & Tr).
  destruct orig as [|c orig].
  - rewrite (text_of_target other fwd_host fwd_proto [] host t po qo u f _ _ _ O T P eq_refl Or Tr).
    rewrite (proj2 (unescape_stands _ _) (shown_stands po pu)). split; [discriminate|]. intros (p & q & (E & _) & H). exfalso.
    destruct p; [|destruct q; discriminate]. apply (H []). constructor.
  - destruct Oo as [Oo|Oo]; [discriminate|]. destruct (target_split (c :: orig)) as (p & q & T0 & _).
    rewrite (text_of_target other fwd_host fwd_proto (c :: orig) host t po qo u f _ p q O T P eq_refl Oo T0). destruct (path_unescape p) as [path|] eqn:Up.
    + split; [discriminate|]. intros (p' & q' & T' & H). destruct (target_unique _ _ _ _ _ T0 T') as (<- & <-). exfalso. apply (H path), unescape_stands, Up.
    + split; [|reflexivity]. intros _. exists p, q. split; [exact T0|]. intros path H. apply unescape_stands in H. congruence.
Qed.
(** without X-Original-URI the target stays as the client wrote it exactly if its path has only bytes that need no percent code *)
Theorem C188_own_text other fwd_host fwd_proto host t u f p q :
  origin_form t -> parse_target other t = Some (u, f) -> target_of t p q ->
  (real_url_text other fwd_host fwd_proto [] host u f = Some (base fwd_proto fwd_host host ++ t) <-> forallb valid_path_byte p = true).
Proof.
  intros O P T. destruct (own_target other t p q u f O T P) as (pu & U & Q & Or & Tr).
  rewrite (text_of_target other fwd_host fwd_proto [] host t p q u f _ _ _ O T P eq_refl Or Tr). rewrite (proj2 (unescape_stands _ _) (shown_stands p pu)).
  assert (X : shown p pu ++ shown_query (query_text q) (bare q) = t <-> shown p pu = p).
  { destruct T as (-> & _). assert (Y : shown_query (query_text q) (bare q) = match q with None => [] | Some q => "?"%char :: q end) by (destruct q as [[|c q]|]; reflexivity). rewrite Y.
    split; [apply app_inv_tail|intros ->; reflexivity]. }
  split.
  - intros [= E]. apply app_inv_head in E. apply (proj1 X) in E. rewrite <- E. apply shown_valid.
  - intros V. do 2 f_equal. apply X. unfold shown. rewrite V, U, beq_refl. reflexivity.
Qed.
(** with X-Original-URI: its text stays exactly if its path is written as the request's own, where that
    is a valid text for the same path, and otherwise in net/url's way; and a lone question mark at the end
    is there exactly if the request's own target has one *)
Theorem C188_original_text other fwd_host fwd_proto orig host t u f p q path po qo :
  origin_form t -> parse_target other t = Some (u, f) -> target_of t po qo ->
  origin_form orig -> target_of orig p q -> stands_for p path ->
  (real_url_text other fwd_host fwd_proto orig host u f = Some (base fwd_proto fwd_host host ++ orig) <->
   (forallb valid_path_byte po = true /\ stands_for po path -> p = po) /\
   (~ (forallb valid_path_byte po = true /\ stands_for po path) -> p = escape_path path) /\
   ((q = Some [] -> qo = Some []) /\ (q = None -> qo <> Some []))).
Proof.
  intros O P T Oo T0 Sp. pose proof (proj2 (unescape_stands _ _) Sp) as Up.
  destruct orig as [|c orig]; [destruct Oo as ((r & X) & _); discriminate|].
  rewrite (text_of_target other fwd_host fwd_proto (c :: orig) host t po qo u f _ p q O T P eq_refl Oo T0), Up.
  assert (X : shown po path ++ shown_query (query_text q) (bare qo) = c :: orig <-> shown po path = p /\ ((q = Some [] -> qo = Some []) /\ (q = None -> qo <> Some []))).
  { destruct (shown_query_target (shown po path) (query_text q) (bare qo) (shown_no_question _ _)) as (q' & T' & _ & Q1 & Q2).
    assert (B : bare qo = true <-> qo = Some []) by (destruct qo as [[|]|]; (split; intros H0; [try discriminate H0; reflexivity|try discriminate H0; reflexivity])). split.
    - intros E. rewrite E in T'. destruct (target_unique _ _ _ _ _ T' T0) as (E1 & E2). split; [exact E1|]. subst q'. split.
      + intros ->. cbn in *. apply B. destruct (bare qo); [reflexivity|]. specialize (Q2 eq_refl eq_refl). discriminate.
      + intros -> Y. apply B in Y. specialize (Q1 (or_introl Y)). discriminate.
    - intros (E & H1 & H2). rewrite E. destruct T0 as (-> & _). f_equal. unfold shown_query. destruct q as [[|d q]|]; cbn [query_text is_nil negb].
      + rewrite (proj2 B (H1 eq_refl)). reflexivity.
      + rewrite orb_true_r. reflexivity.
      + destruct (bare qo) eqn:Y; [exfalso; apply (H2 eq_refl), B; reflexivity|reflexivity]. }
  assert (Y : shown po path = p <-> (forallb valid_path_byte po = true /\ stands_for po path -> p = po) /\ (~ (forallb valid_path_byte po = true /\ stands_for po path) -> p = escape_path path)).
  { unfold shown. destruct (forallb valid_path_byte po) eqn:V; cbn [andb].
    - destruct (path_unescape po) as [x|] eqn:E; [destruct (beq x path) eqn:B|].
      + apply beq_true in B as ->. pose proof (proj1 (unescape_stands _ _) E). split; [intros <-; split; [reflexivity|intros H0; exfalso; apply H0; auto]|]. intros (H1 & _). symmetry. apply H1. auto.
      + assert (N : ~ stands_for po path) by (intros H; apply unescape_stands in H; rewrite H in E; injection E as <-; rewrite beq_refl in B; discriminate).
        split; [intros <-; split; [intros (_ & H); contradiction|reflexivity]|]. intros (_ & H2). symmetry. apply H2. tauto.
      + assert (N : ~ stands_for po path) by (intros H; apply unescape_stands in H; rewrite H in E; discriminate).
        split; [intros <-; split; [intros (_ & H); contradiction|reflexivity]|]. intros (_ & H2). symmetry. apply H2. tauto.
    - split; [intros <-; split; [intros (H & _); discriminate|reflexivity]|]. intros (_ & H2). symmetry. apply H2. intros (H & _). discriminate. }
  split.
  - intros [= E]. apply app_inv_head in E. apply (proj1 X) in E as (E & H). apply (proj1 Y) in E as (E1 & E2). auto.
  - intros (H1 & H2 & H3). do 2 f_equal. apply X. split; [apply Y; auto|exact H3].
Qed.
(** that RealURL keeps the text of X-Original-URI is false: behind a proxy that rewrites paths,
    the code of a slash in a segment becomes a slash, and the port of the host is lost *)
Definition ex_other (t : bytes) : option (url * bool) := None.
Definition ex_u (t : bytes) : url := match parse_target ex_other t with Some (u, _) => u | None => mkUrl [] [] [] [] [] [] [] end.
Theorem C188_text_kept_refuted :
  parse_target ex_other (bs "/x") = Some (ex_u (bs "/x"), false) /\
  real_url_text ex_other [] (bs "https") (bs "/files/a%2Fb?v=1") (bs "example.com:8443") (ex_u (bs "/x")) false = Some (bs "https://example.com/files/a/b?v=1") /\
  real_url_text ex_other [] [] (bs "/aA") (bs "h") (ex_u (bs "/a%41")) false = Some (bs "http://h/a%41").
Proof. split; [|split]; vm_compute; reflexivity. Qed.
Lemma origin_b t : match t with "/"%char :: _ => negb (existsb ctl_byte t) | _ => false end = true -> origin_form t.
Proof.
  intros H. destruct t as [|c r]; [discriminate|]. split.
  - destruct (Ascii.eqb_spec c "/"%char) as [->|N]; [exists r; reflexivity|]. exfalso. destruct c as [[] [] [] [] [] [] [] []]; first [discriminate H|exact (N eq_refl)].
  - intros d Hd. apply ctl_spec. assert (X : existsb ctl_byte (c :: r) = false) by (destruct c as [[] [] [] [] [] [] [] []]; try discriminate H; apply negb_true_iff; exact H).
    destruct (ctl_byte d) eqn:E; [|reflexivity]. rewrite <- X. symmetry. apply existsb_exists. exists d. auto.
Qed.
Example C188_met :
  origin_form (bs "/a%20b/c?x=1") /\ origin_form (bs "/files/a%2Fb?v=1") /\
  parse_target ex_other (bs "/a%20b/c?x=1") = Some (ex_u (bs "/a%20b/c?x=1"), false) /\
  real_url_text ex_other (bs "www.example.com") (bs "https") [] (bs "10.0.0.1:80") (ex_u (bs "/a%20b/c?x=1")) false = Some (bs "https://www.example.com/a%20b/c?x=1").
Proof. split; [apply origin_b; vm_compute; reflexivity|]. split; [apply origin_b; vm_compute; reflexivity|]. split; vm_compute; reflexivity. Qed.

Print Assumptions C188_same_resource.
Print Assumptions C188_errors.
Print Assumptions C188_own_text.
Print Assumptions C188_original_text.
Print Assumptions C188_text_kept_refuted.
