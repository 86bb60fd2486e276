(** Props_Texts: C184 (which cookie values are readable), C188 (the host and path in RealURL's
    text), C180 (cookie names) and C169 (memcached keys),
    independently of the model's own character tables. *)
From Coq Require Import List Ascii String Bool Arith Lia.
Import ListNotations.
From Verif Require Import GoStr GoEnc StaticModel ParamsModel CookieModel CookieFacts UrlModel CacheModel Props_RealURL.

(** visible ASCII and space, without quote, semicolon and backslash *)
Definition cookie_byte (c : ascii) : Prop := 32 <= code c <= 126 /\ c <> """"%char /\ c <> ";"%char /\ c <> "\"%char.
Lemma value_byte_spec c : value_byte c = true <-> cookie_byte c.
Proof.
  unfold value_byte, cookie_byte. rewrite !andb_true_iff, negb_true_iff. cbn [existsb list_ascii_of_string bs]. change (bs """;\") with [""""%char; ";"%char; "\"%char]. cbn [existsb]. rewrite !orb_false_iff, Nat.leb_le, Nat.ltb_lt, !Ascii.eqb_neq.
  split; [intros ((A & B) & C & D & E & _); split; [lia|auto]|intros (A & C & D & E); repeat split; auto; lia].
Qed.
(** A cookie's text in the request is readable exactly if it is, or is in quotes, a text of these
    bytes, and then that text is its value. *)
Theorem C184_readable_value raw v : parse_cookie_value raw = Some v <->
  (forall c, In c v -> cookie_byte c) /\ (raw = v \/ raw = """"%char :: v ++ [""""%char]).
Proof.
  assert (FB : forall l, forallb value_byte l = true <-> forall c, In c l -> cookie_byte c).
  { intros l. rewrite forallb_forall. split; intros H c I; apply value_byte_spec, H, I. }
  assert (RL : forall r (x : ascii), last (r ++ [x]) x = x /\ removelast (r ++ [x]) = r) by (intros r x; rewrite last_last, removelast_last; auto).
  unfold parse_cookie_value. split.
  - destruct (forallb value_byte (unquote raw)) eqn:F; [|discriminate]. intros [= <-]. split; [apply FB; exact F|].
    destruct raw as [|a [|b r]]; [left; reflexivity|left; reflexivity|]. unfold unquote. destruct (Ascii.eqb_spec a dquote) as [->|N]; cbn [andb]; [|left; reflexivity].
    destruct (Ascii.eqb_spec (last (b :: r) dquote) dquote) as [L|L]; [|left; reflexivity]. right. change """"%char with dquote. f_equal. pose proof (app_removelast_last dquote (l := b :: r) ltac:(discriminate)) as E. rewrite L in E. exact E.
  - intros (H & [->| ->]).
    + assert (U : unquote v = v).
      { destruct v as [|a [|b r]]; [reflexivity|reflexivity|]. unfold unquote. destruct (Ascii.eqb_spec a dquote) as [->|N]; [|reflexivity]. exfalso. destruct (H dquote (or_introl eq_refl)) as (_ & X & _). apply X. reflexivity. }
      rewrite U, (proj2 (FB v) H). reflexivity.
    + assert (U : unquote (""""%char :: v ++ [""""%char]) = v).
      { change """"%char with dquote. unfold unquote. destruct (v ++ [dquote]) as [|b r] eqn:E; [destruct v; discriminate|]. rewrite <- E, (proj1 (RL v dquote)), (proj2 (RL v dquote)), Ascii.eqb_refl. reflexivity. }
      rewrite U, (proj2 (FB v) H). reflexivity.
Qed.
(** So no text is readable as two values, and one with a quote inside is not readable. *)
Example C184_readable_example :
  parse_cookie_value (bs "a b") = Some (bs "a b") /\ parse_cookie_value ("034"%char :: bs "a,b" ++ ["034"%char]) = Some (bs "a,b") /\
  parse_cookie_value (bs "a" ++ "034"%char :: bs "b") = None /\ parse_cookie_value ["034"%char] = None.
Proof. vm_compute. repeat split. Qed.

(** space, tab, line feed and carriage return *)
Definition blank (c : ascii) : Prop := In (code c) [32; 9; 10; 13].
Lemma http_ws_spec c : http_ws c = true <-> blank c.
Proof. unfold http_ws, blank. rewrite existsb_exists. split; [intros (x & I & E); apply Nat.eqb_eq in E as ->; exact I|intros I; exists (code c); split; [exact I|apply Nat.eqb_refl]]. Qed.
(** The blanks around a cookie in the request, and around its name, do not count, and no other bytes
    are left out. *)
Theorem C184_blanks s m : trim_string s = m <-> exists p q, s = p ++ m ++ q /\ (forall c, In c (p ++ q) -> blank c) /\ (forall c r, m = c :: r -> ~ blank c) /\ (forall c r, m = r ++ [c] -> ~ blank c).
Proof.
  assert (FB : forall l, forallb http_ws l = true <-> forall c, In c l -> blank c).
  { intros l. rewrite forallb_forall. split; intros H c I; apply http_ws_spec, H, I. }
  assert (NB : forall c, http_ws c = false <-> ~ blank c).
  { intros c. rewrite <- http_ws_spec. destruct (http_ws c); split; intros; congruence. }
  rewrite trim_string_eq. split.
  - intros <-. destruct (dropw_suffix http_ws s) as (p & E & Wp). destruct (dropw_suffix http_ws (rev (dropw http_ws s))) as (q & Eq & Wq).
    exists p, (rev q). split; [|split].
    + rewrite E at 1. f_equal. rewrite <- (rev_involutive (dropw http_ws s)) at 1. rewrite Eq, rev_app_distr. reflexivity.
    + intros c I. apply in_app_or in I as [I|I]; [exact (proj1 (FB p) Wp c I)|exact (proj1 (FB q) Wq c (proj2 (in_rev _ _) I))].
    + destruct (trimw_ends http_ws s) as (A & B). split; intros c r X; apply NB; [apply (A c r)|apply (B c r)]; exact X.
  - intros (p & q & -> & W & A & B). rewrite trimw_pad by (apply FB; intros c I; apply W, in_or_app; auto).
    apply trimw_id; intros c r X; apply NB; [apply (A c r X)|apply (B c r X)].
Qed.
Example C184_blanks_example : trim_string (" "%char :: "009"%char :: bs "a b" ++ ["010"%char; " "%char]) = bs "a b".
Proof. reflexivity. Qed.

(** the bytes net/url leaves as they are in a host *)
Definition host_byte (c : ascii) : Prop :=
  48 <= code c <= 57 \/ 65 <= code c <= 90 \/ 97 <= code c <= 122 \/ In c (bs "-_.~!$&'()*+,;=:[]<>") \/ c = """"%char.
Lemma host_keeps_spec c : host_keeps c = true <-> host_byte c.
Proof.
  assert (X : forallb (fun n => let x := ascii_of_nat n in Bool.eqb (host_keeps x)
    (Nat.leb 48 n && Nat.leb n 57 || (Nat.leb 65 n && Nat.leb n 90 || (Nat.leb 97 n && Nat.leb n 122 || (existsb (Ascii.eqb x) (bs "-_.~!$&'()*+,;=:[]<>") || Ascii.eqb x """"%char))))%bool) (seq 0 256) = true) by (vm_compute; reflexivity).
  rewrite forallb_forall in X. specialize (X (code c)). rewrite in_seq in X. pose proof (code_lt c). specialize (X ltac:(lia)). cbv zeta in X. unfold code in X at 1 6. unfold code in X. rewrite ascii_nat_embedding in X. apply Bool.eqb_prop in X. rewrite X.
  unfold host_byte, code. rewrite !orb_true_iff, !andb_true_iff, !Nat.leb_le, Ascii.eqb_eq, existsb_exists.
  assert (Y : (exists x, In x (bs "-_.~!$&'()*+,;=:[]<>") /\ Ascii.eqb c x = true) <-> In c (bs "-_.~!$&'()*+,;=:[]<>")).
  { split; [intros (x & I & E); apply Ascii.eqb_eq in E; subst; exact I|intros I; exists c; split; [exact I|apply Ascii.eqb_refl]]. }
  rewrite Y. tauto.
Qed.
(** The host in RealURL's text stands for the real host, and is the real host byte for byte exactly
    if it has only such bytes; the others are percent codes. *)
Theorem C188_host_text h : stands_for (escape_host h) h /\ (escape_host h = h <-> forall c, In c h -> host_byte c).
Proof.
  split.
  - induction h as [|c h IH]; [constructor|]. cbn [escape_host flat_map]. fold (escape_host h). destruct (host_keeps c) eqn:K.
    + cbn [app]. constructor; [|exact IH]. intros ->. vm_compute in K. discriminate.
    + cbn [app]. pose proof (code_lt c) as L. assert (E : c = byte (16 * (code c / 16) + code c mod 16)).
      { rewrite <- Nat.div_mod by discriminate. unfold byte, code. symmetry. apply ascii_nat_embedding. }
      rewrite E at 3. constructor; [apply unhex_upper; apply Nat.div_lt_upper_bound; lia|apply unhex_upper; apply Nat.mod_upper_bound; discriminate|exact IH].
  - split.
    + assert (LE : forall l, List.length l <= List.length (escape_host l)).
      { induction l as [|c l IH]; [apply le_n|]. cbn [escape_host flat_map]. fold (escape_host l). rewrite app_length. destruct (host_keeps c); cbn [List.length]; lia. }
      induction h as [|c h IH]; intros E x I; [destruct I|]. cbn [escape_host flat_map] in E. fold (escape_host h) in E. destruct (host_keeps c) eqn:K.
      * injection E as E. destruct I as [->|I]; [apply host_keeps_spec; exact K|exact (IH E x I)].
      * exfalso. apply (f_equal (@List.length ascii)) in E. rewrite app_length in E. cbn [List.length] in E. pose proof (LE h). lia.
    + intros H. induction h as [|c h IH]; [reflexivity|]. cbn [escape_host flat_map]. fold (escape_host h). rewrite (proj2 (host_keeps_spec c) (H c (or_introl eq_refl))), IH by (intros x I; apply H; right; exact I). reflexivity.
Qed.
Example C188_host_example : escape_host (bs "[2001:db8::1]") = bs "[2001:db8::1]" /\ escape_host (bs "a b") = bs "a%20b".
Proof. vm_compute. repeat split. Qed.

(** the bytes net/url leaves as they are in a path, and those more that it accepts in one *)
Definition path_plain (c : ascii) : Prop :=
  48 <= code c <= 57 \/ 65 <= code c <= 90 \/ 97 <= code c <= 122 \/ In c (bs "-_.~$&+,/:;=@").
Definition path_accepted (c : ascii) : Prop := path_plain c \/ In c (bs "!'()*[]%").
Lemma mem_byte c l : existsb (Ascii.eqb c) l = true <-> In c l.
Proof. rewrite existsb_exists. split; [intros (x & I & E); apply Ascii.eqb_eq in E; subst; exact I|intros I; exists c; split; [exact I|apply Ascii.eqb_refl]]. Qed.
Lemma path_keeps_spec c : path_keeps c = true <-> path_plain c.
Proof.
  assert (X : forallb (fun n => let x := ascii_of_nat n in Bool.eqb (path_keeps x)
    (Nat.leb 48 n && Nat.leb n 57 || (Nat.leb 65 n && Nat.leb n 90 || (Nat.leb 97 n && Nat.leb n 122 || existsb (Ascii.eqb x) (bs "-_.~$&+,/:;=@"))))%bool) (seq 0 256) = true) by (vm_compute; reflexivity).
  rewrite forallb_forall in X. specialize (X (code c)). rewrite in_seq in X. pose proof (code_lt c). specialize (X ltac:(lia)). cbv zeta in X. unfold code in X. rewrite ascii_nat_embedding in X. apply Bool.eqb_prop in X. rewrite X.
  unfold path_plain, code. rewrite !orb_true_iff, !andb_true_iff, !Nat.leb_le, mem_byte. tauto.
Qed.
Lemma valid_path_byte_spec c : valid_path_byte c = true <-> path_accepted c.
Proof. unfold valid_path_byte, path_accepted. rewrite orb_true_iff, path_keeps_spec, mem_byte. tauto. Qed.
(** The path net/url writes stands for the path, and is the path byte for byte exactly if it has
    only plain bytes; the paths whose text is kept are those of accepted bytes. *)
Theorem C188_path_text p : stands_for (escape_path p) p /\ (escape_path p = p <-> forall c, In c p -> path_plain c) /\
  (forallb valid_path_byte p = true <-> forall c, In c p -> path_accepted c).
Proof.
  split; [|split].
  - induction p as [|c p IH]; [constructor|]. cbn [escape_path flat_map]. fold (escape_path p). destruct (path_keeps c) eqn:K.
    + cbn [app]. constructor; [|exact IH]. intros ->. vm_compute in K. discriminate.
    + cbn [app]. pose proof (code_lt c) as L. assert (E : c = byte (16 * (code c / 16) + code c mod 16)).
      { rewrite <- Nat.div_mod by discriminate. unfold byte, code. symmetry. apply ascii_nat_embedding. }
      rewrite E at 3. constructor; [apply unhex_upper; apply Nat.div_lt_upper_bound; lia|apply unhex_upper; apply Nat.mod_upper_bound; discriminate|exact IH].
  - split.
    + assert (LE : forall l, List.length l <= List.length (escape_path l)).
      { induction l as [|c l IH]; [apply le_n|]. cbn [escape_path flat_map]. fold (escape_path l). rewrite app_length. destruct (path_keeps c); cbn [List.length]; lia. }
      induction p as [|c p IH]; intros E x I; [destruct I|]. cbn [escape_path flat_map] in E. fold (escape_path p) in E. destruct (path_keeps c) eqn:K.
      * injection E as E. destruct I as [->|I]; [apply path_keeps_spec; exact K|exact (IH E x I)].
      * exfalso. apply (f_equal (@List.length ascii)) in E. rewrite app_length in E. cbn [List.length] in E. pose proof (LE p). lia.
    + intros H. induction p as [|c p IH]; [reflexivity|]. cbn [escape_path flat_map]. fold (escape_path p). rewrite (proj2 (path_keeps_spec c) (H c (or_introl eq_refl))), IH by (intros x I; apply H; right; exact I). reflexivity.
  - rewrite forallb_forall. split; intros H c I; apply valid_path_byte_spec, H, I.
Qed.
Example C188_path_example : escape_path (bs "/a b/c%") = bs "/a%20b/c%25" /\ forallb valid_path_byte (bs "/a!b") = true /\ escape_path (bs "/a!b") = bs "/a%21b".
Proof. vm_compute. repeat split. Qed.

(** a token: the names of cookies *)
Definition token (n : bytes) : Prop :=
  n <> [] /\ forall c, In c n -> 48 <= code c <= 57 \/ 65 <= code c <= 90 \/ 97 <= code c <= 122 \/ In c (bs "!#$%&'*+-.^_`|~").
Theorem C180_token n : name_ok n = true <-> token n.
Proof.
  unfold name_ok, token. rewrite andb_true_iff, negb_true_iff, forallb_forall. assert (T : forall c, token_byte c = true <-> 48 <= code c <= 57 \/ 65 <= code c <= 90 \/ 97 <= code c <= 122 \/ In c (bs "!#$%&'*+-.^_`|~")).
  { intros c. unfold token_byte, is_alpha, is_num. rewrite !orb_true_iff, !andb_true_iff, !Nat.leb_le, mem_byte. tauto. }
  split; intros (A & B).
  - split; [intros ->; discriminate|]. intros c I. apply T. exact (B c I).
  - split; [destruct n; [congruence|reflexivity]|]. intros c I. apply T. exact (B c I).
Qed.
Example C180_token_example : name_ok (bs "__Host-sid") = true /\ name_ok (bs "s:id") = false /\ name_ok [] = false.
Proof. vm_compute. repeat split. Qed.

(** The keys memcached takes. *)
Theorem C169_memcached_keys k : mc_legal k = true <-> List.length k <= 250 /\ forall c, In c k -> 32 < code c /\ code c <> 127.
Proof.
  unfold mc_legal. rewrite andb_true_iff, Nat.leb_le, forallb_forall. assert (T : forall c, negb (Nat.leb (code c) 32 || Nat.eqb (code c) 127) = true <-> 32 < code c /\ code c <> 127).
  { intros c. rewrite negb_true_iff, orb_false_iff, Nat.leb_gt, Nat.eqb_neq. tauto. }
  split; intros (A & B); (split; [exact A|intros c I; apply T; exact (B c I)]).
Qed.
Example C169_keys_example : mc_legal (bs "session:abc") = true /\ mc_legal (bs "a b") = false.
Proof. vm_compute. repeat split. Qed.

Print Assumptions C184_readable_value.
Print Assumptions C188_host_text.
Print Assumptions C188_path_text.
Print Assumptions C180_token.
Print Assumptions C169_memcached_keys.
Print Assumptions C184_blanks.
