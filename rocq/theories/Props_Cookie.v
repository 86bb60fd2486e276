(** Props_Cookie: C180 to C185, the session and remember cookies on the wire and in the browser *)
From Coq Require Import List Ascii String Bool Arith ZArith Lia.
Import ListNotations.
From Verif Require Import GoStr GoNum GoEnc ConvModel SecureModel SecureFacts RandModel CacheModel SessModel CookieModel UserAgent CookieFacts AgentFacts.
From Verif Require Import Props_Secure Props_Rand Props_Sess.
From Verif Require CacheSpec Props_Cache.
Local Notation sec := Props_Cache.sec.
Local Open Scope Z_scope.

(** the Domain a browser understands of a configured domain: none when the text is no domain *)
Definition dom_of (d : bytes) : option bytes := if valid_domain d then Some (to_lower (undot d)) else None.
Lemma dom_of_eq d : option_map to_lower (the_domain d) = dom_of d.
Proof. unfold the_domain, dom_of. destruct d as [|a d]; [reflexivity|]. cbn [is_nil negb andb]. destruct (valid_domain (a :: d)); reflexivity. Qed.
Lemma encode_b64 hmac sid key t v : encode_secure hmac sid key t = Some v -> forallb b64_byte v = true.
Proof. intros H. apply encode_eq in H as (_ & _ & ->). apply b64_encode_bytes. Qed.

(** ** C180 what the Set-Cookie lines say *)
Theorem C180_session_line hmac c k sid created lines v :
  encode_secure hmac sid (cf_key c) created = Some v -> name_ok (ck_name k) = true ->
  exists line, fst (write_session_cookie hmac c k sid created lines) = [line] /\
    parse_set_cookie line = Some (ck_name k, v, mkAttrs (if 0 <? ck_expire k then Some (ck_expire k) else None) None (dom_of (ck_domain k)) (Some (bs "/")) (ck_secure k) true).
Proof.
  intros E N. unfold write_session_cookie. rewrite E. cbn [fst]. exists (cookie_string (session_cookie k v)). split; [apply set_cookie_ok; exact N|].
  rewrite parse_cookie_string; [|exact N|exact (encode_b64 _ _ _ _ _ E)|reflexivity|discriminate].
  unfold attrs_of. cbn [session_cookie hc_name hc_value hc_max_age hc_expires hc_domain hc_secure hc_httponly option_map]. rewrite dom_of_eq. f_equal. f_equal. f_equal.
  unfold the_max_age. destruct (Z.leb_spec 0 (ck_expire k)); destruct (Z.ltb_spec 0 (ck_expire k)); try lia; try reflexivity.
  destruct (Z.ltb_spec (ck_expire k) 0); [lia|reflexivity].
Qed.
Theorem C180_remember_line hmac c k now psk salt v :
  remember_value hmac (cf_key c) psk salt now = Some v -> name_ok (ck_remember k) = true ->
  exists line, write_remember_request hmac c k now psk salt = (true, [line]) /\
    parse_set_cookie line = Some (ck_remember k, v,
      mkAttrs (if ck_remember_expire k =? 0 then None else Some (Z.max 0 (ck_remember_expire k))) None None (Some (bs "/")) (ck_secure k) true).
Proof.
  intros E N. unfold write_remember_request. rewrite E. exists (cookie_string (remember_cookie k v)). split; [f_equal; apply set_cookie_ok; exact N|].
  assert (B : forallb b64_byte v = true).
  { unfold remember_value in E. destruct (_ || _)%bool; [discriminate|]. destruct (encode_secure hmac psk (cf_key c ++ salt) now); [|discriminate]. exact (encode_b64 _ _ _ _ _ E). }
  rewrite parse_cookie_string; [|exact N|exact B|reflexivity|discriminate]. unfold attrs_of. cbn [remember_cookie hc_name hc_value hc_max_age hc_expires hc_domain hc_secure hc_httponly option_map].
  f_equal. f_equal. f_equal. unfold the_max_age. destruct (Z.ltb_spec 0 (ck_remember_expire k)).
  - destruct (Z.eqb_spec (ck_remember_expire k) 0); [lia|]. f_equal. lia.
  - destruct (Z.ltb_spec (ck_remember_expire k) 0); destruct (Z.eqb_spec (ck_remember_expire k) 0); try lia; f_equal; lia.
Qed.
(** a cookie deleted: Max-Age 0, no value, the same name, domain and path *)
Theorem C180_deleting_lines http_date k now : name_ok (ck_name k) = true -> name_ok (ck_remember k) = true -> ~ In ";"%char (http_date now) ->
  (exists line, set_cookie (destroy_cookie http_date k now) = [line] /\
     parse_set_cookie line = Some (ck_name k, [], mkAttrs (Some 0) (Some (strip (http_date now))) (dom_of (ck_domain k)) (Some (bs "/")) (ck_secure k) true)) /\
  (exists line, destroy_remember_request k = [line] /\
     parse_set_cookie line = Some (ck_remember k, [], mkAttrs (Some 0) None None (Some (bs "/")) (ck_secure k) true)).
Proof.
  intros N1 N2 Hd. split.
  - eexists. split; [apply set_cookie_ok; exact N1|]. rewrite parse_cookie_string; [|exact N1|reflexivity|reflexivity|intros d [= <-]; exact Hd].
    unfold attrs_of. cbn [destroy_cookie hc_name hc_value hc_max_age hc_expires hc_domain hc_secure hc_httponly option_map]. rewrite dom_of_eq. reflexivity.
  - eexists. split; [apply set_cookie_ok; exact N2|]. rewrite parse_cookie_string; [|exact N2|reflexivity|reflexivity|discriminate]. reflexivity.
Qed.
(** with a cookie name that is no token nothing is ever set, and nothing is said about it *)
Theorem C180_bad_names hmac http_date c k : (name_ok (ck_name k) = false ->
    (forall sid created lines, fst (write_session_cookie hmac c k sid created lines) = []) /\
    (forall now lines n, snd (destroy_request hmac http_date c k now lines n) = []) /\ forall now lines, read_sid_request hmac c k now lines = None) /\
  (name_ok (ck_remember k) = false ->
    (forall now psk salt, snd (write_remember_request hmac c k now psk salt) = []) /\ destroy_remember_request k = [] /\
    forall now lines, has_remember_request hmac c k now lines = ([], [], false)).
Proof.
  split; intros H.
  - split; [|split].
    + intros sid created lines. unfold write_session_cookie. destruct (encode_secure _ _ _ _); [apply set_cookie_bad; exact H|reflexivity].
    + intros now lines n. unfold destroy_request. cbv zeta. cbn [snd]. destruct (snd _); [apply set_cookie_bad; exact H|reflexivity].
    + intros now lines. unfold read_sid_request, read_sid. rewrite get_bad_name by exact H. reflexivity.
  - split; [|split].
    + intros now psk salt. unfold write_remember_request. destruct (remember_value _ _ _ _ _); [apply set_cookie_bad; exact H|reflexivity].
    + apply set_cookie_bad. exact H.
    + intros now lines. unfold has_remember_request, has_remember. rewrite get_bad_name by exact H. reflexivity.
Qed.

(** ** C181 the cookie within the request that set it *)
Lemma read_sid_value hmac c name now cs v sid created : (forall k m, hmac k m <> []) -> 0 < created < 2 ^ 63 ->
  encode_secure hmac sid (cf_key c) created = Some v -> get_cookie cs name = Some v ->
  read_sid hmac c name now cs = if created + secs (cf_expire c) <? now then None else Some (sid, created).
Proof.
  intros M T E G. unfold read_sid. rewrite G. rewrite query_unescape_b64 by exact (encode_b64 _ _ _ _ _ E). rewrite (decode_encode hmac _ _ _ _ T M E). reflexivity.
Qed.
Lemma same_request_write hmac c k sid created lines now : (forall k m, hmac k m <> []) -> 0 < created < 2 ^ 63 -> sid <> [] -> cf_key c <> [] -> name_ok (ck_name k) = true ->
  read_sid_request hmac c k now (snd (write_session_cookie hmac c k sid created lines)) = if created + secs (cf_expire c) <? now then None else Some (sid, created).
Proof.
  intros M T Hs Hk N. destruct (encode_some hmac sid (cf_key c) created Hs Hk) as (v & E & B). unfold write_session_cookie. rewrite E. cbn [snd].
  eapply read_sid_value; [exact M|exact T|exact E|]. rewrite read_added; [|exact N|exact B]. apply get_cookie_snoc.
Qed.
Lemma sid_not_nil rd now sid : 0 < now < 2 ^ 63 -> create_sid rd now = ROk sid -> sid <> [].
Proof. intros T E Hn. destruct (C41_sid_or_panic rd now ltac:(lia)) as (k & _ & _ & L & _). apply L in E. rewrite Hn in E. discriminate. Qed.
Lemma p_read_sid V unmarshal c now sid n s : snd (p_read V unmarshal c now sid n) = RdOk s -> ss_sid s = sid.
Proof. unfold p_read. cbn [snd]. destruct (snd (call c now (OGet sid) n)); try discriminate. destruct (unmarshal _); [intros [= <-]; reflexivity|discriminate]. Qed.

(** after Start or Regenerate gave a session, the same request carries that session's id *)
Theorem C181_same_request V unmarshal hmac c k rd now lines n s created ck set lines' n' :
  (forall k m, hmac k m <> []) -> cf_key c <> [] -> name_ok (ck_name k) = true -> 0 < now < 2 ^ 63 ->
  (start_request V unmarshal hmac c k rd now lines n = (n', MOk s created ck, set, lines') \/
   exists params, regenerate_request V unmarshal hmac c k rd now lines params n = (n', MOk s created ck, set, lines')) ->
  forall later, now <= later ->
    read_sid_request hmac c k later lines' = if created + secs (cf_expire c) <? later then None else Some (ss_sid s, created).
Proof.
  intros M Hk N T H later Hl.
  assert (W : forall sid, sid <> [] -> write_cookie hmac c (cc_of k) sid now <> None).
  { intros sid Hs. unfold write_cookie. destruct (encode_some hmac sid (cf_key c) now Hs Hk) as (v & -> & _). discriminate. }
  destruct H as [H|(params & H)].
  - unfold start_request, with_lines, start in H. change (cc_name (cc_of k)) with (ck_name k) in H.
    destruct (read_sid hmac c (ck_name k) now (read_cookies lines)) as [[sid t]|] eqn:R.
    + assert (G : lines' = lines /\ ss_sid s = sid /\ created = t).
      { cbn [fst snd] in H. destruct (snd (p_read V unmarshal c now sid n)) as [s0| |] eqn:P; cbn [fst snd] in H; inversion H; subst; auto.
        apply p_read_sid in P. auto. }
      destruct G as (-> & -> & ->). unfold read_sid_request. revert R. unfold read_sid.
      destruct (get_cookie (read_cookies lines) (ck_name k)); [|discriminate]. destruct (query_unescape b); [|discriminate].
      destruct (decode_secure hmac b0 (cf_key c)) as [[x y]|]; [|discriminate]. destruct (is_expired y (secs (cf_expire c)) now); [discriminate|].
      intros [= -> ->]. reflexivity.
    + destruct (create_sid rd now) as [sid| |] eqn:E; cbn [fst snd] in H; try discriminate. pose proof (sid_not_nil _ _ _ T E) as Hs. specialize (W sid Hs).
      destruct (write_cookie hmac c (cc_of k) sid now); [|congruence]. injection H as <- <- <- _ _ <-. cbn [ss_sid p_create]. apply same_request_write; assumption.
  - unfold regenerate_request, with_lines, regenerate in H. change (cc_name (cc_of k)) with (ck_name k) in H.
    destruct (create_sid rd now) as [sid| |] eqn:E; cbn [fst snd] in H; try discriminate. pose proof (sid_not_nil _ _ _ T E) as Hs. specialize (W sid Hs).
    destruct (read_sid hmac c (ck_name k) now (read_cookies lines)) as [[old t]|] eqn:R.
    + cbn [fst snd] in H. destruct (snd (p_regenerate V unmarshal c now old sid n)) as [s0| |] eqn:P; cbn [fst snd] in H; try discriminate.
      * assert (Q : ss_sid s0 = sid).
        { unfold p_regenerate in P. destruct (snd (call c now (OGet old) n)); try discriminate. destruct (snd (call c now (OSet sid _ _) _)); try discriminate.
          cbv zeta in P. exact (p_read_sid _ _ _ _ _ _ _ P). }
        rewrite Q in H. destruct (write_cookie hmac c (cc_of k) sid now); [|congruence]. injection H as <- <- <- _ _ <-. rewrite Q. apply same_request_write; assumption.
      * destruct (write_cookie hmac c (cc_of k) sid now); [|congruence]. injection H as <- <- <- _ _ <-. cbn [ss_sid p_create]. apply same_request_write; assumption.
    + cbn [fst snd] in H. destruct (write_cookie hmac c (cc_of k) sid now); [|congruence]. injection H as <- <- <- _ _ <-. cbn [ss_sid p_create]. apply same_request_write; assumption.
Qed.
(** the other cookies of the request are those of its first Cookie line *)
Theorem C181_other_cookies hmac c k sid created lines name :
  sid <> [] -> cf_key c <> [] -> name_ok (ck_name k) = true -> name <> ck_name k ->
  get_cookie (read_cookies (snd (write_session_cookie hmac c k sid created lines))) name = get_cookie (read_cookies (firstn 1 lines)) name.
Proof.
  intros Hs Hk N Hn. destruct (encode_some hmac sid (cf_key c) created Hs Hk) as (v & E & B). unfold write_session_cookie. rewrite E. cbn [snd].
  rewrite read_added; [|exact N|exact B]. unfold get_cookie. rewrite rev_app_distr. cbn [rev app find fst session_cookie hc_name].
  destruct (beq_spec (ck_name k) name); [congruence|reflexivity].
Qed.
Definition ex_k : cookie_config := mkCC (bs "SSID") (bs "REM") true (bs ".Example.com") 3600 86400.
Definition ex_c : scfg := ex_cfg (BMgo true).
Definition date0 (_ : Z) : bytes := bs "Wed, 01 Jan 2020 00:00:00 GMT".
Definition only (l : list bytes) : bytes := match l with [x] => x | _ => [] end.
Example C180_example :
  only (fst (write_session_cookie toy_hmac ex_c ex_k ex_sid t2020 [])) = bs "SSID=" ++ ex_ck ++ bs "; Path=/; Domain=Example.com; Max-Age=3600; HttpOnly; Secure" /\
  set_cookie (destroy_cookie date0 ex_k t2020) = [bs "SSID=; Path=/; Domain=Example.com; Expires=Wed, 01 Jan 2020 00:00:00 GMT; Max-Age=0; HttpOnly; Secure"] /\
  destroy_remember_request ex_k = [bs "REM=; Path=/; Max-Age=0; HttpOnly; Secure"] /\
  encode_secure toy_hmac ex_sid (cf_key ex_c) t2020 = Some ex_ck /\
  (exists v, remember_value toy_hmac (cf_key ex_c) (bs "u") (bs "s") t2020 = Some v) /\
  name_ok (ck_name ex_k) = true /\ name_ok (ck_remember ex_k) = true /\ dom_of (ck_domain ex_k) = Some (bs "example.com") /\
  name_ok (bs "my session") = false /\ dom_of (bs "exa mple.com") = None /\ dom_of (bs "127.0.0.1") = Some (bs "127.0.0.1") /\ dom_of (bs "127.0.0.1:8080") = None.
Proof. repeat split; try (vm_compute; reflexivity). eexists. vm_compute. reflexivity. Qed.
(** a second Cookie line is lost, and the remember cookie on it: the same request no longer has it *)
Definition two_lines : list bytes := [bs "a=b"; bs "REM=" ++ match remember_value toy_hmac (cf_key ex_c) (bs "u") (bs "s") t2020 with Some v => v | None => [] end].
Definition sid5 : bytes := Eval vm_compute in match create_sid zeros (t2020 + sec 5) with ROk s => s | _ => [] end.
Definition started : list bytes * list bytes := write_session_cookie toy_hmac ex_c ex_k sid5 (t2020 + sec 5) two_lines.
Theorem C181_second_line_lost_refuted :
  start_request bytes toy_unmarshal toy_hmac ex_c ex_k zeros (t2020 + sec 5) two_lines ([], []) =
    (([], []), MOk (mkSess sid5 [] false false) (t2020 + sec 5) (write_cookie toy_hmac ex_c (cc_of ex_k) sid5 (t2020 + sec 5)), fst started, snd started) /\
  snd (has_remember_request toy_hmac ex_c ex_k (t2020 + sec 6) two_lines) = true /\
  snd (has_remember_request toy_hmac ex_c ex_k (t2020 + sec 6) (snd started)) = false.
Proof. split; [|split]; vm_compute; reflexivity. Qed.
Definition ex_lines1 : list bytes := Eval vm_compute in snd (start_request bytes toy_unmarshal toy_hmac ex_c ex_k zeros t2020 [bs "a=b"] ([], [])).
Example C181_example :
  match start_request bytes toy_unmarshal toy_hmac ex_c ex_k zeros t2020 [bs "a=b"] ([], []) with
  | (_, MOk s created _, [_], l) => beq (ss_sid s) ex_sid && (created =? t2020) && forallb (fun p => beq (fst p) (snd p)) (combine l ex_lines1)
  | _ => false
  end = true /\
  read_sid_request toy_hmac ex_c ex_k (t2020 + sec 5) ex_lines1 = Some (ex_sid, t2020) /\ get_cookie (read_cookies ex_lines1) (bs "a") = Some (bs "b") /\
  match regenerate_request bytes toy_unmarshal toy_hmac ex_c ex_k zeros (t2020 + sec 5) ex_lines1 None ([], []) with
  | (_, MOk s created _, [_], l) => (created =? t2020 + sec 5) && match read_sid_request toy_hmac ex_c ex_k (t2020 + sec 5) l with Some (x, _) => beq x (ss_sid s) | None => false end
  | _ => false
  end = true.
Proof. split; [|split; [|split]]; vm_compute; reflexivity. Qed.

(** ** C184 which of several cookies of one name counts *)
(** a cookie the request carries that the server can read under that name, and its value *)
Definition carried (now : Z) (https : bool) (host path n : bytes) (u : kept) : Prop :=
  sendable now https host path u = true /\ u_name u = n /\ parse_cookie_value (u_value u) <> None.
Lemma best_filter P Q l : best P (filter Q l) = best (fun u => P u && Q u)%bool l.
Proof.
  induction l as [|u l IH]; [reflexivity|]. cbn [filter best]. destruct (Q u).
  - cbn [best]. rewrite IH. rewrite andb_true_r. reflexivity.
  - rewrite IH. rewrite andb_false_r. cbn [andb]. destruct (best _ l); reflexivity.
Qed.
Theorem C184_which_cookie_counts parse_date jar now https host path n v : browser parse_date jar ->
  get_cookie (read_cookies (cookie_lines now https host path jar)) n = Some v <->
  name_ok n = true /\
  exists l1 w l2, jar = l1 ++ w :: l2 /\ carried now https host path n w /\ parse_cookie_value (u_value w) = Some v /\
    (forall u, In u l1 -> carried now https host path n u -> (List.length (u_path w) <= List.length (u_path u))%nat) /\
    (forall u, In u l2 -> carried now https host path n u -> (List.length (u_path w) < List.length (u_path u))%nat).
Proof.
  intros B. apply browser_clean in B. rewrite (read_lines _ _ _ _ _ B), get_last. unfold sent. rewrite lastP_sorted, best_filter.
  assert (K : forall u, name_ok n = true -> (counts n u && sendable now https host path u)%bool = true <-> carried now https host path n u).
  { intros u Hn. unfold carried, counts, value_for. rewrite Hn, andb_true_r. destruct (beq_spec (u_name u) n) as [E|E].
    - destruct (parse_cookie_value (u_value u)); cbn [andb]; [split; [intros ->; repeat split; congruence|intros (A & _); exact A]|split; [discriminate|intros (_ & _ & A); congruence]].
    - cbn [andb]. split; [discriminate|intros (_ & A & _); congruence]. }
  split.
  - intros H. destruct (best _ jar) as [w|] eqn:E; [|discriminate]. apply best_spec in E as (l1 & l2 & -> & Hw & A1 & A2).
    assert (Hn : name_ok n = true). { unfold value_for in H. destruct (name_ok n); [reflexivity|rewrite andb_false_r in H; discriminate]. }
    split; [exact Hn|]. exists l1, w, l2. split; [reflexivity|]. split; [apply K; assumption|].
    split; [unfold value_for in H; destruct (beq (u_name w) n && name_ok n)%bool; [exact H|discriminate]|].
    split; intros u Hu Cu; [apply A1|apply A2]; try assumption; apply K; assumption.
  - intros (Hn & l1 & w & l2 & -> & Cw & Hv & A1 & A2).
    rewrite (proj2 (best_spec _ _ w)).
    + unfold value_for. destruct Cw as (_ & <- & _). rewrite beq_refl. rewrite Hn. exact Hv.
    + exists l1, l2. split; [reflexivity|]. split; [apply K; assumption|]. split; intros u Hu Pu; [apply A1|apply A2]; try assumption; apply K; assumption.
Qed.
Theorem C184_no_cookie parse_date jar now https host path n : browser parse_date jar ->
  get_cookie (read_cookies (cookie_lines now https host path jar)) n = None <-> (name_ok n = true -> forall u, In u jar -> ~ carried now https host path n u).
Proof.
  intros B. split.
  - intros H Hn u Hu Cu. pose proof (browser_clean _ _ B) as F. rewrite (read_lines _ _ _ _ _ F), get_last in H. unfold sent in H. rewrite lastP_sorted, best_filter in H.
    destruct (best _ jar) as [w|] eqn:E.
    + apply best_spec in E as (l1 & l2 & _ & Hw & _). apply andb_true_iff in Hw as (Hw & _). unfold counts in Hw. destruct (value_for n w); discriminate.
    + pose proof (best_none _ _ E u Hu) as X. cbv beta in X. destruct Cu as (Cs & Cn & Cv). rewrite Cs, andb_true_r in X. unfold counts, value_for in X.
      rewrite Cn, beq_refl, Hn in X. cbn [andb] in X. destruct (parse_cookie_value (u_value u)); [discriminate|congruence].
  - intros H. destruct (get_cookie _ n) as [v|] eqn:E; [|reflexivity]. apply (C184_which_cookie_counts parse_date) in E; [|exact B].
    destruct E as (Hn & l1 & w & l2 & -> & Cw & _). exfalso. apply (H Hn w); [apply in_or_app; right; left; reflexivity|exact Cw].
Qed.

(** ** C182 the session cookie in the browser *)
Lemma default_path_slash req : exists r, default_path req = "/"%char :: r.
Proof.
  unfold default_path. destruct req as [|a req]; [eexists; reflexivity|]. destruct (Ascii.eqb_spec a "/"%char) as [->|Ha].
  - destruct (last_index_sub ("/"%char :: req) (bs "/")) as [[|i]|]; eexists; reflexivity.
  - exists []. destruct a as [[] [] [] [] [] [] [] []]; try reflexivity. exfalso. apply Ha. reflexivity.
Qed.
Lemma attribute_path a av : (forall p, a_path a = Some p -> exists r, p = "/"%char :: r) -> forall p, a_path (attribute a av) = Some p -> exists r, p = "/"%char :: r.
Proof.
  intros H. unfold attribute. destruct (cut "=" av) as (n0, v0).
  destruct (beq _ _); [destruct (max_age _); exact H|]. destruct (beq _ _); [exact H|]. destruct (beq _ _); [destruct (is_nil _); exact H|].
  destruct (beq _ _); [|destruct (beq _ _); [exact H|destruct (beq _ _); exact H]].
  cbn [a_path]. intros p. destruct (strip v0) as [|x v]; [discriminate|]. destruct x as [[] [] [] [] [] [] [] []]; try discriminate. intros [= <-]. eexists. reflexivity.
Qed.
Lemma received_path parse_date now host req line u : received parse_date now host req line = Some u -> exists r, u_path u = "/"%char :: r.
Proof.
  unfold received. destruct (parse_set_cookie line) as [[[n v] a]|] eqn:E; [|discriminate].
  assert (P : forall p, a_path a = Some p -> exists r, p = "/"%char :: r).
  { unfold parse_set_cookie in E. destruct (split_byte ";" line) as [|kv avs]; [discriminate|]. destruct (index_byte "=" kv); [|discriminate]. destruct (is_nil _); [discriminate|].
    injection E as _ _ <-. assert (G : forall l a0, (forall p, a_path a0 = Some p -> exists r, p = "/"%char :: r) -> forall p, a_path (fold_left attribute l a0) = Some p -> exists r, p = "/"%char :: r).
    { induction l as [|x l IH]; intros a0 H; [exact H|]. cbn [fold_left]. apply IH. apply attribute_path. exact H. }
    apply G. discriminate. }
  assert (D : exists r, match a_path a with Some p => p | None => default_path req end = "/"%char :: r) by (destruct (a_path a); [apply P; reflexivity|apply default_path_slash]).
  destruct (a_domain a) as [d|]; [destruct (domain_match host d); [|discriminate]|]; intros [= <-]; exact D.
Qed.
Lemma browser_path parse_date jar : browser parse_date jar -> forall u, In u jar -> exists r, u_path u = "/"%char :: r.
Proof.
  induction 1 as [|now host req lines jar _ IH Hl|jar _ IH]; [intros u []| |intros u Hu; apply filter_In in Hu as (Hu & _); auto].
  unfold store_lines. clear Hl. revert jar IH. induction lines as [|l lines IHl]; intros jar Hj; [exact Hj|]. cbn [fold_left]. apply IHl.
  intros u Hu. unfold store_line in Hu. destruct (received parse_date now host req l) as [x|] eqn:E; [|auto]. apply filter_In in Hu as (Hu & _).
  apply put_in in Hu as [->|Hu]; [eapply received_path; eassumption|auto].
Qed.
(** the session cookie as a browser keeps it: of the configured domain, or of the answering host alone *)
Definition session_kept (k : cookie_config) (host v : bytes) (now : Z) : kept :=
  mkKept (ck_name k) v (match dom_of (ck_domain k) with Some d => d | None => host end) (match dom_of (ck_domain k) with Some _ => false | None => true end) (bs "/")
    (if 0 <? ck_expire k then At (now + ck_expire k * 1000000000) else TheEnd) (ck_secure k) true.
Definition accepts (k : cookie_config) (host : bytes) : Prop := match dom_of (ck_domain k) with Some d => domain_match host d = true | None => True end.
Lemma session_alive k host v now : alive now (u_until (session_kept k host v now)) = true.
Proof. unfold session_kept. cbn [u_until]. destruct (Z.ltb_spec 0 (ck_expire k)) as [H|H]; [|reflexivity]. unfold alive. apply Z.leb_le. lia. Qed.
Lemma put_exact now w jar u : alive now (u_until w) = true ->
  (In u (filter (fun x => alive now (u_until x)) (put w jar)) <-> u = w \/ In u jar /\ alive now (u_until u) = true /\ same w u = false).
Proof.
  intros Aw. rewrite filter_In. split.
  - intros (Hu & A). destruct (same w u) eqn:Q; [left; eapply put_same; eassumption|]. right. apply put_in in Hu as [->|Hu]; [rewrite same_refl in Q; discriminate|auto].
  - intros [->|(Hu & A & Q)]; [split; [apply put_has|exact Aw]|]. split; [|exact A]. unfold put. destruct (existsb (same w) jar); [|apply in_or_app; left; exact Hu].
    apply in_map_iff. exists u. rewrite Q. auto.
Qed.
Lemma received_session parse_date k v now host req line :
  parse_set_cookie line = Some (ck_name k, v, mkAttrs (if 0 <? ck_expire k then Some (ck_expire k) else None) None (dom_of (ck_domain k)) (Some (bs "/")) (ck_secure k) true) ->
  received parse_date now host req line = match dom_of (ck_domain k) with Some d => if domain_match host d then Some (session_kept k host v now) else None | None => Some (session_kept k host v now) end.
Proof.
  intros P. unfold received, session_kept. rewrite P. cbn [a_path a_domain a_secure a_httponly].
  assert (K : keep_until parse_date now (mkAttrs (if 0 <? ck_expire k then Some (ck_expire k) else None) None (dom_of (ck_domain k)) (Some (bs "/")) (ck_secure k) true)
     = if 0 <? ck_expire k then At (now + ck_expire k * 1000000000) else TheEnd).
  { unfold keep_until. cbn [a_max_age a_expires]. destruct (Z.ltb_spec 0 (ck_expire k)) as [H|H]; [|reflexivity]. destruct (Z.leb_spec (ck_expire k) 0); [lia|reflexivity]. }
  rewrite K. destruct (dom_of (ck_domain k)); reflexivity.
Qed.
Theorem C182_kept parse_date hmac c k sid created lines v now host req jar :
  encode_secure hmac sid (cf_key c) created = Some v -> name_ok (ck_name k) = true ->
  let w := session_kept k host v now in
  let jar' := store_lines parse_date now host req (fst (write_session_cookie hmac c k sid created lines)) jar in
  (accepts k host -> forall u, In u jar' <-> u = w \/ In u jar /\ alive now (u_until u) = true /\ same w u = false) /\
  (~ accepts k host -> jar' = jar).
Proof.
  intros E N w jar'. destruct (C180_session_line hmac c k sid created lines v E N) as (line & L & P). subst jar'. rewrite L. unfold store_lines. cbn [fold_left].
  unfold store_line. rewrite (received_session parse_date k v now host req line P). unfold accepts. destruct (dom_of (ck_domain k)) as [d|].
  - destruct (domain_match host d); (split; intros H; try congruence; try discriminate); intros u; apply put_exact, session_alive.
  - split; intros H; [intros u; apply put_exact, session_alive|exfalso; apply H; exact Logic.I].
Qed.
(** a request the cookie goes with: the cookie's age, its host or domain, any path, and https if it is secure *)
Lemma path_match_root path : (exists r, path = "/"%char :: r) -> path_match path (bs "/") = true.
Proof. intros (r & ->). unfold path_match. destruct (beq ("/"%char :: r) (bs "/")); [reflexivity|]. reflexivity. Qed.
Definition goes_with (k : cookie_config) (host : bytes) (now : Z) (later : Z) (https : bool) (host' path : bytes) : Prop :=
  (0 < ck_expire k -> later <= now + ck_expire k * 1000000000) /\ (exists r, path = "/"%char :: r) /\ (ck_secure k = true -> https = true) /\
  match dom_of (ck_domain k) with Some d => domain_match host' d = true | None => host' = host end.
Lemma goes_sendable k host v now later https host' path : goes_with k host now later https host' path <-> 
  sendable later https host' path (session_kept k host v now) = true /\ exists r, path = "/"%char :: r.
Proof.
  unfold goes_with, sendable, session_kept. cbn [u_until u_host_only u_domain u_path u_secure].
  assert (A : alive later (if 0 <? ck_expire k then At (now + ck_expire k * 1000000000) else TheEnd) = true <-> (0 < ck_expire k -> later <= now + ck_expire k * 1000000000)).
  { destruct (Z.ltb_spec 0 (ck_expire k)); cbn [alive]; [rewrite Z.leb_le; split; auto|split; [intros _ ?; lia|reflexivity]]. }
  assert (S : (negb (ck_secure k) || https)%bool = true <-> (ck_secure k = true -> https = true)) by (destruct (ck_secure k), https; cbn; intuition congruence).
  rewrite !andb_true_iff, A, S. split.
  - intros (H1 & H2 & H3 & H4). split; [|exact H2]. rewrite (path_match_root path H2). split; [split; [split; [exact H1|]|reflexivity]|exact H3].
    destruct (dom_of (ck_domain k)); [exact H4|subst; apply beq_refl].
  - intros ((((H1 & H4) & _) & H3) & H2). repeat split; try assumption. destruct (dom_of (ck_domain k)); [exact H4|apply beq_true; exact H4].
Qed.
(** in every browser that holds the cookie, whatever else it holds, a request it goes with brings the session's id to the server,
    unless another cookie of that name and path goes along *)
Theorem C182_read_back parse_date hmac c k sid created v now host jar later https host' path :
  (forall k m, hmac k m <> []) -> 0 < created < 2 ^ 63 -> name_ok (ck_name k) = true ->
  encode_secure hmac sid (cf_key c) created = Some v -> browser parse_date jar ->
  In (session_kept k host v now) jar -> goes_with k host now later https host' path ->
  (forall u, In u jar -> u_name u = ck_name k -> u_path u = bs "/" -> sendable later https host' path u = true -> u = session_kept k host v now) ->
  read_sid_request hmac c k later (cookie_lines later https host' path jar) = if created + secs (cf_expire c) <? later then None else Some (sid, created).
Proof.
  intros M T N E B I G U. set (w := session_kept k host v now) in *. eapply read_sid_value; [exact M|exact T|exact E|].
  assert (Pv : parse_cookie_value (u_value w) = Some v) by (apply (b64_facts v), (encode_b64 _ _ _ _ _ E)).
  assert (Cw : carried later https host' path (ck_name k) w) by (split; [apply goes_sendable; exact G|split; [reflexivity|rewrite Pv; discriminate]]).
  destruct (get_cookie (read_cookies (cookie_lines later https host' path jar)) (ck_name k)) as [v'|] eqn:Q.
  - pose proof Q as Q0. apply (C184_which_cookie_counts parse_date _ _ _ _ _ _ _ B) in Q as (_ & l1 & x & l2 & -> & Cx & Hx & A1 & A2). rewrite <- Q0, Q0. f_equal.
    assert (X : u_path x = bs "/").
    { destruct (browser_path _ _ B x ltac:(apply in_or_app; right; left; reflexivity)) as (r & Hr).
      assert (L : (List.length (u_path x) <= List.length (u_path w))%nat).
      { apply in_app_or in I as [I|[<-|I]]; [apply A1; assumption|lia|]. apply Nat.lt_le_incl. apply A2; assumption. }
      rewrite Hr in *. cbn [w session_kept u_path] in L. destruct r; [reflexivity|cbn in L; lia]. }
    assert (Ex : x = w). { apply U; [apply in_or_app; right; left; reflexivity|apply Cx|exact X|apply Cx]. }
    subst x. rewrite Pv in Hx. congruence.
  - exfalso. exact (proj1 (C184_no_cookie parse_date jar later https host' path (ck_name k) B) Q N w I Cw).
Qed.
(** other answers leave it: of this server or another, as long as no cookie of that name, domain and path is among them *)
Theorem C182_stays parse_date now host req lines jar w :
  In w jar -> alive now (u_until w) = true ->
  (forall line u, In line lines -> received parse_date now host req line = Some u -> ~ (u_name u = u_name w /\ u_domain u = u_domain w /\ u_path u = u_path w)) ->
  In w (store_lines parse_date now host req lines jar) /\ (u_until w <> TheEnd -> In w (closed jar)).
Proof.
  intros I A H. split.
  - unfold store_lines. revert jar I. induction lines as [|l lines IH]; intros jar I; [exact I|]. cbn [fold_left]. apply IH; [intros line u Hl; apply H; right; exact Hl|].
    unfold store_line. destruct (received parse_date now host req l) as [u|] eqn:E; [|exact I]. apply filter_In. split; [|exact A].
    assert (Q : same u w = false).
    { destruct (same u w) eqn:Q; [|reflexivity]. exfalso. apply (H l u (or_introl eq_refl) E). unfold same in Q. apply andb_true_iff in Q as (Q & Q3). apply andb_true_iff in Q as (Q1 & Q2).
      apply beq_true in Q1, Q2, Q3. auto. }
    unfold put. destruct (existsb (same u) jar); [|apply in_or_app; left; exact I]. apply in_map_iff. exists w. rewrite Q. auto.
  - intros U. apply filter_In. split; [exact I|]. destruct (u_until w); congruence.
Qed.
(** Destroy's line takes it away, and nothing else *)
Theorem C182_destroyed parse_date hmac http_date c k now lines n host req jar :
  name_ok (ck_name k) = true -> ~ In ";"%char (http_date now) -> accepts k host ->
  let jar' := store_lines parse_date now host req (snd (destroy_request hmac http_date c k now lines n)) jar in
  (read_sid_request hmac c k now lines = None -> jar' = jar) /\
  (read_sid_request hmac c k now lines <> None -> forall u, In u jar' <->
     In u jar /\ alive now (u_until u) = true /\
     ~ (u_name u = ck_name k /\ u_domain u = (match dom_of (ck_domain k) with Some d => d | None => host end) /\ u_path u = bs "/")).
Proof.
  intros N Hd Ac jar'. subst jar'. unfold destroy_request, m_destroy, read_sid_request. cbv zeta. change (cc_name (cc_of k)) with (ck_name k).
  destruct (read_sid hmac c (ck_name k) now (read_cookies lines)) as [[sid t]|]; cbn [fst snd]; [|split; [reflexivity|congruence]].
  split; [discriminate|]. intros _ u.
  assert (L : exists line, set_cookie (destroy_cookie http_date k now) = [line] /\
     parse_set_cookie line = Some (ck_name k, [], mkAttrs (Some 0) (Some (strip (http_date now))) (dom_of (ck_domain k)) (Some (bs "/")) (ck_secure k) true)).
  { eexists. split; [apply set_cookie_ok; exact N|]. rewrite parse_cookie_string; [|exact N|reflexivity|reflexivity|intros d [= <-]; exact Hd].
    unfold attrs_of. cbn [destroy_cookie hc_name hc_value hc_max_age hc_expires hc_domain hc_secure hc_httponly option_map]. rewrite dom_of_eq. reflexivity. }
  destruct L as (line & -> & P). unfold store_lines. cbn [fold_left]. unfold store_line, received. rewrite P. cbn [a_path a_domain].
  unfold accepts in Ac.
  assert (G : forall w, u_name w = ck_name k -> u_domain w = (match dom_of (ck_domain k) with Some d => d | None => host end) -> u_path w = bs "/" -> alive now (u_until w) = false ->
    (In u (filter (fun x => alive now (u_until x)) (put w jar)) <-> In u jar /\ alive now (u_until u) = true /\
     ~ (u_name u = ck_name k /\ u_domain u = (match dom_of (ck_domain k) with Some d => d | None => host end) /\ u_path u = bs "/"))).
  { intros w W1 W2 W3 Aw. rewrite filter_In.
    assert (Q : same w u = true <-> (u_name u = ck_name k /\ u_domain u = (match dom_of (ck_domain k) with Some d => d | None => host end) /\ u_path u = bs "/")).
    { unfold same. rewrite !andb_true_iff, W1, W2, W3. split.
      - intros ((Q1 & Q2) & Q3). apply beq_true in Q1, Q2, Q3. auto.
      - intros (-> & -> & ->). rewrite !beq_refl. auto. }
    rewrite <- Q. split.
    - intros (Hu & A). destruct (same w u) eqn:S; [apply put_same in Hu; [subst; congruence|exact S]|]. split; [|split; [exact A|discriminate]].
      apply put_in in Hu as [->|Hu]; [congruence|exact Hu].
    - intros (Hu & A & S). apply not_true_is_false in S. split; [|exact A]. unfold put. destruct (existsb (same w) jar); [|apply in_or_app; left; exact Hu].
      apply in_map_iff. exists u. rewrite S. auto. }
  destruct (dom_of (ck_domain k)) as [d|]; [rewrite Ac|]; apply G; reflexivity.
Qed.

(** ** C183 remember-me from the answer that sets it to the request that uses it *)
Definition remember_end (e now : Z) : until := if 0 <? e then At (now + e * 1000000000) else if e <? 0 then Past else TheEnd.
Definition remember_kept (k : cookie_config) (host v : bytes) (now : Z) : kept :=
  mkKept (ck_remember k) v host true (bs "/") (remember_end (ck_remember_expire k) now) (ck_secure k) true.
Lemma has_value_only parse_date jar later https host path n w v : browser parse_date jar -> name_ok n = true ->
  In w jar -> (forall u, In u jar -> u_name u = n -> u = w) -> u_name w = n -> parse_cookie_value (u_value w) = Some v ->
  get_cookie (read_cookies (cookie_lines later https host path jar)) n = if sendable later https host path w then Some v else None.
Proof.
  intros B N I U Nw Pv. destruct (get_cookie (read_cookies (cookie_lines later https host path jar)) n) as [v'|] eqn:Q.
  - apply (C184_which_cookie_counts parse_date _ _ _ _ _ _ _ B) in Q as (_ & l1 & x & l2 & -> & (Cx & Cn & _) & Hx & _).
    assert (x = w) by (apply U; [apply in_or_app; right; left; reflexivity|exact Cn]). subst x. rewrite Cx. congruence.
  - pose proof (proj1 (C184_no_cookie parse_date _ _ _ _ _ _ B) Q N w I) as X. destruct (sendable later https host path w) eqn:S; [|reflexivity].
    exfalso. apply X. split; [exact S|]. split; [exact Nw|]. congruence.
Qed.
Theorem C183_remember_in_the_browser parse_date hmac c k now psk salt host req jar :
  (forall k m, hmac k m <> []) -> cf_key c <> [] -> psk <> [] -> salt <> [] -> 0 < now < 2 ^ 63 -> name_ok (ck_remember k) = true ->
  - 9223372036 <= ck_remember_expire k <= 9223372036 ->
  browser parse_date jar -> (forall u, In u jar -> u_name u = ck_remember k -> u_domain u = host /\ u_path u = bs "/") ->
  exists line sh, write_remember_request hmac c k now psk salt = (true, [line]) /\
    let jar' := store_lines parse_date now host req [line] jar in
    forall later https host' path, (exists r, path = "/"%char :: r) ->
      let e := ck_remember_expire k in
      has_remember_request hmac c k later (cookie_lines later https host' path jar') =
        (if (0 <=? e) && (later <=? now + e * 1000000000) && beq host' host && (negb (ck_secure k) || https) then (psk, sh, true) else ([], [], false))%bool /\
      has_remember_request hmac c k later (cookie_lines later https host' path (closed jar')) =
        (if (0 <? e) && (later <=? now + e * 1000000000) && beq host' host && (negb (ck_secure k) || https) then (psk, sh, true) else ([], [], false))%bool.
Proof.
  intros M Hk Hp Hs T N He B U. destruct (C39_remember_round_trip hmac (cf_key c) (ck_remember k) psk salt now M Hk Hp Hs T) as (v & sh & W & H39).
  assert (R : remember_value hmac (cf_key c) psk salt now = Some v).
  { unfold write_remember in W. destruct (remember_value hmac (cf_key c) psk salt now); [injection W as ->; reflexivity|discriminate]. }
  destruct (C180_remember_line hmac c k now psk salt v R N) as (line & Wl & P). exists line, sh. split; [exact Wl|]. cbv zeta. intros later https host' path Hpath.
  set (e := ck_remember_expire k) in *.
  assert (Bv : parse_cookie_value v = Some v).
  { apply b64_facts. unfold remember_value in R. destruct (_ || _)%bool; [discriminate|]. destruct (encode_secure hmac psk (cf_key c ++ salt) now); [|discriminate]. exact (encode_b64 _ _ _ _ _ R). }
  assert (Se : secs e = e * 1000000000) by (unfold secs; apply Props_Cache.wrap64_id; lia).
  assert (HR : forall cs, has_remember_request hmac c k later cs = match get_cookie (read_cookies cs) (ck_remember k) with Some x => has_remember hmac (cf_key c) (ck_remember k) e later [(ck_remember k, x)] | None => ([], [], false) end).
  { intros cs. unfold has_remember_request, has_remember. destruct (get_cookie (read_cookies cs) (ck_remember k)) eqn:Q; [|reflexivity].
    unfold get_cookie at 1. cbn [rev app find fst]. rewrite beq_refl. reflexivity. }
  assert (HV : has_remember hmac (cf_key c) (ck_remember k) e later [(ck_remember k, v)] = if later <=? now + e * 1000000000 then (psk, sh, true) else ([], [], false)).
  { destruct (H39 e later [(ck_remember k, v)]) as (A1 & A2); [exists [], []; split; [reflexivity|intros ? []]|]. rewrite Se in A1, A2.
    destruct (Z.leb_spec later (now + e * 1000000000)); [apply A1; lia|apply A2; lia]. }
  set (w := remember_kept k host v now).
  assert (St : store_lines parse_date now host req [line] jar = filter (fun x => alive now (u_until x)) (put w jar)).
  { unfold store_lines. cbn [fold_left]. unfold store_line, received. rewrite P. cbn [a_path a_domain a_secure a_httponly]. 
    match goal with |- filter _ (put ?x jar) = _ => replace x with w; [reflexivity|] end.
    unfold w, remember_kept. f_equal. unfold keep_until, remember_end. cbn [a_max_age a_expires]. fold e.
    destruct (Z.eqb_spec e 0); destruct (Z.ltb_spec 0 e); destruct (Z.ltb_spec e 0); try lia; try reflexivity.
    - destruct (Z.leb_spec (Z.max 0 e) 0); [lia|]. f_equal. lia.
    - destruct (Z.leb_spec (Z.max 0 e) 0); [reflexivity|lia]. }
  assert (Bl : header_line line).
  { destruct (C180_remember_line hmac c k now psk salt v R N) as (line' & Wl' & _). rewrite Wl in Wl'. injection Wl' as <-.
    unfold write_remember_request in Wl. rewrite R in Wl. injection Wl as Wl. rewrite set_cookie_ok in Wl by exact N. injection Wl as <-.
    apply cookie_line_clean; [exact N| |reflexivity|discriminate].
    unfold remember_value in R. destruct (_ || _)%bool; [discriminate|]. destruct (encode_secure hmac psk (cf_key c ++ salt) now); [|discriminate]. exact (encode_b64 _ _ _ _ _ R). }
  assert (B' : browser parse_date (store_lines parse_date now host req [line] jar)) by (apply Received; [exact B|constructor; [exact Bl|constructor]]).
  assert (B2 := Closed _ _ B'). rewrite St in *.
  set (jar' := filter (fun x => alive now (u_until x)) (put w jar)) in *.
  assert (U' : forall u, In u jar' -> u_name u = ck_remember k -> u = w).
  { intros u Hu Hn. subst jar'. apply filter_In in Hu as (Hu & _). apply (put_same w jar); [exact Hu|]. apply put_in in Hu as [->|Hu]; [apply same_refl|].
    destruct (U u Hu Hn) as (U1 & U2). unfold same, w, remember_kept. cbn [u_name u_domain u_path]. rewrite Hn, U1, U2, !beq_refl. reflexivity. }
  assert (Sw : sendable later https host' path w = (alive later (remember_end e now) && beq host' host && (negb (ck_secure k) || https))%bool).
  { unfold sendable, w, remember_kept. cbn [u_until u_host_only u_domain u_path u_secure]. rewrite (path_match_root _ Hpath). fold e. rewrite andb_true_r. reflexivity. }
  assert (NoW : forall j, browser parse_date j -> (forall u, In u j -> u_name u = ck_remember k -> False) -> get_cookie (read_cookies (cookie_lines later https host' path j)) (ck_remember k) = None).
  { intros j Bj Hj. apply (C184_no_cookie parse_date _ _ _ _ _ _ Bj). intros _ u Hu (_ & Cn & _). exact (Hj u Hu Cn). }
  assert (Iw : e >= 0 -> In w jar').
  { intros Hp0. apply filter_In. split; [apply put_has|]. unfold w, remember_kept, remember_end. cbn [u_until]. fold e. destruct (Z.ltb_spec 0 e); [apply Z.leb_le; lia|]. destruct (Z.ltb_spec e 0); [lia|reflexivity]. }
  rewrite !HR. split.
  - destruct (Z.leb_spec 0 e) as [Hp0|Hn0].
    + rewrite (has_value_only parse_date jar' later https host' path (ck_remember k) w v); try assumption; try reflexivity; [|apply Iw; lia]. rewrite Sw. cbn [andb].
      unfold remember_end. destruct (Z.ltb_spec 0 e); [cbn [alive]|destruct (Z.ltb_spec e 0); [lia|]; cbn [alive andb]].
      * destruct (later <=? now + e * 1000000000) eqn:L; cbn [andb]; [|reflexivity]. destruct (beq host' host && (negb (ck_secure k) || https))%bool; [rewrite HV; reflexivity|reflexivity].
      * destruct (beq host' host && (negb (ck_secure k) || https))%bool eqn:X.
        -- rewrite HV. destruct (later <=? now + e * 1000000000); [cbn [andb]; rewrite X; reflexivity|reflexivity].
        -- destruct (later <=? now + e * 1000000000); [cbn [andb]; rewrite X; reflexivity|reflexivity].
    + cbn [andb]. rewrite NoW; [reflexivity|exact B'|]. intros u Hu Hn. pose proof (U' u Hu Hn) as ->. subst jar'. apply filter_In in Hu as (_ & Hu).
      unfold w, remember_kept, remember_end in Hu. cbn [u_until] in Hu. fold e in Hu. destruct (Z.ltb_spec 0 e); [lia|]. destruct (Z.ltb_spec e 0); [discriminate|lia].
  - assert (Uc : forall u, In u (closed jar') -> u_name u = ck_remember k -> u = w) by (intros u Hu; apply filter_In in Hu as (Hu & _); auto).
    destruct (Z.ltb_spec 0 e) as [Hp0|Hn0].
    + rewrite (has_value_only parse_date (closed jar') later https host' path (ck_remember k) w v); try assumption; try reflexivity.
      * rewrite Sw. cbn [andb]. unfold remember_end. destruct (Z.ltb_spec 0 e); [cbn [alive]|lia].
        destruct (later <=? now + e * 1000000000) eqn:L; cbn [andb]; [|reflexivity]. destruct (beq host' host && (negb (ck_secure k) || https))%bool; [rewrite HV; reflexivity|reflexivity].
      * apply filter_In. split; [apply Iw; lia|]. unfold w, remember_kept, remember_end. cbn [u_until]. fold e. destruct (Z.ltb_spec 0 e); [reflexivity|lia].
    + cbn [andb]. rewrite NoW; [reflexivity|exact B2|]. intros u Hu Hn. pose proof (Uc u Hu Hn) as ->. apply filter_In in Hu as (Hu & X). apply filter_In in Hu as (_ & Hu).
      unfold w, remember_kept, remember_end in Hu, X. cbn [u_until] in Hu, X. fold e in Hu, X. destruct (Z.ltb_spec 0 e); [lia|]. destruct (Z.ltb_spec e 0); discriminate.
Qed.

(** ** C184 a cookie tossed by another host of the domain *)
Definition nodate (_ : bytes) : option Z := None.
Definition ex_lone : cookie_config := mkCC (bs "SSID") (bs "REM") false [] 0 86400.
Definition ex_line : list bytes := fst (write_session_cookie toy_hmac ex_c ex_lone ex_sid t2020 []).
Definition app_jar : list kept := store_lines nodate t2020 (bs "app.example.com") (bs "/login") ex_line [].
Definition tossed_jar : list kept := store_lines nodate (t2020 + sec 1) (bs "evil.example.com") (bs "/") [bs "SSID=x; Domain=example.com; Path=/"] app_jar.
(** the session's own cookie, valid and sent, does not count any more: the user is without a session, and Start's own cookie does not help *)
Definition next_jar : list kept := Eval vm_compute in
  match start_request bytes toy_unmarshal toy_hmac ex_c ex_lone zeros (t2020 + sec 2) (cookie_lines (t2020 + sec 2) false (bs "app.example.com") (bs "/") tossed_jar) ([], []) with
  | (_, set, _) => store_lines nodate (t2020 + sec 2) (bs "app.example.com") (bs "/") set tossed_jar
  end.
Theorem C184_tossed_refuted : browser nodate tossed_jar /\
  read_sid_request toy_hmac ex_c ex_lone (t2020 + sec 2) (cookie_lines (t2020 + sec 2) false (bs "app.example.com") (bs "/") app_jar) = Some (ex_sid, t2020) /\
  In (session_kept ex_lone (bs "app.example.com") ex_ck t2020) tossed_jar /\
  goes_with ex_lone (bs "app.example.com") t2020 (t2020 + sec 2) false (bs "app.example.com") (bs "/") /\
  read_sid_request toy_hmac ex_c ex_lone (t2020 + sec 2) (cookie_lines (t2020 + sec 2) false (bs "app.example.com") (bs "/") tossed_jar) = None /\
  read_sid_request toy_hmac ex_c ex_lone (t2020 + sec 3) (cookie_lines (t2020 + sec 3) false (bs "app.example.com") (bs "/") next_jar) = None.
Proof.
  split; [apply Received; [apply Received; [constructor|]|]; repeat (constructor; try (vm_compute; reflexivity))|].
  split; [vm_compute; reflexivity|]. split; [vm_compute; left; reflexivity|]. split; [|split; vm_compute; reflexivity].
  unfold goes_with. cbn [ex_lone ck_expire ck_secure ck_domain]. repeat split; try discriminate. exists []. reflexivity.
Qed.

(** ** C185 Destroy and the rest of the request *)
(** the request keeps its cookie: a Start later in it takes up the destroyed id, empty, and sets no cookie *)
Theorem C185_start_after_destroy V unmarshal hmac http_date c k rd now lines s f rest sid t d :
  sane c -> CacheSpec.storable (cf_cache c) sid -> read_sid_request hmac c k now lines = Some (sid, t) -> f <> FaultBefore -> 0 <= d ->
  read_sid_request hmac c k (now + d) lines = Some (sid, t) ->
  exists s' n', destroy_request hmac http_date c k now lines (s, f :: rest) = ((s', rest), set_cookie (destroy_cookie http_date k now)) /\
    start_request V unmarshal hmac c k rd (now + d) lines (s', []) = (n', MOk (mkSess sid [] false false) t None, [], lines).
Proof.
  intros S L R Hf Hd R'. unfold read_sid_request in *.
  apply (proj1 (read_sid_carries hmac _ _ _ _ _ _ S)) in R. apply (proj1 (read_sid_carries hmac _ _ _ _ _ _ S)) in R'.
  destruct (C99_logout_partial V unmarshal hmac c (cc_of k) rd now (read_cookies lines) s f rest sid t d S L R Hf Hd) as (s' & D & St). specialize (St R').
  exists s', (fst (start V unmarshal hmac c (cc_of k) rd (now + d) (read_cookies lines) (s', []))). split.
  - unfold destroy_request. rewrite D. reflexivity.
  - unfold start_request, with_lines. rewrite St. rewrite (surjective_pairing (start V unmarshal hmac c (cc_of k) rd (now + d) (read_cookies lines) (s', []))) at 1. rewrite St. reflexivity.
Qed.
(** so the browser, which has dropped the cookie, comes back without a session: what was put into the new one is lost to it *)
Definition dom_k : cookie_config := mkCC (bs "SSID") (bs "REM") true (bs "example.com") 3600 86400.
Definition jar0 : list kept := store_lines nodate t2020 (bs "app.example.com") (bs "/login") (fst (write_session_cookie toy_hmac ex_c dom_k ex_sid t2020 [])) [].
Definition req0 : list bytes := cookie_lines (t2020 + sec 5) true (bs "www.example.com") (bs "/out") jar0.
Theorem C185_lost_session_refuted :
  let d := destroy_request toy_hmac date0 ex_c dom_k (t2020 + sec 5) req0 ([], []) in
  let st := start_request bytes toy_unmarshal toy_hmac ex_c dom_k zeros (t2020 + sec 6) req0 (fst d) in
  let jar := store_lines nodate (t2020 + sec 7) (bs "www.example.com") (bs "/out") (snd d ++ snd (fst st)) jar0 in
  snd (fst (fst st)) = MOk (mkSess ex_sid [] false false) t2020 None /\ jar = [] /\
  read_sid_request toy_hmac ex_c dom_k (t2020 + sec 8) (cookie_lines (t2020 + sec 8) true (bs "www.example.com") (bs "/") jar) = None.
Proof. vm_compute. repeat split; reflexivity. Qed.
(** with Regenerate in its place the browser has the new id, whatever it held before *)
Theorem C185_regenerate_after_destroy parse_date V unmarshal hmac http_date c k rd now lines n s created ck set lines' n' n0 now2 host req jar params :
  (forall k m, hmac k m <> []) -> cf_key c <> [] -> name_ok (ck_name k) = true -> 0 < now < 2 ^ 63 -> accepts k host ->
  regenerate_request V unmarshal hmac c k rd now lines params n = (n', MOk s created ck, set, lines') ->
  exists v, encode_secure hmac (ss_sid s) (cf_key c) now = Some v /\
    In (session_kept k host v now2) (store_lines parse_date now2 host req (snd (destroy_request hmac http_date c k now lines n0) ++ set) jar).
Proof.
  intros M Hk N T Ac H.
  assert (G : exists sid v, ss_sid s = sid /\ encode_secure hmac sid (cf_key c) now = Some v /\ set = fst (write_session_cookie hmac c k sid now lines)).
  { unfold regenerate_request, with_lines, regenerate in H. destruct (create_sid rd now) as [sid| |] eqn:E; cbn [fst snd] in H; try discriminate.
    pose proof (sid_not_nil _ _ _ T E) as Hs. destruct (encode_some hmac sid (cf_key c) now Hs Hk) as (v & Ev & _).
    assert (W : write_cookie hmac c (cc_of k) sid now <> None) by (unfold write_cookie; rewrite Ev; discriminate).
    exists sid, v. destruct (read_sid hmac c (cc_name (cc_of k)) now (read_cookies lines)) as [[old t]|] eqn:R; cbn [fst snd] in H.
    - destruct (snd (p_regenerate V unmarshal c now old sid n)) as [s0| |] eqn:P; cbn [fst snd] in H; try discriminate.
      + assert (Q : ss_sid s0 = sid).
        { unfold p_regenerate in P. destruct (snd (call c now (OGet old) n)); try discriminate. destruct (snd (call c now (OSet sid _ _) _)); try discriminate.
          cbv zeta in P. exact (p_read_sid _ _ _ _ _ _ _ P). }
        rewrite Q in H. destruct (write_cookie hmac c (cc_of k) sid now); [|congruence]. injection H as _ Hs0 Hn Hc Hset _. subst s0 created. rewrite <- Hset. auto.
      + destruct (write_cookie hmac c (cc_of k) sid now); [|congruence]. injection H as _ <- <- _ <- _. auto.
    - destruct (write_cookie hmac c (cc_of k) sid now); [|congruence]. injection H as _ <- <- _ <- _. auto. }
  destruct G as (sid & v & -> & Ev & ->). exists v. split; [exact Ev|]. unfold store_lines. rewrite fold_left_app.
  pose proof (C182_kept parse_date hmac c k sid now lines v now2 host req (fold_left (store_line parse_date now2 host req) (snd (destroy_request hmac http_date c k now lines n0)) jar) Ev N) as (K & _).
  apply (K Ac). left. reflexivity.
Qed.

(** ** Examples *)
Example C182_example : browser nodate jar0 /\ accepts dom_k (bs "app.example.com") /\ In (session_kept dom_k (bs "app.example.com") ex_ck t2020) jar0 /\
  goes_with dom_k (bs "app.example.com") t2020 (t2020 + sec 5) true (bs "www.example.com") (bs "/out") /\
  (forall u, In u jar0 -> u_name u = ck_name dom_k -> u_path u = bs "/" -> sendable (t2020 + sec 5) true (bs "www.example.com") (bs "/out") u = true -> u = session_kept dom_k (bs "app.example.com") ex_ck t2020) /\
  req0 = [bs "SSID=" ++ ex_ck] /\ read_sid_request toy_hmac ex_c dom_k (t2020 + sec 5) req0 = Some (ex_sid, t2020) /\
  cookie_lines (t2020 + sec 5) false (bs "www.example.com") (bs "/out") jar0 = [] /\ cookie_lines (t2020 + sec 3601) true (bs "www.example.com") (bs "/out") jar0 = [] /\
  store_lines nodate (t2020 + sec 6) (bs "www.example.com") (bs "/out") (snd (destroy_request toy_hmac date0 ex_c dom_k (t2020 + sec 6) req0 ([], []))) jar0 = [] /\
  ~ accepts dom_k (bs "example.org").
Proof.
  split; [apply Received; [constructor|]; repeat (constructor; try (vm_compute; reflexivity))|].
  split; [vm_compute; reflexivity|]. split; [vm_compute; left; reflexivity|].
  split; [unfold goes_with; cbn [dom_k ck_expire ck_secure ck_domain]; repeat split; [intros _; vm_compute; discriminate|exists (bs "out"); reflexivity]|].
  split; [intros u Hu _ _ _; vm_compute in Hu; destruct Hu as [<-|[]]; vm_compute; reflexivity|].
  repeat split; try (vm_compute; reflexivity). intros H. vm_compute in H. discriminate.
Qed.
Example C183_example : forall e, - 9223372036 <= e <= 9223372036 ->
  let k := mkCC (bs "SSID") (bs "REM") true [] 0 e in
  name_ok (ck_remember k) = true /\ browser nodate jar0 /\ (forall u, In u jar0 -> u_name u = ck_remember k -> u_domain u = bs "app.example.com" /\ u_path u = bs "/").
Proof.
  intros e He. split; [reflexivity|]. split; [exact (proj1 C182_example)|]. intros u Hu Hn. vm_compute in Hu. destruct Hu as [<-|[]]. vm_compute in Hn. discriminate.
Qed.
Example C183_zero_and_below : forallb (fun e =>
  let k := mkCC (bs "SSID") (bs "REM") false [] 0 e in
  let jar := store_lines nodate t2020 (bs "h") (bs "/") (snd (write_remember_request toy_hmac ex_c k t2020 (bs "u") (bs "s"))) [] in
  negb (snd (has_remember_request toy_hmac ex_c k (t2020 + 1) (cookie_lines (t2020 + 1) false (bs "h") (bs "/") jar)))) [0; -1; -60] = true.
Proof. vm_compute. reflexivity. Qed.
Example C185_example : sane ex_c /\ CacheSpec.storable (cf_cache ex_c) ex_sid /\ read_sid_request toy_hmac ex_c dom_k (t2020 + sec 5) req0 = Some (ex_sid, t2020) /\
  read_sid_request toy_hmac ex_c dom_k (t2020 + sec 5 + sec 1) req0 = Some (ex_sid, t2020) /\
  match regenerate_request bytes toy_unmarshal toy_hmac ex_c dom_k zeros (t2020 + sec 5) req0 None ([], []) with (_, MOk _ _ (Some _), [_], _) => true | _ => false end = true.
Proof.
  split; [apply ex_sane|]. split; [exact (proj1 (proj2 (Forall_inv C45_example)))|]. split; [vm_compute; reflexivity|]. split; [vm_compute; reflexivity|].
  vm_compute. reflexivity.
Qed.

Print Assumptions C180_session_line.
Print Assumptions C180_remember_line.
Print Assumptions C180_deleting_lines.
Print Assumptions C180_bad_names.
Print Assumptions C181_same_request.
Print Assumptions C181_other_cookies.
Print Assumptions C181_second_line_lost_refuted.
Print Assumptions C184_which_cookie_counts.
Print Assumptions C184_no_cookie.
Print Assumptions C182_kept.
Print Assumptions C182_read_back.
Print Assumptions C182_stays.
Print Assumptions C182_destroyed.
Print Assumptions C183_remember_in_the_browser.
Print Assumptions C184_tossed_refuted.
Print Assumptions C185_start_after_destroy.
Print Assumptions C185_lost_session_refuted.
Print Assumptions C185_regenerate_after_destroy.
