(** Props_SecureExact: exact forms of C36-C38, C40, C43. *)
From Coq Require Import List Ascii String Bool Arith ZArith Lia.
Import ListNotations.
From Verif Require Import GoStr GoNum GoEnc ConvModel SecureModel SecureFacts Props_Secure RandModel Props_Rand.
Local Open Scope Z_scope.

(** ** Specification *)
(** the clock reading a time text is taken for: the positive number the text denotes,
    the largest int64 if that is larger; and the largest int64 also if the text, after
    an optional plus, starts with a decimal number that does not fit 64 bits, whatever
    comes after it *)
Definition clock_text (T : bytes) (t : Z) : Prop :=
  (exists n, int_denotes T n /\ 0 < n /\ t = Z.min n (2 ^ 63 - 1)) \/
  (t = 2 ^ 63 - 1 /\ exists p q n, (T = p ++ q \/ T = "+"%char :: p ++ q) /\ nat_denotes p n /\ 2 ^ 64 <= n).

(** ** Facts *)
Lemma puint_loop_over_app max p q : forall n m, 0 <= n <= max -> dval n p = Some m -> max < m ->
  puint_loop max n (p ++ q) = (max, Some ERange).
Proof.
  induction p as [|c p IH]; intros n m Hn; cbn [app puint_loop dval].
  - intros [= <-]. lia.
  - destruct (digit_val c) as [d|] eqn:E; [|discriminate]. pose proof (digit_val_range _ _ E).
    rewrite Z.gtb_ltb. destruct (Z.ltb_spec max (n * 10 + d)); [reflexivity|]. intros Hd Hm. eapply IH; eauto; lia.
Qed.
Lemma parse_uint_prefix p q n : nat_denotes p n -> 2 ^ 64 <= n -> parse_uint 64 (p ++ q) = (2 ^ 64 - 1, Some ERange).
Proof.
  intros Hp Hn. apply nat_denotes_dval in Hp as (Hne & Hd). unfold parse_uint. destruct p as [|c p]; [congruence|]. cbn [app].
  change (c :: p ++ q) with ((c :: p) ++ q). eapply puint_loop_over_app; [lia|exact Hd|lia].
Qed.
Lemma clock_exact T t : (fst (parse_int 64 T) = t /\ 0 < t) <-> clock_text T t.
Proof.
  split.
  - intros (E & Ht). destruct (parse_int 64 T) as [n e] eqn:P. cbn [fst] in E. subst n. destruct e as [e|].
    + destruct (parse_int_err 64 T t e ltac:(lia) P) as [(_ & Z0)|(-> & [Z1|Z1])]; [lia| |change (64 - 1) with 63 in Z1; lia].
      change (64 - 1) with 63 in Z1. unfold parse_int in P. destruct T as [|c s']; [discriminate|].
      assert (X : forall ds un err, parse_uint 64 ds = (un, err) -> err <> Some ESyntax -> 2 ^ 63 <= un ->
        (nat_denotes ds un) \/ (exists p q m, ds = p ++ q /\ nat_denotes p m /\ 2 ^ 64 <= m)).
      { intros ds un err Hp He Hu. destruct err as [[|]|]; [congruence| |].
        - right. unfold parse_uint in Hp. destruct ds as [|d0 ds]; [discriminate|].
          destruct (puint_loop_prefix (2 ^ 64 - 1) (d0 :: ds) 0 un ltac:(lia) Hp) as (p & q & m & E & Hp' & Hd & Hm).
          exists p, q, m. split; [exact E|]. split; [apply nat_denotes_dval; auto|lia].
        - apply parse_uint_ok in Hp as (Hp & _); [|lia]. left. exact Hp. }
      change (64 - 1) with 63 in P. unfold clock_text.
      destruct (Ascii.eqb_spec c "+"%char) as [->|_].
      * destruct (parse_uint 64 s') as [un err] eqn:Hp. cbv zeta in P. cbn [negb andb] in P.
        destruct err as [[|]|]; [discriminate| |]; destruct (un >=? 2 ^ 63) eqn:Eu; try discriminate;
          (destruct (X _ _ _ Hp ltac:(discriminate) ltac:(lia)) as [D|(p & q & m & -> & Hm & Hge)];
            [left; exists un; split; [constructor; exact D|lia]|right; split; [exact Z1|]; exists p, q, m; auto]).
      * destruct (Ascii.eqb_spec c "-"%char) as [->|_].
        { destruct (parse_uint 64 s') as [un err]. cbv zeta in P. cbn [negb andb] in P.
          destruct err as [[|]|]; [discriminate| |]; destruct (un >? 2 ^ 63); try discriminate; injection P as P; lia. }
        destruct (parse_uint 64 (c :: s')) as [un err] eqn:Hp. cbv zeta in P. cbn [negb andb] in P.
        destruct err as [[|]|]; [discriminate| |]; destruct (un >=? 2 ^ 63) eqn:Eu; try discriminate;
          (destruct (X _ _ _ Hp ltac:(discriminate) ltac:(lia)) as [D|(p & q & m & E & Hm & Hge)];
            [left; exists un; split; [constructor; exact D|lia]|right; split; [exact Z1|]; exists p, q, m; auto]).
    + left. apply parse_int_ok in P; [|lia]. change (64 - 1) with 63 in P. exists t. split; [apply P|lia].
  - intros [(n & D & Hn & ->)|(-> & p & q & n & Hs & D & Hn)].
    + destruct (Z.lt_ge_cases n (2 ^ 63)) as [Hlt|Hge].
      * rewrite (proj2 (parse_int_ok 64 T n ltac:(lia))); [cbn [fst]; lia|]. split; [exact D|]. change (64 - 1) with 63. lia.
      * rewrite (parse_int_range 64 T n ltac:(lia) D) by (change (64 - 1) with 63; lia).
        change (64 - 1) with 63. cbn [fst]. destruct (Z.ltb_spec n 0); lia.
    + split; [|lia]. pose proof (parse_uint_prefix p q n D Hn) as P. pose proof (nat_denotes_head _ _ D) as (c & p' & -> & Hc).
      apply digit_not_sign in Hc as (N1 & N2). cbn [app] in *. destruct Hs as [-> | ->]; unfold parse_int.
      * rewrite N1, N2, P. reflexivity.
      * change (Ascii.eqb "+" "+") with true. cbv iota. rewrite P. reflexivity.
Qed.
Lemma clock_head T t : clock_text T t -> exists c r, T = c :: r /\ graphic c = true.
Proof.
  assert (X : forall s n, nat_denotes s n -> exists c r, s = c :: r /\ graphic c = true).
  { intros s n D. apply nat_denotes_head in D as (c & r & -> & (d & Hd)). exists c, r. split; [reflexivity|]. eapply digit_graphic. exact Hd. }
  intros [(n & D & Hn & _)|(_ & p & q & n & Hs & D & Hn)].
  - inversion D; subst; [eapply X; eassumption| |]; eexists; eexists; split; reflexivity.
  - apply X in D as (c & r & -> & Hc). destruct Hs as [-> | ->]; cbn [app]; eexists; eexists; split; reflexivity || exact Hc.
Qed.
Lemma unescape_nonempty s r : query_unescape s = Some r -> s <> [] -> r <> [].
Proof.
  assert (X : forall x o, option_map (cons x) o <> Some (@nil ascii)) by (intros x [?|]; discriminate).
  destruct s as [|c s]; [congruence|]. intros H _ ->. change (query_unescape (c :: s)) with
      (if Nat.eqb (code c) 37 then
        match s with
        | h1 :: h2 :: r2 =>
            match unhex h1, unhex h2 with
            | Some a, Some b => option_map (cons (byte (16 * a + b))) (query_unescape r2)
            | _, _ => None
            end
        | _ => None
        end
      else option_map (cons (if Nat.eqb (code c) 43 then " "%char else c)) (query_unescape s)) in H.
  destruct (Nat.eqb (code c) 37); [|eapply X; exact H].
  destruct s as [|h1 [|h2 r2]]; try discriminate. destruct (unhex h1), (unhex h2); try discriminate. eapply X. exact H.
Qed.

(** *** C36: acceptance, exactly *)
(** [carried s raw T h]: after base64 decoding, [s] is three fields separated by commas; the
    first, trimmed, is not empty and unescapes to [raw]; the others, trimmed, are [T] and [h] *)
Definition carried (s raw T h : bytes) : Prop :=
  exists a b c, fst (b64_decode s) = a ++ ","%char :: b ++ ","%char :: c /\ ~ In ","%char a /\ ~ In ","%char b /\
    trim_space a <> [] /\ query_unescape (trim_space a) = Some raw /\ trim_space b = T /\ trim_space c = h /\ h <> [].
Theorem C36_accepted_exact hmac s key raw t :
  decode_secure hmac s key = Some (raw, t) <->
  exists T, clock_text T t /\ carried s raw T (hex_encode (hmac key (raw ++ T))).
Proof.
  split.
  - unfold decode_secure. destruct (splitn_byte comma 3 (fst (b64_decode s))) as [|p0 [|p1 [|p2 r]]] eqn:E; try discriminate.
    apply splitn3_inv in E as (-> & E & H0 & H1). cbv zeta.
    destruct (trim_space p0) as [|x0 l0] eqn:T0; [discriminate|]. destruct (trim_space p1) as [|x1 l1] eqn:T1; [discriminate|].
    destruct (trim_space p2) as [|x2 l2] eqn:T2; [discriminate|]. cbn [is_nil orb].
    destruct (Z.leb_spec (fst (parse_int 64 (x1 :: l1))) 0) as [|Ht]; [discriminate|].
    destruct (query_unescape (x0 :: l0)) as [raw'|] eqn:Eu; [|discriminate].
    destruct (beq (hex_encode (hmac key (raw' ++ x1 :: l1))) (x2 :: l2)) eqn:Eb; [|discriminate]. intros H.
    assert (raw' = raw /\ fst (parse_int 64 (x1 :: l1)) = t) as (-> & Et) by (split; congruence).
    apply beq_true in Eb. exists (x1 :: l1). split; [apply clock_exact; split; [exact Et|lia]|].
    exists p0, p1, p2. rewrite Eb, T0. repeat split; try assumption; discriminate.
  - intros (T & Hc & a & b & c & E & Na & Nb & Ha & Hu & Hb & Hh & Hn). unfold decode_secure. rewrite E.
    change (a ++ ","%char :: b ++ ","%char :: c) with (a ++ comma :: b ++ comma :: c). rewrite (splitn3_app comma a b c Na Nb). cbv zeta. rewrite Hb, Hh. rewrite (is_nil_false _ Ha), (is_nil_false _ Hn).
    destruct (clock_head _ _ Hc) as (x & r & ET & _). rewrite (is_nil_false T) by (rewrite ET; discriminate). cbn [orb].
    apply clock_exact in Hc as (Et & Hp). rewrite Et. destruct (Z.leb_spec t 0); [lia|]. rewrite Hu, beq_refl. reflexivity.
Qed.

(** *** C37: which pairs share a signature with an issued value, exactly *)
(** two (value, time text) pairs are signed as the same text exactly if the one is got from
    the other by moving the border between value and time *)
Theorem C37_same_text_exact (raw1 T1 raw2 T2 : bytes) :
  raw1 ++ T1 = raw2 ++ T2 <->
  (exists x, raw1 = raw2 ++ x /\ T2 = x ++ T1) \/ (exists x, raw2 = raw1 ++ x /\ T1 = x ++ T2).
Proof.
  split.
  - revert raw2. induction raw1 as [|c r IH]; intros [|c2 r2]; cbn [app].
    + intros ->. left. exists []. auto.
    + intros ->. right. exists (c2 :: r2). auto.
    + intros <-. left. exists (c :: r). auto.
    + intros [= <- H]. destruct (IH r2 H) as [(x & -> & ->)|(x & -> & ->)]; [left|right]; exists x; auto.
  - intros [(x & -> & ->)|(x & -> & ->)]; rewrite <- app_assoc; reflexivity.
Qed.
Lemma last_graphic_trim (c : ascii) r z : graphic c = true -> (exists p d, c :: r = p ++ [d] /\ graphic d = true) -> z = c :: r -> trim_space z = z.
Proof.
  intros Hc (p & d & E & Hd) ->. rewrite E. destruct p as [|c' p]; [cbn [app]; apply trim_space_id; cbn; rewrite Hd; reflexivity|].
  cbn [app] in *. injection E as <- E. apply trim_space_graphic; assumption.
Qed.
(** an accepted string that carries the signature of an issued (raw, t): exactly the pairs
    (raw', t') of a non-empty value and a time text without comma that concatenate to the same text *)
Theorem C37_reused_signature_exact hmac raw key t raw' t' :
  (forall k m, hmac k m <> []) -> 0 <= t ->
  (exists s T, decode_secure hmac s key = Some (raw', t') /\ carried s raw' T (hex_encode (hmac key (raw ++ format_int t))) /\ raw' ++ T = raw ++ format_int t) <->
  (exists T, raw' <> [] /\ ~ In ","%char T /\ clock_text T t' /\ raw' ++ T = raw ++ format_int t).
Proof.
  intros Hh Ht. split.
  - intros (s & T & D & (a & b & c & E & Na & Nb & Ha & Hu & Hb & Hc & Hn) & Et). exists T. split; [eapply unescape_nonempty; eassumption|].
    split.
    { intros Hi. apply Nb. destruct (trim_space_infix b) as (p & q & Eb). rewrite Eb, Hb. apply in_or_app. right. apply in_or_app. left. exact Hi. }
    split; [|exact Et]. apply C36_accepted_exact in D as (T2 & Hk & a2 & b2 & c2 & E2 & Na2 & Nb2 & _ & _ & Hb2 & _).
    assert (X : splitn_byte comma 3 (a2 ++ ","%char :: b2 ++ ","%char :: c2) = [a2; b2; c2]) by (apply splitn3_app; assumption).
    rewrite <- E2, E in X. change (a ++ ","%char :: b ++ ","%char :: c) with (a ++ comma :: b ++ comma :: c) in X. rewrite (splitn3_app comma a b c Na Nb) in X. injection X as <- <- <-. rewrite <- Hb, Hb2. exact Hk.
  - intros (T & Hr & NT & Hc & Et). set (h := hex_encode (hmac key (raw ++ format_int t))).
    assert (Hhn : h <> []).
    { unfold h. intros E. apply (f_equal (@List.length ascii)) in E. rewrite hex_encode_length in E. pose proof (Hh key (raw ++ format_int t)). destruct (hmac key (raw ++ format_int t)); [congruence|cbn in E; lia]. }
    destruct (clock_head _ _ Hc) as (x & r & ET & Hx).
    assert (HT : trim_space T = T).
    { apply (last_graphic_trim x r T Hx); [|exact ET]. rewrite <- ET.
      pose proof (format_pos_digits t Ht) as FD. pose proof (format_pos_nonempty t Ht) as FN.
      destruct (exists_last FN) as (fp & fd & Ef). rewrite Ef in FD, Et. apply Forall_app in FD as (_ & FD). inversion FD as [|? ? (dd & Hdd) _]; subst.
      assert (TN : x :: r <> []) by discriminate. destruct (exists_last TN) as (tp & td & Etp). exists tp, td. split; [exact Etp|].
      rewrite Etp, !app_assoc in Et. apply app_inj_tail in Et as (_ & ->). eapply digit_graphic. exact Hdd. }
    assert (C : carried (b64_encode (query_escape raw' ++ ","%char :: T ++ ","%char :: h)) raw' T h).
    { exists (query_escape raw'), T, h. rewrite b64_round. split; [reflexivity|]. split; [apply query_escape_free; reflexivity|]. split; [exact NT|].
      rewrite trim_space_id by apply query_escape_graphic. split; [intros E; apply query_escape_nil in E; congruence|]. split; [apply query_round|].
      split; [exact HT|]. split; [apply trim_space_id; apply hex_encode_graphic|exact Hhn]. }
    exists (b64_encode (query_escape raw' ++ ","%char :: T ++ ","%char :: h)), T. split; [|split; [exact C|exact Et]].
    apply C36_accepted_exact. exists T. split; [exact Hc|]. rewrite Et. exact C.
Qed.
Example C37_exact_example :
  (* from the value "user+17" at t2020: "user" at the maximal time, through "+17..." *)
  (exists T, bs "user" <> [] /\ ~ In ","%char T /\ clock_text T (2 ^ 63 - 1) /\ bs "user" ++ T = bs "user+17" ++ format_int t2020) /\
  (* from "u99999999999999999999x": everything after "u" is a time *)
  (exists T, bs "u" <> [] /\ ~ In ","%char T /\ clock_text T (2 ^ 63 - 1) /\ bs "u" ++ T = bs "u99999999999999999999x" ++ format_int t2020).
Proof.
  split.
  - exists (bs "+17" ++ format_int t2020). split; [discriminate|]. split; [vm_compute; intuition discriminate|]. split; [|reflexivity].
    apply clock_exact. split; vm_compute; reflexivity.
  - exists (bs "99999999999999999999x" ++ format_int t2020). split; [discriminate|]. split; [vm_compute; intuition discriminate|]. split; [|reflexivity].
    apply clock_exact. split; vm_compute; reflexivity.
Qed.

(** *** C38: the time of an accepted value, exactly *)
(** the time is a function of the signed text; a value is refused as expired exactly if that
    time plus the lifetime is over; a text too large for 63 bits counts as the largest time *)
Theorem C38_time_exact hmac s key raw t :
  decode_secure hmac s key = Some (raw, t) ->
  exists T, carried s raw T (hex_encode (hmac key (raw ++ T))) /\
    (forall n, int_denotes T n -> 0 < n /\ t = Z.min n (2 ^ 63 - 1)) /\
    ((forall n, ~ int_denotes T n) -> t = 2 ^ 63 - 1 /\ exists p q n, (T = p ++ q \/ T = "+"%char :: p ++ q) /\ nat_denotes p n /\ 2 ^ 64 <= n) /\
    (forall expire now, is_expired t (secs expire) now = true <-> t + secs expire < now).
Proof.
  intros D. pose proof D as D0. apply C36_accepted_exact in D as (T & Hc & C). exists T. split; [exact C|]. split; [|split].
  - intros n Hn. apply clock_exact in Hc as (Et & Hp). destruct (Z.lt_ge_cases 0 n) as [Hpos|Hneg].
    + assert (X : clock_text T (Z.min n (2 ^ 63 - 1))) by (left; exists n; auto). apply clock_exact in X as (X & _). split; [exact Hpos|congruence].
    + exfalso. destruct (Z.lt_ge_cases n (- 2 ^ 63)) as [Hlow|Hge].
      * rewrite (parse_int_range 64 T n ltac:(lia) Hn) in Et by (change (64 - 1) with 63; lia). change (64 - 1) with 63 in Et. cbn [fst] in Et.
        destruct (Z.ltb_spec n 0); lia.
      * rewrite (proj2 (parse_int_ok 64 T n ltac:(lia))) in Et; [cbn [fst] in Et; lia|]. split; [exact Hn|change (64 - 1) with 63; lia].
  - intros Hno. destruct Hc as [(n & Hn & _)|Hc]; [exfalso; eapply Hno; exact Hn|exact Hc].
  - intros expire now. unfold is_expired. apply Z.ltb_lt.
Qed.
Example C38_exact_example : exists s, decode_secure toy_hmac s (bs "key") = Some (bs "u", 2 ^ 63 - 1) /\
  (forall n, ~ int_denotes (bs "99999999999999999999x5") n).
Proof.
  exists (b64_encode (bs "u,99999999999999999999x5," ++ hex_encode (toy_hmac (bs "key") (bs "u99999999999999999999x5")))).
  split; [vm_compute; reflexivity|]. intros n H.
  assert (X : forall d, nat_denotes d n \/ (exists m, nat_denotes d m) -> dval 0 d <> None).
  { intros d [H0|(m & H0)]; apply nat_denotes_dval in H0 as (_ & ->); discriminate. }
  inversion H as [s' k Hk|s' k Hk|s' k Hk]; subst; try (apply (X (bs "99999999999999999999x5")); [right; eexists; exact Hk|vm_compute; reflexivity]).
Qed.

(** *** C40: HasRemember, exactly *)
(** the last cookie of that name *)
Definition last_cookie (cs : list cookie) (name v : bytes) : Prop := sent_back name v cs.
Lemma get_cookie_exact cs name v : get_cookie cs name = Some v <-> last_cookie cs name v.
Proof.
  split; [|apply get_cookie_sent]. unfold get_cookie, last_cookie, sent_back. intros H.
  assert (X : forall l, option_map snd (find (fun c : cookie => beq (fst c) name) l) = Some v ->
    exists a b, l = a ++ (name, v) :: b /\ forall c, In c a -> fst c <> name).
  { induction l as [|c l IH]; cbn [find]; [discriminate|]. destruct (beq (fst c) name) eqn:E.
    - cbn. intros [= <-]. apply beq_true in E. subst name. exists [], l. split; [destruct c; reflexivity|intros ? []].
    - intros Hl. destruct (IH Hl) as (a & b & -> & Ha). exists (c :: a), b. split; [reflexivity|]. intros x [<-|Hx]; [intros Ex; rewrite Ex, beq_refl in E; discriminate|auto]. }
  apply X in H as (a & b & E & Ha). exists (rev b), (rev a). split.
  - rewrite <- (rev_involutive cs), E, rev_app_distr. cbn [rev]. rewrite <- app_assoc. reflexivity.
  - intros c Hc. apply Ha. apply in_rev. exact Hc.
Qed.
Lemma get_cookie_none cs name : get_cookie cs name = None <-> forall c, In c cs -> fst c <> name.
Proof.
  unfold get_cookie. split.
  - intros H c Hc E. match type of H with option_map _ ?x = _ => destruct x eqn:F end; [discriminate H|].
    pose proof (find_none _ _ F c) as N. rewrite <- in_rev in N. specialize (N Hc). cbn in N. rewrite E, beq_refl in N. discriminate.
  - intros H. match goal with |- option_map _ ?x = _ => destruct x as [c|] eqn:F end; [|reflexivity].
    apply find_some in F as (Hi & Hb). apply in_rev in Hi. apply beq_true in Hb. exfalso. eapply H; eassumption.
Qed.
(** ok exactly if the last cookie of the name is accepted, not expired, and its value either
    has no bar - then user and hash are empty - or has both parts around the first bar unescape *)
Theorem C40_has_remember_exact hmac sk name expire now cs psk sh :
  has_remember hmac sk name expire now cs = (psk, sh, true) <->
  exists v value created, last_cookie cs name v /\ decode_secure hmac v sk = Some (value, created) /\ now <= created + secs expire /\
    ((exists a b, value = a ++ "|"%char :: b /\ ~ In "|"%char a /\ query_unescape a = Some psk /\ query_unescape b = Some sh) \/
     (~ In "|"%char value /\ psk = [] /\ sh = [])).
Proof.
  split.
  - intros H. unfold has_remember in H. destruct (get_cookie cs name) as [v|] eqn:G; [|discriminate].
    destruct (decode_secure hmac v sk) as [[value created]|] eqn:D; [|discriminate].
    destruct (is_expired created (secs expire) now) eqn:Ex; [discriminate|].
    exists v, value, created. split; [apply get_cookie_exact; exact G|]. split; [exact D|]. split; [unfold is_expired in Ex; apply Z.ltb_ge in Ex; exact Ex|].
    cbn [splitn_byte] in H. destruct (index_byte bar value) as [i|] eqn:Ei.
    + apply index_byte_some in Ei. destruct Ei as (a & b & -> & <- & Hn). rewrite firstn_app_len, skipn_S_app in H.
      destruct (query_unescape a) as [x|] eqn:E1; [|discriminate]. destruct (query_unescape b) as [y|] eqn:E2; [|discriminate].
      left. exists a, b. repeat split; try assumption; try congruence.
    + apply index_byte_none in Ei. right. split; [exact Ei|]. split; congruence.
  - intros (v & value & created & G & D & Hn & Hv). unfold has_remember. apply get_cookie_exact in G. rewrite G, D.
    assert (Ex : is_expired created (secs expire) now = false) by (unfold is_expired; apply Z.ltb_ge; exact Hn). rewrite Ex.
    destruct Hv as [(a & b & -> & Na & E1 & E2)|(Nb & -> & ->)].
    + change (a ++ "|"%char :: b) with (a ++ bar :: b). rewrite splitn2_app by exact Na. rewrite E1, E2. reflexivity.
    + rewrite splitn2_none by exact Nb. reflexivity.
Qed.
(** and when it is not ok nothing else is reported *)
Theorem C40_not_ok_is_empty hmac sk name expire now cs psk sh :
  has_remember hmac sk name expire now cs = (psk, sh, false) -> psk = [] /\ sh = [].
Proof.
  unfold has_remember. destruct (get_cookie cs name) as [v|]; [|intros H; split; congruence].
  destruct (decode_secure hmac v sk) as [[value created]|]; [|intros H; split; congruence].
  destruct (is_expired created (secs expire) now); [intros H; split; congruence|].
  destruct (splitn_byte bar 2 value) as [|a [|b [|? ?]]]; try discriminate.
  destruct (query_unescape a), (query_unescape b); try discriminate; intros H; split; congruence.
Qed.
Example C40_exact_example : exists v, encode_secure toy_hmac (bs "a%20|b|c") (bs "secret") t2020 = Some v /\
  has_remember toy_hmac (bs "secret") (bs "R") 3600 t2020 [(bs "R", v)] = (bs "a ", bs "b|c", true) /\
  has_remember toy_hmac (bs "secret") (bs "R") 3600 t2020 [(bs "R", v); (bs "R", bs "x")] = ([], [], false).
Proof. eexists. split; [reflexivity|]. split; vm_compute; reflexivity. Qed.

(** *** C43: RandomCreateBytes, exactly *)
Inductive random_says (rd : nat -> option bytes) (n : Z) (alphabet : bytes) : rres bytes -> Prop :=
| says_negative : n < 0 -> random_says rd n alphabet RPanic
| says_failed : 0 <= n -> rd (Z.to_nat n) = None -> random_says rd n alphabet RErr
| says_short got : 0 <= n -> rd (Z.to_nat n) = Some got -> Z.of_nat (List.length got) <> n -> random_says rd n alphabet RErr
| says_whole got : 0 < n -> rd (Z.to_nat n) = Some got -> Z.of_nat (List.length got) = n ->
    (List.length (letters alphabet) mod 256 = 0)%nat -> random_says rd n alphabet RPanic
| says_letters got out : 0 <= n -> rd (Z.to_nat n) = Some got -> Z.of_nat (List.length got) = n ->
    n = 0 \/ (List.length (letters alphabet) mod 256 <> 0)%nat ->
    List.length out = List.length got ->
    (* the i-th letter is the one at the i-th random byte modulo the alphabet's length modulo 256 *)
    (forall i b, nth_error got i = Some b ->
       nth_error out i = nth_error (letters alphabet) (code b mod (List.length (letters alphabet) mod 256))) ->
    random_says rd n alphabet (ROk out).
Theorem C43_random_bytes_exact rd n alphabet r : random_bytes rd n alphabet = r <-> random_says rd n alphabet r.
Proof.
  assert (Hal : (if is_nil alphabet then default_alphabets else alphabet) = letters alphabet) by (destruct alphabet; reflexivity).
  split.
  - intros <-. unfold random_bytes. rewrite Hal. destruct (Z.ltb_spec n 0) as [Hn|Hn]; [apply says_negative; exact Hn|].
    destruct (rd (Z.to_nat n)) as [got|] eqn:E; [|apply says_failed; assumption].
    destruct (Nat.eqb_spec (List.length got) (Z.to_nat n)) as [L|L]; cbn [negb]; [|eapply says_short; [exact Hn|exact E|lia]].
    cbv zeta. destruct (Nat.eqb_spec (List.length (letters alphabet) mod 256) 0) as [M|M].
    + destruct got as [|c got]; cbn [is_nil negb andb].
      * eapply says_letters; [exact Hn|exact E|lia|left; cbn in L; lia|reflexivity|]. intros [|i] b Hx; discriminate Hx.
      * eapply says_whole; [cbn in L; lia|exact E|lia|exact M].
    + cbn [andb]. eapply says_letters; [exact Hn|exact E|lia|right; exact M|apply map_length|].
      intros i b Hi. rewrite nth_error_map, Hi. cbn [option_map]. symmetry. apply nth_error_nth'.
      pose proof (Nat.mod_upper_bound (code b) (List.length (letters alphabet) mod 256) M).
      assert (List.length (letters alphabet) mod 256 <= List.length (letters alphabet))%nat by (apply Nat.mod_le; discriminate). lia.
  - intros H. unfold random_bytes. rewrite Hal. destruct H as [Hn|Hn E|got Hn E L|got Hn E L M|got out Hn E L M Lo Ho].
    + destruct (Z.ltb_spec n 0); [reflexivity|lia].
    + destruct (Z.ltb_spec n 0); [lia|]. rewrite E. reflexivity.
    + destruct (Z.ltb_spec n 0); [lia|]. rewrite E. destruct (Nat.eqb_spec (List.length got) (Z.to_nat n)); [lia|reflexivity].
    + destruct (Z.ltb_spec n 0); [lia|]. rewrite E. destruct (Nat.eqb_spec (List.length got) (Z.to_nat n)) as [_|]; [|lia].
      cbn [negb]. cbv zeta. rewrite M. destruct got; [cbn in L; lia|reflexivity].
    + destruct (Z.ltb_spec n 0); [lia|]. rewrite E. destruct (Nat.eqb_spec (List.length got) (Z.to_nat n)) as [_|]; [|lia].
      cbn [negb]. cbv zeta.
      assert (C : (Nat.eqb (List.length (letters alphabet) mod 256) 0 && negb (is_nil got))%bool = false).
      { destruct M as [M|M]; [destruct got; [apply andb_false_r|cbn in L; lia]|]. destruct (Nat.eqb_spec (List.length (letters alphabet) mod 256) 0); [congruence|reflexivity]. }
      rewrite C. f_equal. apply nth_ext with (d := " "%char) (d' := " "%char); [rewrite map_length; lia|]. intros i Hi. rewrite map_length in Hi.
      destruct (nth_error got i) as [b|] eqn:Eb; [|apply nth_error_None in Eb; lia].
      assert (M' : (List.length (letters alphabet) mod 256 <> 0)%nat) by (destruct M as [M|M]; [lia|exact M]).
      specialize (Ho i b Eb).
      pose proof (Nat.mod_upper_bound (code b) (List.length (letters alphabet) mod 256) M').
      assert (List.length (letters alphabet) mod 256 <= List.length (letters alphabet))%nat by (apply Nat.mod_le; discriminate).
      rewrite (nth_error_nth' _ " "%char) in Ho by lia. rewrite (nth_error_nth' _ " "%char) in Ho by lia. injection Ho as Ho. rewrite Ho.
      rewrite (nth_indep _ _ (nth (code " "%char mod (List.length (letters alphabet) mod 256)) (letters alphabet) " "%char)) by (rewrite map_length; exact Hi).
      rewrite map_nth with (f := fun b => nth (code b mod (List.length (letters alphabet) mod 256)) (letters alphabet) " "%char).
      rewrite (nth_error_nth got i " "%char Eb). reflexivity.
Qed.
(** with an alphabet of more than 256 letters only the first (length mod 256) are ever used *)
Theorem C43_letters_used rd n alphabet out :
  random_bytes rd n alphabet = ROk out ->
  Forall (fun c => In c (firstn (List.length (letters alphabet) mod 256) (letters alphabet))) out.
Proof.
  unfold random_bytes. assert (Hal : (if is_nil alphabet then default_alphabets else alphabet) = letters alphabet) by (destruct alphabet; reflexivity).
  rewrite Hal. set (al := letters alphabet). destruct (n <? 0); [discriminate|]. destruct (rd (Z.to_nat n)) as [b|]; [|discriminate].
  destruct (negb _); [discriminate|]. cbv zeta.
  destruct (Nat.eqb_spec (List.length al mod 256) 0) as [M|M]; cbn [andb].
  - destruct b as [|x b]; cbn [is_nil negb]; [intros [= <-]; constructor|discriminate].
  - intros H. assert (out = map (fun b0 => nth (code b0 mod (List.length al mod 256)) al " "%char) b) as -> by congruence.
    apply Forall_forall. intros c Hc. apply in_map_iff in Hc as (x & <- & _).
    pose proof (Nat.mod_upper_bound (code x) (List.length al mod 256) M) as Hb.
    assert (List.length al mod 256 <= List.length al)%nat by (apply Nat.mod_le; discriminate).
    assert (X : forall (l : bytes) k i d, (i < k)%nat -> (k <= List.length l)%nat -> In (nth i l d) (firstn k l)).
    { clear. intros l k i d Hi Hk. assert (E : nth i l d = nth i (firstn k l) d).
      { rewrite <- (firstn_skipn k l) at 1. rewrite app_nth1 by (rewrite firstn_length; lia). reflexivity. }
      rewrite E. apply nth_In. rewrite firstn_length. lia. }
    apply X; lia.
Qed.
Example C43_exact_example : random_bytes zeros 2 (bs "abc") = ROk (bs "cc") /\ random_says zeros (-1) [] RPanic /\
  random_says (fun _ => None) 4 [] RErr.
Proof. split; [vm_compute; reflexivity|]. split; [apply says_negative; lia|apply says_failed; [lia|reflexivity]]. Qed.

Print Assumptions C36_accepted_exact.
Print Assumptions C37_same_text_exact.
Print Assumptions C37_reused_signature_exact.
Print Assumptions C38_time_exact.
Print Assumptions C40_has_remember_exact.
Print Assumptions C40_not_ok_is_empty.
Print Assumptions C43_random_bytes_exact.
Print Assumptions C43_letters_used.
