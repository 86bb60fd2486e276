(** Props_CookieDomain: C187, which configured domains get into the cookie *)
From Coq Require Import List Ascii String Bool Arith ZArith Lia.
Import ListNotations.
From Verif Require Import GoStr GoNum GoEnc ConvModel SecureModel SecureFacts RandModel CacheModel SessModel CookieModel UserAgent CookieFacts AgentFacts Props_Secure Props_Sess Props_Cookie.

(** letters, digits and hyphens, no hyphen at the ends, 1 to 63 of them *)
Definition label_byte (c : ascii) : Prop := is_alpha c = true \/ is_num c = true \/ c = "-"%char.
Definition label (l : bytes) : Prop :=
  1 <= List.length l <= 63 /\ Forall label_byte l /\ hd_error l <> Some "-"%char /\ last l "x"%char <> "-"%char.
(** labels joined by dots, with a dot at the end perhaps *)
Inductive labels : list bytes -> Prop :=
| l_end : labels [[]]                     (* behind a dot at the end *)
| l_one l : label l -> labels [l]
| l_more l ls : label l -> labels ls -> labels (l :: ls).
(** at most 255 bytes; a dot at the front is allowed; a letter somewhere *)
Definition a_name (s : bytes) : Prop :=
  List.length s <= 255 /\ labels (split_byte "."%char (undot s)) /\ exists c, In c (undot s) /\ is_alpha c = true.
(** four numbers up to 255 without needless zeros *)
Definition octet (s : bytes) : Prop := exists n, nat_denotes s n /\ (n <= 255)%Z /\ (List.length s = 1 \/ hd_error s <> Some "0"%char).
Definition an_address (s : bytes) : Prop :=
  exists a b c d, s = a ++ "."%char :: b ++ "."%char :: c ++ "."%char :: d /\ octet a /\ octet b /\ octet c /\ octet d.

Lemma split_dot s p : ~ In "."%char p -> forall l r, split_byte "."%char s = l :: r -> split_byte "."%char (p ++ s) = (p ++ l) :: r.
Proof.
  intros Hp. revert s. induction p as [|c p IH]; intros s l r E; [exact E|]. cbn [app split_byte].
  rewrite (IH ltac:(intros X; apply Hp; right; exact X) s l r E). destruct (Ascii.eqb_spec c "."%char) as [->|]; [exfalso; apply Hp; left; reflexivity|reflexivity].
Qed.
Definition lb (c : ascii) : bool := (is_alpha c || is_num c || Ascii.eqb c "-")%bool.
Lemma lb_spec c : lb c = true <-> label_byte c.
Proof.
  unfold lb, label_byte. rewrite !orb_true_iff, Ascii.eqb_eq. tauto.
Qed.
Lemma lb_dot c : label_byte c -> c <> "."%char.
Proof. intros H ->. apply lb_spec in H. discriminate. Qed.
Lemma alpha_num_ne : forall c, (is_alpha c || is_num c)%bool = true -> c <> "-"%char /\ c <> "."%char.
Proof. intros c H. split; intros ->; discriminate. Qed.
Lemma domain_loop_spec s : forall p ok,
  Forall label_byte p -> hd_error p <> Some "-"%char ->
  (domain_loop s (last p "."%char) ok (List.length p) = true <->
   labels (split_byte "."%char (p ++ s)) /\ (ok = true \/ exists c, In c s /\ is_alpha c = true)).
Proof.
  induction s as [|c s IH]; intros p ok Fp Hp.
  - cbn [domain_loop]. rewrite app_nil_r. rewrite split_byte_nosep; [|intros X; rewrite Forall_forall in Fp; exact (lb_dot _ (Fp _ X) eq_refl)].
    destruct p as [|a p].
    + cbn [last List.length]. change (Ascii.eqb "." "-" || Nat.ltb 63 0)%bool with false. cbv iota. split; [intros ->; split; [constructor|left; reflexivity]|].
      intros (_ & [H|(x & [] & _)]); exact H.
    + assert (L : last (a :: p) "."%char = last (a :: p) "x"%char) by (clear; revert a; induction p as [|b p IH]; intros a; [reflexivity|exact (IH b)]).
      rewrite L. destruct (Ascii.eqb_spec (last (a :: p) "x"%char) "-"%char) as [E|E]; cbn [orb].
      * split; [discriminate|]. intros (H & _). inversion H as [|l Hl|]; subst; [destruct Hl as (_ & _ & _ & X); congruence|]. match goal with X : labels [] |- _ => inversion X end.
      * destruct (Nat.ltb_spec 63 (List.length (a :: p))) as [G|G].
        -- split; [discriminate|]. intros (H & _). inversion H as [|l Hl|]; subst; [destruct Hl as (X & _); lia|]. match goal with X : labels [] |- _ => inversion X end.
        -- split; [intros ->; split; [|left; reflexivity]|intros (_ & [H|(x & [] & _)]); exact H].
           apply l_one. split; [cbn [List.length] in *; lia|]. repeat split; assumption.
  - assert (Np : ~ In "."%char p) by (intros X; rewrite Forall_forall in Fp; exact (lb_dot _ (Fp _ X) eq_refl)).
    assert (step : forall ok', label_byte c -> (p = [] -> c <> "-"%char) ->
       (domain_loop s c ok' (S (List.length p)) = true <-> labels (split_byte "."%char (p ++ c :: s)) /\ (ok' = true \/ exists x, In x s /\ is_alpha x = true))).
    { intros ok' Hc Hd. specialize (IH (p ++ [c]) ok'). rewrite last_last, app_length, Nat.add_comm in IH. cbn [List.length Nat.add] in IH. rewrite <- app_assoc in IH. apply IH.
      - apply Forall_app. split; [exact Fp|constructor; [exact Hc|constructor]].
      - destruct p as [|a p]; [cbn; intros [= X]; exact (Hd eq_refl X)|exact Hp]. }
    cbn [domain_loop]. destruct (is_alpha c) eqn:Ea.
    + rewrite step; [|left; exact Ea|intros _ ->; discriminate]. split; intros (A & B); split; try exact A; [right; exists c; split; [left; reflexivity|exact Ea]|left; reflexivity].
    + assert (X : forall ok', (ok' = true \/ exists x, In x s /\ is_alpha x = true) <-> (ok' = true \/ exists x, In x (c :: s) /\ is_alpha x = true)).
      { intros ok'. split; intros [H|(x & Hx & Hax)]; auto; right; exists x; [split; [right|]; assumption|]. destruct Hx as [<-|Hx]; [congruence|auto]. }
      destruct (is_num c) eqn:En.
      { rewrite step; [rewrite X; reflexivity|right; left; exact En|intros _ ->; discriminate]. }
      destruct (Ascii.eqb_spec c "-"%char) as [->|Nd].
      * destruct p as [|a p].
        -- cbn [last]. change (Ascii.eqb "." ".") with true. cbv iota. split; [discriminate|]. intros (H & _). exfalso. cbn [app] in H.
           destruct (split_byte "."%char s) as [|l r] eqn:E; [exact (split_byte_not_nil _ _ E)|]. pose proof (split_dot s ["-"%char] ltac:(intros [Q|[]]; discriminate) l r E) as Q. cbn [app] in Q. rewrite Q in H.
           inversion H as [|z Hz|z zs Hz]; subst; destruct Hz as (_ & _ & Y & _); apply Y; reflexivity.
        -- assert (Nl : Ascii.eqb (last (a :: p) "."%char) "." = false).
           { apply Ascii.eqb_neq. intros Q. apply Np. rewrite <- Q. clear. revert a. induction p as [|b p IHp]; intros a; [left; reflexivity|right; exact (IHp b)]. }
           rewrite Nl. rewrite step; [rewrite X; reflexivity|right; right; reflexivity|discriminate].
      * destruct (Ascii.eqb_spec c "."%char) as [->|Nc].
        -- assert (Sp : split_byte "."%char (p ++ "."%char :: s) = p :: split_byte "."%char s).
           { pose proof (split_dot ("."%char :: s) p Np [] (split_byte "."%char s) eq_refl) as Q. rewrite app_nil_r in Q. exact Q. }
           rewrite Sp. pose proof (IH [] ok ltac:(constructor) ltac:(discriminate)) as I0. cbn [last List.length app] in I0.
           destruct p as [|a p].
           ++ cbn [last]. change (Ascii.eqb "." "." || Ascii.eqb "." "-")%bool with true. cbv iota. split; [discriminate|]. intros (H & _). exfalso.
              inversion H as [Q|z Hz Q|z zs Hz Q]; [|destruct Hz as (Hz & _); cbn in Hz; lia|destruct Hz as (Hz & _); cbn in Hz; lia].
              symmetry in Q. exact (split_byte_not_nil _ _ Q).
           ++ assert (L : last (a :: p) "."%char = last (a :: p) "x"%char) by (clear; revert a; induction p as [|b p IHp]; intros a; [reflexivity|exact (IHp b)]).
              assert (Nl : Ascii.eqb (last (a :: p) "."%char) "." = false).
              { apply Ascii.eqb_neq. intros Q. apply Np. rewrite <- Q. clear. revert a. induction p as [|b p IHp]; intros a; [left; reflexivity|right; exact (IHp b)]. }
              assert (Ne : forall zs, labels ((a :: p) :: zs) -> label (a :: p)) by (intros zs H; inversion H; assumption).
              rewrite Nl. cbn [orb]. destruct (Ascii.eqb_spec (last (a :: p) "."%char) "-"%char) as [Q|Q].
              ** split; [discriminate|]. intros (H & _). apply Ne in H. destruct H as (_ & _ & _ & Y). rewrite L in Q. congruence.
              ** destruct (Nat.ltb_spec 63 (List.length (a :: p))) as [G|G]; cbn [orb].
                 --- split; [discriminate|]. intros (H & _). apply Ne in H. destruct H as (Y & _). lia.
                 --- cbn [List.length Nat.eqb]. rewrite I0, X. split; intros (A & B); split; try exact B.
                     +++ apply l_more; [|exact A]. split; [cbn [List.length] in *; lia|]. rewrite <- L. auto.
                     +++ inversion A; subst; [|assumption]. exfalso. match goal with Q0 : [] = split_byte _ _ |- _ => exact (split_byte_not_nil _ _ (eq_sym Q0)) end.
        -- split; [discriminate|]. intros (H & _). exfalso.
           destruct (split_byte "."%char s) as [|l r] eqn:E; [exact (split_byte_not_nil _ _ E)|].
           assert (Np' : ~ In "."%char (p ++ [c])) by (intros Q; apply in_app_or in Q as [Q|[Q|[]]]; [exact (Np Q)|congruence]).
           pose proof (split_dot s (p ++ [c]) Np' l r E) as Q. rewrite <- app_assoc in Q. cbn [app] in Q. rewrite Q in H.
           assert (B : label_byte c).
           { inversion H as [Z|z Hz|z zs Hz]; subst; [destruct p; discriminate|..]; destruct Hz as (_ & Fz & _); rewrite Forall_forall in Fz; apply Fz; apply in_or_app; left; apply in_or_app; right; left; reflexivity. }
           apply lb_spec in B. unfold lb in B. rewrite Ea, En in B. cbn [orb] in B. apply Ascii.eqb_eq in B. congruence.
Qed.

(** ** C187: which configured domains get into the cookie *)
Lemma labels_letter s : labels (split_byte "."%char s) -> (exists c, In c s /\ is_alpha c = true) -> s <> [].
Proof. intros _ (c & H & _) ->. destruct H. Qed.
Theorem C187_domain_names s : domain_name s = true <-> a_name s.
Proof.
  unfold domain_name, a_name. pose proof (domain_loop_spec (undot s) [] false ltac:(constructor) ltac:(discriminate)) as H. cbn [last List.length app] in H.
  destruct s as [|a s].
  - cbn [is_nil orb]. split; [discriminate|]. intros (_ & _ & c & [] & _).
  - cbn [is_nil orb]. destruct (Nat.ltb_spec 255 (List.length (a :: s))) as [G|G].
    + split; [discriminate|]. intros (X & _). unfold bytes in *. lia.
    + rewrite H. split; [intros (A & [B|B]); [discriminate|]; auto|]. intros (_ & A & B). auto.
Qed.
Lemma ip_part_octet s : ip_part s = true <-> octet s.
Proof.
  unfold ip_part, octet. rewrite !andb_true_iff. split.
  - intros ((_ & H2) & H3). destruct (dval 0 s) as [n|] eqn:E; [|discriminate]. exists n. apply Z.leb_le in H3.
    destruct s as [|c [|d s]]; [discriminate| |].
    + split; [apply nat_denotes_dval; split; [discriminate|exact E]|]. split; [exact H3|left; reflexivity].
    + split; [apply nat_denotes_dval; split; [discriminate|exact E]|]. split; [exact H3|right]. apply negb_true_iff, Ascii.eqb_neq in H2. cbn. congruence.
  - intros (n & H & L & Z). apply nat_denotes_dval in H as (N & H). rewrite H. split; [split|apply Z.leb_le; exact L].
    + assert (X : forall s m n, dval m s = Some n -> forallb is_num s = true).
      { clear. induction s as [|c s IH]; intros m n; [reflexivity|]. cbn [dval forallb]. destruct (digit_val c) as [d|] eqn:E; [|discriminate]. intros H. rewrite (IH _ _ H), andb_true_r.
        destruct c as [[] [] [] [] [] [] [] []]; first [reflexivity|discriminate E]. }
      exact (X s 0%Z n H).
    + destruct s as [|c [|d s]]; [congruence|reflexivity|]. destruct Z as [Z|Z]; [cbn in Z; lia|]. apply negb_true_iff, Ascii.eqb_neq. cbn in Z. congruence.
Qed.
Lemma octet_nodot s : octet s -> ~ In "."%char s.
Proof.
  intros H. apply ip_part_octet in H. unfold ip_part in H. rewrite !andb_true_iff in H. destruct H as ((H & _) & _). rewrite forallb_forall in H. intros X. discriminate (H _ X).
Qed.
Theorem C187_addresses s : is_ipv4 s = true <-> an_address s.
Proof.
  unfold is_ipv4, an_address. split.
  - pose proof (join_split "."%char s) as J. destruct (split_byte "."%char s) as [|a [|b [|c [|d [|e r]]]]]; try discriminate. rewrite !andb_true_iff, !ip_part_octet. intros (((A & B) & C) & D).
    exists a, b, c, d. rewrite <- J. split; [reflexivity|auto].
  - intros (a & b & c & d & -> & A & B & C & D).
    pose proof (octet_nodot _ A) as Na. pose proof (octet_nodot _ B) as Nb. pose proof (octet_nodot _ C) as Nc. pose proof (octet_nodot _ D) as Nd.
    assert (St : forall p s, ~ In "."%char p -> split_byte "."%char (p ++ "."%char :: s) = p :: split_byte "."%char s).
    { intros p s Np. pose proof (split_dot ("."%char :: s) p Np [] (split_byte "."%char s) eq_refl) as Q. rewrite app_nil_r in Q. exact Q. }
    rewrite (St a _ Na), (St b _ Nb), (St c _ Nc), (split_byte_nosep "."%char d Nd). rewrite !andb_true_iff, !ip_part_octet. auto.
Qed.
(** the line WriteSessionCookie sets names a domain exactly when the one configured is a name or an address,
    and then that one, in small letters and without the dot in front; otherwise the cookie is the host's alone *)
Theorem C187_which_domains_count hmac c k sid created lines v line n v' a :
  encode_secure hmac sid (cf_key c) created = Some v -> name_ok (ck_name k) = true ->
  fst (write_session_cookie hmac c k sid created lines) = [line] -> parse_set_cookie line = Some (n, v', a) ->
  (a_domain a = Some (to_lower (undot (ck_domain k))) <-> a_name (ck_domain k) \/ an_address (ck_domain k)) /\
  (a_domain a = None <-> ~ (a_name (ck_domain k) \/ an_address (ck_domain k))).
Proof.
  intros E N L P. destruct (C180_session_line hmac c k sid created lines v E N) as (line' & L' & P'). rewrite L in L'. injection L' as <-. rewrite P in P'. injection P' as -> -> ->.
  cbn [a_domain]. unfold dom_of, valid_domain. rewrite <- C187_domain_names, <- C187_addresses.
  destruct (domain_name (ck_domain k)), (is_ipv4 (ck_domain k)); cbn [orb]; (split; split; intros H; try congruence; auto); try (destruct H; discriminate); try (exfalso; apply H; auto; fail).
  intros [X|X]; discriminate.
Qed.
Example C187_met :
  a_name (bs ".Example.com") /\ an_address (bs "127.0.0.1") /\
  ~ a_name (bs "-a.com") /\ ~ a_name (bs "a_b.com") /\ ~ a_name (bs "a..com") /\ ~ a_name (bs "localhost:8080") /\
  ~ an_address (bs "127.0.0.01") /\ ~ an_address (bs "127.0.0.256") /\ ~ a_name (bs "127.0.0.256").
Proof. rewrite <- !C187_domain_names, <- !C187_addresses. vm_compute. intuition discriminate. Qed.

Print Assumptions C187_domain_names.
Print Assumptions C187_addresses.
Print Assumptions C187_which_domains_count.
