(** CookieFacts: lemmas on CookieModel and UserAgent *)
From Coq Require Import List Ascii String Bool Arith ZArith Lia.
Import ListNotations.
From Verif Require Import GoStr GoNum GoEnc ConvModel SecureModel SecureFacts RandModel CacheModel SessModel CookieModel UserAgent.

(** ** trimming *)
Section Trim.
  Variable w : ascii -> bool.
  Fixpoint dropw (s : bytes) : bytes := match s with c :: s' => if w c then dropw s' else s | [] => [] end.
  Definition trimw (s : bytes) : bytes := rev (dropw (rev (dropw s))).
  Lemma dropw_suffix s : exists p, s = p ++ dropw s /\ forallb w p = true.
  Proof using Type.
    induction s as [|c s IH]; [exists []; auto|]. cbn [dropw]. destruct (w c) eqn:E; [|exists []; auto].
    destruct IH as (p & H & F). exists (c :: p). cbn [app forallb]. rewrite E, F, <- H. auto.
  Qed.
  Lemma dropw_head s c r : dropw s = c :: r -> w c = false.
  Proof using Type. induction s as [|a s IH]; cbn [dropw]; [discriminate|]. destruct (w a) eqn:E; [exact IH|]. intros [= <- <-]. exact E. Qed.
  Lemma dropw_id s : match s with [] => True | c :: _ => w c = false end -> dropw s = s.
  Proof using Type. destruct s as [|c s]; [reflexivity|]. cbn [dropw]. intros ->. reflexivity. Qed.
  Lemma dropw_idem s : dropw (dropw s) = dropw s.
  Proof using Type. apply dropw_id. destruct (dropw s) eqn:E; [exact Logic.I|]. eapply dropw_head. exact E. Qed.
  Lemma trimw_infix s : exists p q, s = p ++ trimw s ++ q.
  Proof using Type.
    unfold trimw. destruct (dropw_suffix s) as (p & Hp & _). destruct (dropw_suffix (rev (dropw s))) as (q & Hq & _).
    exists p, (rev q). apply (f_equal (@rev ascii)) in Hq. rewrite rev_involutive, rev_app_distr in Hq.
    rewrite <- Hq. exact Hp.
  Qed.
  Lemma trimw_in s c : In c (trimw s) -> In c s.
  Proof using Type. destruct (trimw_infix s) as (p & q & E). intros H. rewrite E. apply in_or_app. right. apply in_or_app. left. exact H. Qed.
  Lemma trimw_id s : (forall c r, s = c :: r -> w c = false) -> (forall c r, s = r ++ [c] -> w c = false) -> trimw s = s.
  Proof using Type.
    intros H1 H2. unfold trimw. rewrite (dropw_id s); [|destruct s; [exact Logic.I|eapply H1; reflexivity]].
    rewrite (dropw_id (rev s)); [apply rev_involutive|]. destruct (rev s) as [|c r] eqn:E; [exact Logic.I|].
    apply (H2 c (rev r)). rewrite <- (rev_involutive s), E. reflexivity.
  Qed.
  Lemma trimw_ends s : (forall c r, trimw s = c :: r -> w c = false) /\ (forall c r, trimw s = r ++ [c] -> w c = false).
  Proof using Type.
    unfold trimw. split; intros c r H.
    - destruct (dropw_suffix (rev (dropw s))) as (q & Hq & _). apply (f_equal (@rev ascii)) in Hq. rewrite rev_involutive, rev_app_distr in Hq.
      rewrite H in Hq. eapply dropw_head. exact Hq.
    - apply (f_equal (@rev ascii)) in H. rewrite rev_involutive, rev_app_distr in H. cbn [rev app] in H. eapply dropw_head. exact H.
  Qed.
  Lemma trimw_idem s : trimw (trimw s) = trimw s.
  Proof using Type. destruct (trimw_ends s). apply trimw_id; assumption. Qed.
  Lemma trimw_free s : forallb (fun c => negb (w c)) s = true -> trimw s = s.
  Proof using Type.
    intros F. rewrite forallb_forall in F. apply trimw_id; intros c r ->.
    - apply negb_true_iff, F. left. reflexivity.
    - apply negb_true_iff, F. apply in_or_app. right. left. reflexivity.
  Qed.
  Lemma dropw_app_w p s : forallb w p = true -> dropw (p ++ s) = dropw s.
  Proof using Type. induction p as [|c p IH]; [reflexivity|]. cbn [forallb app dropw]. intros H. apply andb_true_iff in H as (-> & H). auto. Qed.
  Lemma dropw_all p : forallb w p = true -> dropw p = [].
  Proof using Type. intros H. rewrite <- (app_nil_r p), dropw_app_w by exact H. reflexivity. Qed.
  Lemma trimw_pad p s q : forallb w p = true -> forallb w q = true -> trimw (p ++ s ++ q) = trimw s.
  Proof using Type.
    intros Hp Hq. unfold trimw. rewrite dropw_app_w by exact Hp. f_equal.
    assert (Hr : forallb w (rev q) = true) by (apply forallb_forall; intros c Hc; rewrite forallb_forall in Hq; apply Hq, in_rev; exact Hc).
    assert (X : forall s, dropw (rev (dropw (s ++ q))) = dropw (rev (dropw s))).
    { clear s. induction s as [|c s IH]; [cbn [app]; rewrite (dropw_all q Hq); reflexivity|]. cbn [app dropw]. destruct (w c); [exact IH|].
      rewrite app_comm_cons, rev_app_distr, dropw_app_w by exact Hr. reflexivity. }
    apply X.
  Qed.
End Trim.
Lemma drop_ws_eq s : drop_ws s = dropw http_ws s.
Proof. induction s as [|c s IH]; [reflexivity|]. cbn [drop_ws dropw]. rewrite IH. reflexivity. Qed.
Lemma trim_string_eq s : trim_string s = trimw http_ws s.
Proof. unfold trim_string, trimw. rewrite !drop_ws_eq. reflexivity. Qed.
Lemma drop_wsp_eq s : drop_wsp s = dropw wsp s.
Proof. induction s as [|c s IH]; [reflexivity|]. cbn [drop_wsp dropw]. rewrite IH. reflexivity. Qed.
Lemma strip_eq s : strip s = trimw wsp s.
Proof. unfold strip, trimw. rewrite !drop_wsp_eq. reflexivity. Qed.

(** ** bytes *)
Ltac all_bytes := let c := fresh "c" in intros c; destruct c as [[] [] [] [] [] [] [] []]; vm_compute; intros; try discriminate; try reflexivity; auto.
Lemma graphic_ws : forall c, graphic c = true -> http_ws c = false /\ wsp c = false.
Proof. all_bytes. Qed.
Lemma token_graphic : forall c, token_byte c = true -> graphic c = true /\ Ascii.eqb c ";" = false /\ Ascii.eqb c "=" = false /\ is_newline c = false.
Proof. intros c H. repeat split; revert c H; all_bytes. Qed.
Lemma b64_graphic : forall c, b64_byte c = true ->
  graphic c = true /\ value_byte c = true /\ Ascii.eqb c ";" = false /\ Ascii.eqb c " " = false /\ Ascii.eqb c "," = false /\ Ascii.eqb c dquote = false /\ is_newline c = false.
Proof. intros c H. repeat split; revert c H; all_bytes. Qed.
Definition domain_byte (c : ascii) : bool := (is_alpha c || is_num c || Ascii.eqb c "-" || Ascii.eqb c ".")%bool.
Lemma domain_graphic : forall c, domain_byte c = true -> graphic c = true /\ Ascii.eqb c ";" = false /\ Ascii.eqb c "=" = false /\ is_newline c = false.
Proof. intros c H. repeat split; revert c H; all_bytes. Qed.
Lemma newline_ws : forall c, is_newline c = false -> wsp c = false -> http_ws c = false.
Proof. intros c H1 H2. revert c H1 H2. all_bytes. Qed.
Lemma digit_domain : forall c, is_num c = true -> domain_byte c = true.
Proof. all_bytes. Qed.
Lemma digit_is_num c : is_digit c -> is_num c = true.
Proof. intros (d & H). revert d H. unfold digit_val, is_num. intros d. destruct (Nat.leb 48 (code c) && Nat.leb (code c) 57)%bool; [reflexivity|discriminate]. Qed.
Lemma fb_not_in (f : ascii -> bool) s d : f d = false -> forallb f s = true -> ~ In d s.
Proof. intros H F I. rewrite forallb_forall in F. apply F in I. congruence. Qed.
Lemma fb_impl (f g : ascii -> bool) s : (forall c, f c = true -> g c = true) -> forallb f s = true -> forallb g s = true.
Proof. intros H F. apply forallb_forall. intros c Hc. rewrite forallb_forall in F. auto. Qed.
Lemma graphic_trim s : forallb graphic s = true -> trim_string s = s /\ strip s = s.
Proof.
  intros F. rewrite trim_string_eq, strip_eq. split; apply trimw_free; eapply fb_impl; try exact F; intros c Hc; apply graphic_ws in Hc as (A & B);
    rewrite ?A, ?B; reflexivity.
Qed.
Lemma name_ok_facts n : name_ok n = true -> n <> [] /\ forallb graphic n = true /\ ~ In ";"%char n /\ ~ In "="%char n /\ san_name n = n.
Proof.
  unfold name_ok. intros H. apply andb_true_iff in H as (H1 & H2). split; [destruct n; discriminate|].
  assert (T := token_graphic).
  split; [eapply fb_impl; [|exact H2]; intros c Hc; apply T, Hc|].
  split; [eapply fb_not_in; [|exact H2]; reflexivity|]. split; [eapply fb_not_in; [|exact H2]; reflexivity|].
  unfold san_name. rewrite <- (map_id n) at 2. apply map_ext_in. intros c Hc. rewrite forallb_forall in H2. apply H2, T in Hc. destruct Hc as (_ & _ & _ & ->). reflexivity.
Qed.
Lemma b64_facts v : forallb b64_byte v = true -> forallb graphic v = true /\ ~ In ";"%char v /\ san_value v = v /\ parse_cookie_value v = Some v.
Proof.
  intros H. assert (T := b64_graphic).
  split; [eapply fb_impl; [|exact H]; intros c Hc; apply T, Hc|]. split; [eapply fb_not_in; [|exact H]; reflexivity|].
  assert (Vb : forallb value_byte v = true) by (eapply fb_impl; [|exact H]; intros c Hc; apply T, Hc).
  split.
  - unfold san_value. rewrite (filter_id value_byte v Vb).
    destruct (existsb (fun c => Ascii.eqb c " " || Ascii.eqb c ",")%bool v) eqn:E; [|reflexivity].
    apply existsb_exists in E as (c & Hc & E). rewrite forallb_forall in H. apply H, T in Hc as (_ & _ & _ & A & B & _). rewrite A, B in E. discriminate.
  - unfold parse_cookie_value. assert (U : unquote v = v).
    { destruct v as [|a [|b r]]; try reflexivity. cbn [unquote]. rewrite forallb_forall in H.
      destruct (T a (H a (or_introl eq_refl))) as (_ & _ & _ & _ & _ & -> & _). reflexivity. }
    rewrite U, Vb. reflexivity.
Qed.
Lemma cut_app c l r : ~ In c l -> cut c (l ++ c :: r) = (l, r).
Proof. intros H. unfold cut. rewrite index_byte_app by exact H. rewrite firstn_app_len, skipn_S_app. reflexivity. Qed.

(** ** valid domains *)
Lemma domain_loop_bytes s : forall last ok n, domain_loop s last ok n = true -> forallb domain_byte s = true.
Proof.
  induction s as [|c s IH]; intros last ok n; [reflexivity|]. cbn [domain_loop forallb]. unfold domain_byte at 1.
  destruct (is_alpha c); [cbn [orb andb]; apply IH|]. destruct (is_num c); [cbn [orb andb]; apply IH|].
  destruct (Ascii.eqb c "-"); [cbn [orb andb]; destruct (Ascii.eqb last "."); [discriminate|apply IH]|].
  destruct (Ascii.eqb c "."); [|discriminate]. cbn [orb andb]. destruct (_ || _)%bool; [discriminate|]. destruct (_ || _)%bool; [discriminate|apply IH].
Qed.
Lemma ip_part_bytes s : ip_part s = true -> forallb is_num s = true /\ s <> [].
Proof.
  unfold ip_part. intros H. apply andb_true_iff in H as (H & _). apply andb_true_iff in H as (H1 & H2). split; [exact H1|]. destruct s; discriminate.
Qed.
Lemma undot_cons c d : c <> "."%char -> undot (c :: d) = c :: d.
Proof. destruct c as [[] [] [] [] [] [] [] []]; try reflexivity. intros H. exfalso. apply H. reflexivity. Qed.
Lemma valid_domain_facts d : valid_domain d = true ->
  let e := undot d in forallb domain_byte e = true /\ e <> [] /\ undot e = e.
Proof.
  unfold valid_domain. intros H. apply orb_true_iff in H as [H|H].
  - unfold domain_name in H. destruct (_ || _)%bool; [discriminate|]. cbv zeta. set (e := undot d) in *.
    split; [eapply domain_loop_bytes; exact H|]. destruct e as [|c e']; [cbn in H; discriminate|]. split; [discriminate|].
    apply undot_cons. intros ->. vm_compute in H. discriminate.
  - unfold is_ipv4 in H. pose proof (join_split "." d) as J. destruct (split_byte "." d) as [|a [|b [|c [|x [|]]]]] eqn:E; try discriminate.
    apply andb_true_iff in H as (H & H4). apply andb_true_iff in H as (H & H3). apply andb_true_iff in H as (H1 & H2).
    apply ip_part_bytes in H1 as (A1 & N1), H2 as (A2 & _), H3 as (A3 & _), H4 as (A4 & _).
    cbn [join] in J. rewrite <- J.
    assert (Hu : undot (a ++ "."%char :: b ++ "."%char :: c ++ "."%char :: x) = a ++ "."%char :: b ++ "."%char :: c ++ "."%char :: x).
    { destruct a as [|c0 a']; [congruence|]. cbn [app]. apply undot_cons. intros ->. discriminate. }
    change ([ "."%char ] ++ ?y) with ("."%char :: y) in *.
    cbv zeta. cbn [app]. rewrite Hu. split; [|split; [destruct a; [congruence|discriminate]|exact Hu]].
    rewrite !forallb_app. cbn [forallb]. rewrite !forallb_app. cbn [forallb]. rewrite !forallb_app. cbn [forallb].
    rewrite !(fb_impl is_num domain_byte) by (assumption || exact digit_domain). reflexivity.
Qed.

(** ** the parts of a Set-Cookie line *)
Definition semi : ascii := ";"%char.
Lemma join_flat p l : join [semi] (p :: l) = p ++ flat_map (fun x => semi :: x) l.
Proof.
  revert p. induction l as [|q l IH]; intros p; [cbn; symmetry; apply app_nil_r|]. rewrite join_cons, IH. reflexivity.
Qed.
Definition the_domain (d : bytes) : option bytes := if (negb (is_nil d) && valid_domain d)%bool then Some (undot d) else None.
Definition olist {A} (b : bool) (x : A) : list A := if b then [x] else [].
Definition avs_of (c : hcookie) : list bytes :=
  [bs " Path=/"] ++ match the_domain (hc_domain c) with Some d => [bs " Domain=" ++ d] | None => [] end
  ++ match hc_expires c with Some d => [bs " Expires=" ++ d] | None => [] end
  ++ (if (0 <? hc_max_age c)%Z then [bs " Max-Age=" ++ format_int (hc_max_age c)] else if (hc_max_age c <? 0)%Z then [bs " Max-Age=0"] else [])
  ++ olist (hc_httponly c) (bs " HttpOnly") ++ olist (hc_secure c) (bs " Secure").
Lemma cookie_string_join c : name_ok (hc_name c) = true -> forallb b64_byte (hc_value c) = true -> hc_path c = bs "/" ->
  cookie_string c = join [semi] ((hc_name c ++ bs "=" ++ hc_value c) :: avs_of c).
Proof.
  intros Hn Hv Hp. unfold cookie_string. rewrite Hn, Hp. cbn [negb]. destruct (b64_facts _ Hv) as (_ & _ & -> & _).
  rewrite join_flat. unfold avs_of, the_domain, opt, olist. rewrite !flat_map_app. rewrite <- !app_assoc. f_equal. f_equal. f_equal.
  change (negb (is_nil (bs "/"))) with true. change (filter path_byte (bs "/")) with (bs "/").
  f_equal. f_equal; [destruct (negb (is_nil (hc_domain c)) && valid_domain (hc_domain c))%bool; cbn [flat_map app]; rewrite ?app_nil_r; reflexivity|].
  f_equal; [destruct (hc_expires c); cbn [flat_map app]; rewrite ?app_nil_r; reflexivity|].
  f_equal; [destruct (0 <? hc_max_age c)%Z; [cbn [flat_map app]; rewrite ?app_nil_r; reflexivity|]; destruct (hc_max_age c <? 0)%Z; reflexivity|].
  f_equal; [destruct (hc_httponly c); reflexivity|destruct (hc_secure c); reflexivity].
Qed.
Definition the_max_age (m : Z) : option Z := if (0 <? m)%Z then Some m else if (m <? 0)%Z then Some 0%Z else None.
Lemma the_domain_facts d e : the_domain d = Some e -> forallb domain_byte e = true /\ e <> [] /\ undot e = e.
Proof.
  unfold the_domain. destruct (negb (is_nil d) && valid_domain d)%bool eqn:E; [|discriminate]. intros [= <-]. apply andb_true_iff in E as (_ & E). exact (valid_domain_facts d E).
Qed.
Lemma attribute_cut a l r : ~ In "="%char l -> attribute a (l ++ "="%char :: r) =
  (let n := to_lower (strip l) in let v := strip r in
   if beq n (bs "max-age") then match max_age v with Some z => mkAttrs (Some z) (a_expires a) (a_domain a) (a_path a) (a_secure a) (a_httponly a) | None => a end else
   if beq n (bs "expires") then mkAttrs (a_max_age a) (Some v) (a_domain a) (a_path a) (a_secure a) (a_httponly a) else
   if beq n (bs "domain") then if is_nil v then a else mkAttrs (a_max_age a) (a_expires a) (Some (to_lower (undot v))) (a_path a) (a_secure a) (a_httponly a) else
   if beq n (bs "path") then mkAttrs (a_max_age a) (a_expires a) (a_domain a) (match v with "/"%char :: _ => Some v | _ => None end) (a_secure a) (a_httponly a) else
   if beq n (bs "secure") then mkAttrs (a_max_age a) (a_expires a) (a_domain a) (a_path a) true (a_httponly a) else
   if beq n (bs "httponly") then mkAttrs (a_max_age a) (a_expires a) (a_domain a) (a_path a) (a_secure a) true else a).
Proof. intros H. unfold attribute. rewrite cut_app by exact H. reflexivity. Qed.
Lemma not_in_b (l : bytes) c : existsb (Ascii.eqb c) l = false -> ~ In c l.
Proof.
  intros H I. assert (existsb (Ascii.eqb c) l = true) by (apply existsb_exists; exists c; split; [exact I|apply Ascii.eqb_refl]). congruence.
Qed.
Lemma attr_domain a e : forallb domain_byte e = true -> e <> [] -> undot e = e ->
  attribute a (bs " Domain=" ++ e) = mkAttrs (a_max_age a) (a_expires a) (Some (to_lower e)) (a_path a) (a_secure a) (a_httponly a).
Proof.
  intros H N U. change (bs " Domain=" ++ e) with (bs " Domain" ++ "="%char :: e). rewrite attribute_cut by (apply not_in_b; reflexivity).
  cbv zeta. rewrite (proj2 (graphic_trim e ltac:(eapply fb_impl; [|exact H]; intros c Hc; apply domain_graphic, Hc))).
  change (to_lower (strip (bs " Domain"))) with (bs "domain"). change (beq (bs "domain") (bs "max-age")) with false.
  change (beq (bs "domain") (bs "expires")) with false. change (beq (bs "domain") (bs "domain")) with true. cbv iota. rewrite U. destruct e; [congruence|]. reflexivity.
Qed.
Lemma attr_expires a d : attribute a (bs " Expires=" ++ d) = mkAttrs (a_max_age a) (Some (strip d)) (a_domain a) (a_path a) (a_secure a) (a_httponly a).
Proof.
  change (bs " Expires=" ++ d) with (bs " Expires" ++ "="%char :: d). rewrite attribute_cut by (apply not_in_b; reflexivity).
  cbv zeta. change (to_lower (strip (bs " Expires"))) with (bs "expires"). reflexivity.
Qed.
Lemma max_age_format m : (0 < m)%Z -> max_age (format_int m) = Some m.
Proof.
  intros H. rewrite format_int_nonneg by lia. pose proof (format_uint_denotes m ltac:(lia)) as D.
  pose proof (nat_denotes_head _ _ D) as (c & s & E & (x & Hc)). apply nat_denotes_dval in D as (_ & D). rewrite E in *.
  unfold max_age. destruct c as [[] [] [] [] [] [] [] []]; try exact D. vm_compute in Hc. discriminate.
Qed.
Lemma attr_max_age a m : (0 < m)%Z -> attribute a (bs " Max-Age=" ++ format_int m) = mkAttrs (Some m) (a_expires a) (a_domain a) (a_path a) (a_secure a) (a_httponly a).
Proof.
  intros H. change (bs " Max-Age=" ++ format_int m) with (bs " Max-Age" ++ "="%char :: format_int m). rewrite attribute_cut by (apply not_in_b; reflexivity).
  cbv zeta. rewrite (proj2 (graphic_trim (format_int m) (digits_graphic _ (format_pos_digits m ltac:(lia))))).
  change (to_lower (strip (bs " Max-Age"))) with (bs "max-age"). change (beq (bs "max-age") (bs "max-age")) with true. cbv iota. rewrite max_age_format by exact H. reflexivity.
Qed.
Lemma attr_plain a : attribute a (bs " Path=/") = mkAttrs (a_max_age a) (a_expires a) (a_domain a) (Some (bs "/")) (a_secure a) (a_httponly a) /\
  attribute a (bs " Max-Age=0") = mkAttrs (Some 0%Z) (a_expires a) (a_domain a) (a_path a) (a_secure a) (a_httponly a) /\
  attribute a (bs " HttpOnly") = mkAttrs (a_max_age a) (a_expires a) (a_domain a) (a_path a) (a_secure a) true /\
  attribute a (bs " Secure") = mkAttrs (a_max_age a) (a_expires a) (a_domain a) (a_path a) true (a_httponly a).
Proof. repeat split; vm_compute; destruct a; reflexivity. Qed.
Definition attrs_of (c : hcookie) : attrs :=
  mkAttrs (the_max_age (hc_max_age c)) (option_map strip (hc_expires c)) (option_map to_lower (the_domain (hc_domain c))) (Some (bs "/")) (hc_secure c) (hc_httponly c).
Lemma fold_domain o a : (forall e, o = Some e -> forallb domain_byte e = true /\ e <> [] /\ undot e = e) ->
  fold_left attribute match o with Some d => [bs " Domain=" ++ d] | None => [] end a =
  mkAttrs (a_max_age a) (a_expires a) (match o with Some d => Some (to_lower d) | None => a_domain a end) (a_path a) (a_secure a) (a_httponly a).
Proof. intros H. destruct o as [e|]; [|destruct a; reflexivity]. destruct (H e eq_refl) as (A & B & C). cbn [fold_left]. apply attr_domain; assumption. Qed.
Lemma fold_expires o a : fold_left attribute match o with Some d => [bs " Expires=" ++ d] | None => [] end a
  = mkAttrs (a_max_age a) (match o with Some d => Some (strip d) | None => a_expires a end) (a_domain a) (a_path a) (a_secure a) (a_httponly a).
Proof. destruct o; [cbn [fold_left]; apply attr_expires|destruct a; reflexivity]. Qed.
Lemma fold_max_age m a : a_max_age a = None ->
  fold_left attribute (if (0 <? m)%Z then [bs " Max-Age=" ++ format_int m] else if (m <? 0)%Z then [bs " Max-Age=0"] else []) a
  = mkAttrs (the_max_age m) (a_expires a) (a_domain a) (a_path a) (a_secure a) (a_httponly a).
Proof.
  intros Ha. unfold the_max_age. destruct (Z.ltb_spec 0 m); [cbn [fold_left]; apply attr_max_age; assumption|].
  destruct (m <? 0)%Z; [cbn [fold_left]; apply attr_plain|cbn [fold_left]; destruct a; cbn in *; subst; reflexivity].
Qed.
Lemma avs_attrs c : fold_left attribute (avs_of c) no_attrs = attrs_of c.
Proof.
  unfold avs_of. rewrite !fold_left_app. rewrite fold_domain by apply the_domain_facts. rewrite fold_expires, fold_max_age by reflexivity.
  change (fold_left attribute [bs " Path=/"] no_attrs) with (attribute no_attrs (bs " Path=/")). rewrite (proj1 (attr_plain _)).
  unfold attrs_of. cbn [a_max_age a_expires a_domain a_path a_secure a_httponly].
  destruct (the_domain (hc_domain c)), (hc_httponly c), (hc_secure c), (hc_expires c); cbn [olist fold_left option_map];
    rewrite ?(proj1 (proj2 (proj2 (attr_plain _)))), ?(proj2 (proj2 (proj2 (attr_plain _)))); reflexivity.
Qed.
Lemma parts_clean c : name_ok (hc_name c) = true -> forallb b64_byte (hc_value c) = true -> (forall d, hc_expires c = Some d -> ~ In semi d) ->
  Forall (fun p => ~ In semi p) ((hc_name c ++ bs "=" ++ hc_value c) :: avs_of c).
Proof.
  intros Hn Hv He. apply name_ok_facts in Hn as (_ & _ & N1 & _). apply b64_facts in Hv as (_ & V1 & _).
  assert (P : forall l r, existsb (Ascii.eqb semi) l = false -> ~ In semi r -> ~ In semi (l ++ r)).
  { intros l r H1 H2 I. apply in_app_or in I as [I|I]; [exact (not_in_b _ _ H1 I)|exact (H2 I)]. }
  constructor. { intros I. apply in_app_or in I as [I|I]; [exact (N1 I)|]. revert I. apply P; [reflexivity|exact V1]. }
  unfold avs_of. repeat (apply Forall_app; split).
  - repeat constructor. apply not_in_b. reflexivity.
  - destruct (the_domain (hc_domain c)) as [e|] eqn:E; [|constructor]. constructor; [|constructor]. apply the_domain_facts in E as (A & _).
    apply P; [reflexivity|]. eapply fb_not_in; [|exact A]. reflexivity.
  - destruct (hc_expires c) as [d|] eqn:E; [|constructor]. constructor; [|constructor]. apply P; [reflexivity|]. apply He. reflexivity.
  - destruct (Z.ltb_spec 0 (hc_max_age c)).
    + constructor; [|constructor]. apply P; [reflexivity|]. intros I. pose proof (format_pos_digits (hc_max_age c) ltac:(lia)) as F. rewrite Forall_forall in F.
      destruct (F _ I) as (x & Hx). vm_compute in Hx. discriminate.
    + destruct (hc_max_age c <? 0)%Z; [|constructor]. constructor; [|constructor]. apply not_in_b. reflexivity.
  - destruct (hc_httponly c); [|constructor]. constructor; [|constructor]. apply not_in_b. reflexivity.
  - destruct (hc_secure c); [|constructor]. constructor; [|constructor]. apply not_in_b. reflexivity.
Qed.
Lemma parse_cookie_string c : name_ok (hc_name c) = true -> forallb b64_byte (hc_value c) = true -> hc_path c = bs "/" ->
  (forall d, hc_expires c = Some d -> ~ In semi d) ->
  parse_set_cookie (cookie_string c) = Some (hc_name c, hc_value c, attrs_of c).
Proof.
  intros Hn Hv Hp He. rewrite (cookie_string_join c Hn Hv Hp). unfold parse_set_cookie.
  assert (SJ := split_join ";"%char ((hc_name c ++ bs "=" ++ hc_value c) :: avs_of c) ltac:(discriminate) (parts_clean c Hn Hv He)).
  change [semi] with [";"%char]. rewrite SJ. clear SJ.
  destruct (name_ok_facts _ Hn) as (N0 & Ng & _ & N1 & _). destruct (b64_facts _ Hv) as (Vg & _).
  change (hc_name c ++ bs "=" ++ hc_value c) with (hc_name c ++ "="%char :: hc_value c). rewrite index_byte_app by exact N1.
  rewrite firstn_app_len, skipn_S_app, avs_attrs. rewrite (proj2 (graphic_trim _ Ng)), (proj2 (graphic_trim _ Vg)).
  destruct (hc_name c); [congruence|reflexivity].
Qed.
Lemma set_cookie_ok c : name_ok (hc_name c) = true -> set_cookie c = [cookie_string c].
Proof.
  intros H. unfold set_cookie. replace (is_nil (cookie_string c)) with false; [reflexivity|]. unfold cookie_string. rewrite H. cbn [negb].
  destruct (name_ok_facts _ H) as (N & _). destruct (hc_name c); [congruence|reflexivity].
Qed.
Lemma set_cookie_bad c : name_ok (hc_name c) = false -> set_cookie c = [].
Proof. intros H. unfold set_cookie, cookie_string. rewrite H. reflexivity. Qed.

(** ** the Cookie lines of a request *)
Lemma read_part_trim s : read_part (trim_string s) = read_part s.
Proof. unfold read_part. rewrite !trim_string_eq, trimw_idem. reflexivity. Qed.
Lemma read_part_pad p s q : forallb http_ws p = true -> forallb http_ws q = true -> read_part (p ++ s ++ q) = read_part s.
Proof. intros H1 H2. unfold read_part. rewrite !trim_string_eq, trimw_pad by assumption. reflexivity. Qed.
Lemma ws_semi c : http_ws c = true -> c <> semi.
Proof. intros H ->. discriminate. Qed.
Lemma split_cons c s : c <> semi -> exists p l, split_byte semi s = p :: l /\ split_byte semi (c :: s) = (c :: p) :: l.
Proof.
  intros H. cbn [split_byte]. destruct (split_byte semi s) as [|p l] eqn:E; [exfalso; exact (split_byte_not_nil _ _ E)|].
  exists p, l. split; [reflexivity|]. destruct (Ascii.eqb_spec c semi); [contradiction|reflexivity].
Qed.
Definition readl (l : bytes) : list cookie := flat_map read_part (split_byte semi l).
Lemma readl_cons c s : http_ws c = true -> readl (c :: s) = readl s.
Proof.
  intros H. destruct (split_cons c s (ws_semi c H)) as (p & l & E1 & E2). unfold readl. rewrite E1, E2. cbn [flat_map]. f_equal.
  rewrite <- (read_part_pad [c] p []); [rewrite app_nil_r; reflexivity| |reflexivity]. cbn [forallb]. rewrite H. reflexivity.
Qed.
Lemma split_snoc c s : c <> semi -> exists l p, split_byte semi s = l ++ [p] /\ split_byte semi (s ++ [c]) = l ++ [p ++ [c]].
Proof.
  intros H. induction s as [|a s IH].
  - exists [], []. split; [reflexivity|]. cbn [app split_byte]. destruct (Ascii.eqb_spec c semi); [contradiction|reflexivity].
  - destruct IH as (l & p & E1 & E2). cbn [split_byte app]. rewrite E1, E2. destruct (Ascii.eqb a semi).
    + exists ([] :: l), p. split; reflexivity.
    + destruct l as [|x l]; [exists [], (a :: p); split; reflexivity|exists ((a :: x) :: l), p; split; reflexivity].
Qed.
Lemma readl_snoc c s : http_ws c = true -> readl (s ++ [c]) = readl s.
Proof.
  intros H. destruct (split_snoc c s (ws_semi c H)) as (l & p & E1 & E2). unfold readl. rewrite E1, E2, !flat_map_app. cbn [flat_map]. f_equal. f_equal.
  apply (read_part_pad [] p [c]); [reflexivity|]. cbn [forallb]. rewrite H. reflexivity.
Qed.
Lemma readl_trim s : readl (trim_string s) = readl s.
Proof.
  unfold trim_string. rewrite !drop_ws_eq.
  assert (A : forall s, readl (dropw http_ws s) = readl s).
  { intros t. induction t as [|c t IH]; [reflexivity|]. cbn [dropw]. destruct (http_ws c) eqn:E; [rewrite readl_cons by exact E; exact IH|reflexivity]. }
  assert (B : forall t, readl (rev (dropw http_ws t)) = readl (rev t)).
  { induction t as [|c t IH]; [reflexivity|]. cbn [dropw]. destruct (http_ws c) eqn:E; [|reflexivity]. cbn [rev]. rewrite readl_snoc by exact E. exact IH. }
  rewrite B, rev_involutive. apply A.
Qed.
Lemma read_cookies_eq lines : read_cookies lines = flat_map readl lines.
Proof. unfold read_cookies. apply flat_map_ext. intros l. exact (readl_trim l). Qed.
Lemma split_app_semi a b : split_byte semi (a ++ semi :: b) = split_byte semi a ++ split_byte semi b.
Proof.
  induction a as [|c a IH]; [reflexivity|]. cbn [app]. cbn [split_byte]. rewrite IH. destruct (Ascii.eqb c semi); [reflexivity|].
  destruct (split_byte semi a) eqn:E; [exfalso; exact (split_byte_not_nil _ _ E)|reflexivity].
Qed.
Lemma readl_app a b : readl (a ++ semi :: b) = readl a ++ readl b.
Proof. unfold readl. rewrite split_app_semi. apply flat_map_app. Qed.
(** a part name=value *)
Lemma read_part_pair n v : name_ok n = true -> forallb b64_byte v = true -> read_part (n ++ bs "=" ++ v) = [(n, v)].
Proof.
  intros Hn Hv. destruct (name_ok_facts _ Hn) as (N0 & Ng & _ & N1 & _). destruct (b64_facts _ Hv) as (Vg & _ & _ & Pv). unfold read_part.
  assert (G : forallb graphic (n ++ bs "=" ++ v) = true) by (rewrite !forallb_app, Ng, Vg; reflexivity).
  rewrite (proj1 (graphic_trim _ G)). change (n ++ bs "=" ++ v) with (n ++ "="%char :: v). rewrite cut_app by exact N1.
  rewrite (proj1 (graphic_trim _ Ng)), Hn, Pv. destruct n; [congruence|reflexivity].
Qed.
Lemma readl_pair n v : name_ok n = true -> forallb b64_byte v = true -> readl (n ++ bs "=" ++ v) = [(n, v)].
Proof.
  intros Hn Hv. unfold readl. rewrite split_byte_nosep; [cbn [flat_map]; rewrite read_part_pair by assumption; reflexivity|].
  destruct (name_ok_facts _ Hn) as (_ & _ & N & _). destruct (b64_facts _ Hv) as (_ & N2 & _). intros I. apply in_app_or in I as [I|[I|I]]; [exact (N I)|discriminate|exact (N2 I)].
Qed.
Lemma read_added c lines : name_ok (hc_name c) = true -> forallb b64_byte (hc_value c) = true ->
  read_cookies (add_cookie c lines) = read_cookies (firstn 1 lines) ++ [(hc_name c, hc_value c)].
Proof.
  intros Hn Hv. rewrite !read_cookies_eq. unfold add_cookie. destruct (name_ok_facts _ Hn) as (_ & _ & _ & _ & ->). destruct (b64_facts _ Hv) as (_ & _ & -> & _).
  destruct lines as [|l r]; [cbn [firstn flat_map app]; rewrite app_nil_r; apply readl_pair; assumption|].
  destruct l as [|a l]; [cbn [is_nil firstn flat_map app]; rewrite app_nil_r; change (readl []) with (@nil cookie); apply readl_pair; assumption|].
  cbn [is_nil firstn flat_map]. rewrite !app_nil_r.
  change ((a :: l) ++ bs "; " ++ ?x) with ((a :: l) ++ semi :: " "%char :: x). rewrite readl_app. rewrite (readl_cons " "%char) by reflexivity. rewrite readl_pair by assumption. reflexivity.
Qed.
Lemma read_names lines : Forall (fun c : cookie => name_ok (fst c) = true) (read_cookies lines).
Proof.
  apply Forall_forall. intros c H. unfold read_cookies in H. apply in_flat_map in H as (l & _ & H). apply in_flat_map in H as (p & _ & H).
  unfold read_part in H. destruct (is_nil _); [contradiction|]. destruct (cut _ _) as (n0, v0). destruct (name_ok (trim_string n0)) eqn:E; [|contradiction].
  cbn [negb] in H. destruct (parse_cookie_value v0); [|contradiction]. destruct H as [<-|[]]. exact E.
Qed.
Lemma get_cookie_snoc cs n v : get_cookie (cs ++ [(n, v)]) n = Some v.
Proof. unfold get_cookie. rewrite rev_app_distr. cbn [rev app find fst]. rewrite beq_refl. reflexivity. Qed.
Lemma get_bad_name lines n : name_ok n = false -> get_cookie (read_cookies lines) n = None.
Proof.
  intros H. unfold get_cookie. destruct (find _ _) as [c|] eqn:E; [|reflexivity]. exfalso. apply find_some in E as (I & E). apply beq_true in E. subst n.
  apply in_rev in I. pose proof (read_names lines) as F. rewrite Forall_forall in F. specialize (F _ I). cbv beta in F. congruence.
Qed.
(** a cookie's line has no line ends *)
Lemma cookie_line_clean c : name_ok (hc_name c) = true -> forallb b64_byte (hc_value c) = true -> hc_path c = bs "/" -> 
  (forall d, hc_expires c = Some d -> forallb (fun x => negb (is_newline x)) d = true) ->
  forallb (fun x => negb (is_newline x)) (cookie_string c) = true.
Proof.
  intros Hn Hv Hp He. unfold cookie_string. rewrite Hn, Hp. cbn [negb]. destruct (b64_facts _ Hv) as (_ & _ & -> & _). rewrite !forallb_app.
  assert (Gn : forall s, forallb graphic s = true -> forallb (fun x => negb (is_newline x)) s = true).
  { intros s. apply fb_impl. all_bytes. }
  assert (A1 : forallb (fun x => negb (is_newline x)) (hc_name c) = true) by (apply Gn, name_ok_facts, Hn).
  assert (A2 : forallb (fun x => negb (is_newline x)) (hc_value c) = true) by (apply Gn, b64_facts, Hv).
  rewrite A1, A2. cbn [andb].
  assert (A3 : forallb (fun x => negb (is_newline x)) (opt (negb (is_nil (hc_domain c)) && valid_domain (hc_domain c)) (bs "; Domain=" ++ undot (hc_domain c))) = true).
  { unfold opt. destruct (is_nil (hc_domain c)); [reflexivity|]. cbn [negb andb]. destruct (valid_domain (hc_domain c)) eqn:V; [|reflexivity]. rewrite forallb_app.
    apply valid_domain_facts in V as (V & _). rewrite (Gn (undot (hc_domain c))); [reflexivity|]. eapply fb_impl; [|exact V]. intros x Hx. apply domain_graphic, Hx. }
  rewrite A3. 
  assert (A4 : forallb (fun x => negb (is_newline x)) match hc_expires c with Some d => bs "; Expires=" ++ d | None => [] end = true).
  { destruct (hc_expires c) as [d|]; [|reflexivity]. rewrite forallb_app, (He d eq_refl). reflexivity. }
  rewrite A4.
  assert (A5 : forallb (fun x => negb (is_newline x)) (if 0 <? hc_max_age c then bs "; Max-Age=" ++ format_int (hc_max_age c) else if hc_max_age c <? 0 then bs "; Max-Age=0" else [])%Z = true).
  { destruct (Z.ltb_spec 0 (hc_max_age c)); [|destruct (hc_max_age c <? 0)%Z; reflexivity]. rewrite forallb_app. rewrite (Gn (format_int (hc_max_age c))); [reflexivity|]. apply digits_graphic, format_pos_digits. lia. }
  rewrite A5. destruct (hc_httponly c), (hc_secure c); reflexivity.
Qed.
