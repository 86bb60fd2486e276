(** AgentFacts: lemmas on the browser of UserAgent.v *)
From Coq Require Import List Ascii String Bool Arith ZArith Lia.
Import ListNotations.
From Verif Require Import GoStr GoNum GoEnc ConvModel SecureModel SecureFacts CookieModel UserAgent CookieFacts.

(** a line of a header has no line ends in it *)
Definition header_line (l : bytes) : Prop := forallb (fun c => negb (is_newline c)) l = true.
(** the cookies of a browser that has seen any responses, of any servers, and was closed at any times *)
Inductive browser (parse_date : bytes -> option Z) : list kept -> Prop :=
| NewBrowser : browser parse_date []
| Received now host req lines jar : browser parse_date jar -> Forall header_line lines -> browser parse_date (store_lines parse_date now host req lines jar)
| Closed jar : browser parse_date jar -> browser parse_date (closed jar).

Definition clean (u : kept) : Prop :=
  u_name u <> [] /\ ~ In semi (u_name u) /\ ~ In "="%char (u_name u) /\ ~ In semi (u_value u) /\ strip (u_name u) = u_name u /\ strip (u_value u) = u_value u /\
  header_line (u_name u) /\ header_line (u_value u).
Lemma split_in c s p x : In p (split_byte c s) -> In x p -> In x s.
Proof.
  revert p. induction s as [|a s IH]; intros p; cbn [split_byte].
  - intros [<-|[]] [].
  - destruct (Ascii.eqb a c).
    + intros [<-|H] Hx; [destruct Hx|right; eauto].
    + destruct (split_byte c s) as [|q l] eqn:E; [exfalso; exact (split_byte_not_nil _ _ E)|].
      intros [<-|H] Hx; [destruct Hx as [->|Hx]; [left; reflexivity|right; eapply IH; [left; reflexivity|exact Hx]]|right; eapply IH; [right; exact H|exact Hx]].
Qed.
Lemma header_sub l s : header_line l -> (forall c, In c s -> In c l) -> header_line s.
Proof. unfold header_line. rewrite !forallb_forall. auto. Qed.
Lemma strip_in s c : In c (strip s) -> In c s.
Proof. rewrite strip_eq. apply trimw_in. Qed.
Lemma strip_idem s : strip (strip s) = strip s.
Proof. rewrite !strip_eq. apply trimw_idem. Qed.
Lemma parse_clean line n v a : header_line line -> parse_set_cookie line = Some (n, v, a) ->
  n <> [] /\ ~ In semi n /\ ~ In "="%char n /\ ~ In semi v /\ strip n = n /\ strip v = v /\ header_line n /\ header_line v.
Proof.
  intros Hl. unfold parse_set_cookie. destruct (split_byte ";" line) as [|kv avs] eqn:E; [discriminate|].
  destruct (index_byte "=" kv) as [i|] eqn:Ei; [|discriminate]. apply index_byte_some in Ei as (l & r & -> & <- & Nl). rewrite firstn_app_len, skipn_S_app.
  destruct (is_nil (strip l)) eqn:En; [discriminate|]. intros [= <- <- <-].
  assert (C : ~ In semi (l ++ "="%char :: r)) by (apply (split_byte_clean ";" line); rewrite E; left; reflexivity).
  assert (D : forall x, In x (l ++ "="%char :: r) -> In x line) by (intros x Hx; apply (split_in ";" line (l ++ "="%char :: r)); [rewrite E; left; reflexivity|exact Hx]).
  split; [intros X; rewrite X in En; discriminate|].
  split; [intros I; apply C, in_or_app; left; apply strip_in; exact I|]. split; [intros I; apply Nl, strip_in; exact I|].
  split; [intros I; apply C, in_or_app; right; right; apply strip_in; exact I|]. split; [apply strip_idem|]. split; [apply strip_idem|].
  split; eapply header_sub; try exact Hl; intros x Hx; apply strip_in in Hx; apply D, in_or_app; [left; exact Hx|right; right; exact Hx].
Qed.
Section Agent.
  Variable parse_date : bytes -> option Z.
  Lemma received_clean now host req line u : header_line line -> received parse_date now host req line = Some u -> clean u.
  Proof using Type.
    intros Hl. unfold received. destruct (parse_set_cookie line) as [[[n v] a]|] eqn:E; [|discriminate]. apply (parse_clean _ _ _ _ Hl) in E.
    destruct (a_domain a) as [d|]; [destruct (domain_match host d); [|discriminate]|]; intros [= <-]; exact E.
  Qed.
  Lemma put_in u jar x : In x (put u jar) -> x = u \/ In x jar.
  Proof using Type.
    unfold put. destruct (existsb (same u) jar).
    - intros H. apply in_map_iff in H as (y & E & H). destruct (same u y); subst; auto.
    - intros H. apply in_app_or in H as [H|[<-|[]]]; auto.
  Qed.
  Lemma same_refl u : same u u = true.
  Proof using Type. unfold same. rewrite !beq_refl. reflexivity. Qed.
  Lemma put_has u jar : In u (put u jar).
  Proof using Type.
    unfold put. destruct (existsb (same u) jar) eqn:E.
    - apply existsb_exists in E as (x & H & S). apply in_map_iff. exists x. rewrite S. auto.
    - apply in_or_app. right. left. reflexivity.
  Qed.
  Lemma put_same u jar x : In x (put u jar) -> same u x = true -> x = u.
  Proof using Type.
    unfold put. destruct (existsb (same u) jar) eqn:E.
    - intros H Q. apply in_map_iff in H as (y & E' & H). destruct (same u y) eqn:Y; [congruence|]. subst. congruence.
    - intros H Q. apply in_app_or in H as [H|[<-|[]]]; [|reflexivity]. exfalso.
      assert (existsb (same u) jar = true) by (apply existsb_exists; eauto). congruence.
  Qed.
  Lemma browser_clean jar : browser parse_date jar -> Forall clean jar.
  Proof using Type.
    induction 1 as [|now host req lines jar _ IH Hl|jar _ IH]; [constructor| |].
    - unfold store_lines. revert jar IH. induction Hl as [|l lines Hx _ IHl]; intros jar Hj; [exact Hj|]. cbn [fold_left]. apply IHl.
      unfold store_line. destruct (received parse_date now host req l) as [u|] eqn:E; [|exact Hj]. apply Forall_forall. intros x Hi. apply filter_In in Hi as (Hi & _).
      apply put_in in Hi as [->|Hi]; [eapply received_clean; eassumption|]. rewrite Forall_forall in Hj. auto.
    - apply Forall_forall. intros x Hx. apply filter_In in Hx as (Hx & _). rewrite Forall_forall in IH. auto.
  Qed.
End Agent.

(** ** what a server reads of a cookie *)
Definition pair_of (u : kept) : bytes := u_name u ++ bs "=" ++ u_value u.
Definition readable (u : kept) : list cookie :=
  if name_ok (u_name u) then match parse_cookie_value (u_value u) with Some v => [(u_name u, v)] | None => [] end else [].
Lemma strip_ends s : strip s = s -> header_line s -> (forall c r, s = c :: r -> http_ws c = false) /\ (forall c r, s = r ++ [c] -> http_ws c = false).
Proof.
  intros E H. rewrite strip_eq in E. destruct (trimw_ends wsp s) as (A & B). rewrite E in A, B. unfold header_line in H. rewrite forallb_forall in H.
  split; intros c r Hs; (apply newline_ws; [apply negb_true_iff, H; rewrite Hs|]).
  - left. reflexivity.
  - exact (A c r Hs).
  - apply in_or_app. right. left. reflexivity.
  - exact (B c r Hs).
Qed.
Lemma read_clean u : clean u -> read_part (pair_of u) = readable u.
Proof.
  intros (N0 & N1 & N2 & V1 & Sn & Sv & Hn & Hv). destruct (strip_ends _ Sn Hn) as (An & Bn). destruct (strip_ends _ Sv Hv) as (Av & Bv).
  assert (T : trim_string (pair_of u) = pair_of u).
  { rewrite trim_string_eq. unfold pair_of. apply trimw_id.
    - intros c r E. destruct (u_name u) as [|a n]; [congruence|]. cbn [app] in E. injection E as <- _. exact (An a n eq_refl).
    - intros c r E. destruct (u_value u) as [|a v _] using rev_ind; [rewrite app_nil_r in E; apply app_inj_tail in E as (_ & <-); reflexivity|].
      rewrite !app_assoc in E. apply app_inj_tail in E as (_ & <-). exact (Bv a v eq_refl). }
  unfold read_part. rewrite T. unfold pair_of. change (u_name u ++ bs "=" ++ u_value u) with (u_name u ++ "="%char :: u_value u). rewrite cut_app by exact N2.
  assert (Tn : trim_string (u_name u) = u_name u) by (rewrite trim_string_eq; apply trimw_id; assumption). rewrite Tn. unfold readable.
  destruct (name_ok (u_name u)) eqn:E; cbn [negb]; destruct (u_name u); try congruence; reflexivity.
Qed.
Lemma readl_clean u : clean u -> readl (pair_of u) = readable u.
Proof.
  intros C. unfold readl. rewrite split_byte_nosep; [cbn [flat_map]; rewrite read_clean by exact C; apply app_nil_r|].
  destruct C as (_ & N1 & _ & V1 & _). unfold pair_of. intros I. apply in_app_or in I as [I|[I|I]]; [exact (N1 I)|discriminate|exact (V1 I)].
Qed.
Lemma insert_in u l x : In x (insert u l) <-> x = u \/ In x l.
Proof.
  induction l as [|y l IH]; cbn [insert]; [cbn; split; intros [H|H]; auto|].
  destruct (Nat.leb _ _); cbn [In]; [split; intros [H|H]; auto|]. rewrite IH. split; intros [H|[H|H]]; auto.
Qed.
Lemma sorted_in l x : In x (sorted l) <-> In x l.
Proof. induction l as [|u l IH]; [reflexivity|]. cbn [sorted fold_right]. rewrite insert_in. fold (sorted l). rewrite IH. cbn [In]. split; intros [H|H]; auto. Qed.
Lemma readl_join l : Forall clean l -> l <> [] -> readl (join (bs "; ") (map pair_of l)) = flat_map readable l.
Proof.
  induction l as [|u l IH]; [congruence|]. intros F _. inversion F; subst. destruct l as [|u' l].
  - cbn [map join flat_map]. rewrite app_nil_r. apply readl_clean. assumption.
  - cbn [map]. rewrite join_cons. change (pair_of u ++ bs "; " ++ ?x) with (pair_of u ++ semi :: " "%char :: x). rewrite readl_app.
    rewrite (readl_cons " "%char) by reflexivity. rewrite readl_clean by assumption. cbn [flat_map]. f_equal. apply IH; [assumption|discriminate].
Qed.
Lemma read_lines now https host path jar : Forall clean jar ->
  read_cookies (cookie_lines now https host path jar) = flat_map readable (sent now https host path jar).
Proof.
  intros F. rewrite read_cookies_eq. unfold cookie_lines.
  assert (G : Forall clean (sent now https host path jar)).
  { apply Forall_forall. intros x Hx. unfold sent in Hx. apply (proj1 (sorted_in _ _)) in Hx. apply filter_In in Hx as (Hx & _). rewrite Forall_forall in F. auto. }
  destruct (sent now https host path jar) as [|u l] eqn:E; [reflexivity|]. cbn [flat_map]. rewrite app_nil_r.
  change (fun u0 => u_name u0 ++ bs "=" ++ u_value u0) with pair_of. rewrite readl_join; [reflexivity|exact G|discriminate].
Qed.

(** ** the last cookie of a name *)
Definition plen (u : kept) : nat := List.length (u_path u).
Section Best.
  Variable P : kept -> bool.
  Fixpoint lastP (l : list kept) : option kept := match l with [] => None | u :: l' => match lastP l' with Some w => Some w | None => if P u then Some u else None end end.
  Fixpoint best (l : list kept) : option kept :=
    match l with
    | [] => None
    | u :: l' => match best l' with Some w => if (P u && Nat.ltb (plen u) (plen w))%bool then Some u else Some w | None => if P u then Some u else None end
    end.
  Inductive desc : list kept -> Prop := D0 : desc [] | D1 u l : Forall (fun x => plen x <= plen u) l -> desc l -> desc (u :: l).
  Lemma insert_desc u l : desc l -> desc (insert u l).
  Proof using Type.
    induction 1 as [|x l F D IH]; cbn [insert]; [repeat constructor|]. fold (plen x) (plen u). destruct (Nat.leb_spec (plen x) (plen u)).
    - constructor; [|constructor; assumption]. constructor; [assumption|]. eapply Forall_impl; [|exact F]. cbv beta. intros a Ha. lia.
    - constructor; [|exact IH]. apply Forall_forall. intros y Hy. apply insert_in in Hy as [->|Hy]; [lia|]. rewrite Forall_forall in F. auto.
  Qed.
  Lemma sorted_desc l : desc (sorted l).
  Proof using Type. induction l; [constructor|]. apply insert_desc. assumption. Qed.
  Lemma lastP_in l w : lastP l = Some w -> In w l /\ P w = true.
  Proof using Type.
    induction l as [|u l IH]; cbn [lastP]; [discriminate|]. destruct (lastP l); [intros [= ->]; destruct (IH eq_refl); split; [right|]; assumption|].
    destruct (P u) eqn:E; [|discriminate]. intros [= <-]. split; [left; reflexivity|exact E].
  Qed.
  Lemma lastP_insert u l : desc l -> lastP (insert u l) =
    match lastP l with Some w => if (P u && Nat.ltb (plen u) (plen w))%bool then Some u else Some w | None => if P u then Some u else None end.
  Proof using Type.
    induction 1 as [|x l F D IH]; [reflexivity|]. cbn [insert]. fold (plen x) (plen u). destruct (Nat.leb_spec (plen x) (plen u)) as [Hle|Hlt].
    - cbn [lastP]. destruct (lastP l) as [w|] eqn:E.
      + destruct (lastP_in _ _ E) as (I & _). rewrite Forall_forall in F. specialize (F _ I).
        replace (Nat.ltb (plen u) (plen w)) with false by (symmetry; apply Nat.ltb_ge; lia). rewrite andb_false_r. reflexivity.
      + destruct (P x); [|reflexivity]. replace (Nat.ltb (plen u) (plen x)) with false by (symmetry; apply Nat.ltb_ge; lia). rewrite andb_false_r. reflexivity.
    - cbn [lastP]. rewrite IH. destruct (lastP l) as [w|] eqn:E.
      + destruct (P u && Nat.ltb (plen u) (plen w))%bool; reflexivity.
      + destruct (P u) eqn:Pu; [|destruct (P x); reflexivity]. destruct (P x); [|reflexivity].
        replace (Nat.ltb (plen u) (plen x)) with true by (symmetry; apply Nat.ltb_lt; lia). reflexivity.
  Qed.
  Lemma lastP_sorted l : lastP (sorted l) = best l.
  Proof using Type. induction l as [|u l IH]; [reflexivity|]. cbn [sorted fold_right best]. rewrite lastP_insert by apply sorted_desc. fold (sorted l). rewrite IH. reflexivity. Qed.
  Lemma best_none l : best l = None -> forall u, In u l -> P u = false.
  Proof using Type.
    induction l as [|x l IH]; [intros _ u []|]. cbn [best]. destruct (best l) as [w|]; [destruct (_ && _)%bool; discriminate|].
    destruct (P x) eqn:E; [discriminate|]. intros _ u [<-|H]; auto.
  Qed.
  Lemma best_spec l w : best l = Some w <->
    exists l1 l2, l = l1 ++ w :: l2 /\ P w = true /\ (forall u, In u l1 -> P u = true -> plen w <= plen u) /\ (forall u, In u l2 -> P u = true -> plen w < plen u).
  Proof using Type.
    split.
    - revert w. induction l as [|x l IH]; intros w; cbn [best]; [discriminate|]. destruct (best l) as [y|] eqn:E.
      + destruct (IH y eq_refl) as (l1 & l2 & -> & Py & A & B). destruct (P x && Nat.ltb (plen x) (plen y))%bool eqn:C.
        * intros [= <-]. apply andb_true_iff in C as (Px & C). apply Nat.ltb_lt in C. exists [], (l1 ++ y :: l2). repeat split; [exact Px|intros u []|].
          intros u Hu Pu. apply in_app_or in Hu as [Hu|[<-|Hu]]; [specialize (A u Hu Pu)|exact C|specialize (B u Hu Pu)]; lia.
        * intros [= <-]. exists (x :: l1), l2. repeat split; [exact Py| |exact B]. intros u [<-|Hu] Pu; [|auto]. rewrite Pu in C. cbn [andb] in C. apply Nat.ltb_ge in C. exact C.
      + destruct (P x) eqn:Px; [|discriminate]. intros [= <-]. exists [], l. repeat split; [exact Px|intros u []|]. intros u Hu Pu. rewrite (best_none _ E u Hu) in Pu. discriminate.
    - intros (l1 & l2 & -> & Pw & A & B). induction l1 as [|x l1 IH]; cbn [app best].
      + destruct (best l2) as [y|] eqn:E; [|rewrite Pw; reflexivity].
        assert (Y : In y l2 /\ P y = true). { rewrite <- lastP_sorted in E. apply lastP_in in E as (I & E). apply (proj1 (sorted_in _ _)) in I. auto. }
        destruct Y as (Iy & Py). specialize (B y Iy Py). rewrite Pw. replace (Nat.ltb (plen w) (plen y)) with true by (symmetry; apply Nat.ltb_lt; lia). reflexivity.
      + rewrite IH by (intros u Hu; apply A; right; exact Hu). destruct (P x) eqn:Px; [|reflexivity]. specialize (A x (or_introl eq_refl) Px).
        replace (Nat.ltb (plen x) (plen w)) with false by (symmetry; apply Nat.ltb_ge; lia). reflexivity.
  Qed.
End Best.
Definition value_for (n : bytes) (u : kept) : option bytes := if (beq (u_name u) n && name_ok n)%bool then parse_cookie_value (u_value u) else None.
Definition counts (n : bytes) (u : kept) : bool := match value_for n u with Some _ => true | None => false end.
Lemma get_last l n : get_cookie (flat_map readable l) n = match lastP (counts n) l with Some w => value_for n w | None => None end.
Proof.
  assert (G : forall a b, get_cookie (a ++ b) n = match get_cookie b n with Some v => Some v | None => get_cookie a n end).
  { intros a b. unfold get_cookie. rewrite rev_app_distr. assert (X : forall (x y : list cookie) f, find f (x ++ y) = match find f x with Some v => Some v | None => find f y end).
    { intros x y f. induction x as [|c x IH]; [reflexivity|]. cbn [app find]. destruct (f c); auto. }
    pose proof (X (rev b) (rev a) (fun c => beq (fst c) n)) as Y. change (list cookie) with (list (bytes * bytes)) in *. change cookie with (bytes * bytes)%type in *.
    rewrite Y. destruct (find (fun c : bytes * bytes => beq (fst c) n) (rev b)); reflexivity. }
  induction l as [|u l IH]; [reflexivity|]. cbn [flat_map lastP]. rewrite G, IH. destruct (lastP (counts n) l) as [w|] eqn:E.
  - apply lastP_in in E as (_ & E). unfold counts in E. destruct (value_for n w); [reflexivity|discriminate].
  - assert (R : get_cookie (readable u) n = value_for n u).
    { unfold readable, value_for. destruct (beq_spec (u_name u) n) as [En|En].
      - subst n. cbn [andb]. destruct (name_ok (u_name u)); [|reflexivity]. destruct (parse_cookie_value (u_value u)); [|reflexivity].
        unfold get_cookie. cbn [rev app find fst]. rewrite beq_refl. reflexivity.
      - cbn [andb]. destruct (name_ok (u_name u)); [|reflexivity]. destruct (parse_cookie_value (u_value u)); [|reflexivity].
        unfold get_cookie. cbn [rev app find fst]. apply beq_false in En. rewrite En. reflexivity. }
    rewrite R. unfold counts. destruct (value_for n u) eqn:V; [rewrite V; reflexivity|reflexivity].
Qed.
