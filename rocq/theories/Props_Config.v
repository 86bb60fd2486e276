(** Props_Config: C57-C62, C101, C102. *)
From Coq Require Import List Ascii String Bool Arith ZArith Lia.
Import ListNotations.
From Verif Require Import GoStr GoPath GoTy GoNum RouterModel ConvModel ConfigModel.

(** ** Trimming a line end *)
Lemma has_prefix_snoc c p : ~ In c p -> forall s, has_prefix (s ++ [c]) p = has_prefix s p.
Proof.
  induction p as [|b p IH]; intros Hp s; [destruct s; reflexivity|]. destruct s as [|a s]; cbn [app has_prefix].
  - destruct (Ascii.eqb_spec b c) as [->|Hne]; [exfalso; apply Hp; left; reflexivity|].
    destruct (Ascii.eqb_spec c b) as [->|_]; [congruence|reflexivity] || (destruct (Ascii.eqb c b) eqn:E; [apply Ascii.eqb_eq in E; congruence|reflexivity]).
  - rewrite IH; [reflexivity|]. intros H. apply Hp. right. exact H.
Qed.
Lemma ltrim_snoc pats c : is_space c = true -> Forall (fun p => p <> [] /\ ~ In c p) pats ->
  forall n s, List.length s <= n -> ltrim_fuel pats (S n) (s ++ [c]) = match ltrim_fuel pats n s with [] => [] | t => t ++ [c] end.
Proof.
  intros Hc Hp. induction n as [|n IH]; intros s Hs.
  - destruct s; [|cbn in Hs; lia]. cbn [app ltrim_fuel ltrim_step]. rewrite Hc. reflexivity.
  - destruct s as [|a s].
    + cbn [app]. cbn [ltrim_fuel ltrim_step]. rewrite Hc. cbn [ltrim_step]. destruct n; reflexivity.
    + cbn [List.length] in Hs. change (ltrim_fuel pats (S (S n)) ((a :: s) ++ [c])) with
        (match ltrim_step pats ((a :: s) ++ [c]) with Some s' => ltrim_fuel pats (S n) s' | None => (a :: s) ++ [c] end).
      change (ltrim_fuel pats (S n) (a :: s)) with (match ltrim_step pats (a :: s) with Some s' => ltrim_fuel pats n s' | None => a :: s end).
      cbn [app ltrim_step]. destruct (is_space a); [apply IH; lia|].
      change (a :: s ++ [c]) with ((a :: s) ++ [c]).
      assert (E : find (has_prefix ((a :: s) ++ [c])) pats = find (has_prefix (a :: s)) pats).
      { clear IH. induction Hp as [|p l (_ & Hpc) Hp IHp]; [reflexivity|]. cbn [find]. rewrite (has_prefix_snoc c p Hpc), IHp. reflexivity. }
      rewrite E. destruct (find (has_prefix (a :: s)) pats) as [p|] eqn:Ef; [|reflexivity].
      apply find_some in Ef as (Hin & Hpre). apply has_prefix_spec in Hpre as (t & Ht). rewrite Ht, <- app_assoc, !skipn_app_len. apply IH.
      rewrite Forall_forall in Hp. destruct (Hp p Hin) as (Hne & _). destruct p as [|x p]; [congruence|].
      apply (f_equal (@List.length ascii)) in Ht. rewrite app_length in Ht. cbn [List.length] in Ht. lia.
Qed.
Lemma uspaces_no_nl : Forall (fun p => p <> [] /\ ~ In nl p) uspaces.
Proof.
  apply Forall_forall. intros p Hin.
  assert (H : forallb (fun p => negb (is_nil p) && negb (existsb (Ascii.eqb nl) p)) uspaces = true) by (vm_compute; reflexivity).
  rewrite forallb_forall in H. specialize (H p Hin). apply andb_true_iff in H as (A & B). split; [destruct p; [discriminate|discriminate]|].
  intros Hi. apply negb_true_iff in B. assert (existsb (Ascii.eqb nl) p = true) by (apply existsb_exists; exists nl; split; [exact Hi|apply Ascii.eqb_refl]). congruence.
Qed.
Lemma trim_space_nl s : trim_space (s ++ [nl]) = trim_space s.
Proof.
  unfold trim_space, trim_left_space. rewrite app_length, Nat.add_1_r. rewrite (ltrim_snoc uspaces nl eq_refl uspaces_no_nl) by lia.
  destruct (ltrim_fuel uspaces (List.length s) s) as [|a t]; [reflexivity|]. unfold trim_right_space. rewrite app_length, Nat.add_1_r, rev_app_distr.
  change (rev [nl] ++ rev (a :: t)) with (nl :: rev (a :: t)). reflexivity.
Qed.

(** ** C59 *)
Lemma slice_ok s lo hi : lo <= hi <= List.length s -> slice s lo hi = Ok (firstn (hi - lo) (skipn lo s)).
Proof. intros H. unfold slice. destruct (Nat.leb_spec lo hi); [|lia]. destruct (Nat.leb_spec hi (List.length s)); [reflexivity|lia]. Qed.
Lemma slice_from_ok s lo : lo <= List.length s -> slice_from s lo = Ok (skipn lo s).
Proof. intros H. unfold slice_from. rewrite slice_ok by lia. rewrite firstn_all2; [reflexivity|]. rewrite skipn_length. lia. Qed.
Lemma index_any_lt s cs : forall i, index_any s cs = Some i -> i < List.length s.
Proof.
  induction s as [|a s IH]; intros i; cbn [index_any]; [discriminate|]. destruct (existsb _ _); [intros [= <-]; cbn; lia|].
  destruct (index_any s cs); [|discriminate]. cbn [option_map]. intros [= <-]. specialize (IH _ eq_refl). cbn. lia.
Qed.
Lemma index_sub_le s sub : forall i, index_sub s sub = Some i -> i + List.length sub <= List.length s.
Proof.
  induction s as [|a s IH]; intros i; cbn [index_sub].
  - destruct (has_prefix [] sub) eqn:E; [|discriminate]. intros [= <-]. apply has_prefix_spec in E as (t & E). apply (f_equal (@List.length ascii)) in E. rewrite app_length in E. cbn in *. lia.
  - destruct (has_prefix (a :: s) sub) eqn:E.
    + intros [= <-]. apply has_prefix_spec in E as (t & E). apply (f_equal (@List.length ascii)) in E. rewrite app_length in E. cbn in *. lia.
    + destruct (index_sub s sub); [|discriminate]. cbn [option_map]. intros [= <-]. specialize (IH _ eq_refl). cbn. lia.
Qed.
Lemma last_index_le s sub : forall i, last_index_sub s sub = Some i -> i + List.length sub <= List.length s.
Proof.
  induction s as [|a s IH]; intros i; cbn [last_index_sub].
  - destruct (has_prefix [] sub) eqn:E; [|discriminate]. intros [= <-]. apply has_prefix_spec in E as (t & E). apply (f_equal (@List.length ascii)) in E. rewrite app_length in E. cbn in *. lia.
  - destruct (last_index_sub s sub); [intros [= <-]; specialize (IH _ eq_refl); cbn; lia|].
    destruct (has_prefix (a :: s) sub) eqn:E; [|discriminate]. intros [= <-]. apply has_prefix_spec in E as (t & E). apply (f_equal (@List.length ascii)) in E. rewrite app_length in E. cbn in *. lia.
Qed.
Definition returns {A} (r : res A) : Prop := exists a, r = Ok a.
Lemma triple_ok s : exists b, (if Nat.leb 6 (List.length s) then do p <- slice s 0 3; Ok (beq p quote3) else Ok false) = Ok b /\ (b = true -> 6 <= List.length s).
Proof. destruct (Nat.leb_spec 6 (List.length s)); [rewrite slice_ok by lia; cbn [RouterModel.bind]; eauto|exists false; split; [reflexivity|discriminate]]. Qed.
Lemma parse_value_returns line i key : i < List.length line -> returns (parse_value line i key).
Proof.
  intros Hi. unfold parse_value. rewrite slice_from_ok by lia. cbn [RouterModel.bind]. set (r := trim_space (skipn (i + 1) line)).
  assert (F : exists f, (if Nat.leb 2 (List.length r) then slice r 0 1 else Ok []) = Ok f /\ (f = back -> 1 <= List.length r)).
  { destruct (Nat.leb_spec 2 (List.length r)); [rewrite slice_ok by lia; eexists; split; [reflexivity|lia]|exists []; split; [reflexivity|discriminate]]. }
  destruct F as (f & -> & Hf). cbn [RouterModel.bind]. destruct (triple_ok r) as (b & -> & Hb). cbn [RouterModel.bind].
  set (q := if beq f back then back else if b then quote3 else []).
  assert (Hq : List.length q <= List.length r).
  { unfold q. destruct (beq_spec f back) as [E|_]; [exact (Hf E)|]. destruct b; [cbn; specialize (Hb eq_refl); lia|cbn; lia]. }
  destruct (is_nil q); [eexists; reflexivity|]. rewrite slice_from_ok by exact Hq. cbn [RouterModel.bind].
  destruct (last_index_sub _ q) as [pos|] eqn:E; [|eexists; reflexivity]. apply last_index_le in E. rewrite skipn_length in E.
  rewrite slice_ok by lia. cbn [RouterModel.bind]. eexists. reflexivity.
Qed.
Lemma parse_line_returns line : returns (parse_line line).
Proof.
  unfold parse_line. destruct (Nat.eqb_spec (List.length line) 0) as [|Hn]; [eexists; reflexivity|].
  destruct line as [|c0 line0]; [exfalso; apply Hn; reflexivity|]. set (line := c0 :: line0) in *. cbn [at_ nth_error RouterModel.bind line]. fold line.
  change (at_ line 0) with (Ok c0). cbn [RouterModel.bind].
  destruct (_ || _)%bool; [eexists; reflexivity|].
  assert (L : exists cl, at_ line (List.length line - 1) = Ok cl /\ (List.length line = 1 -> cl = c0)).
  { unfold at_. destruct (nth_error line (List.length line - 1)) eqn:E; [|apply nth_error_None in E; lia]. eexists. split; [reflexivity|].
    intros H1. rewrite H1 in E. cbn in E. congruence. }
  destruct L as (cl & -> & Hcl). cbn [RouterModel.bind]. destruct (_ && _)%bool eqn:Ebr.
  { apply andb_true_iff in Ebr as (B1 & B2). apply Ascii.eqb_eq in B1, B2. rewrite slice_ok; [cbn [RouterModel.bind]; destruct (is_nil _); eexists; reflexivity|].
    destruct (Nat.eq_dec (List.length line) 1) as [E1|]; [specialize (Hcl E1); congruence|lia]. }
  destruct (triple_ok line) as (b & -> & Hb). cbn [RouterModel.bind].
  set (q := if Ascii.eqb c0 """" then if b then quote3 else quote1 else if Ascii.eqb c0 "`" then back else []).
  assert (Hq : List.length q <= List.length line).
  { unfold q. destruct (Ascii.eqb c0 """"); [destruct b; [specialize (Hb eq_refl); cbn in *; lia|cbn; lia]|destruct (Ascii.eqb c0 "`"); cbn; lia]. }
  destruct (is_nil q).
  - destruct (index_any line eq_colon) as [[|i]|] eqn:E; try (eexists; reflexivity). apply index_any_lt in E. rewrite slice_ok by lia. cbn [RouterModel.bind]. apply parse_value_returns. exact E.
  - rewrite slice_from_ok by exact Hq. cbn [RouterModel.bind]. destruct (index_sub _ q) as [pos|] eqn:E; [|eexists; reflexivity].
    apply index_sub_le in E. rewrite skipn_length in E. rewrite slice_from_ok by lia. cbn [RouterModel.bind].
    destruct (index_any _ eq_colon) as [[|i]|] eqn:E2; try (eexists; reflexivity). apply index_any_lt in E2. rewrite skipn_length in E2.
    rewrite slice_ok by lia. cbn [RouterModel.bind]. apply parse_value_returns. lia.
Qed.

Lemma load_line_returns line st : returns (load_line line st).
Proof. unfold load_line. destruct (parse_line_returns (trim_space line)) as (k & ->). cbn [RouterModel.bind]. destruct k; try (eexists; reflexivity). destruct (beq _ _); eexists; reflexivity. Qed.
(** any content, from a reader that ends or fails: a result or an error, no crash *)
Theorem C59_loader_total content fails : exists r, load content fails = Ok r.
Proof.
  unfold load. set (c := if has_prefix content bom then _ else _). clearbody c.
  assert (X : forall ls st, returns (load_lines ls fails st)).
  { induction ls as [|l ls IH]; intros st; [eexists; reflexivity|]. cbn [load_lines]. destruct ls as [|l2 ls]; [destruct fails; [eexists; reflexivity|apply load_line_returns]|].
    destruct (load_line_returns (l ++ [nl]) st) as ([st'|e] & ->); cbn [RouterModel.bind]; [apply IH|eexists; reflexivity]. }
  destruct (X (split_byte nl c) (mkL [] [] 1)) as ([st|e] & ->); cbn [RouterModel.bind]; eexists; reflexivity.
Qed.

(** ** C58 *)
Definition text_of (content : bytes) : bytes := if has_prefix content bom then skipn 3 content else content.
(** the lines of a file *)
Definition lines_of (content : bytes) : list bytes := split_byte nl (text_of content).
(** what the lines are *)
Definition kinds (lines : list bytes) (ks : list line_is) : Prop := Forall2 (fun l k => parse_line (trim_space l) = Ok k) lines ks.
Lemma kinds_exist lines : exists ks, kinds lines ks.
Proof. induction lines as [|l ls (ks & IH)]; [exists []; constructor|]. destruct (parse_line_returns (trim_space l)) as (k & Hk). exists (k :: ks). constructor; assumption. Qed.
(** the section the next line is in *)
Fixpoint section_after (pre : list line_is) : bytes :=     (* latest first *)
  match pre with
  | [] => default_section
  | LSection s :: _ => s
  | _ :: r => section_after r
  end.
(** the number of "-" keys of that section so far *)
Fixpoint dashes (pre : list line_is) : nat :=              (* latest first *)
  match pre with
  | [] => 0
  | LSection _ :: _ => 0
  | LPair k _ :: r => (if beq k (bs "-") then 1 else 0) + dashes r
  | _ :: r => dashes r
  end.
Definition real_key (pre : list line_is) (k : bytes) : bytes := if beq k (bs "-") then "#"%char :: format_int (Z.of_nat (1 + dashes pre)) else k.
(** the last line that gives key [k] of section [s] a value: latest lines first *)
Fixpoint last_value (s k : bytes) (ks : list line_is) : option bytes :=
  match ks with
  | [] => None
  | LPair k0 v :: pre => if (beq (section_after pre) s && beq (real_key pre k0) k)%bool then Some v else last_value s k pre
  | _ :: pre => last_value s k pre
  end.
Definition value_in (d : data) (s k : bytes) : option bytes := match aget d s with Some m => aget m k | None => None end.
Lemma value_set d sec key v s k : key <> [] ->
  value_in (set_value d sec key v) s k = if (beq (if is_nil sec then default_section else sec) s && beq key k)%bool then Some v else value_in d s k.
Proof.
  intros Hk. unfold set_value. set (sec' := if is_nil sec then default_section else sec). destruct key as [|c key]; [congruence|]. cbn [is_nil]. set (K := c :: key) in *.
  unfold value_in. set (d1 := match aget d sec' with Some _ => d | None => aset d sec' [] end).
  assert (E : exists m, aget d1 sec' = Some m /\ (match aget d sec' with Some m0 => aget m0 k | None => None end = aget m k)).
  { unfold d1. destruct (aget d sec') as [m|] eqn:A; [exists m; auto|]. rewrite aget_aset_same. exists []. auto. }
  assert (E2 : forall s, sec' <> s -> aget d1 s = aget d s).
  { intros s2 H. unfold d1. destruct (aget d sec'); [reflexivity|]. apply aget_aset_other. exact H. }
  destruct E as (m & E & Em). rewrite E. destruct (beq_spec sec' s) as [<-|Hs].
  - rewrite aget_aset_same. cbn [andb]. destruct (beq_spec K k) as [<-|HK]; [apply aget_aset_same|]. rewrite aget_aset_other by exact HK. symmetry. exact Em.
  - cbn [andb]. rewrite aget_aset_other by exact Hs. rewrite (E2 s Hs). reflexivity.
Qed.
Lemma value_set_nil d sec s k v : value_in (set_value d sec [] v) s k = value_in d s k.
Proof.
  unfold set_value. cbn [is_nil]. set (sec' := if is_nil sec then default_section else sec). unfold value_in. destruct (aget d sec') as [m|] eqn:A; [reflexivity|].
  destruct (beq_spec sec' s) as [<-|Hs]; [rewrite aget_aset_same, A; reflexivity|]. rewrite aget_aset_other by exact Hs. reflexivity.
Qed.
(** the state after the lines [pre] *)
Definition stands (pre : list line_is) (st : lstate) : Prop :=
  (if is_nil (l_section st) then default_section else l_section st) = section_after pre /\ l_count st = 1 + dashes pre /\
  forall s k, k <> [] -> value_in (l_data st) s k = last_value s k pre.
Lemma trim_nonempty_section line name : parse_line line = Ok (LSection name) -> name <> [].
Proof.
  unfold parse_line. destruct (Nat.eqb _ _); [discriminate|]. destruct (at_ line 0) as [c0|]; [|discriminate]. cbn [RouterModel.bind].
  destruct (_ || _)%bool; [discriminate|]. destruct (at_ line _); [|discriminate]. cbn [RouterModel.bind].
  assert (PV : forall i key, parse_value line i key <> Ok (LSection name)).
  { intros i key. unfold parse_value. destruct (slice_from line (i + 1)) as [r0|]; [|discriminate]. cbn [RouterModel.bind].
    destruct (if Nat.leb 2 _ then _ else _) as [f|]; [|discriminate]. cbn [RouterModel.bind]. destruct (if Nat.leb 6 _ then _ else _) as [t|]; [|discriminate]. cbn [RouterModel.bind].
    destruct (is_nil _); [discriminate|]. destruct (slice_from _ _); [|discriminate]. cbn [RouterModel.bind]. destruct (last_index_sub _ _); [|discriminate].
    destruct (slice _ _ _); discriminate. }
  destruct (_ && _)%bool.
  - destruct (slice line 1 _) as [n0|]; [|discriminate]. cbn [RouterModel.bind]. destruct (is_nil (trim_space n0)) eqn:E; [discriminate|]. intros [= <-] H. rewrite H in E. discriminate.
  - destruct (if Nat.leb 6 _ then _ else _) as [t|]; [|discriminate]. cbn [RouterModel.bind]. destruct (is_nil _).
    + destruct (index_any _ _) as [[|i]|]; try discriminate. destruct (slice _ _ _); [|discriminate]. cbn [RouterModel.bind]. intros H. exfalso. eapply PV. exact H.
    + destruct (slice_from _ _); [|discriminate]. cbn [RouterModel.bind]. destruct (index_sub _ _); [|discriminate]. destruct (slice_from _ _); [|discriminate]. cbn [RouterModel.bind].
      destruct (index_any _ _) as [[|i]|]; try discriminate. destruct (slice _ _ _); [|discriminate]. cbn [RouterModel.bind]. intros H. exfalso. eapply PV. exact H.
Qed.
Lemma load_line_stands line k pre st : parse_line (trim_space line) = Ok k -> stands pre st ->
  match k with
  | LBad => load_line line st = Ok (inr ErrParse)
  | LBlankSection => load_line line st = Ok (inr ErrBlankSection)
  | _ => exists st', load_line line st = Ok (inl st') /\ stands (k :: pre) st'
  end.
Proof.
  intros Hk (Hs & Hc & Hv). unfold load_line. rewrite Hk. cbn [RouterModel.bind]. destruct k as [|name| |key v|]; try reflexivity.
  - exists st. split; [reflexivity|]. split; [exact Hs|]. split; [exact Hc|exact Hv].
  - eexists. split; [reflexivity|]. apply trim_nonempty_section in Hk. unfold stands. cbn [l_section l_count l_data section_after dashes].
    split; [destruct name; [congruence|reflexivity]|]. split; [reflexivity|]. intros s k Hk'. rewrite value_set_nil. apply Hv. exact Hk'.
  - assert (G : forall key', (if beq key (bs "-") then "#"%char :: format_int (Z.of_nat (l_count st)) else key) = key' -> real_key pre key = key').
    { intros key' <-. unfold real_key. rewrite Hc. reflexivity. }
    destruct (beq key (bs "-")) eqn:Eb; eexists; (split; [reflexivity|]); unfold stands; cbn [l_section l_count l_data section_after dashes]; rewrite ?Eb.
    + split; [exact Hs|]. split; [lia|]. intros s k Hk'. cbn [last_value]. rewrite (G _ eq_refl), value_set by discriminate. rewrite Hs, (Hv s k Hk'). reflexivity.
    + split; [exact Hs|]. split; [exact Hc|]. intros s k Hk'. cbn [last_value]. rewrite (G _ eq_refl). destruct key as [|c key].
      * rewrite value_set_nil, (Hv s k Hk'). destruct (beq_spec [] k); [congruence|]. rewrite andb_false_r. reflexivity.
      * rewrite value_set by discriminate. rewrite Hs, (Hv s k Hk'). reflexivity.
Qed.
(** a file without malformed lines loads; a key of a section has the value given last *)
Definition fine (k : line_is) : Prop := match k with LBad | LBlankSection => False | _ => True end.
Lemma load_lines_spec lines ks : kinds lines ks -> forall pre st, lines <> [] -> stands pre st ->
  (Forall fine ks -> exists st', load_lines lines false st = Ok (inl st') /\ stands (rev ks ++ pre) st') /\
  (forall p k q, ks = p ++ k :: q -> Forall fine p -> ~ fine k -> load_lines lines false st = Ok (inr (match k with LBlankSection => ErrBlankSection | _ => ErrParse end))).
Proof.
  intros K. induction K as [|l k ls ks Hk K IH]; intros pre st Hne Hst; [congruence|].
  assert (Step : forall l', trim_space l' = trim_space l -> match k with
    | LBad => load_line l' st = Ok (inr ErrParse) | LBlankSection => load_line l' st = Ok (inr ErrBlankSection)
    | _ => exists st', load_line l' st = Ok (inl st') /\ stands (k :: pre) st' end).
  { intros l' El. apply load_line_stands; [rewrite El; exact Hk|exact Hst]. }
  destruct ls as [|l2 ls].
  - inversion K; subst ks. cbn [load_lines]. specialize (Step l eq_refl). split.
    + intros F. inversion F as [|? ? F1 _]. subst. destruct k; try contradiction; exact Step.
    + intros p k' q E Fp Fk. destruct p as [|x p]; [injection E as <- <-; destruct k; try (exfalso; apply Fk; exact I); exact Step|]. destruct p; discriminate.
  - specialize (Step (l ++ [nl]) (trim_space_nl l)). cbn [load_lines].
    assert (IH' := fun st' H => IH (k :: pre) st' ltac:(discriminate) H). clear IH. split.
    + intros F. inversion F as [|? ? F1 F2]. subst. cbn [rev]. rewrite <- app_assoc. cbn [app].
      destruct k; try contradiction; destruct Step as (st' & -> & S'); cbn [RouterModel.bind]; apply (proj1 (IH' st' S')); exact F2.
    + intros p k' q E Fp Fk. destruct p as [|x p].
      * injection E as <- <-. destruct k; try (exfalso; apply Fk; exact I); rewrite Step; reflexivity.
      * injection E as <- E. inversion Fp as [|? ? F1 F2]. subst.
        destruct k; try contradiction; destruct Step as (st' & -> & S'); cbn [RouterModel.bind]; eapply (proj2 (IH' st' S')); eauto.
Qed.
Lemma load_unfold content fails : load content fails =
  RouterModel.bind (load_lines (lines_of content) fails (mkL [] [] 1)) (fun r => match r with inl st => Ok (inl (l_data st)) | inr e => Ok (inr e) end).
Proof. reflexivity. Qed.
Theorem C58_last_value_wins content ks :
  kinds (lines_of content) ks ->
  (Forall fine ks -> exists d, load content false = Ok (inl d) /\ forall s k, k <> [] -> value_in d s k = last_value s k (rev ks)) /\
  (~ Forall fine ks -> exists e, load content false = Ok (inr e)).
Proof.
  intros K. assert (S0 : stands [] (mkL [] [] 1)) by (split; [reflexivity|split; [reflexivity|intros; reflexivity]]).
  destruct (load_lines_spec _ _ K [] _ (split_byte_not_nil _ _) S0) as (A & B). split.
  - intros F. destruct (A F) as (st & E & (_ & _ & V)). exists (l_data st). rewrite load_unfold, E. cbn [RouterModel.bind].
    split; [reflexivity|]. rewrite app_nil_r in V. exact V.
  - intros F. assert (X : exists p k q, ks = p ++ k :: q /\ Forall fine p /\ ~ fine k).
    { clear - F. induction ks as [|k ks IH]; [exfalso; apply F; constructor|].
      assert (D : fine k \/ ~ fine k) by (destruct k; cbn; auto). destruct D as [D|D]; [|exists [], k, ks; split; [reflexivity|split; [constructor|exact D]]].
      destruct IH as (p & k' & q & -> & Fp & Fk); [intros F2; apply F; constructor; assumption|]. exists (k :: p), k', q. split; [reflexivity|]. split; [constructor; assumption|exact Fk]. }
    destruct X as (p & k & q & E & Fp & Fk). eexists. rewrite load_unfold, (B p k q E Fp Fk). reflexivity.
Qed.

(** what the lines mean, by their text; [l] is the line without the blanks around it *)
Definition key_char (c : ascii) : Prop := ~ In c [ "#"; ";"; "["; """"; "`" ]%char.
Lemma index_any_app s sep t cs : (forall c, In c s -> ~ In c cs) -> In sep cs -> index_any (s ++ sep :: t) cs = Some (List.length s).
Proof.
  intros Hs Hsep. induction s as [|a s IH]; cbn [app index_any List.length].
  - replace (existsb (Ascii.eqb sep) cs) with true; [reflexivity|]. symmetry. apply existsb_exists. exists sep. split; [exact Hsep|apply Ascii.eqb_refl].
  - replace (existsb (Ascii.eqb a) cs) with false.
    + rewrite IH; [reflexivity|]. intros c Hc. apply Hs. right. exact Hc.
    + symmetry. destruct (existsb (Ascii.eqb a) cs) eqn:E; [|reflexivity]. apply existsb_exists in E as (x & Hx & E). apply Ascii.eqb_eq in E. subst x.
      exfalso. exact (Hs a (or_introl eq_refl) Hx).
Qed.
Lemma index_sub_byte c s t : ~ In c s -> index_sub (s ++ c :: t) [c] = Some (List.length s).
Proof.
  induction s as [|a s IH]; intros H; cbn [app index_sub has_prefix List.length].
  - rewrite Ascii.eqb_refl. destruct t; reflexivity.
  - destruct (Ascii.eqb_spec a c) as [->|Hn]; [exfalso; apply H; left; reflexivity|]. destruct (Ascii.eqb_spec c a) as [->|_]; [congruence|]. cbn [andb].
    rewrite IH; [reflexivity|]. intros Hi. apply H. right. exact Hi.
Qed.
Lemma last_index_byte_none c s : ~ In c s -> last_index_sub s [c] = None.
Proof.
  induction s as [|a s IH]; intros H; [reflexivity|]. cbn [last_index_sub]. rewrite IH by (intros Hi; apply H; right; exact Hi). cbn [has_prefix].
  destruct (Ascii.eqb_spec c a) as [->|_]; [exfalso; apply H; left; reflexivity|reflexivity].
Qed.
Lemma last_index_byte c s t : ~ In c t -> last_index_sub (s ++ c :: t) [c] = Some (List.length s).
Proof.
  intros H. induction s as [|a s IH]; cbn [app last_index_sub List.length].
  - rewrite last_index_byte_none by exact H. cbn [has_prefix]. rewrite Ascii.eqb_refl. destruct t; reflexivity.
  - rewrite IH. reflexivity.
Qed.
Lemma at_last s c : at_ (s ++ [c]) (List.length (s ++ [c]) - 1) = Ok c.
Proof. unfold at_. rewrite app_length. cbn [List.length]. rewrite nth_error_app2 by lia. replace (_ - _) with 0 by lia. reflexivity. Qed.
Lemma parse_value_plain k sep v : (forall c t, trim_space v = c :: t -> c <> "`"%char /\ c <> """"%char) -> forall key,
  parse_value (k ++ sep :: v) (List.length k) key = Ok (LPair key (trim_space (trim_space v))).
Proof.
  intros Hv key. unfold parse_value. rewrite slice_from_ok by (rewrite app_length; cbn [List.length]; lia). cbn [RouterModel.bind]. rewrite Nat.add_1_r, skipn_S_app.
  set (r := trim_space v) in *.
  assert (F : exists f, (if Nat.leb 2 (List.length r) then slice r 0 1 else Ok []) = Ok f /\ beq f back = false).
  { destruct (Nat.leb_spec 2 (List.length r)); [rewrite slice_ok by lia; eexists; split; [reflexivity|]|exists []; split; reflexivity].
    destruct r as [|c t]; [cbn in *; lia|]. cbn [skipn firstn Nat.sub]. destruct (Hv c t eq_refl) as (A & _). apply beq_false. intros E. injection E as E. congruence. }
  destruct F as (f & -> & Hf). cbn [RouterModel.bind]. rewrite Hf.
  assert (T : (if Nat.leb 6 (List.length r) then do p <- slice r 0 3; Ok (beq p quote3) else Ok false) = Ok false).
  { destruct (Nat.leb_spec 6 (List.length r)); [|reflexivity]. rewrite slice_ok by lia. cbn [RouterModel.bind]. f_equal. destruct r as [|c t]; [cbn in *; lia|].
    destruct (Hv c t eq_refl) as (_ & A). apply beq_false. cbn [skipn Nat.sub firstn]. intros E. injection E as E _. congruence. }
  rewrite T. cbn [RouterModel.bind is_nil]. reflexivity.
Qed.
Theorem C58_line_forms l :
  (l = [] -> parse_line l = Ok LSkip) /\
  (forall c t, l = c :: t -> c = "#"%char \/ c = ";"%char -> parse_line l = Ok LSkip) /\
  (forall name, l = bs "[" ++ name ++ bs "]" -> parse_line l = Ok (if is_nil (trim_space name) then LBlankSection else LSection (trim_space name))) /\
  (forall c k sep v, l = (c :: k) ++ sep :: v -> key_char c -> sep = "="%char \/ sep = ":"%char -> ~ In "="%char (c :: k) -> ~ In ":"%char (c :: k) ->
     (forall d t, trim_space v = d :: t -> d <> "`"%char /\ d <> """"%char) ->
     parse_line l = Ok (LPair (trim_space (c :: k)) (trim_space (trim_space v)))) /\
  (forall k v, l = bs "`" ++ k ++ bs "`=`" ++ v ++ bs "`" -> ~ In "`"%char k -> parse_line l = Ok (LPair k v)) /\
  (l <> [] -> ~ (exists c t, l = c :: t /\ ~ key_char c) -> ~ In "="%char l -> ~ In ":"%char l -> parse_line l = Ok LBad).
Proof.
  split; [intros ->; reflexivity|]. split.
  { intros c t -> H. unfold parse_line. cbn [List.length Nat.eqb]. change (at_ (c :: t) 0) with (Ok c). cbn [RouterModel.bind].
    destruct H as [->| ->]; reflexivity. }
  split.
  { intros name ->. unfold parse_line. destruct (Nat.eqb_spec (List.length (bs "[" ++ name ++ bs "]")) 0) as [E|_]; [discriminate E|].
    change (at_ (bs "[" ++ name ++ bs "]") 0) with (Ok "["%char). cbn [RouterModel.bind]. change (Ascii.eqb "[" "#" || Ascii.eqb "[" ";")%bool with false. cbn [RouterModel.bind].
    rewrite (app_assoc (bs "[") name (bs "]")). change (bs "]") with ["]"%char]. rewrite at_last. cbn [RouterModel.bind].
    change (Ascii.eqb "[" "[" && Ascii.eqb "]" "]")%bool with true. cbn match. rewrite <- app_assoc.
    rewrite slice_ok by (rewrite !app_length; cbn; lia). cbn [RouterModel.bind]. change (skipn 1 (bs "[" ++ name ++ ["]"%char])) with (name ++ ["]"%char]).
    replace (List.length (bs "[" ++ name ++ ["]"%char]) - 1 - 1) with (List.length name) by (rewrite !app_length; cbn; lia). rewrite firstn_app_len.
    destruct (is_nil (trim_space name)); reflexivity. }
  split.
  { intros c k sep v -> Hc Hsep H1 H2 Hv. unfold parse_line. destruct (Nat.eqb_spec (List.length ((c :: k) ++ sep :: v)) 0) as [E|_]; [discriminate E|].
    change (at_ ((c :: k) ++ sep :: v) 0) with (Ok c). cbn [RouterModel.bind].
    assert (X : forall d, In d ["#"; ";"; "["; """"; "`"]%char -> Ascii.eqb c d = false).
    { intros d Hd. apply Ascii.eqb_neq. intros ->. exact (Hc Hd). }
    rewrite (X "#"%char) by (cbn; tauto). rewrite (X ";"%char) by (cbn; tauto). cbn [orb].
    destruct (at_ ((c :: k) ++ sep :: v) _) as [cl|] eqn:El; [|exfalso; unfold at_ in El; destruct (nth_error _ _) eqn:En; [discriminate|]; apply nth_error_None in En; cbn [List.length app] in En; lia].
    cbn [RouterModel.bind]. rewrite (X "["%char) by (cbn; tauto). cbn [andb]. destruct (triple_ok ((c :: k) ++ sep :: v)) as (b & -> & _). cbn [RouterModel.bind].
    rewrite (X """"%char) by (cbn; tauto). rewrite (X "`"%char) by (cbn; tauto). cbn [is_nil].
    rewrite (index_any_app (c :: k) sep v eq_colon).
    - cbn [List.length]. rewrite slice_ok by (cbn [List.length app]; rewrite app_length; lia). cbn [RouterModel.bind]. rewrite Nat.sub_0_r. cbn [skipn].
      change (S (List.length k)) with (List.length (c :: k)). rewrite firstn_app_len. apply parse_value_plain. exact Hv.
    - intros d Hd Hin. destruct Hin as [<-|[<-|[]]]; contradiction.
    - destruct Hsep as [->| ->]; cbn; tauto. }
  split.
  { intros k v -> Hk. set (line := bs "`" ++ k ++ bs "`=`" ++ v ++ bs "`"). unfold parse_line.
    assert (Ll : List.length line = List.length k + List.length v + 5) by (unfold line; rewrite !app_length; cbn; lia).
    destruct (Nat.eqb_spec (List.length line) 0) as [E|_]; [lia|]. change (at_ line 0) with (Ok "`"%char). cbn [RouterModel.bind]. change (Ascii.eqb "`" "#" || Ascii.eqb "`" ";")%bool with false. cbn match.
    destruct (at_ line _) as [cl|] eqn:El; [|exfalso; unfold at_ in El; destruct (nth_error _ _) eqn:En; [discriminate|]; apply nth_error_None in En; lia].
    cbn [RouterModel.bind]. change (Ascii.eqb "`" "[") with false. cbn [andb]. destruct (triple_ok line) as (b & -> & _). cbn [RouterModel.bind].
    change (Ascii.eqb "`" """") with false. change (Ascii.eqb "`" "`") with true. cbn match. cbn [is_nil back]. change (is_nil back) with false. cbn match. change (List.length back) with 1.
    rewrite slice_from_ok by lia. cbn [RouterModel.bind]. change (skipn 1 line) with (k ++ "`"%char :: (bs "=`" ++ v ++ bs "`")). change back with ["`"%char].
    rewrite (index_sub_byte "`" k _ Hk). cbn [RouterModel.bind].
    rewrite slice_from_ok by lia. cbn [RouterModel.bind].
    replace (skipn (List.length k + 1) line) with (bs "`=`" ++ v ++ bs "`") by (rewrite Nat.add_comm; change (skipn (1 + List.length k) line) with (skipn (List.length k) (k ++ bs "`=`" ++ v ++ bs "`")); rewrite skipn_app_len; reflexivity).
    change (index_any (bs "`=`" ++ v ++ bs "`") eq_colon) with (Some 1). cbn match.
    rewrite slice_ok by lia. cbn [RouterModel.bind]. change (skipn 1 line) with (k ++ "`"%char :: (bs "=`" ++ v ++ bs "`")).
    replace (List.length k + 1 - 1) with (List.length k) by lia. rewrite firstn_app_len.
    unfold parse_value. rewrite slice_from_ok by lia. cbn [RouterModel.bind].
    replace (skipn (1 + (List.length k + 1) + 1) line) with (bs "`" ++ v ++ bs "`").
    2:{ assert (E : line = (bs "`" ++ k ++ bs "`=") ++ bs "`" ++ v ++ bs "`") by (unfold line; rewrite <- !app_assoc; reflexivity).
        replace (1 + (List.length k + 1) + 1) with (List.length (bs "`" ++ k ++ bs "`=")) by (rewrite !app_length; cbn; lia). rewrite E, skipn_app_len. reflexivity. }
    assert (Tr : trim_space (bs "`" ++ v ++ bs "`") = bs "`" ++ v ++ bs "`") by (apply (trim_space_graphic "`" v "`"); reflexivity).
    rewrite Tr. set (r := bs "`" ++ v ++ bs "`"). assert (Lr : List.length r = List.length v + 2) by (unfold r; rewrite !app_length; cbn; lia).
    destruct (Nat.leb_spec 2 (List.length r)) as [_|H]; [|lia]. rewrite slice_ok by lia. cbn [RouterModel.bind]. change (firstn (1 - 0) (skipn 0 r)) with ["`"%char].
    destruct (triple_ok r) as (b2 & -> & _). cbn [RouterModel.bind]. change (beq ["`"%char] back) with true. cbn match. change (is_nil back) with false. cbn match. change (List.length back) with 1.
    rewrite slice_from_ok by lia. cbn [RouterModel.bind]. change (skipn 1 r) with (v ++ ["`"%char]). change back with ["`"%char]. rewrite last_index_byte by (intros []). cbn match.
    rewrite slice_ok by lia. cbn [RouterModel.bind]. change (skipn 1 r) with (v ++ ["`"%char]). replace (List.length v + 1 - 1) with (List.length v) by lia. rewrite firstn_app_len. reflexivity. }
  intros Hl Hc H1 H2. destruct l as [|c t]; [congruence|]. set (line := c :: t) in *. assert (Kc : ~ ~ key_char c) by (intros X; apply Hc; exists c, t; split; [reflexivity|exact X]).
  assert (X : forall d, In d ["#"; ";"; "["; """"; "`"]%char -> Ascii.eqb c d = false).
  { intros d Hd. apply Ascii.eqb_neq. intros ->. apply Kc. intros K. exact (K Hd). }
  unfold parse_line. destruct (Nat.eqb_spec (List.length line) 0) as [E|_]; [discriminate E|]. change (at_ line 0) with (Ok c). cbn [RouterModel.bind].
  rewrite (X "#"%char) by (cbn; tauto). rewrite (X ";"%char) by (cbn; tauto). cbn [orb].
  destruct (at_ line _) as [cl|] eqn:El; [|exfalso; unfold at_ in El; destruct (nth_error _ _) eqn:En; [discriminate|]; apply nth_error_None in En; unfold line in En; cbn [List.length] in En; lia].
  cbn [RouterModel.bind]. rewrite (X "["%char) by (cbn; tauto). cbn [andb]. destruct (triple_ok line) as (b & -> & _). cbn [RouterModel.bind].
  rewrite (X """"%char) by (cbn; tauto). rewrite (X "`"%char) by (cbn; tauto). cbn [is_nil].
  assert (N : index_any line eq_colon = None).
  { clear - H1 H2. induction line as [|a l IH]; [reflexivity|]. cbn [index_any]. destruct (existsb (Ascii.eqb a) eq_colon) eqn:E.
    - apply existsb_exists in E as (x & Hx & E). apply Ascii.eqb_eq in E. subst x. destruct Hx as [<-|[<-|[]]]; exfalso; [apply H1|apply H2]; left; reflexivity.
    - rewrite IH; [reflexivity| |]; intros Hi; [apply H1|apply H2]; right; exact Hi. }
  rewrite N. reflexivity.
Qed.

(** ** Writing a map and reading it back *)
Definition pair_line (kv : bytes * bytes) : bytes := bs "`" ++ fst kv ++ bs "`=`" ++ snd kv ++ bs "`".
Definition section_lines (s : bytes * list (bytes * bytes)) : list bytes := (bs "[" ++ fst s ++ bs "]") :: map pair_line (snd s).
Definition render (secs : list (bytes * list (bytes * bytes))) : bytes := flat_map (fun l => l ++ [nl]) (flat_map section_lines secs).
Definition pair_ok (kv : bytes * bytes) : Prop :=
  fst kv <> [] /\ fst kv <> bs "-" /\ ~ In "`"%char (fst kv) /\ ~ In nl (fst kv) /\ ~ In nl (snd kv).
Definition section_ok (s : bytes * list (bytes * bytes)) : Prop :=
  fst s <> [] /\ trim_space (fst s) = fst s /\ ~ In nl (fst s) /\ Forall pair_ok (snd s).
(** the last entry for key [k] of section [s] *)
Fixpoint last_given (s k : bytes) (ts : list (bytes * bytes * bytes)) : option bytes :=
  match ts with
  | [] => None
  | (s0, k0, v) :: r => match last_given s k r with Some w => Some w | None => if (beq s0 s && beq k0 k)%bool then Some v else None end
  end.
Definition entries (secs : list (bytes * list (bytes * bytes))) : list (bytes * bytes * bytes) :=
  flat_map (fun s => map (fun kv => (fst s, fst kv, snd kv)) (snd s)) secs.
Definition kinds_of (s : bytes * list (bytes * bytes)) : list line_is := LSection (fst s) :: map (fun kv => LPair (fst kv) (snd kv)) (snd s).
Lemma split_lines ls : Forall (fun l => ~ In nl l) ls -> split_byte nl (flat_map (fun l => l ++ [nl]) ls) = ls ++ [[]].
Proof.
  intros H. induction H as [|l ls Hl H IH]; [reflexivity|]. cbn [flat_map]. rewrite <- app_assoc. cbn [app]. rewrite split_byte_app by exact Hl. rewrite IH. reflexivity.
Qed.
Lemma pair_line_kind kv : pair_ok kv -> parse_line (trim_space (pair_line kv)) = Ok (LPair (fst kv) (snd kv)) /\ ~ In nl (pair_line kv).
Proof.
  intros (_ & _ & Hb & Hn & Hv). split.
  - assert (T : trim_space (pair_line kv) = pair_line kv).
    { unfold pair_line. rewrite !app_assoc. rewrite <- (app_assoc _ _ (bs "`")). rewrite <- !app_assoc.
      assert (X : bs "`" ++ fst kv ++ bs "`=`" ++ snd kv ++ bs "`" = "`"%char :: (fst kv ++ bs "`=`" ++ snd kv) ++ ["`"%char]) by (rewrite <- !app_assoc; reflexivity).
      rewrite X. apply trim_space_graphic; reflexivity. }
    rewrite T. destruct (C58_line_forms (pair_line kv)) as (_ & _ & _ & _ & F & _). apply F; [reflexivity|exact Hb].
  - unfold pair_line. rewrite !in_app_iff. intros [[H|[]]|[H|[[H|[H|[H|[]]]]|[H|[H|[]]]]]]; try (discriminate H); contradiction.
Qed.
Lemma section_line_kind n : n <> [] -> trim_space n = n -> ~ In nl n -> parse_line (trim_space (bs "[" ++ n ++ bs "]")) = Ok (LSection n) /\ ~ In nl (bs "[" ++ n ++ bs "]").
Proof.
  intros Hn Ht Hnl. split.
  - assert (T : trim_space (bs "[" ++ n ++ bs "]") = bs "[" ++ n ++ bs "]") by (apply (trim_space_graphic "[" n "]"); reflexivity). rewrite T.
    destruct (C58_line_forms (bs "[" ++ n ++ bs "]")) as (_ & _ & F & _). rewrite (F n eq_refl), Ht. destruct n; [congruence|reflexivity].
  - rewrite !in_app_iff. intros [[H|[]]|[H|[H|[]]]]; try (discriminate H); contradiction.
Qed.
Lemma render_kinds secs : Forall section_ok secs ->
  Forall2 (fun l k => parse_line (trim_space l) = Ok k) (flat_map section_lines secs) (flat_map kinds_of secs) /\ Forall (fun l => ~ In nl l) (flat_map section_lines secs) /\ Forall fine (flat_map kinds_of secs).
Proof.
  intros H. induction H as [|(n & kvs) secs (A & B & C & D) H (IH1 & IH2 & IH3)]; [repeat split; constructor|]. cbn [flat_map fst snd] in *.
  destruct (section_line_kind n A B C) as (S1 & S2).
  assert (P : Forall2 (fun l k => parse_line (trim_space l) = Ok k) (map pair_line kvs) (map (fun kv => LPair (fst kv) (snd kv)) kvs) /\ Forall (fun l => ~ In nl l) (map pair_line kvs)).
  { induction D as [|kv kvs Hkv D (I1 & I2)]; [split; constructor|]. destruct (pair_line_kind kv Hkv) as (P1 & P2). split; constructor; assumption. }
  destruct P as (P1 & P2). split; [|split].
  - apply Forall2_app; [constructor; assumption|exact IH1].
  - apply Forall_app. split; [constructor; assumption|exact IH2].
  - apply Forall_app. split; [constructor; [exact I|apply Forall_map, Forall_forall; intros; exact I]|exact IH3].
Qed.
Lemma last_value_pairs s k n kvs pre : Forall pair_ok kvs -> forall done, Forall pair_ok done ->
  last_value s k (rev (map (fun kv => LPair (fst kv) (snd kv)) kvs) ++ rev (map (fun kv => LPair (fst kv) (snd kv)) done) ++ LSection n :: pre) =
  match last_given s k (map (fun kv => (n, fst kv, snd kv)) kvs) with
  | Some w => Some w
  | None => last_value s k (rev (map (fun kv => LPair (fst kv) (snd kv)) done) ++ LSection n :: pre)
  end.
Proof.
  intros H. induction H as [|kv kvs Hkv H IH]; intros done_ Hd; [reflexivity|]. cbn [map rev last_given].
  assert (E : rev (map (fun kv => LPair (fst kv) (snd kv)) (done_ ++ [kv])) = LPair (fst kv) (snd kv) :: rev (map (fun kv => LPair (fst kv) (snd kv)) done_)).
  { rewrite map_app, rev_app_distr. reflexivity. }
  specialize (IH (done_ ++ [kv]) (proj2 (Forall_app _ _ _) (conj Hd (Forall_cons _ Hkv (Forall_nil _))))). rewrite E in IH. cbn [app] in IH.
  rewrite <- app_assoc. cbn [app]. rewrite IH. destruct (last_given s k _) as [w|]; [reflexivity|]. cbn [app last_value].
  assert (S1 : section_after (rev (map (fun kv => LPair (fst kv) (snd kv)) done_) ++ LSection n :: pre) = n).
  { assert (Q : forall l, (forall x, In x l -> exists a b, x = LPair a b) -> section_after (l ++ LSection n :: pre) = n).
    { induction l as [|x l IHl]; intros Q; [reflexivity|]. destruct (Q x (or_introl eq_refl)) as (a & b & ->). cbn [app section_after]. apply IHl. intros y Hy. apply Q. right. exact Hy. }
    apply Q. intros x Hx. apply in_rev in Hx. apply in_map_iff in Hx as (y & <- & _). eauto. }
  rewrite S1. destruct Hkv as (_ & Hdash & _). unfold real_key. destruct (beq_spec (fst kv) (bs "-")); [contradiction|]. destruct (_ && _)%bool; reflexivity.
Qed.
Lemma last_given_app s k a b : last_given s k (a ++ b) = match last_given s k b with Some w => Some w | None => last_given s k a end.
Proof. induction a as [|((s0, k0), v) a IH]; cbn [app last_given]; [destruct (last_given s k b); reflexivity|]. rewrite IH. destruct (last_given s k b); reflexivity. Qed.
Lemma last_value_secs s k secs : Forall section_ok secs -> forall pre,
  last_value s k (rev (flat_map kinds_of secs) ++ pre) = match last_given s k (entries secs) with Some w => Some w | None => last_value s k pre end.
Proof.
  intros H. induction H as [|(n & kvs) secs (_ & _ & _ & D) H IH]; intros pre; [reflexivity|]. cbn [flat_map fst snd] in *.
  rewrite rev_app_distr, <- app_assoc, IH. unfold entries. cbn [flat_map fst snd]. fold (entries secs). rewrite last_given_app. destruct (last_given s k (entries secs)) as [w|]; [reflexivity|].
  unfold kinds_of. cbn [fst snd rev]. rewrite <- app_assoc. cbn [app].
  pose proof (last_value_pairs s k n kvs pre D [] (Forall_nil _)) as L. cbn [map rev app] in L. rewrite L. cbn [last_value]. reflexivity.
Qed.
(** the written file loads, with the last entry of every key of every section *)
Theorem C58_round_trip secs : Forall section_ok secs ->
  exists d, load (render secs) false = Ok (inl d) /\ forall s k, k <> [] -> value_in d s k = last_given s k (entries secs).
Proof.
  intros H. destruct (render_kinds secs H) as (A & B & C).
  assert (L : lines_of (render secs) = flat_map section_lines secs ++ [[]]).
  { unfold lines_of, render. etransitivity; [|exact (split_lines _ B)]. f_equal. destruct secs as [|(n & kvs) secs]; reflexivity. }
  assert (K : kinds (lines_of (render secs)) (flat_map kinds_of secs ++ [LSkip])).
  { rewrite L. apply Forall2_app; [exact A|]. constructor; [reflexivity|constructor]. }
  destruct (C58_last_value_wins _ _ K) as (D & _). destruct D as (d & E & V); [apply Forall_app; split; [exact C|constructor; [exact I|constructor]]|].
  exists d. split; [exact E|]. intros s k Hk. rewrite (V s k Hk), rev_app_distr. cbn [rev app last_value].
  pose proof (last_value_secs s k secs H []) as X. rewrite app_nil_r in X. rewrite X. destruct (last_given s k (entries secs)); reflexivity.
Qed.
Lemma last_given_nodup s k v ts : NoDup (map fst ts) -> (last_given s k ts = Some v <-> In (s, k, v) ts).
Proof.
  intros H. induction ts as [|((s0, k0), v0) ts IH]; [split; [discriminate|intros []]|]. cbn [map fst] in H. inversion H as [|? ? Hn H2]. subst. specialize (IH H2). cbn [last_given In].
  destruct (last_given s k ts) as [w|] eqn:E.
  - rewrite IH. split; [tauto|]. intros [X|X]; [|exact X]. injection X as -> -> ->. exfalso. apply Hn.
    assert (Y : forall ts w, last_given s k ts = Some w -> In (s, k) (map fst ts)).
    { clear. induction ts as [|((s1, k1), v1) ts IHt]; intros w; [discriminate|]. cbn [last_given map fst In]. destruct (last_given s k ts) as [w'|]; [intros _; right; exact (IHt _ eq_refl)|].
      destruct (beq_spec s1 s) as [->|_]; [|discriminate]. destruct (beq_spec k1 k) as [->|_]; [intros _; left; reflexivity|discriminate]. }
    exact (Y ts w E).
  - destruct (beq_spec s0 s) as [->|Hs]; [destruct (beq_spec k0 k) as [->|Hk]|]; cbn [andb].
    + split; [intros [= ->]; left; reflexivity|]. intros [X|X]; [congruence|]. apply IH in X. discriminate X.
    + split; [discriminate|]. intros [X|X]; [congruence|]. apply IH in X. discriminate X.
    + split; [discriminate|]. intros [X|X]; [congruence|]. apply IH in X. discriminate X.
Qed.
(** ... so without repeated keys, writing and reading returns the same map *)
Corollary C58_render_and_parse secs : Forall section_ok secs -> NoDup (map fst (entries secs)) ->
  exists d, load (render secs) false = Ok (inl d) /\
    forall s k v, k <> [] -> (value_in d s k = Some v <-> exists kvs, In (s, kvs) secs /\ In (k, v) kvs).
Proof.
  intros H N. destruct (C58_round_trip secs H) as (d & E & V). exists d. split; [exact E|]. intros s k v Hk. rewrite (V s k Hk), (last_given_nodup s k v _ N).
  unfold entries. rewrite in_flat_map. split.
  - intros ((n & kvs) & Hin & X). apply in_map_iff in X as ((k0 & v0) & X & Hkv). cbn [fst snd] in *. injection X as -> -> ->. eauto.
  - intros (kvs & Hin & Hkv). exists (s, kvs). split; [exact Hin|]. apply in_map_iff. exists (k, v). auto.
Qed.
Definition sample_secs : list (bytes * list (bytes * bytes)) :=
  [(bs "default", [(bs "mode", bs "x = y # z"); (bs "na me", bs "")]); (bs "db [main]", [(bs "url", bs " `a`:1 "); (bs "=:", bs "=")])].
Example C58_example : Forall section_ok sample_secs /\ NoDup (map fst (entries sample_secs)) /\
  value_in (match load (render sample_secs) false with Ok (inl d) => d | _ => [] end) (bs "db [main]") (bs "url") = Some (bs " `a`:1 ").
Proof.
  split; [|split].
  - assert (N : forall c s, existsb (Ascii.eqb c) s = false -> ~ In c s).
    { intros c s E Hi. assert (existsb (Ascii.eqb c) s = true) by (apply existsb_exists; exists c; split; [exact Hi|apply Ascii.eqb_refl]). congruence. }
    unfold sample_secs. constructor; [|constructor; [|constructor]]; (split; [discriminate|split; [vm_compute; reflexivity|split; [apply N; vm_compute; reflexivity|]]]);
      cbn [snd]; (constructor; [|constructor; [|constructor]]); (split; [discriminate|split; [discriminate|split; [|split]]]); apply N; vm_compute; reflexivity.
  - vm_compute. repeat (constructor; [intros X; repeat (destruct X as [X|X]; [discriminate X|]); exact X|]). constructor.
  - vm_compute. reflexivity.
Qed.
Definition sample_text : bytes := bs "; comment
mode = dev
[db]
-=a
 - : b
mode = one
mode = two
# mode = three

""quoted : key"" = """"""  text """"""
".
Example C58_example_text : exists d, load sample_text false = Ok (inl d) /\
  value_in d (bs "default") (bs "mode") = Some (bs "dev") /\ value_in d (bs "db") (bs "mode") = Some (bs "two") /\
  value_in d (bs "db") (bs "#1") = Some (bs "a") /\ value_in d (bs "db") (bs "#2") = Some (bs "b") /\
  value_in d (bs "db") (bs "quoted : key") = Some (bs "  text ").
Proof. eexists. split; [vm_compute; reflexivity|]. repeat split; vm_compute; reflexivity. Qed.
Example C59_example : load (bs "[db
") false = Ok (inr ErrParse) /\ load (bs "[  ]") false = Ok (inr ErrBlankSection) /\ load (bs """") false = Ok (inr ErrParse).
Proof. repeat split; vm_compute; reflexivity. Qed.

Print Assumptions C59_loader_total.
Print Assumptions C58_last_value_wins.
Print Assumptions C58_line_forms.
Print Assumptions C58_round_trip.
Print Assumptions C58_render_and_parse.
