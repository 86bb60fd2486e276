(** Props_ConfigExact: exact forms of C60, C61, C101, C102. *)
From Coq Require Import List Ascii String Bool Arith ZArith Lia.
Import ListNotations.
From Verif Require Import GoStr GoPath GoTy GoNum RouterModel ConvModel ConvFacts ConfigModel Props_Config Props_ConfigFind.

(** ** C60 *)
(** with a Configer: the first of the environment's value, the config's and its parents'
    values and the default that is not empty; without one always the empty string *)
Theorem C60_default_exact env c name def s k : means name s k ->
  app_find env c name def =
  match c with
  | None => []
  | Some c => first_nonempty ((if is_nil k then [] else env (env_key s k) :: map (fun d => value d (section_of s) k) (stack c))
                              ++ match def with Some d => [d] | None => [] end)
  end.
Proof.
  intros M. destruct c as [c|]; [|reflexivity]. cbn [app_find]. rewrite (C57_first_nonempty env c name s k M).
  set (l := env (env_key s k) :: map (fun d => value d (section_of s) k) (stack c)). cbv zeta.
  assert (H : forall m, first_nonempty (m ++ match def with Some d => [d] | None => [] end) =
                        match first_nonempty m, def with [], Some d => d | v, _ => v end).
  { induction m as [|[|a v] m IH]; cbn [app first_nonempty]; [destruct def as [[|d0 d]|]; reflexivity|exact IH|reflexivity]. }
  rewrite H. destruct (is_nil k); [cbn [first_nonempty]; destruct def; reflexivity|]. destruct (first_nonempty l); [|reflexivity]. destruct def; reflexivity.
Qed.
Example C60_exact_example : means (bs "b") [] (bs "b") /\ app_find t_env (Some t_conf) (bs "b") (Some (bs "z")) = bs "own" /\
  app_find t_env (Some t_conf) (bs "c") (Some (bs "z")) = bs "z" /\ app_find t_env None (bs "b") (Some (bs "z")) = [].
Proof.
  split; [|vm_compute; auto]. apply m_key. intros a b H. apply (f_equal (@List.length ascii)) in H. rewrite !app_length in H. cbn in H. lia.
Qed.

(** ** C61 *)
Section Bind.
  Variable env : bytes -> bytes.
  Variable F : Type.
  Variable fzero : F.
  Variable parse_float : nat -> bytes -> option F.
  Notation bindv := (ConfigModel.bind env F fzero parse_float).
  Notation reads := (reads F fzero parse_float).

  (** the type at the end of the pointers *)
  Fixpoint base (t : gty) : gty := match t with TPtr u => base u | _ => t end.
  (** other slices, and pointers to pointers to something Bind knows *)
  Definition clashes (t : gty) : Prop :=
    base t = TSliceOther \/ (exists u, t = TPtr (TPtr u)) /\ base t <> TOther.
  (** Go's integers have at least 2 bits *)
  Definition real (t : gty) : Prop := match base t with TInt w | TUint w => 2 <= w | _ => True end.
  (** what Bind(&x, name) makes of [x] when the value is [p] *)
  Inductive takes (p : bytes) (x : var F) : var F -> Prop :=
  | tk_empty : p = [] -> takes p x x
  | tk_unknown : base (var_type F x) = TOther -> takes p x x
  | tk_value : forall v, p <> [] -> reads (var_type F x) p v -> type_of F v = var_type F x -> takes p x (VVal F v)
  | tk_ptr : forall t v, p <> [] -> var_type F x = TPtr t -> reads t p v -> type_of F v = t -> takes p x (VTo F (VVal F v)).
  Lemma indirect_base t : indirect t = base t.
  Proof. induction t; cbn [indirect base]; auto. Qed.
  Lemma ptr_neq t : t <> TPtr t.
  Proof. intros Ed. apply (f_equal (fix sz (t : gty) : nat := match t with TPtr u => S (sz u) | _ => 0 end)) in Ed. lia. Qed.
  Theorem C61_bind_exact c x name : real (var_type F x) ->
    (conf_find env c name <> [] /\ clashes (var_type F x) /\ bindv (Some c) x name = Panic) \/
    (~ (conf_find env c name <> [] /\ clashes (var_type F x)) /\
     exists x', bindv (Some c) x name = Ok x' /\ takes (conf_find env c name) x x').
  Proof.
    intros R. unfold ConfigModel.bind. destruct (C60_default_partial env c name []) as (_ & ->). generalize (conf_find env c name). intros P.
    destruct (is_nil P) eqn:Ep.
    { right. assert (P = []) by (destruct P; [reflexivity|discriminate]). split; [tauto|]. exists x. split; [reflexivity|apply tk_empty; assumption]. }
    assert (Hp : P <> []) by (intros ->; discriminate). clear Ep.
    assert (Cs : forall t, convert_as F fzero parse_float P t = convert_as F fzero parse_float P (base t)).
    { intros t. assert (B : indirect (base t) = indirect t) by (induction t; cbn [base indirect]; auto). unfold convert_as. rewrite B. reflexivity. }
    assert (NP : forall t u, base t <> TPtr u) by (induction t; cbn [base]; intros; try discriminate; auto).
    rewrite Cs. unfold real in R.
    assert (K : base (var_type F x) = TSliceOther \/ base (var_type F x) = TOther \/
                exists v, convert_as F fzero parse_float P (base (var_type F x)) = Ok (Some v) /\ reads (base (var_type F x)) P v /\ type_of F v = base (var_type F x) /\
                          base (var_type F x) <> TSliceOther /\ base (var_type F x) <> TOther).
    { destruct (base (var_type F x)) as [| | | | | | | | |t0|] eqn:Eb; auto; try (exfalso; apply (NP _ _ Eb)); right; right;
        (match goal with |- context [convert_as _ _ _ _ ?b] => destruct (convert_as_reads F fzero parse_float b P R) as (o & E & Rd & T) end;
         destruct o as [v|]; [exists v; repeat split; auto; discriminate|discriminate E]). }
    destruct K as [Eb|[Eb|(v & E & Rd & T & N1 & N2)]].
    - rewrite Eb. left. split; [exact Hp|]. split; [left; exact Eb|]. reflexivity.
    - rewrite Eb. right. split; [intros (_ & [H|(_ & H)]); congruence|]. exists x. split; [reflexivity|]. apply tk_unknown. exact Eb.
    - rewrite E. cbn [RouterModel.bind].
      assert (Dec : (exists u, var_type F x = TPtr (TPtr u)) \/ (exists u, var_type F x = TPtr u /\ base u = u) \/ base (var_type F x) = var_type F x /\ (forall u, var_type F x <> TPtr u)).
      { destruct (var_type F x) as [| | | | | | | | |[| | | | | | | | |u|]|]; cbn [base]; eauto 6; right; right; split; try reflexivity; discriminate. }
      destruct Dec as [(u & Et)|[(u & Et & Eu)|(Et & Nu)]].
      + left. split; [exact Hp|]. split; [right; eauto|]. rewrite Et. unfold gty_eqb. destruct (gty_eq_dec (type_of F v) (TPtr u)) as [X|]; [|reflexivity].
        rewrite T in X. exfalso. apply (NP _ _ X).
      + right. rewrite Et in T, Rd, N1 |- *. cbn [base] in T, Rd, N1. rewrite Eu in T, Rd, N1. rewrite T, gty_eqb_refl.
        split; [intros (_ & [H|((w & H) & _)]); [cbn [base] in H; congruence|]|].
        * injection H as ->. apply (NP _ _ Eu).
        * eexists. split; [reflexivity|]. eapply tk_ptr; [exact Hp|exact Et|exact Rd|exact T].
      + right. rewrite Et in T, Rd. split; [intros (_ & [H|((w & H) & _)]); [congruence|apply (Nu _ H)]|].
        exists (VVal F v). split.
        * destruct (var_type F x) as [| | | | | | | | |u|] eqn:Ev; try (rewrite T, gty_eqb_refl; reflexivity). exfalso. apply (Nu u eq_refl).
        * apply tk_value; assumption.
  Qed.
End Bind.

Example C61_exact_example : let c := Conf [(bs "default", [(bs "n", bs "17")])] None in
  real (TPtr (TPtr (TInt 64))) /\ clashes (TPtr (TPtr (TInt 64))) /\ conf_find t_env c (bs "n") <> [] /\ ~ clashes (TPtr (TPtr TOther)) /\ ~ clashes (TPtr (TInt 8)).
Proof.
  cbv zeta. split; [cbn; lia|]. split; [right; split; [eexists; reflexivity|discriminate]|]. split; [vm_compute; discriminate|].
  split; [intros [H|(_ & H)]; [discriminate H|apply H; reflexivity]|]. intros [H|((u & H) & _)]; discriminate H.
Qed.

(** ** C102 *)
Section Decode.
  Variable env : bytes -> bytes.
  Variable F : Type.
  Variable fzero : F.
  Variable parse_float : nat -> bytes -> option F.
  Notation fval := (ConfigModel.fval F).
  Notation field := (ConfigModel.field F).
  Notation Fld := (ConfigModel.Fld F).
  Notation FStruct := (ConfigModel.FStruct F).
  Notation FVar := (ConfigModel.FVar F).
  Notation decode := (decode_val env F fzero parse_float).
  Notation name_at := (name_at F).
  Notation var_at := (var_at F).

  Definition tagged (tag : bytes) : Prop := tag <> [] /\ tag <> bs "-".
  (** a variable Bind cannot set although there is a value *)
  Definition stuck (c : conf) (x : var F) (name : bytes) : Prop := conf_find env c name <> [] /\ clashes (var_type F x).
  (** what makes Decode panic *)
  Inductive crashes (c : conf) : list field -> Prop :=
  | cr_embedded : forall fs tag gs, In (Fld true false tag (FStruct gs)) fs -> crashes c fs
  | cr_inside : forall fs tag gs, In (Fld true true tag (FStruct gs)) fs -> crashes c gs -> crashes c fs
  | cr_var : forall fs a tag x, In (Fld a false tag (FVar x)) fs -> tagged tag -> crashes c fs
  | cr_type : forall fs a tag x, In (Fld a true tag (FVar x)) fs -> tagged tag -> stuck c x tag -> crashes c fs
  | cr_section : forall fs e tag gs a e' tag' w, In (Fld false e tag (FStruct gs)) fs -> tagged tag -> In (Fld a e' tag' w) gs -> tagged tag' ->
      e = false \/ e' = false -> crashes c fs
  | cr_section_type : forall fs e tag gs a e' tag' x, In (Fld false e tag (FStruct gs)) fs -> tagged tag -> In (Fld a e' tag' (FVar x)) gs -> tagged tag' ->
      stuck c x (tag ++ bs "::" ++ tag') -> crashes c fs.
  (** every variable with a config name is bound to it, the others are left alone *)
  Definition decoded (c : conf) (sec : option bytes) (v v' : fval) : Prop := forall p,
    match var_at v p with
    | None => var_at v' p = None
    | Some x => exists x', var_at v' p = Some x' /\
        match name_at sec v p with
        | Some n => takes F fzero parse_float (conf_find env c n) x x'
        | None => x' = x
        end
    end.
  (** the variables' types exist *)
  Definition all_real (v : fval) : Prop := forall p x, var_at v p = Some x -> real (var_type F x).
  Lemma skipped_tagged tag : skipped tag = false <-> tagged tag.
  Proof.
    unfold tagged. split.
    - intros H. split; intros ->; vm_compute in H; discriminate.
    - intros (A & B). destruct (skipped tag) eqn:E; [|reflexivity]. apply skipped_spec in E as [E|E]; congruence.
  Qed.
  Lemma decoded_lift c sec fs fs' : Forall2 (fun f f' => decoded c sec (FStruct [f]) (FStruct [f'])) fs fs' -> decoded c sec (FStruct fs) (FStruct fs').
  Proof.
    intros H p. destruct p as [|i p]; [reflexivity|].
    assert (X : match nth_error fs i with
                | None => nth_error fs' i = None
                | Some f => exists f', nth_error fs' i = Some f' /\ decoded c sec (FStruct [f]) (FStruct [f']) end).
    { revert i. induction H as [|f f' fs fs' Hf H IH]; intros [|i]; cbn [nth_error]; [reflexivity|reflexivity|exists f'; split; [reflexivity|exact Hf]|apply IH]. }
    cbn [Props_ConfigFind.var_at Props_ConfigFind.name_at]. destruct (nth_error fs i) as [[a e t w]|].
    - destruct X as ([a' e' t' w'] & -> & Hf). specialize (Hf (0 :: p)). cbn [Props_ConfigFind.var_at Props_ConfigFind.name_at nth_error] in Hf. exact Hf.
    - rewrite X. reflexivity.
  Qed.
  Lemma decoded_same c sec v : (forall p, name_at sec v p = None) -> decoded c sec v v.
  Proof. intros H p. destruct (var_at v p) eqn:E; [|reflexivity]. rewrite H. eauto. Qed.
  Lemma bind_decoded c sec a e tag x : real (var_type F x) -> skipped tag = false ->
    let n := match sec with None => tag | Some s => s ++ bs "::" ++ tag end in
    (stuck c x n /\ ConfigModel.bind env F fzero parse_float (Some c) x n = Panic) \/
    (~ stuck c x n /\ exists x', ConfigModel.bind env F fzero parse_float (Some c) x n = Ok x' /\
      decoded c sec (FStruct [Fld a e tag (FVar x)]) (FStruct [Fld a e tag (FVar x')])).
  Proof.
    intros R Hs n. unfold skipped in Hs.
    assert (N : name_at sec (FStruct [Fld a e tag (FVar x)]) [0] = Some n).
    { cbn [Props_ConfigFind.name_at nth_error]. rewrite Hs. unfold n. destruct sec; reflexivity. }
    destruct (C61_bind_exact env F fzero parse_float c x n R) as [(A & B & C)|(A & x' & E & B)]; [left; split; [split; assumption|exact C]|].
    right. split; [exact A|]. exists x'. split; [exact E|]. intros [|[|i] p]; [reflexivity| |destruct i; reflexivity]. destruct p as [|j p]; [|reflexivity].
    rewrite N. exists x'. split; [reflexivity|exact B].
  Qed.
  Lemma all_real_nth fs i f : all_real (FStruct fs) -> nth_error fs i = Some f -> all_real (FStruct [f]).
  Proof.
    intros H Hi p x. destruct p as [|[|j] p]; [discriminate| |destruct j; discriminate]. intros A. apply (H (i :: p) x). cbn [Props_ConfigFind.var_at nth_error] in *. rewrite Hi. exact A.
  Qed.
  (** what makes a section panic *)
  Definition sec_crashes (c : conf) (ro : bool) (sec : bytes) (gs : list field) : Prop :=
    exists a e tag w, In (Fld a e tag w) gs /\ tagged tag /\
      (ro = true \/ e = false \/ exists x, w = FVar x /\ stuck c x (sec ++ bs "::" ++ tag)).
  Lemma section_exact c ro sec gs : all_real (FStruct gs) ->
    (sec_crashes c ro sec gs /\ parse_section env F fzero parse_float (Some c) ro gs sec = Panic) \/
    (~ sec_crashes c ro sec gs /\ exists gs', parse_section env F fzero parse_float (Some c) ro gs sec = Ok gs' /\ decoded c (Some sec) (FStruct gs) (FStruct gs')).
  Proof.
    intros R.
    assert (G : (sec_crashes c ro sec gs /\ parse_section env F fzero parse_float (Some c) ro gs sec = Panic) \/
      (~ sec_crashes c ro sec gs /\ exists gs', parse_section env F fzero parse_float (Some c) ro gs sec = Ok gs' /\
         Forall2 (fun f f' => decoded c (Some sec) (FStruct [f]) (FStruct [f'])) gs gs')).
    2:{ destruct G as [G|(N & gs' & E & H)]; [left; exact G|right]. split; [exact N|]. exists gs'. split; [exact E|]. apply decoded_lift. exact H. }
    induction gs as [|[a e tag w] gs IH].
    { right. split; [intros (a & e & tag & w & [] & _)|]. exists []. split; [reflexivity|constructor]. }
    assert (R' : all_real (FStruct gs)) by (intros p x A; destruct p as [|i p]; [discriminate|]; apply (R (S i :: p) x A)). specialize (IH R').
    pose proof (all_real_nth _ 0 _ R eq_refl) as R0. cbn [parse_section].
    assert (Tl : sec_crashes c ro sec gs -> sec_crashes c ro sec (Fld a e tag w :: gs)).
    { intros (a' & e' & tag' & w' & Hin & X). exists a', e', tag', w'. split; [right; exact Hin|exact X]. }
    assert (Hd : sec_crashes c ro sec (Fld a e tag w :: gs) -> sec_crashes c ro sec gs \/ (tagged tag /\ (ro = true \/ e = false \/ exists x, w = FVar x /\ stuck c x (sec ++ bs "::" ++ tag)))).
    { intros (a' & e' & tag' & w' & [E|Hin] & X); [injection E as -> -> -> ->; right; exact X|left; exists a', e', tag', w'; auto]. }
    assert (Fin : forall w', decoded c (Some sec) (FStruct [Fld a e tag w]) (FStruct [Fld a e tag w']) ->
              ~ (tagged tag /\ (ro = true \/ e = false \/ exists x, w = FVar x /\ stuck c x (sec ++ bs "::" ++ tag))) ->
              (sec_crashes c ro sec (Fld a e tag w :: gs) /\ RouterModel.bind (parse_section env F fzero parse_float (Some c) ro gs sec) (fun rest' => Ok (Fld a e tag w' :: rest')) = Panic) \/
              (~ sec_crashes c ro sec (Fld a e tag w :: gs) /\ exists gs', RouterModel.bind (parse_section env F fzero parse_float (Some c) ro gs sec) (fun rest' => Ok (Fld a e tag w' :: rest')) = Ok gs' /\
                 Forall2 (fun f f' => decoded c (Some sec) (FStruct [f]) (FStruct [f'])) (Fld a e tag w :: gs) gs')).
    { intros w' D N. destruct IH as [(C & E)|(C & gs' & E & H)]; rewrite E; cbn [RouterModel.bind].
      - left. auto.
      - right. split; [intros X; destruct (Hd X); contradiction|]. eexists. split; [reflexivity|]. constructor; assumption. }
    destruct (skipped tag) eqn:Es.
    - cbn [RouterModel.bind]. apply Fin.
      + apply decoded_same. intros [|[|i] p]; [reflexivity| |destruct i; reflexivity]. cbn [Props_ConfigFind.name_at nth_error]. fold (skipped tag). rewrite Es. destruct w; reflexivity.
      + intros (T & _). apply skipped_tagged in T. congruence.
    - assert (T : tagged tag) by (apply skipped_tagged; exact Es). destruct (ro || negb e)%bool eqn:Ro.
      + left. split; [|reflexivity]. exists a, e, tag, w. split; [left; reflexivity|]. split; [exact T|]. destruct ro; [auto|]. destruct e; [discriminate Ro|auto].
      + apply orb_false_iff in Ro as (-> & Ee). apply negb_false_iff in Ee. subst e. destruct w as [hs|x].
        * cbn [bind_field convert_as indirect RouterModel.bind]. apply Fin.
          -- apply decoded_same. intros [|[|i] p]; [reflexivity|reflexivity|destruct i; reflexivity].
          -- intros (_ & [X|[X|(x & X & _)]]); discriminate X.
        * assert (Rx : real (var_type F x)) by (apply (R0 [0] x); reflexivity).
          cbn [bind_field]. destruct (bind_decoded c (Some sec) a true tag x Rx Es) as [(S & E)|(S & x' & E & D)]; rewrite E; cbn [RouterModel.bind].
          -- left. split; [|reflexivity]. exists a, true, tag, (FVar x). split; [left; reflexivity|]. split; [exact T|]. right. right. exists x. split; [reflexivity|exact S].
          -- apply Fin; [exact D|]. intros (_ & [X|[X|(y & X & Y)]]); [discriminate X|discriminate X|]. injection X as <-. exact (S Y).
  Qed.
  Lemma crashes_incl c fs fs' : incl fs fs' -> crashes c fs -> crashes c fs'.
  Proof.
    intros I C. destruct C as [fs tag gs H|fs tag gs H H1|fs a tag x H H1|fs a tag x H H1 H2|fs e tag gs a e' tag' w H H1 H2 H3 H4|fs e tag gs a e' tag' x H H1 H2 H3 H4]; apply I in H.
    - exact (cr_embedded c _ _ _ H).
    - exact (cr_inside c _ _ _ H H1).
    - exact (cr_var c _ _ _ _ H H1).
    - exact (cr_type c _ _ _ _ H H1 H2).
    - exact (cr_section c _ _ _ _ _ _ _ _ H H1 H2 H3 H4).
    - exact (cr_section_type c _ _ _ _ _ _ _ _ H H1 H2 H3 H4).
  Qed.
  Lemma crashes_cons c f fs : crashes c (f :: fs) -> crashes c [f] \/ crashes c fs.
  Proof.
    intros C. remember (f :: fs) as l eqn:E. destruct C as [l tag gs H|l tag gs H H1|l a tag x H H1|l a tag x H H1 H2|l e tag gs a e' tag' w H H1 H2 H3 H4|l e tag gs a e' tag' x H H1 H2 H3 H4];
      subst l; (assert (H' : In _ [f] \/ In _ fs) by (destruct H as [H|H]; [left; left; exact H|right; exact H])); clear H; (destruct H' as [H|H]; [left|right]).
    1,2: exact (cr_embedded c _ _ _ H).
    1,2: exact (cr_inside c _ _ _ H H1).
    1,2: exact (cr_var c _ _ _ _ H H1).
    1,2: exact (cr_type c _ _ _ _ H H1 H2).
    1,2: exact (cr_section c _ _ _ _ _ _ _ _ H H1 H2 H3 H4).
    1,2: exact (cr_section_type c _ _ _ _ _ _ _ _ H H1 H2 H3 H4).
  Qed.
  (** Decode panics exactly for these; otherwise every variable with a name is bound to it
      and nothing else changes *)
  Theorem C102_decode_exact c fs : all_real (FStruct fs) ->
    (crashes c fs /\ decode (Some c) (FStruct fs) = Panic) \/
    (~ crashes c fs /\ exists fs', decode (Some c) (FStruct fs) = Ok (FStruct fs') /\ decoded c None (FStruct fs) (FStruct fs')).
  Proof.
    assert (G : forall v, all_real v -> match v with
      | ConfigModel.FVar _ _ => True
      | ConfigModel.FStruct _ fs => (crashes c fs /\ decode (Some c) (FStruct fs) = Panic) \/
          (~ crashes c fs /\ exists fs', decode (Some c) (FStruct fs) = Ok (FStruct fs') /\ decoded c None (FStruct fs) (FStruct fs')) end).
    2:{ exact (G (FStruct fs)). }
    clear fs. intros v. induction v as [x|fs IHfs] using fval_deep; intros R; [exact I|].
    cbn [decode_val]. set (go := fix go (fs : list field) : res (list field) := _).
    assert (G : (crashes c fs /\ go fs = Panic) \/ (~ crashes c fs /\ exists fs', go fs = Ok fs' /\ Forall2 (fun f f' => decoded c None (FStruct [f]) (FStruct [f'])) fs fs')).
    2:{ destruct G as [(C & ->)|(C & fs' & -> & H)]; cbn [RouterModel.bind]; [left; auto|right]. split; [exact C|]. exists fs'. split; [reflexivity|]. apply decoded_lift. exact H. }
    induction IHfs as [|[a e tag w] fs Hw IHfs IH].
    { right. split; [|exists []; split; [reflexivity|constructor]]. intros C. inversion C; subst; match goal with H : In _ [] |- _ => destruct H end. }
    assert (R' : all_real (FStruct fs)) by (intros p x A; destruct p as [|i p]; [discriminate|]; apply (R (S i :: p) x A)). specialize (IH R').
    pose proof (all_real_nth _ 0 _ R eq_refl) as R0.
    assert (Tl : crashes c fs -> crashes c (Fld a e tag w :: fs)) by (apply crashes_incl; intros y Hy; right; exact Hy).
    set (here := crashes c [Fld a e tag w]).
    assert (Hh : here -> crashes c (Fld a e tag w :: fs)) by (apply crashes_incl; intros y [Hy|[]]; left; exact Hy).
    assert (Hd : crashes c (Fld a e tag w :: fs) -> here \/ crashes c fs) by (apply crashes_cons).
    assert (Fin : forall w', decoded c None (FStruct [Fld a e tag w]) (FStruct [Fld a e tag w']) -> ~ here ->
              (crashes c (Fld a e tag w :: fs) /\ RouterModel.bind (go fs) (fun rest' => Ok (Fld a e tag w' :: rest')) = Panic) \/
              (~ crashes c (Fld a e tag w :: fs) /\ exists fs', RouterModel.bind (go fs) (fun rest' => Ok (Fld a e tag w' :: rest')) = Ok fs' /\
                 Forall2 (fun f f' => decoded c None (FStruct [f]) (FStruct [f'])) (Fld a e tag w :: fs) fs')).
    { intros w' D N. destruct IH as [(C & E)|(C & fs' & E & H)]; rewrite E; cbn [RouterModel.bind].
      - left. auto.
      - right. split; [intros X; destruct (Hd X); contradiction|]. eexists. split; [reflexivity|]. constructor; assumption. }
    cbn [go]. destruct w as [gs|x].
    - assert (Rg : all_real (FStruct gs)) by (intros p x A; apply (R0 (0 :: p) x); exact A).
      destruct a.
      + destruct e.
        * destruct (Hw Rg) as [(C & E)|(C & gs' & E & D)]; rewrite E; cbn [RouterModel.bind].
          -- left. split; [|reflexivity]. apply Hh. eapply cr_inside; [left; reflexivity|exact C].
          -- apply Fin.
             ++ intros [|[|i] p]; [reflexivity| |destruct i; reflexivity]. exact (D p).
             ++ intros X. inversion X; subst; match goal with H : In _ [_] |- _ => destruct H as [H|[]]; try discriminate H end.
                match goal with H : Fld _ _ _ _ = Fld _ _ _ _ |- _ => injection H as -> -> end. contradiction.
        * left. split; [|reflexivity]. apply Hh. eapply cr_embedded. left. reflexivity.
      + destruct (skipped tag) eqn:Es.
        * cbn [RouterModel.bind]. apply Fin.
          -- apply decoded_same. intros [|[|i] p]; [reflexivity| |destruct i; reflexivity]. cbn [Props_ConfigFind.name_at nth_error]. fold (skipped tag). rewrite Es. reflexivity.
          -- intros X. inversion X; subst; match goal with H : In _ [_] |- _ => destruct H as [H|[]]; try discriminate H; injection H as -> -> end;
               match goal with T : tagged _ |- _ => apply skipped_tagged in T; congruence end.
        * assert (T : tagged tag) by (apply skipped_tagged; exact Es). pose proof Es as Es'. unfold skipped in Es'.
          destruct (section_exact c (negb e) tag gs Rg) as [(C & E)|(C & gs' & E & D)]; rewrite E; cbn [RouterModel.bind].
          -- left. split; [|reflexivity]. apply Hh. destruct C as (a' & e' & tag' & w' & Hin & T' & [X|[X|(x & -> & S)]]).
             ++ eapply cr_section; [left; reflexivity|exact T|exact Hin|exact T'|]. left. destruct e; [discriminate X|reflexivity].
             ++ eapply cr_section; [left; reflexivity|exact T|exact Hin|exact T'|]. right. exact X.
             ++ eapply cr_section_type; [left; reflexivity|exact T|exact Hin|exact T'|exact S].
          -- apply Fin.
             ++ intros [|[|i] p]; [reflexivity| |destruct i; reflexivity]. specialize (D p). cbn [Props_ConfigFind.var_at Props_ConfigFind.name_at nth_error]. rewrite Es'. exact D.
             ++ intros X. apply C. inversion X; subst; match goal with H : In _ [_] |- _ => destruct H as [H|[]]; try discriminate H end;
                  match goal with H : Fld _ _ _ _ = Fld _ _ _ _ |- _ => injection H as -> -> -> end.
                ** eexists _, _, _, _. split; [eassumption|]. split; [eassumption|]. match goal with H : _ \/ _ |- _ => destruct H as [->| ->] end; cbn [negb]; auto.
                ** eexists _, _, _, _. split; [eassumption|]. split; [eassumption|]. right. right. eauto.
    - assert (Rx : real (var_type F x)) by (apply (R0 [0] x); reflexivity).
      destruct (skipped tag) eqn:Es.
      + cbn [RouterModel.bind]. apply Fin.
        * apply decoded_same. intros [|[|i] p]; [reflexivity| |destruct i; reflexivity]. cbn [Props_ConfigFind.name_at nth_error]. fold (skipped tag). rewrite Es. reflexivity.
        * intros X. inversion X; subst; match goal with H : In _ [_] |- _ => destruct H as [H|[]]; try discriminate H; injection H; intros; subst end;
            match goal with T : tagged _ |- _ => apply skipped_tagged in T; congruence end.
      + assert (T : tagged tag) by (apply skipped_tagged; exact Es). destruct e; cbn [negb].
        * cbn [bind_field]. destruct (bind_decoded c None a true tag x Rx Es) as [(S & E)|(S & x' & E & D)]; rewrite E; cbn [RouterModel.bind].
          -- left. split; [|reflexivity]. apply Hh. eapply cr_type; [left; reflexivity|exact T|exact S].
          -- apply Fin; [exact D|]. intros X. inversion X; subst; match goal with H : In _ [_] |- _ => destruct H as [H|[]]; try discriminate H end.
             match goal with H : Fld _ _ _ _ = Fld _ _ _ _ |- _ => injection H as -> -> -> end. contradiction.
        * left. split; [|reflexivity]. apply Hh. eapply cr_var; [left; reflexivity|exact T].
  Qed.
End Decode.
Example C102_exact_example : all_real unit t_struct /\
  (~ crashes t_env unit t_conf [Fld unit false false [] (FVar unit (VVal unit (VStr unit [])))]) /\
  crashes t_env unit t_conf [Fld unit false true (bs "db") (FStruct unit [Fld unit false false (bs "a") (FVar unit (VVal unit (VStr unit [])))])] /\
  crashes t_env unit t_conf [Fld unit true true [] (FStruct unit [Fld unit false true (bs "b") (FVar unit (VNil unit (TPtr TString)))])].
Proof.
  split; [|split; [|split]].
  - intros p x H. destruct p as [|[|[|[|[|i]]]] [|[|j] [|k p]]]; cbn in H; try discriminate H; try (destruct i; discriminate H); try (destruct j; discriminate H); injection H as <-; exact I.
  - intros C. inversion C as [? ? ? H|? ? ? H|? ? ? ? H T|? ? ? ? H T|? ? ? ? ? ? ? ? H|? ? ? ? ? ? ? ? H]; subst; destruct H as [H|[]]; try discriminate H.
    injection H as _ <- _. destruct T as (T & _). apply T. reflexivity.
  - eapply cr_section; [left; reflexivity|split; discriminate|left; reflexivity|split; discriminate|right; reflexivity].
  - eapply cr_inside; [left; reflexivity|]. eapply cr_type; [left; reflexivity|split; discriminate|]. split; [vm_compute; discriminate|]. right. split; [eexists; reflexivity|discriminate].
Qed.

(** ** C101 *)
(** Set appends the whole argument once per non-blank part, and so what it should only if
    there is no such part or the argument is a single trimmed part *)
Theorem C101_set_exact s v :
  slice_value_set s v = s ++ repeat v (List.length (split_list v)) /\
  (slice_value_set s v = s ++ split_list v <-> split_list v = [] \/ (~ In ","%char v /\ trim_space v = v)).
Proof.
  assert (E : slice_value_set s v = s ++ repeat v (List.length (split_list v))).
  { unfold slice_value_set, split_list. f_equal. generalize (split_byte "," v). intros l. induction l as [|p l IH]; [reflexivity|]. cbn [flat_map map filter]. rewrite IH.
    destruct (is_nil (trim_space p)); reflexivity. }
  split; [exact E|]. split.
  - rewrite E. intros H. apply app_inv_head in H. destruct (split_list v) as [|a l] eqn:L; [left; reflexivity|right].
    cbn [List.length repeat] in H. injection H as <- H.
    assert (Hin : In v (split_list v)) by (rewrite L; left; reflexivity). unfold split_list in Hin. apply filter_In in Hin as (Hin & _). apply in_map_iff in Hin as (p & Hp & Hin).
    assert (Nc : ~ In ","%char v).
    { intros X. apply split_byte_clean in Hin. apply Hin. rewrite <- Hp in X. destruct (trim_space_infix p) as (l1 & l2 & E2). rewrite E2. apply in_app_iff. right. apply in_app_iff. left. exact X. }
    split; [exact Nc|]. rewrite split_byte_nosep in Hin by exact Nc. destruct Hin as [<-|[]]. exact Hp.
  - intros [H|(A & B)]; [rewrite E, H; reflexivity|]. apply C101_set_partial; assumption.
Qed.
Example C101_exact_example : split_list (bs " a , ,b") = [bs "a"; bs "b"] /\ slice_value_set [bs "x"] (bs " a , ,b") = [bs "x"; bs " a , ,b"; bs " a , ,b"] /\ split_list (bs " , ") = [].
Proof. split; [vm_compute; reflexivity|]. split; vm_compute; reflexivity. Qed.

(** String joins with commas: it undoes splitting *)
Theorem C101_string_exact v s :
  slice_value_string (split_byte "," v) = v /\ slice_value_string [] = [] /\ (s <> [] -> Forall (fun p => ~ In ","%char p) s -> split_byte "," (slice_value_string s) = s).
Proof.
  split; [|split; [reflexivity|]].
  - unfold slice_value_string. apply (join_split "," v).
  - intros N F. unfold slice_value_string. apply (split_join ","); [exact N|]. exact F.
Qed.
Example C101_string_example : slice_value_string [bs "a"; bs "b c"; []] = bs "a,b c,".
Proof. reflexivity. Qed.

(** ** C62: the standard files, in order. Each directory has a plain and a mode file of each name. *)
Theorem C62_files_in_order app mode exe wd dir :
  let at_ d f := path_clean_rooted (d ++ bs "/" ++ f) in
  let m name := name ++ bs "." ++ mode ++ bs ".ini" in
  let d := path_clean_rooted dir in
  (dir = [] -> standard_files app mode (dirs_of exe wd dir) =
     [at_ exe (bs "default.ini"); at_ exe (m (bs "default")); at_ wd (bs "default.ini"); at_ wd (m (bs "default"));
      at_ exe (app ++ bs ".ini"); at_ exe (m app); at_ wd (app ++ bs ".ini"); at_ wd (m app);
      at_ exe (bs "override.ini"); at_ exe (m (bs "override")); at_ wd (bs "override.ini"); at_ wd (m (bs "override"))]) /\
  (dir <> [] -> standard_files app mode (dirs_of exe wd dir) =
     [at_ exe (bs "default.ini"); at_ exe (m (bs "default")); at_ wd (bs "default.ini"); at_ wd (m (bs "default")); at_ d (bs "default.ini"); at_ d (m (bs "default"));
      at_ exe (app ++ bs ".ini"); at_ exe (m app); at_ wd (app ++ bs ".ini"); at_ wd (m app); at_ d (app ++ bs ".ini"); at_ d (m app);
      at_ exe (bs "override.ini"); at_ exe (m (bs "override")); at_ wd (bs "override.ini"); at_ wd (m (bs "override")); at_ d (bs "override.ini"); at_ d (m (bs "override"))]).
Proof. cbv zeta. split; [intros ->; reflexivity|]. intros H. destruct dir as [|c dir]; [congruence|]. reflexivity. Qed.
Example C62_order_example : standard_files (bs "app") (bs "prod") (dirs_of (bs "/e") (bs "/w/x") (bs "/d")) =
  map bs ["/e/default.ini"; "/e/default.prod.ini"; "/w/x/default.ini"; "/w/x/default.prod.ini"; "/d/default.ini"; "/d/default.prod.ini";
          "/e/app.ini"; "/e/app.prod.ini"; "/w/x/app.ini"; "/w/x/app.prod.ini"; "/d/app.ini"; "/d/app.prod.ini";
          "/e/override.ini"; "/e/override.prod.ini"; "/w/x/override.ini"; "/w/x/override.prod.ini"; "/d/override.ini"; "/d/override.prod.ini"]%string.
Proof. vm_compute. reflexivity. Qed.

(** ** C58, C59 *)
(** a byte order mark is skipped *)
Theorem C58_byte_order_mark content fails :
  has_prefix content [byte 239; byte 187; byte 191] = false -> load ([byte 239; byte 187; byte 191] ++ content) fails = load content fails.
Proof.
  intros H. unfold load. change bom with [byte 239; byte 187; byte 191]. rewrite H.
  assert (E : has_prefix ([byte 239; byte 187; byte 191] ++ content) [byte 239; byte 187; byte 191] = true) by (apply has_prefix_spec; eexists; reflexivity).
  rewrite E. reflexivity.
Qed.
Example C58_mark_example : load ([byte 239; byte 187; byte 191] ++ bs "a=1") false = Ok (inl [(bs "default", [(bs "a", bs "1")])]).
Proof. vm_compute. reflexivity. Qed.
Lemma load_lines_fail lines ks : kinds lines ks -> forall pre st, lines <> [] -> stands pre st ->
  (Forall fine (removelast ks) -> load_lines lines true st = Ok (inr ErrRead)) /\
  (forall p k q, removelast ks = p ++ k :: q -> Forall fine p -> ~ fine k -> load_lines lines true st = Ok (inr (match k with LBlankSection => ErrBlankSection | _ => ErrParse end))).
Proof.
  intros K. induction K as [|l k ls ks Hk K IH]; intros pre st Hne Hst; [congruence|].
  destruct ls as [|l2 ls].
  - inversion K; subst ks. cbn [load_lines removelast]. split; [reflexivity|]. intros p k' q E. destruct p; discriminate.
  - inversion K as [|? k2 ? ks2 Hk2 K2]; subst. change (removelast (k :: k2 :: ks2)) with (k :: removelast (k2 :: ks2)).
    assert (Step := load_line_stands (l ++ [nl]) k pre st). rewrite trim_space_nl in Step. specialize (Step Hk Hst). cbn [load_lines].
    assert (IH' := fun st' H => IH (k :: pre) st' ltac:(discriminate) H). clear IH. split.
    + intros F. inversion F as [|? ? F1 F2]. subst. destruct k; try contradiction; destruct Step as (st' & -> & S'); cbn [RouterModel.bind]; apply (proj1 (IH' st' S')); exact F2.
    + intros p k' q E Fp Fk. destruct p as [|x p].
      * injection E as <- <-. destruct k; try (exfalso; apply Fk; exact I); rewrite Step; reflexivity.
      * injection E as <- E. inversion Fp as [|? ? F1 F2]. subst.
        destruct k; try contradiction; destruct Step as (st' & -> & S'); cbn [RouterModel.bind]; eapply (proj2 (IH' st' S')); eauto.
Qed.
(** Which error: that of the first malformed line; if the reader fails, its error when no
    line before the failure is malformed. The line the failure cuts off is not looked at. *)
Theorem C59_errors_exact content (fails : bool) ks : kinds (lines_of content) ks ->
  let seen := if fails then removelast ks else ks in
  (Forall fine seen -> if fails then load content fails = Ok (inr ErrRead) else exists d, load content fails = Ok (inl d)) /\
  (forall p k q, seen = p ++ k :: q -> Forall fine p -> ~ fine k -> load content fails = Ok (inr (match k with LBlankSection => ErrBlankSection | _ => ErrParse end))).
Proof.
  intros K. cbv zeta. assert (S0 : stands [] (mkL [] [] 1)) by (split; [reflexivity|split; [reflexivity|intros; reflexivity]]).
  rewrite load_unfold. destruct fails.
  - destruct (load_lines_fail _ _ K [] _ (split_byte_not_nil _ _) S0) as (A & B). split; [intros F; rewrite (A F); reflexivity|]. intros p k q E Fp Fk. rewrite (B p k q E Fp Fk). reflexivity.
  - destruct (load_lines_spec _ _ K [] _ (split_byte_not_nil _ _) S0) as (A & B). split.
    + intros F. destruct (A F) as (st & E & _). exists (l_data st). rewrite E. reflexivity.
    + intros p k q E Fp Fk. rewrite (B p k q E Fp Fk). reflexivity.
Qed.
Example C59_exact_example :
  let text := bs "a=1
[]
?
b=2" in
  kinds (lines_of text) [LPair (bs "a") (bs "1"); LBlankSection; LBad; LPair (bs "b") (bs "2")] /\ load text true = Ok (inr ErrBlankSection) /\
  load (bs "a=1
?") true = Ok (inr ErrRead) /\ load (bs "a=1
?") false = Ok (inr ErrParse).
Proof. cbv zeta. split; [repeat constructor|]. split; [|split]; vm_compute; reflexivity. Qed.

(** ** C58: ListSection *)
(** the file has section [s]: a header names it, or a key stands in it without one (latest
    lines first) *)
Fixpoint has_section (s : bytes) (ks : list line_is) : Prop :=
  match ks with
  | [] => False
  | LSection n :: pre => n = s \/ has_section s pre
  | LPair _ _ :: pre => section_after pre = s \/ has_section s pre
  | _ :: pre => has_section s pre
  end.
Lemma set_value_sections d sec k v s :
  aget (set_value d sec k v) s <> None <-> (if is_nil sec then default_section else sec) = s \/ aget d s <> None.
Proof.
  unfold set_value. set (sec' := if is_nil sec then default_section else sec).
  set (d1 := match aget d sec' with Some _ => d | None => aset d sec' [] end).
  assert (D1 : aget d1 s <> None <-> sec' = s \/ aget d s <> None).
  { unfold d1. destruct (beq_spec sec' s) as [<-|Hs].
    - destruct (aget d sec') as [m|] eqn:A; [rewrite A|rewrite aget_aset_same]; split; intros _; [left; reflexivity|discriminate|left; reflexivity|discriminate].
    - destruct (aget d sec') as [m|]; [|rewrite aget_aset_other by exact Hs]; tauto. }
  destruct (is_nil k); [exact D1|]. destruct (aget d1 sec') as [m|]; [|exact D1].
  destruct (beq_spec sec' s) as [<-|Hs]; [rewrite aget_aset_same; split; intros _; [left; reflexivity|discriminate]|]. rewrite aget_aset_other by exact Hs. exact D1.
Qed.
Lemma set_value_no_empty d sec k v s : value_in d s [] = None -> value_in (set_value d sec k v) s [] = None.
Proof.
  intros H. destruct k as [|c k]; [rewrite value_set_nil; exact H|]. rewrite value_set by discriminate.
  destruct (beq_spec (c :: k) []) as [E|_]; [discriminate|]. rewrite andb_false_r. exact H.
Qed.
Definition sections_stand (pre : list line_is) (st : lstate) : Prop :=
  stands pre st /\ (forall s, aget (l_data st) s <> None <-> has_section s pre) /\ (forall s, value_in (l_data st) s [] = None).
Lemma load_line_sections line k pre st : parse_line (trim_space line) = Ok k -> fine k -> sections_stand pre st ->
  exists st', load_line line st = Ok (inl st') /\ sections_stand (k :: pre) st'.
Proof.
  intros Hk F (Hst & Hs & He). pose proof (load_line_stands _ _ _ _ Hk Hst) as L.
  assert (L2 : exists st', load_line line st = Ok (inl st') /\ stands (k :: pre) st') by (destruct k; try contradiction; exact L).
  clear L. destruct L2 as (st' & E & L). exists st'. split; [exact E|]. split; [exact L|].
  unfold load_line in E. rewrite Hk in E. cbn [RouterModel.bind] in E. destruct Hst as (Hsec & _ & _).
  destruct k as [|name| |key v|]; try contradiction.
  - injection E as <-. split; [exact Hs|exact He].
  - apply trim_nonempty_section in Hk. injection E as <-. cbn [l_data has_section]. split; intros s.
    + rewrite set_value_sections, Hs. destruct name; [congruence|]. reflexivity.
    + apply set_value_no_empty, He.
  - cbn [has_section]. destruct (beq key (bs "-")); injection E as <-; cbn [l_data]; (split; intros s; [rewrite set_value_sections, Hs, Hsec; reflexivity|apply set_value_no_empty, He]).
Qed.
Lemma load_lines_sections lines ks : kinds lines ks -> Forall fine ks -> forall pre st, sections_stand pre st ->
  exists st', load_lines lines false st = Ok (inl st') /\ sections_stand (rev ks ++ pre) st'.
Proof.
  intros K. induction K as [|l k ls ks Hk K IH]; intros F pre st Hst; [exists st; split; [reflexivity|exact Hst]|].
  inversion F as [|? ? F1 F2]. subst. cbn [rev]. rewrite <- app_assoc. cbn [app]. destruct ls as [|l2 ls].
  - inversion K; subst ks. cbn [load_lines rev app]. apply load_line_sections; assumption.
  - destruct (load_line_sections (l ++ [nl]) k pre st) as (st' & E & S'); [rewrite trim_space_nl; exact Hk|exact F1|exact Hst|].
    destruct (IH F2 (k :: pre) st' S') as (st2 & E2 & S2). exists st2. split; [|exact S2].
    change (load_lines (l :: l2 :: ls) false st) with (RouterModel.bind (load_line (l ++ [nl]) st) (fun r => match r with inl st' => load_lines (l2 :: ls) false st' | inr e => Ok (inr e) end)).
    rewrite E. exact E2.
Qed.
(** ListSection of a loaded file: nil exactly for a section the file does not have; else a map
    with, for every key, the value given last in that section, and no empty key *)
Theorem C58_list_section content ks : kinds (lines_of content) ks -> Forall fine ks ->
  exists d, load content false = Ok (inl d) /\
    forall s, match list_section d s with
              | None => ~ has_section s (rev ks)
              | Some m => has_section s (rev ks) /\ forall k, aget m k = match k with [] => None | _ => last_value s k (rev ks) end
              end.
Proof.
  intros K F. assert (S0 : sections_stand [] (mkL [] [] 1)).
  { split; [split; [reflexivity|split; [reflexivity|intros; reflexivity]]|]. split; [intros s; cbn; tauto|intros s; reflexivity]. }
  destruct (load_lines_sections _ _ K F [] _ S0) as (st & E & ((_ & _ & V) & S1 & S2)). rewrite app_nil_r in *. exists (l_data st). rewrite load_unfold, E. cbn [RouterModel.bind].
  split; [reflexivity|]. intros s. unfold list_section. specialize (S1 s). specialize (S2 s). destruct (aget (l_data st) s) as [m|] eqn:A.
  - split; [apply S1; discriminate|]. intros [|c k]; [unfold value_in in S2; rewrite A in S2; exact S2|]. specialize (V s (c :: k) ltac:(discriminate)). unfold value_in in V. rewrite A in V. exact V.
  - intros H. apply S1 in H. congruence.
Qed.
Example C58_list_example :
  let text := bs "a=1
[db]
host=x
host=y
-=p
-=q
[empty]" in
  kinds (lines_of text) [LPair (bs "a") (bs "1"); LSection (bs "db"); LPair (bs "host") (bs "x"); LPair (bs "host") (bs "y"); LPair (bs "-") (bs "p"); LPair (bs "-") (bs "q"); LSection (bs "empty")] /\
  match load text false with
  | Ok (inl d) => list_section d (bs "db") = Some [(bs "host", bs "y"); (bs "#1", bs "p"); (bs "#2", bs "q")] /\ list_section d (bs "default") = Some [(bs "a", bs "1")] /\
                  list_section d (bs "empty") = Some [] /\ list_section d [] = None /\ list_section d (bs "x") = None
  | _ => False
  end.
Proof.
  cbv zeta. split.
  - unfold kinds. match goal with |- Forall2 _ ?l _ => let v := eval vm_compute in l in assert (E : l = v) by (vm_compute; reflexivity); rewrite E; clear E end.
    repeat (apply Forall2_cons; [vm_compute; reflexivity|]). apply Forall2_nil.
  - vm_compute. split; [reflexivity|]. split; [reflexivity|]. split; [reflexivity|]. split; reflexivity.
Qed.

Print Assumptions C60_default_exact.
Print Assumptions C61_bind_exact.
Print Assumptions C102_decode_exact.
Print Assumptions C101_set_exact.
Print Assumptions C101_string_exact.
Print Assumptions C62_files_in_order.
Print Assumptions C58_byte_order_mark.
Print Assumptions C59_errors_exact.
Print Assumptions C58_list_section.
