(** Props_ConfigFind: C57, C60-C62, C101, C102: lookup, Bind, Decode, LoadConfigFiles. *)
From Coq Require Import List Ascii String Bool Arith ZArith Lia.
Import ListNotations.
From Verif Require Import GoStr GoPath GoTy GoNum RouterModel ConvModel ConvFacts ConfigModel Props_Config.

(** ** C57 *)
Section Find.
  Variable env : bytes -> bytes.

  (** a config and its parents, nearest first *)
  Fixpoint stack (c : conf) : list data := match c with Conf d None => [d] | Conf d (Some p) => d :: stack p end.
  Fixpoint first_nonempty (l : list bytes) : bytes := match l with [] => [] | [] :: r => first_nonempty r | v :: _ => v end.
  Definition value (d : data) (s k : bytes) : bytes := match value_in d s k with Some v => v | None => [] end.
  (** [name] is "section::key", cut at the first "::", or just a key *)
  Inductive means (name : bytes) : bytes -> bytes -> Prop :=
  | m_key : (forall a b, name <> a ++ bs "::" ++ b) -> means name [] name
  | m_sec : forall s k, name = s ++ bs "::" ++ k -> (forall a b, name = a ++ bs "::" ++ b -> List.length s <= List.length a) -> means name s k.
  Definition section_of (s : bytes) : bytes := if is_nil s then default_section else s.

  Lemma conf_rect_deep (P : conf -> Prop) : (forall d, P (Conf d None)) -> (forall d p, P p -> P (Conf d (Some p))) -> forall c, P c.
  Proof. intros H0 H1. fix IH 1. intros [d [p|]]; [apply H1, IH|apply H0]. Qed.
  Lemma index_sub_spec sub : forall s, match index_sub s sub with
    | Some i => exists a b, s = a ++ sub ++ b /\ List.length a = i /\ forall a' b', s = a' ++ sub ++ b' -> i <= List.length a'
    | None => forall a b, s <> a ++ sub ++ b end.
  Proof.
    induction s as [|c s IH]; cbn [index_sub].
    - destruct (has_prefix [] sub) eqn:E.
      + apply has_prefix_spec in E as (t & E). exists [], t. split; [exact E|]. split; [reflexivity|]. intros; cbn; lia.
      + intros a b H. assert (has_prefix [] sub = true); [|congruence]. destruct a; [|discriminate]. apply has_prefix_spec. exists b. exact H.
    - destruct (has_prefix (c :: s) sub) eqn:E.
      + apply has_prefix_spec in E as (t & E). exists [], t. split; [exact E|]. split; [reflexivity|]. intros; cbn; lia.
      + destruct (index_sub s sub) as [i|]; cbn [option_map].
        * destruct IH as (a & b & -> & <- & Hm). exists (c :: a), b. split; [reflexivity|]. split; [reflexivity|]. intros a' b' H. destruct a' as [|x a'].
          -- exfalso. assert (has_prefix (c :: a ++ sub ++ b) sub = true) by (apply has_prefix_spec; exists b'; exact H). congruence.
          -- injection H as -> H. apply Hm in H. cbn. lia.
        * intros a b H. destruct a as [|x a]; [assert (has_prefix (c :: s) sub = true) by (apply has_prefix_spec; exists b; exact H); congruence|]. injection H as -> H. exact (IH a b H).
  Qed.
  Lemma split_means name s k : means name s k -> last (split2_sub name (bs "::")) [] = k /\ match split2_sub name (bs "::") with s0 :: _ :: _ => s0 | _ => [] end = s.
  Proof.
    intros M. unfold split2_sub. pose proof (index_sub_spec (bs "::") name) as X. destruct (index_sub name (bs "::")) as [i|].
    - destruct X as (a & b & E & La & Hm). destruct M as [H|s k E2 Hm2]; [exfalso; exact (H a b E)|].
      assert (L : List.length a = List.length s) by (pose proof (Hm s k E2); pose proof (Hm2 a b E); lia).
      assert (A : a = s).
      { rewrite E2 in E. apply (f_equal (firstn (List.length s))) in E. rewrite firstn_app_len in E. rewrite <- L in E. rewrite firstn_app_len in E. congruence. }
      subst a. rewrite E2 in E. apply app_inv_head in E. apply app_inv_head in E. subst b. rewrite E2. subst i. split.
      + cbn [last]. change (List.length (bs "::")) with 2. rewrite app_assoc. replace (List.length s + 2) with (List.length (s ++ bs "::")) by (rewrite app_length; reflexivity). apply skipn_app_len.
      + apply firstn_app_len.
    - destruct M as [H|s k E _]; [split; reflexivity|]. exfalso. exact (X s k E).
  Qed.
  (** the environment, the config and its parents, in that order: the first value that is not empty *)
  Theorem C57_first_nonempty c name s k : means name s k ->
    conf_find env c name = if is_nil k then [] else first_nonempty (env (env_key s k) :: map (fun d => value d (section_of s) k) (stack c)).
  Proof.
    intros M. destruct (split_means name s k M) as (Ek & Es).
    assert (H : forall c, conf_find env c name = if is_nil k then [] else first_nonempty (env (env_key s k) :: map (fun d => value d (section_of s) k) (stack c))); [|apply H].
    clear c. apply conf_rect_deep.
    - intros d. cbn [conf_find stack map]. rewrite Ek, Es. fold (section_of s). destruct (is_nil k); [reflexivity|].
      destruct (env (env_key s k)) as [|e0 e]; cbn [is_nil negb first_nonempty]; [|reflexivity].
      unfold value, value_in. destruct (aget d (section_of s)) as [m|]; [destruct (aget m k) as [[|v0 v]|]|]; reflexivity.
    - intros d p IH. cbn [conf_find]. rewrite Ek, Es. fold (section_of s). destruct (is_nil k) eqn:Ik; [reflexivity|].
      cbn [stack map]. destruct (env (env_key s k)) as [|e0 e] eqn:Ee; cbn [is_nil negb first_nonempty]; [|reflexivity].
      cbn [first_nonempty] in IH. rewrite IH. generalize (first_nonempty (map (fun d0 : data => value d0 (section_of s) k) (stack p))). intros rest. unfold value, value_in. destruct (aget d (section_of s)) as [m|]; [destruct (aget m k) as [[|v0 v]|]|]; reflexivity.
  Qed.
  Lemma means_exists name : exists s k, means name s k.
  Proof.
    pose proof (index_sub_spec (bs "::") name) as X. destruct (index_sub name (bs "::")) as [i|].
    - destruct X as (a & b & E & La & Hm). exists a, b. apply m_sec; [exact E|]. intros a' b' H. rewrite La. eauto.
    - exists [], name. apply m_key. exact X.
  Qed.
End Find.
(** the name of the variable: section_key in capitals, with _ for . - : and blanks *)
Inductive env_char : ascii -> ascii -> Prop :=
| ec_sep : forall c, In c ["."; "-"; ":"; " "]%char -> env_char c "_"
| ec_low : forall c, 97 <= code c <= 122 -> env_char c (byte (code c - 32))
| ec_other : forall c, ~ In c ["."; "-"; ":"; " "]%char -> ~ 97 <= code c <= 122 -> env_char c c.
Lemma env_char_byte c : env_char c (upper_byte (env_byte c)).
Proof.
  unfold env_byte. destruct (Ascii.eqb_spec c ".") as [->|N1]; [apply ec_sep; cbn; tauto|]. destruct (Ascii.eqb_spec c "-") as [->|N2]; [apply ec_sep; cbn; tauto|].
  destruct (Ascii.eqb_spec c ":") as [->|N3]; [apply ec_sep; cbn; tauto|]. destruct (Ascii.eqb_spec c " ") as [->|N4]; [apply ec_sep; cbn; tauto|]. cbn [orb].
  unfold upper_byte. destruct (Nat.leb_spec 97 (code c)) as [A|A]; destruct (Nat.leb_spec (code c) 122) as [B|B]; cbn [andb];
    try (apply ec_low; lia); apply ec_other; try lia; intros H; cbn in H; intuition congruence.
Qed.
Theorem C57_env_name s k : Forall2 env_char (match s with [] => k | _ => s ++ "_"%char :: k end) (env_key s k).
Proof.
  assert (H : forall l, Forall2 env_char l (to_upper (map env_byte l))).
  { induction l as [|c l IH]; [constructor|]. cbn [map to_upper]. constructor; [apply env_char_byte|exact IH]. }
  unfold env_key. destruct s as [|a s]; cbn [is_nil]; [apply H|]. rewrite <- app_assoc. apply (H ((a :: s) ++ "_"%char :: k)).
Qed.
(** the variable of "db::user-name" is DB_USER_NAME, and it is that of other keys too *)
Theorem C57_env_key_shared_refuted :
  exists s1 k1 s2 k2, (s1, k1) <> (s2, k2) /\ env_key s1 k1 = env_key s2 k2 /\ env_key s1 k1 = bs "DB_USER_NAME".
Proof. exists (bs "db"), (bs "user-name"), [], (bs "DB.user_name"). split; [discriminate|]. split; vm_compute; reflexivity. Qed.
Definition t_conf : conf := Conf [(bs "default", [(bs "a", []); (bs "b", bs "own")])] (Some (Conf [(bs "default", [(bs "a", bs "old"); (bs "b", bs "older")]); (bs "db", [(bs "a", bs "url")])] None)).
Definition t_env (n : bytes) : bytes := if beq n (bs "DB_B") then bs "from env" else [].
Example C57_example : means (bs "db::b") (bs "db") (bs "b") /\
  map (conf_find t_env t_conf) [bs "a"; bs "b"; bs "db::a"; bs "db::b"; bs "db::"; bs "c"] = [bs "old"; bs "own"; bs "url"; bs "from env"; []; []].
Proof.
  split; [|vm_compute; reflexivity]. apply m_sec; [reflexivity|]. intros a b H. destruct a as [|x [|y a]]; [discriminate H|discriminate H|cbn; lia].
Qed.

(** ** C60 *)
Theorem C60_default_partial : forall env c name def,
  app_find env (Some c) name (Some def) = (if is_nil (conf_find env c name) then def else conf_find env c name) /\
  app_find env (Some c) name None = conf_find env c name.
Proof. intros. unfold app_find. destruct (conf_find env c name); split; reflexivity. Qed.
Theorem C60_default_refuted : exists env name def, def <> [] /\ app_find env None name (Some def) = [].
Proof. exists (fun _ => []), (bs "port"), (bs "3000"). split; [discriminate|reflexivity]. Qed.

(** ** C61 *)
Section Bind.
  Variable env : bytes -> bytes.
  Variable F : Type.
  Variable fzero : F.
  Variable parse_float : nat -> bytes -> option F.
  Notation bindv := (ConfigModel.bind env F fzero parse_float).
  Notation reads := (reads F fzero parse_float).

  (** types Bind can set, and those it leaves alone *)
  Definition bindable (t : gty) : Prop := plain t /\ t <> TOther.
  (** what Bind(&x, name) makes of [x] when the value is [p] *)
  Inductive bound (p : bytes) (x : var F) : var F -> Prop :=
  | b_empty : p = [] -> bound p x x
  | b_unknown : var_type F x = TOther \/ var_type F x = TPtr TOther -> bound p x x
  | b_value : forall v, p <> [] -> bindable (var_type F x) -> reads (var_type F x) p v -> bound p x (VVal F v)
  | b_ptr : forall t v, p <> [] -> var_type F x = TPtr t -> bindable t -> reads t p v -> bound p x (VTo F (VVal F v)).
  (** the types for which Bind returns *)
  Definition settable (t : gty) : Prop := match t with TPtr t => plain t | t => plain t end.
  Lemma gty_eqb_refl t : gty_eqb t t = true.
  Proof. unfold gty_eqb. destruct (gty_eq_dec t t); congruence. Qed.
  Theorem C61_bind_partial c x name : settable (var_type F x) ->
    exists x', bindv (Some c) x name = Ok x' /\ bound (conf_find env c name) x x'.
  Proof.
    intros Hs. unfold ConfigModel.bind. destruct (C60_default_partial env c name []) as (_ & ->). generalize (conf_find env c name). intros P.
    destruct (is_nil P) eqn:Ep; [exists x; split; [reflexivity|apply b_empty; destruct P; [reflexivity|discriminate]]|].
    assert (Hp : P <> []) by (intros ->; discriminate). clear Ep.
    destruct (var_type F x) as [| | | | | | | | |t|] eqn:Et; cbn [settable] in Hs;
      try (destruct (convert_as_reads F fzero parse_float _ P Hs) as ([v|] & E & R & T); rewrite E; cbn [RouterModel.bind];
           [rewrite T, gty_eqb_refl; eexists; split; [reflexivity|]; apply b_value; [exact Hp|rewrite Et; split; [exact Hs|discriminate]|rewrite Et; exact R]|discriminate E]).
    - destruct (convert_as_reads F fzero parse_float t P Hs) as (o & E & R & T).
      assert (E' : convert_as F fzero parse_float P (TPtr t) = Ok o) by (rewrite <- E; reflexivity).
      rewrite E'. cbn [RouterModel.bind]. destruct o as [v|].
      + rewrite T, gty_eqb_refl. eexists. split; [reflexivity|]. apply (b_ptr _ _ t v Hp Et); [|exact R]. split; [exact Hs|]. intros ->. discriminate E.
      + exists x. split; [reflexivity|]. apply b_unknown. right. rewrite Et. destruct t; try discriminate E; try (cbn [plain] in Hs; contradiction). reflexivity.
    - cbn [convert_as indirect RouterModel.bind]. exists x. split; [reflexivity|]. apply b_unknown. left. exact Et.
  Qed.
  (** without a Configer nothing changes *)
  Theorem C61_no_configer x name : bindv None x name = Ok x.
  Proof. reflexivity. Qed.
  (** Bind panics for slices other than []byte and []string, and for pointers to pointers *)
  Theorem C61_bind_refuted c name : conf_find env c name <> [] ->
    (forall x, var_type F x = TSliceOther -> bindv (Some c) x name = Panic) /\
    (forall x t, plain t -> t <> TOther -> var_type F x = TPtr (TPtr t) -> bindv (Some c) x name = Panic).
  Proof.
    intros Hp. unfold ConfigModel.bind. destruct (C60_default_partial env c name []) as (_ & ->). destruct (conf_find env c name) as [|p0 p] eqn:E; [congruence|]. cbn [is_nil]. split.
    - intros x ->. reflexivity.
    - intros x t Ht Hn ->. destruct (convert_as_reads F fzero parse_float t (p0 :: p) Ht) as (o & E1 & R & T).
      assert (E' : convert_as F fzero parse_float (p0 :: p) (TPtr (TPtr t)) = Ok o) by (rewrite <- E1; reflexivity). rewrite E'. cbn [RouterModel.bind].
      destruct o as [v|]; [|exfalso; destruct t; try discriminate E1; try contradiction; cbn [plain] in Ht; contradiction].
      rewrite T. unfold gty_eqb. destruct (gty_eq_dec t (TPtr t)) as [Ed|_]; [|reflexivity]. exfalso. apply (f_equal (fix sz (t : gty) : nat := match t with TPtr u => S (sz u) | _ => 0 end)) in Ed. lia.
  Qed.
End Bind.
Example C61_example :
  bind t_env unit tt (fun _ _ => None) (Some (Conf [(bs "default", [(bs "n", bs "17")])] None)) (VNil unit (TInt 64)) (bs "n") = Ok (VTo unit (VVal unit (VInt unit 64 17))) /\
  settable (var_type unit (VNil unit (TInt 64))).
Proof. split; [vm_compute; reflexivity|cbn; lia]. Qed.

(** ** C102 *)
Section Decode.
  Variable env : bytes -> bytes.
  Variable F : Type.
  Variable fzero : F.
  Variable parse_float : nat -> bytes -> option F.
  Notation fval := (ConfigModel.fval F).
  Notation field := (ConfigModel.field F).
  Notation Fld := (ConfigModel.Fld F).
  Notation FStruct := (ConfigModel.FStruct F).
  Notation FVar := (ConfigModel.FVar F).

  (** the field and the variable a path of field numbers leads to *)
  Fixpoint field_at (v : fval) (i : nat) (p : list nat) : option field :=
    match v with
    | ConfigModel.FVar _ _ => None
    | ConfigModel.FStruct _ fs =>
        match nth_error fs i, p with
        | None, _ => None
        | Some f, [] => Some f
        | Some (ConfigModel.Fld _ _ _ _ w), j :: p' => field_at w j p'
        end
    end.
  Fixpoint var_at (v : fval) (p : list nat) : option (var F) :=
    match p, v with
    | [], ConfigModel.FVar _ x => Some x
    | i :: p', ConfigModel.FStruct _ fs => match nth_error fs i with Some (ConfigModel.Fld _ _ _ _ w) => var_at w p' | None => None end
    | _, _ => None
    end.
  (** the config name of the variable there: its tag, with the tag of the named struct it
      is in; embedded structs do not count; deeper structs have no name *)
  Fixpoint name_at (sec : option bytes) (v : fval) (p : list nat) : option bytes :=
    match p, v with
    | i :: p', ConfigModel.FStruct _ fs =>
        match nth_error fs i with
        | None => None
        | Some (ConfigModel.Fld _ anon _ tag (ConfigModel.FVar _ x)) =>
            if (is_nil tag || beq tag (bs "-"))%bool then None else
            match p', sec with
            | [], None => Some tag
            | [], Some s => Some (s ++ bs "::" ++ tag)
            | _, _ => None
            end
        | Some (ConfigModel.Fld _ anon _ tag (ConfigModel.FStruct _ gs)) =>
            match sec with
            | Some _ => None
            | None => if anon then name_at None (FStruct gs) p' else
                      if (is_nil tag || beq tag (bs "-"))%bool then None else name_at (Some tag) (FStruct gs) p'
            end
        end
    | _, _ => None
    end.
  (** unexported fields have no tag and are not embedded structs *)
  Definition field_ok (f : field) : Prop :=
    match f with ConfigModel.Fld _ anon exported tag w =>
      exported = true \/ ((tag = [] \/ tag = bs "-") /\ match w with ConfigModel.FStruct _ _ => anon = false | ConfigModel.FVar _ _ => True end)
    end.
  Definition fields_ok (v : fval) : Prop := forall i p f, field_at v i p = Some f -> field_ok f.
  Definition vars_ok (sec : option bytes) (v : fval) : Prop := forall p x n, var_at v p = Some x -> name_at sec v p = Some n -> settable (var_type F x).
  (** every variable with a config name is bound to it, the others are left alone *)
  Definition filled (c : conf) (sec : option bytes) (v v' : fval) : Prop := forall p,
    match var_at v p with
    | None => var_at v' p = None
    | Some x => exists x', var_at v' p = Some x' /\
        match name_at sec v p with
        | Some n => bound F fzero parse_float (conf_find env c n) x x'
        | None => x' = x
        end
    end.
  Lemma fval_deep (P : fval -> Prop) : (forall x, P (FVar x)) -> (forall fs, Forall (fun f => match f with ConfigModel.Fld _ _ _ _ w => P w end) fs -> P (FStruct fs)) -> forall v, P v.
  Proof.
    intros H0 H1. fix IH 1. intros [fs|x]; [|apply H0]. apply H1. revert fs. fix IHl 1. intros [|[a e t w] fs]; [constructor|]. constructor; [apply IH|apply IHl].
  Qed.
  Lemma filled_lift c sec fs fs' : Forall2 (fun f f' => filled c sec (FStruct [f]) (FStruct [f'])) fs fs' -> filled c sec (FStruct fs) (FStruct fs').
  Proof.
    intros H p. destruct p as [|i p]; [reflexivity|].
    assert (X : match nth_error fs i with
                | None => nth_error fs' i = None
                | Some f => exists f', nth_error fs' i = Some f' /\ filled c sec (FStruct [f]) (FStruct [f']) end).
    { revert i. induction H as [|f f' fs fs' Hf H IH]; intros [|i]; cbn [nth_error]; [reflexivity|reflexivity|exists f'; split; [reflexivity|exact Hf]|apply IH]. }
    cbn [var_at name_at]. destruct (nth_error fs i) as [[a e t w]|].
    - destruct X as ([a' e' t' w'] & -> & Hf). specialize (Hf (0 :: p)). cbn [var_at name_at nth_error] in Hf. exact Hf.
    - rewrite X. reflexivity.
  Qed.
  Lemma filled_same c sec v : (forall p, name_at sec v p = None) -> filled c sec v v.
  Proof. intros H p. destruct (var_at v p) eqn:E; [|reflexivity]. rewrite H. eauto. Qed.
  Lemma skipped_spec tag : skipped tag = true <-> tag = [] \/ tag = bs "-".
  Proof.
    unfold skipped. destruct tag as [|a t]; [cbn [is_nil orb]; split; auto|]. cbn [is_nil orb]. rewrite beq_true. split; [auto|]. intros [H|H]; [discriminate H|exact H].
  Qed.
  Lemma bind_filled c sec a e tag x : vars_ok sec (FStruct [Fld a e tag (FVar x)]) -> skipped tag = false ->
    exists x', ConfigModel.bind env F fzero parse_float (Some c) x (match sec with None => tag | Some s => s ++ bs "::" ++ tag end) = Ok x' /\
      filled c sec (FStruct [Fld a e tag (FVar x)]) (FStruct [Fld a e tag (FVar x')]).
  Proof.
    intros Hv Hs. unfold skipped in Hs.
    assert (N : name_at sec (FStruct [Fld a e tag (FVar x)]) [0] = Some (match sec with None => tag | Some s => s ++ bs "::" ++ tag end)).
    { cbn [name_at nth_error]. rewrite Hs. destruct sec; reflexivity. }
    destruct (C61_bind_partial env F fzero parse_float c x (match sec with None => tag | Some s => s ++ bs "::" ++ tag end)) as (x' & E & B).
    { exact (Hv [0] x _ eq_refl N). }
    exists x'. split; [exact E|]. intros [|[|i] p]; [reflexivity| |destruct i; reflexivity]. destruct p as [|j p]; [|reflexivity].
    rewrite N. exists x'. split; [reflexivity|exact B].
  Qed.
  Lemma vars_ok_nth sec fs i f : vars_ok sec (FStruct fs) -> nth_error fs i = Some f -> vars_ok sec (FStruct [f]).
  Proof.
    intros H Hi p x n. destruct p as [|[|j] p]; [discriminate| |destruct j; discriminate]. intros A B. apply (H (i :: p) x n).
    - cbn [var_at nth_error] in *. rewrite Hi. exact A.
    - cbn [name_at nth_error] in *. rewrite Hi. exact B.
  Qed.
  Lemma parse_section_filled c sec fs : (forall f, In f fs -> field_ok f) -> vars_ok (Some sec) (FStruct fs) ->
    exists fs', parse_section env F fzero parse_float (Some c) false fs sec = Ok fs' /\ filled c (Some sec) (FStruct fs) (FStruct fs').
  Proof.
    intros Hf Hv.
    assert (G : exists fs', parse_section env F fzero parse_float (Some c) false fs sec = Ok fs' /\ Forall2 (fun f f' => filled c (Some sec) (FStruct [f]) (FStruct [f'])) fs fs').
    2:{ destruct G as (fs' & E & H). exists fs'. split; [exact E|]. apply filled_lift. exact H. }
    induction fs as [|[a e tag w] fs IH]; [exists []; split; [reflexivity|constructor]|].
    destruct IH as (fs' & E & H); [intros f Hin; apply Hf; right; exact Hin| |].
    { intros p x n A B. destruct p as [|i p]; [discriminate|]. apply (Hv (S i :: p) x n A B). }
    pose proof (vars_ok_nth _ _ 0 _ Hv eq_refl) as Hv0. specialize (Hf _ (or_introl eq_refl)). cbn [parse_section]. rewrite E.
    destruct (skipped tag) eqn:Es.
    - cbn [RouterModel.bind]. eexists. split; [reflexivity|]. constructor; [|exact H]. apply filled_same. intros [|[|i] p]; [reflexivity| |destruct i; reflexivity].
      cbn [name_at nth_error]. fold (skipped tag). rewrite Es. destruct w; reflexivity.
    - assert (He : e = true). { destruct Hf as [He|(Ht & _)]; [exact He|]. apply skipped_spec in Ht. congruence. }
      subst e. cbn [negb orb]. destruct w as [gs|x].
      + cbn [bind_field convert_as indirect RouterModel.bind]. eexists. split; [reflexivity|]. constructor; [|exact H]. apply filled_same. intros [|[|i] p]; [reflexivity|reflexivity|destruct i; reflexivity].
      + destruct (bind_filled c (Some sec) a true tag x Hv0 Es) as (x' & Ex & Fx). cbn [bind_field]. rewrite Ex. cbn [RouterModel.bind]. eexists. split; [reflexivity|]. constructor; assumption.
  Qed.
  Theorem C102_decode_partial c fs : fields_ok (FStruct fs) -> vars_ok None (FStruct fs) ->
    exists v', decode_val env F fzero parse_float (Some c) (FStruct fs) = Ok v' /\ filled c None (FStruct fs) v'.
  Proof.
    assert (G : forall v, fields_ok v -> vars_ok None v -> match v with ConfigModel.FVar _ _ => True | ConfigModel.FStruct _ _ => exists v', decode_val env F fzero parse_float (Some c) v = Ok v' /\ filled c None v v' end).
    2:{ exact (G (FStruct fs)). }
    clear fs. intros v. induction v as [x|fs IHfs] using fval_deep; intros Hf Hv; [exact I|].
    cbn [decode_val]. set (go := fix go (fs : list field) : res (list field) := _).
    assert (G : exists fs', go fs = Ok fs' /\ Forall2 (fun f f' => filled c None (FStruct [f]) (FStruct [f'])) fs fs').
    2:{ destruct G as (fs' & -> & H). cbn [RouterModel.bind]. eexists. split; [reflexivity|]. apply filled_lift. exact H. }
    induction IHfs as [|[a e tag w] fs Hw IHfs IH]; [exists []; split; [reflexivity|constructor]|].
    destruct IH as (fs' & E & H).
    { intros i p f A. apply (Hf (S i) p f). destruct p; exact A. }
    { intros p x n A B. destruct p as [|i p]; [discriminate|]. apply (Hv (S i :: p) x n A B). }
    pose proof (vars_ok_nth _ _ 0 _ Hv eq_refl) as Hv0. pose proof (Hf 0 [] _ eq_refl) as Hf0. cbn [go]. rewrite E.
    destruct w as [gs|x].
    - assert (Hg : fields_ok (FStruct gs)) by (intros i p f A; apply (Hf 0 (i :: p) f); exact A).
      destruct a.
      + assert (He : e = true) by (destruct Hf0 as [He|(_ & Ha)]; [exact He|discriminate Ha]). subst e.
        destruct Hw as (w' & Ew & Fw); [exact Hg|intros p x n A B; apply (Hv0 (0 :: p) x n A B)|].
        rewrite Ew. cbn [RouterModel.bind]. eexists. split; [reflexivity|]. constructor; [|exact H].
        intros [|[|i] p]; [reflexivity| |destruct i; reflexivity]. exact (Fw p).
      + destruct (skipped tag) eqn:Es.
        * cbn [RouterModel.bind]. eexists. split; [reflexivity|]. constructor; [|exact H]. apply filled_same. intros [|[|i] p]; [reflexivity| |destruct i; reflexivity].
          cbn [name_at nth_error]. fold (skipped tag). rewrite Es. reflexivity.
        * assert (He : e = true). { destruct Hf0 as [He|(Ht & _)]; [exact He|]. apply skipped_spec in Ht. congruence. }
          subst e. cbn [negb]. pose proof Es as Es'. unfold skipped in Es'.
          destruct (parse_section_filled c tag gs) as (gs' & Eg & Fg).
          { intros f Hin. apply In_nth_error in Hin as (i & Hi). apply (Hg i [] f). cbn [field_at]. rewrite Hi. destruct f; reflexivity. }
          { intros p x n A B. apply (Hv0 (0 :: p) x n A). cbn [name_at nth_error]. rewrite Es'. exact B. }
          rewrite Eg. cbn [RouterModel.bind]. eexists. split; [reflexivity|]. constructor; [|exact H].
          intros [|[|i] p]; [reflexivity| |destruct i; reflexivity]. specialize (Fg p). cbn [var_at name_at nth_error]. rewrite Es'. exact Fg.
    - destruct (skipped tag) eqn:Es.
      + cbn [RouterModel.bind]. eexists. split; [reflexivity|]. constructor; [|exact H]. apply filled_same. intros [|[|i] p]; [reflexivity| |destruct i; reflexivity].
        cbn [name_at nth_error]. fold (skipped tag). rewrite Es. reflexivity.
      + assert (He : e = true). { destruct Hf0 as [He|(Ht & _)]; [exact He|]. apply skipped_spec in Ht. congruence. }
        subst e. cbn [negb]. destruct (bind_filled c None a true tag x Hv0 Es) as (x' & Ex & Fx). cbn [bind_field]. rewrite Ex. cbn [RouterModel.bind]. eexists. split; [reflexivity|]. constructor; assumption.
  Qed.
  (** an unexported field with a tag, or an unexported embedded struct, crashes Decode *)
  Theorem C102_decode_refuted c :
    (forall a tag x rest, skipped tag = false -> decode_val env F fzero parse_float c (FStruct (Fld a false tag (FVar x) :: rest)) = Panic) /\
    (forall tag gs rest, decode_val env F fzero parse_float c (FStruct (Fld true false tag (FStruct gs) :: rest)) = Panic).
  Proof. split; [intros a tag x rest H; cbn [decode_val]; rewrite H; reflexivity|reflexivity]. Qed.
End Decode.
Definition t_struct : ConfigModel.fval unit :=
  FStruct unit [Fld unit false true (bs "b") (FVar unit (VVal unit (VStr unit [])));
                Fld unit false false [] (FVar unit (VVal unit (VStr unit (bs "kept"))));
                Fld unit true true [] (FStruct unit [Fld unit false true (bs "a") (FVar unit (VVal unit (VStr unit [])))]);
                Fld unit false true (bs "db") (FStruct unit [Fld unit false true (bs "a") (FVar unit (VNil unit TString))])].
Example C102_example : fields_ok unit t_struct /\ vars_ok unit None t_struct /\
  decode_val t_env unit tt (fun _ _ => None) (Some t_conf) t_struct =
  Ok (FStruct unit [Fld unit false true (bs "b") (FVar unit (VVal unit (VStr unit (bs "own"))));
                Fld unit false false [] (FVar unit (VVal unit (VStr unit (bs "kept"))));
                Fld unit true true [] (FStruct unit [Fld unit false true (bs "a") (FVar unit (VVal unit (VStr unit (bs "old"))))]);
                Fld unit false true (bs "db") (FStruct unit [Fld unit false true (bs "a") (FVar unit (VTo unit (VVal unit (VStr unit (bs "url")))))])]).
Proof.
  split; [|split; [|vm_compute; reflexivity]].
  - intros i p f H. destruct i as [|[|[|[|i]]]]; destruct p as [|[|j] [|k p]]; cbn in H; try discriminate H; try (destruct i; discriminate H); try (destruct j; discriminate H); try (destruct p; discriminate H);
      injection H as <-; cbn; auto.
  - intros p x n H _. destruct p as [|[|[|[|[|i]]]] [|[|j] [|k p]]]; cbn in H; try discriminate H; try (destruct i; discriminate H); try (destruct j; discriminate H);
      injection H as <-; exact I.
Qed.

(** ** C62 *)
Section Files.
  Variable env : bytes -> bytes.
  Variable F : Type.
  Variable fzero : F.
  Variable parse_float : nat -> bytes -> option F.
  Variable fs : bytes -> file.

  (** a file that exists and parses, and its values *)
  Definition loaded (path : bytes) : option data :=
    match fs path with FText t => match load t false with Ok (inl d) => Some d | _ => None end | _ => None end.
  (** the standard files, each once; the additional ones as given *)
  Fixpoint once (seen l : list bytes) : list bytes :=
    match l with [] => [] | p :: r => if in_dec bytes_eq_dec p seen then once seen r else p :: once (p :: seen) r end.
  Definition tried (std add : list bytes) : list bytes := once [] std ++ add.
  Definition contents (paths : list bytes) : list data := flat_map (fun p => match loaded p with Some d => [d] | None => [] end) paths.
  Definition chain (l : option conf) : list data := match l with None => [] | Some c => stack c end.
  Lemma load_file_spec path : load_file fs path = Ok (match loaded path with Some d => inl d | None => inr (match fs path with FMissing => true | _ => false end) end).
  Proof.
    unfold load_file, loaded. destruct (fs path) as [| |t]; try reflexivity. destruct (C59_loader_total t false) as ([d|e] & ->); reflexivity.
  Qed.
  Lemma existsb_in p l : existsb (beq p) l = if in_dec bytes_eq_dec p l then true else false.
  Proof.
    destruct (in_dec bytes_eq_dec p l) as [H|H].
    - apply existsb_exists. exists p. split; [exact H|apply beq_refl].
    - destruct (existsb (beq p) l) eqn:E; [|reflexivity]. apply existsb_exists in E as (x & Hx & E). apply beq_true in E. subst. contradiction.
  Qed.
  (** additional files: all loaded in their order, everything that does not load is reported *)
  Lemma load_files_add add : forall n skip seen last errs, skip <= n ->
    exists last', load_files fs add n skip seen last errs = Ok (last', errs ++ filter (fun p => match loaded p with Some _ => false | None => true end) add) /\
      chain last' = rev (contents add) ++ chain last.
  Proof.
    induction add as [|p add IH]; intros n skip seen last_ errs Hn; [exists last_; cbn; rewrite app_nil_r; auto|].
    cbn [load_files]. replace (Nat.ltb n skip) with false by (symmetry; apply Nat.ltb_ge; lia). cbn [andb]. rewrite load_file_spec. cbn [RouterModel.bind filter contents flat_map]. fold (contents add).
    destruct (loaded p) as [d|].
    - destruct (IH (S n) skip (p :: seen) (Some (Conf d last_)) errs ltac:(lia)) as (l' & E & C). exists l'. split; [exact E|]. rewrite C. cbn [app rev]. rewrite <- app_assoc. f_equal. destruct last_; reflexivity.
    - replace (Nat.leb skip n) with true by (symmetry; apply Nat.leb_le; lia). rewrite orb_true_r.
      destruct (IH (S n) skip (p :: seen) last_ (errs ++ [p]) ltac:(lia)) as (l' & E & C). exists l'. rewrite E, <- app_assoc. auto.
  Qed.
  Lemma load_files_std add std : forall n skip seen last errs, n + List.length std = skip ->
    exists last', load_files fs (std ++ add) n skip seen last errs =
        Ok (last', errs ++ filter (fun p => match loaded p, fs p with Some _, _ => false | _, FMissing => false | _, _ => true end) (once seen std) ++ filter (fun p => match loaded p with Some _ => false | None => true end) add) /\
      chain last' = rev (contents (once seen std ++ add)) ++ chain last.
  Proof.
    induction std as [|p std IH]; intros n skip seen last_ errs Hn.
    - cbn [app once filter]. apply load_files_add. cbn in Hn. lia.
    - cbn [List.length] in Hn. cbn [app load_files once]. replace (Nat.ltb n skip) with true by (symmetry; apply Nat.ltb_lt; lia). rewrite existsb_in. destruct (in_dec bytes_eq_dec p seen) as [Hs|Hs]; cbn [andb].
      { apply IH. lia. }
      rewrite load_file_spec. cbn [RouterModel.bind filter app contents flat_map]. fold (contents (once (p :: seen) std ++ add)). destruct (loaded p) as [d|] eqn:El.
      + destruct (IH (S n) skip (p :: seen) (Some (Conf d last_)) errs ltac:(lia)) as (l' & E & C). exists l'. split; [exact E|]. rewrite C. cbn [app rev]. rewrite <- app_assoc. f_equal. destruct last_; reflexivity.
      + replace (Nat.leb skip n) with false by (symmetry; apply Nat.leb_gt; lia). rewrite orb_false_r.
        destruct (fs p) eqn:Ef; cbn [negb].
        * apply IH. lia.
        * destruct (IH (S n) skip (p :: seen) last_ (errs ++ [p]) ltac:(lia)) as (l' & E & C). exists l'. rewrite E, <- app_assoc. auto.
        * destruct (IH (S n) skip (p :: seen) last_ (errs ++ [p]) ltac:(lia)) as (l' & E & C). exists l'. rewrite E, <- app_assoc. auto.
  Qed.
  (** the environment first, then the files from the last loaded to the first *)
  Theorem C62_later_files_win name0 mode exe wd dir add target c errs t name s k :
    load_config_files env F fzero parse_float fs name0 mode exe wd dir add target = Ok (c, errs, t) -> means name s k -> k <> [] ->
    let std := standard_files name0 mode (dirs_of exe wd dir) in
    conf_find env c name = first_nonempty (env (env_key s k) :: map (fun d => value d (section_of s) k) (rev (contents (tried std add)))) /\
    (forall p, In p errs <-> loaded p = None /\ (In p add \/ (In p std /\ fs p <> FMissing))).
  Proof.
    intros H M Hk std. unfold load_config_files in H. fold std in H. clearbody std.
    destruct (load_files_std add std 0 (List.length std) [] None [] eq_refl) as (l' & E & C). rewrite E in H. cbn [RouterModel.bind fst snd] in H.
    destruct (decode_val _ _ _ _ _ _) as [t'|]; [|discriminate]. cbn [RouterModel.bind] in H. injection H as Hc He _. split.
    - rewrite (C57_first_nonempty env c name s k M). destruct (is_nil k) eqn:Ik; [destruct k; [congruence|discriminate]|].
      unfold tried. cbn [chain] in C. rewrite app_nil_r in C. rewrite <- C. subst c. destruct l' as [c|]; [reflexivity|]. cbn [chain stack map first_nonempty].
      destruct (env (env_key s k)); [|reflexivity]. unfold value, value_in. reflexivity.
    - assert (O : forall l seen p, In p (once seen l) <-> In p l /\ ~ In p seen).
      { induction l as [|q l IH]; intros seen p; cbn [once In]; [tauto|]. destruct (in_dec bytes_eq_dec q seen) as [Hs|Hs].
        - rewrite IH. split; [tauto|]. intros ([->|A] & B); [contradiction|tauto].
        - cbn [In]. rewrite IH. cbn [In]. split; [intros [->|(A & B)]; tauto|]. intros ([->|A] & B); [tauto|]. destruct (bytes_eq_dec q p); tauto. }
      intros p. rewrite <- He. cbn [app]. rewrite in_app_iff, !filter_In. rewrite (O std [] p). destruct (loaded p) as [d|].
      + split; [intros [(_ & X)|(_ & X)]; discriminate X|intros (X & _); discriminate X].
      + cbn [In]. destruct (fs p); intuition congruence.
  Qed.
End Files.
Definition t_fs (p : bytes) : file :=
  if beq p (bs "/exe/app.ini") then FText (bs "a = exe
b = exe") else if beq p (bs "/wd/app.ini") then FText (bs "a = wd") else if beq p (bs "/wd/bad.ini") then FText (bs "?") else FMissing.
(** with the executable's directory named again as [dir] its files still count as the first ones *)
Theorem C62_dir_again_refuted : exists c t,
  load_config_files (fun _ => []) unit tt (fun _ _ => None) t_fs (bs "app") (bs "prod") (bs "/exe") (bs "/wd") (bs "/exe") [] (FStruct unit []) = Ok (c, [], t) /\
  conf_find (fun _ => []) c (bs "a") = bs "wd".
Proof. eexists. eexists. split; vm_compute; reflexivity. Qed.
Example C62_example : exists c t,
  load_config_files (fun _ => []) unit tt (fun _ _ => None) t_fs (bs "app") (bs "prod") (bs "/exe") (bs "/wd") [] [bs "/wd/bad.ini"; bs "/none"] (FStruct unit []) = Ok (c, [bs "/wd/bad.ini"; bs "/none"], t) /\
  conf_find (fun _ => []) c (bs "a") = bs "wd" /\ conf_find (fun _ => []) c (bs "b") = bs "exe" /\ means (bs "a") [] (bs "a").
Proof.
  eexists. eexists. split; [vm_compute; reflexivity|]. split; [vm_compute; reflexivity|]. split; [vm_compute; reflexivity|].
  apply m_key. intros a b H. apply (f_equal (@List.length ascii)) in H. rewrite !app_length in H. cbn in H. lia.
Qed.

(** ** C101 *)
Definition split_list (v : bytes) : list bytes := filter (fun p => negb (is_nil p)) (map trim_space (split_byte "," v)).
Theorem C101_set_splits_refuted : exists v, split_list v = [bs "a"; bs "b"] /\ slice_value_set [] v = [bs "a,b"; bs "a,b"].
Proof. exists (bs "a,b"). split; vm_compute; reflexivity. Qed.
(** only an argument without commas and blanks around it is stored as it should be *)
Theorem C101_set_partial s v : ~ In ","%char v -> trim_space v = v -> slice_value_set s v = s ++ split_list v.
Proof.
  intros Hc Ht. unfold slice_value_set, split_list. rewrite split_byte_nosep by exact Hc. cbn [flat_map map filter]. rewrite Ht. destruct (is_nil v); reflexivity.
Qed.
Theorem C101_unique s : NoDup (slice_value_unique s) /\ (forall x, In x (slice_value_unique s) <-> In x s) /\ (NoDup s -> slice_value_unique s = s).
Proof.
  assert (H : forall l seen, NoDup (uniq seen l) /\ (forall x, In x (uniq seen l) <-> In x l /\ ~ In x seen) /\ (NoDup (l ++ seen) -> uniq seen l = l)).
  { induction l as [|p l IH]; intros seen; cbn [uniq]; [split; [constructor|split; [cbn; tauto|reflexivity]]|]. rewrite existsb_in. destruct (in_dec bytes_eq_dec p seen) as [Hs|Hs].
    - destruct (IH seen) as (A & B & C). split; [exact A|]. split.
      + intros x. rewrite B. cbn. split; [tauto|]. intros ([->|X] & Y); [contradiction|tauto].
      + intros N. inversion N as [|? ? X _]. exfalso. apply X. apply in_app_iff. tauto.
    - destruct (IH (p :: seen)) as (A & B & C). split; [constructor; [rewrite B; cbn; tauto|exact A]|]. split.
      + intros x. cbn [In]. rewrite B. cbn [In]. split; [intros [->|(X & Y)]; tauto|]. intros ([->|X] & Y); [tauto|]. destruct (bytes_eq_dec p x); tauto.
      + intros N. f_equal. apply C. cbn [app] in N. apply NoDup_cons_iff in N as (N1 & N2). apply NoDup_Add with (a := p) (l := l ++ seen); [apply Add_app|]. split; assumption. }
  destruct (H s []) as (A & B & C). split; [exact A|]. split; [intros x; rewrite (B x); cbn; tauto|]. intros N. apply C. rewrite app_nil_r. exact N.
Qed.
Example C101_example : ~ In ","%char (bs "x y") /\ trim_space (bs "x y") = bs "x y" /\ slice_value_unique [bs "b"; bs "a"; bs "b"] = [bs "b"; bs "a"].
Proof. split; [intros H; repeat (destruct H as [H|H]; [discriminate H|]); exact H|]. split; vm_compute; reflexivity. Qed.

Print Assumptions C57_first_nonempty.
Print Assumptions C57_env_key_shared_refuted.
Print Assumptions C60_default_partial.
Print Assumptions C60_default_refuted.
Print Assumptions C61_bind_partial.
Print Assumptions C61_no_configer.
Print Assumptions C61_bind_refuted.
Print Assumptions C102_decode_partial.
Print Assumptions C102_decode_refuted.
Print Assumptions C62_later_files_win.
Print Assumptions C62_dir_again_refuted.
Print Assumptions C101_set_splits_refuted.
Print Assumptions C101_set_partial.
Print Assumptions C101_unique.
Print Assumptions C57_env_name.
