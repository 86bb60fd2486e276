(** ConvFacts: what converting a string to a type means, and that ConvModel does it. *)
From Coq Require Import List Ascii String Bool Arith ZArith Lia.
Import ListNotations.
From Verif Require Import GoStr GoTy GoNum RouterModel ConvModel.

Section S.
  Variable F : Type.
  Variable fzero : F.
  Variable parse_float : nat -> bytes -> option F.
  Notation gval := (gval F).

  Definition fits_int (w : nat) (n : Z) : Prop := (- 2 ^ (Z.of_nat w - 1) <= n < 2 ^ (Z.of_nat w - 1))%Z.
  Definition fits_uint (w : nat) (n : Z) : Prop := (0 <= n < 2 ^ Z.of_nat w)%Z.
  Definition true_words : list bytes := [bs "1"; bs "t"; bs "T"; bs "TRUE"; bs "true"; bs "True"; bs "on"].
  Definition false_words : list bytes := [bs "0"; bs "f"; bs "F"; bs "FALSE"; bs "false"; bs "False"].

  (** [reads t p v]: text [p] read as type [t] is [v]; what cannot be read is
      the zero value *)
  Inductive reads : gty -> bytes -> gval -> Prop :=
  | rd_true : forall p, In p true_words -> reads TBool p (VBool F true)
  | rd_false : forall p, ~ In p true_words -> reads TBool p (VBool F false)
  | rd_int : forall w p n, int_denotes p n -> fits_int w n -> reads (TInt w) p (VInt F w n)
  | rd_int0 : forall w p, (forall n, int_denotes p n -> ~ fits_int w n) -> reads (TInt w) p (VInt F w 0)
  | rd_uint : forall w p n, nat_denotes p n -> fits_uint w n -> reads (TUint w) p (VUint F w n)
  | rd_uint0 : forall w p, (forall n, nat_denotes p n -> ~ fits_uint w n) -> reads (TUint w) p (VUint F w 0)
  | rd_word : forall p n, nat_denotes p n -> fits_uint 32 n -> reads TUintWord p (VUintWord F n)
  | rd_word0 : forall p, (forall n, nat_denotes p n -> ~ fits_uint 32 n) -> reads TUintWord p (VUintWord F 0)
  | rd_float : forall w p f, parse_float w p = Some f -> reads (TFloat w) p (VFloat F w f)
  | rd_float0 : forall w p, parse_float w p = None -> reads (TFloat w) p (VFloat F w fzero)
  | rd_str : forall p, reads TString p (VStr F p)
  | rd_bytes : forall p, reads TBytes p (VBytes F (Some p))
  | rd_strs : forall p, reads TStrings p (VStrs F (Some (filter (fun x => negb (is_nil x)) (map trim_space (split_byte ","%char p)))))
  | rd_other : forall p, reads TOther p (VZero F TOther).

  (** types the conversion handles: not pointers, not slices other than []byte
      and []string; integer widths are 8 to 64 *)
  Definition plain (t : gty) : Prop :=
    match t with
    | TPtr _ | TSliceOther => False
    | TInt w | TUint w => (2 <= w)%nat
    | _ => True
    end.

  Lemma strto_bool_spec p : strto_bool p =
    (if in_dec bytes_eq_dec p true_words then (true, None)
     else if in_dec bytes_eq_dec p false_words then (false, None) else (false, Some ESyntax)).
  Proof.
    unfold strto_bool, parse_bool.
    assert (G : forall l, existsb (beq p) l = if in_dec bytes_eq_dec p l then true else false).
    { intros l. destruct (in_dec bytes_eq_dec p l) as [H|H].
      - apply existsb_exists. exists p. split; [exact H|apply beq_refl].
      - destruct (existsb (beq p) l) eqn:E; [|reflexivity]. apply existsb_exists in E as (x & Hx & E).
        apply beq_true in E. subst. contradiction. }
    destruct (beq_spec p (bs "on")) as [->|Hn].
    - destruct (in_dec bytes_eq_dec (bs "on") true_words) as [_|H]; [reflexivity|]. exfalso. apply H. cbn. tauto.
    - rewrite !G. fold false_words.
      destruct (in_dec bytes_eq_dec p [bs "1"; bs "t"; bs "T"; bs "TRUE"; bs "true"; bs "True"]) as [H|H],
               (in_dec bytes_eq_dec p true_words) as [H'|H']; try reflexivity.
      + exfalso. apply H'. unfold true_words. cbn in *. tauto.
      + exfalso. apply H. unfold true_words in H'. cbn in *. intuition congruence.
      + destruct (in_dec bytes_eq_dec p false_words); reflexivity.
  Qed.

  Lemma strip_int_spec w p : (2 <= w)%nat ->
    (exists n, int_denotes p n /\ fits_int w n /\ strip_int (Z.of_nat w) p = (n, None)) \/
    ((forall n, int_denotes p n -> ~ fits_int w n) /\ exists e, strip_int (Z.of_nat w) p = (0%Z, Some e)).
  Proof.
    intros Hw. unfold strip_int. destruct (parse_int (Z.of_nat w) p) as [n [e|]] eqn:E.
    - right. split; [|eauto]. intros m Hm Hf.
      assert (parse_int (Z.of_nat w) p = (m, None)) by (apply parse_int_ok; [lia|]; split; assumption). congruence.
    - left. apply parse_int_ok in E as [H1 H2]; [|lia]. exists n. split; [exact H1|]. split; [exact H2|reflexivity].
  Qed.
  Lemma strip_uint_spec w p :
    (exists n, nat_denotes p n /\ fits_uint w n /\ strip_uint (Z.of_nat w) p = (n, None)) \/
    ((forall n, nat_denotes p n -> ~ fits_uint w n) /\ exists e, strip_uint (Z.of_nat w) p = (0%Z, Some e)).
  Proof.
    unfold strip_uint. destruct (parse_uint (Z.of_nat w) p) as [n [e|]] eqn:E.
    - right. split; [|eauto]. intros m Hm [_ Hf].
      assert (parse_uint (Z.of_nat w) p = (m, None)) by (apply parse_uint_ok; [lia|]; split; assumption). congruence.
    - left. apply parse_uint_ok in E as [H1 H2]; [|lia]. exists n. split; [exact H1|].
      split; [split; [eapply nat_denotes_nonneg; eauto|exact H2]|reflexivity].
  Qed.

  Lemma convert_as_reads t p : plain t ->
    exists o, convert_as F fzero parse_float p t = Ok o /\
      reads t p (match o with Some v => v | None => zero_of F fzero t end) /\
      type_of F (match o with Some v => v | None => zero_of F fzero t end) = t.
  Proof.
    intros Hp. unfold convert_as. destruct t; cbn [indirect plain] in *; try contradiction;
      (eexists; split; [reflexivity|]; split; [|reflexivity]).
    - rewrite strto_bool_spec. destruct (in_dec bytes_eq_dec p true_words) as [H|H]; [apply rd_true; exact H|].
      destruct (in_dec bytes_eq_dec p false_words); apply rd_false; exact H.
    - destruct (strip_int_spec w p Hp) as [(n & A & B & ->)|(A & e & ->)]; [eapply rd_int; eauto|apply rd_int0; exact A].
    - destruct (strip_uint_spec w p) as [(n & A & B & ->)|(A & e & ->)]; [eapply rd_uint; eauto|apply rd_uint0; exact A].
    - unfold strip_uint_word. destruct (strip_uint_spec 32 p) as [(n & A & B & E)|(A & e & E)];
        change (Z.of_nat 32) with 32%Z in E; rewrite E; [eapply rd_word; eauto|apply rd_word0; exact A].
    - destruct (parse_float w p) eqn:E; [apply rd_float; exact E|apply rd_float0; exact E].
    - apply rd_str.
    - apply rd_bytes.
    - apply rd_strs.
    - apply rd_other.
  Qed.

  (** ** The arguments of a struct action *)
  Lemma call_args_spec tys : forall i ps, Forall plain tys ->
    exists args, call_args F fzero parse_float i tys ps = Ok args /\ map (type_of F) args = tys /\
      forall k t, nth_error tys k = Some t ->
        exists v, nth_error args k = Some v /\
          match nth_error ps (i + k) with
          | Some (_, p) => reads t p v
          | None => v = zero_of F fzero t
          end.
  Proof.
    induction tys as [|t tys IH]; intros i ps Hp.
    - exists []. split; [reflexivity|]. split; [reflexivity|]. intros [|k]; discriminate.
    - inversion Hp as [|? ? Ht Hts]; subst. destruct (IH (S i) ps Hts) as (args & E & T & N). cbn [call_args]. rewrite E.
      destruct (nth_error ps i) as [[nm p]|] eqn:Ep.
      + destruct (convert_as_reads t p Ht) as (o & -> & R & Ty). cbn [bind].
        eexists. split; [reflexivity|]. split; [cbn [map]; rewrite Ty, T; reflexivity|].
        intros [|k] t' Hk; cbn [nth_error] in *.
        * injection Hk as <-. eexists. split; [reflexivity|]. rewrite Nat.add_0_r, Ep. exact R.
        * rewrite Nat.add_succ_r. exact (N k t' Hk).
      + cbn [bind]. eexists. split; [reflexivity|]. split.
        * cbn [map]. rewrite T. f_equal. destruct t; cbn [plain] in Ht; try contradiction; reflexivity.
        * intros [|k] t' Hk; cbn [nth_error] in *.
          -- injection Hk as <-. eexists. split; [reflexivity|]. rewrite Nat.add_0_r, Ep. reflexivity.
          -- rewrite Nat.add_succ_r. exact (N k t' Hk).
  Qed.

  Lemma all_types_ok args : forall tys, map (type_of F) args = tys -> all_types F tys args = true.
  Proof.
    induction args as [|a args IH]; intros tys <-; [reflexivity|]. cbn [map all_types].
    unfold gty_eqb. destruct (gty_eq_dec (type_of F a) (type_of F a)); [|congruence]. apply IH. reflexivity.
  Qed.

  (** ** The cached argument types belong to the stored action *)
  Lemma ensure_cached c a c' : c_kind c = KStruct -> ensure_action c a = Ok c' ->
    aget (c_methods c') a = Some (c_cached c') /\ c_kind c' = KStruct.
  Proof.
    unfold ensure_action. intros ->. destruct (aget (c_methods c) a) eqn:E; [|discriminate]. intros [= <-]. cbn. auto.
  Qed.
  Definition cache_ok (a : margs) : Prop :=
    c_kind (ma_ctl a) = KStruct ->
    ma_action a <> [] -> aget (c_methods (ma_ctl a)) (ma_action a) = Some (c_cached (ma_ctl a)).
  Lemma calc_opts_cached os : forall a a', cache_ok a -> calc_opts a os = Ok a' ->
    cache_ok a' /\ (c_kind (ma_ctl a) = KStruct -> c_kind (ma_ctl a') = KStruct) /\
    (c_kind (ma_ctl a') = KStruct -> c_kind (ma_ctl a) = KStruct).
  Proof.
    induction os as [|o os IH]; intros a a' Hc E; cbn [calc_opts] in E.
    - injection E as <-. auto.
    - destruct o as [n|fs|fs].
      + destruct (ensure_action (ma_ctl a) n) as [c|] eqn:Ec; [|discriminate]. cbn [bind] in E.
        assert (Hk : c_kind c = c_kind (ma_ctl a)).
        { unfold ensure_action in Ec. destruct (c_kind (ma_ctl a)) eqn:Ek.
          - destruct (is_nil n); [injection Ec as <-; exact Ek|discriminate].
          - destruct (is_nil n); [injection Ec as <-; exact Ek|discriminate].
          - destruct (aget (c_methods (ma_ctl a)) n); [injection Ec as <-; reflexivity|discriminate]. }
        apply IH in E.
        * cbn [ma_ctl] in E. rewrite Hk in E. exact E.
        * intros Hks _. cbn [ma_ctl ma_action] in *. rewrite Hk in Hks. apply (ensure_cached _ _ _ Hks Ec).
      + apply IH in E; [exact E|]. exact Hc.
      + apply IH in E; [exact E|]. exact Hc.
  Qed.
  Lemma mk_raction_cached fs c m os ra : mk_raction fs c m os = Ok ra -> c_kind (ra_ctl ra) = KStruct ->
    ra_action ra <> [] -> aget (c_methods (ra_ctl ra)) (ra_action ra) = Some (c_cached (ra_ctl ra)).
  Proof.
    unfold mk_raction, calc_method. intros H Hk Ha.
    destruct (calc_opts (MArgs c [] [] []) os) as [a|] eqn:Eo; [|discriminate]. cbn [bind] in H.
    assert (H0 : cache_ok (MArgs c [] [] [])) by (intros _ E; exfalso; apply E; reflexivity).
    destruct (calc_opts_cached os _ _ H0 Eo) as (Hc & _ & _).
    assert (Hens : forall c0 a0 c1, ensure_action c0 a0 = Ok c1 -> c_kind c1 = KStruct -> aget (c_methods c1) a0 = Some (c_cached c1)).
    { intros c0 a0 c1 He Hk1. apply (ensure_cached c0); [|exact He]. unfold ensure_action in He.
      destruct (c_kind c0) eqn:Ek; [destruct (is_nil a0)|destruct (is_nil a0)|reflexivity];
        try discriminate; injection He as <-; congruence. }
    destruct (is_nil (ma_action a) && negb (is_func (ma_ctl a)) && negb (is_all m) && negb (is_any m)) eqn:Eb.
    - destruct (ensure_action (ma_ctl a) (meth_action m)) as [c'|] eqn:Ee; [|discriminate]. cbn [bind] in H.
      apply andb_true_iff in Eb as [Eb E4]. apply andb_true_iff in Eb as [Eb E3]. apply andb_true_iff in Eb as [E1 E2].
      apply negb_true_iff in E3, E4. unfold finish in H. rewrite E3, E4 in H. cbn [ma_action ma_ctl] in H. rewrite E1 in H.
      injection H as <-. cbn [ra_ctl ra_action] in *. eapply Hens; eauto.
    - cbn [bind] in H. unfold finish in H. destruct (is_all m) eqn:Eall.
      + match type of H with (do c' <- (if is_nil ?x then _ else _); _) = _ => set (act := x) in * end.
        destruct (is_nil act) eqn:En; cbn [bind] in H.
        * injection H as <-. cbn [ra_action] in Ha. destruct act; [congruence|discriminate].
        * destruct (ensure_action (ma_ctl a) act) as [c'|] eqn:Ee; [|discriminate]. injection H as <-.
          cbn [ra_ctl ra_action] in *. eapply Hens; eauto.
      + destruct (is_any m) eqn:Eany.
        * match type of H with (do c' <- (if is_nil ?x then _ else _); _) = _ => set (act := x) in * end.
          destruct (is_nil act) eqn:En; cbn [bind] in H.
          -- injection H as <-. cbn [ra_action] in Ha. destruct act; [congruence|discriminate].
          -- destruct (ensure_action (ma_ctl a) act) as [c'|] eqn:Ee; [|discriminate]. injection H as <-.
             cbn [ra_ctl ra_action] in *. eapply Hens; eauto.
        * injection H as <-. cbn [ra_ctl ra_action] in *.
          destruct (is_nil (ma_action a)) eqn:En; [|apply Hc; [exact Hk|destruct (ma_action a); congruence]].
          exfalso. cbn [andb negb] in Eb. unfold is_func in Eb. rewrite Hk in Eb. discriminate.
  Qed.
End S.
