(** Props_Time: C152, C153, about the time and float parameters of /repo/params. *)
From Coq Require Import List Ascii String Bool Arith ZArith Lia Permutation.
Import ListNotations.
From Verif Require Import GoStr GoNum RouterModel ConvModel ParamsModel Props_Params TimeModel.

Set Default Proof Using "Type".

(** ** C152: which text becomes which float or time, for any float reader and any formats *)
Section Oracle.
  Variable F T : Type.
  Variable fzero : F.
  Variable tzero : T.
  Variable parse_float : bytes -> option F.
  Variable round_float : nat -> F -> F.
  Variable formats : list bytes.
  Variable parse_zone parse_local : bytes -> bytes -> option T.
  Variable unix : Z -> T.
  Variable json_map : bytes -> list (bytes * bytes).
  Notation binds := (binds F T fzero tzero parse_float round_float formats parse_zone parse_local unix json_map).

  (** the first value submitted, if any *)
  Theorem C152_float : forall w p name r, binds (PFloat w) p name r ->
    match vals (p_vals p) name with
    | [] => r = Ok (PVFloat F T fzero)
    | v :: _ => (v = [] /\ r = Ok (PVFloat F T fzero)) \/
                (v <> [] /\ parse_float v = None /\ r = Ok (PVFloat F T fzero)) \/
                (v <> [] /\ exists f, parse_float v = Some f /\ r = Ok (PVFloat F T (round_float w f)))
    end.
  Proof.
    intros w p name r H. apply C63_first_value_is_bound in H; [|reflexivity]. destruct (vals (p_vals p) name) as [|v l]; [exact H|].
    cbn in H. unfold value_binder in H. cbn in H. unfold bind_float in H. destruct v as [|c v]; [left; auto|right]. cbn [is_nil] in H.
    destruct (parse_float (c :: v)) as [f|]; [right|left]; (split; [discriminate|]); [exists f; auto|auto].
  Qed.

  (** [has sub f]: the text sub occurs in f *)
  Definition has (sub f : bytes) : Prop := exists a b, f = a ++ sub ++ b.
  (** how one format reads a text: as of the zone in the text if the format has one, else as local time *)
  Definition format_reads (f v : bytes) (o : option T) : Prop :=
    (f = [] /\ o = None) \/
    (f <> [] /\ (has (bs "07") f \/ has (bs "MST") f) /\ o = parse_zone f v) \/
    (f <> [] /\ ~ (has (bs "07") f \/ has (bs "MST") f) /\ o = parse_local f v).
  Definition none_reads (fs : list bytes) (v : bytes) : Prop := Forall (fun f => format_reads f v None) fs.
  Inductive time_text (v : bytes) : T -> Prop :=
  | tt_format : forall before f after t, formats = before ++ f :: after -> none_reads before v -> format_reads f v (Some t) -> time_text v t
  | tt_unix : forall n, none_reads formats v -> int_denotes v n -> (- 2 ^ 63 <= n < 2 ^ 63)%Z -> time_text v (unix n)
  | tt_zero : none_reads formats v -> (forall n, int_denotes v n -> ~ (- 2 ^ 63 <= n < 2 ^ 63)%Z) -> time_text v tzero.

  Lemma contains_has f sub : contains f sub = true <-> has sub f.
  Proof.
    split.
    - unfold contains. destruct (index_sub f sub) as [i|] eqn:E; [|discriminate]. intros _. revert i E. induction f as [|c f IH]; intros i E.
      + destruct sub; [exists [], []; reflexivity|discriminate].
      + cbn [index_sub] in E. destruct (has_prefix (c :: f) sub) eqn:Ep.
        * apply has_prefix_spec in Ep as (b & Ep). exists [], b. exact Ep.
        * destruct (index_sub f sub) as [j|]; [|discriminate]. destruct (IH j eq_refl) as (a & b & ->). exists (c :: a), b. reflexivity.
    - intros (a & b & ->). unfold contains. assert (X : exists i, index_sub (a ++ sub ++ b) sub = Some i).
      { induction a as [|c a (i & IH)]; cbn [app].
        - assert (P : has_prefix (sub ++ b) sub = true) by (apply has_prefix_spec; exists b; reflexivity).
          destruct (sub ++ b) as [|c s] eqn:Es; [destruct sub; [exists 0; reflexivity|discriminate]|]. cbn [index_sub]. rewrite P. exists 0. reflexivity.
        - cbn [index_sub]. destruct (has_prefix (c :: a ++ sub ++ b) sub); [exists 0; reflexivity|]. rewrite IH. exists (S i). reflexivity. }
      destruct X as (i & ->). reflexivity.
  Qed.
  Lemma format_reads_is f v : format_reads f v (if is_nil f then None else if (contains f (bs "07") || contains f (bs "MST"))%bool then parse_zone f v else parse_local f v).
  Proof.
    destruct f as [|c f]; [left; auto|right]. cbn [is_nil]. pose proof (contains_has (c :: f) (bs "07")) as A. pose proof (contains_has (c :: f) (bs "MST")) as B.
    destruct (contains (c :: f) (bs "07")); cbn [orb]; [left; split; [discriminate|]; split; [left; apply A; reflexivity|reflexivity]|].
    destruct (contains (c :: f) (bs "MST")); [left; split; [discriminate|]; split; [right; apply B; reflexivity|reflexivity]|].
    right. split; [discriminate|]. split; [|reflexivity]. intros [X|X]; [apply A in X|apply B in X]; discriminate.
  Qed.
  Lemma try_formats_some fs v : match try_formats T parse_zone parse_local fs v with
    | Some t => exists b f a, fs = b ++ f :: a /\ none_reads b v /\ format_reads f v (Some t)
    | None => none_reads fs v end.
  Proof.
    induction fs as [|f fs IH]; [constructor|]. cbn [try_formats]. pose proof (format_reads_is f v) as R. destruct (is_nil f).
    - destruct (try_formats T parse_zone parse_local fs v) as [t|]; [|constructor; assumption]. destruct IH as (b & g & a & -> & H1 & H2). exists (f :: b), g, a. split; [reflexivity|]. split; [constructor; assumption|exact H2].
    - destruct (if (contains f (bs "07") || contains f (bs "MST"))%bool then parse_zone f v else parse_local f v) as [t|].
      + exists [], f, fs. split; [reflexivity|]. split; [constructor|exact R].
      + destruct (try_formats T parse_zone parse_local fs v) as [t|]; [|constructor; assumption]. destruct IH as (b & g & a & -> & H1 & H2). exists (f :: b), g, a. split; [reflexivity|]. split; [constructor; assumption|exact H2].
  Qed.
  Theorem C152_time : forall p name r, binds PTime p name r ->
    match vals (p_vals p) name with
    | [] => r = Ok (PVTime F T tzero)
    | v :: _ => exists t, time_text v t /\ r = Ok (PVTime F T t)
    end.
  Proof.
    intros p name r H. apply C63_first_value_is_bound in H; [|reflexivity]. destruct (vals (p_vals p) name) as [|v l]; [exact H|].
    cbn in H. unfold value_binder in H. cbn in H. unfold bind_time in H. pose proof (try_formats_some formats v) as S.
    destruct (try_formats T parse_zone parse_local formats v) as [t|].
    - destruct S as (b & f & a & E & H1 & H2). exists t. split; [exact (tt_format v b f a t E H1 H2)|exact H].
    - destruct (parse_int 64 v) as (z & [e|]) eqn:E.
      + exists tzero. split; [|exact H]. apply tt_zero; [exact S|]. intros n Hd Hf. assert (X : parse_int 64 v = (n, None)) by (apply parse_int_ok; [lia|split; [exact Hd|exact Hf]]). rewrite E in X. discriminate.
      + apply parse_int_ok in E as (Hd & Hf); [|lia]. exists (unix z). split; [exact (tt_unix v z S Hd Hf)|exact H].
  Qed.
  (** it is determined by the text *)
  Lemma format_reads_fun f v o o' : format_reads f v o -> format_reads f v o' -> o = o'.
  Proof. intros [(E & ->)|[(E & H & ->)|(E & H & ->)]] [(E' & ->)|[(E' & H' & ->)|(E' & H' & ->)]]; congruence || contradiction || reflexivity. Qed.
  Theorem C152_one_time : forall v t t', time_text v t -> time_text v t' -> t = t'.
  Proof.
    assert (D : forall v b f a t b' f' a' t', b ++ f :: a = b' ++ f' :: a' -> none_reads b v -> none_reads b' v -> format_reads f v (Some t) -> format_reads f' v (Some t') -> t = t').
    { intros v b. induction b as [|x b IH]; intros f a t [|x' b'] f' a' t' E Hb Hb' Hf Hf'; cbn [app] in E; injection E as E1 E2; subst.
      - pose proof (format_reads_fun _ _ _ _ Hf Hf') as X. injection X as ->. reflexivity.
      - inversion Hb' as [|? ? X _]; subst. pose proof (format_reads_fun _ _ _ _ Hf X). discriminate.
      - inversion Hb as [|? ? X _]; subst. pose proof (format_reads_fun _ _ _ _ Hf' X). discriminate.
      - inversion Hb; inversion Hb'; subst. eapply IH; eassumption. }
    assert (N : forall v b f a t, formats = b ++ f :: a -> none_reads formats v -> format_reads f v (Some t) -> False).
    { intros v b f a t E Hn Hf. rewrite E in Hn. apply Forall_app in Hn as (_ & Hn). inversion Hn as [|? ? X _]; subst. pose proof (format_reads_fun _ _ _ _ Hf X). discriminate. }
    intros v t t' [b f a t0 E Hb Hf|n Hn Hd Hr|Hn Hz] [b' f' a' t0' E' Hb' Hf'|n' Hn' Hd' Hr'|Hn' Hz'].
    - eapply D; [rewrite <- E; exact E'|..]; eassumption.
    - exfalso. eauto.
    - exfalso. eauto.
    - exfalso. eauto.
    - f_equal. assert (X : forall m, int_denotes v m -> (- 2 ^ 63 <= m < 2 ^ 63)%Z -> parse_int 64 v = (m, None)) by (intros m A B; apply parse_int_ok; [lia|split; assumption]).
      pose proof (X n Hd Hr) as X1. rewrite (X n' Hd' Hr') in X1. injection X1 as ->. reflexivity.
    - exfalso. exact (Hz' n Hd Hr).
    - exfalso. eauto.
    - exfalso. exact (Hz n' Hd' Hr').
    - reflexivity.
  Qed.
  (** what the parameters nobody submitted become *)
  Theorem C152_zero_values : forall p name, vals (p_vals p) name = [] ->
    (forall r, binds PBool p name r -> r = Ok (PVBool F T false)) /\ (forall w r, binds (PInt w) p name r -> r = Ok (PVInt F T 0)) /\
    (forall w r, binds (PUint w) p name r -> r = Ok (PVUint F T 0)) /\ (forall w r, binds (PFloat w) p name r -> r = Ok (PVFloat F T fzero)) /\
    (forall r, binds PString p name r -> r = Ok (PVStr F T [])) /\ (forall r, binds PTime p name r -> r = Ok (PVTime F T tzero)) /\
    (forall e r, binds (PPtr e) p name r -> r = Ok (PVNil F T)).
  Proof.
    intros p name E. repeat split; intros; match goal with H : ParamsModel.binds _ _ _ _ _ _ _ _ _ _ _ ?t _ _ _ |- _ => try (apply C63_first_value_is_bound in H; [|reflexivity]; rewrite E in H; exact H) end.
    cbn in H. unfold ptr_binder in H. unfold vals in E. destruct (aget (p_vals p) name) as [[|? ?]|]; [exact H|discriminate|exact H].
  Qed.
End Oracle.

(** a case: two formats, the first one empty; the second reads only "x", the text 7 is a number of seconds *)
Example C152_case : exists r, binds unit nat tt 0 (fun _ => None) (fun _ f => f) [[]; bs "2006"] (fun _ _ => None) (fun _ v => if beq v (bs "x") then Some 5 else None) (fun z => if Z.eqb z 7 then 107 else 0) (fun _ => [])
    PTime (mkParams [(bs "t", [bs "7"])] []) (bs "t") r /\ r = Ok (PVTime unit nat 107) /\
  time_text nat 0 [[]; bs "2006"] (fun _ _ => None) (fun _ v => if beq v (bs "x") then Some 5 else None) (fun z => if Z.eqb z 7 then 107 else 0) (bs "x") 5.
Proof.
  exists (Ok (PVTime unit nat 107)). split; [|split; [reflexivity|]]; [cbn; reflexivity|]. apply (tt_format nat 0 _ _ _ _ (bs "x") [[]] (bs "2006") [] 5); [reflexivity|repeat constructor|].
  right. right. split; [discriminate|]. split; [|reflexivity]. intros [H|H]; apply contains_has in H; discriminate H.
Qed.

(** ** C153: the formats the package starts with *)
(** *** Specification *)
(** k digits standing for n *)
Definition num (k : nat) (s : bytes) (n : Z) : Prop := List.length s = k /\ nat_denotes s n.
Definition leap (y : Z) : Prop := ((4 | y) /\ ~ (100 | y))%Z \/ (400 | y)%Z.
Inductive month_len (y : Z) : Z -> Z -> Prop :=
| ml_31 : forall m, In m [1; 3; 5; 7; 8; 10; 12]%Z -> month_len y m 31
| ml_30 : forall m, In m [4; 6; 9; 11]%Z -> month_len y m 30
| ml_28 : ~ leap y -> month_len y 2 28
| ml_29 : leap y -> month_len y 2 29.
Inductive date_text : bytes -> Z -> Z -> Z -> Prop :=
| date_is : forall a b c y m d l, num 4 a y -> num 2 b m -> num 2 c d -> month_len y m l -> (1 <= d <= l)%Z ->
    date_text (a ++ bs "-" ++ b ++ bs "-" ++ c) y m d.
(** an hour has one or two digits *)
Definition hour_text (s : bytes) (h : Z) : Prop := (num 2 s h \/ num 1 s h) /\ (h < 24)%Z.
Definition sixty (s : bytes) (n : Z) : Prop := num 2 s n /\ (n < 60)%Z.

Section Formats.
  Variable comma : bool.
  Variable nanos offset : bytes -> option Z.
  (** a fraction of a second, or nothing *)
  Inductive fraction : bytes -> Z -> Prop :=
  | fr_none : fraction [] 0
  | fr_some : forall p ds ns, p = "."%char \/ (comma = true /\ p = ","%char) -> ds <> [] -> Forall is_digit ds -> nanos ds = Some ns -> fraction (p :: ds) ns.
  Inductive clock_text : bytes -> Z -> Z -> Z -> Z -> Prop :=
  | clock_is : forall a b c f h mi s ns, hour_text a h -> sixty b mi -> sixty c s -> fraction f ns -> clock_text (a ++ bs ":" ++ b ++ bs ":" ++ c ++ f) h mi s ns.
  Inductive zone_text : bytes -> Z -> Prop :=
  | zone_utc : zone_text (bs "Z") 0
  | zone_off : forall sg a b o, sg = "+"%char \/ sg = "-"%char -> List.length a = 2 -> List.length b = 2 -> offset (sg :: a ++ bs ":" ++ b) = Some o -> zone_text (sg :: a ++ bs ":" ++ b) o.
  Inductive blanks1 : bytes -> Prop := b1_one : blanks1 (bs " ") | b1_more : forall s, blanks1 s -> blanks1 (bs " " ++ s).
  (** the texts of a time, and the time: a date; a date and a time of day with seconds; RFC 3339; and a date and an hour followed by :0 *)
  Inductive says : bytes -> civil -> Prop :=
  | says_date : forall v y m d, date_text v y m d -> says v (mkCivil y m d 0 0 0 0 None)
  | says_hour : forall dt bl hr y m d h, date_text dt y m d -> blanks1 bl -> hour_text hr h -> says (dt ++ bl ++ hr ++ bs ":0") (mkCivil y m d h 0 0 0 None)
  | says_clock : forall dt bl ck y m d h mi s ns, date_text dt y m d -> blanks1 bl -> clock_text ck h mi s ns -> says (dt ++ bl ++ ck) (mkCivil y m d h mi s ns None)
  | says_rfc : forall dt ck zn y m d h mi s ns o, date_text dt y m d -> clock_text ck h mi s ns -> zone_text zn o -> says (dt ++ bs "T" ++ ck ++ zn) (mkCivil y m d h mi s ns (Some o)).

  (** *** Facts *)
  Notation parse_chunk := (parse_chunk comma nanos offset).
  Notation parse_chunks := (parse_chunks comma nanos offset).
  Notation parse_layout := (parse_layout comma nanos offset).

  Lemma num1 s n : num 1 s n <-> exists c, s = [c] /\ digit_val c = Some n.
  Proof.
    unfold num. rewrite nat_denotes_dval. split.
    - intros (L & _ & D). destruct s as [|c [|? ?]]; try discriminate. exists c. split; [reflexivity|]. cbn in D. destruct (digit_val c); [injection D as <-; reflexivity|discriminate].
    - intros (c & -> & D). cbn. rewrite D. split; [reflexivity|]. split; [discriminate|reflexivity].
  Qed.
  Lemma num2 s n : num 2 s n <-> exists c c2 d d2, s = [c; c2] /\ digit_val c = Some d /\ digit_val c2 = Some d2 /\ n = (d * 10 + d2)%Z.
  Proof.
    unfold num. rewrite nat_denotes_dval. split.
    - intros (L & _ & D). destruct s as [|c [|c2 [|? ?]]]; try discriminate. cbn in D. destruct (digit_val c) as [d|] eqn:E1; [|discriminate]. destruct (digit_val c2) as [d2|] eqn:E2; [|discriminate]. injection D as <-.
      exists c, c2, d, d2. repeat split; try assumption.
    - intros (c & c2 & d & d2 & -> & D1 & D2 & ->). cbn. rewrite D1, D2. split; [reflexivity|]. split; [discriminate|reflexivity].
  Qed.
  Definition no_digit (s : bytes) : Prop := match s with c :: _ => digit_val c = None | [] => True end.
  Lemma getnum_fixed s n r : getnum true s = Some (n, r) <-> exists d, s = d ++ r /\ num 2 d n.
  Proof.
    split.
    - intros H. destruct s as [|c s]; [discriminate|]. cbn [getnum] in H. destruct (digit_val c) as [d|] eqn:E; [|discriminate]. destruct s as [|c2 s]; [discriminate|]. destruct (digit_val c2) as [d2|] eqn:E2; [|discriminate].
      injection H as <- <-. exists [c; c2]. split; [reflexivity|]. apply num2. exists c, c2, d, d2. auto.
    - intros (d & -> & N). apply num2 in N as (c & c2 & x & y & -> & E1 & E2 & ->). cbn. rewrite E1, E2. reflexivity.
  Qed.
  Lemma getnum_free s n r : getnum false s = Some (n, r) <-> exists d, s = d ++ r /\ (num 2 d n \/ (num 1 d n /\ no_digit r)).
  Proof.
    split.
    - intros H. destruct s as [|c s]; [discriminate|]. cbn [getnum] in H. destruct (digit_val c) as [d|] eqn:E; [|discriminate]. destruct s as [|c2 s].
      + injection H as <- <-. exists [c]. split; [reflexivity|]. right. split; [apply num1; exists c; auto|exact Logic.I].
      + destruct (digit_val c2) as [d2|] eqn:E2.
        * injection H as <- <-. exists [c; c2]. split; [reflexivity|]. left. apply num2. exists c, c2, d, d2. auto.
        * injection H as <- <-. exists [c]. split; [reflexivity|]. right. split; [apply num1; exists c; auto|exact E2].
    - intros (d & -> & [N|(N & Hr)]).
      + apply num2 in N as (c & c2 & x & y & -> & E1 & E2 & ->). cbn. rewrite E1, E2. reflexivity.
      + apply num1 in N as (c & -> & E1). cbn. rewrite E1. destruct r as [|c2 r]; [reflexivity|]. cbn in Hr. rewrite Hr. reflexivity.
  Qed.
  Lemma num_nonneg k s n : num k s n -> (0 <= n)%Z.
  Proof. intros (_ & H). exact (nat_denotes_nonneg _ _ H). Qed.
  Lemma below fixed lo hi s n r : num_below fixed lo hi s = Some (n, r) <-> getnum fixed s = Some (n, r) /\ (lo <= n < hi)%Z.
  Proof.
    unfold num_below. destruct (getnum fixed s) as [(m & q)|]; [|split; [discriminate|intros (X & _); discriminate]].
    destruct (Z.leb_spec lo m); cbn [andb]; [|split; [discriminate|intros (X & Y); injection X as -> ->; lia]].
    destruct (Z.ltb_spec m hi); [split; [intros [= -> ->]; split; [reflexivity|lia]|intros (X & _); exact X]|split; [discriminate|intros (X & Y); injection X as -> ->; lia]].
  Qed.
  Lemma lit_cons c x s t : Ascii.eqb c blank = false -> parse_chunk (CLit c) (x :: s) t = if Ascii.eqb x c then Some (s, t) else None.
  Proof. intros H. destruct t. cbn [TimeModel.parse_chunk]. rewrite H. reflexivity. Qed.
  Lemma lit_nil c t : Ascii.eqb c blank = false -> parse_chunk (CLit c) [] t = None.
  Proof. intros H. destruct t. cbn [TimeModel.parse_chunk]. rewrite H. reflexivity. Qed.
  (** the date at the beginning of every layout *)
  Lemma date_chunks ks s t : parse_chunks ([CYear; CLit "-"%char; CMonth; CLit "-"%char; CDay] ++ ks) s (mkCivil 0 1 1 0 0 0 0 None) = Some t <->
    exists a b c y m d rest, s = a ++ bs "-" ++ b ++ bs "-" ++ c ++ rest /\ num 4 a y /\ num 2 b m /\ num 2 c d /\ (1 <= m <= 12)%Z /\
      parse_chunks ks rest (mkCivil y m d 0 0 0 0 None) = Some t.
  Proof.
    cbn [app TimeModel.parse_chunks]. split.
    - intros H. cbn [TimeModel.parse_chunk] in H. destruct (Nat.ltb_spec (List.length s) 4) as [L|L]; [discriminate|]. cbn [orb] in H. destruct (digit_at s 0); [|discriminate]. cbn [negb] in H.
      destruct (dval 0 (firstn 4 s)) as [y|] eqn:Ey; [|discriminate]. assert (E1 : s = firstn 4 s ++ skipn 4 s) by (symmetry; apply firstn_skipn).
      remember (skipn 4 s) as s1 eqn:X1. clear X1. assert (L4 : List.length (firstn 4 s) = 4) by (rewrite firstn_length; lia).
      destruct s1 as [|x s1]; [rewrite lit_nil in H by reflexivity; discriminate|]. rewrite lit_cons in H by reflexivity. destruct (Ascii.eqb_spec x "-"%char) as [->|]; [|discriminate].
      cbn [TimeModel.parse_chunk] in H. destruct (num_below true 1 13 s1) as [(m & s2)|] eqn:Em; [|discriminate]. apply below in Em as (Em & Rm). apply getnum_fixed in Em as (b & -> & Nb).
      destruct s2 as [|x s2]; [rewrite lit_nil in H by reflexivity; discriminate|]. rewrite lit_cons in H by reflexivity. destruct (Ascii.eqb_spec x "-"%char) as [->|]; [|discriminate].
      cbn [TimeModel.parse_chunk] in H. destruct (getnum true s2) as [(d & s3)|] eqn:Ed; [|discriminate]. apply getnum_fixed in Ed as (c & -> & Nc).
      exists (firstn 4 s), b, c, y, m, d, s3. split; [exact E1|]. split; [|split; [exact Nb|split; [exact Nc|split; [lia|exact H]]]].
      split; [exact L4|]. apply nat_denotes_dval. split; [intros X; rewrite X in L4; discriminate|exact Ey].
    - intros (a & b & c & y & m & d & rest & -> & (L4 & Na) & Nb & Nc & Rm & H).
      cbn [TimeModel.parse_chunk]. destruct (Nat.ltb_spec (List.length (a ++ bs "-" ++ b ++ bs "-" ++ c ++ rest)) 4) as [L|_]; [rewrite app_length in L; lia|]. cbn [orb].
      pose proof (nat_denotes_head _ _ Na) as (c0 & a0 & Ea & (d0 & D0)). assert (X : digit_at (a ++ bs "-" ++ b ++ bs "-" ++ c ++ rest) 0 = true) by (rewrite Ea; cbn; rewrite D0; reflexivity).
      rewrite X. cbn [negb]. apply nat_denotes_dval in Na as (_ & Na). rewrite <- L4, firstn_app_len, Na, skipn_app_len.
      cbn [app bs list_ascii_of_string]. rewrite lit_cons, Ascii.eqb_refl by reflexivity. cbn [TimeModel.parse_chunk]. rewrite (proj2 (below true 1 13 (b ++ "-"%char :: c ++ rest) m ("-"%char :: c ++ rest))); [|split; [apply getnum_fixed; exists b; auto|lia]].
      rewrite lit_cons, Ascii.eqb_refl by reflexivity. cbn [TimeModel.parse_chunk]. rewrite (proj2 (getnum_fixed (c ++ rest) d rest)) by (exists c; auto). exact H.
  Qed.
  Lemma digits_split f : exists ds r, f = ds ++ r /\ Forall is_digit ds /\ no_digit r /\ digits_len f = List.length ds.
  Proof.
    induction f as [|c f (ds & r & E & H1 & H2 & H3)]; [exists [], []; cbn; auto|]. cbn [digits_len]. destruct (digit_val c) as [d|] eqn:Ed.
    - exists (c :: ds), r. rewrite E in *. split; [reflexivity|]. split; [constructor; [exists d; exact Ed|exact H1]|]. split; [exact H2|]. cbn. rewrite H3. reflexivity.
    - exists [], (c :: f). cbn. auto.
  Qed.
  Lemma digits_len_app ds r : Forall is_digit ds -> no_digit r -> digits_len (ds ++ r) = List.length ds.
  Proof.
    intros H Hr. induction H as [|c ds (d & Hd) _ IH]; [destruct r as [|c r]; [reflexivity|cbn in Hr; cbn; rewrite Hr; reflexivity]|]. cbn [app digits_len]. rewrite Hd, IH. reflexivity.
  Qed.
  Lemma is_point_spec p : is_point comma p = true <-> p = "."%char \/ (comma = true /\ p = ","%char).
  Proof.
    unfold is_point. rewrite orb_true_iff, andb_true_iff, !Ascii.eqb_eq. reflexivity.
  Qed.
  Definition starts_point (r : bytes) : Prop := match r with p :: c :: _ => is_point comma p = true /\ is_digit c | _ => False end.
  (** the time of day *)
  Lemma clock_chunks ks s y mo d t : parse_chunks ([CHour; CLit ":"%char; CMinute; CLit ":"%char; CSecond] ++ ks) s (mkCivil y mo d 0 0 0 0 None) = Some t <->
    exists a b c f h mi se ns rest, s = a ++ bs ":" ++ b ++ bs ":" ++ c ++ f ++ rest /\ hour_text a h /\ sixty b mi /\ sixty c se /\ fraction f ns /\
      (f = [] -> ~ starts_point rest) /\ (f <> [] -> no_digit rest) /\ parse_chunks ks rest (mkCivil y mo d h mi se ns None) = Some t.
  Proof.
    cbn [app TimeModel.parse_chunks]. split.
    - intros H. cbn [TimeModel.parse_chunk] in H. destruct (num_below false 0 24 s) as [(h & s1)|] eqn:Eh; [|discriminate]. apply below in Eh as (Eh & Rh). apply getnum_free in Eh as (a & -> & Na).
      destruct s1 as [|x s1]; [rewrite lit_nil in H by reflexivity; discriminate|]. rewrite lit_cons in H by reflexivity. destruct (Ascii.eqb_spec x ":"%char) as [->|]; [|discriminate].
      cbn [TimeModel.parse_chunk] in H. destruct (num_below true 0 60 s1) as [(mi & s2)|] eqn:Em; [|discriminate]. apply below in Em as (Em & Rm). apply getnum_fixed in Em as (b & -> & Nb).
      destruct s2 as [|x s2]; [rewrite lit_nil in H by reflexivity; discriminate|]. rewrite lit_cons in H by reflexivity. destruct (Ascii.eqb_spec x ":"%char) as [->|]; [|discriminate].
      cbn [TimeModel.parse_chunk] in H. destruct (num_below true 0 60 s2) as [(se & s3)|] eqn:Es; [|discriminate]. apply below in Es as (Es & Rs). apply getnum_fixed in Es as (c & -> & Nc).
      assert (A : hour_text a h) by (split; [destruct Na as [Na|(Na & _)]; auto|lia]). assert (B : sixty b mi) by (split; [exact Nb|lia]). assert (C : sixty c se) by (split; [exact Nc|lia]).
      destruct s3 as [|p f].
      + exists a, b, c, [], h, mi, se, 0%Z, []. split; [reflexivity|]. repeat (split; [first [exact A|exact B|exact C|constructor]|]). split; [intros _ X; exact X|]. split; [congruence|exact H].
      + destruct (is_point comma p && digit_at f 0)%bool eqn:Ep.
        * apply andb_true_iff in Ep as (Ep & Ed). destruct (digits_split f) as (ds & r & Ef & Hd & Hr & Hl). subst f. rewrite Hl, firstn_app_len, skipn_app_len in H. destruct (nanos ds) as [k|] eqn:Ek; [|discriminate].
          exists a, b, c, (p :: ds), h, mi, se, k, r. split; [reflexivity|]. split; [exact A|]. split; [exact B|]. split; [exact C|]. split; [|split; [discriminate|split; [intros _; exact Hr|exact H]]].
          constructor; [apply is_point_spec; exact Ep| |exact Hd|exact Ek]. intros ->. cbn [app] in Ed. destruct r as [|x r]; [discriminate|]. cbn in Ed, Hr. rewrite Hr in Ed. discriminate.
        * exists a, b, c, [], h, mi, se, 0%Z, (p :: f). split; [reflexivity|]. split; [exact A|]. split; [exact B|]. split; [exact C|]. split; [constructor|]. split; [|split; [congruence|exact H]].
          intros _ X. cbn in X. destruct f as [|x f]; [exact X|]. destruct X as (X1 & (dd & X2)). rewrite X1 in Ep. cbn in Ep. rewrite X2 in Ep. discriminate.
    - intros (a & b & c & f & h & mi & se & ns & rest & -> & (Na & Rh) & (Nb & Rb) & (Nc & Rc) & Hf & S1 & S2 & H).
      assert (P0 : (0 <= h)%Z) by (destruct Na as [Na|Na]; exact (num_nonneg _ _ _ Na)). pose proof (num_nonneg _ _ _ Nb). pose proof (num_nonneg _ _ _ Nc).
      cbn [app bs list_ascii_of_string]. cbn [TimeModel.parse_chunk].
      rewrite (proj2 (below false 0 24 (a ++ ":"%char :: b ++ ":"%char :: c ++ f ++ rest) h (":"%char :: b ++ ":"%char :: c ++ f ++ rest))); [|split; [apply getnum_free; exists a; split; [reflexivity|destruct Na as [Na|Na]; [left; exact Na|right; split; [exact Na|reflexivity]]]|lia]].
      rewrite lit_cons, Ascii.eqb_refl by reflexivity. cbn [TimeModel.parse_chunk]. rewrite (proj2 (below true 0 60 (b ++ ":"%char :: c ++ f ++ rest) mi (":"%char :: c ++ f ++ rest))); [|split; [apply getnum_fixed; exists b; auto|lia]].
      rewrite lit_cons, Ascii.eqb_refl by reflexivity. cbn [TimeModel.parse_chunk]. rewrite (proj2 (below true 0 60 (c ++ f ++ rest) se (f ++ rest))); [|split; [apply getnum_fixed; exists c; auto|lia]].
      destruct Hf as [|p ds ns Hp Hn Hd Ek].
      + cbn [app]. destruct rest as [|p r]; [exact H|]. destruct (is_point comma p && digit_at r 0)%bool eqn:Ep; [|exact H]. exfalso. apply andb_true_iff in Ep as (Ep & Ed). apply (S1 eq_refl). cbn. destruct r as [|x r]; [discriminate|]. split; [exact Ep|]. cbn in Ed. destruct (digit_val x) as [dd|] eqn:E; [exists dd; exact E|discriminate].
      + cbn [app]. rewrite (proj2 (is_point_spec p) Hp). assert (X : digit_at (ds ++ rest) 0 = true) by (destruct Hd as [|x ds (dd & Hx) _]; [congruence|cbn; rewrite Hx; reflexivity]). rewrite X. cbn [andb].
        rewrite (digits_len_app ds rest Hd (S2 ltac:(discriminate))), firstn_app_len, skipn_app_len, Ek. exact H.
  Qed.
  Lemma days_in_spec m y : (1 <= m <= 12)%Z -> month_len y m (days_in m y).
  Proof.
    intros H. assert (L : is_leap y = true <-> leap y).
    { unfold is_leap, leap. rewrite andb_true_iff, orb_true_iff, negb_true_iff, !Z.eqb_eq, Z.eqb_neq. rewrite <- !Z.mod_divide by lia. split.
      - intros (A & [B|B]); [left; split; assumption|right; exact B].
      - intros [(A & B)|B]; [split; [exact A|left; exact B]|]. split; [|right; exact B]. apply Z.mod_divide in B; [|lia]. apply Z.mod_divide; [lia|]. apply Z.divide_trans with 400%Z; [exists 100%Z; reflexivity|exact B]. }
    assert (C : (m = 1 \/ m = 2 \/ m = 3 \/ m = 4 \/ m = 5 \/ m = 6 \/ m = 7 \/ m = 8 \/ m = 9 \/ m = 10 \/ m = 11 \/ m = 12)%Z) by lia. unfold days_in.
    repeat (destruct C as [->|C]; [cbn; try (apply ml_31; cbn; tauto); try (apply ml_30; cbn; tauto)|]); [|subst m; cbn; apply ml_31; cbn; tauto].
    destruct (is_leap y); [apply ml_29, L; reflexivity|apply ml_28; intros X; apply L in X; discriminate].
  Qed.
  Lemma month_len_fun y m l l' : month_len y m l -> month_len y m l' -> l = l'.
  Proof. intros H H'. inversion H; inversion H'; subst; try reflexivity; cbn [In] in *; try lia; contradiction. Qed.
  Lemma month_len_range y m l : month_len y m l -> (1 <= m <= 12)%Z.
  Proof. intros H. destruct H as [m Hm|m Hm|H|H]; cbn in *; lia. Qed.
  Lemma day_check a b c y m d : num 4 a y -> num 2 b m -> num 2 c d -> (1 <= m <= 12)%Z ->
    (Z.leb 1 d && Z.leb d (days_in m y))%bool = true <-> date_text (a ++ bs "-" ++ b ++ bs "-" ++ c) y m d.
  Proof.
    intros Na Nb Nc Hm. pose proof (days_in_spec m y Hm) as L. rewrite andb_true_iff, !Z.leb_le. split.
    - intros (H1 & H2). eapply date_is; eauto.
    - intros H. inversion H as [a' b' c' y' m' d' l Na' Nb' Nc' Ml R E]; subst. pose proof (month_len_fun _ _ _ _ L Ml). lia.
  Qed.
  (** the four layouts *)
  Lemma chunks1 : chunks DEFAULT_DATE_FORMAT = [CYear; CLit "-"%char; CMonth; CLit "-"%char; CDay] ++ [].
  Proof. vm_compute. reflexivity. Qed.
  Lemma chunks2 : chunks DEFAULT_DATETIME_FORMAT = [CYear; CLit "-"%char; CMonth; CLit "-"%char; CDay] ++ [CLit " "%char; CHour; CLit ":"%char; CLit "0"%char].
  Proof. vm_compute. reflexivity. Qed.
  Lemma chunks3 : chunks DEFAULT_DATETIME_FORMAT_SECOND = [CYear; CLit "-"%char; CMonth; CLit "-"%char; CDay] ++ [CLit " "%char] ++ [CHour; CLit ":"%char; CMinute; CLit ":"%char; CSecond] ++ [].
  Proof. vm_compute. reflexivity. Qed.
  Lemma chunks4 : chunks RFC3339 = [CYear; CLit "-"%char; CMonth; CLit "-"%char; CDay] ++ [CLit "T"%char] ++ [CHour; CLit ":"%char; CMinute; CLit ":"%char; CSecond] ++ [CZone].
  Proof. vm_compute. reflexivity. Qed.
  Lemma blanks_cut bl r : blanks1 bl -> (match r with c :: _ => c <> blank | [] => True end) -> cutspace (bl ++ r) = r.
  Proof.
    intros H Hr. assert (X : cutspace r = r) by (destruct r as [|c r]; [reflexivity|]; cbn [cutspace]; destruct (Ascii.eqb_spec c blank); [contradiction|reflexivity]).
    induction H as [|s H IH]; cbn [bs list_ascii_of_string app cutspace]; change (Ascii.eqb " " blank) with true; cbn iota; assumption.
  Qed.
  Lemma cut_blanks s : exists bl, s = bl ++ cutspace s /\ (bl = [] \/ blanks1 bl).
  Proof.
    induction s as [|c s (bl & E & H)]; [exists []; auto|]. cbn [cutspace]. destruct (Ascii.eqb_spec c blank) as [->|]; [|exists []; auto].
    exists (bs " " ++ bl). split; [cbn [app bs list_ascii_of_string]; rewrite <- E; reflexivity|]. right. destruct H as [->|H]; [apply b1_one|apply b1_more; exact H].
  Qed.
  Lemma blank_chunk s t r t' : s <> [] -> parse_chunk (CLit " "%char) s t = Some (r, t') -> t' = t /\ exists bl, blanks1 bl /\ s = bl ++ r.
  Proof.
    intros Hs H. destruct t. cbn [TimeModel.parse_chunk] in H. change (Ascii.eqb " " blank) with true in H. cbn iota in H. destruct s as [|x s]; [congruence|]. destruct (Ascii.eqb_spec x blank) as [->|]; [|discriminate].
    injection H as <- <-. split; [reflexivity|]. destruct (cut_blanks (blank :: s)) as (bl & E & [->|Hb]); [|exists bl; auto]. exfalso.
    assert (L : List.length (cutspace (blank :: s)) = S (List.length s)) by (rewrite <- (app_nil_l (cutspace (blank :: s))), <- E; reflexivity).
    cbn [cutspace] in L. change (Ascii.eqb blank blank) with true in L. cbn iota in L. destruct (cut_blanks s) as (bl & E2 & _). pose proof (f_equal (@List.length ascii) E2) as X. rewrite app_length in X. unfold bytes in *. lia.
  Qed.
  Lemma blank_chunk_ok bl r t : blanks1 bl -> (match r with c :: _ => c <> blank | [] => True end) -> parse_chunk (CLit " "%char) (bl ++ r) t = Some (r, t).
  Proof.
    intros H Hr. pose proof (blanks_cut bl r H Hr) as E. destruct t. cbn [TimeModel.parse_chunk]. change (Ascii.eqb " " blank) with true. cbn iota. destruct H as [|s H]; cbn [app bs list_ascii_of_string] in *; change (Ascii.eqb " " blank) with true; cbn iota; rewrite E; reflexivity.
  Qed.
  Lemma digit_not_blank k s n r : k <> 0 -> num k s n -> match s ++ r with c :: _ => c <> blank | [] => True end.
  Proof. intros Hk (L & H). apply nat_denotes_head in H as (c & s' & -> & (d & Hd)). cbn. intros ->. vm_compute in Hd. discriminate. Qed.
  Lemma hour_not_blank s h r : hour_text s h -> match s ++ r with c :: _ => c <> blank | [] => True end.
  Proof. intros ([H|H] & _); [exact (digit_not_blank 2 s h r ltac:(lia) H)|exact (digit_not_blank 1 s h r ltac:(lia) H)]. Qed.
  Lemma layout_is layout ks v c : chunks layout = [CYear; CLit "-"%char; CMonth; CLit "-"%char; CDay] ++ ks ->
    (forall y m d s t, parse_chunks ks s (mkCivil y m d 0 0 0 0 None) = Some t -> cv_year t = y /\ cv_month t = m /\ cv_day t = d) ->
    parse_layout layout v = Some c <-> exists dt rest y m d, v = dt ++ rest /\ date_text dt y m d /\ parse_chunks ks rest (mkCivil y m d 0 0 0 0 None) = Some c.
  Proof.
    intros E K. unfold TimeModel.parse_layout. rewrite E. split.
    - destruct (parse_chunks _ v _) as [t|] eqn:P; [|discriminate]. apply date_chunks in P as (a & b & cc & y & m & d & rest & -> & Na & Nb & Nc & Hm & P). destruct (K _ _ _ _ _ P) as (K1 & K2 & K3). rewrite K1, K2, K3.
      destruct (Z.leb 1 d && Z.leb d (days_in m y))%bool eqn:D; [|discriminate]. intros [= <-]. apply (day_check a b cc y m d Na Nb Nc Hm) in D. exists (a ++ bs "-" ++ b ++ bs "-" ++ cc), rest, y, m, d. split; [rewrite <- !app_assoc; reflexivity|]. auto.
    - intros (dt & rest & y & m & d & -> & D & P). pose proof D as D0. inversion D as [a b cc y' m' d' l Na Nb Nc Ml R E1]; subst. pose proof (month_len_range _ _ _ Ml) as Hm.
      assert (X : parse_chunks ([CYear; CLit "-"%char; CMonth; CLit "-"%char; CDay] ++ ks) ((a ++ bs "-" ++ b ++ bs "-" ++ cc) ++ rest) (mkCivil 0 1 1 0 0 0 0 None) = Some c).
      { apply date_chunks. exists a, b, cc, y, m, d, rest. rewrite <- !app_assoc. repeat (split; [first [reflexivity|assumption]|]). exact P. }
      rewrite X. destruct (K _ _ _ _ _ P) as (K1 & K2 & K3). rewrite K1, K2, K3, (proj2 (day_check a b cc y m d Na Nb Nc Hm) D0). reflexivity.
  Qed.
  (** a date *)
  Lemma layout1 v c : parse_layout DEFAULT_DATE_FORMAT v = Some c <-> exists y m d, date_text v y m d /\ c = mkCivil y m d 0 0 0 0 None.
  Proof.
    rewrite (layout_is _ _ v c chunks1).
    - split.
      + intros (dt & rest & y & m & d & -> & D & P). cbn [TimeModel.parse_chunks] in P. destruct rest; [|discriminate]. injection P as <-. rewrite app_nil_r. eauto.
      + intros (y & m & d & D & ->). exists v, [], y, m, d. rewrite app_nil_r. auto.
    - intros y m d s t P. cbn [TimeModel.parse_chunks] in P. destruct s; [|discriminate]. injection P as <-. auto.
  Qed.
  Lemma layout2_rest s y m d t : parse_chunks [CLit " "%char; CHour; CLit ":"%char; CLit "0"%char] s (mkCivil y m d 0 0 0 0 None) = Some t <->
    exists bl hr h, s = bl ++ hr ++ bs ":0" /\ blanks1 bl /\ hour_text hr h /\ t = mkCivil y m d h 0 0 0 None.
  Proof.
    cbn [TimeModel.parse_chunks]. split.
    - destruct (parse_chunk (CLit " "%char) s _) as [(s1 & t1)|] eqn:P; [|discriminate]. destruct s as [|x s].
      { vm_compute in P. injection P as <- <-. intros H. cbn in H. discriminate. }
      apply blank_chunk in P as (-> & bl & Hb & ->); [|discriminate]. intros H. cbn [TimeModel.parse_chunk] in H. destruct (num_below false 0 24 s1) as [(h & s2)|] eqn:Eh; [|discriminate]. apply below in Eh as (Eh & Rh). apply getnum_free in Eh as (hr & -> & Nh).
      destruct s2 as [|c s2]; [rewrite lit_nil in H by reflexivity; discriminate|]. rewrite lit_cons in H by reflexivity. destruct (Ascii.eqb_spec c ":"%char) as [->|]; [|discriminate].
      destruct s2 as [|c s2]; [rewrite lit_nil in H by reflexivity; discriminate|]. rewrite lit_cons in H by reflexivity. destruct (Ascii.eqb_spec c "0"%char) as [->|]; [|discriminate].
      destruct s2; [|discriminate]. injection H as <-. exists bl, hr, h. split; [reflexivity|]. split; [exact Hb|]. split; [|reflexivity]. split; [destruct Nh as [N|(N & _)]; auto|lia].
    - intros (bl & hr & h & -> & Hb & Hh & ->). rewrite (blank_chunk_ok bl (hr ++ bs ":0") _ Hb (hour_not_blank _ _ _ Hh)). cbn [TimeModel.parse_chunk]. destruct Hh as (Nh & Rh).
      assert (P0 : (0 <= h)%Z) by (destruct Nh as [N|N]; exact (num_nonneg _ _ _ N)).
      rewrite (proj2 (below false 0 24 (hr ++ bs ":0") h (bs ":0"))); [|split; [apply getnum_free; exists hr; split; [reflexivity|destruct Nh as [N|N]; [left; exact N|right; split; [exact N|reflexivity]]]|lia]].
      reflexivity.
  Qed.
  Lemma layout2 v c : parse_layout DEFAULT_DATETIME_FORMAT v = Some c <-> exists dt bl hr y m d h, v = dt ++ bl ++ hr ++ bs ":0" /\ date_text dt y m d /\ blanks1 bl /\ hour_text hr h /\ c = mkCivil y m d h 0 0 0 None.
  Proof.
    rewrite (layout_is _ _ v c chunks2).
    - split.
      + intros (dt & rest & y & m & d & -> & D & P). apply layout2_rest in P as (bl & hr & h & -> & Hb & Hh & ->). exists dt, bl, hr, y, m, d, h. auto.
      + intros (dt & bl & hr & y & m & d & h & -> & D & Hb & Hh & ->). exists dt, (bl ++ hr ++ bs ":0"), y, m, d. split; [reflexivity|]. split; [exact D|]. apply layout2_rest. eauto 8.
    - intros y m d s t P. apply layout2_rest in P as (? & ? & ? & _ & _ & _ & ->). auto.
  Qed.
  Lemma layout3_rest s y m d t : parse_chunks ([CLit " "%char] ++ [CHour; CLit ":"%char; CMinute; CLit ":"%char; CSecond] ++ []) s (mkCivil y m d 0 0 0 0 None) = Some t <->
    exists bl ck h mi se ns, s = bl ++ ck /\ blanks1 bl /\ clock_text ck h mi se ns /\ t = mkCivil y m d h mi se ns None.
  Proof.
    change ([CLit " "%char] ++ ?x) with (CLit " "%char :: x). cbn [TimeModel.parse_chunks]. split.
    - destruct (parse_chunk (CLit " "%char) s _) as [(s1 & t1)|] eqn:P; [|discriminate]. destruct s as [|x s].
      { vm_compute in P. injection P as <- <-. intros H. cbn in H. discriminate. }
      apply blank_chunk in P as (-> & bl & Hb & ->); [|discriminate]. intros H. apply clock_chunks in H as (a & b & c & f & h & mi & se & ns & rest & -> & Ha & Hb' & Hc & Hf & _ & _ & H). destruct rest; [|discriminate]. injection H as <-. rewrite app_nil_r.
      exists bl, (a ++ bs ":" ++ b ++ bs ":" ++ c ++ f), h, mi, se, ns. split; [reflexivity|]. split; [exact Hb|]. split; [constructor; assumption|reflexivity].
    - intros (bl & ck & h & mi & se & ns & -> & Hb & [a b c f h' mi' se' ns' Ha Hb' Hc Hf] & ->). rewrite (blank_chunk_ok bl _ _ Hb (hour_not_blank _ _ _ Ha)). apply clock_chunks.
      exists a, b, c, f, h', mi', se', ns', []. rewrite app_nil_r. repeat (split; [first [reflexivity|assumption]|]). split; [intros _ X; exact X|]. split; [intros _; exact Logic.I|reflexivity].
  Qed.
  Lemma layout3 v c : parse_layout DEFAULT_DATETIME_FORMAT_SECOND v = Some c <->
    exists dt bl ck y m d h mi s ns, v = dt ++ bl ++ ck /\ date_text dt y m d /\ blanks1 bl /\ clock_text ck h mi s ns /\ c = mkCivil y m d h mi s ns None.
  Proof.
    rewrite (layout_is _ _ v c chunks3).
    - split.
      + intros (dt & rest & y & m & d & -> & D & P). apply layout3_rest in P as (bl & ck & h & mi & se & ns & -> & Hb & Hh & ->). exists dt, bl, ck, y, m, d, h, mi, se, ns. auto.
      + intros (dt & bl & ck & y & m & d & h & mi & se & ns & -> & D & Hb & Hh & ->). exists dt, (bl ++ ck), y, m, d. split; [reflexivity|]. split; [exact D|]. apply layout3_rest. exists bl, ck, h, mi, se, ns. auto.
    - intros y m d s t P. apply layout3_rest in P as (? & ? & ? & ? & ? & ? & _ & _ & _ & ->). auto.
  Qed.
  Lemma zone_chunk s y m d h mi se ns t : parse_chunks [CZone] s (mkCivil y m d h mi se ns None) = Some t <-> exists o, zone_text s o /\ t = mkCivil y m d h mi se ns (Some o).
  Proof.
    cbn [TimeModel.parse_chunks TimeModel.parse_chunk]. split.
    - destruct s as [|c r]; [discriminate|]. destruct (Ascii.eqb_spec c "Z"%char) as [->|Hn].
      + destruct r; [|discriminate]. intros [= <-]. exists 0%Z. split; [constructor|reflexivity].
      + destruct (nth_error (c :: r) 3) as [x|] eqn:E3; [|discriminate]. destruct (Nat.ltb_spec (List.length (c :: r)) 6) as [L|L]; [discriminate|]. cbn [orb]. destruct (Ascii.eqb_spec x ":"%char) as [->|]; [|discriminate]. cbn [negb orb].
        destruct (Ascii.eqb c "+"%char || Ascii.eqb c "-"%char)%bool eqn:Es; [|discriminate]. cbn [negb].
        destruct r as [|r1 [|r2 [|r3 [|r4 [|r5 r]]]]]; try (cbn in L; lia). cbn in E3. injection E3 as ->. cbn [firstn skipn]. destruct (offset _) as [o|] eqn:Eo; [|discriminate]. destruct r; [|discriminate]. intros [= <-].
        exists o. split; [|reflexivity]. apply (zone_off c [r1; r2] [r4; r5] o); [|reflexivity|reflexivity|exact Eo]. apply orb_true_iff in Es as [Es|Es]; apply Ascii.eqb_eq in Es; auto.
    - intros (o & [|sg a b o' Hs La Lb Eo] & ->); [reflexivity|]. destruct a as [|a1 [|a2 [|? ?]]]; try discriminate. destruct b as [|b1 [|b2 [|? ?]]]; try discriminate. cbn [app bs list_ascii_of_string] in Eo.
      assert (Z : Ascii.eqb sg "Z"%char = false) by (destruct Hs as [-> | ->]; reflexivity). cbn [app bs list_ascii_of_string]. rewrite Z. cbn [nth_error List.length Nat.ltb Nat.leb]. rewrite Ascii.eqb_refl.
      assert (Y : (Ascii.eqb sg "+"%char || Ascii.eqb sg "-"%char)%bool = true) by (destruct Hs as [-> | ->]; reflexivity). rewrite Y. cbn [orb negb firstn skipn]. rewrite Eo. reflexivity.
  Qed.
  Lemma layout4_rest s y m d t : parse_chunks ([CLit "T"%char] ++ [CHour; CLit ":"%char; CMinute; CLit ":"%char; CSecond] ++ [CZone]) s (mkCivil y m d 0 0 0 0 None) = Some t <->
    exists ck zn h mi se ns o, s = bs "T" ++ ck ++ zn /\ clock_text ck h mi se ns /\ zone_text zn o /\ t = mkCivil y m d h mi se ns (Some o).
  Proof.
    change ([CLit "T"%char] ++ ?x) with (CLit "T"%char :: x). cbn [TimeModel.parse_chunks]. split.
    - intros H. destruct s as [|x s]; [rewrite lit_nil in H by reflexivity; discriminate|]. rewrite lit_cons in H by reflexivity. destruct (Ascii.eqb_spec x "T"%char) as [->|]; [|discriminate].
      apply clock_chunks in H as (a & b & c & f & h & mi & se & ns & rest & -> & Ha & Hb' & Hc & Hf & _ & _ & H). apply zone_chunk in H as (o & Hz & ->).
      exists (a ++ bs ":" ++ b ++ bs ":" ++ c ++ f), rest, h, mi, se, ns, o. split; [rewrite <- !app_assoc; reflexivity|]. split; [constructor; assumption|]. auto.
    - intros (ck & zn & h & mi & se & ns & o & -> & [a b c f h' mi' se' ns' Ha Hb' Hc Hf] & Hz & ->). cbn [app bs list_ascii_of_string]. rewrite lit_cons, Ascii.eqb_refl by reflexivity. apply clock_chunks.
      assert (Zh : exists z r, zn = z :: r /\ (z = "Z"%char \/ z = "+"%char \/ z = "-"%char)) by (destruct Hz as [|sg ? ? ? Hs]; [eexists _, _; split; [reflexivity|auto]|exists sg; eexists; split; [reflexivity|tauto]]).
      exists a, b, c, f, h', mi', se', ns', zn. split; [cbn [bs list_ascii_of_string app]; rewrite <- app_assoc; cbn [app]; rewrite <- app_assoc; cbn [app]; rewrite <- app_assoc; reflexivity|]. repeat (split; [assumption|]).
      destruct Zh as (z & r & -> & Hzz). split; [|split].
      + intros _ X. cbn in X. destruct r as [|x r]; [exact X|]. destruct X as (X & _). apply is_point_spec in X. destruct X as [->|(_ & ->)]; destruct Hzz as [X|[X|X]]; discriminate.
      + intros _. cbn. destruct Hzz as [->|[-> | ->]]; reflexivity.
      + apply zone_chunk. exists o. auto.
  Qed.
  Lemma layout4 v c : parse_layout RFC3339 v = Some c <->
    exists dt ck zn y m d h mi s ns o, v = dt ++ bs "T" ++ ck ++ zn /\ date_text dt y m d /\ clock_text ck h mi s ns /\ zone_text zn o /\ c = mkCivil y m d h mi s ns (Some o).
  Proof.
    rewrite (layout_is _ _ v c chunks4).
    - split.
      + intros (dt & rest & y & m & d & -> & D & P). apply layout4_rest in P as (ck & zn & h & mi & se & ns & o & -> & Hk & Hz & ->). exists dt, ck, zn, y, m, d, h, mi, se, ns, o. auto.
      + intros (dt & ck & zn & y & m & d & h & mi & se & ns & o & -> & D & Hk & Hz & ->). exists dt, (bs "T" ++ ck ++ zn), y, m, d. split; [reflexivity|]. split; [exact D|]. apply layout4_rest. exists ck, zn, h, mi, se, ns, o. auto.
    - intros y m d s t P. apply layout4_rest in P as (? & ? & ? & ? & ? & ? & ? & _ & _ & _ & ->). auto.
  Qed.
End Formats.

Section Default.
  Variable F : Type.
  Variable fzero : F.
  Variable parse_float : bytes -> option F.
  Variable round_float : nat -> F -> F.
  Variable json_map : bytes -> list (bytes * bytes).
  Variable comma : bool.
  Variable nanos offset : bytes -> option Z.
  Notation binds := (binds F gtime fzero TZero parse_float round_float default_formats (time_parse comma nanos offset) (time_parse_local comma nanos offset) TUnix json_map).
  Notation says := (says comma nanos offset).
  Notation PVTime := (PVTime F gtime).

  (** *** a text says one time at most *)
  Definition colons (s : bytes) : nat := count_occ ascii_dec s ":"%char.
  Lemma colons_app a b : colons (a ++ b) = colons a + colons b.
  Proof. apply count_occ_app. Qed.
  Lemma digits_no_colon s : Forall is_digit s -> colons s = 0.
  Proof. induction 1 as [|c s (d & Hd) _ IH]; [reflexivity|]. unfold colons in *. cbn [count_occ]. destruct (ascii_dec c ":"%char) as [->|_]; [vm_compute in Hd; discriminate|exact IH]. Qed.
  Lemma num_digits k s n : num k s n -> Forall is_digit s.
  Proof. intros (_ & H). exact (nat_denotes_digits _ _ H). Qed.
  Lemma num_no_colon k s n : num k s n -> colons s = 0.
  Proof. intros H. exact (digits_no_colon _ (num_digits _ _ _ H)). Qed.
  Lemma hour_no_colon s h : hour_text s h -> colons s = 0.
  Proof. intros ([H|H] & _); exact (num_no_colon _ _ _ H). Qed.
  Lemma date_no_colon s y m d : date_text s y m d -> colons s = 0 /\ List.length s = 10.
  Proof.
    intros [a b c y' m' d' l Ha Hb Hc _ _]. rewrite !colons_app, (num_no_colon _ _ _ Ha), (num_no_colon _ _ _ Hb), (num_no_colon _ _ _ Hc). split; [reflexivity|].
    destruct Ha as (La & _), Hb as (Lb & _), Hc as (Lc & _). rewrite !app_length, La, Lb, Lc. reflexivity.
  Qed.
  Lemma blanks_no_colon s : blanks1 s -> colons s = 0.
  Proof. induction 1 as [|s _ IH]; [reflexivity|]. rewrite colons_app, IH. reflexivity. Qed.
  Lemma clock_colons s h mi se ns : clock_text comma nanos s h mi se ns -> 2 <= colons s.
  Proof. intros [a b c f h' mi' se' ns' _ _ _ _]. rewrite !colons_app. change (colons (bs ":")) with 1. lia. Qed.
  Lemma after_date d1 d2 r1 r2 y m d y' m' d' : date_text d1 y m d -> date_text d2 y' m' d' -> d1 ++ r1 = d2 ++ r2 -> d1 = d2 /\ r1 = r2.
  Proof.
    intros H1 H2 E. apply date_no_colon in H1 as (_ & L1). apply date_no_colon in H2 as (_ & L2). split.
    - rewrite <- (firstn_app_len d1 r1), <- (firstn_app_len d2 r2), E, L1, L2. reflexivity.
    - rewrite <- (skipn_app_len d1 r1), <- (skipn_app_len d2 r2), E, L1, L2. reflexivity.
  Qed.
  (** each text is one of a layout *)
  Lemma says_layouts v c : says v c <->
    parse_layout comma nanos offset DEFAULT_DATE_FORMAT v = Some c \/ parse_layout comma nanos offset DEFAULT_DATETIME_FORMAT v = Some c \/
    parse_layout comma nanos offset DEFAULT_DATETIME_FORMAT_SECOND v = Some c \/ parse_layout comma nanos offset RFC3339 v = Some c.
  Proof.
    rewrite layout1, layout2, layout3, layout4. split.
    - intros [v' y m d D|dt bl hr y m d h D B H|dt bl ck y m d h mi s ns D B K|dt ck zn y m d h mi s ns o D K Z].
      + left. eauto.
      + right. left. exists dt, bl, hr, y, m, d, h. auto.
      + right. right. left. exists dt, bl, ck, y, m, d, h, mi, s, ns. auto.
      + right. right. right. exists dt, ck, zn, y, m, d, h, mi, s, ns, o. repeat split; assumption.
    - intros [(y & m & d & D & ->)|[(dt & bl & hr & y & m & d & h & -> & D & B & H & ->)|[(dt & bl & ck & y & m & d & h & mi & s & ns & -> & D & B & K & ->)|(dt & ck & zn & y & m & d & h & mi & s & ns & o & -> & D & K & Z & ->)]]].
      + apply says_date. exact D.
      + apply says_hour; assumption.
      + apply says_clock; assumption.
      + apply says_rfc; assumption.
  Qed.
  Theorem C153_one_meaning : forall v c c', says v c -> says v c' -> c = c'.
  Proof.
    assert (D0 : forall v y m d dt r y' m' d', date_text v y m d -> v = dt ++ r -> date_text dt y' m' d' -> r = []).
    { intros v y m d dt r y' m' d' H1 -> H2. apply date_no_colon in H1 as (_ & L1). apply date_no_colon in H2 as (_ & L2). rewrite app_length in L1. destruct r; [reflexivity|cbn in L1; lia]. }
    assert (B0 : forall bl r, blanks1 bl -> bl ++ r = [] -> False) by (intros bl r [|s _] E; discriminate E).
    assert (BT : forall bl r r', blanks1 bl -> bl ++ r = bs "T" ++ r' -> False) by (intros bl r r' [|s _] E; discriminate E).
    assert (C12 : forall v c c', parse_layout comma nanos offset DEFAULT_DATE_FORMAT v = Some c -> parse_layout comma nanos offset DEFAULT_DATETIME_FORMAT v = Some c' -> False).
    { intros v c c' H1 H2. apply layout1 in H1 as (y & m & d & D & _). apply layout2 in H2 as (dt & bl & hr & y' & m' & d' & h & E & D' & B & _). pose proof (D0 _ _ _ _ _ _ _ _ _ D E D'). eauto. }
    assert (C13 : forall v c c', parse_layout comma nanos offset DEFAULT_DATE_FORMAT v = Some c -> parse_layout comma nanos offset DEFAULT_DATETIME_FORMAT_SECOND v = Some c' -> False).
    { intros v c c' H1 H2. apply layout1 in H1 as (y & m & d & D & _). apply layout3 in H2 as (dt & bl & ck & y' & m' & d' & h & mi & s & ns & E & D' & B & _). pose proof (D0 _ _ _ _ _ _ _ _ _ D E D'). eauto. }
    assert (C14 : forall v c c', parse_layout comma nanos offset DEFAULT_DATE_FORMAT v = Some c -> parse_layout comma nanos offset RFC3339 v = Some c' -> False).
    { intros v c c' H1 H2. apply layout1 in H1 as (y & m & d & D & _). apply layout4 in H2 as (dt & ck & zn & y' & m' & d' & h & mi & s & ns & o & E & D' & _). pose proof (D0 _ _ _ _ _ _ _ _ _ D E D') as Z. discriminate Z. }
    assert (C23 : forall v c c', parse_layout comma nanos offset DEFAULT_DATETIME_FORMAT v = Some c -> parse_layout comma nanos offset DEFAULT_DATETIME_FORMAT_SECOND v = Some c' -> False).
    { intros v c c' H1 H2. apply layout2 in H1 as (dt & bl & hr & y & m & d & h & -> & D & B & H & _). apply layout3 in H2 as (dt' & bl' & ck & y' & m' & d' & h' & mi & s & ns & E & D' & B' & K & _).
      apply (f_equal colons) in E. rewrite !colons_app, (blanks_no_colon _ B), (blanks_no_colon _ B'), (proj1 (date_no_colon _ _ _ _ D)), (proj1 (date_no_colon _ _ _ _ D')), (hour_no_colon _ _ H) in E. change (colons (bs ":0")) with 1 in E. pose proof (clock_colons _ _ _ _ _ K). lia. }
    assert (C24 : forall v c c', parse_layout comma nanos offset DEFAULT_DATETIME_FORMAT v = Some c -> parse_layout comma nanos offset RFC3339 v = Some c' -> False).
    { intros v c c' H1 H2. apply layout2 in H1 as (dt & bl & hr & y & m & d & h & -> & D & B & _). apply layout4 in H2 as (dt' & ck & zn & y' & m' & d' & h' & mi & s & ns & o & E & D' & _). destruct (after_date _ _ _ _ _ _ _ _ _ _ D D' E) as (_ & E'). eauto. }
    assert (C34 : forall v c c', parse_layout comma nanos offset DEFAULT_DATETIME_FORMAT_SECOND v = Some c -> parse_layout comma nanos offset RFC3339 v = Some c' -> False).
    { intros v c c' H1 H2. apply layout3 in H1 as (dt & bl & ck0 & y & m & d & h & mi0 & s0 & ns0 & -> & D & B & _). apply layout4 in H2 as (dt' & ck & zn & y' & m' & d' & h' & mi & s & ns & o & E & D' & _). destruct (after_date _ _ _ _ _ _ _ _ _ _ D D' E) as (_ & E'). eauto. }
    intros v c c' H H'. apply says_layouts in H, H'. destruct H as [H|[H|[H|H]]], H' as [H'|[H'|[H'|H']]].
    1,6,11,16: (rewrite H in H'; injection H' as H'; exact H').
    all: exfalso.
    - exact (C12 _ _ _ H H').
    - exact (C13 _ _ _ H H').
    - exact (C14 _ _ _ H H').
    - exact (C12 _ _ _ H' H).
    - exact (C23 _ _ _ H H').
    - exact (C24 _ _ _ H H').
    - exact (C13 _ _ _ H' H).
    - exact (C23 _ _ _ H' H).
    - exact (C34 _ _ _ H H').
    - exact (C14 _ _ _ H' H).
    - exact (C24 _ _ _ H' H).
    - exact (C34 _ _ _ H' H).
  Qed.

  (** *** the exact rule *)
  Lemma reads1 f v : In f [DEFAULT_DATE_FORMAT; DEFAULT_DATETIME_FORMAT; DEFAULT_DATETIME_FORMAT_SECOND] -> forall o, format_reads gtime (time_parse comma nanos offset) (time_parse_local comma nanos offset) f v o ->
    o = option_map TCivil (parse_layout comma nanos offset f v).
  Proof.
    intros Hf o H. assert (E : is_nil f = false /\ (contains f (bs "07") || contains f (bs "MST"))%bool = false) by (destruct Hf as [<-|[<-|[<-|[]]]]; split; vm_compute; reflexivity). destruct E as (E1 & E2).
    pose proof (format_reads_is gtime (time_parse comma nanos offset) (time_parse_local comma nanos offset) f v) as R. rewrite E1, E2 in R. pose proof (format_reads_fun _ _ _ _ _ _ _ H R) as O. exact O.
  Qed.
  Lemma reads_zone f v o : (forall c, parse_layout comma nanos offset f v = Some c -> utc c = c) -> is_nil f = false -> contains f (bs "07") = true ->
    format_reads gtime (time_parse comma nanos offset) (time_parse_local comma nanos offset) f v o -> o = option_map TCivil (parse_layout comma nanos offset f v).
  Proof.
    intros U E1 E2 H. pose proof (format_reads_is gtime (time_parse comma nanos offset) (time_parse_local comma nanos offset) f v) as R. rewrite E1, E2 in R. cbn [orb] in R.
    pose proof (format_reads_fun _ _ _ _ _ _ _ H R) as O. rewrite O. unfold time_parse. destruct (parse_layout comma nanos offset f v) as [c|]; [|reflexivity]. cbn [option_map]. rewrite (U c eq_refl). reflexivity.
  Qed.
  Lemma rfc_facts : is_nil RFC3339 = false /\ contains RFC3339 (bs "07") = true.
  Proof. split; vm_compute; reflexivity. Qed.
  Lemma layout4_utc v c : parse_layout comma nanos offset RFC3339 v = Some c -> utc c = c.
  Proof. intros E. apply layout4 in E as (dt & ck & zn & y & m & d & h & mi & s & ns & o' & _ & _ & _ & _ & ->). reflexivity. Qed.
  Lemma reads4 v o : format_reads gtime (time_parse comma nanos offset) (time_parse_local comma nanos offset) RFC3339 v o -> o = option_map TCivil (parse_layout comma nanos offset RFC3339 v).
  Proof. exact (reads_zone RFC3339 v o (layout4_utc v) (proj1 rfc_facts) (proj2 rfc_facts)). Qed.
  Lemma none_says v : none_reads gtime (time_parse comma nanos offset) (time_parse_local comma nanos offset) default_formats v -> forall c, ~ says v c.
  Proof.
    intros N c S. apply says_layouts in S. inversion N as [|? ? N1 M1]; subst. inversion M1 as [|? ? N2 M2]; subst. inversion M2 as [|? ? N3 M3]; subst. inversion M3 as [|? ? N4 M4]; subst.
    apply reads1 in N1; [|left; reflexivity]. apply reads1 in N2; [|right; left; reflexivity]. apply reads1 in N3; [|right; right; left; reflexivity]. apply reads4 in N4.
    destruct S as [S|[S|[S|S]]]; [rewrite S in N1; discriminate N1|rewrite S in N2; discriminate N2|rewrite S in N3; discriminate N3|rewrite S in N4; discriminate N4].
  Qed.
  Theorem C153_default_times : forall p name r, binds PTime p name r ->
    match vals (p_vals p) name with
    | [] => r = Ok (PVTime TZero)
    | v :: _ =>
        (exists c, says v c /\ r = Ok (PVTime (TCivil c))) \/
        ((forall c, ~ says v c) /\ exists n, int_denotes v n /\ (- 2 ^ 63 <= n < 2 ^ 63)%Z /\ r = Ok (PVTime (TUnix n))) \/
        ((forall c, ~ says v c) /\ (forall n, int_denotes v n -> ~ (- 2 ^ 63 <= n < 2 ^ 63)%Z) /\ r = Ok (PVTime TZero))
    end.
  Proof.
    intros p name r H. apply C152_time in H. destruct (vals (p_vals p) name) as [|v l]; [exact H|]. destruct H as (t & T & ->). destruct T as [b f a t E Hb Hf|n Hn Hd Hr|Hn Hz].
    - left. assert (L : In f default_formats) by (rewrite E; apply in_or_app; right; left; reflexivity). assert (P : exists c, t = TCivil c /\ parse_layout comma nanos offset f v = Some c).
      { assert (O : Some t = option_map TCivil (parse_layout comma nanos offset f v)) by (destruct L as [<-|[<-|[<-|[<-|[]]]]]; [apply reads1; [left; reflexivity|exact Hf]|apply reads1; [right; left; reflexivity|exact Hf]|apply reads1; [right; right; left; reflexivity|exact Hf]|apply reads4; exact Hf]).
        destruct (parse_layout comma nanos offset f v) as [c|]; [|discriminate]. cbn in O. injection O as ->. exists c. auto. }
      destruct P as (c & -> & P). exists c. split; [|reflexivity]. apply says_layouts. destruct L as [<-|[<-|[<-|[<-|[]]]]]; [left; exact P|right; left; exact P|right; right; left; exact P|right; right; right; exact P].
    - right. left. split; [exact (none_says v Hn)|]. exists n. auto.
    - right. right. split; [exact (none_says v Hn)|]. auto.
  Qed.
  (** *** the middle one of the documented formats, a date and a time of day without seconds, is never recognised *)
  Theorem C153_no_minutes_refuted : forall dt hh mm y m d h mi p name r, date_text dt y m d -> num 2 hh h -> (h < 24)%Z -> num 2 mm mi -> (mi < 60)%Z ->
    vals (p_vals p) name = [dt ++ bs " " ++ hh ++ bs ":" ++ mm] -> binds PTime p name r -> r = Ok (PVTime TZero).
  Proof.
    intros dt hh mm y m d h mi p name r D Hh Rh Hm Rm E H. apply C153_default_times in H. rewrite E in H. destruct H as [(c & S & _)|[(_ & n & Hd & _)|(_ & _ & ->)]]; [exfalso|exfalso|reflexivity].
    - assert (K : colons (dt ++ bs " " ++ hh ++ bs ":" ++ mm) = 1) by (rewrite !colons_app, (proj1 (date_no_colon _ _ _ _ D)), (num_no_colon _ _ _ Hh), (num_no_colon _ _ _ Hm); reflexivity).
      remember (dt ++ bs " " ++ hh ++ bs ":" ++ mm) as v eqn:Ev. destruct S as [v y' m' d' D'|dt' bl hr y' m' d' h' D' B H'|dt' bl ck y' m' d' h' mi' s ns D' B K'|dt' ck zn y' m' d' h' mi' s ns o D' K' Z'].
      + rewrite (proj1 (date_no_colon _ _ _ _ D')) in K. discriminate.
      + apply (f_equal (@rev ascii)) in Ev. rewrite !rev_app_distr in Ev. destruct Hm as (Lm & Dm). apply nat_denotes_digits in Dm. destruct mm as [|m1 [|m2 [|? ?]]]; try discriminate Lm.
        cbn [rev app bs list_ascii_of_string] in Ev. injection Ev as _ E2 _. subst m1. inversion Dm as [|? ? (x & X) _]. vm_compute in X. discriminate.
      + rewrite !colons_app in K. pose proof (clock_colons _ _ _ _ _ K'). lia.
      + rewrite !colons_app in K. pose proof (clock_colons _ _ _ _ _ K'). lia.
    - assert (I : In ":"%char (dt ++ bs " " ++ hh ++ bs ":" ++ mm)) by (rewrite !in_app_iff; cbn; tauto). remember (dt ++ bs " " ++ hh ++ bs ":" ++ mm) as v eqn:Ev. clear Ev.
      assert (G : forall s k, nat_denotes s k -> In ":"%char s -> False).
      { intros s k Hk Hin. apply nat_denotes_digits in Hk. rewrite Forall_forall in Hk. destruct (Hk _ Hin) as (x & X). vm_compute in X. discriminate. }
      inversion Hd as [s k Hk|s k Hk|s k Hk]; subst; [exact (G _ _ Hk I)|destruct I as [I|I]; [discriminate|exact (G _ _ Hk I)]..].
  Qed.
  (** time.Parse, which is used for formats with a zone, gives a time in UTC where the text has none; the rest is as the format reads it *)
  Theorem C153_zone_of_any_format : forall f v t, time_parse comma nanos offset f v = Some t ->
    exists c c0, t = TCivil c /\ parse_layout comma nanos offset f v = Some c0 /\
      (cv_year c, cv_month c, cv_day c, cv_hour c, cv_minute c, cv_second c, cv_nanos c) = (cv_year c0, cv_month c0, cv_day c0, cv_hour c0, cv_minute c0, cv_second c0, cv_nanos c0) /\
      cv_zone c = Some (match cv_zone c0 with Some z => z | None => 0%Z end).
  Proof.
    intros f v t E. unfold time_parse in E. destruct (parse_layout comma nanos offset f v) as [c0|]; [|discriminate E]. injection E as <-.
    exists (utc c0), c0. split; [reflexivity|]. split; [reflexivity|]. unfold utc. destruct (cv_zone c0) as [z|] eqn:Z; [|split; reflexivity]. split; [reflexivity|exact Z].
  Qed.
End Default.
(** the hypotheses can be met: 2024-02-29 is a date, and the four forms are read *)
Example C153_case : date_text (bs "2024-02-29") 2024 2 29 /\
  (forall nanos offset, says false nanos offset (bs "2024-02-29 7:05:09") (mkCivil 2024 2 29 7 5 9 0 None) /\
     says false nanos offset (bs "2024-02-29  15:0") (mkCivil 2024 2 29 15 0 0 0 None) /\
     says false nanos offset (bs "2024-02-29T15:04:05Z") (mkCivil 2024 2 29 15 4 5 0 (Some 0%Z))) /\ ~ date_text (bs "2023-02-29") 2023 2 29.
Proof.
  assert (N2 : forall a b x y, digit_val a = Some x -> digit_val b = Some y -> num 2 [a; b] (x * 10 + y)) by (intros a b x y A B; apply num2; exists a, b, x, y; auto).
  assert (D : date_text (bs "2024-02-29") 2024 2 29).
  { apply (date_is (bs "2024") (bs "02") (bs "29") 2024 2 29 29); [|exact (N2 "0"%char "2"%char 0 2 eq_refl eq_refl)%Z|exact (N2 "2"%char "9"%char 2 9 eq_refl eq_refl)%Z| |lia].
    - split; [reflexivity|]. apply nat_denotes_dval. split; [discriminate|reflexivity].
    - apply ml_29. left. split; [exists 506%Z; reflexivity|]. intros (k & K). lia. }
  split; [exact D|]. split.
  - intros nanos offset. split; [|split].
    + apply (says_clock false nanos offset (bs "2024-02-29") (bs " ") (bs "7:05:09") 2024 2 29 7 5 9 0 D); [constructor|].
      apply (clock_is false nanos (bs "7") (bs "05") (bs "09") [] 7 5 9 0); [split; [right; apply num1; exists "7"%char; auto|lia]|split; [exact (N2 "0"%char "5"%char 0 5 eq_refl eq_refl)%Z|lia]|split; [exact (N2 "0"%char "9"%char 0 9 eq_refl eq_refl)%Z|lia]|constructor].
    + apply (says_hour false nanos offset (bs "2024-02-29") (bs "  ") (bs "15") 2024 2 29 15 D); [apply (b1_more (bs " ")); constructor|]. split; [left; exact (N2 "1"%char "5"%char 1 5 eq_refl eq_refl)%Z|lia].
    + apply (says_rfc false nanos offset (bs "2024-02-29") (bs "15:04:05") (bs "Z") 2024 2 29 15 4 5 0 0 D); [|constructor].
      apply (clock_is false nanos (bs "15") (bs "04") (bs "05") [] 15 4 5 0); [split; [left; exact (N2 "1"%char "5"%char 1 5 eq_refl eq_refl)%Z|lia]|split; [exact (N2 "0"%char "4"%char 0 4 eq_refl eq_refl)%Z|lia]|split; [exact (N2 "0"%char "5"%char 0 5 eq_refl eq_refl)%Z|lia]|constructor].
  - intros H. inversion H as [a b c y m d l Ha Hb Hc Ml R E]; subst. inversion Ml as [? Hm|? Hm|L|L]; subst; cbn in *; try lia. destruct L as [((k & K) & _)|(k & K)]; lia.
Qed.

Print Assumptions C152_float.
Print Assumptions C152_time.
Print Assumptions C152_one_time.
Print Assumptions C152_zero_values.
Print Assumptions C153_one_meaning.
Print Assumptions C153_default_times.
Print Assumptions C153_no_minutes_refuted.
Print Assumptions C153_zone_of_any_format.
