(** Props_Strings: C190, what StrTo.Strings returns. *)
From Coq Require Import List Ascii String Bool Arith ZArith Lia.
Import ListNotations.
From Verif Require Import GoStr GoTy RouterModel Props_Params Props_ConfigFind Props_Decl StringsModel.

(** [sep] occurs in [s] *)
Definition occurs (sep s : bytes) : Prop := exists a b, s = a ++ sep ++ b.
(** [pieces sep s ps]: [ps] is [s] cut from the left, each time at the first occurrence of [sep] *)
Inductive pieces (sep : bytes) : bytes -> list bytes -> Prop :=
| cut_none : forall s, ~ occurs sep s -> pieces sep s [s]
| cut_first : forall p r ps, (forall a b, p ++ sep ++ r = a ++ sep ++ b -> List.length p <= List.length a) ->
    pieces sep r ps -> pieces sep (p ++ sep ++ r) (p :: ps).
(** [q] is [p] without the white space at its ends *)
Definition without_blanks (p q : bytes) : Prop := exists l r, p = l ++ q ++ r /\ blanks l /\ blanks r /\ trimmed q.

Lemma index_cut sep s : match index_sub s sep with
  | Some i => exists a b, s = a ++ sep ++ b /\ List.length a = i /\ forall a' b', s = a' ++ sep ++ b' -> List.length a <= List.length a'
  | None => ~ occurs sep s
  end.
Proof.
  pose proof (index_sub_spec sep s) as X. destruct (index_sub s sep) as [i|].
  - destruct X as (a & b & -> & L & M). exists a, b. split; [reflexivity|]. split; [exact L|]. intros a' b' E. rewrite L. eapply M. exact E.
  - intros (a & b & E). exact (X a b E).
Qed.
Lemma app_skip (a sep b : bytes) : skipn (List.length a + List.length sep) (a ++ sep ++ b) = b.
Proof. rewrite app_assoc, skipn_app, skipn_all2, app_length by (rewrite app_length; lia). replace (_ - _) with 0 by lia. reflexivity. Qed.
Lemma app_first (a r : bytes) : firstn (List.length a) (a ++ r) = a.
Proof. rewrite firstn_app, firstn_all, Nat.sub_diag. cbn. apply app_nil_r. Qed.
Lemma split_pieces sep : sep <> [] -> forall fuel s, List.length s < fuel -> pieces sep s (split_fuel fuel s sep).
Proof.
  intros N. induction fuel as [|fuel IH]; intros s L; [lia|]. cbn [split_fuel]. pose proof (index_cut sep s) as X. destruct (index_sub s sep) as [i|]; [|constructor; exact X].
  destruct X as (a & b & -> & <- & M). rewrite app_first, app_skip. constructor; [exact M|]. apply IH. rewrite !app_length in L. destruct sep; [congruence|]. cbn [List.length] in L. lia.
Qed.
Lemma pieces_fun sep s ps : pieces sep s ps -> forall ps', pieces sep s ps' -> ps = ps'.
Proof.
  intros P. induction P as [s H|p r ps M P IH]; intros ps' Q; inversion Q as [s2 H2 E1 E2|p2 r2 ps2 M2 P2 E1 E2]; subst.
  - reflexivity.
  - exfalso. apply H. eexists _, _. reflexivity.
  - exfalso. apply H2. eexists _, _. reflexivity.
  - assert (L : List.length p = List.length p2) by (pose proof (M _ _ (eq_sym E1)); pose proof (M2 _ _ E1); lia).
    assert (E : p = p2 /\ sep ++ r = sep ++ r2).
    { clear - L E1. revert p2 L E1. induction p as [|c p IH]; intros [|c2 p2] L E; try discriminate; [split; [reflexivity|symmetry; exact E]|]. injection E as -> E. injection L as L. destruct (IH p2 L E) as (-> & X). auto. }
    destruct E as (-> & E). apply app_inv_head in E. subst r2. f_equal. apply IH. exact P2.
Qed.

(** C190. Strings() cuts at commas, Strings(d, ...) at the first delimiter given: from the left,
    each time at the first place it occurs in what is left; the pieces come without the white
    space around them, empty ones included. *)
Theorem C190_strings delimiters s :
  (forall d more, delimiters = d :: more -> d <> []) ->
  let sep := match delimiters with d :: _ => d | [] => bs "," end in
  exists ps, (forall ps', pieces sep s ps' <-> ps' = ps) /\ Forall2 without_blanks ps (strto_strings delimiters s).
Proof.
  intros H. cbv zeta. set (sep := match delimiters with d :: _ => d | [] => bs "," end).
  assert (N : sep <> []) by (unfold sep; destruct delimiters as [|d more]; [discriminate|exact (H d more eq_refl)]).
  pose proof (split_pieces sep N (S (List.length s)) s (Nat.lt_succ_diag_r _)) as P. exists (split_all s sep). assert (EQ : strto_strings delimiters s = map trim_space (split_all s sep)) by (clear P; unfold strto_strings, sep in *; destruct delimiters as [|[|x d] more]; [reflexivity|congruence|reflexivity]). rewrite EQ. split.
  - intros ps'. split; [intros Q; eapply pieces_fun; eauto|]. intros ->. exact P.
  - clear P. generalize (split_all s sep) as ps. induction ps as [|p ps IH]; [constructor|]. cbn [map]. constructor; [|exact IH].
    destruct (trim_space_parts p) as (l & r & A & B & C & D). exists l, r. auto.
Qed.
(** the pieces, joined with the delimiter, are the text again; so there are always one more of
    them than cuts, and never none *)
Theorem C190_pieces_join sep s ps : pieces sep s ps -> ps <> [] /\ join sep ps = s.
Proof.
  intros P. induction P as [s H|p r ps M P (Hn & IH)]; [split; [discriminate|reflexivity]|]. split; [discriminate|].
  destruct ps as [|q ps]; [congruence|]. rewrite join_cons, IH. reflexivity.
Qed.
(** no white space and no delimiter in the parts: joining and Strings are inverse *)
Theorem C190_join_back c parts : parts <> [] -> Forall (fun p => ~ In c p /\ trimmed p) parts -> strto_strings [[c]] (join [c] parts) = parts.
Proof.
  intros N F. assert (P : pieces [c] (join [c] parts) parts).
  { clear - N F. induction F as [|p ps (Hp & _) F IH]; [congruence|]. destruct ps as [|q ps].
    - constructor. intros (a & b & E). apply Hp. cbn [join] in E. rewrite E. apply in_or_app. right. left. reflexivity.
    - rewrite join_cons. constructor; [|apply IH; discriminate]. intros a b E.
      destruct (Nat.le_gt_cases (List.length p) (List.length a)) as [L|L]; [exact L|]. exfalso. apply Hp.
      apply (f_equal (fun x => nth_error x (List.length a))) in E. rewrite nth_error_app1 in E by exact L. rewrite nth_error_app2, Nat.sub_diag in E by lia. cbn in E. eapply nth_error_In. exact E. }
  destruct (C190_strings [[c]] (join [c] parts)) as (ps & U & G); [intros d more [= <- <-]; discriminate|]. apply U in P. subst ps.
  clear - F G. remember (strto_strings [[c]] (join [c] parts)) as rs eqn:E. clear E. revert rs G. induction F as [|p ps (_ & T) F IH]; intros rs G; inversion G as [|? q ? rs2 W G2]; subst; [reflexivity|].
  f_equal; [|apply IH; exact G2]. destruct W as (l & r & E & Bl & Br & _).
  assert (l = []) as -> by (destruct l as [|x l]; [reflexivity|]; exfalso; apply (proj1 (T (x :: l) (q ++ r) Bl ltac:(discriminate))); exact E).
  assert (r = []) as -> by (destruct r as [|x r]; [reflexivity|]; exfalso; apply (proj2 (T (x :: r) q Br ltac:(discriminate))); exact E).
  rewrite app_nil_r in E. symmetry. exact E.
Qed.
(** the UTF-8 encoding of a code point *)
Definition char_of (z : Z) : ascii := ascii_of_nat (Z.to_nat z).
Definition encoding (n : Z) : bytes :=
  (if n <? 128 then [char_of n]
   else if n <? 2048 then [char_of (192 + n / 64); char_of (128 + n mod 64)]
   else if n <? 65536 then [char_of (224 + n / 4096); char_of (128 + n / 64 mod 64); char_of (128 + n mod 64)]
   else [char_of (240 + n / 262144); char_of (128 + n / 4096 mod 64); char_of (128 + n / 64 mod 64); char_of (128 + n mod 64)])%Z.
(** the characters of Unicode: no surrogates *)
Definition character (n : Z) : Prop := (0 <= n < 55296 \/ 57344 <= n < 1114112)%Z.
Lemma code_char z : (0 <= z < 256)%Z -> Z.of_nat (code (char_of z)) = z.
Proof. intros H. unfold code, char_of. rewrite nat_ascii_embedding by lia. lia. Qed.
Ltac Zify.zify_post_hook ::= Z.div_mod_to_equations.
Lemma rune_size_encoding n r : character n -> rune_size (encoding n ++ r) = List.length (encoding n).
Proof.
  intros H. unfold character in H. unfold encoding. destruct (Z.ltb_spec n 128); [|destruct (Z.ltb_spec n 2048); [|destruct (Z.ltb_spec n 65536)]].
  - assert (W : forall lo hi, (128 <= lo)%Z -> within lo hi (char_of n) = false) by (intros lo hi L; unfold within; rewrite code_char by lia; destruct (Z.leb_spec lo n); [lia|reflexivity]).
    cbn [app List.length rune_size]. destruct r as [|c1 [|c2 [|c3 r]]]; rewrite ?W by lia; reflexivity.
  - assert (W0 : within 194 223 (char_of (192 + n / 64)) = true) by (unfold within; rewrite code_char by lia; apply andb_true_intro; split; apply Z.leb_le; lia).
    assert (W1 : within 128 191 (char_of (128 + n mod 64)) = true) by (unfold within; rewrite code_char by lia; apply andb_true_intro; split; apply Z.leb_le; lia).
    cbn [app List.length rune_size]. destruct r as [|c2 [|c3 r]]; rewrite W0, W1; reflexivity.
  - assert (W : within 194 223 (char_of (224 + n / 4096)) = false) by (unfold within; rewrite code_char by lia; apply andb_false_intro2; apply Z.leb_gt; lia).
    assert (W0 : within 224 239 (char_of (224 + n / 4096)) = true) by (unfold within; rewrite code_char by lia; apply andb_true_intro; split; apply Z.leb_le; lia).
    assert (W1 : within (if within 224 224 (char_of (224 + n / 4096)) then 160 else 128) (if within 237 237 (char_of (224 + n / 4096)) then 159 else 191) (char_of (128 + n / 64 mod 64)) = true).
    { unfold within. rewrite !code_char by lia. destruct (Z.leb_spec 224 (224 + n / 4096)); destruct (Z.leb_spec (224 + n / 4096) 224); destruct (Z.leb_spec 237 (224 + n / 4096)); destruct (Z.leb_spec (224 + n / 4096) 237); cbn [andb]; apply andb_true_intro; split; apply Z.leb_le; lia. }
    assert (W2 : within 128 191 (char_of (128 + n mod 64)) = true) by (unfold within; rewrite code_char by lia; apply andb_true_intro; split; apply Z.leb_le; lia).
    cbn [app List.length rune_size]. destruct r as [|c3 r]; rewrite W, W0, W1, W2; reflexivity.
  - assert (W : within 194 223 (char_of (240 + n / 262144)) = false) by (unfold within; rewrite code_char by lia; apply andb_false_intro2; apply Z.leb_gt; lia).
    assert (W' : within 224 239 (char_of (240 + n / 262144)) = false) by (unfold within; rewrite code_char by lia; apply andb_false_intro2; apply Z.leb_gt; lia).
    assert (W0 : within 240 244 (char_of (240 + n / 262144)) = true) by (unfold within; rewrite code_char by lia; apply andb_true_intro; split; apply Z.leb_le; lia).
    assert (W1 : within (if within 240 240 (char_of (240 + n / 262144)) then 144 else 128) (if within 244 244 (char_of (240 + n / 262144)) then 143 else 191) (char_of (128 + n / 4096 mod 64)) = true).
    { unfold within. rewrite !code_char by lia. destruct (Z.leb_spec 240 (240 + n / 262144)); destruct (Z.leb_spec (240 + n / 262144) 240); destruct (Z.leb_spec 244 (240 + n / 262144)); destruct (Z.leb_spec (240 + n / 262144) 244); cbn [andb]; apply andb_true_intro; split; apply Z.leb_le; lia. }
    assert (W2 : within 128 191 (char_of (128 + n / 64 mod 64)) = true) by (unfold within; rewrite code_char by lia; apply andb_true_intro; split; apply Z.leb_le; lia).
    assert (W3 : within 128 191 (char_of (128 + n mod 64)) = true) by (unfold within; rewrite code_char by lia; apply andb_true_intro; split; apply Z.leb_le; lia).
    cbn [app List.length rune_size]. rewrite W, W', W0, W1, W2, W3. reflexivity.
Qed.
Ltac Zify.zify_post_hook ::= idtac.
Lemma encoding_some n : exists c r, encoding n = c :: r.
Proof. unfold encoding. destruct (n <? 128)%Z; [|destruct (n <? 2048)%Z; [|destruct (n <? 65536)%Z]]; eexists _, _; reflexivity. Qed.
Lemma explode_encodings ns : Forall character ns -> forall fuel, List.length (List.concat (map encoding ns)) <= fuel -> explode fuel (List.concat (map encoding ns)) = map encoding ns.
Proof.
  induction 1 as [|n ns H F IH]; intros fuel L; [destruct fuel; reflexivity|]. cbn [map List.concat] in *. pose proof (rune_size_encoding n (List.concat (map encoding ns)) H) as R.
  destruct (encoding_some n) as (c & r & E). rewrite app_length in L. assert (P : 0 < List.length (encoding n)) by (rewrite E; cbn; lia). destruct fuel as [|fuel]; [lia|].
  assert (Q : explode (S fuel) (encoding n ++ List.concat (map encoding ns)) = firstn (List.length (encoding n)) (encoding n ++ List.concat (map encoding ns)) :: explode fuel (skipn (List.length (encoding n)) (encoding n ++ List.concat (map encoding ns)))).
  { rewrite <- R. rewrite E. reflexivity. }
  rewrite Q, app_first. f_equal. rewrite skipn_app, skipn_all, Nat.sub_diag. cbn [app skipn]. apply IH. lia.
Qed.
(** With the empty delimiter the pieces of a UTF-8 text are its characters; a white space
    character gives an empty piece, and the empty text no piece. *)
Theorem C190_empty_delimiter ns more : Forall character ns ->
  Forall2 without_blanks (map encoding ns) (strto_strings ([] :: more) (List.concat (map encoding ns))).
Proof.
  intros F. unfold strto_strings. cbv zeta. cbv iota. rewrite (explode_encodings ns F) by lia. generalize (map encoding ns) as ps. induction ps as [|p ps IH]; [constructor|]. cbn [map]. constructor; [|exact IH].
  destruct (trim_space_parts p) as (l & r & A & B & C & D). exists l, r. auto.
Qed.
(** For any bytes: the pieces before trimming have one to four bytes each and are the text. *)
Theorem C190_empty_delimiter_any more s : exists ps, List.concat ps = s /\ Forall (fun p => 1 <= List.length p <= 4) ps /\
  Forall2 without_blanks ps (strto_strings ([] :: more) s).
Proof.
  exists (explode (List.length s) s). unfold strto_strings. cbv zeta. cbv iota.
  assert (X : forall fuel t, List.length t <= fuel -> List.concat (explode fuel t) = t /\ Forall (fun p => 1 <= List.length p <= 4) (explode fuel t)).
  { assert (R : forall c t, 1 <= rune_size (c :: t) <= 4).
    { intros c t. unfold rune_size. destruct t as [|c1 [|c2 [|c3 t]]]; repeat match goal with |- context [if ?x then _ else _] => lazymatch x with _ && _ => destruct x end end; lia. }
    induction fuel as [|fuel IH]; intros t L; [destruct t; [split; constructor|cbn in L; lia]|]. destruct t as [|c t]; [split; constructor|]. cbn [explode].
    pose proof (R c t) as B. destruct (IH (skipn (rune_size (c :: t)) (c :: t))) as (A & G); [rewrite skipn_length; lia|].
    split; [cbn [List.concat]; rewrite A; apply firstn_skipn|]. constructor; [|exact G]. rewrite firstn_length. cbn [List.length]. lia. }
  destruct (X (List.length s) s (le_n _)) as (A & B). split; [exact A|]. split; [exact B|]. generalize (explode (List.length s) s) as ps. induction ps as [|p ps IH]; [constructor|]. cbn [map]. constructor; [|exact IH].
  destruct (trim_space_parts p) as (l & r & A' & B' & C & D). exists l, r. auto.
Qed.
Example C190_characters_example :
  Forall character [97; 8364; 32; 128512]%Z /\ strto_strings [[]] (List.concat (map encoding [97; 8364; 32; 128512]%Z)) = [bs "a"; encoding 8364; []; encoding 128512] /\
  encoding 8364 = map ascii_of_nat [226; 130; 172] /\ strto_strings [[]] [] = [].
Proof. split; [repeat (apply Forall_cons; [unfold character; lia|]); apply Forall_nil|]. vm_compute. repeat split. Qed.

Example C190_example :
  strto_strings [] (bs " a, b ,,c") = [bs "a"; bs "b"; []; bs "c"] /\ strto_strings [] [] = [[]] /\
  strto_strings [bs "::"; bs ","] (bs "x:::y,z") = [bs "x"; bs ":y,z"] /\ pieces (bs "::") (bs "x:::y") [bs "x"; bs ":y"] /\
  Forall (fun p => ~ In ","%char p /\ trimmed p) [bs "a"; []].
Proof.
  split; [vm_compute; reflexivity|]. split; [vm_compute; reflexivity|]. split; [vm_compute; reflexivity|]. split.
  - exact (split_pieces (bs "::") ltac:(discriminate) 6 (bs "x:::y") ltac:(cbn; lia)).
  - assert (T : forall p, trim_space p = p -> trimmed p) by (intros p E; destruct (trim_space_parts p) as (l & r & _ & _ & _ & D); rewrite E in D; exact D).
    constructor; [split; [intros [E|[]]; discriminate|apply T; vm_compute; reflexivity]|]. constructor; [|constructor]. split; [intros []|apply T; vm_compute; reflexivity].
Qed.

Print Assumptions C190_strings.
Print Assumptions C190_pieces_join.
Print Assumptions C190_join_back.
Print Assumptions C190_empty_delimiter.
Print Assumptions C190_empty_delimiter_any.
