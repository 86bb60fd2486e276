(** Props_Stack: C137-C141, about /repo/app_util.go (Stack, FileSource) and the panic page of /repo/recovery.go. *)
From Coq Require Import List Ascii String Bool Arith ZArith NArith Lia.
Import ListNotations.
From Verif Require Import GoStr GoNum ConvFacts StackModel.

(** ** Specification: the text of an HTML fragment *)
(** without its tags *)
Fixpoint strip (in_tag : bool) (s : bytes) : bytes :=
  match s with
  | [] => []
  | c :: r =>
      if in_tag then strip (negb (Ascii.eqb c ">"%char)) r
      else if Ascii.eqb c "<"%char then strip true r else c :: strip false r
  end.
(** with the character references replaced; [skip]: characters of a reference still to be left out *)
Definition references : list (bytes * ascii) := [(bs "&amp;", "&"%char); (bs "&#39;", "'"%char); (bs "&lt;", "<"%char); (bs "&gt;", ">"%char); (bs "&#34;", byte 34)].
Definition reference (s : bytes) : option (bytes * ascii) := find (fun r => has_prefix s (fst r)) references.
Fixpoint decode (skip : nat) (s : bytes) : bytes :=
  match s with
  | [] => []
  | c :: r =>
      match skip with
      | S k => decode k r
      | 0 => match reference s with Some (e, d) => d :: decode (List.length e - 1) r | None => c :: decode 0 r end
      end
  end.
Definition html_text (s : bytes) : bytes := decode 0 (strip false s).

(** what is shown of a line: everything, but of a line that starts with / the character pairs " (" after the first are lost *)
Definition paren_free (s : bytes) : Prop := ~ exists a b, s = a ++ bs " (" ++ b.
Inductive shown : bytes -> bytes -> Prop :=
| sh_other l : (forall r, l <> "/"%char :: r) -> shown l l
| sh_plain l : paren_free l -> shown l l
| sh_file l first rest : Forall paren_free (first :: rest) -> rest <> [] -> l = join (bs " (") (first :: rest) -> shown ("/"%char :: l) ("/"%char :: first ++ bs " (" ++ List.concat rest).

(** ** Splitting at " (" *)
Definition push_all (e : bytes) (l : list bytes) : list bytes := match l with [] => [e] | p :: r => (e ++ p) :: r end.
Lemma split_paren_nonnil s : split_paren s <> [].
Proof.
  destruct s as [|c r]; [discriminate|]. cbn [split_paren]. destruct r as [|d r]; [discriminate|]. destruct (_ && _)%bool; [discriminate|]. destruct (split_paren (d :: r)); discriminate.
Qed.
Lemma split_paren_push c r : c <> " "%char -> split_paren (c :: r) = push c (split_paren r).
Proof.
  intros H. cbn [split_paren]. destruct r as [|d r]; [reflexivity|]. destruct (Ascii.eqb_spec c " "%char); [contradiction|reflexivity].
Qed.
Lemma split_paren_space d r : d <> "("%char -> split_paren (" "%char :: d :: r) = push " "%char (split_paren (d :: r)).
Proof. intros H. cbn [split_paren]. destruct (Ascii.eqb_spec d "("%char); [contradiction|reflexivity]. Qed.
Lemma split_paren_at r : split_paren (bs " (" ++ r) = [] :: split_paren r.
Proof. reflexivity. Qed.
Lemma paren_free_tail c s : paren_free (c :: s) -> paren_free s.
Proof. intros H (a & b & ->). apply H. exists (c :: a), b. reflexivity. Qed.
Lemma split_paren_app p r : paren_free p -> split_paren (p ++ bs " (" ++ r) = p :: split_paren r.
Proof.
  induction p as [|c p IH]; intros H; [reflexivity|]. cbn [List.app]. specialize (IH (paren_free_tail _ _ H)).
  destruct (ascii_dec c " "%char) as [->|Hc]; [|rewrite split_paren_push by exact Hc; rewrite IH; reflexivity].
  destruct p as [|d p]; [change ([] ++ bs " (" ++ r) with (" "%char :: "("%char :: r) in *; rewrite split_paren_space by discriminate; rewrite IH; reflexivity|]. cbn [List.app] in *. rewrite split_paren_space; [rewrite IH; reflexivity|].
  intros ->. apply H. exists [], p. reflexivity.
Qed.
Lemma split_paren_plain p : paren_free p -> split_paren p = [p].
Proof.
  induction p as [|c p IH]; intros H; [reflexivity|]. specialize (IH (paren_free_tail _ _ H)). destruct (ascii_dec c " "%char) as [->|Hc]; [|rewrite split_paren_push by exact Hc; rewrite IH; reflexivity].
  destruct p as [|d p]; [reflexivity|]. rewrite split_paren_space; [rewrite IH; reflexivity|]. intros ->. apply H. exists [], p. reflexivity.
Qed.
Lemma split_paren_of_join first rest : Forall paren_free (first :: rest) -> split_paren (join (bs " (") (first :: rest)) = first :: rest.
Proof.
  revert first. induction rest as [|q rest IH]; intros first H; inversion H as [|? ? H1 H2]; subst.
  - apply split_paren_plain. exact H1.
  - rewrite join_cons. rewrite split_paren_app by exact H1. rewrite IH by exact H2. reflexivity.
Qed.
Lemma split_paren_parts s : Forall paren_free (split_paren s) /\ join (bs " (") (split_paren s) = s.
Proof.
  assert (G : forall n s, List.length s <= n -> Forall paren_free (split_paren s) /\ join (bs " (") (split_paren s) = s); [|apply (G (List.length s)); lia].
  clear s. induction n as [|n IH]; intros s Hn.
  - destruct s; [|cbn in Hn; lia]. split; [|reflexivity]. constructor; [|constructor]. intros (a & b & E). destruct a; discriminate E.
  - destruct s as [|c r]; [split; [|reflexivity]; constructor; [|constructor]; intros (a & b & E); destruct a; discriminate E|]. cbn [List.length] in Hn.
    assert (Push : (c <> " "%char \/ forall d r', r = d :: r' -> d <> "("%char) -> Forall paren_free (push c (split_paren r)) /\ join (bs " (") (push c (split_paren r)) = c :: r).
    { intros Hc. destruct (IH r ltac:(lia)) as (H1 & H2). destruct (split_paren r) as [|p ps] eqn:E; [exfalso; exact (split_paren_nonnil r E)|]. cbn [push]. inversion H1 as [|? ? Hp Hps]; subst. split.
      - constructor; [|exact Hps]. intros (a & b & X). destruct a as [|x a]; [|injection X as _ X; apply Hp; exists a, b; exact X]. cbn in X. injection X as -> ->. destruct Hc as [Hc|Hc]; [congruence|].
        destruct ps as [|q ps]; [exact (Hc "("%char b eq_refl eq_refl)|]. rewrite join_cons in Hc. exact (Hc "("%char _ eq_refl eq_refl).
      - destruct ps as [|q ps]; [reflexivity|]. rewrite !join_cons. reflexivity. }
    destruct (ascii_dec c " "%char) as [->|Hc]; [|rewrite split_paren_push by exact Hc; apply Push; left; exact Hc].
    destruct r as [|d r]; [split; [|reflexivity]; constructor; [|constructor]; intros (a & b & E); destruct a as [|x [|y a]]; discriminate E|].
    destruct (ascii_dec d "("%char) as [->|Hd]; [|rewrite split_paren_space by exact Hd; apply Push; right; intros d' r' [= <- <-]; exact Hd].
    change (split_paren (" "%char :: "("%char :: r)) with ([] :: split_paren r). cbn [List.length] in Hn. destruct (IH r ltac:(lia)) as (H1 & H2). split.
    + constructor; [intros (a & b & E); destruct a; discriminate E|exact H1].
    + destruct (split_paren r) as [|p ps] eqn:E; [exfalso; exact (split_paren_nonnil r E)|]. rewrite join_cons, H2. reflexivity.
Qed.

(** ** Escaping *)
Definition special (c : ascii) : bool := (Ascii.eqb c "&"%char || Ascii.eqb c "'"%char || Ascii.eqb c "<"%char || Ascii.eqb c ">"%char || Ascii.eqb c (byte 34))%bool.
Lemma escape_char_cases c : (special c = false /\ escape_char c = [c]) \/
  (special c = true /\ exists e, escape_char c = "&"%char :: e /\ ~ In " "%char e /\ ~ In newline e /\ ~ In "<"%char e /\ forall s, decode 0 (escape_char c ++ s) = c :: decode 0 s).
Proof.
  unfold special, escape_char. destruct (Ascii.eqb_spec c "&"%char) as [->|]; [right; split; [reflexivity|]; eexists; split; [reflexivity|]; repeat split; try reflexivity; intros X; repeat destruct X as [X|X]; try discriminate X; exact X|].
  destruct (Ascii.eqb_spec c "'"%char) as [->|]; [right; split; [reflexivity|]; eexists; split; [reflexivity|]; repeat split; try reflexivity; intros X; repeat destruct X as [X|X]; try discriminate X; exact X|].
  destruct (Ascii.eqb_spec c "<"%char) as [->|]; [right; split; [reflexivity|]; eexists; split; [reflexivity|]; repeat split; try reflexivity; intros X; repeat destruct X as [X|X]; try discriminate X; exact X|].
  destruct (Ascii.eqb_spec c ">"%char) as [->|]; [right; split; [reflexivity|]; eexists; split; [reflexivity|]; repeat split; try reflexivity; intros X; repeat destruct X as [X|X]; try discriminate X; exact X|].
  destruct (Ascii.eqb_spec c (byte 34)) as [->|]; [right; split; [reflexivity|]; eexists; split; [reflexivity|]; repeat split; try reflexivity; intros X; repeat destruct X as [X|X]; try discriminate X; exact X|].
  left. split; reflexivity.
Qed.
Lemma special_not c : special c = false -> c <> "&"%char /\ c <> "<"%char.
Proof. intros H. split; intros ->; discriminate H. Qed.
Lemma escape_cons c s : escape_html (c :: s) = escape_char c ++ escape_html s.
Proof. reflexivity. Qed.
Lemma escape_app a b : escape_html (a ++ b) = escape_html a ++ escape_html b.
Proof. unfold escape_html. apply flat_map_app. Qed.
Lemma escape_nolt s : ~ In "<"%char (escape_html s).
Proof.
  induction s as [|c s IH]; [intros []|]. rewrite escape_cons, in_app_iff. intros [X|X]; [|exact (IH X)].
  destruct (escape_char_cases c) as [(Hs & E)|(Hs & e & E & _ & _ & Hlt & _)]; rewrite E in X; destruct X as [X|X]; [apply special_not in Hs as (_ & Hs); congruence|exact X|discriminate X|exact (Hlt X)].
Qed.
Lemma reference_amp c s : c <> "&"%char -> reference (c :: s) = None.
Proof.
  intros H. unfold reference, references. cbn [find fst]. assert (G : forall t, has_prefix (c :: s) ("&"%char :: t) = false) by (intros t; cbn [has_prefix]; destruct (Ascii.eqb_spec "&"%char c) as [X|]; [symmetry in X; contradiction|reflexivity]).
  unfold bs. cbn [list_ascii_of_string]. rewrite !G. reflexivity.
Qed.
Lemma decode_escape s : decode 0 (escape_html s) = s.
Proof.
  induction s as [|c s IH]; [reflexivity|]. rewrite escape_cons. destruct (escape_char_cases c) as [(Hs & E)|(Hs & e & _ & _ & _ & _ & E)].
  - rewrite E. cbn [List.app decode]. rewrite reference_amp by (apply special_not in Hs; tauto). rewrite IH. reflexivity.
  - rewrite E, IH. reflexivity.
Qed.
Lemma split_byte_push c d s : c <> d -> split_byte d (c :: s) = push c (split_byte d s).
Proof. intros H. cbn [split_byte]. destruct (Ascii.eqb_spec c d); [contradiction|]. destruct (split_byte d s); reflexivity. Qed.
Lemma split_byte_push_all d e s : ~ In d e -> split_byte d (e ++ s) = push_all e (split_byte d s).
Proof.
  induction e as [|c e IH]; intros H; cbn [List.app].
  - destruct (split_byte d s) eqn:E; [exfalso; exact (split_byte_not_nil _ _ E)|reflexivity].
  - rewrite split_byte_push by (intros ->; apply H; left; reflexivity). rewrite IH by (intros X; apply H; right; exact X). destruct (split_byte d s); reflexivity.
Qed.
Lemma split_paren_push_all e s : ~ In " "%char e -> split_paren (e ++ s) = push_all e (split_paren s).
Proof.
  induction e as [|c e IH]; intros H; cbn [List.app].
  - destruct (split_paren s) eqn:E; [exfalso; exact (split_paren_nonnil _ E)|reflexivity].
  - rewrite split_paren_push by (intros ->; apply H; left; reflexivity). rewrite IH by (intros X; apply H; right; exact X). destruct (split_paren s); reflexivity.
Qed.
Lemma map_escape_push c l : l <> [] -> map escape_html (push c l) = push_all (escape_char c) (map escape_html l).
Proof. destruct l as [|p l]; [congruence|]. reflexivity. Qed.
Lemma split_lines_escape s : split_byte newline (escape_html s) = map escape_html (split_byte newline s).
Proof.
  induction s as [|c s IH]; [reflexivity|]. rewrite escape_cons. destruct (ascii_dec c newline) as [->|Hc].
  - change (escape_char newline ++ escape_html s) with (newline :: escape_html s). cbn [split_byte]. rewrite Ascii.eqb_refl, IH. reflexivity.
  - rewrite (split_byte_push c newline s Hc), map_escape_push by apply split_byte_not_nil. rewrite <- IH. apply split_byte_push_all.
    destruct (escape_char_cases c) as [(_ & E)|(_ & e & E & _ & Hn & _)]; rewrite E; intros [X|X]; [congruence|exact X|discriminate X|exact (Hn X)].
Qed.
Lemma split_paren_escape s : split_paren (escape_html s) = map escape_html (split_paren s).
Proof.
  assert (G : forall n s, List.length s <= n -> split_paren (escape_html s) = map escape_html (split_paren s)); [|apply (G (List.length s)); lia].
  clear s. induction n as [|n IH]; intros s Hn; [destruct s; [reflexivity|cbn in Hn; lia]|]. destruct s as [|c s]; [reflexivity|]. cbn [List.length] in Hn.
  destruct (ascii_dec c " "%char) as [->|Hc].
  - change (escape_html (" "%char :: s)) with (" "%char :: escape_html s). destruct s as [|d s]; [reflexivity|]. destruct (ascii_dec d "("%char) as [->|Hd].
    + change (escape_html ("("%char :: s)) with ("("%char :: escape_html s). change (split_paren (" "%char :: "("%char :: escape_html s)) with ([] :: split_paren (escape_html s)). cbn [List.length] in Hn. rewrite IH by lia. reflexivity.
    + rewrite (split_paren_space d s Hd), map_escape_push by apply split_paren_nonnil. rewrite <- IH by lia. rewrite escape_cons.
      assert (H : exists x y, escape_char d ++ escape_html s = x :: y /\ x <> "("%char).
      { destruct (escape_char_cases d) as [(_ & E)|(_ & e & E & _)]; rewrite E; [exists d, (escape_html s); auto|exists "&"%char, (e ++ escape_html s); split; [reflexivity|discriminate]]. }
      destruct H as (x & y & E & Hx). rewrite E. rewrite split_paren_space by exact Hx. destruct (split_paren (x :: y)) eqn:Es; [exfalso; exact (split_paren_nonnil _ Es)|reflexivity].
  - rewrite (split_paren_push c s Hc), map_escape_push by apply split_paren_nonnil. rewrite <- IH by lia. rewrite escape_cons. apply split_paren_push_all.
    destruct (escape_char_cases c) as [(_ & E)|(_ & e & E & Hs & _)]; rewrite E; intros [X|X]; [congruence|exact X|discriminate X|exact (Hs X)].
Qed.

(** ** Stripping *)
Lemma strip_text u v : ~ In "<"%char u -> strip false (u ++ v) = u ++ strip false v.
Proof.
  induction u as [|c u IH]; intros H; [reflexivity|]. cbn [List.app strip]. destruct (Ascii.eqb_spec c "<"%char) as [->|_]; [exfalso; apply H; left; reflexivity|]. rewrite IH; [reflexivity|]. intros X. apply H. right. exact X.
Qed.
Definition show_line (line : bytes) : bytes :=
  match line with
  | c :: _ => if Ascii.eqb c "/"%char then match split_paren line with p :: q :: ps => p ++ bs " (" ++ List.concat (q :: ps) | _ => line end else line
  | [] => []
  end.
Lemma concat_escape l : List.concat (map escape_html l) = escape_html (List.concat l).
Proof. induction l as [|a l IH]; [reflexivity|]. cbn [map List.concat]. rewrite escape_app, IH. reflexivity. Qed.
Lemma strip_style l rest : strip false (style_line (escape_html l) ++ rest) = escape_html (show_line l) ++ strip false rest.
Proof.
  destruct l as [|c l]; [reflexivity|]. unfold show_line. set (line := c :: l).
  assert (Ep : split_paren (escape_html line) = map escape_html (split_paren line)) by apply split_paren_escape.
  assert (Eh : exists x y, escape_html line = x :: y /\ (x = "/"%char <-> c = "/"%char)).
  { unfold line. rewrite escape_cons. destruct (escape_char_cases c) as [(_ & E)|(Hs & e & E & _)]; rewrite E; [exists c, (escape_html l); split; [reflexivity|tauto]|].
    exists "&"%char, (e ++ escape_html l). split; [reflexivity|]. split; [discriminate|]. intros ->. discriminate Hs. }
  destruct Eh as (x & y & Eh & Hx). unfold style_line. rewrite Eh at 1. destruct (Ascii.eqb_spec c "/"%char) as [Hc|Hc].
  - replace (Ascii.eqb x "/"%char) with true by (symmetry; apply Ascii.eqb_eq, Hx, Hc). rewrite Ep.
    destruct (split_paren line) as [|p [|q ps]]; cbn [map].
    + unfold odd_line. rewrite <- !app_assoc. cbn [strip List.app bs list_ascii_of_string Ascii.eqb Bool.eqb negb]. rewrite strip_text by apply escape_nolt. reflexivity.
    + unfold odd_line. rewrite <- !app_assoc. cbn [strip List.app bs list_ascii_of_string Ascii.eqb Bool.eqb negb]. rewrite strip_text by apply escape_nolt. reflexivity.
    + unfold odd_line, file_part. rewrite <- !app_assoc. cbn [strip List.app bs list_ascii_of_string Ascii.eqb Bool.eqb negb]. rewrite strip_text by apply escape_nolt.
      cbn [strip List.app bs list_ascii_of_string Ascii.eqb Bool.eqb negb]. change (escape_html q :: map escape_html ps) with (map escape_html (q :: ps)). rewrite concat_escape.
      rewrite strip_text by apply escape_nolt. rewrite !escape_app. rewrite <- !app_assoc. reflexivity.
  - replace (Ascii.eqb x "/"%char) with false by (symmetry; apply Ascii.eqb_neq; intros X; apply Hc, Hx, X). unfold even_line. rewrite <- !app_assoc.
    cbn [strip List.app bs list_ascii_of_string Ascii.eqb Bool.eqb negb]. rewrite strip_text by apply escape_nolt. reflexivity.
Qed.
Lemma strip_join ls : ls <> [] -> strip false (join [newline] (map style_line (map escape_html ls))) = escape_html (join [newline] (map show_line ls)).
Proof.
  induction ls as [|l ls IH]; [congruence|]. intros _. destruct ls as [|m ls].
  - cbn [map join]. rewrite <- (app_nil_r (style_line _)). rewrite strip_style. cbn [strip]. rewrite app_nil_r. reflexivity.
  - cbn [map]. rewrite !join_cons. rewrite strip_style. cbn [map] in IH. change ([newline] ++ join [newline] (style_line (escape_html m) :: map style_line (map escape_html ls))) with (newline :: join [newline] (style_line (escape_html m) :: map style_line (map escape_html ls))).
    cbn [strip]. change (Ascii.eqb newline "<"%char) with false. cbn [strip]. rewrite IH by discriminate. rewrite !escape_app. reflexivity.
Qed.
Lemma style_text s : html_text (style_stack s) = join [newline] (map show_line (split_byte newline s)).
Proof. unfold html_text, style_stack. rewrite split_lines_escape, strip_join by apply split_byte_not_nil. apply decode_escape. Qed.
Lemma show_line_shown l : shown l (show_line l).
Proof.
  destruct l as [|c l]; [apply sh_other; discriminate|]. unfold show_line. destruct (Ascii.eqb_spec c "/"%char) as [->|Hc]; [|apply sh_other; intros r [= X _]; exact (Hc X)].
  rewrite split_paren_push by discriminate. destruct (split_paren_parts l) as (H1 & H2). destruct (split_paren l) as [|p [|q ps]] eqn:E; [exfalso; exact (split_paren_nonnil _ E)| |]; cbn [push].
  - apply sh_plain. cbn [join] in H2. subst p. inversion H1 as [|? ? Hp _]; subst. intros (a & b & X). destruct a as [|x a]; [discriminate X|]. injection X as _ X. apply Hp. exists a, b. exact X.
  - change (("/"%char :: p) ++ bs " (" ++ List.concat (q :: ps)) with ("/"%char :: p ++ bs " (" ++ List.concat (q :: ps)). apply sh_file; [exact H1|discriminate|symmetry; exact H2].
Qed.
Lemma shown_fun l a b : shown l a -> shown l b -> a = b.
Proof.
  assert (G : forall l a, shown l a -> a = show_line l).
  { clear. intros l a [l' H|l' H|l' first rest H1 H2 H3].
    - destruct l' as [|c l']; [reflexivity|]. unfold show_line. destruct (Ascii.eqb_spec c "/"%char) as [->|]; [exfalso; exact (H l' eq_refl)|reflexivity].
    - unfold show_line. destruct l' as [|c l']; [reflexivity|]. destruct (Ascii.eqb c "/"%char); [|reflexivity]. rewrite split_paren_plain by exact H. reflexivity.
    - unfold show_line. rewrite Ascii.eqb_refl, split_paren_push by discriminate. rewrite H3, split_paren_of_join by exact H1. destruct rest as [|q rest]; [congruence|]. reflexivity. }
  intros Ha Hb. rewrite (G _ _ Ha), (G _ _ Hb). reflexivity.
Qed.

(** ** C137: the text of the stack on the page *)
(** Line by line the page shows the stack, except that lines starting with / lose the pairs " (" after their first. *)
Theorem C137_page_text : forall lines, lines <> [] -> Forall (fun l => ~ In newline l) lines ->
  exists out, Forall2 shown lines out /\ html_text (style_stack (join [newline] lines)) = join [newline] out.
Proof.
  intros lines Hn Hf. exists (map show_line lines). split.
  - clear. induction lines as [|l lines IH]; constructor; [apply show_line_shown|exact IH].
  - rewrite style_text. rewrite split_join; [reflexivity|exact Hn|exact Hf].
Qed.
(** [shown] is a function, so this determines the text *)
Theorem C137_shown_is_a_function : forall l a b, shown l a -> shown l b -> a = b.
Proof. exact shown_fun. Qed.
(** The claim that the page shows the stack unchanged is false *)
Theorem C137_text_is_kept_refuted : ~ (forall s, html_text (style_stack s) = s).
Proof. intros H. specialize (H (bs "/home/a (1)/x.go:3 (0x1)")). vm_compute in H. discriminate H. Qed.
Example C137_case : html_text (style_stack (bs "/a<b (1)/x.go:3 (0x1)
	f: a && b (c) (d)")) = bs "/a<b (1)/x.go:30x1)
	f: a && b (c) (d)".
Proof. vm_compute. reflexivity. Qed.

(** ** C138: markup on the page *)
(** the tags the filter itself writes around the stack *)
Definition stack_tags : list bytes := [bs "<div class=""line odd"">"; bs "<div class=""line even"">"; bs "<span class=""file"">"; bs "</span>"; bs "</div>"].
Definition only_tags (tags : list bytes) (s : bytes) : Prop := forall a b, s = a ++ "<"%char :: b -> exists tag c, In tag tags /\ "<"%char :: b = tag ++ c.
Lemma app_cut {A} (u v a b : list A) (c : A) : u ++ v = a ++ c :: b -> (exists b', u = a ++ c :: b' /\ b = b' ++ v) \/ (exists a', v = a' ++ c :: b /\ a = u ++ a').
Proof.
  revert a. induction u as [|x u IH]; intros a E; [right; exists a; auto|]. destruct a as [|y a]; cbn [List.app] in E.
  - injection E as -> <-. left. exists u. auto.
  - injection E as -> E. destruct (IH a E) as [(b' & -> & ->)|(a' & -> & ->)]; [left; exists b'; auto|right; exists a'; auto].
Qed.
Lemma only_tags_app tags u v : only_tags tags u -> only_tags tags v -> only_tags tags (u ++ v).
Proof.
  intros Hu Hv a b E. destruct (app_cut _ _ _ _ _ E) as [(b' & Eu & ->)|(a' & Ev & _)]; [|exact (Hv a' b Ev)].
  destruct (Hu a b' Eu) as (tag & c & Hin & Et). exists tag, (c ++ v). split; [exact Hin|]. rewrite app_assoc, <- Et. reflexivity.
Qed.
Lemma only_tags_text tags u : ~ In "<"%char u -> only_tags tags u.
Proof. intros H a b ->. exfalso. apply H. apply in_app_iff. right. left. reflexivity. Qed.
Lemma only_tags_tag tags t : In ("<"%char :: t) tags -> ~ In "<"%char t -> only_tags tags ("<"%char :: t).
Proof.
  intros Hin Ht a b E. destruct a as [|x a]; [injection E as <-; exists ("<"%char :: t), []; rewrite app_nil_r; auto|]. injection E as _ ->. exfalso. apply Ht. apply in_app_iff. right. left. reflexivity.
Qed.
Lemma only_tags_join tags sep ls : ~ In "<"%char sep -> Forall (only_tags tags) ls -> only_tags tags (join sep ls).
Proof.
  intros Hs H. induction H as [|l ls Hl H IH]; [apply only_tags_text; intros []|]. destruct ls as [|m ls]; [exact Hl|]. rewrite join_cons. apply only_tags_app; [exact Hl|]. apply only_tags_app; [apply only_tags_text; exact Hs|exact IH].
Qed.
Ltac no_lt := let X := fresh "X" in intros X; vm_compute in X; repeat destruct X as [X|X]; try discriminate X; exact X.
Lemma stack_tag t : In t stack_tags -> only_tags stack_tags t.
Proof. intros H. pose proof H as H0. destruct H as [<-|[<-|[<-|[<-|[<-|[]]]]]]; apply only_tags_tag; try exact H0; no_lt. Qed.
Lemma style_line_tags l : only_tags stack_tags (style_line (escape_html l)).
Proof.
  assert (O : forall u, only_tags stack_tags u -> only_tags stack_tags (odd_line u)) by (intros u H; unfold odd_line; apply only_tags_app; [apply stack_tag; left; reflexivity|]; apply only_tags_app; [exact H|]; apply stack_tag; do 4 right; left; reflexivity).
  assert (E : forall u, only_tags stack_tags u -> only_tags stack_tags (even_line u)) by (intros u H; unfold even_line; apply only_tags_app; [apply stack_tag; right; left; reflexivity|]; apply only_tags_app; [exact H|]; apply stack_tag; do 4 right; left; reflexivity).
  assert (X : forall u, only_tags stack_tags (escape_html u)) by (intros u; apply only_tags_text, escape_nolt).
  pose proof (split_paren_escape l) as Ep. specialize (X l) as Xl. unfold style_line. destruct (escape_html l) as [|c r] eqn:El; [exact Xl|]. destruct (Ascii.eqb c "/"%char); [|apply E; exact Xl]. apply O. rewrite Ep.
  destruct (split_paren l) as [|p [|q ps]]; cbn [map]; [exact Xl|exact Xl|]. unfold file_part. change (escape_html q :: map escape_html ps) with (map escape_html (q :: ps)). rewrite concat_escape. change (bs "</span> (") with (bs "</span>" ++ bs " (").
  apply only_tags_app; [apply only_tags_app; [apply stack_tag; do 2 right; left; reflexivity|apply only_tags_app; [apply X|apply only_tags_app; [apply stack_tag; do 3 right; left; reflexivity|apply only_tags_text; no_lt]]]|apply X].
Qed.
Lemma style_stack_tags s : only_tags stack_tags (style_stack s).
Proof.
  unfold style_stack. rewrite split_lines_escape, map_map. apply only_tags_join; [no_lt|]. apply Forall_forall. intros x Hx. apply in_map_iff in Hx as (l & <- & _). apply style_line_tags.
Qed.
(** Whatever the stack contains (file names, source lines), the only tags in its part of the page are these five. *)
Theorem C138_stack_is_inert : forall s a b, style_stack s = a ++ "<"%char :: b -> exists tag c, In tag stack_tags /\ "<"%char :: b = tag ++ c.
Proof. exact style_stack_tags. Qed.
(** The panic value is not escaped: what it says becomes part of the page *)
Definition page_tags : list bytes := stack_tags ++ map bs ["<html>"; "<head>"; "<title>"; "</title>"; "<style type=""text/css"">"; "</style>"; "</head>"; "<body>"; "<h1>"; "</h1>"; "<pre class=""message"">"; "</pre>"; "<div class=""stack"">"; "</body>"; "</html>"]%string.
Theorem C138_page_is_inert_refuted : ~ (forall v ty g s, only_tags page_tags (panic_page v ty g s)).
Proof.
  intros H. destruct (H (bs "<script>") [] [] [] page_open (bs "script>" ++ page_css ++ bs "<script>" ++ page_message ++ bs ": " ++ page_stack ++ page_close)) as (tag & c & Hin & E).
  { unfold panic_page. generalize page_open page_css page_message page_stack page_close. intros p1 p2 p3 p4 p5. reflexivity. }
  assert (X : Forall (fun t => firstn 4 t <> bs "<scr") page_tags).
  { unfold page_tags, stack_tags. cbn [List.app map]. repeat (constructor; [vm_compute; discriminate|]). constructor. }
  assert (Y : Forall (fun t => 4 <= List.length t) page_tags).
  { unfold page_tags, stack_tags. cbn [List.app map]. repeat (constructor; [vm_compute; lia|]). constructor. }
  rewrite Forall_forall in X, Y. apply (X tag Hin). specialize (Y tag Hin). apply (f_equal (firstn 4)) in E. rewrite firstn_app in E. replace (4 - List.length tag) with 0 in E by lia. rewrite firstn_O, app_nil_r in E. rewrite <- E. reflexivity.
Qed.
Lemma only_tags_incl tags tags' s : incl tags tags' -> only_tags tags s -> only_tags tags' s.
Proof. intros I H a b E. destruct (H a b E) as (t & c & Ht & X). exists t, c. split; [exact (I _ Ht)|exact X]. Qed.
(** the fixed parts, cut into tags and text *)
Fixpoint cut_tags (fuel : nat) (s : bytes) : bool :=
  match fuel with
  | 0 => false
  | S f =>
      match s with
      | [] => true
      | c :: r => if Ascii.eqb c "<"%char then match find (fun t => has_prefix s t) page_tags with Some t => cut_tags f r | None => false end else cut_tags f r
      end
  end.
Lemma cut_tags_ok fuel : forall s, cut_tags fuel s = true -> only_tags page_tags s.
Proof.
  induction fuel as [|f IH]; intros s H; [discriminate|]. destruct s as [|c r]; [apply only_tags_text; intros []|]. cbn [cut_tags] in H.
  intros a b E. destruct a as [|x a].
  - injection E as -> ->. change (Ascii.eqb "<"%char "<"%char) with true in H. cbn iota in H. destruct (find _ page_tags) as [t|] eqn:Ef; [|discriminate]. apply find_some in Ef as (Ht & Hp). apply has_prefix_spec in Hp as (d & Ed). exists t, d. auto.
  - injection E as -> ->. apply (IH (a ++ "<"%char :: b)) with (a := a); [|reflexivity]. destruct (Ascii.eqb x "<"%char); [destruct (find _ page_tags); [exact H|discriminate]|exact H].
Qed.
(** Exact form: markup that is not the filter's own comes from the printed panic value; without < in it there is none. *)
Theorem C138_page_markup : forall v ty g s, ~ In "<"%char v -> ~ In "<"%char ty -> ~ In "<"%char g ->
  forall a b, panic_page v ty g s = a ++ "<"%char :: b -> exists tag c, In tag page_tags /\ "<"%char :: b = tag ++ c.
Proof.
  intros v ty g s Hv Ht Hg. change (only_tags page_tags (panic_page v ty g s)). unfold panic_page.
  assert (C : forall u, cut_tags (S (List.length u)) u = true -> only_tags page_tags u) by (intros u; apply cut_tags_ok).
  assert (T : forall u, ~ In "<"%char u -> only_tags page_tags u) by (intros u; apply only_tags_text).
  apply only_tags_app; [apply C; vm_compute; reflexivity|]. apply only_tags_app; [apply T; exact Hv|]. apply only_tags_app; [apply C; vm_compute; reflexivity|]. apply only_tags_app; [apply T; exact Hv|].
  apply only_tags_app; [apply C; vm_compute; reflexivity|]. apply only_tags_app; [apply T; exact Ht|]. apply only_tags_app; [apply T; no_lt|]. apply only_tags_app; [apply T; exact Hg|].
  apply only_tags_app; [apply C; vm_compute; reflexivity|]. apply only_tags_app; [|apply C; vm_compute; reflexivity].
  eapply only_tags_incl; [|apply style_stack_tags]. intros t H. apply in_app_iff. left. exact H.
Qed.
Example C138_case : ~ In "<"%char (bs "runtime error: index out of range [3] with length 2").
Proof. no_lt. Qed.

(** ** C139: the stack is written frame by frame *)
Section StackProps.
  Variable read : bytes -> option bytes.
  Variable func_name : N -> option bytes.
  Notation stack := (stack read func_name).
  Notation function_name := (function_name func_name).
  (** line n of a text, counted from 1, without the blanks around it; ??? if there is none *)
  Definition blanks (s : bytes) : Prop := Forall (fun c => c = " "%char \/ c = tab) s.
  Inductive line_text (data : bytes) (n : Z) : bytes -> Prop :=
  | lt_line before line after l t r : Forall (fun x => ~ In newline x) (before ++ line :: after) -> data = join [newline] (before ++ line :: after) -> n = Z.of_nat (S (List.length before)) ->
      line = l ++ t ++ r -> blanks l -> blanks r -> (forall c t', t = c :: t' -> c <> " "%char /\ c <> tab) -> (forall c t', t = t' ++ [c] -> c <> " "%char /\ c <> tab) -> line_text data n t
  | lt_none lines : Forall (fun x => ~ In newline x) lines -> lines <> [] -> data = join [newline] lines -> (n < 1 \/ Z.of_nat (List.length lines) < n)%Z -> line_text data n (bs "???").
  (** the lines of one frame *)
  Inductive frame_text (f : frame) : bytes -> Prop :=
  | ft_unread : read (f_file f) = None -> frame_text f (f_file f ++ bs ":" ++ format_int (f_line f) ++ bs " (0x" ++ print_hex (f_pc f) ++ bs ")" ++ [newline])
  | ft_read data t : read (f_file f) = Some data -> line_text data (f_line f) t ->
      frame_text f (f_file f ++ bs ":" ++ format_int (f_line f) ++ bs " (0x" ++ print_hex (f_pc f) ++ bs ")" ++ [newline] ++ [tab] ++ function_name (f_pc f) ++ bs ": " ++ t ++ [newline]).

  Lemma trim_left_spec s : exists l, s = l ++ trim_left_blank s /\ blanks l /\ (forall c t', trim_left_blank s = c :: t' -> c <> " "%char /\ c <> tab).
  Proof.
    induction s as [|c s (l & E & B & H)]; [exists []; split; [reflexivity|split; [constructor|discriminate]]|]. cbn [trim_left_blank]. unfold blank. fold tab. destruct (Ascii.eqb_spec c " "%char) as [->|H1]; [|destruct (Ascii.eqb_spec c tab) as [->|H2]]; cbn [orb].
    - exists (" "%char :: l). split; [cbn; congruence|]. split; [constructor; [left; reflexivity|exact B]|exact H].
    - exists (tab :: l). split; [cbn; congruence|]. split; [constructor; [right; reflexivity|exact B]|exact H].
    - exists []. split; [reflexivity|]. split; [constructor|]. intros c' t' [= <- <-]. auto.
  Qed.
  Lemma trim_blank_spec s : exists l r, s = l ++ trim_blank s ++ r /\ blanks l /\ blanks r /\ (forall c t', trim_blank s = c :: t' -> c <> " "%char /\ c <> tab) /\ (forall c t', trim_blank s = t' ++ [c] -> c <> " "%char /\ c <> tab).
  Proof.
    destruct (trim_left_spec s) as (l & E1 & B1 & H1). destruct (trim_left_spec (rev (trim_left_blank s))) as (r & E2 & B2 & H2). unfold trim_blank. set (u := trim_left_blank s) in *. set (w := trim_left_blank (rev u)) in *.
    assert (Eu : u = rev w ++ rev r) by (rewrite <- rev_app_distr, <- E2, rev_involutive; reflexivity).
    exists l, (rev r). split; [rewrite <- Eu; exact E1|]. split; [exact B1|]. split; [apply Forall_rev; exact B2|]. split.
    - intros c t' E. apply (H1 c (t' ++ rev r)). rewrite Eu, E. reflexivity.
    - intros c t' E. apply (H2 c (rev t')). apply (f_equal (@rev ascii)) in E. rewrite rev_involutive, rev_app_distr in E. exact E.
  Qed.
  Lemma source_line data n : line_text data n (source (split_byte newline data) n).
  Proof.
    unfold source. set (lines := split_byte newline data). assert (Hd : data = join [newline] lines) by (symmetry; apply join_split). assert (Hc : Forall (fun x => ~ In newline x) lines) by (apply Forall_forall; intros x; apply split_byte_clean). assert (Hz : lines <> []) by apply split_byte_not_nil. clearbody lines. unfold bytes in *.
    destruct (Z.ltb_spec (n - 1) 0) as [H1|H1]; cbn [orb]; [apply (lt_none _ _ lines); [exact Hc|exact Hz|exact Hd|lia]|].
    destruct (Z.leb_spec (Z.of_nat (List.length lines)) (n - 1)) as [H2|H2]; [apply (lt_none _ _ lines); [exact Hc|exact Hz|exact Hd|lia]|].
    assert (Hl : Z.to_nat (n - 1) < List.length lines) by lia. destruct (nth_split lines [] Hl) as (b & a & E & Lb). destruct (trim_blank_spec (nth (Z.to_nat (n - 1)) lines [])) as (l & r & El & Bl & Br & T1 & T2).
    assert (Hn : n = Z.of_nat (S (List.length b))) by (rewrite Lb, Nat2Z.inj_succ, Z2Nat.id by lia; lia).
    apply (lt_line data n b (nth (Z.to_nat (n - 1)) lines []) a l _ r); [rewrite <- E; exact Hc|rewrite <- E; exact Hd|exact Hn|exact El|exact Bl|exact Br|exact T1|exact T2].
  Qed.
  Lemma stack_loop_spec frames : Forall (fun f => f_file f <> []) frames -> forall lines last, (last = [] \/ exists data, read last = Some data /\ lines = split_byte newline data) ->
    exists texts, Forall2 frame_text frames texts /\ stack_loop read func_name frames lines last = List.concat texts.
  Proof.
    induction 1 as [|f r Hf _ IH]; intros lines last Inv; [exists []; split; [constructor|reflexivity]|]. cbn [stack_loop].
    assert (T : forall data, read (f_file f) = Some data -> frame_text f (frame_head f ++ frame_code func_name (split_byte newline data) f)).
    { intros data Hr. unfold frame_head, frame_code. rewrite <- !app_assoc. apply (ft_read f data); [exact Hr|apply source_line]. }
    destruct (beq_spec (f_file f) last) as [E|E]; cbn [negb].
    - destruct Inv as [->|(data & Hr & ->)]; [congruence|]. destruct (IH (split_byte newline data) last) as (texts & Ht & Es); [right; exists data; auto|]. exists ((frame_head f ++ frame_code func_name (split_byte newline data) f) :: texts).
      split; [constructor; [apply T; congruence|exact Ht]|]. rewrite Es. cbn [List.concat]. rewrite <- app_assoc. reflexivity.
    - destruct (read (f_file f)) as [data|] eqn:Hr.
      + destruct (IH (split_byte newline data) (f_file f)) as (texts & Ht & Es); [right; exists data; auto|]. exists ((frame_head f ++ frame_code func_name (split_byte newline data) f) :: texts). split; [constructor; [apply T; reflexivity|exact Ht]|]. rewrite Es. cbn [List.concat]. rewrite <- app_assoc. reflexivity.
      + destruct (IH lines last Inv) as (texts & Ht & Es). exists (frame_head f :: texts). split; [constructor; [apply ft_unread; exact Hr|exact Ht]|]. rewrite Es. reflexivity.
  Qed.
  (** Stack writes, for every frame from the given one on and independently of the others, where it is, and if its file can be
      read the function and the source line. *)
  Theorem C139_stack_frames : forall skip callers, Forall (fun f => f_file f <> []) callers ->
    exists texts, Forall2 frame_text (skipn skip callers) texts /\ stack skip callers = List.concat texts.
  Proof.
    intros skip callers H. apply stack_loop_spec; [|left; reflexivity]. rewrite Forall_forall in *. intros f Hf. apply H. rewrite <- (firstn_skipn skip callers). apply in_app_iff. right. exact Hf.
  Qed.
  (** the text of a frame is determined by the frame and the contents of its file *)
  Theorem C139_line_text_is_a_function : forall data n a b, line_text data n a -> line_text data n b -> a = b.
  Proof.
    assert (Tr : forall s l t r, s = l ++ t ++ r -> blanks l -> blanks r -> (forall c t', t = c :: t' -> c <> " "%char /\ c <> tab) -> (forall c t', t = t' ++ [c] -> c <> " "%char /\ c <> tab) -> t = trim_blank s).
    { assert (L : forall l u, blanks l -> (forall c t', u = c :: t' -> c <> " "%char /\ c <> tab) -> trim_left_blank (l ++ u) = u).
      { intros l u Bl Hu. induction Bl as [|c l Hc Bl IH].
        - cbn [List.app]. destruct u as [|c u]; [reflexivity|]. cbn [trim_left_blank]. unfold blank. fold tab. destruct (Hu c u eq_refl) as (H1 & H2). destruct (Ascii.eqb_spec c " "%char); [contradiction|]. destruct (Ascii.eqb_spec c tab); [contradiction|]. reflexivity.
        - cbn [List.app trim_left_blank]. unfold blank. fold tab. replace (_ || _)%bool with true; [exact IH|]. destruct Hc as [-> | ->]; reflexivity. }
      intros s l t r -> Bl Br H1 H2. unfold trim_blank. destruct t as [|c t].
      - cbn [List.app]. assert (X : trim_left_blank (l ++ r) = []) by (rewrite <- (app_nil_r (l ++ r)); apply L; [apply Forall_app; auto|discriminate]). rewrite X. reflexivity.
      - rewrite L; [|exact Bl|intros c' t' E; cbn [List.app] in E; injection E as <- _; exact (H1 c t eq_refl)]. rewrite rev_app_distr. rewrite L; [rewrite rev_involutive; reflexivity|apply Forall_rev; exact Br|].
        intros c' t' E. apply (H2 c' (rev t')). apply (f_equal (@rev ascii)) in E. rewrite rev_involutive in E. exact E. }
    assert (G : forall data n a, line_text data n a -> a = source (split_byte newline data) n).
    { intros data n a [before line after l t r Hc -> -> El Bl Br H1 H2|lines Hc Hn -> Hr].
      - rewrite split_join; [|destruct before; discriminate|exact Hc]. unfold source. rewrite app_length. cbn [List.length].
        destruct (Z.ltb_spec (Z.of_nat (S (List.length before)) - 1) 0); [lia|]. destruct (Z.leb_spec (Z.of_nat (List.length before + S (List.length after))) (Z.of_nat (S (List.length before)) - 1)); [lia|]. cbn [orb].
        replace (Z.to_nat (Z.of_nat (S (List.length before)) - 1)) with (List.length before) by lia. rewrite nth_middle. exact (Tr _ _ _ _ El Bl Br H1 H2).
      - rewrite split_join by assumption. unfold source. unfold bytes in *. destruct (Z.ltb_spec (n - 1) 0); [reflexivity|]. destruct (Z.leb_spec (Z.of_nat (List.length lines)) (n - 1)); [reflexivity|lia]. }
    intros data n a b Ha Hb. rewrite (G _ _ _ Ha), (G _ _ _ Hb). reflexivity.
  Qed.
  (** FileSource gives the same line, and an error exactly if the file cannot be read *)
  Theorem C139_file_source : forall file line, match file_source read file line with Some t => exists data, read file = Some data /\ line_text data line t | None => read file = None end.
  Proof. intros file line. unfold file_source. destruct (read file) as [data|]; [|reflexivity]. exists data. split; [reflexivity|apply source_line]. Qed.

  (** ** C140: the function shown *)
  (** the name without the package path (up to the last /), without the package (up to the first . then), centre dots as dots *)
  Inductive dots_replaced : bytes -> bytes -> Prop :=
  | dr_nil : dots_replaced [] []
  | dr_dot s t : dots_replaced s t -> dots_replaced (byte 194 :: byte 183 :: s) ("."%char :: t)
  | dr_char c s t : (forall r, c :: s <> byte 194 :: byte 183 :: r) -> dots_replaced s t -> dots_replaced (c :: s) (c :: t).
  Lemma replace_dots_ok s : dots_replaced s (replace_dots s).
  Proof.
    assert (G : forall n s, List.length s <= n -> dots_replaced s (replace_dots s)); [|apply (G (List.length s)); lia].
    clear s. induction n as [|n IH]; intros s Hn; [destruct s; [constructor|cbn in Hn; lia]|]. destruct s as [|c s]; [constructor|]. cbn [List.length] in Hn. cbn [replace_dots]. destruct s as [|d s]; [constructor; [discriminate|constructor]|].
    destruct (Ascii.eqb_spec c (byte 194)) as [->|Hc]; [destruct (Ascii.eqb_spec d (byte 183)) as [->|Hd]|]; cbn [andb].
    - apply dr_dot. apply IH. cbn [List.length] in Hn. lia.
    - apply dr_char; [intros r [= X _]; exact (Hd X)|]. apply IH. lia.
    - apply dr_char; [intros r [= X _]; exact (Hc X)|]. apply IH. lia.
  Qed.
  Lemma last_index_slash s i : last_index_sub s (bs "/") = Some i -> exists a b, s = a ++ "/"%char :: b /\ List.length a = i /\ ~ In "/"%char b.
  Proof.
    revert i. induction s as [|c s IH]; intros i H; [vm_compute in H; discriminate|]. cbn [last_index_sub] in H. destruct (last_index_sub s (bs "/")) as [j|] eqn:E.
    - injection H as <-. destruct (IH j eq_refl) as (a & b & -> & <- & Hb). exists (c :: a), b. auto.
    - destruct (has_prefix (c :: s) (bs "/")) eqn:Hp; [|discriminate]. injection H as <-. apply has_prefix_spec in Hp as (t & Et). cbn in Et. injection Et as -> ->. exists [], t. split; [reflexivity|]. split; [reflexivity|].
      clear IH. intros X. revert E X. induction t as [|d t IHt]; intros E X; [destruct X|]. cbn [last_index_sub] in E. destruct (last_index_sub t (bs "/")); [discriminate|]. destruct (has_prefix (d :: t) (bs "/")) eqn:Hp; [discriminate|].
      destruct X as [->|X]; [|exact (IHt eq_refl X)]. assert (Y : has_prefix ("/"%char :: t) (bs "/") = true) by (apply has_prefix_spec; exists t; reflexivity). congruence.
  Qed.
  Lemma no_slash s : last_index_sub s (bs "/") = None -> ~ In "/"%char s.
  Proof.
    induction s as [|d t IHt]; intros E X; [destruct X|]. cbn [last_index_sub] in E. destruct (last_index_sub t (bs "/")); [discriminate|]. destruct (has_prefix (d :: t) (bs "/")) eqn:Hp; [discriminate|].
    destruct X as [->|X]; [|exact (IHt eq_refl X)]. assert (Y : has_prefix ("/"%char :: t) (bs "/") = true) by (apply has_prefix_spec; exists t; reflexivity). congruence.
  Qed.
  Theorem C140_function_names : forall pc name, func_name pc = Some name ->
    exists path rest local out, name = path ++ rest /\ ~ In "/"%char rest /\ (path = [] \/ exists p, path = p ++ bs "/") /\
      (~ In "."%char rest /\ local = rest \/ exists pkg, ~ In "."%char pkg /\ rest = pkg ++ bs "." ++ local) /\
      dots_replaced local out /\ function_name pc = out.
  Proof.
    intros pc name H. unfold StackModel.function_name. rewrite H.
    set (rest := match last_index_sub name (bs "/") with Some i => skipn (i + 1) name | None => name end).
    assert (Hr : exists path, name = path ++ rest /\ ~ In "/"%char rest /\ (path = [] \/ exists p, path = p ++ bs "/")).
    { unfold rest. destruct (last_index_sub name (bs "/")) as [i|] eqn:E.
      - apply last_index_slash in E as (a & b & -> & <- & Hb). exists (a ++ bs "/"). replace (List.length a + 1) with (List.length (a ++ bs "/")) by (rewrite app_length; reflexivity).
        replace (a ++ "/"%char :: b) with ((a ++ bs "/") ++ b) by (rewrite <- app_assoc; reflexivity). rewrite skipn_app_len. split; [reflexivity|]. split; [exact Hb|]. right. exists a. reflexivity.
      - exists []. split; [reflexivity|]. split; [exact (no_slash _ E)|left; reflexivity]. }
    destruct Hr as (path & E1 & E2 & E3). exists path, rest. set (local := match index_byte "."%char rest with Some i => skipn (i + 1) rest | None => rest end). exists local, (replace_dots local).
    split; [exact E1|]. split; [exact E2|]. split; [exact E3|]. split; [|split; [apply replace_dots_ok|reflexivity]].
    unfold local. destruct (index_byte "."%char rest) as [i|] eqn:E.
    - right. apply index_byte_some in E as (l & r & E & <- & Hn). exists l. split; [exact Hn|]. rewrite E, Nat.add_1_r, skipn_S_app. reflexivity.
    - left. split; [apply index_byte_none; exact E|reflexivity].
  Qed.
  Theorem C140_unknown_function : forall pc, func_name pc = None -> function_name pc = bs "???".
  Proof. intros pc H. unfold StackModel.function_name. rewrite H. reflexivity. Qed.
End StackProps.

(** a file of two lines, read once, and one that cannot be read *)
Definition ex_read (f : bytes) : option bytes := if beq f (bs "/a.go") then Some (bs "package a
	 x := f(y) ") else None.
Definition ex_func (pc : N) : option bytes := if N.eqb pc 255 then Some (bs "github.com/b/a.(*T)" ++ [byte 194; byte 183] ++ bs "ptr") else None.
Example C139_case : stack ex_read ex_func 1 [mkFrame (bs "/skip.go") 1 0; mkFrame (bs "/a.go") 2 255; mkFrame (bs "/b.go") 7 16; mkFrame (bs "/a.go") 3 1]
  = bs "/a.go:2 (0xff)
	(*T).ptr: x := f(y)
/b.go:7 (0x10)
/a.go:3 (0x1)
	???: ???
".
Proof. vm_compute. reflexivity. Qed.
Example C140_case : function_name ex_func 255 = bs "(*T).ptr" /\ function_name ex_func 3 = bs "???".
Proof. split; vm_compute; reflexivity. Qed.

(** ** C139: the addresses *)
(** the value of a hexadecimal numeral *)
Definition hex_val (c : ascii) : option N := match index_byte c (bs "0123456789abcdef") with Some i => Some (N.of_nat i) | None => None end.
Inductive hex_denotes : bytes -> N -> Prop :=
| hd_one c d : hex_val c = Some d -> hex_denotes [c] d
| hd_more s n c d : hex_denotes s n -> n <> 0%N -> hex_val c = Some d -> hex_denotes (s ++ [c]) (16 * n + d)%N.
Lemma hex_digit_val d : (d < 16)%N -> hex_val (hex_digit d) = Some d.
Proof.
  intros H. assert (C : In d (map N.of_nat (seq 0 16))) by (apply in_map_iff; exists (N.to_nat d); split; [apply N2Nat.id|apply in_seq; lia]).
  revert C. generalize d. apply Forall_forall. cbn [map seq]. repeat (constructor; [vm_compute; reflexivity|]). constructor.
Qed.
Lemma hex_fuel_spec f : forall n acc, (n < 2 ^ N.of_nat f)%N -> f <> 0 -> exists ds, hex_fuel f n acc = ds ++ acc /\ hex_denotes ds n.
Proof.
  induction f as [|f IH]; intros n acc Hn Hf; [congruence|]. cbn [hex_fuel]. pose proof (N.mod_lt n 16 ltac:(lia)) as Hm. pose proof (N.div_mod n 16 ltac:(lia)) as Hd.
  destruct (N.eqb_spec (n / 16) 0) as [E|E].
  - exists [hex_digit (n mod 16)]. split; [reflexivity|]. constructor. rewrite hex_digit_val by exact Hm. f_equal. lia.
  - destruct (IH (n / 16)%N (hex_digit (n mod 16) :: acc)) as (ds & Es & Ds).
    + apply N.div_lt_upper_bound; [lia|]. rewrite Nat2N.inj_succ, N.pow_succ_r' in Hn. lia.
    + intros ->. cbn in Hn. rewrite N.div_small in E by lia. congruence.
    + exists (ds ++ [hex_digit (n mod 16)]). split; [rewrite <- app_assoc; exact Es|]. replace n with (16 * (n / 16) + n mod 16)%N at 2 by lia. constructor; [exact Ds|exact E|apply hex_digit_val; exact Hm].
Qed.
(** the address is the program counter in hexadecimal, without leading zeros *)
Theorem C139_addresses : forall n, hex_denotes (print_hex n) n.
Proof.
  intros n. unfold print_hex. destruct (hex_fuel_spec (S (N.size_nat n)) n []) as (ds & E & D); [|discriminate|rewrite E, app_nil_r; exact D].
  rewrite Nat2N.inj_succ. assert (H : (n < 2 ^ N.of_nat (N.size_nat n))%N).
  { destruct n as [|p]; [reflexivity|]. cbn [N.size_nat]. induction p as [p IH|p IH|]; cbn [Pos.size_nat]; [| |reflexivity]; rewrite Nat2N.inj_succ, N.pow_succ_r'; lia. }
  rewrite N.pow_succ_r'. lia.
Qed.
Example C139_address_case : print_hex 4660 = bs "1234" /\ print_hex 0 = bs "0".
Proof. split; vm_compute; reflexivity. Qed.

(** ** C141: the page shows the stack *)
Lemma paren_free_app a b : paren_free a -> ~ In "("%char b -> paren_free (a ++ b).
Proof.
  intros Ha Hb (x & y & E). replace (x ++ bs " (" ++ y) with ((x ++ [" "%char]) ++ "("%char :: y) in E by (rewrite <- app_assoc; reflexivity).
  destruct (app_cut _ _ _ _ _ E) as [(b' & Ea & _)|(a' & Eb & _)].
  - apply Ha. exists x, b'. rewrite Ea, <- app_assoc. reflexivity.
  - apply Hb. rewrite Eb. apply in_app_iff. right. left. reflexivity.
Qed.
Lemma paren_free_none b : ~ In "("%char b -> paren_free b.
Proof. intros H. apply (paren_free_app [] b); [|exact H]. intros (x & y & E). destruct x; discriminate E. Qed.
Lemma int_clean n c : In c (format_int n) -> is_digit c \/ c = "-"%char.
Proof.
  unfold format_int. assert (F : forall m, (0 <= m)%Z -> In c (format_uint m) -> is_digit c) by (intros m Hm H; pose proof (nat_denotes_digits _ _ (format_uint_denotes m Hm)) as F; rewrite Forall_forall in F; exact (F c H)).
  destruct (Z.ltb_spec n 0) as [H|H]; [intros [<-|X]; [right; reflexivity|left; apply (F (- n)%Z); [lia|exact X]]|intros X; left; exact (F n H X)].
Qed.
Lemma hex_clean s n : hex_denotes s n -> forall c, In c s -> hex_val c <> None.
Proof.
  induction 1 as [c d H|s n c d H IH _ Hc]; intros x Hx; [destruct Hx as [<-|[]]; congruence|]. apply in_app_iff in Hx as [Hx|[<-|[]]]; [exact (IH x Hx)|congruence].
Qed.
Lemma head_clean f c : ~ In c (f_file f) -> c <> ":"%char -> ~ is_digit c -> c <> "-"%char -> ~ In c (bs " (0x)") -> hex_val c = None -> ~ In c (f_file f ++ bs ":" ++ format_int (f_line f) ++ bs " (0x" ++ print_hex (f_pc f) ++ bs ")").
Proof.
  intros H1 H2 H3 H4 H5 H6 X. repeat rewrite in_app_iff in X. destruct X as [X|[X|[X|[X|[X|X]]]]].
  - exact (H1 X).
  - destruct X as [X|[]]. congruence.
  - apply int_clean in X as [X|X]; [exact (H3 X)|exact (H4 X)].
  - apply H5. destruct X as [X|[X|[X|[X|[]]]]]; [left|right; left|do 2 right; left|do 3 right; left]; exact X.
  - exact (hex_clean _ _ (C139_addresses _) _ X H6).
  - apply H5. destruct X as [X|[]]. do 4 right. left. exact X.
Qed.
Definition kept (s : bytes) : Prop := Forall (fun l => show_line l = l) (split_byte newline s).
Lemma kept_text s : kept s -> html_text (style_stack s) = s.
Proof.
  intros H. rewrite style_text. rewrite <- (join_split newline s) at 2. f_equal. unfold kept in H. induction H as [|l ls Hl _ IH]; [reflexivity|]. cbn [map]. rewrite Hl, IH. reflexivity.
Qed.
Lemma kept_line l r : ~ In newline l -> show_line l = l -> kept r -> kept (l ++ newline :: r).
Proof. intros Hl Hs Hr. unfold kept. rewrite split_byte_app by exact Hl. constructor; assumption. Qed.
Lemma not_digit c : digit_val c = None -> ~ is_digit c.
Proof. intros H (d & E). congruence. Qed.
Section Shown.
  Variable read : bytes -> option bytes.
  Variable func_name : N -> option bytes.
  Lemma head_kept f r : ~ In newline (f_file f) -> paren_free (f_file f) -> kept r -> kept (frame_head f ++ r).
  Proof.
    intros H1 H2 Hr. unfold frame_head. replace ((f_file f ++ bs ":" ++ format_int (f_line f) ++ bs " (0x" ++ print_hex (f_pc f) ++ bs ")" ++ [newline]) ++ r) with ((f_file f ++ bs ":" ++ format_int (f_line f) ++ bs " (0x" ++ print_hex (f_pc f) ++ bs ")") ++ newline :: r) by (repeat rewrite <- app_assoc; reflexivity).
    apply kept_line; [apply head_clean; [exact H1|discriminate|apply not_digit; vm_compute; reflexivity|discriminate|vm_compute; intuition discriminate|vm_compute; reflexivity]| |exact Hr].
    assert (P1 : paren_free (f_file f ++ bs ":" ++ format_int (f_line f))).
    { apply paren_free_app; [exact H2|]. intros X. apply in_app_iff in X as [[X|[]]|X]; [discriminate X|]. apply int_clean in X as [X|X]; [|discriminate X]. revert X. apply not_digit. vm_compute. reflexivity. }
    assert (P2 : paren_free (bs "0x" ++ print_hex (f_pc f) ++ bs ")")).
    { apply paren_free_none. intros X. rewrite !in_app_iff in X. destruct X as [X|[X|X]]; [destruct X as [X|[X|[]]]; discriminate X| |destruct X as [X|[]]; discriminate X]. apply (hex_clean _ _ (C139_addresses _) _ X). vm_compute. reflexivity. }
    replace (f_file f ++ bs ":" ++ format_int (f_line f) ++ bs " (0x" ++ print_hex (f_pc f) ++ bs ")") with ((f_file f ++ bs ":" ++ format_int (f_line f)) ++ bs " (" ++ bs "0x" ++ print_hex (f_pc f) ++ bs ")") by (repeat rewrite <- app_assoc; reflexivity).
    set (p := f_file f ++ bs ":" ++ format_int (f_line f)) in *. set (q := bs "0x" ++ print_hex (f_pc f) ++ bs ")") in *. clearbody p q.
    unfold show_line. destruct (p ++ bs " (" ++ q) as [|c l] eqn:E; [reflexivity|]. destruct (Ascii.eqb c "/"%char); [|reflexivity]. rewrite <- E. rewrite (split_paren_app p q P1), (split_paren_plain q P2). cbn [List.concat]. rewrite app_nil_r. reflexivity.
  Qed.
  Lemma in_replace_dots s c : In c (replace_dots s) -> c = "."%char \/ In c s.
  Proof.
    assert (G : forall s t, dots_replaced s t -> In c t -> c = "."%char \/ In c s); [|apply G, replace_dots_ok].
    induction 1 as [|s' t H IH|d s' t _ H IH]; intros X; [destruct X| |]; destruct X as [<-|X]; auto; [|right; left; reflexivity|]; destruct (IH X) as [->|Y]; auto; right; [right; right|right]; exact Y.
  Qed.
  Lemma function_clean c pc : (forall name, func_name pc = Some name -> ~ In c name) -> c <> "."%char -> c <> "?"%char -> ~ In c (function_name func_name pc).
  Proof.
    intros H1 H2 H3 X. destruct (func_name pc) as [name|] eqn:E.
    - destruct (C140_function_names func_name pc name E) as (path & rest & local & out & En & _ & _ & El & Ho & Ef). rewrite Ef in X. apply (H1 name eq_refl). rewrite En. apply in_app_iff. right.
      assert (Y : In c local). { clear - Ho X H2. induction Ho as [|s t H IH|d s t _ H IH]; [destruct X| |]; destruct X as [Y|X]; try congruence; [right; right; exact (IH X)|left; exact Y|right; exact (IH X)]. }
      destruct El as [(_ & ->)|(pkg & _ & ->)]; [exact Y|]. apply in_app_iff. right. right. exact Y.
    - rewrite (C140_unknown_function func_name pc E) in X. destruct X as [X|[X|[X|[]]]]; congruence.
  Qed.
  Lemma line_clean data n t : line_text data n t -> ~ In newline t.
  Proof.
    intros [before line after l t' r Hc _ _ El _ _ _ _|lines _ _ _ _].
    - apply Forall_app in Hc as (_ & Hc). inversion Hc as [|? ? Hl _]; subst. intros X. apply Hl. apply in_app_iff. right. apply in_app_iff. left. exact X.
    - intros [X|[X|[X|[]]]]; discriminate X.
  Qed.
  Lemma frame_kept f t r : ~ In newline (f_file f) -> paren_free (f_file f) -> (forall name, func_name (f_pc f) = Some name -> ~ In newline name) -> frame_text read func_name f t -> kept r -> kept (t ++ r).
  Proof.
    intros H1 H2 H3 [Hr|data u Hr Hu] K.
    - apply head_kept; assumption.
    - replace (_ ++ r) with (frame_head f ++ ([tab] ++ function_name func_name (f_pc f) ++ bs ": " ++ u) ++ newline :: r) by (unfold frame_head; repeat rewrite <- app_assoc; reflexivity).
      apply head_kept; [exact H1|exact H2|]. apply kept_line; [|reflexivity|exact K]. intros X. rewrite !in_app_iff in X. destruct X as [X|[X|[X|X]]].
      + destruct X as [X|[]]. discriminate X.
      + revert X. apply function_clean; [exact H3|discriminate|discriminate].
      + destruct X as [X|[X|[]]]; discriminate X.
      + exact (line_clean _ _ _ Hu X).
  Qed.
  (** If no file name contains " (" (or a line break), what the page shows is exactly what Stack returns, whatever the source
      lines contain. *)
  Theorem C141_page_shows_stack : forall skip callers,
    Forall (fun f => f_file f <> [] /\ ~ In newline (f_file f) /\ paren_free (f_file f) /\ forall name, func_name (f_pc f) = Some name -> ~ In newline name) callers ->
    html_text (style_stack (stack read func_name skip callers)) = stack read func_name skip callers.
  Proof.
    intros skip callers H. apply kept_text. destruct (C139_stack_frames read func_name skip callers) as (texts & Ht & ->); [revert H; apply Forall_impl; tauto|].
    assert (H' : Forall (fun f => f_file f <> [] /\ ~ In newline (f_file f) /\ paren_free (f_file f) /\ forall name, func_name (f_pc f) = Some name -> ~ In newline name) (skipn skip callers)) by (rewrite Forall_forall in *; intros f Hf; apply H; rewrite <- (firstn_skipn skip callers); apply in_app_iff; right; exact Hf).
    clear H. induction Ht as [|f t fs ts Hf _ IH]; [repeat constructor|]. inversion H' as [|? ? (_ & A & B & C) H'']; subst. cbn [List.concat]. apply frame_kept with (f := f); auto.
  Qed.
End Shown.
Example C141_case : html_text (style_stack (stack ex_read ex_func 0 [mkFrame (bs "/a.go") 2 255; mkFrame (bs "/b.go") 7 16])) = stack ex_read ex_func 0 [mkFrame (bs "/a.go") 2 255; mkFrame (bs "/b.go") 7 16]
  /\ style_stack (stack ex_read ex_func 0 [mkFrame (bs "/a.go") 2 255]) <> stack ex_read ex_func 0 [mkFrame (bs "/a.go") 2 255].
Proof. split; [vm_compute; reflexivity|vm_compute; discriminate]. Qed.

(** The layout of the page: the panic value twice, its type and Go syntax, then the stack; one style sheet for every panic *)
Theorem C141_page_layout : exists css, ~ In "<"%char css /\ forall v ty g s, panic_page v ty g s =
  bs "<html>
<head><title>PANIC: " ++ v ++ bs "</title>
<style type=""text/css"">" ++ css ++ bs "</style>
</head><body>
<h1>PANIC: " ++ v ++ bs "</h1>
<pre class=""message"">" ++ ty ++ bs ": " ++ g ++ bs "</pre>
<div class=""stack"">" ++ style_stack s ++ bs "</div>
</body>
</html>".
Proof.
  set (a := bs "</title>
<style type=""text/css"">"). set (z := bs "</style>
</head><body>
<h1>PANIC: ").
  exists (firstn (List.length page_css - List.length a - List.length z) (skipn (List.length a) page_css)). split.
  - assert (X : forallb (fun c => negb (Ascii.eqb c "<"%char)) (firstn (List.length page_css - List.length a - List.length z) (skipn (List.length a) page_css)) = true) by (vm_compute; reflexivity).
    intros I. apply (proj1 (forallb_forall _ _) X) in I. rewrite Ascii.eqb_refl in I. discriminate I.
  - assert (X : page_css = a ++ firstn (List.length page_css - List.length a - List.length z) (skipn (List.length a) page_css) ++ z) by (vm_compute; reflexivity).
    intros v ty g s. unfold panic_page. rewrite X at 1. rewrite <- !app_assoc. reflexivity.
Qed.

Print Assumptions C137_page_text.
Print Assumptions C137_shown_is_a_function.
Print Assumptions C137_text_is_kept_refuted.
Print Assumptions C138_stack_is_inert.
Print Assumptions C138_page_is_inert_refuted.
Print Assumptions C138_page_markup.
Print Assumptions C139_stack_frames.
Print Assumptions C139_line_text_is_a_function.
Print Assumptions C139_file_source.
Print Assumptions C140_function_names.
Print Assumptions C140_unknown_function.
Print Assumptions C139_addresses.
Print Assumptions C141_page_shows_stack.
Print Assumptions C141_page_layout.
