(** GoStr: Go byte strings and the part of Go's package [strings] that /repo calls.

    A Go [string] / [[]byte] is an immutable / mutable sequence of bytes.  We
    model both by [bytes := list ascii]: an [ascii] is exactly 8 bits, i.e. one
    byte.  The definitions below transcribe the documented behaviour of the Go
    standard library; that transcription is part of the trusted base (the
    standard library is not in /repo). *)
From Coq Require Import List Ascii String Bool Arith Lia NArith.
Import ListNotations.

Definition bytes := list ascii.

(** literals: [bs "abc"] *)
Definition bs (s : string) : bytes := list_ascii_of_string s.
Arguments bs s%string_scope.

(** the ASCII code of a byte, as a [nat] < 256 and as an [N] *)
Definition code (c : ascii) : nat := nat_of_ascii c.

(** Go [==] on strings *)
Fixpoint beq (x y : bytes) : bool :=
  match x, y with
  | [], [] => true
  | a :: x', b :: y' => Ascii.eqb a b && beq x' y'
  | _, _ => false
  end.

Lemma beq_spec : forall x y, reflect (x = y) (beq x y).
Proof.
  induction x as [|a x IH]; intros [|b y]; cbn [beq]; try (constructor; congruence).
  destruct (Ascii.eqb_spec a b) as [->|Hn]; cbn [andb].
  - destruct (IH y) as [->|Hn]; constructor; congruence.
  - constructor; congruence.
Qed.

Lemma beq_refl x : beq x x = true.
Proof. destruct (beq_spec x x); congruence. Qed.

Lemma beq_true x y : beq x y = true <-> x = y.
Proof. destruct (beq_spec x y); split; congruence. Qed.

Lemma beq_false x y : beq x y = false <-> x <> y.
Proof. destruct (beq_spec x y); split; congruence. Qed.

Lemma beq_sym x y : beq x y = beq y x.
Proof. destruct (beq_spec x y), (beq_spec y x); congruence. Qed.

Definition bytes_eq_dec (x y : bytes) : {x = y} + {x <> y} := list_eq_dec ascii_dec x y.

Definition is_nil {A} (l : list A) : bool := match l with [] => true | _ => false end.

(** Go [strings.HasPrefix(s, p)] *)
Fixpoint has_prefix (s p : bytes) {struct p} : bool :=
  match p, s with
  | [], _ => true
  | a :: p', b :: s' => Ascii.eqb a b && has_prefix s' p'
  | _ :: _, [] => false
  end.

Lemma has_prefix_spec s p : has_prefix s p = true <-> exists t, s = p ++ t.
Proof.
  revert s; induction p as [|a p IH]; intros s; cbn [has_prefix].
  - split; [exists s; reflexivity | reflexivity].
  - destruct s as [|b s].
    + split; [discriminate | intros [t Ht]; discriminate].
    + destruct (Ascii.eqb_spec a b) as [->|Hn]; cbn [andb].
      * rewrite IH. split; intros [t Ht]; exists t; [cbn; congruence | cbn in Ht; congruence].
      * split; [discriminate | intros [t Ht]; cbn in Ht; congruence].
Qed.

(** Go [strings.HasSuffix(s, p)] *)
Definition has_suffix (s p : bytes) : bool := has_prefix (rev s) (rev p).

Lemma has_suffix_spec s p : has_suffix s p = true <-> exists t, s = t ++ p.
Proof.
  unfold has_suffix. rewrite has_prefix_spec. split; intros [t Ht].
  - exists (rev t). rewrite <- (rev_involutive s), Ht, rev_app_distr, rev_involutive. reflexivity.
  - exists (rev t). rewrite Ht, rev_app_distr. reflexivity.
Qed.

(** Go [strings.TrimPrefix(s, p)] *)
Definition trim_prefix (s p : bytes) : bytes :=
  if has_prefix s p then skipn (List.length p) s else s.

(** Go [strings.TrimSuffix(s, p)] *)
Definition trim_suffix (s p : bytes) : bytes :=
  if has_suffix s p then firstn (List.length s - List.length p) s else s.

Lemma trim_suffix_app t p : trim_suffix (t ++ p) p = t.
Proof.
  unfold trim_suffix.
  assert (H : has_suffix (t ++ p) p = true) by (apply has_suffix_spec; eauto).
  rewrite H, app_length.
  replace (List.length t + List.length p - List.length p) with (List.length t) by lia.
  rewrite firstn_app, Nat.sub_diag, firstn_all, firstn_O, app_nil_r. reflexivity.
Qed.

Lemma trim_prefix_app p t : trim_prefix (p ++ t) p = t.
Proof.
  unfold trim_prefix.
  assert (H : has_prefix (p ++ t) p = true) by (apply has_prefix_spec; eauto).
  rewrite H, skipn_app, Nat.sub_diag, skipn_all. reflexivity.
Qed.

(** Go [strings.IndexByte(s, c)]: position of the first [c], [None] for -1 *)
Fixpoint index_byte (c : ascii) (s : bytes) : option nat :=
  match s with
  | [] => None
  | a :: s' => if Ascii.eqb a c then Some 0 else option_map S (index_byte c s')
  end.

Lemma index_byte_some c s i :
  index_byte c s = Some i ->
  exists l r, s = l ++ c :: r /\ List.length l = i /\ ~ In c l.
Proof.
  revert i; induction s as [|a s IH]; intros i; cbn [index_byte]; [discriminate|].
  destruct (Ascii.eqb_spec a c) as [->|Hn].
  - intros [= <-]. exists [], s. cbn. auto.
  - destruct (index_byte c s) as [j|]; cbn [option_map]; [|discriminate].
    intros [= <-]. destruct (IH j eq_refl) as (l & r & -> & Hl & Hni).
    exists (a :: l), r. cbn. repeat split; [lia|]. intros [->|H]; auto.
Qed.

Lemma index_byte_none c s : index_byte c s = None <-> ~ In c s.
Proof.
  induction s as [|a s IH]; cbn [index_byte].
  - split; [intros _ []|reflexivity].
  - destruct (Ascii.eqb_spec a c) as [->|Hn].
    + split; [discriminate | intros H; exfalso; apply H; left; reflexivity].
    + destruct (index_byte c s); cbn [option_map].
      * split; [discriminate|]. intros H. exfalso.
        assert (Hs : ~ In c s) by (intros Hin; apply H; right; exact Hin).
        apply IH in Hs. discriminate.
      * split; [|reflexivity]. intros _ [->|Hin]; [auto|]. apply IH in Hin; auto.
Qed.

Lemma index_byte_app c l r : ~ In c l -> index_byte c (l ++ c :: r) = Some (List.length l).
Proof.
  induction l as [|a l IH]; intros H; cbn [app index_byte List.length].
  - rewrite Ascii.eqb_refl. reflexivity.
  - destruct (Ascii.eqb_spec a c) as [->|Hn]; [exfalso; apply H; left; reflexivity|].
    rewrite IH by (intros Hin; apply H; right; exact Hin). reflexivity.
Qed.

(** Go [strings.Index(s, sub)]: first position at which [sub] occurs *)
Fixpoint index_sub (s sub : bytes) : option nat :=
  if has_prefix s sub then Some 0
  else match s with
       | [] => None
       | _ :: s' => option_map S (index_sub s' sub)
       end.

Definition contains (s sub : bytes) : bool :=
  match index_sub s sub with Some _ => true | None => false end.

(** Go [strings.LastIndex(s, sub)] *)
Fixpoint last_index_sub (s sub : bytes) : option nat :=
  match s with
  | [] => if has_prefix s sub then Some 0 else None
  | _ :: s' =>
      match last_index_sub s' sub with
      | Some i => Some (S i)
      | None => if has_prefix s sub then Some 0 else None
      end
  end.

(** Go [strings.IndexAny(s, chars)] for ASCII [chars] *)
Fixpoint index_any (s chars : bytes) : option nat :=
  match s with
  | [] => None
  | a :: s' => if existsb (Ascii.eqb a) chars then Some 0 else option_map S (index_any s' chars)
  end.

(** Go [strings.Split(s, c)] for a one-byte separator [c]; never empty *)
Fixpoint split_byte (c : ascii) (s : bytes) : list bytes :=
  match s with
  | [] => [[]]
  | a :: s' =>
      if Ascii.eqb a c then [] :: split_byte c s'
      else match split_byte c s' with
           | [] => [[a]]
           | p :: ps => (a :: p) :: ps
           end
  end.

(** Go [strings.SplitN(s, c, n)] for a one-byte separator; [n = S m] allows at
    most [m] cuts *)
Fixpoint splitn_byte (c : ascii) (n : nat) (s : bytes) : list bytes :=
  match n with
  | 0 => []
  | S m =>
      match m with
      | 0 => [s]
      | S _ =>
          match index_byte c s with
          | None => [s]
          | Some i => firstn i s :: splitn_byte c m (skipn (S i) s)
          end
      end
  end.

(** Go [strings.SplitN(s, sep, 2)] for an arbitrary separator *)
Definition split2_sub (s sep : bytes) : list bytes :=
  match index_sub s sep with
  | None => [s]
  | Some i => [firstn i s; skipn (i + List.length sep) s]
  end.

(** Go [strings.Join(parts, sep)] *)
Fixpoint join (sep : bytes) (parts : list bytes) : bytes :=
  match parts with
  | [] => []
  | [p] => p
  | p :: ps => p ++ sep ++ join sep ps
  end.

Lemma join_cons sep p q ps : join sep (p :: q :: ps) = p ++ sep ++ join sep (q :: ps).
Proof. reflexivity. Qed.

Lemma split_byte_not_nil c s : split_byte c s <> [].
Proof.
  induction s as [|a s IH]; cbn [split_byte]; [discriminate|].
  destruct (Ascii.eqb a c); [discriminate|]. destruct (split_byte c s); discriminate.
Qed.

Lemma join_split c s : join [c] (split_byte c s) = s.
Proof.
  induction s as [|a s IH]; [reflexivity|]; cbn [split_byte].
  pose proof (split_byte_not_nil c s) as Hnn.
  destruct (Ascii.eqb_spec a c) as [->|Hn].
  - destruct (split_byte c s) as [|p ps]; [congruence|].
    cbn [join app] in *. rewrite IH. reflexivity.
  - destruct (split_byte c s) as [|p [|q ps]]; [congruence| |].
    + cbn [join] in *. congruence.
    + rewrite join_cons in IH. rewrite join_cons. cbn [app] in *. rewrite IH. reflexivity.
Qed.

Lemma split_byte_clean c s p : In p (split_byte c s) -> ~ In c p.
Proof.
  revert p; induction s as [|a s IH]; intros p; cbn [split_byte].
  - intros [<-|[]]. intros [].
  - destruct (Ascii.eqb_spec a c) as [->|Hn].
    + intros [<-|Hin]; [intros []|]. apply IH; exact Hin.
    + destruct (split_byte c s) as [|q ps].
      * intros [<-|[]]. intros [->|[]]. congruence.
      * intros [<-|Hin]; [|apply IH; right; exact Hin].
        intros [->|Hin]; [congruence|]. revert Hin. apply IH. left; reflexivity.
Qed.

Lemma split_byte_nosep c s : ~ In c s -> split_byte c s = [s].
Proof.
  induction s as [|a s IH]; intros H; [reflexivity|]. cbn [split_byte].
  destruct (Ascii.eqb_spec a c) as [->|Hn]; [exfalso; apply H; left; reflexivity|].
  rewrite IH by (intros Hin; apply H; right; exact Hin). reflexivity.
Qed.

Lemma split_byte_app c l r :
  ~ In c l -> split_byte c (l ++ c :: r) = l :: split_byte c r.
Proof.
  induction l as [|a l IH]; intros H; cbn [app split_byte].
  - rewrite Ascii.eqb_refl. reflexivity.
  - destruct (Ascii.eqb_spec a c) as [->|Hn]; [exfalso; apply H; left; reflexivity|].
    rewrite IH by (intros Hin; apply H; right; exact Hin). reflexivity.
Qed.

Lemma split_join c parts :
  parts <> [] -> Forall (fun p => ~ In c p) parts -> split_byte c (join [c] parts) = parts.
Proof.
  induction parts as [|p ps IH]; [congruence|]. intros _ HF.
  inversion HF as [|? ? Hp HF']; subst.
  destruct ps as [|q ps].
  - cbn [join]. apply split_byte_nosep; exact Hp.
  - rewrite join_cons. change ([c] ++ join [c] (q :: ps)) with (c :: join [c] (q :: ps)).
    rewrite split_byte_app by exact Hp.
    rewrite IH by (congruence || exact HF'). reflexivity.
Qed.

(** Go [strings.TrimSpace]: strips Unicode white space at both ends.  On UTF-8
    bytes the white-space runes are the six ASCII ones and the encodings listed
    in [uspaces] (U+0085, U+00A0, U+1680, U+2000..U+200A, U+2028, U+2029,
    U+202F, U+205F, U+3000).  Bytes that are not valid UTF-8 decode to U+FFFD,
    which is not white space. *)
Definition is_space (c : ascii) : bool :=
  let n := code c in (Nat.eqb n 32) || (Nat.leb 9 n && Nat.leb n 13).

Definition byte (n : nat) : ascii := ascii_of_nat n.

Definition uspaces : list bytes :=
  [ [byte 194; byte 133]; [byte 194; byte 160]; [byte 225; byte 154; byte 128];
    [byte 226; byte 128; byte 168]; [byte 226; byte 128; byte 169];
    [byte 226; byte 128; byte 175]; [byte 226; byte 129; byte 159];
    [byte 227; byte 128; byte 128] ]
  ++ map (fun k => [byte 226; byte 128; byte (128 + k)]) (seq 0 11).

(** one step of trimming at the left: drop one leading white-space rune *)
Definition ltrim_step (pats : list bytes) (s : bytes) : option bytes :=
  match s with
  | [] => None
  | a :: s' =>
      if is_space a then Some s'
      else match find (has_prefix s) pats with
           | Some p => Some (skipn (List.length p) s)
           | None => None
           end
  end.

Fixpoint ltrim_fuel (pats : list bytes) (n : nat) (s : bytes) : bytes :=
  match n with
  | 0 => s
  | S n' => match ltrim_step pats s with Some s' => ltrim_fuel pats n' s' | None => s end
  end.

(** [strings.TrimLeftFunc(s, unicode.IsSpace)]; every step removes at least one
    byte, so [length s] steps always suffice *)
Definition trim_left_space (s : bytes) : bytes := ltrim_fuel uspaces (List.length s) s.

(** [strings.TrimRightFunc(s, unicode.IsSpace)]: the same on the reversed
    string with the reversed encodings *)
Definition trim_right_space (s : bytes) : bytes :=
  rev (ltrim_fuel (map (@rev ascii) uspaces) (List.length s) (rev s)).

Definition trim_space (s : bytes) : bytes := trim_right_space (trim_left_space s).

(** a byte that can neither be nor start nor end a white-space rune: printable
    ASCII other than space *)
Definition graphic (c : ascii) : bool := Nat.leb 33 (code c) && Nat.leb (code c) 126.

Definition uspace_free (pats : list bytes) : Prop :=
  Forall (fun p => exists a q, p = a :: q /\ graphic a = false) pats.

Lemma ltrim_step_graphic pats a s :
  uspace_free pats -> graphic a = true -> ltrim_step pats (a :: s) = None.
Proof.
  intros Hp Ha. cbn [ltrim_step].
  assert (Hs : is_space a = false).
  { unfold graphic, is_space in *.
    apply andb_true_iff in Ha as [H1 H2]. apply Nat.leb_le in H1.
    apply orb_false_iff; split; [apply Nat.eqb_neq; lia|].
    apply andb_false_iff; right. apply Nat.leb_gt. lia. }
  rewrite Hs.
  destruct (find (has_prefix (a :: s)) pats) as [p|] eqn:Hf; [|reflexivity].
  exfalso. apply find_some in Hf as [Hin Hpre].
  unfold uspace_free in Hp. rewrite Forall_forall in Hp.
  destruct (Hp p Hin) as (b & q & -> & Hb).
  cbn [has_prefix] in Hpre. apply andb_true_iff in Hpre as [Heq _].
  apply Ascii.eqb_eq in Heq. subst. congruence.
Qed.

Lemma ltrim_graphic pats n a s :
  uspace_free pats -> graphic a = true -> ltrim_fuel pats n (a :: s) = a :: s.
Proof.
  intros Hp Ha. destruct n as [|n]; [reflexivity|]. cbn [ltrim_fuel].
  rewrite ltrim_step_graphic by assumption. reflexivity.
Qed.

Lemma uspaces_free : uspace_free uspaces.
Proof.
  unfold uspace_free. apply Forall_forall. intros p Hin.
  assert (H : forallb (fun p => match p with a :: _ => negb (graphic a) | [] => false end) uspaces = true)
    by (vm_compute; reflexivity).
  rewrite forallb_forall in H. specialize (H p Hin).
  destruct p as [|a q]; [discriminate|]. exists a, q. split; [reflexivity|].
  destruct (graphic a); [discriminate|reflexivity].
Qed.

Lemma uspaces_rev_free : uspace_free (map (@rev ascii) uspaces).
Proof.
  unfold uspace_free. apply Forall_forall. intros p Hin.
  assert (H : forallb (fun p => match p with a :: _ => negb (graphic a) | [] => false end) (map (@rev ascii) uspaces) = true)
    by (vm_compute; reflexivity).
  rewrite forallb_forall in H. specialize (H p Hin).
  destruct p as [|a q]; [discriminate|]. exists a, q. split; [reflexivity|].
  destruct (graphic a); [discriminate|reflexivity].
Qed.

(** a string that starts and ends with a graphic byte is not changed *)
Lemma trim_space_graphic a s b :
  graphic a = true -> graphic b = true -> trim_space (a :: s ++ [b]) = a :: s ++ [b].
Proof.
  intros Ha Hb. unfold trim_space, trim_left_space.
  rewrite (ltrim_graphic _ _ _ _ uspaces_free Ha). unfold trim_right_space.
  replace (rev (a :: s ++ [b])) with (b :: rev (a :: s)).
  - rewrite (ltrim_graphic _ _ _ _ uspaces_rev_free Hb).
    change (b :: rev (a :: s)) with ((rev [b]) ++ rev (a :: s)).
    rewrite <- rev_app_distr, rev_involutive. reflexivity.
  - rewrite app_comm_cons, rev_app_distr. reflexivity.
Qed.

Lemma trim_space_id s : forallb graphic s = true -> trim_space s = s.
Proof.
  destruct s as [|a s]; [reflexivity|]. cbn [forallb]. intros H.
  apply andb_true_iff in H as [Ha Hs].
  destruct s as [|x s] using rev_ind.
  - unfold trim_space, trim_left_space. rewrite (ltrim_graphic _ _ _ _ uspaces_free Ha).
    unfold trim_right_space. cbn [rev app List.length].
    rewrite (ltrim_graphic _ _ _ _ uspaces_rev_free Ha). reflexivity.
  - rewrite forallb_app in Hs. apply andb_true_iff in Hs as [_ Hx]. cbn [forallb] in Hx.
    rewrite andb_true_r in Hx. apply trim_space_graphic; assumption.
Qed.

Lemma trim_space_nil : trim_space [] = [].
Proof. reflexivity. Qed.

Lemma ltrim_fuel_suffix pats n s : exists p, s = p ++ ltrim_fuel pats n s.
Proof.
  revert s; induction n as [|n IH]; intros s; cbn [ltrim_fuel]; [exists []; reflexivity|].
  destruct (ltrim_step pats s) as [s'|] eqn:E; [|exists []; reflexivity].
  destruct (IH s') as [p Hp].
  assert (Hsuf : exists q, s = q ++ s').
  { destruct s as [|a s]; cbn [ltrim_step] in E; [discriminate|].
    destruct (is_space a); [injection E as <-; exists [a]; reflexivity|].
    destruct (find _ pats) as [q|]; [|discriminate]. injection E as <-.
    exists (firstn (List.length q) (a :: s)). symmetry. apply firstn_skipn. }
  destruct Hsuf as [q Hq]. exists (q ++ p). rewrite <- app_assoc, <- Hp. exact Hq.
Qed.

(** trimming only removes bytes at the two ends *)
Lemma trim_space_infix s : exists p q, s = p ++ trim_space s ++ q.
Proof.
  unfold trim_space.
  destruct (ltrim_fuel_suffix uspaces (List.length s) s) as [p Hp].
  fold (trim_left_space s) in Hp.
  unfold trim_right_space. set (u := trim_left_space s) in *.
  destruct (ltrim_fuel_suffix (map (@rev ascii) uspaces) (List.length u) (rev u)) as [q Hq].
  exists p, (rev q). rewrite Hp at 1. f_equal.
  rewrite <- (rev_involutive u) at 1. rewrite Hq at 1.
  rewrite rev_app_distr. reflexivity.
Qed.

(** Go [strings.ToUpper] / [strings.ToLower] / [unicode.ToUpper] restricted to
    ASCII letters.  Simplification: bytes >= 0x80 are left unchanged, whereas
    Go maps non-ASCII Unicode letters as well. *)
Definition upper_byte (c : ascii) : ascii :=
  if Nat.leb 97 (code c) && Nat.leb (code c) 122 then byte (code c - 32) else c.
Definition lower_byte (c : ascii) : ascii :=
  if Nat.leb 65 (code c) && Nat.leb (code c) 90 then byte (code c + 32) else c.
Definition to_upper (s : bytes) : bytes := map upper_byte s.
Definition to_lower (s : bytes) : bytes := map lower_byte s.

Lemma upper_byte_idem c : upper_byte (upper_byte c) = upper_byte c.
Proof. destruct c as [[] [] [] [] [] [] [] []]; vm_compute; reflexivity. Qed.

Lemma to_upper_idem s : to_upper (to_upper s) = to_upper s.
Proof. unfold to_upper. rewrite map_map. apply map_ext. apply upper_byte_idem. Qed.

Lemma lower_byte_idem c : lower_byte (lower_byte c) = lower_byte c.
Proof. destruct c as [[] [] [] [] [] [] [] []]; vm_compute; reflexivity. Qed.

Lemma to_lower_idem s : to_lower (to_lower s) = to_lower s.
Proof. unfold to_lower. rewrite map_map. apply map_ext. apply lower_byte_idem. Qed.

Lemma code_inj a b : code a = code b -> a = b.
Proof.
  unfold code. intros H. rewrite <- (ascii_nat_embedding a), H. apply ascii_nat_embedding.
Qed.

Lemma code_lt c : code c < 256.
Proof. apply nat_ascii_bounded. Qed.

Lemma code_byte n : n < 256 -> code (byte n) = n.
Proof. apply nat_ascii_embedding. Qed.

(** splitting with a limit *)
Lemma splitn3_app c l m r :
  ~ In c l -> ~ In c m -> splitn_byte c 3 (l ++ c :: m ++ c :: r) = [l; m; r].
Proof.
  intros Hl Hm. cbn [splitn_byte]. rewrite index_byte_app by exact Hl.
  rewrite firstn_app, Nat.sub_diag, firstn_all, firstn_O, app_nil_r.
  replace (skipn (S (List.length l)) (l ++ c :: m ++ c :: r)) with (m ++ c :: r).
  - rewrite index_byte_app by exact Hm.
    rewrite firstn_app, Nat.sub_diag, firstn_all, firstn_O, app_nil_r.
    replace (skipn (S (List.length m)) (m ++ c :: r)) with r; [reflexivity|].
    change (c :: r) with ([c] ++ r). rewrite app_assoc.
    replace (S (List.length m)) with (List.length (m ++ [c])) by (rewrite app_length; cbn; lia).
    rewrite skipn_app, Nat.sub_diag, skipn_all. reflexivity.
  - change (c :: m ++ c :: r) with ([c] ++ (m ++ c :: r)). rewrite app_assoc.
    replace (S (List.length l)) with (List.length (l ++ [c])) by (rewrite app_length; cbn; lia).
    rewrite skipn_app, Nat.sub_diag, skipn_all. reflexivity.
Qed.

Lemma skipn_S_app {A} (l : list A) c r : skipn (S (List.length l)) (l ++ c :: r) = r.
Proof.
  change (c :: r) with ([c] ++ r). rewrite app_assoc.
  replace (S (List.length l)) with (List.length (l ++ [c])) by (rewrite app_length; cbn; lia).
  rewrite skipn_app, Nat.sub_diag, skipn_all. reflexivity.
Qed.

Lemma firstn_app_len {A} (l r : list A) : firstn (List.length l) (l ++ r) = l.
Proof. rewrite firstn_app, Nat.sub_diag, firstn_all, firstn_O, app_nil_r. reflexivity. Qed.

Lemma skipn_app_len {A} (l r : list A) : skipn (List.length l) (l ++ r) = r.
Proof. rewrite skipn_app, Nat.sub_diag, skipn_all. reflexivity. Qed.

Lemma splitn2_app c l r : ~ In c l -> splitn_byte c 2 (l ++ c :: r) = [l; r].
Proof.
  intros Hl. cbn [splitn_byte]. rewrite index_byte_app by exact Hl.
  rewrite firstn_app_len, skipn_S_app. reflexivity.
Qed.

(** generic association lists: the model of a Go map that is only used by
    lookup and assignment *)
Section AMap.
  Context {V : Type}.
  Definition amap := list (bytes * V).
  Fixpoint aget (m : amap) (k : bytes) : option V :=
    match m with
    | [] => None
    | (k', v) :: m' => if beq k' k then Some v else aget m' k
    end.
  Fixpoint aset (m : amap) (k : bytes) (v : V) : amap :=
    match m with
    | [] => [(k, v)]
    | (k', v') :: m' => if beq k' k then (k', v) :: m' else (k', v') :: aset m' k v
    end.
  Fixpoint adel (m : amap) (k : bytes) : amap :=
    match m with
    | [] => []
    | (k', v') :: m' => if beq k' k then adel m' k else (k', v') :: adel m' k
    end.
  Definition ahas (m : amap) (k : bytes) : bool :=
    match aget m k with Some _ => true | None => false end.

  Lemma aget_aset_same m k v : aget (aset m k v) k = Some v.
  Proof.
    induction m as [|[k' v'] m IH]; cbn [aset aget]; [rewrite beq_refl; reflexivity|].
    destruct (beq k' k) eqn:E; cbn [aget]; rewrite E; [reflexivity|exact IH].
  Qed.
  Lemma aget_aset_other m k k2 v : k <> k2 -> aget (aset m k v) k2 = aget m k2.
  Proof.
    intros Hn. induction m as [|[k' v'] m IH]; cbn [aset aget].
    - destruct (beq_spec k k2); congruence.
    - destruct (beq_spec k' k) as [->|]; cbn [aget];
        destruct (beq_spec k k2); try congruence; rewrite IH; reflexivity.
  Qed.
  Lemma aget_adel_same m k : aget (adel m k) k = None.
  Proof.
    induction m as [|[k' v'] m IH]; cbn [adel aget]; [reflexivity|].
    destruct (beq k' k) eqn:E; [exact IH|]. cbn [aget]. rewrite E. exact IH.
  Qed.
  Lemma aget_adel_other m k k2 : k <> k2 -> aget (adel m k) k2 = aget m k2.
  Proof.
    intros Hn. induction m as [|[k' v'] m IH]; cbn [adel aget]; [reflexivity|].
    destruct (beq_spec k' k) as [->|].
    - destruct (beq_spec k k2); congruence.
    - cbn [aget]. rewrite IH. reflexivity.
  Qed.
  Lemma aget_in m k v : aget m k = Some v -> In (k, v) m.
  Proof.
    induction m as [|[k' v'] m IH]; cbn [aget]; [discriminate|].
    destruct (beq_spec k' k) as [->|]; [intros [= ->]; left; reflexivity|right; auto].
  Qed.
  Lemma in_aset m k v k2 v2 : In (k2, v2) (aset m k v) -> (k2 = k /\ v2 = v) \/ In (k2, v2) m.
  Proof.
    induction m as [|[k' v'] m IH]; cbn [aset].
    - intros [[= <- <-]|[]]; auto.
    - destruct (beq_spec k' k) as [->|].
      + intros [[= <- <-]|H]; [auto|right; right; exact H].
      + intros [H|H]; [right; left; exact H|]. destruct (IH H); [auto|right; right; assumption].
  Qed.
End AMap.
Arguments amap : clear implicits.
