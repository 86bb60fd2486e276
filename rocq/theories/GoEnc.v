(** GoEnc: the encodings of the Go standard library the session code uses:
    encoding/base64.URLEncoding, net/url.QueryEscape and QueryUnescape,
    encoding/hex.EncodeToString. *)
From Coq Require Import List Ascii String Bool Arith Lia.
Import ListNotations.
From Verif Require Import GoStr.
Local Open Scope nat_scope.

(** ** encoding/base64.URLEncoding (padded, not strict) *)
Definition b64_alphabet : bytes := bs "ABCDEFGHIJKLMNOPQRSTUVWXYZabcdefghijklmnopqrstuvwxyz0123456789-_".
Definition b64_char (n : nat) : ascii := nth n b64_alphabet "A"%char.
Definition b64_val (c : ascii) : option nat :=
  let n := code c in
  if Nat.leb 65 n && Nat.leb n 90 then Some (n - 65)
  else if Nat.leb 97 n && Nat.leb n 122 then Some (n - 71)
  else if Nat.leb 48 n && Nat.leb n 57 then Some (n + 4)
  else if Nat.eqb n 45 then Some 62
  else if Nat.eqb n 95 then Some 63
  else None.
Definition pad : ascii := "="%char.

(** Encoding.EncodeToString *)
Fixpoint b64_encode (s : bytes) : bytes :=
  match s with
  | [] => []
  | [x] => let a := code x in [b64_char (a / 4); b64_char ((a mod 4) * 16); pad; pad]
  | [x; y] => let a := code x in let b := code y in
      [b64_char (a / 4); b64_char ((a mod 4) * 16 + b / 16); b64_char ((b mod 16) * 4); pad]
  | x :: y :: z :: r => let a := code x in let b := code y in let c := code z in
      b64_char (a / 4) :: b64_char ((a mod 4) * 16 + b / 16) :: b64_char ((b mod 16) * 4 + c / 64) :: b64_char (c mod 64) :: b64_encode r
  end.

(** Encoding.DecodeString on input without line breaks: the bytes decoded before
    the first error, and whether there was no error. A quantum that ends in padding
    is decoded even if garbage follows. *)
Fixpoint b64_quanta (s : bytes) : bytes * bool :=
  match s with
  | [] => ([], true)
  | c0 :: c1 :: c2 :: c3 :: r =>
      match b64_val c0, b64_val c1 with
      | Some v0, Some v1 =>
          match b64_val c2 with
          | Some v2 =>
              match b64_val c3 with
              | Some v3 =>
                  let (d, e) := b64_quanta r in
                  (byte (v0 * 4 + v1 / 16) :: byte ((v1 mod 16) * 16 + v2 / 4) :: byte ((v2 mod 4) * 64 + v3) :: d, e)
              | None =>
                  if Ascii.eqb c3 pad then ([byte (v0 * 4 + v1 / 16); byte ((v1 mod 16) * 16 + v2 / 4)], is_nil r) else ([], false)
              end
          | None =>
              if Ascii.eqb c2 pad && Ascii.eqb c3 pad then ([byte (v0 * 4 + v1 / 16)], is_nil r) else ([], false)
          end
      | _, _ => ([], false)
      end
  | _ => ([], false)
  end.
(** carriage return and newline are skipped wherever they occur *)
Definition is_newline (c : ascii) : bool := Nat.eqb (code c) 10 || Nat.eqb (code c) 13.
Definition b64_decode (s : bytes) : bytes * bool := b64_quanta (filter (fun c => negb (is_newline c)) s).

(** ** encoding/hex *)
Definition hex_lower (n : nat) : ascii := nth n (bs "0123456789abcdef") "0"%char.
Fixpoint hex_encode (s : bytes) : bytes :=
  match s with [] => [] | c :: r => hex_lower (code c / 16) :: hex_lower (code c mod 16) :: hex_encode r end.

(** ** net/url query escaping *)
Definition unreserved (c : ascii) : bool :=
  let n := code c in
  (Nat.leb 65 n && Nat.leb n 90) || (Nat.leb 97 n && Nat.leb n 122) || (Nat.leb 48 n && Nat.leb n 57)
  || Nat.eqb n 45 || Nat.eqb n 95 || Nat.eqb n 46 || Nat.eqb n 126.
Definition hex_upper (n : nat) : ascii := nth n (bs "0123456789ABCDEF") "0"%char.
Definition escape_byte (c : ascii) : bytes :=
  if Nat.eqb (code c) 32 then ["+"%char]
  else if unreserved c then [c]
  else ["%"%char; hex_upper (code c / 16); hex_upper (code c mod 16)].
Definition query_escape (s : bytes) : bytes := flat_map escape_byte s.
Definition unhex (c : ascii) : option nat :=
  let n := code c in
  if Nat.leb 48 n && Nat.leb n 57 then Some (n - 48)
  else if Nat.leb 97 n && Nat.leb n 102 then Some (n - 87)
  else if Nat.leb 65 n && Nat.leb n 70 then Some (n - 55)
  else None.
(** url.QueryUnescape; [None] is an error *)
Fixpoint query_unescape (s : bytes) : option bytes :=
  match s with
  | [] => Some []
  | c :: r =>
      if Nat.eqb (code c) 37 then
        match r with
        | h1 :: h2 :: r2 =>
            match unhex h1, unhex h2 with
            | Some a, Some b => option_map (cons (byte (16 * a + b))) (query_unescape r2)
            | _, _ => None
            end
        | _ => None
        end
      else option_map (cons (if Nat.eqb (code c) 43 then " "%char else c)) (query_unescape r)
  end.

(** ** Facts *)
Lemma b64_val_char n : n < 64 -> b64_val (b64_char n) = Some n.
Proof. intros H. do 64 (destruct n as [|n]; [reflexivity|]). lia. Qed.
Lemma b64_val_pad : b64_val pad = None.
Proof. reflexivity. Qed.
Lemma b64_char_graphic n : graphic (b64_char n) = true /\ is_newline (b64_char n) = false.
Proof. do 64 (destruct n as [|n]; [split; reflexivity|]). unfold b64_char. rewrite nth_overflow by (cbn; lia). split; reflexivity. Qed.

(** bytes that occur in base64url text *)
Definition b64_byte (c : ascii) : bool := match b64_val c with Some _ => true | None => Ascii.eqb c pad end.
Lemma b64_char_byte n : b64_byte (b64_char n) = true.
Proof.
  destruct (Nat.lt_ge_cases n 64) as [H|H]; [unfold b64_byte; rewrite b64_val_char by exact H; reflexivity|].
  unfold b64_char. rewrite nth_overflow by (cbn; lia). reflexivity.
Qed.
Lemma byte_code c : byte (code c) = c.
Proof. apply ascii_nat_embedding. Qed.

(** induction by threes *)
Lemma list3_ind (P : bytes -> Prop) : P [] -> (forall x, P [x]) -> (forall x y, P [x; y]) ->
  (forall x y z r, P r -> P (x :: y :: z :: r)) -> forall s, P s.
Proof.
  intros H0 H1 H2 H3 s. assert (X : P s /\ (forall x, P (x :: s)) /\ (forall x y, P (x :: y :: s))); [|tauto].
  induction s as [|a s (A & B & C)]; [auto|]. split; [apply B|]. split; [intros x; apply C|intros x y; apply H3; exact A].
Qed.
Lemma b64_encode_bytes s : forallb b64_byte (b64_encode s) = true.
Proof.
  induction s as [|x|x y|x y z r IH] using list3_ind; [reflexivity|cbn -[b64_char Nat.div Nat.modulo Nat.mul Nat.add b64_byte] ..].
  - rewrite !b64_char_byte. reflexivity.
  - rewrite !b64_char_byte. reflexivity.
  - rewrite !b64_char_byte. exact IH.
Qed.
Lemma b64_byte_not_newline c : b64_byte c = true -> is_newline c = false.
Proof.
  unfold b64_byte, b64_val, is_newline. intros H. destruct (Nat.eqb_spec (code c) 10) as [E|_]; [exfalso|destruct (Nat.eqb_spec (code c) 13) as [E|_]; [exfalso|reflexivity]];
    rewrite E in H; cbn in H; apply Ascii.eqb_eq in H; subst c; discriminate.
Qed.
Lemma filter_id {A} (f : A -> bool) l : forallb f l = true -> filter f l = l.
Proof. induction l as [|a l IH]; [reflexivity|]. cbn. intros H. apply andb_true_iff in H as (Ha & Hl). rewrite Ha, IH by exact Hl. reflexivity. Qed.
Lemma b64_filter s : forallb b64_byte s = true -> filter (fun c => negb (is_newline c)) s = s.
Proof.
  intros H. apply filter_id. rewrite forallb_forall in *. intros c Hc. rewrite b64_byte_not_newline; [reflexivity|auto].
Qed.

Lemma div_lt_64 a : a < 256 -> a / 4 < 64.
Proof. intros H. apply Nat.div_lt_upper_bound; lia. Qed.

Lemma dm a b : 0 < b -> exists q r, a = q * b + r /\ r < b /\ a / b = q /\ a mod b = r.
Proof.
  intros H. exists (a / b), (a mod b). pose proof (Nat.div_mod_eq a b). pose proof (Nat.mod_upper_bound a b). repeat split; lia.
Qed.
Lemma dm_unique a b q r : a = q * b + r -> r < b -> a / b = q /\ a mod b = r.
Proof.
  intros -> Hr. split.
  - rewrite Nat.div_add_l by lia. rewrite (Nat.div_small r b Hr). lia.
  - rewrite Nat.add_comm, Nat.mod_add by lia. apply Nat.mod_small. exact Hr.
Qed.

Lemma sextets a b c : a < 256 -> b < 256 -> c < 256 ->
  let v0 := a / 4 in let v1 := (a mod 4) * 16 + b / 16 in let v2 := (b mod 16) * 4 + c / 64 in let v3 := c mod 64 in
  v0 < 64 /\ v1 < 64 /\ v2 < 64 /\ v3 < 64 /\
  v0 * 4 + v1 / 16 = a /\ (v1 mod 16) * 16 + v2 / 4 = b /\ (v2 mod 4) * 64 + v3 = c.
Proof.
  intros Ha Hb Hc. cbv zeta.
  destruct (dm a 4 ltac:(lia)) as (qa & ra & Ea & La & -> & ->).
  destruct (dm b 16 ltac:(lia)) as (qb & rb & Eb & Lb & -> & ->).
  destruct (dm c 64 ltac:(lia)) as (qc & rc & Ec & Lc & -> & ->).
  assert (qa < 64) by lia. assert (qb < 16) by lia. assert (qc < 4) by lia.
  destruct (dm_unique (ra * 16 + qb) 16 ra qb eq_refl) as (-> & ->); [lia|].
  destruct (dm_unique (rb * 4 + qc) 4 rb qc eq_refl) as (-> & ->); [lia|].
  repeat split; lia.
Qed.

Lemma b64_quanta_encode s : b64_quanta (b64_encode s) = (s, true).
Proof.
  induction s as [|x|x y|x y z r IH] using list3_ind; [reflexivity|..].
  - pose proof (sextets (code x) 0 0 (code_lt x) ltac:(lia) ltac:(lia)) as H. cbv zeta in H.
    change (0 / 16) with 0 in H. rewrite Nat.add_0_r in H. destruct H as (L0 & L1 & _ & _ & E0 & _).
    cbn [b64_encode]. cbv zeta. cbn [b64_quanta]. rewrite !b64_val_char by assumption. rewrite b64_val_pad.
    cbn [andb is_nil]. change (Ascii.eqb pad pad) with true. cbn [andb]. rewrite E0, byte_code. reflexivity.
  - pose proof (sextets (code x) (code y) 0 (code_lt x) (code_lt y) ltac:(lia)) as H. cbv zeta in H.
    change (0 / 64) with 0 in H. rewrite Nat.add_0_r in H. destruct H as (L0 & L1 & L2 & _ & E0 & E1 & _).
    cbn [b64_encode]. cbv zeta. cbn [b64_quanta]. rewrite !b64_val_char by assumption. rewrite b64_val_pad.
    change (Ascii.eqb pad pad) with true. cbn [is_nil]. rewrite E0, E1, !byte_code. reflexivity.
  - pose proof (sextets (code x) (code y) (code z) (code_lt x) (code_lt y) (code_lt z)) as H. cbv zeta in H.
    destruct H as (L0 & L1 & L2 & L3 & E0 & E1 & E2).
    cbn [b64_encode]. cbv zeta. cbn [b64_quanta]. rewrite !b64_val_char by assumption. rewrite IH, E0, E1, E2, !byte_code. reflexivity.
Qed.
Theorem b64_round s : b64_decode (b64_encode s) = (s, true).
Proof. unfold b64_decode. rewrite b64_filter by apply b64_encode_bytes. apply b64_quanta_encode. Qed.

(** ** hex *)
Lemma hex_lower_graphic n : graphic (hex_lower n) = true.
Proof. do 16 (destruct n as [|n]; [reflexivity|]). unfold hex_lower. rewrite nth_overflow by (cbn; lia). reflexivity. Qed.
Lemma hex_encode_graphic s : forallb graphic (hex_encode s) = true.
Proof. induction s as [|c s IH]; [reflexivity|]. cbn [hex_encode forallb]. rewrite !hex_lower_graphic, IH. reflexivity. Qed.
Lemma hex_encode_length s : List.length (hex_encode s) = 2 * List.length s.
Proof. induction s as [|c s IH]; [reflexivity|]. cbn [hex_encode List.length]. lia. Qed.
Lemma hex_lower_inj a b : a < 16 -> b < 16 -> hex_lower a = hex_lower b -> a = b.
Proof.
  intros Ha Hb. do 16 (destruct a as [|a]; [do 16 (destruct b as [|b]; [intros H; try reflexivity; discriminate H|]); lia|]). lia.
Qed.
Lemma cons2_inj {A} (a b a' b' : A) l l' : a :: b :: l = a' :: b' :: l' -> a = a' /\ b = b' /\ l = l'.
Proof. intros [= -> -> ->]. auto. Qed.
Lemma hex_encode_inj s : forall t, hex_encode s = hex_encode t -> s = t.
Proof.
  induction s as [|c s IH]; intros [|d t]; cbn [hex_encode]; try discriminate; [reflexivity|]. intros H. apply cons2_inj in H as (H1 & H2 & H3).
  apply IH in H3 as ->. f_equal. apply code_inj.
  apply hex_lower_inj in H1; [|apply Nat.div_lt_upper_bound; pose proof (code_lt c); pose proof (code_lt d); lia ..].
  apply hex_lower_inj in H2; [|apply Nat.mod_upper_bound; discriminate ..].
  rewrite (Nat.div_mod_eq (code c) 16), (Nat.div_mod_eq (code d) 16), H1, H2. reflexivity.
Qed.

(** ** query escaping *)
Lemma unhex_upper n : n < 16 -> unhex (hex_upper n) = Some n.
Proof. intros H. do 16 (destruct n as [|n]; [reflexivity|]). lia. Qed.
Lemma unescape_escape_byte c s : query_unescape (escape_byte c ++ s) = option_map (cons c) (query_unescape s).
Proof.
  unfold escape_byte. destruct (Nat.eqb_spec (code c) 32) as [E|Hsp].
  { cbn [app query_unescape]. change (Nat.eqb (code "+") 37) with false. change (Nat.eqb (code "+") 43) with true. cbv iota.
    assert (c = " "%char) as -> by (apply code_inj; exact E). reflexivity. }
  destruct (unreserved c) eqn:U.
  - cbn [app query_unescape]. destruct (Nat.eqb_spec (code c) 37) as [E|_]; [exfalso; unfold unreserved in U; rewrite E in U; discriminate|].
    destruct (Nat.eqb_spec (code c) 43) as [E|_]; [exfalso; unfold unreserved in U; rewrite E in U; discriminate|]. reflexivity.
  - cbn [app query_unescape]. change (Nat.eqb (code "%") 37) with true. cbv iota.
    rewrite !unhex_upper; [|apply Nat.mod_upper_bound; discriminate|apply Nat.div_lt_upper_bound; pose proof (code_lt c); lia].
    rewrite <- Nat.div_mod_eq, byte_code. reflexivity.
Qed.
Theorem query_round s : query_unescape (query_escape s) = Some s.
Proof.
  induction s as [|c s IH]; [reflexivity|]. unfold query_escape in *. cbn [flat_map]. rewrite unescape_escape_byte, IH. reflexivity.
Qed.
(** what escaping leaves: letters, digits and - _ . ~ + % *)
Definition escaped_byte (c : ascii) : bool := unreserved c || Nat.eqb (code c) 43 || Nat.eqb (code c) 37.
Lemma hex_upper_unreserved n : unreserved (hex_upper n) = true.
Proof. do 16 (destruct n as [|n]; [reflexivity|]). unfold hex_upper. rewrite nth_overflow by (cbn; lia). reflexivity. Qed.
Lemma query_escape_bytes s : forallb escaped_byte (query_escape s) = true.
Proof.
  induction s as [|c s IH]; [reflexivity|]. unfold query_escape in *. cbn [flat_map]. rewrite forallb_app, IH, andb_true_r.
  unfold escape_byte. destruct (Nat.eqb (code c) 32); [reflexivity|]. destruct (unreserved c) eqn:U.
  - cbn. unfold escaped_byte. rewrite U. reflexivity.
  - cbn [forallb]. unfold escaped_byte. rewrite !hex_upper_unreserved. reflexivity.
Qed.
Lemma escaped_graphic c : escaped_byte c = true -> graphic c = true.
Proof.
  unfold escaped_byte, unreserved, graphic. intros H.
  apply andb_true_iff. rewrite !Nat.leb_le.
  repeat (apply orb_true_iff in H as [H|H]); try (apply andb_true_iff in H as (H1 & H2); apply Nat.leb_le in H1, H2); try apply Nat.eqb_eq in H; lia.
Qed.
Lemma escaped_not c d : escaped_byte c = true -> escaped_byte d = false -> c <> d.
Proof. congruence. Qed.
Lemma query_escape_free c s : escaped_byte c = false -> ~ In c (query_escape s).
Proof. intros H Hi. pose proof (query_escape_bytes s) as F. rewrite forallb_forall in F. apply F in Hi. congruence. Qed.
Lemma query_escape_graphic s : forallb graphic (query_escape s) = true.
Proof.
  pose proof (query_escape_bytes s) as F. rewrite forallb_forall in *. intros c Hc. apply escaped_graphic, F. exact Hc.
Qed.
Lemma query_escape_nil s : query_escape s = [] -> s = [].
Proof.
  destruct s as [|c s]; [reflexivity|]. unfold query_escape. cbn [flat_map]. unfold escape_byte.
  destruct (Nat.eqb (code c) 32); [discriminate|]. destruct (unreserved c); discriminate.
Qed.
(** url.QueryUnescape leaves text without % and + alone *)
Lemma query_unescape_plain s : forallb (fun c => negb (Nat.eqb (code c) 37 || Nat.eqb (code c) 43)) s = true -> query_unescape s = Some s.
Proof.
  induction s as [|c s IH]; [reflexivity|]. cbn [forallb query_unescape]. intros H. apply andb_true_iff in H as (Hc & Hs).
  apply negb_true_iff, orb_false_iff in Hc as (H1 & H2). rewrite H1, H2, (IH Hs). reflexivity.
Qed.
Lemma b64_byte_plain c : b64_byte c = true -> negb (Nat.eqb (code c) 37 || Nat.eqb (code c) 43) = true.
Proof.
  unfold b64_byte, b64_val. intros H. apply negb_true_iff. destruct (Nat.eqb_spec (code c) 37) as [E|_]; [exfalso|destruct (Nat.eqb_spec (code c) 43) as [E|_]; [exfalso|reflexivity]];
    rewrite E in H; cbn in H; apply Ascii.eqb_eq in H; subst c; discriminate.
Qed.
Lemma query_unescape_b64 s : forallb b64_byte s = true -> query_unescape s = Some s.
Proof.
  intros H. apply query_unescape_plain. rewrite forallb_forall in *. intros c Hc. apply b64_byte_plain, H. exact Hc.
Qed.
