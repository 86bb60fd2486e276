(** StringsModel: /repo/app_util.go:137-148 StrTo.Strings. *)
From Coq Require Import List Ascii String Bool Arith ZArith Lia.
Import ListNotations.
From Verif Require Import GoStr.

(** strings.Split(s, sep) for a separator that is not empty: cut at the first occurrence and
    go on behind it; [fuel] counts the bytes left *)
Fixpoint split_fuel (fuel : nat) (s sep : bytes) : list bytes :=
  match fuel, index_sub s sep with
  | S fuel', Some i => firstn i s :: split_fuel fuel' (skipn (i + List.length sep) s) sep
  | _, _ => [s]
  end.
Definition split_all (s sep : bytes) : list bytes := split_fuel (S (List.length s)) s sep.
(** unicode/utf8 DecodeRuneInString: the number of bytes of the first character of [s]; 1 for
    bytes that begin no UTF-8 sequence *)
Definition within (lo hi : Z) (c : ascii) : bool := ((lo <=? Z.of_nat (code c)) && (Z.of_nat (code c) <=? hi))%Z.
Definition rune_size (s : bytes) : nat :=
  match s with
  | c0 :: c1 :: c2 :: c3 :: _ =>
      if within 194 223 c0 && within 128 191 c1 then 2
      else if (within 224 239 c0 && within (if within 224 224 c0 then 160 else 128) (if within 237 237 c0 then 159 else 191) c1) && within 128 191 c2 then 3
      else if (within 240 244 c0 && within (if within 240 240 c0 then 144 else 128) (if within 244 244 c0 then 143 else 191) c1) && within 128 191 c2 && within 128 191 c3 then 4
      else 1
  | [c0; c1; c2] =>
      if within 194 223 c0 && within 128 191 c1 then 2
      else if (within 224 239 c0 && within (if within 224 224 c0 then 160 else 128) (if within 237 237 c0 then 159 else 191) c1) && within 128 191 c2 then 3
      else 1
  | [c0; c1] => if within 194 223 c0 && within 128 191 c1 then 2 else 1
  | _ => 1
  end.
(** strings.explode(s, -1): one piece for each character. (Go before 1.18 puts U+FFFD for a
    byte that begins no UTF-8 sequence, later ones the byte itself, as here.) *)
Fixpoint explode (fuel : nat) (s : bytes) : list bytes :=
  match fuel, s with
  | S fuel', _ :: _ => firstn (rune_size s) s :: explode fuel' (skipn (rune_size s) s)
  | _, _ => []
  end.
(** app_util.go:137-148 *)
Definition strto_strings (delimiters : list bytes) (s : bytes) : list bytes :=
  let delimiter := match delimiters with d :: _ => d | [] => bs "," end in
  map trim_space (match delimiter with [] => explode (List.length s) s | _ :: _ => split_all s delimiter end).
