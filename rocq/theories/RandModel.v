(** RandModel: /repo/utils/rand.go and CreateSid of /repo/sessions/utils.go.

    Simplifications: crypto/rand.Read is a parameter, the bytes it delivered (an
    error is [None]); math/big integers are Z. *)
From Coq Require Import List Ascii String Bool Arith ZArith Lia.
Import ListNotations.
From Verif Require Import GoStr GoNum.
Local Open Scope Z_scope.

(** rand.go:10-14 *)
Definition hex_alphabets : bytes := bs "0123456789abcdef".
Definition lowercase_alphabets : bytes := bs "0123456789abcdefghijklmnopqrstuvwxyz".
Definition default_alphabets : bytes := bs "0123456789ABCDEFGHIJKLMNOPQRSTUVWXYZabcdefghijklmnopqrstuvwxyz".

Inductive rres (A : Type) := ROk (x : A) | RErr | RPanic.
Arguments ROk {A}. Arguments RErr {A}. Arguments RPanic {A}.

(** rand.go:17-32 RandomCreateBytes. [rd n] is what rand.Read put into a slice of
    length n: the number of bytes it reports and their values, or an error. Making a
    slice of negative length panics; so does the remainder by byte(len) = 0. *)
Definition random_bytes (rd : nat -> option bytes) (n : Z) (alphabet0 : bytes) : rres bytes :=
  let alphabet := if is_nil alphabet0 then default_alphabets else alphabet0 in
  if n <? 0 then RPanic else
  match rd (Z.to_nat n) with
  | None => RErr
  | Some got =>
      if negb (Nat.eqb (List.length got) (Z.to_nat n)) then RErr else
      let m := (List.length alphabet mod 256)%nat in
      if (Nat.eqb m 0 && negb (is_nil got))%bool then RPanic
      else ROk (map (fun b => nth (code b mod m)%nat alphabet " "%char) got)
  end.

(** math/big Int.SetString(s, 10) *)
Definition big_parse (s : bytes) : option Z :=
  let digits ds := match ds with [] => None | _ => dval 0 ds end in
  match s with
  | c :: s' => if Ascii.eqb c "+"%char then digits s'
               else if Ascii.eqb c "-"%char then option_map Z.opp (digits s') else digits s
  | [] => None
  end.

(** rand.go:55-68 NumberEncode: the loop, least significant digit first; [None] if it
    has not ended after [fuel] steps. DivMod by 0 panics. *)
Fixpoint num_loop (fuel : nat) (x y : Z) (alphabet : bytes) : option bytes :=
  if x <=? 0 then Some [] else
  match fuel with
  | O => None
  | S f => option_map (cons (nth (Z.to_nat (x mod y)) alphabet " "%char)) (num_loop f (x / y) y alphabet)
  end.
Definition number_encode (fuel : nat) (number alphabet : bytes) : rres (option bytes) :=
  match big_parse number with
  | None => ROk (Some [])
  | Some x =>
      let y := Z.of_nat (List.length alphabet) in
      if (y =? 0) && (0 <? x) then RPanic else ROk (num_loop fuel x y alphabet)
  end.

(** rand.go:70-81 NumberDecode; bytes.IndexByte gives -1 for a foreign byte *)
Definition index_z (c : ascii) (alphabet : bytes) : Z :=
  match index_byte c alphabet with Some i => Z.of_nat i | None => -1 end.
Definition number_decode (token alphabet : bytes) : bytes :=
  let y := Z.of_nat (List.length alphabet) in
  format_int (fold_right (fun c x => x * y + index_z c alphabet) 0 token).

(** sessions.go:20 *)
Definition session_alphabets : bytes := bs "0123456789ABCDEFGHIJKLMNOPQRSTUVWXYZ".
(** utils.go:17-25 CreateSid at clock reading [now] (UnixNano); [RPanic] also when reading fails *)
Definition create_sid (rd : nat -> option bytes) (now : Z) : rres bytes :=
  match number_encode 64 (format_int now) session_alphabets with
  | ROk (Some prefix) =>
      match random_bytes rd (20 - Z.of_nat (List.length prefix)) session_alphabets with
      | ROk b => ROk (prefix ++ b)
      | RErr | RPanic => RPanic
      end
  | ROk None => RErr
  | RErr | RPanic => RPanic
  end.
