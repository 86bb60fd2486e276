(** ListenModel: the address /repo/app.go:126-143 Run hands to http.Server, as package net reads it.
    What the operating system does with host and port is not modelled. *)
From Coq Require Import List Ascii String Bool Arith Lia.
Import ListNotations.
From Verif Require Import GoStr SetupModel.

(** net/ipsock.go SplitHostPort; None is an error *)
Definition has (c : ascii) (s : bytes) : bool := existsb (Ascii.eqb c) s.
Definition split_host_port (s : bytes) : option (bytes * bytes) :=
  match index_byte ":"%char (rev s) with
  | None => None                                                 (* missing port *)
  | Some j =>
      let before := rev (skipn (S j) (rev s)) in                 (* hostport[:i], i the last colon *)
      let port := rev (firstn j (rev s)) in
      match s with
      | "["%char :: r =>
          match index_byte "]"%char s with
          | None => None
          | Some e =>
              if Nat.eqb (S e) (List.length before) then
                if (has "["%char r || has "]"%char (skipn (S e) s))%bool then None else Some (skipn 1 (firstn e s), port)
              else None                                          (* missing port, too many colons *)
          end
      | _ =>
          if has ":"%char before then None                       (* too many colons *)
          else if (has "["%char s || has "]"%char s)%bool then None
          else Some (before, port)
      end
  end.
(** app.go:128-130, 140: where ListenAndServe listens; None: Run returns its error at once.
    The address is never empty (it has a colon), so that net/http puts in no default. *)
Definition listens (s : settings) : option (bytes * bytes) := split_host_port (address s).
