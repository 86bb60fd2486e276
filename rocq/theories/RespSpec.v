(** RespSpec: the vocabulary of C21-C25. *)
From Coq Require Import List Bool Arith ZArith Lia.
Import ListNotations.
From Verif Require Import GoStr RespModel.
Local Open Scope Z_scope.

Definition is_header (e : wev) : bool := match e with WHeader _ => true | _ => false end.
Definition is_body (e : wev) : bool := match e with WBody _ => true | _ => false end.
Definition hook_nos (l : list wev) : list nat := flat_map (fun e => match e with WHook i => [i] | _ => [] end) l.
Definition body_bytes (l : list wev) : nat := list_sum (map (fun e => match e with WBody b => List.length b | _ => O end) l).

(** the calls before the first Write *)
Fixpoint pre (os : list op) : list op :=
  match os with
  | [] => []
  | OWrite _ :: _ => []
  | o :: os => o :: pre os
  end.
(** the calls after the first Write *)
Fixpoint post (os : list op) : list op :=
  match os with
  | [] => []
  | OWrite _ :: os => os
  | _ :: os => post os
  end.
(** the last non-zero status set by these calls *)
Definition last_status (os : list op) : Z :=
  fold_left (fun s o => match o with OWriteHeader s' => if s' =? 0 then s else s' | _ => s end) os 0.
Definition hooks_of (os : list op) : list hook := flat_map (fun o => match o with OBefore h => [h] | _ => [] end) os.

(** a hook that neither panics, nor flushes, nor writes a body *)
Fixpoint calm (h : hook) : Prop :=
  match h with
  | HRet => True
  | HWriteHeader s k => s <> 0 /\ calm k
  | HWrite _ _ => False
  | HBefore _ k => calm k
  | HFlush _ => False
  | HSee k => forall a b c, calm (k a b c)
  | HPanic => False
  end.
(** the status a hook leaves when it finds status s (the body is still empty) *)
Fixpoint hook_leaves (h : hook) (s : Z) : Z :=
  match h with
  | HWriteHeader s' k => hook_leaves k s'
  | HBefore _ k => hook_leaves k s
  | HSee k => hook_leaves (k s 0 (negb (s =? 0))) s
  | _ => s
  end.
(** the status that should go on the wire: the last one set before the first
    Write, by a handler or by the hooks (last registered first); 200 if none *)
Definition wire_status (os : list op) : Z :=
  let s := fold_left (fun s h => hook_leaves h s) (rev (hooks_of (pre os))) (last_status (pre os)) in
  if s =? 0 then 200 else s.
(** a final status net/http accepts *)
Definition final_code (s : Z) : Prop := s = 101 \/ 200 <= s <= 999.
