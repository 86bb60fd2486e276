(** GoPath: Go's [path.Clean] for rooted paths (the only use in /repo is on
    strings that start with "/").  Documented behaviour of package path: repeat
    slashes are merged, "." elements dropped, ".." elements remove the preceding
    element, and ".." at the root are dropped. *)
From Coq Require Import List Ascii String Bool Arith Lia.
Import ListNotations.
From Verif Require Import GoStr.

Definition slash : ascii := "/"%char.

(** stack-based elimination; [st] is the reversed list of kept elements *)
Fixpoint clean_segs (st : list bytes) (segs : list bytes) : list bytes :=
  match segs with
  | [] => rev st
  | s :: ss =>
      if is_nil s then clean_segs st ss
      else if beq s (bs ".") then clean_segs st ss
      else if beq s (bs "..") then clean_segs (tl st) ss
      else clean_segs (s :: st) ss
  end.

(** [path.Clean(p)] when [p] starts with "/" *)
Definition path_clean_rooted (p : bytes) : bytes :=
  slash :: join [slash] (clean_segs [] (split_byte slash p)).

(** what a kept element looks like *)
Definition good_seg (s : bytes) : Prop :=
  s <> [] /\ s <> bs "." /\ s <> bs ".." /\ ~ In slash s.

Lemma clean_segs_good st segs :
  Forall good_seg st -> Forall (fun s => ~ In slash s) segs ->
  Forall good_seg (clean_segs st segs).
Proof.
  revert st; induction segs as [|s ss IH]; intros st Hst Hs; cbn [clean_segs].
  - apply Forall_rev. exact Hst.
  - inversion Hs as [|? ? Hns Hs']; subst.
    destruct s as [|a s]; cbn [is_nil]; [apply IH; assumption|].
    destruct (beq_spec (a :: s) (bs ".")); [apply IH; assumption|].
    destruct (beq_spec (a :: s) (bs "..")).
    + apply IH; [|assumption]. destruct st; [constructor|inversion Hst; assumption].
    + apply IH; [|assumption]. constructor; [|assumption].
      repeat split; (assumption || discriminate).
Qed.

Lemma clean_segs_id st segs :
  Forall good_seg segs -> clean_segs st segs = rev st ++ segs.
Proof.
  revert st; induction segs as [|s ss IH]; intros st H; cbn [clean_segs].
  - rewrite app_nil_r. reflexivity.
  - inversion H as [|? ? (H1 & H2 & H3 & _) H']; subst.
    destruct s as [|a s]; [congruence|]. cbn [is_nil].
    destruct (beq_spec (a :: s) (bs ".")); [congruence|].
    destruct (beq_spec (a :: s) (bs "..")); [congruence|].
    rewrite IH by assumption. cbn [rev]. rewrite <- app_assoc. reflexivity.
Qed.

Lemma split_slash_clean p : Forall (fun s => ~ In slash s) (split_byte slash p).
Proof. apply Forall_forall. intros s. apply split_byte_clean. Qed.

Lemma clean_split_good p : Forall good_seg (clean_segs [] (split_byte slash p)).
Proof. apply clean_segs_good; [constructor|apply split_slash_clean]. Qed.
