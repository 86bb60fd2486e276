(** InjectConcFacts: a request alone does what InjectModel says; what other requests may change. *)
From Coq Require Import List Ascii String Bool Arith NArith Lia.
Import ListNotations.
From Verif Require Import GoStr InjectModel InjectConc.

(** ** The counters as flags: [d] are those that are not zero *)
Definition zero_in (d : list nat) (q : nat) : bool := negb (existsb (Nat.eqb q) d).
Definition fstep {X} (t : tree X) (d : list nat) : tree X * list nat :=
  match t with
  | TRet x => (TRet x, d)
  | TAsk q k => (k (zero_in d q), d)
  | TMark q t' => (t', q :: d)
  end.
Fixpoint frun {X} (t : tree X) (d : list nat) : X * list nat :=
  match t with
  | TRet x => (x, d)
  | TAsk q k => frun (k (zero_in d q)) d
  | TMark q t' => frun t' (q :: d)
  end.

Definition put (s : ist) (d : list nat) : ist := IS (i_cache s) d (i_status s) (i_tr s).
Definition wput (w : world) (d : list nat) : world := World (w_inj w) (w_prov w) d (w_tr w).
Lemma put_put s d e : put (put s d) e = put s e. Proof. reflexivity. Qed.
Lemma put_same s : put s (i_done s) = s. Proof. destruct s; reflexivity. Qed.

Section Adequacy.
  Variable assignable : rtype -> rtype -> bool.
  Variable call : list callev -> nat -> list val -> option (nat -> option nat).
  Variable X : Type.
  Section Invoke.
    Variables (inj : nat) (look look' : bytes -> found) (info info' : nat -> pinfo).
    Hypothesis Hl : forall n, look' n = look n.
    Hypothesis Hi : forall q, info' q = info q.
    Variable e : list nat.
    Lemma call_fun_put q f ins outs args s d :
      call_fun assignable call inj info' q f ins outs args (put s e) =
      (fst (call_fun assignable call inj info q f ins outs args (put s d)), put (snd (call_fun assignable call inj info q f ins outs args (put s d))) e) /\
      i_done (snd (call_fun assignable call inj info q f ins outs args (put s d))) = d.
    Proof.
      unfold call_fun. destruct (args_ok assignable args ins); [|split; reflexivity]. cbn [i_tr put].
      destruct (call (i_tr s) f args); [|split; reflexivity]. rewrite Hi. destruct outs; split; reflexivity.
    Qed.
    Lemma t_deps_ok (inv : nat -> ist -> ires * ist) (tinv : nat -> ist -> (ires -> ist -> tree X) -> tree X) :
      (forall q s d k, frun (tinv q (put s e) k) d = let (r, s1) := inv q (put s d) in frun (k r (put s1 e)) (i_done s1)) ->
      forall deps s d k, frun (t_deps X look' info' tinv deps (put s e) k) d =
        let (x, s1) := eval_deps look info inv deps (put s d) in frun (k x (put s1 e)) (i_done s1).
    Proof.
      intros IH. induction deps as [|dn deps IHd]; intros s d k; [reflexivity|].
      cbn [t_deps eval_deps]. rewrite Hl. destruct (look dn) as [q| |]; try reflexivity.
      cbn [frun]. rewrite Hi. unfold zero_in.
      change (is_done (put s d) q) with (existsb (Nat.eqb q) d).
      change (in_status (put s e) (p_name (info q))) with (in_status s (p_name (info q))).
      change (in_status (put s d) (p_name (info q))) with (in_status s (p_name (info q))).
      destruct (negb (existsb (Nat.eqb q) d) && in_status s (p_name (info q))); [reflexivity|].
      rewrite IH. destruct (inv q (put s d)) as [r s1] eqn:E.
      destruct r as [[|v out]| | |]; try reflexivity.
      rewrite IHd. rewrite put_same. destruct (eval_deps look info inv deps s1) as [x s2]. destruct x; reflexivity.
    Qed.
    Lemma t_invoke_ok fuel : forall q s d k, frun (t_invoke assignable call X inj look' info' fuel q (put s e) k) d =
      let (r, s1) := invoke assignable call inj look info fuel q (put s d) in frun (k r (put s1 e)) (i_done s1).
    Proof.
      induction fuel as [|f IH]; intros q s d k; [reflexivity|].
      cbn [t_invoke invoke]. rewrite Hi. cbn [i_cache put]. destruct (aget (i_cache s) (p_name (info q))); [reflexivity|].
      destruct (p_kind (info q)) as [v|fn ins outs]; [reflexivity|].
      change (set_status (put s e) (p_name (info q))) with (put (set_status s (p_name (info q))) e).
      change (set_status (put s d) (p_name (info q))) with (put (set_status s (p_name (info q))) d).
      rewrite (t_deps_ok _ _ IH).
      destruct (eval_deps look info (invoke assignable call inj look info f) (p_deps (info q)) (put (set_status s (p_name (info q))) d)) as [x s1].
      destruct x as [args|r].
      - destruct (call_fun_put q fn ins outs args s1 (i_done s1)) as [E1 E2]. rewrite put_same in E1, E2. rewrite E1. cbn [fst snd].
        destruct (call_fun assignable call inj info q fn ins outs args s1) as [r s2]. cbn [fst snd] in *.
        destruct r; cbn [t_defer frun]; rewrite ?E2; try reflexivity; unfold mark_done; cbn [i_done put i_cache i_status i_tr]; rewrite ?E2; reflexivity.
      - destruct r; cbn [t_defer frun fst snd]; reflexivity.
    Qed.
  End Invoke.

  Lemma look_wput w e i n fuel : look_up (wput w e) fuel i n = look_up w fuel i n.
  Proof. revert i. induction fuel as [|f IH]; intros i; [reflexivity|]. cbn. unfold jget. cbn [w_inj wput]. destruct (aget _ n); [reflexivity|]. destruct (j_parent _); [apply IH|reflexivity]. Qed.
  Lemma look_in_wput w e i n : look_in (wput w e) i n = look_in w i n.
  Proof. unfold look_in. cbn [w_inj wput]. apply look_wput. Qed.

  Lemma t_run_ok w e i fuel q s d k : frun (t_run assignable call X (wput w e) i fuel q (put s e) k) d =
    let (r, s1) := run_invoke assignable call w i fuel q (put s d) in frun (k r (put s1 e)) (i_done s1).
  Proof. unfold t_run, run_invoke. apply t_invoke_ok; [intros n; apply look_in_wput|reflexivity]. Qed.

  Lemma t_fields_ok w e i fuel (sub_t : list field -> list nat -> ist -> (ares -> ist -> tree X) -> tree X) (sub_a : list field -> list nat -> ist -> ares * ist) :
    (forall fs path s d k, frun (sub_t fs path (put s e) k) d = let (a, s1) := sub_a fs path (put s d) in frun (k a (put s1 e)) (i_done s1)) ->
    forall fs n path s d k, frun (t_fields assignable call X (wput w e) i fuel sub_t fs n path (put s e) k) d =
      let (a, s1) := apply_fields assignable call w i fuel sub_a fs n path (put s d) in frun (k a (put s1 e)) (i_done s1).
  Proof.
    intros Hs. induction fs as [|[settable tg ty sub] fs IH]; intros n path s d k; [reflexivity|].
    cbn [t_fields apply_fields]. destruct (negb settable); [apply IH|].
    destruct tg as [| |label].
    - destruct sub as [fs1|]; [|apply IH]. rewrite Hs. destruct (sub_a fs1 (path ++ [n]) (put s d)) as [a s1]. destruct a as [l|r]; [|reflexivity].
      rewrite IH, put_same. destruct (apply_fields assignable call w i fuel sub_a fs (S n) path s1) as [a s2]. destruct a; reflexivity.
    - apply IH.
    - rewrite look_in_wput. destruct (look_in w i (create_name (indirect ty) label)) as [q| |]; try reflexivity.
      rewrite t_run_ok. destruct (run_invoke assignable call w i fuel q (put s d)) as [r s1].
      destruct r as [[|v out]| | |]; try reflexivity.
      + rewrite IH, put_same. destruct (apply_fields assignable call w i fuel sub_a fs (S n) path s1) as [a s2]. destruct a; reflexivity.
      + destruct (assign_value assignable v ty); rewrite IH, put_same; destruct (apply_fields assignable call w i fuel sub_a fs (S n) path s1) as [a s2]; destruct a; reflexivity.
  Qed.
  Lemma t_apply_ok w e i fuel left : forall fs path s d k, frun (t_apply assignable call X (wput w e) i fuel left fs path (put s e) k) d =
    let (a, s1) := apply_lvl assignable call w i fuel left fs path (put s d) in frun (k a (put s1 e)) (i_done s1).
  Proof.
    induction left as [|l IH]; intros fs path s d k; cbn [t_apply apply_lvl]; apply t_fields_ok; [reflexivity|exact IH].
  Qed.

  (** an operation alone *)
  Lemma t_op_ok fuel w o e k : frun (t_op assignable call X fuel (wput w e) o k) (w_done w) =
    let (w1, b) := exec_op assignable call fuel w o in frun (k (wput w1 e) b) (w_done w1).
  Proof.
    destruct o as [|i p|i o|i t l|i o|i fs|i t l]; cbn [t_op exec_op fst snd].
    - reflexivity.
    - reflexivity.
    - unfold provide. destruct (new_provider o); reflexivity.
    - unfold t_find, find_op. rewrite look_in_wput. destruct (look_in w i (create_name (indirect t) l)) as [q| |]; try reflexivity.
      change (begin (wput w e) i) with (put (begin w i) e). rewrite t_run_ok. change (put (begin w i) (w_done w)) with (begin w i).
      destruct (run_invoke assignable call w i fuel q (begin w i)) as [r s1]. destruct r as [[|v out]| | |]; reflexivity.
    - unfold t_invoke_op, invoke_op. destruct (new_provider o) as [p|]; [|reflexivity]. cbn [w_prov wput].
      change (add_prov (wput w e) p) with (wput (add_prov w p) e). change (begin (wput (add_prov w p) e) i) with (put (begin (add_prov w p) i) e).
      rewrite t_run_ok. change (put (begin (add_prov w p) i) (w_done w)) with (begin (add_prov w p) i).
      destruct (run_invoke assignable call (add_prov w p) i fuel (List.length (w_prov w)) (begin (add_prov w p) i)) as [r s1]. destruct r as [out| | |]; reflexivity.
    - unfold t_apply_op, apply_op, apply_struct. change (begin (wput w e) i) with (put (begin w i) e). rewrite t_apply_ok. change (put (begin w i) (w_done w)) with (begin w i).
      destruct (apply_lvl assignable call w i fuel (max_level - 1) fs [] (begin w i)) as [a s1]. destruct a; reflexivity.
    - unfold exists_op. rewrite look_in_wput. destruct (look_in w i (create_name (indirect t) l)) as [q| |]; try reflexivity.
      change (info_of (wput w e) q) with (info_of w q). destruct (p_kind (info_of w q)); reflexivity.
  Qed.
End Adequacy.

Lemma t_prog_ok assignable call fuel p : forall w e seen, frun (t_prog assignable call fuel p (wput w e) seen) (w_done w) =
  let (bs, w1) := alone assignable call fuel p w seen in ((bs, wput w1 e), w_done w1).
Proof.
  induction p as [|o k IH]; intros w e seen; [reflexivity|]. cbn [t_prog alone]. rewrite t_op_ok.
  destruct (exec_op assignable call fuel w o) as [w1 b]. apply IH.
Qed.

(** ** Interference *)
Section Tame.
  Variable X : Type.
  Variable bad : X -> Prop.
  (** every end is bad *)
  Inductive all_bad : tree X -> Prop :=
  | ab_ret : forall x, bad x -> all_bad (TRet x)
  | ab_ask : forall q k, (forall b, all_bad (k b)) -> all_bad (TAsk q k)
  | ab_mark : forall q t, all_bad t -> all_bad (TMark q t).
  (** a counter that is not zero any more changes nothing, or saves from a bad end *)
  Inductive tame : tree X -> Prop :=
  | tm_ret : forall x, tame (TRet x)
  | tm_ask : forall q k, (forall b, tame (k b)) -> (k true = k false \/ all_bad (k true)) -> tame (TAsk q k)
  | tm_mark : forall q t, tame t -> tame (TMark q t).
  Lemma all_bad_run t : all_bad t -> forall d, bad (fst (frun t d)).
  Proof. induction 1; intros d; cbn; auto. Qed.

  Variable assignable : rtype -> rtype -> bool.
  Variable call : list callev -> nat -> list val -> option (nat -> option nat).
  Section Inv.
    Variables (inj : nat) (look : bytes -> found) (info : nat -> pinfo).
    Notation tinv := (t_invoke assignable call X inj look info).
    (** *** trees all of whose continuations are bad *)
    Lemma deps_bad (inv : nat -> ist -> (ires -> ist -> tree X) -> tree X) :
      (forall q s k, (forall r s, all_bad (k r s)) -> all_bad (inv q s k)) ->
      forall deps s k, (forall x s, all_bad (k x s)) -> all_bad (t_deps X look info inv deps s k).
    Proof.
      intros IH. induction deps as [|d deps IHd]; intros s k H; cbn [t_deps]; [apply H|].
      destruct (look d); try apply H. constructor. intros b. destruct (b && _); [apply H|]. apply IH. intros r s1.
      destruct r as [[|v o]| | |]; try apply H. apply IHd. intros x s2. destruct x; apply H.
    Qed.
    Lemma defer_bad q r t : all_bad t -> all_bad (t_defer X q r t).
    Proof. destruct r; cbn; intros H; try constructor; exact H. Qed.
    Lemma invoke_bad fuel : forall q s k, (forall r s, all_bad (k r s)) -> all_bad (tinv fuel q s k).
    Proof.
      induction fuel as [|f IH]; intros q s k H; cbn [t_invoke]; [apply H|]. destruct (aget _ _); [apply H|].
      destruct (p_kind (info q)); [apply defer_bad, H|]. apply deps_bad; [exact IH|]. intros x s1. destruct x; apply defer_bad, H.
    Qed.
    (** *** trees whose continuations are tame, and bad after a cycle *)
    Lemma deps_tame (inv : nat -> ist -> (ires -> ist -> tree X) -> tree X) :
      (forall q s k, (forall r s, tame (k r s)) -> (forall d s, all_bad (k (IErr (ECycle d)) s)) -> tame (inv q s k)) ->
      forall deps s k, (forall x s, tame (k x s)) -> (forall d s, all_bad (k (DFail (IErr (ECycle d))) s)) -> tame (t_deps X look info inv deps s k).
    Proof.
      intros IH. induction deps as [|d deps IHd]; intros s k H Hc; cbn [t_deps]; [apply H|].
      destruct (look d) as [q| |]; try apply H.
      assert (T : tame (inv q s (fun r s1 => match r with
                  | IOk (v :: _) => t_deps X look info inv deps s1 (fun x s2 => match x with DArgs l => k (DArgs (v :: l)) s2 | _ => k x s2 end)
                  | IOk [] => k (DFail IPanic) s1
                  | _ => k (DFail r) s1
                  end))).
      { apply IH; [|intros d' s'; apply Hc]. intros r s1. destruct r as [[|v o]| | |]; try apply H. apply IHd; [|intros d' s'; apply Hc]. intros x s2. destruct x; apply H. }
      constructor.
      - intros b. destruct (b && _); [apply H|exact T].
      - cbn [andb]. destruct (in_status s (p_name (info q))); [right; apply Hc|left; reflexivity].
    Qed.
    Lemma defer_tame q r t : tame t -> tame (t_defer X q r t).
    Proof. destruct r; cbn; intros H; try constructor; exact H. Qed.
    Lemma invoke_tame fuel : forall q s k, (forall r s, tame (k r s)) -> (forall d s, all_bad (k (IErr (ECycle d)) s)) -> tame (tinv fuel q s k).
    Proof.
      induction fuel as [|f IH]; intros q s k H Hc; cbn [t_invoke]; [apply H|]. destruct (aget _ _); [apply H|].
      destruct (p_kind (info q)); [apply defer_tame, H|]. apply deps_tame; [exact IH| |].
      - intros x s1. destruct x; apply defer_tame, H.
      - intros d s'. cbn. apply Hc.
    Qed.
  End Inv.
  Section W.
    Variables (w : world) (i fuel : nat).
    Lemma fields_bad (sub : list field -> list nat -> ist -> (ares -> ist -> tree X) -> tree X) : (forall fs path s k, (forall a s, all_bad (k a s)) -> all_bad (sub fs path s k)) ->
      forall fs n path s k, (forall a s, all_bad (k a s)) -> all_bad (t_fields assignable call X w i fuel sub fs n path s k).
    Proof.
      intros Hs. induction fs as [|[settable tg ty sb] fs IH]; intros n path s k H; cbn [t_fields]; [apply H|].
      destruct (negb settable); [apply IH, H|].
      assert (C : forall l s1, all_bad (t_fields assignable call X w i fuel sub fs (S n) path s1 (fun a s2 => match a with AppOk l' => k (AppOk (l ++ l')) s2 | x => k x s2 end))).
      { intros l s1. apply IH. intros a s2. destruct a; apply H. }
      destruct tg as [| |label].
      - destruct sb; [|apply IH, H]. apply Hs. intros a s1. destruct a; [apply C|apply H].
      - apply IH, H.
      - destruct (look_in w i _); try apply H. apply invoke_bad. intros r s1. destruct r as [[|v o]| | |]; try apply H; [apply C|]. destruct (assign_value assignable v ty); apply C.
    Qed.
    Lemma apply_bad left : forall fs path s k, (forall a s, all_bad (k a s)) -> all_bad (t_apply assignable call X w i fuel left fs path s k).
    Proof. induction left as [|l IH]; intros fs path s k H; cbn [t_apply]; apply fields_bad; try exact H; [intros fs' p' s' k' H'; apply H'|exact IH]. Qed.
    Lemma fields_tame (sub : list field -> list nat -> ist -> (ares -> ist -> tree X) -> tree X) : (forall fs path s k, (forall a s, tame (k a s)) -> (forall d s, all_bad (k (AppFail (IErr (ECycle d))) s)) -> tame (sub fs path s k)) ->
      forall fs n path s k, (forall a s, tame (k a s)) -> (forall d s, all_bad (k (AppFail (IErr (ECycle d))) s)) -> tame (t_fields assignable call X w i fuel sub fs n path s k).
    Proof.
      intros Hs. induction fs as [|[settable tg ty sb] fs IH]; intros n path s k H Hc; cbn [t_fields]; [apply H|].
      destruct (negb settable); [apply IH; assumption|].
      assert (C : forall l s1, tame (t_fields assignable call X w i fuel sub fs (S n) path s1 (fun a s2 => match a with AppOk l' => k (AppOk (l ++ l')) s2 | x => k x s2 end))).
      { intros l s1. apply IH; [intros a s2; destruct a; apply H|intros d s'; apply Hc]. }
      destruct tg as [| |label].
      - destruct sb; [|apply IH; assumption]. apply Hs; [intros a s1; destruct a; [apply C|apply H]|intros d s'; apply Hc].
      - apply IH; assumption.
      - destruct (look_in w i _); try apply H. apply invoke_tame; [|intros d s'; apply Hc]. intros r s1. destruct r as [[|v o]| | |]; try apply H; [apply C|]. destruct (assign_value assignable v ty); apply C.
    Qed.
    Lemma apply_tame left : forall fs path s k, (forall a s, tame (k a s)) -> (forall d s, all_bad (k (AppFail (IErr (ECycle d))) s)) -> tame (t_apply assignable call X w i fuel left fs path s k).
    Proof. induction left as [|l IH]; intros fs path s k H Hc; cbn [t_apply]; apply fields_tame; try assumption; intros fs' p' s' k' H' Hc'; apply H'. Qed.
  End W.
  Lemma op_bad fuel w o k : (forall w b, all_bad (k w b)) -> all_bad (t_op assignable call X fuel w o k).
  Proof.
    intros H. destruct o; cbn [t_op]; try apply H.
    - unfold t_find. destruct (look_in w i _); try apply H. apply invoke_bad. intros r s. destruct r as [[|v o]| | |]; apply H.
    - unfold t_invoke_op. destruct (new_provider o); [|apply H]. apply invoke_bad. intros r s. destruct r; apply H.
    - unfold t_apply_op. apply apply_bad. intros a s. destruct a; apply H.
  Qed.
  Lemma op_tame fuel w o k : (forall w b, tame (k w b)) -> (forall w d, all_bad (k w (RErr (ECycle d)))) -> tame (t_op assignable call X fuel w o k).
  Proof.
    intros H Hc. destruct o; cbn [t_op]; try apply H.
    - unfold t_find. destruct (look_in w i _); try apply H. apply invoke_tame; [|intros d s; apply Hc]. intros r s. destruct r as [[|v o]| | |]; apply H.
    - unfold t_invoke_op. destruct (new_provider o); [|apply H]. apply invoke_tame; [|intros d s; apply Hc]. intros r s. destruct r; apply H.
    - unfold t_apply_op. apply apply_tame; [|intros d s; apply Hc]. intros a s. destruct a; apply H.
  Qed.
End Tame.

(** a cycle was reported *)
Definition saw_cycle (x : answer) : Prop := exists n, In (RErr (ECycle n)) (fst x).
Lemma prog_bad assignable call fuel p : forall w seen, (exists n, In (RErr (ECycle n)) seen) -> all_bad answer saw_cycle (t_prog assignable call fuel p w seen).
Proof.
  induction p as [|o k IH]; intros w seen H; cbn [t_prog]; [constructor; exact H|]. apply op_bad. intros w' b. apply IH. destruct H as (n & H). exists n. right. exact H.
Qed.
Lemma prog_tame assignable call fuel p : forall w seen, tame answer saw_cycle (t_prog assignable call fuel p w seen).
Proof.
  induction p as [|o k IH]; intros w seen; cbn [t_prog]; [constructor|]. apply op_tame; [intros w' b; apply IH|]. intros w' d. apply prog_bad. exists d. left. reflexivity.
Qed.

(** ** The schedule *)
Fixpoint fsteps {X} (t : tree X) (d : list nat) : nat :=
  match t with
  | TRet _ => 0
  | TAsk q k => S (fsteps (k (zero_in d q)) d)
  | TMark q t' => S (fsteps t' (q :: d))
  end.
Fixpoint fiter {X} (n : nat) (t : tree X) (d : list nat) : tree X * list nat :=
  match n with O => (t, d) | S n' => let (t', d') := fstep t d in fiter n' t' d' end.
Lemma fiter_end {X} (t : tree X) : forall d n, fsteps t d <= n -> fst (fiter n t d) = TRet (fst (frun t d)).
Proof.
  induction t as [x|q k IH|q t IH]; intros d n H.
  - cbn. clear H. induction n; [reflexivity|exact IHn].
  - destruct n; [cbn in H; lia|]. cbn [fiter fstep frun]. apply IH. cbn in H. lia.
  - destruct n; [cbn in H; lia|]. cbn [fiter fstep frun]. apply IH. cbn in H. lia.
Qed.
Lemma fiter_ret {X} n : forall (t : tree X) d x, fst (fiter n t d) = TRet x -> x = fst (frun t d).
Proof.
  induction n as [|n IH]; intros t d x H.
  - cbn in H. subst t. reflexivity.
  - destruct t; cbn [fiter fstep frun] in *; apply IH in H; exact H.
Qed.
Lemma fiter_snoc {X} n : forall (t : tree X) d, fiter (S n) t d = let (t', d') := fiter n t d in fstep t' d'.
Proof.
  induction n as [|n IH]; intros t d; [cbn; destruct (fstep t d); reflexivity|]. cbn [fiter] in *. destruct (fstep t d) as [t' d']. apply IH.
Qed.
Definition nth_upd {A} : forall (l : list A) i x j, nth_error (upd l i x) j = if Nat.eqb i j then match nth_error l i with Some _ => Some x | None => None end else nth_error l j.
Proof.
  induction l as [|y l IH]; intros [|i] x [|j]; cbn; try reflexivity; [destruct (Nat.eqb i j); reflexivity|]. rewrite IH. reflexivity.
Qed.

Section Sched.
  Variable X : Type.
  Variable bad : X -> Prop.
  (** while no counter wraps *)
  Definition small (c : counters) (n : N) : Prop := forall q, (c q + n < two32)%N.
  Lemma step_small (ts : list (tree X)) c n r : small c (n + 1) ->
    small (snd (sched_step (ts, c) r)) n /\ forall q, (c q <= snd (sched_step (ts, c) r) q)%N.
  Proof.
    intros H. unfold sched_step. cbn [fst snd]. destruct (nth_error ts r) as [t|]; [|cbn [snd]; split; [intros q; specialize (H q); lia|intros q; lia]].
    destruct t as [x|q k|q t]; cbn [tstep snd].
    - split; [intros q; specialize (H q); lia|intros q; lia].
    - split; [intros q'; specialize (H q'); lia|intros q'; lia].
    - assert (E : ((c q + 1) mod two32 = c q + 1)%N) by (apply N.mod_small; specialize (H q); lia).
      split; intros q'; pose proof (H q') as Hq; unfold incr; destruct (Nat.eqb_spec q' q) as [->|]; rewrite ?E; lia.
  Qed.
  Lemma tame_iter n : forall (t : tree X) d, tame X bad t -> tame X bad (fst (fiter n t d)).
  Proof. induction n as [|n IH]; intros t d H; [exact H|]. inversion H; subst; cbn [fiter fstep]; apply IH; auto. Qed.
  Lemma frun_iter n : forall (t : tree X) d, frun (fst (fiter n t d)) (snd (fiter n t d)) = frun t d.
  Proof. induction n as [|n IH]; intros t d; [reflexivity|]. destruct t; cbn [fiter fstep frun]; apply IH. Qed.

  (** a request among others is always somewhere on the way it takes alone *)
  Lemma same_way (t : tree X) d r : tame X bad t -> ~ bad (fst (frun t d)) ->
    forall sched ts c n, nth_error ts r = Some (fst (fiter n t d)) -> (forall q, In q (snd (fiter n t d)) -> c q <> 0%N) -> small c (N.of_nat (List.length sched)) ->
      exists m, m = n + count_occ Nat.eq_dec sched r /\ nth_error (fst (run_all ts c sched)) r = Some (fst (fiter m t d)).
  Proof.
    intros Ht Hb. induction sched as [|r' sched IH]; intros ts c n Hn Hd Hs.
    - exists n. split; [cbn; lia|exact Hn].
    - change (run_all ts c (r' :: sched)) with (fold_left sched_step sched (sched_step (ts, c) r')).
      destruct (sched_step (ts, c) r') as [ts1 c1] eqn:E.
      assert (Hs' : small c (N.of_nat (List.length sched) + 1)) by (intros q; specialize (Hs q); cbn [List.length] in Hs; lia).
      assert (S1 : small c1 (N.of_nat (List.length sched))) by (change c1 with (snd (ts1, c1)); rewrite <- E; apply step_small; exact Hs').
      assert (S2 : forall q, (c q <= c1 q)%N) by (change c1 with (snd (ts1, c1)); rewrite <- E; apply (step_small ts c _ r' Hs')).
      assert (Mono : forall q, c q <> 0%N -> c1 q <> 0%N) by (intros q Hq; specialize (S2 q); lia).
      cbn [count_occ]. destruct (Nat.eq_dec r' r) as [->|Hr].
      + assert (N1 : nth_error ts1 r = Some (fst (fiter (S n) t d)) /\ forall q, In q (snd (fiter (S n) t d)) -> c1 q <> 0%N).
        { unfold sched_step in E. cbn [fst snd] in E. rewrite Hn in E. rewrite fiter_snoc.
          pose proof (tame_iter n t d Ht) as Tm. pose proof (frun_iter n t d) as Fr.
          destruct (fiter n t d) as [t1 d1]. cbn [fst snd] in *. destruct t1 as [x|q k|q t2]; cbn [tstep fstep] in *; injection E as <- <-; rewrite nth_upd, Nat.eqb_refl, Hn; cbn [fst snd].
          - split; [reflexivity|auto].
          - split; [|auto]. f_equal. destruct (N.eqb_spec (c q) 0) as [Z|Z].
            + unfold zero_in. destruct (existsb (Nat.eqb q) d1) eqn:Ex; [|reflexivity]. exfalso. apply existsb_exists in Ex as (q' & Hq & Eq). apply Nat.eqb_eq in Eq. subst q'. exact (Hd q Hq Z).
            + unfold zero_in. destruct (existsb (Nat.eqb q) d1) eqn:Ex; [reflexivity|]. cbn [negb]. inversion Tm as [| ? ? Ha Hor |]; subst. destruct Hor as [Hor|Hor]; [congruence|].
              exfalso. apply Hb. rewrite <- Fr. cbn [frun]. unfold zero_in. rewrite Ex. cbn [negb]. apply all_bad_run. exact Hor.
          - split; [reflexivity|]. intros q' [<-|Hq]; unfold incr; [rewrite Nat.eqb_refl|].
            + rewrite N.mod_small by (specialize (Hs' q); lia). lia.
            + destruct (Nat.eqb_spec q' q) as [->|]; [rewrite N.mod_small by (specialize (Hs' q); lia); lia|apply Hd; exact Hq]. }
        destruct N1 as [N1 N2]. destruct (IH ts1 c1 (S n) N1 N2 S1) as (m & Em & Hm). exists m. split; [lia|exact Hm].
      + assert (N1 : nth_error ts1 r = Some (fst (fiter n t d))).
        { unfold sched_step in E. cbn [fst snd] in E. destruct (nth_error ts r'); [|injection E as <- <-; exact Hn]. destruct (tstep t0 c) as [t' c']. injection E as <- <-. rewrite nth_upd. destruct (Nat.eqb_spec r' r); [congruence|exact Hn]. }
        destruct (IH ts1 c1 n N1 (fun q Hq => Mono q (Hd q Hq)) S1) as (m & Em & Hm). exists m. split; [lia|exact Hm].
  Qed.
End Sched.
