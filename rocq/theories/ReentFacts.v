(** ReentFacts: the history of an injector determines what it gives. *)
From Coq Require Import List Ascii String Bool Arith Lia.
Import ListNotations.
From Verif Require Import GoStr InjectModel InjectWorld ReentModel.

(** ** Reading a history (newest first) *)
Definition slot_eq (i : nat) (n : bytes) (j : nat) (m : bytes) : bool := Nat.eqb i j && beq n m.
Lemma slot_eq_true i n j m : slot_eq i n j m = true <-> i = j /\ n = m.
Proof. unfold slot_eq. rewrite andb_true_iff, Nat.eqb_eq. split; intros [H1 H2]; split; auto; [apply beq_true; exact H2|subst; apply beq_refl]. Qed.
(** the results injector [i] keeps for a slot *)
Fixpoint kept (i : nat) (n : bytes) (L : list ev) : option (list val) :=
  match L with
  | [] => None
  | EKeep j m o :: L' => if slot_eq i n j m then Some o else kept i n L'
  | EDrop j m :: L' | EProv j m _ :: L' => if slot_eq i n j m then None else kept i n L'
  | _ :: L' => kept i n L'
  end.
(** what was provided last *)
Fixpoint given (i : nat) (n : bytes) (L : list ev) : option pkind :=
  match L with
  | [] => None
  | EProv j m k :: L' => if slot_eq i n j m then Some k else given i n L'
  | _ :: L' => given i n L'
  end.
Fixpoint parent_of (i : nat) (L : list ev) : option nat :=
  match L with
  | [] => None
  | EParent j k :: L' => if Nat.eqb i j then Some k else parent_of i L'
  | _ :: L' => parent_of i L'
  end.
(** the nearest provider: the injector's own, else its parent's *)
Inductive nearest (L : list ev) (n : bytes) : nat -> pkind -> Prop :=
| near_here : forall i k, given i n L = Some k -> nearest L n i k
| near_up : forall i j k, given i n L = None -> parent_of i L = Some j -> nearest L n j k -> nearest L n i k.
(** what a lookup may give: what is kept, else the value provided nearest *)
Definition got (L : list ev) (i : nat) (n : bytes) (v : val) : Prop :=
  (exists o, kept i n L = Some (v :: o)) \/ (kept i n L = None /\ nearest L n i (KVal v)).
(** the dependencies were found one after the other, last just now *)
Inductive in_order (i : nat) : list bytes -> list val -> list ev -> list ev -> Prop :=
| io_nil : forall L, in_order i [] [] L L
| io_cons : forall d ds a args l L L1, in_order i ds args (EFound i d a :: l ++ L) L1 -> in_order i (d :: ds) (a :: args) L L1.

(** ** Histories that can happen *)
Inductive log_ok : list ev -> Prop :=
| lo_nil : log_ok []
| lo_start : forall i q L, log_ok L -> log_ok (EStart i q :: L)
| lo_found : forall i n v L, got L i n v -> log_ok L -> log_ok (EFound i n v :: L)
| lo_call : forall i q n f deps args L0 L, in_order i deps args (EStart i q :: L0) L -> log_ok L -> log_ok (ECall i q n f deps args :: L)
| lo_keep : forall i q n f deps args o L, In (ECall i q n f deps args) L -> log_ok L -> log_ok (EKeep i n o :: L)
| lo_drop : forall i n L, log_ok L -> log_ok (EDrop i n :: L)
| lo_prov : forall i n k L, log_ok L -> log_ok (EProv i n k :: L)
| lo_inv : forall i q L, (forall j, ~ In (EStart j q) L) -> log_ok L -> log_ok (EInv i q :: L)
| lo_parent : forall i k L, log_ok L -> log_ok (EParent i k :: L).

Record agree (w : rworld) : Prop := Agree {
  ag_cache : forall i n, aget (j_cache (jget (r_w w) i)) n = kept i n (r_log w);
  ag_values : forall i n, match aget (j_values (jget (r_w w) i)) n with
                          | Some q => given i n (r_log w) = Some (p_kind (info_of (r_w w) q)) /\ p_name (info_of (r_w w) q) = n /\ q < List.length (w_prov (r_w w))
                          | None => given i n (r_log w) = None
                          end;
  ag_parent : forall i, j_parent (jget (r_w w) i) = parent_of i (r_log w);
  ag_log : log_ok (r_log w);
  ag_bound : forall i q, In (EStart i q) (r_log w) -> q < List.length (w_prov (r_w w)) }.
Record ext (w w' : rworld) : Prop := Ext {
  ex_log : exists l, r_log w' = l ++ r_log w;
  ex_prov : exists ps, w_prov (r_w w') = w_prov (r_w w) ++ ps;
  ex_inj : List.length (w_inj (r_w w)) <= List.length (w_inj (r_w w')) }.
Lemma ext_refl w : ext w w.
Proof. split; [exists []; reflexivity|exists []; rewrite app_nil_r; reflexivity|lia]. Qed.
Lemma ext_trans a b c : ext a b -> ext b c -> ext a c.
Proof.
  intros [(l & L1) (p & P1) I1] [(l' & L2) (p' & P2) I2]. split.
  - exists (l' ++ l). rewrite L2, L1, app_assoc. reflexivity.
  - exists (p ++ p'). rewrite P2, P1, app_assoc. reflexivity.
  - lia.
Qed.
Lemma ext_info w w' q : ext w w' -> q < List.length (w_prov (r_w w)) -> info_of (r_w w') q = info_of (r_w w) q.
Proof. intros [_ (p & P) _] H. unfold info_of. rewrite P. apply app_nth1. exact H. Qed.
Lemma ext_prov_len w w' : ext w w' -> List.length (w_prov (r_w w)) <= List.length (w_prov (r_w w')).
Proof. intros [_ (p & P) _]. rewrite P, app_length. lia. Qed.
Lemma ext_log1 w e : ext w (log w e).
Proof. split; [exists [e]; reflexivity|exists []; cbn; rewrite app_nil_r; reflexivity|cbn; lia]. Qed.

(** *** small steps *)
(** an event that is about no slot *)
Definition idle (e : ev) : bool := match e with EKeep _ _ _ | EDrop _ _ | EProv _ _ _ | EParent _ _ => false | _ => true end.
Lemma agree_log w e : idle e = true -> log_ok (e :: r_log w) -> (forall i q, e = EStart i q -> q < List.length (w_prov (r_w w))) -> agree w -> agree (log w e).
Proof.
  intros Hi Ho Hb [C V P _ B]. split; cbn [log r_w r_log].
  - intros i n. rewrite C. destruct e; try discriminate Hi; reflexivity.
  - intros i n. specialize (V i n). replace (given i n (e :: r_log w)) with (given i n (r_log w)) by (destruct e; try discriminate Hi; reflexivity). exact V.
  - intros i. rewrite P. destruct e; try discriminate Hi; reflexivity.
  - exact Ho.
  - intros i q [->|H]; [eapply Hb; reflexivity|eapply B; exact H].
Qed.
Lemma agree_same_inj w w2 : w_inj w2 = w_inj (r_w w) -> (exists ps, w_prov w2 = w_prov (r_w w) ++ ps) -> agree w -> agree (RW w2 (r_log w)).
Proof.
  intros Ei (ps & Ep) [C V P O B]. assert (J : forall i, jget w2 i = jget (r_w w) i) by (intros i; unfold jget; rewrite Ei; reflexivity).
  split; cbn [r_w r_log]; intros; rewrite ?J; auto.
  - specialize (V i n). destruct (aget (j_values (jget (r_w w) i)) n) as [q|]; [|exact V]. destruct V as (V1 & V2 & V3).
    assert (I : info_of w2 q = info_of (r_w w) q) by (unfold info_of; rewrite Ep; apply app_nth1; exact V3). rewrite I, Ep, app_length. repeat split; auto. lia.
  - rewrite Ep, app_length. apply B in H. lia.
Qed.
Lemma ext_same w w2 : w_inj w2 = w_inj (r_w w) -> (exists ps, w_prov w2 = w_prov (r_w w) ++ ps) -> ext w (RW w2 (r_log w)).
Proof. intros Ei Ep. split; cbn; [exists []; reflexivity|exact Ep|rewrite Ei; lia]. Qed.
Lemma agree_mark w q : agree w -> agree (on_w w (fun w => wmark w q)).
Proof. apply agree_same_inj; [reflexivity|exists []; rewrite app_nil_r; reflexivity]. Qed.
Lemma ext_mark w q : ext w (on_w w (fun w => wmark w q)).
Proof. apply ext_same; [reflexivity|exists []; rewrite app_nil_r; reflexivity]. Qed.
Lemma agree_wcall w e : agree w -> agree (on_w w (fun w => wcall w e)).
Proof. apply agree_same_inj; [reflexivity|exists []; rewrite app_nil_r; reflexivity]. Qed.
Lemma ext_wcall w e : ext w (on_w w (fun w => wcall w e)).
Proof. apply ext_same; [reflexivity|exists []; rewrite app_nil_r; reflexivity]. Qed.

Lemma aget_set_eq {A} (l : list (bytes * A)) n m x : aget (aset l n x) m = if beq m n then Some x else aget l m.
Proof. destruct (beq m n) eqn:E; [apply beq_true in E; subst; apply aget_aset_same|apply beq_false in E; apply aget_aset_other; congruence]. Qed.
Lemma aget_del_eq {A} (l : list (bytes * A)) n m : aget (adel l n) m = if beq m n then None else aget l m.
Proof. destruct (beq m n) eqn:E; [apply beq_true in E; subst; apply aget_adel_same|apply beq_false in E; apply aget_adel_other; congruence]. Qed.
Lemma slot_other i n j m : i <> j -> slot_eq i n j m = false.
Proof. intros H. unfold slot_eq. apply Nat.eqb_neq in H. rewrite H. reflexivity. Qed.
Lemma slot_same i n m : slot_eq i n i m = beq n m.
Proof. unfold slot_eq. rewrite Nat.eqb_refl. reflexivity. Qed.

Lemma agree_keep w i n o : i < List.length (w_inj (r_w w)) -> (exists q f deps args, In (ECall i q n f deps args) (r_log w)) -> agree w ->
  agree (log (on_w w (fun w => kput w i n o)) (EKeep i n o)).
Proof.
  intros Hi (q & f & deps & args & Hc) [C V P O B].
  assert (J : forall j, jget (kput (r_w w) i n o) j = if Nat.eqb j i then Inj (j_values (jget (r_w w) i)) (aset (j_cache (jget (r_w w) i)) n o) (j_parent (jget (r_w w) i)) else jget (r_w w) j).
  { intros j. unfold kput. destruct (Nat.eqb_spec j i) as [->|H]; [apply jget_set_same; exact Hi|apply jget_set_other; congruence]. }
  split; cbn [log on_w r_w r_log kept given parent_of].
  - intros j m. rewrite J. destruct (Nat.eqb_spec j i) as [->|H]; [|rewrite slot_other by exact H; apply C]. cbn [j_cache]. rewrite aget_set_eq, slot_same. destruct (beq m n); [reflexivity|apply C].
  - intros j m. specialize (V j m). rewrite J. destruct (Nat.eqb_spec j i) as [->|H]; exact V.
  - intros j. rewrite J. destruct (Nat.eqb_spec j i) as [->|H]; apply P.
  - econstructor; eassumption.
  - intros j q' [X|X]; [discriminate|]. eapply B. exact X.
Qed.
Lemma ext_keep w i n o e : ext w (log (on_w w (fun w => kput w i n o)) e).
Proof. split; cbn; [exists [e]; reflexivity|exists []; rewrite app_nil_r; reflexivity|rewrite upd_length; lia]. Qed.
Lemma agree_drop w i n : i < List.length (w_inj (r_w w)) -> agree w -> agree (log (on_w w (fun w => drop_cache w i n)) (EDrop i n)).
Proof.
  intros Hi [C V P O B].
  assert (J : forall j, jget (drop_cache (r_w w) i n) j = if Nat.eqb j i then Inj (j_values (jget (r_w w) i)) (adel (j_cache (jget (r_w w) i)) n) (j_parent (jget (r_w w) i)) else jget (r_w w) j).
  { intros j. unfold drop_cache. destruct (Nat.eqb_spec j i) as [->|H]; [apply jget_set_same; exact Hi|apply jget_set_other; congruence]. }
  split; cbn [log on_w r_w r_log kept given parent_of].
  - intros j m. rewrite J. destruct (Nat.eqb_spec j i) as [->|H]; [|rewrite slot_other by exact H; apply C]. cbn [j_cache]. rewrite aget_del_eq, slot_same. destruct (beq m n); [reflexivity|apply C].
  - intros j m. specialize (V j m). rewrite J. destruct (Nat.eqb_spec j i) as [->|H]; exact V.
  - intros j. rewrite J. destruct (Nat.eqb_spec j i) as [->|H]; apply P.
  - constructor. exact O.
  - intros j q' [X|X]; [discriminate|]. eapply B. exact X.
Qed.
Lemma ext_drop w i n e : ext w (log (on_w w (fun w => drop_cache w i n)) e).
Proof. split; cbn; [exists [e]; reflexivity|exists []; rewrite app_nil_r; reflexivity|rewrite upd_length; lia]. Qed.
Lemma agree_parent w i k : i < List.length (w_inj (r_w w)) -> agree w ->
  agree (log (on_w w (fun w => set_inj w i (Inj (j_values (jget w i)) (j_cache (jget w i)) (Some k)))) (EParent i k)).
Proof.
  intros Hi [C V P O B].
  assert (J : forall j, jget (set_inj (r_w w) i (Inj (j_values (jget (r_w w) i)) (j_cache (jget (r_w w) i)) (Some k))) j = if Nat.eqb j i then Inj (j_values (jget (r_w w) i)) (j_cache (jget (r_w w) i)) (Some k) else jget (r_w w) j).
  { intros j. destruct (Nat.eqb_spec j i) as [->|H]; [apply jget_set_same; exact Hi|apply jget_set_other; congruence]. }
  split; cbn [log on_w r_w r_log kept given parent_of].
  - intros j m. rewrite J. destruct (Nat.eqb_spec j i) as [->|H]; apply C.
  - intros j m. specialize (V j m). rewrite J. destruct (Nat.eqb_spec j i) as [->|H]; exact V.
  - intros j. rewrite J. destruct (Nat.eqb_spec j i) as [->|H]; [reflexivity|apply P].
  - constructor. exact O.
  - intros j q' [X|X]; [discriminate|]. eapply B. exact X.
Qed.
Lemma ext_parent w i x e : ext w (log (on_w w (fun w => set_inj w i (x w))) e).
Proof. split; cbn; [exists [e]; reflexivity|exists []; rewrite app_nil_r; reflexivity|rewrite upd_length; lia]. Qed.
Lemma provide_eq w i p pi : new_provider p = Some pi -> fst (provide w i p) =
  set_inj (drop_cache (add_prov w pi) i (p_name pi)) i (Inj (aset (j_values (jget (drop_cache (add_prov w pi) i (p_name pi)) i)) (p_name pi) (List.length (w_prov w))) (j_cache (jget (drop_cache (add_prov w pi) i (p_name pi)) i)) (j_parent (jget (drop_cache (add_prov w pi) i (p_name pi)) i))).
Proof. intros E. unfold provide. rewrite E. reflexivity. Qed.
Lemma agree_provide w i p pi : i < List.length (w_inj (r_w w)) -> new_provider p = Some pi -> agree w ->
  agree (log (on_w w (fun w => fst (provide w i p))) (EProv i (p_name pi) (p_kind pi))) /\ ext w (log (on_w w (fun w => fst (provide w i p))) (EProv i (p_name pi) (p_kind pi))).
Proof.
  intros Hi E [C V P O B]. set (n := p_name pi) in *.
  assert (J : forall j, jget (fst (provide (r_w w) i p)) j = if Nat.eqb j i then Inj (aset (j_values (jget (r_w w) i)) n (List.length (w_prov (r_w w)))) (adel (j_cache (jget (r_w w) i)) n) (j_parent (jget (r_w w) i)) else jget (r_w w) j).
  { intros j. rewrite (provide_eq _ _ _ _ E). fold n.
    assert (Hd : jget (drop_cache (add_prov (r_w w) pi) i n) i = Inj (j_values (jget (r_w w) i)) (adel (j_cache (jget (r_w w) i)) n) (j_parent (jget (r_w w) i))).
    { unfold drop_cache. rewrite jget_set_same by exact Hi. reflexivity. }
    destruct (Nat.eqb_spec j i) as [->|H].
    - rewrite jget_set_same; [rewrite Hd; reflexivity|]. unfold drop_cache, set_inj. cbn [w_inj add_prov]. rewrite upd_length. exact Hi.
    - rewrite jget_set_other by congruence. unfold drop_cache. rewrite jget_set_other by congruence. reflexivity. }
  assert (Pr : w_prov (fst (provide (r_w w) i p)) = w_prov (r_w w) ++ [pi]) by (rewrite (provide_eq _ _ _ _ E); reflexivity).
  assert (In0 : List.length (w_inj (fst (provide (r_w w) i p))) = List.length (w_inj (r_w w))).
  { rewrite (provide_eq _ _ _ _ E). unfold drop_cache, set_inj. cbn [w_inj add_prov]. rewrite !upd_length. reflexivity. }
  assert (If : forall q, q < List.length (w_prov (r_w w)) -> info_of (fst (provide (r_w w) i p)) q = info_of (r_w w) q) by (intros q Hq; unfold info_of; rewrite Pr; apply app_nth1; exact Hq).
  assert (Iq : info_of (fst (provide (r_w w) i p)) (List.length (w_prov (r_w w))) = pi) by (unfold info_of; rewrite Pr, app_nth2, Nat.sub_diag by lia; reflexivity).
  split; [|split; cbn; [eexists [_]; reflexivity|exists [pi]; exact Pr|rewrite In0; lia]].
  split; cbn [log on_w r_w r_log kept given parent_of].
  - intros j m. rewrite J. destruct (Nat.eqb_spec j i) as [->|H]; [|rewrite slot_other by exact H; apply C]. cbn [j_cache]. rewrite aget_del_eq, slot_same. destruct (beq m n); [reflexivity|apply C].
  - intros j m. specialize (V j m). rewrite J. destruct (Nat.eqb_spec j i) as [->|H].
    + cbn [j_values]. rewrite aget_set_eq, slot_same. destruct (beq m n) eqn:Em.
      * rewrite Iq. apply beq_true in Em. subst m. repeat split. rewrite Pr, app_length. cbn. lia.
      * destruct (aget (j_values (jget (r_w w) i)) m) as [q|]; [|exact V]. destruct V as (V1 & V2 & V3). rewrite If by exact V3. repeat split; auto. rewrite Pr, app_length. lia.
    + rewrite slot_other by exact H. destruct (aget (j_values (jget (r_w w) j)) m) as [q|]; [|exact V]. destruct V as (V1 & V2 & V3). rewrite If by exact V3. repeat split; auto. rewrite Pr, app_length. lia.
  - intros j. rewrite J. destruct (Nat.eqb_spec j i) as [->|H]; apply P.
  - constructor. exact O.
  - intros j q' [X|X]; [discriminate|]. rewrite Pr, app_length. apply B in X. lia.
Qed.
Lemma agree_new w : agree w -> agree (on_w w (fun w => World (w_inj w ++ [inj0]) (w_prov w) (w_done w) (w_tr w))).
Proof.
  intros [C V P O B].
  assert (J : forall j, jget (World (w_inj (r_w w) ++ [inj0]) (w_prov (r_w w)) (w_done (r_w w)) (w_tr (r_w w))) j = jget (r_w w) j).
  { intros j. unfold jget. cbn [w_inj]. destruct (lt_dec j (List.length (w_inj (r_w w)))) as [H|H]; [apply app_nth1; exact H|].
    rewrite app_nth2 by lia. rewrite (nth_overflow (w_inj (r_w w))) by lia. destruct (j - List.length (w_inj (r_w w))) as [|[|k]]; reflexivity. }
  split; cbn [on_w r_w r_log]; intros; rewrite ?J; auto.
  - apply V.
  - eapply B. exact H.
Qed.
Lemma ext_new w : ext w (on_w w (fun w => World (w_inj w ++ [inj0]) (w_prov w) (w_done w) (w_tr w))).
Proof. split; cbn; [exists []; reflexivity|exists []; rewrite app_nil_r; reflexivity|rewrite app_length; lia]. Qed.

(** *** what is looked up *)
Lemma nearest_found w : agree w -> forall fuel i n q, look_up (r_w w) fuel i n = Found q ->
  nearest (r_log w) n i (p_kind (info_of (r_w w) q)) /\ p_name (info_of (r_w w) q) = n /\ q < List.length (w_prov (r_w w)).
Proof.
  intros [C V P O B]. induction fuel as [|f IH]; intros i n q H; [discriminate|]. cbn [look_up] in H. specialize (V i n).
  destruct (aget (j_values (jget (r_w w) i)) n) as [q'|].
  - injection H as ->. destruct V as (V1 & V2 & V3). repeat split; auto. constructor. exact V1.
  - rewrite P in H. destruct (parent_of i (r_log w)) as [k|] eqn:Ep; [|discriminate]. apply IH in H as (H1 & H2 & H3). repeat split; auto. eapply near_up; eassumption.
Qed.
(** the end of a lookup that gave something *)
Definition gives (w w' : rworld) (i q : nat) (v : val) : Prop :=
  (exists o, aget (j_cache (jget (r_w w') i)) (p_name (info_of (r_w w) q)) = Some (v :: o)) \/
  (p_kind (info_of (r_w w) q) = KVal v /\ aget (j_cache (jget (r_w w) i)) (p_name (info_of (r_w w) q)) = None /\ r_log w' = r_log w).
Definition inv_ok (iv : inv) : Prop := forall i q st w r st' w', i < List.length (w_inj (r_w w)) -> q < List.length (w_prov (r_w w)) -> agree w -> iv i q st w = (r, st', w') ->
  agree w' /\ ext w w' /\ forall v o, r = IOk (v :: o) -> gives w w' i q v.
Lemma gives_got w w' i n q v : agree w -> agree w' -> look_in (r_w w) i n = Found q -> gives w w' i q v -> got (r_log w') i n v.
Proof.
  intros A A' Hl G. destruct (nearest_found w A _ _ _ _ Hl) as (N1 & N2 & _). unfold gives in G. rewrite N2 in G. destruct G as [(o & G)|(G1 & G2 & G3)].
  - left. exists o. rewrite <- (ag_cache _ A'). exact G.
  - right. rewrite G3. split; [rewrite <- (ag_cache _ A); exact G2|]. rewrite <- G1. exact N1.
Qed.

Section Main.
  Variable assignable : rtype -> rtype -> bool.
  Variable call : list callev -> nat -> list val -> act.

  Lemma deps_ok iv : inv_ok iv -> forall deps i st w x st' w', i < List.length (w_inj (r_w w)) -> agree w -> r_deps iv i deps st w = (x, st', w') ->
    agree w' /\ ext w w' /\ forall args, x = DArgs args -> in_order i deps args (r_log w) (r_log w').
  Proof.
    intros Hiv. induction deps as [|d deps IH]; intros i st w x st' w' Hi A E.
    - cbn in E. injection E as <- <- <-. split; [exact A|]. split; [apply ext_refl|]. intros args H. injection H as <-. constructor.
    - cbn [r_deps] in E. destruct (look_in (r_w w) i d) as [q| |] eqn:El.
      2, 3: injection E as <- <- <-; split; [exact A|split; [apply ext_refl|discriminate]].
      destruct (negb _ && _); [injection E as <- <- <-; split; [exact A|split; [apply ext_refl|discriminate]]|].
      destruct (nearest_found w A _ _ _ _ El) as (_ & N2 & N3).
      destruct (iv i q st w) as [[r st1] w1] eqn:Ei. destruct (Hiv i q st w r st1 w1 Hi N3 A Ei) as (A1 & X1 & G1).
      destruct r as [[|v o]|e| |]; try (injection E as <- <- <-; split; [exact A1|split; [exact X1|discriminate]]).
      assert (A2 : agree (log w1 (EFound i d v))).
      { apply agree_log; [reflexivity| |discriminate|exact A1]. constructor; [|apply (ag_log _ A1)]. eapply (gives_got w w1); [exact A|exact A1|exact El|eapply G1; reflexivity]. }
      assert (Hi2 : i < List.length (w_inj (r_w (log w1 (EFound i d v))))) by (cbn; pose proof (ex_inj _ _ X1); lia).
      destruct (r_deps iv i deps st1 (log w1 (EFound i d v))) as [[y st2] w2] eqn:Er.
      destruct (IH i st1 _ _ _ _ Hi2 A2 Er) as (A3 & X3 & O3).
      assert (X : ext w w2) by (eapply ext_trans; [exact X1|]; eapply ext_trans; [apply ext_log1|exact X3]).
      destruct y as [l|r]; injection E as <- <- <-; (split; [exact A3|]; split; [exact X|]); [|discriminate].
      intros args H. injection H as <-. specialize (O3 l eq_refl). cbn [log r_log] in O3. destruct (ex_log _ _ X1) as (l1 & L1). rewrite L1 in O3. econstructor. exact O3.
  Qed.

  Section Ops.
    Variable iv : inv.
    Hypothesis Hiv : inv_ok iv.
    Lemma fields_ok (sub : list field -> list nat -> status -> rworld -> ares * status * rworld) i :
      (forall fs path st w a st' w', i < List.length (w_inj (r_w w)) -> agree w -> sub fs path st w = (a, st', w') -> agree w' /\ ext w w') ->
      forall fs n path st w a st' w', i < List.length (w_inj (r_w w)) -> agree w -> r_fields assignable iv i sub fs n path st w = (a, st', w') -> agree w' /\ ext w w'.
    Proof.
      intros Hs. induction fs as [|[settable tg ty sb] fs IH]; intros n path st w a st' w' Hi A E.
      - cbn in E. injection E as <- <- <-. split; [exact A|apply ext_refl].
      - cbn [r_fields] in E. destruct (negb settable); [eapply IH; eassumption|].
        assert (Cw : forall l st1 w1 (x : ares * status * rworld), agree w1 -> ext w w1 -> match r_fields assignable iv i sub fs (S n) path st1 w1 with (AppOk l', st2, w2) => (AppOk (l ++ l'), st2, w2) | x => x end = (a, st', w') -> agree w' /\ ext w w').
        { intros l st1 w1 _ A1 X1 E1. destruct (r_fields assignable iv i sub fs (S n) path st1 w1) as [[y st2] w2] eqn:Er.
          assert (Hi1 : i < List.length (w_inj (r_w w1))) by (pose proof (ex_inj _ _ X1); lia).
          destruct (IH _ _ _ _ _ _ _ Hi1 A1 Er) as (A2 & X2). destruct y; injection E1 as <- <- <-; (split; [exact A2|eapply ext_trans; eassumption]). }
        destruct tg as [| |label].
        + destruct sb as [fs1|]; [|eapply IH; eassumption]. destruct (sub fs1 (path ++ [n]) st w) as [[y st1] w1] eqn:Esub.
          destruct (Hs _ _ _ _ _ _ _ Hi A Esub) as (A1 & X1). destruct y; [eapply Cw; try eassumption; exact (AppOk [], [], w)|injection E as <- <- <-; auto].
        + eapply IH; eassumption.
        + destruct (look_in (r_w w) i (create_name (indirect ty) label)) as [q| |] eqn:El.
          2, 3: injection E as <- <- <-; split; [exact A|apply ext_refl].
          destruct (nearest_found w A _ _ _ _ El) as (_ & _ & N3). destruct (iv i q st w) as [[r st1] w1] eqn:Ei. destruct (Hiv _ _ _ _ _ _ _ Hi N3 A Ei) as (A1 & X1 & G1).
          assert (A2 : forall v o, r = IOk (v :: o) -> agree (log w1 (EFound i (create_name (indirect ty) label) v))).
          { intros v o ->. apply agree_log; [reflexivity| |discriminate|exact A1]. constructor; [|apply (ag_log _ A1)]. eapply (gives_got w w1); [exact A|exact A1|exact El|eapply G1; reflexivity]. }
          destruct r as [[|v o]|e| |]; try (injection E as <- <- <-; split; assumption).
          * eapply Cw; try eassumption. exact (AppOk [], [], w).
          * assert (X2 : ext w (log w1 (EFound i (create_name (indirect ty) label) v))) by (eapply ext_trans; [exact X1|apply ext_log1]). specialize (A2 v o eq_refl).
            destruct (assign_value assignable v ty); (eapply Cw; try eassumption; exact (AppOk [], [], w)).
    Qed.
    Lemma apply_ok i left : forall fs path st w a st' w', i < List.length (w_inj (r_w w)) -> agree w -> r_apply assignable iv i left fs path st w = (a, st', w') -> agree w' /\ ext w w'.
    Proof.
      induction left as [|l IH]; intros fs path st w a st' w' Hi A E; cbn [r_apply] in E.
      - eapply (fields_ok _ i); [|exact Hi|exact A|exact E]. intros fs1 p1 st1 w1 a1 st1' w1' _ A1 E1. injection E1 as <- <- <-. split; [exact A1|apply ext_refl].
      - eapply (fields_ok _ i); [exact IH|exact Hi|exact A|exact E].
    Qed.
    Lemma op_ok_ w o w' b : agree w -> r_op assignable iv w o = (w', b) -> agree w' /\ ext w w'.
    Proof.
      intros A E. assert (Same : forall b', (w, b') = (w', b) -> agree w' /\ ext w w') by (intros b' H; injection H as <- <-; split; [exact A|apply ext_refl]).
      destruct o as [|i k|i p|i t l|i p|i fs|i t l]; cbn [r_op] in E.
      - injection E as <- <-. split; [apply agree_new; exact A|apply ext_new].
      - destruct (Nat.ltb_spec i (List.length (w_inj (r_w w)))); [|eapply Same; exact E]. destruct (Nat.ltb k _); [|eapply Same; exact E]. injection E as <- <-. split; [apply agree_parent; assumption|apply (ext_parent w i (fun w => Inj (j_values (jget w i)) (j_cache (jget w i)) (Some k)))].
      - destruct (Nat.ltb_spec i (List.length (w_inj (r_w w)))); [|eapply Same; exact E]. destruct (new_provider p) as [pi|] eqn:Ep; [|eapply Same; exact E]. injection E as <- <-. apply (agree_provide w i p pi); assumption.
      - destruct (Nat.ltb_spec i (List.length (w_inj (r_w w)))) as [Hi|]; [|eapply Same; exact E]. destruct (look_in (r_w w) i (create_name (indirect t) l)) as [q| |] eqn:El; [|eapply Same; exact E|eapply Same; exact E].
        destruct (nearest_found w A _ _ _ _ El) as (_ & _ & N3). destruct (iv i q [] w) as [[r st1] w1] eqn:Ei. destruct (Hiv _ _ _ _ _ _ _ Hi N3 A Ei) as (A1 & X1 & G1).
        destruct r as [[|v o]|e| |]; try (injection E as <- <-; split; assumption).
        injection E as <- <-. split; [|eapply ext_trans; [exact X1|apply ext_log1]]. apply agree_log; [reflexivity| |discriminate|exact A1]. constructor; [|apply (ag_log _ A1)]. eapply (gives_got w w1); [exact A|exact A1|exact El|eapply G1; reflexivity].
      - destruct (Nat.ltb_spec i (List.length (w_inj (r_w w)))) as [Hi|]; [|eapply Same; exact E]. destruct (new_provider p) as [pi|] eqn:Ep; [|eapply Same; exact E].
        set (w0 := log (on_w w (fun w => add_prov w pi)) (EInv i (List.length (w_prov (r_w w))))) in *.
        assert (A0 : agree w0).
        { unfold w0. apply agree_log; [reflexivity| |discriminate|].
          - constructor; [|apply (ag_log _ A)]. intros j X. apply (ag_bound _ A) in X. lia.
          - apply (agree_same_inj w); [reflexivity|exists [pi]; reflexivity|exact A]. }
        assert (X0 : ext w w0) by (eapply ext_trans; [apply (ext_same w (add_prov (r_w w) pi)); [reflexivity|exists [pi]; reflexivity]|apply ext_log1]).
        destruct (iv i (List.length (w_prov (r_w w))) [] w0) as [[r st1] w1] eqn:Ei.
        destruct (Hiv i (List.length (w_prov (r_w w))) [] w0 r st1 w1 Hi ltac:(cbn; rewrite app_length; cbn; lia) A0 Ei) as (A1 & X1 & _).
        assert (X : ext w w1) by (eapply ext_trans; eassumption).
        destruct r as [out|e| |]; injection E as <- <-; try (split; assumption).
        split; [apply agree_drop; [pose proof (ex_inj _ _ X); lia|exact A1]|eapply ext_trans; [exact X|apply ext_drop]].
      - destruct (Nat.ltb_spec i (List.length (w_inj (r_w w)))) as [Hi|]; [|eapply Same; exact E]. destruct (r_apply assignable iv i (max_level - 1) fs [] [] w) as [[a st1] w1] eqn:Ea.
        destruct (apply_ok i _ _ _ _ _ _ _ _ Hi A Ea) as (A1 & X1). destruct a; injection E as <- <-; split; assumption.
      - destruct (Nat.ltb_spec i (List.length (w_inj (r_w w)))) as [Hi|]; eapply Same; exact E.
    Qed.
    Lemma act_ok a : forall w x w', agree w -> r_act assignable iv a w = (x, w') -> agree w' /\ ext w w'.
    Proof.
      induction a as [g| |o k IH]; intros w x w' A E; cbn [r_act] in E; try (injection E as <- <-; split; [exact A|apply ext_refl]).
      destruct (r_op assignable iv w o) as [w1 b] eqn:Eo. destruct (op_ok_ _ _ _ _ A Eo) as (A1 & X1).
      assert (Go : forall b', r_act assignable iv (k b') w1 = (x, w') -> agree w' /\ ext w w') by (intros b' E1; destruct (IH b' w1 x w' A1 E1) as (A2 & X2); split; [exact A2|eapply ext_trans; eassumption]).
      destruct b; try (eapply Go; exact E). injection E as <- <-. split; assumption.
    Qed.
  End Ops.

  Lemma in_order_in i deps args L0 L : in_order i deps args L0 L -> exists l, L = l ++ L0.
  Proof. induction 1 as [L|d ds a args l L L1 _ (m & ->)]; [exists []; reflexivity|]. exists (m ++ EFound i d a :: l). rewrite <- app_assoc. reflexivity. Qed.
  Lemma act_no_ok iv a : forall w o w', r_act assignable iv a w <> (inl (IOk o), w').
  Proof.
    induction a as [g| |o' k IH]; intros w o w' E; cbn [r_act] in E; try discriminate.
    destruct (r_op assignable iv w o') as [w4 b]. destruct b; try (exact (IH _ _ _ _ E)). discriminate.
  Qed.
  Lemma deps_no_ok iv i deps : forall st w o st' w', r_deps iv i deps st w <> (DFail (IOk o), st', w').
  Proof.
    induction deps as [|d l IHl]; intros st w o st' w' Ed; cbn [r_deps] in Ed; [discriminate|].
    destruct (look_in (r_w w) i d) as [q| |]; try discriminate. destruct (negb _ && _); try discriminate. destruct (iv i q st w) as [[r sx] wx]. destruct r as [[|v o']|e| |]; try discriminate.
    destruct (r_deps iv i l sx (log wx (EFound i d v))) as [[y sy] wy] eqn:Ey. destruct y as [|r]; try discriminate. injection Ed as -> -> ->. exact (IHl _ _ _ _ _ Ey).
  Qed.
  Lemma invoke_ok fuel : inv_ok (r_invoke assignable call fuel).
  Proof.
    induction fuel as [|f IH]; intros i q st w r st' w' Hi Hq A E; [cbn in E; injection E as <- <- <-; split; [exact A|split; [apply ext_refl|discriminate]]|].
    cbn [r_invoke] in E. destruct (aget (j_cache (jget (r_w w) i)) (p_name (info_of (r_w w) q))) as [o|] eqn:Ec.
    { injection E as <- <- <-. split; [exact A|]. split; [apply ext_refl|]. intros v o' H. injection H as ->. left. exists o'. exact Ec. }
    set (st0 := p_name (info_of (r_w w) q) :: st) in E.
    destruct (p_kind (info_of (r_w w) q)) as [v0|fn ins outs] eqn:Ek.
    { injection E as <- <- <-. split; [apply agree_mark; exact A|]. split; [apply ext_mark|]. intros v o H. injection H as <- <-. right. auto. }
    set (w0 := log w (EStart i q)) in E.
    assert (A0 : agree w0) by (apply agree_log; [reflexivity|constructor; apply (ag_log _ A)|intros i' q' H; injection H as <- <-; exact Hq|exact A]).
    assert (X0 : ext w w0) by apply ext_log1.
    destruct (r_deps (r_invoke assignable call f) i (p_deps (info_of (r_w w) q)) st0 w0) as [[x st1] w1] eqn:Ed.
    destruct (deps_ok _ IH _ _ _ w0 _ _ _ Hi A0 Ed) as (A1 & X1 & O1).
    assert (X01 : ext w w1) by (eapply ext_trans; eassumption).
    destruct x as [args|r0].
    - specialize (O1 args eq_refl). destruct (args_ok assignable args ins).
      + set (w2 := log w1 (ECall i q (p_name (info_of (r_w w) q)) fn (p_deps (info_of (r_w w) q)) args)) in E.
        assert (A2 : agree w2) by (apply agree_log; [reflexivity|eapply lo_call; [exact O1|apply (ag_log _ A1)]|discriminate|exact A1]).
        assert (X02 : ext w w2) by (eapply ext_trans; [exact X01|apply ext_log1]).
        destruct (r_act assignable (r_invoke assignable call f) (call (w_tr (r_w w1)) fn args) w2) as [y w3] eqn:Ea.
        destruct (act_ok _ IH _ _ _ _ A2 Ea) as (A3 & X3). assert (X : ext w w3) by (eapply ext_trans; eassumption).
        destruct y as [r0|g].
        * destruct r0 as [o|e| |].
          -- (* a function body never ends like this, but the model's type allows it *)
             injection E as <- <- <-. split; [apply agree_mark; exact A3|]. split; [eapply ext_trans; [exact X|apply ext_mark]|]. intros v o' H. exfalso. exact (act_no_ok _ _ _ _ _ Ea).
          -- injection E as <- <- <-. split; [exact A3|split; [exact X|discriminate]].
          -- injection E as <- <- <-. split; [apply agree_mark, agree_wcall, A3|]. split; [|discriminate]. eapply ext_trans; [exact X|]. eapply ext_trans; [apply ext_wcall|apply ext_mark].
          -- injection E as <- <- <-. split; [exact A3|split; [exact X|discriminate]].
        * set (w4 := on_w w3 (fun w => wcall w (Called i q fn args true))) in E.
          assert (A4 : agree w4) by (apply agree_wcall; exact A3). assert (X4 : ext w w4) by (eapply ext_trans; [exact X|apply ext_wcall]).
          destruct outs as [|t outs].
          -- cbn [results] in E. injection E as <- <- <-. split; [apply agree_mark; exact A4|]. split; [eapply ext_trans; [exact X4|apply ext_mark]|discriminate].
          -- injection E as <- <- <-. assert (Hi4 : i < List.length (w_inj (r_w w4))) by (pose proof (ex_inj _ _ X4); lia).
             split; [|split].
             ++ apply agree_mark, agree_keep; [exact Hi4| |exact A4]. exists q, fn, (p_deps (info_of (r_w w) q)), args. destruct (ex_log _ _ X3) as (l & L3). unfold w4, on_w. cbn [r_log]. rewrite L3. apply in_app_iff. right. left. reflexivity.
             ++ eapply ext_trans; [exact X4|]. eapply ext_trans; [apply ext_keep|apply ext_mark].
             ++ intros v o H. injection H as <- <-. left. eexists. cbn [on_w r_w log wmark]. change (jget (wmark ?a ?b) i) with (jget a i).
                change (jget (wmark (kput (r_w w4) i (p_name (info_of (r_w w) q)) (results g 0 (t :: outs))) q) i) with (jget (kput (r_w w4) i (p_name (info_of (r_w w) q)) (results g 0 (t :: outs))) i).
                unfold kput. rewrite jget_set_same by exact Hi4. cbn [j_cache]. rewrite aget_aset_same. reflexivity.
      + injection E as <- <- <-. split; [apply agree_mark; exact A1|]. split; [eapply ext_trans; [exact X01|apply ext_mark]|discriminate].
    - assert (Hx : forall o, r0 <> IOk o) by (intros o ->; exact (deps_no_ok _ _ _ _ _ _ _ _ Ed)).
      destruct r0 as [o|e| |]; [exfalso; exact (Hx o eq_refl)| | |]; injection E as <- <- <-.
      + split; [exact A1|split; [exact X01|discriminate]].
      + split; [apply agree_mark; exact A1|]. split; [eapply ext_trans; [exact X01|apply ext_mark]|discriminate].
      + split; [exact A1|split; [exact X01|discriminate]].
  Qed.
  Lemma exec_ok fuel w o : agree w -> agree (fst (r_exec assignable call fuel w o)) /\ ext w (fst (r_exec assignable call fuel w o)).
  Proof. intros A. unfold r_exec. destruct (r_op assignable (r_invoke assignable call fuel) w o) as [w' b] eqn:E. cbn [fst]. eapply op_ok_; [apply invoke_ok|exact A|exact E]. Qed.
End Main.
Lemma agree0 : agree (RW world0 []).
Proof.
  assert (J : forall i, jget world0 i = inj0) by (intros [|i]; reflexivity).
  constructor; cbn [r_w r_log]; intros; rewrite ?J; try reflexivity; try constructor. contradiction.
Qed.
