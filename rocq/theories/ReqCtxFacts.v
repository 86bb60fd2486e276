(** ReqCtxFacts: proofs about ReqCtxModel. *)
From Coq Require Import List Ascii String Bool Arith ZArith Lia Sorting.Sorted.
Import ListNotations.
From Verif Require Import GoStr RespModel RespSpec RespFacts ChainModel ChainFacts ReqCtxModel.

(** what happens: handlers started, oldest first; the router counts as the last
    handler of the app's chain *)
Definition vstarts_of (e : cev) : list (lvl * nat) :=
  match e with VStart l i _ _ => [(l, i)] | VRoute i _ => [(Outer, i)] | _ => [] end.
Definition vstarts (tr : list cev) : list (lvl * nat) := flat_map vstarts_of (rev tr).
Lemma vstarts_app a b : vstarts (a ++ b) = vstarts b ++ vstarts a.
Proof. unfold vstarts. now rewrite rev_app_distr, flat_map_app. Qed.
Lemma vstarts_one e : vstarts [e] = vstarts_of e.
Proof. unfold vstarts. cbn. apply app_nil_r. Qed.

(** order of starts *)
Definition before_ (a b : lvl * nat) : Prop :=
  match a, b with
  | (Outer, i), (Outer, j) => i < j
  | (Outer, _), (Inner, _) => True
  | (Inner, i), (Inner, j) => i < j
  | (Inner, _), (Outer, _) => False
  end.

Definition iin (s : rs) : nat := match r_ii s with None => 0 | Some j => S j end.

Section Facts.
  Variable accept : list wev -> bytes -> nat.
  Variable rv : bytes -> option val.
  Variable fs rfs : list (option handler).
  Variable ra : option handler.
  Notation n := (List.length fs).
  Notation m := (List.length rfs).
  Notation exec_ := (rexec accept rv).
  Notation run_ := (rrun accept rv fs rfs ra).

  Definition there (p : lvl * nat) : Prop :=
    match p with
    | (Outer, i) => (exists h, nth_error fs i = Some (Some h)) \/ i = n
    | (Inner, j) => (exists h, nth_error rfs j = Some (Some h)) \/ (j = m /\ ra <> None)
    end.
  Lemma there_outer i : there (Outer, i) -> i <= n.
  Proof. intros [(h & E)| ->]; [|lia]. assert (nth_error fs i <> None) by congruence. apply nth_error_Some in H. lia. Qed.
  Definition okev (e : cev) : Prop := match e with VStart l i c _ => c = l /\ there (l, i) /\ (l = Outer -> i < n) | VRoute i _ => i = n | _ => True end.

  Definition inv (s : rs) : Prop := r_ii s = None \/ n <= r_io s.
  Definition entry (l : lvl) (s : rs) : Prop := match l with Outer => r_ii s = None \/ n < r_io s | Inner => inv s end.
  Definition from (lo : nat * nat) (p : lvl * nat) : Prop := match p with (Outer, i) => fst lo <= i | (Inner, j) => snd lo <= S j end.
  Definition upto (s : rs) (p : lvl * nat) : Prop := match p with (Outer, i) => i <= r_io s | (Inner, j) => S j <= iin s end.
  Definition hi (s : rs) : nat * nat := (S (r_io s), S (iin s)).
  Definition lor (l : lvl) (s : rs) : nat * nat := match l with Outer => (r_io s, S (iin s)) | Inner => (S (r_io s), iin s) end.
  Definition G (lo : nat * nat) (s : rs) (o : out rs) : Prop :=
    inv (oval o) /\ r_io s <= r_io (oval o) /\ iin s <= iin (oval o) /\
    exists d, r_tr (oval o) = d ++ r_tr s /\ StronglySorted before_ (vstarts d) /\ Forall okev d /\
      Forall (fun p => from lo p /\ upto (oval o) p /\ there p) (vstarts d).

  Lemma G_same lo s s' o : oval o = s' -> inv s' -> r_io s' = r_io s -> iin s' = iin s -> (exists d, r_tr s' = d ++ r_tr s /\ vstarts d = [] /\ Forall okev d) -> G lo s o.
  Proof.
    intros Eo I A B (d & E & F & K). unfold G. rewrite Eo. split; [exact I|]. split; [lia|]. split; [lia|]. exists d. rewrite F. repeat split; auto; constructor.
  Qed.
  Lemma G_trans lo s x x' o : fst lo <= S (r_io s) -> snd lo <= S (iin s) ->
    r_tr x' = r_tr x -> r_io x <= r_io x' -> iin x <= iin x' ->
    G lo s (Done x) -> G (hi x) x' o -> G lo s o.
  Proof.
    intros L1 L2 ET E1 E2 (I & A & B & d & T & S1 & K & F) (I' & A' & B' & d' & T' & S' & K' & F'). cbn [oval] in *.
    split; [exact I'|]. split; [lia|]. split; [lia|]. exists (d' ++ d). rewrite T', ET, T, app_assoc. split; [reflexivity|].
    rewrite vstarts_app. rewrite Forall_forall in F, F'. split; [|split].
    - apply sorted_app; auto. intros p q Hp Hq. destruct (F _ Hp) as (P1 & P2 & P3), (F' _ Hq) as (Q1 & Q2 & Q3).
      destruct p as [[|] i], q as [[|] j]; cbn in *; auto; try lia.
      pose proof (there_outer j Q3). destruct I as [I|I]; [unfold iin in P2; rewrite I in P2; lia|lia].
    - apply Forall_app; auto.
    - apply Forall_app. split; apply Forall_forall; intros p Hp.
      + destruct (F _ Hp) as (P1 & P2 & P3). split; [exact P1|]. split; [|exact P3]. destruct p as [[|] i]; cbn in *; lia.
      + destruct (F' _ Hp) as (P1 & P2 & P3). split; [|auto]. destruct p as [[|] i]; cbn in *; lia.
  Qed.
  Lemma inv_incr l s : inv s -> inv (incr l s).
  Proof. unfold inv, incr. intros [H|H]; destruct l; cbn; try rewrite H; auto. Qed.
  Lemma entry_incr l s : inv s -> entry l (incr l s).
  Proof. unfold entry. destruct l; intros H; [|now apply inv_incr]. destruct H as [H|H]; cbn; [now left|right; lia]. Qed.
  Lemma incr_io l s : r_io s <= r_io (incr l s). Proof. destruct l; cbn; lia. Qed.
  Lemma incr_iin l s : iin s <= iin (incr l s). Proof. unfold iin. destruct l; cbn; destruct (r_ii s); cbn; lia. Qed.
  Lemma incr_tr l s : r_tr (incr l s) = r_tr s. Proof. destruct l; reflexivity. Qed.
  Lemma G_zero a s o : G (a, 0) s o -> G (a, 1) s o.
  Proof.
    intros (I & A & B & d & T & S1 & K & F). split; [exact I|]. split; [exact A|]. split; [exact B|]. exists d. repeat split; auto.
    eapply Forall_impl; [|exact F]. intros [[|] i] (P & Q); (split; [|exact Q]); cbn in *; lia.
  Qed.
  (** the run a Next starts *)
  Lemma lor_incr l s o : G (lor l (incr l s)) (incr l s) o -> G (hi s) (incr l s) o.
  Proof.
    destruct l; unfold hi, incr, lor, iin; cbn [r_io r_ii]; [exact (fun H => H)|].
    destruct (r_ii s) as [j|]; cbn [option_map]; [exact (fun H => H)|apply G_zero].
  Qed.
  Definition next_good (next : lvl -> rs -> out rs) : Prop := forall c s, entry c s -> G (lor c s) s (next c s).
  Lemma rdo_shape o s : r_io (oval (rdo accept o s)) = r_io s /\ r_ii (oval (rdo accept o s)) = r_ii s /\
    r_oc (oval (rdo accept o s)) = r_oc s /\ r_ic (oval (rdo accept o s)) = r_ic s /\ r_req (oval (rdo accept o s)) = r_req s /\ r_tr (oval (rdo accept o s)) = VOp o :: r_tr s.
  Proof. unfold rdo. destruct (run_op accept o (r_rw (rnote s (VOp o)))); cbn; auto 8. Qed.
  Lemma G_note lo s e o : vstarts_of e = [] -> okev e -> G lo (rnote s e) o -> G lo s o.
  Proof.
    intros E K (I & A & B & d & T & S1 & K' & F). split; [exact I|]. split; [exact A|]. split; [exact B|]. exists (d ++ [e]).
    rewrite T, <- app_assoc. split; [reflexivity|]. rewrite vstarts_app, vstarts_one, E. cbn [List.app]. repeat split; auto. apply Forall_app; auto.
  Qed.
  Lemma G_bind s x f : G (hi s) s x -> (forall a, inv a -> G (hi a) a (f a)) -> G (hi s) s (obind x f).
  Proof.
    intros H K. destruct x as [x|v x|x]; cbn [obind] in *; auto.
    eapply (G_trans (hi s) s x x); cbn [hi fst snd]; auto. apply K. apply H.
  Qed.
  Lemma rexec_good next : next_good next -> forall a s, inv s -> G (hi s) s (exec_ a next s).
  Proof.
    intros Hn. induction a as [|o k IH|k IH|k IH|c k IH|c k IH|c g k IH|g key k IH|k IH|g k IH|v|b IHb r IHr k IHk]; intros s I; cbn [rexec].
    - apply (G_same _ s s); auto. exists []. repeat split; constructor.
    - apply G_bind; [|exact IH]. destruct (rdo_shape o s) as (A & B & _ & _ & _ & T).
      apply (G_same _ s (oval (rdo accept o s))); auto.
      + unfold inv in *. rewrite A, B. exact I.
      + unfold iin. now rewrite B.
      + exists [VOp o]. rewrite T. repeat split; repeat constructor.
    - apply IH, I.
    - apply (G_note _ s (VFind (slot s))); [reflexivity|exact Logic.I|]. exact (IH (slot s) (rnote s (VFind (slot s))) I).
    - apply G_bind; [|exact IH]. pose proof (Hn c (incr c (rnote s (VNext c))) (entry_incr c (rnote s (VNext c)) I)) as H.
      apply lor_incr in H. change (hi (rnote s (VNext c))) with (hi s) in H. destruct H as (I' & A & B & d & T & S1 & K & F).
      split; [exact I'|]. split; [pose proof (incr_io c (rnote s (VNext c))); cbn in *; lia|].
      split; [pose proof (incr_iin c (rnote s (VNext c))); cbn in *; unfold iin in *; cbn in *; lia|].
      exists (d ++ [VNext c]). rewrite T, incr_tr. cbn [rnote r_tr]. rewrite <- app_assoc. split; [reflexivity|].
      rewrite vstarts_app, vstarts_one. cbn [vstarts_of List.app]. repeat split; auto. apply Forall_app; repeat constructor; auto.
    - apply (G_note _ s (VGet c (ctx_of s c))); [reflexivity|exact Logic.I|]. exact (IH (ctx_of s c) (rnote s (VGet c (ctx_of s c))) I).
    - apply (G_note _ s (VReplace c g)); [reflexivity|exact Logic.I|].
      assert (I2 : inv (replace c g (rnote s (VReplace c g)))) by (destruct c; exact I).
      specialize (IH _ I2). destruct c; exact IH.
    - destruct (value rv (ctx_of s) g key) as [r|].
      + apply (G_note _ s (VValue g key r)); [reflexivity|exact Logic.I|]. exact (IH r (rnote s (VValue g key r)) I).
      + apply (G_note _ s (VOverflow g key)); [reflexivity|exact Logic.I|]. apply (G_same _ _ (rnote s (VOverflow g key))); auto. exists []. repeat split; constructor.
    - apply (G_note _ s (VReq (r_req s))); [reflexivity|exact Logic.I|]. exact (IH (r_req s) (rnote s (VReq (r_req s))) I).
    - apply (G_note _ s (VProvideReq g)); [reflexivity|exact Logic.I|]. exact (IH (set_req g (rnote s (VProvideReq g))) I).
    - apply (G_same _ s s); auto. exists []. repeat split; constructor.
    - specialize (IHb s I). destruct (exec_ b next s) as [s'|v s'|s'].
      + eapply (G_trans (hi s) s s' s'); cbn [hi fst snd]; auto. apply IHk. apply IHb.
      + eapply (G_trans (hi s) s s' s'); cbn [hi fst snd]; auto. apply IHr. apply IHb.
      + exact IHb.
  Qed.
  (** one handler, with its start *)
  Lemma started l i e s o : inv s -> idx l s = Some i -> vstarts_of e = [(l, i)] -> okev e -> there (l, i) ->
    (l = Inner -> r_ii s <> None) ->
    G (hi s) (rnote s e) o -> G (lor l s) s o.
  Proof.
    intros I0 Hi E K Ht Hl (I & A & B & d & T & S1 & K' & F). split; [exact I|]. split; [exact A|]. split; [exact B|].
    exists (d ++ [e]). rewrite T. cbn [rnote r_tr]. rewrite <- app_assoc. split; [reflexivity|].
    rewrite vstarts_app, vstarts_one, E. cbn [List.app]. cbn [rnote r_io] in A. change (iin (rnote s e)) with (iin s) in B.
    assert (Hii : l = Inner -> iin s = S i) by (intros ->; cbn in Hi; unfold iin; now rewrite Hi).
    assert (Hio : l = Outer -> r_io s = i) by (intros ->; cbn in Hi; now injection Hi).
    split; [|split].
    - constructor; [exact S1|]. eapply Forall_impl; [|exact F]. intros [l' j] (P1 & P2 & P3). destruct l, l'; cbn in *; auto.
      + rewrite <- (Hio eq_refl). lia.
      + pose proof (there_outer j P3). destruct I0 as [I0|I0]; [now apply (Hl eq_refl)|lia].
      + rewrite (Hii eq_refl) in P1. lia.
    - apply Forall_app; repeat constructor; auto.
    - constructor.
      + split; [|split; [|exact Ht]].
        * destruct l; cbn; [rewrite (Hio eq_refl)|rewrite (Hii eq_refl)]; lia.
        * destruct l; cbn; [rewrite <- (Hio eq_refl)|rewrite <- (Hii eq_refl)]; lia.
      + eapply Forall_impl; [|exact F]. intros [[|] j] (P1 & P2); (split; [|exact P2]); destruct l; cbn in *; lia.
  Qed.
  Lemma lor_bounds l s : fst (lor l s) <= S (r_io s) /\ snd (lor l s) <= S (iin s).
  Proof. destruct l; cbn; lia. Qed.
  Lemma entry_inv l s : entry l s -> inv s.
  Proof. destruct l; cbn; unfold inv; [intros [H|H]; [auto|right; lia]|auto]. Qed.
  Lemma what_there l i : i <= clen fs rfs l -> what_at fs rfs ra l i <> Skip -> there (l, i).
  Proof.
    unfold what_at, clen. destruct l.
    - destruct (Nat.ltb_spec i n) as [H|H].
      + cbn. destruct (nth_error fs i) as [[h|]|]; try congruence. intros _ _. left. eauto.
      + intros L _. right. lia.
    - destruct (Nat.ltb_spec i m) as [H|H].
      + cbn. destruct (nth_error rfs i) as [[h|]|]; try congruence. intros _ _. left. eauto.
      + intros L X. right. split; [lia|]. destruct ra; congruence.
  Qed.
  Lemma what_route l i : what_at fs rfs ra l i = Route -> l = Outer /\ n <= i.
  Proof.
    unfold what_at. destruct l.
    - destruct (Nat.ltb_spec i n); [|auto]. destruct (nth_error fs i) as [[h|]|]; discriminate.
    - destruct (Nat.ltb i m); [destruct (nth_error rfs i) as [[h|]|]|destruct ra]; discriminate.
  Qed.
  Lemma what_handler i h : what_at fs rfs ra Outer i = Handler h -> i < n.
  Proof. unfold what_at. destruct (Nat.ltb_spec i n); [auto|discriminate]. Qed.
  Lemma rrun_good fuel : next_good (run_ fuel).
  Proof.
    induction fuel as [|f IH]; intros l s En; pose proof (entry_inv _ _ En) as I.
    { cbn [rrun]. apply (G_same _ s s); auto. exists []. repeat split; constructor. }
    cbn [rrun]. destruct (idx l s) as [i|] eqn:Ei.
    2:{ apply (G_same _ s s); auto. exists []. repeat split; constructor. }
    destruct (Nat.leb_spec i (clen fs rfs l)) as [Li|Li].
    2:{ apply (G_same _ s s); auto. exists []. repeat split; constructor. }
    assert (L2 : l = Inner -> r_ii s <> None) by (intros ->; cbn in Ei; congruence).
    assert (AFTER : forall o, G (lor l s) s o -> G (lor l s) s (obind o (fun s' => let s'' := incr l s' in if written (r_rw s'') then Done s'' else run_ f l s''))).
    { intros o H. destruct o as [x|v x|x]; cbn [obind]; auto. destruct (lor_bounds l s) as (B1 & B2).
      assert (Ix : inv x) by apply H. cbv zeta. destruct (written (r_rw (incr l x))).
      - apply (G_trans (lor l s) s x (incr l x)); auto using incr_tr, incr_io, incr_iin.
        apply (G_same _ (incr l x) (incr l x)); auto using inv_incr. exists []. repeat split; constructor.
      - apply (G_trans (lor l s) s x (incr l x)); auto using incr_tr, incr_io, incr_iin. apply lor_incr. apply IH. now apply entry_incr. }
    destruct (what_at fs rfs ra l i) as [|h|] eqn:Ew.
    - pose proof (IH l (incr l s) (entry_incr l s I)) as H. apply lor_incr in H.
      destruct H as (I' & A & B & d & T & S1 & K & F). split; [exact I'|].
      pose proof (incr_io l s). pose proof (incr_iin l s). split; [lia|]. split; [lia|]. exists d. rewrite T, incr_tr. repeat split; auto.
      eapply Forall_impl; [|exact F]. intros [[|] j] (P1 & P2); (split; [|exact P2]); destruct l; cbn in *; lia.
    - apply AFTER. assert (HT : there (l, i)) by (apply what_there; congruence).
      assert (OK : okev (VStart l i (slot s) (written (r_rw s)))).
      { split; [|split; [exact HT|]].
        - destruct l; cbn in Ei.
          + injection Ei as Ei. apply what_handler in Ew. destruct En as [En|En]; [unfold slot; now rewrite En|lia].
          + unfold slot. now rewrite Ei.
        - intros ->. eapply what_handler; eauto. }
      apply (started l i (VStart l i (slot s) (written (r_rw s)))); auto.
      change (hi s) with (hi (rnote s (VStart l i (slot s) (written (r_rw s))))). apply rexec_good; [exact IH|exact I].
    - apply AFTER. destruct (what_route _ _ Ew) as (-> & Hn). cbn in Ei, Li. injection Ei as Ei.
      assert (Ein : i = n) by lia. rewrite Ein. assert (EN : r_ii s = None) by (destruct En as [En|En]; [exact En|lia]).
      apply (started Outer n (VRoute n (written (r_rw s)))); auto; try reflexivity; [cbn; congruence|right; reflexivity|].
      set (s1 := rnote s (VRoute n (written (r_rw s)))).
      assert (X : inv (nest s1)) by (right; cbn; lia).
      pose proof (IH Inner (nest s1) X) as (I' & A & B & d & T & S1 & K & F).
      split; [exact I'|]. split; [exact A|]. split; [unfold iin at 1; cbn; rewrite EN; lia|]. exists d. rewrite T. repeat split; auto.
      eapply Forall_impl; [|exact F]. intros [[|] j] (P1 & P2); (split; [|exact P2]); cbn in *; [lia|]. unfold iin. rewrite EN. lia.
  Qed.
  Lemma entry0 : entry Outer rs0. Proof. now left. Qed.

  (** *** a request ends, except for stuck lookups and writes *)
  Definition rem (s : rs) : nat := (S n - r_io s) + match r_ii s with None => S (S m) | Some j => S m - j end.
  Definition dead (l : lvl) (s : rs) : Prop := match idx l s with None => True | Some i => clen fs rfs l < i end.
  Definition blame (s : rs) : Prop := exists e t, r_tr s = e :: t /\ ((exists g k, e = VOverflow g k) \/ (exists o, e = VOp o)).
  Definition E (s : rs) (o : out rs) : Prop := match o with Deadlock s' => blame s' | _ => True end.
  Definition next_ends (R : nat) (next : lvl -> rs -> out rs) : Prop := forall c s, entry c s -> rem s < R \/ dead c s -> E s (next c s).
  Lemma E_bind s x f : E s x -> (forall a, x = Done a -> E a (f a)) -> E s (obind x f).
  Proof. intros H K. destruct x as [x|v x|x]; cbn [obind]; auto. specialize (K x eq_refl). destruct (f x); auto. Qed.
  Lemma rem_mono s s' : r_io s <= r_io s' -> iin s <= iin s' -> rem s' <= rem s.
  Proof. unfold rem, iin. intros A B. destruct (r_ii s) as [j|], (r_ii s') as [j'|]; lia. Qed.
  Lemma rem_incr l s : dead l (incr l s) \/ rem (incr l s) < rem s.
  Proof.
    unfold dead, rem. destruct l; cbn [incr r_io r_ii idx clen option_map].
    - destruct (Nat.le_gt_cases (S (r_io s)) n); [right|left]; lia.
    - destruct (r_ii s) as [j|]; cbn [option_map]; [|auto]. destruct (Nat.le_gt_cases (S j) m); [right|left]; lia.
  Qed.
  Lemma rdo_E o s : E s (rdo accept o s).
  Proof.
    pose proof (rdo_shape o s) as (_ & _ & _ & _ & _ & T). destruct (rdo accept o s); cbn in *; auto. exists (VOp o), (r_tr s). split; [exact T|]. right. eauto.
  Qed.
  Lemma rexec_ends R next : next_good next -> next_ends R next -> forall a s, inv s -> rem s <= R -> E s (exec_ a next s).
  Proof.
    intros Hg Hn. induction a as [|o k IH|k IH|k IH|c k IH|c k IH|c g k IH|g key k IH|k IH|g k IH|v|b IHb r IHr k IHk]; intros s I Hr; cbn [rexec].
    - exact Logic.I.
    - apply E_bind; [apply rdo_E|]. intros a Ea. destruct (rdo_shape o s) as (A & B & _ & _ & _ & _). rewrite Ea in A, B. cbn in A, B.
      apply IH; [unfold inv in *; rewrite A, B; exact I|unfold rem in *; rewrite A, B; exact Hr].
    - apply IH; auto.
    - apply (IH (slot s) (rnote s (VFind (slot s)))); auto.
    - pose proof (Hg c (incr c (rnote s (VNext c))) (entry_incr c (rnote s (VNext c)) I)) as HG.
      pose proof (Hn c (incr c (rnote s (VNext c))) (entry_incr c (rnote s (VNext c)) I)) as HE.
      assert (X : rem (incr c (rnote s (VNext c))) < R \/ dead c (incr c (rnote s (VNext c)))).
      { destruct (rem_incr c (rnote s (VNext c))) as [D|D]; [auto|left]. change (rem (rnote s (VNext c))) with (rem s) in D. lia. }
      specialize (HE X). destruct (next c (incr c (rnote s (VNext c)))) as [x|v x|x]; cbn [obind]; auto.
      assert (K : E x (exec_ k next x)).
      { destruct HG as (Ix & A & B & _). apply IH; [exact Ix|]. cbn [oval] in *.
        pose proof (incr_io c (rnote s (VNext c))). pose proof (incr_iin c (rnote s (VNext c))).
        pose proof (rem_mono s x). unfold iin in *. cbn in *. lia. }
      destruct (exec_ k next x); auto.
    - apply (IH (ctx_of s c) (rnote s (VGet c (ctx_of s c)))); auto.
    - assert (K : E (replace c g (rnote s (VReplace c g))) (exec_ k next (replace c g (rnote s (VReplace c g))))) by (destruct c; apply IH; auto).
      destruct (exec_ k next _); auto.
    - destruct (value rv (ctx_of s) g key) as [r|].
      + apply (IH r (rnote s (VValue g key r))); auto.
      + exists (VOverflow g key), (r_tr s). split; [reflexivity|]. left. eauto.
    - apply (IH (r_req s) (rnote s (VReq (r_req s)))); auto.
    - apply (IH (set_req g (rnote s (VProvideReq g)))); auto.
    - exact Logic.I.
    - pose proof (rexec_good next Hg b s I) as HG. specialize (IHb s I Hr). destruct (exec_ b next s) as [s'|v s'|s'].
      + destruct HG as (Ix & A & B & _). cbn [oval] in *. pose proof (rem_mono s s' A B). apply (IHk s'); auto; lia.
      + destruct HG as (Ix & A & B & _). cbn [oval] in *. pose proof (rem_mono s s' A B). apply (IHr v s'); auto; lia.
      + exact IHb.
  Qed.
  Lemma rrun_dead f l s : dead l s -> E s (run_ (S f) l s).
  Proof.
    unfold dead. cbn [rrun]. destruct (idx l s) as [i|]; [|intros _; exact Logic.I]. intros H.
    destruct (Nat.leb_spec i (clen fs rfs l)); [lia|exact Logic.I].
  Qed.
  Lemma live_rem l s i : idx l s = Some i -> i <= clen fs rfs l -> 1 <= rem s.
  Proof. unfold rem. destruct l; cbn [idx clen]; [intros [= ->]; lia|intros ->; lia]. Qed.
  Lemma live_after l s s' i : idx l s = Some i -> i <= clen fs rfs l -> r_io s <= r_io s' -> iin s <= iin s' -> rem (incr l s') < rem s.
  Proof.
    unfold rem, iin. destruct l; cbn [idx clen incr r_io r_ii].
    - intros [= ->] L A B. destruct (r_ii s), (r_ii s'); lia.
    - intros Ei L A. rewrite Ei. destruct (r_ii s') as [j|]; cbn [option_map]; lia.
  Qed.
  Lemma rrun_ends fuel : forall c s, entry c s -> rem s < fuel -> E s (run_ fuel c s).
  Proof.
    assert (W : forall fuel, (forall c s, entry c s -> rem s < fuel -> E s (run_ fuel c s)) -> 1 <= fuel -> next_ends fuel (run_ fuel)).
    { intros k H K c s En [D|D]; [now apply H|]. destruct k as [|k]; [lia|]. now apply rrun_dead. }
    induction fuel as [|f IH]; intros l s En Hr; [lia|]. pose proof (entry_inv _ _ En) as I.
      cbn [rrun]. destruct (idx l s) as [i|] eqn:Ei; [|exact Logic.I].
      destruct (Nat.leb_spec i (clen fs rfs l)) as [Li|Li]; [|exact Logic.I].
      pose proof (live_rem _ _ _ Ei Li) as L1. assert (Hf : 1 <= f) by lia. pose proof (W f IH Hf) as NE.
      assert (AFTER : forall o, E s o -> G (lor l s) s o -> E s (obind o (fun s' => let s'' := incr l s' in if written (r_rw s'') then Done s'' else run_ f l s''))).
      { intros o H HG. destruct o as [x|v x|x]; cbn [obind]; auto. cbv zeta. destruct (written (r_rw (incr l x))); [exact Logic.I|].
        destruct HG as (Ix & A & B & _). cbn [oval] in *. pose proof (live_after l s x i Ei Li A B).
        assert (K : E (incr l x) (run_ f l (incr l x))) by (apply IH; [now apply entry_incr|lia]). destruct (run_ f l (incr l x)); auto. }
      assert (L2 : l = Inner -> r_ii s <> None) by (intros ->; cbn in Ei; congruence).
      destruct (what_at fs rfs ra l i) as [|h|] eqn:Ew.
      - assert (K : E (incr l s) (run_ f l (incr l s))).
        { apply IH; [now apply entry_incr|]. pose proof (live_after l s s i Ei Li). lia. }
        destruct (run_ f l (incr l s)); auto.
      - set (s1 := rnote s (VStart l i (slot s) (written (r_rw s)))).
        assert (GH : G (hi s1) s1 (exec_ (h (slot s)) (run_ f) s1)) by (apply rexec_good; [apply rrun_good|exact I]).
        apply AFTER.
        + assert (K : E s1 (exec_ (h (slot s)) (run_ f) s1)).
          { apply (rexec_ends f); [apply rrun_good|exact NE|exact I|]. change (rem s1) with (rem s). lia. }
          destruct (exec_ (h (slot s)) (run_ f) s1); auto.
        + apply (started l i (VStart l i (slot s) (written (r_rw s)))); auto; [|apply what_there; congruence].
          split; [|split; [apply what_there; congruence|intros ->; eapply what_handler; eauto]].
          destruct l; cbn in Ei.
          * injection Ei as Ei. apply what_handler in Ew. destruct En as [En|En]; [unfold slot; now rewrite En|lia].
          * unfold slot. now rewrite Ei.
      - destruct (what_route _ _ Ew) as (-> & Hn). cbn in Ei, Li. injection Ei as Ei.
        assert (Ein : i = n) by lia. rewrite Ein. assert (EN : r_ii s = None) by (destruct En as [En|En]; [exact En|lia]).
        set (s1 := rnote s (VRoute n (written (r_rw s)))).
        assert (X : inv (nest s1)) by (right; cbn; lia).
        pose proof (rrun_good f Inner (nest s1) X) as HG.
        assert (K : E (nest s1) (run_ f Inner (nest s1))).
        { apply IH; [exact X|]. unfold rem in *. cbn [nest s1 rnote r_io r_ii]. rewrite EN in Hr. lia. }
        destruct (run_ f Inner (nest s1)) as [x|v x|x]; cbn [obind]; auto.
        destruct (written (r_rw (incr Outer x))); [exact Logic.I|].
        destruct HG as (Ix & A & B & _). cbn [oval] in *.
        assert (K2 : E (incr Outer x) (run_ f Outer (incr Outer x))).
        { apply IH; [now apply entry_incr|]. assert (Q : rem (incr Outer x) < rem s); [|lia].
          apply (live_after Outer s x n); cbn; auto; [now rewrite Ei, Ein|]. unfold iin. rewrite EN. lia. }
        destruct (run_ f Outer (incr Outer x)); auto.
  Qed.
End Facts.
