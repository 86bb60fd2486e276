(** Props_Apps: C176, the global filters of several applications. *)
From Coq Require Import List Ascii String Bool Arith Lia.
Import ListNotations.
From Verif Require Import GoStr GoTy RouterModel RouterTree SliceModel SliceFacts AppModel AppsModel.

(** ** Specification: every application has its own filters *)
Definition own (c : acall) (ls : list filters) : list filters :=
  match c with
  | CNew => ls ++ [[]]
  | CFilter i fs => match nth_error ls i with Some l => set_nth i (fappend l fs) ls | None => ls end
  | CReplace o n => match nth_error ls n with Some l => set_nth o l ls | None => ls end
  end.
Definition owns (cs : list acall) (ls : list filters) : list filters := fold_left (fun ls c => own c ls) cs ls.

(** calls on applications that exist ([n] of them so far), where an application whose filters were given away
    (those in [gone]) is not used again, unless it gets others *)
Fixpoint given_away_once (n : nat) (gone : list nat) (cs : list acall) : Prop :=
  match cs with
  | [] => True
  | CNew :: cs' => given_away_once (S n) gone cs'
  | CFilter i _ :: cs' => i < n /\ ~ In i gone /\ given_away_once n gone cs'
  | CReplace o w :: cs' => o < n /\ w < n /\ ~ In w gone /\ o <> w /\ given_away_once n (w :: remove Nat.eq_dec o gone) cs'
  end.

(** ** Proof *)
Lemma nth_set {B} (l : list B) n m b : nth_error (set_nth n b l) m = if Nat.eqb m n then option_map (fun _ => b) (nth_error l m) else nth_error l m.
Proof.
  revert n m. induction l as [|x l IH]; intros [|n] [|m]; cbn; try reflexivity; try (destruct (Nat.eqb m n); reflexivity). apply IH.
Qed.
Lemma nth_snoc {B} (l : list B) x m y : nth_error (l ++ [x]) m = Some y <-> nth_error l m = Some y \/ m = List.length l /\ y = x.
Proof.
  destruct (Nat.lt_trichotomy m (List.length l)) as [H|[->|H]].
  - rewrite nth_error_app1 by exact H. split; [auto|]. intros [E|(-> & _)]; [exact E|lia].
  - rewrite nth_error_app2, Nat.sub_diag by lia. cbn. split; [intros [= <-]; auto|]. intros [E|(_ & ->)]; [|reflexivity].
    assert (X : nth_error l (List.length l) <> None) by congruence. apply nth_error_Some in X. lia.
  - rewrite nth_error_app2 by lia. destruct (m - List.length l) as [|k] eqn:K; [lia|]. cbn. split; [destruct k; discriminate|].
    intros [E|(-> & _)]; [|lia]. assert (X : nth_error l m <> None) by congruence. apply nth_error_Some in X. lia.
Qed.

Section Proof.
  Variable grow : nat -> nat.
  Record ok (h : fheap) (ss : list slice) (ls : list filters) (gone : list nat) : Prop := {
    ok_len : List.length ss = List.length ls;
    ok_has : forall i s l, nth_error ss i = Some s -> nth_error ls i = Some l -> shas h s l;
    ok_sep : forall i j s t, nth_error ss i = Some s -> nth_error ss j = Some t -> i <> j -> ~ In i gone -> s_arr s = s_arr t ->
      In j gone /\ s_len t <= s_len s
  }.
  Lemma ok_some h ss ls gone i : ok h ss ls gone -> (exists s, nth_error ss i = Some s) <-> (exists l, nth_error ls i = Some l).
  Proof.
    intros H. pose proof (ok_len _ _ _ _ H) as L. split; intros (x & E); assert (X : i < List.length ss).
    - apply nth_error_Some. congruence.
    - rewrite L in X. apply nth_error_Some in X. destruct (nth_error ls i); [eauto|congruence].
    - rewrite L. apply nth_error_Some. congruence.
    - apply nth_error_Some in X. destruct (nth_error ss i); [eauto|congruence].
  Qed.
  Lemma shas_len h s l : shas h s l -> s_len s = List.length l.
  Proof.
    intros ((_ & W) & E). assert (X : List.length (sread h s) = s_len s) by (unfold sread; rewrite firstn_length; lia).
    rewrite <- X, E, map_length. reflexivity.
  Qed.
  Lemma fappend_len l vs : List.length l <= List.length (fappend l vs).
  Proof.
    revert l. induction vs as [|f vs IH]; intros l; [reflexivity|]. cbn. eapply Nat.le_trans; [|apply IH]. destruct (fmem f l); [lia|]. rewrite app_length. lia.
  Qed.
  Lemma lt_some {B} (l : list B) i x : nth_error l i = Some x -> i < List.length l.
  Proof. intros E. apply nth_error_Some. congruence. Qed.
  Lemma ok_arr h ss ls gone i s : ok h ss ls gone -> nth_error ss i = Some s -> s_arr s < List.length h.
  Proof.
    intros [L Has Sep] Ei. destruct (nth_error ls i) as [l|] eqn:El; [exact (proj1 (proj1 (Has i s l Ei El)))|].
    apply nth_error_None in El. apply lt_some in Ei. lia.
  Qed.
  Lemma new_ok h ss ls gone h1 s1 : ok h ss ls gone -> smake h [] 0 = (h1, s1) -> ok h1 (ss ++ [s1]) (ls ++ [[]]) gone.
  Proof.
    intros O E. destruct (smake_spec _ _ _ _ _ E) as (S1 & S2 & S3 & S4 & S5 & S6 & S7). pose proof (fun i s => ok_arr h ss ls gone i s O) as Lt. destruct O as [L Has Sep].
    split.
    - rewrite !app_length, L. reflexivity.
    - intros i s l Es El. apply nth_snoc in Es as [Es|(-> & ->)].
      + apply nth_snoc in El as [El|(-> & _)]; [|apply lt_some in Es; lia].
        destruct (Has i s l Es El) as (W & R). destruct (frame_read _ _ _ _ s (S6 (List.length h) 0) W ltac:(left; destruct W; lia)) as (R2 & W2). split; [exact W2|congruence].
      + apply nth_snoc in El as [El|(_ & ->)]; [apply lt_some in El; lia|]. split; [exact S4|exact S3].
    - intros i j s t Es Et Hne Hg Ea. apply nth_snoc in Es as [Es|(-> & ->)]; apply nth_snoc in Et as [Et|(-> & ->)].
      + eapply Sep; eassumption.
      + pose proof (Lt i s Es). lia.
      + pose proof (Lt j t Et). lia.
      + congruence.
  Qed.
  Lemma filter_ok h ss ls gone i fs s l h1 s1 : ok h ss ls gone -> nth_error ss i = Some s -> nth_error ls i = Some l -> ~ In i gone ->
    happend grow h s fs = (h1, s1) -> ok h1 (set_nth i s1 ss) (set_nth i (fappend l fs) ls) gone.
  Proof.
    intros O Es El Hg E. pose proof (fun i s => ok_arr h ss ls gone i s O) as Lt. destruct O as [L Has Sep].
    destruct (happend_spec grow fs h s l h1 s1 E (Has i s l Es El)) as (R & F & C).
    pose proof (shas_len _ _ _ R) as Ln. pose proof (shas_len _ _ _ (Has i s l Es El)) as Lo. pose proof (fappend_len l fs) as Lf.
    split.
    - rewrite !set_nth_length. exact L.
    - intros j t m. rewrite !nth_set. destruct (Nat.eqb_spec j i) as [-> |Hne].
      + rewrite Es, El. cbn. intros [= <-] [= <-]. exact R.
      + intros Et Em. destruct (Has j t m Et Em) as (W & Rt).
        destruct (frame_read _ _ _ _ t F W) as (R2 & W2); [|split; [exact W2|congruence]].
        destruct (Nat.eq_dec (s_arr t) (s_arr s)) as [Ea|]; [right|left; assumption].
        exact (proj2 (Sep i j s t Es Et ltac:(congruence) Hg (eq_sym Ea))).
    - intros j k t u. rewrite !nth_set. destruct (Nat.eqb_spec j i) as [-> |Hj], (Nat.eqb_spec k i) as [-> |Hk].
      + intros _ _ H. congruence.
      + rewrite Es. cbn. intros [= <-] Eu _ _ Ea. destruct C as [C|C].
        * rewrite C in Ea. destruct (Sep i k s u Es Eu ltac:(congruence) Hg Ea) as (G & Hl). split; [exact G|lia].
        * specialize (Lt k u Eu). lia.
      + rewrite Es. cbn. intros Et [= <-] _ Hgj Ea. destruct C as [C|C].
        * rewrite C in Ea. destruct (Sep j i t s Et Es Hj Hgj Ea) as (G & _). contradiction.
        * specialize (Lt j t Et). lia.
      + intros Et Eu Hne Hgj Ea. eapply Sep; eassumption.
  Qed.
  Lemma replace_ok h ss ls gone o n s l : ok h ss ls gone -> nth_error ss n = Some s -> nth_error ls n = Some l -> ~ In n gone -> o <> n ->
    ok h (set_nth o s ss) (set_nth o l ls) (n :: remove Nat.eq_dec o gone).
  Proof.
    intros [L Has Sep] Es El Hg Hon. split.
    - rewrite !set_nth_length. exact L.
    - intros j t m. rewrite !nth_set. destruct (Nat.eqb_spec j o) as [-> |Hne]; [|apply Has].
      destruct (nth_error ss o); [|discriminate]. destruct (nth_error ls o); [|discriminate]. cbn. intros [= <-] [= <-]. exact (Has n s l Es El).
    - intros j k t u. rewrite !nth_set. intros Et Eu Hjk Hj Ea.
      assert (Hjn : j <> n) by (intros ->; apply Hj; left; reflexivity).
      destruct (Nat.eqb_spec j o) as [-> |Hjo].
      + destruct (Nat.eqb_spec k o) as [-> |Hko]; [congruence|]. destruct (nth_error ss o); [|discriminate]. cbn in Et. injection Et as <-.
        destruct (Nat.eq_dec k n) as [-> |Hkn].
        * rewrite Es in Eu. injection Eu as <-. split; [left; reflexivity|lia].
        * destruct (Sep n k s u Es Eu ltac:(congruence) Hg Ea) as (G & Hl). split; [right; apply in_in_remove; assumption|exact Hl].
      + assert (Hjg : ~ In j gone) by (intros H; apply Hj; right; apply in_in_remove; assumption).
        destruct (Nat.eqb_spec k o) as [-> |Hko].
        * destruct (nth_error ss o); [|discriminate]. cbn in Eu. injection Eu as <-.
          destruct (Sep j n t s Et Es Hjn Hjg Ea) as (G & _). contradiction.
        * destruct (Sep j k t u Et Eu Hjk Hjg Ea) as (G & Hl). split; [|exact Hl].
          destruct (Nat.eq_dec k n) as [-> |Hkn]; [left; reflexivity|]. right. apply in_in_remove; assumption.
  Qed.
  Lemma calls_ok cs : forall h ss ls gone, ok h ss ls gone -> given_away_once (List.length ss) gone cs ->
    exists g, ok (fst (acalls_run grow cs (h, ss))) (snd (acalls_run grow cs (h, ss))) (owns cs ls) g.
  Proof.
    induction cs as [|c cs IH]; intros h ss ls gone O G; [exists gone; exact O|].
    unfold acalls_run, owns. cbn [fold_left]. destruct c as [|i fs|o n]; cbn [acall_run own given_away_once] in *.
    - destruct (smake h [] 0) as [h1 s1] eqn:E. apply (IH h1 (ss ++ [s1]) (ls ++ [[]]) gone); [eapply new_ok; eassumption|].
      rewrite app_length. cbn. rewrite Nat.add_comm. exact G.
    - destruct G as (Hi & Hg & G). pose proof (ok_len _ _ _ _ O) as L. destruct (nth_error ss i) as [s|] eqn:Es; [|apply nth_error_None in Es; lia].
      destruct (nth_error ls i) as [l|] eqn:El; [|apply nth_error_None in El; lia].
      destruct (happend grow h s fs) as [h1 s1] eqn:E. eapply IH; [eapply filter_ok; eassumption|]. rewrite set_nth_length. exact G.
    - destruct G as (Ho & Hn & Hg & Hne & G). pose proof (ok_len _ _ _ _ O) as L. destruct (nth_error ss n) as [s|] eqn:Es; [|apply nth_error_None in Es; lia].
      destruct (nth_error ls n) as [l|] eqn:El; [|apply nth_error_None in El; lia].
      eapply IH; [eapply replace_ok; eassumption|]. rewrite set_nth_length. exact G.
  Qed.
End Proof.
Lemma owns_lookup cs ls h ss g i : ok h ss (owns cs ls) g -> option_map (vals h) (nth_error ss i) = nth_error (owns cs ls) i.
Proof.
  intros O. pose proof (ok_len _ _ _ _ O) as L. destruct (nth_error ss i) as [s|] eqn:Es, (nth_error (owns cs ls) i) as [l|] eqn:El.
  - cbn. f_equal. apply vals_spec. exact (ok_has _ _ _ _ O i s l Es El).
  - apply nth_error_None in El. apply lt_some in Es. lia.
  - apply nth_error_None in Es. apply lt_some in El. lia.
  - reflexivity.
Qed.

(** ** C176 *)
(** As long as an application whose filters were given to another is not used again, every application
    runs exactly its own filters: those it was given with Filter, or got from another, each once and in order. *)
Theorem C176_own_filters grow cs : given_away_once 0 [] cs ->
  forall i, app_runs (acalls_run grow cs apps0) i = nth_error (owns cs []) i.
Proof.
  intros G i. assert (O : ok [] [] [] []).
  { split; [reflexivity|intros [|?] ? ? H; discriminate H|intros [|?] ? ? ? H; discriminate H]. }
  destruct (calls_ok grow cs [] [] [] [] O G) as (g & K). unfold app_runs. apply (owns_lookup _ _ _ _ _ _ K).
Qed.
(** without ReplaceFilters: the Filter calls of the application, one after the other *)
Fixpoint filter_calls (i : nat) (cs : list acall) : list filters :=
  match cs with [] => [] | CFilter j fs :: cs' => (if Nat.eqb j i then [fs] else []) ++ filter_calls i cs' | _ :: cs' => filter_calls i cs' end.
Fixpoint plain (n : nat) (cs : list acall) : Prop :=
  match cs with [] => True | CNew :: cs' => plain (S n) cs' | CFilter i _ :: cs' => i < n /\ plain n cs' | CReplace _ _ :: _ => False end.
Theorem C176_no_replacing grow cs i : plain 0 cs ->
  app_runs (acalls_run grow cs apps0) i = if Nat.ltb i (List.length (owns cs [])) then Some (app_filter_calls (filter_calls i cs)) else None.
Proof.
  intros P. assert (G : forall n, plain n cs -> given_away_once n [] cs).
  { clear P. induction cs as [|[|j fs|o w] cs IH]; cbn; intros n H; [exact H|apply IH; exact H| |contradiction].
    destruct H as (H1 & H2). split; [exact H1|]. split; [intros []|apply IH, H2]. }
  rewrite (C176_own_filters grow cs (G 0 P)). clear G.
  assert (K : forall cs n ls, plain n cs -> List.length ls = n ->
     nth_error (owns cs ls) i = if Nat.ltb i (List.length (owns cs ls)) then Some (fold_left fappend (filter_calls i cs) (nth i ls [])) else None).
  { clear P cs. induction cs as [|[|j fs|o w] cs IH]; intros n ls P L; cbn [plain] in P.
    - cbn [owns fold_left filter_calls]. destruct (Nat.ltb_spec i (List.length ls)) as [H|H]; [|apply nth_error_None; exact H]. apply nth_error_nth'. exact H.
    - change (owns (CNew :: cs) ls) with (owns cs (ls ++ [[]])). cbn [filter_calls]. rewrite (IH (S n) (ls ++ [[]]) P); [|rewrite app_length, L; cbn; lia].
      destruct (Nat.ltb i (List.length (owns cs (ls ++ [[]])))); [|reflexivity]. f_equal. f_equal.
      destruct (Nat.lt_ge_cases i (List.length ls)) as [H|H]; [rewrite app_nth1 by exact H; reflexivity|]. rewrite (nth_overflow ls) by exact H.
      rewrite app_nth2 by exact H. destruct (i - List.length ls) as [|[|k]]; reflexivity.
    - destruct P as (P1 & P2). change (owns (CFilter j fs :: cs) ls) with (owns cs (match nth_error ls j with Some l => set_nth j (fappend l fs) ls | None => ls end)).
      destruct (nth_error ls j) as [l|] eqn:El; [|apply nth_error_None in El; lia].
      rewrite (IH n (set_nth j (fappend l fs) ls) P2 ltac:(rewrite set_nth_length; exact L)). cbn [filter_calls].
      destruct (Nat.ltb i (List.length (owns cs (set_nth j (fappend l fs) ls)))); [|reflexivity]. f_equal.
      rewrite set_nth_nth. assert (Hj : j < List.length ls) by lia. apply Nat.ltb_lt in Hj. rewrite Hj, andb_true_r.
      destruct (Nat.eqb_spec i j) as [-> |Hne].
      + rewrite Nat.eqb_refl. cbn [app fold_left]. rewrite (nth_error_nth _ _ _ El). reflexivity.
      + destruct (Nat.eqb_spec j i); [congruence|]. reflexivity.
    - contradiction. }
  rewrite (K cs 0 [] P eq_refl). unfold app_filter_calls. destruct i; reflexivity.
Qed.
Lemma run_filter grow (h : fheap) ss i f s (h1 : fheap) s1 : nth_error ss i = Some s -> holds h s f = false -> sappend grow h s f = (h1, s1) ->
  acall_run grow (CFilter i [f]) (h, ss) = (h1, set_nth i s1 ss).
Proof. intros E F A. cbn [acall_run]. rewrite E. cbn [happend]. rewrite F, A. reflexivity. Qed.
Lemma run_replace grow (h : fheap) ss o n s : nth_error ss n = Some s -> acall_run grow (CReplace o n) (h, ss) = (h, set_nth o s ss).
Proof. intros E. cbn [acall_run]. rewrite E. reflexivity. Qed.
(** Otherwise the two share what is behind their filters: when there is room behind them, a filter added to the one
    is replaced by the next added to the other - the first application runs a filter it was never given, and not its own. *)
Theorem C176_shared_exact grow (h : fheap) ss o n L a b s :
  nth_error ss n = Some s -> o < List.length ss -> o <> n -> shas h s L -> ~ In a L -> ~ In b L ->
  let st := acalls_run grow [CReplace o n; CFilter o [a]; CFilter n [b]] (h, ss) in
  app_runs st n = Some (L ++ [b]) /\
  app_runs st o = Some (if Nat.ltb (s_len s) (List.length (arr h (s_arr s))) then L ++ [b] else L ++ [a]).
Proof.
  intros En Ho Hne Hs Ha Hb st.
  assert (Fm : forall x, ~ In x L -> fmem x L = false) by (intros x Hx; apply fmem_notIn; exact Hx).
  assert (Eo : exists so, nth_error ss o = Some so) by (apply nth_error_Some in Ho; destruct (nth_error ss o); [eauto|congruence]). destruct Eo as (so & Eo).
  unfold st, acalls_run. cbn [fold_left]. rewrite (run_replace grow h ss o n s En).
  destruct (sappend grow h s a) as [h1 s1] eqn:E1.
  rewrite (run_filter grow h (set_nth o s ss) o a s h1 s1); [|rewrite nth_set, Nat.eqb_refl, Eo; reflexivity|rewrite (holds_spec _ _ _ a Hs); apply Fm, Ha|exact E1].
  assert (N1 : nth_error (set_nth o s1 (set_nth o s ss)) n = Some s).
  { rewrite !nth_set. destruct (Nat.eqb_spec n o); [congruence|exact En]. }
  destruct (sappend_spec _ _ _ _ _ _ E1 (proj1 Hs)) as (R1 & W1 & F1 & L1 & C1).
  assert (Hs1 : shas h1 s L).
  { destruct (frame_read _ _ _ _ s F1 (proj1 Hs) ltac:(right; lia)) as (R & W). split; [exact W|]. rewrite R. exact (proj2 Hs). }
  destruct (sappend grow h1 s b) as [h2 s2] eqn:E2.
  rewrite (run_filter grow h1 _ n b s h2 s2 N1); [|rewrite (holds_spec _ _ _ b Hs1); apply Fm, Hb|exact E2].
  destruct (sappend_spec _ _ _ _ _ _ E2 (proj1 Hs1)) as (R2 & W2 & F2 & L2 & C2).
  unfold app_runs. cbn [fst snd]. split.
  - rewrite nth_set, Nat.eqb_refl, N1. cbn [option_map]. f_equal. apply vals_spec. split; [exact W2|]. rewrite R2, (proj2 Hs1), map_app. reflexivity.
  - rewrite nth_set. destruct (Nat.eqb_spec o n); [congruence|]. rewrite nth_set, Nat.eqb_refl, nth_set, Nat.eqb_refl, Eo. cbn [option_map]. f_equal.
    apply vals_spec.
    destruct C1 as [(A1 & B1 & D1)|(A1 & B1)].
    + apply Nat.ltb_lt in B1 as B1'. rewrite B1'.
      assert (X : s1 = s2). { destruct C2 as [(A2 & _)|(A2 & B2)].
        - destruct s1, s2. cbn in *. congruence.
        - destruct F1 as (_ & F1). destruct Hs as ((Wa & _) & _). destruct (F1 _ Wa) as (G & _). lia. }
      rewrite X. split; [exact W2|]. rewrite R2, (proj2 Hs1), map_app. reflexivity.
    + assert (B1' : Nat.ltb (s_len s) (List.length (arr h (s_arr s))) = false) by (apply Nat.ltb_ge; lia). rewrite B1'.
      destruct (frame_read _ _ _ _ s1 F2 W1) as (R & W); [left; destruct Hs as ((Wa & _) & _); lia|].
      split; [exact W|]. rewrite R, R1, (proj2 Hs), map_app. reflexivity.
Qed.
(** so with Go's growth of slices (doubling: 1, 2, 4) and three filters added one by one *)
Definition doubling (n : nat) : nat := Nat.max 1 (2 * n).
Theorem C176_independent_refuted :
  ~ (forall cs i, app_runs (acalls_run doubling cs apps0) i = nth_error (owns cs []) i).
Proof.
  intros H. specialize (H [CNew; CNew; CFilter 1 [1]; CFilter 1 [2]; CFilter 1 [3]; CReplace 0 1; CFilter 0 [4]; CFilter 1 [5]] 0).
  vm_compute in H. discriminate H.
Qed.
Example C176_example : let cs := [CNew; CNew; CFilter 0 [1]; CFilter 1 [1; 2]; CFilter 1 [2; 3]; CReplace 0 1; CFilter 0 [4; 1]] in
  given_away_once 0 [] cs /\ owns cs [] = [[1; 2; 3; 4]; [1; 2; 3]] /\
  app_runs (acalls_run doubling [CNew; CNew; CFilter 1 [1]; CFilter 1 [2]; CFilter 1 [3]; CReplace 0 1; CFilter 0 [4]; CFilter 1 [5]] apps0) 0 = Some [1; 2; 3; 5].
Proof. split; [|split; vm_compute; reflexivity]. cbn. repeat split; try lia; intuition discriminate. Qed.

Print Assumptions C176_own_filters.
Print Assumptions C176_no_replacing.
Print Assumptions C176_shared_exact.
Print Assumptions C176_independent_refuted.
