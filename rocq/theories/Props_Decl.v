(** Props_Decl: C158-C160, what the declaring functions accept. *)
From Coq Require Import List Ascii String Bool Arith Lia.
Import ListNotations.
From Verif Require Import GoStr GoTy RouterModel Props_Params DeclModel.

(** ** C158: Router *)
(** no white space at either end *)
Definition trimmed (p : bytes) : Prop := forall u t, blanks u -> u <> [] -> p <> u ++ t /\ p <> t ++ u.
Lemma blanks_app a b : blanks a -> blanks b -> blanks (a ++ b).
Proof. intros A B. apply blanks_units in A as (ua & A & ->). apply blanks_units in B as (ub & B & ->). apply blanks_units. exists (ua ++ ub). rewrite concat_app. split; [apply Forall_app; auto|reflexivity]. Qed.
Lemma ltrim_done pats : pats_ok pats = true -> forall n s, List.length s <= n -> ltrim_step pats (ltrim_fuel pats n s) = None.
Proof.
  intros Hp. induction n as [|n IH]; intros s L; [destruct s; [reflexivity|cbn in L; lia]|]. cbn [ltrim_fuel]. destruct (ltrim_step pats s) as [t|] eqn:E; [|exact E].
  apply IH. apply ltrim_step_unit in E as (u & Hu & ->). rewrite app_length in L. assert (1 <= List.length u); [|lia]. pose proof (units_length pats [u] Hp ltac:(constructor; [exact Hu|constructor])) as X. cbn in X. rewrite app_nil_r in X. exact X.
Qed.
Lemma unit_rev u : unit_of uspaces u -> unit_of (map (@rev ascii) uspaces) (rev u).
Proof. intros H. assert (F : Forall (unit_of uspaces) [u]) by (constructor; [exact H|constructor]). apply units_rev in F. cbn in F. inversion F; subst. assumption. Qed.
Lemma snoc_case {A} (l : list A) : l = [] \/ exists l' x, l = l' ++ [x].
Proof. destruct l as [|a l]; [left; reflexivity|]. right. destruct (exists_last (l := a :: l) ltac:(discriminate)) as (l' & x & E). exists l', x. exact E. Qed.
(** strings.TrimSpace *)
Lemma trim_space_parts s : exists l r, s = l ++ trim_space s ++ r /\ blanks l /\ blanks r /\ trimmed (trim_space s).
Proof.
  unfold trim_space, trim_left_space, trim_right_space. set (t := ltrim_fuel uspaces (List.length s) s). set (q := ltrim_fuel (map (@rev ascii) uspaces) (List.length t) (rev t)).
  destruct (ltrim_fuel_units uspaces (List.length s) s) as (us & Hu & Es). fold t in Es. destruct (ltrim_fuel_units (map (@rev ascii) uspaces) (List.length t) (rev t)) as (ur & Hr & Et). fold q in Et.
  apply (f_equal (@rev ascii)) in Et. rewrite rev_involutive, rev_app_distr in Et. exists (List.concat us), (rev (List.concat ur)). split; [rewrite Es at 1; rewrite Et at 1; reflexivity|]. split; [apply blanks_units; exists us; auto|].
  assert (Hb : blanks (rev (List.concat ur))).
  { rewrite concat_rev_units. apply blanks_units. exists (rev (map (@rev ascii) ur)). split; [|reflexivity]. apply units_rev. assert (X : rev (map (@rev ascii) (rev (map (@rev ascii) ur))) = ur); [|rewrite X; exact Hr].
    rewrite map_rev, map_map, rev_involutive. rewrite <- (map_id ur) at 2. apply map_ext. intros x. apply rev_involutive. }
  split; [exact Hb|]. intros u x Bu Nu. apply blanks_units in Bu as (uu & Huu & ->). split; intros E.
  - destruct uu as [|u1 uu]; [apply Nu; reflexivity|]. inversion Huu as [|? ? U1 _]. pose proof (ltrim_done uspaces pats_ok_u (List.length s) s (Nat.le_refl _)) as D. fold t in D. rewrite Et, E in D. cbn [List.concat] in D. rewrite <- !app_assoc in D. rewrite (ltrim_unit uspaces u1 _ pats_ok_u U1) in D. discriminate.
  - destruct (snoc_case uu) as [Z|(uu' & u1 & Z)]; rewrite Z in *; clear uu Z; [apply Nu; reflexivity|]. apply Forall_app in Huu as (_ & U1). inversion U1 as [|? ? U2 _]. pose proof (ltrim_done (map (@rev ascii) uspaces) pats_ok_r (List.length t) (rev t)) as D. rewrite rev_length in D. specialize (D (Nat.le_refl _)). fold q in D.
    apply (f_equal (@rev ascii)) in E. rewrite rev_involutive in E. rewrite E in D. rewrite concat_app in D. cbn [List.concat] in D. rewrite app_nil_r, !rev_app_distr, <- app_assoc in D. rewrite (ltrim_unit _ (rev u1) _ pats_ok_r (unit_rev _ U2)) in D. discriminate.
Qed.
Lemma trim_blank s : blanks s -> trim_space s = [].
Proof.
  intros B. apply blanks_units in B as (us & Hu & ->). unfold trim_space, trim_left_space. pose proof (ltrim_units uspaces pats_ok_u us (List.length (List.concat us)) [] Hu (units_length _ _ pats_ok_u Hu) Logic.I) as X. rewrite app_nil_r in X. rewrite X. reflexivity.
Qed.
(** Router panics exactly for paths that are empty or / , white space around aside *)
Theorem C158_router_panics : forall path hs, mk_router path hs = Panic <->
  exists l w r, path = l ++ w ++ r /\ blanks l /\ blanks r /\ (w = [] \/ w = bs "/").
Proof.
  intros path hs. unfold mk_router. split.
  - destruct (trim_space_parts path) as (l & r & E & Bl & Br & _). destruct (is_nil (trim_space path)) eqn:En; cbn [orb].
    + intros _. destruct (trim_space path); [|discriminate]. exists l, [], r. auto.
    + destruct (beq_spec (trim_space path) (bs "/")) as [E1|_]; [|discriminate]. intros _. rewrite E1 in E. exists l, (bs "/"), r. auto.
  - intros (l & w & r & -> & Bl & Br & [->| ->]).
    + rewrite (trim_blank (l ++ [] ++ r)) by (apply blanks_app; assumption). reflexivity.
    + assert (T : trim_space (l ++ bs "/" ++ r) = bs "/") by (apply trim_space_word; [reflexivity|discriminate|exists l, r; auto]). rewrite T. reflexivity.
Qed.
(** every other path is declared without the white space around it *)
Theorem C158_router_path : forall path hs h, mk_router path hs = Ok h ->
  exists l p r, path = l ++ p ++ r /\ blanks l /\ blanks r /\ trimmed p /\ p <> [] /\ p <> bs "/" /\ h = HRouter p hs.
Proof.
  intros path hs h H. unfold mk_router in H. destruct (trim_space_parts path) as (l & r & E & Bl & Br & T). exists l, (trim_space path), r. split; [exact E|]. split; [exact Bl|]. split; [exact Br|]. split; [exact T|].
  destruct (is_nil (trim_space path)) eqn:En; [discriminate|]. cbn [orb] in H. destruct (beq_spec (trim_space path) (bs "/")) as [E1|N]; [discriminate|]. injection H as <-. split; [intros X; rewrite X in En; discriminate|]. split; [exact N|reflexivity].
Qed.
Example C158_case : mk_router (bs " / ") [] = Panic /\ mk_router (bs " /users ") [HOther] = Ok (HRouter (bs "/users") [HOther]).
Proof. split; vm_compute; reflexivity. Qed.

(** ** C159: controllers *)
Inductive points_to : vty -> vty -> Prop :=
| pt_struct : forall ms, points_to (VStruct ms) (VStruct ms)
| pt_func : forall ms, points_to (VFunc ms) (VFunc ms)
| pt_other : points_to VOther VOther
| pt_ptr : forall t b, points_to t b -> points_to (VPtr t) b.
Definition has (ms : list (bytes * sig)) (a : bytes) : Prop := In a (map fst ms).
(** the names given by Action, in order *)
Definition actions (opts : list mopt) : list bytes := flat_map (fun o => match o with OAction a => [a] | _ => [] end) opts.
(** what the declaring functions take: a function, without an Action; a struct, or pointers to one, whose methods
    contain every Action and, without one, the method's own or, for Any, Any; and, for All only, a pointer to a
    function type without a method All *)
Inductive acceptable (m : meth) (opts : list mopt) : vty -> Prop :=
| acc_func : forall ms, Forall (fun a => a = []) (actions opts) -> acceptable m opts (VFunc ms)
| acc_struct : forall t ms, points_to t (VStruct ms) -> Forall (has ms) (actions opts) ->
    (actions opts = [] -> m <> bs "*" -> has ms (if beq m (bs "**") then bs "Any" else meth_action m)) -> acceptable m opts t
| acc_ptr_func : forall t ms, points_to t (VFunc ms) -> Forall (fun a => a = []) (actions opts) -> m = bs "*" -> ~ has ms (bs "All") -> acceptable m opts (VPtr t).
(** methods have names *)
Definition named (t : vty) : Prop := forall ms, points_to t (VStruct ms) -> ~ has ms [].
Definition known_methods : list meth := map bs ["GET"; "POST"; "PUT"; "HEAD"; "DELETE"; "OPTIONS"; "PATCH"; "TRACE"; "CONNECT"; "*"; "**"]%string.

Lemma points_indirect t : points_to t (indirect_ty t).
Proof. induction t; cbn; try constructor; assumption. Qed.
Lemma points_fun t b : points_to t b -> b = indirect_ty t.
Proof. induction 1; cbn; auto. Qed.
Lemma has_aget ms a : has ms a <-> exists s, aget ms a = Some s.
Proof.
  unfold has. induction ms as [|(k & s) ms IH]; cbn; [split; [intros []|intros (s & X); discriminate]|]. destruct (beq_spec k a) as [->|N].
  - split; [intros _; exists s; reflexivity|auto].
  - rewrite <- IH. split; [intros [X|X]; [congruence|exact X]|auto].
Qed.
Definition takes (k : ckind) (ms : list (bytes * sig)) (a : bytes) : Prop := match k with KStruct => has ms a | _ => a = [] end.
Lemma ensure_takes c a : (exists c', ensure_action c a = Ok c') <-> takes (c_kind c) (c_methods c) a.
Proof.
  unfold ensure_action, takes. destruct (c_kind c).
  - destruct a; cbn; split; intros H; [reflexivity|exists c; reflexivity|destruct H; discriminate|discriminate].
  - destruct a; cbn; split; intros H; [reflexivity|exists c; reflexivity|destruct H; discriminate|discriminate].
  - rewrite has_aget. destruct (aget (c_methods c) a) as [s|]; split; intros H; [exists s; reflexivity|eexists; reflexivity|destruct H; discriminate|destruct H; discriminate].
Qed.
Lemma ensure_same c a c' : ensure_action c a = Ok c' -> c_kind c' = c_kind c /\ c_methods c' = c_methods c.
Proof. unfold ensure_action. destruct (c_kind c) eqn:E; [destruct (is_nil a); [intros X; injection X as <-; auto|discriminate]..|]. destruct (aget (c_methods c) a); [|discriminate]. intros X. injection X as <-. cbn. auto. Qed.
Lemma calc_opts_ok opts : forall a,
  match calc_opts a opts with
  | Ok a' => Forall (takes (c_kind (ma_ctl a)) (c_methods (ma_ctl a))) (actions opts) /\ c_kind (ma_ctl a') = c_kind (ma_ctl a) /\ c_methods (ma_ctl a') = c_methods (ma_ctl a) /\ ma_action a' = last (actions opts) (ma_action a)
  | Panic => ~ Forall (takes (c_kind (ma_ctl a)) (c_methods (ma_ctl a))) (actions opts)
  end.
Proof.
  induction opts as [|o opts IH]; intros a; cbn [calc_opts]; [cbn; auto|]. destruct o as [n|fs|fs]; [|exact (IH (MArgs (ma_ctl a) (ma_action a) (fappend (ma_filters a) fs) (ma_exempts a)))|exact (IH (MArgs (ma_ctl a) (ma_action a) (ma_filters a) (fappend (ma_exempts a) fs)))].
  pose proof (ensure_takes (ma_ctl a) n) as T. destruct (ensure_action (ma_ctl a) n) as [c|] eqn:E; cbn [RouterModel.bind].
  - destruct (ensure_same _ _ _ E) as (K & M). specialize (IH (MArgs c n (ma_filters a) (ma_exempts a))). cbn [ma_ctl ma_action] in IH. rewrite K, M in IH. destruct (calc_opts _ opts) as [a'|].
    + destruct IH as (I1 & I2 & I3 & I4). cbn [actions flat_map]. split; [constructor; [apply T; exists c; reflexivity|exact I1]|]. split; [exact I2|]. split; [exact I3|]. rewrite I4. fold (actions opts). destruct (actions opts); [reflexivity|]. cbn [List.app last]. clear. generalize dependent b. induction l as [|x l IH]; intros b; [reflexivity|]. cbn [last] in *. destruct l; [reflexivity|]. apply (IH x).
    + intros X. cbn [actions flat_map List.app] in X. inversion X; subst. apply IH. assumption.
  - intros X. cbn [actions flat_map List.app] in X. inversion X as [|? ? X1 _]; subst. apply T in X1 as (c & X1). discriminate.
Qed.
Lemma last_in {A} (l : list A) d : l <> [] -> In (last l d) l.
Proof. induction l as [|x l IH]; intros H; [congruence|]. destruct l as [|y l]; [left; reflexivity|]. right. apply IH. discriminate. Qed.

Theorem C159_accepted : forall id t m opts fs, In m known_methods -> named t ->
  (exists ra, declare id (Some t) m opts fs = Ok ra) <-> acceptable m opts t.
Proof.
  intros id t m opts fs Hm Nt. unfold declare, make_controller. pose proof (points_indirect t) as P. 
  assert (Star : is_all m = true <-> m = bs "*") by (unfold is_all; destruct (beq_spec m mALL); split; congruence || auto).
  assert (Star2 : is_any m = true <-> m = bs "**") by (unfold is_any; destruct (beq_spec m mANY); split; congruence || auto).
  assert (MA : meth_action m <> []) by (cbn in Hm; repeat (destruct Hm as [<-|Hm]; [discriminate|]); destruct Hm).
  assert (Only : forall b, points_to t b -> b = indirect_ty t) by (intros b; apply points_fun).
  assert (Run : forall k ms, let c := Ctl id k ms [] in (exists ra, mk_raction fs c m opts = Ok ra) <->
     Forall (takes k ms) (actions opts) /\
     let act := last (actions opts) [] in
     (act = [] -> k <> KFunc -> m <> bs "*" -> m <> bs "**" -> takes k ms (meth_action m)) /\
     (act = [] -> k <> KFunc -> m = bs "*" -> has ms (bs "All") -> takes k ms (bs "All")) /\
     (act = [] -> k <> KFunc -> m = bs "**" -> takes k ms (bs "Any")) /\
     (act <> [] -> m = bs "*" \/ m = bs "**" -> takes k ms act)).
  { intros k ms c. unfold mk_raction, calc_method. pose proof (calc_opts_ok opts (MArgs c [] [] [])) as C. destruct (calc_opts (MArgs c [] [] []) opts) as [a'|]; cbn [RouterModel.bind]; cbn [ma_ctl c_kind c_methods ma_action] in C.
    2:{ split; [intros (ra & X); discriminate|intros (X & _); contradiction]. }
    destruct C as (C1 & C2 & C3 & C4). cbn [c c_kind c_methods] in C1, C2, C3. set (act := last (actions opts) []) in *. cbv zeta.
    assert (EN : forall c' x, c_kind c' = k -> c_methods c' = ms -> (exists c'', ensure_action c' x = Ok c'') <-> takes k ms x) by (intros c' x K M; rewrite ensure_takes, K, M; reflexivity).
    assert (IF : is_func (ma_ctl a') = match k with KFunc => true | _ => false end) by (unfold is_func; rewrite C2; reflexivity).
    assert (AE : action_exists (ma_ctl a') (bs "All") = true <-> has ms (bs "All")) by (unfold action_exists; rewrite C3, has_aget; destruct (aget ms (bs "All")); split; intros X; [eexists; reflexivity|reflexivity|discriminate|destruct X; discriminate]).
    rewrite C4, IF. destruct (is_nil act) eqn:En.
    - assert (act = []) as Ea by (destruct act; [reflexivity|discriminate]). rewrite Ea in *. clear Ea En.
      destruct k; cbn [andb negb].
      + cbn [RouterModel.bind]. unfold finish. rewrite C4, IF. cbn [is_nil andb negb]. split.
        * intros _. split; [exact C1|]. repeat split; intros; congruence.
        * intros _. destruct (is_all m); [cbn; eexists; reflexivity|]. destruct (is_any m); cbn; eexists; reflexivity.
      + destruct (is_all m) eqn:A; cbn [andb negb RouterModel.bind].
        * assert (m = bs "*") as -> by (apply Star; reflexivity). unfold finish. rewrite C4, IF, A. cbn [is_nil andb negb]. destruct (action_exists (ma_ctl a') (bs "All")) eqn:X.
          -- change (is_nil (bs "All")) with false. cbv iota. pose proof (EN (ma_ctl a') (bs "All") C2 C3) as E. split.
             ++ intros (ra & H). exfalso. destruct (ensure_action (ma_ctl a') (bs "All")) as [c'|]; [|discriminate]. assert (Y : exists c'', Ok c' = Ok c'') by (eexists; reflexivity). apply E in Y. discriminate Y.
             ++ intros (_ & _ & H & _). clear X. pose proof (proj1 AE eq_refl) as X. specialize (H eq_refl ltac:(discriminate) eq_refl X). discriminate H.
          -- cbn. split; [|intros _; eexists; reflexivity]. intros _. split; [exact C1|]. split; [congruence|]. split; [intros _ _ _ X'; apply AE in X'; congruence|]. split; [intros _ _ X'; discriminate X'|congruence].
        * destruct (is_any m) eqn:B; cbn [andb negb RouterModel.bind].
          -- assert (m = bs "**") as -> by (apply Star2; reflexivity). unfold finish. rewrite C4, IF, A, B. cbn [is_nil andb negb]. change (is_nil (bs "Any")) with false. cbv iota. pose proof (EN (ma_ctl a') (bs "Any") C2 C3) as E. split.
             ++ intros (ra & H). exfalso. destruct (ensure_action (ma_ctl a') (bs "Any")) as [c'|]; [|discriminate]. assert (Y : exists c'', Ok c' = Ok c'') by (eexists; reflexivity). apply E in Y. discriminate Y.
             ++ intros (_ & _ & _ & H & _). specialize (H eq_refl ltac:(discriminate) eq_refl). discriminate H.
          -- pose proof (EN (ma_ctl a') (meth_action m) C2 C3) as E. assert (M1 : m <> bs "*") by (intros X; apply Star in X; congruence). assert (M2 : m <> bs "**") by (intros X; apply Star2 in X; congruence). split.
             ++ intros (ra & H). exfalso. destruct (ensure_action (ma_ctl a') (meth_action m)) as [c'|]; [|discriminate]. assert (Y : exists c'', Ok c' = Ok c'') by (eexists; reflexivity). apply E in Y. exact (MA Y).
             ++ intros (_ & H & _). specialize (H eq_refl ltac:(discriminate) M1 M2). exfalso. exact (MA H).
      + destruct (is_all m) eqn:A; cbn [andb negb RouterModel.bind].
        * assert (m = bs "*") as -> by (apply Star; reflexivity). unfold finish. rewrite C4, IF, A. cbn [is_nil andb negb]. split.
          -- intros _. split; [exact C1|]. split; [congruence|]. split; [intros _ _ _ X; exact X|]. split; [intros _ _ X; discriminate X|congruence].
          -- intros _. destruct (action_exists (ma_ctl a') (bs "All")) eqn:X; [|cbn; eexists; reflexivity]. change (is_nil (bs "All")) with false. cbv iota. clear X. pose proof (proj1 AE eq_refl) as X. destruct (proj2 (EN (ma_ctl a') (bs "All") C2 C3) X) as (c' & ->). cbn. eexists. reflexivity.
        * destruct (is_any m) eqn:B; cbn [andb negb RouterModel.bind].
          -- assert (m = bs "**") as -> by (apply Star2; reflexivity). unfold finish. rewrite C4, IF, A, B. cbn [is_nil andb negb]. change (is_nil (bs "Any")) with false. cbv iota. pose proof (EN (ma_ctl a') (bs "Any") C2 C3) as E. split.
             ++ intros (ra & H). split; [exact C1|]. split; [congruence|]. split; [intros _ _ X; discriminate X|]. split; [|congruence]. intros _ _ _. apply E. destruct (ensure_action (ma_ctl a') (bs "Any")) as [c'|]; [eexists; reflexivity|discriminate].
             ++ intros (_ & _ & _ & H & _). specialize (H eq_refl ltac:(discriminate) eq_refl). apply E in H as (c' & ->). cbn. eexists. reflexivity.
          -- pose proof (EN (ma_ctl a') (meth_action m) C2 C3) as E. assert (M1 : m <> bs "*") by (intros X; apply Star in X; congruence). assert (M2 : m <> bs "**") by (intros X; apply Star2 in X; congruence). split.
             ++ intros (ra & H). split; [exact C1|]. split; [|repeat split; congruence]. intros _ _ _ _. apply E. destruct (ensure_action (ma_ctl a') (meth_action m)) as [c'|]; [eexists; reflexivity|discriminate].
             ++ intros (_ & H & _). specialize (H eq_refl ltac:(discriminate) M1 M2). apply E in H as (c' & ->). cbn [RouterModel.bind]. unfold finish. rewrite A, B. eexists. reflexivity.
    - assert (act <> []) as Ea by (intros X; rewrite X in En; discriminate). cbn [andb RouterModel.bind]. unfold finish. rewrite C4, IF, En. cbn [andb]. rewrite ?En. pose proof (EN (ma_ctl a') act C2 C3) as E. split.
      + intros (ra & H). split; [exact C1|]. repeat split; try congruence. intros _ Hs. apply E. destruct (is_all m); [destruct (ensure_action (ma_ctl a') act); [eexists; reflexivity|discriminate]|]. destruct (is_any m); [destruct (ensure_action (ma_ctl a') act); [eexists; reflexivity|discriminate]|].
        destruct Hs as [Hs|Hs]; [apply Star in Hs|apply Star2 in Hs]; discriminate.
      + intros (_ & _ & _ & _ & H). specialize (H Ea). destruct (is_all m) eqn:A; [|destruct (is_any m) eqn:B]; [destruct (proj2 E (H (or_introl (proj1 Star eq_refl)))) as (c' & ->); eexists; reflexivity|destruct (proj2 E (H (or_intror (proj1 Star2 eq_refl)))) as (c' & ->); eexists; reflexivity|eexists; reflexivity]. }
  assert (LastN : forall P : bytes -> Prop, Forall P (actions opts) -> last (actions opts) [] <> [] -> P (last (actions opts) [])).
  { intros Q F H. rewrite Forall_forall in F. apply F, last_in. intros X. rewrite X in H. apply H. reflexivity. }
  assert (AllNil : Forall (fun a : bytes => a = []) (actions opts) -> last (actions opts) [] = []).
  { intros F. destruct (actions opts) as [|x l] eqn:E; [reflexivity|]. rewrite <- E in *. rewrite Forall_forall in F. apply F, last_in. rewrite E. discriminate. }
  destruct (indirect_ty t) as [ms|ms| |] eqn:I; cbn [RouterModel.bind].
  - rewrite Run. clear Run. assert (NS : ~ has ms []) by (apply Nt; exact P).
    assert (LE : Forall (has ms) (actions opts) -> last (actions opts) [] = [] -> actions opts = []).
    { intros F L. destruct (actions opts) as [|x l] eqn:E; [reflexivity|]. exfalso. apply NS. rewrite <- L at 1. rewrite Forall_forall in F. apply F, last_in. discriminate. }
    split.
    + intros (F & H1 & H2 & H3 & H4). cbn [takes] in *. apply (acc_struct m opts t ms P F). intros A NM. rewrite A in *. cbn [last] in *. destruct (beq_spec m (bs "**")) as [->|N2]; [apply H3; [reflexivity|discriminate|reflexivity]|apply H1; [reflexivity|discriminate|exact NM|exact N2]].
    + intros A. inversion A as [ms0 F|t0 ms0 P0 F H|t0 ms0 P0 F HM HA]; subst.
      * discriminate I.
      * apply Only in P0. try rewrite I in P0. injection P0 as ->. cbn [takes]. split; [exact F|]. split; [|split; [|split]].
        -- intros L _ N1 N2. specialize (H (LE F L) N1). destruct (beq_spec m (bs "**")); [congruence|exact H].
        -- auto.
        -- intros L _ ->. specialize (H (LE F L) ltac:(discriminate)). rewrite beq_refl in H. exact H.
        -- intros L _. exact (LastN _ F L).
      * apply pt_ptr in P0. apply Only in P0. try rewrite I in P0. discriminate P0.
  - rewrite Run. clear Run. split.
    + intros (F & H1 & H2 & H3 & H4). destruct t as [ms0|ms0|t0|]; try discriminate I.
      * apply acc_func. exact F.
      * cbn [takes] in *. pose proof (AllNil F) as L. rewrite L in *. assert (NM : m = bs "*").
        { destruct (beq_spec m (bs "*")) as [X|N1]; [exact X|]. exfalso. destruct (beq_spec m (bs "**")) as [X|N2]; [specialize (H3 eq_refl ltac:(discriminate) X); discriminate H3|]. specialize (H1 eq_refl ltac:(discriminate) N1 N2). exact (MA H1). }
        apply (acc_ptr_func m opts t0 ms); [|exact F|exact NM|].
        -- inversion P; subst. assumption.
        -- intros HA. specialize (H2 eq_refl ltac:(discriminate) NM HA). discriminate H2.
    + intros A. inversion A as [ms0 F|t0 ms0 P0 F H|t0 ms0 P0 F HM HA]; subst.
      * pose proof (AllNil F) as L. rewrite L. cbn [takes]. split; [exact F|]. repeat split; congruence.
      * apply Only in P0. try rewrite I in P0. discriminate P0.
      * pose proof (AllNil F) as L. rewrite L. cbn [takes]. split; [exact F|]. split; [intros _ _ X; congruence|]. split; [|split; [intros _ _ X; discriminate X|congruence]]. intros _ _ _ X. exfalso. apply pt_ptr in P0. apply Only in P0. try rewrite I in P0. injection P0 as ->. exact (HA X).
  - exfalso. clear - I. induction t; cbn in I; try discriminate. auto.
  - split; [intros (ra & X); discriminate|]. intros A. inversion A as [ms0 F|t0 ms0 P0 F H|t0 ms0 P0 F HM HA]; subst; [discriminate I|apply Only in P0; try rewrite I in P0; discriminate P0|apply pt_ptr in P0; apply Only in P0; try rewrite I in P0; discriminate P0].
Qed.
Theorem C159_nil : forall id m opts fs, declare id None m opts fs = Panic.
Proof. reflexivity. Qed.
Example C159_case : let user := VStruct [(bs "Get", []); (bs "Show", [])] in
  acceptable (bs "GET") [] (VPtr user) /\ acceptable (bs "POST") [OAction (bs "Show")] user /\ acceptable (bs "*") [] (VPtr (VFunc [])) /\
  ~ acceptable (bs "GET") [] (VPtr (VFunc [])) /\ ~ acceptable (bs "POST") [] user /\ named user.
Proof.
  cbv zeta. split; [apply (acc_struct _ _ _ [(bs "Get", []); (bs "Show", [])]); [repeat constructor|constructor|intros _ _; left; reflexivity]|].
  split; [apply (acc_struct _ _ _ [(bs "Get", []); (bs "Show", [])]); [repeat constructor|repeat constructor; right; left; reflexivity|discriminate]|].
  split; [apply (acc_ptr_func _ _ _ []); [constructor|constructor|reflexivity|intros []]|].
  split; [intros H; inversion H as [| ? ? P|? ? P F M _]; [inversion P as [| | |? ? P']; inversion P'|discriminate M]|].
  split; [intros H; inversion H as [|? ? P F N|]; inversion P; subst; specialize (N eq_refl ltac:(discriminate)); cbn in N; destruct N as [N|[N|[]]]; discriminate N|].
  intros ms P. inversion P; subst. intros [X|[X|[]]]; discriminate X.
Qed.

(** ** C160: filters *)
(** arguments that the compiler lets through: functions have function types *)
Definition typed (a : farg) : Prop := match a with AFun (FTOther _) _ | AFun FTProvide _ => False | _ => True end.
(** values that are no filter *)
Inductive no_filter : farg -> Prop := nf_nil : no_filter ANil | nf_other : forall n w, no_filter (AIface (FTOther n) w).
Theorem C160_accepted : forall l box, Forall typed l -> make_filters box l = Panic <-> Exists no_filter l.
Proof.
  intros l. induction l as [|a l IH]; intros box F; cbn [make_filters]; [split; [discriminate|intros X; inversion X]|]. inversion F as [|? ? Ta F']; subst. specialize (IH (S box) F').
  assert (A : make_filter box a = Panic <-> no_filter a).
  { unfold make_filter. destruct a as [t p|c|t w|]; cbn [value_of]; try (destruct t; cbn in Ta); try contradiction; (split; [intros X; try discriminate X; constructor|intros X; inversion X; reflexivity]). }
  split.
  - intros H. destruct (make_filter box a) as [f|]; [|constructor; apply A; reflexivity]. cbn [RouterModel.bind] in H. apply Exists_cons_tl, IH. destruct (make_filters (S box) l); [discriminate|reflexivity].
  - intros H. inversion H as [? ? X|? ? X]; subst; [apply A in X; rewrite X; reflexivity|]. apply IH in X. rewrite X. destruct (make_filter box a); reflexivity.
Qed.
(** what each request invokes for a filter: what a FilterFunc or func() inject.Provider returns this time; any other function, or an inject.Provide, itself; nothing for a nil FilterFunc *)
Theorem C160_invoked : forall box a f, typed a -> make_filter box a = Ok f -> forall call,
  (forall t w, value_of box a = Some (t, w) -> t = FTFilterFunc \/ t = FTFactory -> invoked call f = if Nat.eqb w 0 then None else Some (call w)) /\
  (forall t w, value_of box a = Some (t, w) -> t <> FTFilterFunc -> t <> FTFactory -> invoked call f = Some (Some (t, w))).
Proof.
  intros box a f Ta H call. unfold make_filter in H. destruct (value_of box a) as [(t & w)|]; [|discriminate]. destruct t; try discriminate H; injection H as <-; split; intros t' w' E; injection E as <- <-; intros; try congruence; try (destruct H; discriminate); unfold invoked; cbn [mf_fun]; try reflexivity; destruct w; reflexivity.
Qed.
(** two arguments are the same filter if they are the same function, of the same type, or interfaces holding one value *)
Definition same_arg (a b : farg) : Prop :=
  match a, b with
  | (AFun t p | AIface t p), (AFun t' p' | AIface t' p') => t = t' /\ p = p'
  | _, _ => False
  end.
(** interfaces hold values made before *)
Definition older (box : nat) (a : farg) : Prop := match a with AIface FTProvide w => w < box | _ => True end.
Lemma fty_eqb_eq a b : fty_eqb a b = true <-> a = b.
Proof. destruct a, b; cbn; split; intros H; try discriminate H; try reflexivity; try (apply Nat.eqb_eq in H; congruence); injection H as ->; apply Nat.eqb_refl. Qed.
Lemma mf_same_eq a b : mf_same a b = true <-> mf_type a = mf_type b /\ mf_word a = mf_word b.
Proof. unfold mf_same. rewrite andb_true_iff, fty_eqb_eq, Nat.eqb_eq. reflexivity. Qed.
Lemma make_filter_value box a f : make_filter box a = Ok f -> value_of box a = Some (mf_type f, mf_word f).
Proof. unfold make_filter. destruct (value_of box a) as [(t & w)|]; [|discriminate]. destruct t; try discriminate; intros H; injection H as <-; reflexivity. Qed.
Lemma make_filters_nth l : forall box fs, make_filters box l = Ok fs -> List.length fs = List.length l /\ forall i a f, nth_error l i = Some a -> nth_error fs i = Some f -> make_filter (box + i) a = Ok f.
Proof.
  induction l as [|a l IH]; intros box fs H; cbn [make_filters] in H; [injection H as <-; split; [reflexivity|intros [|i]; discriminate]|]. destruct (make_filter box a) as [f|] eqn:E; [|discriminate]. cbn [RouterModel.bind] in H. destruct (make_filters (S box) l) as [fs'|] eqn:E'; [|discriminate]. injection H as <-.
  destruct (IH _ _ E') as (L & N). split; [cbn; congruence|]. intros [|i] a' f' Ha Hf; cbn in Ha, Hf; [injection Ha as <-; injection Hf as <-; rewrite Nat.add_0_r; exact E|]. rewrite Nat.add_succ_r. exact (N i a' f' Ha Hf).
Qed.
Lemma same_filter i j a b f g : typed a -> typed b -> older i a -> older i b -> i < j -> make_filter i a = Ok f -> make_filter j b = Ok g -> mf_same f g = true <-> same_arg a b.
Proof.
  intros Ta Tb Oa Ob L Ha Hb. apply make_filter_value in Ha, Hb. rewrite mf_same_eq. destruct a as [t p|c|t w|], b as [t' p'|c'|t' w'|]; cbn in Ha, Hb; try discriminate; injection Ha as Ha1 Ha2; injection Hb as Hb1 Hb2; rewrite <- Ha1, <- Ha2, <- Hb1, <- Hb2; cbn [same_arg]; try reflexivity.
  - split; [|intros []]. intros (X & _). rewrite X in Ta. exact Ta.
  - split; [|intros []]. intros (X & _). rewrite <- X in Tb. exact Tb.
  - split; [|intros []]. lia.
  - split; [|intros []]. intros (X & Y). rewrite <- X in Ob. cbn in Ob. lia.
  - split; [|intros []]. intros (X & Y). rewrite X in Oa. cbn in Oa. lia.
Qed.
(** Exempt removes exactly the filters given with the same function, or the same interface, again *)
Theorem C160_exempt : forall added exempted box fs es i a f, Forall typed added -> Forall typed exempted -> Forall (older box) added -> Forall (older box) exempted ->
  make_filters box added = Ok fs -> make_filters (box + List.length added) exempted = Ok es -> nth_error added i = Some a -> nth_error fs i = Some f ->
  (In f (mf_remove fs es) <-> ~ Exists (same_arg a) exempted).
Proof.
  intros added exempted box fs es i a f Ta Te Oa Oe Ha He Na Nf. destruct (make_filters_nth _ _ _ Ha) as (La & Fa). destruct (make_filters_nth _ _ _ He) as (Le & Fe). pose proof (Fa i a f Na Nf) as Ma.
  assert (OW : forall b x y, older b x -> b <= y -> older y x) by (intros b [| |[] w|] y; cbn; auto; lia).
  assert (Li : i < List.length added) by (apply nth_error_Some; congruence). rewrite Forall_forall in *.
  assert (S : existsb (mf_same f) es = true <-> Exists (same_arg a) exempted).
  { rewrite existsb_exists, Exists_exists. split.
    - intros (g & Hg & E). apply In_nth_error in Hg as (j & Hg). destruct (nth_error exempted j) as [b|] eqn:Eb; [|exfalso; apply nth_error_None in Eb; assert (j < List.length es) by (apply nth_error_Some; congruence); lia].
      exists b. split; [eapply nth_error_In; exact Eb|]. apply (same_filter (box + i) (box + List.length added + j) a b f g); [apply Ta; eapply nth_error_In; exact Na|apply Te; eapply nth_error_In; exact Eb|apply (OW box); [apply Oa; eapply nth_error_In; exact Na|lia]|apply (OW box); [apply Oe; eapply nth_error_In; exact Eb|lia]|lia|exact Ma|exact (Fe j b g Eb Hg)|exact E].
    - intros (b & Hb & E). apply In_nth_error in Hb as (j & Eb). destruct (nth_error es j) as [g|] eqn:Eg; [|exfalso; apply nth_error_None in Eg; assert (j < List.length exempted) by (apply nth_error_Some; congruence); lia].
      exists g. split; [eapply nth_error_In; exact Eg|]. apply (same_filter (box + i) (box + List.length added + j) a b f g); [apply Ta; eapply nth_error_In; exact Na|apply Te; eapply nth_error_In; exact Eb|apply (OW box); [apply Oa; eapply nth_error_In; exact Na|lia]|apply (OW box); [apply Oe; eapply nth_error_In; exact Eb|lia]|lia|exact Ma|exact (Fe j b g Eb Eg)|exact E]. }
  unfold mf_remove. rewrite filter_In, negb_true_iff, <- not_true_iff_false, S. split; [intros (_ & X); exact X|]. intros X. split; [eapply nth_error_In; exact Nf|exact X].
Qed.
(** so an inject.Provide given to Filter and to Exempt is not exempted *)
Theorem C160_provide_refuted : forall c box fs es, make_filters box [ASlice c] = Ok fs -> make_filters (S box) [ASlice c] = Ok es -> mf_remove fs es = fs.
Proof.
  intros c box fs es H1 H2. cbn in H1, H2. injection H1 as <-. injection H2 as <-. unfold mf_remove. cbn [filter existsb]. unfold mf_same. cbn [mf_type mf_word fty_eqb]. destruct (Nat.eqb_spec box (S box)); [lia|reflexivity].
Qed.
(** nor is a function exempted as another type: FilterFunc(f) and f *)
Theorem C160_typed_refuted : forall p box fs es, make_filters box [AFun FTFilterFunc p] = Ok fs -> make_filters (S box) [AFun FTFactory p] = Ok es -> mf_remove fs es = fs.
Proof. intros p box fs es H1 H2. cbn in H1, H2. injection H1 as <-. injection H2 as <-. reflexivity. Qed.
(** the routing theorems number filters: for any numbering of the pairs of type and word, adding and exempting is what they say *)
Theorem C160_numbered : forall num : fty * nat -> filter_id, (forall x y, num x = num y -> x = y) -> let n := fun f => num (mf_type f, mf_word f) in
  (forall values h, map n (mf_append h values) = fappend (map n h) (map n values)) /\ (forall h values, map n (mf_remove h values) = fremove (map n h) (map n values)).
Proof.
  intros num Inj n. assert (S : forall a b, mf_same a b = Nat.eqb (n a) (n b)).
  { intros a b. destruct (mf_same a b) eqn:E.
    - apply mf_same_eq in E as (E1 & E2). symmetry. apply Nat.eqb_eq. unfold n. congruence.
    - symmetry. apply Nat.eqb_neq. intros X. apply Inj in X. injection X as X1 X2. assert (mf_same a b = true) by (apply mf_same_eq; auto). congruence. }
  assert (M : forall f h, existsb (fun v => mf_same v f) h = fmem (n f) (map n h)).
  { intros f h. unfold fmem. induction h as [|v h IH]; [reflexivity|]. cbn [existsb map]. rewrite IH, S. f_equal. apply Nat.eqb_sym || reflexivity. }
  assert (M2 : forall v l, existsb (mf_same v) l = fmem (n v) (map n l)).
  { intros v l. unfold fmem. induction l as [|f l IH]; [reflexivity|]. cbn [existsb map]. rewrite IH, S. f_equal. }
  split.
  - induction values as [|f values IH]; intros h; [reflexivity|]. unfold mf_append in *. cbn [fold_left map fappend]. rewrite IH, M. destruct (fmem (n f) (map n h)); [reflexivity|]. rewrite map_app. reflexivity.
  - intros h values. unfold mf_remove, fremove. induction h as [|v h IH]; [reflexivity|]. cbn [filter map]. rewrite M2. destruct (fmem (n v) (map n values)); cbn [negb]; [exact IH|]. cbn [map]. rewrite IH. reflexivity.
Qed.
Example C160_case : exists fs es, make_filters 10 [AFun (FTFunc 3) 7; ASlice 1; AIface FTProvide 4] = Ok fs /\ make_filters 13 [AIface FTProvide 4; AFun (FTFunc 3) 8] = Ok es /\
  mf_remove fs es = [MF (FReturn (FTFunc 3) 7) (FTFunc 3) 7; MF (FReturn FTProvide 11) FTProvide 11].
Proof. eexists _, _. split; [reflexivity|]. split; [reflexivity|]. reflexivity. Qed.

Print Assumptions C158_router_panics.
Print Assumptions C158_router_path.
Print Assumptions C159_accepted.
Print Assumptions C159_nil.
Print Assumptions C160_accepted.
Print Assumptions C160_invoked.
Print Assumptions C160_exempt.
Print Assumptions C160_provide_refuted.
Print Assumptions C160_typed_refuted.
Print Assumptions C160_numbered.
