(** Props_Store: C142-C144, about the two session stores of /repo/sessions and the maps they share with the program. *)
From Coq Require Import List Ascii String Bool Arith Lia.
Import ListNotations.
From Verif Require Import GoStr StoreModel.

Section Props.
  Variable V E : Type.
  Variable vnil : V.
  Variable reply : list (ask V) -> ask V -> option E.
  Notation ask := (ask V).
  Notation cmd := (cmd V).
  Notation out := (out V E).
  Notation world := (world V).
  Notation sess_run := (sess_run V E vnil reply).
  Notation dummy_run := (dummy_run V E vnil).

  (** ** Specification: values instead of references *)
  (** A store has contents of its own and the program's maps are values too; only as long as [joined] is the program's first
      map the same thing as the contents. *)
  Record shadow := mkShadow { h_own : amap V; h_maps : list (amap V); h_joined : bool; h_changed : bool; h_closed : bool; h_asked : list ask }.
  Definition on_nth {A} (i : nat) (f : A -> A) (l : list A) : list A := firstn i l ++ map f (firstn 1 (skipn i l)) ++ skipn (S i) l.
  (** a change of the contents, made by the store *)
  Definition change (f : amap V -> amap V) (s : shadow) : shadow :=
    mkShadow (f (h_own s)) (if h_joined s then on_nth 0 f (h_maps s) else h_maps s) (h_joined s) true (h_closed s) (h_asked s).
  (** a change of map i, made by the program *)
  Definition write (i : nat) (f : amap V -> amap V) (s : shadow) : shadow :=
    mkShadow (if h_joined s && (i =? 0) then f (h_own s) else h_own s) (on_nth i f (h_maps s)) (h_joined s) (h_changed s) (h_closed s) (h_asked s).
  Definition request (real : bool) (a : ask) (s : shadow) : shadow * out :=
    if real then (mkShadow (h_own s) (h_maps s) (h_joined s) (h_changed s) (h_closed s) (h_asked s ++ [a]), OErr V E (reply (h_asked s) a)) else (s, OErr V E None).
  (** [real]: with a provider behind it *)
  Definition spec_step (real : bool) (sid : bytes) (c : cmd) (s : shadow) : shadow * out :=
    match c with
    | CSid _ => (s, OSid V E sid)
    | CSet _ k v => (change (fun m => aset m k v) s, OUnit V E)
    | CDelete _ k => (change (fun m => adel m k) s, OUnit V E)
    | CGet _ k => (s, OVal V E match aget (h_own s) k with Some v => v | None => vnil end)
    | CHas _ k => (s, OBool V E (ahas (h_own s) k))
    | CValues _ => (mkShadow (h_own s) (h_maps s ++ [h_own s]) (h_joined s) (h_changed s) (h_closed s) (h_asked s), OUnit V E)
    | CClean _ => (mkShadow [] (h_maps s) false true (h_closed s) (h_asked s), OUnit V E)
    | CFlush _ => if h_closed s || negb (h_changed s) then (s, OErr V E None)
                  else request real (ASave V sid (h_own s)) (mkShadow (h_own s) (h_maps s) (h_joined s) false false (h_asked s))
    | CDestroy _ => request real (ADelete V sid) (mkShadow [] (h_maps s) false (h_changed s) true (h_asked s))
    | CTouch _ => request real (ATouch V sid) s
    | UPut _ i k v => (write i (fun m => aset m k v) s, OUnit V E)
    | UDel _ i k => (write i (fun m => adel m k) s, OUnit V E)
    | UGet _ i k => (s, OFound V E match nth_error (h_maps s) i with Some m => aget m k | None => None end)
    | ULen _ i => (s, OLen V E match nth_error (h_maps s) i with Some m => List.length m | None => 0 end)
    end.
  Fixpoint spec_run (real : bool) (sid : bytes) (cs : list cmd) (s : shadow) : shadow * list out :=
    match cs with
    | [] => (s, [])
    | c :: cs => let (s, o) := spec_step real sid c s in let (s, os) := spec_run real sid cs s in (s, o :: os)
    end.

  (** ** Refinement *)
  Record rel (sid : bytes) (w : world) (s : shadow) : Prop := mkRel {
    r_sid : st_sid (w_store V w) = sid;
    r_own : h_own s = current V w;
    r_maps : h_maps s = map (at_ V (w_heap V w)) (w_user V w);
    r_ref : st_ref (w_store V w) < List.length (w_heap V w);
    r_refs : Forall (fun r => r < List.length (w_heap V w)) (w_user V w);
    r_nodup : NoDup (w_user V w);
    r_shared : if h_joined s then nth_error (w_user V w) 0 = Some (st_ref (w_store V w)) else ~ In (st_ref (w_store V w)) (w_user V w);
    r_changed : h_changed s = st_changed (w_store V w);
    r_closed : h_closed s = st_closed (w_store V w);
    r_asked : h_asked s = w_asked V w }.

  Lemma put_length h r m : List.length (put V h r m) = List.length h.
  Proof. revert r. induction h as [|x h IH]; intros [|r]; cbn; [reflexivity|reflexivity|reflexivity|]. f_equal. apply IH. Qed.
  Lemma at_put_same h r m : r < List.length h -> at_ V (put V h r m) r = m.
  Proof. unfold at_. revert r. induction h as [|x h IH]; intros [|r] Hr; cbn in *; [lia|lia|reflexivity|]. apply IH. lia. Qed.
  Lemma at_put_other h r r' m : r <> r' -> at_ V (put V h r m) r' = at_ V h r'.
  Proof. unfold at_. revert r r'. induction h as [|x h IH]; intros [|r] [|r'] Hr; cbn; try reflexivity; [congruence|]. apply IH. congruence. Qed.
  Lemma at_app_old h m r : r < List.length h -> at_ V (h ++ [m]) r = at_ V h r.
  Proof. intros H. unfold at_. apply app_nth1. exact H. Qed.
  Lemma at_app_new h m : at_ V (h ++ [m]) (List.length h) = m.
  Proof. unfold at_. rewrite app_nth2, Nat.sub_diag by lia. reflexivity. Qed.
  Lemma map_at_app h m user : Forall (fun r : nat => r < List.length h) user -> map (at_ V (h ++ [m])) user = map (at_ V h) user.
  Proof. intros H. apply map_ext_in. intros r Hr. rewrite Forall_forall in H. apply at_app_old, H, Hr. Qed.
  Lemma map_put_out h r m user : ~ In r user -> map (at_ V (put V h r m)) user = map (at_ V h) user.
  Proof. intros H. apply map_ext_in. intros r' Hr. apply at_put_other. intros ->. exact (H Hr). Qed.
  Lemma map_put_in h f : forall i user r, nth_error user i = Some r -> NoDup user -> Forall (fun r : nat => r < List.length h) user ->
    map (at_ V (put V h r (f (at_ V h r)))) user = on_nth i f (map (at_ V h) user).
  Proof.
    induction i as [|i IH]; intros user r Hi Hn Hf; (destruct user as [|r0 user]; [discriminate|]); inversion Hn as [|? ? Hin Hn']; inversion Hf as [|? ? Hr0 Hf']; subst.
    - injection Hi as ->. cbn. rewrite at_put_same by exact Hr0. f_equal. apply map_put_out. exact Hin.
    - cbn in Hi. unfold on_nth. cbn [map firstn skipn List.app]. rewrite at_put_other; [|intros ->; apply Hin; eapply nth_error_In; exact Hi]. f_equal. rewrite (IH user r Hi Hn' Hf'). reflexivity.
  Qed.
  Lemma in_refs i user r h : nth_error user i = Some r -> Forall (fun r : nat => r < List.length h) user -> r < List.length (h : heap V).
  Proof. intros H F. rewrite Forall_forall in F. apply F. eapply nth_error_In. exact H. Qed.
  Lemma refs_app h (m : amap V) user : Forall (fun r : nat => r < List.length h) user -> Forall (fun r : nat => r < List.length (h ++ [m])) user.
  Proof. apply Forall_impl. intros r H. rewrite app_length. cbn. lia. Qed.

  Local Arguments at_ : simpl never.
  Local Arguments put : simpl never.
  Local Arguments current : simpl never.
  Local Arguments on_nth : simpl never.
  Lemma change_rel sid w s f : rel sid w s -> let st := w_store V w in
    rel sid (set_store V (set_heap V w (put V (w_heap V w) (st_ref st) (f (current V w)))) (mkStore (st_sid st) (st_ref st) true (st_closed st))) (change f s).
  Proof.
    intros R. destruct R. cbn zeta. split; cbn; try assumption; try reflexivity.
    - unfold current. cbn. rewrite at_put_same by assumption. rewrite r_own0. reflexivity.
    - destruct (h_joined s); [|rewrite map_put_out by assumption; assumption]. rewrite r_maps0. unfold current. symmetry. apply (map_put_in (w_heap V w) f 0); assumption.
    - rewrite put_length. assumption.
    - rewrite put_length. assumption.
  Qed.
  Lemma write_rel sid w s i f : rel sid w s -> rel sid (user_map V w i f) (write i f s).
  Proof.
    intros R. destruct R. unfold user_map. destruct (nth_error (w_user V w) i) as [r|] eqn:Ei.
    - assert (Hr : r < List.length (w_heap V w)) by (eapply in_refs; eassumption). split; cbn; try assumption; try reflexivity.
      + unfold current. cbn. destruct (h_joined s); cbn [andb].
        * destruct (Nat.eqb_spec i 0) as [->|Hi].
          -- assert (r = st_ref (w_store V w)) by congruence. subst r. rewrite at_put_same by exact Hr. rewrite r_own0. reflexivity.
          -- rewrite at_put_other; [exact r_own0|]. intros ->. apply Hi. rewrite NoDup_nth_error in r_nodup0. symmetry. apply r_nodup0; [|congruence]. apply nth_error_Some. rewrite r_shared0. discriminate.
        * rewrite at_put_other; [exact r_own0|]. intros ->. apply r_shared0. eapply nth_error_In. exact Ei.
      + rewrite r_maps0. symmetry. apply map_put_in; assumption.
      + rewrite put_length. assumption.
      + rewrite put_length. assumption.
    - split; cbn; try assumption.
      + destruct (h_joined s); cbn [andb]; [|exact r_own0]. destruct (Nat.eqb_spec i 0) as [->|_]; [congruence|exact r_own0].
      + rewrite r_maps0. unfold on_nth. apply nth_error_None in Ei. rewrite !skipn_all2, firstn_all2 by (rewrite map_length; lia). cbn. rewrite app_nil_r. reflexivity.
  Qed.
  Lemma fresh_rel sid w s changed closed : rel sid w s -> let st := w_store V w in
    rel sid (set_store V (set_heap V w (w_heap V w ++ [[]])) (mkStore (st_sid st) (List.length (w_heap V w)) changed closed)) (mkShadow [] (h_maps s) false changed closed (h_asked s)).
  Proof.
    intros R. destruct R. split; cbn; try assumption; try reflexivity.
    - unfold current. cbn. rewrite at_app_new. reflexivity.
    - rewrite map_at_app by assumption. assumption.
    - rewrite app_length. cbn. lia.
    - apply refs_app. assumption.
    - intros X. rewrite Forall_forall in r_refs0. specialize (r_refs0 _ X). lia.
  Qed.
  Lemma values_rel sid w s : rel sid w s -> rel sid (s_values V w) (mkShadow (h_own s) (h_maps s ++ [h_own s]) (h_joined s) (h_changed s) (h_closed s) (h_asked s)).
  Proof.
    intros R. destruct R. unfold s_values. split; cbn; try assumption; try reflexivity.
    - unfold current in *. cbn. rewrite at_app_old by assumption. assumption.
    - rewrite map_app, map_at_app by assumption. cbn. rewrite at_app_new, r_maps0, r_own0. reflexivity.
    - rewrite app_length. cbn. lia.
    - apply Forall_app. split; [apply refs_app; assumption|constructor; [rewrite app_length; cbn; lia|constructor]].
    - rewrite <- (rev_involutive (w_user V w ++ _)). apply NoDup_rev. rewrite rev_app_distr. cbn. constructor; [|apply NoDup_rev; assumption]. rewrite <- in_rev. intros X. rewrite Forall_forall in r_refs0. specialize (r_refs0 _ X). lia.
    - destruct (h_joined s); [|].
      + destruct (w_user V w); [discriminate|exact r_shared0].
      + intros X. apply in_app_iff in X as [X|[X|[]]]; [exact (r_shared0 X)|lia].
  Qed.
  Lemma asking_rel sid w s a : rel sid w s -> rel sid (fst (asking V E reply w a)) (fst (request true a s)) /\ snd (asking V E reply w a) = snd (request true a s).
  Proof. intros R. destruct R. unfold asking, request. cbn. split; [|rewrite r_asked0; reflexivity]. split; cbn; try assumption. rewrite r_asked0. reflexivity. Qed.
  Lemma set_rel sid w s changed closed : rel sid w s -> let st := w_store V w in
    rel sid (set_store V w (mkStore (st_sid st) (st_ref st) changed closed)) (mkShadow (h_own s) (h_maps s) (h_joined s) changed closed (h_asked s)).
  Proof. intros R. destruct R. split; cbn; try assumption; reflexivity. Qed.

  Definition real_step := step V E vnil (sess_flush V E reply) (sess_destroy V E reply) (sess_touch V E reply).
  Definition fake_step := step V E vnil (dummy_flush V E) (dummy_destroy V E) (dummy_touch V E).
  Lemma step_rel (real : bool) sid c w s : rel sid w s ->
    let r := (if real then real_step else fake_step) c w in rel sid (fst r) (fst (spec_step real sid c s)) /\ snd r = snd (spec_step real sid c s).
  Proof.
    intros R. pose proof R as R0. destruct R0. unfold real_step, fake_step.
    destruct c as [|k v|k|k|k| | | | | |i k v|i k|i k|i]; try (destruct real; cbn [step spec_step fst snd]; (split; [|try reflexivity])).
    - exact R.
    - rewrite r_sid0. reflexivity.
    - exact R.
    - rewrite r_sid0. reflexivity.
    - apply (change_rel sid w s (fun m => aset m k v) R).
    - apply (change_rel sid w s (fun m => aset m k v) R).
    - exact R.
    - rewrite r_own0. reflexivity.
    - exact R.
    - rewrite r_own0. reflexivity.
    - apply (change_rel sid w s (fun m => adel m k) R).
    - apply (change_rel sid w s (fun m => adel m k) R).
    - exact R.
    - rewrite r_own0. reflexivity.
    - exact R.
    - rewrite r_own0. reflexivity.
    - apply values_rel. exact R.
    - apply values_rel. exact R.
    - unfold s_clean. rewrite r_closed0. apply fresh_rel. exact R.
    - unfold s_clean. rewrite r_closed0. apply fresh_rel. exact R.
    - cbn. unfold sess_flush. rewrite <- r_closed0, <- r_changed0. destruct (h_closed s) eqn:Ec; [exact R|]. destruct (h_changed s); cbn [negb orb]; [|exact R].
      pose proof (set_rel sid w s false false R) as R2. cbn zeta in R2. pose proof (asking_rel sid _ _ (ASave V sid (h_own s)) R2) as (Q & _). unfold asking in Q. cbn in Q. rewrite r_sid0 in *. unfold current in *. cbn in *. rewrite <- r_own0. exact Q.
    - cbn. unfold sess_flush. rewrite <- r_closed0, <- r_changed0. destruct (h_closed s) eqn:Ec; [reflexivity|]. destruct (h_changed s); cbn [negb orb]; [|reflexivity].
      cbn. rewrite r_asked0, r_sid0, r_own0. unfold current. reflexivity.
    - cbn. unfold dummy_flush. rewrite <- r_closed0, <- r_changed0. destruct (h_closed s) eqn:Ec; [exact R|]. destruct (h_changed s); cbn [negb orb]; [|exact R].
      cbn. apply set_rel. exact R.
    - cbn. unfold dummy_flush. rewrite <- r_closed0, <- r_changed0. destruct (h_closed s); [reflexivity|]. destruct (h_changed s); reflexivity.
    - cbn [fst step]. unfold sess_destroy. rewrite r_sid0, r_changed0. pose proof (fresh_rel sid w s (st_changed (w_store V w)) true R) as R2. cbn zeta in R2. rewrite r_sid0 in R2. apply asking_rel. exact R2.
    - cbn. rewrite r_sid0, r_asked0. reflexivity.
    - cbn. rewrite r_changed0. apply fresh_rel. exact R.
    - cbn [fst step spec_step]. unfold sess_touch. rewrite r_sid0. apply asking_rel. exact R.
    - cbn. rewrite r_sid0, r_asked0. reflexivity.
    - exact R.
    - apply write_rel. exact R.
    - apply write_rel. exact R.
    - apply write_rel. exact R.
    - apply write_rel. exact R.
    - exact R.
    - unfold user_look. rewrite r_maps0, nth_error_map. destruct (nth_error (w_user V w) i); reflexivity.
    - exact R.
    - unfold user_look. rewrite r_maps0, nth_error_map. destruct (nth_error (w_user V w) i); reflexivity.
    - exact R.
    - unfold user_look. rewrite r_maps0, nth_error_map. destruct (nth_error (w_user V w) i); reflexivity.
    - exact R.
    - unfold user_look. rewrite r_maps0, nth_error_map. destruct (nth_error (w_user V w) i); reflexivity.
  Qed.
  Lemma run_rel (real : bool) sid cs : forall w s, rel sid w s ->
    let r := (if real then sess_run else dummy_run) cs w in rel sid (fst r) (fst (spec_run real sid cs s)) /\ snd r = snd (spec_run real sid cs s).
  Proof.
    induction cs as [|c cs IH]; intros w s R; [destruct real; split; [exact R|reflexivity|exact R|reflexivity]|].
    pose proof (step_rel real sid c w s R) as (R1 & E1). unfold real_step, fake_step in *. cbn [spec_run].
    destruct (spec_step real sid c s) as [s' o'] eqn:Es. cbn [fst snd] in R1, E1.
    destruct real; unfold StoreModel.sess_run, StoreModel.dummy_run in *; cbn [run].
    - destruct (step V E vnil _ _ _ c w) as [w' o]. cbn [fst snd] in R1, E1. specialize (IH w' s' R1). cbn zeta in IH. destruct (run V E vnil _ _ _ cs w') as [w'' os]. destruct (spec_run true sid cs s') as [s'' os']. cbn [fst snd] in *. destruct IH as (R2 & E2). split; [exact R2|congruence].
    - destruct (step V E vnil _ _ _ c w) as [w' o]. cbn [fst snd] in R1, E1. specialize (IH w' s' R1). cbn zeta in IH. destruct (run V E vnil _ _ _ cs w') as [w'' os]. destruct (spec_run false sid cs s') as [s'' os']. cbn [fst snd] in *. destruct IH as (R2 & E2). split; [exact R2|congruence].
  Qed.

  (** ** C142 *)
  (** the contents a store begins with *)
  Definition begin (given : option (amap V)) (changed : bool) : shadow :=
    match given with Some m => mkShadow m [m] true changed false [] | None => mkShadow [] [] false changed false [] end.
  Lemma begin_rel sid given changed : rel sid (match given with Some m => mkWorld V [m] [0] (mkStore sid 0 changed false) [] | None => mkWorld V [[]] [] (mkStore sid 0 changed false) [] end) (begin given changed).
  Proof.
    destruct given as [m|]; split; cbn; try reflexivity; try lia; try (repeat constructor; cbn; lia); try tauto.
  Qed.
  (** A session made with a map shares it: until Clean or Destroy the session's contents and the map given are the same thing,
      from then on, and with any other map, they have nothing to do with each other. The same holds for a dummy store. *)
  Theorem C142_session_and_its_map : forall cs sid given,
    snd (sess_run cs (sess_create V sid (Some given))) = snd (spec_run true sid cs (begin given true)) /\
    snd (sess_run cs (sess_create V sid None)) = snd (spec_run true sid cs (begin None false)) /\
    snd (dummy_run cs (dummy_create V sid given)) = snd (spec_run false sid cs (begin given (match given with Some _ => false | None => true end))).
  Proof.
    intros cs sid given. repeat split.
    - destruct given as [m|]; [apply (run_rel true sid cs _ _ (begin_rel sid (Some m) true))|apply (run_rel true sid cs _ _ (begin_rel sid None true))].
    - apply (run_rel true sid cs _ _ (begin_rel sid None false)).
    - destruct given as [m|]; [apply (run_rel false sid cs _ _ (begin_rel sid (Some m) false))|apply (run_rel false sid cs _ _ (begin_rel sid None true))].
  Qed.
  (** A session that was read shares nothing *)
  Theorem C142_read_session : forall cs sid m, snd (sess_run cs (sess_read V sid m)) = snd (spec_run true sid cs (mkShadow m [] false false false [])).
  Proof.
    intros cs sid m. apply (run_rel true). split; cbn; try reflexivity; try lia; try (repeat constructor); tauto.
  Qed.

  (** ** C143: the dummy store is a session without a provider *)
  Definition blur (o : out) : out := match o with OErr _ _ _ => OErr V E None | _ => o end.
  Definition alike (a b : shadow) : Prop := h_own a = h_own b /\ h_maps a = h_maps b /\ h_joined a = h_joined b.
  Lemma alike_step sid c a b : alike a b -> let x := spec_step true sid c a in let y := spec_step false sid c b in
    alike (fst x) (fst y) /\ blur (snd x) = snd y.
  Proof.
    intros (E1 & E2 & E3). destruct a as [o1 m1 j1 c1 d1 q1], b as [o2 m2 j2 c2 d2 q2]. cbn in E1, E2, E3. subst.
    destruct c; cbn; try (split; [split; [reflexivity|split; reflexivity]|reflexivity]).
    - destruct (d1 || negb c1)%bool, (d2 || negb c2)%bool; cbn; (split; [split; [reflexivity|split; reflexivity]|reflexivity]).
  Qed.
  Lemma alike_run sid cs : forall a b, alike a b -> map blur (snd (spec_run true sid cs a)) = snd (spec_run false sid cs b).
  Proof.
    induction cs as [|c cs IH]; intros a b H; [reflexivity|]. cbn [spec_run]. pose proof (alike_step sid c a b H) as (H1 & H2). cbn zeta in H1, H2.
    destruct (spec_step true sid c a) as [a' o], (spec_step false sid c b) as [b' o']. cbn [fst snd] in H1, H2. specialize (IH a' b' H1). destruct (spec_run true sid cs a') as [a'' os], (spec_run false sid cs b') as [b'' os']. cbn [fst snd map] in *. congruence.
  Qed.
  (** Used in the same way, a dummy store and a session answer the same, except that the dummy store never reports an error. *)
  Theorem C143_dummy_is_a_session : forall cs sid given,
    map blur (snd (sess_run cs (sess_create V sid (Some given)))) = snd (dummy_run cs (dummy_create V sid given)).
  Proof.
    intros cs sid given. destruct (C142_session_and_its_map cs sid given) as (H1 & _ & H3). rewrite H1, H3. apply alike_run. destruct given; repeat split.
  Qed.

  (** ** C144: what is saved *)
  (** something was changed through the session since the last Flush (for a new session: or it was made with a map) *)
  Definition dirtier (c : cmd) (b : bool) : bool :=
    match c with CSet _ _ _ | CDelete _ _ | CClean _ => true | CFlush _ => false | _ => b end.
  Definition dirty (given : bool) (cs : list cmd) : bool := fold_left (fun b c => dirtier c b) cs given.
  Definition destroys (c : cmd) : bool := match c with CDestroy _ => true | _ => false end.
  Definition destroyed (cs : list cmd) : bool := existsb destroys cs.
  Lemma run_app fl de to cs1 cs2 : forall w, run V E vnil fl de to (cs1 ++ cs2) w = (let (w1, o1) := run V E vnil fl de to cs1 w in let (w2, o2) := run V E vnil fl de to cs2 w1 in (w2, o1 ++ o2)).
  Proof.
    induction cs1 as [|c cs1 IH]; intros w; cbn [List.app run]; [destruct (run V E vnil fl de to cs2 w); reflexivity|].
    destruct (step V E vnil fl de to c w) as [w' o]. rewrite IH. destruct (run V E vnil fl de to cs1 w') as [w1 o1]. destruct (run V E vnil fl de to cs2 w1) as [w2 o2]. reflexivity.
  Qed.
  Lemma spec_flags sid cs : forall s, (h_closed s = false -> h_changed (fst (spec_run true sid cs s)) = dirty (h_changed s) cs \/ h_closed (fst (spec_run true sid cs s)) = true)
    /\ h_closed (fst (spec_run true sid cs s)) = (h_closed s || destroyed cs)%bool.
  Proof.
    induction cs as [|c cs IH]; intros s; [cbn; rewrite orb_false_r; auto|]. cbn [spec_run].
    assert (St : (h_closed s = false -> h_changed (fst (spec_step true sid c s)) = dirtier c (h_changed s)) /\ h_closed (fst (spec_step true sid c s)) = (h_closed s || destroys c)%bool).
    { destruct c; cbn; rewrite ?orb_false_r, ?orb_true_r; try (split; [reflexivity|reflexivity]). destruct (h_closed s) eqn:Ec; cbn; [rewrite Ec; split; [discriminate|reflexivity]|]. destruct (h_changed s) eqn:Eh; cbn; rewrite ?Ec, ?Eh; auto. }
    destruct (spec_step true sid c s) as [s' o]. cbn [fst] in St. destruct St as (S1 & S2). destruct (IH s') as (H1 & H2). destruct (spec_run true sid cs s') as [s'' os]. cbn [fst] in *.
    unfold destroyed in *. cbn [existsb]. unfold dirty in *. cbn [fold_left]. split.
    - intros Hs. rewrite (S1 Hs) in H1. destruct (h_closed s') eqn:E'; [right; rewrite H2; reflexivity|apply H1; reflexivity].
    - rewrite H2, S2, orb_assoc. reflexivity.
  Qed.
  Definition contents_shown (w : world) (m : amap V) : Prop := forall k,
    snd (sess_run [CHas V k] w) = [OBool V E (ahas m k)] /\ snd (sess_run [CGet V k] w) = [OVal V E (match aget m k with Some v => v | None => vnil end)].
  (** After any program, Flush asks the provider to save if and only if the session was not destroyed and was changed through
      it since the last Flush; what is saved is what it then contains. Otherwise Flush does nothing and reports success. *)
  Theorem C144_what_flush_saves : forall cs sid given,
    let w := fst (sess_run cs (sess_create V sid given)) in
    let w' := fst (sess_run [CFlush V] w) in
    let has := match given with Some _ => true | None => false end in
    exists m, contents_shown w m /\
      (negb (destroyed cs) && dirty has cs = true -> w_asked V w' = w_asked V w ++ [ASave V sid m] /\ snd (sess_run [CFlush V] w) = [OErr V E (reply (w_asked V w) (ASave V sid m))])%bool /\
      (negb (destroyed cs) && dirty has cs = false -> w' = w /\ snd (sess_run [CFlush V] w) = [OErr V E None])%bool.
  Proof.
    intros cs sid given w w' has.
    assert (R : exists s, rel sid (sess_create V sid given) s /\ h_changed s = has /\ h_closed s = false).
    { destruct given as [[m|]|]; [exists (begin (Some m) true)|exists (begin None true)|exists (begin None false)]; (split; [|split; reflexivity]); [apply (begin_rel sid (Some m) true)|apply (begin_rel sid None true)|apply (begin_rel sid None false)]. }
    destruct R as (s & R & Hc & Hd). pose proof (run_rel true sid cs _ _ R) as (R' & _). cbn zeta in R'. fold w in R'. destruct (spec_flags sid cs s) as (F1 & F2). rewrite Hd, Hc in *. cbn [orb] in F2. specialize (F1 eq_refl).
    set (s' := fst (spec_run true sid cs s)) in *. destruct R'. exists (current V w). split; [intros k; split; reflexivity|].
    subst w'. unfold StoreModel.sess_run. cbn [run step]. unfold sess_flush. rewrite r_closed0 in *. rewrite r_changed0 in *. rewrite F2 in *. destruct (destroyed cs) eqn:Ed; cbn [negb andb].
    - split; [discriminate|]. intros _. split; reflexivity.
    - destruct F1 as [F1|F1]; [|discriminate]. rewrite F1. destruct (dirty has cs); cbn [negb].
      + split; [|discriminate]. intros _. rewrite r_sid0. split; reflexivity.
      + split; [discriminate|]. intros _. split; reflexivity.
  Qed.
End Props.

(** Keeping to the map given does not save: a change made through it alone is seen by the session but not saved *)
Theorem C144_changes_are_saved_refuted : ~ (forall (cs : list (cmd nat)) sid m (k : bytes) (v : nat),
  let r := sess_run nat unit 0 (fun _ _ => None) (cs ++ [UPut nat 0 k v; CGet nat k; CFlush nat]) (sess_create nat sid (Some (Some m))) in
  In (OVal nat unit v) (snd r) -> exists a sid' m', w_asked nat (fst r) = a ++ [ASave nat sid' m'] /\ aget m' k = Some v).
Proof.
  intros H. specialize (H [CFlush nat] (bs "s") [] (bs "k") 5). cbn in H. destruct (H (or_intror (or_intror (or_introl eq_refl)))) as (a & sid' & m' & E & G).
  destruct a as [|x [|y a]]; [injection E as <- <-; discriminate G|discriminate E|discriminate E].
Qed.
(** a program on a session made with a map: the session's Set shows in the map, the map's changes in the session, until Clean *)
Example C142_case :
  snd (sess_run nat unit 0 (fun _ _ => None) [CSet nat (bs "a") 1; UGet nat 0 (bs "a"); UPut nat 0 (bs "b") 2; CGet nat (bs "b"); CValues nat; CClean nat; UGet nat 0 (bs "b"); CHas nat (bs "b"); UGet nat 1 (bs "a")] (sess_create nat (bs "s") (Some (Some [(bs "x", 7)]))))
  = [OUnit _ _; OFound _ _ (Some 1); OUnit _ _; OVal _ _ 2; OUnit _ _; OUnit _ _; OFound _ _ (Some 2); OBool _ _ false; OFound _ _ (Some 1)].
Proof. vm_compute. reflexivity. Qed.
(** a session never saved cannot be destroyed without an error on a cache that misses it; the dummy store can *)
Example C143_case :
  snd (sess_run nat unit 0 (fun _ a => match a with ADelete _ _ => Some tt | _ => None end) [CSet nat (bs "a") 1; CDestroy nat] (sess_create nat (bs "s") (Some None))) = [OUnit _ _; OErr _ _ (Some tt)]
  /\ snd (dummy_run nat unit 0 [CSet nat (bs "a") 1; CDestroy nat] (dummy_create nat (bs "s") None)) = [OUnit _ _; OErr _ _ None].
Proof. split; vm_compute; reflexivity. Qed.
Example C144_case : dirty nat false [CSet nat (bs "a") 1; CFlush nat; CDelete nat (bs "b")] = true /\ destroyed nat [CSet nat (bs "a") 1] = false.
Proof. split; reflexivity. Qed.

Print Assumptions C142_session_and_its_map.
Print Assumptions C142_read_session.
Print Assumptions C143_dummy_is_a_session.
Print Assumptions C144_what_flush_saves.
Print Assumptions C144_changes_are_saved_refuted.
