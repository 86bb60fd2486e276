(** InjectFacts: what one invocation does, for every provider graph. *)
From Coq Require Import List Ascii String Bool Arith Lia Relations.
Import ListNotations.
From Verif Require Import GoStr InjectModel.

Lemma Forall2_weak {A B} (P Q : A -> B -> Prop) l1 l2 :
  (forall a b, P a b -> Q a b) -> Forall2 P l1 l2 -> Forall2 Q l1 l2.
Proof. intros H. induction 1; constructor; auto. Qed.
Lemma NoDup_app_ok {A} (l1 l2 : list A) : NoDup l1 -> NoDup l2 -> (forall x, In x l1 -> In x l2 -> False) -> NoDup (l1 ++ l2).
Proof.
  induction 1 as [|x l Hx Hn IH]; intros H2 Hd; [exact H2|]. cbn. constructor.
  - rewrite in_app_iff. intros [H|H]; [contradiction|]. apply (Hd x); [left; reflexivity|exact H].
  - apply IH; [exact H2|]. intros y Hy. apply Hd. right. exact Hy.
Qed.

Section Graph.
  Variable assignable : rtype -> rtype -> bool.
  Variable call : list callev -> nat -> list val -> option (nat -> option nat).
  Variable inj : nat.
  Variable look : bytes -> found.
  Variable info : nat -> pinfo.
  Hypothesis look_name : forall n q, look n = Found q -> p_name (info q) = n.
  (** functions that can be looked up have results *)
  Hypothesis look_outs : forall n q f ins, look n = Found q -> p_kind (info q) <> KFun f ins [].

  Notation invoke := (invoke assignable call inj look info).
  Notation eval_deps := (eval_deps look info).

  (** ** Fuel *)
  Lemma eval_deps_mono inv inv' :
    (forall q s, fst (inv q s) <> IDiv -> inv' q s = inv q s) ->
    forall ds s, fst (eval_deps inv ds s) <> DFail IDiv -> eval_deps inv' ds s = eval_deps inv ds s.
  Proof.
    intros H ds. induction ds as [|d ds IH]; intros s; cbn [InjectModel.eval_deps]; [reflexivity|].
    destruct (look d) as [q| |]; [|reflexivity|reflexivity].
    destruct (negb (is_done s q) && in_status s (p_name (info q))); [reflexivity|].
    destruct (inv q s) as [r s1] eqn:E. specialize (H q s). rewrite E in H. cbn [fst] in H.
    destruct r as [[|v o]|e| |].
    - intros _. rewrite H by discriminate. reflexivity.
    - rewrite H by discriminate. specialize (IH s1).
      destruct (eval_deps inv ds s1) as [[l|r] s2]; cbn [fst] in *; intros Hne; rewrite IH by congruence; reflexivity.
    - intros _. rewrite H by discriminate. reflexivity.
    - intros _. rewrite H by discriminate. reflexivity.
    - cbn [fst]. congruence.
  Qed.
  Lemma invoke_S f : forall q s, fst (invoke f q s) <> IDiv -> invoke (S f) q s = invoke f q s.
  Proof.
    induction f as [|f IH]; intros q s Hne; [cbn in Hne; congruence|].
    change (invoke (S (S f)) q s) with
      (match aget (i_cache s) (p_name (info q)) with
        | Some o => (IOk o, s)
        | None =>
            let s0 := set_status s (p_name (info q)) in
            let rs :=
              match p_kind (info q) with
              | KVal v => (IOk [v], s0)
              | KFun fn ins outs =>
                  match eval_deps (invoke (S f)) (p_deps (info q)) s0 with
                  | (DArgs args, s1) => call_fun assignable call inj info q fn ins outs args s1
                  | (DFail r, s1) => (r, s1)
                  end
              end in
            match fst rs with
            | IOk _ | IPanic => (fst rs, mark_done (snd rs) q)
            | _ => rs
            end
        end).
    cbn [InjectModel.invoke] in *. destruct (aget (i_cache s) (p_name (info q))); [reflexivity|].
    cbv zeta in *. destruct (p_kind (info q)) as [v|fn ins outs]; [reflexivity|].
    rewrite (eval_deps_mono (invoke f)); [reflexivity|exact IH|].
    intros Hd. destruct (eval_deps (invoke f) (p_deps (info q)) (set_status s (p_name (info q)))) as [r1 s1].
    cbn [fst] in *. subst r1. cbn [fst] in Hne. congruence.
  Qed.
  Lemma invoke_mono f k q s : fst (invoke f q s) <> IDiv -> invoke (k + f) q s = invoke f q s.
  Proof.
    intros H. induction k as [|k IH]; [reflexivity|]. cbn [Nat.add]. rewrite invoke_S; [exact IH|rewrite IH; exact H].
  Qed.
  Lemma invoke_det f1 f2 q s : fst (invoke f1 q s) <> IDiv -> fst (invoke f2 q s) <> IDiv -> invoke f1 q s = invoke f2 q s.
  Proof. intros H1 H2. rewrite <- (invoke_mono f1 f2), <- (invoke_mono f2 f1), Nat.add_comm by assumption. reflexivity. Qed.

  (** ** Availability, relative to the cache the lookup started with *)
  Section Start.
    Variable C0 : list (bytes * list val).

    Inductive Avail : bytes -> Prop :=
    | av_cached : forall n q o, look n = Found q -> aget C0 n = Some o -> Avail n
    | av_value : forall n q v, look n = Found q -> p_kind (info q) = KVal v -> Avail n
    | av_fun : forall n q f ins outs, look n = Found q -> p_kind (info q) = KFun f ins outs ->
        (forall d, In d (p_deps (info q)) -> Avail d) -> Avail n.

    (** [needs n d]: resolving n has to resolve d first *)
    Definition needs (n d : bytes) : Prop :=
      exists q f ins outs, look n = Found q /\ p_kind (info q) = KFun f ins outs /\ aget C0 n = None /\ In d (p_deps (info q)).
    Definition reach := clos_refl_trans bytes needs.
    Definition reach1 := clos_trans bytes needs.

    Lemma reach1_first a b : reach1 a b -> exists c, needs a c /\ reach c b.
    Proof.
      induction 1 as [a b H|a b c H1 IH1 H2 IH2].
      - exists b. split; [exact H|apply rt_refl].
      - destruct IH1 as (x & Hx & Hr). exists x. split; [exact Hx|]. eapply rt_trans; [exact Hr|].
        clear -H2. induction H2; [apply rt_step; assumption|eapply rt_trans; eassumption].
    Qed.
    Lemma needs_reach1 a b c : needs a b -> reach b c -> reach1 a c.
    Proof.
      intros H Hr. revert a H. apply clos_rt_rt1n in Hr. induction Hr as [|x y z Hxy Hyz IH]; intros a H.
      - apply t_step. exact H.
      - eapply t_trans; [apply t_step; exact H|]. apply IH. exact Hxy.
    Qed.
    Lemma avail_closed n d : Avail n -> reach n d -> Avail d.
    Proof.
      intros Ha Hr. apply clos_rt_rt1n in Hr. induction Hr as [|x y z Hxy Hyz IH]; [exact Ha|]. apply IH.
      destruct Hxy as (q & f & ins & outs & Hl & Hk & Hc & Hd). inversion Ha; subst.
      - congruence.
      - rewrite H in Hl. injection Hl as <-. congruence.
      - rewrite H in Hl. injection Hl as <-. rewrite H0 in Hk. injection Hk as <- <- <-. auto.
    Qed.
    (** what is available rests on no cycle *)
    Lemma avail_acyclic n : Avail n -> ~ reach1 n n.
    Proof.
      induction 1 as [n q o Hl Hc|n q v Hl Hk|n q f ins outs Hl Hk Hd IH]; intros Hr;
        destruct (reach1_first _ _ Hr) as (d & (q' & f' & ins' & outs' & Hl' & Hk' & Hc' & Hd') & Hr').
      - congruence.
      - rewrite Hl in Hl'. injection Hl' as <-. congruence.
      - assert (q' = q) as -> by congruence. apply (IH d Hd').
        apply clos_rt_rt1n in Hr'. destruct Hr' as [|y z Hy Hr'].
        + exact Hr.
        + apply clos_rt1n_rt in Hr'. eapply t_trans; [eapply needs_reach1; [exact Hy|exact Hr']|].
          apply t_step. exists q, f', ins', outs'. auto.
    Qed.
    Lemma avail_no_cycle n : Avail n -> forall m, reach n m -> ~ reach1 m m.
    Proof. intros H m Hm. apply avail_acyclic. eapply avail_closed; eassumption. Qed.

    (** ** Any invocation *)
    Definition Inv (s : ist) : Prop :=
      (forall m o, aget C0 m = Some o -> aget (i_cache s) m = Some o) /\
      (forall m o q, aget (i_cache s) m = Some o -> look m = Found q -> Avail m) /\
      (forall m o, aget (i_cache s) m = Some o -> o <> []).
    (** the value of a name after the invocation *)
    Definition holds (s : ist) (n : bytes) (o : list val) : Prop :=
      aget (i_cache s) n = Some o \/
      (aget (i_cache s) n = None /\ exists q v, look n = Found q /\ p_kind (info q) = KVal v /\ o = [v]).
    (** the arguments of a call are the values of its dependencies *)
    Definition args_from (s : ist) (e : callev) : Prop :=
      Forall2 (fun d a => exists o, holds s d (a :: o)) (p_deps (info (c_prov e))) (c_args e).

    Definition ev_name (e : callev) : bytes := p_name (info (c_prov e)).
    Record good_call (s s' : ist) (e : callev) : Prop := {
      gc_inj : c_inj e = inj;
      gc_look : look (ev_name e) = Found (c_prov e);
      gc_fun : exists ins outs, p_kind (info (c_prov e)) = KFun (c_fun e) ins outs;
      gc_new : aget (i_cache s) (ev_name e) = None;
      gc_supp : forall d, In d (p_deps (info (c_prov e))) -> Avail d;
      gc_args : args_from s' e;
      gc_cached : c_ok e = true -> aget (i_cache s') (ev_name e) <> None
    }.
    Record post (from : bytes -> Prop) (s s' : ist) (new : list callev) : Prop := {
      po_tr : i_tr s' = new ++ i_tr s;
      po_calls : Forall (good_call s s') new;
      po_from : Forall (fun e => exists d, from d /\ reach d (ev_name e)) new;
      po_nodup : NoDup (map ev_name new);
      po_mono : forall m o, aget (i_cache s) m = Some o -> aget (i_cache s') m = Some o;
      po_cached : forall m, aget (i_cache s') m <> None -> aget (i_cache s) m = None -> In m (map ev_name new);
      po_inv : Inv s';
      po_status : forall m, in_status s m = true -> in_status s' m = true;
      po_done : forall q, is_done s q = true -> is_done s' q = true;
      po_dnew : forall q, is_done s' q = true -> is_done s q = true \/ exists n, look n = Found q
    }.

    Lemma holds_mono s s' n o :
      (forall m o, aget (i_cache s) m = Some o -> aget (i_cache s') m = Some o) ->
      (forall m q v, look m = Found q -> p_kind (info q) = KVal v -> aget (i_cache s) m = None -> aget (i_cache s') m = None) ->
      holds s n o -> holds s' n o.
    Proof.
      intros Hm Hv [H|(H & q & v & Hl & Hk & ->)]; [left; auto|]. right. split; [eapply Hv; eassumption|]. eauto 6.
    Qed.
    (** names of value providers are never newly cached *)
    Lemma post_values from s s' new : post from s s' new ->
      forall m q v, look m = Found q -> p_kind (info q) = KVal v -> aget (i_cache s) m = None -> aget (i_cache s') m = None.
    Proof.
      intros P m q v Hl Hk Hc. destruct (aget (i_cache s') m) eqn:E; [exfalso|reflexivity].
      assert (Hin : In m (map ev_name new)) by (apply (po_cached _ _ _ _ P); congruence).
      apply in_map_iff in Hin as (e & He & Hin).
      pose proof (proj1 (Forall_forall _ _) (po_calls _ _ _ _ P) e Hin) as G.
      destruct (gc_fun _ _ _ G) as (ins & outs & Hf). pose proof (gc_look _ _ _ G) as Hl2. rewrite He in Hl2. congruence.
    Qed.
    Lemma good_call_later s s1 s2 e :
      good_call s s1 e ->
      (forall m o, aget (i_cache s1) m = Some o -> aget (i_cache s2) m = Some o) ->
      (forall m q v, look m = Found q -> p_kind (info q) = KVal v -> aget (i_cache s1) m = None -> aget (i_cache s2) m = None) ->
      good_call s s2 e.
    Proof.
      intros [G1 G2 G3 G4 G5 G6 G7] Hm Hv. constructor; auto.
      - unfold args_from in *. eapply Forall2_weak; [|exact G6]. intros d a (o & Ho).
        exists o. eapply holds_mono; eauto.
      - intros Hok. specialize (G7 Hok). destruct (aget (i_cache s1) (ev_name e)) eqn:E; [|congruence].
        rewrite (Hm _ _ E). discriminate.
    Qed.
    Lemma post_refl from s : Inv s -> post from s s [].
    Proof. intros H. constructor; auto; try constructor. Qed.
    Lemma post_weaken (from from' : bytes -> Prop) s s' new : (forall d, from d -> exists d', from' d' /\ reach d' d) ->
      post from s s' new -> post from' s s' new.
    Proof.
      intros Hw [A1 A2 A3 A4 A5 A6 A7 A8 A9 A10]. constructor; auto.
      eapply Forall_impl; [|exact A3]. intros e (d & Hd & Hr). destruct (Hw d Hd) as (d' & Hd' & Hr').
      exists d'. split; [exact Hd'|]. eapply rt_trans; eassumption.
    Qed.
    Lemma post_trans from s s1 s2 n1 n2 :
      post from s s1 n1 -> post from s1 s2 n2 -> (forall e, In e n1 -> aget (i_cache s1) (ev_name e) <> None) ->
      post from s s2 (n2 ++ n1).
    Proof.
      intros P1 P2 Hc. pose proof (post_values _ _ _ _ P2) as Hv2.
      destruct P1 as [A1 A2 A3 A4 A5 A6 A7 A8 A9 A10], P2 as [B1 B2 B3 B4 B5 B6 B7 B8 B9 B10]. constructor; auto.
      - rewrite B1, A1. apply app_assoc.
      - apply Forall_app. split.
        + eapply Forall_impl; [|exact B2]. intros e G. destruct G as [G1 G2 G3 G4 G5 G6 G7]. constructor; auto.
          destruct (aget (i_cache s) (ev_name e)) eqn:E; [|reflexivity]. apply A5 in E. congruence.
        + eapply Forall_impl; [|exact A2]. intros e G. eapply good_call_later; [exact G|exact B5|exact Hv2].
      - apply Forall_app. auto.
      - rewrite map_app. apply NoDup_app_ok; auto.
        intros m Hm Hm1. apply in_map_iff in Hm as (e & <- & He). apply in_map_iff in Hm1 as (e1 & He1 & Hi1).
        pose proof (proj1 (Forall_forall _ _) B2 e He) as G. apply gc_new in G.
        apply Hc in Hi1. congruence.
      - intros m Hm Hn. rewrite map_app, in_app_iff. destruct (aget (i_cache s1) m) eqn:E.
        + right. apply A6; congruence.
        + left. apply B6; assumption.
      - intros q Hq. apply B10 in Hq as [Hq|Hq]; [apply A10; exact Hq|right; exact Hq].
    Qed.

    Definition all_ok (new : list callev) : Prop := Forall (fun e => c_ok e = true) new.
    Definition inv_good (inv : nat -> ist -> ires * ist) : Prop :=
      forall n q s, look n = Found q -> Inv s ->
      exists new, post (eq n) s (snd (inv q s)) new /\
        (fst (inv q s) <> IPanic -> all_ok new) /\
        (forall out, fst (inv q s) = IOk out -> Avail n /\ holds (snd (inv q s)) n out /\ out <> []).

    Lemma eval_deps_good inv : inv_good inv -> forall ds s, Inv s ->
      exists new, post (fun d => In d ds) s (snd (eval_deps inv ds s)) new /\
        (fst (eval_deps inv ds s) <> DFail IPanic -> all_ok new) /\
        (forall l, fst (eval_deps inv ds s) = DArgs l ->
           Forall2 (fun d a => exists o, holds (snd (eval_deps inv ds s)) d (a :: o)) ds l /\
           (forall d, In d ds -> Avail d)).
    Proof.
      intros Hg. induction ds as [|d ds IH]; intros s Hs; cbn [InjectModel.eval_deps].
      { exists []. cbn [fst snd]. split; [apply post_refl; exact Hs|]. split; [constructor|].
        intros l [= <-]. split; [constructor|intros ? []]. }
      destruct (look d) as [q| |] eqn:El;
        [|exists []; split; [apply post_refl; exact Hs|split; [constructor|discriminate]]..].
      destruct (negb (is_done s q) && in_status s (p_name (info q))).
      { exists []; split; [apply post_refl; exact Hs|split; [constructor|discriminate]]. }
      destruct (Hg d q s El Hs) as (n1 & P1 & Ho1 & Hk1).
      assert (P1' : post (fun x => In x (d :: ds)) s (snd (inv q s)) n1).
      { eapply post_weaken; [|exact P1]. intros x <-. exists d. split; [left; reflexivity|apply rt_refl]. }
      destruct (inv q s) as [r s1]. cbn [fst snd] in *.
      destruct r as [[|v o]|e| |]; cbn [fst snd].
      - exfalso. apply (proj2 (proj2 (Hk1 [] eq_refl))). reflexivity.
      - destruct (Hk1 _ eq_refl) as (Ha & Hh & _).
        destruct (IH s1 (po_inv _ _ _ _ P1)) as (n2 & P2 & Ho2 & Hk2).
        assert (P2' : post (fun x => In x (d :: ds)) s1 (snd (eval_deps inv ds s1)) n2).
        { eapply post_weaken; [|exact P2]. intros x Hx. exists x. split; [right; exact Hx|apply rt_refl]. }
        assert (Hok1 : all_ok n1) by (apply Ho1; discriminate).
        assert (P : post (fun x => In x (d :: ds)) s (snd (eval_deps inv ds s1)) (n2 ++ n1)).
        { eapply post_trans; [exact P1'|exact P2'|]. intros e He.
          apply (gc_cached _ _ _ (proj1 (Forall_forall _ _) (po_calls _ _ _ _ P1) e He)).
          exact (proj1 (Forall_forall _ _) Hok1 e He). }
        destruct (eval_deps inv ds s1) as [[l|r] s2]; cbn [fst snd] in *.
        + exists (n2 ++ n1). split; [exact P|]. split; [intros _; apply Forall_app; split; [apply Ho2; discriminate|exact Hok1]|].
          intros l' [= <-]. destruct (Hk2 l eq_refl) as (HF & HA). split.
          * constructor; [|exact HF]. exists o. eapply holds_mono; [exact (po_mono _ _ _ _ P2)|exact (post_values _ _ _ _ P2)|exact Hh].
          * intros x [<-|Hx]; auto.
        + exists (n2 ++ n1). split; [exact P|]. split; [intros Hne; apply Forall_app; split; [apply Ho2; exact Hne|exact Hok1]|].
          discriminate.
      - exists n1. split; [exact P1'|]. split; [intros _; apply Ho1; discriminate|discriminate].
      - exists n1. split; [exact P1'|]. split; [congruence|discriminate].
      - exists n1. split; [exact P1'|]. split; [intros _; apply Ho1; discriminate|discriminate].
    Qed.

    Lemma in_status_set s n m : in_status s m = true -> in_status (set_status s n) m = true.
    Proof. unfold in_status, set_status. cbn. intros ->. apply orb_true_r. Qed.
    Lemma is_done_mark s q q' : is_done s q' = true -> is_done (mark_done s q) q' = true.
    Proof. unfold is_done, mark_done. cbn. intros ->. apply orb_true_r. Qed.
    Lemma post_same from s s1 s2 new : post from s s1 new ->
      i_cache s2 = i_cache s1 -> i_tr s2 = i_tr s1 -> 
      (forall m, in_status s1 m = true -> in_status s2 m = true) -> (forall q, is_done s1 q = true -> is_done s2 q = true) ->
      (forall q, is_done s2 q = true -> is_done s1 q = true \/ exists n, look n = Found q) ->
      post from s s2 new.
    Proof.
      intros [A1 A2 A3 A4 A5 A6 A7 A8 A9 A10] Hc Ht Hst Hd Hd2. constructor; try rewrite Hc; auto.
      - rewrite Ht. exact A1.
      - eapply Forall_impl; [|exact A2]. intros e [G1 G2 G3 G4 G5 G6 G7]. constructor; try rewrite Hc; auto.
        eapply Forall2_weak; [|exact G6]. intros d a (o & H). exists o. unfold holds in *. rewrite Hc. exact H.
      - unfold Inv. rewrite Hc. exact A7.
      - intros q Hq. apply Hd2 in Hq as [Hq|Hq]; [apply A10; exact Hq|right; exact Hq].
    Qed.
    Lemma post_start from s s1 s2 new : post from s1 s2 new ->
      i_cache s1 = i_cache s -> i_tr s1 = i_tr s -> 
      (forall m, in_status s m = true -> in_status s1 m = true) -> (forall q, is_done s q = true -> is_done s1 q = true) ->
      (forall q, is_done s1 q = true -> is_done s q = true) ->
      post from s s2 new.
    Proof.
      intros [A1 A2 A3 A4 A5 A6 A7 A8 A9 A10] Hc Ht Hst Hd Hd2. rewrite Hc in *. constructor; auto.
      - congruence.
      - eapply Forall_impl; [|exact A2]. intros e [G1 G2 G3 G4 G5 G6 G7]. constructor; auto. congruence.
      - intros q Hq. apply A10 in Hq as [Hq|Hq]; [left; apply Hd2; exact Hq|right; exact Hq].
    Qed.
    Lemma mark_done_new s q q' n : look n = Found q -> is_done (mark_done s q) q' = true -> is_done s q' = true \/ exists n, look n = Found q'.
    Proof.
      intros Hl. unfold is_done, mark_done. cbn. intros H. apply orb_true_iff in H as [H|H]; [|left; exact H].
      apply Nat.eqb_eq in H as ->. right. eauto.
    Qed.
    Lemma holds_same s1 s2 n o : i_cache s2 = i_cache s1 -> holds s1 n o -> holds s2 n o.
    Proof. unfold holds. intros ->. auto. Qed.

    Lemma eval_deps_fail inv ds : forall s o, fst (eval_deps inv ds s) <> DFail (IOk o).
    Proof.
      induction ds as [|d ds IH]; intros s o; cbn [InjectModel.eval_deps]; [discriminate|].
      destruct (look d); [|discriminate|discriminate].
      destruct (negb (is_done s q) && in_status s (p_name (info q))); [discriminate|].
      destruct (inv q s) as [[[|v l]|e| |] s1]; try discriminate.
      specialize (IH s1 o). destruct (eval_deps inv ds s1) as [[l'|r] s2]; [discriminate|exact IH].
    Qed.
    Lemma results_nil g i outs : results g i outs = [] -> outs = [].
    Proof. destruct outs; [reflexivity|discriminate]. Qed.

    Lemma invoke_good fuel : inv_good (invoke fuel).
    Proof.
      induction fuel as [|f IH]; intros n q s Hl Hs.
      { exists []. cbn [InjectModel.invoke fst snd]. split; [apply post_refl; exact Hs|]. split; [constructor|discriminate]. }
      cbn [InjectModel.invoke]. rewrite (look_name _ _ Hl).
      destruct (aget (i_cache s) n) as [o|] eqn:Ec.
      { cbn [fst snd]. exists []. split; [apply post_refl; exact Hs|]. split; [constructor|]. intros out [= <-].
        split; [eapply (proj1 (proj2 Hs)); eassumption|]. split; [left; exact Ec|]. exact (proj2 (proj2 Hs) n o Ec). }
      cbv zeta. set (s0 := set_status s n).
      assert (Hs0 : Inv s0) by exact Hs.
      destruct (p_kind (info q)) as [v|fn ins outs] eqn:Ek.
      { cbn [fst snd]. exists []. split; [|split; [constructor|]].
        - apply (post_same (eq n) s s); [apply post_refl; exact Hs|reflexivity|reflexivity|apply in_status_set| |].
          + intros q' H. apply is_done_mark. exact H.
          + intros q' H. exact (mark_done_new s0 q q' n Hl H).
        - intros out [= <-]. split; [eapply av_value; eassumption|]. split; [|discriminate]. right.
          split; [exact Ec|]. eauto. }
      pose proof (eval_deps_good (invoke f) IH (p_deps (info q)) s0 Hs0) as (n1 & P1 & Ho1 & Hk1).
      pose proof (eval_deps_fail (invoke f) (p_deps (info q)) s0) as Hnf.
      assert (HC0 : aget C0 n = None).
      { destruct (aget C0 n) eqn:E; [|reflexivity]. apply (proj1 Hs) in E. congruence. }
      assert (Hneeds : forall d, In d (p_deps (info q)) -> needs n d) by (intros d Hd; exists q, fn, ins, outs; auto).
      destruct (eval_deps (invoke f) (p_deps (info q)) s0) as [dr s1]. cbn [fst snd] in *.
      assert (P1n : post (eq n) s s1 n1).
      { apply (post_start (eq n) s s0 s1 n1); [|reflexivity|reflexivity|apply in_status_set|auto|auto].
        eapply post_weaken; [|exact P1]. intros d Hd. exists n. split; [reflexivity|]. apply rt_step. auto. }
      assert (Hnn : ~ In n (map ev_name n1)).
      { intros Hin. apply in_map_iff in Hin as (e & He & Hin).
        pose proof (proj1 (Forall_forall _ _) (po_calls _ _ _ _ P1) e Hin) as G.
        pose proof (gc_look _ _ _ G) as Gl. rewrite He, Hl in Gl. injection Gl as Gl.
        pose proof (gc_supp _ _ _ G) as Gs. rewrite <- Gl in Gs.
        destruct (proj1 (Forall_forall _ _) (po_from _ _ _ _ P1) e Hin) as (d & Hd & Hr).
        rewrite He in Hr. apply (avail_acyclic n); [eapply av_fun; eassumption|].
        eapply needs_reach1; [apply Hneeds; exact Hd|exact Hr]. }
      assert (Hn1 : aget (i_cache s1) n = None).
      { destruct (aget (i_cache s1) n) eqn:E; [|reflexivity]. exfalso. apply Hnn.
        apply (po_cached _ _ _ _ P1n); congruence. }
      destruct dr as [args|r].
      - destruct (Hk1 args eq_refl) as (HF & HA). assert (Hok1 : all_ok n1) by (apply Ho1; discriminate).
        assert (Havn : Avail n) by (eapply av_fun; eassumption).
        unfold call_fun. destruct (args_ok assignable args ins); cbn [fst snd].
        2:{ exists n1. split; [|split; [congruence|discriminate]].
            eapply post_same; [exact P1n|reflexivity|reflexivity|auto|apply is_done_mark|intros q'; eapply mark_done_new; exact Hl]. }
        set (e := fun b => Called inj q fn args b).
        assert (Hev : forall b, ev_name (e b) = n) by (intros b; unfold ev_name, e; cbn [c_prov]; apply look_name; exact Hl).
        destruct (call (i_tr s1) fn args) as [g|]; cbn [fst snd].
        + destruct outs as [|t0 ts]; [exfalso; exact (look_outs _ _ _ _ Hl Ek)|].
          rewrite (look_name _ _ Hl). set (o := results g 0 (t0 :: ts)). fold (e true).
          set (s2 := mark_done (set_cache (add_call s1 (e true)) n o) q).
          assert (Hmono : forall m x, aget (i_cache s1) m = Some x -> aget (i_cache s2) m = Some x).
          { intros m x Hx. unfold s2. cbn. rewrite aget_aset_other; [exact Hx|]. congruence. }
          assert (Hmono2 : forall m, m <> n -> aget (i_cache s2) m = aget (i_cache s1) m).
          { intros m Hm. unfold s2. cbn. apply aget_aset_other. congruence. }
          assert (Hn2 : aget (i_cache s2) n = Some o) by (unfold s2; cbn; apply aget_aset_same).
          assert (Hval : forall m q v, look m = Found q -> p_kind (info q) = KVal v -> aget (i_cache s1) m = None -> aget (i_cache s2) m = None).
          { intros m q' v' Hm Hk' Hn'. rewrite Hmono2; [exact Hn'|]. intros ->. congruence. }
          exists (e true :: n1). split; [|split].
          * destruct P1n as [A1 A2 A3 A4 A5 A6 A7 A8 A9 A10]. constructor.
            -- cbn. rewrite A1. reflexivity.
            -- constructor.
               ++ constructor; unfold e; cbn [c_inj c_prov c_fun]; auto.
                  ** rewrite Hev. exact Hl.
                  ** eauto.
                  ** rewrite Hev. exact Ec.
                  ** unfold args_from. cbn [c_prov c_args]. eapply Forall2_weak; [|exact HF]. intros d a (x & Hx). exists x.
                     eapply holds_mono; eauto.
                  ** intros _. change (aget (i_cache s2) (ev_name (e true)) <> None). rewrite Hev, Hn2. discriminate.
               ++ eapply Forall_impl; [|exact A2]. intros x Gx. eapply good_call_later; [exact Gx|exact Hmono|exact Hval].
            -- constructor; [|exact A3]. exists n. split; [reflexivity|]. rewrite Hev. apply rt_refl.
            -- cbn [map]. rewrite Hev. constructor; assumption.
            -- intros m x Hx. apply Hmono. auto.
            -- intros m Hm Hmn. cbn [map]. rewrite Hev. destruct (bytes_eq_dec n m) as [->|Hd]; [left; reflexivity|right].
               apply A6; [|exact Hmn]. rewrite <- Hmono2; [exact Hm|congruence].
            -- destruct A7 as (I1 & I2 & I3). split; [|split].
               ++ intros m x Hx. apply Hmono. auto.
               ++ intros m x qm Hx Hlm. destruct (bytes_eq_dec m n) as [->|Hd]; [exact Havn|]. rewrite Hmono2 in Hx by exact Hd. eauto.
               ++ intros m x Hx. destruct (bytes_eq_dec m n) as [->|Hd]; [|rewrite Hmono2 in Hx by exact Hd; eauto].
                  rewrite Hn2 in Hx. injection Hx as <-. discriminate.
            -- intros m Hm. apply A8 in Hm. exact Hm.
            -- intros q' Hq. apply A9 in Hq. apply is_done_mark. exact Hq.
            -- intros q' Hq. apply (mark_done_new _ _ _ n Hl) in Hq as [Hq|Hq]; [apply A10; exact Hq|right; exact Hq].
          * intros _. constructor; [reflexivity|exact Hok1].
          * intros out [= <-]. split; [exact Havn|]. split; [left; exact Hn2|discriminate].
        + fold (e false). set (s2 := mark_done (add_call s1 (e false)) q).
          exists (e false :: n1). split; [|split; [congruence|discriminate]].
          destruct P1n as [A1 A2 A3 A4 A5 A6 A7 A8 A9 A10]. constructor; auto.
          * cbn. rewrite A1. reflexivity.
          * constructor.
            -- constructor; unfold e; cbn [c_inj c_prov c_fun]; auto.
               ++ rewrite Hev. exact Hl.
               ++ eauto.
               ++ rewrite Hev. exact Ec.
               ++ cbn [c_ok]. discriminate.
            -- eapply Forall_impl; [|exact A2]. intros x Gx. eapply good_call_later; [exact Gx|auto|auto].
          * constructor; [|exact A3]. exists n. split; [reflexivity|]. rewrite Hev. apply rt_refl.
          * cbn [map]. rewrite Hev. constructor; assumption.
          * intros m Hm Hmn. right. apply A6; assumption.
          * intros q' Hq. apply A9 in Hq. apply is_done_mark. exact Hq.
          * intros q' Hq. apply (mark_done_new _ _ _ n Hl) in Hq as [Hq|Hq]; [apply A10; exact Hq|right; exact Hq].
      - destruct r as [o|er| |]; cbn [fst snd].
        + exfalso. apply (Hnf o). reflexivity.
        + exists n1. split; [exact P1n|]. split; [intros _; apply Ho1; congruence|discriminate].
        + exists n1. split; [|split; [congruence|discriminate]].
          eapply post_same; [exact P1n|reflexivity|reflexivity|auto|apply is_done_mark|intros q'; eapply mark_done_new; exact Hl].
        + exists n1. split; [exact P1n|]. split; [intros _; apply Ho1; congruence|discriminate].
    Qed.

    (** ** Termination *)
    Section Term.
      Variable D : list bytes.
      Hypothesis no_loop : forall n, look n <> Loop.
      Hypothesis in_D : forall n q f ins outs, look n = Found q -> p_kind (info q) = KFun f ins outs -> In n D.

      (** no dependency cycle can be reached from [n] *)
      Definition no_cycle (n : bytes) : Prop := forall m, reach n m -> ~ reach1 m m.
      (** functions resolved before are still in the cache *)
      Definition clean (s : ist) : Prop :=
        forall m q f ins outs, look m = Found q -> p_kind (info q) = KFun f ins outs -> is_done s q = true -> aget (i_cache s) m <> None.
      Record stack_ok (stack : list bytes) (s : ist) : Prop := {
        so_nodup : NoDup stack;
        so_incl : incl stack D;
        so_open : forall m, In m stack -> aget (i_cache s) m = None /\ in_status s m = true /\
                  exists q f ins outs, look m = Found q /\ p_kind (info q) = KFun f ins outs
      }.

      Lemma stack_ok_later stack from s s' new :
        stack_ok stack s -> post from s s' new -> (forall d m, from d -> In m stack -> reach1 m d) -> stack_ok stack s'.
      Proof.
        intros [S1 S2 S3] P Ha. constructor; [exact S1|exact S2|]. intros m Hm. destruct (S3 m Hm) as (A & B & C).
        split; [|split; [apply (po_status _ _ _ _ P); exact B|exact C]].
        destruct (aget (i_cache s') m) eqn:E; [exfalso|reflexivity].
        assert (Hin : In m (map ev_name new)) by (apply (po_cached _ _ _ _ P); congruence).
        apply in_map_iff in Hin as (e & He & Hin).
        pose proof (proj1 (Forall_forall _ _) (po_calls _ _ _ _ P) e Hin) as G.
        destruct (proj1 (Forall_forall _ _) (po_from _ _ _ _ P) e Hin) as (d & Hd & Hr). rewrite He in Hr.
        destruct (gc_fun _ _ _ G) as (ins & outs & Hf). pose proof (gc_look _ _ _ G) as Hl. rewrite He in Hl.
        apply (avail_acyclic m); [eapply av_fun; [exact Hl|exact Hf|exact (gc_supp _ _ _ G)]|].
        pose proof (Ha d m Hd Hm) as H1. clear -H1 Hr.
        apply clos_rt_rt1n in Hr. induction Hr as [|x y z Hxy Hyz IH]; [exact H1|].
        apply IH. eapply t_trans; [exact H1|apply t_step; exact Hxy].
      Qed.

      Definition term_inv (inv : nat -> ist -> ires * ist) (stack : list bytes) : Prop :=
        forall n q s, look n = Found q -> ~ In n stack -> Inv s -> stack_ok stack s -> (forall m, In m stack -> reach1 m n) ->
        no_cycle n \/ clean s ->
        fst (inv q s) <> IDiv /\ (clean s -> fst (inv q s) <> IPanic -> clean (snd (inv q s))).

      Lemma eval_deps_term inv stack : inv_good inv -> term_inv inv stack ->
        forall ds s, Inv s -> (forall d m, In d ds -> In m stack -> reach1 m d) -> stack_ok stack s ->
        (forall d, In d ds -> no_cycle d) \/ clean s ->
        fst (eval_deps inv ds s) <> DFail IDiv /\
        (clean s -> fst (eval_deps inv ds s) <> DFail IPanic -> clean (snd (eval_deps inv ds s))).
      Proof.
        intros Hg Ht. induction ds as [|d ds IH]; intros s Hs Ha Hso Hm; cbn [InjectModel.eval_deps]; [split; [discriminate|auto]|].
        destruct (look d) as [q| |] eqn:El; [|split; [discriminate|auto]|exfalso; exact (no_loop _ El)].
        destruct (negb (is_done s q) && in_status s (p_name (info q))) eqn:Ec; [split; [discriminate|auto]|].
        assert (Hnd : ~ In d stack).
        { intros Hin. pose proof (Ha d d (or_introl eq_refl) Hin) as Hr. destruct Hm as [Hm|Hm].
          - exact (Hm d (or_introl eq_refl) d (rt_refl _ _ _) Hr).
          - destruct (so_open _ _ Hso d Hin) as (A & B & (q' & f & ins & outs & Hl' & Hk')).
            assert (q' = q) as -> by congruence. rewrite (look_name _ _ El), B, andb_true_r in Ec.
            apply negb_false_iff in Ec. exact (Hm d q f ins outs El Hk' Ec A). }
        destruct (Ht d q s El Hnd Hs Hso (fun m Hin => Ha d m (or_introl eq_refl) Hin)) as (H1 & H2).
        { destruct Hm as [Hm|Hm]; [left; apply Hm; left; reflexivity|right; exact Hm]. }
        destruct (Hg d q s El Hs) as (n1 & P1 & _ & _).
        destruct (inv q s) as [r s1]. cbn [fst snd] in *.
        destruct r as [[|v o]|e| |]; cbn [fst snd].
        - split; [discriminate|]. congruence.
        - assert (Hso1 : stack_ok stack s1).
          { eapply stack_ok_later; [exact Hso|exact P1|]. intros d' m <- Hin. apply Ha; [left; reflexivity|exact Hin]. }
          destruct (IH s1 (po_inv _ _ _ _ P1) (fun x m Hx => Ha x m (or_intror Hx)) Hso1) as (H3 & H4).
          { destruct Hm as [Hm|Hm]; [left; intros x Hx; apply Hm; right; exact Hx|right; apply H2; [exact Hm|discriminate]]. }
          assert (Hc1 : clean s -> clean s1) by (intros Hc; apply H2; [exact Hc|discriminate]).
          destruct (eval_deps inv ds s1) as [[l|r] s2]; cbn [fst snd] in *.
          + split; [discriminate|]. intros Hc _. apply H4; [auto|discriminate].
          + split; [exact H3|]. auto.
        - split; [discriminate|]. intros Hc _. apply H2; [exact Hc|discriminate].
        - split; [discriminate|]. congruence.
        - congruence.
      Qed.

      Lemma invoke_term fuel : forall stack, List.length D - List.length stack < fuel -> term_inv (invoke fuel) stack.
      Proof.
        induction fuel as [|f IH]; intros stack Hf n q s Hl Hns Hs Hso Ha Hm; [lia|].
        cbn [InjectModel.invoke]. rewrite (look_name _ _ Hl).
        destruct (aget (i_cache s) n) as [o|] eqn:Ec; [cbn [fst snd]; split; [discriminate|auto]|].
        cbv zeta. set (s0 := set_status s n).
        destruct (p_kind (info q)) as [v|fn ins outs] eqn:Ek; cbn [fst snd].
        { split; [discriminate|]. intros Hc _ m q' f' ins outs Hlm Hk Hd. cbn. cbn in Hd.
          apply orb_true_iff in Hd as [Hd|Hd]; [|eapply Hc; eassumption].
          apply Nat.eqb_eq in Hd as ->. congruence. }
        assert (Hs0 : Inv s0) by exact Hs.
        assert (HC0 : aget C0 n = None).
        { destruct (aget C0 n) eqn:E; [|reflexivity]. apply (proj1 Hs) in E. congruence. }
        assert (Hneeds : forall d, In d (p_deps (info q)) -> needs n d) by (intros d Hd; exists q, fn, ins, outs; auto).
        assert (Hso0 : stack_ok (n :: stack) s0).
        { destruct Hso as [S1 S2 S3]. constructor.
          - constructor; assumption.
          - intros m [<-|Hm']; [eapply in_D; eassumption|apply S2; exact Hm'].
          - intros m [<-|Hm'].
            + split; [exact Ec|]. split; [unfold in_status, s0; cbn; rewrite beq_refl; reflexivity|]. eauto 6.
            + destruct (S3 m Hm') as (A & B & C). split; [exact A|]. split; [apply in_status_set; exact B|exact C]. }
        assert (Hlen : List.length D - List.length (n :: stack) < f).
        { pose proof (NoDup_incl_length (so_nodup _ _ Hso0) (so_incl _ _ Hso0)) as HL. cbn [List.length] in *. lia. }
        assert (Ha0 : forall d m, In d (p_deps (info q)) -> In m (n :: stack) -> reach1 m d).
        { intros d m Hd [<-|Hin]; [apply t_step; auto|]. eapply t_trans; [apply Ha; exact Hin|apply t_step; auto]. }
        destruct (eval_deps_term (invoke f) (n :: stack) (invoke_good f) (IH (n :: stack) Hlen) (p_deps (info q)) s0 Hs0 Ha0 Hso0) as (T1 & T2).
        { destruct Hm as [Hm|Hm]; [left|right; exact Hm]. intros d Hd m Hr. apply Hm.
          eapply rt_trans; [apply rt_step; apply Hneeds; exact Hd|exact Hr]. }
        pose proof (eval_deps_fail (invoke f) (p_deps (info q)) s0) as Hnf.
        destruct (eval_deps (invoke f) (p_deps (info q)) s0) as [dr s1]. cbn [fst snd] in *.
        assert (Hc01 : clean s -> dr <> DFail IPanic -> clean s1) by (intros Hc; apply T2; exact Hc).
        destruct dr as [args|r]; cbn [fst snd].
        - unfold call_fun. destruct (args_ok assignable args ins); cbn [fst snd]; [|split; [discriminate|congruence]].
          destruct (call (i_tr s1) fn args) as [g|]; cbn [fst snd]; [|split; [discriminate|congruence]].
          split; [discriminate|]. intros Hc _.
          destruct outs as [|t0 ts]; [exfalso; exact (look_outs _ _ _ _ Hl Ek)|].
          specialize (Hc01 Hc ltac:(discriminate)). intros m q' f' ins' outs' Hlm Hk Hd. cbn. cbn in Hd. rewrite (look_name _ _ Hl).
          destruct (bytes_eq_dec n m) as [->|Hne]; [rewrite aget_aset_same; discriminate|].
          rewrite aget_aset_other by congruence. apply orb_true_iff in Hd as [Hd|Hd]; [|eapply Hc01; eassumption].
          apply Nat.eqb_eq in Hd as ->. exfalso. apply Hne. rewrite <- (look_name _ _ Hl). apply look_name. exact Hlm.
        - destruct r as [o|er| |]; cbn [fst snd].
          + exfalso. apply (Hnf o). reflexivity.
          + split; [discriminate|]. intros Hc _. apply Hc01; [exact Hc|discriminate].
          + split; [discriminate|congruence].
          + congruence.
      Qed.
    End Term.

    (** ** Success *)
    Section Success.
      Hypothesis no_panic : forall tr f args, call tr f args <> None.
      (** the type of what a provider yields *)
      Definition prov_type (q : nat) : rtype :=
        match p_kind (info q) with KVal v => v_ty v | KFun _ _ (t :: _) => t | KFun _ _ [] => TLit 0 end.
      Definition well_typed : Prop := forall n q f ins outs, look n = Found q -> p_kind (info q) = KFun f ins outs ->
        Forall2 (fun d t => forall q', look d = Found q' -> assignable (prov_type q') t = true) (p_deps (info q)) ins.
      Definition cache_typed (s : ist) : Prop := forall m q o, aget (i_cache s) m = Some o -> look m = Found q ->
        exists v o', o = v :: o' /\ v_ty v = prov_type q.
      Definition status_done (stack : list bytes) (s : ist) : Prop := forall m q, in_status s m = true -> look m = Found q ->
        In m stack \/ is_done s q = true.
      Hypothesis typed : well_typed.

      Lemma args_ok_typed ds ins args :
        Forall2 (fun d t => forall q', look d = Found q' -> assignable (prov_type q') t = true) ds ins ->
        Forall2 (fun d a => exists q, look d = Found q /\ v_ty a = prov_type q) ds args -> args_ok assignable args ins = true.
      Proof.
        intros H. revert args. induction H as [|d t ds ins Hd _ IH]; intros args HA; inversion HA as [|? a ? args' (q & Hl & Ht) HA']; subst; cbn [args_ok]; [reflexivity|].
        rewrite Ht, (Hd q Hl). cbn [andb]. apply IH. exact HA'.
      Qed.

      Definition succ_inv (inv : nat -> ist -> ires * ist) (stack : list bytes) : Prop :=
        forall n q s, look n = Found q -> Avail n -> Inv s -> (forall m, reach n m -> ~ In m stack) ->
        status_done stack s -> cache_typed s ->
        fst (inv q s) = IDiv \/
        (exists v o, fst (inv q s) = IOk (v :: o) /\ v_ty v = prov_type q /\
           status_done stack (snd (inv q s)) /\ cache_typed (snd (inv q s))).

      Lemma eval_deps_succ inv stack : inv_good inv -> succ_inv inv stack ->
        forall ds s, (forall d, In d ds -> Avail d) -> Inv s -> (forall d m, In d ds -> reach d m -> ~ In m stack) ->
        status_done stack s -> cache_typed s ->
        fst (eval_deps inv ds s) = DFail IDiv \/
        exists l, fst (eval_deps inv ds s) = DArgs l /\
          Forall2 (fun d a => exists q, look d = Found q /\ v_ty a = prov_type q) ds l /\
          status_done stack (snd (eval_deps inv ds s)) /\ cache_typed (snd (eval_deps inv ds s)).
      Proof.
        intros Hg Hi. induction ds as [|d ds IH]; intros s Ha Hs Hst Hsd Hct; cbn [InjectModel.eval_deps].
        { right. exists []. cbn [fst snd]. auto. }
        assert (Hl : exists q, look d = Found q).
        { destruct (Ha d (or_introl eq_refl)); eauto. }
        destruct Hl as (q & Hl). rewrite Hl, (look_name _ _ Hl).
        destruct (negb (is_done s q) && in_status s d) eqn:Ec.
        { exfalso. apply andb_true_iff in Ec as (E1 & E2). apply negb_true_iff in E1.
          destruct (Hsd d q E2 Hl) as [H|H]; [|congruence].
          exact (Hst d d (or_introl eq_refl) (rt_refl _ _ _) H). }
        destruct (Hg d q s Hl Hs) as (n1 & P1 & _ & _).
        destruct (Hi d q s Hl (Ha d (or_introl eq_refl)) Hs (fun m => Hst d m (or_introl eq_refl)) Hsd Hct) as [E|(v & o & E & Ht & Hsd1 & Hct1)].
        { destruct (inv q s) as [r s1]. cbn [fst snd] in *. subst r. left. reflexivity. }
        destruct (inv q s) as [r s1]. cbn [fst snd] in *. subst r.
        destruct (IH s1 (fun x Hx => Ha x (or_intror Hx)) (po_inv _ _ _ _ P1) (fun x m Hx => Hst x m (or_intror Hx)) Hsd1 Hct1)
          as [E|(l & E & HF & Hsd2 & Hct2)].
        - destruct (eval_deps inv ds s1) as [dr s2]. cbn [fst snd] in *. subst dr. left. reflexivity.
        - destruct (eval_deps inv ds s1) as [dr s2]. cbn [fst snd] in *. subst dr. right. exists (v :: l). cbn [fst snd].
          split; [reflexivity|]. split; [constructor; eauto|auto].
      Qed.

      Lemma invoke_succ fuel : forall stack, succ_inv (invoke fuel) stack.
      Proof.
        induction fuel as [|f IH]; intros stack n q s Hl Hav Hs Hst Hsd Hct; [left; reflexivity|].
        cbn [InjectModel.invoke]. rewrite (look_name _ _ Hl).
        destruct (aget (i_cache s) n) as [o|] eqn:Ec.
        { right. destruct (Hct n q o Ec Hl) as (v & o' & -> & Ht). cbn [fst snd]. eauto 8. }
        cbv zeta. set (s0 := set_status s n).
        assert (Hsd0 : status_done (n :: stack) s0).
        { intros m q' Hm Hlm. unfold in_status, s0, set_status in Hm. cbn in Hm. apply orb_true_iff in Hm as [Hm|Hm].
          - apply beq_true in Hm as ->. left. left. reflexivity.
          - destruct (Hsd m q' Hm Hlm) as [H|H]; [left; right; exact H|right; exact H]. }
        assert (Hmark : forall s1, status_done (n :: stack) s1 -> status_done stack (mark_done s1 q)).
        { intros s1 H m q' Hm Hlm. destruct (H m q' Hm Hlm) as [[<-|Hin]|Hd]; [right|left; exact Hin|right; apply is_done_mark; exact Hd].
          assert (q' = q) as -> by congruence. unfold is_done, mark_done. cbn. rewrite Nat.eqb_refl. reflexivity. }
        assert (HC0 : aget C0 n = None).
        { destruct (aget C0 n) eqn:E; [|reflexivity]. apply (proj1 Hs) in E. congruence. }
        destruct (p_kind (info q)) as [v|fn ins outs] eqn:Ek; cbn [fst snd].
        { right. exists v, []. split; [reflexivity|]. split; [unfold prov_type; rewrite Ek; reflexivity|].
          split; [apply Hmark; exact Hsd0|exact Hct]. }
        assert (Hneeds : forall d, In d (p_deps (info q)) -> needs n d) by (intros d Hd; exists q, fn, ins, outs; auto).
        assert (Hav' : forall d, In d (p_deps (info q)) -> Avail d).
        { intros d Hd. eapply avail_closed; [exact Hav|apply rt_step; auto]. }
        destruct (eval_deps_succ (invoke f) (n :: stack) (invoke_good f) (IH (n :: stack)) (p_deps (info q)) s0 Hav' Hs) as [E|(l & E & HF & Hsd1 & Hct1)].
        { intros d m Hd Hr [<-|Hin].
          - apply (avail_acyclic n Hav). eapply needs_reach1; [apply Hneeds; exact Hd|exact Hr].
          - apply (Hst m); [|exact Hin]. eapply rt_trans; [apply rt_step; apply Hneeds; exact Hd|exact Hr]. }
        { exact Hsd0. }
        { exact Hct. }
        - left. destruct (eval_deps (invoke f) (p_deps (info q)) s0) as [dr s1]. cbn [fst snd] in *. subst dr. reflexivity.
        - right. destruct (eval_deps (invoke f) (p_deps (info q)) s0) as [dr s1]. cbn [fst snd] in *. subst dr.
          unfold call_fun. rewrite (args_ok_typed _ _ _ (typed n q fn ins outs Hl Ek) HF).
          destruct (call (i_tr s1) fn l) as [g|] eqn:Eg; [|exfalso; exact (no_panic _ _ _ Eg)]. cbn [fst snd].
          destruct outs as [|t0 ts]; [exfalso; exact (look_outs _ _ _ _ Hl Ek)|]. cbn [results].
          eexists _, _. split; [reflexivity|]. split; [cbn; unfold prov_type; rewrite Ek; reflexivity|]. split.
          + apply Hmark. exact Hsd1.
          + intros m q' o Hm Hlm. cbn in Hm. rewrite (look_name _ _ Hl) in Hm.
            destruct (bytes_eq_dec n m) as [->|Hne].
            * rewrite aget_aset_same in Hm. injection Hm as <-. eexists _, _. split; [reflexivity|].
              cbn. assert (q' = q) as -> by congruence. unfold prov_type. rewrite Ek. reflexivity.
            * rewrite aget_aset_other in Hm by congruence. eapply Hct1; eassumption.
      Qed.

      (** nothing panics by itself *)
      Definition np_inv (inv : nat -> ist -> ires * ist) : Prop :=
        forall n q s, look n = Found q -> cache_typed s ->
        fst (inv q s) <> IPanic /\ cache_typed (snd (inv q s)) /\
        (forall out, fst (inv q s) = IOk out -> exists v o, out = v :: o /\ v_ty v = prov_type q).
      Lemma eval_deps_np inv : np_inv inv -> forall ds s, cache_typed s ->
        fst (eval_deps inv ds s) <> DFail IPanic /\ cache_typed (snd (eval_deps inv ds s)) /\
        (forall l, fst (eval_deps inv ds s) = DArgs l -> Forall2 (fun d a => exists q, look d = Found q /\ v_ty a = prov_type q) ds l).
      Proof.
        intros Hi. induction ds as [|d ds IH]; intros s Hct; cbn [InjectModel.eval_deps].
        { cbn [fst snd]. split; [discriminate|]. split; [exact Hct|]. intros l [= <-]. constructor. }
        destruct (look d) as [q| |] eqn:Hl; [|cbn [fst snd]; split; [discriminate|split; [exact Hct|discriminate]]..].
        destruct (negb (is_done s q) && in_status s (p_name (info q))); [cbn [fst snd]; split; [discriminate|split; [exact Hct|discriminate]]|].
        destruct (Hi d q s Hl Hct) as (H1 & H2 & H3). destruct (inv q s) as [r s1]. cbn [fst snd] in *.
        destruct r as [out|e| |]; [|cbn [fst snd]; split; [congruence|split; [exact H2|discriminate]]..].
        destruct (H3 out eq_refl) as (v & o & -> & Ht). destruct (IH s1 H2) as (G1 & G2 & G3).
        destruct (eval_deps inv ds s1) as [[l|r] s2]; cbn [fst snd] in *.
        - split; [discriminate|]. split; [exact G2|]. intros l' [= <-]. constructor; eauto.
        - split; [exact G1|]. split; [exact G2|]. discriminate.
      Qed.
      Lemma invoke_np fuel : np_inv (invoke fuel).
      Proof.
        induction fuel as [|f IH]; intros n q s Hl Hct; cbn [InjectModel.invoke]; [cbn [fst snd]; split; [discriminate|split; [exact Hct|discriminate]]|].
        rewrite (look_name _ _ Hl). destruct (aget (i_cache s) n) as [o|] eqn:Ec.
        { cbn [fst snd]. split; [discriminate|]. split; [exact Hct|]. intros out [= <-]. eapply Hct; eassumption. }
        cbv zeta. destruct (p_kind (info q)) as [v|fn ins outs] eqn:Ek; cbn [fst snd].
        { split; [discriminate|]. split; [exact Hct|]. intros out [= <-]. exists v, []. split; [reflexivity|]. unfold prov_type. rewrite Ek. reflexivity. }
        destruct (eval_deps_np (invoke f) IH (p_deps (info q)) (set_status s n) Hct) as (G1 & G2 & G3).
        pose proof (eval_deps_fail (invoke f) (p_deps (info q)) (set_status s n)) as Hnf.
        destruct (eval_deps (invoke f) (p_deps (info q)) (set_status s n)) as [dr s1]. cbn [fst snd] in *.
        destruct dr as [args|r].
        - unfold call_fun. rewrite (args_ok_typed _ _ _ (typed n q fn ins outs Hl Ek) (G3 args eq_refl)).
          destruct (call (i_tr s1) fn args) as [g|] eqn:Eg; [|exfalso; exact (no_panic _ _ _ Eg)]. cbn [fst snd].
          destruct outs as [|t0 ts]; [exfalso; exact (look_outs _ _ _ _ Hl Ek)|]. cbn [results].
          assert (Hp : prov_type q = t0) by (unfold prov_type; rewrite Ek; reflexivity).
          split; [discriminate|]. split.
          + intros m q' o Hm Hlm. cbn in Hm. rewrite (look_name _ _ Hl) in Hm. destruct (bytes_eq_dec n m) as [->|Hne].
            * rewrite aget_aset_same in Hm. injection Hm as <-. eexists _, _. split; [reflexivity|]. cbn. congruence.
            * rewrite aget_aset_other in Hm by congruence. eapply G2; eassumption.
          + intros out [= <-]. eexists _, _. split; [reflexivity|]. cbn. congruence.
        - destruct r as [o|er| |]; cbn [fst snd]; try (split; [discriminate|split; [exact G2|discriminate]]).
          + exfalso. apply (Hnf o). reflexivity.
          + congruence.
      Qed.
    End Success.

    (** complete and acyclic graphs are available *)
    Lemma acyclic_avail D :
      (forall n q f ins outs, look n = Found q -> p_kind (info q) = KFun f ins outs -> In n D) ->
      forall n, (forall m, reach n m -> exists q, look m = Found q) -> (forall m, reach n m -> ~ reach1 m m) -> Avail n.
    Proof.
      intros HD. assert (X : forall k stack n, List.length D - List.length stack < k -> NoDup stack -> incl stack D ->
        (forall m, In m stack -> reach1 m n) -> (forall m, reach n m -> exists q, look m = Found q) -> (forall m, reach n m -> ~ reach1 m m) -> Avail n).
      { induction k as [|k IH]; intros stack n Hk Hnd Hin Hst Hc Ha; [lia|].
        destruct (Hc n (rt_refl _ _ _)) as (q & Hl). destruct (aget C0 n) as [o|] eqn:Ec; [eapply av_cached; eassumption|].
        destruct (p_kind (info q)) as [v|f ins outs] eqn:Ek; [eapply av_value; eassumption|].
        assert (Hn : ~ In n stack) by (intros H; exact (Ha n (rt_refl _ _ _) (Hst n H))).
        assert (Hd : forall d, In d (p_deps (info q)) -> needs n d) by (intros d Hd; exists q, f, ins, outs; auto).
        assert (Hin' : incl (n :: stack) D) by (intros m [<-|Hm]; [eapply HD; eassumption|apply Hin; exact Hm]).
        assert (Hnd' : NoDup (n :: stack)) by (constructor; assumption).
        pose proof (NoDup_incl_length Hnd' Hin') as HL. cbn [List.length] in HL.
        eapply av_fun; [exact Hl|exact Ek|]. intros d Hin1. apply (IH (n :: stack)).
        - cbn [List.length]. lia.
        - exact Hnd'.
        - exact Hin'.
        - intros m [<-|Hm]; [apply t_step; auto|]. eapply t_trans; [apply Hst; exact Hm|apply t_step; auto].
        - intros m Hm. apply Hc. eapply rt_trans; [apply rt_step; apply Hd; exact Hin1|exact Hm].
        - intros m Hm. apply Ha. eapply rt_trans; [apply rt_step; apply Hd; exact Hin1|exact Hm]. }
      intros n. apply (X (S (List.length D)) [] n); [cbn; lia|constructor|intros ? []|intros ? []].
    Qed.
    (** and what is not complete is not available *)
    Lemma avail_complete n m : Avail n -> reach n m -> exists q, look m = Found q.
    Proof. intros Ha Hr. destruct (avail_closed n m Ha Hr); eauto. Qed.
  End Start.
End Graph.
