(** InjectHist: effects of operations and invariants of whole programs. *)
From Coq Require Import List Ascii String Bool Arith Lia Relations.
Import ListNotations.
From Verif Require Import GoStr InjectModel InjectFacts InjectWorld InjectSpec.

(** what a lookup operation on injector [i] does to the world; [n] is the slot
    of an invoked function ("" for Find and Apply), [root] its provider number *)
Record weff (w w' : world) (i : nat) (n : bytes) (root : nat) : Prop := {
  we_len : List.length (w_inj w') = List.length (w_inj w);
  we_values : forall k, j_values (jget w' k) = j_values (jget w k);
  we_parent : forall k, j_parent (jget w' k) = j_parent (jget w k);
  we_provs : exists ps, w_prov w' = w_prov w ++ ps /\ Forall prov_ok ps;
  we_others : forall k, k <> i -> j_cache (jget w' k) = j_cache (jget w k);
  we_full : forall m o, aget (j_cache (jget w' i)) m = Some o -> o <> [];
  we_mono : forall m o, m <> n -> aget (j_cache (jget w i)) m = Some o -> aget (j_cache (jget w' i)) m = Some o;
  we_tr : exists new, w_tr w' = new ++ w_tr w /\ NoDup (map c_prov new) /\
          Forall (fun e => c_inj e = i /\
            ((c_prov e = root /\ root = List.length (w_prov w) /\ root < List.length (w_prov w')) \/
             (visible w i (p_name (info_of w (c_prov e))) = Found (c_prov e) /\
              aget (j_cache (jget w i)) (p_name (info_of w (c_prov e))) = None /\
              (c_ok e = true -> p_name (info_of w (c_prov e)) <> n ->
               aget (j_cache (jget w' i)) (p_name (info_of w (c_prov e))) <> None)))) new;
  we_cnew : forall m, aget (j_cache (jget w' i)) m <> None -> aget (j_cache (jget w i)) m = None ->
          exists e, In e (w_tr w') /\ c_inj e = i /\ p_name (info_of w' (c_prov e)) = m /\ has_colon m = true /\
            (m <> n -> visible w i m = Found (c_prov e) /\ is_fun (info_of w (c_prov e)) = true);
  we_done : forall q, In q (w_done w') -> In q (w_done w) \/ q < List.length (w_prov w')
}.

Lemma is_done_In s q : is_done s q = true <-> In q (i_done s).
Proof.
  unfold is_done. rewrite existsb_exists. split.
  - intros (x & Hx & E). apply Nat.eqb_eq in E as ->. exact Hx.
  - intros H. exists q. split; [exact H|apply Nat.eqb_refl].
Qed.

Lemma jget_commit_same w i s : i < List.length (w_inj w) ->
  jget (commit w i s) i = Inj (j_values (jget w i)) (i_cache s) (j_parent (jget w i)).
Proof. intros H. apply nth_upd_same. exact H. Qed.
Lemma jget_commit_other w i k s : i <> k -> jget (commit w i s) k = jget w k.
Proof. intros H. apply nth_upd_other. exact H. Qed.

Section Eff.
  Variable assignable : rtype -> rtype -> bool.
  Variable call : list callev -> nat -> list val -> option (nat -> option nat).

  (** info of older providers is not changed by new ones *)
  Lemma info_old w ps q js d tr : q < List.length (w_prov w) -> info_of (World js (w_prov w ++ ps) d tr) q = info_of w q.
  Proof. intros H. unfold info_of. cbn. apply app_nth1. exact H. Qed.

  Lemma post_weff w i s new : winv w -> i < List.length (w_inj w) ->
    post i (visible w i) (info_of w) (j_cache (jget w i)) (fun _ => True) (begin w i) s new ->
    weff w (commit w i s) i [] (List.length (w_prov w)).
  Proof.
    intros W Hi P. pose proof (jget_commit_same w i s Hi) as Hj. constructor.
    - apply upd_length.
    - intros k. destruct (Nat.eq_dec i k) as [<-|Hne]; [rewrite Hj; reflexivity|rewrite jget_commit_other by exact Hne; reflexivity].
    - intros k. destruct (Nat.eq_dec i k) as [<-|Hne]; [rewrite Hj; reflexivity|rewrite jget_commit_other by exact Hne; reflexivity].
    - exists []. cbn. rewrite app_nil_r. split; [reflexivity|constructor].
    - intros k Hk. rewrite jget_commit_other by congruence. reflexivity.
    - intros m o. rewrite Hj. cbn. apply (proj2 (proj2 (po_inv _ _ _ _ _ _ _ _ P))).
    - intros m o _ H. rewrite Hj. cbn. apply (po_mono _ _ _ _ _ _ _ _ P). exact H.
    - exists new. split; [exact (po_tr _ _ _ _ _ _ _ _ P)|]. split.
      + apply (NoDup_map_inv (fun q => p_name (info_of w q))). rewrite map_map. exact (po_nodup _ _ _ _ _ _ _ _ P).
      + eapply Forall_impl; [|exact (po_calls _ _ _ _ _ _ _ _ P)]. intros e G. split; [exact (gc_inj _ _ _ _ _ _ _ G)|]. right.
        split; [exact (gc_look _ _ _ _ _ _ _ G)|]. split; [exact (gc_new _ _ _ _ _ _ _ G)|].
        intros Hok _. rewrite Hj. cbn. exact (gc_cached _ _ _ _ _ _ _ G Hok).
    - intros m. rewrite Hj. cbn [j_cache]. intros H1 H2. pose proof (po_cached _ _ _ _ _ _ _ _ P m H1 H2) as Hin.
      apply in_map_iff in Hin as (e & He & Hin).
      pose proof (proj1 (Forall_forall _ _) (po_calls _ _ _ _ _ _ _ _ P) e Hin) as G. exists e.
      split; [cbn; rewrite (po_tr _ _ _ _ _ _ _ _ P); apply in_app_iff; left; exact Hin|].
      split; [exact (gc_inj _ _ _ _ _ _ _ G)|]. split; [exact He|].
      split; [rewrite <- He; exact (proj1 (visible_values _ _ _ _ (gc_look _ _ _ _ _ _ _ G)))|]. intros _. rewrite <- He.
      split; [exact (gc_look _ _ _ _ _ _ _ G)|]. destruct (gc_fun _ _ _ _ _ _ _ G) as (ins & outs & Hk). unfold is_fun. rewrite Hk. reflexivity.
    - intros q Hq. cbn in Hq. apply is_done_In in Hq. apply (po_dnew _ _ _ _ _ _ _ _ P) in Hq as [Hq|(n & Hn)].
      + left. apply is_done_In in Hq. exact Hq.
      + right. cbn. eapply visible_lt; eassumption.
  Qed.

  Lemma begin_weff w i : winv w -> i < List.length (w_inj w) -> weff w w i [] (List.length (w_prov w)).
  Proof.
    intros W Hi. rewrite <- (commit_begin w i) at 2. eapply post_weff; [exact W|exact Hi|]. apply post_refl. apply begin_inv. exact W.
  Qed.

  Lemma find_weff w i fuel t l : winv w -> i < List.length (w_inj w) ->
    weff w (fst (find_op assignable call w i fuel t l)) i [] (List.length (w_prov w)).
  Proof.
    intros W Hi. unfold find_op. cbv zeta.
    destruct (look_in w i (create_name (indirect t) l)) as [q| |] eqn:El; [|apply begin_weff; assumption..].
    destruct (inject_run assignable call w i W fuel t l (begin w i) (begin_inv w i W) q El) as (new & P & _ & _).
    assert (Hw : weff w (commit w i (snd (run_invoke assignable call w i fuel q (begin w i)))) i [] (List.length (w_prov w)))
      by (eapply post_weff; eassumption).
    destruct (run_invoke assignable call w i fuel q (begin w i)) as [[[|v o]|e| |] s]; exact Hw.
  Qed.
  Lemma apply_weff w i fuel fs : winv w -> i < List.length (w_inj w) ->
    weff w (fst (apply_op assignable call w i fuel fs)) i [] (List.length (w_prov w)).
  Proof.
    intros W Hi. unfold apply_op, apply_struct.
    destruct (apply_lvl_sub assignable call w i W fuel (max_level - 1) fs [] (begin w i) (begin_inv w i W)) as (new & P & _ & _).
    assert (Hw : weff w (commit w i (snd (apply_lvl assignable call w i fuel (max_level - 1) fs [] (begin w i)))) i [] (List.length (w_prov w)))
      by (eapply post_weff; eassumption).
    destruct (apply_lvl assignable call w i fuel (max_level - 1) fs [] (begin w i)) as [[l|r] s]; exact Hw.
  Qed.

  (** *** Invoke: the invoked function is a provider nobody can look up *)
  Lemma look_up_add w p f : forall i n, look_up (add_prov w p) f i n = look_up w f i n.
  Proof. induction f as [|f IH]; intros i n; cbn [look_up]; [reflexivity|]. unfold jget, add_prov in *; cbn [w_inj] in *.
    destruct (aget (j_values (nth i (w_inj w) inj0)) n); [reflexivity|].
    destruct (j_parent (nth i (w_inj w) inj0)); [apply IH|reflexivity]. Qed.
  Lemma visible_add w p i n : visible (add_prov w p) i n = visible w i n.
  Proof. unfold visible, look_in. rewrite look_up_add. reflexivity. Qed.
  Lemma add_prov_winv w p : winv w -> prov_ok p -> winv (add_prov w p).
  Proof.
    intros W Hp. constructor; cbn [w_prov w_done w_tr w_inj add_prov].
    - intros i n q H. destruct (wi_values _ W i n q H) as (A & B). rewrite app_length. split; [lia|].
      unfold add_prov. rewrite info_old by exact A. exact B.
    - apply Forall_app. split; [exact (wi_provs _ W)|constructor; [exact Hp|constructor]].
    - exact (wi_caches _ W).
    - exact (wi_parent _ W).
    - intros q Hq. rewrite app_length. apply (wi_done _ W) in Hq. lia.
    - intros e He. rewrite app_length. apply (wi_called _ W) in He. lia.
  Qed.
  Lemma info_new w p : info_of (add_prov w p) (List.length (w_prov w)) = p.
  Proof. unfold info_of. cbn. rewrite app_nth2, Nat.sub_diag by lia. reflexivity. Qed.

  (** how an invocation of any provider [q] ends: its dependencies, then perhaps the call *)
  Lemma root_run w i fuel q r s' : winv w ->
    run_invoke assignable call w i fuel q (begin w i) = (r, s') ->
    exists s1 n1,
      post i (visible w i) (info_of w) (j_cache (jget w i)) (fun d => In d (p_deps (info_of w q))) (set_status (begin w i) (p_name (info_of w q))) s1 n1 /\
      (forall x, In x (i_done s') -> In x (i_done s1) \/ x = q) /\
      ((i_tr s' = i_tr s1 /\ i_cache s' = i_cache s1 /\
        (aget (j_cache (jget w i)) (p_name (info_of w q)) = None -> is_fun (info_of w q) = true -> forall out, r <> IOk out)) \/
       (exists f ins outs args ok, p_kind (info_of w q) = KFun f ins outs /\
          i_tr s' = Called i q f args ok :: i_tr s1 /\
          (all_ok n1 /\ Forall2 (fun d a => exists o, holds (visible w i) (info_of w) s1 d (a :: o)) (p_deps (info_of w q)) args /\
           forall d, In d (p_deps (info_of w q)) -> Avail (visible w i) (info_of w) (j_cache (jget w i)) d) /\
          ((ok = false /\ r = IPanic /\ i_cache s' = i_cache s1 /\ call (i_tr s1) f args = None) \/
           (exists g, ok = true /\ call (i_tr s1) f args = Some g /\ r = IOk (results g 0 outs) /\
              i_cache s' = match outs with [] => i_cache s1 | _ => aset (i_cache s1) (p_name (info_of w q)) (results g 0 outs) end)))).
  Proof.
    intros W. rewrite run_invoke_visible by exact W. pose proof (begin_inv w i W) as Hb.
    assert (Hb0 : Inv (visible w i) (info_of w) (j_cache (jget w i)) (set_status (begin w i) (p_name (info_of w q)))) by exact Hb.
    destruct fuel as [|f]; cbn [invoke].
    { intros [= <- <-]. exists (set_status (begin w i) (p_name (info_of w q))), []. split; [apply post_refl; exact Hb0|].
      split; [auto|]. left. split; [reflexivity|]. split; [reflexivity|]. discriminate. }
    change (i_cache (begin w i)) with (j_cache (jget w i)).
    destruct (aget (j_cache (jget w i)) (p_name (info_of w q))) as [o|] eqn:Ec.
    { intros [= <- <-]. exists (set_status (begin w i) (p_name (info_of w q))), []. split; [apply post_refl; exact Hb0|].
      split; [auto|]. left. split; [reflexivity|]. split; [reflexivity|]. discriminate. }
    cbv zeta. unfold is_fun. destruct (p_kind (info_of w q)) as [v|fn ins outs] eqn:Ek; cbn [fst snd].
    { intros [= <- <-]. exists (set_status (begin w i) (p_name (info_of w q))), []. split; [apply post_refl; exact Hb0|].
      split; [cbn; intros x [<-|Hx]; auto|]. left. split; [reflexivity|]. split; [reflexivity|]. discriminate. }
    pose proof (eval_deps_good i (visible w i) (info_of w) (j_cache (jget w i)) (invoke assignable call i (visible w i) (info_of w) f)
       (invoke_good assignable call i (visible w i) (info_of w) (visible_name w i W) (visible_outs w i W) (j_cache (jget w i)) f)
       (p_deps (info_of w q)) _ Hb0) as (n1 & P & Ho & Ha).
    pose proof (eval_deps_fail (visible w i) (info_of w) (invoke assignable call i (visible w i) (info_of w) f) (p_deps (info_of w q)) (set_status (begin w i) (p_name (info_of w q)))) as Hnf.
    destruct (eval_deps (visible w i) (info_of w) (invoke assignable call i (visible w i) (info_of w) f) (p_deps (info_of w q))
               (set_status (begin w i) (p_name (info_of w q)))) as [dr s1]. cbn [fst snd] in P, Ho, Hnf, Ha.
    intros E. exists s1, n1. split; [exact P|].
    destruct dr as [args|r1].
    - unfold call_fun in E. destruct (args_ok assignable args ins); cbn [fst snd] in E.
      + destruct (call (i_tr s1) fn args) as [g|] eqn:Eg; cbn [fst snd] in E; injection E as <- <-.
        * split; [destruct outs; cbn; intros x [<-|Hx]; auto|]. right. exists fn, ins, outs, args, true. split; [reflexivity|].
          split; [destruct outs; reflexivity|]. split; [split; [apply Ho; discriminate|exact (Ha _ eq_refl)]|]. right. exists g.
          split; [reflexivity|]. split; [exact Eg|]. split; [reflexivity|]. destruct outs; reflexivity.
        * split; [cbn; intros x [<-|Hx]; auto|]. right. exists fn, ins, outs, args, false. split; [reflexivity|].
          split; [reflexivity|]. split; [split; [apply Ho; discriminate|exact (Ha _ eq_refl)]|]. left. auto.
      + injection E as <- <-. split; [cbn; intros x [<-|Hx]; auto|]. left. split; [reflexivity|]. split; [reflexivity|]. discriminate.
    - destruct r1 as [o|er| |]; cbn [fst snd] in E.
      + exfalso. apply (Hnf o). reflexivity.
      + injection E as <- <-. split; [auto|]. left. split; [reflexivity|]. split; [reflexivity|]. discriminate.
      + injection E as <- <-. split; [cbn; intros x [<-|Hx]; auto|]. left. split; [reflexivity|]. split; [reflexivity|]. discriminate.
      + injection E as <- <-. split; [auto|]. left. split; [reflexivity|]. split; [reflexivity|]. discriminate.
  Qed.

  Lemma drop_values w i n k : j_values (jget (drop_cache w i n) k) = j_values (jget w k).
  Proof.
    unfold drop_cache. destruct (Nat.eq_dec i k) as [<-|Hne]; [|rewrite jget_set_other by exact Hne; reflexivity].
    destruct (Nat.lt_ge_cases i (List.length (w_inj w))) as [H|H]; [rewrite jget_set_same by exact H; reflexivity|].
    unfold jget. cbn. rewrite nth_overflow by (rewrite upd_length; exact H). rewrite nth_overflow by exact H. reflexivity.
  Qed.
  Lemma drop_parent w i n k : j_parent (jget (drop_cache w i n) k) = j_parent (jget w k).
  Proof.
    unfold drop_cache. destruct (Nat.eq_dec i k) as [<-|Hne]; [|rewrite jget_set_other by exact Hne; reflexivity].
    destruct (Nat.lt_ge_cases i (List.length (w_inj w))) as [H|H]; [rewrite jget_set_same by exact H; reflexivity|].
    unfold jget. cbn. rewrite nth_overflow by (rewrite upd_length; exact H). rewrite nth_overflow by exact H. reflexivity.
  Qed.
  Lemma drop_cache_other w i n k : k <> i -> j_cache (jget (drop_cache w i n) k) = j_cache (jget w k).
  Proof. intros H. unfold drop_cache. rewrite jget_set_other by congruence. reflexivity. Qed.
  Lemma drop_cache_same w i n : i < List.length (w_inj w) -> j_cache (jget (drop_cache w i n) i) = adel (j_cache (jget w i)) n.
  Proof. intros H. unfold drop_cache. rewrite jget_set_same by exact H. reflexivity. Qed.
  Lemma weff_drop w w' i n root : i < List.length (w_inj w) -> weff w w' i n root -> weff w (drop_cache w' i n) i n root.
  Proof.
    intros Hi [A1 A2 A3 A4 A5 A6 A7 A8 A9 A10].
    assert (Hi' : i < List.length (w_inj w')) by (rewrite A1; exact Hi).
    assert (Hc : forall m, m <> n -> aget (j_cache (jget (drop_cache w' i n) i)) m = aget (j_cache (jget w' i)) m).
    { intros m Hm. rewrite drop_cache_same by exact Hi'. apply aget_adel_other. congruence. }
    constructor; auto.
    - cbn. rewrite upd_length. exact A1.
    - intros k. rewrite drop_values. apply A2.
    - intros k. rewrite drop_parent. apply A3.
    - intros k Hk. rewrite drop_cache_other by exact Hk. apply A5. exact Hk.
    - intros m o H. destruct (bytes_eq_dec m n) as [->|Hm].
      + rewrite drop_cache_same, aget_adel_same in H by exact Hi'. discriminate.
      + rewrite Hc in H by exact Hm. eauto.
    - intros m o Hm H. rewrite Hc by exact Hm. auto.
    - destruct A8 as (new & T & N & F). exists new. split; [exact T|]. split; [exact N|].
      eapply Forall_impl; [|exact F]. intros e (I1 & [R|(V & U & K)]); (split; [exact I1|]); [left; exact R|right].
      split; [exact V|]. split; [exact U|]. intros Hok Hne. rewrite Hc by exact Hne. auto.
    - intros m H1 H2. apply A9; [|exact H2]. destruct (bytes_eq_dec m n) as [->|Hm]; [|rewrite Hc in H1 by exact Hm; exact H1].
      rewrite drop_cache_same, aget_adel_same in H1 by exact Hi'. congruence.
  Qed.

  Lemma invoke_weff w i fuel o p : winv w -> i < List.length (w_inj w) -> new_provider o = Some p ->
    weff w (fst (invoke_op assignable call w i fuel o)) i (p_name p) (List.length (w_prov w)).
  Proof.
    intros W Hi Hp. unfold invoke_op. rewrite Hp. cbv zeta. set (w1 := add_prov w p). set (q := List.length (w_prov w)).
    assert (W1 : winv w1) by (apply add_prov_winv; [exact W|eapply new_provider_ok; exact Hp]).
    assert (Hq : info_of w1 q = p) by apply info_new.
    destruct (run_invoke assignable call w1 i fuel q (begin w1 i)) as [r s'] eqn:E.
    assert (Hw : weff w (commit w1 i s') i (p_name p) q).
    { destruct (root_run w1 i fuel q r s' W1 E) as (s1 & n1 & P & Hd & Hcase). rewrite Hq in *.
      assert (Hi1 : i < List.length (w_inj w1)) by exact Hi.
      pose proof (jget_commit_same w1 i s' Hi1) as Hj.
      assert (Hcache : forall m, m <> p_name p -> aget (i_cache s') m = aget (i_cache s1) m).
      { intros m Hm. destruct Hcase as [(_ & -> & _)|(f & ins & outs & args & ok & _ & _ & _ & [(_ & _ & -> & _)|(g & _ & _ & _ & ->)])]; try reflexivity.
        destruct outs; [reflexivity|]. apply aget_aset_other. congruence. }
      assert (Hold : forall e, In e n1 -> c_prov e < List.length (w_prov w) /\ info_of w1 (c_prov e) = info_of w (c_prov e) /\
                 visible w i (p_name (info_of w (c_prov e))) = Found (c_prov e)).
      { intros e He. pose proof (gc_look _ _ _ _ _ _ _ (proj1 (Forall_forall _ _) (po_calls _ _ _ _ _ _ _ _ P) e He)) as G.
        unfold ev_name in G. unfold w1 in G. rewrite visible_add in G.
        pose proof (visible_lt w i _ _ W G) as Hlt. split; [exact Hlt|].
        assert (Hio : info_of w1 (c_prov e) = info_of w (c_prov e)) by (apply info_old; exact Hlt).
        split; [exact Hio|]. fold w1 in G. rewrite Hio in G. exact G. }
      assert (Hn1 : Forall (fun e => c_inj e = i /\
            ((c_prov e = q /\ q = List.length (w_prov w) /\ q < List.length (w_prov w1)) \/
             (visible w i (p_name (info_of w (c_prov e))) = Found (c_prov e) /\
              aget (j_cache (jget w i)) (p_name (info_of w (c_prov e))) = None /\
              (c_ok e = true -> p_name (info_of w (c_prov e)) <> p_name p ->
               aget (j_cache (jget (commit w1 i s') i)) (p_name (info_of w (c_prov e))) <> None)))) n1).
      { rewrite Forall_forall. intros e He. destruct (Hold e He) as (Hlt & Hio & Hv).
        pose proof (proj1 (Forall_forall _ _) (po_calls _ _ _ _ _ _ _ _ P) e He) as G.
        split; [exact (gc_inj _ _ _ _ _ _ _ G)|]. right. split; [exact Hv|].
        pose proof (gc_new _ _ _ _ _ _ _ G) as G1. pose proof (gc_cached _ _ _ _ _ _ _ G) as G2.
        unfold ev_name in G1, G2. rewrite Hio in G1, G2. split; [exact G1|].
        intros Hok Hne. rewrite Hj. cbn [j_cache]. rewrite Hcache by exact Hne. auto. }
      assert (Hnd : NoDup (map c_prov n1)).
      { apply (NoDup_map_inv (fun q => p_name (info_of w1 q))). rewrite map_map. exact (po_nodup _ _ _ _ _ _ _ _ P). }
      constructor.
      - apply (upd_length (w_inj w)).
      - intros k. destruct (Nat.eq_dec i k) as [<-|Hne]; [rewrite Hj; reflexivity|rewrite jget_commit_other by exact Hne; reflexivity].
      - intros k. destruct (Nat.eq_dec i k) as [<-|Hne]; [rewrite Hj; reflexivity|rewrite jget_commit_other by exact Hne; reflexivity].
      - exists [p]. split; [reflexivity|]. constructor; [eapply new_provider_ok; exact Hp|constructor].
      - intros k Hk. rewrite jget_commit_other by congruence. reflexivity.
      - intros m x. rewrite Hj. cbn [j_cache]. destruct (bytes_eq_dec m (p_name p)) as [->|Hm].
        + destruct Hcase as [(_ & -> & _)|(f & ins & outs & args & ok & _ & _ & _ & [(_ & _ & -> & _)|(g & _ & _ & _ & ->)])];
            try apply (proj2 (proj2 (po_inv _ _ _ _ _ _ _ _ P))).
          destruct outs as [|t0 ts]; [apply (proj2 (proj2 (po_inv _ _ _ _ _ _ _ _ P)))|]. rewrite aget_aset_same. intros [= <-]. discriminate.
        + rewrite Hcache by exact Hm. apply (proj2 (proj2 (po_inv _ _ _ _ _ _ _ _ P))).
      - intros m x Hm H. rewrite Hj. cbn [j_cache]. rewrite Hcache by exact Hm. apply (po_mono _ _ _ _ _ _ _ _ P). exact H.
      - pose proof (po_tr _ _ _ _ _ _ _ _ P) as Ht. cbn [i_tr set_status begin] in Ht.
        destruct Hcase as [(T & _ & _)|(f & ins & outs & args & ok & _ & T & _ & _)].
        + exists n1. cbn [w_tr commit]. split; [rewrite T; exact Ht|]. split; [exact Hnd|exact Hn1].
        + exists (Called i q f args ok :: n1). cbn [w_tr commit]. split; [rewrite T, Ht; reflexivity|]. split.
          * cbn [map c_prov]. constructor; [|exact Hnd]. intros Hin. apply in_map_iff in Hin as (e & He & Hin).
            destruct (Hold e Hin) as (Hlt & _). rewrite He in Hlt. unfold q in Hlt. lia.
          * constructor; [|exact Hn1]. cbn. split; [reflexivity|]. left. split; [reflexivity|]. split; [reflexivity|].
            rewrite app_length. cbn. unfold q. lia.
      - pose proof (po_tr _ _ _ _ _ _ _ _ P) as Ht. cbn [i_tr set_status begin] in Ht.
        assert (Hdep : forall m, aget (i_cache s1) m <> None -> aget (j_cache (jget w i)) m = None ->
          exists e, In e (i_tr s1) /\ c_inj e = i /\ p_name (info_of w1 (c_prov e)) = m /\ has_colon m = true /\
            (m <> p_name p -> visible w i m = Found (c_prov e) /\ is_fun (info_of w (c_prov e)) = true)).
        { intros m H1 H2. pose proof (po_cached _ _ _ _ _ _ _ _ P m H1 H2) as Hin.
          apply in_map_iff in Hin as (e & He & Hin).
          pose proof (proj1 (Forall_forall _ _) (po_calls _ _ _ _ _ _ _ _ P) e Hin) as G. exists e.
          destruct (Hold e Hin) as (Hlt & Hio & Hv).
          split; [rewrite Ht; apply in_app_iff; left; exact Hin|].
          split; [exact (gc_inj _ _ _ _ _ _ _ G)|]. split; [exact He|]. unfold ev_name in He. rewrite Hio in He. rewrite <- He.
          split; [exact (proj1 (visible_values _ _ _ _ Hv))|]. intros _.
          split; [exact Hv|]. destruct (gc_fun _ _ _ _ _ _ _ G) as (ins & outs & Hk). rewrite Hio in Hk. unfold is_fun. rewrite Hk. reflexivity. }
        intros m. rewrite Hj. cbn [j_cache w_tr commit]. intros H1 H2.
        destruct Hcase as [(T & C & _)|(f & ins & outs & args & ok & Hkind & T & _ & [(_ & _ & C & _)|(g & _ & _ & _ & C)])]; rewrite T; rewrite C in H1.
        + exact (Hdep m H1 H2).
        + destruct (Hdep m H1 H2) as (e & He & R). exists e. split; [right; exact He|exact R].
        + destruct outs as [|t0 ts].
          * destruct (Hdep m H1 H2) as (e & He & R). exists e. split; [right; exact He|exact R].
          * destruct (bytes_eq_dec (p_name p) m) as [<-|Hm].
            -- exists (Called i q f args ok). split; [left; reflexivity|]. split; [reflexivity|]. split; [cbn [c_prov]; exact (f_equal p_name Hq)|].
               split; [|congruence]. pose proof (pk_name _ (new_provider_ok _ _ Hp)) as Hpn. rewrite Hkind in Hpn. exact Hpn.
            -- rewrite aget_aset_other in H1 by exact Hm. destruct (Hdep m H1 H2) as (e & He & R). exists e. split; [right; exact He|exact R].
      - intros x Hx. cbn [w_done commit] in Hx. apply Hd in Hx as [Hx| ->].
        + apply is_done_In in Hx. apply (po_dnew _ _ _ _ _ _ _ _ P) in Hx as [Hx|(n & Hn)].
          * left. apply is_done_In in Hx. exact Hx.
          * right. eapply visible_lt in Hn; [|exact W1]. exact Hn.
        + right. cbn. rewrite app_length. cbn. unfold q. lia. }
    destruct r as [out|e| |]; cbn [fst]; [|exact Hw..]. apply weff_drop; assumption.
  Qed.
End Eff.

(** ** Reachable worlds *)
Lemma weff_info w w' i n root q : weff w w' i n root -> q < List.length (w_prov w) -> info_of w' q = info_of w q.
Proof. intros E Hq. destruct (we_provs _ _ _ _ _ E) as (ps & -> & _) || idtac. unfold info_of. destruct (we_provs _ _ _ _ _ E) as (ps & H & _). rewrite H. apply app_nth1. exact Hq. Qed.
Lemma weff_grow w w' i n root : weff w w' i n root -> List.length (w_prov w) <= List.length (w_prov w').
Proof. intros E. destruct (we_provs _ _ _ _ _ E) as (ps & -> & _). rewrite app_length. lia. Qed.
Lemma weff_winv w w' i n root : winv w -> weff w w' i n root -> winv w'.
Proof.
  intros W E. pose proof (weff_grow _ _ _ _ _ E) as Hg. constructor.
  - intros k m q H. rewrite (we_values _ _ _ _ _ E) in H. destruct (wi_values _ W k m q H) as (A & B).
    split; [lia|]. rewrite (weff_info _ _ _ _ _ _ E A). exact B.
  - destruct (we_provs _ _ _ _ _ E) as (ps & -> & Hps). apply Forall_app. split; [exact (wi_provs _ W)|exact Hps].
  - intros k m o H. destruct (Nat.eq_dec k i) as [->|Hk]; [exact (we_full _ _ _ _ _ E m o H)|].
    rewrite (we_others _ _ _ _ _ E k Hk) in H. exact (wi_caches _ W k m o H).
  - intros k p H. rewrite (we_parent _ _ _ _ _ E) in H. rewrite (we_len _ _ _ _ _ E). exact (wi_parent _ W k p H).
  - intros q Hq. apply (we_done _ _ _ _ _ E) in Hq as [Hq|Hq]; [apply (wi_done _ W) in Hq; lia|exact Hq].
  - intros e He. destruct (we_tr _ _ _ _ _ E) as (new & T & _ & F). rewrite T in He. apply in_app_iff in He as [He|He].
    + rewrite Forall_forall in F. destruct (F e He) as (_ & [(-> & _ & H)|(V & _)]); [exact H|].
      apply (visible_lt w i _ _ W) in V. lia.
    + apply (wi_called _ W) in He. lia.
Qed.

Lemma jget0 i : jget world0 i = inj0.
Proof. destruct i; reflexivity. Qed.
Lemma winv0 : winv world0.
Proof.
  constructor.
  - intros i n q. rewrite jget0. discriminate.
  - constructor.
  - intros i n q. rewrite jget0. discriminate.
  - intros i k. rewrite jget0. discriminate.
  - intros q [].
  - intros e [].
Qed.

(** effects of the other operations *)
Lemma jget_new w i d : jget (World (w_inj w ++ [inj0]) (w_prov w) d (w_tr w)) i = jget w i.
Proof.
  unfold jget. cbn. destruct (Nat.lt_ge_cases i (List.length (w_inj w))) as [H|H].
  - apply app_nth1. exact H.
  - rewrite app_nth2 by exact H. rewrite (nth_overflow (w_inj w)) by exact H.
    destruct (i - List.length (w_inj w)) as [|[|k]]; reflexivity.
Qed.

Record provided (w w' : world) (i : nat) (p : pinfo) : Prop := {
  pv_inv : List.length (w_inj w') = List.length (w_inj w);
  pv_prov : w_prov w' = w_prov w ++ [p];
  pv_done : w_done w' = w_done w;
  pv_tr : w_tr w' = w_tr w;
  pv_val : j_values (jget w' i) = aset (j_values (jget w i)) (p_name p) (List.length (w_prov w));
  pv_cache : j_cache (jget w' i) = adel (j_cache (jget w i)) (p_name p);
  pv_par : forall k, j_parent (jget w' k) = j_parent (jget w k);
  pv_other : forall k, k <> i -> jget w' k = jget w k
}.
Lemma provide_spec w i o p : i < List.length (w_inj w) -> new_provider o = Some p ->
  provided w (fst (provide w i o)) i p /\ snd (provide w i o) = RNone.
Proof.
  intros Hi Hp. unfold provide. rewrite Hp. cbv zeta. cbn [fst snd]. split; [|reflexivity].
  set (w1 := drop_cache (add_prov w p) i (p_name p)).
  assert (Hi1 : i < List.length (w_inj w1)) by (unfold w1, drop_cache; cbn; rewrite upd_length; exact Hi).
  assert (Hi0 : i < List.length (w_inj (add_prov w p))) by exact Hi.
  constructor.
  - cbn. rewrite !upd_length. reflexivity.
  - reflexivity.
  - reflexivity.
  - reflexivity.
  - rewrite jget_set_same by exact Hi1. cbn [j_values]. unfold w1. rewrite drop_values. reflexivity.
  - rewrite jget_set_same by exact Hi1. cbn [j_cache]. unfold w1. rewrite drop_cache_same by exact Hi0. reflexivity.
  - intros k. destruct (Nat.eq_dec i k) as [<-|Hne].
    + rewrite jget_set_same by exact Hi1. cbn [j_parent]. unfold w1. rewrite drop_parent. reflexivity.
    + rewrite jget_set_other by exact Hne. unfold w1. rewrite drop_parent. reflexivity.
  - intros k Hk. rewrite jget_set_other by congruence. unfold w1, drop_cache. rewrite jget_set_other by congruence. reflexivity.
Qed.
Lemma provided_info w w' i p q : provided w w' i p -> q < List.length (w_prov w) -> info_of w' q = info_of w q.
Proof. intros P H. unfold info_of. rewrite (pv_prov _ _ _ _ P). apply app_nth1. exact H. Qed.
Lemma provided_info_new w w' i p : provided w w' i p -> info_of w' (List.length (w_prov w)) = p.
Proof. intros P. unfold info_of. rewrite (pv_prov _ _ _ _ P), app_nth2, Nat.sub_diag by lia. reflexivity. Qed.
Lemma provided_winv w w' i p : winv w -> prov_ok p -> provided w w' i p -> winv w'.
Proof.
  intros W Hp P. pose proof (pv_prov _ _ _ _ P) as Hpr.
  assert (Hlen : List.length (w_prov w') = S (List.length (w_prov w))) by (rewrite Hpr, app_length; cbn; lia).
  assert (Hold : forall k m q, aget (j_values (jget w k)) m = Some q -> q < List.length (w_prov w') /\ p_name (info_of w' q) = m).
  { intros k m q H. destruct (wi_values _ W k m q H) as (A & B). split; [lia|]. rewrite (provided_info _ _ _ _ _ P A). exact B. }
  constructor.
  - intros k m q H. destruct (Nat.eq_dec k i) as [->|Hk]; [|rewrite (pv_other _ _ _ _ P k Hk) in H; eauto].
    rewrite (pv_val _ _ _ _ P) in H. destruct (bytes_eq_dec (p_name p) m) as [<-|Hm].
    + rewrite aget_aset_same in H. injection H as <-. split; [lia|]. rewrite (provided_info_new _ _ _ _ P). reflexivity.
    + rewrite aget_aset_other in H by exact Hm. eauto.
  - rewrite Hpr. apply Forall_app. split; [exact (wi_provs _ W)|constructor; [exact Hp|constructor]].
  - intros k m o H. destruct (Nat.eq_dec k i) as [->|Hk]; [|rewrite (pv_other _ _ _ _ P k Hk) in H; exact (wi_caches _ W k m o H)].
    rewrite (pv_cache _ _ _ _ P) in H. destruct (bytes_eq_dec (p_name p) m) as [<-|Hm].
    + rewrite aget_adel_same in H. discriminate.
    + rewrite aget_adel_other in H by exact Hm. exact (wi_caches _ W i m o H).
  - intros k x H. rewrite (pv_par _ _ _ _ P) in H. rewrite (pv_inv _ _ _ _ P). exact (wi_parent _ W k x H).
  - intros q. rewrite (pv_done _ _ _ _ P), Hlen. intros H. apply (wi_done _ W) in H. lia.
  - intros e. rewrite (pv_tr _ _ _ _ P), Hlen. intros H. apply (wi_called _ W) in H. lia.
Qed.

Section Hist.
  Variable assignable : rtype -> rtype -> bool.
  Variable call : list callev -> nat -> list val -> option (nat -> option nat).
  Notation exec := (exec_op assignable call).
  Notation runs := (runs assignable call).

  (** what one operation does *)
  Inductive op_eff (w : world) : iop -> iobs -> world -> Prop :=
  | oe_new : op_eff w PNew RNone (World (w_inj w ++ [inj0]) (w_prov w) (w_done w) (w_tr w))
  | oe_parent : forall i k, op_eff w (PSetParent i k) RNone (set_inj w i (Inj (j_values (jget w i)) (j_cache (jget w i)) (Some k)))
  | oe_provide : forall i o p w', new_provider o = Some p -> provided w w' i p -> op_eff w (PProvide i o) RNone w'
  | oe_refused : forall i o, new_provider o = None -> op_eff w (PProvide i o) RPanic w
  | oe_irefused : forall i o, new_provider o = None -> op_eff w (PInvoke i o) RPanic w
  | oe_find : forall i t l b w', weff w w' i [] (List.length (w_prov w)) -> op_eff w (PFind i t l) b w'
  | oe_apply : forall i fs b w', weff w w' i [] (List.length (w_prov w)) -> op_eff w (PApply i fs) b w'
  | oe_exists : forall i t l b, op_eff w (PExists i t l) b w
  | oe_invoke : forall i o p b w', new_provider o = Some p -> weff w w' i (p_name p) (List.length (w_prov w)) -> op_eff w (PInvoke i o) b w'.

  Lemma exec_eff fuel w o w' b : winv w -> op_ok w o -> exec fuel w o = (w', b) -> op_eff w o b w'.
  Proof.
    intros W Hok E. destruct o as [|i k|i o|i t l|i o|i fs|i t l]; cbn [exec_op op_ok] in *; cbv zeta in Hok.
    - injection E as <- <-. constructor.
    - injection E as <- <-. constructor.
    - destruct (new_provider o) as [p|] eqn:Hp.
      + destruct (provide_spec w i o p Hok Hp) as (P & S). rewrite E in P, S. cbn [fst snd] in *. subst b. econstructor; eassumption.
      + unfold provide in E. rewrite Hp in E. injection E as <- <-. constructor. exact Hp.
    - pose proof (find_weff assignable call w i fuel t l W Hok) as H. rewrite E in H. constructor. exact H.
    - destruct (new_provider o) as [p|] eqn:Hp.
      + pose proof (invoke_weff assignable call w i fuel o p W Hok Hp) as H. rewrite E in H. econstructor; eassumption.
      + unfold invoke_op in E. rewrite Hp in E. injection E as <- <-. constructor. exact Hp.
    - pose proof (apply_weff assignable call w i fuel fs W Hok) as H. rewrite E in H. constructor. exact H.
    - assert (w' = w) as ->; [|constructor]. unfold exists_op in E. cbv zeta in E.
      destruct (look_in w i (create_name (indirect t) l)) as [q| |]; [destruct (p_kind (info_of w q))|..]; injection E as <- _; reflexivity.
  Qed.

  Lemma set_parent_jget w i k j : i < List.length (w_inj w) ->
    let w' := set_inj w i (Inj (j_values (jget w i)) (j_cache (jget w i)) (Some k)) in
    j_values (jget w' j) = j_values (jget w j) /\ j_cache (jget w' j) = j_cache (jget w j) /\
    j_parent (jget w' j) = if Nat.eqb i j then Some k else j_parent (jget w j).
  Proof.
    intros Hi w'. unfold w'. destruct (Nat.eqb_spec i j) as [<-|Hne].
    - rewrite jget_set_same by exact Hi. auto.
    - rewrite jget_set_other by exact Hne. auto.
  Qed.

  Lemma eff_winv w o b w' : winv w -> op_ok w o -> op_eff w o b w' -> winv w'.
  Proof.
    intros W Hok E. destruct E as [|i k|i o p w' Hp P| | |i t l b w' E|i fs b w' E| |i o p b w' Hp E]; try exact W.
    - constructor; cbn [w_prov w_done w_tr w_inj].
      + intros i n q. rewrite jget_new. apply (wi_values _ W).
      + exact (wi_provs _ W).
      + intros i n o. rewrite jget_new. apply (wi_caches _ W).
      + intros i k. rewrite jget_new, app_length. intros H. apply (wi_parent _ W) in H. lia.
      + exact (wi_done _ W).
      + exact (wi_called _ W).
    - cbn [op_ok] in Hok. destruct Hok as (Hi & Hk).
      assert (J := fun j => set_parent_jget w i k j Hi). cbv zeta in J.
      constructor; cbn [w_prov w_done w_tr w_inj set_inj].
      + intros j n q H. rewrite (proj1 (J j)) in H. exact (wi_values _ W j n q H).
      + exact (wi_provs _ W).
      + intros j n o H. rewrite (proj1 (proj2 (J j))) in H. exact (wi_caches _ W j n o H).
      + intros j x H. rewrite upd_length. rewrite (proj2 (proj2 (J j))) in H. destruct (Nat.eqb i j).
        * injection H as <-. exact Hk.
        * exact (wi_parent _ W j x H).
      + exact (wi_done _ W).
      + exact (wi_called _ W).
    - eapply provided_winv; [exact W|eapply new_provider_ok; exact Hp|exact P].
    - eapply weff_winv; eassumption.
    - eapply weff_winv; eassumption.
    - eapply weff_winv; eassumption.
  Qed.

  Lemma runs_winv w h obs w' : winv w -> runs w h obs w' -> winv w'.
  Proof.
    intros W R. induction R as [|w o os fuel w1 b bs w2 Hok E Hb R IH]; [exact W|]. apply IH.
    eapply eff_winv; [exact W|exact Hok|]. eapply exec_eff; eassumption.
  Qed.

  (** ** Each provider is called at most once per injector *)
  Definition built_once (i : nat) (n : bytes) (w : world) : Prop :=
    forall q, q < List.length (w_prov w) -> p_name (info_of w q) = n ->
      made i q (w_tr w) <= 1 /\
      (made i q (w_tr w) = 1 ->
        aget (j_cache (jget w i)) n <> None \/
        (exists q', aget (j_values (jget w i)) n = Some q' /\ q' <> q) \/
        (forall k m, aget (j_values (jget w k)) m <> Some q)).

  Lemma made_app i q l1 l2 : made i q (l1 ++ l2) = made i q l1 + made i q l2.
  Proof. unfold made. rewrite filter_app, app_length. reflexivity. Qed.
  Lemma made_zero i q l : (forall e, In e l -> c_inj e = i -> c_prov e = q -> c_ok e = true -> False) -> made i q l = 0.
  Proof.
    intros H. unfold made. induction l as [|e l IH]; [reflexivity|]. cbn [filter].
    destruct (Nat.eqb_spec (c_inj e) i); cbn [andb]; [|apply IH; intros x Hx; apply H; right; exact Hx].
    destruct (Nat.eqb_spec (c_prov e) q); cbn [andb]; [|apply IH; intros x Hx; apply H; right; exact Hx].
    destruct (c_ok e) eqn:E; [exfalso; apply (H e); auto; left; reflexivity|]. apply IH; intros x Hx; apply H; right; exact Hx.
  Qed.
  Lemma made_nodup i q l : NoDup (map c_prov l) -> made i q l <= 1.
  Proof.
    induction l as [|e l IH]; cbn [map]; [unfold made; cbn; lia|]. intros Hn. inversion Hn as [|? ? Hx Hn']; subst.
    unfold made in *. cbn [filter]. destruct (Nat.eqb (c_inj e) i && Nat.eqb (c_prov e) q && c_ok e) eqn:E; [|auto].
    cbn [List.length]. fold (made i q l). rewrite made_zero; [lia|]. intros x Hi _ Hp _. apply Hx.
    apply andb_true_iff in E as (E & _). apply andb_true_iff in E as (_ & E). apply Nat.eqb_eq in E.
    apply in_map_iff. exists x. split; [congruence|exact Hi].
  Qed.
  Lemma made_one i q l : made i q l = 1 -> exists e, In e l /\ c_inj e = i /\ c_prov e = q /\ c_ok e = true.
  Proof.
    intros H. unfold made in H. destruct (filter _ l) as [|e l'] eqn:E; [discriminate|].
    assert (Hin : In e (filter (fun e => Nat.eqb (c_inj e) i && Nat.eqb (c_prov e) q && c_ok e) l)) by (rewrite E; left; reflexivity).
    apply filter_In in Hin as (Hin & Hb). apply andb_true_iff in Hb as (Hb & Hok). apply andb_true_iff in Hb as (H1 & H2).
    apply Nat.eqb_eq in H1, H2. eauto.
  Qed.

  Lemma visible_own w i n q q' : visible w i n = Found q -> aget (j_values (jget w i)) n = Some q' -> q = q'.
  Proof.
    unfold visible, look_in. destruct (has_colon n); [|discriminate]. cbn [look_up]. intros H E. rewrite E in H. congruence.
  Qed.

  Lemma built_weff i0 n0 w w' i n root : winv w -> (i = i0 -> n <> n0) -> root = List.length (w_prov w) ->
    built_once i0 n0 w -> weff w w' i n root -> built_once i0 n0 w'.
  Proof.
    intros W Hn Hroot B E q Hq Hqn. destruct (we_tr _ _ _ _ _ E) as (new & T & ND & F). rewrite Forall_forall in F.
    pose proof (weff_winv _ _ _ _ _ W E) as W'.
    destruct (Nat.lt_ge_cases q (List.length (w_prov w))) as [Hlt|Hge].
    - rewrite (weff_info _ _ _ _ _ _ E Hlt) in Hqn. destruct (B q Hlt Hqn) as (B1 & B2).
      rewrite T, made_app.
      assert (Hzero : made i0 q (w_tr w) = 1 -> made i0 q new = 0).
      { intros H1. apply made_zero. intros e He Hi Hp Hok. destruct (F e He) as (Hi' & [(Hr & Hr2 & _)|(V & U & K)]).
        - lia.
        - assert (i = i0) as -> by congruence. rewrite Hp, Hqn in V, U. destruct (B2 H1) as [C|[(q' & C & D)|C]].
          + congruence.
          + pose proof (visible_own _ _ _ _ _ V C). congruence.
          + apply visible_values in V as (_ & k & V). exact (C _ _ V). }
      pose proof (made_nodup i0 q new ND) as H1.
      split; [destruct (Nat.eq_dec (made i0 q (w_tr w)) 1); [rewrite Hzero by assumption|]; lia|].
      intros Hm. destruct (Nat.eq_dec (made i0 q (w_tr w)) 1) as [He|Hne].
      + destruct (B2 He) as [C|[(q' & C & D)|C]].
        * left. destruct (Nat.eq_dec i i0) as [->|Hi].
          -- destruct (aget (j_cache (jget w i0)) n0) as [o|] eqn:Eo; [|congruence].
             rewrite (we_mono _ _ _ _ _ E n0 o (fun H => Hn eq_refl (eq_sym H)) Eo). discriminate.
          -- rewrite (we_others _ _ _ _ _ E i0) by congruence. exact C.
        * right. left. exists q'. rewrite (we_values _ _ _ _ _ E). auto.
        * right. right. intros k m. rewrite (we_values _ _ _ _ _ E). apply C.
      + destruct (made_one i0 q new ltac:(lia)) as (e & He & Hi & Hp & Hok).
        destruct (F e He) as (Hi' & [(Hr & Hr2 & _)|(V & U & K)]); [lia|].
        assert (i = i0) as -> by congruence. rewrite Hp, Hqn in K. left. apply K; [exact Hok|]. intros H. exact (Hn eq_refl (eq_sym H)).
    - (* q was added: it is the root *)
      assert (Hz : made i0 q (w_tr w) = 0).
      { apply made_zero. intros e He _ Hp _. apply (wi_called _ W) in He. lia. }
      rewrite T, made_app, Hz, Nat.add_0_r. pose proof (made_nodup i0 q new ND) as H1. split; [exact H1|].
      intros Hm. right. right. intros k m. rewrite (we_values _ _ _ _ _ E). intros H. apply (wi_values _ W) in H. lia.
  Qed.

  Lemma built_eff i n w o b w' : winv w -> op_ok w o -> has_colon n = true -> ~ invokes_slot i n o ->
    built_once i n w -> op_eff w o b w' -> built_once i n w'.
  Proof.
    intros W Hok Hn Hni B E. assert (Hn0 : [] <> n) by (intros <-; discriminate).
    destruct E as [|j k|j o p w' Hp P| | |j t l b w' E|j fs b w' E| |j o p b w' Hp E]; try exact B.
    - intros q Hq Hqn. destruct (B q Hq Hqn) as (B1 & B2). split; [exact B1|]. intros H. rewrite jget_new.
      destruct (B2 H) as [C|[C|C]]; [auto|auto|]. right. right. intros k m. rewrite jget_new. apply C.
    - destruct Hok as (Hi & Hk). assert (J := fun x => set_parent_jget w j k x Hi). cbv zeta in J.
      intros q Hq Hqn. destruct (B q Hq Hqn) as (B1 & B2). split; [exact B1|]. intros H.
      rewrite (proj1 (J i)), (proj1 (proj2 (J i))).
      destruct (B2 H) as [C|[C|C]]; [auto|auto|]. right. right. intros x m. rewrite (proj1 (J x)). apply C.
    - intros q Hq Hqn. rewrite (pv_tr _ _ _ _ P). pose proof (pv_prov _ _ _ _ P) as Hpr. rewrite Hpr, app_length in Hq. cbn in Hq.
      destruct (Nat.lt_ge_cases q (List.length (w_prov w))) as [Hlt|Hge].
      + rewrite (provided_info _ _ _ _ _ P Hlt) in Hqn. destruct (B q Hlt Hqn) as (B1 & B2). split; [exact B1|]. intros H.
        destruct (Nat.eq_dec j i) as [->|Hne].
        * destruct (bytes_eq_dec (p_name p) n) as [Hpn|Hpn].
          -- right. left. exists (List.length (w_prov w)). rewrite (pv_val _ _ _ _ P), Hpn, aget_aset_same. split; [reflexivity|lia].
          -- rewrite (pv_cache _ _ _ _ P), (pv_val _ _ _ _ P), aget_adel_other, aget_aset_other by exact Hpn.
             destruct (B2 H) as [C|[C|C]]; [auto|auto|]. right. right. intros x m. destruct (Nat.eq_dec x i) as [->|Hx].
             ++ rewrite (pv_val _ _ _ _ P). destruct (bytes_eq_dec (p_name p) m) as [<-|Hm].
                ** rewrite aget_aset_same. intros [= <-]. lia.
                ** rewrite aget_aset_other by exact Hm. apply C.
             ++ rewrite (pv_other _ _ _ _ P x Hx). apply C.
        * rewrite (pv_other _ _ _ _ P i) by congruence. destruct (B2 H) as [C|[C|C]]; [auto|auto|].
          right. right. intros x m. destruct (Nat.eq_dec x j) as [->|Hx].
          -- rewrite (pv_val _ _ _ _ P). destruct (bytes_eq_dec (p_name p) m) as [<-|Hm].
             ++ rewrite aget_aset_same. intros [= <-]. lia.
             ++ rewrite aget_aset_other by exact Hm. apply C.
          -- rewrite (pv_other _ _ _ _ P x Hx). apply C.
      + rewrite made_zero; [split; [lia|discriminate]|]. intros e He _ Hpq _. apply (wi_called _ W) in He. lia.
    - eapply built_weff; [exact W|intros _; exact Hn0|reflexivity|exact B|exact E].
    - eapply built_weff; [exact W|intros _; exact Hn0|reflexivity|exact B|exact E].
    - eapply built_weff; [exact W| |reflexivity|exact B|exact E].
      intros -> H. apply Hni. split; [reflexivity|]. unfold slot. rewrite Hp. cbn. congruence.
  Qed.

  Lemma built0 i n : built_once i n world0.
  Proof. intros q Hq. cbn in Hq. lia. Qed.
  Lemma runs_built i n w h obs w' : winv w -> has_colon n = true -> Forall (fun o => ~ invokes_slot i n o) h ->
    built_once i n w -> runs w h obs w' -> built_once i n w'.
  Proof.
    intros W Hn F B R. induction R as [|w o os fuel w1 b bs w2 Hok E Hb R IH]; [exact B|].
    inversion F as [|? ? F1 F2]; subst. pose proof (exec_eff _ _ _ _ _ W Hok E) as Ef.
    apply IH; [eapply eff_winv; eassumption|exact F2|]. eapply built_eff; eassumption.
  Qed.
End Hist.
