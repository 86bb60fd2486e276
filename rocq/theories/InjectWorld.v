(** InjectWorld: facts about injectors and whole programs. *)
From Coq Require Import List Ascii String Bool Arith Lia Relations.
Import ListNotations.
From Verif Require Import GoStr InjectModel InjectFacts.

(** ** Lists *)
Lemma upd_length {A} (l : list A) i x : List.length (upd l i x) = List.length l.
Proof. revert i. induction l as [|a l IH]; intros [|i]; cbn; auto. Qed.
Lemma nth_upd_same {A} (l : list A) i x d : i < List.length l -> nth i (upd l i x) d = x.
Proof. revert i. induction l as [|a l IH]; intros [|i] H; cbn in *; try lia; [reflexivity|]. apply IH. lia. Qed.
Lemma nth_upd_other {A} (l : list A) i k x d : i <> k -> nth k (upd l i x) d = nth k l d.
Proof. revert i k. induction l as [|a l IH]; intros [|i] [|k] H; cbn; try reflexivity; try lia. apply IH. lia. Qed.

Lemma jget_set_same w i j : i < List.length (w_inj w) -> jget (set_inj w i j) i = j.
Proof. apply nth_upd_same. Qed.
Lemma jget_set_other w i k j : i <> k -> jget (set_inj w i j) k = jget w k.
Proof. apply nth_upd_other. Qed.

(** ** Providers *)
Definition has_colon (n : bytes) : bool := existsb (Ascii.eqb colon) n.
Lemma create_name_colon t l : has_colon (create_name t l) = true.
Proof. unfold has_colon, create_name. rewrite existsb_app. cbn. apply orb_true_r. Qed.

Record prov_ok (p : pinfo) : Prop := {
  pk_deps : forall d, In d (p_deps p) -> has_colon d = true;
  pk_name : match p_kind p with KFun _ _ [] => p_name p = [] | _ => has_colon (p_name p) = true end
}.
Lemma dep_names_colon deps i ins d : In d (dep_names deps i ins) -> has_colon d = true.
Proof.
  revert i. induction ins as [|t ins IH]; intros i; cbn; [intros []|].
  intros [<-|H]; [apply create_name_colon|eapply IH; exact H].
Qed.
Lemma new_provider_ok o p : new_provider o = Some p -> prov_ok p.
Proof.
  destruct o as [v typ label|f ins outs deps typ label]; cbn [new_provider].
  - destruct (v_ty v); try discriminate. destruct (v_data v); [|discriminate]. intros [= <-].
    constructor; cbn; [intros ? []|apply create_name_colon].
  - intros [= <-]. constructor; cbn; [intros d; apply dep_names_colon|].
    destruct outs; [reflexivity|apply create_name_colon].
Qed.

(** ** Invariant of reachable worlds *)
Record winv (w : world) : Prop := {
  wi_values : forall i n q, aget (j_values (jget w i)) n = Some q -> q < List.length (w_prov w) /\ p_name (info_of w q) = n;
  wi_provs : Forall prov_ok (w_prov w);
  wi_caches : forall i n o, aget (j_cache (jget w i)) n = Some o -> o <> [];
  wi_parent : forall i k, j_parent (jget w i) = Some k -> k < List.length (w_inj w);
  wi_done : forall q, In q (w_done w) -> q < List.length (w_prov w);
  wi_called : forall e, In e (w_tr w) -> c_prov e < List.length (w_prov w)
}.

Lemma info_ok w q : winv w -> prov_ok (info_of w q).
Proof.
  intros H. unfold info_of. destruct (nth_in_or_default q (w_prov w) pdummy) as [Hi|Hd].
  - exact (proj1 (Forall_forall _ _) (wi_provs _ H) _ Hi).
  - rewrite Hd. constructor; cbn; [intros ? []|reflexivity].
Qed.

(** ** Lookups of names with a colon (all the names the code ever looks up) *)
Definition visible (w : world) (i : nat) (n : bytes) : found := if has_colon n then look_in w i n else Missing.
Lemma visible_eq w i n : has_colon n = true -> visible w i n = look_in w i n.
Proof. unfold visible. intros ->. reflexivity. Qed.

Lemma look_up_found w fuel : forall i n q, look_up w fuel i n = Found q ->
  exists k, aget (j_values (jget w k)) n = Some q.
Proof.
  induction fuel as [|f IH]; intros i n q; cbn [look_up]; [discriminate|].
  destruct (aget (j_values (jget w i)) n) eqn:E; [intros [= <-]; eauto|].
  destruct (j_parent (jget w i)); [apply IH|discriminate].
Qed.
Lemma visible_values w i n q : visible w i n = Found q -> has_colon n = true /\ exists k, aget (j_values (jget w k)) n = Some q.
Proof.
  unfold visible. destruct (has_colon n); [|discriminate]. intros H. split; [reflexivity|]. eapply look_up_found. exact H.
Qed.
Lemma visible_name w i : winv w -> forall n q, visible w i n = Found q -> p_name (info_of w q) = n.
Proof. intros W n q H. apply visible_values in H as (_ & k & H). apply (wi_values _ W) in H. tauto. Qed.
Lemma visible_outs w i : winv w -> forall n q f ins, visible w i n = Found q -> p_kind (info_of w q) <> KFun f ins [].
Proof.
  intros W n q f ins H Hk. pose proof (visible_name w i W n q H) as Hn. apply visible_values in H as (Hc & _).
  pose proof (pk_name _ (info_ok w q W)) as Hp. rewrite Hk, Hn in Hp. rewrite Hp in Hc. discriminate Hc.
Qed.
Lemma visible_lt w i n q : winv w -> visible w i n = Found q -> q < List.length (w_prov w).
Proof. intros W H. apply visible_values in H as (_ & k & H). apply (wi_values _ W) in H. tauto. Qed.

(** the code's lookups agree with [visible] *)
Section Ext.
  Variable assignable : rtype -> rtype -> bool.
  Variable call : list callev -> nat -> list val -> option (nat -> option nat).
  Lemma eval_deps_ext l1 l2 info inv1 inv2 ds : (forall d, In d ds -> l1 d = l2 d) -> (forall q s, inv1 q s = inv2 q s) ->
    forall s, eval_deps l1 info inv1 ds s = eval_deps l2 info inv2 ds s.
  Proof.
    intros Hl Hi. induction ds as [|d ds IH]; intros s; cbn [eval_deps]; [reflexivity|].
    rewrite (Hl d (or_introl eq_refl)). destruct (l2 d); try reflexivity.
    destruct (negb (is_done s q) && in_status s (p_name (info q))); [reflexivity|]. rewrite Hi.
    destruct (inv2 q s) as [[[|v o]|e| |] s1]; try reflexivity.
    rewrite IH; [reflexivity|]. intros x Hx. apply Hl. right. exact Hx.
  Qed.
  Lemma invoke_ext inj l1 l2 info : (forall q d, In d (p_deps (info q)) -> l1 d = l2 d) ->
    forall fuel q s, invoke assignable call inj l1 info fuel q s = invoke assignable call inj l2 info fuel q s.
  Proof.
    intros Hl. induction fuel as [|f IH]; intros q s; cbn [invoke]; [reflexivity|].
    destruct (aget (i_cache s) (p_name (info q))); [reflexivity|].
    destruct (p_kind (info q)); [reflexivity|]. cbv zeta.
    rewrite (eval_deps_ext l1 l2 info _ (invoke assignable call inj l2 info f)); [reflexivity|apply Hl|exact IH].
  Qed.
  Lemma run_invoke_visible w i fuel q s : winv w ->
    run_invoke assignable call w i fuel q s = invoke assignable call i (visible w i) (info_of w) fuel q s.
  Proof.
    intros W. apply invoke_ext. intros q' d Hd. symmetry. apply visible_eq. exact (pk_deps _ (info_ok w q' W) d Hd).
  Qed.
End Ext.

(** ** What can be resolved (used in the statements)
    relative to what the injector has built already *)
Definition available (w : world) (i : nat) : bytes -> Prop := Avail (visible w i) (info_of w) (j_cache (jget w i)).
(** resolving n makes d be resolved first *)
Definition depends (w : world) (i : nat) : bytes -> bytes -> Prop := needs (visible w i) (info_of w) (j_cache (jget w i)).

Lemma begin_inv w i : winv w -> Inv (visible w i) (info_of w) (j_cache (jget w i)) (begin w i).
Proof.
  intros W. split; [|split].
  - auto.
  - intros m o q H Hl. eapply av_cached; eassumption.
  - intros m o H. exact (wi_caches _ W i m o H).
Qed.

Lemma upd_nth {A} (l : list A) i d : upd l i (nth i l d) = l.
Proof. revert i. induction l as [|a l IH]; intros [|i]; cbn; try reflexivity. rewrite IH. reflexivity. Qed.
Lemma commit_begin w i : commit w i (begin w i) = w.
Proof.
  destruct w as [js ps dn tr]. unfold commit, begin, jget. cbn [w_inj w_prov w_done w_tr i_cache i_done i_tr].
  f_equal. transitivity (upd js i (nth i js inj0)); [|apply upd_nth]. f_equal. destruct (nth i js inj0); reflexivity.
Qed.

(** ** Apply: which fields are to be set (specification)
    [target left fs path ty label]: the settable field of type [ty] at [path],
    at most [left] struct levels below, is tagged with [label]; untagged struct
    fields are searched, fields tagged "-" and their insides are not *)
Inductive target : nat -> list field -> list nat -> rtype -> bytes -> Prop :=
| tg_here : forall left fs k ty l sub, nth_error fs k = Some (Field true (TagInject l) ty sub) -> target left fs [k] ty l
| tg_sub : forall left fs k ty0 fs' path ty l, nth_error fs k = Some (Field true TagNone ty0 (Some fs')) ->
    target left fs' path ty l -> target (S left) fs (k :: path) ty l.

Section Runs.
  Variable assignable : rtype -> rtype -> bool.
  Variable call : list callev -> nat -> list val -> option (nat -> option nat).

  Section One.
    Variables (w : world) (i : nat).
    Hypothesis W : winv w.
    Notation C0 := (j_cache (jget w i)).
    Notation L := (visible w i).
    Notation I := (info_of w).
    Notation POST := (post i L I C0 (fun _ => True)).
    Notation INV := (Inv L I C0).
    Definition held (s : ist) (n : bytes) (o : list val) : Prop := holds L I s n o /\ exists q, look_in w i n = Found q.
    Notation HOLDS := held.

    Lemma holds_after s s' new n o : POST s s' new -> HOLDS s n o -> HOLDS s' n o.
    Proof. intros P (H & Hl). split; [|exact Hl]. revert H. apply holds_mono; [exact (po_mono _ _ _ _ _ _ _ _ P)|exact (post_values _ _ _ _ _ _ _ _ P)]. Qed.
    Lemma post_seq s s1 s2 n1 n2 : POST s s1 n1 -> all_ok n1 -> POST s1 s2 n2 -> POST s s2 (n2 ++ n1).
    Proof.
      intros P1 Ho P2. eapply post_trans; [exact P1|exact P2|]. intros e He.
      apply (gc_cached _ _ _ _ _ _ _ (proj1 (Forall_forall _ _) (po_calls _ _ _ _ _ _ _ _ P1) e He)).
      exact (proj1 (Forall_forall _ _) Ho e He).
    Qed.

    Lemma run_good fuel n q s : L n = Found q -> INV s ->
      exists new, POST s (snd (run_invoke assignable call w i fuel q s)) new /\
        (fst (run_invoke assignable call w i fuel q s) <> IPanic -> all_ok new) /\
        (forall out, fst (run_invoke assignable call w i fuel q s) = IOk out ->
           available w i n /\ holds L I (snd (run_invoke assignable call w i fuel q s)) n out /\ out <> []).
    Proof.
      intros Hl Hs. rewrite run_invoke_visible by exact W.
      destruct (invoke_good assignable call i L I (visible_name w i W) (visible_outs w i W) C0 fuel n q s Hl Hs) as (new & P & H1 & H2).
      exists new. split; [|split; assumption]. eapply post_weaken; [|exact P]. intros d <-. exists n. split; [exact Logic.I|apply rt_refl].
    Qed.

    Lemma inject_run fuel ty l s :
      INV s ->
      forall q, look_in w i (create_name (indirect ty) l) = Found q ->
      exists new, POST s (snd (run_invoke assignable call w i fuel q s)) new /\
        (fst (run_invoke assignable call w i fuel q s) <> IPanic -> all_ok new) /\
        (forall out, fst (run_invoke assignable call w i fuel q s) = IOk out ->
           exists v o, out = v :: o /\ HOLDS (snd (run_invoke assignable call w i fuel q s)) (create_name (indirect ty) l) (v :: o)).
    Proof.
      intros Hs q Hlook. pose proof Hlook as Hl. rewrite <- visible_eq in Hl by apply create_name_colon.
      destruct (run_good fuel _ q s Hl Hs) as (new & P & H1 & H2). exists new. split; [exact P|]. split; [exact H1|].
      intros out E. destruct (H2 out E) as (_ & Hh & Hn). destruct out as [|v o]; [congruence|]. exists v, o. split; [reflexivity|]. split; [exact Hh|eauto].
    Qed.

    (** what a level of Apply does *)
    Definition applied (left : nat) (fs : list field) (k : nat) (P : list nat) (s' : ist) (l : list assignment) : Prop :=
      (forall j rest ty lab, target left fs (j :: rest) ty lab ->
         exists v o, HOLDS s' (create_name (indirect ty) lab) (v :: o) /\
           (forall v', assign_value assignable v ty = ASet v' -> In (P ++ (k + j) :: rest, v') l)) /\
      (forall p v', In (p, v') l -> exists j rest ty lab v o, p = P ++ (k + j) :: rest /\ target left fs (j :: rest) ty lab /\
         HOLDS s' (create_name (indirect ty) lab) (v :: o) /\ assign_value assignable v ty = ASet v').
    Definition apply_good (f : list field -> nat -> list nat -> ist -> ares * ist) (left : nat) : Prop :=
      forall fs k P s, INV s -> exists new, POST s (snd (f fs k P s)) new /\
        (fst (f fs k P s) <> AppFail IPanic -> all_ok new) /\
        (forall l, fst (f fs k P s) = AppOk l -> applied left fs k P (snd (f fs k P s)) l).

    Lemma target_shift left f fs j rest ty lab : target left (f :: fs) (S j :: rest) ty lab <-> target left fs (j :: rest) ty lab.
    Proof.
      split; intros H; inversion H; subst.
      - eapply tg_here. eassumption.
      - eapply tg_sub; eassumption.
      - eapply tg_here. cbn. eassumption.
      - eapply tg_sub; [cbn; eassumption|assumption].
    Qed.

    (** one field done, then the rest *)
    Lemma applied_cons left f fs k P s1 s2 new2 l1 l2 :
      POST s1 s2 new2 ->
      (forall rest ty lab, target left (f :: fs) (0 :: rest) ty lab ->
         exists v o, HOLDS s1 (create_name (indirect ty) lab) (v :: o) /\
           (forall v', assign_value assignable v ty = ASet v' -> In (P ++ k :: rest, v') l1)) ->
      (forall p v', In (p, v') l1 -> exists rest ty lab v o, p = P ++ k :: rest /\ target left (f :: fs) (0 :: rest) ty lab /\
         HOLDS s1 (create_name (indirect ty) lab) (v :: o) /\ assign_value assignable v ty = ASet v') ->
      applied left fs (S k) P s2 l2 -> applied left (f :: fs) k P s2 (l1 ++ l2).
    Proof.
      intros PP H1 H2 (H3 & H4). split.
      - intros [|j] rest ty lab Ht.
        + rewrite Nat.add_0_r. destruct (H1 rest ty lab Ht) as (v & o & Hh & Ha). exists v, o.
          split; [eapply holds_after; eassumption|]. intros v' Hv. apply in_app_iff. left. auto.
        + apply target_shift in Ht. destruct (H3 j rest ty lab Ht) as (v & o & Hh & Ha). exists v, o. split; [exact Hh|].
          intros v' Hv. apply in_app_iff. right. replace (k + S j) with (S k + j) by lia. auto.
      - intros p v' Hin. apply in_app_iff in Hin as [Hin|Hin].
        + destruct (H2 p v' Hin) as (rest & ty & lab & v & o & -> & Ht & Hh & Ha). exists 0, rest, ty, lab, v, o.
          rewrite Nat.add_0_r. split; [reflexivity|]. split; [exact Ht|]. split; [eapply holds_after; eassumption|exact Ha].
        + destruct (H4 p v' Hin) as (j & rest & ty & lab & v & o & -> & Ht & Hh & Ha). exists (S j), rest, ty, lab, v, o.
          split; [f_equal; f_equal; lia|]. split; [apply target_shift; exact Ht|auto].
    Qed.

    Definition below (left : nat) (fs : list field) (rest : list nat) (ty : rtype) (lab : bytes) : Prop :=
      match left with O => False | S l => target l fs rest ty lab end.
    Definition sub_good (left : nat) (f : list field -> list nat -> ist -> ares * ist) : Prop :=
      forall fs P s, INV s -> exists new, POST s (snd (f fs P s)) new /\
        (fst (f fs P s) <> AppFail IPanic -> all_ok new) /\
        (forall l, fst (f fs P s) = AppOk l ->
          (forall rest ty lab, below left fs rest ty lab ->
             exists v o, HOLDS (snd (f fs P s)) (create_name (indirect ty) lab) (v :: o) /\
               (forall v', assign_value assignable v ty = ASet v' -> In (P ++ rest, v') l)) /\
          (forall p v', In (p, v') l -> exists rest ty lab v o, p = P ++ rest /\ below left fs rest ty lab /\
             HOLDS (snd (f fs P s)) (create_name (indirect ty) lab) (v :: o) /\ assign_value assignable v ty = ASet v')).

    Lemma target_zero left f fs rest ty lab : target left (f :: fs) (0 :: rest) ty lab ->
      (exists sub, f = Field true (TagInject lab) ty sub /\ rest = []) \/
      (exists ty0 fs', f = Field true TagNone ty0 (Some fs') /\ below left fs' rest ty lab).
    Proof.
      inversion 1; subst; match goal with H : nth_error _ _ = _ |- _ => cbn in H; injection H as -> end.
      - left. eauto.
      - right. cbn. eauto.
    Qed.

    Lemma apply_fields_good fuel left sub : sub_good left sub -> apply_good (apply_fields assignable call w i fuel sub) left.
    Proof.
      intros Hsub fs. induction fs as [|[settable tg ty sb] fs IH]; intros k P s Hs.
      { exists []. cbn [apply_fields fst snd]. split; [apply post_refl; exact Hs|]. split; [constructor|].
        intros l [= <-]. split.
        - intros j rest ty lab Ht. inversion Ht; subst; destruct j; discriminate.
        - intros p v' []. }
      cbn [apply_fields]. cbv zeta.
      (* a field that is skipped *)
      assert (Hskip : (forall rest ty' lab, ~ target left (Field settable tg ty sb :: fs) (0 :: rest) ty' lab) ->
        exists new, POST s (snd (apply_fields assignable call w i fuel sub fs (S k) P s)) new /\
        (fst (apply_fields assignable call w i fuel sub fs (S k) P s) <> AppFail IPanic -> all_ok new) /\
        (forall l, fst (apply_fields assignable call w i fuel sub fs (S k) P s) = AppOk l ->
           applied left (Field settable tg ty sb :: fs) k P (snd (apply_fields assignable call w i fuel sub fs (S k) P s)) l)).
      { intros Hno. destruct (IH (S k) P s Hs) as (new & P1 & H1 & H2). exists new. split; [exact P1|]. split; [exact H1|].
        intros l E. apply (applied_cons left _ fs k P s _ new [] l P1).
        - intros rest ty' lab Ht. exfalso. eapply Hno. exact Ht.
        - intros p v' [].
        - apply H2. exact E. }
      destruct settable; cbn [negb].
      2:{ apply Hskip. intros rest ty' lab Ht. apply target_zero in Ht as [(? & E & _)|(? & ? & E & _)]; discriminate. }
      destruct tg as [| |label].
      - (* untagged *)
        destruct sb as [fs1|].
        2:{ apply Hskip. intros rest ty' lab Ht. apply target_zero in Ht as [(? & E & _)|(? & ? & E & _)]; discriminate. }
        destruct (Hsub fs1 (P ++ [k]) s Hs) as (n1 & P1 & H1 & H2).
        destruct (sub fs1 (P ++ [k]) s) as [[l1|r] s1]; cbn [fst snd] in *.
        + destruct (IH (S k) P s1 (po_inv _ _ _ _ _ _ _ _ P1)) as (n2 & P2 & H3 & H4).
          destruct (H2 l1 eq_refl) as (Hc & Hso). assert (Ho1 : all_ok n1) by (apply H1; discriminate).
          exists (n2 ++ n1).
          destruct (apply_fields assignable call w i fuel sub fs (S k) P s1) as [[l2|r] s2]; cbn [fst snd] in *;
            (split; [eapply post_seq; eassumption|]); split.
          * intros _. apply Forall_app. split; [apply H3; discriminate|exact Ho1].
          * intros l [= <-]. eapply applied_cons; [exact P2| | |apply H4; reflexivity].
            -- intros rest ty' lab Ht. apply target_zero in Ht as [(? & E & _)|(ty0 & fs' & E & Hb)]; [discriminate|].
               injection E as <- <-. destruct (Hc rest ty' lab Hb) as (v & o & Hh & Ha). exists v, o. split; [exact Hh|].
               intros v' Hv. specialize (Ha v' Hv). rewrite <- app_assoc in Ha. exact Ha.
            -- intros p v' Hin. destruct (Hso p v' Hin) as (rest & ty' & lab & v & o & -> & Hb & Hh & Ha).
               exists rest, ty', lab, v, o. rewrite <- app_assoc. split; [reflexivity|]. split; [|auto].
               destruct left as [|left']; [destruct Hb|]. eapply tg_sub; [reflexivity|exact Hb].
          * intros Hne. apply Forall_app. split; [apply H3; exact Hne|exact Ho1].
          * discriminate.
        + exists n1. split; [exact P1|]. split; [exact H1|discriminate].
      - apply Hskip. intros rest ty' lab Ht. apply target_zero in Ht as [(? & E & _)|(? & ? & E & _)]; discriminate.
      - (* tagged *)
        destruct (look_in w i (create_name (indirect ty) label)) as [q| |] eqn:El;
          [|exists []; split; [apply post_refl; exact Hs|split; [constructor|discriminate]]..].
        destruct (inject_run fuel ty label s Hs q El) as (n1 & P1 & H1 & H2).
        destruct (run_invoke assignable call w i fuel q s) as [r s1]. cbn [fst snd] in *.
        destruct r as [out|e| |].
        2:{ exists n1. split; [exact P1|]. split; [intros _; apply H1; discriminate|discriminate]. }
        2:{ exists n1. split; [exact P1|]. split; [cbn; congruence|discriminate]. }
        2:{ exists n1. split; [exact P1|]. split; [intros _; apply H1; discriminate|discriminate]. }
        destruct (H2 out eq_refl) as (v & o & -> & Hh). assert (Ho1 : all_ok n1) by (apply H1; discriminate).
        destruct (IH (S k) P s1 (po_inv _ _ _ _ _ _ _ _ P1)) as (n2 & P2 & H3 & H4).
        set (l1 := match assign_value assignable v ty with ASet v' => [(P ++ [k], v')] | _ => [] end).
        assert (HA : forall l2, applied left fs (S k) P (snd (apply_fields assignable call w i fuel sub fs (S k) P s1)) l2 ->
                     applied left (Field true (TagInject label) ty sb :: fs) k P (snd (apply_fields assignable call w i fuel sub fs (S k) P s1)) (l1 ++ l2)).
        { intros l2 Hl2. eapply applied_cons; [exact P2| | |exact Hl2].
          - intros rest ty' lab Ht. apply target_zero in Ht as [(sub' & E & ->)|(? & ? & E & _)]; [|discriminate].
            injection E as <- <- <-. exists v, o. split; [exact Hh|]. intros v' Hv. unfold l1. rewrite Hv. left. reflexivity.
          - intros p v' Hin. unfold l1 in Hin. destruct (assign_value assignable v ty) as [v2| |] eqn:Ea; cbn in Hin; try tauto.
            destruct Hin as [[= <- <-]|[]]. exists [], ty, label, v, o. split; [reflexivity|]. split; [|auto].
            eapply tg_here. reflexivity. }
        assert (Hgoal : let x := match apply_fields assignable call w i fuel sub fs (S k) P s1 with
                                 | (AppOk l', s2) => (AppOk (l1 ++ l'), s2) | x => x end in
          exists new, POST s (snd x) new /\ (fst x <> AppFail IPanic -> all_ok new) /\
            (forall l, fst x = AppOk l -> applied left (Field true (TagInject label) ty sb :: fs) k P (snd x) l)).
        { exists (n2 ++ n1).
          destruct (apply_fields assignable call w i fuel sub fs (S k) P s1) as [[l2|r] s2]; cbn [fst snd] in *;
            (split; [eapply post_seq; eassumption|]); split.
          - intros _. apply Forall_app. split; [apply H3; discriminate|exact Ho1].
          - intros l [= <-]. apply HA. apply H4. reflexivity.
          - intros Hne. apply Forall_app. split; [apply H3; exact Hne|exact Ho1].
          - discriminate. }
        unfold l1 in Hgoal. destruct (assign_value assignable v ty); exact Hgoal.
    Qed.

    Lemma apply_lvl_sub fuel left : sub_good (S left) (apply_lvl assignable call w i fuel left).
    Proof.
      induction left as [|left IH]; intros fs P s Hs.
      - assert (H0 : sub_good 0 (fun _ _ s => (AppOk [], s))).
        { intros fs0 P0 s0 Hs0. exists []. cbn [fst snd]. split; [apply post_refl; exact Hs0|]. split; [constructor|].
          intros l [= <-]. split; [intros rest ty lab []|intros p v' []]. }
        destruct (apply_fields_good fuel 0 _ H0 fs 0 P s Hs) as (new & P1 & H1 & H2).
        exists new. split; [exact P1|]. split; [exact H1|]. intros l E. destruct (H2 l E) as (A & B). split.
        + intros rest ty lab Ht. cbn [below] in Ht. destruct rest as [|j rest]; [inversion Ht|]. apply (A j rest ty lab Ht).
        + intros p v' Hin. destruct (B p v' Hin) as (j & rest & ty & lab & v & o & -> & Ht & R).
          exists (j :: rest), ty, lab, v, o. split; [reflexivity|]. split; [exact Ht|exact R].
      - destruct (apply_fields_good fuel (S left) _ IH fs 0 P s Hs) as (new & P1 & H1 & H2).
        exists new. split; [exact P1|]. split; [exact H1|]. intros l E. destruct (H2 l E) as (A & B). split.
        + intros rest ty lab Ht. cbn [below] in Ht. destruct rest as [|j rest]; [inversion Ht|]. apply (A j rest ty lab Ht).
        + intros p v' Hin. destruct (B p v' Hin) as (j & rest & ty & lab & v & o & -> & Ht & R).
          exists (j :: rest), ty, lab, v, o. split; [reflexivity|]. split; [exact Ht|exact R].
    Qed.
  End One.
End Runs.
