(** Props_SessConc: C171, C172, concurrent requests with one session. *)
From Coq Require Import List Ascii String Bool Arith ZArith Lia.
Import ListNotations.
From Verif Require Import GoStr GoNum GoEnc ConvModel SecureModel SecureFacts RandModel CacheModel CacheSpec SessModel Props_Secure Props_Rand Props_Cache Props_Sess Props_SessExact SessConc.
Local Open Scope Z_scope.

(** ** Specification: what is saved is one register; every request works on a copy of its own *)
Section Spec.
  Variable V : Type.
  (** what a stored value is when it is read back (an int32 may become an int) *)
  Variable norm : V -> V.
  (** until when something saved at a time is there *)
  Variable until : Z -> option Z.
  Definition content := bytes -> option V.
  Record view := View { v_of : content; v_changed : bool; v_closed : bool }.
  (** what was saved last, and its end *)
  Record reg := Reg { g_saved : option (content * option Z); g_now : Z; g_views : nat -> option view }.
  Definition put (g : reg) (r : nat) (x : option view) : nat -> option view := fun q => if Nat.eqb q r then x else g_views g q.
  Definition saved_now (g : reg) : content :=
    match g_saved g with Some (m, e) => if ended (g_now g) e then (fun _ => None) else (fun k => option_map norm (m k)) | None => fun _ => None end.
  Definition gstep (g : reg) (e : sev V) : reg * list (nat * obs V) :=
    match e with
    | EWait d => (Reg (g_saved g) (g_now g + d) (g_views g), [])
    | EOp r f QStart => if reported_ok f then (Reg (g_saved g) (g_now g) (put g r (Some (View (saved_now g) false false))), [(r, OStarted)])
                        else (Reg (g_saved g) (g_now g) (put g r None), [(r, OStartErr)])
    | EOp r f o =>
        match g_views g r with
        | None => (g, [(r, ONil)])
        | Some x =>
            let mine x' := Reg (g_saved g) (g_now g) (put g r (Some x')) in
            match o with
            | QSet k v => (mine (View (fun k' => if beq k k' then Some v else v_of x k') true (v_closed x)), [(r, ODone)])
            | QDelete k => (mine (View (fun k' => if beq k k' then None else v_of x k') true (v_closed x)), [(r, ODone)])
            | QClean => (mine (View (fun _ => None) true (v_closed x)), [(r, ODone)])
            | QGet k => (g, [(r, OGot (v_of x k))])
            | QFlush =>
                if v_closed x || negb (v_changed x) then (g, [(r, OFlushed true)]) else
                (Reg (if carried_out f then Some (v_of x, until (g_now g)) else g_saved g) (g_now g) (put g r (Some (View (v_of x) false false))), [(r, OFlushed (reported_ok f))])
            | QDestroy =>
                (Reg (if carried_out f then None else g_saved g) (g_now g) (put g r (Some (View (fun _ => None) (v_changed x) true))), [(r, ODone)])
            | QStart => (g, [])
            end
        end
    end.
  Fixpoint grun (g : reg) (h : list (sev V)) : reg * list (nat * obs V) :=
    match h with
    | [] => (g, [])
    | e :: h' => let (g1, o1) := gstep g e in let (g2, o2) := grun g1 h' in (g2, o1 ++ o2)
    end.
  Definition reg0 (now : Z) : reg := Reg None now (fun _ => None).
End Spec.
Arguments View {V}. Arguments v_of {V}. Arguments v_changed {V}. Arguments v_closed {V}.
Arguments Reg {V}. Arguments g_saved {V}. Arguments g_now {V}. Arguments g_views {V}.

(** time does not go back *)
Definition onwards {V} (h : list (sev V)) : Prop := Forall (fun e => match e with EWait d => 0 <= d | _ => True end) h.

Section Conc.
  Variable V : Type.
  Variable marshal : amap V -> option bytes.
  Variable unmarshal : bytes -> option (amap V).
  Variable norm : V -> V.
  Variable c : scfg.
  Variable sid : bytes.
  Notation b := (cf_cache c).
  Notation K := (full b sid).
  Notation crun := (crun V marshal unmarshal c sid).
  Notation cstep := (cstep V marshal unmarshal c sid).
  Notation gstep := (gstep V norm (fun now => ends b now (Some (cf_expire c)))).
  Notation grun := (grun V norm (fun now => ends b now (Some (cf_expire c)))).
  (** the cache takes the id, the timeout and every map; what is saved can be read *)
  Definition good : Prop := storable b sid /\ fits b (Some (cf_expire c)) /\ (forall m, marshal m <> None) /\ codec marshal unmarshal norm.

  Definition same_obj (x : option (sess V)) (y : option (view V)) : Prop :=
    match x, y with
    | None, None => True
    | Some x, Some y => ss_sid x = sid /\ (forall k, aget (ss_values x) k = v_of y k) /\ ss_changed x = v_changed y /\ ss_closed x = v_closed y
    | _, _ => False
    end.
  Definition same_saved (s : store) (now : Z) (g : option (content V * option Z)) : Prop :=
    match g with
    | Some (m, e) => exists en m', aget s K = Some en /\ proper b en /\ end_of b en = e /\ unmarshal (utils_tostr (e_val en)) = Some m' /\ forall k, aget m' k = option_map norm (m k)
    | None => forall now', now <= now' -> look b now' s K = None
    end.
  Definition rel (s : cst V) (g : reg V) : Prop :=
    c_now s = g_now g /\ same_saved (c_store s) (c_now s) (g_saved g) /\ forall r, same_obj (c_objs s r) (g_views g r).

  Lemma same_put s g r x y : (forall q, same_obj (c_objs s q) (g_views g q)) -> same_obj x y -> forall q, same_obj (set_obj V s r x q) (put V g r y q).
  Proof using Type. intros H1 H2 q. unfold set_obj, put. destruct (Nat.eqb q r); auto. Qed.
  Lemma read_saved s now f g : good -> same_saved s now (g_saved g) -> now = g_now g ->
    let rd := p_read V unmarshal c now sid (s, [f]) in
    fst (fst rd) = s /\
    if reported_ok f then
      exists x, match snd rd with RdOk x' => Some x' | RdNotFound => Some (p_create V sid None) | RdErr => None end = Some x /\ same_obj (Some x) (Some (View (saved_now V norm g) false false))
    else snd rd = RdErr.
  Proof using Type.
    intros (L & F & Tot & Cod) S En. cbv zeta. rewrite read_fault. cbn [fst snd]. split; [reflexivity|]. destruct (reported_ok f); [|reflexivity].
    rewrite (read_nofault V unmarshal c now sid s L). cbn [snd]. unfold saved_now. destruct (g_saved g) as [(m & e)|]; cbn [same_saved] in S.
    - destruct S as (en & m' & A & P & E & U & N). unfold look. rewrite A. rewrite (live_ended _ _ _ P), E. rewrite En. destruct (ended (g_now g) e); cbn [negb].
      + eexists. split; [reflexivity|]. cbn. repeat split; auto.
      + rewrite U. eexists. split; [reflexivity|]. cbn. repeat split; auto.
    - rewrite S by lia. eexists. split; [reflexivity|]. cbn. repeat split; auto.
  Qed.
  Lemma call_f1 now o s f : round_trip b o = true ->
    call c now o (s, [f]) = ((if carried_out f then fst (server_do b now s o) else s, []), if reported_ok f then snd (server_do b now s o) else RFail).
  Proof using Type. apply call_fault. Qed.
  Lemma saved_set now s v m x : good -> marshal x = Some v -> (forall k, aget x k = m k) ->
    same_saved (fst (server_do b now s (OSet sid (ABytes v) (Some (cf_expire c))))) now (Some (m, ends b now (Some (cf_expire c)))) /\ snd (server_do b now s (OSet sid (ABytes v) (Some (cf_expire c)))) = RDone.
  Proof using Type.
    intros (L & F & Tot & Cod) M E. destruct (do_set b now s sid (ABytes v) (Some (cf_expire c)) L Logic.I F) as (v' & Ev & ->). cbn [fst snd]. split; [|reflexivity].
    destruct (new_exp_ends b now (Some (cf_expire c)) v' F) as (X & Y). destruct (Cod _ _ M) as (m' & U & N).
    exists (mkEntry v' (new_exp b now (Some (cf_expire c)))), m'. split; [apply aget_aset_same|]. split; [exact Y|]. split; [exact X|]. cbn [e_val]. rewrite Ev. split; [exact U|]. intros k. rewrite N, E. reflexivity.
  Qed.
  Lemma saved_del now s : storable b sid -> same_saved (fst (server_do b now s (ODelete sid))) now None.
  Proof using Type. intros L now' Hn. apply (find_old_look b now'). apply delete_gone; assumption. Qed.
  Lemma saved_later s now now' g : now <= now' -> same_saved s now g -> same_saved s now' g.
  Proof using Type. intros H. destruct g as [(m & e)|]; cbn; [auto|]. intros S n2 H2. apply S. lia. Qed.

  Lemma step_sim s g e : good -> rel s g -> match e with EWait d => 0 <= d | _ => True end ->
    snd (cstep s e) = snd (gstep g e) /\ rel (fst (cstep s e)) (fst (gstep g e)).
  Proof using Type.
    intros G (En & S & O) Hd. pose proof G as (L & F & Tot & Cod). destruct e as [d|r f o].
    - cbn. split; [reflexivity|]. split; [cbn; congruence|]. split; [cbn; eapply saved_later; [|exact S]; lia|exact O].
    - destruct (Some o) as [o'|] eqn:Eo; [|discriminate Eo]. injection Eo as ->.
      destruct o' as [|k v|k| |k| |].
      { cbn [SessConc.cstep Props_SessConc.gstep]. cbv zeta. destruct (read_saved (c_store s) (c_now s) f g G S En) as (E1 & E2).
        destruct (p_read V unmarshal c (c_now s) sid (c_store s, [f])) as (n1 & rr). cbn [fst snd] in *. destruct (reported_ok f).
        - destruct E2 as (x & E2 & Sx). destruct rr as [x'| |]; try discriminate E2; injection E2 as ->; cbn [fst snd]; (split; [reflexivity|]); (split; [exact En|]); (split; [cbn [c_store c_now g_saved]; rewrite E1; exact S|]); cbn [c_objs g_views]; apply same_put; auto.
        - rewrite E2. cbn [fst snd]. split; [reflexivity|]. split; [exact En|]. split; [cbn [c_store c_now g_saved]; rewrite E1; exact S|]. cbn [c_objs g_views]. apply same_put; [exact O|exact Logic.I]. }
      all: cbn [SessConc.cstep Props_SessConc.gstep]; pose proof (O r) as Or; destruct (c_objs s r) as [x|] eqn:Ex0; destruct (g_views g r) as [y|] eqn:Ey0; unfold same_obj in Or; try contradiction Or; try (cbn [fst snd]; split; [reflexivity|]; split; [exact En|]; split; [exact S|exact O]).
      all: destruct Or as (Sid & Vs & Ch & Cl).
      + cbn [fst snd]. split; [reflexivity|]. split; [exact En|]. split; [exact S|]. cbn [c_objs g_views]. apply same_put; [exact O|]. cbn. split; [exact Sid|]. split; [|auto].
        intros k'. destruct (beq_spec k k') as [->|N]; [apply aget_aset_same|]. rewrite aget_aset_other by exact N. apply Vs.
      + cbn [fst snd]. split; [reflexivity|]. split; [exact En|]. split; [exact S|]. cbn [c_objs g_views]. apply same_put; [exact O|]. cbn. split; [exact Sid|]. split; [|auto].
        intros k'. destruct (beq_spec k k') as [->|N]; [apply aget_adel_same|]. rewrite aget_adel_other by exact N. apply Vs.
      + cbn [fst snd]. split; [reflexivity|]. split; [exact En|]. split; [exact S|]. cbn [c_objs g_views]. apply same_put; [exact O|]. cbn. auto.
      + cbn [fst snd]. unfold s_get. rewrite Vs. split; [reflexivity|]. split; [exact En|]. split; [exact S|exact O].
      + assert (Keep : forall q, same_obj (set_obj V s r (Some x) q) (g_views g q)) by (intros q; unfold set_obj; destruct (Nat.eqb_spec q r) as [->|N]; [rewrite Ey0; exact (conj Sid (conj Vs (conj Ch Cl)))|apply O]).
        unfold s_flush. rewrite <- Ch, <- Cl. destruct (ss_closed x) eqn:Ex; [|destruct (ss_changed x) eqn:Ec]; cbn [negb orb].
        * cbn [fst snd]. split; [reflexivity|]. split; [exact En|]. split; [exact S|exact Keep].
        * unfold save. destruct (marshal (ss_values x)) as [v|] eqn:M; [|exfalso; exact (Tot _ M)]. rewrite Sid. rewrite call_f1 by apply trip_set.
          destruct (saved_set (c_now s) (c_store s) v (v_of y) (ss_values x) G M Vs) as (S1 & ->). cbn [fst snd].
          split; [destruct (reported_ok f); reflexivity|]. split; [exact En|]. cbn [c_store c_now c_objs g_saved g_views]. split; [destruct (carried_out f); [rewrite <- En; exact S1|exact S]|]. apply same_put; [exact O|]. cbn. auto.
        * cbn [fst snd]. split; [reflexivity|]. split; [exact En|]. split; [exact S|exact Keep].
      + unfold s_destroy, p_destroy. rewrite Sid. rewrite call_f1 by apply trip_del. cbn [fst snd]. split; [reflexivity|]. split; [exact En|]. cbn [c_store c_now c_objs g_saved g_views].
        split; [destruct (carried_out f); [apply saved_del; exact L|exact S]|]. apply same_put; [exact O|]. cbn. auto.
  Qed.
  Lemma run_sim h : forall s g, good -> rel s g -> onwards h -> snd (crun s h) = snd (grun g h) /\ rel (fst (crun s h)) (fst (grun g h)).
  Proof using Type.
    induction h as [|e h IH]; intros s g G R H; [auto|]. inversion H as [|? ? H1 H2]; subst. cbn [SessConc.crun Props_SessConc.grun].
    destruct (step_sim s g e G R H1) as (A & B). destruct (cstep s e) as (s1 & o1). destruct (gstep g e) as (g1 & o1'). cbn [fst snd] in A, B. destruct (IH s1 g1 G B H2) as (C & D).
    destruct (crun s1 h) as (s2 & o2). destruct (grun g1 h) as (g2 & o2'). cbn [fst snd] in *. split; [congruence|exact D].
  Qed.
  Definition cst0 (s : store) (now : Z) : cst V := CSt s now (fun _ => None).
  Lemma rel0 s now : aget s K = None -> rel (cst0 s now) (reg0 V now).
  Proof using Type. intros A. split; [reflexivity|]. split; [|intros r; exact Logic.I]. intros now' _. unfold look. cbn. rewrite A. reflexivity. Qed.

  (** ** C171 *)
  (** Whatever the schedule and the faults: what every call answers is what the register says. *)
  Theorem C171_session_is_a_register : good -> forall s now h, aget s K = None -> onwards h -> snd (crun (cst0 s now) h) = snd (grun (reg0 V now) h).
  Proof using Type. intros G s now h A H. apply run_sim; auto. apply rel0. exact A. Qed.

  (** what a request does to its own copy *)
  Definition own1 (r : nat) (e : sev V) : list (sop V) :=
    match e with
    | EOp q _ o => if Nat.eqb q r then match o with QSet k v => [PSet V k v] | QDelete k => [PDelete V k] | QClean => [PClean V] | _ => [] end else []
    | EWait _ => []
    end.
  Definition own (r : nat) (h : list (sev V)) : list (sop V) := flat_map (own1 r) h.
  Definition no_restart (r : nat) (h : list (sev V)) : Prop := Forall (fun e => match e with EOp q _ QStart | EOp q _ QDestroy => q <> r | _ => True end) h.
  Lemma crun_app h1 : forall s h2, fst (crun s (h1 ++ h2)) = fst (crun (fst (crun s h1)) h2).
  Proof using Type.
    induction h1 as [|e h1 IH]; intros s h2; [reflexivity|]. cbn [List.app SessConc.crun]. destruct (cstep s e) as (s1 & o1). specialize (IH s1 h2). destruct (crun s1 h1) as (s2 & o2). destruct (crun s1 (h1 ++ h2)) as (s3 & o3). cbn [fst] in *. exact IH.
  Qed.
  Lemma own_step s e r x : c_objs s r = Some x -> no_restart r [e] ->
    exists x', c_objs (fst (cstep s e)) r = Some x' /\ ss_values x' = ss_values (apply_ops V x (own1 r e)).
  Proof using Type.
    intros Ex N. inversion N as [|? ? N1 _]; subst. destruct e as [d|q f o]; [exists x; auto|].
    assert (Set_ : forall st y, set_obj V (CSt st (c_now s) (c_objs s)) q y r = if Nat.eqb r q then y else Some x) by (intros st y; unfold set_obj; cbn; destruct (Nat.eqb r q); [reflexivity|exact Ex]).
    destruct (Nat.eqb_spec q r) as [->|Nq].
    - destruct o as [|k v|k| |k| |]; try (exfalso; apply N1; reflexivity); cbn [SessConc.cstep]; rewrite Ex; cbn [own1]; rewrite Nat.eqb_refl.
      + eexists. cbn [fst c_objs]. unfold set_obj. rewrite Nat.eqb_refl. split; reflexivity.
      + eexists. cbn [fst c_objs]. unfold set_obj. rewrite Nat.eqb_refl. split; reflexivity.
      + eexists. cbn [fst c_objs]. unfold set_obj. rewrite Nat.eqb_refl. split; reflexivity.
      + exists x. cbn [fst]. auto.
      + unfold s_flush. destruct (ss_closed x); [|destruct (negb (ss_changed x))]; cbn [fst c_objs]; unfold set_obj; rewrite Nat.eqb_refl; eexists; (split; [reflexivity|]); reflexivity.
    - assert (Eo : own1 r (EOp q f o) = []) by (cbn; destruct (Nat.eqb_spec q r); [contradiction|reflexivity]). rewrite Eo. exists x. split; [|reflexivity].
      assert (D : forall st y, c_objs (CSt st (c_now s) (set_obj V s q y)) r = Some x) by (intros st y; cbn; unfold set_obj; destruct (Nat.eqb_spec r q); [congruence|exact Ex]).
      destruct o as [|k v|k| |k| |]; cbn [SessConc.cstep]; try (destruct (c_objs s q) as [xq|]; [|exact Ex]); try apply D.
      + cbv zeta. destruct (snd (p_read V unmarshal c (c_now s) sid (c_store s, [f]))); apply D.
      + exact Ex.
      + destruct (s_flush V marshal c (c_now s) xq (c_store s, [f])) as ((x' & n) & er). apply D.
  Qed.
  Lemma values_ops x y l : ss_values x = ss_values y -> ss_values (apply_ops V x l) = ss_values (apply_ops V y l).
  Proof using Type. revert x y. induction l as [|o l IH]; intros x y E; [exact E|]. cbn. apply IH. destruct o; cbn; congruence. Qed.
  Lemma own_run h : forall s r x, c_objs s r = Some x -> no_restart r h ->
    exists x', c_objs (fst (crun s h)) r = Some x' /\ ss_values x' = ss_values (apply_ops V x (own r h)).
  Proof using Type.
    induction h as [|e h IH]; intros s r x Ex N; [exists x; auto|]. inversion N as [|? ? N1 N2]; subst. destruct (own_step s e r x Ex) as (x1 & E1 & V1); [constructor; auto|].
    cbn [SessConc.crun]. destruct (cstep s e) as (s1 & o1). cbn [fst] in E1. destruct (IH s1 r x1 E1 N2) as (x2 & E2 & V2). destruct (crun s1 h) as (s2 & o2). cbn [fst] in *.
    exists x2. split; [exact E2|]. cbn [own flat_map]. unfold apply_ops. rewrite fold_left_app. rewrite V2. apply values_ops. exact V1.
  Qed.
  (** After its Start a request sees what it read then and its own changes, whatever others do and whatever fails. *)
  Theorem C171_own_copy : forall s h1 h2 r k f f' v, no_restart r h2 ->
    snd (cstep (fst (crun s h1)) (EOp r f (QGet k))) = [(r, OGot v)] ->
    snd (cstep (fst (crun s (h1 ++ h2))) (EOp r f' (QGet k))) = [(r, OGot (latest V k v (rev (own r h2))))].
  Proof using Type.
    intros s h1 h2 r k f f' v N E. rewrite crun_app. set (s1 := fst (crun s h1)) in *. cbn [SessConc.cstep] in E |- *. destruct (c_objs s1 r) as [x|] eqn:Ex; [|discriminate E]. cbn in E. injection E as E.
    destruct (own_run h2 s1 r x Ex N) as (x' & E' & V'). rewrite E'. cbn [snd]. repeat f_equal. unfold s_get. rewrite V'. destruct (C46_session_is_map V x (own r h2) k) as (X & _). unfold s_get in X. rewrite X. rewrite <- E. reflexivity.
  Qed.

  (** ** C172 *)
  Lemma grun_app h1 : forall g h2, fst (grun g (h1 ++ h2)) = fst (grun (fst (grun g h1)) h2).
  Proof using Type.
    induction h1 as [|e h1 IH]; intros g h2; [reflexivity|]. cbn [List.app Props_SessConc.grun]. destruct (gstep g e) as (g1 & o1). specialize (IH g1 h2). destruct (grun g1 h1) as (g2 & o2). destruct (grun g1 (h1 ++ h2)) as (g3 & o3). cbn [fst] in *. exact IH.
  Qed.
  Lemma get_sim s now h r k : good -> aget s K = None -> onwards h ->
    snd (cstep (fst (crun (cst0 s now) h)) (EOp r NoFault (QGet k))) = [(r, match g_views (fst (grun (reg0 V now) h)) r with Some y => OGot (v_of y k) | None => ONil end)].
  Proof using Type.
    intros G A H. destruct (run_sim h (cst0 s now) (reg0 V now) G (rel0 s now A) H) as (_ & R).
    destruct (step_sim _ _ (EOp r NoFault (QGet k)) G R Logic.I) as (E & _). rewrite E. cbn [Props_SessConc.gstep]. destruct (g_views (fst (grun (reg0 V now) h)) r); reflexivity.
  Qed.
  Lemma onwards_app h1 h2 : onwards h1 -> onwards h2 -> @onwards V (h1 ++ h2).
  Proof using Type. apply Forall_app_2 || (intros; apply Forall_app; auto). Qed.
  (** Two requests that started from the same saved values and change different keys: when both have flushed, the first one's change is gone. *)
  Theorem C172_lost_update : good -> (forall v, norm (norm v) = norm v) -> forall s now h A B R ka kb va vb d v, aget s K = None -> onwards h ->
    A <> B -> ka <> kb -> 0 <= d -> 0 < cf_expire c -> d + early b < cf_expire c * 1000000000 ->
    snd (cstep (fst (crun (cst0 s now) (h ++ [EOp A NoFault QStart]))) (EOp A NoFault (QGet ka))) = [(A, OGot v)] ->
    let h' := h ++ [EOp A NoFault QStart; EOp B NoFault QStart; EOp A NoFault (QSet ka va); EOp B NoFault (QSet kb vb); EOp A NoFault QFlush; EOp B NoFault QFlush; EWait d; EOp R NoFault QStart] in
    snd (cstep (fst (crun (cst0 s now) h')) (EOp R NoFault (QGet ka))) = [(R, OGot v)] /\
    snd (cstep (fst (crun (cst0 s now) h')) (EOp R NoFault (QGet kb))) = [(R, OGot (Some (norm vb)))].
  Proof using Type.
    intros G Idem s now h A B R ka kb va vb d v As H NAB Nk Hd Hx Hl Ev h'.
    assert (H1 : onwards (h ++ [EOp A NoFault QStart])) by (apply onwards_app; [exact H|repeat constructor]).
    assert (H2 : onwards h') by (apply onwards_app; [exact H|repeat constructor; exact Hd]).
    rewrite (get_sim _ _ _ _ _ G As H1) in Ev. rewrite !(get_sim _ _ _ _ _ G As H2). unfold h'. clear h' H1 H2. rewrite grun_app in *. set (g := fst (grun (reg0 V now) h)) in *. clearbody g.
    cbn [Props_SessConc.grun Props_SessConc.gstep fst snd reported_ok carried_out g_views g_saved g_now] in *. unfold put in *. cbn [g_views] in *. rewrite !Nat.eqb_refl in *. cbn [v_of v_closed v_changed] in *. injection Ev as Ev.
    assert (EAB : Nat.eqb A B = false) by (apply Nat.eqb_neq; exact NAB). assert (EBA : Nat.eqb B A = false) by (apply Nat.eqb_neq; congruence).
    repeat (first [rewrite !Nat.eqb_refl|rewrite EAB|rewrite EBA|progress cbn [v_of v_closed v_changed negb orb fst snd Props_SessConc.gstep g_views g_saved g_now]]).
    unfold saved_now in *. cbn [g_saved g_now v_of] in *. rewrite (not_ended b (g_now g) (cf_expire c) d Hx Hl). cbv beta. rewrite beq_refl. destruct (beq_spec kb ka) as [X|_]; [congruence|]. cbn [option_map]. split; [|reflexivity]. rewrite <- Ev. destruct (g_saved g) as [(m & e)|]; [|reflexivity]. destruct (ended (g_now g) e); [reflexivity|]. cbv beta. destruct (m ka); cbn; [rewrite Idem; reflexivity|reflexivity].
  Qed.

  (** a request on its own: it starts, makes changes and flushes, some time after the one before *)
  Definition rop_of (o : sop V) : rop V := match o with PSet _ k v => QSet k v | PDelete _ k => QDelete k | PClean _ => QClean end.
  Definition block (x : Z * nat * list (sop V)) : list (sev V) :=
    let '(d, r, ops) := x in [EWait d; EOp r NoFault QStart] ++ map (fun o => EOp r NoFault (rop_of o)) ops ++ [EOp r NoFault QFlush].
  Definition in_time (d : Z) : Prop := 0 <= d /\ d + early b < cf_expire c * 1000000000.
  Lemma grun_ops r ops : forall g y, g_views g r = Some y -> exists y' vs, fst (grun g (map (fun o => EOp r NoFault (rop_of o)) ops)) = Reg (g_saved g) (g_now g) vs /\ vs r = Some y' /\
    (forall k, v_of y' k = latest V k (v_of y k) (rev ops)) /\ v_closed y' = v_closed y /\ (ops <> [] \/ v_changed y = true -> v_changed y' = true).
  Proof using Type.
    induction ops as [|o ops IH] using rev_ind; intros g y Ey.
    - exists y, (g_views g). destruct g as [sv nw vw]. cbn in *. repeat split; auto. intros [X|X]; [congruence|exact X].
    - destruct (IH g y Ey) as (y1 & vs & E & E1 & L & Cl & _). rewrite map_app, grun_app, E. cbn [map Props_SessConc.grun].
      destruct o as [k v|k|]; cbn [rop_of Props_SessConc.gstep g_views]; rewrite E1; cbn [fst snd g_saved g_now]; eexists _, _; (split; [reflexivity|]); unfold put; rewrite Nat.eqb_refl; (split; [reflexivity|]); cbn [v_of v_closed v_changed];
        (split; [|auto]); intros k'; rewrite rev_app_distr; cbn [rev List.app latest]; rewrite ?L; reflexivity.
  Qed.
  Definition saved_of (g : reg V) (ct : content V) : Prop :=
    exists m e, g_saved g = Some (m, e) /\ e = ends b (g_now g) (Some (cf_expire c)) /\ forall k, option_map norm (m k) = option_map norm (ct k).
  Lemma gblock g d r ops ct : (forall v, norm (norm v) = norm v) -> 0 < cf_expire c -> in_time d -> ops <> [] -> (saved_of g ct \/ g_saved g = None /\ forall k, ct k = None) ->
    saved_of (fst (grun g (block (d, r, ops)))) (fun k => latest V k (ct k) (rev ops)).
  Proof using Type.
    intros Idem Hx (Hd & Hl) No Sv. unfold block. rewrite !grun_app. cbn [Props_SessConc.grun Props_SessConc.gstep fst snd reported_ok].
    set (g1 := Reg _ _ (put V _ r _)). destruct (grun_ops r ops g1 (View (saved_now V norm (Reg (g_saved g) (g_now g + d) (g_views g))) false false)) as (y & vs & E & Ey & L & Cl & Chg).
    { unfold g1, put. cbn. rewrite Nat.eqb_refl. reflexivity. }
    rewrite E. cbn [g_views]. rewrite Ey. cbn [v_closed v_changed] in Cl, Chg. rewrite Cl, (Chg (or_introl No)). cbn [negb orb fst snd carried_out g_now g_saved].
    eexists _, _. split; [reflexivity|]. split; [reflexivity|]. intros k. rewrite L. cbn [v_of].
    assert (N0 : option_map norm (saved_now V norm (Reg (g_saved g) (g_now g + d) (g_views g)) k) = option_map norm (ct k)).
    { unfold saved_now. cbn [g_saved g_now]. destruct Sv as [(m & e & -> & -> & Em)|(-> & Em)]; [|rewrite Em; reflexivity]. rewrite not_ended by assumption. rewrite Em. destruct (ct k); cbn; [rewrite Idem|]; reflexivity. }
    revert N0. generalize (saved_now V norm (Reg (g_saved g) (g_now g + d) (g_views g)) k) (ct k). intros a a' N0. clear - N0. induction (rev ops) as [|o l IH]; [exact N0|]. destruct o as [k' v|k'|]; cbn [latest]; [destruct (beq k' k); auto|destruct (beq k' k); auto|reflexivity].
  Qed.
  (** Requests that do not overlap lose nothing: after any number of them a new one finds the result of all their changes in order. *)
  Theorem C172_serial_updates_survive : good -> (forall v, norm (norm v) = norm v) -> 0 < cf_expire c -> forall s now blocks d R k, aget s K = None ->
    Forall (fun x => in_time (fst (fst x)) /\ snd x <> []) blocks -> in_time d ->
    snd (cstep (fst (crun (cst0 s now) (flat_map block blocks ++ [EWait d; EOp R NoFault QStart]))) (EOp R NoFault (QGet k))) =
      [(R, OGot (option_map norm (latest V k None (rev (flat_map snd blocks)))))].
  Proof using Type.
    intros G Idem Hx s now blocks d R k As Hb (Hd & Hl).
    assert (Ho : onwards (flat_map block blocks)).
    { induction blocks as [|((d1 & r1) & ops) bl IH]; [constructor|]. inversion Hb as [|? ? ((Hd1 & _) & _) Hb']; subst. cbn [flat_map]. apply onwards_app; [|apply IH; exact Hb'].
      unfold block. constructor; [exact Hd1|]. constructor; [exact Logic.I|]. apply onwards_app; [|repeat constructor]. clear. induction ops; constructor; [exact Logic.I|assumption]. }
    rewrite (get_sim s now _ R k G As) by (apply onwards_app; [exact Ho|repeat constructor; exact Hd]). rewrite grun_app.
    assert (Sv : saved_of (fst (grun (reg0 V now) (flat_map block blocks))) (fun k => latest V k None (rev (flat_map snd blocks))) \/ g_saved (fst (grun (reg0 V now) (flat_map block blocks))) = None /\ forall k, latest V k None (rev (flat_map snd blocks)) = None).
    { clear Ho. induction blocks as [|((d1 & r1) & ops) bl IH] using rev_ind; [right; auto|]. apply Forall_app in Hb as (Hb1 & Hb2). inversion Hb2 as [|? ? (T1 & No) _]; subst. cbn [fst snd] in T1, No.
      left. rewrite flat_map_app, grun_app. cbn [flat_map]. rewrite app_nil_r. destruct (gblock _ d1 r1 ops _ Idem Hx T1 No (IH Hb1)) as (m & e & E1 & E2 & E3). exists m, e. split; [exact E1|]. split; [exact E2|]. intros k'. rewrite E3. f_equal.
      rewrite (flat_map_app snd). cbn [flat_map snd]. rewrite app_nil_r, rev_app_distr. clear. induction (rev ops) as [|o l IH]; [reflexivity|]. destruct o as [k2 v|k2|]; cbn [List.app latest]; [destruct (beq k2 k'); auto|destruct (beq k2 k'); auto|reflexivity]. }
    set (g := fst (grun (reg0 V now) (flat_map block blocks))) in *. cbn [Props_SessConc.grun Props_SessConc.gstep fst snd reported_ok g_views]. unfold put. rewrite Nat.eqb_refl. cbn [v_of]. unfold saved_now. cbn [g_saved g_now].
    destruct Sv as [(m & e & -> & -> & Em)|(-> & Em)]; [|rewrite Em; reflexivity]. rewrite not_ended by assumption. rewrite Em. reflexivity.
  Qed.
End Conc.

(** ** Examples *)
Lemma toy_good bk : storable bk (bs "s1") -> fits bk (Some 3600) -> good bytes toy_marshal toy_unmarshal (fun v => v) (ex_cfg bk) (bs "s1").
Proof. intros L F. split; [exact L|]. split; [exact F|]. split; [discriminate|]. apply toy_codec. Qed.
Example C171_case : Forall (fun bk => good bytes toy_marshal toy_unmarshal (fun v => v) (ex_cfg bk) (bs "s1")) three.
Proof. repeat constructor; try discriminate; try apply toy_codec; try (cbn; lia); try exact Logic.I; reflexivity. Qed.
(** the claim that flushed changes of concurrent requests all survive is false *)
Theorem C172_updates_survive_refuted :
  ~ (forall (c : scfg) sid s now (h : list (sev bytes)) A B R ka kb va vb, good bytes toy_marshal toy_unmarshal (fun v => v) c sid -> 0 < cf_expire c -> aget s (full (cf_cache c) sid) = None -> onwards h -> A <> B -> ka <> kb ->
     snd (cstep bytes toy_marshal toy_unmarshal c sid (fst (crun bytes toy_marshal toy_unmarshal c sid (cst0 bytes s now)
       (h ++ [EOp A NoFault QStart; EOp B NoFault QStart; EOp A NoFault (QSet ka va); EOp B NoFault (QSet kb vb); EOp A NoFault QFlush; EOp B NoFault QFlush; EOp R NoFault QStart]))) (EOp R NoFault (QGet ka))) = [(R, OGot (Some va))]).
Proof.
  intros H. specialize (H (ex_cfg (BRedis (bs "s:"))) (bs "s1") [] 0 [] 0%nat 1%nat 2%nat (bs "a") (bs "b") (bs "x") (bs "y")).
  assert (X : @nil (nat * obs bytes) = [] -> False).
  { intros _. specialize (H (toy_good (BRedis (bs "s:")) Logic.I ltac:(cbn; lia)) ltac:(cbn; lia) eq_refl ltac:(constructor) ltac:(discriminate) ltac:(vm_compute; discriminate)). vm_compute in H. discriminate H. }
  exact (X eq_refl).
Qed.
Example C172_case : let c := ex_cfg (BMgo true) in
  snd (crun bytes toy_marshal toy_unmarshal c (bs "s1") (cst0 bytes [] 0)
    (flat_map (block bytes) [(0, 0%nat, [PSet bytes (bs "a") (bs "x")]); (5, 1%nat, [PSet bytes (bs "b") (bs "y"); PDelete bytes (bs "c")])] ++ [EOp 2%nat NoFault QStart; EOp 2%nat NoFault (QGet (bs "a")); EOp 2%nat FaultAfter (QGet (bs "b"))])) =
  [(0%nat, OStarted); (0%nat, ODone); (0%nat, OFlushed true); (1%nat, OStarted); (1%nat, ODone); (1%nat, ODone); (1%nat, OFlushed true); (2%nat, OStarted); (2%nat, OGot (Some (bs "x"))); (2%nat, OGot (Some (bs "y")))].
Proof. vm_compute. reflexivity. Qed.

Print Assumptions C171_session_is_a_register.
Print Assumptions C171_own_copy.
Print Assumptions C172_lost_update.
Print Assumptions C172_serial_updates_survive.
Print Assumptions C172_updates_survive_refuted.
