(** Props_RegenConc: C179, regenerating a session that other requests are using. *)
From Coq Require Import List Ascii String Bool Arith ZArith Lia.
Import ListNotations.
From Verif Require Import GoStr GoNum GoEnc ConvModel SecureModel SecureFacts RandModel CacheModel CacheSpec SessModel Props_Secure Props_Rand Props_Cache Props_Sess Props_SessExact SessConc Props_SessConc RegenConc.
Local Open Scope Z_scope.

(** ** Specification: the first round trip of Regenerate copies the register, the third empties it *)
Section Spec.
  Variable V : Type.
  Variable norm : V -> V.
  Variable until : Z -> option Z.
  Inductive gpc := GGet | GSet (m : content V) | GDel (m : content V) (e : option Z) | GRead (m : content V) (e : option Z)
  | GEnd (r : option (option (content V))).      (* an error; nothing there; values *)
  Definition there (g : reg V) : option (content V) :=
    match g_saved g with Some (m, e) => if ended (g_now g) e then None else Some (fun k => option_map norm (m k)) | None => None end.
  Definition gxstep (g : reg V * gpc) (e : xev V) : (reg V * gpc) * list (nat * obs V) :=
    match e with
    | XOther e => let r := gstep V norm until (fst g) e in ((fst r, snd g), snd r)
    | XRegen f =>
        let stay p := ((fst g, p), []) in
        match snd g with
        | GGet => stay (if reported_ok f then match there (fst g) with Some m => GSet m | None => GEnd (Some None) end else GEnd None)
        | GSet m => stay (if reported_ok f then GDel m (until (g_now (fst g))) else GEnd None)
        | GDel m e => ((Reg (if carried_out f then None else g_saved (fst g)) (g_now (fst g)) (g_views (fst g)), GRead m e), [])
        | GRead m e => stay (GEnd (if reported_ok f then Some (if ended (g_now (fst g)) e then None else Some m) else None))
        | GEnd r => stay (GEnd r)
        end
    end.
  Fixpoint gxrun (g : reg V * gpc) (h : list (xev V)) : (reg V * gpc) * list (nat * obs V) :=
    match h with
    | [] => (g, [])
    | e :: h' => let (g1, o1) := gxstep g e in let (g2, o2) := gxrun g1 h' in (g2, o1 ++ o2)
    end.
End Spec.
Arguments GGet {V}. Arguments GSet {V}. Arguments GDel {V}. Arguments GRead {V}. Arguments GEnd {V}.
Definition xonwards {V} (h : list (xev V)) : Prop := Forall (fun e => match e with XOther (EWait d) => 0 <= d | _ => True end) h.

Section Conc.
  Variable V : Type.
  Variable marshal : amap V -> option bytes.
  Variable unmarshal : bytes -> option (amap V).
  Variable norm : V -> V.
  Variable c : scfg.
  Variables old new : bytes.
  Notation b := (cf_cache c).
  Notation xrun := (xrun V marshal unmarshal c old new).
  Notation xstep := (xstep V marshal unmarshal c old new).
  Notation rstep := (rstep V unmarshal c old new).
  Notation cstep := (cstep V marshal unmarshal c old).
  Notation crun := (crun V marshal unmarshal c old).
  Notation till := (fun now => ends b now (Some (cf_expire c))).
  Notation gxstep := (gxstep V norm till).
  Notation gxrun := (gxrun V norm till).
  Notation good := (good V marshal unmarshal norm c old).
  Notation rel := (rel V unmarshal norm c old).
  Notation same_saved := (same_saved V unmarshal norm c old).

  (** what Regenerate gives *)
  Definition same_res (r : rdres V) (g : option (option (content V))) : Prop :=
    match r, g with
    | RdOk x, Some (Some m) => ss_sid x = new /\ ss_changed x = false /\ ss_closed x = false /\ forall k, aget (ss_values x) k = m k
    | RdNotFound, Some None => True
    | RdErr, None => True
    | _, _ => False
    end.
  Definition prel (s : store) (p : rpc V) (q : gpc V) : Prop :=
    match p, q with
    | AtGet, GGet => True
    | AtSet v, GSet m => exists m', unmarshal v = Some m' /\ forall k, aget m' k = m k
    | AtDel, GDel m e | AtRead, GRead m e =>
        exists en m', aget s (full b new) = Some en /\ proper b en /\ end_of b en = e /\ unmarshal (utils_tostr (e_val en)) = Some m' /\ forall k, aget m' k = m k
    | AtEnd r, GEnd g => same_res r g
    | _, _ => False
    end.
  Definition xrel (s : xst V) (g : reg V * gpc V) : Prop := rel (fst s) (fst g) /\ prel (c_store (fst s)) (snd s) (snd g).

  Hypothesis Hne : new <> old.
  Lemma keys_differ : full b new <> full b old.
  Proof using Hne. intros E. apply full_inj in E. contradiction. Qed.
  Lemma saved_other s s' now g : aget s' (full b old) = aget s (full b old) -> same_saved s now g -> same_saved s' now g.
  Proof using Type.
    intros E. destruct g as [(m & e)|]; cbn.
    - rewrite E. auto.
    - intros H now' Hn. specialize (H now' Hn). unfold look in *. rewrite E. exact H.
  Qed.
  Lemma delete_keeps now s k f : k <> old -> storable b old -> aget (fst (fst (p_destroy c now old (s, [f])))) (full b k) = aget s (full b k).
  Proof using Type.
    intros N L. unfold p_destroy. rewrite call_fault by apply trip_del. cbn [fst]. destruct (carried_out f); [|reflexivity].
    rewrite (do_delete _ _ _ _ L). destruct (find_old b now s (full b old)); cbn [fst]; [|reflexivity]. apply aget_adel_other. intros E. apply full_inj in E. congruence.
  Qed.
  Lemma set_keeps now s k v f : k <> new -> storable b new -> fits b (Some (cf_expire c)) -> plain v -> aget (fst (fst (call c now (OSet new v (Some (cf_expire c))) (s, [f])))) (full b k) = aget s (full b k).
  Proof using Type.
    intros N L F P. rewrite call_fault by apply trip_set. cbn [fst]. destruct (carried_out f); [|reflexivity]. destruct (do_set b now s new v _ L P F) as (v' & _ & ->). cbn [fst].
    apply aget_aset_other. intros E. apply full_inj in E. congruence.
  Qed.
  (** the calls of the others do not touch the new id *)
  Lemma others_keep s e : storable b old -> fits b (Some (cf_expire c)) -> (forall r x, c_objs s r = Some x -> ss_sid x = old) ->
    aget (c_store (fst (cstep s e))) (full b new) = aget (c_store s) (full b new).
  Proof using Hne.
    intros L F Hs. destruct e as [d|r f o]; [reflexivity|]. destruct o; cbn [SessConc.cstep]; cbv zeta.
    - pose proof (read_fault V unmarshal c (c_now s) old (c_store s) f []) as E. rewrite E. cbn [fst snd]. destruct (reported_ok f); [|reflexivity]. destruct (snd (p_read V unmarshal c (c_now s) old (c_store s, []))); reflexivity.
    - destruct (c_objs s r); reflexivity.
    - destruct (c_objs s r); reflexivity.
    - destruct (c_objs s r); reflexivity.
    - destruct (c_objs s r); reflexivity.
    - destruct (c_objs s r) as [x|] eqn:Ex; [|reflexivity]. unfold s_flush. destruct (ss_closed x); [reflexivity|]. destruct (ss_changed x); cbn [negb]; [|reflexivity].
      unfold save. destruct (marshal (ss_values x)) as [v|]; [|reflexivity]. rewrite (Hs _ _ Ex), call_fault by apply trip_set. cbn [fst snd c_store]. destruct (carried_out f); [|reflexivity].
      destruct (do_set b (c_now s) (c_store s) old (ABytes v) (Some (cf_expire c)) L Logic.I F) as (v' & _ & ->). cbn [fst]. apply aget_aset_other. intros E. apply full_inj in E. congruence.
    - destruct (c_objs s r) as [x|] eqn:Ex; [|reflexivity]. unfold s_destroy. rewrite (Hs _ _ Ex). cbn [fst snd c_store]. apply delete_keeps; auto.
  Qed.
  Lemma rel_sids s g : rel s g -> forall r x, c_objs s r = Some x -> ss_sid x = old.
  Proof using Type. intros (_ & _ & O) r x E. specialize (O r). rewrite E in O. destruct (g_views g r); [exact (proj1 O)|contradiction]. Qed.

  Lemma xstep_sim s g e : good -> storable b new -> xrel s g -> match e with XOther (EWait d) => 0 <= d | _ => True end ->
    snd (xstep s e) = snd (gxstep g e) /\ xrel (fst (xstep s e)) (fst (gxstep g e)).
  Proof using Hne.
    intros G Ln (R & P) Hd. pose proof G as (L & F & Tot & Cod). destruct s as (s & p), g as (g & q). cbn [fst snd] in *. destruct e as [e|f].
    - cbn [RegenConc.xstep Props_RegenConc.gxstep fst snd]. destruct (step_sim V marshal unmarshal norm c old s g e G R) as (A & B); [destruct e; exact Hd|]. cbn [fst snd]. split; [exact A|]. split; [exact B|]. cbn [fst snd].
      pose proof (others_keep s e L F (rel_sids _ _ R)) as Ek. unfold prel in *. rewrite Ek. exact P.
    - pose proof R as (En & S & O). cbn [RegenConc.xstep Props_RegenConc.gxstep fst snd]. destruct p as [|v| | |r]; destruct q as [|m|m e|m e|gr]; cbn [prel] in P; try contradiction P; cbn [RegenConc.rstep].
      + (* Get *) rewrite call_fault by apply trip_get. rewrite (do_get _ _ _ _ L). cbn [fst snd]. split; [reflexivity|]. split; cbn [fst snd c_store].
        * split; [exact En|]. split; [|exact O]. cbn [c_store c_now]. destruct (carried_out f); exact S.
        * destruct (reported_ok f); [|exact Logic.I]. unfold there. destruct (g_saved g) as [(m & e)|]; cbn [Props_SessConc.same_saved] in S.
          -- destruct S as (en & m' & A & Pr & E & U & N). unfold look. rewrite A, (live_ended _ _ _ Pr), E, En. destruct (ended (g_now g) e); cbn [negb]; [exact Logic.I|]. exists m'. auto.
          -- rewrite S by lia. exact Logic.I.
      + (* Set *) destruct P as (m' & U & N). split; [reflexivity|].
        assert (R' : rel (CSt (fst (fst (call c (c_now s) (OSet new (AStr v) (Some (cf_expire c))) (c_store s, [f])))) (c_now s) (c_objs s)) g).
        { split; [exact En|]. split; [|exact O]. cbn [c_store c_now]. eapply saved_other; [|exact S]. apply set_keeps; auto; try exact Logic.I. }
        split; [exact R'|]. cbn [fst snd c_store]. rewrite call_fault by apply trip_set. cbn [fst snd]. destruct (do_set b (c_now s) (c_store s) new (AStr v) (Some (cf_expire c)) Ln Logic.I F) as (v' & Ev & ->). cbn [fst snd].
        destruct f; cbn [reported_ok carried_out]; try exact Logic.I. cbn [prel]. destruct (new_exp_ends b (c_now s) (Some (cf_expire c)) v' F) as (X & Y).
        exists (mkEntry v' (new_exp b (c_now s) (Some (cf_expire c)))), m'. split; [apply aget_aset_same|]. split; [exact Y|]. split; [rewrite X, En; reflexivity|]. cbn [e_val]. rewrite Ev. auto.
      + (* Delete *) split; [reflexivity|]. split; cbn [fst snd c_store].
        * split; [exact En|]. split; [|exact O]. cbn [c_store c_now g_saved]. unfold p_destroy. rewrite call_fault by apply trip_del. cbn [fst]. destruct (carried_out f); [|exact S]. apply saved_del. exact L.
        * cbn [prel]. destruct P as (en & m' & A & P). exists en, m'. split; [|exact P]. rewrite <- A. apply delete_keeps; auto.
      + (* Read *) split; [reflexivity|]. rewrite read_fault. cbn [fst snd]. split; cbn [fst snd c_store].
        * split; [exact En|]. split; [exact S|exact O].
        * destruct (reported_ok f); [|exact Logic.I]. rewrite (read_nofault V unmarshal c (c_now s) new (c_store s) Ln). cbn [snd]. destruct P as (en & m' & A & Pr & E & U & N).
          unfold look. rewrite A, (live_ended _ _ _ Pr), E, En. destruct (ended (g_now g) e); cbn [negb]; [exact Logic.I|]. rewrite U. cbn. auto.
      + split; [reflexivity|]. split; [|exact P]. split; [exact En|]. split; [exact S|exact O].
  Qed.
  Lemma xrun_sim h : forall s g, good -> storable b new -> xrel s g -> xonwards h -> snd (xrun s h) = snd (gxrun g h) /\ xrel (fst (xrun s h)) (fst (gxrun g h)).
  Proof using Hne.
    induction h as [|e h IH]; intros s g G Ln R H; [auto|]. inversion H as [|? ? H1 H2]; subst. cbn [RegenConc.xrun Props_RegenConc.gxrun].
    destruct (xstep_sim s g e G Ln R H1) as (A & B). destruct (xstep s e) as (s1 & o1). destruct (gxstep g e) as (g1 & o1'). cbn [fst snd] in A, B. destruct (IH s1 g1 G Ln B H2) as (C & D).
    destruct (xrun s1 h) as (s2 & o2). destruct (gxrun g1 h) as (g2 & o2'). cbn [fst snd] in *. split; [congruence|exact D].
  Qed.

  (** ** C179 *)
  (** the four round trips in a row, with no other request between them, are the Regenerate of SessModel *)
  Theorem C179_alone now s f1 f2 f3 f4 :
    let next f x := rstep now (fst x) (snd x) f in
    let last := next f4 (next f3 (next f2 (next f1 (s, AtGet)))) in
    let r := p_regenerate V unmarshal c now old new (s, [f1; f2; f3; f4]) in
    last = (fst (fst r), AtEnd (snd r)).
  Proof using Type.
    cbv zeta. unfold p_regenerate. cbn [RegenConc.rstep fst snd]. rewrite !call_fault by apply trip_get. cbn [fst snd].
    destruct (if reported_ok f1 then snd (server_do b now s (OGet old)) else RFail) as [v| | | |]; cbn [RegenConc.rstep fst snd]; try reflexivity.
    rewrite !call_fault by apply trip_set. cbn [fst snd]. destruct (if reported_ok f2 then _ else RFail); cbn [RegenConc.rstep fst snd]; reflexivity.
  Qed.
  Definition x0 (s : store) (now : Z) : xst V := (cst0 V s now, AtGet).
  Lemma xrel0 s now : aget s (full b old) = None -> xrel (x0 s now) (reg0 V now, GGet).
  Proof using Type. intros A. split; [apply rel0; exact A|exact Logic.I]. Qed.
  (** whatever the schedule and the faults: the other requests see a register that the third round trip empties, and
      Regenerate gives what the register held at the first *)
  Theorem C179_regenerate_exact : good -> storable b new -> forall s now h, aget s (full b old) = None -> xonwards h ->
    snd (xrun (x0 s now) h) = snd (gxrun (reg0 V now, GGet) h) /\
    forall r, snd (fst (xrun (x0 s now) h)) = AtEnd r -> exists g, snd (fst (gxrun (reg0 V now, GGet) h)) = GEnd g /\ same_res r g.
  Proof using Hne.
    intros G Ln s now h A H. destruct (xrun_sim h _ _ G Ln (xrel0 s now A) H) as (E & (_ & P)). split; [exact E|]. intros r Er. rewrite Er in P.
    destruct (snd (fst (gxrun (reg0 V now, GGet) h))) as [| | | |g]; cbn in P; try contradiction P. exists g. auto.
  Qed.
  Lemma xrun_app h1 : forall s h2, fst (xrun s (h1 ++ h2)) = fst (xrun (fst (xrun s h1)) h2).
  Proof using Type.
    induction h1 as [|e h1 IH]; intros s h2; [reflexivity|]. cbn [List.app RegenConc.xrun]. destruct (xstep s e) as (s1 & o1). specialize (IH s1 h2). destruct (xrun s1 h1) as (s2 & o2). destruct (xrun s1 (h1 ++ h2)) as (s3 & o3). cbn [fst] in *. exact IH.
  Qed.
  Lemma gxrun_app h1 : forall g h2, fst (gxrun g (h1 ++ h2)) = fst (gxrun (fst (gxrun g h1)) h2).
  Proof using Type.
    induction h1 as [|e h1 IH]; intros g h2; [reflexivity|]. cbn [List.app Props_RegenConc.gxrun]. destruct (gxstep g e) as (g1 & o1). specialize (IH g1 h2). destruct (gxrun g1 h1) as (g2 & o2). destruct (gxrun g1 (h1 ++ h2)) as (g3 & o3). cbn [fst] in *. exact IH.
  Qed.
  Lemma xonwards_app (h1 h2 : list (xev V)) : xonwards (h1 ++ h2) -> xonwards h1 /\ xonwards h2.
  Proof using Type. intros H. apply Forall_app in H. exact H. Qed.
  (** what Start and Get would answer a request in a state *)
  Definition would_get (s : cst V) (R : nat) (k : bytes) : list (nat * obs V) :=
    snd (cstep (fst (cstep s (EOp R NoFault QStart))) (EOp R NoFault (QGet k))).
  Lemma would_get_reg s g R k : good -> rel s g -> would_get s R k = [(R, OGot (saved_now V norm g k))].
  Proof using Type.
    intros G Rl. unfold would_get. destruct (step_sim V marshal unmarshal norm c old s g (EOp R NoFault QStart) G Rl Logic.I) as (_ & R1).
    destruct (step_sim V marshal unmarshal norm c old _ _ (EOp R NoFault (QGet k)) G R1 Logic.I) as (E & _). rewrite E. cbn [Props_SessConc.gstep fst snd reported_ok g_views]. unfold put. rewrite Nat.eqb_refl. reflexivity.
  Qed.
  Definition is_regen (e : xev V) : bool := match e with XRegen _ => true | _ => false end.
  Definition carries_values (q : gpc V) (m : content V) : Prop :=
    match q with GSet m' | GDel m' _ | GRead m' _ | GEnd (Some (Some m')) => m' = m | GGet => False | GEnd _ => True end.
  Lemma carried_on h : forall g m, carries_values (snd g) m -> carries_values (snd (fst (gxrun g h))) m.
  Proof using Type.
    induction h as [|e h IH]; intros g m C; [exact C|]. cbn [Props_RegenConc.gxrun]. assert (C' : carries_values (snd (fst (gxstep g e))) m).
    { destruct g as (g & q), e as [e|f]; cbn [Props_RegenConc.gxstep fst snd] in *; [exact C|].
      destruct q as [|m'|m' x|m' x|[[m'|]|]]; cbn [fst snd carries_values] in *; try contradiction C; try exact C; destruct (reported_ok f); cbn; try exact C; try exact Logic.I. destruct (ended (g_now g) x); [exact Logic.I|exact C]. }
    destruct (gxstep g e) as (g1 & o1). specialize (IH g1 m C'). destruct (gxrun g1 h) as (g2 & o2). exact IH.
  Qed.
  Lemma not_begun h : forall g, existsb is_regen h = false -> snd (fst (gxrun g h)) = snd g.
  Proof using Type.
    induction h as [|e h IH]; intros g E; [reflexivity|]. cbn in E. apply orb_false_iff in E as (E1 & E2). destruct e as [e|f]; [|discriminate E1]. cbn [Props_RegenConc.gxrun Props_RegenConc.gxstep].
    specialize (IH (fst (gstep V norm till (fst g) e), snd g) E2). destruct (gxrun (fst (gstep V norm till (fst g) e), snd g) h) as (g2 & o2). exact IH.
  Qed.
  (** the session Regenerate gives has the new id and, whatever others do during it, the values the old one had at the first round trip *)
  Theorem C179_values_at_the_first_read : good -> storable b new -> forall s now h1 f h2 x, aget s (full b old) = None -> xonwards (h1 ++ XRegen f :: h2) ->
    existsb is_regen h1 = false -> snd (fst (xrun (x0 s now) (h1 ++ XRegen f :: h2))) = AtEnd (RdOk x) ->
    ss_sid x = new /\ forall R k, would_get (fst (fst (xrun (x0 s now) h1))) R k = [(R, OGot (s_get V k x))].
  Proof using Hne.
    intros G Ln s now h1 f h2 x A H N E. pose proof (xonwards_app _ _ H) as (H1 & H2).
    destruct (xrun_sim h1 _ _ G Ln (xrel0 s now A) H1) as (_ & (R1 & P1)).
    destruct (xrun_sim _ _ _ G Ln (xrel0 s now A) H) as (_ & (_ & P)). rewrite E in P. rewrite gxrun_app in P.
    pose proof (not_begun h1 (reg0 V now, GGet) N) as B. set (g := fst (gxrun (reg0 V now, GGet) h1)) in *. destruct g as (g & q). cbn [fst snd] in B, R1. subst q.
    cbn [Props_RegenConc.gxrun Props_RegenConc.gxstep fst snd] in P.
    destruct (reported_ok f).
    2: { pose proof (carried_on h2 (g, GEnd None) (fun _ => None) Logic.I) as C. set (y := gxrun (g, GEnd None) h2) in *.
         assert (Z : forall h g0, snd (fst (gxrun (g0, GEnd None) h)) = GEnd None).
         { clear. induction h as [|e h IH]; intros g0; [reflexivity|]. cbn [Props_RegenConc.gxrun]. destruct e as [e|f]; cbn [Props_RegenConc.gxstep fst snd]; [specialize (IH (fst (gstep V norm till g0 e)))|specialize (IH g0)]; destruct (gxrun _ h) as (g2 & o2); exact IH. }
         specialize (Z h2 g). fold y in Z. destruct y as (g2 & o2). cbn [fst snd] in *. rewrite Z in P. contradiction P. }
    unfold there in P. assert (Sv : saved_now V norm g = match there V norm g with Some m => m | None => fun _ => None end) by (unfold saved_now, there; destruct (g_saved g) as [(m & e)|]; [destruct (ended (g_now g) e)|]; reflexivity).
    fold (there V norm g) in P. destruct (there V norm g) as [m|] eqn:Et.
    - pose proof (carried_on h2 (g, GSet m) m eq_refl) as C. destruct (gxrun (g, GSet m) h2) as (g2 & o2). cbn [fst snd] in *. destruct (snd g2) as [| | | |[[m'|]|]]; cbn in P, C; try contradiction P. subst m'. destruct P as (Sx & _ & _ & Vs).
      split; [exact Sx|]. intros R k. rewrite (would_get_reg _ _ R k G R1). cbn [fst]. rewrite Sv. unfold s_get. rewrite Vs. reflexivity.
    - exfalso. assert (Z : forall h g0, snd (fst (gxrun (g0, GEnd (Some None)) h)) = GEnd (Some None)).
      { clear. induction h as [|e h IH]; intros g0; [reflexivity|]. cbn [Props_RegenConc.gxrun]. destruct e as [e|f]; cbn [Props_RegenConc.gxstep fst snd]; [specialize (IH (fst (gstep V norm till g0 e)))|specialize (IH g0)]; destruct (gxrun _ h) as (g2 & o2); exact IH. }
      specialize (Z h2 g). destruct (gxrun (g, GEnd (Some None)) h2) as (g2 & o2). cbn [fst snd] in *. rewrite Z in P. contradiction P.
  Qed.
  (** once the third round trip was carried out the old id holds nothing, unless a request flushes afterwards *)
  Definition is_flush (e : xev V) : bool := match e with XOther (EOp _ _ QFlush) => true | _ => false end.
  Theorem C179_old_id_is_gone : good -> storable b new -> forall s now h1 f h2, aget s (full b old) = None -> xonwards (h1 ++ XRegen f :: h2) ->
    snd (fst (xrun (x0 s now) h1)) = AtDel -> carried_out f = true -> existsb is_flush h2 = false ->
    forall R k, would_get (fst (fst (xrun (x0 s now) (h1 ++ XRegen f :: h2)))) R k = [(R, OGot None)].
  Proof using Hne.
    intros G Ln s now h1 f h2 A H Ed Cf Nf R k. pose proof (xonwards_app _ _ H) as (H1 & H2).
    destruct (xrun_sim h1 _ _ G Ln (xrel0 s now A) H1) as (_ & (R1 & P1)).
    destruct (xrun_sim _ _ _ G Ln (xrel0 s now A) H) as (_ & (R2 & _)). rewrite (would_get_reg _ _ R k G R2). do 3 f_equal.
    rewrite gxrun_app. rewrite Ed in P1. set (g := fst (gxrun (reg0 V now, GGet) h1)) in *. destruct g as (g & q). cbn [fst snd] in *. destruct q as [| |m e| |]; cbn in P1; try contradiction P1.
    assert (Z : forall h g0, g_saved (fst g0) = None -> existsb is_flush h = false -> g_saved (fst (fst (gxrun g0 h))) = None).
    { clear. induction h as [|e h IH]; intros g0 S0 N0; [exact S0|]. cbn in N0. apply orb_false_iff in N0 as (N1 & N2). cbn [Props_RegenConc.gxrun].
      assert (S1 : g_saved (fst (fst (gxstep g0 e))) = None).
      { destruct g0 as (g & q), e as [e|f]; cbn [Props_RegenConc.gxstep fst snd] in *.
        - destruct e as [d|r f o]; [exact S0|]. destruct o; cbn [Props_SessConc.gstep]; try (destruct (g_views g r); exact S0); try discriminate N1.
          + destruct (reported_ok f); exact S0.
          + destruct (g_views g r); [|exact S0]. cbn. destruct (carried_out f); [reflexivity|exact S0].
        - destruct q; cbn [fst]; try exact S0. cbn. destruct (carried_out f); [reflexivity|exact S0]. }
      destruct (gxstep g0 e) as (g1 & o1). specialize (IH g1 S1 N2). destruct (gxrun g1 h) as (g2 & o2). exact IH. }
    cbn [Props_RegenConc.gxrun Props_RegenConc.gxstep fst snd]. rewrite Cf. specialize (Z h2 (Reg None (g_now g) (g_views g), GRead m e) eq_refl Nf). destruct (gxrun _ h2) as (g2 & o2). cbn [fst snd] in *. unfold saved_now. rewrite Z. reflexivity.
  Qed.
End Conc.

(** ** Examples *)
(** requests 0 and 1 use session s1, which holds a; Regenerate of it to s2 runs in between; 1 flushes b during it *)
Definition others_during (h : list (sev bytes)) : list (xev bytes) :=
  map XOther [EOp 0%nat NoFault QStart; EOp 0%nat NoFault (QSet (bs "a") (bs "x")); EOp 0%nat NoFault QFlush; EOp 1%nat NoFault QStart; EOp 1%nat NoFault (QSet (bs "b") (bs "y"))] ++
  [XRegen NoFault] ++ map XOther h ++ [XRegen NoFault; XRegen NoFault; XRegen NoFault].
Notation toy_run b h := (xrun bytes toy_marshal toy_unmarshal (ex_cfg b) (bs "s1") (bs "s2") (x0 bytes [] 0) h).
Example C179_case : Forall (fun b => good bytes toy_marshal toy_unmarshal (fun v => v) (ex_cfg b) (bs "s1") /\ storable b (bs "s2") /\
  snd (fst (toy_run b (others_during []))) = AtEnd (RdOk (mkSess (bs "s2") [(bs "a", bs "x")] false false))) three.
Proof. repeat constructor; try discriminate; try apply toy_codec; try (cbn; lia); try exact Logic.I; reflexivity. Qed.
(** A change flushed during Regenerate, reported as saved, is in neither session afterwards *)
Theorem C179_update_survives_refuted : Forall (fun b =>
  let r := toy_run b (others_during [EOp 1%nat NoFault QFlush]) in
  In (1%nat, OFlushed true) (snd r) /\
  snd (fst r) = AtEnd (RdOk (mkSess (bs "s2") [(bs "a", bs "x")] false false)) /\
  would_get bytes toy_marshal toy_unmarshal (ex_cfg b) (bs "s1") (fst (fst r)) 2%nat (bs "b") = [(2%nat, OGot None)]) three.
Proof. repeat (apply Forall_cons; [cbv zeta; split; [vm_compute; tauto|split; vm_compute; reflexivity]|]); apply Forall_nil. Qed.
(** A request that had the session before and flushes after Regenerate brings the old id back, with all its values *)
Theorem C179_old_id_comes_back_refuted : Forall (fun b =>
  let r := toy_run b (others_during [] ++ [XOther (EOp 1%nat NoFault QFlush)]) in
  snd (fst r) = AtEnd (RdOk (mkSess (bs "s2") [(bs "a", bs "x")] false false)) /\
  would_get bytes toy_marshal toy_unmarshal (ex_cfg b) (bs "s1") (fst (fst r)) 2%nat (bs "a") = [(2%nat, OGot (Some (bs "x")))] /\
  would_get bytes toy_marshal toy_unmarshal (ex_cfg b) (bs "s1") (fst (fst r)) 2%nat (bs "b") = [(2%nat, OGot (Some (bs "y")))]) three.
Proof. repeat (apply Forall_cons; [cbv zeta; repeat split; vm_compute; reflexivity|]); apply Forall_nil. Qed.

Print Assumptions C179_alone.
Print Assumptions C179_regenerate_exact.
Print Assumptions C179_values_at_the_first_read.
Print Assumptions C179_old_id_is_gone.
Print Assumptions C179_update_survives_refuted.
Print Assumptions C179_old_id_comes_back_refuted.
