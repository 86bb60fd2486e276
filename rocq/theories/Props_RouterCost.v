(** Props_RouterCost: C175, what finding the route of a path costs. *)
From Coq Require Import List Ascii String Bool Arith Lia Logic.FinFun.
Import ListNotations.
From Verif Require Import GoStr GoPath GoTy RouterModel RouterSpec RouterTree RouterRefine RouterTable RouterMatch RouterFacts Props_Router.

(** *** router.go:228-287 [route.match] with the looks it takes
    As [rmatch] of RouterModel, returning also the positions (texts of the pattern
    segments from the start node down) of the route nodes that were looked at, in order: the
    static child found for the segment, every parameter child whose expression was
    applied to the segment, the wildcard child taken. *)
Definition below (c : route) (vs : list (list bytes)) : list (list bytes) :=
  [pp_path (r_pp c)] :: map (cons (pp_path (r_pp c))) vs.
Fixpoint rmatch_v (next : list bytes) (r : route) {struct next} : option mres * list (list bytes) :=
  match next with
  | [] => (None, [])
  | p :: paths =>
      let st : option mres * list (list bytes) :=
        match aget (r_static r) p with
        | None => (None, [])
        | Some c =>
            match paths with
            | [] => (Some (push c [] (MRes [] c [])), below c [])
            | _ :: _ =>
                let (o, vs) := rmatch_v paths c in
                (match o with
                 | None => None
                 | Some m => Some (push c [] (if r_end (m_route m) then m else MRes (m_trail m) (m_route m) []))
                 end, below c vs)
            end
        end in
      let rt : option mres * list (list bytes) :=
        match fst st with
        | Some m => st
        | None =>
            let (o, vs) :=
            (fix loop (prs : list route) : option mres * list (list bytes) :=
               match prs with
               | [] => (None, [])
               | pr :: prs' =>
                   match match_param (r_pp pr) p with
                   | None => let (o, vs) := loop prs' in (o, below pr [] ++ vs)
                   | Some v =>
                       match paths with
                       | [] =>
                           if r_end pr then (Some (push pr [(pp_name (r_pp pr), v)] (MRes [] pr [])), below pr [])
                           else let (o, vs) := loop prs' in (o, below pr [] ++ vs)
                       | _ :: _ =>
                           let (o1, vs1) := rmatch_v paths pr in
                           match o1 with
                           | Some m => if r_end (m_route m) then (Some (push pr [(pp_name (r_pp pr), v)] m), below pr vs1)
                                       else let (o, vs) := loop prs' in (o, below pr vs1 ++ vs)
                           | None => let (o, vs) := loop prs' in (o, below pr vs1 ++ vs)
                           end
                       end
                   end
               end) (r_params r) in (o, snd st ++ vs)
        end in
      let is_end := match fst rt with Some m => r_end (m_route m) | None => false end in
      match is_end, r_wild r with
      | true, _ => rt
      | false, None => rt
      | false, Some w => (Some (push w [(pp_name (r_pp w), join [slash] next)] (MRes [] w [])), snd rt ++ below w [])
      end
  end.

(** the loop over the parameter children, named *)
Definition try_v (p : bytes) (paths : list bytes) (pr : route) : option mres * list (list bytes) :=
  match match_param (r_pp pr) p with
  | None => (None, below pr [])
  | Some v =>
      match paths with
      | [] => (if r_end pr then Some (push pr [(pp_name (r_pp pr), v)] (MRes [] pr [])) else None, below pr [])
      | _ :: _ => (match fst (rmatch_v paths pr) with
                   | Some m => if r_end (m_route m) then Some (push pr [(pp_name (r_pp pr), v)] m) else None
                   | None => None end, below pr (snd (rmatch_v paths pr)))
      end
  end.
Fixpoint params_v (p : bytes) (paths : list bytes) (prs : list route) : option mres * list (list bytes) :=
  match prs with
  | [] => (None, [])
  | pr :: prs' => match fst (try_v p paths pr) with
                  | Some m => try_v p paths pr
                  | None => (fst (params_v p paths prs'), snd (try_v p paths pr) ++ snd (params_v p paths prs'))
                  end
  end.
Definition static_v (p : bytes) (paths : list bytes) (r : route) : option mres * list (list bytes) :=
  match aget (r_static r) p with
  | None => (None, [])
  | Some c =>
      match paths with
      | [] => (Some (push c [] (MRes [] c [])), below c [])
      | _ :: _ => (match fst (rmatch_v paths c) with
                   | None => None
                   | Some m => Some (push c [] (if r_end (m_route m) then m else MRes (m_trail m) (m_route m) []))
                   end, below c (snd (rmatch_v paths c)))
      end
  end.
Lemma rmatch_v_unfold p paths r :
  rmatch_v (p :: paths) r =
  let st := static_v p paths r in
  let rt := match fst st with Some m => st | None => (fst (params_v p paths (r_params r)), snd st ++ snd (params_v p paths (r_params r))) end in
  match (match fst rt with Some m => r_end (m_route m) | None => false end), r_wild r with
  | true, _ => rt
  | false, None => rt
  | false, Some w => (Some (stage_wild (p :: paths) w), snd rt ++ below w [])
  end.
Proof.
  cbn [rmatch_v].
  match goal with |- context [(fix loop prs {struct prs} := _) _] => idtac end.
  assert (S : match aget (r_static r) p with
        | None => (None, [])
        | Some c =>
            match paths with
            | [] => (Some (push c [] (MRes [] c [])), below c [])
            | _ :: _ =>
                let (o, vs) := rmatch_v paths c in
                (match o with
                 | None => None
                 | Some m => Some (push c [] (if r_end (m_route m) then m else MRes (m_trail m) (m_route m) []))
                 end, below c vs)
            end
        end = static_v p paths r).
  { unfold static_v. destruct (aget (r_static r) p) as [c|]; [|reflexivity]. destruct paths; [reflexivity|]. destruct (rmatch_v _ c); reflexivity. }
  rewrite S. clear S. cbv zeta.
  match goal with |- context [?F (r_params r)] => match F with (fix loop prs {struct prs} := _) => 
    assert (L : forall prs, F prs = params_v p paths prs) end end.
  { induction prs as [|pr prs IH]; [reflexivity|]. rewrite IH. clear IH. cbn [params_v]. unfold try_v.
    destruct (match_param (r_pp pr) p) as [v|]; [|cbn [fst snd]; destruct (params_v p paths prs); reflexivity].
    destruct paths as [|x paths']; [destruct (r_end pr); cbn [fst snd]; [reflexivity|destruct (params_v p [] prs); reflexivity]|].
    destruct (rmatch_v (x :: paths') pr) as [[m|] vs1]; cbn [fst snd].
    - destruct (r_end (m_route m)); cbn [fst snd]; [reflexivity|]. destruct (params_v p (x :: paths') prs); reflexivity.
    - destruct (params_v p (x :: paths') prs); reflexivity. }
  rewrite L. clear L. destruct (fst (static_v p paths r)); [reflexivity|]. destruct (params_v p paths (r_params r)). reflexivity.
Qed.

(** the looks do not change what is found *)
Lemma rmatch_v_fst next : forall r, fst (rmatch_v next r) = rmatch next r.
Proof.
  induction next as [|p paths IH]; intros r; [reflexivity|]. rewrite rmatch_v_unfold, rmatch_unfold. cbv zeta.
  assert (S : fst (static_v p paths r) = stage_static p paths r).
  { unfold static_v, stage_static. destruct (aget (r_static r) p) as [c|]; [|reflexivity]. destruct paths as [|x paths']; [reflexivity|]. cbn [fst]. rewrite IH. reflexivity. }
  assert (T : forall pr, fst (try_v p paths pr) = try_param p paths pr).
  { intros pr. unfold try_v, try_param. destruct (match_param (r_pp pr) p) as [v|]; [|reflexivity].
    destruct paths as [|x paths']; [reflexivity|]. cbn [fst]. rewrite IH. reflexivity. }
  assert (P : forall prs, fst (params_v p paths prs) = stage_params p paths prs).
  { induction prs as [|pr prs IHp]; [reflexivity|]. cbn [params_v stage_params]. rewrite T. destruct (try_param p paths pr) as [m|] eqn:E; [rewrite T; exact E|exact IHp]. }
  rewrite S. destruct (stage_static p paths r) as [m|] eqn:E1.
  - rewrite S. destruct (r_end (m_route m)); [rewrite S; reflexivity|]. destruct (r_wild r); [reflexivity|rewrite S; reflexivity].
  - cbn [fst]. rewrite P. destruct (stage_params p paths (r_params r)) as [m|].
    + destruct (r_end (m_route m)); [reflexivity|]. destruct (r_wild r); reflexivity.
    + destruct (r_wild r); reflexivity.
Qed.

(** *** no node twice *)
(** the looks below one child: distinct, at nodes of the tree, no deeper than the path *)
Definition fine (r : route) (n : nat) (vs : list (list bytes)) : Prop :=
  NoDup vs /\ forall v, In v vs -> v <> [] /\ List.length v <= n /\ exists c, lookup r v = Some c.
Lemma fine_nil r n : fine r n [].
Proof. split; [constructor|intros v []]. Qed.
Lemma below_fine r s c n vs : find_child r s = Some c -> pp_path (r_pp c) = s -> fine c n vs -> fine r (S n) (below c vs).
Proof.
  intros F E (N & V). unfold below. rewrite E. split.
  - constructor.
    + intros H. apply in_map_iff in H as (v & H & Hv). injection H as ->. destruct (V _ Hv) as (K & _). congruence.
    + apply Injective_map_NoDup; [intros x y H; injection H; auto|exact N].
  - intros v [<- |H].
    + split; [discriminate|]. split; [cbn; lia|]. exists c. cbn. rewrite F. reflexivity.
    + apply in_map_iff in H as (w & <- & Hw). destruct (V _ Hw) as (_ & L & c' & K). split; [discriminate|]. split; [cbn; lia|]. exists c'. cbn. rewrite F. exact K.
Qed.
Lemma below_head c vs v : In v (below c vs) -> exists t, v = pp_path (r_pp c) :: t.
Proof. intros [<- |H]; [eauto|]. apply in_map_iff in H as (w & <- & _). eauto. Qed.
Lemma fine_app r n a b : fine r n a -> fine r n b -> (forall x y, In x a -> In y b -> hd [] x <> hd [] y) -> fine r n (a ++ b).
Proof.
  intros (Na & Va) (Nb & Vb) D. split.
  - clear Va Vb. revert Nb. induction a as [|x a IH]; intros Nb; [exact Nb|]. inversion Na as [|? ? N1 N2]; subst. cbn. constructor.
    + rewrite in_app_iff. intros [H|H]; [exact (N1 H)|]. exact (D x x (or_introl eq_refl) H eq_refl).
    + apply IH; [exact N2| |exact Nb]. intros u w Hu Hw. apply D; [right; exact Hu|exact Hw].
  - intros v Hv. apply in_app_iff in Hv as [Hv|Hv]; auto.
Qed.
Lemma rmatch_v_fine next : forall r, wf r -> fine r (List.length next) (snd (rmatch_v next r)).
Proof.
  induction next as [|p paths IH]; intros r W; [apply fine_nil|]. rewrite rmatch_v_unfold. cbv zeta. cbn [List.length].
  pose proof (wf_here r W) as L. set (n := List.length paths) in *.
  assert (B : forall c s, find_child r s = Some c -> pp_path (r_pp c) = s).
  { intros c s F. rewrite (find_child_pp r s c L F). apply pp_set_path. }
  assert (Hst : fine r (S n) (snd (static_v p paths r)) /\ forall v, In v (snd (static_v p paths r)) -> exists c, hd [] v = pp_path (r_pp c) /\ pp_isParam (r_pp c) = false /\ pp_isWild (r_pp c) = false /\ r_pp c = pp_set (hd [] v)).
  { unfold static_v. destruct (aget (r_static r) p) as [c|] eqn:G; [|split; [apply fine_nil|intros v []]].
    pose proof (find_child_static r p c L G) as F. pose proof (B _ _ F) as Bp. pose proof (find_child_pp r p c L F) as Pc.
    assert (K : pp_isParam (r_pp c) = false /\ pp_isWild (r_pp c) = false).
    { apply aget_in in G. destruct (lwf_static r L p c G) as (_ & K). exact K. }
    assert (X : fine r (S n) (below c (match paths with [] => [] | _ => snd (rmatch_v paths c) end))).
    { apply (below_fine r p c n _ F Bp). destruct paths; [apply fine_nil|]. apply IH. exact (wf_child r p c W F). }
    destruct paths as [|x paths']; cbn [snd].
    - split; [exact X|]. intros v Hv. apply below_head in Hv as (t & ->). exists c. cbn [hd]. rewrite Bp. destruct K. auto.
    - split; [exact X|]. intros v Hv. apply below_head in Hv as (t & ->). exists c. cbn [hd]. rewrite Bp. destruct K. auto. }
  assert (T : forall pr, In pr (r_params r) -> fine r (S n) (snd (try_v p paths pr)) /\ forall v, In v (snd (try_v p paths pr)) -> hd [] v = pp_path (r_pp pr)).
  { intros pr Hp. pose proof (find_child_param r pr L Hp) as F.
    assert (Y : forall vs, fine pr n vs -> fine r (S n) (below pr vs)) by (intros vs; apply (below_fine r _ pr n vs F eq_refl)).
    assert (Z : forall vs v, In v (below pr vs) -> hd [] v = pp_path (r_pp pr)) by (intros vs v Hv; apply below_head in Hv as (t & ->); reflexivity).
    unfold try_v. destruct (match_param (r_pp pr) p); [|split; [apply Y, fine_nil|apply Z]].
    destruct paths as [|x paths']; cbn [snd]; (split; [|apply Z]); apply Y; [apply fine_nil|]. apply IH. exact (wf_child r _ pr W F). }
  assert (P : forall prs, incl prs (r_params r) -> NoDup (map (fun c => pp_path (r_pp c)) prs) ->
     fine r (S n) (snd (params_v p paths prs)) /\ forall v, In v (snd (params_v p paths prs)) -> exists pr, In pr prs /\ hd [] v = pp_path (r_pp pr)).
  { induction prs as [|pr prs IHp]; intros I N; [split; [apply fine_nil|intros v []]|]. cbn [params_v map] in *.
    inversion N as [|? ? N1 N2]; subst. destruct (T pr (I pr (or_introl eq_refl))) as (T1 & T2).
    destruct (IHp (fun x Hx => I x (or_intror Hx)) N2) as (P1 & P2).
    destruct (fst (try_v p paths pr)).
    - split; [exact T1|]. intros v Hv. exists pr. split; [left; reflexivity|apply T2, Hv].
    - cbn [snd]. split.
      + apply fine_app; [exact T1|exact P1|]. intros x y Hx Hy E. rewrite (T2 _ Hx) in E. destruct (P2 _ Hy) as (q & Hq & K). rewrite K in E.
        apply N1. rewrite E. apply in_map_iff. exists q. auto.
      + intros v Hv. apply in_app_iff in Hv as [Hv|Hv]; [exists pr; split; [left; reflexivity|apply T2, Hv]|].
        destruct (P2 _ Hv) as (q & Hq & K). exists q. split; [right; exact Hq|exact K]. }
  specialize (P (r_params r) (fun x H => H) (lwf_nodup r L)). destruct P as (P1 & P2). destruct Hst as (S1 & S2).
  assert (R : fine r (S n) (snd (static_v p paths r) ++ snd (params_v p paths (r_params r)))).
  { apply fine_app; [exact S1|exact P1|]. intros x y Hx Hy E. destruct (S2 _ Hx) as (c & C1 & C2 & _). destruct (P2 _ Hy) as (q & Hq & K).
    destruct (lwf_params r L q Hq) as (Q1 & Q2). destruct (S2 _ Hx) as (c' & D1 & D2 & _ & D4).
    rewrite E, K in D4. rewrite <- Q1 in D4. congruence. }
  set (rt := match fst (static_v p paths r) with Some m => static_v p paths r | None => _ end).
  assert (RT : fine r (S n) (snd rt) /\ forall v, In v (snd rt) -> In v (snd (static_v p paths r) ++ snd (params_v p paths (r_params r)))).
  { unfold rt. destruct (fst (static_v p paths r)); [split; [exact S1|intros v Hv; apply in_app_iff; left; exact Hv]|]. split; [exact R|auto]. }
  destruct RT as (R1 & R2). clearbody rt.
  assert (Wd : forall w, r_wild r = Some w -> fine r (S n) (snd rt ++ below w [])).
  { intros w Hw. pose proof (find_child_wild r w L Hw) as F. destruct (lwf_wild r L w Hw) as (W1 & W2 & _).
    apply fine_app; [exact R1|apply (below_fine r _ w n [] F eq_refl), fine_nil|].
    intros x y Hx Hy E. apply below_head in Hy as (t & ->). cbn [hd] in E. apply R2, in_app_iff in Hx as [Hx|Hx].
    - destruct (S2 _ Hx) as (c & C1 & C2 & C3 & C4). rewrite E, <- W1 in C4. congruence.
    - destruct (P2 _ Hx) as (q & Hq & K). destruct (lwf_params r L q Hq) as (Q1 & Q2). rewrite K in E. rewrite E, <- W1 in Q1.
      rewrite Q1 in Q2. rewrite W1 in Q2, W2. pose proof (param_not_wild _ Q2). congruence. }
  destruct (match fst rt with Some m => r_end (m_route m) | None => false end); [exact R1|].
  destruct (r_wild r) as [w|]; [apply Wd; reflexivity|exact R1].
Qed.

(** *** C175 *)
(** the non-empty beginnings of the declared patterns: the nodes a program can create *)
Fixpoint beginnings (l : list bytes) : list (list bytes) :=
  match l with [] => [] | x :: l' => [x] :: map (cons x) (beginnings l') end.
Lemma beginnings_spec l v : In v (beginnings l) <-> v <> [] /\ exists x, l = v ++ x.
Proof.
  revert v. induction l as [|y l IH]; intros v; cbn.
  - split; [intros []|intros (H & x & E)]. destruct v; [congruence|discriminate].
  - rewrite in_map_iff. split.
    + intros [<- |(w & <- & H)]; [split; [discriminate|exists l; reflexivity]|]. apply IH in H as (_ & x & ->). split; [discriminate|exists x; reflexivity].
    + intros (Hne & x & E). destruct v as [|z v]; [congruence|]. cbn in E. injection E as <- E. destruct v as [|z v]; [left; reflexivity|].
      right. exists (z :: v). split; [reflexivity|]. apply IH. split; [discriminate|]. exists x. exact E.
Qed.
Lemma beginnings_length l : List.length (beginnings l) = List.length l.
Proof. induction l as [|y l IH]; cbn; [reflexivity|]. rewrite map_length, IH. reflexivity. Qed.
Definition patterns (es : list event) : list (list bytes) := flat_map (fun e => match e with EEnd p => [p] | _ => [] end) es.
Lemma patterns_in es p : In p (patterns es) <-> In (EEnd p) es.
Proof.
  unfold patterns. rewrite in_flat_map. split.
  - intros (e & He & H). destruct e; cbn in H; [destruct H as [<- |[]]; exact He|destruct H|destruct H].
  - intros H. exists (EEnd p). split; [exact H|left; reflexivity].
Qed.
Definition looks (root : route) (path : bytes) : list (list bytes) := match segs path with [] => [] | l => snd (rmatch_v l root) end.
(** Finding the route of any path looks at each node at most once, only at nodes some declared pattern
    passes through, none deeper than the path: at most as many looks as the declared patterns have segments. *)
Theorem C175_each_node_once prog root path :
  routers prog root0 = Ok root ->
  let vs := looks root path in
  (segs path <> [] -> fst (rmatch_v (segs path) root) = rmatch (segs path) root) /\
  NoDup vs /\
  (forall v, In v vs -> v <> [] /\ List.length v <= List.length (segs path) /\ exists x, In (EEnd (v ++ x)) (events prog)) /\
  List.length vs <= list_sum (map (@List.length bytes) (patterns (events prog))).
Proof.
  intros H vs. split; [intros _; apply rmatch_v_fst|].
  destruct (routers_refine prog root0 root wf_root0 H) as (W & _ & _ & T).
  assert (F : fine root (List.length (segs path)) vs).
  { unfold vs, looks. destruct (segs path) as [|x l]; [apply fine_nil|]. apply rmatch_v_fine, W. }
  destruct F as (N & V). split; [exact N|].
  assert (M : forall v, In v vs -> v <> [] /\ List.length v <= List.length (segs path) /\ exists x, In (EEnd (v ++ x)) (events prog)).
  { intros v Hv. destruct (V v Hv) as (V1 & V2 & c & V3). split; [exact V1|]. split; [exact V2|].
    assert (K : apply_all (events prog) T0 v QEx = AB true).
    { unfold T0. rewrite <- (T v QEx). unfold obs. rewrite V3. reflexivity. }
    destruct (table_ex _ _ K) as [E|E]; [congruence|exact E]. }
  split; [exact M|].
  assert (Q : List.length vs <= List.length (flat_map beginnings (patterns (events prog)))).
  { apply NoDup_incl_length; [exact N|]. intros v Hv. destruct (M v Hv) as (M1 & _ & x & M2). apply in_flat_map. exists (v ++ x).
    split; [apply patterns_in, M2|]. apply beginnings_spec. split; [exact M1|]. exists x. reflexivity. }
  eapply Nat.le_trans; [exact Q|]. clear. induction (patterns (events prog)) as [|p l IH]; [reflexivity|].
  cbn [flat_map map list_sum fold_right]. rewrite app_length, beginnings_length. change (fold_right Nat.add 0 (map (@List.length bytes) l)) with (list_sum (map (@List.length bytes) l)). lia.
Qed.
Example C175_example : looks ex_root (bs "/user/7/nothing") = [[bs "user"]; [bs "user"; bs ":uid:run"]; [bs "user"; bs ":uid"]] /\
  list_sum (map (@List.length bytes) (patterns (events ex_prog))) = 14.
Proof. split; vm_compute; reflexivity. Qed.

Print Assumptions C175_each_node_once.
