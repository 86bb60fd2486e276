(** Props_Resp: C21-C25, the response writer. [accept] (how much of each body
    write the connection takes) and the calls are arbitrary; every exchange ends
    with the Write(nil) of ServeHTTP; panicking calls are recovered by someone.
    [r_log] is the connection's history, newest first. *)
From Coq Require Import List Ascii String Bool Arith ZArith Lia.
Import ListNotations.
From Verif Require Import GoStr RespModel RespSpec RespFacts.
Local Open Scope Z_scope.

(** ** C21: exactly one header, before every body byte (a hijacked connection
    may have none) *)
Theorem C21_one_header_first : forall accept os w,
  exchange accept os = Some w ->
  (forall l1 s l2, r_log w = l1 ++ WHeader s :: l2 ->
     existsb is_header l1 = false /\ existsb is_header l2 = false) /\
  (forall l1 b l2, r_log w = l1 ++ WBody b :: l2 -> existsb is_header l2 = true) /\
  (~ In (OHijack true) os -> exists l1 s l2, r_log w = l1 ++ WHeader s :: l2).
Proof.
  intros accept os w H.
  assert (I : wire_inv w).
  { eapply prims_ind_inv; [apply wire_inv_prim|exact (exchange_prims _ _ _ H)|]. cbn. auto. }
  unfold wire_inv in I.
  split; [|split].
  - intros l1 s l2 E. destruct (r_sent w) as [s0|].
    + destruct I as (a & b & E' & A & B & C). rewrite E in E'. clear -E' A B. revert a E' A. induction l1 as [|x l1 IH]; intros a E' A.
      * destruct a as [|y a]; cbn in E'; injection E'; intros; subst; [auto|]. cbn in A. discriminate.
      * destruct a as [|y a]; cbn in E'; injection E'; intros; subst.
        -- rewrite existsb_app in B. cbn in B. rewrite orb_true_r in B. discriminate.
        -- cbn in *. apply orb_false_iff in A as [A1 A2]. destruct (IH _ H A2). rewrite A1. auto.
    + destruct I as [A _]. rewrite E, existsb_app in A. cbn in A. rewrite orb_true_r in A. discriminate.
  - intros l1 b l2 E. destruct (r_sent w) as [s0|].
    + destruct I as (a & c & E' & A & B & C). rewrite E in E'. clear -E' C. revert a E'. induction l1 as [|x l1 IH]; intros a E'.
      * destruct a as [|y a]; cbn in E'; [discriminate E'|]; injection E'; intros; subst. rewrite existsb_app. cbn. apply orb_true_r.
      * destruct a as [|y a]; cbn in E'; injection E'; intros; subst.
        -- rewrite existsb_app in C. cbn in C. rewrite orb_true_r in C. discriminate.
        -- eapply IH; eauto.
    + destruct I as [_ A]. rewrite E, existsb_app in A. cbn in A. rewrite orb_true_r in A. discriminate.
  - intros Hh. destruct (r_sent w) as [s0|] eqn:Es.
    + destruct I as (a & b & E' & _). eauto.
    + exfalso. unfold exchange in H. destruct (run_ops accept os rw0) as [w1|] eqn:E1; [|discriminate].
      destruct (write accept w1 []) as [w2|v w2|w2] eqn:E2; try discriminate. injection H as ->.
      exact (write_sends accept w1 [] w (run_ops_hij accept os rw0 w1 Hh eq_refl E1) E2 Es).
Qed.
Definition all_of : list wev -> bytes -> nat := fun _ b => List.length b.
Definition demo_ops : list op :=
  [OBefore (HSee (fun s _ _ => HWriteHeader (if s =? 402 then 403 else 200) HRet)); OWriteHeader 400; OBefore HRet; OWriteHeader 402;
   OWrite (bs "ab"); OBefore HPanic; OWriteHeader 500; OWrite (bs "c")].
Example C21_example : exists w, exchange all_of demo_ops = Some w /\ ~ In (OHijack true) demo_ops /\
  r_log w = [WBody (bs "c"); WBody (bs "ab"); WHeader 403; WHook 0; WHook 1].
Proof. eexists. split; [vm_compute; reflexivity|]. split; [|reflexivity]. cbn. intuition discriminate. Qed.

(** ** C22 *)
(** Full claim: the status on the wire is the last one set before the first
    Write, 200 if none, and Status() reports it. The parts that fail:
    Status() after a later WriteHeader; a status net/http refuses; a hook that
    panics (the once is spent, the 500 set by the recovery filter is lost). *)
Theorem C22_status_refuted :
  (exists os w, exchange all_of os = Some w /\ r_sent w = Some 200 /\ status w = 404) /\
  (exists os w, exchange all_of os = Some w /\ last_status (pre os) = 99 /\ r_sent w = Some 200) /\
  (exists w1 w, run_op all_of (OWrite (bs "x")) (add_hook rw0 HPanic) = Panicked false w1 /\ written w1 = false /\
     run_ops all_of [OWriteHeader 500; OWrite []] w1 = Some w /\ status w = 500 /\ r_sent w = Some 200).
Proof.
  split; [|split].
  - exists [OWrite (bs "x"); OWriteHeader 404]. eexists. split; [vm_compute; reflexivity|]. vm_compute. auto.
  - exists [OWriteHeader 99; OWrite (bs "x")]. eexists. split; [vm_compute; reflexivity|]. vm_compute. auto.
  - do 2 eexists. split; [vm_compute; reflexivity|]. split; [reflexivity|]. split; [vm_compute; reflexivity|]. vm_compute. auto.
Qed.
(** What holds: with hooks that do not panic, flush or write, no Flush/Hijack
    before the first Write and an acceptable status, the exchange finishes with
    exactly that status on the wire; Status() is the last status set later. *)
Theorem C22_wire_status_partial : forall accept os,
  (forall o, In o (pre os) -> o <> OFlush /\ o <> OHijack true) ->
  Forall calm (hooks_of (pre os)) ->
  final_code (wire_status os) ->
  exists w, exchange accept os = Some w /\
    (forall s, In (WHeader s) (r_log w) <-> s = wire_status os) /\
    ((forall s, In (OWriteHeader s) (post os) -> s = 0) -> status w = wire_status os).
Proof.
  intros accept os Hq Hc Hf.
  assert (Hq' : Forall quiet_op (pre os)).
  { rewrite Forall_forall. intros o Ho. destruct (Hq o Ho) as [A B]. destruct o; cbn; auto. destruct ok; auto. }
  destruct (exchange_calm accept os Hq' Hc Hf) as (w & bodies & E & S & L & St).
  exists w. split; [exact E|]. split.
  - intros s. rewrite L, in_app_iff. cbn [In]. split.
    + intros [H|[H|H]].
      * apply in_map_iff in H as (? & ? & _). discriminate.
      * congruence.
      * apply in_map_iff in H as (? & ? & _). discriminate.
    + intros ->. auto.
  - intros Hp. unfold status. rewrite St. clear -Hp. generalize (wire_status os). induction (post os) as [|o l IH]; intros s; [reflexivity|].
    cbn [fold_left]. rewrite IH by (intros; apply Hp; right; assumption).
    destruct o; auto. rewrite (Hp s0) by (left; reflexivity). reflexivity.
Qed.
Example C22_example :
  (forall o, In o (pre demo_ops) -> o <> OFlush /\ o <> OHijack true) /\ Forall calm (hooks_of (pre demo_ops)) /\
  wire_status demo_ops = 403 /\ final_code (wire_status demo_ops).
Proof.
  split; [cbn; intros o Ho; repeat (destruct Ho as [<-|Ho]; [split; discriminate|]); contradiction|].
  split; [|split; [reflexivity|right; vm_compute; split; discriminate]].
  repeat constructor; cbn; intros; destruct (a =? 402); lia.
Qed.

(** ** C23 *)
(** In every finished exchange each hook registered before the first Write runs
    at most once, the later registered before the earlier (the log is newest
    first), and no other hook runs. If one of them panics those registered
    before it do not run. *)
Theorem C23_hooks_at_most_once_reversed : forall accept os w,
  exchange accept os = Some w ->
  let n := List.length (hooks_of (pre os)) in
  exists k, (k <= n)%nat /\ hook_nos (r_log w) = seq k (n - k).
Proof. exact exchange_nos. Qed.
(** If none of them panics, flushes or writes and there is no Flush/Hijack
    before the first Write, all of them run, before the header. *)
Theorem C23_hooks_run_before_header : forall accept os w,
  exchange accept os = Some w ->
  (forall o, In o (pre os) -> o <> OFlush /\ o <> OHijack true) ->
  Forall calm (hooks_of (pre os)) ->
  final_code (wire_status os) ->
  exists bodies, r_log w = map WBody bodies ++ WHeader (wire_status os) :: map WHook (seq 0 (List.length (hooks_of (pre os)))).
Proof.
  intros accept os w Hw Hq Hc Hf.
  assert (Hq' : Forall quiet_op (pre os)).
  { rewrite Forall_forall. intros o Ho. destruct (Hq o Ho) as [A B]. destruct o; cbn; auto. destruct ok; auto. }
  destruct (exchange_calm accept os Hq' Hc Hf) as (w' & bodies & E & S & L & St).
  assert (w' = w) by congruence. subst. eauto.
Qed.
Example C23_example : exists w, exchange all_of demo_ops = Some w /\ hook_nos (r_log w) = [0%nat; 1%nat] /\
  exists w2, exchange all_of [OBefore HRet; OBefore HPanic; OBefore HRet; OWrite []] = Some w2 /\ hook_nos (r_log w2) = [1%nat; 2%nat].
Proof. eexists. split; [vm_compute; reflexivity|]. split; [reflexivity|]. eexists. split; vm_compute; reflexivity. Qed.

(** ** C24 *)
Theorem C24_size_is_bytes_sent : forall accept os w,
  run_ops accept os rw0 = Some w -> size w = Z.of_nat (body_bytes (r_log w)).
Proof.
  intros accept os w H. apply run_ops_prims in H.
  exact (prims_ind_inv size_inv size_inv_prim _ _ H eq_refl).
Qed.
(** Written never goes back to false, whatever the calls and hooks do *)
Theorem C24_written_monotone : forall accept os w w',
  run_ops accept os w = Some w' -> written w = true -> written w' = true.
Proof.
  intros accept os w w' H. apply run_ops_prims in H.
  exact (prims_ind_inv (fun w => written w = true) written_prim _ _ H).
Qed.
(** and is true exactly if a status was set or a write happened (hooks that panic aside) *)
Theorem C24_written_iff : forall accept os w,
  run_ops accept os rw0 = Some w -> Forall calm (hooks_of os) ->
  (written w = true <-> (exists s, s <> 0 /\ In (OWriteHeader s) os) \/ exists b, In (OWrite b) os).
Proof.
  intros accept os w H Hc. rewrite (run_ops_written accept os rw0 w) by (auto; split; cbn; auto; discriminate).
  cbn [written rw0 r_status Z.eqb negb orb]. rewrite existsb_exists. split.
  - intros (o & Ho & Hm). destruct o; cbn in Hm; try discriminate; [left; exists s; split; [lia|exact Ho]|right; eauto].
  - intros [(s & Hs & Ho)|(b & Ho)]; eexists; (split; [exact Ho|]); cbn; [|reflexivity]. apply negb_true_iff. lia.
Qed.
(** the exception: a hook that panics during the first write *)
Theorem C24_written_iff_refuted :
  exists os w b, run_ops all_of os rw0 = Some w /\ In (OWrite b) os /\ written w = false.
Proof. exists [OBefore HPanic; OWrite []]. do 2 eexists. split; [vm_compute; reflexivity|]. split; [right; left; reflexivity|reflexivity]. Qed.
Example C24_example : exists w, run_ops (fun l b => Nat.div2 (List.length b)) [OWrite (bs "abcdef"); OWrite (bs "xyz")] rw0 = Some w /\
  size w = 4 /\ written w = true.
Proof. eexists. split; vm_compute; auto. Qed.

(** ** C25 *)
(** Full claim: Flush before the first Write commits the status and runs the
    hooks. False: 200 goes out, the hooks run later or without effect. *)
Theorem C25_flush_refuted :
  exists w, run_ops all_of [OBefore (HWriteHeader 403 HRet); OWriteHeader 404; OFlush] rw0 = Some w /\
    r_log w = [WHeader 200] /\ status w = 404.
Proof. eexists. split; [vm_compute; reflexivity|]. vm_compute. auto. Qed.
(** In general a Flush commits 200, whatever status and hooks are pending ... *)
Theorem C25_flush_commits_200 : forall w, r_hij w = false -> r_sent w = None ->
  r_log (flush w) = WHeader 200 :: r_log w /\ status (flush w) = status w.
Proof. intros w A B. unfold flush, u_flush. rewrite A, B. auto. Qed.
(** ... and after the header left it changes nothing. *)
Theorem C25_flush_after_write_partial : forall accept w b w', r_hij w = false ->
  write accept w b = Done w' -> flush w' = w'.
Proof.
  intros accept w b w' Hj H. pose proof (write_sends accept w b w' Hj H) as S. unfold flush, u_flush.
  destruct (r_hij w'); [reflexivity|]. destruct (r_sent w'); [reflexivity|congruence].
Qed.
Example C25_example : exists w', write all_of (set_status rw0 404) (bs "x") = Done w' /\ r_log w' = [WBody (bs "x"); WHeader 404] /\ flush w' = w'.
Proof. eexists. split; [vm_compute; reflexivity|]. split; vm_compute; reflexivity. Qed.

Print Assumptions C21_one_header_first.
Print Assumptions C22_status_refuted.
Print Assumptions C22_wire_status_partial.
Print Assumptions C23_hooks_at_most_once_reversed.
Print Assumptions C23_hooks_run_before_header.
Print Assumptions C24_size_is_bytes_sent.
Print Assumptions C24_written_monotone.
Print Assumptions C24_written_iff.
Print Assumptions C24_written_iff_refuted.
Print Assumptions C25_flush_refuted.
Print Assumptions C25_flush_commits_200.
Print Assumptions C25_flush_after_write_partial.
