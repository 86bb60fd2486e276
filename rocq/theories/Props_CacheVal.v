(** Props_CacheVal: C169, C170, what each cache gives back for each value, and its collector. *)
From Coq Require Import List Ascii String Bool Arith ZArith Lia.
Import ListNotations.
From Verif Require Import GoStr GoNum ConvModel CacheModel CacheSpec Props_Cache Props_CacheExact.
Local Open Scope Z_scope.

(** ** C169 *)
(** what a cache gives back for a value; [None]: it does not take it *)
Inductive kept : backend -> anyval -> option bytes -> Prop :=
| kept_bool : forall b yes, kept b (ABool yes) (Some (bs (if yes then "true" else "false")))
| kept_int : forall b z, kept b (AInt z) (Some (format_int z))
| kept_uint : forall b z, 0 <= z < 9223372036854775808 -> kept b (AUint z) (Some (format_uint z))
| kept_big : forall b z, 9223372036854775808 <= z -> kept b (AUint z) (match b with BMgo _ => None | _ => Some (format_uint z) end)
| kept_str : forall b s, kept b (AStr s) (Some s)
| kept_bytes : forall b s, kept b (ABytes s) (Some s)
| kept_named : forall b s, kept b (ANamedBytes s) (Some (match b with BMgo _ => s | _ => bs "[]byte(nil)" end))
| kept_other : forall b s, kept b (AOther s) (Some (bs "[]byte(nil)")).

Lemma set_kept b now s k v x ps : storable b k -> no_overflow ps -> kept b v (Some x) -> exists v',
  server_do b now s (OSet k v ps) = (aset s (full b k) (mkEntry v' (new_exp b now ps)), RDone) /\ utils_tostr v' = x.
Proof.
  intros L F K. assert (M : b = BMgo true \/ b = BMgo false \/ (match b with BMgo _ => False | _ => True end)) by (destruct b as [[]| |]; auto).
  assert (R : match b with BMgo _ => True | _ => utils_tostr v = x end) by (destruct b; [exact Logic.I| |]; (inversion K; subst; try reflexivity; match goal with |- utils_tostr (ABool ?t) = _ => destruct t; reflexivity end)).
  destruct b as [auto|p|p]; cbn [server_do].
  - cbn [mgo_do full new_exp].
    assert (B : exists v', bson_val v = Some v' /\ utils_tostr v' = x).
    { inversion K; subst; cbn [bson_val]; try (eexists; split; reflexivity).
      - eexists. split; [reflexivity|]. cbn. match goal with |- format_bool ?t = _ => destruct t; reflexivity end.
      - destruct (Z.ltb_spec z (2 ^ 63)); [|lia]. eexists. split; [reflexivity|]. cbn [utils_tostr]. unfold format_int. destruct (Z.ltb_spec z 0); [lia|reflexivity]. }
    destruct B as (v' & -> & B). exists v'. split; [reflexivity|exact B].
  - cbn [redis_do full new_exp]. cbv zeta. rewrite (secs_mod2 ps F). exists (AStr (utils_tostr v)). split; [|exact R]. cbn [Z.eqb]. destruct (0 <? timeout_dur ps); reflexivity.
  - cbn [storable] in L. cbn [mc_do full new_exp]. cbv zeta. rewrite L. exists (AStr (utils_tostr v)). split; [reflexivity|exact R].
Qed.
(** every value: a Set that is taken makes Get answer what [kept] says until the entry is gone; what MongoDB does not take is refused with an error and changes nothing *)
Theorem C169_value_given_back : forall b now s k v ps d, storable b k -> no_overflow ps ->
  match v with AUint z => 0 <= z | _ => True end ->
  (exists x, kept b v (Some x) /\ set_wait_get b now s k v ps d = [RDone; if ended (now + d) (gone_at b now ps) then RMissed else RVal x]) \/
  (kept b v None /\ server_do b now s (OSet k v ps) = (s, RFail)).
Proof.
  intros b now s k v ps d L F U.
  assert (T : (exists x, kept b v (Some x)) \/ (kept b v None /\ exists a z, b = BMgo a /\ v = AUint z /\ 9223372036854775808 <= z)).
  { destruct v as [x|z|z|x|x|x|x]; try (left; eexists; constructor; fail).
    destruct (Z.lt_ge_cases z 9223372036854775808) as [H|H]; [left; eexists; apply kept_uint; lia|]. pose proof (kept_big b z H) as K. destruct b as [a| |]; [right|left; eexists; exact K..]. split; [exact K|]. exists a, z. auto. }
  destruct T as [(x & K)|(K & a & z & -> & -> & H)].
  - left. exists x. split; [exact K|]. destruct (set_kept b now s k v x ps L F K) as (v' & S1 & S2).
    unfold set_wait_get, answers. cbn [hrun hstep fst snd List.app]. unfold cache_do.
    assert (RT : round_trip b (OSet k v ps) = true /\ round_trip b (OGet k) = true) by (destruct b; auto). destruct RT as (-> & ->). cbn [negb]. rewrite S1. cbn [fst snd].
    rewrite (do_get b _ _ k L). cbn [fst snd]. unfold look. rewrite aget_aset_same.
    destruct (new_exp_gone b now ps v' F) as (G & Q). rewrite (live_ended b (now + d) _ Q), G. destruct (ended _ _); cbn [negb e_val]; rewrite ?S2; reflexivity.
  - right. split; [exact K|]. cbn [server_do mgo_do bson_val]. destruct (Z.ltb_spec z (2 ^ 63)); [lia|reflexivity].
Qed.
(** the table is a function *)
Theorem C169_kept_is_a_function : forall b v x y, kept b v x -> kept b v y -> x = y.
Proof. intros b v x y H1 H2. destruct H1; inversion H2; subst; try reflexivity; try congruence; exfalso; lia. Qed.
(** two caches give back the same for a value, exactly unless one is MongoDB, the other is not, and the value is an unsigned number from 2^63 on or a byte slice of a named type *)
Theorem C169_caches_agree : forall b1 b2 v, match v with AUint z => 0 <= z | _ => True end ->
  let mongo b := match b with BMgo _ => true | _ => false end in
  (exists x, kept b1 v x /\ kept b2 v x) <->
  (mongo b1 = mongo b2 \/ match v with AUint z => z < 9223372036854775808 | ANamedBytes s => s = bs "[]byte(nil)" | _ => True end).
Proof.
  intros b1 b2 v U mongo. split.
  - intros (x & K1 & K2). destruct v as [c|z|z|c|c|c|c]; auto.
    + inversion K1 as [| |? ? R1|? ? R1| | | |]; subst; [right; lia|]. left. unfold mongo.
      inversion K2 as [| |? ? R2|? ? R2| | | |]; subst; [lia|]. destruct b1, b2; auto; discriminate.
    + inversion K1 as [| | | | | |? ? A1 A2 A3|]; subst. inversion K2 as [| | | | | |? ? B1 B2 B3|]; subst. unfold mongo. destruct b1, b2; auto; right; congruence.
  - intros A. destruct v as [c|z|z|c|c|c|c]; try (eexists; split; constructor; fail).
    + destruct (Z.lt_ge_cases z 9223372036854775808) as [H|H]; [eexists; split; apply kept_uint; lia|]. destruct A as [A|A]; [|lia].
      pose proof (kept_big b1 z H) as K1. pose proof (kept_big b2 z H) as K2. unfold mongo in A. destruct b1, b2; try discriminate A; eexists; (split; [exact K1|exact K2]).
    + pose proof (kept_named b1 c) as K1. pose proof (kept_named b2 c) as K2. unfold mongo in A. destruct A as [A|A]; [|subst c]; destruct b1, b2; try discriminate A; eexists; (split; [exact K1|exact K2]).
Qed.
Example C169_case : kept (BMgo true) (AUint 18446744073709551615) None /\ kept (BRedis (bs "p:")) (AUint 18446744073709551615) (Some (bs "18446744073709551615")) /\
  set_wait_get (BMgo true) 0 [] (bs "k") (ANamedBytes (bs "raw")) (Some 5) 0 = [RDone; RVal (bs "raw")] /\
  set_wait_get (BMc (bs "p:")) 0 [] (bs "k") (ANamedBytes (bs "raw")) (Some 5) 0 = [RDone; RVal (bs "[]byte(nil)")].
Proof.
  split; [apply (kept_big (BMgo true)); lia|]. split; [|split; vm_compute; reflexivity].
  pose proof (kept_big (BRedis (bs "p:")) 18446744073709551615 ltac:(lia)) as K. replace (bs "18446744073709551615") with (format_uint 18446744073709551615) by (vm_compute; reflexivity). exact K.
Qed.

(** ** C98, a Redis entry of any text *)
(** what Incr by [d] of a Redis cache does to an entry whose Get gives [t]: it counts exactly when [t] is the decimal form of an int64 and so is the sum; otherwise it fails and changes nothing *)
Theorem C98_redis_any_text : forall p now s k t d, snd (server_do (BRedis p) now s (OGet k)) = RVal t ->
  let after := server_do (BRedis p) now s (OIncr k (Some d)) in
  (exists z, t = format_int z /\ int64 z /\ int64 (z + d) /\ snd after = RDone /\ snd (server_do (BRedis p) now (fst after) (OGet k)) = RVal (format_int (z + d))) \/
  ((forall z, t = format_int z -> int64 z -> ~ int64 (z + d)) /\ after = (s, RFail)).
Proof.
  intros p now s k t d G after. unfold after. cbn [server_do redis_do cnt_of] in *. destruct (redis_get now s (p ++ k)) as [e|] eqn:R; cbn [snd] in G; [|discriminate G].
  injection G as <-. unfold redis_incrby. cbv zeta. rewrite R. unfold redis_int.
  assert (No : (forall z, utils_tostr (e_val e) = format_int z -> int64 z -> False) -> (forall z, utils_tostr (e_val e) = format_int z -> int64 z -> ~ int64 (z + d))) by (intros H z A B; destruct (H z A B)).
  destruct (parse_int 64 (utils_tostr (e_val e))) as (n & [er|]) eqn:P.
  - right. split; [|reflexivity]. apply No. intros z A B. rewrite A in P. rewrite parse_format_int in P by (unfold int64 in B; cbn; lia). discriminate P.
  - destruct (beq_spec (format_int n) (utils_tostr (e_val e))) as [E|E].
    + apply parse_int_ok in P; [|lia]. destruct P as (_ & P). change (64 - 1) with 63 in P.
      destruct ((- 2 ^ 63 <=? n + d) && (n + d <? 2 ^ 63)) eqn:I6.
      * left. exists n. split; [auto|]. split; [exact P|]. apply andb_true_iff in I6. destruct I6 as (A & B). apply Z.leb_le in A. apply Z.ltb_lt in B. split; [split; assumption|]. split; [reflexivity|].
        cbn [fst snd]. unfold redis_get in R |- *. rewrite aget_aset_same. unfold redis_live in *. cbn [e_exp]. destruct (aget s (p ++ k)) as [e0|] eqn:G0; [|discriminate R].
        destruct (match e_exp e0 with Some t => now / msec <=? t | None => true end) eqn:L; [|discriminate R]. injection R as ->. rewrite L. reflexivity.
      * right. split; [|reflexivity]. intros z A B C. apply andb_false_iff in I6.
        assert (z = n). { pose proof (parse_format_int 64 z ltac:(lia) ltac:(unfold int64 in B; cbn; lia)) as X. pose proof (parse_format_int 64 n ltac:(lia) P) as Y. rewrite <- A, <- E, Y in X. congruence. }
        subst z. unfold int64 in C. destruct I6 as [I6|I6]; [apply Z.leb_gt in I6|apply Z.ltb_ge in I6]; lia.
    + right. split; [|reflexivity]. apply No. intros z A B. apply E. rewrite A in P |- *. rewrite parse_format_int in P by (unfold int64 in B; cbn; lia). injection P as ->. reflexivity.
Qed.
Example C98_redis_any_text_case :
  let st t := [(bs "p:k", mkEntry (AStr t) None)] in let incr t d := server_do (BRedis (bs "p:")) 0 (st t) (OIncr (bs "k") (Some d)) in
  incr (bs "41") 1 = (st (bs "42"), RDone) /\ incr (bs "+41") 1 = (st (bs "+41"), RFail) /\ incr (bs "9223372036854775808") (-1) = (st (bs "9223372036854775808"), RFail) /\ incr (bs "9223372036854775807") 1 = (st (bs "9223372036854775807"), RFail).
Proof. vm_compute. auto. Qed.

(** ** C170 *)
(** GC talks to the server only for a MongoDB cache without AutoExpire; otherwise it succeeds whatever the connection does, and changes nothing *)
Theorem C170_gc_needs_no_server : forall b now s f,
  match b with BMgo auto => auto = true | _ => True end -> cache_do b now f s OGC = (s, RDone).
Proof. intros [[|]|p|p] now s f H; try discriminate H; destruct f; reflexivity. Qed.
(** for such a cache, a connection that fails makes it fail, and every other method of every cache too; what fails before the server runs it changes nothing, what fails after has had its effect *)
Theorem C170_lost_connection : forall b now s f o, f <> NoFault -> (o <> OGC \/ b = BMgo false) ->
  cache_do b now f s o = (match f with FaultBefore => s | _ => fst (server_do b now s o) end, RFail).
Proof. intros b now s f o Hf Ho. unfold cache_do. assert (R : round_trip b o = true) by (destruct o; try reflexivity; destruct Ho as [Ho| ->]; [congruence|reflexivity]). rewrite R. destruct f; [congruence|reflexivity..]. Qed.
Example C170_case : cache_do (BRedis (bs "p:")) 0 FaultBefore [] OGC = ([], RDone) /\ cache_do (BMgo false) 0 FaultBefore [] OGC = ([], RFail) /\
  cache_do (BRedis (bs "p:")) 0 FaultAfter [] (OSet (bs "k") (AStr (bs "v")) (Some (-1))) = ([(bs "p:k", mkEntry (AStr (bs "v")) None)], RFail).
Proof. vm_compute. auto. Qed.

Print Assumptions C169_value_given_back.
Print Assumptions C169_kept_is_a_function.
Print Assumptions C169_caches_agree.
Print Assumptions C170_gc_needs_no_server.
Print Assumptions C170_lost_connection.
Print Assumptions C98_redis_any_text.
