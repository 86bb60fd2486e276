(** Props_Header: which value of a repeated header counts, for C81, C121 and C132. *)
From Coq Require Import List Ascii String Bool Arith ZArith Lia.
Import ListNotations.
From Verif Require Import GoStr HeadModel LogModel ReqLogModel GzipModel Props_ReqLog Props_ReqLogExact Props_Gzip.

(** [v] is the first value of header [k], the empty string if there is none *)
Inductive first_value (h : header) (k : bytes) : bytes -> Prop :=
| fv_missing : aget h k = None -> first_value h k []
| fv_empty : aget h k = Some [] -> first_value h k []
| fv_first : forall v more, aget h k = Some (v :: more) -> first_value h k v.
Lemma first_value_get h k v : first_value h k v <-> hget h k = v.
Proof.
  unfold hget. split; [intros [-> | -> |? ? ->]; reflexivity|]. destruct (aget h k) as [[|x more]|] eqn:E; intros <-; [apply fv_empty|eapply fv_first|apply fv_missing]; exact E.
Qed.
Lemma first_value_exists h k : exists v, first_value h k v.
Proof. exists (hget h k). now apply first_value_get. Qed.

(** C81: the id comes from the first X-Reqid header *)
Theorem C81_first_header opt fresh rq v : no_filters opt -> first_value (rq_hdr rq) (bs "X-Reqid") v ->
  choose_id opt fresh rq = v /\ (10 <= List.length v <= 32)%nat \/ choose_id opt fresh rq = fresh /\ ~ (10 <= List.length v <= 32)%nat.
Proof. intros N V. apply first_value_get in V. subst v. pose proof (C81_which_ids opt fresh rq N) as X. change (bs "X-Reqid") with HeaderReqid. tauto. Qed.
(** C121: the address comes from the first X-Real-Ip and else the first X-Forwarded-For header *)
Theorem C121_first_headers rq real fwd entry host :
  first_value (rq_hdr rq) (bs "X-Real-Ip") real -> first_value (rq_hdr rq) (bs "X-Forwarded-For") fwd ->
  up_to ","%char fwd entry -> up_to ":"%char entry host ->
  real_ip rq = match real, entry with
               | _ :: _, _ => trim_space real
               | [], _ :: _ => trim_space host
               | [], [] => match last_index_sub (rq_remote rq) (bs ":") with Some i => firstn i (rq_remote rq) | None => rq_remote rq end
               end.
Proof.
  intros R F He Hh. apply first_value_get in R, F. subst real fwd. rewrite (C121_address_is rq entry host He Hh). change (bs "X-Real-Ip") with HeaderXRealIp.
  destruct (hget (rq_hdr rq) HeaderXRealIp); cbn [is_nil]; [destruct entry; reflexivity|reflexivity].
Qed.
(** C132: whether a content type was set is told by its first value *)
Theorem C132_first_type emit tail detect (emit_first : forall p : bytes, emit [] p <> []) accept w pre b post v :
  accepts accept = true -> h_sent w = None -> h_once w = false -> quiet_pre pre ->
  hooks_leave (bs "Content-Type") (h_hooks w ++ pre_hooks pre) ->
  let before := h_hdr (g_w (fold_left (g_op emit detect) pre (start w))) in
  first_value before (bs "Content-Type") v ->
  exists s h, h_sent (finish (g_w (gzip_all emit tail detect accept w (pre ++ RWrite b :: post)))) = Some (s, h) /\
    aget h (bs "Content-Type") = match v with [] => Some [detect b] | _ => aget before (bs "Content-Type") end.
Proof.
  intros A S0 O Q L before V. apply first_value_get in V. destruct (C132_type emit tail detect emit_first accept w pre b post A S0 O Q L) as (s & h & E & X & Y).
  exists s, h. split; [exact E|]. fold before in X, Y. rewrite V in X, Y. destruct v; [apply Y; reflexivity|apply X; discriminate].
Qed.
Example C81_first_example :
  first_value [(bs "X-Reqid", [bs "0123456789"; bs "x"])] (bs "X-Reqid") (bs "0123456789") /\ first_value [(bs "X-Reqid", [[]; bs "0123456789"])] (bs "X-Reqid") [] /\
  up_to ","%char (bs "1.2.3.4:80, 5.6.7.8") (bs "1.2.3.4:80") /\ up_to ":"%char (bs "1.2.3.4:80") (bs "1.2.3.4").
Proof.
  split; [eapply fv_first; vm_compute; reflexivity|]. split; [eapply fv_first; vm_compute; reflexivity|]. split; (split; [vm_compute; intuition discriminate|]); right; [exists (bs " 5.6.7.8")|exists (bs "80")]; vm_compute; reflexivity.
Qed.

Print Assumptions C81_first_header.
Print Assumptions C121_first_headers.
Print Assumptions C132_first_type.
