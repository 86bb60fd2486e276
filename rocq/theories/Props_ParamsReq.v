(** Props_ParamsReq: C154-C156, about the request side of /repo/params. *)
From Coq Require Import List Ascii String Bool Arith ZArith Lia.
Import ListNotations.
From Verif Require Import GoStr GoNum RouterModel ParamsModel Props_Params ParamsReqModel.
Set Default Proof Using "Type".

(** ** C154: BindJsonBody *)
Section Json.
  Variable D E : Type.
  Variable decode : bool -> bytes -> D -> D * option bytes.
  Notation bind_json := (bind_json D E decode).
  Notation uses_run := (uses_run D E decode).
  Definition wants_numbers (un : list bool) : bool := match un with b :: _ => b | [] => false end.
  (** the first 512 bytes *)
  Definition excerpt (body e : bytes) : Prop := exists rest, body = e ++ rest /\ (List.length e = 512 \/ (List.length e < 512 /\ rest = [])).
  (** the first time a body that can be read is bound *)
  Theorem C154_first : forall un body dest s' dest' r, bind_json un (Str E body None) dest = (s', dest', r) ->
    (body = [] /\ dest' = dest /\ r = None) \/
    (body <> [] /\ exists derr, decode (wants_numbers un) body dest = (dest', derr) /\
       match derr with
       | None => r = None
       | Some e => exists x, excerpt body x /\ r = Some (JDecode E (bs "decode body err: " ++ e ++ bs ", " ++ x))
       end).
  Proof.
    intros un body dest s' dest' r H. unfold ParamsReqModel.bind_json in H. cbn [read_all st_rest st_err] in H. destruct (is_nil body) eqn:En.
    - left. destruct body; [|discriminate]. injection H as _ <- <-. auto.
    - right. split; [destruct body; discriminate|]. unfold wants_numbers. destruct (decode _ body dest) as (d & e).
      assert (X : exists x, excerpt body x /\ (if Nat.ltb 512 (List.length body) then firstn 512 body else body) = x).
      { destruct (Nat.ltb_spec 512 (List.length body)) as [L|L].
        - exists (firstn 512 body). split; [|reflexivity]. exists (skipn 512 body). split; [symmetry; apply firstn_skipn|]. left. rewrite firstn_length. apply Nat.min_l. apply Nat.lt_le_incl. exact L.
        - exists body. split; [|reflexivity]. exists []. rewrite app_nil_r. split; [reflexivity|]. apply Nat.le_lteq in L as [L|L]; [right; split; [exact L|reflexivity]|left; exact L]. }
      destruct X as (x & Hx & X). rewrite X in H. clear X. destruct e as [e|]; injection H as _ <- <-; [exists (Some e)|exists None]; (split; [reflexivity|]); [exists x; split; [exact Hx|reflexivity]|reflexivity].
  Qed.
  (** a body that cannot be read: its error, and nothing is changed *)
  Theorem C154_read_error : forall un body e dest, exists s', bind_json un (Str E body (Some e)) dest = (s', dest, Some (JRead E e)).
  Proof. intros un body e dest. eexists. reflexivity. Qed.
  (** whoever reads the body uses it up: after a form was parsed or a BindJsonBody, BindJsonBody changes nothing and reports no error *)
  Lemma uses_nothing us : forall dest, uses_run us (Str E [] None) dest = (Str E [] None, dest, map (fun _ => None) us).
  Proof. induction us as [|u us IH]; intros dest; [reflexivity|]. cbn [ParamsReqModel.uses_run map]. destruct u as [|un]; cbn; rewrite IH; reflexivity. Qed.
  Theorem C154_body_is_read_once : forall us body dest s' dest' rs, uses_run us (Str E body None) dest = (s', dest', rs) ->
    match us with
    | [] => dest' = dest
    | UForm :: later => dest' = dest /\ rs = None :: map (fun _ => None) later
    | UJson un :: later => exists s1 r, bind_json un (Str E body None) dest = (s1, dest', r) /\ rs = r :: map (fun _ => None) later
    end.
  Proof.
    intros us body dest s' dest' rs H. destruct us as [|[|un] us]; cbn [ParamsReqModel.uses_run use_run] in H.
    - injection H as _ <- _. reflexivity.
    - cbn [read_all fst st_err] in H. rewrite uses_nothing in H. injection H as _ <- <-. auto.
    - destruct (bind_json un (Str E body None) dest) as ((s1 & d1) & r) eqn:B. assert (S1 : s1 = Str E [] None).
      { unfold ParamsReqModel.bind_json in B. cbn [read_all st_rest st_err] in B. destruct (is_nil body); [injection B as <- _ _; reflexivity|]. destruct (decode _ body dest). injection B as <- _ _. reflexivity. }
      subst s1. rewrite uses_nothing in H. injection H as _ <- <-. eauto.
  Qed.
  (** so that binding twice fills both destinations is refuted, whenever there is something to bind *)
  Theorem C154_twice_refuted : forall un un' body dest other d1, body <> [] -> decode (wants_numbers un) body dest = (d1, None) ->
    exists s, bind_json un (Str E body None) dest = (s, d1, None) /\ bind_json un' s other = (s, other, None).
  Proof. intros un un' body dest other d1 Hb Hd. exists (Str E [] None). unfold ParamsReqModel.bind_json. cbn [read_all st_rest st_err]. unfold wants_numbers in Hd. destruct body; [congruence|]. cbn [is_nil]. rewrite Hd. auto. Qed.
End Json.
Example C154_case : exists decode : bool -> bytes -> nat -> nat * option bytes,
  bind_json nat unit decode [] (Str unit (bs "7") None) 0 = (Str unit [] None, 7, None) /\
  bind_json nat unit decode [true] (Str unit (bs "x") None) 3 = (Str unit [] None, 3, Some (JDecode unit (bs "decode body err: bad, x"))).
Proof. exists (fun _ b d => if beq b (bs "7") then (7, None) else (d, Some (bs "bad"))). split; reflexivity. Qed.


(** ** C155: which bodies are parsed *)
(** letters in either case *)
Definition letter (a b : ascii) : Prop := a = b \/ (65 <= code a <= 90 /\ code b = code a + 32).
(** the media type of a header: what stands before its first semicolon, if any, without the white space around *)
Definition media_type (header word : bytes) : Prop :=
  exists l w r rest, header = l ++ w ++ r ++ rest /\ blanks l /\ blanks r /\ Forall2 letter w word /\ ~ In ";"%char (l ++ w ++ r) /\ (rest = [] \/ exists params, rest = bs ";" ++ params).
Lemma split_first sep s : exists m rest, s = m ++ rest /\ ~ In sep m /\ (rest = [] \/ exists r, rest = sep :: r) /\ hd [] (split_byte sep s) = m.
Proof.
  induction s as [|c s (m & rest & E & N & R & H)]; [exists [], []; cbn; auto|]. cbn [split_byte]. destruct (Ascii.eqb_spec c sep) as [->|Hn].
  - exists [], (sep :: s). split; [reflexivity|]. split; [intros []|]. split; [right; exists s; reflexivity|]. reflexivity.
  - exists (c :: m), rest. split; [rewrite E; reflexivity|]. split; [intros [X|X]; [congruence|exact (N X)]|]. split; [exact R|]. destruct (split_byte sep s) as [|x xs]; cbn in *; subst; reflexivity.
Qed.
Lemma first_unique sep (m m' rest rest' : bytes) : m ++ rest = m' ++ rest' -> ~ In sep m -> ~ In sep m' -> (rest = [] \/ exists r, rest = sep :: r) -> (rest' = [] \/ exists r, rest' = sep :: r) -> m = m'.
Proof.
  revert m'. induction m as [|c m IH]; intros [|c' m'] E N N' R R'; [reflexivity| | |].
  - exfalso. cbn in E. destruct R as [->|(r & ->)]; [discriminate|]. injection E as -> _. apply N'. left. reflexivity.
  - exfalso. cbn in E. destruct R' as [->|(r & ->)]; [discriminate|]. injection E as -> _. apply N. left. reflexivity.
  - cbn in E. injection E as -> E. f_equal. apply IH; [exact E| | |exact R|exact R']; intros X; [apply N|apply N']; right; exact X.
Qed.
Lemma lower_letter a b : (code b < 65 \/ 90 < code b) -> lower_byte a = b <-> letter a b.
Proof.
  intros Hb. unfold lower_byte, letter. destruct (Nat.leb_spec 65 (code a)) as [L1|L1]; cbn [andb]; [destruct (Nat.leb_spec (code a) 90) as [L2|L2]|].
  - split; [intros <-; right; rewrite code_byte by lia; lia|]. intros [->|(_ & E)]; [lia|]. apply code_inj. rewrite code_byte by lia. symmetry. exact E.
  - split; [auto|]. intros [E|E]; [exact E|lia].
  - split; [auto|]. intros [E|E]; [exact E|lia].
Qed.
Lemma lower_word w : forall word, Forall (fun c => code c < 65 \/ 90 < code c) word -> to_lower w = word <-> Forall2 letter w word.
Proof.
  induction w as [|a w IH]; intros [|b word] H; cbn [to_lower map]; [split; [constructor|reflexivity]|split; [discriminate|intros X; inversion X]|split; [discriminate|intros X; inversion X]|].
  inversion H as [|? ? H1 H2]; subst. split.
  - intros E. injection E as E1 E2. constructor; [apply lower_letter; assumption|apply IH; assumption].
  - intros E. inversion E as [|? ? ? ? X1 X2]; subst. f_equal; [apply lower_letter; assumption|apply IH; assumption].
Qed.
Definition plain_word (word : bytes) : bool := forallb (fun c => graphic c && (Nat.ltb (code c) 65 || Nat.ltb 90 (code c)))%bool word && negb (is_nil word).
Lemma graphic_letter a b : letter a b -> graphic b = true -> graphic a = true.
Proof. intros [->|(L & E)] H; [exact H|]. unfold graphic in *. apply andb_true_iff. split; apply Nat.leb_le; lia. Qed.
Lemma media_type_is header word : plain_word word = true -> to_lower (trim_space (hd [] (split_byte ";"%char header))) = word <-> media_type header word.
Proof.
  intros Hw. apply andb_true_iff in Hw as (Hw & Hne). assert (G : Forall (fun c => graphic c = true) word /\ Forall (fun c => code c < 65 \/ 90 < code c) word).
  { rewrite !Forall_forall. rewrite forallb_forall in Hw. split; intros c Hc; specialize (Hw c Hc); apply andb_true_iff in Hw as (A & B); [exact A|]. apply orb_true_iff in B as [B|B]; apply Nat.ltb_lt in B; auto. }
  destruct G as (G & NU). destruct (split_first ";"%char header) as (m & rest & E & N & R & ->).
  assert (GW : forall w, Forall2 letter w word -> forallb graphic w = true /\ w <> []).
  { intros w F. split; [|intros ->; inversion F; subst; discriminate Hne]. clear Hw Hne NU. induction F as [|a b w word L F IH]; [reflexivity|]. inversion G; subst. cbn. rewrite (graphic_letter _ _ L) by assumption. apply IH. assumption. }
  rewrite (lower_word _ _ NU). split.
  - intros F. destruct (GW _ F) as (Gw & Wn). pose proof (proj1 (trim_space_word m (trim_space m) Gw Wn) eq_refl) as (l & r & Hl & Hr & Em).
    exists l, (trim_space m), r, rest. rewrite <- Em. split; [rewrite E, Em at 1; rewrite <- !app_assoc; reflexivity|]. split; [exact Hl|]. split; [exact Hr|]. split; [exact F|]. split; [exact N|exact R].
  - intros (l & w & r & rest' & E' & Hl & Hr & F & N' & R'). destruct (GW _ F) as (Gw & Wn). replace m with (l ++ w ++ r).
    + replace (trim_space (l ++ w ++ r)) with w; [exact F|]. symmetry. apply trim_space_word; [exact Gw|exact Wn|]. exists l, r. auto.
    + symmetry. apply (first_unique ";"%char m (l ++ w ++ r) rest rest'); try assumption. rewrite <- E, E'. rewrite <- !app_assoc. reflexivity.
Qed.
Definition url_type : bytes := bs "application/x-www-form-urlencoded".
Definition multi_type : bytes := bs "multipart/form-data".
Lemma media_empty word : word <> [] -> ~ media_type [] word.
Proof. intros Hne (l & w & r & rest & E & _ & _ & F & _). symmetry in E. apply app_eq_nil in E as (_ & E). apply app_eq_nil in E as (E & _). subst w. inversion F; subst. congruence. Qed.
Lemma kind_is header : match kind_of header with
  | FUrlencoded => media_type header url_type
  | FMultipart => media_type header multi_type
  | FOther => ~ media_type header url_type /\ ~ media_type header multi_type end.
Proof.
  unfold kind_of. destruct (is_nil header) eqn:En.
  - destruct header; [|discriminate]. replace (beq (bs "text/html") (bs "application/x-www-form-urlencoded")) with false by (vm_compute; reflexivity). replace (beq (bs "text/html") (bs "multipart/form-data")) with false by (vm_compute; reflexivity). split; apply media_empty; discriminate.
  - pose proof (media_type_is header url_type ltac:(vm_compute; reflexivity)) as U. pose proof (media_type_is header multi_type ltac:(vm_compute; reflexivity)) as M.
    fold url_type multi_type. set (ct := to_lower _) in *. destruct (beq_spec ct url_type) as [A|A]; [apply U; exact A|]. destruct (beq_spec ct multi_type) as [B|B]; [apply M; exact B|]. split; intros X; [apply A, U, X|apply B, M, X].
Qed.
Lemma media_one header a b : plain_word a = true -> plain_word b = true -> media_type header a -> media_type header b -> a = b.
Proof. intros Ha Hb A B. apply media_type_is in A, B; try assumption. congruence. Qed.
(** [url] and [multi]: what net/http makes of the body as a form of either kind, if there is one. What a request's parameters are, by its Content-Type *)
Theorem C155_bodies : forall header query route ok url multi,
  (media_type header url_type -> parse_params query route ok (body_of header url multi) =
     match url with Some posted => if ok then Some (calc_values query route (http_form posted query), []) else None | None => None end) /\
  (media_type header multi_type -> parse_params query route ok (body_of header url multi) =
     match multi with Some (posted, files) => if ok then Some (calc_values query route posted, files) else None | None => None end) /\
  (~ media_type header url_type -> ~ media_type header multi_type -> parse_params query route ok (body_of header url multi) = Some (calc_values query route [], [])).
Proof.
  intros header query route ok url multi. unfold body_of. pose proof (kind_is header) as K. assert (Pu : plain_word url_type = true) by (vm_compute; reflexivity). assert (Pm : plain_word multi_type = true) by (vm_compute; reflexivity).
  split; [|split].
  - intros H. destruct (kind_of header); [|exfalso; pose proof (media_one _ _ _ Pu Pm H K) as X; discriminate X|exfalso; exact (proj1 K H)]. destruct url as [posted|]; reflexivity.
  - intros H. destruct (kind_of header); [exfalso; pose proof (media_one _ _ _ Pu Pm K H) as X; discriminate X| |exfalso; exact (proj2 K H)]. destruct multi as [(posted & files)|]; reflexivity.
  - intros H1 H2. destruct (kind_of header); [exfalso; exact (H1 K)|exfalso; exact (H2 K)|reflexivity].
Qed.
(** in the words of C63: a body is used if, and only if, its type is one of the two *)
Theorem C155_values : forall header query route url multi vs files name, is_map query -> is_map route -> match url with Some m => is_map m | None => True end -> match multi with Some (m, _) => is_map m | None => True end ->
  parse_params query route true (body_of header url multi) = Some (vs, files) ->
  (media_type header url_type /\ (exists posted, url = Some posted /\ vals vs name = vals query name ++ vals route name ++ vals posted name ++ vals query name) /\ files = []) \/
  (media_type header multi_type /\ exists posted, multi = Some (posted, files) /\ vals vs name = vals query name ++ vals route name ++ vals posted name) \/
  (~ media_type header url_type /\ ~ media_type header multi_type /\ files = [] /\ vals vs name = vals query name ++ vals route name).
Proof.
  intros header query route url multi vs files name Nq Nr Nu Nm H. assert (Nb : body_map (body_of header url multi)) by (unfold body_of; destruct (kind_of header); [destruct url|destruct multi as [(? & ?)|]|]; cbn; auto).
  pose proof (C63_unified_values _ _ _ _ _ _ name Nq Nr Nb H) as V. pose proof (kind_is header) as K. unfold body_of in *. destruct (kind_of header).
  - left. split; [exact K|]. destruct url as [posted|]; [|discriminate]. cbn [parse_params] in H. injection H as _ <-. split; [exists posted; split; [reflexivity|exact V]|reflexivity].
  - right. left. split; [exact K|]. destruct multi as [(posted & fl)|]; [|discriminate]. cbn [parse_params] in H. injection H as _ <-. exists posted. split; [reflexivity|]. cbn [body_vals urlencoded] in V. rewrite app_nil_r in V. exact V.
  - right. right. destruct K as (K1 & K2). split; [exact K1|]. split; [exact K2|]. cbn [parse_params] in H. injection H as _ <-. split; [reflexivity|]. cbn [body_vals urlencoded] in V. rewrite !app_nil_r in V. exact V.
Qed.
Example C155_case : media_type (bs " Application/X-www-form-URLencoded ; charset=utf-8") url_type /\ kind_of (bs "multipart/form-data;boundary=x") = FMultipart /\ kind_of (bs "multipart/form-data x") = FOther /\ kind_of [] = FOther.
Proof. split; [apply media_type_is; vm_compute; reflexivity|]. repeat split; vm_compute; reflexivity. Qed.

(** ** C156: the memory limit *)
(** what a setting asks for: its number if positive, else 32 MB *)
Definition asked (conf : option Z) : Z := match conf with Some z => if Z.ltb 0 z then z else 33554432 | None => 33554432 end.
Lemma asked_eff conf : asked conf = effective (match conf with Some z => if Z.eqb z 0 then default_max else z | None => default_max end).
Proof.
  unfold asked, effective, default_max. destruct conf as [z|]; [|reflexivity]. destruct (Z.ltb_spec 0 z) as [L|L].
  - destruct (Z.eqb_spec z 0); [lia|]. destruct (Z.leb_spec z 0); [lia|reflexivity].
  - destruct (Z.eqb_spec z 0); [reflexivity|]. destruct (Z.leb_spec z 0); [reflexivity|lia].
Qed.
(** the variable while every request sees the same setting *)
Definition good_var (conf : option Z) (v : Z) : Prop := v = 0%Z \/ v = match conf with Some z => if Z.eqb z 0 then default_max else z | None => default_max end.
Definition good_pc (conf : option Z) (v : Z) (pc : mpc) : Prop :=
  match pc with
  | MStart | MBind => True
  | MCheck => match conf with Some z => z <> 0%Z -> v = z | None => True end
  | MDefault => conf = None \/ conf = Some 0%Z
  | MPass => conf = Some 0%Z \/ v <> 0%Z
  | MDone l => effective l = asked conf
  end.
Lemma eff_good conf v : good_var conf v -> conf = Some 0%Z \/ v <> 0%Z -> effective v = asked conf.
Proof. rewrite asked_eff. intros [->| ->]; [intros [->|H]; [reflexivity|congruence]|reflexivity]. Qed.
Lemma mstep_good conf v pc v' pc' : good_var conf v -> good_pc conf v pc -> mstep conf v pc = (v', pc') ->
  good_var conf v' /\ good_pc conf v' pc' /\ (forall q, good_pc conf v q -> good_pc conf v' q).
Proof.
  intros Gv Gp H. assert (D : default_max <> 0%Z) by discriminate. destruct pc; cbn [mstep] in H; injection H as <- <-.
  - split; [exact Gv|]. split; [|auto]. destruct (Z.eqb_spec v 0) as [E|E]; cbn; auto.
  - split; [|split].
    + unfold good_var in *. destruct conf as [z|]; [|exact Gv]. destruct (Z.eqb_spec z 0); auto.
    + cbn. destruct conf; auto.
    + intros q. destruct conf as [z|]; [|auto]. destruct q; cbn; try tauto. intros [Q|Q]; [left; exact Q|]. destruct (Z.eq_dec z 0) as [->|Hz]; [left; reflexivity|right; exact Hz].
  - split; [exact Gv|]. split; [|auto]. cbn in Gp. destruct (Z.eqb_spec v 0) as [E|E]; cbn; [|auto]. destruct conf as [z|]; [|auto]. right. f_equal. destruct (Z.eq_dec z 0) as [->|Hz]; [reflexivity|]. specialize (Gp Hz). congruence.
  - cbn in Gp. split; [|split].
    + right. destruct Gp as [->| ->]; reflexivity.
    + cbn. right. exact D.
    + intros q. destruct Gp as [->| ->]; destruct q; cbn; auto. congruence.
  - split; [exact Gv|]. split; [|auto]. cbn. apply eff_good; assumption.
  - auto.
Qed.
Definition inv (conf : option Z) (s : mstate) : Prop := good_var conf (m_var s) /\ Forall (fun r => fst r = conf /\ good_pc conf (m_var s) (snd r)) (m_req s).
(** all the requests see the setting conf *)
Definition same_setting (conf : option Z) (s : mstate) : Prop := Forall (fun r => fst r = conf) (m_req s).
Lemma msteps_conf s s' : msteps s s' -> forall conf, same_setting conf s' -> same_setting conf s.
Proof.
  unfold same_setting. induction 1 as [s|s c s' H IH|v b c pc a v' pc' s' Hs H IH]; intros conf F; [exact F| |].
  - specialize (IH conf F). cbn in IH. apply Forall_app in IH as (IH & _). exact IH.
  - specialize (IH conf F). cbn in *. apply Forall_app in IH as (I1 & I2). inversion I2 as [|? ? I3 I4]. apply Forall_app. split; [exact I1|]. constructor; [exact I3|exact I4].
Qed.
Lemma msteps_inv s s' : msteps s s' -> forall conf, same_setting conf s' -> inv conf s -> inv conf s'.
Proof.
  induction 1 as [s|s c s' H IH|v b c pc a v' pc' s' Hs H IH]; intros conf F I; [exact I| |].
  - apply IH; [exact F|]. destruct I as (I1 & I2). split; [exact I1|]. cbn. apply Forall_app. split; [exact I2|]. constructor; [|constructor]. cbn. split; [|exact Logic.I].
    pose proof (msteps_conf _ _ H conf F) as X. unfold same_setting in X. cbn in X. apply Forall_app in X as (_ & X). inversion X as [|? ? X1 _]. exact X1.
  - apply IH; [exact F|]. destruct I as (I1 & I2). cbn in I1, I2. apply Forall_app in I2 as (I2 & I3). inversion I3 as [|? ? (I4 & I5) I6]. clear I3. cbn in I4, I5. subst c. destruct (mstep_good conf v pc v' pc' I1 I5 Hs) as (G1 & G2 & G3).
    split; [exact G1|]. cbn. apply Forall_app. split; [|constructor]; [|cbn; auto|]; (eapply Forall_impl; [|eassumption]); intros (c0 & q) (A & B); cbn in *; subst; auto.
Qed.
(** while all the requests see one setting, every request's bodies are read with the limit it asks for, however the requests run together *)
Theorem C156_limit : forall s conf limit, msteps mstart s -> same_setting conf s -> In (conf, MDone limit) (m_req s) -> effective limit = asked conf.
Proof.
  intros s conf limit H F I. destruct (msteps_inv _ _ H conf F) as (_ & G); [split; [left; reflexivity|constructor]|]. rewrite Forall_forall in G. destruct (G _ I) as (_ & X). exact X.
Qed.
(** one request after the other: the first one's setting is kept for good *)
Definition alone (conf : option Z) (v v' l : Z) : Prop := msteps (MSt v [(conf, MStart)]) (MSt v' [(conf, MDone l)]).
Lemma alone_det conf v v' l : alone conf v v' l -> (v', l) = mserve conf v.
Proof.
  (* every run of one request is the same sequence of steps *)
  assert (G : forall s t, msteps s t -> forall c pc w w' l, s = MSt w [(c, pc)] -> t = MSt w' [(c, MDone l)] -> 
     (w', l) = match pc with
               | MStart => mserve c w
               | MBind => let w := match c with Some z => z | None => w end in let w := if Z.eqb w 0 then default_max else w in (w, w)
               | MCheck => let w := if Z.eqb w 0 then default_max else w in (w, w)
               | MDefault => (default_max, default_max)
               | MPass => (w, w)
               | MDone l => (w, l)
               end).
  { assert (N : forall s t, msteps s t -> List.length (m_req s) <= List.length (m_req t)).
    { induction 1 as [s|s c s' H IH|x b c pc a x' pc' s' Hs H IH]; [lia| |]; cbn in *; rewrite app_length in *; cbn in *; lia. }
    induction 1 as [s|s c0 s' H IH|x b c0 pc0 a x' pc' s' Hs H IH]; intros c pc w w' l0 E1 E2.
    - rewrite E1 in E2. injection E2 as <- ->. reflexivity.
    - apply N in H. subst. cbn in H. lia.
    - assert (S : b = [] /\ c0 = c /\ pc0 = pc /\ a = [] /\ x = w).
      { injection E1 as -> E. destruct b as [|b0 b]; [cbn in E; injection E as -> -> ->; auto|]. destruct b; discriminate E. }
      destruct S as (-> & -> & -> & -> & ->). specialize (IH c pc' x' w' l0 eq_refl E2). destruct pc; cbn [mstep] in Hs; injection Hs as <- <-; unfold mserve.
      + destruct (Z.eqb w 0); exact IH.
      + exact IH.
      + destruct (Z.eqb w 0); exact IH.
      + exact IH.
      + exact IH.
      + exact IH. }
  intros H. exact (G _ _ H conf MStart v v' l eq_refl eq_refl).
Qed.
(** serving requests one after the other, with the settings they see and the limits they get *)
Inductive in_turn : Z -> list (option Z) -> list Z -> Prop :=
| it_none : forall v, in_turn v [] []
| it_one : forall v v' c l cs ls, alone c v v' l -> in_turn v' cs ls -> in_turn v (c :: cs) (effective l :: ls).
Theorem C156_first_setting_wins : forall conf later limits, in_turn 0 (conf :: later) limits -> limits = map (fun _ => asked conf) (conf :: later).
Proof.
  assert (L : forall v cs ls, v <> 0%Z -> in_turn v cs ls -> ls = map (fun _ => effective v) cs).
  { intros v cs ls Hv H. induction H as [|v v' c l cs ls A _ IH]; [reflexivity|]. apply alone_det in A. unfold mserve in A. destruct (Z.eqb_spec v 0); [congruence|]. injection A as -> ->. cbn. rewrite <- IH by exact Hv. reflexivity. }
  intros conf later limits H. inversion H as [|v v' c l cs ls A R]; subst. apply alone_det in A. unfold mserve in A. rewrite Z.eqb_refl in A.
  set (w := if Z.eqb _ 0 then _ else _) in A. injection A as -> ->. assert (Hw : w <> 0%Z /\ effective w = asked conf).
  { rewrite asked_eff. subst w. destruct conf as [z|]; [|split; [discriminate|reflexivity]]. destruct (Z.eqb_spec z 0); [split; [discriminate|reflexivity]|auto]. }
  destruct Hw as (Hw & E). rewrite (L _ _ _ Hw R). cbn. rewrite E. reflexivity.
Qed.
(** so a setting changed later is not seen *)
Theorem C156_later_settings_refuted : exists limits, in_turn 0 [Some 100; Some 200]%Z limits /\ limits = [100; 100]%Z.
Proof.
  exists [100; 100]%Z. split; [|reflexivity]. change 100%Z with (effective 100). 
  assert (A0 : alone (Some 100%Z) 0 100 100).
  { unfold alone. apply (ms_run 0 [] (Some 100%Z) MStart [] 0 MBind); [reflexivity|]. apply (ms_run 0 [] (Some 100%Z) MBind [] 100 MCheck); [reflexivity|]. apply (ms_run 100 [] (Some 100%Z) MCheck [] 100 MPass); [reflexivity|]. apply (ms_run 100 [] (Some 100%Z) MPass [] 100 (MDone 100)); [reflexivity|]. apply ms_refl. }
  assert (A1 : alone (Some 200%Z) 100 100 100).
  { unfold alone. apply (ms_run 100 [] (Some 200%Z) MStart [] 100 MPass); [reflexivity|]. apply (ms_run 100 [] (Some 200%Z) MPass [] 100 (MDone 100)); [reflexivity|]. apply ms_refl. }
  eapply it_one; [exact A0|]. eapply it_one; [exact A1|constructor].
Qed.
Example C156_case : exists s, msteps mstart s /\ same_setting (Some 100%Z) s /\ In (Some 100%Z, MDone 100%Z) (m_req s).
Proof.
  exists (MSt 100 [(Some 100%Z, MDone 100%Z)]). split; [|split; [repeat constructor|left; reflexivity]].
  apply (ms_new mstart (Some 100%Z)). cbn [mstart m_var m_req List.app].
  apply (ms_run 0 [] (Some 100%Z) MStart [] 0 MBind); [reflexivity|]. apply (ms_run 0 [] (Some 100%Z) MBind [] 100 MCheck); [reflexivity|]. apply (ms_run 100 [] (Some 100%Z) MCheck [] 100 MPass); [reflexivity|]. apply (ms_run 100 [] (Some 100%Z) MPass [] 100 (MDone 100)); [reflexivity|]. apply ms_refl.
Qed.

(** ** C157: uploaded files *)
(** which uploads stay in memory: those that fit beside the ones kept before *)
Inductive kept (limit : Z) : Z -> list (bytes * bytes) -> list bool -> Prop :=
| k_nil : forall used, kept limit used [] []
| k_fits : forall used name c parts bs, (used + Z.of_nat (List.length c) <= limit)%Z -> kept limit (used + Z.of_nat (List.length c)) parts bs -> kept limit used ((name, c) :: parts) (true :: bs)
| k_not : forall used name c parts bs, (limit < used + Z.of_nat (List.length c))%Z -> kept limit used parts bs -> kept limit used ((name, c) :: parts) (false :: bs).
(** what the handlers can read of the uploads *)
Definition readable (limit : Z) (fresh : nat) (d : disk) (parts : list (bytes * bytes)) : list (bytes * option bytes) :=
  let (hs, d') := provide_files limit fresh d parts in map (fun h => (fst h, open_file d' (snd h))) hs.
Definition expected (part : bytes * bytes) (keep : bool) : bytes * option bytes := (fst part, if keep then Some (snd part) else None).
Lemma read_files_kept limit parts : forall used fresh d, exists bs, kept limit used parts bs /\
  let (hs, d') := read_files (limit - used) fresh d parts in
  List.length hs = List.length parts /\
  (forall i p h, nth_error parts i = Some p -> nth_error hs i = Some h -> fst h = fst p /\ (nth_error bs i = Some true /\ snd h = HMem (snd p) \/ nth_error bs i = Some false /\ exists n, snd h = HTmp n /\ fresh <= n)) /\
  (exists new, d' = new ++ d /\ Forall (fun f => fresh <= fst f /\ exists h, In h hs /\ snd h = HTmp (fst f)) new).
Proof.
  induction parts as [|(name & c) parts IH]; intros used fresh d; cbn [read_files].
  - exists []. split; [constructor|]. split; [reflexivity|]. split; [intros [|i]; discriminate|]. exists []. split; [reflexivity|constructor].
  - destruct (Z.ltb_spec (limit - used) (Z.of_nat (List.length c))) as [L|L].
    + destruct (IH used (S fresh) ((fresh, c) :: d)) as (bl & K & H). destruct (read_files (limit - used) (S fresh) ((fresh, c) :: d) parts) as (hs & d') eqn:E. destruct H as (H1 & H2 & new & H3 & H4).
      exists (false :: bl). split; [apply k_not; [lia|exact K]|]. split; [cbn; congruence|]. split.
      * intros [|i] p h Hp Hh; cbn in Hp, Hh.
        -- injection Hp as <-. injection Hh as <-. cbn. split; [reflexivity|]. right. split; [reflexivity|]. exists fresh. auto.
        -- destruct (H2 i p h Hp Hh) as (A & [B|(B & n & C & D)]); (split; [exact A|]); [left; exact B|right]. split; [exact B|]. exists n. split; [exact C|lia].
      * exists (new ++ [(fresh, c)]). split; [rewrite H3, <- app_assoc; reflexivity|]. apply Forall_app. split.
        -- eapply Forall_impl; [|exact H4]. intros f (A & h & B & C). split; [lia|]. exists h. split; [right; exact B|exact C].
        -- constructor; [|constructor]. cbn. split; [lia|]. eexists. split; [left; reflexivity|reflexivity].
    + replace (limit - used - Z.of_nat (List.length c))%Z with (limit - (used + Z.of_nat (List.length c)))%Z by lia.
      destruct (IH (used + Z.of_nat (List.length c))%Z fresh d) as (bl & K & H). destruct (read_files _ fresh d parts) as (hs & d') eqn:E. destruct H as (H1 & H2 & new & H3 & H4).
      exists (true :: bl). split; [apply k_fits; [lia|exact K]|]. split; [cbn; congruence|]. split.
      * intros [|i] p h Hp Hh; cbn in Hp, Hh; [|exact (H2 i p h Hp Hh)]. injection Hp as <-. injection Hh as <-. cbn. auto.
      * exists new. split; [exact H3|]. eapply Forall_impl; [|exact H4]. intros f (A & h & B & C). split; [exact A|]. exists h. split; [right; exact B|exact C].
Qed.
Lemma find_removed hs d n : (exists h, In h hs /\ snd h = HTmp n) -> find (fun f => Nat.eqb (fst f) n) (remove_all hs d) = None.
Proof.
  intros (h & Hh & Eh). destruct (find _ (remove_all hs d)) as [f|] eqn:F; [|reflexivity]. exfalso. apply find_some in F as (F1 & F2). apply Nat.eqb_eq in F2. unfold remove_all in F1. apply filter_In in F1 as (_ & F1). apply negb_true_iff in F1.
  assert (X : existsb (fun h => match snd h with HTmp n => Nat.eqb n (fst f) | HMem _ => false end) hs = true); [|congruence]. apply existsb_exists. exists h. split; [exact Hh|]. rewrite Eh, F2. apply Nat.eqb_refl.
Qed.
(** [old]: no file of the directory has a name still to be given *)
Definition old (fresh : nat) (d : disk) : Prop := Forall (fun f => fst f < fresh) d.
(** a handler can read exactly the uploads that stayed in memory; the others are gone when it starts *)
Theorem C157_readable : forall limit fresh d parts, exists keep, kept (effective limit) 0 parts keep /\
  readable limit fresh d parts = map (fun pk => expected (fst pk) (snd pk)) (combine parts keep).
Proof.
  intros limit fresh d parts. destruct (read_files_kept (effective limit) parts 0 fresh d) as (keep & K & H). exists keep. split; [exact K|]. unfold readable, provide_files. rewrite Z.sub_0_r in H. destruct (read_files (effective limit) fresh d parts) as (hs & d'). destruct H as (H1 & H2 & _).
  assert (KL : List.length keep = List.length parts) by (clear H1 H2; induction K; cbn; congruence). clear K.
  assert (G : forall all parts keep hs, (forall h, In h hs -> In h all) -> List.length hs = List.length parts -> List.length keep = List.length parts ->
    (forall i p h, nth_error parts i = Some p -> nth_error hs i = Some h -> fst h = fst p /\ (nth_error keep i = Some true /\ snd h = HMem (snd p) \/ nth_error keep i = Some false /\ exists n, snd h = HTmp n /\ fresh <= n)) ->
    map (fun h => (fst h, open_file (remove_all all d') (snd h))) hs = map (fun pk => expected (fst pk) (snd pk)) (combine parts keep)).
  { clear. intros all parts. induction parts as [|p parts IH]; intros [|k keep] [|h hs] Hin L1 L2 H; try discriminate; [reflexivity|]. cbn [map combine]. f_equal.
    - destruct (H 0 p h eq_refl eq_refl) as (A & [(B & C)|(B & n & C & _)]); cbn in B; injection B as ->; unfold expected; cbn [fst snd]; rewrite A, C; cbn [open_file]; [reflexivity|].
      rewrite find_removed; [reflexivity|]. exists h. split; [apply Hin; left; reflexivity|exact C].
    - apply IH; [intros x Hx; apply Hin; right; exact Hx|cbn in L1; congruence|cbn in L2; congruence|]. intros i q g Hq Hg. exact (H (S i) q g Hq Hg). }
  apply G; auto.
Qed.
Theorem C157_no_file_stays : forall limit fresh d parts, old fresh d -> snd (provide_files limit fresh d parts) = d.
Proof.
  intros limit fresh d parts O. destruct (read_files_kept (effective limit) parts 0 fresh d) as (keep & _ & H). unfold provide_files. rewrite Z.sub_0_r in H. destruct (read_files (effective limit) fresh d parts) as (hs & d'). destruct H as (H1 & H2 & new & -> & H4). cbn [snd]. unfold remove_all. rewrite filter_app.
  assert (A : filter (fun f => negb (existsb (fun h => match snd h with HTmp n => Nat.eqb n (fst f) | HMem _ => false end) hs)) new = []).
  { clear -H4. induction H4 as [|f new (_ & h & Hh & Eh) _ IH]; [reflexivity|]. cbn [filter]. replace (existsb _ hs) with true; [exact IH|]. symmetry. apply existsb_exists. exists h. split; [exact Hh|]. rewrite Eh. apply Nat.eqb_refl. }
  rewrite A. cbn [List.app]. clear A H4. unfold old in O. assert (B : forall n, (exists h, In h hs /\ snd h = HTmp n) -> fresh <= n).
  { intros n (h & Hh & Eh). apply In_nth_error in Hh as (i & Hi). destruct (nth_error parts i) as [p|] eqn:Ep.
    - destruct (H2 i p h Ep Hi) as (_ & [(_ & C)|(_ & m & C & D)]); congruence || (rewrite C in Eh; injection Eh as <-; exact D).
    - apply nth_error_None in Ep. assert (i < List.length hs) by (apply nth_error_Some; congruence). lia. }
  induction O as [|f d Hf _ IH]; [reflexivity|]. cbn [filter]. rewrite IH. replace (existsb _ hs) with false; [reflexivity|]. symmetry. apply not_true_is_false. intros X. apply existsb_exists in X as (h & Hh & Eh). destruct (snd h) as [|n] eqn:Es; [discriminate|]. apply Nat.eqb_eq in Eh. subst n. specialize (B (fst f) (ex_intro _ h (conj Hh Es))). lia.
Qed.
(** the sizes of the uploads together *)
Definition total (parts : list (bytes * bytes)) : Z := fold_right (fun p n => (Z.of_nat (List.length (snd p)) + n)%Z) 0%Z parts.
Lemma total_nonneg parts : (0 <= total parts)%Z.
Proof. induction parts as [|p parts IH]; [cbn; lia|]. unfold total in *. cbn [fold_right]. lia. Qed.
Lemma kept_all limit : forall parts used keep, kept limit used parts keep -> (used <= limit)%Z -> (used + total parts <= limit)%Z <-> Forall (fun b => b = true) keep.
Proof.
  intros parts used keep K. induction K as [used|used name c parts bl L K IH|used name c parts bl L K IH]; intros U; change (total ((name, c) :: parts)) with (Z.of_nat (List.length c) + total parts)%Z || change (total []) with 0%Z.
  - split; [constructor|lia].
  - specialize (IH L). split; [intros X; constructor; [reflexivity|apply IH; lia]|]. intros X. inversion X; subst. apply IH in H2. lia.
  - pose proof (total_nonneg parts). split; [intros X; exfalso; lia|]. intros X. inversion X; discriminate.
Qed.
(** handlers can read all the uploads if, and only if, together they are no larger than the limit *)
Theorem C157_all_or_lost : forall limit fresh d parts,
  (total parts <= effective limit)%Z <-> readable limit fresh d parts = map (fun p => (fst p, Some (snd p))) parts.
Proof.
  intros limit fresh d parts. destruct (C157_readable limit fresh d parts) as (keep & K & ->). assert (E : (0 <= effective limit)%Z) by (unfold effective, default_max; destruct (Z.leb_spec limit 0); lia).
  rewrite <- (Z.add_0_l (total parts)). rewrite (kept_all _ _ _ _ K E). clear E. assert (KL : List.length keep = List.length parts) by (induction K; cbn; congruence). clear K. revert keep KL.
  induction parts as [|p parts IH]; intros [|k keep] KL; try discriminate; [split; [reflexivity|constructor]|]. cbn [combine map]. cbn in KL. injection KL as KL. specialize (IH keep KL). split.
  - intros F. inversion F as [|? ? F1 F2]; subst. f_equal. apply IH. exact F2.
  - intros X. injection X as X1 X2. constructor; [|apply IH; exact X2]. destruct k; [reflexivity|discriminate X1].
Qed.
(** that a handler can read what was uploaded is refuted *)
Theorem C157_upload_refuted : exists limit fresh d name content, old fresh d /\ readable limit fresh d [(name, content)] = [(name, None)].
Proof. exists 3%Z, 0, [], (bs "f"), (bs "data"). split; [constructor|]. vm_compute. reflexivity. Qed.
Example C157_case : readable 6 7 [(2, bs "other")] [(bs "a", bs "1234"); (bs "b", bs "123"); (bs "c", bs "12")] = [(bs "a", Some (bs "1234")); (bs "b", None); (bs "c", Some (bs "12"))] /\ old 7 [(2, bs "other")].
Proof. split; [vm_compute; reflexivity|repeat constructor]. Qed.

Print Assumptions C154_first.
Print Assumptions C154_read_error.
Print Assumptions C154_body_is_read_once.
Print Assumptions C154_twice_refuted.
Print Assumptions C155_bodies.
Print Assumptions C155_values.
Print Assumptions C156_limit.
Print Assumptions C156_first_setting_wins.
Print Assumptions C156_later_settings_refuted.
Print Assumptions C157_readable.
Print Assumptions C157_no_file_stays.
Print Assumptions C157_all_or_lost.
Print Assumptions C157_upload_refuted.
