(** Props_Params: C63-C68, C84, C103-C111, about /repo/params. *)
From Coq Require Import List Ascii String Bool Arith ZArith Lia Permutation.
Import ListNotations.
From Verif Require Import GoStr GoNum RouterModel ConvModel ConvFacts ParamsModel ParamsFacts.

Set Default Proof Using "Type".
(** ** Specification *)
(** the values of a name; a map's keys are distinct *)
Definition vals (m : values) (name : bytes) : list bytes := match aget m name with Some l => l | None => [] end.
Definition is_map {A} (m : list (bytes * A)) : Prop := NoDup (map fst m).

Lemma aget_of_in {A} (m : list (bytes * A)) k v : is_map m -> In (k, v) m -> aget m k = Some v.
Proof.
  induction m as [|(k' & v') m IH]; intros N Hin; [destruct Hin|]. cbn [aget]. inversion N as [|x l Hx N' E]; subst. destruct Hin as [Hin|Hin].
  - injection Hin as -> ->. rewrite beq_refl. reflexivity.
  - destruct (beq_spec k' k) as [->|_]; [|exact (IH N' Hin)]. exfalso. apply Hx. apply in_map_iff. exists (k, v). split; [reflexivity|exact Hin].
Qed.
Lemma aget_some {A} (m : list (bytes * A)) k v : aget m k = Some v -> In (k, v) m.
Proof. induction m as [|(k' & v') m IH]; [discriminate|]. cbn [aget]. destruct (beq_spec k' k) as [->|_]; [intros [= ->]; left; reflexivity|intros H; right; exact (IH H)]. Qed.
Lemma aget_none {A} (m : list (bytes * A)) k : aget m k = None <-> ~ In k (map fst m).
Proof.
  induction m as [|(k' & v') m IH]; cbn [aget map fst In]; [tauto|]. destruct (beq_spec k' k) as [->|Hn]; [split; [discriminate|intros X; exfalso; apply X; left; reflexivity]|].
  rewrite IH. split; [intros X [E|E]; [congruence|contradiction]|intros X E; apply X; right; exact E].
Qed.
Lemma vals_aset m k l name : vals (aset m k l) name = if beq k name then l else vals m name.
Proof.
  unfold vals. destruct (beq_spec k name) as [->|Hn]; [rewrite aget_aset_same; reflexivity|rewrite aget_aset_other by congruence; reflexivity].
Qed.
Lemma vals_add_all from : forall into name, is_map from -> vals (add_all into from) name = vals into name ++ vals from name.
Proof.
  induction from as [|(k & l) from IH]; intros into name N; [rewrite app_nil_r; reflexivity|]. inversion N as [|x y Hx N' E]; subst.
  unfold add_all in *. cbn [fold_left fst snd]. rewrite IH by exact N'. rewrite vals_aset. assert (C : vals ((k, l) :: from) name = if beq k name then l else vals from name) by (unfold vals; cbn [aget]; destruct (beq k name); reflexivity). rewrite C. clear C.
  destruct (beq_spec k name) as [->|Hn]; [|reflexivity]. fold (vals into name). assert (V : vals from name = []) by (unfold vals; rewrite (proj2 (aget_none from name) Hx); reflexivity).
  rewrite V, app_nil_r. reflexivity.
Qed.
Lemma vals_nil name : vals [] name = [].
Proof. reflexivity. Qed.
Lemma vals_calc query route form name : is_map query -> is_map route -> is_map form ->
  vals (calc_values query route form) name = vals query name ++ vals route name ++ vals form name.
Proof.
  intros Nq Nr Nf. unfold calc_values.
  assert (Z : forall m : values, List.length m = 0 -> m = []) by (intros [|? ?]; [reflexivity|discriminate]).
  destruct (Nat.eqb_spec (List.length query + List.length route + List.length form) 0) as [E|_].
  { rewrite (Z query), (Z route), (Z form) by lia. reflexivity. }
  destruct (Nat.eqb_spec (List.length query + List.length route + List.length form) (List.length query)) as [E|_].
  { rewrite (Z route), (Z form) by lia. rewrite vals_nil, !app_nil_r. reflexivity. }
  destruct (Nat.eqb_spec (List.length query + List.length route + List.length form) (List.length route)) as [E|_].
  { rewrite (Z query), (Z form) by lia. rewrite vals_nil, !app_nil_r. reflexivity. }
  destruct (Nat.eqb_spec (List.length query + List.length route + List.length form) (List.length form)) as [E|_].
  { rewrite (Z query), (Z route) by lia. rewrite vals_nil. reflexivity. }
  rewrite !vals_add_all by assumption. rewrite vals_nil, app_assoc. reflexivity.
Qed.

(** ** C63: the unified values *)
(** the values submitted in the body *)
Definition body_vals (b : body) (name : bytes) : list bytes :=
  match b with BUrlencoded (Some m) => vals m name | BMultipart (Some (m, _)) => vals m name | _ => [] end.
Definition body_map (b : body) : Prop := match b with BUrlencoded (Some m) => is_map m | BMultipart (Some (m, _)) => is_map m | _ => True end.
Definition urlencoded (b : body) : bool := match b with BUrlencoded _ => true | _ => false end.

Lemma aset_keys {A} (m : list (bytes * A)) k v : forall x, In x (map fst (aset m k v)) -> x = k \/ In x (map fst m).
Proof.
  induction m as [|(k' & v') m IH]; intros x; cbn [aset map fst In]; [intros [<-|[]]; left; reflexivity|].
  destruct (beq_spec k' k) as [->|Hn]; cbn [map fst In]; [tauto|]. intros [<-|H]; [tauto|]. destruct (IH x H); tauto.
Qed.
Lemma aset_is_map {A} (m : list (bytes * A)) k v : is_map m -> is_map (aset m k v).
Proof.
  unfold is_map. induction m as [|(k' & v') m IH]; intros N; cbn [aset map fst]; [repeat constructor; intros []|]. inversion N as [|x l Hx N']; subst.
  destruct (beq_spec k' k) as [->|Hn]; cbn [map fst]; constructor; [exact Hx|exact N'| |exact (IH N')]. intros H. apply aset_keys in H as [H|H]; [congruence|contradiction].
Qed.
Lemma add_all_is_map from : forall into, is_map into -> is_map (add_all into from).
Proof. induction from as [|kv from IH]; intros into N; [exact N|]. unfold add_all in *. cbn [fold_left]. apply IH, aset_is_map, N. Qed.

(** Every name's values are the query's, the route's, then the body's; a url-encoded body
    brings the query's values a second time *)
Theorem C63_unified_values : forall query route ok b vs files name,
  is_map query -> is_map route -> body_map b -> parse_params query route ok b = Some (vs, files) ->
  vals vs name = vals query name ++ vals route name ++ body_vals b name ++ (if urlencoded b then vals query name else []).
Proof.
  intros query route ok b vs files name Nq Nr Nb H.
  assert (N0 : is_map (@nil (bytes * list bytes))) by constructor.
  destruct b as [[posted|]|[(posted & fl)|]|]; cbn [parse_params] in H; try discriminate; try (destruct ok; [|discriminate]); injection H as <- <-; cbn [body_vals urlencoded body_map] in *.
  - rewrite vals_calc; [|exact Nq|exact Nr|apply add_all_is_map, add_all_is_map, N0]. unfold http_form. rewrite !vals_add_all by assumption. rewrite vals_nil. reflexivity.
  - rewrite vals_calc by assumption. rewrite app_nil_r. reflexivity.
  - rewrite vals_calc by assumption. reflexivity.
Qed.
Example C63_case : exists vs files,
  parse_params [(bs "a", [bs "1"; bs "2"]); (bs "b", [bs "7"])] [(bs "a", [bs "3"])] true (BMultipart (Some ([(bs "a", [bs "4"]); (bs "c", [bs "5"])], [(bs "f", 2)]))) = Some (vs, files) /\
  vals vs (bs "a") = [bs "1"; bs "2"; bs "3"; bs "4"] /\ vals vs (bs "c") = [bs "5"] /\ files = [(bs "f", 2)].
Proof. eexists _, _. split; [vm_compute; reflexivity|]. repeat split; vm_compute; reflexivity. Qed.

(** ** C64: each value once *)
Theorem C64_each_value_once_refuted :
  ~ (forall query route ok b vs files name, is_map query -> is_map route -> body_map b -> parse_params query route ok b = Some (vs, files) ->
     List.length (vals vs name) = List.length (vals query name) + List.length (vals route name) + List.length (body_vals b name)).
Proof.
  intros H. specialize (H [(bs "a", [bs "1"])] [] true (BUrlencoded (Some [])) [(bs "a", [bs "1"; bs "1"])] [] (bs "a")).
  assert (N : is_map [(bs "a", [bs "1"])]) by (repeat constructor; intros []). specialize (H N ltac:(constructor) ltac:(constructor) eq_refl). vm_compute in H. discriminate.
Qed.
Theorem C64_each_value_once_partial : forall query route ok b vs files name,
  is_map query -> is_map route -> body_map b -> parse_params query route ok b = Some (vs, files) ->
  (urlencoded b = true -> vals query name = []) ->
  List.length (vals vs name) = List.length (vals query name) + List.length (vals route name) + List.length (body_vals b name).
Proof.
  intros query route ok b vs files name Nq Nr Nb H Hu. rewrite (C63_unified_values _ _ _ _ _ _ name Nq Nr Nb H). rewrite !app_length.
  destruct (urlencoded b); [rewrite Hu by reflexivity|]; cbn [List.length]; lia.
Qed.
Example C64_case : parse_params [(bs "q", [bs "x"])] [] true (BUrlencoded (Some [(bs "a", [bs "1"])])) = Some ([(bs "q", [bs "x"; bs "x"]); (bs "a", [bs "1"])], []).
Proof. vm_compute. reflexivity. Qed.

(** ** C106: a malformed body does not hide the other parameters *)
(** what Values holds after ParamsParser: nil on errors, which are only logged *)
Definition parsed_vals (query route : values) (ok : bool) (b : body) (name : bytes) : list bytes :=
  match parse_params query route ok b with Some (vs, _) => vals vs name | None => [] end.
Theorem C106_errors_keep_other_params_refuted :
  ~ (forall query route ok b name v, is_map query -> is_map route -> body_map b -> In v (vals route name) -> In v (parsed_vals query route ok b name)).
Proof.
  intros H. specialize (H [] [(bs "id", [bs "7"])] true (BMultipart None) (bs "id") (bs "7")).
  assert (N : is_map [(bs "id", [bs "7"])]) by (repeat constructor; intros []). exact (H ltac:(constructor) N I (or_introl eq_refl)).
Qed.
(** without an error, and for bodies that are not forms whatever the query is, every value is there *)
Theorem C106_errors_keep_other_params_partial : forall query route ok b name v, is_map query -> is_map route -> body_map b ->
  (b = BOther \/ ok = true /\ b <> BUrlencoded None /\ b <> BMultipart None) ->
  In v (vals query name) \/ In v (vals route name) \/ In v (body_vals b name) -> In v (parsed_vals query route ok b name).
Proof.
  intros query route ok b name v Nq Nr Nb Hb Hv. unfold parsed_vals. destruct (parse_params query route ok b) as [(vs & files)|] eqn:E.
  - rewrite (C63_unified_values _ _ _ _ _ _ name Nq Nr Nb E). rewrite !in_app_iff. tauto.
  - exfalso. destruct Hb as [->|(-> & H1 & H2)]; [discriminate|]. destruct b as [[|]|[(? & ?)|]|]; try discriminate; congruence.
Qed.
Example C106_case : parsed_vals [(bs "a", [bs "1"])] [(bs "id", [bs "7"])] false BOther (bs "id") = [bs "7"].
Proof. vm_compute. reflexivity. Qed.

(** *** White space *)
(** blanks: what unicode.IsSpace accepts, in UTF-8 *)
Inductive blanks : bytes -> Prop :=
| bl_nil : blanks []
| bl_ascii : forall c s, In c [" "%char; byte 9; byte 10; byte 11; byte 12; byte 13] -> blanks s -> blanks (c :: s)
| bl_wide : forall u s, In u uspaces -> blanks s -> blanks (u ++ s).
Lemma is_space_in c : is_space c = true <-> In c [" "%char; byte 9; byte 10; byte 11; byte 12; byte 13].
Proof.
  split.
  - intros H. destruct c as [[] [] [] [] [] [] [] []]; vm_compute in H; try discriminate; vm_compute; tauto.
  - intros [<-|[<-|[<-|[<-|[<-|[<-|[]]]]]]]; reflexivity.
Qed.
(** the same with a given list of encodings, as a list of units *)
Definition unit_of (pats : list bytes) (u : bytes) : Prop := (exists c, u = [c] /\ is_space c = true) \/ In u pats.
Lemma blanks_units s : blanks s <-> exists us, Forall (unit_of uspaces) us /\ s = List.concat us.
Proof.
  split.
  - induction 1 as [|c s Hc _ (us & Hu & ->)|u s Hu _ (us & Hus & ->)]; [exists []; split; [constructor|reflexivity]| |].
    + exists ([c] :: us). split; [|reflexivity]. constructor; [|exact Hu]. left. exists c. split; [reflexivity|]. apply is_space_in. exact Hc.
    + exists (u :: us). split; [|reflexivity]. constructor; [right; exact Hu|exact Hus].
  - intros (us & Hu & ->). induction Hu as [|u us [(c & -> & Hc)|Hu] _ IH]; cbn [List.concat]; [constructor| |].
    + apply bl_ascii; [apply is_space_in; exact Hc|exact IH].
    + apply bl_wide; assumption.
Qed.
Definition pats_ok (pats : list bytes) : bool :=
  forallb (fun p => match p with [] => false | a :: _ => negb (is_space a) && negb (graphic a) end && forallb (fun q => negb (has_prefix p q) || beq q p) pats && forallb (fun q => negb (has_prefix q p) || beq q p) pats) pats.
Lemma prefix_of_app a b s t : a ++ s = b ++ t -> has_prefix a b = true \/ has_prefix b a = true.
Proof.
  revert b. induction a as [|x a IH]; intros [|y b] H; cbn [has_prefix]; auto. cbn [List.app] in H. injection H as -> H. rewrite Ascii.eqb_refl. cbn [andb]. apply IH. exact H.
Qed.
Lemma ltrim_unit pats u s : pats_ok pats = true -> unit_of pats u -> ltrim_step pats (u ++ s) = Some s.
Proof.
  intros Hp [(c & -> & Hc)|Hu]; cbn [ltrim_step List.app]; [rewrite Hc; reflexivity|]. unfold pats_ok in Hp. rewrite forallb_forall in Hp. pose proof (Hp u Hu) as H.
  apply andb_true_iff in H as (H & H2). apply andb_true_iff in H as (H0 & H1). destruct u as [|a u]; [discriminate|]. apply andb_true_iff in H0 as (H0 & _). apply negb_true_iff in H0.
  cbn [List.app]. unfold ltrim_step. rewrite H0. change (a :: u ++ s) with ((a :: u) ++ s).
  destruct (find (has_prefix ((a :: u) ++ s)) pats) as [q|] eqn:E.
  - apply find_some in E as (Hq & Eq). apply has_prefix_spec in Eq as (t & Et). rewrite forallb_forall in H1, H2. specialize (H1 q Hq). specialize (H2 q Hq).
    assert (q = a :: u) as ->; [|rewrite skipn_app_len; reflexivity]. destruct (prefix_of_app _ _ _ _ Et) as [X|X].
    + rewrite X in H1. cbn [negb orb] in H1. apply beq_true in H1. exact H1.
    + rewrite X in H2. cbn [negb orb] in H2. apply beq_true in H2. exact H2.
  - exfalso. pose proof (find_none _ _ E (a :: u) Hu) as X. cbn beta in X. rewrite (proj2 (has_prefix_spec _ _)) in X; [discriminate|]. exists s. reflexivity.
Qed.
Lemma ltrim_stop pats n s : pats_ok pats = true -> match s with [] => True | a :: _ => graphic a = true end -> ltrim_fuel pats n s = s.
Proof.
  intros Hp Hs. destruct n as [|n]; [reflexivity|]. cbn [ltrim_fuel]. destruct s as [|a s]; [reflexivity|]. rewrite ltrim_step_graphic; [reflexivity| |exact Hs].
  unfold uspace_free, pats_ok in *. rewrite Forall_forall. rewrite forallb_forall in Hp. intros p Hin. specialize (Hp p Hin). destruct p as [|b q]; [discriminate|]. exists b, q. split; [reflexivity|].
  apply andb_true_iff in Hp as (Hp & _). apply andb_true_iff in Hp as (Hp & _). apply andb_true_iff in Hp as (_ & Hp). apply negb_true_iff in Hp. exact Hp.
Qed.
Lemma ltrim_units pats : pats_ok pats = true -> forall us n s, Forall (unit_of pats) us -> List.length us <= n -> match s with [] => True | a :: _ => graphic a = true end ->
  ltrim_fuel pats n (List.concat us ++ s) = s.
Proof.
  intros Hp. induction us as [|u us IH]; intros n s Hu Hn Hs; [apply ltrim_stop; assumption|]. inversion Hu; subst. destruct n as [|n]; [cbn in Hn; lia|].
  cbn [List.concat ltrim_fuel]. rewrite <- app_assoc, ltrim_unit by assumption. apply IH; [assumption|cbn in Hn; lia|exact Hs].
Qed.
Lemma ltrim_step_unit pats s t : ltrim_step pats s = Some t -> exists u, unit_of pats u /\ s = u ++ t.
Proof.
  destruct s as [|a s]; [discriminate|]. unfold ltrim_step. destruct (is_space a) eqn:Ea; [intros [= <-]; exists [a]; split; [left; exists a; split; [reflexivity|exact Ea]|reflexivity]|].
  destruct (find (has_prefix (a :: s)) pats) as [q|] eqn:E; [|discriminate]. intros [= <-]. apply find_some in E as (Hq & Eq). apply has_prefix_spec in Eq as (t & ->). exists q. rewrite skipn_app_len. split; [right; exact Hq|reflexivity].
Qed.
Lemma ltrim_fuel_units pats n : forall s, exists us, Forall (unit_of pats) us /\ s = List.concat us ++ ltrim_fuel pats n s.
Proof.
  induction n as [|n IH]; intros s; cbn [ltrim_fuel]; [exists []; split; [constructor|reflexivity]|]. destruct (ltrim_step pats s) as [t|] eqn:E; [|exists []; split; [constructor|reflexivity]].
  apply ltrim_step_unit in E as (u & Hu & ->). destruct (IH t) as (us & Hus & Et). exists (u :: us). split; [constructor; assumption|]. cbn [List.concat]. rewrite <- app_assoc, <- Et. reflexivity.
Qed.
Lemma units_rev us : Forall (unit_of uspaces) us <-> Forall (unit_of (map (@rev ascii) uspaces)) (rev (map (@rev ascii) us)).
Proof.
  assert (X : forall u, unit_of uspaces u <-> unit_of (map (@rev ascii) uspaces) (rev u)).
  { intros u. split; intros [(c & E & Hc)|H].
    - left. subst u. exists c. auto.
    - right. apply in_map. exact H.
    - left. exists c. split; [|exact Hc]. apply (f_equal (@rev ascii)) in E. rewrite rev_involutive in E. exact E.
    - right. apply in_map_iff in H as (w & E & Hw). apply (f_equal (@rev ascii)) in E. rewrite !rev_involutive in E. subst u. exact Hw. }
  rewrite !Forall_forall. split; intros H u Hu.
  - apply in_rev in Hu. apply in_map_iff in Hu as (w & <- & Hw). apply X, H, Hw.
  - apply X, H. apply -> in_rev. apply in_map. exact Hu.
Qed.
Lemma concat_rev_units (us : list bytes) : rev (List.concat us) = List.concat (rev (map (@rev ascii) us)).
Proof. induction us as [|u us IH]; [reflexivity|]. cbn [List.concat map rev]. rewrite rev_app_distr, IH, concat_app. cbn [List.concat]. rewrite app_nil_r. reflexivity. Qed.
Lemma units_length pats us : pats_ok pats = true -> Forall (unit_of pats) us -> List.length us <= List.length (List.concat us).
Proof.
  intros Hp Hu. induction Hu as [|u us Hu _ IH]; [cbn; lia|]. cbn [List.concat List.length]. rewrite app_length. assert (1 <= List.length u); [|lia].
  destruct Hu as [(c & -> & _)|Hu]; [cbn; lia|]. unfold pats_ok in Hp. rewrite forallb_forall in Hp. specialize (Hp u Hu). destruct u; [discriminate|cbn; lia].
Qed.
Lemma pats_ok_u : pats_ok uspaces = true.
Proof. vm_compute. reflexivity. Qed.
Lemma pats_ok_r : pats_ok (map (@rev ascii) uspaces) = true.
Proof. vm_compute. reflexivity. Qed.
(** strings.TrimSpace, for words of printable characters *)
Lemma trim_space_word s w : forallb graphic w = true -> w <> [] -> trim_space s = w <-> exists a b, blanks a /\ blanks b /\ s = a ++ w ++ b.
Proof.
  intros Hg Hne. assert (HG : forall c, In c w -> graphic c = true) by (apply forallb_forall; exact Hg). split.
  - intros H. unfold trim_space, trim_left_space, trim_right_space in H. set (l := ltrim_fuel uspaces (List.length s) s) in *.
    destruct (ltrim_fuel_units uspaces (List.length s) s) as (us & Hu & Es). fold l in Es.
    destruct (ltrim_fuel_units (map (@rev ascii) uspaces) (List.length l) (rev l)) as (ur & Hr & El).
    apply (f_equal (@rev ascii)) in H. rewrite rev_involutive in H. rewrite H in El. apply (f_equal (@rev ascii)) in El. rewrite rev_involutive, rev_app_distr, rev_involutive in El.
    exists (List.concat us), (rev (List.concat ur)). split; [apply blanks_units; exists us; auto|]. split; [|rewrite Es at 1; rewrite El; reflexivity].
    rewrite concat_rev_units. apply blanks_units. exists (rev (map (@rev ascii) ur)). split; [|reflexivity]. apply units_rev.
    assert (X : rev (map (@rev ascii) (rev (map (@rev ascii) ur))) = ur); [|rewrite X; exact Hr].
    rewrite map_rev, map_map, rev_involutive. rewrite <- (map_id ur) at 2. apply map_ext. intros x. apply rev_involutive.
  - intros (a & b & Ha & Hb & ->). apply blanks_units in Ha as (ua & Ha & ->). apply blanks_units in Hb as (ub & Hb & ->). unfold trim_space, trim_left_space.
    rewrite (ltrim_units uspaces pats_ok_u ua); [|exact Ha|rewrite app_length; pose proof (units_length _ _ pats_ok_u Ha); lia|destruct w as [|c w]; [congruence|cbn; apply HG; left; reflexivity]].
    unfold trim_right_space. rewrite rev_app_distr, concat_rev_units. apply units_rev in Hb.
    rewrite (ltrim_units _ pats_ok_r _ _ (rev w) Hb); [apply rev_involutive| |].
    + rewrite app_length. pose proof (units_length _ _ pats_ok_r Hb) as X. rewrite <- concat_rev_units, !rev_length, map_length in X. rewrite rev_length, map_length. lia.
    + destruct (rev w) as [|c r] eqn:E; [exact I|]. apply HG. apply in_rev. rewrite E. left. reflexivity.
Qed.
Lemma lower_byte_fix c d : lower_byte c = d -> (code d < 97 \/ 122 < code d) -> c = d.
Proof.
  unfold lower_byte. destruct ((Nat.leb 65 (code c) && Nat.leb (code c) 90)%bool) eqn:E; [|congruence]. apply andb_true_iff in E as (E1 & E2). apply Nat.leb_le in E1, E2.
  intros <-. rewrite code_byte by lia. lia.
Qed.
Lemma blanks_not_lower s c : blanks s -> In c s -> code c < 97 \/ 122 < code c.
Proof.
  induction 1 as [|d s Hd _ IH|u s Hu _ IH]; intros Hin; [destruct Hin| |].
  - destruct Hin as [->|Hin]; [|exact (IH Hin)]. destruct Hd as [<-|[<-|[<-|[<-|[<-|[<-|[]]]]]]]; left; vm_compute; lia.
  - apply in_app_iff in Hin as [Hin|Hin]; [|exact (IH Hin)]. assert (X : forallb (forallb (fun c => Nat.ltb 122 (code c))) uspaces = true) by (vm_compute; reflexivity).
    rewrite forallb_forall in X. specialize (X u Hu). rewrite forallb_forall in X. specialize (X c Hin). apply Nat.ltb_lt in X. right. exact X.
Qed.
Lemma to_lower_fix a : forall b, to_lower a = b -> (forall c, In c b -> code c < 97 \/ 122 < code c) -> a = b.
Proof.
  induction a as [|x a IH]; intros [|y b] H Hb; try discriminate; [reflexivity|]. cbn in H. injection H as H1 H2. f_equal; [apply lower_byte_fix; [exact H1|apply Hb; left; reflexivity]|apply IH; [exact H2|intros c Hc; apply Hb; right; exact Hc]].
Qed.
Lemma to_lower_app a b : to_lower (a ++ b) = to_lower a ++ to_lower b.
Proof. apply map_app. Qed.
Lemma to_lower_blanks a : blanks a -> to_lower a = a.
Proof.
  intros H. unfold to_lower. rewrite <- (map_id a) at 2. apply map_ext_in. intros c Hc. unfold lower_byte. destruct ((Nat.leb 65 (code c) && Nat.leb (code c) 90)%bool) eqn:E; [|reflexivity]. exfalso.
  apply andb_true_iff in E as (E1 & E2). apply Nat.leb_le in E1, E2. revert Hc. induction H as [|d s Hd _ IH|u s Hu _ IH]; intros Hin; [destruct Hin| |].
  - destruct Hin as [->|Hin]; [|exact (IH Hin)]. destruct Hd as [<-|[<-|[<-|[<-|[<-|[<-|[]]]]]]]; vm_compute in E1; lia.
  - apply in_app_iff in Hin as [Hin|Hin]; [|exact (IH Hin)]. assert (X : forallb (forallb (fun c => Nat.ltb 122 (code c))) uspaces = true) by (vm_compute; reflexivity).
    rewrite forallb_forall in X. specialize (X u Hu). rewrite forallb_forall in X. specialize (X c Hin). apply Nat.ltb_lt in X. lia.
Qed.

Section Bindings.
  Variable F T : Type.
  Variable fzero : F.
  Variable tzero : T.
  Variable parse_float : bytes -> option F.
  Variable round_float : nat -> F -> F.
  Variable formats : list bytes.
  Variable parse_zone parse_local : bytes -> bytes -> option T.
  Variable unix : Z -> T.
  Variable json_map : bytes -> list (bytes * bytes).
  Notation binds := (binds F T fzero tzero parse_float round_float formats parse_zone parse_local unix json_map).
  Notation pval := (pval F T).
  Notation PVInt := (PVInt F T).
  Notation PVUint := (PVUint F T).
  Notation PVStr := (PVStr F T).
  Notation PVBool := (PVBool F T).
  Notation PVSlice := (PVSlice F T).
  Notation PVPtr := (PVPtr F T).
  Notation PVNil := (PVNil F T).
  Notation PVMap := (PVMap F T).
  Notation PVStruct := (PVStruct F T).
  Notation pzero := (pzero F T fzero tzero).

  Definition scalar (t : pty) : bool := match t with PBool | PInt _ | PUint _ | PFloat _ | PString | PTime => true | _ => false end.
  (** C63: of a name's values the first alone is bound, under whatever name and with whatever other parameters *)
  Theorem C63_first_value_is_bound : forall t p name r, scalar t = true -> binds t p name r ->
    match vals (p_vals p) name with
    | [] => r = Ok (pzero t)
    | v :: _ => binds t (mkParams [([], [v])] []) [] r
    end.
  Proof.
    intros t p name r Hs H. unfold vals. destruct t; try discriminate; cbn [ParamsModel.binds] in *; unfold value_binder in *; subst r; destruct (aget (p_vals p) name) as [[|v l]|]; reflexivity.
  Qed.
  (** and a string is bound unchanged *)
  Theorem C63_string : forall p name r, binds PString p name r -> r = Ok (PVStr (hd [] (vals (p_vals p) name))).
  Proof. intros p name r H. cbn in H. unfold value_binder in H. subst r. unfold vals. destruct (aget (p_vals p) name) as [[|v l]|]; reflexivity. Qed.

  (** ** C65: integers *)
  (** what a decimal string binds to *)
  Definition given1 (v : bytes) : params := mkParams [([], [v])] [].
  Lemma int_denotes_nonnil s n : int_denotes s n -> s <> [].
  Proof. intros H. inversion H as [x m Hm|x m Hm|x m Hm]; subst; try discriminate. apply nat_denotes_head in Hm as (c & y & -> & _). discriminate. Qed.
  Lemma wrap_int_fits w z : fits_int w z -> 1 <= w -> wrap_int w z = z.
  Proof.
    unfold fits_int, wrap_int. intros H Hw. assert (P : (2 ^ Z.of_nat w = 2 * 2 ^ (Z.of_nat w - 1))%Z) by (rewrite <- Z.pow_succ_r by lia; f_equal; lia).
    rewrite Z.mod_small by lia. lia.
  Qed.
  Lemma wrap_int_range w z : 1 <= w -> fits_int w (wrap_int w z) /\ exists k, (z = wrap_int w z + k * 2 ^ Z.of_nat w)%Z.
  Proof.
    unfold fits_int, wrap_int. intros Hw. assert (P : (2 ^ Z.of_nat w = 2 * 2 ^ (Z.of_nat w - 1))%Z) by (rewrite <- Z.pow_succ_r by lia; f_equal; lia).
    pose proof (Z.pow_pos_nonneg 2 (Z.of_nat w - 1) ltac:(lia) ltac:(lia)) as Q.
    pose proof (Z.mod_pos_bound (z + 2 ^ (Z.of_nat w - 1)) (2 ^ Z.of_nat w) ltac:(lia)) as B. split; [lia|].
    exists ((z + 2 ^ (Z.of_nat w - 1)) / 2 ^ Z.of_nat w)%Z. pose proof (Z.div_mod (z + 2 ^ (Z.of_nat w - 1)) (2 ^ Z.of_nat w) ltac:(lia)) as D. lia.
  Qed.
  (** what BindValue gives for an intw: the number denoted, reduced modulo 2^w to the type's range; 0 for everything that is not a 64-bit number *)
  Theorem C65_integer_binding_exact_form : forall w v r, 1 <= w -> binds (PInt w) (given1 v) [] r ->
    (exists n m, int_denotes v n /\ fits_int 64 n /\ r = Ok (PVInt m) /\ fits_int w m /\ (exists k, n = m + k * 2 ^ Z.of_nat w)%Z) \/
    ((forall n, int_denotes v n -> ~ fits_int 64 n) /\ r = Ok (PVInt 0)).
  Proof.
    intros w v r Hw H. cbn in H. unfold value_binder in H. cbn in H. unfold bind_int in H. destruct (parse_int 64 v) as (z & [e|]) eqn:E.
    - right. split; [|destruct (is_nil v); exact H]. intros n Hd Hf. assert (X : parse_int 64 v = (n, None)) by (apply parse_int_ok; [lia|split; [exact Hd|exact Hf]]). rewrite E in X. discriminate.
    - apply parse_int_ok in E as (Hd & Hf); [|lia]. left. exists z, (wrap_int w z). destruct (wrap_int_range w z Hw) as (A & B).
      assert (N : is_nil v = false) by (pose proof (int_denotes_nonnil _ _ Hd); destruct v; [congruence|reflexivity]). rewrite N in H. repeat split; try assumption; apply A || apply Hf.
  Qed.
  Theorem C65_uint_binding_exact_form : forall w v r, binds (PUint w) (given1 v) [] r ->
    (exists n m, nat_denotes v n /\ fits_uint 64 n /\ r = Ok (PVUint m) /\ fits_uint w m /\ (exists k, n = m + k * 2 ^ Z.of_nat w)%Z) \/
    ((forall n, nat_denotes v n -> ~ fits_uint 64 n) /\ r = Ok (PVUint 0)).
  Proof.
    intros w v r H. cbn in H. unfold value_binder in H. cbn in H. unfold bind_uint in H. destruct (parse_uint 64 v) as (z & [e|]) eqn:E.
    - right. split; [|destruct (is_nil v); exact H]. intros n Hd Hf. assert (X : parse_uint 64 v = (n, None)) by (apply parse_uint_ok; [lia|split; [exact Hd|apply Hf]]). rewrite E in X. discriminate.
    - apply parse_uint_ok in E as (Hd & Hf); [|lia]. left. exists z, (wrap_uint w z). pose proof (Z.pow_pos_nonneg 2 (Z.of_nat w) ltac:(lia) ltac:(lia)) as Q.
      assert (N : is_nil v = false) by (apply nat_denotes_head in Hd as (c & y & -> & _); reflexivity). rewrite N in H.
      split; [exact Hd|]. split; [split; [exact (nat_denotes_nonneg _ _ Hd)|exact Hf]|]. split; [exact H|]. unfold wrap_uint, fits_uint. split; [apply Z.mod_pos_bound; exact Q|].
      exists (z / 2 ^ Z.of_nat w)%Z. pose proof (Z.div_mod z (2 ^ Z.of_nat w) ltac:(lia)). lia.
  Qed.
  (** the documented behaviour: the number if it fits, the zero value otherwise *)
  Definition int_documented (w : nat) (v : bytes) (r : res pval) : Prop :=
    (exists n, int_denotes v n /\ fits_int w n /\ r = Ok (PVInt n)) \/ ((forall n, int_denotes v n -> ~ fits_int w n) /\ r = Ok (PVInt 0)).
  Theorem C65_integer_binding_refuted : ~ (forall w v r, 1 <= w -> binds (PInt w) (given1 v) [] r -> int_documented w v r).
  Proof.
    intros H. specialize (H 8 (bs "300") (Ok (PVInt 44)) ltac:(lia) eq_refl).
    assert (D : int_denotes (bs "300") 300) by (apply (parse_int_ok 64 (bs "300") 300 ltac:(lia)); vm_compute; reflexivity).
    destruct H as [(n & Hd & Hf & E)|(Hn & E)]; [|discriminate E]. injection E as <-.
    assert (X : parse_int 64 (bs "300") = (44%Z, None)) by (apply parse_int_ok; [lia|]; split; [exact Hd|split; vm_compute; [discriminate|reflexivity]]). vm_compute in X. discriminate.
  Qed.
  Theorem C65_integer_binding_partial : forall w v r, 1 <= w -> binds (PInt w) (given1 v) [] r ->
    w = 64 \/ (forall n, int_denotes v n -> fits_int w n) -> w <= 64 -> int_documented w v r.
  Proof.
    intros w v r Hw H Hc Hl. destruct (C65_integer_binding_exact_form w v r Hw H) as [(n & m & Hd & Hf & -> & Hm & k & E)|(Hn & ->)].
    - assert (Fw : fits_int w n) by (destruct Hc as [->|Hc]; [exact Hf|exact (Hc n Hd)]).
      left. exists n. split; [exact Hd|]. split; [exact Fw|]. do 2 f_equal. unfold fits_int in *. assert (P : (2 ^ Z.of_nat w = 2 * 2 ^ (Z.of_nat w - 1))%Z) by (rewrite <- Z.pow_succ_r by lia; f_equal; lia).
      rewrite P in E. set (q := (2 ^ (Z.of_nat w - 1))%Z) in *. clearbody q. clear P Hf Hd H Hc. destruct (Z.lt_trichotomy k 0) as [X|[X|X]]; nia.
    - right. split; [|reflexivity]. intros n Hd Hf. apply (Hn n Hd). unfold fits_int in *. pose proof (Z.pow_le_mono_r 2 (Z.of_nat w - 1) (Z.of_nat 64 - 1) ltac:(lia) ltac:(lia)). lia.
  Qed.
  Example C65_case : binds (PInt 8) (given1 (bs "-128")) [] (Ok (PVInt (-128))) /\ binds (PInt 32) (given1 (bs "12a")) [] (Ok (PVInt 0)) /\ binds (PUint 8) (given1 (bs "256")) [] (Ok (PVUint 0)).
  Proof. repeat split; vm_compute; reflexivity. Qed.

  (** ** C66: booleans *)
  (** the documented spellings of true: true, on and 1, in any case, possibly with white space around *)
  Definition says_true (v : bytes) : Prop := exists a w b, blanks a /\ blanks b /\ v = a ++ w ++ b /\ In (to_lower w) [bs "true"; bs "on"; bs "1"].
  Theorem C66_bool_binding : forall v r, binds PBool (given1 v) [] r -> (says_true v /\ r = Ok (PVBool true)) \/ (~ says_true v /\ r = Ok (PVBool false)).
  Proof.
    intros v r H. cbn [ParamsModel.binds] in H. unfold value_binder in H. cbn [given1 p_vals aget] in H. rewrite beq_refl in H. unfold bind_bool in H.
    assert (X : forall w, forallb graphic w = true -> w <> [] -> trim_space (to_lower v) = w <-> exists a w0 b, blanks a /\ blanks b /\ v = a ++ w0 ++ b /\ to_lower w0 = w).
    { intros w Hg Hn. rewrite trim_space_word by assumption. split.
      - intros (a & b & Ha & Hb & E). unfold to_lower in E. apply map_eq_app in E as (a0 & r0 & -> & Ea & E). apply map_eq_app in E as (w0 & b0 & -> & Ew & Eb).
        assert (a0 = a) as -> by (apply to_lower_fix; [exact Ea|intros c; apply blanks_not_lower; exact Ha]). assert (b0 = b) as -> by (apply to_lower_fix; [exact Eb|intros c; apply blanks_not_lower; exact Hb]).
        exists a, w0, b. auto.
      - intros (a & w0 & b & Ha & Hb & -> & <-). exists a, b. split; [exact Ha|]. split; [exact Hb|]. rewrite !to_lower_app, (to_lower_blanks a Ha), (to_lower_blanks b Hb). reflexivity. }
    assert (Y : says_true v <-> trim_space (to_lower v) = bs "true" \/ trim_space (to_lower v) = bs "on" \/ trim_space (to_lower v) = bs "1").
    { rewrite (X (bs "true") eq_refl ltac:(discriminate)), (X (bs "on") eq_refl ltac:(discriminate)), (X (bs "1") eq_refl ltac:(discriminate)). unfold says_true. split.
      - intros (a & w & b & Ha & Hb & E & [Hw|[Hw|[Hw|[]]]]); [left|right; left|right; right]; exists a, w, b; auto.
      - intros [H1|[H1|H1]]; destruct H1 as (a & w & b & Ha & Hb & E & Hw); exists a, w, b; (split; [exact Ha|split; [exact Hb|split; [exact E|]]]); rewrite Hw; vm_compute; tauto. }
    destruct (beq_spec (trim_space (to_lower v)) (bs "true")) as [E|N1]; [left; split; [apply Y; left; exact E|exact H]|].
    destruct (beq_spec (trim_space (to_lower v)) (bs "on")) as [E|N2]; [left; split; [apply Y; right; left; exact E|exact H]|].
    destruct (beq_spec (trim_space (to_lower v)) (bs "1")) as [E|N3]; [left; split; [apply Y; right; right; exact E|exact H]|].
    right. split; [rewrite Y; tauto|exact H].
  Qed.
  Example C66_case : binds PBool (given1 (byte 9 :: bs " TrUe " ++ [byte 194; byte 160])) [] (Ok (PVBool true)) /\ binds PBool (given1 (bs "yes")) [] (Ok (PVBool false)).
  Proof. split; vm_compute; reflexivity. Qed.
End Bindings.

(** ** C109: uploaded files *)
Theorem C109_uploads_can_be_read_refuted :
  ~ (forall max files, let (us, disk) := params_parser_files max files in map (open_read disk) us = map Some files).
Proof. intros H. specialize (H 3 [bs "abc"; bs "def"]). vm_compute in H. discriminate. Qed.
Lemma store_small : forall files budget next, list_sum (map (@List.length ascii) files) <= budget -> store budget next files = (map InMemory files, []).
Proof.
  induction files as [|c files IH]; intros budget next H; [reflexivity|]. cbn [map] in H. change (list_sum (List.length c :: map (@List.length ascii) files)) with (List.length c + list_sum (map (@List.length ascii) files)) in H.
  cbn [store]. replace (Nat.leb (List.length c) budget) with true by (symmetry; apply Nat.leb_le; lia). rewrite IH by lia. reflexivity.
Qed.
(** uploads that fit into the memory budget can be read ... *)
Theorem C109_uploads_can_be_read_partial : forall max files, list_sum (map (@List.length ascii) files) <= max ->
  let (us, disk) := params_parser_files max files in map (open_read disk) us = map Some files.
Proof. intros max files H. unfold params_parser_files. rewrite store_small by exact H. rewrite map_map. reflexivity. Qed.
(** ... and no file that does not fit: it is gone before the handler runs *)
Theorem C109_uploads_on_disk_are_gone : forall max files us disk n, params_parser_files max files = (us, disk) -> In (OnDisk n) us -> open_read disk (OnDisk n) = None.
Proof.
  intros max files us disk n H Hin. unfold params_parser_files in H. destruct (store max 0 files) as (us' & d). injection H as -> <-. cbn [open_read].
  destruct (find (fun d0 : nat * bytes => Nat.eqb (fst d0) n) (remove_all us d)) as [(m & c)|] eqn:E; [|reflexivity]. exfalso. apply find_some in E as (Hd & Hm). apply Nat.eqb_eq in Hm. cbn [fst] in Hm. subst m.
  unfold remove_all in Hd. apply filter_In in Hd as (_ & Hd). apply negb_true_iff in Hd. assert (X : existsb (fun u => match u with OnDisk k => Nat.eqb k (fst (n, c)) | _ => false end) us = true).
  { apply existsb_exists. exists (OnDisk n). split; [exact Hin|]. cbn. apply Nat.eqb_refl. } congruence.
Qed.
(** in particular a single file over the budget *)
Theorem C109_big_upload_is_lost : forall max c, max < List.length c -> let (us, disk) := params_parser_files max [c] in map (open_read disk) us = [None].
Proof.
  intros max c H. unfold params_parser_files, store. replace (Nat.leb (List.length c) max) with false by (symmetry; apply Nat.leb_gt; exact H). reflexivity.
Qed.
Example C109_case : params_parser_files 4 [bs "abc"; bs "de"; bs "f"] = ([InMemory (bs "abc"); OnDisk 0; InMemory (bs "f")], []).
Proof. vm_compute. reflexivity. Qed.

(** ** C84: real.go *)
(** host:port, the host being in brackets if it contains colons *)
Inductive host_port : bytes -> bytes -> Prop :=
| hp_plain : forall host port, ~ In ":"%char host -> host <> [] -> host <> bs "[" -> ~ In ":"%char port -> host_port (host ++ bs ":" ++ port) host
| hp_v6 : forall host port, In ":"%char host -> ~ In ":"%char port -> host_port (bs "[" ++ host ++ bs "]:" ++ port) host.
Lemma first_part_app sep s t : ~ In sep s -> first_part sep (s ++ sep :: t) = s.
Proof. intros H. unfold first_part. rewrite split_byte_app by exact H. reflexivity. Qed.
Lemma first_part_clean sep s : ~ In sep s -> first_part sep s = s.
Proof. intros H. unfold first_part. rewrite split_byte_nosep by exact H. reflexivity. Qed.
Theorem C84_real_ip_refuted : ~ (forall remote host, host_port remote host -> real_ip [] [] remote = host).
Proof.
  intros H. specialize (H (bs "[2001:db8::1]:80") (bs "2001:db8::1")). assert (X : host_port (bs "[2001:db8::1]:80") (bs "2001:db8::1")).
  { apply (hp_v6 (bs "2001:db8::1") (bs "80")); [vm_compute; tauto|]. intros X. vm_compute in X. repeat destruct X as [X|X]; try discriminate X; exact X. }
  apply H in X. vm_compute in X. discriminate.
Qed.
(** IPv4 and host names; X-Forwarded-For's first address, X-Real-Ip before both *)
Theorem C84_real_ip_partial : forall real fwd remote,
  (real <> [] -> real_ip real fwd remote = real) /\
  (forall host rest, ~ In ","%char host -> ~ In ":"%char host -> host <> [] -> fwd = host \/ fwd = host ++ bs "," ++ rest \/ (exists port, ~ In ","%char port /\ fwd = host ++ bs ":" ++ port ++ bs "," ++ rest) -> real_ip [] fwd remote = host) /\
  (forall host, host_port remote host -> ~ In ":"%char host -> real_ip [] [] remote = host).
Proof.
  intros real fwd remote. split; [|split].
  - intros H. unfold real_ip. destruct real; [congruence|reflexivity].
  - intros host rest Hc Hp Hn H. unfold real_ip. cbn [is_nil negb]. assert (E : first_part ","%char fwd = host \/ exists port, first_part ","%char fwd = host ++ ":"%char :: port).
    { destruct H as [->|[->|(port & Hport & ->)]]; [left; apply first_part_clean; exact Hc|left; apply first_part_app; exact Hc|]. right. exists port.
      replace (host ++ bs ":" ++ port ++ bs "," ++ rest) with ((host ++ ":"%char :: port) ++ ","%char :: rest) by (rewrite <- app_assoc; reflexivity). apply first_part_app.
      intros X. apply in_app_iff in X as [X|[X|X]]; [contradiction|discriminate|contradiction]. }
    destruct E as [->|(port & ->)].
    + destruct host as [|c host]; [congruence|]. cbn [is_nil negb]. apply first_part_clean. exact Hp.
    + destruct host as [|c host]; [congruence|]. cbn [is_nil negb List.app]. change (c :: host ++ ":"%char :: port) with ((c :: host) ++ ":"%char :: port). apply first_part_app. exact Hp.
  - intros host H Hn. destruct H as [host port H1 H2 H3 H4|host port H1 H4]; [|contradiction]. unfold real_ip. cbn [is_nil negb]. change (first_part ","%char []) with (@nil ascii). cbn [is_nil negb].
    change (host ++ bs ":" ++ port) with (host ++ ":"%char :: port). rewrite first_part_app by exact H1. destruct (beq_spec host (bs "[")); [contradiction|]. reflexivity.
Qed.
Theorem C84_real_host_partial : forall fwd host h, (fwd <> [] -> fwd = h \/ exists port, fwd = h ++ bs ":" ++ port) -> (fwd = [] -> host = h \/ exists port, host = h ++ bs ":" ++ port) -> ~ In ":"%char h -> real_host fwd host = h.
Proof.
  intros fwd host h H1 H2 Hc. unfold real_host. assert (E : forall x, (x = h \/ exists port, x = h ++ bs ":" ++ port) -> first_part ":"%char x = h).
  { intros x [->|(port & ->)]; [apply first_part_clean; exact Hc|]. apply first_part_app. exact Hc. }
  destruct fwd as [|c fwd]; cbn [is_nil]; apply E; [apply H2; reflexivity|apply H1; discriminate].
Qed.
Theorem C84_real_host_refuted : ~ (forall host h, host_port host h -> real_host [] host = h).
Proof.
  intros H. specialize (H (bs "[::1]:80") (bs "::1")). assert (X : host_port (bs "[::1]:80") (bs "::1")).
  { apply (hp_v6 (bs "::1") (bs "80")); [vm_compute; tauto|]. intros X. vm_compute in X. repeat destruct X as [X|X]; try discriminate X; exact X. }
  apply H in X. vm_compute in X. discriminate.
Qed.
Example C84_case : real_ip [] (bs "10.0.0.1:99, 10.0.0.2") (bs "1.2.3.4:5") = bs "10.0.0.1" /\ real_ip [] [] (bs "1.2.3.4:5") = bs "1.2.3.4" /\ real_ip [] [] (bs "[::1]:80") = bs "127.0.0.1".
Proof. repeat split; vm_compute; reflexivity. Qed.

Print Assumptions C63_unified_values.
Print Assumptions C64_each_value_once_refuted.
Print Assumptions C64_each_value_once_partial.
Print Assumptions C106_errors_keep_other_params_refuted.
Print Assumptions C106_errors_keep_other_params_partial.
Print Assumptions C63_first_value_is_bound.
Print Assumptions C63_string.
Print Assumptions C65_integer_binding_exact_form.
Print Assumptions C65_uint_binding_exact_form.
Print Assumptions C65_integer_binding_refuted.
Print Assumptions C65_integer_binding_partial.
Print Assumptions C66_bool_binding.
Print Assumptions C109_uploads_can_be_read_refuted.
Print Assumptions C109_uploads_can_be_read_partial.
Print Assumptions C109_uploads_on_disk_are_gone.
Print Assumptions C109_big_upload_is_lost.
Print Assumptions C84_real_ip_refuted.
Print Assumptions C84_real_ip_partial.
Print Assumptions C84_real_host_partial.
Print Assumptions C84_real_host_refuted.
