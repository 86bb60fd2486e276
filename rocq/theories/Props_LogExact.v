(** Props_LogExact: C116 as an equation: what every log call prints after every history. *)
From Coq Require Import List Ascii String Bool Arith ZArith Lia.
Import ListNotations.
From Verif Require Import GoStr RouterModel LogModel Props_Log.
Local Open Scope Z_scope.

(** *** Specification *)
(** the methods of a logger, their level, tag and colour *)
Definition table : list (bytes * Z * bytes * bytes) :=
  [(bs "Emergency", 1, bs "[EMERGENCY]", bs "37"); (bs "Alert", 2, bs "[ALERT]", bs "36");
   (bs "Critcial", 3, bs "[CRITCIAL]", bs "35"); (bs "Error", 4, bs "[ERROR]", bs "31");
   (bs "Warn", 5, bs "[WARN]", bs "33"); (bs "Notice", 6, bs "[NOTICE]", bs "32");
   (bs "Info", 7, bs "[INFO]", bs "34"); (bs "Debug", 8, bs "[DEBUG]", bs "30")].
(** the file name with short lines: what follows the first /src/, if there is one *)
Definition after_src (file f : bytes) : Prop :=
  (exists a, file = a ++ bs "/src/" ++ f /\ forall x y, file = x ++ bs "/src/" ++ y -> (List.length a <= List.length x)%nat) \/
  (f = file /\ forall x y, file <> x ++ bs "/src/" ++ y).
Lemma index_sub_first s sub i : index_sub s sub = Some i ->
  exists a b, s = a ++ sub ++ b /\ i = List.length a /\ forall x y, s = x ++ sub ++ y -> (List.length a <= List.length x)%nat.
Proof.
  revert i. induction s as [|c s IH]; intros i; cbn [index_sub].
  - destruct (has_prefix [] sub) eqn:E; [|discriminate]. intros [= <-]. apply has_prefix_spec in E as (r & E). exists [], r. split; [exact E|]. split; [reflexivity|]. intros; cbn; lia.
  - destruct (has_prefix (c :: s) sub) eqn:E.
    + intros [= <-]. apply has_prefix_spec in E as (r & E). exists [], r. split; [exact E|]. split; [reflexivity|]. intros; cbn; lia.
    + destruct (index_sub s sub) as [j|] eqn:J; [|discriminate]. cbn [option_map]. intros [= <-].
      destruct (IH j eq_refl) as (a & b & -> & -> & M). exists (c :: a), b. split; [reflexivity|]. split; [reflexivity|].
      intros [|d x] y H.
      * cbn [List.app] in H. exfalso. assert (has_prefix (c :: a ++ sub ++ b) sub = true); [|congruence]. apply has_prefix_spec. eexists. exact H.
      * cbn [List.app] in H. injection H as _ H. specialize (M x y H). cbn [List.length]. lia.
Qed.
Lemma index_sub_none s sub x y : index_sub s sub = None -> s <> x ++ sub ++ y.
Proof.
  revert x. induction s as [|c s IH]; intros x; cbn [index_sub].
  - destruct (has_prefix [] sub) eqn:E; [discriminate|]. intros _ H. assert (x = []) as -> by (destruct x; [reflexivity|discriminate H]).
    assert (has_prefix [] sub = true); [|congruence]. apply has_prefix_spec. eexists. exact H.
  - destruct (has_prefix (c :: s) sub) eqn:E; [discriminate|]. destruct (index_sub s sub) eqn:J; [discriminate|]. intros _ H.
    destruct x as [|d x]; [assert (has_prefix (c :: s) sub = true); [|congruence]; apply has_prefix_spec; eexists; exact H|].
    cbn [List.app] in H. injection H as _ H. exact (IH x eq_refl H).
Qed.
Lemma after_src_of file : after_src file (last (split2_sub file (bs "/src/")) file).
Proof.
  unfold split2_sub. destruct (index_sub file (bs "/src/")) as [i|] eqn:E; cbn [last].
  - left. destruct (index_sub_first _ _ _ E) as (a & b & H & -> & M). exists a. split; [|exact M]. rewrite H at 1.
    f_equal. f_equal. rewrite H, app_assoc. rewrite <- app_length. symmetry. apply skipn_app_len.
  - right. split; [reflexivity|]. intros x y. now apply index_sub_none.
Qed.
Lemma after_src_fun file f g : after_src file f -> after_src file g -> f = g.
Proof.
  intros [(a & A & MA)|(A & MA)] [(b & B & MB)|(B & MB)]; try congruence; try (exfalso; eapply MA; eassumption); try (exfalso; eapply MB; eassumption).
  assert (L : List.length a = List.length b) by (pose proof (MA _ _ B); pose proof (MB _ _ A); unfold bytes in *; lia).
  assert (E : skipn (List.length a) file = skipn (List.length b) file) by (unfold bytes in *; congruence).
  rewrite A in E at 1. rewrite B in E. unfold bytes in *. rewrite !skipn_app_len in E. apply app_inv_head in E. exact E.
Qed.

Section Log.
  Context {V : Type}.
  Variable sprintf : bytes -> list (arg V) -> bytes.
  Variable sprintln : list (arg V) -> bytes.
  Variable caller : Z -> option (bytes * bytes).
  Variable stack_text : Z -> bytes.
  Notation lrun := (lrun V sprintf sprintln caller stack_text).
  Notation lstep := (lstep V sprintf sprintln caller stack_text).

  Definition depth_now := latest (V := V) (fun o => match o with LSetDepth _ n => Some n | _ => None end) 4.
  Definition short_now := latest (V := V) (fun o => match o with LSetShort _ n => Some n | _ => None end) false.
  (** the arguments to be formatted, and the LineOpt: the last argument if it is one; its
      depth counts on top of the logger's *)
  Inductive arguments (hist : list (lop V)) : list (arg V) -> list (arg V) -> line_opt -> Prop :=
  | ar_opt args d s h : arguments hist (args ++ [AOpt (LineOpt d s h)]) args (LineOpt (d + depth_now hist) s h)
  | ar_no args : (forall xs o, args <> xs ++ [AOpt o]) -> arguments hist args args (LineOpt (depth_now hist) false false).
  (** the position *)
  Inductive position (hist : list (lop V)) (o : line_opt) : bytes -> Prop :=
  | po_off : line_now hist = false \/ o_hidden o = true \/ o_depth o <= 0 \/ caller (o_depth o) = None -> position hist o []
  | po_on file line f : line_now hist = true -> o_hidden o = false -> 0 < o_depth o -> caller (o_depth o) = Some (file, line) ->
      (if short_now hist then after_src file f else f = file) -> position hist o (bs "[""" ++ f ++ bs ":" ++ line ++ bs """]").
  (** the line, before flat mode *)
  Inductive text_of (id : option bytes) (hist : list (lop V)) (n : Z) (fmt : option bytes) (vs : list (arg V)) : bytes -> Prop :=
  | text name tag colour args o extra rest pos msg head :
      In (name, n, tag, colour) table -> arguments hist vs args o ->
      (extra, rest) = (match parser_now hist with None => ([], args) | Some p => p args end) ->
      msg = (match fmt with Some f => sprintf f rest | None => sprintln rest end) -> position hist o pos ->
      head = tag ++ (match id with None => [] | Some i => bs "[" ++ i ++ bs "]" end) ++ prefix_now hist ++ extra ++ pos ->
      text_of id hist n fmt vs
        ((if color_now hist then byte 27 :: bs "[1;" ++ colour ++ bs "m" ++ head ++ byte 27 :: bs "[0m" else head) ++ bs " " ++ msg ++
         (if ((n <=? stack_now hist) || o_stack o)%bool then
            if ((has_prefix msg (bs "PANIC") || has_prefix msg (bs "STACK")) && (5 <? List.length msg)%nat)%bool then [] else byte 10 :: stack_text (o_depth o)
          else [])).
  (** flat mode: a last newline is dropped, every other becomes a backslash and an n *)
  Inductive flat : bytes -> bytes -> Prop :=
  | fl_end a : flat (a ++ [byte 10]) (flat_map (fun c => if Ascii.eqb c (byte 10) then bs "\n" else [c]) a)
  | fl_no a : (forall b, a <> b ++ [byte 10]) -> flat a (flat_map (fun c => if Ascii.eqb c (byte 10) then bs "\n" else [c]) a).
  (** the outcome of a call of the method of level n *)
  Inductive call_prints (id : option bytes) (hist : list (lop V)) (n : Z) (fmt : option bytes) (vs : list (arg V)) : option bytes -> Prop :=
  | cp_silent : level_now hist < n \/ global_now hist < n -> call_prints id hist n fmt vs None
  | cp_line t u : n <= level_now hist -> n <= global_now hist -> text_of id hist n fmt vs t ->
      (if flat_now hist then flat t u else u = t) -> call_prints id hist n fmt vs (Some u).

  (** *** Proofs *)
  Lemma reached2 hist : forall l g st rs d s, l_depth V l = d -> l_short V l = s -> lrun (l, g) hist = (st, rs) ->
    l_depth V (fst st) = latest (fun o => match o with LSetDepth _ n => Some n | _ => None end) d hist /\
    l_short V (fst st) = latest (fun o => match o with LSetShort _ n => Some n | _ => None end) s hist.
  Proof using Type.
    induction hist as [|o hist IH]; intros l g st rs d s D S R.
    - cbn in R. injection R as <- _. auto.
    - cbn [LogModel.lrun] in R. destruct (lstep (l, g) o) as [[l1 g1] r] eqn:E.
      destruct (lrun (l1, g1) hist) as [st' rs'] eqn:E'. injection R as <- _. cbn [latest].
      eapply IH; [| |exact E']; destruct o; cbn in E; injection E as <- <- _; cbn; auto.
  Qed.
  Lemma trim_nl_flat t : flat t (escape_nl (trim_suffix t [nl])).
  Proof using Type.
    unfold trim_suffix. destruct (has_suffix t [nl]) eqn:E.
    - apply has_suffix_spec in E as (a & ->). rewrite app_length. cbn [List.length]. replace (List.length a + 1 - 1)%nat with (List.length a) by lia.
      rewrite firstn_app_len. apply fl_end.
    - apply fl_no. intros b ->. assert (has_suffix (b ++ [byte 10]) [nl] = true); [|congruence]. apply has_suffix_spec. eexists. reflexivity.
  Qed.
  Lemma flat_fun t u v : flat t u -> flat t v -> u = v.
  Proof using Type.
    intros A B. destruct A as [a|a H]; inversion B as [b E|b H' E]; subst; auto.
    - apply app_inj_tail in E as (-> & _). reflexivity.
    - exfalso. exact (H' a eq_refl).
    - exfalso. exact (H b eq_refl).
  Qed.
  Lemma arguments_fun hist vs a o a' o' : arguments hist vs a o -> arguments hist vs a' o' -> a = a' /\ o = o'.
  Proof using Type.
    intros A B. destruct A as [args d s h|args H]; inversion B as [args' d' s' h' E|args' H' E]; subst.
    - apply app_inj_tail in E as (-> & E). injection E as -> -> ->. auto.
    - exfalso. eapply H'. reflexivity.
    - exfalso. eapply H. reflexivity.
    - auto.
  Qed.
  Lemma position_fun hist o p q : position hist o p -> position hist o q -> p = q.
  Proof using Type.
    intros [H|file line f A B C D E] [H'|file' line' f' A' B' C' D' E']; auto.
    - exfalso. destruct H as [H|[H|[H|H]]]; try congruence; lia.
    - exfalso. destruct H' as [H'|[H'|[H'|H']]]; try congruence; lia.
    - rewrite D in D'. injection D' as <- <-. destruct (short_now hist); [rewrite (after_src_fun _ _ _ E E'); reflexivity|congruence].
  Qed.
  Lemma table_fun a n t c a' t' c' : In (a, n, t, c) table -> In (a', n, t', c') table -> t = t' /\ c = c'.
  Proof using Type.
    intros A B. cbn in A. destruct A as [A|[A|[A|[A|[A|[A|[A|[A|[]]]]]]]]]; injection A as <- <- <- <-;
      (cbn in B; repeat (destruct B as [B|B]; [try discriminate B; injection B as <- <- <-; auto|]); destruct B).
  Qed.
  Lemma text_fun id hist n fmt vs t u : text_of id hist n fmt vs t -> text_of id hist n fmt vs u -> t = u.
  Proof using Type.
    intros [a1 t1 c1 ar1 o1 e1 r1 p1 m1 h1 A B C D E F] [a2 t2 c2 ar2 o2 e2 r2 p2 m2 h2 A' B' C' D' E' F'].
    destruct (table_fun _ _ _ _ _ _ _ A A') as (-> & ->). destruct (arguments_fun _ _ _ _ _ _ B B') as (-> & ->).
    rewrite <- C in C'. injection C' as -> ->. rewrite <- D' in D. subst m1. rewrite (position_fun _ _ _ _ E E') in F. rewrite F, F'. reflexivity.
  Qed.
  Lemma args_of hist l vs : l_depth V l = depth_now hist -> arguments hist vs (fst (parse_values V l vs)) (snd (parse_values V l vs)).
  Proof using Type.
    intros D. unfold parse_values. destruct (rev vs) as [|a r] eqn:R.
    - cbn [fst snd]. rewrite D. constructor. intros xs o E. apply (f_equal (@rev _)) in E. rewrite R, rev_app_distr in E. discriminate E.
    - assert (B : vs = rev r ++ [a]) by (rewrite <- (rev_involutive vs), R; reflexivity). destruct a as [v|[d s h]]; cbn [fst snd o_depth o_stack o_hidden].
      + rewrite D. constructor. intros xs o E. rewrite B in E. apply app_inj_tail in E as (_ & E). discriminate E.
      + rewrite B, D. constructor.
  Qed.
  Lemma position_of_ hist l o : l_line V l = line_now hist -> l_short V l = short_now hist ->
    position hist o (if (l_line V l && negb (o_hidden o))%bool then func_call_msg V caller l (o_depth o) else []).
  Proof using Type.
    intros L S. rewrite L. destruct (line_now hist) eqn:E1; cbn [andb]; [|constructor; auto].
    destruct (o_hidden o) eqn:E2; cbn [negb]; [constructor; auto|]. unfold func_call_msg.
    destruct (Z.ltb_spec 0 (o_depth o)) as [P|P]; [|constructor; right; right; left; exact P].
    destruct (caller (o_depth o)) as [(file & line)|] eqn:C; [|constructor; auto].
    eapply po_on; eauto. rewrite S. destruct (short_now hist); [apply after_src_of|reflexivity].
  Qed.
  (** C116. After every history, a log method prints exactly this line, or nothing if its
      level is above the logger's or the global level *)
  Theorem C116_line_exact id hist st rs n fmt vs r :
    lrun (fresh id, 8) hist = (st, rs) -> In n (map snd methods) ->
    (snd (lstep st (LLog V n fmt vs)) = Ok r <-> call_prints id hist n fmt vs r).
  Proof using Type.
    intros R Hn. pose proof R as R2.
    assert (D : l_depth V (fst st) = depth_now hist /\ l_short V (fst st) = short_now hist).
    { eapply reached2; [| |exact R2]; destruct id; reflexivity. }
    destruct D as (D1 & D2). clear R2. apply reached in R. destruct R as (H1 & H2 & H3 & H4 & H5 & H6 & H7 & H8 & H9).
    assert (T : exists name tag colour, In (name, n, tag, colour) table /\ arr_get level_tags (n - 1) = Ok tag /\
              exists c, arr_get colors (n - 1) = Ok (Some (new_brush c)) /\ colour = bs c).
    { cbn in Hn. destruct Hn as [<-|[<-|[<-|[<-|[<-|[<-|[<-|[<-|[]]]]]]]]]; cbn [table In];
        [do 3 eexists; split; [left; reflexivity|]|do 3 eexists; split; [right; left; reflexivity|]|do 3 eexists; split; [do 2 right; left; reflexivity|]|do 3 eexists; split; [do 3 right; left; reflexivity|]|do 3 eexists; split; [do 4 right; left; reflexivity|]|do 3 eexists; split; [do 5 right; left; reflexivity|]|do 3 eexists; split; [do 6 right; left; reflexivity|]|do 3 eexists; split; [do 7 right; left; reflexivity|]];
        (split; [reflexivity|]; eexists; split; [reflexivity|reflexivity]). }
    destruct T as (name & tag & colour & T1 & T2 & c & T3 & Tc).
    assert (X : exists r', snd (lstep st (LLog V n fmt vs)) = Ok r' /\ call_prints id hist n fmt vs r').
    { destruct st as [l g]. cbn [fst snd] in *. cbn [LogModel.lstep snd]. unfold LogModel.write. rewrite H1, H2.
      destruct (Z.ltb_spec (level_now hist) n); [exists None; split; [reflexivity|]; constructor; auto|].
      destruct (Z.ltb_spec (global_now hist) n); [exists None; split; [reflexivity|]; constructor; auto|]. cbn [orb].
      pose proof (args_of hist l vs D1) as A. destruct (parse_values V l vs) as [args o]. cbn [fst snd] in A.
      set (extra := match l_parser V l with None => [] | Some p => fst (p args) end).
      set (rest := match l_parser V l with None => args | Some p => snd (p args) end).
      assert (G : get_prefix V l args = (l_prefix V l ++ extra, rest)).
      { unfold get_prefix, extra, rest. destruct (l_parser V l) as [p|]; [destruct (p args); reflexivity|rewrite app_nil_r; reflexivity]. }
      rewrite G. set (msg := match fmt with Some f => sprintf f rest | None => sprintln rest end).
      pose proof (position_of_ hist l o H7 D2) as P. set (pos := if (l_line V l && negb (o_hidden o))%bool then func_call_msg V caller l (o_depth o) else []) in *.
      set (head := tag ++ (match id with None => [] | Some i => bs "[" ++ i ++ bs "]" end) ++ prefix_now hist ++ extra ++ pos).
      assert (Hh : (if (l_line V l && negb (o_hidden o))%bool then (tag ++ l_prefix V l ++ extra) ++ func_call_msg V caller l (o_depth o) else tag ++ l_prefix V l ++ extra) = head).
      { unfold head, pos. rewrite H5. destruct (l_line V l && negb (o_hidden o))%bool; rewrite <- ?app_assoc, ?app_nil_r; reflexivity. }
      unfold LogModel.print. rewrite T2. cbn [bind]. rewrite Hh, T3. cbn [bind].
      set (hd := if color_now hist then byte 27 :: bs "[1;" ++ colour ++ bs "m" ++ head ++ byte 27 :: bs "[0m" else head).
      assert (Hc : (if l_color V l then Ok (new_brush c head) else Ok head) = Ok hd).
      { rewrite H4. unfold hd. destruct (color_now hist); [|reflexivity]. rewrite Tc. reflexivity. }
      rewrite Hc. cbn [bind]. eexists. split; [reflexivity|].
      assert (SK : skip_stack msg = ((has_prefix msg (bs "PANIC") || has_prefix msg (bs "STACK")) && (5 <? List.length msg)%nat)%bool).
      { clear. unfold skip_stack.
        replace (5 <? Z.of_nat (List.length msg)) with (5 <? List.length msg)%nat
          by (destruct (Nat.ltb_spec 5 (List.length msg)), (Z.ltb_spec 5 (Z.of_nat (List.length msg))); lia).
        rewrite andb_comm. f_equal.
        assert (W : forall w, List.length w = 5%nat -> beq (firstn 5 msg) w = has_prefix msg w).
        { intros w Lw. destruct (has_prefix msg w) eqn:HP.
          - apply has_prefix_spec in HP. destruct HP as (u & ->). apply beq_true. rewrite <- Lw. apply firstn_app_len.
          - apply beq_false. intros <-. assert (has_prefix msg (firstn 5 msg) = true); [|congruence].
            apply has_prefix_spec. exists (skipn 5 msg). symmetry. apply firstn_skipn. }
        rewrite !W by reflexivity. reflexivity. }
      eapply cp_line; [lia|lia| |].
      - eapply (text id hist n fmt vs name tag colour args o extra rest pos msg head); auto.
        unfold extra, rest. rewrite <- H8. destruct (l_parser V l) as [p|]; [destruct (p args); reflexivity|reflexivity].
      - unfold flatten. rewrite H3. rewrite SK, H6. fold hd.
        set (tail := if ((n <=? stack_now hist) || o_stack o)%bool then if ((has_prefix msg (bs "PANIC") || has_prefix msg (bs "STACK")) && (5 <? List.length msg)%nat)%bool then [] else byte 10 :: stack_text (o_depth o) else []).
        assert (Et : (if (((n <=? stack_now hist) || o_stack o) && negb ((has_prefix msg (bs "PANIC") || has_prefix msg (bs "STACK")) && (5 <? List.length msg)%nat))%bool then (hd ++ bs " " ++ msg) ++ [nl] ++ stack_text (o_depth o) else hd ++ bs " " ++ msg) = hd ++ bs " " ++ msg ++ tail).
        { unfold tail. destruct ((n <=? stack_now hist) || o_stack o)%bool; cbn [andb]; [|rewrite app_nil_r; reflexivity].
          destruct (_ && (5 <? List.length msg)%nat)%bool; cbn [negb]; [rewrite app_nil_r; reflexivity|]. rewrite <- !app_assoc. reflexivity. }
        rewrite Et. destruct (flat_now hist); [apply trim_nl_flat|reflexivity]. }
    destruct X as (r' & E & C). rewrite E. split; [intros [= <-]; exact C|]. intros C'. f_equal.
    destruct C as [S|t u A B Tx F], C' as [S'|t' u' A' B' Tx' F']; try reflexivity; try (exfalso; lia).
    f_equal. rewrite <- (text_fun _ _ _ _ _ _ _ Tx Tx') in F'. destruct (flat_now hist); [eapply flat_fun; eauto|congruence].
  Qed.
End Log.
(** the methods and their levels; the level of each of the sixteen methods *)
Theorem C116_methods name n : In (name, n) methods <-> exists tag colour, In (name, n, tag, colour) table.
Proof.
  split.
  - intros H. cbn in H. destruct H as [H|[H|[H|[H|[H|[H|[H|[H|[]]]]]]]]]; injection H as <- <-; cbn [table In]; eauto 20.
  - intros (tag & colour & H). cbn in H. destruct H as [H|[H|[H|[H|[H|[H|[H|[H|[]]]]]]]]]; injection H as <- <- <- <-; vm_compute; tauto.
Qed.
Example C116_exact_example :
  call_prints (V := nat) (fun f _ => f) (fun _ => bs "hello" ++ [byte 10]) (fun _ => Some (bs "/go/src/app/src/x.go", bs "12")) (fun _ => bs "trace")
    (Some (bs "id1")) [LSetLine _ true; LSetShort _ true; LSetColor _ true; LSetPrefix _ (bs "[p]")] 5 None [AVal 3%nat; AOpt (LineOpt 1 true false)]
    (Some (byte 27 :: bs "[1;33m[WARN][id1][p][""app/src/x.go:12""]" ++ byte 27 :: bs "[0m hello\n\ntrace")) /\
  In 5 (map snd methods).
Proof.
  split; [|vm_compute; tauto]. eapply cp_line; [vm_compute; discriminate|vm_compute; discriminate| |].
  - eapply (text _ _ _ _ _ _ _ _ _ (bs "Warn") (bs "[WARN]") (bs "33") [AVal 3%nat] (LineOpt 5 true false) [] [AVal 3%nat]); [vm_compute; tauto| |reflexivity|reflexivity| |reflexivity].
    + exact (ar_opt _ [AVal 3%nat] 1 true false).
    + eapply po_on; [reflexivity|reflexivity|reflexivity|reflexivity|]. cbn. left. exists (bs "/go"). split; [reflexivity|].
      intros x y H. cbn [bs] in H. do 3 (destruct x as [|? x]; [discriminate H|]; injection H as _ H). cbn. lia.
  - match goal with |- if flat_now ?h then flat ?t ?u else _ => change (flat t u) end. 
    match goal with |- flat ?t ?u => let t' := eval vm_compute in t in change (flat t' u) end.
    match goal with |- flat ?t ?u => let u' := eval vm_compute in u in change (flat t u') end.
    apply fl_no. intros b E. apply (f_equal (@rev ascii)) in E. rewrite rev_app_distr in E. discriminate E.
Qed.

Print Assumptions C116_line_exact.
Print Assumptions C116_methods.
