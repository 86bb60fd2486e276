(** Props_Log: C85, C86, C87, C116, C117 -- the loggers of /repo/log.go. *)
From Coq Require Import List Ascii String Bool Arith ZArith Lia.
Import ListNotations.
From Verif Require Import GoStr RouterModel LogModel.
Local Open Scope Z_scope.

(** *** Specification: what a history configured, read off its calls *)
Section Spec.
  Context {V : Type}.
  (** the value given by the last call that sets it, newest call last *)
  Fixpoint latest {A} (f : lop V -> option A) (def : A) (hist : list (lop V)) : A :=
    match hist with
    | [] => def
    | o :: os => latest f (match f o with Some a => a | None => def end) os
    end.
  Definition level_now := latest (fun o => match o with LSetLevel _ n => Some n | _ => None end) 8.
  Definition global_now := latest (fun o => match o with LSetGlobal _ n => Some n | _ => None end) 8.
  Definition flat_now := latest (fun o => match o with LSetFlat _ b => Some b | _ => None end) true.
  Definition color_now := latest (fun o => match o with LSetColor _ b => Some b | _ => None end) false.
  Definition prefix_now := latest (fun o => match o with LSetPrefix _ p => Some p | _ => None end) [].
  Definition stack_now := latest (fun o => match o with LSetStack _ n => Some n | _ => None end) 0.
  Definition line_now := latest (fun o => match o with LSetLine _ n => Some n | _ => None end) false.
  Definition parser_now := latest (fun o => match o with LSetParser _ n => Some n | _ => None end) None.

  (** a logger made by NewLogger, or by NewReqLogger with this id *)
  Definition fresh (id : option bytes) : logger V :=
    match id with None => new_logger V | Some i => new_req_logger V i end.

  (** the eight severities *)
  Definition severity (n : Z) : Prop := 1 <= n <= 8.

  Definition tag_of (n : Z) : bytes :=
    if n =? 1 then bs "[EMERGENCY]" else if n =? 2 then bs "[ALERT]" else if n =? 3 then bs "[CRITCIAL]"
    else if n =? 4 then bs "[ERROR]" else if n =? 5 then bs "[WARN]" else if n =? 6 then bs "[NOTICE]"
    else if n =? 7 then bs "[INFO]" else bs "[DEBUG]".
End Spec.

(** the standard printer (log.Logger with LstdFlags): one header, the text, and
    a newline unless the text ends with one *)
Definition std_print (header text : bytes) : bytes :=
  header ++ text ++ (if has_suffix text [nl] then [] else [nl]).
Definition newlines (s : bytes) : nat := List.length (filter (Ascii.eqb nl) s).

Lemma Ok_inj {A} (a b : A) : Ok a = Ok b -> a = b.
Proof. congruence. Qed.

Section Log.
  Variable V : Type.
  Variable sprintf : bytes -> list (arg V) -> bytes.
  Variable sprintln : list (arg V) -> bytes.
  Variable caller : Z -> option (bytes * bytes).
  Variable stack_text : Z -> bytes.
  Notation lrun := (lrun V sprintf sprintln caller stack_text).
  Notation lstep := (lstep V sprintf sprintln caller stack_text).
  Notation write := (write V sprintf sprintln caller stack_text).
  Notation print := (print V caller stack_text).
  Notation recover := (recover V sprintf sprintln caller stack_text).

  (** the state reached by a history is what the specification reads off it *)
  Definition is_now (id : option bytes) (l : logger V) (g : Z) (ds : Z * Z * bool * bool * bytes * Z * bool * option (prefix_parser V)) : Prop :=
    let '(lv, gl, fl, co, pr, sk, li, pa) := ds in
    l_level V l = lv /\ g = gl /\ l_flat V l = fl /\ l_color V l = co /\
    l_prefix V l = (match id with None => [] | Some i => bs "[" ++ i ++ bs "]" end) ++ pr /\
    l_stack V l = sk /\ l_line V l = li /\ l_parser V l = pa /\ l_req V l = id.

  Lemma run_is_now id hist : forall l g lv gl fl co pr sk li pa st rs,
    is_now id l g (lv, gl, fl, co, pr, sk, li, pa) -> lrun (l, g) hist = (st, rs) ->
    is_now id (fst st) (snd st)
      (latest (fun o => match o with LSetLevel _ n => Some n | _ => None end) lv hist,
       latest (fun o => match o with LSetGlobal _ n => Some n | _ => None end) gl hist,
       latest (fun o => match o with LSetFlat _ n => Some n | _ => None end) fl hist,
       latest (fun o => match o with LSetColor _ n => Some n | _ => None end) co hist,
       latest (fun o => match o with LSetPrefix _ n => Some n | _ => None end) pr hist,
       latest (fun o => match o with LSetStack _ n => Some n | _ => None end) sk hist,
       latest (fun o => match o with LSetLine _ n => Some n | _ => None end) li hist,
       latest (fun o => match o with LSetParser _ n => Some n | _ => None end) pa hist).
  Proof using Type.
    induction hist as [|o hist IH]; intros l g lv gl fl co pr sk li pa st rs H R.
    - cbn in R. injection R as <- _. exact H.
    - cbn [LogModel.lrun] in R. destruct (lstep (l, g) o) as [[l1 g1] r] eqn:E.
      destruct (lrun (l1, g1) hist) as [st' rs'] eqn:E'. injection R as <- _.
      cbn [latest]. eapply IH; [|exact E'].
      destruct H as (H1 & H2 & H3 & H4 & H5 & H6 & H7 & H8 & H9).
      destruct o; cbn in E; injection E as <- <- _;
        repeat split; cbn; try assumption.
      rewrite H9. destruct id; reflexivity.
  Qed.

  Lemma reached id hist st rs :
    lrun (fresh id, 8) hist = (st, rs) ->
    is_now id (fst st) (snd st)
      (level_now hist, global_now hist, flat_now hist, color_now hist, prefix_now hist,
       stack_now hist, line_now hist, parser_now hist).
  Proof using Type.
    intros R. unfold level_now, global_now, flat_now, color_now, prefix_now, stack_now, line_now, parser_now.
    eapply run_is_now; [|exact R].
    destruct id; repeat split; cbn; try reflexivity. unfold req_prefix. now rewrite app_nil_r.
  Qed.

  Lemma sev_cases n : severity n -> n = 1 \/ n = 2 \/ n = 3 \/ n = 4 \/ n = 5 \/ n = 6 \/ n = 7 \/ n = 8.
  Proof using Type. unfold severity. lia. Qed.

  Lemma print_severity l n p m o : severity n -> exists t, print l n p m o = Ok t.
  Proof using Type.
    intros H. destruct (sev_cases _ H) as [-> | [-> | [-> | [-> | [-> | [-> | [-> | ->]]]]]]];
      unfold LogModel.print; cbn; destruct (l_color V l); cbn; eexists; reflexivity.
  Qed.

  (** C85. After any history, a call at a severity is passed to the printer
      exactly once when the severity passes both the logger's level and the
      global level as last set, and not at all otherwise. *)
  Theorem C85_level_filter id hist st rs n fmt vs :
    lrun (fresh id, 8) hist = (st, rs) -> severity n ->
    exists r, snd (lstep st (LLog V n fmt vs)) = Ok r /\
      (r <> None <-> n <= level_now hist /\ n <= global_now hist).
  Proof using Type.
    intros R Hn. apply reached in R. destruct st as [l g]. destruct R as (H1 & H2 & _). cbn in H1, H2.
    cbn [LogModel.lstep snd]. unfold LogModel.write. rewrite <- H1, <- H2.
    destruct (Z.ltb_spec (l_level V l) n) as [A|A]; cbn [orb].
    { exists None. split; [reflexivity|]. split; [congruence|lia]. }
    destruct (Z.ltb_spec g n) as [B|B].
    { exists None. split; [reflexivity|]. split; [congruence|lia]. }
    destruct (parse_values V l vs) as [vs' o]. destruct (get_prefix V l vs') as [p vs''].
    destruct (print_severity l n p (match fmt with Some f => sprintf f vs'' | None => sprintln vs'' end) o Hn) as (t & ->).
    exists (Some t). split; [reflexivity|]. split; [intros _; lia|discriminate].
  Qed.

  (** a more severe message passes whenever a less severe one does *)
  Corollary C85_more_severe_passes id hist st rs n m fmt vs fmt' vs' t :
    lrun (fresh id, 8) hist = (st, rs) -> severity n -> severity m -> m <= n ->
    snd (lstep st (LLog V n fmt vs)) = Ok (Some t) ->
    exists t', snd (lstep st (LLog V m fmt' vs')) = Ok (Some t').
  Proof using Type.
    intros R Hn Hm L E.
    destruct (C85_level_filter id hist st rs n fmt vs R Hn) as (r & E1 & P1).
    destruct (C85_level_filter id hist st rs m fmt' vs' R Hm) as (r' & E2 & P2).
    rewrite E in E1. injection E1 as <-.
    assert (Q : r' <> None). { apply P2. assert (n <= level_now hist /\ n <= global_now hist) by (apply P1; discriminate). lia. }
    destruct r' as [t'|]; [|congruence]. exists t'. exact E2.
  Qed.

  Lemma escape_nl_free s : ~ In nl (escape_nl s).
  Proof using Type.
    unfold escape_nl. intros H. apply in_flat_map in H. destruct H as (c & _ & Hc).
    destruct (Ascii.eqb_spec c nl) as [E|N].
    - cbn in Hc. destruct Hc as [A|[A|[]]]; unfold nl in A; discriminate A.
    - destruct Hc as [->|[]]. congruence.
  Qed.
  Lemma escape_nl_id s : ~ In nl s -> escape_nl s = s.
  Proof using Type.
    induction s as [|c s IH]; intros H; [reflexivity|]. cbn [escape_nl flat_map].
    destruct (Ascii.eqb_spec c nl) as [E|N]; [exfalso; apply H; left; exact E|].
    cbn [List.app]. f_equal. apply IH. intros K; apply H; now right.
  Qed.
  Lemma escape_nl_app s t : escape_nl (s ++ t) = escape_nl s ++ escape_nl t.
  Proof using Type. apply flat_map_app. Qed.

  Lemma trim_suffix_spec s p : s = trim_suffix s p \/ s = trim_suffix s p ++ p.
  Proof using Type.
    destruct (has_suffix s p) eqn:E.
    - right. apply has_suffix_spec in E. destruct E as (t & ->). now rewrite trim_suffix_app.
    - left. unfold trim_suffix. now rewrite E.
  Qed.

  Lemma trim_nl_front a b : ~ In nl a -> trim_suffix (a ++ b) [nl] = a ++ trim_suffix b [nl].
  Proof using Type.
    intros Ha. destruct (has_suffix b [nl]) eqn:E.
    - apply has_suffix_spec in E. destruct E as (t & ->).
      now rewrite app_assoc, !trim_suffix_app.
    - unfold trim_suffix at 2. rewrite E. unfold trim_suffix.
      destruct (has_suffix (a ++ b) [nl]) eqn:K; [|reflexivity].
      exfalso. apply has_suffix_spec in K. destruct K as (t & K).
      destruct (rev b) as [|x rb] eqn:RB.
      + assert (b = []) as -> by (rewrite <- (rev_involutive b), RB; reflexivity).
        rewrite app_nil_r in K. apply Ha. rewrite K. apply in_or_app. right. now left.
      + assert (B : b = rev rb ++ [x]) by (rewrite <- (rev_involutive b), RB; reflexivity).
        rewrite B, app_assoc in K. apply app_inj_tail in K. destruct K as [_ ->].
        assert (Q : has_suffix b [nl] = true) by (apply has_suffix_spec; exists (rev rb); exact B). congruence.
  Qed.
  Lemma flatten_front l a b : ~ In nl a -> flatten V l (a ++ b) = a ++ flatten V l b.
  Proof using Type.
    intros Ha. unfold flatten. destruct (l_flat V l); [|reflexivity].
    now rewrite trim_nl_front, escape_nl_app, escape_nl_id.
  Qed.

  Lemma print_flat l n p m o t : l_flat V l = true -> print l n p m o = Ok t -> ~ In nl t.
  Proof using Type.
    intros F E. unfold LogModel.print in E.
    destruct (arr_get level_tags (n - 1)) as [tag|]; [|discriminate]. cbn [bind] in E.
    match type of E with bind ?x _ = _ => destruct x as [hd|]; [|discriminate] end. cbn [bind] in E.
    injection E as <-. unfold flatten. rewrite F. apply escape_nl_free.
  Qed.

  Lemma write_shape g l n fmt vs t :
    write g l n fmt vs = Ok (Some t) ->
    exists vs' o msg, get_prefix V l vs' = (fst (get_prefix V l vs'), snd (get_prefix V l vs')) /\
      parse_values V l vs = (vs', o) /\
      msg = (match fmt with Some f => sprintf f (snd (get_prefix V l vs')) | None => sprintln (snd (get_prefix V l vs')) end) /\
      print l n (fst (get_prefix V l vs')) msg o = Ok t.
  Proof using Type.
    unfold LogModel.write. intros E.
    destruct ((l_level V l <? n) || (g <? n))%bool; [discriminate|].
    destruct (parse_values V l vs) as [vs' o]. destruct (get_prefix V l vs') as [p vs''] eqn:G.
    match type of E with bind ?x _ = _ => destruct x as [t'|] eqn:P; [|discriminate] end.
    cbn [bind] in E. injection E as <-.
    exists vs', o, (match fmt with Some f => sprintf f vs'' | None => sprintln vs'' end).
    rewrite G. cbn [fst snd]. auto.
  Qed.

  Lemma step_prints st o t : snd (lstep st o) = Ok (Some t) ->
    exists n fmt vs, write (snd st) (fst st) n fmt vs = Ok (Some t) /\
      match o with
      | LLog _ k f ws => n = k /\ fmt = f /\ vs = ws
      | LRecover _ f lv => fmt = None /\ n = (match lv with Some k => k | None => 4 end) /\
          exists v d, f = Some (inl v) /\ vs = [AVal v; AOpt (LineOpt d true false)]
      | _ => False
      end.
  Proof using Type.
    destruct st as [l g]. destruct o; cbn [LogModel.lstep snd fst]; intros E; try discriminate E.
    - exists level, fmt, vs. auto.
    - unfold LogModel.recover in E. destruct f as [[v|]|]; try discriminate E.
      destruct level as [k|].
      + match type of E with context [bind ?x _] => destruct x as [t'|] eqn:P; [|discriminate E] end.
        cbn [bind] in E. injection E as ->. exists k, None, [AVal v; AOpt (LineOpt 4 true false)].
        split; [assumption|]. repeat split. exists v, 4. auto.
      + match type of E with context [bind ?x _] => destruct x as [t'|] eqn:P; [|discriminate E] end.
        cbn [bind] in E. injection E as ->. exists 4, None, [AVal v; AOpt (LineOpt 5 true false)].
        split; [assumption|]. repeat split. exists v, 5. auto.
  Qed.

  (** C86. After any history that leaves flat mode on (it is on from the start),
      whatever any call prints -- text, prefix, position, stack trace included --
      has no newline, so the standard printer writes exactly one line for it. *)
  Theorem C86_flat_one_line id hist st rs o t header :
    lrun (fresh id, 8) hist = (st, rs) -> flat_now hist = true ->
    snd (lstep st o) = Ok (Some t) -> ~ In nl header ->
    ~ In nl t /\
    newlines (std_print header t) = 1%nat /\ has_suffix (std_print header t) [nl] = true.
  Proof using Type.
    intros R F E Hh. apply reached in R. destruct R as (_ & _ & H3 & _). rewrite F in H3.
    apply step_prints in E. destruct E as (n & fmt & vs & E & _).
    apply write_shape in E. destruct E as (vs' & o' & msg & _ & _ & _ & P).
    pose proof (print_flat _ _ _ _ _ _ H3 P) as N. split; [assumption|].
    assert (S : has_suffix t [nl] = false).
    { destruct (has_suffix t [nl]) eqn:S; [|reflexivity]. apply has_suffix_spec in S. destruct S as (u & ->).
      exfalso. apply N. apply in_or_app. right. now left. }
    unfold std_print. rewrite S. split.
    - unfold newlines. rewrite !filter_app, !app_length.
      assert (Z : forall s, ~ In nl s -> filter (Ascii.eqb nl) s = []).
      { intros s. induction s as [|c s IH]; intros K; [reflexivity|]. cbn [filter].
        destruct (Ascii.eqb_spec nl c) as [<-|]; [exfalso; apply K; now left|]. apply IH. intros Q; apply K; now right. }
      rewrite !Z by assumption. reflexivity.
    - apply has_suffix_spec. exists (header ++ t). now rewrite app_assoc.
  Qed.

  (** C87. After any history of calls, every message of a request logger starts
      with its severity tag and the request id in brackets (behind the colour
      escape, if colours are on), and ReqId still returns the id. *)
  Theorem C87_carries_request_id id hist st rs n fmt vs t :
    lrun (fresh (Some id), 8) hist = (st, rs) -> severity n -> ~ In nl id ->
    snd (lstep st (LLog V n fmt vs)) = Ok (Some t) ->
    req_id V (fst st) = Some id /\
    exists colour rest, t = colour ++ tag_of n ++ bs "[" ++ id ++ bs "]" ++ rest /\
      (color_now hist = false -> colour = []).
  Proof using Type.
    intros R Hn Hid E. apply reached in R.
    destruct R as (_ & _ & _ & H4 & H5 & _ & _ & _ & H9). cbn [List.app] in H5.
    split; [exact H9|].
    apply step_prints in E. destruct E as (n' & fmt' & vs0 & E & (-> & -> & ->)).
    apply write_shape in E. destruct E as (vs' & o' & msg & _ & _ & _ & P).
    assert (G : exists q, fst (get_prefix V (fst st) vs') = bs "[" ++ id ++ bs "]" ++ q).
    { unfold get_prefix. rewrite H5. destruct (l_parser V (fst st)) as [pp|].
      - destruct (pp vs') as [u w]. cbn [fst]. rewrite <- !app_assoc. eexists. reflexivity.
      - cbn [fst]. rewrite <- !app_assoc. eexists. reflexivity. }
    destruct G as (q & G). rewrite G in P. clear G.
    assert (T : arr_get level_tags (n - 1) = Ok (tag_of n) /\ ~ In nl (tag_of n) /\
                exists c, arr_get colors (n - 1) = Ok (Some (new_brush c)) /\ ~ In nl ((esc :: bs "[1;") ++ bs c ++ bs "m")).
    { destruct (sev_cases _ Hn) as [-> | [-> | [-> | [-> | [-> | [-> | [-> | ->]]]]]]];
        (split; [reflexivity|]; split;
         [intros I; cbn in I; unfold nl in I; repeat (destruct I as [I|I]; [discriminate I|]); destruct I|];
         eexists; split; [reflexivity|];
         intros I; cbn in I; unfold nl, esc in I; repeat (destruct I as [I|I]; [discriminate I|]); destruct I). }
    destruct T as (T1 & T2 & c & T3 & T4).
    unfold LogModel.print in P. rewrite T1 in P. cbn [bind] in P.
    set (head := if (l_line V (fst st) && negb (o_hidden o'))%bool then _ else _) in P.
    assert (Hhead : exists w, head = tag_of n ++ bs "[" ++ id ++ bs "]" ++ w).
    { unfold head. destruct (l_line V (fst st) && negb (o_hidden o'))%bool.
      - rewrite <- !app_assoc. eexists. reflexivity.
      - eexists. reflexivity. }
    destruct Hhead as (w & Hw).
    assert (Hfree : ~ In nl (tag_of n ++ bs "[" ++ id ++ bs "]")).
    { intros I. rewrite !in_app_iff in I. destruct I as [I|[I|[I|I]]]; [auto| |auto|];
        cbn in I; unfold nl in I; destruct I as [I|[]]; discriminate I. }
    destruct (l_color V (fst st)) eqn:C.
    - rewrite T3 in P. cbn [bind] in P. rewrite Hw in P. unfold new_brush in P.
      exists ((esc :: bs "[1;") ++ bs c ++ bs "m").
      match type of P with Ok (flatten _ _ ?x) = _ =>
        assert (X : exists y, x = (((esc :: bs "[1;") ++ bs c ++ bs "m") ++ tag_of n ++ bs "[" ++ id ++ bs "]") ++ y) end.
      { destruct (((n <=? l_stack V (fst st)) || o_stack o') && negb (skip_stack msg))%bool;
          eexists; rewrite <- !app_assoc; reflexivity. }
      destruct X as (y & X). rewrite X, flatten_front in P.
      + apply Ok_inj in P. subst t. eexists. rewrite <- !app_assoc. split; [reflexivity|]. congruence.
      + intros I. apply in_app_or in I. destruct I; contradiction.
    - cbn [bind] in P. rewrite Hw in P. exists [].
      match type of P with Ok (flatten _ _ ?x) = _ =>
        assert (X : exists y, x = (tag_of n ++ bs "[" ++ id ++ bs "]") ++ y) end.
      { destruct (((n <=? l_stack V (fst st)) || o_stack o') && negb (skip_stack msg))%bool;
          eexists; rewrite <- !app_assoc; reflexivity. }
      destruct X as (y & X). rewrite X, flatten_front in P by assumption.
      apply Ok_inj in P. subst t. eexists. rewrite <- !app_assoc. split; reflexivity.
  Qed.

  (** C116. What is printed is, in this order: the severity tag, the prefix as
      last set (after the request id), what the prefix parser adds, the source
      position if line info is on, all of it wrapped in the colour escapes if
      colours are on; one blank; the message; and, if asked for, a stack trace on
      new lines. In flat mode one trailing newline is dropped and every other
      newline becomes a backslash and an n; nothing else is changed. *)
  Definition position_of (hist : list (lop V)) (o : line_opt) (pos : bytes) : Prop :=
    (line_now hist = false \/ o_hidden o = true -> pos = []).
  Theorem C116_printed_text id hist st rs n fmt vs t :
    lrun (fresh id, 8) hist = (st, rs) -> severity n ->
    snd (lstep st (LLog V n fmt vs)) = Ok (Some t) ->
    exists args o extra args' pos msg colour,
      (* the arguments without a final LineOpt *)
      ((exists o', vs = args ++ [AOpt o'] /\ o_stack o = o_stack o' /\ o_hidden o = o_hidden o')
       \/ (vs = args /\ o_stack o = false /\ o_hidden o = false /\ forall o', last vs (AOpt o') = AOpt o' -> vs = [])) /\
      (* the prefix parser *)
      (extra, args') = (match parser_now hist with None => ([], args) | Some p => p args end) /\
      msg = (match fmt with Some f => sprintf f args' | None => sprintln args' end) /\
      position_of hist o pos /\
      (if color_now hist then exists c, colour = new_brush c else colour = fun x => x) /\
      let text := colour (tag_of n ++ (match id with None => [] | Some i => bs "[" ++ i ++ bs "]" end)
                          ++ prefix_now hist ++ extra ++ pos) ++ bs " " ++ msg ++
                  (if ((n <=? stack_now hist) || o_stack o)%bool
                   then if (has_prefix msg (bs "PANIC") || has_prefix msg (bs "STACK"))%bool then
                          if (List.length msg <=? 5)%nat then nl :: stack_text (o_depth o) else []
                        else nl :: stack_text (o_depth o)
                   else []) in
      t = if flat_now hist then escape_nl (trim_suffix text [nl]) else text.
  Proof using Type.
    intros R Hn E. apply reached in R.
    destruct R as (_ & _ & H3 & H4 & H5 & H6 & H7 & H8 & H9).
    apply step_prints in E. destruct E as (n' & fmt' & vs0 & E & (-> & -> & ->)).
    apply write_shape in E. destruct E as (args & o & msg & _ & PV & Hm & P).
    set (l := fst st) in *.
    exists args, o.
    exists (match l_parser V l with None => [] | Some p => fst (p args) end).
    exists (snd (get_prefix V l args)).
    exists (if (l_line V l && negb (o_hidden o))%bool then func_call_msg V caller l (o_depth o) else []).
    exists msg.
    assert (T : arr_get level_tags (n - 1) = Ok (tag_of n) /\
                exists c, arr_get colors (n - 1) = Ok (Some (new_brush c))).
    { destruct (sev_cases _ Hn) as [-> | [-> | [-> | [-> | [-> | [-> | [-> | ->]]]]]]];
        (split; [reflexivity|]; eexists; reflexivity). }
    destruct T as (T1 & c & T3).
    exists (if l_color V l then new_brush c else fun x => x).
    split; [|split; [|split; [|split; [|split]]]].
    - unfold parse_values in PV. destruct (rev vs) as [|a r] eqn:RV.
      + injection PV as <- <-. right. cbn. repeat split. intros o' _.
        rewrite <- (rev_involutive vs), RV. reflexivity.
      + assert (B : vs = rev r ++ [a]) by (rewrite <- (rev_involutive vs), RV; reflexivity).
        destruct a as [v|o0]; injection PV as <- <-.
        * right. cbn. repeat split. intros o' L. rewrite B, last_last in L. discriminate.
        * left. exists o0. cbn. auto.
    - rewrite <- H8. unfold get_prefix. destruct (l_parser V l) as [p|]; [destruct (p args); reflexivity|reflexivity].
    - exact Hm.
    - unfold position_of. rewrite <- H7. intros [K|K]; rewrite K; [reflexivity|]. cbn. now rewrite andb_false_r.
    - rewrite <- H4. destruct (l_color V l); [eexists; reflexivity|reflexivity].
    - assert (PX : fst (get_prefix V l args) = (match id with None => [] | Some i => bs "[" ++ i ++ bs "]" end) ++
                prefix_now hist ++ match l_parser V l with None => [] | Some p => fst (p args) end).
      { unfold get_prefix. rewrite H5. destruct (l_parser V l) as [p|].
        - destruct (p args); cbn [fst]. now rewrite <- app_assoc.
        - cbn [fst]. now rewrite app_nil_r. }
      rewrite PX in P. clear PX.
      assert (SK : skip_stack msg = ((has_prefix msg (bs "PANIC") || has_prefix msg (bs "STACK")) && negb (List.length msg <=? 5)%nat)%bool).
      { unfold skip_stack.
        replace (5 <? Z.of_nat (List.length msg)) with (negb (List.length msg <=? 5)%nat)
          by (destruct (Nat.leb_spec (List.length msg) 5), (Z.ltb_spec 5 (Z.of_nat (List.length msg))); cbn; lia).
        rewrite andb_comm. destruct (Nat.leb_spec (List.length msg) 5) as [L|L]; cbn [negb].
        - now rewrite !andb_false_r.
        - rewrite !andb_true_r.
          assert (W : forall w, List.length w = 5%nat -> beq (firstn 5 msg) w = has_prefix msg w).
          { intros w Lw. destruct (has_prefix msg w) eqn:HP.
            - apply has_prefix_spec in HP. destruct HP as (u & ->).
              apply beq_true. rewrite <- Lw. apply firstn_app_len.
            - apply beq_false. intros <-. 
              assert (has_prefix msg (firstn 5 msg) = true); [|congruence].
              apply has_prefix_spec. exists (skipn 5 msg). symmetry. apply firstn_skipn. }
          rewrite !W by reflexivity. reflexivity. }
      unfold LogModel.print in P. rewrite T1 in P. cbn [bind] in P.
      rewrite <- H3, <- H6. unfold flatten in P. rewrite SK in P. clear SK.
      destruct (l_color V l).
      + rewrite T3 in P. cbn [bind] in P. apply Ok_inj in P. subst t.
        destruct (l_line V l && negb (o_hidden o))%bool, ((n <=? l_stack V l) || o_stack o)%bool,
          (has_prefix msg (bs "PANIC") || has_prefix msg (bs "STACK"))%bool, (List.length msg <=? 5)%nat;
          cbn [andb negb]; rewrite ?app_nil_r; unfold new_brush; rewrite <- ?app_assoc; reflexivity.
      + cbn [bind] in P. apply Ok_inj in P. subst t.
        destruct (l_line V l && negb (o_hidden o))%bool, ((n <=? l_stack V l) || o_stack o)%bool,
          (has_prefix msg (bs "PANIC") || has_prefix msg (bs "STACK"))%bool, (List.length msg <=? 5)%nat;
          cbn [andb negb]; rewrite ?app_nil_r; rewrite <- ?app_assoc; reflexivity.
  Qed.

  (** C117 (partial). Recover called without a level or with one of the eight
      severities: never panics; returns the panic value exactly when the function
      panicked with a non-nil value; and then logs it with a stack trace iff the
      level passes. Missing: other levels, and panic(nil). *)
  Theorem C117_recover_partial id hist st rs f lv :
    lrun (fresh id, 8) hist = (st, rs) -> (forall n, lv = Some n -> severity n) ->
    exists line ret, recover (snd st) (fst st) f lv = Ok (line, ret) /\
      ret = (match f with Some (inl v) => Some v | _ => None end) /\
      (line <> None <-> ret <> None /\
         let n := match lv with Some n => n | None => LevelError end in
         n <= level_now hist /\ n <= global_now hist).
  Proof using Type.
    intros R Hlv. unfold LogModel.recover.
    destruct f as [[v|u]|]; [| exists None, None; repeat split; try congruence; intros (K & _); congruence ..].
    assert (Q : forall n vs, severity n -> exists r, write (snd st) (fst st) n None vs = Ok r /\
        (r <> None <-> n <= level_now hist /\ n <= global_now hist)).
    { intros n vs Hn. destruct (C85_level_filter id hist st rs n None vs R Hn) as (r & E & B).
      exists r. split; [|exact B]. destruct st as [l g]. exact E. }
    destruct lv as [n|].
    - destruct (Q n [AVal v; AOpt (LineOpt 4 true false)] (Hlv _ eq_refl)) as (r & -> & B).
      exists r, (Some v). cbn [bind]. split; [reflexivity|]. split; [reflexivity|].
      split; [intros K; split; [discriminate|]; now apply B|intros (_ & K); now apply B].
    - destruct (Q LevelError [AVal v; AOpt (LineOpt 5 true false)]) as (r & -> & B); [unfold severity, LevelError; lia|].
      exists r, (Some v). cbn [bind]. split; [reflexivity|]. split; [reflexivity|].
      split; [intros K; split; [discriminate|]; now apply B|intros (_ & K); now apply B].
  Qed.

  (** C117 (refutation). With a level that is not an index of the tag table --
      the zero value of Level, for one -- Recover itself panics, on every logger
      and whatever was configured; and a function that panics with nil cannot be
      told from one that returns. *)
  Theorem C117_recover_refuted id hist st rs v n :
    lrun (fresh id, 8) hist = (st, rs) ->
    (n <= 0 -> 0 <= level_now hist -> 0 <= global_now hist -> recover (snd st) (fst st) (Some (inl v)) (Some n) = Panic) /\
    recover (snd st) (fst st) (Some (inr tt)) (Some n) = recover (snd st) (fst st) None (Some n).
  Proof using Type.
    intros R. split; [|reflexivity]. intros Hn L G.
    apply reached in R. destruct R as (H1 & H2 & _).
    unfold LogModel.recover, LogModel.write. rewrite H1, H2.
    destruct (Z.ltb_spec (level_now hist) n); [lia|]. destruct (Z.ltb_spec (global_now hist) n); [lia|].
    cbn [orb]. destruct (parse_values V (fst st) _) as [vs' o]. destruct (get_prefix V (fst st) vs') as [p vs''].
    unfold LogModel.print, arr_get. destruct (Z.ltb_spec (n - 1) 0); [|lia]. reflexivity.
  Qed.
End Log.

(** *** The hypotheses are met: a history of a request logger and its lines *)
Definition sample_hist : list (lop nat) :=
  [LSetPrefix _ (bs "[api]"); LLog _ 7 None [AVal 5%nat; AOpt (LineOpt 0 false true)];
   LSetLevel _ 4; LLog _ 5 None [AVal 6%nat]; LLog _ 4 (Some (bs "%d")) [AVal 7%nat];
   LSetColor _ true; LRecover _ (Some (inl 9%nat)) None; LSetLevel _ 0; LSetLevel _ 8; LRecover _ (Some (inl 9%nat)) (Some 0)].
Definition sample_ln (vs : list (arg nat)) : bytes := bs "msg" ++ [nl].
Definition sample_f (f : bytes) (vs : list (arg nat)) : bytes := f.
Definition sample_lines :=
  snd (lrun nat sample_f sample_ln (fun _ => None) (fun _ => bs "stack") (new_req_logger nat (bs "id42"), 8) sample_hist).
Example sample_log :
  sample_lines =
  [Ok None; Ok (Some (bs "[INFO][id42][api] msg")); Ok None; Ok None; Ok (Some (bs "[ERROR][id42][api] %d"));
   Ok None; Ok (Some ((esc :: bs "[1;31m[ERROR][id42][api]") ++ (esc :: bs "[0m msg\n\nstack"))); Ok None; Ok None; Panic].
Proof. vm_compute. reflexivity. Qed.
Example sample_levels : level_now sample_hist = 8 /\ flat_now sample_hist = true /\ color_now sample_hist = true.
Proof. repeat split. Qed.

Print Assumptions C85_level_filter.
Print Assumptions C85_more_severe_passes.
Print Assumptions C86_flat_one_line.
Print Assumptions C87_carries_request_id.
Print Assumptions C116_printed_text.
Print Assumptions C117_recover_partial.
Print Assumptions C117_recover_refuted.
