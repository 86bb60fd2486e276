(** Props_Listen: C189, where Run listens *)
From Coq Require Import List Ascii String Bool Arith Lia.
Import ListNotations.
From Verif Require Import GoStr SetupModel ListenModel.

(** host:port, and [host]:port for hosts with colons *)
Definition free (cs : bytes) (s : bytes) : Prop := forall c, In c cs -> ~ In c s.
Inductive endpoint : bytes -> bytes -> bytes -> Prop :=
| e_plain h p : free (bs ":[]") h -> free (bs ":[]") p -> endpoint (h ++ ":"%char :: p) h p
| e_brackets h p : free (bs "[]") h -> free (bs ":[]") p -> endpoint ("["%char :: h ++ "]"%char :: ":"%char :: p) h p.

Lemma has_spec c s : has c s = true <-> In c s.
Proof. unfold has. rewrite existsb_exists. split; [intros (x & H & E); apply Ascii.eqb_eq in E as <-; exact H|intros H; exists c; split; [exact H|apply Ascii.eqb_refl]]. Qed.
Lemma has_false c s : has c s = false <-> ~ In c s.
Proof. rewrite <- has_spec. destruct (has c s); split; congruence. Qed.
Lemma free3 s : free (bs ":[]") s <-> ~ In ":"%char s /\ ~ In "["%char s /\ ~ In "]"%char s.
Proof.
  unfold free. split; [intros H; repeat split; apply H; cbn; auto|]. intros (A & B & C) c [<-|[<-|[<-|[]]]]; assumption.
Qed.
Lemma free2 s : free (bs "[]") s <-> ~ In "["%char s /\ ~ In "]"%char s.
Proof. unfold free. split; [intros H; split; apply H; cbn; auto|]. intros (B & C) c [<-|[<-|[]]]; assumption. Qed.
(** the last colon *)
Lemma last_colon s : match index_byte ":"%char (rev s) with
  | None => ~ In ":"%char s
  | Some j => exists b p, s = b ++ ":"%char :: p /\ ~ In ":"%char p /\ rev (skipn (S j) (rev s)) = b /\ rev (firstn j (rev s)) = p
  end.
Proof.
  destruct (index_byte ":"%char (rev s)) as [j|] eqn:E.
  - destruct (index_byte_some _ _ _ E) as (l & r & R & L & N). exists (rev r), (rev l).
    assert (Es : s = rev r ++ ":"%char :: rev l) by (rewrite <- (rev_involutive s), R, rev_app_distr; cbn [rev]; rewrite <- app_assoc; reflexivity).
    split; [exact Es|]. split; [rewrite <- in_rev; exact N|]. rewrite R. subst j. split.
    + f_equal. clear. induction l as [|a l IH]; [reflexivity|exact IH].
    + f_equal. clear. induction l as [|a l IH]; [destruct r; reflexivity|cbn; f_equal; exact IH].
  - apply index_byte_none in E. rewrite <- in_rev in E. exact E.
Qed.
Lemma last_unique (c : ascii) b p b' p' : b ++ c :: p = b' ++ c :: p' -> ~ In c p -> ~ In c p' -> b = b' /\ p = p'.
Proof.
  revert b'. induction b as [|x b IH]; intros [|y b'] E N N'; cbn in E.
  - injection E as ->. auto.
  - injection E as <- ->. exfalso. apply N. apply in_or_app. right. left. reflexivity.
  - injection E as -> <-. exfalso. apply N'. apply in_or_app. right. left. reflexivity.
  - injection E as <- E. apply IH in E as (-> & ->); auto.
Qed.
Theorem C189_endpoints s h p : split_host_port s = Some (h, p) <-> endpoint s h p.
Proof.
  unfold split_host_port. pose proof (last_colon s) as L. destruct (index_byte ":"%char (rev s)) as [j|].
  - destruct L as (b & p0 & Es & Np & Eb & Ep). rewrite Eb, Ep. clear Eb Ep j.
    destruct (match s with "["%char :: r => Some r | _ => None end) as [r|] eqn:B.
    + assert (Sr : s = "["%char :: r) by (destruct s as [|[[] [] [] [] [] [] [] []] s]; try discriminate B; injection B as ->; reflexivity). rewrite Sr. rewrite <- Sr.
      destruct (index_byte "]"%char s) as [e|] eqn:Ee.
      * destruct (index_byte_some _ _ _ Ee) as (l & t & St & El & Nl).
        assert (Hl : exists l', l = "["%char :: l') by (destruct l as [|x l']; [rewrite St in Sr; discriminate|rewrite St in Sr; injection Sr as -> _; eexists; reflexivity]). destruct Hl as (l' & ->).
        assert (F : firstn e s = "["%char :: l') by (subst e; rewrite St; apply firstn_app_len).
        assert (K : skipn (S e) s = t) by (subst e; rewrite St; apply skipn_S_app).
        rewrite F, K. cbn [skipn]. clear F K B Ee. rename El into El0.
        assert (Er : r = l' ++ "]"%char :: t) by (rewrite St in Sr; injection Sr as <-; reflexivity).
        assert (G : Nat.eqb (S e) (List.length b) = true <-> b = ("["%char :: l') ++ ["]"%char] /\ t = ":"%char :: p0).
        { rewrite Nat.eqb_eq. rewrite St in Es. assert (El : e = List.length ("["%char :: l')) by (symmetry; exact El0). subst e. split.
          - intros H. assert (X : ("["%char :: l') ++ "]"%char :: t = (("["%char :: l') ++ ["]"%char]) ++ t) by (rewrite <- app_assoc; reflexivity). rewrite X in Es.
            assert (Ln : List.length (("["%char :: l') ++ ["]"%char]) = List.length b) by (rewrite app_length; cbn [List.length] in *; lia).
            clear - Es Ln. revert b Es Ln. generalize (("["%char :: l') ++ ["]"%char]). induction l as [|x l IH]; intros [|y b] Es Ln; cbn in Ln; try lia; [split; [reflexivity|exact Es]|].
            cbn in Es. injection Es as <- Es. destruct (IH b Es ltac:(lia)) as (-> & ->). auto.
          - intros (-> & _). rewrite app_length. cbn. lia. }
        destruct (Nat.eqb (S e) (List.length b)) eqn:Q.
        -- destruct (proj1 G eq_refl) as (-> & ->). rewrite Er. destruct (has "["%char (l' ++ "]"%char :: ":"%char :: p0)) eqn:H1; cbn [orb].
           { split; [discriminate|]. intros X. exfalso. apply has_spec in H1. rewrite Sr, Er in X. inversion X as [h' p' F1 F2 E1|h' p' F1 F2 E1]; subst.
             - apply free3 in F1. apply free3 in F2. destruct h as [|x h]; [discriminate|]. cbn in E1. injection E1 as -> _. destruct F1 as (_ & Fx & _). apply Fx. left. reflexivity.
             - apply free2 in F1. apply free3 in F2. match goal with E1 : _ = l' ++ _ |- _ => rewrite <- E1 in H1 end.
               apply in_app_or in H1 as [H1|[H1|[H1|H1]]]; try discriminate; tauto. }
           apply has_false in H1. destruct (has "]"%char (":"%char :: p0)) eqn:H2.
           { split; [discriminate|]. intros X. exfalso. apply has_spec in H2. rewrite Sr, Er in X. inversion X as [h' p' F1 F2 E1|h' p' F1 F2 E1]; subst.
             - apply free3 in F1. destruct h as [|x h]; [discriminate|]. cbn in E1. injection E1 as -> _. destruct F1 as (_ & Fx & _). apply Fx. left. reflexivity.
             - apply free2 in F1. apply free3 in F2. match goal with E1 : _ = l' ++ _ |- _ => rename E1 into Y end.
               assert (Z : h = l' /\ ":"%char :: p = ":"%char :: p0).
               { clear - Y F1 Nl. revert l' Y Nl. induction h as [|x h IH]; intros [|y l'] Y Nl; cbn in Y.
                 - injection Y as ->. auto.
                 - injection Y as <- _. exfalso. apply Nl. right. left. reflexivity.
                 - injection Y as -> _. exfalso. apply (proj2 F1). left. reflexivity.
                 - injection Y as <- Y. destruct (IH (conj (fun H => proj1 F1 (or_intror H)) (fun H => proj2 F1 (or_intror H))) l' Y) as (-> & Z); [intros [H|H]; [discriminate|apply Nl; right; right; exact H]|]. auto. }
               destruct Z as (_ & [= ->]). destruct H2 as [H2|H2]; [discriminate|]. tauto. }
           apply has_false in H2. split.
           ++ intros [= <- <-]. rewrite Sr, Er. apply e_brackets; [apply free2; split; [intros H; apply H1; apply in_or_app; left; exact H|intros H; apply Nl; right; exact H]|].
              apply free3. split; [exact Np|]. split; [intros H; apply H1; apply in_or_app; right; right; right; exact H|intros H; apply H2; right; exact H].
           ++ intros X. rewrite Sr, Er in X. inversion X as [h' p' F1 F2 E1|h' p' F1 F2 E1]; subst.
              ** apply free3 in F1. destruct h as [|x h]; [discriminate|]. cbn in E1. injection E1 as -> _. exfalso. destruct F1 as (_ & Fx & _). apply Fx. left. reflexivity.
              ** match goal with Y : _ = l' ++ _ |- _ => change (l' ++ "]"%char :: ":"%char :: p0) with (l' ++ ["]"%char] ++ ":"%char :: p0) in Y; change (h ++ "]"%char :: ":"%char :: p) with (h ++ ["]"%char] ++ ":"%char :: p) in Y; rewrite !app_assoc in Y; apply last_unique in Y as (Y1 & ->); [|apply free3 in F2; tauto|exact Np] end.
                 apply app_inj_tail in Y1 as (-> & _). reflexivity.
        -- split; [discriminate|]. intros X. exfalso. rewrite Sr, Er in X. rewrite St in Es. clear Sr Er St. inversion X as [h' p' F1 F2 E1|h' p' F1 F2 E1]; subst h' p'.
           ++ apply free3 in F1. destruct h as [|x h]; [discriminate|]. cbn in E1. injection E1 as -> _. destruct F1 as (_ & Fx & _). apply Fx. left. reflexivity.
           ++ assert (false = true); [|discriminate]. apply G. match goal with Y : _ = l' ++ _ |- _ => rename Y into Y0 end.
              apply free2 in F1. apply free3 in F2. cbn [app] in Es. rewrite <- Y0 in Es.
              assert (Y1 : ("["%char :: h ++ ["]"%char]) ++ ":"%char :: p = b ++ ":"%char :: p0) by (rewrite <- Es; cbn; rewrite <- app_assoc; reflexivity).
              apply last_unique in Y1 as (<- & ->); [|tauto|exact Np].
              assert (Z : h = l' /\ t = ":"%char :: p0).
              { clear - Y0 F1 Nl. revert l' Y0 Nl. induction h as [|x h IH]; intros [|y l'] Y Nl; cbn in Y.
                - injection Y as <-. auto.
                - injection Y as <- _. exfalso. apply Nl. right. left. reflexivity.
                - injection Y as -> _. exfalso. apply (proj2 F1). left. reflexivity.
                - injection Y as <- Y. destruct (IH (conj (fun H => proj1 F1 (or_intror H)) (fun H => proj2 F1 (or_intror H))) l' Y) as (-> & Z); [intros [H|H]; [discriminate|apply Nl; right; right; exact H]|]. auto. }
              destruct Z as (-> & ->). auto.
      * split; [discriminate|]. intros X. exfalso. apply index_byte_none in Ee. clear Es B. rewrite Sr in X. inversion X as [h' p' F1 F2 E1|h' p' F1 F2 E1]; subst.
        -- apply free3 in F1. destruct h as [|x h]; [discriminate|]. cbn in E1. injection E1 as -> _. destruct F1 as (_ & Fx & _). apply Fx. left. reflexivity.
        -- apply Ee. right. apply in_or_app. right. left. reflexivity.
    + assert (M : forall (A : Type) (x : bytes -> A) (y : A), match s with "["%char :: r => x r | _ => y end = y).
      { intros A x y. destruct s as [|[[] [] [] [] [] [] [] []] s]; try reflexivity. discriminate B. }
      rewrite M. clear M.
      assert (H0 : forall r, s <> "["%char :: r) by (intros r ->; discriminate B).
      destruct (has ":"%char b) eqn:Hb.
      * split; [discriminate|]. intros X. exfalso. apply has_spec in Hb. inversion X as [h' p' F1 F2 E1|h' p' F1 F2 E1]; subst h' p'; [|exact (H0 _ (eq_sym E1))].
        apply free3 in F1. apply free3 in F2. rewrite Es in E1. apply last_unique in E1 as (-> & ->); [tauto|tauto|exact Np].
      * apply has_false in Hb. destruct (has "["%char s) eqn:H1; cbn [orb].
        { split; [discriminate|]. intros X. exfalso. apply has_spec in H1. inversion X as [h' p' F1 F2 E1|h' p' F1 F2 E1]; subst h' p'; [|exact (H0 _ (eq_sym E1))].
          apply free3 in F1. apply free3 in F2. rewrite <- E1 in H1. apply in_app_or in H1 as [H1|[H1|H1]]; [tauto|discriminate|tauto]. }
        apply has_false in H1. destruct (has "]"%char s) eqn:H2.
        { split; [discriminate|]. intros X. exfalso. apply has_spec in H2. inversion X as [h' p' F1 F2 E1|h' p' F1 F2 E1]; subst h' p'; [|exact (H0 _ (eq_sym E1))].
          apply free3 in F1. apply free3 in F2. rewrite <- E1 in H2. apply in_app_or in H2 as [H2|[H2|H2]]; [tauto|discriminate|tauto]. }
        apply has_false in H2. split.
        -- intros [= <- <-]. rewrite Es. rewrite Es in H1, H2. apply e_plain; apply free3; (split; [assumption|split; intros H; [apply H1|apply H2]; apply in_or_app; auto]); right; right; exact H.
        -- intros X. inversion X as [h' p' F1 F2 E1|h' p' F1 F2 E1]; subst h' p'; [|exfalso; exact (H0 _ (eq_sym E1))].
           apply free3 in F2. rewrite Es in E1. apply last_unique in E1 as (-> & ->); [reflexivity|tauto|exact Np].
  - split; [discriminate|]. intros X. exfalso. apply L. inversion X; subst; [apply in_or_app; right; left; reflexivity|right; apply in_or_app; right; right; left; reflexivity].
Qed.

(** ** C189: where Run listens *)
(** for ports without colons and brackets: at the configured host and port exactly if the host has no colon or
    bracket, or is one in brackets; otherwise Run returns an error at once *)
Theorem C189_where_run_listens s h p : free (bs ":[]") (http_port s) ->
  (listens s = Some (h, p) <->
   p = http_port s /\ ((h = http_addr s /\ free (bs ":[]") h) \/ (http_addr s = "["%char :: h ++ bs "]" /\ free (bs "[]") h))).
Proof.
  intros F. unfold listens. rewrite C189_endpoints. unfold address. change (bs ":" ++ http_port s) with (":"%char :: http_port s). split.
  - intros X. apply free3 in F. inversion X as [h' p' F1 F2 E|h' p' F1 F2 E]; subst h' p'; pose proof (proj1 (free3 _) F2) as F3.
    + apply last_unique in E as (-> & ->); [|tauto|tauto]. auto.
    + assert (E2 : ("["%char :: h ++ bs "]") ++ ":"%char :: p = http_addr s ++ ":"%char :: http_port s) by (rewrite <- E; cbn; rewrite <- app_assoc; reflexivity).
      apply last_unique in E2 as (E2 & ->); [|tauto|tauto]. auto.
  - intros (-> & [(-> & F1)|(E & F1)]); [apply e_plain; assumption|].
    rewrite E. cbn [app]. rewrite <- app_assoc. apply e_brackets; assumption.
Qed.
(** so an IPv6 host must be configured in brackets *)
Theorem C189_ipv6_refuted :
  listens (mkSettings [] (bs "dev") (bs "::1") (bs "8080")) = None /\
  listens (mkSettings [] (bs "dev") (bs "[::1]") (bs "8080")) = Some (bs "::1", bs "8080").
Proof. split; vm_compute; reflexivity. Qed.
Example C189_met : free (bs ":[]") (bs "8080") /\ listens (mkSettings [] (bs "dev") [] (bs "8080")) = Some ([], bs "8080").
Proof. split; [apply free3; rewrite <- !has_false; vm_compute; auto|vm_compute; reflexivity]. Qed.

Print Assumptions C189_endpoints.
Print Assumptions C189_where_run_listens.
Print Assumptions C189_ipv6_refuted.
