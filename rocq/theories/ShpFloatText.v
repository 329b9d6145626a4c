(** float(bytes) and int(bytes) accept exactly the texts of numbers. *)
From Coq Require Import ZArith List Bool Lia.
From Verif Require Import Py Text StrModel ShpFile ShpWriterModel ShpReaderModel ShpLib ShpTableSpec.
Import ListNotations.
Open Scope Z_scope.

Lemma is_digit_iff c : is_digit c = true <-> digit c.
Proof. unfold is_digit, digit. rewrite andb_true_iff, !Z.leb_le. tauto. Qed.
Lemma is_digit_false c : is_digit c = false <-> ~ digit c.
Proof. rewrite <- is_digit_iff. destruct (is_digit c); split; congruence. Qed.
Lemma digits_nonempty s : digits s -> exists d r, s = d :: r /\ digit d.
Proof. intros H. destruct H; eauto. Qed.

(** Plain digits *)
Definition plain_digs (s : list Z) : Prop := Forall digit s.
Lemma plain_digits s : plain_digs s -> s <> [] -> digits s.
Proof.
  induction 1 as [|c s H P IH]; [congruence|]. intros _. destruct s as [|d s].
  - constructor. exact H.
  - constructor; [exact H|]. apply IH. discriminate.
Qed.

(** [t] is [s] without underscores; each stood between digits. [b] tells whether
    a digit stands before [s]. *)
Inductive undone : bool -> list Z -> list Z -> Prop :=
| u_nil b : undone b [] []
| u_char b c s t : c <> 95 -> undone (is_digit c) s t -> undone b (c :: s) (c :: t)
| u_skip d s t : digit d -> undone true s t -> undone true (95 :: d :: s) (d :: t).
Lemma drop_under : forall s b t, drop_underscores b s = Some t <-> undone b s t.
Proof.
  fix IH 1. intros [|c s] b t.
  - cbn. split; [intros [= <-]; constructor|]. inversion 1. reflexivity.
  - cbn [drop_underscores]. destruct (Z.eqb_spec c 95) as [->|N].
    + destruct s as [|d s].
      * split; [discriminate|]. inversion 1. congruence.
      * destruct b; cbn [andb]; [|split; [discriminate|inversion 1; congruence]].
        destruct (is_digit d) eqn:D.
        -- apply is_digit_iff in D as D'. cbn [drop_underscores].
           destruct (Z.eqb_spec d 95) as [->|N]; [discriminate|]. rewrite D. split.
           ++ intros H. destruct (drop_underscores true s) as [t'|] eqn:E; [|discriminate]. injection H as <-.
              apply u_skip; [exact D'|]. apply IH, E.
           ++ inversion 1; subst; [congruence|]. match goal with K : undone true s _ |- _ => apply IH in K; rewrite K end. reflexivity.
        -- split; [discriminate|]. inversion 1; subst; [congruence|]. match goal with K : digit d |- _ => apply is_digit_iff in K end. congruence.
    + split.
      * intros H. destruct (drop_underscores (is_digit c) s) as [t'|] eqn:E; [|discriminate]. injection H as <-.
        apply u_char; [exact N|]. apply IH, E.
      * inversion 1; subst; [|congruence]. match goal with K : undone _ s _ |- _ => apply IH in K; rewrite K end. reflexivity.
Qed.
Lemma under_no_digit b s t : undone b s t -> Forall (fun c => ~ digit c) t -> s = t.
Proof. induction 1 as [|b c s t N U IH|d s t D U IH]; intros F; [reflexivity| |]; inversion F; subst; [f_equal; auto|contradiction]. Qed.
Definition no_digit_first (t : list Z) : Prop := forall c r, t = c :: r -> ~ digit c.
Lemma no_digit_nil : no_digit_first [].
Proof. intros c r H. discriminate. Qed.
Lemma under_char b s c t : undone b s (c :: t) -> ~ digit c -> exists s', s = c :: s' /\ undone false s' t.
Proof.
  intros U N. inversion U; subst; [|contradiction]. exists s0. split; [reflexivity|].
  apply is_digit_false in N. match goal with K : undone (is_digit c) _ _ |- _ => rewrite N in K; exact K end.
Qed.
Lemma under_end b s : undone b s [] -> s = [].
Proof. inversion 1. reflexivity. Qed.
Lemma under_after : forall a s t, plain_digs a -> no_digit_first t -> undone true s (a ++ t) ->
  exists a' s', s = a' ++ s' /\ (forall d, digit d -> digits (d :: a')) /\ undone true s' t.
Proof.
  induction a as [|c a IH]; intros s t P N U.
  - exists [], s. split; [reflexivity|]. split; [intros d D; constructor; exact D|exact U].
  - inversion P; subst. cbn [app] in U. inversion U; subst.
    + apply is_digit_iff in H1 as H1'. match goal with K : undone (is_digit c) _ _ |- _ => rewrite H1' in K; rename K into UU end. destruct (IH _ _ H2 N UU) as [a' [s' [E [D S]]]].
      exists (c :: a'), s'. split; [rewrite E; reflexivity|]. split; [|exact S].
      intros d Dd. apply digits_more; [exact Dd|]. apply D, H1.
    + match goal with K : undone true s0 _ |- _ => rename K into UU end. destruct (IH _ _ H2 N UU) as [a' [s' [E [D S]]]].
      exists (95 :: c :: a'), s'. split; [rewrite E; reflexivity|]. split; [|exact S].
      intros d Dd. apply digits_under; [exact Dd|]. apply D, H1.
Qed.
Lemma under_first b a s t : plain_digs a -> a <> [] -> no_digit_first t -> b = false -> undone b s (a ++ t) ->
  exists a' s', s = a' ++ s' /\ digits a' /\ undone true s' t.
Proof.
  intros P NE N -> U. destruct a as [|c a]; [congruence|]. inversion P; subst. cbn [app] in U. inversion U; subst.
  apply is_digit_iff in H1 as H1'. match goal with K : undone (is_digit c) _ _ |- _ => rewrite H1' in K; rename K into UU end. destruct (under_after _ _ _ H2 N UU) as [a' [s' [E [D S]]]].
  exists (c :: a'), s'. split; [rewrite E; reflexivity|]. split; [apply D, H1|exact S].
Qed.
(** Back *)
Lemma digit_not_underscore d : digit d -> d <> 95.
Proof. unfold digit. lia. Qed.
Lemma digits_under_plain a' : digits a' -> exists a, plain_digs a /\ a <> [] /\ forall b s t, undone true s t -> undone b (a' ++ s) (a ++ t).
Proof.
  induction 1 as [d D|d s D H IH|d s D H IH].
  - exists [d]. split; [constructor; [exact D|constructor]|]. split; [discriminate|]. intros b s t U. cbn [app].
    apply u_char; [apply digit_not_underscore, D|]. rewrite (proj2 (is_digit_iff d) D). exact U.
  - destruct IH as [a [P [NE IH]]]. exists (d :: a). split; [constructor; assumption|]. split; [discriminate|].
    intros b s0 t U. cbn [app]. apply u_char; [apply digit_not_underscore, D|]. apply IH, U.
  - destruct IH as [a [P [NE IH]]]. exists (d :: a). split; [constructor; assumption|]. split; [discriminate|].
    intros b s0 t U. cbn [app]. apply u_char; [apply digit_not_underscore, D|]. rewrite (proj2 (is_digit_iff d) D).
    specialize (IH false s0 t U). destruct s as [|e s]; [inversion H|]. destruct a as [|x a]; [congruence|].
    cbn [app] in IH |- *. inversion P; subst. inversion IH; subst. apply u_skip; [assumption|].
    rewrite (proj2 (is_digit_iff x) H2) in *. assumption.
Qed.

Lemma span_spec : forall s i r, span_digits s = (i, r) -> s = i ++ r /\ plain_digs i /\ no_digit_first r.
Proof.
  induction s as [|c s IH]; cbn; intros i r H.
  - injection H as <- <-. split; [reflexivity|]. split; [constructor|]. intros c r H. discriminate.
  - destruct (is_digit c) eqn:D.
    + destruct (span_digits s) as [a b] eqn:E. injection H as <- <-. destruct (IH _ _ eq_refl) as [-> [P N]].
      split; [reflexivity|]. split; [constructor; [apply is_digit_iff, D|exact P]|exact N].
    + injection H as <- <-. split; [reflexivity|]. split; [constructor|]. intros x r [= <- <-]. apply is_digit_false, D.
Qed.
Lemma span_app : forall i r, plain_digs i -> no_digit_first r -> span_digits (i ++ r) = (i, r).
Proof.
  induction i as [|c i IH]; intros r P N.
  - cbn [app]. destruct r as [|c r]; [reflexivity|]. cbn. rewrite (proj2 (is_digit_false c)); [reflexivity|]. apply (N c r eq_refl).
  - inversion P; subst. cbn. rewrite (proj2 (is_digit_iff c)) by assumption. rewrite IH by assumption. reflexivity.
Qed.
Lemma skip_spec t : exists g, t = g ++ skip_sign t /\ sign g.
Proof.
  unfold skip_sign, sign. destruct t as [|c t]; [exists []; auto|].
  destruct (Z.eq_dec c 43) as [->|N1]; [exists [43]; auto|]. destruct (Z.eq_dec c 45) as [->|N2]; [exists [45]; auto|].
  exists []. split; [|auto]. cbn [app]. destruct c as [|p|p]; try reflexivity. repeat (destruct p as [p|p|]; try reflexivity; try congruence).
Qed.
Lemma skip_app g u : sign g -> (forall c r, u = c :: r -> c <> 43 /\ c <> 45) -> skip_sign (g ++ u) = u.
Proof.
  intros [->|[->| ->]] N; [|reflexivity|reflexivity]. cbn [app]. unfold skip_sign. destruct u as [|c u]; [reflexivity|].
  destruct (N c u eq_refl). destruct c as [|p|p]; try reflexivity. repeat (destruct p as [p|p|]; try reflexivity; try congruence).
Qed.
Lemma sign_under g s u : sign g -> undone false s (g ++ u) -> exists s1, s = g ++ s1 /\ undone false s1 u.
Proof.
  change sign with (fun g => g = [] \/ g = [43] \/ g = [45]). cbv beta. intros [->|[->| ->]] U; [exists s; auto| |].
  - destruct (under_char _ _ 43 u U) as [s1 [-> H]]; [unfold digit; lia|]. exists s1. auto.
  - destruct (under_char _ _ 45 u U) as [s1 [-> H]]; [unfold digit; lia|]. exists s1. auto.
Qed.
Lemma under_sign g s u : sign g -> undone false s u -> undone false (g ++ s) (g ++ u).
Proof.
  intros [->|[->| ->]] U; [exact U| |]; cbn; (apply u_char; [discriminate|exact U]).
Qed.

Lemma lower_letter_iff l c : 97 <= l <= 122 -> lower_letter c = l <-> letter l c.
Proof.
  unfold lower_letter, letter. intros H. destruct (Z.leb_spec 65 c), (Z.leb_spec c 90); cbn [andb]; lia.
Qed.
Lemma word_iff w u : Forall (fun l => 97 <= l <= 122) w -> (map lower_letter u = w <-> Forall2 letter w u).
Proof.
  intros F. revert u. induction F as [|l w H F IH]; intros [|c u]; cbn.
  - split; [constructor|reflexivity].
  - split; [discriminate|inversion 1].
  - split; [discriminate|inversion 1].
  - split.
    + intros [= A B]. constructor; [apply lower_letter_iff; assumption|apply IH, B].
    + inversion 1; subst. f_equal; [apply lower_letter_iff; assumption|apply IH; assumption].
Qed.
Lemma special_iff u : zlist_eqb (map lower_letter u) (text "inf") || zlist_eqb (map lower_letter u) (text "infinity") || zlist_eqb (map lower_letter u) (text "nan") = true <-> special u.
Proof.
  rewrite !orb_true_iff. unfold special.
  assert (Z : forall w, Forall (fun l => 97 <= l <= 122) w -> (zlist_eqb (map lower_letter u) w = true <-> Forall2 letter w u)).
  { intros w F. rewrite <- (word_iff w u F). apply zlist_eqb_eq. }
  rewrite !Z by (apply Forall_forall; intros ? KK; vm_compute in KK; lia). tauto.
Qed.
Lemma special_letters u : special u -> Forall (fun c => 65 <= c <= 122) u.
Proof.
  assert (W : forall w, Forall (fun l => 97 <= l <= 122) w -> Forall2 letter w u -> Forall (fun c => 65 <= c <= 122) u).
  { intros w F H. clear -F H. induction H as [|l c w u L H IH]; constructor; inversion F; subst; [unfold letter in L; lia|auto]. }
  intros [H|[H|H]]; (eapply W; [|exact H]); apply Forall_forall; intros ? KK; vm_compute in KK; lia.
Qed.

Lemma nonempty_iff s : nonempty s = true <-> s <> [].
Proof. destruct s; cbn; split; congruence. Qed.
Lemma exponent_sound s t : undone true s t -> no_digit_first t -> exponent_ok t = true -> exponent s.
Proof.
  intros U N H. destruct t as [|c r]; [left; apply (under_end _ _ U)|]. right. cbn [exponent_ok] in H.
  destruct (span_digits (skip_sign r)) as [d t] eqn:E. apply andb_true_iff in H as [C H]. apply andb_true_iff in H as [ND NT].
  apply nonempty_iff in ND. destruct t; [|discriminate]. apply span_spec in E as [E [P _]]. rewrite app_nil_r in E.
  destruct (under_char _ _ _ _ U (N c r eq_refl)) as [s1 [-> U1]].
  destruct (skip_spec r) as [g [ER G]]. rewrite ER, E in U1. destruct (sign_under _ _ _ G U1) as [s2 [-> U2]].
  rewrite <- (app_nil_r d) in U2. destruct (under_first _ _ _ _ P ND no_digit_nil eq_refl U2) as [a' [s' [-> [D U3]]]].
  apply under_end in U3 as ->. rewrite app_nil_r. exists g, a'. split; [exact G|]. split; [exact D|].
  apply orb_true_iff in C as [C|C]; apply Z.eqb_eq in C as ->; [right|left]; reflexivity.
Qed.
Lemma float_sound s : float_ok s = true -> float_text s.
Proof.
  unfold float_ok. destruct (drop_underscores false s) as [t|] eqn:ED; [|discriminate]. apply drop_under in ED. cbv zeta.
  destruct (skip_spec t) as [g [ET G]]. set (u := skip_sign t) in *. clearbody u. subst t.
  destruct (sign_under _ _ _ G ED) as [s1 [-> U]]. clear ED.
  destruct (zlist_eqb _ _ || _ || _) eqn:SP.
  - apply special_iff in SP. intros _. exists g, u, []. rewrite app_nil_r. split; [|split; [exact G|right; auto]].
    f_equal. apply (under_no_digit false); [exact U|]. eapply Forall_impl; [|apply special_letters, SP]. unfold digit. cbn beta. intros; lia.
  - clear SP. destruct (span_digits u) as [i r] eqn:EI. apply span_spec in EI as [-> [PI NI]].
    intros H. assert (X : (exists r1, r = 46 :: r1) \/ match r with 46 :: r1 => span_digits r1 | _ => ([], r) end = ([], r)).
    { destruct r as [|c r]; [right; reflexivity|]. destruct (Z.eq_dec c 46) as [->|N]; [left; eauto|right].
      destruct c as [|p|p]; try reflexivity. repeat (destruct p as [p|p|]; try reflexivity; try congruence). }
    destruct X as [[r1 ->]|X].
    + destruct (span_digits r1) as [f r'] eqn:EF. apply span_spec in EF as [-> [PF NF]]. apply andb_true_iff in H as [NE EX]. apply nonempty_iff in NE.
      assert (A : exists i' b s', s1 = i' ++ s' /\ (i = [] /\ i' = [] \/ i <> [] /\ digits i') /\ undone b s' (46 :: f ++ r')).
      { destruct i as [|c i]; [exists [], false, s1; auto|].
        destruct (under_first _ _ _ _ PI ltac:(discriminate) NI eq_refl U) as [a' [s' [E [D U']]]]. exists a', true, s'. split; [exact E|]. split; [right; split; [discriminate|exact D]|exact U']. }
      destruct A as [i' [b [s' [-> [HI U1]]]]]. destruct (under_char _ _ _ _ U1) as [s2 [-> U2]]; [unfold digit; lia|].
      assert (Y : exists f' s3, s2 = f' ++ s3 /\ (f = [] /\ f' = [] \/ f <> [] /\ digits f') /\ exponent s3).
      { destruct f as [|c f].
        - exists [], s2. split; [reflexivity|]. split; [auto|]. cbn [app] in U2. destruct r' as [|x r'].
          + left. apply (under_end _ _ U2).
          + apply (exponent_sound _ (x :: r')); [|exact NF|exact EX]. inversion U2; subst. constructor; assumption.
        - destruct (under_first _ _ _ _ PF ltac:(discriminate) NF eq_refl U2) as [a' [s3 [E [D U']]]]. exists a', s3.
          split; [exact E|]. split; [right; split; [discriminate|exact D]|]. apply (exponent_sound _ _ U' NF EX). }
      destruct Y as [f' [s3 [-> [HF EX3]]]].
      exists g, (i' ++ text "." ++ f'), s3. split; [cbn; rewrite <- !app_assoc; reflexivity|]. split; [exact G|]. left. split; [|exact EX3].
      destruct HI as [[-> ->]|[_ DI]], HF as [[-> ->]|[_ DF]].
      * cbn in NE. congruence.
      * right. right. left. exists f'. auto.
      * right. left. exists i'. auto.
      * right. right. right. exists i', f'. auto.
    + rewrite X in H. apply andb_true_iff in H as [NE EX]. rewrite app_nil_r in NE. apply nonempty_iff in NE.
      destruct (under_first _ _ _ _ PI NE NI eq_refl U) as [a' [s' [-> [D U']]]].
      exists g, a', s'. split; [reflexivity|]. split; [exact G|]. left. split; [left; exact D|]. apply (exponent_sound _ _ U' NI EX).
Qed.

Lemma exponent_complete e : exponent e -> exists t, undone true e t /\ no_digit_first t /\ exponent_ok t = true /\ (forall c r, t = c :: r -> c = 69 \/ c = 101).
Proof.
  intros [->|[g [d [G [D E]]]]].
  - exists []. split; [constructor|]. split; [intros c r H; discriminate|]. split; [reflexivity|intros c r H; discriminate].
  - destruct (digits_under_plain d D) as [a [P [NE U]]]. specialize (U false [] [] (u_nil _)). rewrite !app_nil_r in U.
    pose proof (under_sign _ _ _ G U) as U1.
    assert (S : skip_sign (g ++ a) = a).
    { apply skip_app; [exact G|]. intros c r ->. inversion P; subst. unfold digit in *. lia. }
    assert (K : forall c, c = 69 \/ c = 101 -> exists t, undone true (c :: g ++ d) t /\ no_digit_first t /\ exponent_ok t = true /\ (forall c r, t = c :: r -> c = 69 \/ c = 101)).
    { intros c HC. exists (c :: g ++ a). split; [|split; [|split]].
      - apply u_char; [lia|]. rewrite (proj2 (is_digit_false c)) by (unfold digit; lia). exact U1.
      - intros x r [= <- <-]. unfold digit. lia.
      - cbn [exponent_ok]. rewrite S. rewrite <- (app_nil_r a), span_app; [|exact P|exact no_digit_nil].
        rewrite (proj2 (nonempty_iff a) NE). destruct HC as [-> | ->]; reflexivity.
      - intros x r [= <- <-]. exact HC. }
    destruct E as [->| ->]; apply K; auto.
Qed.
Lemma plain_first a c r : plain_digs a -> a = c :: r -> digit c.
Proof. intros P ->. inversion P. assumption. Qed.
Lemma special_not_digit u : special u -> no_digit_first u.
Proof. intros S c r ->. apply special_letters in S. inversion S; subst. unfold digit. lia. Qed.
Lemma float_parse t u i f r' : skip_sign t = u -> ~ special u -> plain_digs i -> plain_digs f -> i ++ f <> [] ->
  (u = i ++ r' /\ f = [] /\ no_digit_first r' /\ (forall r1, r' <> 46 :: r1) \/ u = i ++ 46 :: f ++ r' /\ no_digit_first r') ->
  exponent_ok r' = true -> forall s, undone false s t -> float_ok s = true.
Proof.
  intros E NS PI PF NE C X s U. apply drop_under in U. unfold float_ok. rewrite U, E. cbv zeta.
  destruct (zlist_eqb _ _ || _ || _) eqn:SP; [reflexivity|]. clear SP.
  destruct C as [[-> [-> [N D]]]|[-> N]].
  - rewrite span_app by assumption.
    assert (Y : match r' with 46 :: r1 => span_digits r1 | _ => ([], r') end = ([], r')).
    { destruct r' as [|c r]; [reflexivity|]. destruct (Z.eq_dec c 46) as [->|N']; [elim (D r eq_refl)|].
      destruct c as [|p|p]; try reflexivity. repeat (destruct p as [p|p|]; try reflexivity; try congruence). }
    rewrite Y, X, (proj2 (nonempty_iff _) NE). reflexivity.
  - rewrite span_app; [|exact PI|intros c r [= <- _]; unfold digit; lia].
    rewrite span_app by assumption. rewrite X, (proj2 (nonempty_iff _) NE). reflexivity.
Qed.
Lemma special_first u c r : special u -> u = c :: r -> 65 <= c.
Proof. intros S ->. apply special_letters in S. inversion S; subst. lia. Qed.
Lemma float_complete s : float_text s -> float_ok s = true.
Proof.
  intros [g [m [e [-> [G [[M X]|[S ->]]]]]]].
  - destruct (exponent_complete e X) as [te [UE [NE [XE FE]]]].
    assert (ND : forall r1, te <> 46 :: r1) by (intros r1 K; destruct (FE _ _ K); discriminate).
    assert (B : forall i r, plain_digs i -> i <> [] -> ~ special (i ++ r) /\ (forall c r0, i ++ r = c :: r0 -> c <> 43 /\ c <> 45)).
    { intros i r P N. destruct i as [|c i]; [congruence|]. inversion P; subst. split.
      - intros K. pose proof (special_first _ c (i ++ r) K eq_refl). unfold digit in *. lia.
      - intros c0 r0 [= <- _]. unfold digit in *. lia. }
    destruct M as [D|[[a [D ->]]|[[b [D ->]]|[a [b [D [D' ->]]]]]]].
    + destruct (digits_under_plain m D) as [i [P [N U]]]. destruct (B i te P N) as [B1 B2].
      eapply (float_parse (g ++ i ++ te) (i ++ te) i [] te); [apply skip_app; assumption|exact B1|exact P|constructor|rewrite app_nil_r; exact N| |exact XE|].
      * left. auto.
      * apply under_sign; [exact G|]. apply U, UE.
    + destruct (digits_under_plain a D) as [i [P [N U]]]. destruct (B i (46 :: te) P N) as [B1 B2].
      eapply (float_parse (g ++ i ++ 46 :: te) (i ++ 46 :: te) i [] te); [apply skip_app; assumption|exact B1|exact P|constructor|rewrite app_nil_r; exact N| |exact XE|].
      * right. auto.
      * apply under_sign; [exact G|]. rewrite <- app_assoc. apply U. cbn. apply u_char; [discriminate|].
        change (is_digit 46) with false. destruct te as [|x te]; [apply under_end in UE as ->; constructor|].
        destruct (under_char _ _ _ _ UE (NE _ _ eq_refl)) as [e1 [-> U1]]. apply u_char; [destruct (FE _ _ eq_refl); lia|].
        rewrite (proj2 (is_digit_false x) (NE _ _ eq_refl)). exact U1.
    + destruct (digits_under_plain b D) as [f [P [N U]]].
      eapply (float_parse (g ++ 46 :: f ++ te) (46 :: f ++ te) [] f te); [apply skip_app; [exact G|intros c r [= <- _]; lia]| |constructor|exact P|exact N| |exact XE|].
      * intros K. pose proof (special_first _ _ _ K eq_refl). lia.
      * right. auto.
      * apply under_sign; [exact G|]. cbn. apply u_char; [discriminate|]. apply U, UE.
    + destruct (digits_under_plain a D) as [i [P [N U]]]. destruct (digits_under_plain b D') as [f [P' [N' U']]].
      destruct (B i (46 :: f ++ te) P N) as [B1 B2].
      eapply (float_parse (g ++ i ++ 46 :: f ++ te) (i ++ 46 :: f ++ te) i f te); [apply skip_app; assumption|exact B1|exact P|exact P'| | |exact XE|].
      * intros K. apply app_eq_nil in K. tauto.
      * right. auto.
      * apply under_sign; [exact G|]. rewrite <- app_assoc. apply U. cbn. apply u_char; [discriminate|]. change (is_digit 46) with false. apply U', UE.
  - rewrite app_nil_r. pose proof (special_letters m S) as L.
    assert (U : undone false m m).
    { assert (NU : Forall (fun c => c <> 95 /\ ~ digit c) m).
      { assert (W : forall w, Forall (fun l => 97 <= l <= 122) w -> Forall2 letter w m -> Forall (fun c => c <> 95 /\ ~ digit c) m).
        { intros w F H. clear -F H. induction H as [|l c w u L H IH]; constructor; inversion F; subst; [unfold letter, digit in *; lia|auto]. }
        destruct S as [H|[H|H]]; (eapply W; [|exact H]); apply Forall_forall; intros ? KK; vm_compute in KK; lia. }
      clear -NU. induction NU as [|c m [N D] F IH]; [constructor|]. apply u_char; [exact N|]. rewrite (proj2 (is_digit_false c) D). exact IH. }
    pose proof (under_sign g _ _ G U) as U1. apply drop_under in U1. unfold float_ok. rewrite U1. cbv zeta.
    rewrite skip_app; [|exact G|intros c r ->; inversion L; lia]. rewrite (proj2 (special_iff m) S). reflexivity.
Qed.
Lemma float_ok_iff s : float_ok s = true <-> float_text s.
Proof. split; [apply float_sound|apply float_complete]. Qed.

(** Texts of numbers have neither NULs nor blanks. *)
Definition clean_text (s : list Z) : Prop := Forall (fun x => x <> 0 /\ ~ blank_byte x) s.
Lemma digits_clean s : digits s -> clean_text s.
Proof. induction 1; repeat (constructor; [unfold digit, blank_byte in *; lia|]); try assumption; constructor. Qed.
Lemma sign_clean g : sign g -> clean_text g.
Proof.
  change sign with (fun g => g = [] \/ g = [43] \/ g = [45]). cbv beta.
  intros [->|[->| ->]]; repeat constructor; unfold blank_byte; lia.
Qed.
Lemma single_clean c : 32 < c -> clean_text [c].
Proof. intros H. repeat constructor; unfold blank_byte; lia. Qed.
Lemma clean_app a b : clean_text a -> clean_text b -> clean_text (a ++ b).
Proof. intros A B. apply Forall_app. split; assumption. Qed.
Lemma float_clean s : float_text s -> clean_text s.
Proof.
  intros [g [m [e [-> [G [[M X]|[S ->]]]]]]].
  - repeat apply clean_app; [apply sign_clean, G| |].
    + destruct M as [D|[[a [D ->]]|[[b [D ->]]|[a [b [D [D' ->]]]]]]]; repeat apply clean_app;
        first [apply digits_clean; assumption | apply (single_clean 46); lia].
    + destruct X as [->|[g' [d [G' [D [->| ->]]]]]]; [constructor| |]; repeat apply clean_app;
        first [apply digits_clean; assumption | apply sign_clean; assumption | apply (single_clean 101); lia | apply (single_clean 69); lia].
  - repeat apply clean_app; [apply sign_clean, G| |constructor]. eapply Forall_impl; [|apply special_letters, S].
    unfold blank_byte. cbn beta. intros; lia.
Qed.

(** int(bytes) *)
Lemma int_digits_true : forall s acc, (exists z, int_digits true acc s = Some z) <-> (forall d, digit d -> digits (d :: s)).
Proof.
  fix IH 1. intros [|c s] acc.
  - cbn. split; [intros _ d D; constructor; exact D|intros _; eauto].
  - cbn [int_digits]. destruct (is_digit c) eqn:DC.
    + rewrite IH. apply is_digit_iff in DC. split.
      * intros H d D. apply digits_more; [exact D|]. apply H, DC.
      * intros H d D. specialize (H 48 ltac:(unfold digit; lia)). inversion H; subst; [|unfold digit in DC; lia].
        inversion H3; subst; [constructor; exact D|constructor; assumption|constructor; assumption].
    + destruct (Z.eqb_spec c 95) as [->|N]; cbn [andb].
      * destruct s as [|e s].
        -- cbn. split; [intros [z H]; discriminate|]. intros H. specialize (H 48 ltac:(unfold digit; lia)). inversion H; subst.
           ++ inversion H3; subst; unfold digit in *; lia.
           ++ match goal with K : digits [] |- _ => inversion K end.
        -- cbn [int_digits]. rewrite Bool.andb_false_r. destruct (is_digit e) eqn:DE.
           ++ rewrite IH. apply is_digit_iff in DE. split.
              ** intros H d D. apply digits_under; [exact D|]. apply H, DE.
              ** intros H d D. specialize (H 48 ltac:(unfold digit; lia)). inversion H; subst.
                 { match goal with K : digits (95 :: _) |- _ => inversion K; subst; unfold digit in *; lia end. }
                 match goal with K : digits (e :: s) |- _ => inversion K; subst; constructor; assumption end.
           ++ split; [intros [z H]; discriminate|]. intros H. specialize (H 48 ltac:(unfold digit; lia)). apply is_digit_false in DE. inversion H; subst.
              { match goal with K : digits (95 :: _) |- _ => inversion K; subst; unfold digit in *; lia end. }
              match goal with K : digits (e :: s) |- _ => inversion K; subst; contradiction end.
      * split; [intros [z H]; discriminate|]. intros H. specialize (H 48 ltac:(unfold digit; lia)). apply is_digit_false in DC. inversion H; subst.
        { match goal with K : digits (c :: s) |- _ => inversion K; subst; contradiction end. }
        congruence.
Qed.
Lemma int_digits_false s acc : (exists z, int_digits false acc s = Some z) <-> digits s.
Proof.
  destruct s as [|c s]; cbn [int_digits]; [split; [intros [z H]; discriminate|inversion 1]|].
  rewrite Bool.andb_false_r. destruct (is_digit c) eqn:DC.
  - rewrite int_digits_true. apply is_digit_iff in DC. split; [intros H; apply H, DC|]. intros H d D.
    inversion H; subst; constructor; assumption.
  - split; [intros [z H]; discriminate|]. apply is_digit_false in DC. inversion 1; subst; contradiction.
Qed.
Lemma int_bytes_ok s : (exists z, int_bytes s = Ok z) <-> int_text (bstrip s).
Proof.
  unfold int_bytes. cbv zeta. set (t := bstrip s). clearbody t. clear s.
  assert (X : (exists r, t = 43 :: r) \/ (exists r, t = 45 :: r) \/
    (forall c r, t = c :: r -> c <> 43 /\ c <> 45)).
  { destruct t as [|c t]; [right; right; discriminate|].
    destruct (Z.eq_dec c 43) as [->|N1]; [left; eauto|]. destruct (Z.eq_dec c 45) as [->|N2]; [right; left; eauto|].
    right. right. intros c0 r [= <- <-]. auto. }
  change int_text with (fun s => exists g d, s = g ++ d /\ (g = [] \/ g = [43] \/ g = [45]) /\ digits d). cbv beta.
  assert (ND : forall c r, digits (c :: r) -> c <> 43 /\ c <> 45) by (inversion 1; subst; unfold digit in *; lia).
  destruct X as [[r ->]|[[r ->]|N]].
  - pose proof (int_digits_false r 0) as I. destruct (int_digits false 0 r) as [z|]; split.
    + intros _. exists [43], r. split; [reflexivity|]. split; [auto|]. apply I. eauto.
    + intros _. eauto.
    + intros [z H]. discriminate.
    + intros [g [d [E [[->|[->| ->]] D]]]]; cbn in E; [destruct (ND 43 r); [congruence|congruence]| |discriminate].
      injection E as <-. apply I in D as [z D]. discriminate.
  - pose proof (int_digits_false r 0) as I. destruct (int_digits false 0 r) as [z|]; split; cbn [option_map].
    + intros _. exists [45], r. split; [reflexivity|]. split; [auto|]. apply I. eauto.
    + intros _. eauto.
    + intros [z H]. discriminate.
    + intros [g [d [E [[->|[->| ->]] D]]]]; cbn in E; [destruct (ND 45 r); [congruence|congruence]|discriminate|].
      injection E as <-. apply I in D as [z D]. discriminate.
  - match goal with |- (exists z, match ?M with Some _ => _ | None => _ end = _) <-> _ => assert (E : M = int_digits false 0 t) end.
    { destruct t as [|c t]; [reflexivity|]. destruct (N c t eq_refl).
      destruct c as [|p|p]; try reflexivity. repeat (destruct p as [p|p|]; try reflexivity; try congruence). }
    rewrite E. pose proof (int_digits_false t 0) as I. destruct (int_digits false 0 t) as [z|]; split.
    + intros _. exists [], t. split; [reflexivity|]. split; [auto|]. apply I. eauto.
    + intros _. eauto.
    + intros [z H]. discriminate.
    + intros [g [d [E' [[->|[->| ->]] D]]]]; cbn in E'; [|destruct (N _ _ E'); congruence|destruct (N _ _ E'); congruence].
      subst d. apply I in D as [z D]. discriminate.
Qed.
