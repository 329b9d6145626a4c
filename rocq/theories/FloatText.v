(** float(bytes) is the nearest double: parsing. *)
From Coq Require Import SpecFloat Lia.
From Verif Require Import Py Num Text StrModel ShpReaderModel ShpTableSpec ShpCellSpec ShpFloatText FloatTextModel FloatTextSpec.
Open Scope Z_scope.

Definition nu (s : list Z) : list Z := filter (fun c => negb (c =? 95)) s.
Lemma nu_cons c s : c <> 95 -> nu (c :: s) = c :: nu s.
Proof. intros N. unfold nu. cbn [filter]. destruct (Z.eqb_spec c 95); [contradiction|reflexivity]. Qed.
Lemma nu_app a b : nu (a ++ b) = nu a ++ nu b.
Proof. apply filter_app. Qed.
Lemma digits_nu a' : digits a' -> plain_digs (nu a') /\ nu a' <> [] /\ forall b s t, undone true s t -> undone b (a' ++ s) (nu a' ++ t).
Proof.
  induction 1 as [d D|d s D H IH|d s D H IH].
  - rewrite nu_cons by (apply digit_not_underscore, D). split; [constructor; [exact D|constructor]|]. split; [discriminate|]. intros b s t U. cbn [app nu filter].
    apply u_char; [apply digit_not_underscore, D|]. rewrite (proj2 (is_digit_iff d) D). exact U.
  - destruct IH as [P [NE IH]]. rewrite nu_cons by (apply digit_not_underscore, D). split; [constructor; assumption|]. split; [discriminate|].
    intros b s0 t U. cbn [app]. apply u_char; [apply digit_not_underscore, D|]. apply IH, U.
  - destruct IH as [P [NE IH]]. rewrite nu_cons by (apply digit_not_underscore, D). change (nu (95 :: s)) with (nu s). split; [constructor; assumption|]. split; [discriminate|].
    intros b s0 t U. cbn [app]. apply u_char; [apply digit_not_underscore, D|]. rewrite (proj2 (is_digit_iff d) D).
    specialize (IH false s0 t U). destruct s as [|e s]; [inversion H|]. destruct (nu (e :: s)) as [|x a]; [congruence|].
    cbn [app] in IH |- *. inversion P; subst. inversion IH; subst. apply u_skip; [assumption|].
    rewrite (proj2 (is_digit_iff x) H2) in *. assumption.
Qed.
Lemma value_nu s : digits_num (nu s) = digits_value s.
Proof.
  unfold digits_num, digits_value. generalize 0. induction s as [|c s IH]; intros a; [reflexivity|]. cbn [fold_left]. rewrite <- IH. unfold nu. cbn [filter].
  destruct (Z.eqb_spec c 95); cbn [negb fold_left]; reflexivity.
Qed.
Lemma minus_sign g u (neg : bool) : sign g -> (neg = true <-> g = text "-") -> (forall c r, u = c :: r -> c <> 45) -> starts_minus (g ++ u) = neg.
Proof.
  intros [->|[->| ->]] N U.
  - destruct neg; [discriminate (proj1 N eq_refl)|]. cbn [app]. unfold starts_minus. destruct u as [|c u]; [reflexivity|].
    specialize (U c u eq_refl). destruct c as [|p|p]; try reflexivity. repeat (destruct p as [p|p|]; try reflexivity; try congruence).
  - destruct neg; [discriminate (proj1 N eq_refl)|]. reflexivity.
  - rewrite (proj2 N eq_refl). reflexivity.
Qed.
Lemma exponent_value e z : exponent_is e z -> exists t, undone true e t /\ no_digit_first t /\ exponent_ok t = true /\ (forall c r, t = c :: r -> c = 69 \/ c = 101) /\ exponent_num t = z.
Proof.
  intros [(-> & ->)|(g & d & G & D & E & V)].
  - exists []. split; [constructor|]. split; [intros c r H; discriminate|]. split; [reflexivity|]. split; [intros c r H; discriminate|reflexivity].
  - destruct (digits_nu d D) as [P [NE U]]. specialize (U false [] [] (u_nil _)). rewrite !app_nil_r in U.
    pose proof (under_sign _ _ _ G U) as U1.
    assert (F : forall c r, nu d = c :: r -> c <> 43 /\ c <> 45).
    { intros c r K. rewrite K in P. inversion P; subst. unfold digit in *. lia. }
    assert (S : skip_sign (g ++ nu d) = nu d) by (apply skip_app; [exact G|exact F]).
    assert (K : forall c, c = 69 \/ c = 101 -> exists t, undone true (c :: g ++ d) t /\ no_digit_first t /\ exponent_ok t = true /\ (forall c r, t = c :: r -> c = 69 \/ c = 101) /\ exponent_num t = z).
    { intros c HC. exists (c :: g ++ nu d). split; [|split; [|split; [|split]]].
      - apply u_char; [lia|]. rewrite (proj2 (is_digit_false c)) by (unfold digit; lia). exact U1.
      - intros x r [= <- <-]. unfold digit. lia.
      - cbn [exponent_ok]. rewrite S. rewrite <- (app_nil_r (nu d)), span_app; [|exact P|exact no_digit_nil].
        rewrite (proj2 (nonempty_iff (nu d)) NE). destruct HC as [-> | ->]; reflexivity.
      - intros x r [= <- <-]. exact HC.
      - cbn [exponent_num]. cbv zeta. rewrite S, value_nu. destruct V as [[-> ->]|[N ->]].
        + reflexivity.
        + rewrite (minus_sign g (nu d) false); [reflexivity|exact G|split; [discriminate|contradiction]|]. intros c0 r0 K. apply (F c0 r0 K). }
    destruct E as [->| ->]; apply K; auto.
Qed.
Lemma float_value_parse g neg u i f r' : sign g -> (neg = true <-> g = text "-") -> (forall c r, u = c :: r -> c <> 43 /\ c <> 45) -> ~ special u ->
  plain_digs i -> plain_digs f -> i ++ f <> [] ->
  (u = i ++ r' /\ f = [] /\ no_digit_first r' /\ (forall r1, r' <> 46 :: r1) \/ u = i ++ 46 :: f ++ r' /\ no_digit_first r') ->
  exponent_ok r' = true -> forall s, undone false s (g ++ u) ->
  float64 s = Ok (decimal64 neg (digits_num (i ++ f)) (exponent_num r' - Z.of_nat (length f))).
Proof.
  intros G N F NS PI PF NE C X s U. apply drop_under in U. unfold float64. rewrite U. cbv zeta.
  rewrite (minus_sign g u neg G N) by (intros c r K; apply (F c r K)). rewrite (skip_app g u G F).
  assert (SP : zlist_eqb (map lower_letter u) (text "inf") || zlist_eqb (map lower_letter u) (text "infinity") || zlist_eqb (map lower_letter u) (text "nan") = false).
  { destruct (_ || _ || _) eqn:E; [|reflexivity]. apply special_iff in E. contradiction. }
  apply orb_false_iff in SP. destruct SP as (-> & ->).
  destruct C as [[-> [-> [N' D]]]|[-> N']].
  - rewrite span_app by assumption.
    assert (Y : match r' with 46 :: r1 => span_digits r1 | _ => ([], r') end = ([], r')).
    { destruct r' as [|c r]; [reflexivity|]. destruct (Z.eq_dec c 46) as [->|N'']; [elim (D r eq_refl)|].
      destruct c as [|p|p]; try reflexivity. repeat (destruct p as [p|p|]; try reflexivity; try congruence). }
    rewrite Y, X, (proj2 (nonempty_iff _) NE). reflexivity.
  - rewrite span_app; [|exact PI|intros c r [= <- _]; unfold digit; lia].
    rewrite span_app by assumption. rewrite X, (proj2 (nonempty_iff _) NE). reflexivity.
Qed.
Lemma float_decimal s neg n k : decimal s neg n k -> float64 s = Ok (decimal64 neg n k).
Proof.
  intros (g & m & e & j & z & -> & G & N & M & X & ->). destruct (exponent_value e z X) as (te & UE & NE & XE & FE & <-).
  assert (ND : forall r1, te <> 46 :: r1) by (intros r1 K; destruct (FE _ _ K); discriminate).
  assert (B : forall i r, plain_digs i -> i <> [] -> ~ special (i ++ r) /\ (forall c r0, i ++ r = c :: r0 -> c <> 43 /\ c <> 45)).
  { intros i r P Ni. destruct i as [|c i]; [congruence|]. inversion P; subst. split.
    - intros K. pose proof (special_first _ c (i ++ r) K eq_refl). unfold digit in *. lia.
    - intros c0 r0 [= <- _]. unfold digit in *. lia. }
  destruct M as [(D & -> & ->)|[(a & D & -> & -> & ->)|[(b & D & -> & -> & ->)|(a & b & D & D' & -> & -> & ->)]]].
  - destruct (digits_nu m D) as [P [Nm U]]. destruct (B (nu m) te P Nm) as [B1 B2]. rewrite <- value_nu.
    rewrite <- (app_nil_r (nu m)) at 1. apply (float_value_parse g neg (nu m ++ te) (nu m) [] te); try assumption; [constructor|rewrite app_nil_r; exact Nm| |].
    + left. auto.
    + apply under_sign; [exact G|]. apply U, UE.
  - destruct (digits_nu a D) as [P [Nm U]]. destruct (B (nu a) (46 :: te) P Nm) as [B1 B2]. rewrite <- value_nu.
    rewrite <- (app_nil_r (nu a)) at 1. apply (float_value_parse g neg (nu a ++ 46 :: te) (nu a) [] te); try assumption; [constructor|rewrite app_nil_r; exact Nm| |].
    + right. auto.
    + apply under_sign; [exact G|]. rewrite <- app_assoc. apply U. cbn. apply u_char; [discriminate|].
      change (is_digit 46) with false. destruct te as [|x te]; [apply under_end in UE as ->; constructor|].
      destruct (under_char _ _ _ _ UE (NE _ _ eq_refl)) as [e1 [-> U1]]. apply u_char; [destruct (FE _ _ eq_refl); lia|].
      rewrite (proj2 (is_digit_false x) (NE _ _ eq_refl)). exact U1.
  - destruct (digits_nu b D) as [P [Nm U]]. rewrite <- value_nu. unfold digit_count. fold (nu b).
    apply (float_value_parse g neg (46 :: nu b ++ te) [] (nu b) te); try assumption; [intros c r [= <- _]; lia| |constructor| |].
    + intros K. pose proof (special_first _ _ _ K eq_refl). lia.
    + right. auto.
    + apply under_sign; [exact G|]. cbn. apply u_char; [discriminate|]. apply U, UE.
  - destruct (digits_nu a D) as [P [Nm U]]. destruct (digits_nu b D') as [P' [N' U']]. rewrite <- value_nu, nu_app. unfold digit_count. fold (nu b).
    destruct (B (nu a) (46 :: nu b ++ te) P Nm) as [B1 B2].
    apply (float_value_parse g neg (nu a ++ 46 :: nu b ++ te) (nu a) (nu b) te); try assumption.
    + intros K. apply app_eq_nil in K. tauto.
    + right. auto.
    + apply under_sign; [exact G|]. rewrite <- app_assoc. apply U. cbn. apply u_char; [discriminate|]. change (is_digit 46) with false. apply U', UE.
Qed.
(** It fails on the same texts as the reader's test. *)
Lemma float_fails s : float64 s = Err ValueError <-> float_ok s = false.
Proof.
  unfold float64, float_ok. destruct (drop_underscores false s) as [t|]; [|tauto]. cbv zeta. destruct (_ || _); cbn [orb]; [split; discriminate|].
  destruct (zlist_eqb _ _); cbn [orb]; [split; discriminate|]. destruct (span_digits _) as [i r]. destruct (match r with 46 :: r1 => _ | _ => _ end) as [f r'].
  destruct (nonempty (i ++ f) && exponent_ok r'); split; congruence.
Qed.
Lemma float_errors s e : float64 s = Err e -> e = ValueError.
Proof.
  unfold float64. destruct (drop_underscores false s) as [t|]; [|congruence]. cbv zeta. destruct (_ || _); [discriminate|].
  destruct (zlist_eqb _ _); [discriminate|]. destruct (span_digits _) as [i r]. destruct (match r with 46 :: r1 => _ | _ => _ end) as [f r'].
  destruct (nonempty (i ++ f) && exponent_ok r'); congruence.
Qed.
