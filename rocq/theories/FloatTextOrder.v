(** float(bytes): accuracy, order and reading back. *)
From Coq Require Import ZArith Reals Lia Lra SpecFloat Psatz.
From Flocq Require Import Core IEEE754.BinarySingleNaN.
From Verif Require Import Py Num Text FloatLib GridFloat StrModel Utf8Model ShpFile ShpWriterModel ShpReaderModel ShpTableSpec ShpCellSpec ShpFloatText FloatTextModel FloatTextSpec FloatText FloatTextRound.
Open Scope Z_scope.

(** ** Which numbers *)
Lemma num_pos s : plain_digs s -> 0 <= digits_num s.
Proof.
  unfold digits_num. cut (forall a, 0 <= a -> plain_digs s -> 0 <= fold_left (fun acc c => 10 * acc + (c - 48)) s a); [intros H; apply H; lia|].
  induction s as [|c s IH]; intros a A P; [exact A|]. inversion P; subst. cbn [fold_left]. apply IH; [|assumption]. unfold digit in *. lia.
Qed.
Lemma value_pos s : digits s -> 0 <= digits_value s.
Proof. intros D. rewrite <- value_nu. apply num_pos, digits_nu, D. Qed.
Lemma decimal_pos s neg n k : decimal s neg n k -> 0 <= n.
Proof.
  intros (g & m & e & j & z & _ & _ & _ & M & _). destruct M as [(D & -> & _)|[(a & D & _ & -> & _)|[(b & D & _ & -> & _)|(a & b & D & D' & _ & -> & _)]]];
    try (apply value_pos; assumption).
  rewrite <- value_nu, nu_app. apply num_pos. apply Forall_app. split; apply digits_nu; assumption.
Qed.
Lemma decimal_exists s : (exists neg n k, decimal s neg n k) <-> exists g m e, s = g ++ m ++ e /\ sign g /\ mantissa m /\ exponent e.
Proof.
  split.
  - intros (neg & n & k & g & m & e & j & z & -> & G & _ & M & X & _). exists g, m, e. split; [reflexivity|]. split; [exact G|]. split.
    + destruct M as [(D & _)|[(a & D & -> & _)|[(b & D & -> & _)|(a & b & D & D' & -> & _)]]]; unfold mantissa; eauto 10.
    + destruct X as [(-> & _)|(g' & d & G' & D & E & _)]; unfold exponent; eauto 10.
  - intros (g & m & e & -> & G & M & X).
    assert (GD : forall g', sign g' -> g' = text "-" \/ g' <> text "-") by (intros g' [->|[->| ->]]; [right; discriminate|right; discriminate|left; reflexivity]).
    assert (exists neg : bool, neg = true <-> g = text "-") as (neg & N).
    { destruct (GD g G) as [->|Y]; [exists true; tauto|exists false]. split; [discriminate|contradiction]. }
    assert (exists n j, mantissa_is m n j) as (n & j & M').
    { unfold mantissa_is. destruct M as [D|[[a [D ->]]|[[b [D ->]]|[a [b [D [D' ->]]]]]]].
      - eauto 10. - do 2 eexists. right; left. eauto 10. - do 2 eexists. right; right; left. eauto 10. - do 2 eexists. right; right; right. eauto 10. }
    assert (exists z, exponent_is e z) as (z & X').
    { unfold exponent_is. destruct X as [->|(g' & d & G' & D & E)]; [eauto|].
      destruct (GD g' G') as [->|Y]; eexists; right; exists g'+eexists; eauto 12. }
    exists neg, n, (z - j), g, m, e, j, z. auto 10.
Qed.

(** ** Infinity *)
Lemma small_iff x : small x <-> ~ too_large x.
Proof.
  unfold too_large, small. set (M := IZR (2 ^ 1024 - 2 ^ 970)). 
  assert (A : Rabs (rnd x) = rnd (Rabs x)) by (symmetry; apply round_NE_abs, fexp64_valid).
  rewrite A. generalize (Rabs_pos x). generalize (Rabs x). clear A. intros y Y. split.
  - intros S T. apply Rge_le, rnd_le in T. assert (N : (rnd M < bpow radix2 1024)%R) by lra.
    assert (P : 0 < 2 ^ 1024 - 2 ^ 970) by reflexivity.
    pose proof (ratio_cases false (Z.to_pos (2 ^ 1024 - 2 ^ 970)) 1) as (C & _).
    rewrite Z2Pos.id in C by exact P.
    assert (E : signed false (M / 1) = M) by (unfold signed; field). fold M in C. rewrite E in C.
    assert (SM : small M).
    { unfold small. assert (Q : (0 <= rnd M)%R).
      { unfold rnd. apply round_ge_generic; [apply fexp64_valid|apply valid_rnd_N|apply generic_format_0|]. unfold M. apply IZR_le. lia. }
      rewrite Rabs_pos_eq by exact Q. exact N. }
    destruct (C SM) as ((b & B1 & B2 & _) & _).
    assert (I : ratio64 false (Z.to_pos (2 ^ 1024 - 2 ^ 970)) 1 = S754_infinity false) by (vm_compute; reflexivity).
    rewrite I in B1. clear - B1 B2. destruct b; cbn in B1, B2; congruence.
  - intros T. apply Rnot_ge_lt in T. destruct (Rlt_or_le (rnd y) (bpow radix2 1024)) as [?|L]; [assumption|exfalso].
    set (K := IZR (2 ^ 1024 - 2 ^ 971)).
    assert (F : generic_format radix2 fexp64 K).
    { apply format_iff. exists (2 ^ 53 - 1), 971. split; [reflexivity|]. split; [lia|]. unfold K.
      change (bpow radix2 971) with (IZR (2 ^ 971)). rewrite <- mult_IZR. reflexivity. }
    assert (B : bpow radix2 1024 = IZR (2 ^ 1024)) by reflexivity.
    assert (D1 : (M = IZR (2 ^ 1024) - IZR (2 ^ 970))%R) by (unfold M; apply minus_IZR).
    assert (D2 : (K = IZR (2 ^ 1024) - 2 * IZR (2 ^ 970))%R).
    { unfold K. rewrite <- mult_IZR, <- minus_IZR. f_equal. }
    assert (PH : (0 < IZR (2 ^ 970))%R) by (apply IZR_lt; reflexivity).
    rewrite B in L. pose proof (rnd_nearest y K F) as NR.
    destruct (Rle_or_lt y K) as [YK|YK].
    + apply rnd_le in YK. replace (rnd K) with K in YK by (symmetry; apply round_generic; [apply valid_rnd_N|exact F]). lra.
    + rewrite Rabs_pos_eq in NR by lra. rewrite Rabs_left in NR by lra. lra.
Qed.

(** ** The value *)
Lemma float_value s neg n k : decimal s neg n k -> let x := dec_value neg n k in
  exists d, float64 s = Ok d /\ (~ too_large x -> isf d (rnd x) /\ sign_SF d = neg) /\ (too_large x -> d = S754_infinity neg).
Proof.
  intros D x. exists (decimal64 neg n k). split; [apply float_decimal, D|]. destruct (decimal_cases neg n k (decimal_pos _ _ _ _ D)) as (A & B).
  fold x in A, B. split; [intros T; apply A, small_iff, T|]. intros T. apply B. rewrite small_iff. tauto.
Qed.
Lemma bpow_powerRZ e : bpow radix2 e = powerRZ 2 e.
Proof. rewrite bpow_powerRZ. reflexivity. Qed.
Lemma double_format f : double_number f -> generic_format radix2 fexp64 f.
Proof. intros (m & e & (H1 & H2) & ->). apply format_iff. exists m, e. rewrite bpow_powerRZ. split; [exact H1|]. split; [lia|reflexivity]. Qed.
Lemma isf_double d r : isf d r -> double_number r.
Proof.
  intros (b & _ & F & <-). destruct b as [s|s| |s m e B]; try discriminate.
  - exists 0, 0. split; [split; [reflexivity|lia]|]. cbn. ring.
  - exists (cond_Zopp s (Zpos m)), e. rewrite <- bpow_powerRZ. split; [|reflexivity]. pose proof B as B0. unfold SpecFloat.bounded in B0. apply andb_prop in B0. destruct B0 as (B1 & B2).
    apply Zle_bool_imp_le in B2. pose proof (canonical_canonical_mantissa 53 1024 s m e B1) as C.
    assert (E : Z.abs (cond_Zopp s (Zpos m)) = Zpos m) by (destruct s; reflexivity). rewrite E.
    unfold SpecFloat.canonical_mantissa in B1. apply Zeq_bool_eq in B1. rewrite Digits.Zpos_digits2_pos in B1. unfold SpecFloat.fexp, SpecFloat.emin in B1.
    assert (G : Digits.Zdigits radix2 (Zpos m) <= 53) by lia.
    split; [|lia]. apply (Digits.Zpower_gt_Zdigits radix2 53 (Zpos m)) in G. exact G.
Qed.
Lemma float_nearest s x : stands_for s x -> ~ too_large x -> exists d r, float64 s = Ok d /\ isf d r /\ double_number r /\ r = rnd x /\
  forall f, double_number f -> (Rabs (r - x) <= Rabs (f - x))%R.
Proof.
  intros (neg & n & k & D & ->) T. destruct (float_value s neg n k D) as (d & E & V & _). destruct (V T) as (I & _).
  exists d, (rnd (dec_value neg n k)). split; [exact E|]. split; [exact I|]. split; [eapply isf_double, I|]. split; [reflexivity|]. intros f F. apply rnd_nearest, double_format, F.
Qed.
Lemma float_overflow s neg n k : decimal s neg n k -> too_large (dec_value neg n k) -> float64 s = Ok (S754_infinity neg).
Proof. intros D T. destruct (float_value s neg n k D) as (d & E & _ & V). rewrite E, (V T). reflexivity. Qed.
Lemma float_sign s neg n k : decimal s neg n k -> exists d, float64 s = Ok d /\ sign_SF d = neg.
Proof.
  intros D. destruct (float_value s neg n k D) as (d & E & V & W). exists d. split; [exact E|].
  destruct (Rge_dec (Rabs (dec_value neg n k)) (IZR (2 ^ 1024 - 2 ^ 970))) as [T|T]; [rewrite (W T); reflexivity|apply V, T].
Qed.
Lemma float_exact s d r x : stands_for s r -> isf x r -> float64 s = Ok d -> isf d r.
Proof.
  intros (neg & n & k & D & ->) X E. destruct (float_value s neg n k D) as (d' & E' & V & _). rewrite E in E'. injection E' as <-.
  pose proof (isf_format _ _ X) as F. assert (RR : rnd (dec_value neg n k) = dec_value neg n k) by (apply round_generic; [apply valid_rnd_N|exact F]).
  rewrite <- RR at 1. apply V. rewrite <- small_iff. unfold small. rewrite RR. destruct X as (b & _ & Fb & <-). apply abs_B2R_lt_emax.
Qed.

(** ** Order *)
Lemma dec_sign (neg : bool) n k : 0 <= n -> if neg then (dec_value neg n k <= 0)%R else (0 <= dec_value neg n k)%R.
Proof.
  intros N. unfold dec_value. apply IZR_le in N. assert (P : (0 < powerRZ 10 k)%R) by (apply powerRZ_lt; lra).
  pose proof (Rmult_le_pos _ _ N (Rlt_le _ _ P)). destruct neg; lra.
Qed.
Lemma inf_le d : is_finite_SF d = true \/ d = S754_infinity false -> SFleb d (S754_infinity false) = true.
Proof. intros [H| -> ]; [destruct d as [?|?| |[] ? ?]; try discriminate; reflexivity|reflexivity]. Qed.
Lemma inf_ge d : is_finite_SF d = true \/ d = S754_infinity false \/ d = S754_infinity true -> SFleb (S754_infinity true) d = true.
Proof. intros [H|[ -> | -> ]]; [destruct d as [?|?| |[] ? ?]; try discriminate; reflexivity|reflexivity|reflexivity]. Qed.
Lemma isf_finite d r : isf d r -> is_finite_SF d = true.
Proof. intros (b & <- & F & _). rewrite is_finite_SF_B2SF. exact F. Qed.
Lemma float_order s t x y d e : stands_for s x -> stands_for t y -> float64 s = Ok d -> float64 t = Ok e -> (x <= y)%R -> SFleb d e = true.
Proof.
  intros (neg & n & k & D & ->) (neg' & n' & k' & D' & ->) E E' L.
  destruct (float_value s neg n k D) as (d0 & E0 & V & W). rewrite E in E0. injection E0 as <-.
  destruct (float_value t neg' n' k' D') as (e0 & E0' & V' & W'). rewrite E' in E0'. injection E0' as <-.
  pose proof (dec_sign neg n k (decimal_pos _ _ _ _ D)) as P. pose proof (dec_sign neg' n' k' (decimal_pos _ _ _ _ D')) as P'.
  set (x := dec_value neg n k) in *. set (y := dec_value neg' n' k') in *.
  assert (M : (0 < IZR (2 ^ 1024 - 2 ^ 970))%R) by (apply IZR_lt; reflexivity).
  destruct (Rge_dec (Rabs x) (IZR (2 ^ 1024 - 2 ^ 970))) as [T|T]; destruct (Rge_dec (Rabs y) (IZR (2 ^ 1024 - 2 ^ 970))) as [T'|T'].
  - rewrite (W T), (W' T'). destruct neg, neg'; try reflexivity. exfalso. rewrite Rabs_pos_eq in T by assumption. rewrite Rabs_left1 in T' by assumption. lra.
  - rewrite (W T). destruct (V' T') as (I & _). destruct neg; [apply inf_ge; left; eapply isf_finite, I|].
    exfalso. apply T'. rewrite Rabs_pos_eq in T by assumption. rewrite Rabs_pos_eq by lra. lra.
  - rewrite (W' T'). destruct (V T) as (I & _). destruct neg'; [|apply inf_le; left; eapply isf_finite, I].
    exfalso. apply T. rewrite Rabs_left1 in T' by assumption. rewrite Rabs_left1 by lra. lra.
  - destruct (V T) as (I & _), (V' T') as (I' & _). rewrite (isf_le _ _ _ _ I I'). apply Rle_bool_true, rnd_le, L.
Qed.
(** Texts of the same number, other than zero, are the same double. *)
Lemma float_same s t x d e : stands_for s x -> stands_for t x -> x <> 0%R -> float64 s = Ok d -> float64 t = Ok e -> d = e.
Proof.
  intros (neg & n & k & D & X) (neg' & n' & k' & D' & X') NZ E E'.
  destruct (float_value s neg n k D) as (d0 & E0 & V & W). rewrite E in E0. injection E0 as <-.
  destruct (float_value t neg' n' k' D') as (e0 & E0' & V' & W'). rewrite E' in E0'. injection E0' as <-.
  pose proof (dec_sign neg n k (decimal_pos _ _ _ _ D)) as P. pose proof (dec_sign neg' n' k' (decimal_pos _ _ _ _ D')) as P'.
  assert (S : neg = neg') by (destruct neg, neg'; try reflexivity; lra). subst neg'. rewrite <- X in *. rewrite <- X' in *.
  destruct (Rge_dec (Rabs x) (IZR (2 ^ 1024 - 2 ^ 970))) as [T|T]; [rewrite (W T), (W' T); reflexivity|].
  destruct (V T) as ((b & B1 & B2 & B3) & SB), (V' T) as ((c & C1 & C2 & C3) & SC). subst d e. f_equal.
  apply B2R_Bsign_inj; [exact B2|exact C2|congruence|]. clear - SB SC B2 C2. destruct b, c; cbn in SB, SC, B2, C2 |- *; congruence.
Qed.

(** ** Reading back *)
Lemma ulp_bound y : generic_format radix2 fexp64 y -> (Rabs y <= (bpow radix2 53 - 1) * ulp radix2 fexp64 y)%R.
Proof.
  intros F. destruct (Req_dec y 0) as [->|N].
  - rewrite Rabs_R0. apply Rmult_le_pos; [|apply ulp_ge_0]. change 1%R with (bpow radix2 0). pose proof (bpow_le radix2 0 53 ltac:(lia)). lra.
  - rewrite ulp_neq_0 by exact N. set (e := cexp radix2 fexp64 y).
    assert (Y : y = (IZR (Ztrunc (scaled_mantissa radix2 fexp64 y)) * bpow radix2 e)%R) by exact F.
    set (m := Ztrunc _) in Y. rewrite Y, Rabs_mult, (Rabs_pos_eq (bpow radix2 e)) by apply bpow_ge_0. apply Rmult_le_compat_r; [apply bpow_ge_0|].
    rewrite <- abs_IZR. change (bpow radix2 53 - 1)%R with (IZR (2 ^ 53) - IZR 1)%R. rewrite <- minus_IZR. apply IZR_le.
    assert (L : (Rabs y < bpow radix2 (53 + e))%R).
    { apply Rlt_le_trans with (1 := bpow_mag_gt radix2 y). apply bpow_le. unfold e, cexp, fexp64, SpecFloat.fexp. lia. }
    rewrite Y, Rabs_mult, (Rabs_pos_eq (bpow radix2 e)), bpow_plus in L by apply bpow_ge_0. apply Rmult_lt_reg_r in L; [|apply bpow_gt_0].
    rewrite <- abs_IZR in L. change (bpow radix2 53) with (IZR (2 ^ 53)) in L. apply lt_IZR in L. lia.
Qed.
Lemma formats_apart a b : generic_format radix2 fexp64 a -> generic_format radix2 fexp64 b -> (0 < a)%R -> (a < b)%R ->
  (a * bpow radix2 (-53) <= b - a /\ b * bpow radix2 (-53) <= b - a)%R.
Proof.
  intros A B P L. pose proof (succ_le_lt radix2 fexp64 a b A B L) as S. rewrite succ_eq_pos in S by lra. pose proof (ulp_bound a A) as U.
  rewrite Rabs_pos_eq in U by lra. set (u := ulp radix2 fexp64 a) in *. change (bpow radix2 53) with 9007199254740992%R in U.
  change (bpow radix2 (-53)) with (/ 9007199254740992)%R. lra.
Qed.
Lemma rnd_back_pos x r : generic_format radix2 fexp64 r -> (0 < r)%R -> (Rabs (x - r) < r * bpow radix2 (-54))%R -> rnd x = r.
Proof.
  intros F P H. set (y := rnd x). assert (Fy : generic_format radix2 fexp64 y) by (apply generic_format_round; [apply fexp64_valid|apply valid_rnd_N]).
  pose proof (rnd_nearest x r F) as N. fold y in N. change (bpow radix2 (-54)) with (/ 18014398509481984)%R in H.
  assert (D : (Rabs (y - r) < r * / 9007199254740992)%R).
  { replace (y - r)%R with ((y - x) + (x - r))%R by ring. pose proof (Rabs_triang (y - x) (x - r)). rewrite (Rabs_minus_sym r x) in N. lra. }
  destruct (Rtotal_order y r) as [L|[E|L]]; [|exact E|]; exfalso.
  - rewrite Rabs_left in D by lra. assert (0 < y)%R by lra. destruct (formats_apart y r Fy F) as (_ & Q); [assumption|exact L|].
    change (bpow radix2 (-53)) with (/ 9007199254740992)%R in Q. lra.
  - rewrite Rabs_pos_eq in D by lra. destruct (formats_apart r y F Fy P L) as (Q & _). change (bpow radix2 (-53)) with (/ 9007199254740992)%R in Q. lra.
Qed.
Lemma rnd_back x r : generic_format radix2 fexp64 r -> (Rabs (x - r) < Rabs r * bpow radix2 (-54))%R -> rnd x = r.
Proof.
  intros F H. destruct (Rtotal_order 0 r) as [P|[<-|P]].
  - rewrite (Rabs_pos_eq r) in H by lra. apply rnd_back_pos; assumption.
  - rewrite Rabs_R0, Rmult_0_l in H. pose proof (Rabs_pos (x - 0)). lra.
  - assert (E : rnd (- x) = (- r)%R).
    { apply rnd_back_pos; [apply generic_format_opp, F|lra|]. rewrite (Rabs_left r) in H by lra. replace (- x - - r)%R with (- (x - r))%R by ring. rewrite Rabs_Ropp. exact H. }
    unfold rnd in *. rewrite round_NE_opp in E. lra.
Qed.
(** Seventeen digits of a double read back as the double. *)
Lemma float_back s neg n k d r : decimal s neg n k -> 10 ^ 16 <= n -> isf d r -> (Rabs (dec_value neg n k - r) <= / 2 * powerRZ 10 k)%R -> float64 s = Ok d.
Proof.
  intros D N I H. set (x := dec_value neg n k) in *. assert (P : (0 < powerRZ 10 k)%R) by (apply powerRZ_lt; lra). set (u := powerRZ 10 k) in *.
  assert (X : Rabs x = (IZR n * u)%R).
  { unfold x, dec_value. fold u. assert (0 <= IZR n * u)%R by (apply Rmult_le_pos; [apply IZR_le; lia|lra]).
    destruct neg; [replace (-1 * (IZR n * u))%R with (- (IZR n * u))%R by ring; rewrite Rabs_Ropp|rewrite Rmult_1_l]; apply Rabs_pos_eq; assumption. }
  apply IZR_le in N. change (IZR (10 ^ 16)) with 10000000000000000%R in N.
  assert (XU : (10000000000000000 * u <= Rabs x)%R) by (rewrite X; apply Rmult_le_compat_r; lra).
  assert (R1 : (Rabs x <= Rabs r + / 2 * u)%R).
  { replace x with ((x - r) + r)%R by ring. pose proof (Rabs_triang (x - r) r). lra. }
  assert (B : rnd x = r).
  { apply rnd_back; [eapply isf_format, I|]. change (bpow radix2 (-54)) with (/ 18014398509481984)%R. lra. }
  destruct (float_value s neg n k D) as (d' & E & V & _). rewrite E. f_equal. fold x in V.
  assert (T : ~ too_large x). { rewrite <- small_iff. unfold small. rewrite B. destruct I as (b & _ & Fb & <-). apply abs_B2R_lt_emax. }
  destruct (V T) as (I' & _). rewrite B in I'. apply (isf_inj d' d r I' I). intros ->. rewrite Rabs_R0 in R1. lra.
Qed.
(** Fifteen digits with equally many decimal places keep their order. *)
Lemma pow10_le a b : a <= b -> (powerRZ 10 a <= powerRZ 10 b)%R.
Proof. intros L. replace b with (a + (b - a)) by lia. rewrite powerRZ_add by lra. rewrite <- (Rmult_1_r (powerRZ 10 a)) at 1. apply Rmult_le_compat_l; [apply Rlt_le, powerRZ_lt; lra|].
  destruct (b - a) as [|q|q] eqn:E; [cbn; lra| |lia]. rewrite pow_pos_IZR. apply IZR_le. pose proof (Z.pow_pos_nonneg 10 (Zpos q)). lia. Qed.
Lemma float_strict s t neg n neg' n' k d e : decimal s neg n k -> decimal t neg' n' k -> n <= 10 ^ 15 -> n' <= 10 ^ 15 -> -300 <= k <= 280 ->
  float64 s = Ok d -> float64 t = Ok e -> (dec_value neg n k < dec_value neg' n' k)%R -> SFltb d e = true.
Proof.
  intros D D' N N' K E E' L.
  assert (P : (0 < powerRZ 10 k)%R) by (apply powerRZ_lt; lra). set (u := powerRZ 10 k) in *.
  assert (LO : (8 * bpow radix2 (-1000) <= u)%R).
  { apply Rle_trans with (powerRZ 10 (-300)); [|apply pow10_le; lia]. cbn [powerRZ]. rewrite pow_IZR. change (bpow radix2 (-1000)) with (/ IZR (2 ^ 1000))%R.
    apply Rmult_le_reg_r with (IZR (2 ^ 1000)); [apply IZR_lt; reflexivity|]. rewrite Rmult_assoc, Rinv_l by (apply IZR_neq; discriminate).
    apply Rmult_le_reg_l with (IZR (10 ^ Z.of_nat (Pos.to_nat 300))); [apply IZR_lt; vm_compute; reflexivity|].
    rewrite <- Rmult_assoc, <- (Rmult_assoc _ (/ _)), Rinv_r by (apply IZR_neq; vm_compute; discriminate). rewrite Rmult_1_l, Rmult_1_r, <- mult_IZR. apply IZR_le. vm_compute. discriminate. }
  assert (HI : (u <= IZR (10 ^ 280))%R).
  { apply Rle_trans with (powerRZ 10 280); [apply pow10_le; lia|]. rewrite pow_pos_IZR. lra. }
  assert (A : forall neg n, 0 <= n <= 10 ^ 15 -> (Rabs (dec_value neg n k) <= 1000000000000000 * u)%R).
  { intros g m M. unfold dec_value. fold u. assert (B : (0 <= IZR m <= 1000000000000000)%R) by (split; apply IZR_le; lia). assert (0 <= IZR m * u <= 1000000000000000 * u)%R.
    { split; [apply Rmult_le_pos; lra|apply Rmult_le_compat_r; lra]. } apply Rabs_le. destruct g; lra. }
  pose proof (A neg n (conj (decimal_pos _ _ _ _ D) N)) as A1. pose proof (A neg' n' (conj (decimal_pos _ _ _ _ D') N')) as A2.
  assert (T : forall x, (Rabs x <= 1000000000000000 * u)%R -> ~ too_large x).
  { intros x H G. unfold too_large in G. assert (Q : (1000000000000000 * u <= IZR (10 ^ 15 * 10 ^ 280))%R) by (rewrite mult_IZR; apply Rmult_le_compat; lra).
    assert (IZR (10 ^ 15 * 10 ^ 280) < IZR (2 ^ 1024 - 2 ^ 970))%R by (apply IZR_lt; vm_compute; reflexivity). lra. }
  destruct (float_value s neg n k D) as (d0 & E0 & V & _). rewrite E in E0. injection E0 as <-. destruct (V (T _ A1)) as (I & _).
  destruct (float_value t neg' n' k D') as (e0 & E0' & V' & _). rewrite E' in E0'. injection E0' as <-. destruct (V' (T _ A2)) as (I' & _).
  rewrite (isf_lt _ _ _ _ I I'). apply Rlt_bool_true.
  pose proof (rnd_near _ _ A1) as R1. pose proof (rnd_near _ _ A2) as R2.
  assert (GAP : (dec_value neg n k + u <= dec_value neg' n' k)%R).
  { assert (Z1 : forall g m, dec_value g m k = (IZR (if g then - m else m) * u)%R).
    { intros g m. unfold dec_value. fold u. destruct g; [rewrite opp_IZR|]; ring. }
    rewrite !Z1 in *. apply Rmult_lt_reg_r in L; [|exact P]. apply lt_IZR in L. assert (L1 : ((if neg then - n else n) + 1 <= (if neg' then - n' else n'))%Z) by lia.
    apply IZR_le in L1. rewrite plus_IZR in L1. apply (Rmult_le_compat_r u) in L1; [|lra]. lra. }
  apply Rabs_le_inv in R1. apply Rabs_le_inv in R2. lra.
Qed.

(** ** Which texts *)
Lemma float_rejects s e : float64 s = Err e <-> e = ValueError /\ ~ float_text s.
Proof.
  split.
  - intros H. pose proof (float_errors s e H) as ->. split; [reflexivity|]. rewrite <- float_ok_iff, (proj1 (float_fails s) H). discriminate.
  - intros (-> & N). apply float_fails. rewrite <- float_ok_iff in N. destruct (float_ok s); congruence.
Qed.
Lemma float_special g m (neg : bool) : sign g -> (neg = true <-> g = text "-") ->
  (Forall2 letter (text "inf") m \/ Forall2 letter (text "infinity") m -> float64 (g ++ m) = Ok (S754_infinity neg)) /\
  (Forall2 letter (text "nan") m -> float64 (g ++ m) = Ok S754_nan).
Proof.
  intros G N.
  assert (SP : special m -> float64 (g ++ m) = if zlist_eqb (map lower_letter m) (text "inf") || zlist_eqb (map lower_letter m) (text "infinity") then Ok (S754_infinity neg) else Ok S754_nan).
  { intros S. pose proof (special_letters _ S) as L.
    assert (U : undone false m m).
    { assert (NU : Forall (fun c => c <> 95 /\ ~ digit c) m).
      { assert (W : forall w, Forall (fun l => 97 <= l <= 122) w -> Forall2 letter w m -> Forall (fun c => c <> 95 /\ ~ digit c) m).
        { intros w F H. clear -F H. induction H as [|l c w u L H IH]; constructor; inversion F; subst; [unfold letter, digit in *; lia|auto]. }
        destruct S as [H|[H|H]]; (eapply W; [|exact H]); apply Forall_forall; intros ? KK; vm_compute in KK; lia. }
      clear -NU. induction NU as [|c m [N D] F IH]; [constructor|]. apply u_char; [exact N|]. rewrite (proj2 (is_digit_false c) D). exact IH. }
    pose proof (under_sign g _ _ G U) as U1. apply drop_under in U1. unfold float64. rewrite U1. cbv zeta.
    rewrite skip_app; [|exact G|intros c r ->; inversion L; lia]. rewrite (minus_sign g m neg G N) by (intros c r ->; inversion L; lia).
    destruct (_ || _) eqn:E1; [reflexivity|]. apply special_iff in S. rewrite E1 in S. cbn [orb] in S. rewrite S. reflexivity. }
  assert (LW : forall w, Forall (fun l => 97 <= l <= 122) w -> Forall2 letter w m -> map lower_letter m = w).
  { intros w. clear. revert m. induction w as [|a w IH]; intros m W F; inversion F; subst; [reflexivity|]. inversion W; subst. cbn [map]. f_equal; [|apply IH; assumption].
    unfold letter in *. unfold lower_letter. destruct (_ && _) eqn:B; [apply andb_prop in B; lia|]. apply andb_false_iff in B. lia. }
  split.
  - intros S. rewrite SP by (unfold special; tauto). destruct S as [S|S]; (pose proof (fun W => LW _ W S) as Q; rewrite Q by (apply Forall_forall; intros ? KK; vm_compute in KK; lia); reflexivity).
  - intros S. rewrite SP by (unfold special; tauto). pose proof (fun W => LW _ W S) as Q; rewrite Q by (apply Forall_forall; intros ? KK; vm_compute in KK; lia). reflexivity.
Qed.
Lemma float_cell f bs t : read_cell f bs = Ok (CFloat t) -> exists d, float64 t = Ok d.
Proof.
  unfold read_cell. destruct (bstrip bs); [discriminate|]. destruct (zlist_eqb _ _); [|destruct (utf8_decode bs); cbn; discriminate].
  destruct (bstrip (filter _ bs)) as [|c v] eqn:B; [discriminate|]. destruct (fd_dec f =? 0); [destruct (int_bytes (c :: v)); cbn; discriminate|].
  destruct (float_ok (c :: v)) eqn:O; [|discriminate]. intros [= <-]. destruct (float64 (c :: v)) as [d|e] eqn:F; [eauto|].
  pose proof (float_errors _ _ F) as ->. apply float_fails in F. congruence.
Qed.
Lemma float_texts s : float_text s <-> (exists x, stands_for s x) \/ exists g m, s = g ++ m /\ sign g /\ special m.
Proof.
  split.
  - intros (g & m & e & -> & G & [(M & X)|(S & ->)]).
    + left. destruct (proj2 (decimal_exists (g ++ m ++ e))) as (neg & n & k & D); [exists g, m, e; auto|]. exists (dec_value neg n k), neg, n, k. auto.
    + right. exists g, m. rewrite app_nil_r. auto.
  - intros [(x & neg & n & k & D & _)|(g & m & -> & G & S)].
    + destruct (proj1 (decimal_exists s)) as (g & m & e & -> & G & M & X); [eauto|]. exists g, m, e. auto.
    + exists g, m, []. rewrite app_nil_r. auto.
Qed.
(** ** A case: 0.10000000000000001 *)
Lemma tenth_text : decimal (text "0.10000000000000001") false (10 ^ 16 + 1) (-17).
Proof.
  exists [], (text "0.10000000000000001"), [], 17, 0. split; [reflexivity|]. split; [left; reflexivity|]. split; [split; discriminate|]. split; [|split; [left; auto|reflexivity]].
  right. right. right. exists (text "0"), (text "10000000000000001"). split; [apply digits_one; split; vm_compute; discriminate|]. split.
  - do 16 (apply digits_more; [split; vm_compute; discriminate|]). apply digits_one. split; vm_compute; discriminate.
  - split; [reflexivity|]. split; vm_compute; reflexivity.
Qed.
Lemma tenth_double : isf (S754_finite false 7205759403792794 (-56)) (IZR 7205759403792794 * bpow radix2 (-56)).
Proof. apply (isf_valid (S754_finite false 7205759403792794 (-56))); reflexivity. Qed.
Lemma tenth_close : (Rabs (dec_value false (10 ^ 16 + 1) (-17) - IZR 7205759403792794 * bpow radix2 (-56)) <= / 2 * powerRZ 10 (-17))%R.
Proof.
  unfold dec_value. change (IZR (10 ^ 16 + 1)) with 10000000000000001%R. cbn [powerRZ]. rewrite pow_IZR. change (bpow radix2 (-56)) with (/ 72057594037927936)%R.
  replace (10 ^ Z.of_nat (Pos.to_nat 17)) with 100000000000000000 by reflexivity. apply Rabs_le. lra.
Qed.
