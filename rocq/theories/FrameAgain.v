(** Degrees to radians and back, in doubles. *)
From Coq Require Import ZArith Reals Lia Lra SpecFloat Psatz.
From Flocq Require Import Core IEEE754.BinarySingleNaN.
From Verif Require Import Py Num Text FloatLib BBoxModel NumTextModel NumTextSpec JsonModel JsonSpec Json FrameFloatModel FrameFloatSpec.
Open Scope Z_scope.

Definition Dm : Z := 8063664102031864.
Definition Rm : Z := 5030569068109113.
Lemma two_pow a : 0 <= a -> IZR (2 ^ a) = bpow radix2 a.
Proof. intros H. apply (IZR_Zpower radix2 a H). Qed.
Lemma mag_of r e : (bpow radix2 (e + 52) <= r < bpow radix2 (e + 53))%R -> mag radix2 r = e + 53 :> Z.
Proof.
  intros (A & B). apply mag_unique. rewrite Rabs_pos_eq; [|pose proof (bpow_ge_0 radix2 (e + 52)); lra].
  replace (e + 53 - 1) with (e + 52) by lia. split; assumption.
Qed.
(** The rounding of [t 2^e] *)
Lemma rnd_at t e : -1074 <= e -> (bpow radix2 52 <= t < bpow radix2 53)%R -> rnd (t * bpow radix2 e) = (IZR (ZnearestE t) * bpow radix2 e)%R.
Proof.
  intros E (A & B). unfold rnd, round, scaled_mantissa, cexp, F2R. cbn [Fnum Fexp].
  assert (M : mag radix2 (t * bpow radix2 e) = e + 53 :> Z).
  { apply mag_of. rewrite !(Z.add_comm e), !bpow_plus. pose proof (bpow_gt_0 radix2 e) as P. split; [apply Rmult_le_compat_r; lra|apply Rmult_lt_compat_r; lra]. }
  rewrite M. replace (fexp64 (e + 53)) with e by (unfold fexp64, SpecFloat.fexp, SpecFloat.emin; lia).
  rewrite Rmult_assoc, <- bpow_plus. replace (e + - e) with 0 by lia. cbn [bpow]. rewrite Rmult_1_r. reflexivity.
Qed.
Lemma near P k e : 1 <= k -> -1074 <= e -> 2 ^ 52 * 2 ^ k <= P -> 2 * P <= 2 * 2 ^ 53 * 2 ^ k + 2 ^ k ->
  exists N, 2 ^ 52 <= N <= 2 ^ 53 /\ 2 * Z.abs (2 ^ k * N - P) <= 2 ^ k /\ rnd (IZR P * bpow radix2 (e - k)) = (IZR N * bpow radix2 e)%R.
Proof.
  intros K E A B. pose proof (Z.pow_pos_nonneg 2 k ltac:(lia) ltac:(lia)) as K0.
  set (t := (IZR P * bpow radix2 (- k))%R).
  assert (T : (IZR P * bpow radix2 (e - k) = t * bpow radix2 e)%R) by (unfold t; rewrite Rmult_assoc, <- bpow_plus; do 2 f_equal; lia).
  assert (Pt : (IZR P = t * IZR (2 ^ k))%R).
  { unfold t. rewrite two_pow by lia. rewrite Rmult_assoc, <- bpow_plus. replace (- k + k) with 0 by lia. cbn [bpow]. lra. }
  assert (K1 : (0 < IZR (2 ^ k))%R) by (apply IZR_lt; exact K0).
  assert (Lo : (bpow radix2 52 <= t)%R).
  { apply Rmult_le_reg_r with (IZR (2 ^ k)); [exact K1|]. rewrite <- Pt. rewrite <- two_pow by lia. rewrite <- mult_IZR. apply IZR_le. exact A. }
  rewrite T. destruct (Rlt_or_le t (bpow radix2 53)) as [Hi|Hi].
  - rewrite (rnd_at t e E (conj Lo Hi)). exists (ZnearestE t). split.
    + split.
      * apply le_IZR. rewrite two_pow by lia. pose proof (Znearest_ge_floor (fun x => negb (Z.even x)) t). apply Rle_trans with (IZR (Zfloor t)); [|apply IZR_le; assumption].
        rewrite <- (two_pow 52) by lia. apply IZR_le, Zfloor_lub. rewrite two_pow by lia. exact Lo.
      * pose proof (Znearest_le_ceil (fun x => negb (Z.even x)) t). apply Z.le_trans with (Zceil t); [assumption|]. apply Zceil_glb. rewrite two_pow by lia. lra.
    + split; [|reflexivity]. pose proof (Znearest_half (fun x => negb (Z.even x)) t) as H. set (N := ZnearestE t) in *.
      apply le_IZR. rewrite mult_IZR, abs_IZR, minus_IZR, mult_IZR, Pt. 
      replace (IZR (2 ^ k) * IZR N - t * IZR (2 ^ k))%R with (- ((t - IZR N) * IZR (2 ^ k)))%R by ring. rewrite Rabs_Ropp, Rabs_mult, (Rabs_pos_eq (IZR (2 ^ k))) by lra.
      nra.
  - assert (Hu : (t <= bpow radix2 53 + / 2)%R).
    { apply Rmult_le_reg_r with (IZR (2 ^ k)); [exact K1|]. rewrite <- Pt. rewrite <- two_pow by lia. apply IZR_le in B. rewrite plus_IZR, !mult_IZR in B. lra. }
    exists (2 ^ 53). split; [lia|]. split.
    + apply le_IZR. rewrite mult_IZR, abs_IZR, minus_IZR, mult_IZR, Pt, (two_pow 53) by lia.
      replace (IZR (2 ^ k) * bpow radix2 53 - t * IZR (2 ^ k))%R with (- ((t - bpow radix2 53) * IZR (2 ^ k)))%R by ring. rewrite Rabs_Ropp, Rabs_mult, (Rabs_pos_eq (IZR (2 ^ k))), Rabs_pos_eq by lra.
      nra.
    + replace (t * bpow radix2 e)%R with (t / 2 * bpow radix2 (e + 1))%R by (rewrite bpow_plus; cbn; lra).
      rewrite rnd_at; [|lia|].
      * rewrite (Znearest_imp _ _ (2 ^ 52)).
        -- rewrite !two_pow by lia. rewrite <- !bpow_plus. f_equal. lia.
        -- rewrite two_pow by lia. change (bpow radix2 53) with (bpow radix2 (52 + 1)) in *. rewrite bpow_plus in *. change (bpow radix2 1) with 2%R in *. apply Rabs_lt. lra.
      * change (bpow radix2 53) with (bpow radix2 (52 + 1)) in *. rewrite bpow_plus in *. change (bpow radix2 1) with 2%R in *.
        assert (1 <= bpow radix2 52)%R by (change 1%R with (bpow radix2 0); apply bpow_le; lia). lra.
Qed.
Lemma exactly P k e N : 1 <= k -> -1074 <= e -> 2 ^ 52 * 2 ^ k <= P -> 2 * P <= 2 * 2 ^ 53 * 2 ^ k + 2 ^ k -> 2 * Z.abs (2 ^ k * N - P) < 2 ^ k ->
  rnd (IZR P * bpow radix2 (e - k)) = (IZR N * bpow radix2 e)%R.
Proof.
  intros K E A B C. destruct (near P k e K E A B) as (N' & _ & H & ->). replace N' with N; [reflexivity|].
  pose proof (Z.pow_pos_nonneg 2 k ltac:(lia) ltac:(lia)) as K0. set (q := 2 ^ k) in *. clearbody q. clear - C H K0.
  assert (U : Z.abs (q * (N - N')) < q) by lia. destruct (Z.lt_trichotomy N N') as [L|[L|L]]; [|exact L|]; exfalso; nia.
Qed.
Definition there (r : R) : R := rnd (r * (IZR Rm * bpow radix2 (-58))).
Definition back (r : R) : R := rnd (r * (IZR Dm * bpow radix2 (-47))).
Lemma there_eq X e : there (IZR X * bpow radix2 e) = rnd (IZR (Rm * X) * bpow radix2 (e - 58)).
Proof. unfold there. f_equal. rewrite mult_IZR. replace (e - 58) with (e + -58) by lia. rewrite bpow_plus. ring. Qed.
Lemma back_eq X e : back (IZR X * bpow radix2 e) = rnd (IZR (Dm * X) * bpow radix2 (e - 47)).
Proof. unfold back. f_equal. rewrite mult_IZR. replace (e - 47) with (e + -47) by lia. rewrite bpow_plus. ring. Qed.

(** Radians of less than twice the significand *)
Lemma low_there X e : -1060 <= e -> 2 ^ 52 <= X <= 8063664102031863 ->
  exists N, 2 * Z.abs (2 ^ 52 * N - Rm * X) <= 2 ^ 52 /\ 2 ^ 52 <= N <= 2 ^ 53 /\ there (IZR X * bpow radix2 e) = (IZR N * bpow radix2 (e - 6))%R.
Proof.
  intros E B. rewrite there_eq. destruct (near (Rm * X) 52 (e - 6)) as (N & BN & H & Q); [lia|lia|unfold Rm; lia|unfold Rm; lia|].
  exists N. split; [exact H|]. split; [exact BN|]. rewrite <- Q. do 3 f_equal. lia.
Qed.
Lemma high_there X e : -1060 <= e -> 8063664102031864 <= X <= 2 ^ 53 ->
  exists N, 2 * Z.abs (2 ^ 53 * N - Rm * X) <= 2 ^ 53 /\ 2 ^ 52 <= N <= 2 ^ 53 /\ there (IZR X * bpow radix2 e) = (IZR N * bpow radix2 (e - 5))%R.
Proof.
  intros E B. rewrite there_eq. destruct (near (Rm * X) 53 (e - 5)) as (N & BN & H & Q); [lia|lia|unfold Rm; lia|unfold Rm; lia|].
  exists N. split; [exact H|]. split; [exact BN|]. rewrite <- Q. do 3 f_equal. lia.
Qed.
Lemma low_back N e : -1060 <= e -> 2 ^ 105 <= Dm * N -> N <= 2 ^ 53 -> 
  exists M, 2 * Z.abs (2 ^ 53 * M - Dm * N) <= 2 ^ 53 /\ 2 ^ 52 <= M <= 2 ^ 53 /\ back (IZR N * bpow radix2 (e - 6)) = (IZR M * bpow radix2 e)%R.
Proof.
  intros E A B. rewrite back_eq. destruct (near (Dm * N) 53 e) as (M & BM & H & Q); [lia|lia|unfold Dm in *; lia|unfold Dm in *; lia|].
  exists M. split; [exact H|]. split; [exact BM|]. rewrite <- Q. do 3 f_equal. lia.
Qed.
Lemma high_back N e : -1060 <= e -> 2 ^ 104 <= Dm * N -> 2 * (Dm * N) <= 2 ^ 106 + 2 ^ 52 -> 
  exists M, 2 * Z.abs (2 ^ 52 * M - Dm * N) <= 2 ^ 52 /\ 2 ^ 52 <= M <= 2 ^ 53 /\ back (IZR N * bpow radix2 (e - 5)) = (IZR M * bpow radix2 e)%R.
Proof.
  intros E A B. rewrite back_eq. destruct (near (Dm * N) 52 e) as (M & BM & H & Q); [lia|lia|unfold Dm in *; lia|unfold Dm in *; lia|].
  exists M. split; [exact H|]. split; [exact BM|]. rewrite <- Q. do 3 f_equal. lia.
Qed.
Lemma low_case X e : -1060 <= e -> 2 ^ 52 <= X <= 8063664102031863 ->
  exists M, 2 ^ 52 <= M <= 2 ^ 53 /\ Z.abs (M - X) <= 1 /\ back (there (IZR X * bpow radix2 e)) = (IZR M * bpow radix2 e)%R /\
            back (there (IZR M * bpow radix2 e)) = (IZR M * bpow radix2 e)%R.
Proof.
  intros E B. destruct (low_there X e E B) as (N & HN & BN & TN).
  destruct (low_back N e E) as (M & HM & BM & TM); [unfold Dm, Rm in *; lia|lia|].
  assert (C : M = X \/ M = X + 1) by (unfold Dm, Rm in *; lia).
  exists M. split; [exact BM|]. split; [lia|]. split; [rewrite TN; exact TM|].
  destruct C as [->| ->]; [rewrite TN; exact TM|].
  assert (X <> 8063664102031863) by (intros ->; unfold Dm, Rm in *; lia).
  destruct (low_there (X + 1) e E) as (N1 & HN1 & BN1 & TN1); [lia|].
  assert (N1 = N + 1) by (unfold Dm, Rm in *; lia). subst N1.
  destruct (low_back (N + 1) e E) as (M1 & HM1 & BM1 & TM1); [unfold Dm, Rm in *; lia|lia|].
  assert (M1 = X + 1) by (unfold Dm, Rm in *; lia). subst M1. rewrite TN1. exact TM1.
Qed.
Lemma high_case X e : -1060 <= e -> 8063664102031864 <= X < 2 ^ 53 ->
  exists M, 2 ^ 52 <= M <= 2 ^ 53 /\ Z.abs (M - X) <= 1 /\ back (there (IZR X * bpow radix2 e)) = (IZR M * bpow radix2 e)%R /\
            back (there (IZR M * bpow radix2 e)) = (IZR M * bpow radix2 e)%R.
Proof.
  intros E B. destruct (high_there X e E) as (N & HN & BN & TN); [lia|].
  destruct (high_back N e E) as (M & HM & BM & TM); [unfold Dm, Rm in *; lia|unfold Dm, Rm in *; lia|].
  exists M. split; [exact BM|]. split; [unfold Dm, Rm in *; lia|]. split; [rewrite TN; exact TM|].
  assert (L : 8063664102031864 <= M) by (unfold Dm, Rm in *; lia).
  destruct (high_there M e E) as (N1 & HN1 & BN1 & TN1); [lia|].
  assert (N1 = N) by (unfold Dm, Rm in *; lia). subst N1. rewrite TN1. exact TM.
Qed.

(** ** Doubles *)
Lemma split_pos r : generic_format radix2 fexp64 r -> (bpow radix2 (-1000) <= r <= bpow radix2 1000)%R ->
  exists X e, r = (IZR X * bpow radix2 e)%R /\ 2 ^ 52 <= X < 2 ^ 53 /\ -1060 <= e <= 948.
Proof.
  intros G (A & B). assert (P : (0 < r)%R) by (pose proof (bpow_gt_0 radix2 (-1000)); lra).
  assert (H : (bpow radix2 (mag radix2 r - 1) <= r < bpow radix2 (mag radix2 r))%R).
  { pose proof (bpow_mag_le radix2 r ltac:(lra)) as H1. pose proof (bpow_mag_gt radix2 r) as H2. rewrite Rabs_pos_eq in H1, H2 by lra. split; assumption. }
  remember (mag radix2 r : Z) as g eqn:Mg. symmetry in Mg.
  assert (G1 : -1000 < g) by (apply (lt_bpow radix2); lra).
  assert (G2 : g - 1 <= 1000) by (apply (le_bpow radix2); lra).
  assert (C : fexp64 g = g - 53) by (unfold fexp64, SpecFloat.fexp, SpecFloat.emin; lia).
  unfold generic_format, scaled_mantissa, cexp, F2R in G. cbn [Fnum Fexp] in G. rewrite Mg, C in G.
  exists (Ztrunc (r * bpow radix2 (- (g - 53)))), (g - 53). split; [exact G|]. split; [|lia].
  set (X := Ztrunc _) in *. clearbody X. pose proof (bpow_gt_0 radix2 (g - 53)) as Q.
  assert (H1 : (bpow radix2 52 * bpow radix2 (g - 53) <= r)%R) by (rewrite <- bpow_plus; replace (52 + (g - 53)) with (g - 1) by lia; apply H).
  assert (H2 : (r < bpow radix2 53 * bpow radix2 (g - 53))%R) by (rewrite <- bpow_plus; replace (53 + (g - 53)) with g by lia; apply H).
  rewrite G in H1, H2. split.
  - apply le_IZR. rewrite two_pow by lia. apply Rmult_le_reg_r with (bpow radix2 (g - 53)); assumption.
  - apply lt_IZR. rewrite two_pow by lia. apply Rmult_lt_reg_r with (bpow radix2 (g - 53)); assumption.
Qed.
Lemma rnd_opp r : rnd (- r) = (- rnd r)%R.
Proof. apply round_NE_opp. Qed.
Lemma there_opp r : there (- r) = (- there r)%R.
Proof. unfold there. rewrite Ropp_mult_distr_l_reverse. apply rnd_opp. Qed.
Lemma back_opp r : back (- r) = (- back r)%R.
Proof. unfold back. rewrite Ropp_mult_distr_l_reverse. apply rnd_opp. Qed.
Lemma stable_pos r : generic_format radix2 fexp64 r -> (bpow radix2 (-1000) <= r <= bpow radix2 1000)%R ->
  exists q, back (there r) = q /\ back (there q) = q /\ (0 < q)%R /\ (Rabs (q - r) <= bpow radix2 (-52) * r)%R /\ (q <= bpow radix2 1001)%R.
Proof.
  intros G B. destruct (split_pos r G B) as (X & e & -> & BX & E).
  assert (H : exists M, 2 ^ 52 <= M <= 2 ^ 53 /\ Z.abs (M - X) <= 1 /\ back (there (IZR X * bpow radix2 e)) = (IZR M * bpow radix2 e)%R /\
            back (there (IZR M * bpow radix2 e)) = (IZR M * bpow radix2 e)%R).
  { destruct (Z.le_gt_cases X 8063664102031863); [apply low_case|apply high_case]; lia. }
  destruct H as (M & BM & D & T & S0). exists (IZR M * bpow radix2 e)%R. split; [exact T|]. split; [exact S0|].
  pose proof (bpow_gt_0 radix2 e) as P. split; [|split].
  - apply Rmult_lt_0_compat; [apply IZR_lt; lia|exact P].
  - rewrite <- Rmult_minus_distr_r, Rabs_mult, (Rabs_pos_eq (bpow radix2 e)) by lra. rewrite <- minus_IZR, <- abs_IZR.
    apply IZR_le in D. assert (L : (1 <= bpow radix2 (-52) * IZR X)%R).
    { apply Rmult_le_reg_l with (bpow radix2 52); [apply bpow_gt_0|]. rewrite <- Rmult_assoc, <- bpow_plus. replace (52 + -52) with 0 by lia. change (bpow radix2 0) with 1%R. rewrite Rmult_1_l, Rmult_1_r.
      rewrite <- two_pow by lia. apply IZR_le. lia. }
    rewrite <- Rmult_assoc. apply Rmult_le_compat_r; lra.
  - apply Rle_trans with (bpow radix2 53 * bpow radix2 e)%R; [apply Rmult_le_compat_r; [lra|]; rewrite <- two_pow by lia; apply IZR_le; lia|].
    rewrite <- bpow_plus. apply bpow_le. lia.
Qed.
Lemma isf_R : isf (fdiv pi64 (fofZ 180)) (IZR Rm * bpow radix2 (-58)).
Proof.
  assert (E : fdiv pi64 (fofZ 180) = S754_finite false 5030569068109113 (-58)) by (vm_compute; reflexivity). rewrite E.
  exact (isf_valid (S754_finite false 5030569068109113 (-58)) eq_refl eq_refl).
Qed.
Lemma isf_D : isf (fdiv (fofZ 180) pi64) (IZR Dm * bpow radix2 (-47)).
Proof.
  assert (E : fdiv (fofZ 180) pi64 = S754_finite false 8063664102031864 (-47)) by (vm_compute; reflexivity). rewrite E.
  exact (isf_valid (S754_finite false 8063664102031864 (-47)) eq_refl eq_refl).
Qed.
Lemma R_small : (Rabs (IZR Rm * bpow radix2 (-58)) <= bpow radix2 0)%R.
Proof.
  rewrite Rabs_pos_eq by (apply Rmult_le_pos; [apply IZR_le; unfold Rm; lia|apply bpow_ge_0]).
  apply Rle_trans with (bpow radix2 58 * bpow radix2 (-58))%R; [apply Rmult_le_compat_r; [apply bpow_ge_0|]; rewrite <- two_pow by lia; apply IZR_le; unfold Rm; lia|].
  rewrite <- bpow_plus. apply bpow_le. lia.
Qed.
Lemma D_small : (Rabs (IZR Dm * bpow radix2 (-47)) <= bpow radix2 6)%R.
Proof.
  rewrite Rabs_pos_eq by (apply Rmult_le_pos; [apply IZR_le; unfold Dm; lia|apply bpow_ge_0]).
  apply Rle_trans with (bpow radix2 53 * bpow radix2 (-47))%R; [apply Rmult_le_compat_r; [apply bpow_ge_0|]; rewrite <- two_pow by lia; apply IZR_le; unfold Dm; lia|].
  rewrite <- bpow_plus. apply bpow_le. lia.
Qed.
Lemma isf_there x r : isf x r -> (Rabs r <= bpow radix2 1001)%R -> isf (degrees64 (radians64 x)) (back (there r)).
Proof.
  intros F B. unfold degrees64, radians64, back, there.
  assert (B1 : (Rabs (r * (IZR Rm * bpow radix2 (-58))) <= bpow radix2 1001)%R).
  { rewrite Rabs_mult. replace (bpow radix2 1001) with (bpow radix2 1001 * bpow radix2 0)%R by (change (bpow radix2 0) with 1%R; ring). apply Rmult_le_compat; try apply Rabs_pos; [exact B|apply R_small]. }
  apply isf_fmul; [apply isf_fmul; [exact F|apply isf_R|apply (small_bpow _ 1001); [lia|exact B1]]|apply isf_D|].
  apply (small_bpow _ 1007); [lia|]. rewrite Rabs_mult. change 1007 with (1001 + 6). rewrite bpow_plus. apply Rmult_le_compat; try apply Rabs_pos; [apply rnd_abs_le; [lia|exact B1]|apply D_small].
Qed.
Lemma around x : angle x -> exists q, isf (degrees64 (radians64 x)) q /\ degrees64 (radians64 (degrees64 (radians64 x))) = degrees64 (radians64 x) /\
  (Rabs (q - SF2R radix2 x) <= bpow radix2 (-52) * Rabs (SF2R radix2 x))%R.
Proof.
  intros (V & [(s & ->)|(F & A & B)]).
  - assert (E : degrees64 (radians64 (S754_zero s)) = S754_zero s) by (destruct s; vm_compute; reflexivity). exists 0%R. rewrite !E. split; [exact (isf_valid (S754_zero s) eq_refl eq_refl)|].
    split; [reflexivity|]. cbn [SF2R]. rewrite Rminus_0_r, Rabs_R0. lra.
  - pose proof (isf_valid x V F) as I0. set (r := SF2R radix2 x) in *. clearbody r.
    assert (B' : (Rabs r <= bpow radix2 1001)%R) by (apply Rle_trans with (bpow radix2 1000); [exact B|apply bpow_le; lia]).
    pose proof (isf_there x r I0 B') as I1.
    assert (H : exists q, back (there r) = q /\ back (there q) = q /\ (q <> 0)%R /\ (Rabs (q - r) <= bpow radix2 (-52) * Rabs r)%R /\ (Rabs q <= bpow radix2 1001)%R).
    { pose proof (isf_format _ _ I0) as G. destruct (Rle_or_lt 0 r) as [S0|S0].
      - rewrite Rabs_pos_eq in * by exact S0. destruct (stable_pos r G (conj A B)) as (q & Q1 & Q2 & Q3 & Q4 & Q5). exists q. rewrite (Rabs_pos_eq q) by lra. repeat split; auto; lra.
      - rewrite (Rabs_left r) in * by exact S0. destruct (stable_pos (- r) (generic_format_opp _ _ _ G) (conj A B)) as (q & Q1 & Q2 & Q3 & Q4 & Q5).
        exists (- q)%R. rewrite there_opp, back_opp in Q1. rewrite there_opp, back_opp, Q2. rewrite Rabs_Ropp, (Rabs_pos_eq q) by lra.
        split; [lra|]. split; [reflexivity|]. split; [lra|]. split; [|exact Q5]. replace (- q - r)%R with (- (q - - r))%R by ring. rewrite Rabs_Ropp. exact Q4. }
    destruct H as (q & Q1 & Q2 & Q3 & Q4 & Q5). rewrite Q1 in I1. exists q. split; [exact I1|]. split; [|exact Q4].
    apply (isf_inj _ _ q); [|exact I1|exact Q3]. pose proof (isf_there _ _ I1 Q5) as I2. rewrite Q2 in I2. exact I2.
Qed.
Lemma stable x : angle x -> degrees64 (radians64 (degrees64 (radians64 x))) = degrees64 (radians64 x).
Proof. intros A. destruct (around x A) as (q & _ & E & _). exact E. Qed.
Lemma isf_value x r : isf x r -> SF2R radix2 x = r.
Proof. intros (b & <- & _ & <-). apply SF2R_B2SF. Qed.
Lemma close x : angle x -> (Rabs (SF2R radix2 (degrees64 (radians64 x)) - SF2R radix2 x) <= bpow radix2 (-52) * Rabs (SF2R radix2 x))%R.
Proof. intros A. destruct (around x A) as (q & I0 & _ & C). rewrite (isf_value _ _ I0). exact C. Qed.
Lemma around_number x : angle x -> a_number (Float (degrees64 (radians64 x))).
Proof. intros A. destruct (around x A) as (q & (b & <- & _) & _). apply valid_binary_B2SF. Qed.

(** ** Files *)
Lemma load_saved t lon lat r b : simple t -> a_number (Float lon) -> a_number (Float lat) -> a_number r -> corners a_number b ->
  load64 (frame_file (mkset t (Float lon, Float lat) (Sphere r) b)) = Some (new64 t lon lat r b).
Proof.
  intros T A B C D. unfold load64, frame_file. rewrite load_dump by (apply frame_writable; unfold good_settings; cbn; auto). destruct b. reflexivity.
Qed.
Lemma saved_again t lon lat r b : simple t -> angle lon -> angle lat -> a_number r -> corners a_number b ->
  exists g, load64 (save64 (new64 t lon lat r b)) = Some g /\ save64 g = save64 (new64 t lon lat r b) /\ f_type g = t /\ f_r g = r /\ f_box g = b.
Proof.
  intros T A B C D. unfold save64 at 1. cbn [new64 f_type f_lon0 f_lat0 f_r f_box]. eexists. split; [apply load_saved; auto using around_number|].
  unfold save64, new64. cbn [f_type f_lon0 f_lat0 f_r f_box]. rewrite (stable lon A), (stable lat B). auto.
Qed.
Lemma angle_west : angle (S754_finite true 8444249301319680 (-47)).
Proof.
  split; [reflexivity|]. right. split; [reflexivity|]. cbn [SF2R cond_Zopp]. unfold F2R. cbn [Fnum Fexp]. rewrite Rabs_mult, (Rabs_pos_eq (bpow _ _)) by apply bpow_ge_0. rewrite <- abs_IZR.
  change (Z.abs (- Z.pos 8444249301319680)) with 8444249301319680.
  split.
  - apply Rle_trans with (bpow radix2 52 * bpow radix2 (-47))%R; [rewrite <- bpow_plus; apply bpow_le; lia|]. apply Rmult_le_compat_r; [apply bpow_ge_0|]. rewrite <- two_pow by lia. apply IZR_le. lia.
  - apply Rle_trans with (bpow radix2 53 * bpow radix2 (-47))%R; [|rewrite <- bpow_plus; apply bpow_le; lia]. apply Rmult_le_compat_r; [apply bpow_ge_0|]. rewrite <- two_pow by lia. apply IZR_le. lia.
Qed.
Lemma moved : exists x, angle x /\ degrees64 (radians64 x) <> x.
Proof. exists (S754_finite true 8444249301319680 (-47)). split; [exact angle_west|]. vm_compute. intros H. discriminate H. Qed.
