(** Compass directions and collinearity in double arithmetic. *)
From Coq Require Import ZArith QArith Reals Qreals Lia Lra List SpecFloat ZifyBool.
From Flocq Require Import Core IEEE754.BinarySingleNaN Div_sqrt_error.
From Verif Require Import Py Num FloatLib RasterAA NearestFloat BBoxScale SimplifyModel SimplifyFloatModel SimplifyFloat GeoModel GeoCompass CompassFloatModel CompassFloatSpec.
Import ListNotations.
Open Scope R_scope.

Lemma isf_f_of m e : small (IZR m * bpow radix2 e) -> isf (f_of m e) (rnd (IZR m * bpow radix2 e)).
Proof.
  intros S. exists (BinarySingleNaN.binary_normalize 53 1024 Hprec53 Hmax1024 mode_NE m e false). split; [symmetry; apply normalize_equiv|].
  pose proof (binary_normalize_correct 53 1024 Hprec53 Hmax1024 mode_NE m e false) as C. cbv zeta in C. change (F2R (Float radix2 m e)) with (IZR m * bpow radix2 e) in C.
  rewrite Rlt_bool_true in C by exact S. destruct C as (C1 & C2 & _). split; [exact C2|exact C1].
Qed.
Lemma fmt_int z : (Z.abs z <= 2 ^ 53)%Z -> generic_format radix2 fexp64 (IZR z).
Proof. intros H. rewrite <- (rnd_IZR z H). apply generic_format_round; apply _. Qed.
(** The exact remainder *)
Lemma fmod_val x r n : isf x r -> (0 < n <= 2 ^ 53)%Z ->
  isf (f_fmod x n) (r - IZR (Ztrunc (r / IZR n)) * IZR n) /\ Rabs (r - IZR (Ztrunc (r / IZR n)) * IZR n) < IZR n /\ 0 <= (r - IZR (Ztrunc (r / IZR n)) * IZR n) * r.
Proof.
  intros I N. assert (N0 : 0 < IZR n) by (apply (IZR_lt 0); lia).
  assert (Sm : forall t : R, Rabs t < IZR n -> small t).
  { intros t Ht. apply (small_at _ 53); [lia|]. assert (IZR n <= IZR (2 ^ 53)) by (apply IZR_le; lia). change (bpow radix2 53) with (IZR (2 ^ 53)). lra. }
  set (k := Ztrunc (r / IZR n)). set (y := r - IZR k * IZR n).
  assert (Fy : generic_format radix2 fexp64 y) by (apply (format_REM_ZR radix2 fexp64 r (IZR n)); [exact (isf_format _ _ I)|apply fmt_int; lia]).
  assert (B : Rabs y < IZR n /\ 0 <= y * r).
  { assert (E : r = r / IZR n * IZR n) by (field; lra). assert (Ey : y = (r / IZR n - IZR k) * IZR n) by (unfold y; rewrite E at 1; ring). set (q := r / IZR n) in *.
    destruct (Rle_or_lt 0 q) as [P|P].
    - assert (Ek : k = Zfloor q) by (apply Ztrunc_floor; exact P). pose proof (Zfloor_lb q) as L. pose proof (Zfloor_ub q) as U. rewrite <- Ek in L, U.
      assert (K0 : 0 <= IZR k) by (apply (IZR_le 0); rewrite Ek; apply Zfloor_lub; exact P).
      assert (Y0 : 0 <= y) by (rewrite Ey; apply Rmult_le_pos; lra). assert (R0 : 0 <= r) by (rewrite E; apply Rmult_le_pos; lra).
      split; [rewrite Rabs_pos_eq by exact Y0|apply Rmult_le_pos; assumption]. rewrite Ey. apply Rlt_le_trans with (1 * IZR n); [apply Rmult_lt_compat_r; lra|lra].
    - assert (Ek : k = Zceil q) by (apply Ztrunc_ceil; lra). pose proof (Zceil_ub q) as L. pose proof (Zceil_lb q) as U. rewrite <- Ek in L, U.
      assert (Y0 : 0 <= - y) by (rewrite Ey, Ropp_mult_distr_l; apply Rmult_le_pos; lra). assert (R0 : 0 <= - r) by (rewrite E, Ropp_mult_distr_l; apply Rmult_le_pos; lra).
      split; [rewrite Rabs_left1 by lra|replace (y * r) with (- y * - r) by ring; apply Rmult_le_pos; assumption]. rewrite Ey, Ropp_mult_distr_l.
      apply Rlt_le_trans with (1 * IZR n); [apply Rmult_lt_compat_r; lra|lra]. }
  split; [|exact B]. destruct B as [B _]. destruct I as (b & <- & Fb & <-). destruct b as [s| | |s m e H]; try discriminate.
  - cbn [B2SF f_fmod]. cbn [B2R] in *. unfold y, k. unfold Rdiv. rewrite Rmult_0_l, Ztrunc_IZR. rewrite Rmult_0_l, Rminus_0_r. exists (B754_zero s). split; [reflexivity|]. split; reflexivity.
  - cbn [B2SF f_fmod]. cbn [B2R] in *. assert (Ev : (if s then Z.neg m else Z.pos m) = cond_Zopp s (Z.pos m)) by (destruct s; reflexivity). rewrite Ev. set (v := cond_Zopp s (Z.pos m)) in *.
    destruct (Z.leb_spec 0 e) as [P|P].
    + assert (Er : F2R (Float radix2 v e) = IZR (v * 2 ^ e)) by (apply F2R_mul; exact P). unfold y, k in *. rewrite Er in *.
      rewrite (Ztrunc_div _ n) in * by lia.
      assert (Ey : IZR (v * 2 ^ e) - IZR (Z.quot (v * 2 ^ e) n) * IZR n = IZR (Z.rem (v * 2 ^ e) n)) by (rewrite <- mult_IZR, <- minus_IZR; f_equal; pose proof (Z.quot_rem' (v * 2 ^ e) n); lia).
      rewrite Ey in *. apply isf_int. rewrite <- abs_IZR in B. apply lt_IZR in B. lia.
    + assert (Er : F2R (Float radix2 v e) = IZR v / IZR (2 ^ (- e))) by (apply F2R_div; exact P).
      assert (P2 : (0 < 2 ^ (- e))%Z) by (apply Z.pow_pos_nonneg; lia). assert (P2r : 0 < IZR (2 ^ (- e))) by (apply (IZR_lt 0); exact P2).
      assert (Eq : F2R (Float radix2 v e) / IZR n = IZR v / IZR (n * 2 ^ (- e))) by (rewrite Er, mult_IZR; field; lra).
      assert (Ek : k = Z.quot v (n * 2 ^ (- e))) by (unfold k; rewrite Eq; apply Ztrunc_div; nia).
      assert (Eb : bpow radix2 e = / IZR (2 ^ (- e))) by (rewrite <- (Z.opp_involutive e) at 1; rewrite bpow_opp; f_equal; rewrite (IZR_Zpower radix2) by lia; reflexivity).
      assert (Ey : y = IZR (Z.rem v (n * 2 ^ (- e))) * bpow radix2 e).
      { assert (Q : (Z.rem v (n * 2 ^ (- e)) = v - n * 2 ^ (- e) * k)%Z) by (rewrite Ek; pose proof (Z.quot_rem' v (n * 2 ^ (- e))); lia).
        rewrite Q, minus_IZR, !mult_IZR, Eb. unfold y. rewrite Er. field. lra. }
      rewrite <- (rnd_fmt y Fy). rewrite Ey. apply isf_f_of. rewrite <- Ey. apply Sm. exact B.
Qed.
(** Doubles from 256 on are multiples of 2^-44. *)
Lemma mult44 x : generic_format radix2 fexp64 x -> 256 <= Rabs x -> exists n, x = IZR n * bpow radix2 (-44).
Proof.
  intros F B. assert (M : (9 <= mag radix2 x)%Z) by (apply mag_ge_bpow; exact B).
  assert (C : (-44 <= cexp radix2 fexp64 x)%Z) by (unfold cexp, fexp64, SpecFloat.fexp, SpecFloat.emin; lia).
  exists (Ztrunc (scaled_mantissa radix2 fexp64 x) * 2 ^ (cexp radix2 fexp64 x + 44))%Z. rewrite F at 1. unfold F2R. cbn [Fnum Fexp].
  rewrite mult_IZR, (IZR_Zpower radix2) by lia. rewrite Rmult_assoc, <- bpow_plus. do 2 f_equal. lia.
Qed.
Lemma fmt44 n : (Z.abs n < 2 ^ 53)%Z -> generic_format radix2 fexp64 (IZR n * bpow radix2 (-44)).
Proof. intros H. apply fmt_of; [exact H|lia]. Qed.
Definition u44 : R := / 17592186044416.
Lemma u44E : bpow radix2 (-44) = u44.
Proof. reflexivity. Qed.
(** A remainder of 360 is an exact multiple of turns away. *)
Lemma mod360 x b : isf x b -> Rabs b <= IZR (2 ^ 50) ->
  exists m k, isf (f_mod (fadd x (fofZ 360)) 360) m /\ 0 <= m <= 360 - u44 /\ Rabs (m - (b + IZR k * 360)) <= (Rabs b + 360) * / IZR (2 ^ 53).
Proof.
  intros I B. pose proof (isf_int 360 ltac:(lia)) as I360. pose proof (isf_format _ _ I) as Fb. pose proof (fmt_int 360 ltac:(lia)) as F360. pose proof (isf_int 0 ltac:(lia)) as I0.
  assert (SB : Rabs (b + 360) <= Rabs b + 360) by (eapply Rle_trans; [apply Rabs_triang|]; rewrite (Rabs_pos_eq 360); lra).
  change (IZR (2 ^ 50)) with 1125899906842624 in B.
  assert (Is : isf (fadd x (fofZ 360)) (rnd (b + 360))) by (apply isf_fadd; [exact I|exact I360|apply (small_at _ 53); [lia|change (bpow radix2 53) with 9007199254740992; lra]]).
  pose proof (add_rel b 360 Fb F360) as E. set (s := rnd (b + 360)) in *.
  assert (E' : Rabs (s - (b + 360)) <= (Rabs b + 360) * / IZR (2 ^ 53)) by (eapply Rle_trans; [exact E|]; change (IZR (2 ^ 53)) with 9007199254740992; apply Rmult_le_compat_r; lra). clear E.
  destruct (fmod_val _ s 360 Is ltac:(lia)) as (Iy & By & Sy). set (k := Ztrunc (s / IZR 360)) in *. set (y := s - IZR k * IZR 360) in *. change (IZR 360) with 360 in *.
  assert (U : 0 < u44) by (unfold u44; lra).
  assert (Top : forall z, generic_format radix2 fexp64 z -> 0 <= z < 360 -> z <= 360 - u44).
  { intros z Fz Bz. destruct (Rlt_le_dec z 256) as [L|L]; [unfold u44; lra|]. destruct (mult44 z Fz ltac:(rewrite Rabs_pos_eq; lra)) as (n & En). rewrite u44E in En.
    assert (n < 360 * 17592186044416)%Z by (apply lt_IZR; rewrite mult_IZR; unfold u44 in En; lra). assert (IZR n <= IZR (360 * 17592186044416 - 1)) by (apply IZR_le; lia).
    rewrite En. rewrite minus_IZR, mult_IZR in *. unfold u44. lra. }
  unfold f_mod. rewrite (isf_eq _ _ _ _ Iy I0), (isf_lt _ _ _ _ Iy I0).
  destruct (Raux.Req_bool_spec y 0) as [Z0|Z0].
  { exists 0, (1 - k)%Z. split; [exact I0|]. split; [unfold u44; lra|]. rewrite minus_IZR. replace (0 - (b + (1 - IZR k) * 360)) with (s - (b + 360)) by (unfold y in Z0; lra). exact E'. }
  destruct (Raux.Rlt_bool_spec y 0) as [Neg|Pos].
  - (* below zero: everything is a multiple of 2^-44 *)
    assert (Sn : s < 0) by (destruct (Rlt_or_le s 0) as [?|H]; [assumption|exfalso; apply Rabs_lt_inv in By; destruct H as [H|H]; [assert (y * s < 0) by (replace 0 with (0 * s) by ring; apply Rmult_lt_compat_r; lra); lra|]];
      unfold y, k in Z0; rewrite <- H in Z0; unfold Rdiv in Z0; rewrite Rmult_0_l, Ztrunc_IZR in Z0; lra).
    assert (Bn : b + 360 < 0) by (destruct (Rlt_or_le (b + 360) 0) as [?|H]; [assumption|exfalso]; apply rnd_le in H; fold s in H; rewrite (rnd_IZR 0) in H by lia; lra).
    assert (Ms : exists n, s = IZR n * u44).
    { destruct (mult44 b Fb ltac:(rewrite Rabs_left; lra)) as (n & En). rewrite u44E in En. destruct (Rle_or_lt (-511) (b + 360)) as [L|L].
      - assert (Eb : b + 360 = IZR (n + 360 * 17592186044416) * u44) by (rewrite plus_IZR, mult_IZR, En; unfold u44; lra).
        exists (n + 360 * 17592186044416)%Z. unfold s. rewrite Eb. apply rnd_fmt. rewrite <- u44E. apply fmt44.
        assert (G1 : (- (511 * 17592186044416) <= n + 360 * 17592186044416)%Z) by (apply le_IZR; rewrite opp_IZR, mult_IZR; unfold u44 in Eb; lra).
        assert (G2 : (n + 360 * 17592186044416 < 0)%Z) by (apply lt_IZR; unfold u44 in Eb; lra). lia.
      - destruct (mult44 s) as (n' & En').
        + apply generic_format_round; apply _.
        + assert (s <= -511) by (rewrite <- (rnd_IZR (-511)) by lia; apply rnd_le; lra). rewrite Rabs_left; lra.
        + exists n'. rewrite <- u44E. exact En'. }
    destruct Ms as (n & En). assert (Ey : y + 360 = IZR (n - k * (360 * 17592186044416) + 360 * 17592186044416) * u44) by (unfold y; rewrite plus_IZR, minus_IZR, !mult_IZR, En; unfold u44; lra).
    set (j := (n - k * (360 * 17592186044416) + 360 * 17592186044416)%Z) in *. apply Rabs_lt_inv in By.
    assert (J0 : (0 < j)%Z) by (apply lt_IZR; unfold u44 in Ey; lra). assert (J1 : (j < 360 * 17592186044416)%Z) by (apply lt_IZR; rewrite mult_IZR; unfold u44 in Ey; lra).
    assert (Fj : rnd (y + 360) = y + 360) by (apply rnd_fmt; rewrite Ey, <- u44E; apply fmt44; lia).
    exists (y + 360), (2 - k)%Z. split; [rewrite <- Fj at 1; apply isf_fadd; [exact Iy|exact I360|apply small_le; apply Rle_trans with 360; [rewrite Rabs_pos_eq; lra|apply (IZR_le 360); lia]]|].
    split; [split; [lra|]|rewrite minus_IZR; replace (y + 360 - (b + (2 - IZR k) * 360)) with (s - (b + 360)) by (unfold y; lra); exact E'].
    apply Top; [rewrite <- Fj; apply generic_format_round; apply _|lra].
  - exists y, (1 - k)%Z. split; [exact Iy|]. rewrite Rabs_pos_eq in By by exact Pos. split; [split; [exact Pos|apply Top; [exact (isf_format _ _ Iy)|lra]]|].
    rewrite minus_IZR. replace (y - (b + (1 - IZR k) * 360)) with (s - (b + 360)) by (unfold y; lra). exact E'.
Qed.
Lemma hours64 x b : isf x b -> Rabs b <= IZR (2 ^ 50) ->
  exists h k, isf (bearing2hours64 x) h /\ 0 < h <= 12 /\ Rabs (30 * h - (- b + IZR k * 360)) <= (Rabs b + 360) * / IZR (2 ^ 53) + / IZR (2 ^ 43).
Proof.
  intros I B. destruct (mod360 x b I B) as (m & k & Im & Bm & E). unfold bearing2hours64. cbv zeta. set (y := f_mod _ _) in *.
  assert (Iq : isf (fdiv y (fofZ 30)) (rnd (m / 30))) by (apply isf_fdiv; [exact Im|apply (isf_int 30); lia|lra|apply small_le; apply Rle_trans with 12; [unfold Rdiv; rewrite Rabs_pos_eq; unfold u44 in Bm; lra|apply (IZR_le 12); lia]]).
  pose proof (near (m / 30) 4 ltac:(lia) ltac:(change (bpow radix2 4) with 16; rewrite Rabs_pos_eq; unfold u44 in Bm; lra)) as E1. change (bpow radix2 (4 - 54)) with (/ 1125899906842624) in E1.
  assert (Q0 : 0 <= rnd (m / 30)) by (rewrite <- (rnd_IZR 0) at 1 by lia; apply rnd_le; lra).
  assert (Q1 : rnd (m / 30) <= 12 - / 562949953421312).
  { assert (F : generic_format radix2 fexp64 (12 - / 562949953421312)).
    { replace (12 - / 562949953421312) with (IZR 6755399441055743 * bpow radix2 (-49)); [apply fmt_of; lia|]. change (bpow radix2 (-49)) with (/ 562949953421312). lra. }
    rewrite <- (rnd_fmt _ F). apply rnd_le. unfold u44 in Bm. lra. }
  set (q := rnd (m / 30)) in *.
  pose proof (near (12 - q) 4 ltac:(lia) ltac:(change (bpow radix2 4) with 16; rewrite Rabs_pos_eq; lra)) as E2. change (bpow radix2 (4 - 54)) with (/ 1125899906842624) in E2.
  exists (rnd (12 - q)), (1 - k)%Z. split; [apply isf_fsub; [apply (isf_int 12); lia|exact Iq|apply small_le; apply Rle_trans with 12; [rewrite Rabs_pos_eq; lra|apply (IZR_le 12); lia]]|].
  split; [split|].
  - apply Rlt_le_trans with (/ 562949953421312); [lra|]. assert (F : rnd (/ 562949953421312) = / 562949953421312) by (change (/ 562949953421312) with (bpow radix2 (-49)); apply rnd_bpow; lia). rewrite <- F. apply rnd_le. lra.
  - apply Rle_trans with (rnd (IZR 12)); [apply rnd_le; lra|rewrite (rnd_IZR 12) by lia; lra].
  - apply Rabs_le_inv in E, E1, E2. rewrite minus_IZR. change (IZR (2 ^ 43)) with 8796093022208. change (IZR (2 ^ 53)) with 9007199254740992 in *. apply Rabs_le. lra.
Qed.
Lemma cardinal64 x b : isf x b -> Rabs b <= IZR (2 ^ 50) ->
  exists w k, bearing2cardinal64 x = Ok w /\ Rabs (- b - Q2R (azimuth w) + IZR k * 360) <= 45 / 4 + (Rabs b + 360) * / IZR (2 ^ 53) + / IZR (2 ^ 43).
Proof.
  intros I B. destruct (mod360 x b I B) as (m & k & Im & Bm & E). unfold bearing2cardinal64. cbv zeta. set (y := f_mod _ _) in *.
  assert (I2 : isf (fmul (fofZ 2) y) (2 * m)).
  { rewrite <- (rnd_fmt (2 * m)); [apply isf_fmul; [apply (isf_int 2); lia|exact Im|]|].
    - apply small_le; apply Rle_trans with 720; [rewrite Rabs_pos_eq; unfold u44 in Bm; lra|apply (IZR_le 720); lia].
    - rewrite Rmult_comm. change 2 with (bpow radix2 1). apply (Mult_error.mult_bpow_pos_exact_FLT radix2 (-1074) 53 m 1 (isf_format _ _ Im)). lia. }
  assert (Iq : isf (fdiv (fmul (fofZ 2) y) (fofZ 45)) (rnd (2 * m / 45))) by (apply isf_fdiv; [exact I2|apply (isf_int 45); lia|lra|apply small_le; apply Rle_trans with 16; [unfold Rdiv; rewrite Rabs_pos_eq; unfold u44 in Bm; lra|apply (IZR_le 16); lia]]).
  pose proof (near (2 * m / 45) 4 ltac:(lia) ltac:(change (bpow radix2 4) with 16; rewrite Rabs_pos_eq; unfold u44 in Bm; lra)) as E1. change (bpow radix2 (4 - 54)) with (/ 1125899906842624) in E1.
  set (q := rnd (2 * m / 45)) in *. assert (Q0 : 0 <= q) by (unfold q; rewrite <- (rnd_IZR 0) at 1 by lia; apply rnd_le; lra).
  destruct (nearest_ok _ _ Iq) as (i & Ei & _). destruct (nearest_err _ _ _ Iq Ei) as [_ Er]. specialize (Er ltac:(apply Rle_lt_trans with 17; [rewrite Rabs_pos_eq; [|exact Q0]; apply Rabs_le_inv in E1; unfold u44 in Bm; lra|apply (IZR_lt 17); lia])).
  rewrite Ei. cbn [bind]. apply Rabs_le_inv in E, E1, Er. change (IZR (2 ^ 54)) with 18014398509481984 in Er.
  assert (L0 : (-1 < i)%Z) by (apply lt_IZR; lra). assert (L1 : (i < 17)%Z) by (apply lt_IZR; unfold u44 in Bm; lra).
  assert (D : Rabs (m - 45 / 2 * IZR i) <= 45 / 4 + / 8796093022208) by (apply Rabs_le; lra). apply Rabs_le_inv in D.
  change (IZR (2 ^ 53)) with 9007199254740992 in *. change (IZR (2 ^ 43)) with 8796093022208.
  assert (W : exists w j, py_get cardinals (i mod 16) = Ok w /\ Q2R (azimuth w) = IZR j * 360 - 45 / 2 * IZR i).
  { assert (C : (i = 0 \/ i = 1 \/ i = 2 \/ i = 3 \/ i = 4 \/ i = 5 \/ i = 6 \/ i = 7 \/ i = 8 \/ i = 9 \/ i = 10 \/ i = 11 \/ i = 12 \/ i = 13 \/ i = 14 \/ i = 15 \/ i = 16)%Z) by lia.
    clear - C. destruct C as [->|C]; [eexists _, 0%Z; split; [reflexivity|unfold Q2R; cbn; lra]|].
    repeat (destruct C as [->|C]; [eexists _, 1%Z; split; [reflexivity|unfold Q2R; cbn; lra]|]). subst i. eexists _, 1%Z. split; [reflexivity|unfold Q2R; cbn; lra]. }
  destruct W as (w & j & Ew & Aw). exists w, (j - k)%Z. split; [exact Ew|]. rewrite minus_IZR, Aw. apply Rabs_le. lra.
Qed.

(** ** Collinearity *)
Lemma diff_exact u v a b : isf u (IZR a) -> isf v (IZR b) -> (Z.abs a <= 2 ^ 25)%Z -> (Z.abs b <= 2 ^ 25)%Z -> isf (fsub u v) (IZR (a - b)).
Proof.
  intros U V A B. rewrite <- (rnd_IZR (a - b)) by lia. rewrite minus_IZR. apply isf_fsub; [exact U|exact V|]. rewrite <- minus_IZR. apply small_le. rewrite <- abs_IZR. apply IZR_le. lia.
Qed.
Lemma prod_exact u v a b : isf u (IZR a) -> isf v (IZR b) -> (Z.abs a <= 2 ^ 26)%Z -> (Z.abs b <= 2 ^ 26)%Z -> isf (fmul u v) (IZR (a * b)).
Proof.
  intros U V A B. assert (L : (Z.abs (a * b) <= 2 ^ 52)%Z) by (rewrite Z.abs_mul; change (2 ^ 52)%Z with (2 ^ 26 * 2 ^ 26)%Z; apply Z.mul_le_mono_nonneg; lia).
  rewrite <- (rnd_IZR (a * b)) by lia. rewrite mult_IZR. apply isf_fmul; [exact U|exact V|]. rewrite <- mult_IZR. apply small_le. rewrite <- abs_IZR. apply IZR_le. lia.
Qed.
Lemma collinear_ints a b c za zb zc : int_pt a za -> int_pt b zb -> int_pt c zc -> collinear64 a b c = collinear za zb zc.
Proof.
  destruct a as [xa ya], b as [xb yb], c as [xc yc], za as [ua va], zb as [ub vb], zc as [uc vc]. unfold int_pt. cbn [fst snd]. intros (A1 & A2 & A3 & A4) (B1 & B2 & B3 & B4) (C1 & C2 & C3 & C4).
  unfold collinear64, collinear.
  assert (P : isf (fmul (fsub xa xc) (fsub yb ya)) (IZR ((ua - uc) * (vb - va)))) by (apply prod_exact; [apply diff_exact; assumption|apply diff_exact; assumption|lia|lia]).
  assert (Q : isf (fmul (fsub xa xb) (fsub yc ya)) (IZR ((ua - ub) * (vc - va)))) by (apply prod_exact; [apply diff_exact; assumption|apply diff_exact; assumption|lia|lia]).
  rewrite (isf_eq _ _ _ _ P Q). destruct (Z.eqb_spec ((ua - uc) * (vb - va)) ((ua - ub) * (vc - va))) as [->|N]; [apply Raux.Req_bool_true; reflexivity|apply Raux.Req_bool_false].
  intros H. apply N, eq_IZR, H.
Qed.
Lemma prod64 u v w z a b c d : isf u a -> isf v b -> isf w c -> isf z d -> Rabs a <= IZR (2 ^ 500) -> Rabs b <= IZR (2 ^ 500) -> Rabs c <= IZR (2 ^ 500) -> Rabs d <= IZR (2 ^ 500) ->
  exists p, p = rnd (rnd (a - b) * rnd (c - d)) /\ isf (fmul (fsub u v) (fsub w z)) p /\ Rabs (p - (a - b) * (c - d)) <= Rabs ((a - b) * (c - d)) * / IZR (2 ^ 50) + bpow radix2 (-1000).
Proof.
  intros U V W Z A B C D. destruct (side64 v u b a V U B A) as [I1 S1]. destruct (side64 z w d c Z W D C) as [I2 S2].
  exists (rnd (rnd (a - b) * rnd (c - d))). split; [reflexivity|]. split; [apply isf_fmul; [exact I1|exact I2|apply area_small; assumption]|].
  pose proof (sub_rel a b (isf_format _ _ U) (isf_format _ _ V)) as E1. pose proof (sub_rel c d (isf_format _ _ W) (isf_format _ _ Z)) as E2.
  pose proof (prod_rel (a - b) (c - d) (rnd (a - b)) (rnd (c - d)) (/ 9007199254740992) ltac:(lra) E1 E2) as E3.
  set (p := rnd (a - b) * rnd (c - d)) in *. set (q := (a - b) * (c - d)) in *. pose proof (GridFloat.rnd_near p _ (Rle_refl (Rabs p))) as E4.
  assert (E5 : Rabs p <= Rabs q * (1 + 3 * / 9007199254740992)) by (replace p with (q + (p - q)) by ring; eapply Rle_trans; [apply Rabs_triang|]; lra).
  replace (rnd p - q) with ((rnd p - p) + (p - q)) by ring. eapply Rle_trans; [apply Rabs_triang|]. change (IZR (2 ^ 50)) with 1125899906842624. pose proof (Rabs_pos q). lra.
Qed.
Lemma collinear_close a b c xa ya xb yb xc yc : holds2 a xa ya -> holds2 b xb yb -> holds2 c xc yc -> far xa ya -> far xb yb -> far xc yc ->
  collinear64 a b c = true ->
  Rabs ((xa - xc) * (yb - ya) - (xa - xb) * (yc - ya)) <= (Rabs ((xa - xc) * (yb - ya)) + Rabs ((xa - xb) * (yc - ya))) * / IZR (2 ^ 50) + bpow radix2 (-999).
Proof.
  destruct a as [ua va], b as [ub vb], c as [uc vc]. unfold holds2, far. cbn [fst snd]. intros [A1 A2] [B1 B2] [C1 C2] [FA1 FA2] [FB1 FB2] [FC1 FC2]. unfold collinear64.
  destruct (prod64 ua uc vb va xa xc yb ya A1 C1 B2 A2 FA1 FC1 FB2 FA2) as (p & _ & Ip & Ep). destruct (prod64 ua ub vc va xa xb yc ya A1 B1 C2 A2 FA1 FB1 FC2 FA2) as (q & _ & Iq & Eq).
  rewrite (isf_eq _ _ _ _ Ip Iq). destruct (Raux.Req_bool_spec p q) as [E|E]; [intros _|discriminate].
  set (s := (xa - xc) * (yb - ya)) in *. set (t := (xa - xb) * (yc - ya)) in *. replace (s - t) with (- (p - s) + (q - t)) by (rewrite E; ring).
  eapply Rle_trans; [apply Rabs_triang|]. rewrite Rabs_Ropp. change (-999)%Z with (-1000 + 1)%Z. rewrite bpow_plus. change (bpow radix2 1) with 2. lra.
Qed.
Lemma collinear_lines a b c xa ya xb yb xc yc : holds2 a xa ya -> holds2 b xb yb -> holds2 c xc yc -> far xa ya -> far xb yb -> far xc yc ->
  (xa = xb /\ xb = xc) \/ (ya = yb /\ yb = yc) \/ (xa = xb /\ ya = yb) \/ (xa = xc /\ ya = yc) \/ (xb = xc /\ yb = yc) -> collinear64 a b c = true.
Proof.
  destruct a as [ua va], b as [ub vb], c as [uc vc]. unfold holds2, far. cbn [fst snd]. intros [A1 A2] [B1 B2] [C1 C2] [FA1 FA2] [FB1 FB2] [FC1 FC2] H. unfold collinear64.
  destruct (prod64 ua uc vb va xa xc yb ya A1 C1 B2 A2 FA1 FC1 FB2 FA2) as (p & Ep & Ip & _). destruct (prod64 ua ub vc va xa xb yc ya A1 B1 C2 A2 FA1 FB1 FC2 FA2) as (q & Eq & Iq & _).
  rewrite (isf_eq _ _ _ _ Ip Iq). apply Raux.Req_bool_true. subst p q. f_equal. assert (R0 : forall z, rnd (z - z) = 0) by (intros z; rewrite Rminus_diag_eq by reflexivity; apply (rnd_IZR 0); lia).
  destruct H as [[-> ->]|[[-> ->]|[[-> ->]|[[-> ->]|[-> ->]]]]]; rewrite ?R0; ring.
Qed.
