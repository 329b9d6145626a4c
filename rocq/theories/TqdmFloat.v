(** The bar and the percentage in double arithmetic. *)
From Coq Require Import ZArith Reals Lia Lra SpecFloat.
From Flocq Require Import Core IEEE754.BinarySingleNaN.
From Verif Require Import Num FloatLib StrModel TqdmModel.
Open Scope Z_scope.

Lemma isf_mint x r : isf x r -> (0 <= r)%R -> mint x = Ok (Zfloor r).
Proof.
  intros I P. rewrite <- (isf_floor x r I). destruct I as (p & <- & Fp & E). destruct p as [s|s| |s m e H]; try discriminate; [reflexivity|].
  cbn [B2SF mint MeterF]. f_equal. unfold f_trunc, f_floor. destruct s; [|reflexivity].
  exfalso. cbn [B2R] in E. assert (L : (F2R (Float radix2 (Z.neg m) e) < 0)%R) by (apply F2R_lt_0; reflexivity).
  cbn in E. unfold F2R in *. cbn in *. lra.
Qed.

(** The largest double below 1 *)
Definition below_one : f64 := f_of (2 ^ 53 - 1) (-53).
Lemma below_one_val : isf below_one (1 - / IZR (2 ^ 53)).
Proof.
  pose proof (isf_valid below_one eq_refl eq_refl) as I. assert (E : SF2R radix2 below_one = (1 - / IZR (2 ^ 53))%R).
  { change below_one with (S754_finite false (2 ^ 53 - 1) (-53)). unfold SF2R. rewrite F2R_div by lia. change (- -53) with 53. cbn [cond_Zopp].
    change (Z.pos (2 ^ 53 - 1)) with (2 ^ 53 - 1). rewrite minus_IZR. field. apply IZR_neq. discriminate. }
  rewrite <- E. exact I.
Qed.

Lemma ratio_double n t : 0 <= n <= t -> 0 < t <= 2 ^ 53 -> exists r,
  isf (fdiv (fofZ n) (fofZ t)) r /\ (0 <= r <= 1)%R /\ ((r <= 1 - / IZR (2 ^ 53))%R \/ n = t).
Proof.
  intros H Ht. assert (Tp : (0 < IZR t)%R) by (apply (IZR_lt 0); lia).
  assert (B : (0 <= IZR n / IZR t <= 1)%R).
  { split; [apply Rmult_le_pos; [apply (IZR_le 0); lia|apply Rlt_le, Rinv_0_lt_compat; exact Tp]|].
    apply (Rmult_le_reg_r (IZR t)); [exact Tp|]. unfold Rdiv. rewrite Rmult_assoc, Rinv_l by lra. rewrite Rmult_1_r, Rmult_1_l. apply IZR_le. lia. }
  exists (rnd (IZR n / IZR t)). split; [|split].
  - apply isf_fdiv; [apply isf_int; lia|apply isf_int; lia|lra|]. apply small_le. rewrite Rabs_pos_eq by lra. apply (Rle_trans _ 1); [lra|]. apply IZR_le. lia.
  - split; [rewrite <- (rnd_IZR 0) by lia; apply rnd_le; lra|rewrite <- (rnd_IZR 1) by lia; apply rnd_le; lra].
  - destruct (Z.eq_dec n t) as [E|N]; [right; exact E|left].
    assert (D : rnd (1 - / IZR (2 ^ 53)) = (1 - / IZR (2 ^ 53))%R) by (apply round_generic; [apply valid_rnd_N|apply (isf_format below_one); apply below_one_val]).
    rewrite <- D. apply rnd_le.
    assert (L : (IZR n / IZR t <= 1 - / IZR t)%R).
    { apply (Rmult_le_reg_r (IZR t)); [exact Tp|]. unfold Rdiv. rewrite Rmult_assoc, Rinv_l by lra. rewrite Rmult_minus_distr_r, Rinv_l by lra.
      rewrite Rmult_1_r, Rmult_1_l. change 1%R with (IZR 1). rewrite <- minus_IZR. apply IZR_le. lia. }
    assert (L2 : (/ IZR (2 ^ 53) <= / IZR t)%R) by (apply Rinv_le; [exact Tp|apply IZR_le; lia]). lra.
Qed.

Lemma scaled_double n t k : 0 <= n <= t -> 0 < t <= 2 ^ 53 -> 0 < k <= 1000 ->
  SFltb (fmul below_one (fofZ k)) (fofZ k) = true ->
  exists b, mint (nmul (ndiv (nofZ n) (nofZ t)) (nofZ k)) = Ok b /\ 0 <= b <= k /\ (b = k <-> n = t).
Proof.
  intros H Ht Hk HL. cbn [nmul ndiv nofZ NumF]. destruct (ratio_double n t H Ht) as (r & I & B & C).
  assert (Kp : (0 < IZR k)%R) by (apply (IZR_lt 0); lia).
  assert (SM : forall q, (0 <= q <= 1)%R -> small (q * IZR k)).
  { intros q Q. apply small_le. rewrite Rabs_pos_eq by (apply Rmult_le_pos; lra). apply (Rle_trans _ (1 * IZR k)); [apply Rmult_le_compat_r; lra|]. rewrite Rmult_1_l. apply IZR_le. lia. }
  assert (I2 : isf (fmul (fdiv (fofZ n) (fofZ t)) (fofZ k)) (rnd (r * IZR k))) by (apply isf_fmul; [exact I|apply isf_int; lia|apply SM; exact B]).
  assert (R0 : (0 <= rnd (r * IZR k))%R) by (rewrite <- (rnd_IZR 0) by lia; apply rnd_le; apply Rmult_le_pos; lra).
  assert (R1 : (rnd (r * IZR k) <= IZR k)%R) by (rewrite <- (rnd_IZR k) at 2 by lia; apply rnd_le; rewrite <- (Rmult_1_l (IZR k)) at 2; apply Rmult_le_compat_r; lra).
  exists (Zfloor (rnd (r * IZR k))). split; [apply isf_mint; assumption|].
  assert (F0 : 0 <= Zfloor (rnd (r * IZR k))) by (apply Zfloor_lub; exact R0).
  assert (F1 : Zfloor (rnd (r * IZR k)) <= k) by (rewrite <- (Zfloor_IZR k) at 2; apply Zfloor_le; exact R1).
  split; [lia|]. split.
  - intros E. destruct C as [C|C]; [|exact C]. exfalso.
    assert (M : (rnd (r * IZR k) <= rnd ((1 - / IZR (2 ^ 53)) * IZR k))%R) by (apply rnd_le; apply Rmult_le_compat_r; lra).
    assert (I3 : isf (fmul below_one (fofZ k)) (rnd ((1 - / IZR (2 ^ 53)) * IZR k))).
    { apply isf_fmul; [apply below_one_val|apply isf_int; lia|apply SM]. split; [|assert (0 < / IZR (2 ^ 53))%R by (apply Rinv_0_lt_compat, (IZR_lt 0); reflexivity); lra].
      assert (/ IZR (2 ^ 53) <= / 1)%R by (apply Rinv_le; [lra|apply IZR_le; discriminate]). lra. }
    rewrite (isf_lt _ _ _ _ I3 (isf_int k ltac:(lia))) in HL. destruct (Rlt_bool_spec (rnd ((1 - / IZR (2 ^ 53)) * IZR k)) (IZR k)) as [L|L]; [|discriminate].
    assert (G := Zfloor_lb (rnd (r * IZR k))). rewrite E in G. lra.
  - intros ->. assert (E1 : r = 1%R).
    { apply (isf_fun _ _ _ I). rewrite <- (rnd_IZR 1) by lia. replace 1%R with (IZR t / IZR t)%R at 1 by (field; apply IZR_neq; lia). apply isf_fdiv; [apply isf_int; lia|apply isf_int; lia|apply IZR_neq; lia|].
      unfold Rdiv. rewrite Rinv_r by (apply IZR_neq; lia). apply small_le. rewrite Rabs_pos_eq by lra. apply IZR_le. lia. }
    rewrite E1, Rmult_1_l, rnd_IZR by lia. apply Zfloor_IZR.
Qed.

Lemma bar_double n t : 0 <= n <= t -> 0 < t <= 2 ^ 53 ->
  exists b p, mint (T := f64) (nmul (ndiv (nofZ n) (nofZ t)) (nofZ 10)) = Ok b /\ mint (T := f64) (nmul (ndiv (nofZ n) (nofZ t)) (nofZ 100)) = Ok p /\
    0 <= b <= 10 /\ 0 <= p <= 100 /\ (b = 10 <-> n = t) /\ (p = 100 <-> n = t).
Proof.
  intros H Ht. destruct (scaled_double n t 10 H Ht ltac:(lia) eq_refl) as (b & E & B & I).
  destruct (scaled_double n t 100 H Ht ltac:(lia) eq_refl) as (p & E' & B' & I').
  exists b, p. repeat (split; [assumption|]). assumption.
Qed.

(** The text in doubles, for any elapsed time whose intervals are finite *)
Lemma meter_double n t (elapsed : f64) es : 0 <= n <= t -> 0 < t <= 2 ^ 53 -> format_interval elapsed = Ok es ->
  (n = 0 \/ exists ls, format_interval (fmul (fdiv elapsed (fofZ n)) (fofZ (t - n))) = Ok ls) -> exists b p rest,
  format_meter n (Some t) elapsed = Ok (124 :: repeat 35 b ++ repeat 45 (10 - b) ++ [124; 32] ++ str_int n ++ 47 :: str_int t ++ 32 :: pad_left 3 32 (str_int p) ++ 37 :: rest) /\
  (b <= 10)%nat /\ 0 <= p <= 100 /\ (b = 10%nat <-> n = t) /\ (p = 100 <-> n = t).
Proof.
  intros H Ht E1 E2. destruct (bar_double n t H Ht) as (b & p & Eb & Ep & Bb & Bp & Ib & Ip).
  assert (LL : exists ls, (if n =? 0 then Ok [63] else format_interval (nmul (ndiv elapsed (nofZ n)) (nofZ (t - n)))) = Ok ls).
  { destruct (Z.eqb_spec n 0) as [E0|N0]; [eexists; reflexivity|]. destruct E2 as [E2|E2]; [contradiction|exact E2]. }
  destruct LL as (ls & EL). exists (Z.to_nat b), p. eexists.
  split; [|split; [lia|split; [exact Bp|split; [rewrite <- Ib; lia|exact Ip]]]].
  unfold format_meter. destruct (t <? n) eqn:C; [lia|]. rewrite E1. cbn [bind]. destruct (t =? 0) eqn:C2; [lia|].
  rewrite Eb. cbn [bind]. rewrite Ep. cbn [bind]. rewrite EL. cbn [bind].
  replace (Z.to_nat (10 - b)) with (10 - Z.to_nat b)%nat by lia.
  repeat (rewrite <- ?app_assoc; cbn [app]). reflexivity.
Qed.
