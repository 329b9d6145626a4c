(** Blending, and the parts of a number, in double arithmetic. *)
From Coq Require Import ZArith Reals Lia Lra SpecFloat.
From Flocq Require Import Core IEEE754.BinarySingleNaN.
From Verif Require Import Num FloatLib PfFloatNorm RasterModel RasterSpec.
Open Scope R_scope.

Lemma b_val e k : (0 <= k)%Z -> (2 ^ k)%Z = e -> bpow radix2 (- k) = / IZR e.
Proof. intros K <-. rewrite bpow_opp. f_equal. symmetry. apply (IZR_Zpower radix2). exact K. Qed.
Lemma p_val e k : (0 <= k)%Z -> (2 ^ k)%Z = e -> bpow radix2 k = IZR e.
Proof. intros K <-. symmetry. apply (IZR_Zpower radix2). exact K. Qed.

(** An operation whose exact result is below 2^e. *)
Lemma near r e : (-1000 <= e)%Z -> Rabs r < bpow radix2 e -> Rabs (rnd r - r) <= bpow radix2 (e - 54).
Proof. exact (rnd_err r e). Qed.
Lemma small_lt r e : (-1000 <= e <= 1000)%Z -> Rabs r < bpow radix2 e -> small r.
Proof. intros E B. apply (small_bpow r e); [lia|]. lra. Qed.
Lemma rnd_id x r : isf x r -> rnd r = r.
Proof. intros I. apply round_generic; [apply valid_rnd_N|]. exact (isf_format x r I). Qed.

Lemma isf_half : isf half (/ 2).
Proof.
  pose proof (isf_valid half eq_refl eq_refl) as I. replace (/ 2) with (SF2R radix2 half); [exact I|].
  change half with (S754_finite false (2 ^ 52) (-53)). unfold SF2R. rewrite F2R_div by lia. change (IZR 4503599627370496 / IZR 9007199254740992 = / 2). lra.
Qed.
Lemma isf_trunc x r : isf x r -> f_trunc x = Ztrunc r.
Proof.
  intros I. pose proof I as (p & <- & Fp & E). destruct p as [s|s| |s m e H]; try discriminate.
  - cbn in E. subst r. cbn. symmetry. apply (Ztrunc_IZR 0).
  - destruct s.
    + assert (L : r < 0) by (rewrite <- E; cbn [B2R]; apply F2R_lt_0; reflexivity).
      rewrite Ztrunc_ceil by lra. rewrite <- (isf_ceil _ r I). unfold f_trunc, f_ceil. cbn [B2SF].
      destruct (0 <=? e)%Z; [|reflexivity]. change (Z.neg m) with (- Z.pos m)%Z. ring.
    + assert (L : 0 < r) by (rewrite <- E; cbn [B2R]; apply F2R_gt_0; reflexivity).
      rewrite Ztrunc_floor by lra. rewrite <- (isf_floor _ r I). unfold f_trunc, f_floor. reflexivity.
Qed.
Lemma trunc_bounds r : 0 <= r -> IZR (Ztrunc r) <= r < IZR (Ztrunc r) + 1.
Proof. intros P. rewrite Ztrunc_floor by exact P. split; [apply Zfloor_lb|apply Zfloor_ub]. Qed.
Lemma trunc_zero r : -1 < r < 1 -> Ztrunc r = 0%Z.
Proof.
  intros B. destruct (Rle_lt_dec 0 r).
  - rewrite Ztrunc_floor by lra. apply Zfloor_imp. cbn. lra.
  - rewrite Ztrunc_ceil by lra. apply Zceil_imp. cbn. lra.
Qed.

(** The fraction of a double is a double. *)
Lemma frac_format r : generic_format radix2 fexp64 r -> generic_format radix2 fexp64 (r - IZR (Ztrunc r)).
Proof.
  intros F. destruct (Req_dec r 0) as [->|N0].
  { rewrite (Ztrunc_IZR 0), Rminus_0_r. exact F. }
  pose proof F as Fr. unfold generic_format in Fr. set (m := Ztrunc (scaled_mantissa radix2 fexp64 r)) in *. set (e := cexp radix2 fexp64 r) in *.
  assert (Em : IZR m = scaled_mantissa radix2 fexp64 r) by (symmetry; apply scaled_mantissa_generic; exact F).
  destruct (Z.le_gt_cases 0 e) as [He|He].
  - assert (E : r = IZR (m * 2 ^ e)) by (rewrite Fr at 1; apply F2R_mul; exact He).
    rewrite E, Ztrunc_IZR, Rminus_diag_eq by reflexivity. apply generic_format_0.
  - set (t := Ztrunc r).
    assert (E : r - IZR t = F2R (Float radix2 (m - t * 2 ^ (- e)) e)).
    { rewrite Fr at 1. rewrite !F2R_div by lia. rewrite minus_IZR, mult_IZR.
      assert (Q : IZR (2 ^ (- e)) <> 0) by (apply IZR_neq; apply Z.pow_nonzero; lia). field. exact Q. }
    rewrite E. apply generic_format_F2R. intros Nz. fold e.
    assert (Le : Rabs (r - IZR t) <= Rabs r).
    { unfold t. destruct (Rle_lt_dec 0 r) as [P|P].
      - pose proof (trunc_bounds r P). assert (0 <= IZR (Ztrunc r)) by (apply IZR_le; rewrite Ztrunc_floor by lra; apply Zfloor_lub; exact P).
        rewrite !Rabs_pos_eq by lra. lra.
      - rewrite Ztrunc_ceil by lra. assert (IZR (Zceil r) <= 0) by (apply IZR_le; apply Zceil_glb; lra).
        pose proof (Zceil_ub r). rewrite !Rabs_left1 by lra. lra. }
    rewrite <- E. unfold e. unfold cexp. apply fexp64_mono. apply mag_le_abs; [|exact Le].
    rewrite E. intros C. apply Nz. apply (eq_0_F2R radix2 _ e). exact C.
Qed.
Lemma isf_fpart x r : isf x r -> (Rabs r <= IZR (2 ^ 50)) -> isf (fpart x) (r - IZR (Ztrunc r)).
Proof.
  intros I B. pose proof (frac_format r (isf_format x r I)) as F. unfold fpart. cbn [nsub nofZ nint NumF IntF].
  rewrite (isf_trunc x r I).
  assert (T : (Z.abs (Ztrunc r) <= 2 ^ 50)%Z).
  { rewrite <- Ztrunc_abs. rewrite Ztrunc_floor by apply Rabs_pos. rewrite <- (Zfloor_IZR (2 ^ 50)). apply Zfloor_le. exact B. }
  assert (G : rnd (r - IZR (Ztrunc r)) = r - IZR (Ztrunc r)) by (apply round_generic; [apply valid_rnd_N|exact F]).
  rewrite <- G. apply isf_fsub; [exact I|apply isf_int; lia|].
  apply (small_bpow _ 60); [lia|]. eapply Rle_trans; [apply Rabs_triang|]. rewrite Rabs_Ropp.
  assert (Rabs (IZR (Ztrunc r)) <= IZR (2 ^ 50)) by (rewrite <- abs_IZR; apply IZR_le; lia).
  rewrite (p_val (2 ^ 60) 60) by (reflexivity || lia). lra.
Qed.
Lemma isf_sub1 x r : isf x r -> Rabs r <= 3 -> isf (nsub (nofZ 1) x) (rnd (1 - r)).
Proof.
  intros I B. apply isf_fsub; [apply isf_int; lia|exact I|]. apply (small_bpow _ 3); [lia|].
  rewrite (p_val 8 3) by (reflexivity || lia). apply Rabs_le. apply Rabs_le_inv in B. lra.
Qed.

(** A channel of a blended colour, for a weight within 2^-10 of [0,1]. *)
Lemma blend_double bg fg a A : (0 <= bg <= 255)%Z -> (0 <= fg <= 255)%Z -> isf a A -> - / 1024 <= A <= 1 + / 1024 ->
  let v := blend bg fg a in
  (Z.min bg fg <= v <= Z.max bg fg)%Z /\
  Rabs (IZR v - (IZR bg * (1 - A) + IZR fg * A)) <= / 2 + / IZR (2 ^ 42).
Proof.
  intros Hb Hf I B. cbn zeta.
  assert (Zb : 0 <= IZR bg <= 255) by (split; apply IZR_le; lia).
  assert (Zf : 0 <= IZR fg <= 255) by (split; apply IZR_le; lia).
  set (be := rnd (1 - A)).
  assert (Ibe : isf (nsub (nofZ 1) a) be) by (apply isf_sub1; [exact I|]; apply Rabs_le; lra).
  assert (Ebe : Rabs (be - (1 - A)) <= / IZR (2 ^ 53)).
  { unfold be. rewrite <- (b_val (2 ^ 53) 53) by (reflexivity || lia). apply (near _ 1); [lia|].
    rewrite (p_val 2 1) by (reflexivity || lia). apply Rabs_def1; lra. }
  assert (U53 : / IZR (2 ^ 53) <= / 1000000000000) by (apply Rinv_le; [lra|apply IZR_le; lia]).
  apply Rabs_le_inv in Ebe.
  set (s1 := IZR bg * be). set (s2 := IZR fg * A).
  assert (D1 : Rabs (s1 - IZR bg * (1 - A)) <= / IZR (2 ^ 45)).
  { unfold s1. rewrite <- Rmult_minus_distr_l, Rabs_mult, Rabs_pos_eq by lra.
    assert (Rabs (be - (1 - A)) <= / IZR (2 ^ 53)) by (apply Rabs_le; lra).
    replace (/ IZR (2 ^ 45)) with (256 * / IZR (2 ^ 53)); [|change (2 ^ 53)%Z with (256 * 2 ^ 45)%Z; rewrite mult_IZR; field; apply IZR_neq; lia].
    apply Rmult_le_compat; try lra. apply Rabs_pos. }
  assert (B1 : - 1 <= s1 <= 256) by (unfold s1; split; nra).
  assert (B2 : - 1 <= s2 <= 256) by (unfold s2; split; nra).
  assert (I1 : isf (nmul (nofZ bg) (nsub (nofZ 1) a)) (rnd s1)).
  { apply isf_fmul; [apply isf_int; lia|exact Ibe|]. apply (small_bpow _ 9); [lia|]. rewrite (p_val 512 9) by (reflexivity || lia).
    apply Rabs_le. fold s1. lra. }
  assert (I2 : isf (nmul (nofZ fg) a) (rnd s2)).
  { apply isf_fmul; [apply isf_int; lia|exact I|]. apply (small_bpow _ 9); [lia|]. rewrite (p_val 512 9) by (reflexivity || lia).
    apply Rabs_le. fold s2. lra. }
  assert (E1 : Rabs (rnd s1 - s1) <= / IZR (2 ^ 45)).
  { rewrite <- (b_val (2 ^ 45) 45) by (reflexivity || lia). apply (near _ 9); [lia|]. rewrite (p_val 512 9) by (reflexivity || lia). apply Rabs_def1; lra. }
  assert (E2 : Rabs (rnd s2 - s2) <= / IZR (2 ^ 45)).
  { rewrite <- (b_val (2 ^ 45) 45) by (reflexivity || lia). apply (near _ 9); [lia|]. rewrite (p_val 512 9) by (reflexivity || lia). apply Rabs_def1; lra. }
  assert (U45 : / IZR (2 ^ 45) <= / 1000000000000) by (apply Rinv_le; [lra|apply IZR_le; lia]).
  apply Rabs_le_inv in D1. apply Rabs_le_inv in E1. apply Rabs_le_inv in E2.
  set (s3 := rnd s1 + rnd s2).
  assert (I3 : isf (nadd (nmul (nofZ bg) (nsub (nofZ 1) a)) (nmul (nofZ fg) a)) (rnd s3)).
  { apply isf_fadd; [exact I1|exact I2|]. apply (small_bpow _ 10); [lia|]. rewrite (p_val 1024 10) by (reflexivity || lia). apply Rabs_le. unfold s3 in *. lra. }
  assert (E3 : Rabs (rnd s3 - s3) <= / IZR (2 ^ 44)).
  { rewrite <- (b_val (2 ^ 44) 44) by (reflexivity || lia). apply (near _ 10); [lia|]. rewrite (p_val 1024 10) by (reflexivity || lia). apply Rabs_def1; unfold s3; lra. }
  assert (U44 : / IZR (2 ^ 44) <= / 1000000000000) by (apply Rinv_le; [lra|apply IZR_le; lia]).
  apply Rabs_le_inv in E3.
  set (s4 := rnd s3 + / 2).
  assert (I4 : isf (nadd (nadd (nmul (nofZ bg) (nsub (nofZ 1) a)) (nmul (nofZ fg) a)) half) (rnd s4)).
  { apply isf_fadd; [exact I3|exact isf_half|]. apply (small_bpow _ 10); [lia|]. rewrite (p_val 1024 10) by (reflexivity || lia). apply Rabs_le. unfold s4, s3 in *. lra. }
  assert (E4 : Rabs (rnd s4 - s4) <= / IZR (2 ^ 44)).
  { rewrite <- (b_val (2 ^ 44) 44) by (reflexivity || lia). apply (near _ 10); [lia|]. rewrite (p_val 1024 10) by (reflexivity || lia). apply Rabs_def1; unfold s4, s3 in *; lra. }
  apply Rabs_le_inv in E4.
  assert (K : / IZR (2 ^ 42) = 4 * / IZR (2 ^ 44) /\ 2 * / IZR (2 ^ 45) = / IZR (2 ^ 44)).
  { split; [change (2 ^ 44)%Z with (4 * 2 ^ 42)%Z|change (2 ^ 45)%Z with (2 * 2 ^ 44)%Z]; rewrite mult_IZR; field; apply IZR_neq; lia. }
  destruct K as [K1 K2].
  set (E := IZR bg * (1 - A) + IZR fg * A).
  assert (Q : - / IZR (2 ^ 42) <= rnd s4 - (E + / 2) <= / IZR (2 ^ 42)) by (unfold E, s4, s3, s2 in *; lra).
  assert (U42 : / IZR (2 ^ 42) <= / 1000000000000) by (apply Rinv_le; [lra|apply IZR_le; lia]).
  assert (Eb : IZR (Z.min bg fg) - / 4 < E < IZR (Z.max bg fg) + / 4).
  { unfold E. destruct (Z.le_ge_cases bg fg) as [C|C].
    - rewrite Z.min_l, Z.max_r by lia. assert (IZR bg <= IZR fg) by (apply IZR_le; exact C). split; nra.
    - rewrite Z.min_r, Z.max_l by lia. assert (IZR fg <= IZR bg) by (apply IZR_le; exact C). split; nra. }
  assert (Mn : 0 <= IZR (Z.min bg fg)) by (apply IZR_le; lia).
  unfold blend. cbn [nint IntF]. rewrite (isf_trunc _ _ I4).
  assert (P4 : 0 <= rnd s4) by lra. pose proof (trunc_bounds (rnd s4) P4) as Tb. set (v := Ztrunc (rnd s4)) in *.
  split.
  - split.
    + assert (G : IZR (Z.min bg fg - 1) < IZR v) by (rewrite minus_IZR; lra). apply lt_IZR in G. lia.
    + assert (G : IZR v < IZR (Z.max bg fg + 1)) by (rewrite plus_IZR; lra). apply lt_IZR in G. lia.
  - change (IZR bg * (1 - A) + s2) with E. apply Rabs_le. lra.
Qed.
