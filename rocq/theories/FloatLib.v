(** Doubles of [Num] as reals, by way of Flocq. *)
From Coq Require Import ZArith Reals Lia Lra SpecFloat Psatz.
From Flocq Require Import Core IEEE754.BinarySingleNaN.
From Verif Require Import Num.
Open Scope Z_scope.

Definition fexp64 : Z -> Z := SpecFloat.fexp 53 1024.
Definition rnd (r : R) : R := round radix2 fexp64 ZnearestE r.
#[global] Instance Hprec53 : FLX.Prec_gt_0 53 := eq_refl.
#[global] Instance Hmax1024 : Prec_lt_emax 53 1024 := eq_refl.
#[global] Instance fexp64_valid : Valid_exp fexp64.
Proof. apply (fexp_correct 53 1024). reflexivity. Qed.
#[global] Instance fexp64_mono : Monotone_exp fexp64.
Proof. exact (fexp_monotone 53 1024). Qed.

(** [x] is a well-formed finite double of value [r]. *)
Definition isf (x : f64) (r : R) : Prop :=
  exists b : binary_float 53 1024, B2SF b = x /\ BinarySingleNaN.is_finite b = true /\ B2R b = r.

Lemma round_nearest_even_equiv s m l : SpecFloat.round_nearest_even m l = choice_mode mode_NE s m l.
Proof.
  destruct l as [|c]; [reflexivity|]. destruct c; [|reflexivity..].
  cbn. unfold Round.cond_incr. destruct (Z.even m); reflexivity.
Qed.
Lemma round_aux_equiv sx mx ex lx :
  SpecFloat.binary_round_aux 53 1024 sx mx ex lx = BinarySingleNaN.binary_round_aux 53 1024 mode_NE sx mx ex lx.
Proof.
  unfold SpecFloat.binary_round_aux, BinarySingleNaN.binary_round_aux.
  set (mrse' := shr_fexp _ _ _ _ _). destruct mrse' as [mrs' e']. cbn.
  rewrite (round_nearest_even_equiv sx). reflexivity.
Qed.
Lemma round_equiv s m e :
  SpecFloat.binary_round 53 1024 s m e = BinarySingleNaN.binary_round 53 1024 mode_NE s m e.
Proof.
  unfold SpecFloat.binary_round, BinarySingleNaN.binary_round, shl_align_fexp.
  set (mez := shl_align _ _ _). destruct mez as [mz ez]. apply round_aux_equiv.
Qed.
Lemma normalize_equiv m e sz :
  SpecFloat.binary_normalize 53 1024 m e sz =
  B2SF (BinarySingleNaN.binary_normalize 53 1024 Hprec53 Hmax1024 mode_NE m e sz).
Proof.
  destruct m as [|p|p]; [reflexivity| |]; cbn [SpecFloat.binary_normalize BinarySingleNaN.binary_normalize];
    rewrite B2SF_SF2B; apply round_equiv.
Qed.
Lemma fadd_equiv a b : fadd (B2SF a) (B2SF b) = B2SF (Bplus mode_NE a b : binary_float 53 1024).
Proof.
  destruct a as [sa|sa| |sa ma ea Ha], b as [sb|sb| |sb mb eb Hb];
    try (cbn; repeat match goal with |- context [Bool.eqb ?x ?y] => destruct (Bool.eqb x y) end; reflexivity).
  apply normalize_equiv.
Qed.
Lemma fsub_equiv a b : fsub (B2SF a) (B2SF b) = B2SF (Bminus mode_NE a b : binary_float 53 1024).
Proof.
  destruct a as [sa|sa| |sa ma ea Ha], b as [sb|sb| |sb mb eb Hb];
    try (cbn; repeat match goal with |- context [Bool.eqb ?x ?y] => destruct (Bool.eqb x y) end; reflexivity).
  unfold fsub. cbn. unfold Z.sub. rewrite <- cond_Zopp_negb. apply normalize_equiv.
Qed.
Lemma fmul_equiv a b : fmul (B2SF a) (B2SF b) = B2SF (Bmult mode_NE a b : binary_float 53 1024).
Proof.
  destruct a as [sa|sa| |sa ma ea Ha], b as [sb|sb| |sb mb eb Hb]; try reflexivity.
  cbn. rewrite B2SF_SF2B. apply round_aux_equiv.
Qed.
Lemma fdiv_equiv a b : fdiv (B2SF a) (B2SF b) = B2SF (Bdiv mode_NE a b : binary_float 53 1024).
Proof.
  destruct a as [sa|sa| |sa ma ea Ha], b as [sb|sb| |sb mb eb Hb]; try reflexivity.
  unfold fdiv, SFdiv, Bdiv. cbn [B2SF]. rewrite B2SF_SF2B.
  set (melz := SFdiv_core_binary _ _ _ _ _ _). destruct melz as [[mz ez] lz]. apply round_aux_equiv.
Qed.

(** ** Values of the operations *)
Definition small (r : R) : Prop := (Rabs (rnd r) < bpow radix2 1024)%R.
Lemma rnd_le a b : (a <= b)%R -> (rnd a <= rnd b)%R.
Proof. apply round_le; [apply fexp64_valid|apply valid_rnd_N]. Qed.
Lemma rnd_bpow e : -1074 <= e -> rnd (bpow radix2 e) = bpow radix2 e.
Proof.
  intros He. apply round_generic; [apply valid_rnd_N|]. apply generic_format_bpow.
  unfold fexp64, SpecFloat.fexp, SpecFloat.emin. lia.
Qed.
Lemma rnd_abs_le r e : -1074 <= e -> (Rabs r <= bpow radix2 e)%R -> (Rabs (rnd r) <= bpow radix2 e)%R.
Proof.
  intros He B. apply abs_round_le_generic; [apply fexp64_valid|apply valid_rnd_N| |exact B].
  apply generic_format_bpow. unfold fexp64, SpecFloat.fexp, SpecFloat.emin. lia.
Qed.
Lemma small_bpow r e : -1074 <= e < 1024 -> (Rabs r <= bpow radix2 e)%R -> small r.
Proof.
  intros He B. unfold small. apply (Rle_lt_trans _ (bpow radix2 e)); [apply rnd_abs_le; [lia|exact B]|].
  apply bpow_lt. lia.
Qed.
(** 2^100 is enough everywhere. *)
Lemma small_le r : (Rabs r <= IZR (2 ^ 100))%R -> small r.
Proof. intros B. apply (small_bpow r 100); [lia|]. exact B. Qed.
Lemma isf_fadd x y a b : isf x a -> isf y b -> small (a + b) -> isf (fadd x y) (rnd (a + b)).
Proof.
  intros (p & <- & Fp & <-) (q & <- & Fq & <-) S. exists (Bplus mode_NE p q).
  split; [symmetry; apply fadd_equiv|]. pose proof (Bplus_correct 53 1024 _ _ mode_NE p q Fp Fq) as C.
  rewrite Rlt_bool_true in C by exact S. destruct C as (C1 & C2 & _). split; [exact C2|exact C1].
Qed.
Lemma isf_fsub x y a b : isf x a -> isf y b -> small (a - b) -> isf (fsub x y) (rnd (a - b)).
Proof.
  intros (p & <- & Fp & <-) (q & <- & Fq & <-) S. exists (Bminus mode_NE p q).
  split; [symmetry; apply fsub_equiv|]. pose proof (Bminus_correct 53 1024 _ _ mode_NE p q Fp Fq) as C.
  rewrite Rlt_bool_true in C by exact S. destruct C as (C1 & C2 & _). split; [exact C2|exact C1].
Qed.
Lemma isf_fmul x y a b : isf x a -> isf y b -> small (a * b) -> isf (fmul x y) (rnd (a * b)).
Proof.
  intros (p & <- & Fp & <-) (q & <- & Fq & <-) S. exists (Bmult mode_NE p q).
  split; [symmetry; apply fmul_equiv|]. pose proof (Bmult_correct 53 1024 _ _ mode_NE p q) as C.
  rewrite Rlt_bool_true in C by exact S. destruct C as (C1 & C2 & _). rewrite C2, Fp, Fq. split; [reflexivity|exact C1].
Qed.
Lemma isf_fdiv x y a b : isf x a -> isf y b -> b <> 0%R -> small (a / b) -> isf (fdiv x y) (rnd (a / b)).
Proof.
  intros (p & <- & Fp & <-) (q & <- & Fq & <-) N S. exists (Bdiv mode_NE p q).
  split; [symmetry; apply fdiv_equiv|]. pose proof (Bdiv_correct 53 1024 _ _ mode_NE p q N) as C.
  rewrite Rlt_bool_true in C by exact S. destruct C as (C1 & C2 & _). rewrite C2, Fp. split; [reflexivity|exact C1].
Qed.
Lemma isf_fofZ z : small (IZR z) -> isf (fofZ z) (rnd (IZR z)).
Proof.
  intros S. exists (BinarySingleNaN.binary_normalize 53 1024 Hprec53 Hmax1024 mode_NE z 0 false).
  split; [symmetry; apply normalize_equiv|].
  pose proof (binary_normalize_correct 53 1024 Hprec53 Hmax1024 mode_NE z 0 false) as C. cbv zeta in C.
  replace (F2R (Float radix2 z 0)) with (IZR z) in C by (unfold F2R; cbn; lra).
  rewrite Rlt_bool_true in C by exact S. destruct C as (C1 & C2 & _). split; [exact C2|exact C1].
Qed.
(** Integers up to 2^53 are exact. *)
Lemma rnd_IZR z : Z.abs z <= 2 ^ 53 -> rnd (IZR z) = IZR z.
Proof.
  intros B. apply round_generic; [apply valid_rnd_N|].
  destruct (Z.eq_dec (Z.abs z) (2 ^ 53)) as [E|N].
  - assert (z = 2 ^ 53 \/ z = - 2 ^ 53) as [->| ->] by lia.
    + change (IZR (2 ^ 53)) with (bpow radix2 53). apply generic_format_bpow. vm_compute. discriminate.
    + rewrite opp_IZR. apply generic_format_opp. change (IZR (2 ^ 53)) with (bpow radix2 53).
      apply generic_format_bpow. vm_compute. discriminate.
  - apply (generic_format_FLT radix2 (-1074) 53). exists (Float radix2 z 0); cbn.
    + unfold F2R. cbn. lra.
    + lia.
    + lia.
Qed.
Lemma isf_int z : Z.abs z <= 2 ^ 53 -> isf (fofZ z) (IZR z).
Proof.
  intros B. rewrite <- (rnd_IZR z B). apply isf_fofZ. apply small_le.
  rewrite <- abs_IZR. apply IZR_le. lia.
Qed.
Lemma isf_inj x y r : isf x r -> isf y r -> r <> 0%R -> x = y.
Proof.
  intros (p & <- & Fp & Ep) (q & <- & Fq & Eq) N. f_equal. apply B2R_inj; [| |congruence].
  - destruct p; try discriminate; [cbn in Ep; congruence|reflexivity].
  - destruct q; try discriminate; [cbn in Eq; congruence|reflexivity].
Qed.
Lemma isf_fun x a b : isf x a -> isf x b -> a = b.
Proof.
  intros (p & <- & Fp & <-) (q & E & Fq & <-). rewrite <- !SF2R_B2SF, E. reflexivity.
Qed.
Lemma isf_lt x y a b : isf x a -> isf y b -> SFltb x y = Rlt_bool a b.
Proof. intros (p & <- & Fp & <-) (q & <- & Fq & <-). apply (Bltb_correct 53 1024); assumption. Qed.
Lemma isf_le x y a b : isf x a -> isf y b -> SFleb x y = Rle_bool a b.
Proof. intros (p & <- & Fp & <-) (q & <- & Fq & <-). apply (Bleb_correct 53 1024); assumption. Qed.
Lemma isf_eq x y a b : isf x a -> isf y b -> SFeqb x y = Req_bool a b.
Proof. intros (p & <- & Fp & <-) (q & <- & Fq & <-). apply (Beqb_correct 53 1024); assumption. Qed.
Lemma isf_format x r : isf x r -> generic_format radix2 fexp64 r.
Proof. intros (p & <- & Fp & <-). apply generic_format_B2R. Qed.
(** Well-formed finite doubles, decidably. *)
Lemma isf_valid x : valid_binary 53 1024 x = true -> is_finite_SF x = true -> isf x (SF2R radix2 x).
Proof.
  intros V F. exists (SF2B x V). split; [apply B2SF_SF2B|].
  split; [rewrite is_finite_SF2B; exact F|apply B2R_SF2B].
Qed.

(** ** Rounding to integers *)
Lemma F2R_div m e : e < 0 -> F2R (Float radix2 m e) = (IZR m / IZR (2 ^ (- e)))%R.
Proof.
  intros He. unfold F2R. cbn [Fnum Fexp]. unfold Rdiv. f_equal.
  rewrite <- (Z.opp_involutive e) at 1. rewrite bpow_opp. f_equal. symmetry. apply (IZR_Zpower radix2). lia.
Qed.
Lemma F2R_mul m e : 0 <= e -> F2R (Float radix2 m e) = IZR (m * 2 ^ e).
Proof.
  intros He. unfold F2R. cbn [Fnum Fexp]. rewrite mult_IZR. f_equal.
  symmetry. apply (IZR_Zpower radix2). exact He.
Qed.
Lemma isf_floor x r : isf x r -> f_floor x = Zfloor r.
Proof.
  intros (p & <- & Fp & <-). destruct p as [s|s| |s m e H]; try discriminate.
  - cbn. symmetry. apply (Zfloor_IZR 0).
  - cbn [B2SF f_floor B2R]. replace (if s then Z.neg m else Z.pos m) with (cond_Zopp s (Z.pos m)) by (destruct s; reflexivity).
    destruct (Z.leb_spec 0 e) as [L|L].
    + rewrite F2R_mul by exact L. symmetry. apply Zfloor_IZR.
    + rewrite F2R_div by exact L. symmetry. apply Zfloor_div. apply Z.pow_nonzero; lia.
Qed.
Lemma isf_ceil x r : isf x r -> f_ceil x = Zceil r.
Proof.
  intros (p & <- & Fp & <-). destruct p as [s|s| |s m e H]; try discriminate.
  - cbn. symmetry. apply (Zceil_IZR 0).
  - cbn [B2SF f_ceil B2R]. replace (if s then Z.neg m else Z.pos m) with (cond_Zopp s (Z.pos m)) by (destruct s; reflexivity).
    destruct (Z.leb_spec 0 e) as [L|L].
    + rewrite F2R_mul by exact L. symmetry. apply Zceil_IZR.
    + rewrite F2R_div by exact L. unfold Zceil. f_equal.
      rewrite <- Ropp_div. rewrite <- opp_IZR. symmetry. apply Zfloor_div. apply Z.pow_nonzero; lia.
Qed.
