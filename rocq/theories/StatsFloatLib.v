(** Sums and square roots of doubles. *)
From Coq Require Import ZArith Reals Lia Lra List SpecFloat.
From Flocq Require Import Core IEEE754.BinarySingleNaN.
From Flocq Require Import Relative Plus_error.
From Verif Require Import Num FloatLib RasterAA GridFloat StatsModel StatsSpec StatsFloatModel.
Open Scope R_scope.

Lemma units_val x r : isf x r -> r = IZR (f_units x) * bpow radix2 (-1074).
Proof.
  intros (p & <- & Fp & <-). destruct p as [s|s| |s m e H]; try discriminate; cbn [B2SF B2R f_units]; [cbn; lra|].
  assert (E : (-1074 <= e)%Z).
  { pose proof H as H'. unfold SpecFloat.bounded in H'. apply andb_prop in H'. destruct H' as [H' _]. unfold canonical_mantissa in H'. apply Zeq_bool_eq in H'.
    unfold SpecFloat.fexp, SpecFloat.emin in H'. lia. }
  unfold F2R. cbn [Fnum Fexp]. replace (cond_Zopp s (Z.pos m)) with ((if s then -1 else 1) * Z.pos m)%Z by (destruct s; reflexivity).
  rewrite !mult_IZR, (IZR_Zpower radix2) by lia. rewrite !Rmult_assoc. rewrite <- bpow_plus. do 3 f_equal. lia.
Qed.
Lemma units_total l K : Forall2 isf l K -> total K = IZR (fold_right Z.add 0%Z (map f_units l)) * bpow radix2 (-1074).
Proof.
  induction 1 as [|x r l K I _ IH]; [cbn; lra|]. cbn [total fold_right map]. fold (total K). rewrite IH, plus_IZR, (units_val x r I). ring.
Qed.
Lemma isf_fsum l K : Forall2 isf l K -> small (total K) -> isf (f_fsum l) (rnd (total K)).
Proof.
  intros H S. unfold f_fsum. set (z := fold_right Z.add 0%Z _). pose proof (units_total l K H) as E. fold z in E.
  exists (BinarySingleNaN.binary_normalize 53 1024 Hprec53 Hmax1024 mode_NE z (-1074) false).
  split; [symmetry; apply normalize_equiv|].
  pose proof (binary_normalize_correct 53 1024 Hprec53 Hmax1024 mode_NE z (-1074) false) as C. cbv zeta in C.
  assert (V : F2R (Float radix2 z (-1074)) = total K) by (rewrite E; reflexivity). rewrite V in C.
  change (round radix2 (SpecFloat.fexp 53 1024) (round_mode mode_NE) (total K)) with (rnd (total K)) in C.
  rewrite Rlt_bool_true in C by exact S. destruct C as (C1 & C2 & _). split; [exact C2|exact C1].
Qed.
Lemma fsqrt_equiv a : SFsqrt 53 1024 (B2SF a) = B2SF (Bsqrt mode_NE a : binary_float 53 1024).
Proof.
  destruct a as [s|[|]| |[|] m e H]; try reflexivity.
  unfold SFsqrt, Bsqrt. cbn [B2SF]. rewrite B2SF_SF2B. set (melz := SFsqrt_core_binary _ _ _ _). destruct melz as [[mz ez] lz]. apply round_aux_equiv.
Qed.
Lemma isf_fsqrt x r : isf x r -> 0 <= r -> isf (SFsqrt 53 1024 x) (rnd (sqrt r)).
Proof.
  intros (p & <- & Fp & <-) P. exists (Bsqrt mode_NE p). split; [symmetry; apply fsqrt_equiv|].
  destruct (Bsqrt_correct 53 1024 Hprec53 Hmax1024 mode_NE p) as (C1 & C2 & _). split; [|exact C1]. rewrite C2.
  destruct p as [s|s| |s m e H]; try discriminate; [reflexivity|]. destruct s; [|reflexivity]. exfalso. cbn [B2R] in P.
  assert (F2R (Float radix2 (cond_Zopp true (Z.pos m)) e) < 0) by (apply F2R_lt_0; reflexivity). lra.
Qed.
