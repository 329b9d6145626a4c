(** Property C126: statistics in double arithmetic. *)
From Coq Require Import ZArith Reals Lia Lra List SpecFloat.
From Flocq Require Import Core IEEE754.BinarySingleNaN.
From Verif Require Import Num FloatLib RasterAA GridFloat StatsModel StatsSpec StatsReal StatsFloatModel StatsFloatSpec StatsFloatCalls StatsFloat StatsFloatApi.
Import ListNotations.
Open Scope R_scope.

(** The sum is the double nearest to the exact sum; the extremes and the length
    are exact. *)
Theorem C126_sum : forall h l L, Forall tame_call h -> reads l L -> tame L ->
  (exists s, answersR h (CSum (Some l)) s /\ nearest_to (total L) s) /\
  answersF h (CLen (Some l)) (Ok (VInt (Z.of_nat (length L)))) /\
  (L <> [] -> exists lo hi, answersR h (CMin (Some l)) lo /\ answersR h (CMax (Some l)) hi /\ In lo L /\ In hi L /\ forall y, In y L -> lo <= y <= hi) /\
  (L = [] -> answersF h (CMin (Some l)) (Err ValueError) /\ answersF h (CMax (Some l)) (Err ValueError)).
Proof.
  intros h l L H F T. split; [exists (rnd (total L)); split; [exact (api_sum h H l L F T)|apply nearest_rnd]|]. split; [exact (api_len h H l L F T)|].
  pose proof (api_min h H l L F T) as [[E1 M1]|(lo & A1 & I1 & B1)]; pose proof (api_max h H l L F T) as [[E2 M2]|(hi & A2 & I2 & B2)].
  - split; [intros N; contradiction|auto].
  - subst L. destruct I2.
  - subst L. destruct I1.
  - split; [intros _; exists lo, hi; auto 10|intros ->; destruct I1].
Qed.
(** The average. *)
Theorem C126_avg : forall h l L, Forall tame_call h -> reads l L -> tame L -> L <> [] ->
  exists m, answersR h (CAvg (Some l)) m /\ Rabs (m - mean L) <= Rabs (mean L) / IZR (2 ^ 51) + bpow radix2 (-990).
Proof.
  intros h l L H F T N. exists (avgR L). split; [exact (api_avgF h H l L F T N)|]. pose proof (avg_err L N) as E. change (IZR (2 ^ 51)) with 2251799813685248.
  assert (3 * bpow radix2 (-1000) <= bpow radix2 (-990)).
  { apply Rle_trans with (bpow radix2 2 * bpow radix2 (-1000)); [|rewrite <- bpow_plus; apply bpow_le; lia]. apply Rmult_le_compat_r; [apply bpow_ge_0|]. change (bpow radix2 2) with 4. lra. }
  pose proof (Rabs_pos (mean L)). unfold Rdiv. lra.
Qed.
(** The variance is never negative, so the standard deviation is always
    answered, and both are close. *)
Theorem C126_var : forall h l L, Forall tame_call h -> reads l L -> tame L -> L <> [] ->
  exists v d, answersR h (CVar (Some l)) v /\ answersR h (CStd (Some l)) d /\ 0 <= v /\ 0 <= d /\
    Rabs (v - variance L) <= variance L / IZR (2 ^ 50) + 2 * blur L + bpow radix2 (-900) /\
    nearest_to (sqrt v) d.
Proof.
  intros h l L H F T N. exists (varR L), (stdR L). split; [exact (api_varF h H l L F T N)|]. split; [exact (api_stdF h H l L F T N)|].
  split; [exact (var_nonneg L N)|]. split; [apply (std_bpow L N T)|]. split; [exact (var_close L N (fm_reads l L F))|apply nearest_rnd].
Qed.
(** The covariance of sequences of equal lengths. *)
Theorem C126_covar : forall h a b A B, Forall tame_call h -> reads a A -> reads b B -> tame A -> tame B -> A <> [] -> length A = length B ->
  exists c, answersR h (CCov (Some (a, b))) c /\
    Rabs (c - covariance A B) <= (count A + 4) / IZR (2 ^ 52) * sqrt ((variance A + blur A) * (variance B + blur B)) + sqrt (blur A * blur B) + bpow radix2 (-900).
Proof.
  intros h a b A B H FA FB TA TB N L. exists (covR A B). split; [apply (api_covF h H a b A B FA FB TA TB N); lia|].
  apply cov_close; [exact N|exact L|exact (fm_reads a A FA)|exact (fm_reads b B FB)|apply TA].
Qed.
(** The correlation passes 1 by rounding only. *)
Theorem C126_corr : forall h a b A B v w, Forall tame_call h -> reads a A -> reads b B -> tame A -> tame B -> length A = length B ->
  answersR h (CVar (Some a)) v -> answersR h (CVar (Some b)) w -> bpow radix2 (-500) <= v -> bpow radix2 (-500) <= w ->
  exists r, answersR h (CCorr (Some (a, b))) r /\ Rabs r <= 1 + (count A + 16) / IZR (2 ^ 52).
Proof.
  intros h a b A B v w H FA FB TA TB L AV BV V W.
  assert (N : A <> []).
  { intros ->. inversion FA; subst. destruct AV as (x & AV & _). pose proof (api_empty h H) as (_ & E & _). unfold answersF in *. congruence. }
  assert (NB : B <> []) by (destruct A; [contradiction|destruct B; discriminate]).
  rewrite (answersR_fun h _ v _ AV (api_varF h H a A FA TA N)) in V. rewrite (answersR_fun h _ w _ BV (api_varF h H b B FB TB NB)) in W.
  exists (corrR A B). split; [apply (api_corrF h H a b A B FA FB TA TB N); [lia|exact V|exact W]|].
  apply corr_close; [exact N|exact L|exact (fm_reads a A FA)|exact (fm_reads b B FB)|apply TA|exact V|exact W].
Qed.
(** No answer depends on what was called before, but for the sign of a zero. *)
Theorem C126_transparent : forall h h' c v w, Forall tame_call h -> Forall tame_call h' -> tame_call c ->
  match c with CCorr _ | CKak _ | CDea _ => False | _ => True end -> answersR h c v -> answersR h' c w -> v = w.
Proof. exact same_answers. Qed.
Theorem C126_fails : forall h, Forall tame_call h ->
  answersF h (CAvg (Some [])) (Err ZeroDivisionError) /\ answersF h (CVar (Some [])) (Err ZeroDivisionError) /\ answersF h (CStd (Some [])) (Err ZeroDivisionError) /\
  forall a b A B, reads a A -> reads b B -> tame A -> tame B ->
    (A = [] \/ B = [] -> answersF h (CCov (Some (a, b))) (Err ZeroDivisionError) /\ answersF h (CCorr (Some (a, b))) (Err ZeroDivisionError)) /\
    (B <> [] -> (length B < length A)%nat -> answersF h (CCov (Some (a, b))) (Err IndexError) /\ answersF h (CCorr (Some (a, b))) (Err IndexError)).
Proof.
  intros h H. pose proof (api_empty h H) as (E1 & E2 & E3). split; [exact E1|]. split; [exact E2|]. split; [exact E3|]. exact (api_failF h H).
Qed.
(** Three times 0.1: the average is above all the numbers, the variance is not 0,
    and the correlation with itself is 1 instead of a ZeroDivisionError. *)
Theorem C126_constant_refuted : exists m v r, answersF [] (CAvg (Some (tenths 3))) (Ok (VNum m)) /\ SFltb (hd m (tenths 3)) m = true /\
  answersF [] (CVar (Some (tenths 3))) (Ok (VNum v)) /\ SFltb (nofZ 0) v = true /\ answersF [] (CCorr (Some (tenths 3, tenths 3))) (Ok (VNum r)).
Proof. exact constant_case. Qed.
(** A cached answer can have the other sign of zero. *)
Theorem C126_zero_sign_refuted : exists h c, Forall tame_call h /\ tame_call c /\ snd (st_call c (st_run h)) <> snd (st_call c stats0).
Proof. exact zero_sign. Qed.
(** The hypotheses hold of 0.1, 0.1, 0.1 and 1, 2, 6. *)
Example C126_case : tame_arg (tenths 3) /\ tame_arg [nofZ 1; nofZ 2; nofZ 6].
Proof. exact stats_cases. Qed.
Example C126_case_corr : exists v r, answersR [CVar (Some [nofZ 1; nofZ 2; nofZ 6])] (CVar (Some [nofZ 1; nofZ 2; nofZ 6])) v /\ bpow radix2 (-500) <= v /\
  answersF [CVar (Some [nofZ 1; nofZ 2; nofZ 6])] (CCorr (Some ([nofZ 1; nofZ 2; nofZ 6], [nofZ 1; nofZ 2; nofZ 6]))) (Ok (VNum r)).
Proof. exact stats_corr. Qed.

Print Assumptions C126_sum.
Print Assumptions C126_avg.
Print Assumptions C126_var.
Print Assumptions C126_covar.
Print Assumptions C126_corr.
Print Assumptions C126_transparent.
Print Assumptions C126_fails.
Print Assumptions C126_constant_refuted.
Print Assumptions C126_zero_sign_refuted.
