(** Property C135: Gini coefficients in double arithmetic. *)
From Coq Require Import ZArith Reals Lia Lra List SpecFloat Permutation.
From Flocq Require Import Core IEEE754.BinarySingleNaN.
From Verif Require Import Num FloatLib RasterAA GridFloat StatsModel StatsSpec StatsReal StatsFloatModel StatsFloatSpec StatsFloatLib StatsFloatCalls StatsFloat StatsFloatApi StatsFloatGini StatsFloatGiniApi.
Import ListNotations.
Open Scope R_scope.

(** Kakwani's formula: never negative, the same after every history, and close
    to the exact coefficient relative to it, with negative numbers too. *)
Theorem C135_kakwani : forall l L, reads l L -> tame L -> (2 <= length L)%nat -> bpow radix2 (-499) <= mean L ->
  exists k, (forall h, Forall tame_call h -> answersR h (CKak (Some l)) k) /\ 0 <= k /\
    Rabs (k - gini L) <= gini L * ((count L * (count L - 1) / 2 + 8) / IZR (2 ^ 52)) + bpow radix2 (-500).
Proof.
  intros l L F T N M. exists (kakR L). split; [intros h H; exact (api_kakF h H l L F T N M)|]. exact (kak_close L (fm_reads l L F) T N M).
Qed.
(** Deaton's formula on numbers that are not negative. *)
Theorem C135_deaton : forall l L, reads l L -> tame L -> Forall (fun x => 0 <= x) L -> (2 <= length L)%nat -> bpow radix2 (-499) <= mean L ->
  exists d, (forall h, Forall tame_call h -> answersR h (CDea (Some l)) d) /\
    Rabs (d - gini L) <= (3 * count L + 40) / IZR (2 ^ 52).
Proof.
  intros l L F T P N M. exists (deaR L). split; [intros h H; exact (api_deaF h H l L F T N M)|]. exact (dea_close L (fm_reads l L F) P T N M).
Qed.
(** Deaton's formula does not see the order of the numbers. *)
Theorem C135_deaton_order : forall h h' l m L M d e, Forall tame_call h -> Forall tame_call h' -> reads l L -> reads m M -> Permutation L M -> tame L ->
  (2 <= length L)%nat -> bpow radix2 (-499) <= mean L -> answersR h (CDea (Some l)) d -> answersR h' (CDea (Some m)) e -> d = e.
Proof.
  intros h h' l m L M d e H H' F G P T N B A A'.
  assert (N' : (2 <= length M)%nat) by (rewrite <- (Permutation_length P); exact N).
  assert (B' : bpow radix2 (-499) <= mean M) by (rewrite <- (mean_perm' L M P); exact B).
  rewrite (answersR_fun _ _ _ _ A (api_deaF h H l L F T N B)), (answersR_fun _ _ _ _ A' (api_deaF h' H' m M G (tame_perm L M P T) N' B')).
  exact (deaR_perm L M P).
Qed.
(** Kakwani's formula does. *)
Theorem C135_kakwani_order_refuted : exists l m L x y, reads l L /\ tame L /\ Permutation l m /\
  answersF [] (CKak (Some l)) (Ok (VNum x)) /\ answersF [] (CKak (Some m)) (Ok (VNum y)) /\ SFltb x y = true.
Proof.
  exists [tenth; nofZ 1; fifth], [nofZ 1; tenth; fifth], [tenR; 1; fifR]. do 2 eexists. destruct order_reads as (R & T & _).
  split; [exact R|]. split; [exact T|]. split; [constructor|]. split; [apply order_case|]. split; [apply order_case|reflexivity].
Qed.
(** Equal numbers: Kakwani's formula answers 0. *)
Theorem C135_equal : forall h l L x, Forall tame_call h -> reads l L -> tame L -> Forall (fun y => y = x) L -> (2 <= length L)%nat -> bpow radix2 (-499) <= mean L ->
  answersR h (CKak (Some l)) 0.
Proof.
  intros h l L x H F T E N M. pose proof (api_kakF h H l L F T N M) as A. rewrite (kak_equal x L E) in A. exact A.
Qed.
(** Deaton's formula can answer less than 0: for 0.1 and 0.1. *)
Theorem C135_deaton_equal_refuted : exists d, answersF [] (CKak (Some (tenths 2))) (Ok (VNum (nofZ 0))) /\
  answersF [] (CDea (Some (tenths 2))) (Ok (VNum d)) /\ SFltb d (nofZ 0) = true.
Proof. eexists. split; [apply equal_case|]. split; [apply equal_case|reflexivity]. Qed.
(** Fewer than two numbers, or numbers of sum 0. *)
Theorem C135_fails : forall h l L, Forall tame_call h -> reads l L -> tame L -> (length L < 2)%nat \/ total L = 0 ->
  answersF h (CKak (Some l)) (Err ZeroDivisionError) /\ answersF h (CDea (Some l)) (Err ZeroDivisionError).
Proof. intros h l L H. exact (api_gini_failF h H l L). Qed.
(** The hypotheses hold of 0.1, 1, 0.2. *)
Example C135_case : exists l m L M, reads l L /\ reads m M /\ tame L /\ Permutation L M /\ l <> m /\ Forall (fun x => 0 <= x) L /\ (2 <= length L)%nat /\ bpow radix2 (-499) <= mean L.
Proof.
  destruct order_reads as (R & T & P & Q & B). exists [tenth; nofZ 1; fifth], [nofZ 1; tenth; fifth], [tenR; 1; fifR], [1; tenR; fifR].
  split; [exact R|]. split. { inversion R as [|a x l0 L0 A R1 E1 E2]; subst. inversion R1 as [|b y l1 L1 B1 R2 E3 E4]; subst. constructor; [exact B1|]. constructor; [exact A|exact R2]. }
  split; [exact T|]. split; [exact P|]. split; [discriminate|]. split; [exact Q|]. split; [cbn; lia|exact B].
Qed.
Example C135_case_equal : Forall (fun y => y = 5) [5; 5] /\ reads [nofZ 5; nofZ 5] [5; 5] /\ tame [5; 5] /\ bpow radix2 (-499) <= mean [5; 5].
Proof.
  assert (I : isf (nofZ 5) 5) by (apply (isf_int 5); lia).
  assert (P2 : bpow radix2 (-499) <= / 4) by (apply (bpow_le radix2 (-499) (-2)); lia).
  assert (P1 : 8 <= bpow radix2 100) by (apply (bpow_le radix2 3); lia).
  split; [constructor; [reflexivity|]; constructor; [reflexivity|constructor]|]. split; [constructor; [exact I|]; constructor; [exact I|constructor]|].
  split; [split; [constructor; [rewrite Rabs_pos_eq; lra|]; constructor; [rewrite Rabs_pos_eq; lra|constructor]|cbn; lia]|]. unfold mean, count, total. cbn [fold_right length INR]. lra.
Qed.
Example C135_case_fails : reads [nofZ 1; nofZ (-1)] [1; -1] /\ tame [1; -1] /\ total [1; -1] = 0.
Proof.
  assert (P1 : 1 <= bpow radix2 100) by (apply (bpow_le radix2 0); lia).
  split; [constructor; [apply (isf_int 1); lia|]; constructor; [apply (isf_int (-1)); lia|constructor]|].
  split; [split; [constructor; [apply Rabs_le; lra|]; constructor; [apply Rabs_le; lra|constructor]|cbn; lia]|]. unfold total. cbn [fold_right]. lra.
Qed.

Print Assumptions C135_kakwani.
Print Assumptions C135_deaton.
Print Assumptions C135_deaton_order.
Print Assumptions C135_kakwani_order_refuted.
Print Assumptions C135_equal.
Print Assumptions C135_deaton_equal_refuted.
Print Assumptions C135_fails.
