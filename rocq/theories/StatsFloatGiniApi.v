(** The Gini coefficients of doubles: the calls. *)
From Coq Require Import ZArith Reals Lia Lra List SpecFloat Permutation Sorted.
From Flocq Require Import Core IEEE754.BinarySingleNaN.
From Verif Require Import Num FloatLib RasterAA GridFloat StatsModel StatsSpec StatsReal StatsFloatModel StatsFloatSpec StatsFloatLib StatsFloatCalls StatsFloat StatsFloatApi StatsFloatGini.
Import ListNotations.
Open Scope R_scope.

Section Call.
  Variables (h : list (stcall f64)).
  Hypothesis H : Forall tame_call h.
  Lemma low_denoms L : (2 <= length L)%nat -> tame L -> bpow radix2 (-499) <= mean L ->
    rnd (2 * avgR L) <> 0 /\ rnd (IZR (orders L) * avgR L) <> 0.
  Proof.
    intros N T M. pose proof (two_ne L N) as NE. pose proof (bpow_gt_0 radix2 (-499)) as P. destruct (orders_bounds L (proj2 T)) as (_ & _ & O2). specialize (O2 N).
    pose proof (twice_avg L (avg_low L NE M)) as H1. pose proof (many_avg L O2 (avg_low L NE M)) as H2. split; lra.
  Qed.
  Lemma api_kakF l L : reads l L -> tame L -> (2 <= length L)%nat -> bpow radix2 (-499) <= mean L -> answersR h (CKak (Some l)) (kakR L).
  Proof.
    intros F T N M. destruct (low_denoms L N T M) as [D1 D2]. pose proof (avg_low L (two_ne L N) M) as AL.
    destruct (vnum_out h H _ _ _ (CKak (Some l)) eq_refl (kak_givesF l L F T)) as [(x & A & _ & _ & B)|(e & _ & [Q|[Q|Q]] & _)]; [|lia|contradiction|contradiction].
    exists x. split; [exact A|]. exact (B AL).
  Qed.
  Lemma api_deaF l L : reads l L -> tame L -> (2 <= length L)%nat -> bpow radix2 (-499) <= mean L -> answersR h (CDea (Some l)) (deaR L).
  Proof.
    intros F T N M. destruct (low_denoms L N T M) as [D1 D2]. pose proof (avg_low L (two_ne L N) M) as AL.
    destruct (vnum_out h H _ _ _ (CDea (Some l)) eq_refl (dea_givesF l L F T)) as [(x & A & _ & _ & B)|(e & _ & [Q|[Q|Q]] & _)]; [|lia|contradiction|contradiction].
    exists x. split; [exact A|]. exact (B AL).
  Qed.
  Lemma api_gini_failF l L : reads l L -> tame L -> (length L < 2)%nat \/ total L = 0 ->
    answersF h (CKak (Some l)) (Err ZeroDivisionError) /\ answersF h (CDea (Some l)) (Err ZeroDivisionError).
  Proof.
    intros F T C. assert (Z : rnd 0 = 0) by (apply (rnd_IZR 0); cbn; lia).
    assert (A0 : total L = 0 -> avgR L = 0) by (intros E; unfold avgR; rewrite E, Z; unfold Rdiv; rewrite Rmult_0_l; exact Z).
    split.
    - destruct (vnum_out h H _ _ _ (CKak (Some l)) eq_refl (kak_givesF l L F T)) as [(x & _ & N & D & _)|(e & A & _ & ->)]; [exfalso|exact A].
      destruct C as [C|C]; [lia|]. apply D. rewrite (A0 C), Rmult_0_r. exact Z.
    - destruct (vnum_out h H _ _ _ (CDea (Some l)) eq_refl (dea_givesF l L F T)) as [(x & _ & N & D & _)|(e & A & _ & ->)]; [exfalso|exact A].
      destruct C as [C|C]; [lia|]. apply D. rewrite (A0 C), Rmult_0_r. exact Z.
  Qed.
End Call.
Lemma equal_case : answersF [] (CKak (Some (tenths 2))) (Ok (VNum (S754_zero false))) /\
  answersF [] (CDea (Some (tenths 2))) (Ok (VNum (S754_finite true 4503599627370496 (-103)))).
Proof. split; vm_compute; reflexivity. Qed.
(** Sorted permutations are equal. *)
Lemma desc_unique (l m : list R) : descending l -> descending m -> Permutation l m -> l = m.
Proof.
  intros S. revert m. induction S as [|x r S IH F]; intros m S' P; [apply Permutation_nil in P; auto|].
  destruct S' as [|y q S' F']; [symmetry in P; apply Permutation_nil in P; discriminate|].
  assert (E : x = y).
  { rewrite Forall_forall in F, F'. apply Rle_antisym.
    - assert (I : In x (y :: q)) by (apply (Permutation_in _ P); left; reflexivity). destruct I as [->|I]; [lra|apply F'; exact I].
    - assert (I : In y (x :: r)) by (apply (Permutation_in _ (Permutation_sym P)); left; reflexivity). destruct I as [->|I]; [lra|apply F; exact I]. }
  subst y. f_equal. apply IH; [exact S'|]. apply (Permutation_cons_inv P).
Qed.
Lemma deaR_perm L M : Permutation L M -> deaR L = deaR M.
Proof.
  intros P. assert (ES : sortedR L = sortedR M).
  { apply desc_unique; [apply sort_desc_sorted|apply sort_desc_sorted|]. rewrite (sortedR_perm L), P. symmetry. apply sortedR_perm. }
  unfold deaR, avgR, orders, nR. rewrite ES, (total_perm _ _ P), (Permutation_length P). reflexivity.
Qed.
Lemma mean_perm' L M : Permutation L M -> mean L = mean M.
Proof. intros P. apply mean_perm. exact P. Qed.
Lemma tame_perm L M : Permutation L M -> tame L -> tame M.
Proof. intros P [F N]. split; [rewrite <- P; exact F|rewrite <- (Permutation_length P); exact N]. Qed.
(** 0.1, 1, 0.2 in two orders. *)
Definition tenth : f64 := S754_finite false 7205759403792794 (-56).
Definition fifth : f64 := S754_finite false 7205759403792794 (-55).
Lemma order_case : answersF [] (CKak (Some [tenth; nofZ 1; fifth])) (Ok (VNum (S754_finite false 6235753330205302 (-53)))) /\
  answersF [] (CKak (Some [nofZ 1; tenth; fifth])) (Ok (VNum (S754_finite false 6235753330205303 (-53)))).
Proof. split; vm_compute; reflexivity. Qed.
Definition tenR : R := 7205759403792794 / 72057594037927936.
Definition fifR : R := 7205759403792794 / 36028797018963968.
Lemma isf_tenth : isf tenth tenR /\ isf fifth fifR.
Proof.
  assert (A : forall x v, valid_binary 53 1024 x = true -> is_finite_SF x = true -> SF2R radix2 x = v -> isf x v) by (intros x v V Fi <-; apply isf_valid; assumption).
  split; (apply A; [reflexivity|reflexivity|]); unfold tenth, fifth, SF2R; rewrite F2R_div by lia; reflexivity.
Qed.
Lemma order_reads : reads [tenth; nofZ 1; fifth] [tenR; 1; fifR] /\ tame [tenR; 1; fifR] /\
  Permutation [tenR; 1; fifR] [1; tenR; fifR] /\ Forall (fun x => 0 <= x) [tenR; 1; fifR] /\ bpow radix2 (-499) <= mean [tenR; 1; fifR].
Proof.
  destruct isf_tenth as [A B]. assert (O : isf (nofZ 1) 1) by (apply (isf_int 1); lia).
  assert (T : tenR = 7205759403792794 / 72057594037927936) by reflexivity. assert (V : fifR = 7205759403792794 / 36028797018963968) by reflexivity.
  assert (P1 : 1 <= bpow radix2 100) by (apply (bpow_le radix2 0); lia).
  assert (P2 : bpow radix2 (-499) <= / 4) by (apply (bpow_le radix2 (-499) (-2)); lia).
  split; [constructor; [exact A|]; constructor; [exact O|]; constructor; [exact B|]; constructor|].
  split; [split; [constructor; [rewrite Rabs_pos_eq; lra|]; constructor; [rewrite Rabs_pos_eq; lra|]; constructor; [rewrite Rabs_pos_eq; lra|]; constructor|cbn; lia]|].
  split; [constructor|]. split; [constructor; [lra|]; constructor; [lra|]; constructor; [lra|]; constructor|].
  unfold mean, count, total. cbn [fold_right length INR]. lra.
Qed.
