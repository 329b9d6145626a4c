(** corangle in double arithmetic: huge angles. *)
From Coq Require Import ZArith Reals Lia Lra SpecFloat.
From Flocq Require Import Core IEEE754.BinarySingleNaN.
From Verif Require Import Num FloatLib PfSpec ProjModel.
Open Scope R_scope.

(** math.pi *)
Definition pi64 : f64 := f_of 884279719003555 (-48).
Lemma stuck_up r c : generic_format radix2 fexp64 r -> bpow radix2 56 < r -> 0 <= c < 8 -> rnd (r - c) = r.
Proof.
  intros F L C. assert (P0 : 0 < bpow radix2 56) by apply bpow_gt_0.
  assert (Fb : generic_format radix2 fexp64 (bpow radix2 56)). { rewrite <- (rnd_bpow 56) by lia. apply generic_format_round; typeclasses eauto. }
  assert (Pp : bpow radix2 56 <= pred radix2 fexp64 r) by (apply pred_ge_gt; [typeclasses eauto|assumption|assumption|assumption]).
  assert (Pe : pred radix2 fexp64 r + ulp radix2 fexp64 (pred radix2 fexp64 r) = r) by (apply pred_plus_ulp; [typeclasses eauto|lra|exact F]).
  assert (U : bpow radix2 4 <= ulp radix2 fexp64 (pred radix2 fexp64 r)).
  { apply Rle_trans with (ulp radix2 fexp64 (bpow radix2 56)); [rewrite ulp_bpow; apply bpow_le; cbn; lia|apply ulp_le_pos; [typeclasses eauto|typeclasses eauto|lra|exact Pp]]. }
  change (bpow radix2 4) with 16 in U. unfold rnd. apply Rle_antisym.
  - apply Rle_trans with (rnd r); [apply rnd_le; lra|]. right. apply round_generic; [apply valid_rnd_N|exact F].
  - apply round_N_ge_midp; [typeclasses eauto|exact F|]. lra.
Qed.
Lemma stuck_down r c : generic_format radix2 fexp64 r -> r < - bpow radix2 56 -> 0 <= c < 8 -> rnd (r + c) = r.
Proof.
  intros F L C. replace (r + c) with (- (- r - c)) by ring. unfold rnd. rewrite round_NE_opp. fold (rnd (- r - c)).
  rewrite stuck_up; [ring|apply generic_format_opp; exact F|lra|exact C].
Qed.
Definition pi2_64 : f64 := nmul (nofZ 2) pi64.
Lemma pi2_value : exists c, isf pi2_64 c /\ 0 <= c < 8.
Proof.
  exists (SF2R radix2 pi2_64). split; [apply isf_valid; vm_compute; reflexivity|].
  assert (E : pi2_64 = S754_finite false 7074237752028440 (-50)) by (vm_compute; reflexivity). rewrite E. cbn [SF2R cond_Zopp].
  unfold F2R. cbn [Fnum Fexp]. change (bpow radix2 (-50)) with (/ IZR (Z.pow_pos 2 50)).
  assert (V : IZR (Z.pow_pos 2 50) = 1125899906842624) by (f_equal; reflexivity). rewrite V. lra.
Qed.
Lemma fsub_stuck a r : isf a r -> bpow radix2 56 < r -> fsub a pi2_64 = a.
Proof.
  intros A L. destruct pi2_value as (c & C & B). pose proof (isf_format _ _ A) as F.
  assert (S : small (r - c)). { unfold small. rewrite stuck_up by assumption. destruct A as (b & _ & _ & <-). apply abs_B2R_lt_emax. }
  pose proof (isf_fsub _ _ _ _ A C S) as H. rewrite stuck_up in H by assumption. apply (isf_inj _ _ r H A). pose proof (bpow_gt_0 radix2 56). lra.
Qed.
Lemma fadd_stuck a r : isf a r -> r < - bpow radix2 56 -> fadd a pi2_64 = a.
Proof.
  intros A L. destruct pi2_value as (c & C & B). pose proof (isf_format _ _ A) as F.
  assert (S : small (r + c)). { unfold small. rewrite stuck_down by assumption. destruct A as (b & _ & _ & <-). apply abs_B2R_lt_emax. }
  pose proof (isf_fadd _ _ _ _ A C S) as H. rewrite stuck_down in H by assumption. apply (isf_inj _ _ r H A). pose proof (bpow_gt_0 radix2 56). lra.
Qed.
Lemma sub_turns_stuck fuel a : fsub a pi2_64 = a -> SFltb pi64 a = true -> sub_turns pi2_64 pi64 fuel a = None.
Proof. intros E L. induction fuel as [|n IH]; [reflexivity|]. cbn [sub_turns nlt nsub NumF]. rewrite L, E. exact IH. Qed.
Lemma add_turns_stuck fuel a m : fadd a pi2_64 = a -> SFltb a m = true -> add_turns pi2_64 m fuel a = None.
Proof. intros E L. induction fuel as [|n IH]; [reflexivity|]. cbn [add_turns nlt nadd NumF]. rewrite L, E. exact IH. Qed.
Lemma corangle_up fuel a : SFltb a (fsub (fofZ 0) pi64) = false -> fsub a pi2_64 = a -> SFltb pi64 a = true -> corangle_loop pi64 fuel a = None.
Proof.
  intros A B C. unfold corangle_loop. fold pi2_64. destruct fuel as [|n]; [reflexivity|]. cbn [add_turns nlt nsub nofZ NumF]. rewrite A. apply sub_turns_stuck; assumption.
Qed.
Lemma corangle_down fuel a : SFltb a (fsub (fofZ 0) pi64) = true -> fadd a pi2_64 = a -> corangle_loop pi64 fuel a = None.
Proof. intros A B. unfold corangle_loop. fold pi2_64. cbn [nsub nofZ NumF]. rewrite add_turns_stuck by assumption. reflexivity. Qed.
Lemma small_const x m e : x = S754_finite false m e -> valid_binary 53 1024 x = true -> isf x (IZR (Zpos m) * bpow radix2 e).
Proof. intros E V. pose proof (isf_valid x V) as H. rewrite E in *. apply H. reflexivity. Qed.
Lemma corangle_huge a fuel : wf64 a -> SFltb (fofZ (2 ^ 56)) a = true \/ SFltb a (fofZ (- 2 ^ 56)) = true -> corangle_loop pi64 fuel a = None.
Proof.
  intros W H. destruct (is_finite_SF a) eqn:F.
  - pose proof (isf_valid a W F) as A. set (r := SF2R radix2 a) in *.
    assert (B : isf (fofZ (2 ^ 56)) (bpow radix2 56)). { replace (bpow radix2 56) with (rnd (IZR (2 ^ 56))); [apply isf_fofZ; apply small_le; rewrite Rabs_pos_eq by (apply IZR_le; lia); apply IZR_le; lia|]. apply (rnd_bpow 56). lia. }
    assert (B' : isf (fofZ (- 2 ^ 56)) (- bpow radix2 56)). { replace (- bpow radix2 56) with (rnd (IZR (- 2 ^ 56))).
      - apply isf_fofZ; apply small_le. rewrite opp_IZR, Rabs_Ropp, Rabs_pos_eq by (apply IZR_le; lia). apply IZR_le; lia.
      - rewrite opp_IZR. unfold rnd. rewrite round_NE_opp. f_equal. apply (rnd_bpow 56). lia. }
    assert (P : isf pi64 (SF2R radix2 pi64)) by (apply isf_valid; reflexivity). assert (P' : isf (fsub (fofZ 0) pi64) (SF2R radix2 (fsub (fofZ 0) pi64))) by (apply isf_valid; reflexivity).
    assert (V : SF2R radix2 pi64 < bpow radix2 56). { pose proof (isf_lt _ _ _ _ P B) as L. change (SFltb pi64 (fofZ (2 ^ 56))) with true in L. symmetry in L. destruct (Raux.Rlt_bool_spec (SF2R radix2 pi64) (bpow radix2 56)); [assumption|discriminate]. }
    assert (V' : - bpow radix2 56 < SF2R radix2 (fsub (fofZ 0) pi64)). { pose proof (isf_lt _ _ _ _ B' P') as L. change (SFltb (fofZ (- 2 ^ 56)) (fsub (fofZ 0) pi64)) with true in L. symmetry in L. destruct (Raux.Rlt_bool_spec (- bpow radix2 56) (SF2R radix2 (fsub (fofZ 0) pi64))); [assumption|discriminate]. }
    assert (V2 : SF2R radix2 (fsub (fofZ 0) pi64) < bpow radix2 56). { pose proof (isf_lt _ _ _ _ P' B) as L. change (SFltb (fsub (fofZ 0) pi64) (fofZ (2 ^ 56))) with true in L. symmetry in L. destruct (Raux.Rlt_bool_spec (SF2R radix2 (fsub (fofZ 0) pi64)) (bpow radix2 56)); [assumption|discriminate]. }
    destruct H as [H|H].
    + rewrite (isf_lt _ _ _ _ B A) in H. destruct (Raux.Rlt_bool_spec (bpow radix2 56) r) as [L|]; [|discriminate]. apply corangle_up.
      * rewrite (isf_lt _ _ _ _ A P'). apply Raux.Rlt_bool_false. lra.
      * apply (fsub_stuck a r A L).
      * rewrite (isf_lt _ _ _ _ P A). apply Raux.Rlt_bool_true. lra.
    + rewrite (isf_lt _ _ _ _ A B') in H. destruct (Raux.Rlt_bool_spec r (- bpow radix2 56)) as [L|]; [|discriminate]. apply corangle_down.
      * rewrite (isf_lt _ _ _ _ A P'). apply Raux.Rlt_bool_true. lra.
      * apply (fadd_stuck a r A L).
  - destruct a as [s|[]| |s m e]; try discriminate F.
    + apply corangle_down; reflexivity.
    + apply corangle_up; reflexivity.
    + destruct H as [H|H]; cbn in H; discriminate.
Qed.
