(** corangle in double arithmetic (coral/proj.py). *)
From Coq Require Import ZArith Reals Lia Lra SpecFloat.
From Flocq Require Import Core IEEE754.BinarySingleNaN.
From Verif Require Import Num FloatLib ProjModel ProjFloat AngleFloat.
Open Scope R_scope.

(** C128 *)
(** Every double up to 2^50 in size is brought between -math.pi and math.pi
    ([P64] is the exact value of math.pi) by whole turns of 2*math.pi. Each
    turn costs at most 2^-53 of the angle; up to two turns cost nothing, and
    an angle that is in the range already comes back as it is. *)
Theorem C128_corangle : forall a A, isf a A -> Rabs A <= IZR (2 ^ 50) -> exists N r R (k : Z),
  (forall n, (N <= n)%nat -> corangle_loop pi64 n a = Some r) /\ isf r R /\ - P64 <= R <= P64 /\
  Rabs (R - (A + IZR k * (2 * P64))) <= Rabs (IZR k) * (Rabs A * / IZR (2 ^ 53)) /\
  (Rabs A <= 4 * P64 -> R = A + IZR k * (2 * P64)) /\ (Rabs A <= P64 -> r = a).
Proof. exact corangle_ok. Qed.
(** Further out the result need not be whole turns away: 100.25 ends up
    5 * 2^-47 beside it after its 16 turns. *)
Theorem C128_exact_refuted : exists a A r R, isf a A /\ Rabs A <= 101 /\ corangle_loop pi64 20 a = Some r /\ isf r R /\
  (forall k, R <> A + IZR k * (2 * P64)) /\ R = A - 16 * (2 * P64) - 5 / IZR (2 ^ 47).
Proof.
  exists (f_of 401 (-2)), (401 / 4), (S754_finite true 5061413943712384 (-54)), (- (5061413943712384 / 18014398509481984)).
  split; [|split; [rewrite Rabs_pos_eq; lra|split; [vm_compute; reflexivity|split; [|split]]]].
  - pose proof (isf_valid (f_of 401 (-2)) eq_refl eq_refl) as I. replace (401 / 4) with (SF2R radix2 (f_of 401 (-2))); [exact I|].
    change (f_of 401 (-2)) with (S754_finite false 7054466603810816 (-46)). unfold SF2R. rewrite F2R_div by lia. change (IZR 7054466603810816 / IZR 70368744177664 = 401 / 4). lra.
  - pose proof (isf_valid (S754_finite true 5061413943712384 (-54)) eq_refl eq_refl) as I.
    replace (- (5061413943712384 / 18014398509481984)) with (SF2R radix2 (S754_finite true 5061413943712384 (-54))); [exact I|].
    unfold SF2R. rewrite F2R_div by lia. change (IZR (- 5061413943712384) / IZR 18014398509481984 = - (5061413943712384 / 18014398509481984)). lra.
  - intros k E. assert (H : IZR k * (2 * P64) = IZR (-16) * (2 * P64) - 5 / 140737488355328) by (replace (IZR k * (2 * P64)) with (- (5061413943712384 / 18014398509481984) - 401 / 4) by lra; unfold P64; lra).
    destruct (Z_le_gt_dec k (-16)) as [L|L].
    + destruct (Z.eq_dec k (-16)) as [->|N]; [lra|]. assert (IZR k <= -17) by (apply IZR_le; lia). pose proof P64_val. nra.
    + assert (-15 <= IZR k) by (apply IZR_le; lia). pose proof P64_val. nra.
  - change (IZR (2 ^ 47)) with 140737488355328. unfold P64. lra.
Qed.
(** 7 is turned back once, exactly. *)
Example C128_case : isf (fofZ 7) 7 /\ Rabs 7 <= 4 * P64 /\ Rabs 7 <= IZR (2 ^ 50) /\ corangle_loop pi64 20 (fofZ 7) = Some (S754_finite false 6456492766959424 (-53)).
Proof.
  split; [apply isf_int; lia|]. rewrite Rabs_pos_eq by lra. change (IZR (2 ^ 50)) with 1125899906842624. pose proof P64_val. split; [lra|]. split; [lra|vm_compute; reflexivity].
Qed.

Print Assumptions C128_corangle.
Print Assumptions C128_exact_refuted.
