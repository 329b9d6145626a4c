(** Compass directions and collinearity with doubles (coral/coord.py). *)
From Coq Require Import ZArith QArith Reals Qreals Lia Lra List SpecFloat.
From Flocq Require Import Core IEEE754.BinarySingleNaN.
From Verif Require Import Py Num FloatLib SimplifyModel SimplifyFloatModel GeoModel GeoCompass CompassFloatModel CompassFloatSpec CompassFloat.
Open Scope R_scope.

(** C133 *)
(** The wind is at most 11.25 degrees from the bearing, up to the rounding of
    b + 360 and a few units of the last place of the rest. *)
Theorem C133_cardinal : forall x b, isf x b -> Rabs b <= IZR (2 ^ 50) ->
  exists w k, bearing2cardinal64 x = Ok w /\
    Rabs (- b - Q2R (azimuth w) + IZR k * 360) <= 45 / 4 + (Rabs b + 360) * / IZR (2 ^ 53) + / IZR (2 ^ 43).
Proof. exact cardinal64. Qed.
(** The hour is in (0, 12], never 0. *)
Theorem C133_hours : forall x b, isf x b -> Rabs b <= IZR (2 ^ 50) ->
  exists h k, isf (bearing2hours64 x) h /\ 0 < h <= 12 /\
    Rabs (30 * h - (- b + IZR k * 360)) <= (Rabs b + 360) * / IZR (2 ^ 53) + / IZR (2 ^ 43).
Proof. exact hours64. Qed.
(** Infinities and NaN have no direction. *)
Theorem C133_special : forall s, bearing2cardinal64 (S754_infinity s) = Err ValueError /\ bearing2cardinal64 S754_nan = Err ValueError.
Proof. intros []; split; reflexivity. Qed.
(** Collinearity is exact for integers up to 2^25, *)
Theorem C133_collinear_integers : forall a b c za zb zc, int_pt a za -> int_pt b zb -> int_pt c zc -> collinear64 a b c = collinear za zb zc.
Proof. exact collinear_ints. Qed.
(** and for any points when two coincide or all are on a line along an axis. *)
Theorem C133_collinear_lines : forall a b c xa ya xb yb xc yc, holds2 a xa ya -> holds2 b xb yb -> holds2 c xc yc -> far xa ya -> far xb yb -> far xc yc ->
  (xa = xb /\ xb = xc) \/ (ya = yb /\ yb = yc) \/ (xa = xb /\ ya = yb) \/ (xa = xc /\ ya = yc) \/ (xb = xc /\ yb = yc) -> collinear64 a b c = true.
Proof. exact collinear_lines. Qed.
(** Points that are clearly not collinear are never taken for such. *)
Theorem C133_collinear_close : forall a b c xa ya xb yb xc yc, holds2 a xa ya -> holds2 b xb yb -> holds2 c xc yc -> far xa ya -> far xb yb -> far xc yc ->
  collinear64 a b c = true ->
  Rabs ((xa - xc) * (yb - ya) - (xa - xb) * (yc - ya)) <= (Rabs ((xa - xc) * (yb - ya)) + Rabs ((xa - xb) * (yc - ya))) * / IZR (2 ^ 50) + bpow radix2 (-999).
Proof. exact collinear_close. Qed.
(** But points on a line need not be: (2^60, 3 2^60), (65, 195) and (1, 3). *)
Theorem C133_collinear_refuted : exists a b c xa ya xb yb xc yc, holds2 a xa ya /\ holds2 b xb yb /\ holds2 c xc yc /\
  (xa - xc) * (yb - ya) = (xa - xb) * (yc - ya) /\ collinear64 a b c = false.
Proof.
  exists (f_of 1 60, f_of 3 60), (fofZ 65, fofZ 195), (fofZ 1, fofZ 3), (IZR (2 ^ 60)), (IZR (3 * 2 ^ 60)), 65, 195, 1, 3.
  assert (I : forall m, (Z.abs m < 2 ^ 53)%Z -> isf (f_of m 60) (IZR (m * 2 ^ 60))).
  { intros m H. assert (E : IZR (m * 2 ^ 60) = IZR m * bpow radix2 60) by (rewrite mult_IZR; reflexivity). rewrite E. rewrite <- (NearestFloat.rnd_fmt (IZR m * bpow radix2 60)); [|apply NearestFloat.fmt_of; lia].
    apply isf_f_of. apply (small_bpow _ 113); [lia|]. change 113%Z with (53 + 60)%Z. rewrite bpow_plus, Rabs_mult, (Rabs_pos_eq (bpow radix2 60)) by apply bpow_ge_0.
    apply Rmult_le_compat_r; [apply bpow_ge_0|]. rewrite <- abs_IZR. change (bpow radix2 53) with (IZR (2 ^ 53)). apply IZR_le. lia. }
  split; [split; [exact (I 1%Z ltac:(lia))|exact (I 3%Z ltac:(lia))]|]. split; [split; [apply (isf_int 65)|apply (isf_int 195)]; lia|]. split; [split; [apply (isf_int 1)|apply (isf_int 3)]; lia|].
  split; [rewrite mult_IZR; ring|vm_compute; reflexivity].
Qed.
Example C133_case : isf (fofZ (-1000)) (-1000) /\ Rabs (-1000) <= IZR (2 ^ 50) /\ bearing2cardinal64 (fofZ (-1000)) = Ok wW /\ bearing2cardinal64 (f_of (-1) (-60)) = Ok wN /\
  bearing2hours64 (f_of (-1) (-60)) = fofZ 12 /\ int_pt (fofZ 7, fofZ (-7)) (7, -7)%Z /\
  collinear64 (fofZ 7, fofZ (-7)) (fofZ 0, fofZ 0) (fofZ (-3), fofZ 3) = true /\ collinear64 (fofZ 7, fofZ (-7)) (fofZ 0, fofZ 0) (fofZ (-3), fofZ 4) = false.
Proof.
  split; [apply (isf_int (-1000)); lia|]. split; [change (IZR (2 ^ 50)) with 1125899906842624; rewrite Rabs_left; lra|]. split; [vm_compute; reflexivity|]. split; [vm_compute; reflexivity|].
  split; [vm_compute; reflexivity|]. split; [|split; vm_compute; reflexivity].
  split; [apply (isf_int 7); lia|]. split; [apply (isf_int (-7)); lia|]. cbn. lia.
Qed.

Print Assumptions C133_cardinal.
Print Assumptions C133_hours.
Print Assumptions C133_special.
Print Assumptions C133_collinear_integers.
Print Assumptions C133_collinear_lines.
Print Assumptions C133_collinear_close.
Print Assumptions C133_collinear_refuted.
