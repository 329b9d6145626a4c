(** Area, translation and scaling of boxes whose corners are doubles, and the
    diagonal (coral/bbox.py). *)
From Coq Require Import ZArith Reals Lia Lra SpecFloat.
From Flocq Require Import Core IEEE754.BinarySingleNaN.
From Verif Require Import Num RealNum FloatLib BBoxModel BBoxHypotModel BBoxScaleSpec BBoxScale BBoxHypot.
Open Scope R_scope.

(** C131 *)
(** Areas, and the order by area where they differ by more than 2^-48 *)
Theorem C131_area : forall b r, isbox b r -> usual r -> exists a, isf (bb_area b) a /\ Rabs (a - rarea r) <= Rabs (rarea r) * / IZR (2 ^ 50).
Proof. exact area_val. Qed.
Theorem C131_order : forall a b ra rb, isbox a ra -> isbox b rb -> usual ra -> usual rb -> rordered ra -> rordered rb ->
  rarea ra * (1 + / IZR (2 ^ 48)) < rarea rb -> bb_lt a b = true /\ bb_lt b a = false.
Proof. exact lt64. Qed.
(** A translated box: each corner is rounded once; the corners stay in order and
    a point of the box, moved too, is still between them. *)
Theorem C131_translate : forall b r u v dx dy, isbox b r -> within (IZR (2 ^ 500)) r -> isf u dx -> isf v dy ->
  Rabs dx <= IZR (2 ^ 500) -> Rabs dy <= IZR (2 ^ 500) ->
  exists r', isbox (bb_translate b u v) r' /\
    Rabs (X0 r' - (X0 r + dx)) <= Rabs (X0 r + dx) * / IZR (2 ^ 53) /\ Rabs (Y0 r' - (Y0 r + dy)) <= Rabs (Y0 r + dy) * / IZR (2 ^ 53) /\
    Rabs (X1 r' - (X1 r + dx)) <= Rabs (X1 r + dx) * / IZR (2 ^ 53) /\ Rabs (Y1 r' - (Y1 r + dy)) <= Rabs (Y1 r + dy) * / IZR (2 ^ 53) /\
    (rordered r -> rordered r') /\
    (forall p q x y, isf p x -> isf q y -> rin r x y ->
       exists x' y', isf (fadd p u) x' /\ isf (fadd q v) y' /\ X0 r' <= x' <= X1 r' /\ Y0 r' <= y' <= Y1 r').
Proof. exact translate64. Qed.
(** But it need not be in the translated box, whose upper sides do not belong
    to it: 3/4 is in the box from 0 to 1, but moved by 2^53 the sides of that
    box coincide. *)
Theorem C131_translate_refuted : exists (b : bbox f64) p q u v, bb_has_point b (p, q) = true /\
  bb_has_point (bb_translate b u v) (fadd p u, fadd q v) = false.
Proof.
  exists (mkbb (fofZ 0) (fofZ 0) (fofZ 1) (fofZ 1)), (f_of 3 (-2)), (f_of 3 (-2)), (fofZ (2 ^ 53)), (fofZ (2 ^ 53)). split; vm_compute; reflexivity.
Qed.
(** Scaling from the centre: an error of a few roundings of the coordinates
    and of the sides *)
Theorem C131_scale : forall b r w f m, isbox b r -> isf w f -> within m r -> m <= IZR (2 ^ 100) -> Rabs f <= IZR (2 ^ 100) ->
  exists r', isbox (bb_scale b w) r' /\
    (let e := m * (1 + Rabs f) * / IZR (2 ^ 50) + / IZR (2 ^ 800) in
     Rabs (X0 r' - ((X0 r + X1 r) / 2 - f * (X1 r - X0 r) / 2)) <= e /\ Rabs (Y0 r' - ((Y0 r + Y1 r) / 2 - f * (Y1 r - Y0 r) / 2)) <= e /\
     Rabs (X1 r' - ((X0 r + X1 r) / 2 + f * (X1 r - X0 r) / 2)) <= e /\ Rabs (Y1 r' - ((Y0 r + Y1 r) / 2 + f * (Y1 r - Y0 r) / 2)) <= e) /\
    (rordered r -> 0 <= f -> rordered r').
Proof. exact scale64. Qed.
(** Dividing a box scales by the double nearest to the reciprocal. *)
Theorem C131_divide : forall b w f, isf w f -> (f = 0 -> bb_truediv b w = Err ZeroDivisionError) /\
  (/ IZR (2 ^ 100) <= Rabs f -> exists q, isf q (rnd (1 / f)) /\ bb_truediv b w = Ok (bb_scale b q)).
Proof. exact div64. Qed.
Definition tenths : bbox f64 := mkbb (f_of 3602879701896397 (-55)) (fofZ 0) (fofZ 3) (fofZ 2).
Definition halves : bbox f64 := mkbb (fofZ 1) (f_of (-1) (-1)) (fofZ 5) (f_of 3 (-1)).
Example C131_case : let ra := mkrb (3602879701896397 / 36028797018963968) 0 3 2 in let rb := mkrb 1 (- (1 / 2)) 5 (3 / 2) in
  isbox tenths ra /\ isbox halves rb /\ usual ra /\ usual rb /\ rordered ra /\ rordered rb /\ rarea ra * (1 + / IZR (2 ^ 48)) < rarea rb /\
  bb_lt tenths halves = true /\ bb_scale halves (fofZ 2) = mkbb (fofZ (-1)) (f_of (-3) (-1)) (fofZ 7) (f_of 5 (-1)) /\
  bb_truediv halves (f_of 1 (-1)) = Ok (bb_scale halves (fofZ 2)).
Proof.
  cbv zeta.
  assert (IA : isbox tenths (mkrb (3602879701896397 / 36028797018963968) 0 3 2)).
  { split; [|split; [apply (isf_int 0); lia|split; [apply (isf_int 3); lia|apply (isf_int 2); lia]]]. cbn [bx0 tenths X0].
    replace (3602879701896397 / 36028797018963968) with (SF2R Zaux.radix2 (f_of 3602879701896397 (-55))); [apply isf_valid; reflexivity|].
    vm_compute f_of. cbn [SF2R cond_Zopp]. rewrite F2R_div by lia. change (2 ^ (- -56))%Z with 72057594037927936%Z. lra. }
  assert (IB : isbox halves (mkrb 1 (- (1 / 2)) 5 (3 / 2))).
  { split; [apply (isf_int 1); lia|split; [|split; [apply (isf_int 5); lia|]]]; cbn [by0 by1 halves Y0 Y1].
    - replace (- (1 / 2)) with (SF2R Zaux.radix2 (f_of (-1) (-1))); [apply isf_valid; reflexivity|]. vm_compute f_of. cbn [SF2R cond_Zopp Z.opp]. rewrite F2R_div by lia. change (2 ^ (- -53))%Z with 9007199254740992%Z. lra.
    - replace (3 / 2) with (SF2R Zaux.radix2 (f_of 3 (-1))); [apply isf_valid; reflexivity|]. vm_compute f_of. cbn [SF2R cond_Zopp]. rewrite F2R_div by lia. change (2 ^ (- -52))%Z with 4503599627370496%Z. lra. }
  assert (T : 1000 <= IZR (2 ^ 500)) by (apply IZR_le; discriminate). assert (T' : / IZR (2 ^ 500) <= / 1000) by (apply Rinv_le_contravar; lra).
  split; [exact IA|]. split; [exact IB|].
  split; [unfold usual, within, side_ok; cbn [X0 Y0 X1 Y1]; repeat split; try (apply Rabs_le; lra); right; rewrite Rabs_pos_eq; lra|].
  split; [unfold usual, within, side_ok; cbn [X0 Y0 X1 Y1]; repeat split; try (apply Rabs_le; lra); right; rewrite Rabs_pos_eq; lra|].
  split; [split; cbn [X0 Y0 X1 Y1]; lra|]. split; [split; cbn [X0 Y0 X1 Y1]; lra|].
  split; [unfold rarea; cbn [X0 Y0 X1 Y1]; change (IZR (2 ^ 48)) with 281474976710656; lra|].
  repeat split; vm_compute; reflexivity.
Qed.

(** C132 *)
(** The diagonal is the distance of the corners, *)
Theorem C132_pythagoras : forall b d, 0 <= d -> d * d = (bx1 b - bx0 b) * (bx1 b - bx0 b) + (by1 b - by0 b) * (by1 b - by0 b) -> bb_hypot b = d.
Proof. exact hypot_char. Qed.
(** the greatest distance of two points of the box, *)
Theorem C132_diameter : forall b x y u v, bx0 b <= x <= bx1 b -> by0 b <= y <= by1 b -> bx0 b <= u <= bx1 b -> by0 b <= v <= by1 b ->
  sqrt ((u - x) * (u - x) + (v - y) * (v - y)) <= bb_hypot b.
Proof. exact hypot_diameter. Qed.
(** at least each side and at most their sum, *)
Theorem C132_bounds : forall b, bx0 b <= bx1 b -> by0 b <= by1 b ->
  bx1 b - bx0 b <= bb_hypot b /\ by1 b - by0 b <= bb_hypot b /\ bb_hypot b <= (bx1 b - bx0 b) + (by1 b - by0 b).
Proof. exact hypot_bounds. Qed.
(** and zero only for a single point. *)
Theorem C132_zero : forall b, bb_hypot b = 0 <-> bx0 b = bx1 b /\ by0 b = by1 b.
Proof. exact hypot_zero. Qed.
(** It does not change with the position and grows with the scale. *)
Theorem C132_translate : forall b dx dy, bb_hypot (bb_translate b dx dy) = bb_hypot b.
Proof. exact hypot_translate. Qed.
Theorem C132_scale : forall b f, bb_hypot (bb_scale b f) = Rabs f * bb_hypot b.
Proof. exact hypot_scale. Qed.
Example C132_case : bb_hypot (mkbb 1 1 4 5) = 5 /\ bb_hypot (bb_scale (mkbb 1 1 4 5) (-2)) = 10.
Proof.
  assert (H : bb_hypot (mkbb 1 1 4 5) = 5) by (apply hypot_char; cbn; lra). split; [exact H|]. rewrite hypot_scale, H, Rabs_left; lra.
Qed.

Print Assumptions C131_area.
Print Assumptions C131_order.
Print Assumptions C131_translate.
Print Assumptions C131_translate_refuted.
Print Assumptions C131_scale.
Print Assumptions C131_divide.
Print Assumptions C132_pythagoras.
Print Assumptions C132_diameter.
Print Assumptions C132_bounds.
Print Assumptions C132_zero.
Print Assumptions C132_translate.
Print Assumptions C132_scale.
