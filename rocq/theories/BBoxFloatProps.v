(** C114: boxes whose corners are doubles. *)
From Coq Require Import Reals Lra SpecFloat.
From Flocq Require Import IEEE754.BinarySingleNaN.
From Verif Require Import Num BBoxModel FloatLib BBoxFloatSpec BBoxFloat.
Open Scope R_scope.

Theorem C114_truth (b : bbox f64) r :
  doubles b r -> ordinary r -> (bb_bool b = true <-> solid r).
Proof. exact (bool_solid b r). Qed.

Theorem C114_has_point (b : bbox f64) r px py x y :
  doubles b r -> isf px x -> isf py y ->
  (bb_has_point b (px, py) = true <-> inside r x y).
Proof. exact (has_point_inside b r px py x y). Qed.

Theorem C114_contains (a b : bbox f64) ra rb :
  doubles a ra -> doubles b rb ->
  (bb_has_bbox a b = true <-> inside ra (bx0 rb) (by0 rb) /\ inside ra (bx1 rb) (by1 rb)).
Proof. exact (has_bbox_doubles a b ra rb). Qed.

Theorem C114_intersection (a b : bbox f64) ra rb :
  doubles a ra -> doubles b rb -> ordinary ra -> ordinary rb ->
  exists ri, doubles (bb_and a b) ri /\
    (forall x y, inside ri x y <-> inside ra x y /\ inside rb x y) /\
    ((forall x y, ~ (inside ra x y /\ inside rb x y)) -> bb_and a b = bb_empty).
Proof. exact (and_doubles a b ra rb). Qed.

Theorem C114_union (a b : bbox f64) ra rb :
  doubles a ra -> doubles b rb -> ordinary ra -> ordinary rb -> solid ra -> solid rb ->
  exists ru, doubles (bb_or a b) ru /\ ordinary ru /\ solid ru /\ within ra ru /\ within rb ru /\
    (forall c, within ra c -> within rb c -> within ru c).
Proof. exact (or_doubles a b ra rb). Qed.

(** An operand without area is ignored. *)
Theorem C114_union_ignores (a b : bbox f64) ra rb :
  doubles a ra -> doubles b rb -> ordinary ra -> ordinary rb ->
  (~ solid ra -> bb_or a b = b) /\ (solid ra -> ~ solid rb -> bb_or a b = a).
Proof. exact (or_flat a b ra rb). Qed.

Theorem C114_collide (a b : bbox f64) ra rb :
  doubles a ra -> doubles b rb -> solid ra -> solid rb ->
  (bb_collide a b = true <-> exists x y, inside ra x y /\ inside rb x y).
Proof. exact (collide_doubles a b ra rb). Qed.

Theorem C114_center (b : bbox f64) r :
  doubles b r -> ordinary r ->
  exists cx cy, isf (fst (bb_center b)) cx /\ isf (snd (bb_center b)) cy /\
    bx0 r <= cx <= bx1 r /\ by0 r <= cy <= by1 r.
Proof. exact (center_doubles b r). Qed.

Theorem C114_translate_ordered (b : bbox f64) r dx dy DX DY :
  doubles b r -> ordinary r -> isf dx DX -> isf dy DY ->
  Rabs DX <= 2 ^ 500 -> Rabs DY <= 2 ^ 500 ->
  exists r', doubles (bb_translate b dx dy) r' /\ bx0 r' <= bx1 r' /\ by0 r' <= by1 r'.
Proof. exact (translate_doubles b r dx dy DX DY). Qed.

(** Moving the unit square 2^53 to the right rounds its width away: the box
    becomes false, and a union then ignores it. *)
Theorem C114_translate_flat_refuted :
  exists (b : bbox f64) dx, bb_bool b = true /\ bb_bool (bb_translate b dx (fofZ 0)) = false.
Proof.
  exists (mkbb (fofZ 0) (fofZ 0) (fofZ 1) (fofZ 1)), (fofZ (2 ^ 53)). vm_compute. split; reflexivity.
Qed.

(** Corners beyond half the largest double: the center is infinite. *)
Theorem C114_center_overflow_refuted :
  exists b : bbox f64, is_finite_SF (bx0 b) = true /\ is_finite_SF (bx1 b) = true /\
    bb_center b = (S754_infinity false, fofZ 0).
Proof.
  exists (mkbb (f_of 1 1023) (fofZ 0) (f_of 1 1023) (fofZ 0)). vm_compute. repeat split; reflexivity.
Qed.

Example C114_case :
  let a := mkbb (fofZ 0) (fofZ 0) (fofZ 4) (fofZ 4) in let b := mkbb (fofZ 2) (fofZ 3) (fofZ 9) (fofZ 5) in
  let ra := mkbb 0 0 4 4 in let rb := mkbb 2 3 9 5 in
  doubles a ra /\ doubles b rb /\ ordinary ra /\ ordinary rb /\ solid ra /\ solid rb /\
  bb_and a b = mkbb (fofZ 2) (fofZ 3) (fofZ 4) (fofZ 4) /\ bb_collide a b = true /\
  Rabs 1 <= 2 ^ 500 /\ isf (fofZ 1) 1.
Proof.
  assert (G : 16 <= 2 ^ 500).
  { rewrite <- pow500. change 16 with (Flocq.Core.Raux.bpow Flocq.Core.Zaux.radix2 4).
    apply Flocq.Core.Raux.bpow_le. discriminate. }
  assert (H : / 2 ^ 500 <= 1).
  { rewrite <- Rinv_1. apply Rinv_le_contravar; lra. }
  assert (I : forall z, (Z.abs z <= 2 ^ 53)%Z -> isf (fofZ z) (IZR z)) by exact isf_int.
  cbv zeta. unfold doubles, ordinary, side, solid. cbn [bx0 by0 bx1 by1].
  repeat match goal with |- _ /\ _ => split end;
    first [apply I; vm_compute; discriminate | apply Rabs_le; lra | right; lra | lra | vm_compute; reflexivity].
Qed.

Print Assumptions C114_truth.
Print Assumptions C114_has_point.
Print Assumptions C114_contains.
Print Assumptions C114_intersection.
Print Assumptions C114_union.
Print Assumptions C114_union_ignores.
Print Assumptions C114_collide.
Print Assumptions C114_center.
Print Assumptions C114_translate_ordered.
Print Assumptions C114_translate_flat_refuted.
Print Assumptions C114_center_overflow_refuted.
