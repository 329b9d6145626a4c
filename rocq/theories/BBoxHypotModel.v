(** Model of BBox.hypot (coral/bbox.py) over the reals. *)
From Coq Require Import Reals.
From Verif Require Import Num RealNum BBoxModel.
Open Scope R_scope.

(** bbox.py:132-134, math.hypot(x1 - x0, y1 - y0).  Over the reals, where
    math.hypot is sqrt(x*x + y*y); the C library's rounding is not modelled. *)
Definition bb_hypot (b : bbox R) : R :=
  let x := bb_width b in
  let y := bb_height b in
  sqrt (x * x + y * y).
