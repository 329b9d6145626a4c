(** Specification vocabulary for boxes whose corners are doubles. *)
From Coq Require Import ZArith Reals SpecFloat.
From Verif Require Import Num FloatLib BBoxModel.
Open Scope R_scope.

(** A box with real corners *)
Record rbox : Type := mkrb { X0 : R; Y0 : R; X1 : R; Y1 : R }.
(** The corners of [b] are finite doubles, with these values. *)
Definition isbox (b : bbox f64) (r : rbox) : Prop :=
  isf (bx0 b) (X0 r) /\ isf (by0 b) (Y0 r) /\ isf (bx1 b) (X1 r) /\ isf (by1 b) (Y1 r).
(** The (half-open) set of points of the plane *)
Definition rin (r : rbox) (x y : R) : Prop := X0 r <= x < X1 r /\ Y0 r <= y < Y1 r.
Definition rordered (r : rbox) : Prop := X0 r <= X1 r /\ Y0 r <= Y1 r.
(** Corners up to [m] from the axes *)
Definition within (m : R) (r : rbox) : Prop := Rabs (X0 r) <= m /\ Rabs (Y0 r) <= m /\ Rabs (X1 r) <= m /\ Rabs (Y1 r) <= m.
(** No side is tiny without being zero, none is huge: the area is neither
    rounded to zero nor out of range. *)
Definition side_ok (s : R) : Prop := s = 0 \/ / IZR (2 ^ 500) <= Rabs s.
Definition usual (r : rbox) : Prop := within (IZR (2 ^ 500)) r /\ side_ok (X1 r - X0 r) /\ side_ok (Y1 r - Y0 r).
Definition rarea (r : rbox) : R := (X1 r - X0 r) * (Y1 r - Y0 r).
