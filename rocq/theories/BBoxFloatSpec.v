(** Boxes whose corners are doubles, seen as boxes of real numbers. *)
From Coq Require Import Reals.
From Verif Require Import Num BBoxModel FloatLib.
Open Scope R_scope.

(** [b] is made of four finite doubles whose values are the corners [r]. *)
Definition doubles (b : bbox f64) (r : bbox R) : Prop :=
  isf (bx0 b) (bx0 r) /\ isf (by0 b) (by0 r) /\ isf (bx1 b) (bx1 r) /\ isf (by1 b) (by1 r).

(** Corners up to 2^500, in order, and each side either zero or at least
    2^-500 long. *)
Definition side (lo hi : R) : Prop :=
  Rabs lo <= 2 ^ 500 /\ Rabs hi <= 2 ^ 500 /\ (lo = hi \/ lo + / 2 ^ 500 <= hi).
Definition ordinary (r : bbox R) : Prop := side (bx0 r) (bx1 r) /\ side (by0 r) (by1 r).

(** Positive width and height. *)
Definition solid (r : bbox R) : Prop := bx0 r < bx1 r /\ by0 r < by1 r.

(** The point set of a box (half-open). *)
Definition inside (r : bbox R) (x y : R) : Prop := bx0 r <= x < bx1 r /\ by0 r <= y < by1 r.

(** [a] lies within [b]. *)
Definition within (a b : bbox R) : Prop :=
  bx0 b <= bx0 a /\ by0 b <= by0 a /\ bx1 a <= bx1 b /\ by1 a <= by1 b.
