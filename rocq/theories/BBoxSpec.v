(** Specification vocabulary for bounding boxes, independent of the model's
    functions. *)
From Verif Require Import Num BBoxModel.
Open Scope Z_scope.

(** The point set of a box (half-open). *)
Definition inbox (b : bbox Q) (x y : Q) : Prop :=
  (bx0 b <= x < bx1 b /\ by0 b <= y < by1 b)%Q.

(** Corners in order. *)
Definition wf (b : bbox Q) : Prop := (bx0 b <= bx1 b /\ by0 b <= by1 b)%Q.

(** Positive width and height. *)
Definition proper (b : bbox Q) : Prop := (bx0 b < bx1 b /\ by0 b < by1 b)%Q.

(** Same corners (as numbers). *)
Definition beqv (a b : bbox Q) : Prop :=
  (bx0 a == bx0 b /\ by0 a == by0 b /\ bx1 a == bx1 b /\ by1 a == by1 b)%Q.

(** [a] lies within [b]. *)
Definition subbox (a b : bbox Q) : Prop :=
  (bx0 b <= bx0 a /\ by0 b <= by0 a /\ bx1 a <= bx1 b /\ by1 a <= by1 b)%Q.

