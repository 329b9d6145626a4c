(** Specification vocabulary for rounding and simplification of doubles. *)
From Coq Require Import ZArith QArith Reals Qreals List SpecFloat.
From Flocq Require Import Core.
From Verif Require Import Num FloatLib.
Open Scope R_scope.

(** [q] is the integer nearest to [x], ties away from zero. *)
Definition rounds_to (x : R) (q : Z) : Prop :=
  IZR (Z.abs q) - / 2 <= Rabs x < IZR (Z.abs q) + / 2 /\ 0 <= x * IZR q.
(** The doubles that int(x + copysign(0.5, x)) rounds one too far: the one just
    below a half, and the odd integers between 2^52 and 2^53. *)
Definition below_half (x : R) : Prop := Rabs x = / 2 - / IZR (2 ^ 54).
Definition odd_giant (x : R) : Prop := exists n, Rabs x = IZR (2 * n + 1) /\ (2 ^ 52 < 2 * n + 1 < 2 ^ 53)%Z.
(** The cell of a coordinate [x], with cells of size [m]: half a cell off at the most, up to rounding. *)
Definition in_cell (m x : R) (q : Z) : Prop :=
  Rabs (x - m * IZR q) <= Rabs m * (/ 2 + / IZR (2 ^ 53)) + Rabs x * / IZR (2 ^ 53).
Definition holds_pt (p : f64 * f64) (P : R * R) : Prop := isf (fst p) (fst P) /\ isf (snd p) (snd P).
Definition cell_of (m : R) (P : R * R) (c : Z * Z) : Prop := in_cell m (fst P) (fst c) /\ in_cell m (snd P) (snd c).
(** Cells are counted exactly below 2^52. *)
Definition in_reach (m : R) (P : R * R) : Prop := Rabs (fst P) < Rabs m * IZR (2 ^ 52) /\ Rabs (snd P) < Rabs m * IZR (2 ^ 52).
Definition medium (x : R) : Prop := x = 0 \/ bpow radix2 (-400) <= Rabs x <= bpow radix2 400.
(** Neither of the two kinds of doubles that are rounded one too far *)
Definition regular (x : R) : Prop := ~ below_half x /\ ~ odd_giant x.
(** A point of doubles with exact rational values *)
Definition exact_pt (p : f64 * f64) (P : Q * Q) : Prop := holds_pt p (Q2R (fst P), Q2R (snd P)).
Definition exact_cell (m : Q) (x : Q) : Prop := medium (Q2R x) /\ regular (Q2R (x / m)).
