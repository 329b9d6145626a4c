(** Specification vocabulary for points with double coordinates. *)
From Coq Require Import ZArith Reals SpecFloat.
From Verif Require Import Num FloatLib.
Open Scope R_scope.

(** A point whose coordinates are doubles of these values *)
Definition holds2 (p : f64 * f64) (x y : R) : Prop := isf (fst p) x /\ isf (snd p) y.
(** A point whose coordinates are doubles holding integers up to 2^25 *)
Definition int_pt (p : f64 * f64) (z : Z * Z) : Prop := isf (fst p) (IZR (fst z)) /\ isf (snd p) (IZR (snd z)) /\ (Z.abs (fst z) <= 2 ^ 25)%Z /\ (Z.abs (snd z) <= 2 ^ 25)%Z.
(** Coordinates up to 2^500 *)
Definition far (x y : R) : Prop := Rabs x <= IZR (2 ^ 500) /\ Rabs y <= IZR (2 ^ 500).
