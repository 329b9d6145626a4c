(** Coordinates that have a cell. *)
From Coq Require Import ZArith Reals SpecFloat.
From Flocq Require Import Core.
From Verif Require Import Num FloatLib.
Open Scope R_scope.

(** The double [x] is at most 2^50 cells of size [S] away from zero. *)
Definition coordinate (x : f64) (S X : R) : Prop := isf x X /\ Rabs X <= S * bpow radix2 50 /\ Rabs X <= bpow radix2 900.
(** [i] is the number of the cell with [X] in it. *)
Definition cell_of (i : f64) (S X : R) : Prop := exists k : Z, isf i (IZR k) /\ IZR k * S <= X < (IZR k + 1) * S.
