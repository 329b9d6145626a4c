(** Specification vocabulary for string similarity with doubles. *)
From Coq Require Import ZArith QArith Reals Qreals List SpecFloat.
From Verif Require Import Py Num FloatLib.
Open Scope R_scope.

(** Strings of up to 2^24 characters *)
Definition short (s : list Z) : Prop := (Z.of_nat (length s) <= 2 ^ 24)%Z.
(** The same answer up to rounding: the same exception, or a double within
    a relative [e] of the exact value. *)
Definition agrees (e : R) (rf : res f64) (rq : res Q) : Prop :=
  match rf, rq with
  | Ok f, Ok q => exists x, isf f x /\ Rabs (x - Q2R q) <= Rabs (Q2R q) * e
  | Err x, Err y => x = y
  | _, _ => False
  end.
(** The same match: key and value, and a score within 2^-51 *)
Definition same_match (a : list Z * list Z * f64) (b : list Z * list Z * Q) : Prop :=
  fst a = fst b /\ exists x, isf (snd a) x /\ Rabs (x - Q2R (snd b)) <= / IZR (2 ^ 51).
