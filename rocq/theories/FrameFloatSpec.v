(** Degrees that are not tiny or huge. *)
From Coq Require Import ZArith Reals SpecFloat.
From Flocq Require Import Core IEEE754.BinarySingleNaN.
From Verif Require Import Num.

(** A zero, or a double between 2^-1000 and 2^1000 in magnitude *)
Definition angle (x : f64) : Prop :=
  valid_binary 53 1024 x = true /\
  ((exists s, x = S754_zero s) \/
   is_finite_SF x = true /\ (bpow radix2 (-1000) <= Rabs (SF2R radix2 x) <= bpow radix2 1000)%R).
