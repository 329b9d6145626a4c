(** Vocabulary for real fields of grid files with double bounds and values. *)
From Coq Require Import ZArith Reals.
From Flocq Require Import Core.
From Verif Require Import Num FloatLib.
Open Scope R_scope.

(** A field between the doubles [mn] and [mx], of values [MN] and [MX]: at least
    2^-100 apart, and of size at most [M], itself at most 2^100. *)
Definition real_field (mn mx : f64) (MN MX M : R) : Prop :=
  isf mn MN /\ isf mx MX /\ bpow radix2 (-100) <= MX - MN /\ Rabs MN <= M /\ Rabs MX <= M /\ M <= bpow radix2 100.
(** The sizes in bytes that a field can have, and its number of steps. *)
Definition field_width (size : nat) : Prop := (size = 1 \/ size = 2 \/ size = 4 \/ size = 8)%nat.
Definition field_steps (size : nat) (nullable : bool) : Z := (256 ^ Z.of_nat size - (if nullable then 1 else 0))%Z.
