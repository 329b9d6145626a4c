(** Vocabulary of the grid statements, independent of the model. *)
From Coq Require Import ZArith List QArith.
Import ListNotations.
Open Scope Z_scope.

(** The field widths, in bytes. *)
Definition widths : list Z := [1; 2; 4; 8].
(** Number of codes an integer field over [mn, mx] needs. *)
Definition codes_needed (mn mx : Z) (nullable : bool) : Z :=
  mx - mn + 1 + (if nullable then 1 else 0).
(** Number of steps a real field of [size] bytes divides its range into. *)
Definition steps (size : Z) (nullable : bool) : Z := 256 ^ size - (if nullable then 1 else 0).
(** Half of one step. *)
Definition half_step (mn mx : Q) (size : Z) (nullable : bool) : Q :=
  ((mx - mn) / inject_Z (2 * steps size nullable))%Q.

(** Unicode scalar values and their UTF-8 width (RFC 3629). *)
Definition scalar (c : Z) : Prop := 0 <= c <= 55295 \/ 57344 <= c <= 1114111.
Definition utf8_width (c : Z) : nat :=
  if c <=? 127 then 1%nat else if c <=? 2047 then 2%nat else if c <=? 65535 then 3%nat else 4%nat.
Definition utf8_size (s : list Z) : nat := list_sum (map utf8_width s).
Definition ends_in_nul (s : list Z) : Prop := exists t, s = t ++ [0].
