(** Vocabulary for reading bytes that no Writer has produced. *)
From Verif Require Import Py PfModel.
Open Scope Z_scope.

(** Where the points of entity [idx] start (negative: counted from the end):
    after those of the entities before it, two codes of [r_size] bytes each. *)
Definition start_of {T} (rd : preader T) (idx : Z) : Z :=
  r_datapos rd + 2 * r_size rd * zsum (map zsum (firstn (Z.to_nat (if idx <? 0 then Z.of_nat (length (r_partlens rd)) + idx else idx)) (r_partlens rd))).
