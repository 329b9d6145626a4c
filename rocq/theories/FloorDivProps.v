(** C145: cells in double arithmetic. *)
From Coq Require Import ZArith Reals SpecFloat Lra Lia.
From Flocq Require Import Core IEEE754.BinarySingleNaN.
From Verif Require Import Py Num FloatLib FloorDivModel FloorDivSpec FloorDiv.
Open Scope R_scope.

(** The cell of a projected point is the one the point lies in, exactly, *)
Theorem C145_cells : forall s S p X Y, isf s S -> bpow radix2 (-900) <= S <= bpow radix2 900 -> coordinate (fst p) S X -> coordinate (snd p) S Y ->
  exists i j, cell64 s p = Ok (i, j) /\ cell_of i S X /\ cell_of j S Y.
Proof. exact cells. Qed.
(** which is only one; *)
Theorem C145_one_cell : forall i j S X, 0 < S -> cell_of i S X -> cell_of j S X -> exists k : Z, isf i (IZR k) /\ isf j (IZR k).
Proof. exact one_cell. Qed.
(** points further to the right or above never have smaller cells, *)
Theorem C145_order : forall i j S X X', 0 < S -> X <= X' -> cell_of i S X -> cell_of j S X' -> SFleb i j = true.
Proof. exact cell_mono. Qed.
(** and scale zero is refused. *)
Theorem C145_zero : forall p s, cell64 (S754_zero s) p = Err ZeroDivisionError.
Proof. exact zero_scale. Qed.
(** The floor of the quotient would not do: 1.0 / 0.1 is 10.0, but 1.0 lies in cell 9. *)
Theorem C145_quotient_refuted : exists x s X S, isf s S /\ bpow radix2 (-900) <= S <= bpow radix2 900 /\ coordinate x S X /\ ~ cell_of (fofZ (f_floor (fdiv x s))) S X.
Proof. exact quotient. Qed.

Example C145_case : floordiv64 (fofZ 1) tenth = Ok (fofZ 9) /\ fdiv (fofZ 1) tenth = fofZ 10 /\ floordiv64 (fofZ (-1)) tenth = Ok (fofZ (-10)) /\
  cell64 tenth (fofZ 1, fofZ (-7)) = Ok (fofZ 9, fofZ (-70)).
Proof. vm_compute. auto. Qed.
Example C145_case_hypotheses : isf tenth tenthR /\ bpow radix2 (-900) <= tenthR <= bpow radix2 900 /\ coordinate (fofZ 1) tenthR 1 /\ coordinate (fofZ (-7)) tenthR (-7).
Proof. exact tenth_fits. Qed.

Print Assumptions C145_cells.
Print Assumptions C145_one_cell.
Print Assumptions C145_order.
Print Assumptions C145_zero.
Print Assumptions C145_quotient_refuted.
