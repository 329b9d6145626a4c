(** Rationals in lowest terms as a number system: exact, computable, and
    numerically equal numbers are equal. *)
From Coq Require Import Qcanon.
From Verif Require Import Num.

#[export] Instance NumQc : PyNum Qc := {
  nofZ := fun z => Q2Qc (inject_Z z);
  nadd := Qcplus; nsub := Qcminus; nmul := Qcmult; ndiv := Qcdiv;
  nlt := fun x y => Qlt_bool (this x) (this y); nle := fun x y => Qle_bool (this x) (this y);
  neq := fun x y => Qeq_bool (this x) (this y)
}.
Lemma neq_Qc (x y : Qc) : Num.neq x y = true <-> x = y.
Proof. cbn. rewrite Qeq_bool_iff. split; [apply Qc_is_canon|intros ->; reflexivity]. Qed.
