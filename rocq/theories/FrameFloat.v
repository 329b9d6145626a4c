(** The centre of a frame in doubles: proj.py:72-73 keeps math.radians of the
    origin, frame.py:66-67 writes math.degrees of it, and loading takes
    math.radians again. CPython multiplies by the constants pi/180 and 180/pi. *)
From Coq Require Import SpecFloat.
From Verif Require Import Num ProjFloat.
Open Scope Z_scope.

Definition radiansF (x : f64) : f64 := fmul x (fdiv pi64 (fofZ 180)).
Definition degreesF (x : f64) : f64 := fmul x (fdiv (fofZ 180) pi64).
(** What is stored in the file for an origin, and what is kept after loading *)
Definition saved_centre (origin : f64) : f64 := degreesF (radiansF origin).
Definition loaded_centre (origin : f64) : f64 := radiansF (saved_centre origin).

(** Three degrees are written as 3.0000000000000004. *)
Lemma three : saved_centre (fofZ 3) = f_of 6755399441055745 (-51).
Proof. vm_compute. reflexivity. Qed.
(** For -114 degrees the value kept by the projection changes. *)
Lemma minus_114 : SFeqb (loaded_centre (fofZ (-114))) (radiansF (fofZ (-114))) = false /\
  SFltb (loaded_centre (fofZ (-114))) (radiansF (fofZ (-114))) = true.
Proof. vm_compute. auto. Qed.
