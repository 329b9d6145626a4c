(** C141: boxes and real variables with floats, in print. *)
From Coq Require Import ZArith SpecFloat.
From Flocq Require Import IEEE754.BinarySingleNaN.
From Verif Require Import Py Num Text BBoxModel FloatTextModel FloatReprModel NumTextModel NumTextSpec NumText.
Open Scope Z_scope.

(** A text makes at most one box. *)
Theorem C141_one_meaning : forall s b b', box_means s b -> box_means s b' -> b = b'.
Proof. exact box_means_one. Qed.
(** eval(repr(box)) has the very corners of the box, and of the same types; *)
Theorem C141_box : forall b, corners finite_number b -> box_means (box_repr b) b.
Proof. exact box_repr_back. Qed.
(** but the text of a box with an infinite or undefined corner makes none. *)
Theorem C141_box_refuted : forall b b', corners a_number b -> ~ corners finite_number b -> ~ box_means (box_repr b) b'.
Proof. exact box_lost. Qed.
(** Still, any two boxes have different texts, *)
Theorem C141_box_text : forall b b', corners a_number b -> corners a_number b' -> box_repr b = box_repr b' -> b = b'.
Proof. exact box_apart. Qed.
(** and any two real variables that differ in what the texts show. *)
Theorem C141_real_text : forall f g, a_number (r_min f) -> a_number (r_max f) -> a_number (r_min g) -> a_number (r_max g) -> real_str f = real_str g ->
  r_name f = r_name g /\ r_min f = r_min g /\ r_max f = r_max g /\ r_null f = r_null g.
Proof. exact real_str_apart. Qed.
Theorem C141_real_repr : forall f g, a_number (r_min f) -> a_number (r_max f) -> a_number (r_min g) -> a_number (r_max g) -> real_repr f = real_repr g ->
  r_min f = r_min g /\ r_max f = r_max g /\ r_size f = r_size g /\ r_null f = r_null g.
Proof. exact real_repr_apart. Qed.
(** A number's text evaluates to the number. *)
Theorem C141_number : forall x, finite_number x -> forall y, numeral (num_str x) y <-> y = x.
Proof. intros x F y. split; [intros H; exact (numeral_one _ _ _ H (num_back x F))|intros ->; exact (num_back x F)]. Qed.

(** BBox((-180, 0.1), (1e+16, -0.0)) *)
Definition tenth : f64 := S754_finite false 7205759403792794 (-56).
Definition a_box : bbox number := mkbb (Int (-180)) (Float tenth) (Float (S754_finite false 5000000000000000 1)) (Float (S754_zero true)).
Example C141_box_case : corners finite_number a_box /\ box_repr a_box = text "BBox((-180, 0.1), (1e+16, -0.0))".
Proof. split; [repeat split; vm_compute; reflexivity|vm_compute; reflexivity]. Qed.
Example C141_refuted_case : let b := mkbb (Int 0) (Int 0) (Float (S754_infinity false)) (Int 1) in
  corners a_number b /\ ~ corners finite_number b /\ box_repr b = text "BBox((0, 0), (inf, 1))".
Proof. repeat split. intros (_ & _ & H & _). exact H. Qed.
Example C141_real_case : let f := mkreal (text "rain") (Int 0) (Float tenth) 2 true in
  (a_number (r_min f) /\ a_number (r_max f)) /\ real_str f = text "real rain in [0; 0.1] or null" /\ real_repr f = text "FVar(0, 0.1, 2, True)".
Proof. vm_compute. repeat split. Qed.

Print Assumptions C141_one_meaning.
Print Assumptions C141_box.
Print Assumptions C141_box_refuted.
Print Assumptions C141_box_text.
Print Assumptions C141_real_text.
Print Assumptions C141_real_repr.
Print Assumptions C141_number.
