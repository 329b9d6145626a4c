(** What a text with numbers in it means to Python's eval(). *)
From Coq Require Import SpecFloat.
From Flocq Require Import IEEE754.BinarySingleNaN.
From Verif Require Import Py Num Text BBoxModel ShpTableSpec ShpCellSpec FloatTextModel FloatTextSpec NumTextModel.
Open Scope Z_scope.

(** [t] is a numeral, perhaps after a sign, and evaluates to the number: a
    float if there is a point or an exponent, an int otherwise. An int other
    than 0 does not begin with 0. The names nan and inf are no numerals. *)
Definition numeral (t : list Z) (x : number) : Prop :=
  match x with
  | Int z => int_value t z /\ (z = 0 \/ exists g c d, t = g ++ c :: d /\ sign g /\ 49 <= c <= 57)
  | Float d => (exists neg n k, decimal t neg n k) /\ (In 46 t \/ In 101 t \/ In 69 t) /\ float64 t = Ok d
  end.
(** eval() of the text makes this box. *)
Definition box_means (s : list Z) (b : bbox number) : Prop :=
  exists t0 t1 t2 t3, s = text "BBox((" ++ t0 ++ text ", " ++ t1 ++ text "), (" ++ t2 ++ text ", " ++ t3 ++ text "))" /\
    numeral t0 (bx0 b) /\ numeral t1 (by0 b) /\ numeral t2 (bx1 b) /\ numeral t3 (by1 b).
(** An int, or one of the doubles there are *)
Definition a_number (x : number) : Prop := match x with Int _ => True | Float d => valid_binary 53 1024 d = true end.
(** Neither an infinity nor not-a-number *)
Definition finite_number (x : number) : Prop :=
  match x with
  | Int _ => True
  | Float (S754_infinity _) | Float S754_nan => False
  | Float d => valid_binary 53 1024 d = true
  end.
Definition corners (P : number -> Prop) (b : bbox number) : Prop := P (bx0 b) /\ P (by0 b) /\ P (bx1 b) /\ P (by1 b).
