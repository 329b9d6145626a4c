(** Compass directions and collinearity on doubles (coral/coord.py). *)
From Coq Require Import SpecFloat.
From Verif Require Import Py Num SimplifyModel SimplifyFloatModel GeoModel.
Open Scope Z_scope.

(** math.fmod(x, n) for a positive integer n up to 2^53: exact, with the sign
    of x. *)
Definition f_fmod (x : f64) (n : Z) : f64 :=
  match x with
  | S754_zero s => S754_zero s
  | S754_finite s m e =>
      let v := if s then Zneg m else Zpos m in
      if 0 <=? e then fofZ (Z.rem (v * 2 ^ e) n) else f_of (Z.rem v (n * 2 ^ (- e))) e
  | _ => S754_nan
  end.
(** x % n for a float x and a positive n (CPython, Objects/floatobject.c,
    float_rem): fmod, and n added to a negative remainder; a zero remainder
    gets the sign of n. *)
Definition f_mod (x : f64) (n : Z) : f64 :=
  let r := f_fmod x n in
  if SFeqb r (fofZ 0) then fofZ 0
  else if SFltb r (fofZ 0) then fadd r (fofZ n) else r.
(** coord.py:221-230 *)
Definition bearing2cardinal64 (b : f64) : res wind :=
  let b := f_mod (fadd b (fofZ 360)) 360 in
  let index := fdiv (fmul (fofZ 2) b) (fofZ 45) in
  (i <- nearest64 index ;; py_get cardinals (i mod 16))%res.
(** coord.py:232-234 *)
Definition bearing2hours64 (b : f64) : f64 :=
  let b := f_mod (fadd b (fofZ 360)) 360 in
  fsub (fofZ 12) (fdiv b (fofZ 30)).
(** coord.py:236-241 *)
Definition collinear64 (a b c : f64 * f64) : bool :=
  let '(xa, ya) := a in let '(xb, yb) := b in let '(xc, yc) := c in
  SFeqb (fmul (fsub xa xc) (fsub yb ya)) (fmul (fsub xa xb) (fsub yc ya)).
