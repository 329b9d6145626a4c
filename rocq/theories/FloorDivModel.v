(** Cells of a raster: x // scale in double arithmetic. *)
From Coq Require Import SpecFloat.
From Verif Require Import Py Num.
Open Scope Z_scope.

(** math.fmod (C99): the exact remainder with the sign of x. The sign of a zero
    remainder, which floordiv64 does not look at, is not modelled. *)
Definition signed (s : bool) (m : positive) : Z := if s then Zneg m else Zpos m.
Definition f_rem (x y : f64) : f64 :=
  match x, y with
  | S754_zero s, S754_finite _ _ _ | S754_zero s, S754_infinity _ => S754_zero s
  | S754_finite s m e, S754_infinity _ => x
  | S754_finite s m e, S754_finite s' m' e' =>
      let f := Z.min e e' in
      f_of (Z.rem (signed s m * 2 ^ (e - f)) (signed s' m' * 2 ^ (e' - f))) f
  | _, _ => S754_nan
  end.
(** x // y of floats (CPython, Objects/floatobject.c, float_divmod) *)
Definition floordiv64 (x y : f64) : res f64 :=
  if SFeqb y (fofZ 0) then Err ZeroDivisionError
  else
    let md := f_rem x y in
    let div := fdiv (fsub x md) y in
    let div := if negb (SFeqb md (fofZ 0)) && xorb (SFltb y (fofZ 0)) (SFltb md (fofZ 0)) then fsub div (fofZ 1) else div in
    Ok (match div with
        | S754_finite _ _ _ =>
            let fl := fofZ (f_floor div) in
            if SFltb (f_of 1 (-1)) (fsub div fl) then fadd fl (fofZ 1) else fl
        | S754_zero _ => match fdiv x y with S754_zero s | S754_finite s _ _ | S754_infinity s => S754_zero s | S754_nan => S754_nan end
        | _ => div
        end).
(** frame.py:85-90 for a point that is already projected *)
Definition cell64 (scale : f64) (p : f64 * f64) : res (f64 * f64) :=
  (x <- floordiv64 (fst p) scale ;; y <- floordiv64 (snd p) scale ;; Ok (x, y))%res.
