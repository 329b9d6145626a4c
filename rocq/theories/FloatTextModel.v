(** float(bytes), as shapefile.py:516 calls it, with its value as a double. *)
From Coq Require Import SpecFloat.
From Verif Require Import Py Num Text StrModel ShpReaderModel.
Open Scope Z_scope.

(** The double nearest to p / q, even in case of a tie. *)
Definition ratio64 (neg : bool) (p q : positive) : f64 :=
  let '(m, e, l) := SFdiv_core_binary 53 1024 (Zpos p) 0 (Zpos q) 0 in binary_round_aux 53 1024 neg m e l.
(** n * 10^k *)
Definition decimal64 (neg : bool) (n k : Z) : f64 :=
  match n with
  | Zpos p =>
      match k with
      | Zneg q => ratio64 neg p (10 ^ q)
      | _ => ratio64 neg (Z.to_pos (n * 10 ^ k)) 1
      end
  | _ => S754_zero neg
  end.
Definition digits_num (s : list Z) : Z := fold_left (fun acc c => 10 * acc + (c - 48)) s 0.
Definition starts_minus (s : list Z) : bool := match s with 45 :: _ => true | _ => false end.
(** What follows the mantissa: nothing, or e with a sign and digits. *)
Definition exponent_num (s : list Z) : Z :=
  match s with
  | [] => 0
  | _ :: r => let d := digits_num (skip_sign r) in if starts_minus r then - d else d
  end.
(** shapefile.py:516: float(value) of bytes without white space at the ends;
    CPython rounds the decimal number correctly. The texts accepted are those
    of [float_ok] (ShpReaderModel). *)
Definition float64 (s : list Z) : res f64 :=
  match drop_underscores false s with
  | None => Err ValueError
  | Some t =>
      let neg := starts_minus t in
      let u := skip_sign t in
      let w := map lower_letter u in
      if zlist_eqb w (text "inf") || zlist_eqb w (text "infinity") then Ok (S754_infinity neg)
      else if zlist_eqb w (text "nan") then Ok S754_nan
      else
        let '(i, r) := span_digits u in
        let '(f, r') := match r with 46 :: r1 => span_digits r1 | _ => ([], r) end in
        if nonempty (i ++ f) && exponent_ok r'
        then Ok (decimal64 neg (digits_num (i ++ f)) (exponent_num r' - Z.of_nat (length f)))
        else Err ValueError
  end.
