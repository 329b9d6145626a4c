(** str() of a float, which shapefile.py writes into attribute tables. *)
From Coq Require Import SpecFloat.
From Verif Require Import Py Num Text StrModel FloatTextModel.
Open Scope Z_scope.

(** m * 2^e / 10^k as a fraction *)
Definition scaled (m e k : Z) : Z * Z :=
  let '(p, q) := if 0 <=? e then (m * 2 ^ e, 1) else (m, 2 ^ (- e)) in
  if 0 <=? k then (p, q * 10 ^ k) else (p * 10 ^ (- k), q).
(** The least exponent from K on with m * 2^e < 10^K *)
Fixpoint find_exp (fuel : nat) (m e K : Z) : Z :=
  match fuel with
  | O => K
  | S f => let '(a, b) := scaled m e K in if a <? b then K else find_exp f m e (K + 1)
  end.
Definition reads_as (n k : Z) (m : positive) (e : Z) : bool :=
  match decimal64 false n k with
  | S754_finite false m' e' => (m' =? m)%positive && (e' =? e)
  | _ => false
  end.
(** The fewest digits that read as m * 2^e, and of those the nearest *)
Fixpoint shortest (fuel : nat) (m : positive) (e p K : Z) : Z * Z :=
  match fuel with
  | O => (0, 0)
  | S f =>
      let k := K - p in
      let '(a, b) := scaled (Zpos m) e k in
      let lo := a / b in
      let '(c1, c2) := if 2 * (a mod b) <=? b then (lo, lo + 1) else (lo + 1, lo) in
      if reads_as c1 k m e then (c1, k) else if reads_as c2 k m e then (c2, k) else shortest f m e (p + 1) K
  end.
Definition zeros (n : Z) : list Z := repeat 48 (Z.to_nat n).
Definition exponent_text (x : Z) : list Z :=
  let s := dec_nat (Z.abs x) in
  (if x <? 0 then text "-" else text "+") ++ (if (length s <? 2)%nat then 48 :: s else s).
(** Layout of the digits n with the exponent k: with an exponent if the point
    stands more than 16 digits after, or 4 digits before the first digit. *)
Definition layout (n k : Z) : list Z :=
  let s := dec_nat n in
  let t := rstrip_by (fun c => c =? 48) s in
  let pt := k + Z.of_nat (length s) in
  let l := Z.of_nat (length t) in
  if (-4 <? pt) && (pt <=? 16) then
    if pt <=? 0 then text "0." ++ zeros (- pt) ++ t
    else if pt <? l then firstn (Z.to_nat pt) t ++ text "." ++ skipn (Z.to_nat pt) t
    else (t ++ zeros (pt - l)) ++ text ".0"
  else (firstn 1 t ++ match skipn 1 t with [] => [] | f => text "." ++ f end) ++ text "e" ++ exponent_text (pt - 1).
(** shapefile.py:916, 918 and 920: str(value) of a float. This is CPython's repr: the shortest
    text that reads as the float. *)
Definition repr64 (d : f64) : list Z :=
  let minus (s : bool) := if s then text "-" else [] in
  match d with
  | S754_nan => text "nan"
  | S754_infinity s => minus s ++ text "inf"
  | S754_zero s => minus s ++ text "0.0"
  | S754_finite s m e =>
      let '(n, k) := shortest 17 m e 1 (find_exp 700 (Zpos m) e (-330)) in minus s ++ layout n k
  end.
(** str(float(txt)), as [float_repr] of ShpWriterModel *)
Definition float_str (txt : list Z) : list Z := match float64 txt with Ok d => repr64 d | Err _ => txt end.
