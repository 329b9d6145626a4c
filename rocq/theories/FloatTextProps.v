(** C139: the doubles that texts of decimal numbers stand for. *)
From Coq Require Import ZArith Reals SpecFloat Lia Lra.
From Flocq Require Import Core IEEE754.BinarySingleNaN.
From Verif Require Import Py Num Text FloatLib ShpFile ShpWriterModel ShpReaderModel ShpTableSpec ShpCellSpec FloatTextModel FloatTextSpec FloatTextRound FloatTextOrder.
Open Scope Z_scope.

(** The texts of numbers, and all others are a ValueError. *)
Theorem C139_texts : forall s, float_text s <-> (exists x, stands_for s x) \/ exists g m, s = g ++ m /\ sign g /\ special m.
Proof. exact float_texts. Qed.
Theorem C139_rejects : forall s e, float64 s = Err e <-> e = ValueError /\ ~ float_text s.
Proof. exact float_rejects. Qed.
Theorem C139_special : forall g m (neg : bool), sign g -> (neg = true <-> g = text "-") ->
  (Forall2 letter (text "inf") m \/ Forall2 letter (text "infinity") m -> float64 (g ++ m) = Ok (S754_infinity neg)) /\
  (Forall2 letter (text "nan") m -> float64 (g ++ m) = Ok S754_nan).
Proof. exact float_special. Qed.
(** No number of a double is nearer; [rnd] settles ties by the even one. *)
Theorem C139_nearest : forall s x, stands_for s x -> ~ too_large x ->
  exists d r, float64 s = Ok d /\ isf d r /\ double_number r /\ r = rnd x /\ forall f, double_number f -> (Rabs (r - x) <= Rabs (f - x))%R.
Proof. exact float_nearest. Qed.
Theorem C139_overflow : forall s neg n k, decimal s neg n k -> too_large (dec_value neg n k) -> float64 s = Ok (S754_infinity neg).
Proof. exact float_overflow. Qed.
Theorem C139_sign : forall s neg n k, decimal s neg n k -> exists d, float64 s = Ok d /\ sign_SF d = neg.
Proof. exact float_sign. Qed.
(** A number some double has is read without error. *)
Theorem C139_exact : forall s d r x, stands_for s r -> isf x r -> float64 s = Ok d -> isf d r.
Proof. exact float_exact. Qed.
Theorem C139_order : forall s t x y d e, stands_for s x -> stands_for t y -> float64 s = Ok d -> float64 t = Ok e -> (x <= y)%R -> SFleb d e = true.
Proof. exact float_order. Qed.
Theorem C139_same : forall s t x d e, stands_for s x -> stands_for t x -> x <> 0%R -> float64 s = Ok d -> float64 t = Ok e -> d = e.
Proof. exact float_same. Qed.
(** Seventeen digits of a double are read as this double. *)
Theorem C139_back : forall s neg n k d r, decimal s neg n k -> 10 ^ 16 <= n -> isf d r ->
  (Rabs (dec_value neg n k - r) <= / 2 * powerRZ 10 k)%R -> float64 s = Ok d.
Proof. exact float_back. Qed.
(** Numbers of up to fifteen digits, with equally many decimal places, stay apart
    and in order. *)
Theorem C139_strict : forall s t neg n neg' n' k d e, decimal s neg n k -> decimal t neg' n' k -> n <= 10 ^ 15 -> n' <= 10 ^ 15 -> -300 <= k <= 280 ->
  float64 s = Ok d -> float64 t = Ok e -> (dec_value neg n k < dec_value neg' n' k)%R -> SFltb d e = true.
Proof. exact float_strict. Qed.
(** Every decimal number that the reader of attribute tables returns has a value. *)
Theorem C139_cell : forall f bs t, read_cell f bs = Ok (CFloat t) -> exists d, float64 t = Ok d.
Proof. exact float_cell. Qed.
Theorem C139_case :
  float64 (text "118.69") = Ok (S754_finite false 8352066246446940 (-46)) /\ float64 (text "-1_186.9e-1") = Ok (S754_finite true 8352066246446940 (-46)) /\
  float64 (text "0.1") = Ok (S754_finite false 7205759403792794 (-56)) /\ float64 (text "5e-324") = Ok (S754_finite false 1 (-1074)) /\
  float64 (text "2e-324") = Ok (S754_zero false) /\ float64 (text "-0.") = Ok (S754_zero true) /\
  float64 (text "1.797693134862315807e308") = Ok (S754_finite false 9007199254740991 971) /\ float64 (text "1.797693134862315808e308") = Ok (S754_infinity false) /\
  float64 (text "9007199254740993") = Ok (S754_finite false 4503599627370496 1) /\ float64 (text "-iNf") = Ok (S754_infinity true) /\ float64 (text "1e") = Err ValueError.
Proof. vm_compute. repeat split. Qed.
Example C139_case_tenth : float64 (text "0.10000000000000001") = Ok (S754_finite false 7205759403792794 (-56)).
Proof. refine (C139_back _ _ _ _ _ _ tenth_text _ tenth_double tenth_close). lia. Qed.

Print Assumptions C139_texts.
Print Assumptions C139_rejects.
Print Assumptions C139_special.
Print Assumptions C139_nearest.
Print Assumptions C139_overflow.
Print Assumptions C139_sign.
Print Assumptions C139_exact.
Print Assumptions C139_order.
Print Assumptions C139_same.
Print Assumptions C139_back.
Print Assumptions C139_strict.
Print Assumptions C139_cell.
Print Assumptions C139_case.
