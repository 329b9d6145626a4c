(** The number a decimal text stands for. *)
From Coq Require Import Reals.
From Verif Require Import Py Text ShpTableSpec ShpCellSpec.
Open Scope Z_scope.

(** How many digits, underscores not counted *)
Definition digit_count (s : list Z) : Z := Z.of_nat (length (filter (fun c => negb (c =? 95)) s)).
(** The digits of [m] read [n], and [j] of them stand after the point. *)
Definition mantissa_is (m : list Z) (n j : Z) : Prop :=
  (digits m /\ n = digits_value m /\ j = 0) \/ (exists a, digits a /\ m = a ++ text "." /\ n = digits_value a /\ j = 0) \/
  (exists b, digits b /\ m = text "." ++ b /\ n = digits_value b /\ j = digit_count b) \/
  (exists a b, digits a /\ digits b /\ m = a ++ text "." ++ b /\ n = digits_value (a ++ b) /\ j = digit_count b).
Definition exponent_is (e : list Z) (z : Z) : Prop :=
  (e = [] /\ z = 0) \/ exists g d, sign g /\ digits d /\ (e = text "e" ++ g ++ d \/ e = text "E" ++ g ++ d) /\
    ((g = text "-" /\ z = - digits_value d) \/ (g <> text "-" /\ z = digits_value d)).
(** [s] stands for n * 10^k, or for its opposite if [neg]. *)
Definition decimal (s : list Z) (neg : bool) (n k : Z) : Prop :=
  exists g m e j z, s = g ++ m ++ e /\ sign g /\ (neg = true <-> g = text "-") /\ mantissa_is m n j /\ exponent_is e z /\ k = z - j.
Definition dec_value (neg : bool) (n k : Z) : R := ((if neg then -1 else 1) * (IZR n * powerRZ 10 k))%R.
Definition stands_for (s : list Z) (x : R) : Prop := exists neg n k, decimal s neg n k /\ x = dec_value neg n k.
(** From here on (2^54 - 1) * 2^970 upwards there is no nearest finite double. *)
Definition too_large (x : R) : Prop := (Rabs x >= IZR (2 ^ 1024 - 2 ^ 970))%R.
(** The numbers that finite doubles have *)
Definition double_number (x : R) : Prop :=
  exists m e, (Z.abs m < 2 ^ 53 /\ -1074 <= e <= 971) /\ x = (IZR m * powerRZ 2 e)%R.
