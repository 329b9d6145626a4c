(** What a progress meter shows. *)
From Coq Require Import ZArith List.
From Verif Require Import Py Num StrModel TqdmModel.
Import ListNotations.
Open Scope Z_scope.

(** [|###-------| n/t  p% ...] with [b] of ten marks *)
Definition shows (s : list Z) (n t b p : Z) : Prop :=
  0 <= b <= 10 /\
  exists rest, s = 124 :: repeat 35 (Z.to_nat b) ++ repeat 45 (Z.to_nat (10 - b)) ++ [124; 32] ++ str_int n ++ 47 :: str_int t ++ 32 :: pad_left 3 32 (str_int p) ++ 37 :: rest.
(** The elapsed and the remaining time are finite. *)
Definition timed (n t : Z) (elapsed : f64) : Prop :=
  (exists es, format_interval elapsed = Ok es) /\
  (n = 0 \/ exists ls, format_interval (fmul (fdiv elapsed (fofZ n)) (fofZ (t - n))) = Ok ls).
(** Exactly 29, 57 or 58 percent of t *)
Definition odd_share (n t : Z) : Prop := 100 * n = 29 * t \/ 100 * n = 57 * t \/ 100 * n = 58 * t.
