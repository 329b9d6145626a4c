(** Model of coral/stats.py with doubles: [StatsModel] is generic in the
    numbers; this gives the two library functions it uses. *)
From Coq Require Import ZArith List SpecFloat.
From Verif Require Import Num StatsModel.
Import ListNotations.
Open Scope Z_scope.

(** A finite double as a multiple of 2^-1074; used by [f_fsum] (stats.py:33). *)
Definition f_units (x : f64) : Z :=
  match x with
  | S754_finite s m e => (if s then -1 else 1) * (Zpos m * 2 ^ (e + 1074))
  | _ => 0
  end.
(** math.fsum (stats.py:33), documented to return the sum rounded once. Not
    modelled: infinities, nan and OverflowError. *)
Definition f_fsum (l : list f64) : f64 :=
  binary_normalize 53 1024 (fold_right Z.add 0 (map f_units l)) (-1074) false.
(** math.sqrt (stats.py:47). Not modelled: nan. *)
#[export] Instance StatF : PyStat f64 := {
  nfsum := f_fsum;
  nsqrt := fun x => if nlt x (nofZ 0) then Err ValueError else Ok (SFsqrt 53 1024 x)
}.
