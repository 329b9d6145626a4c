(** Polyline simplification on doubles (coral/coord.py). The coordinates and the
    size of the cells are doubles; from the cells on, everything is integers and
    [SimplifyModel] is used as it is. *)
From Coq Require Import SpecFloat.
From Verif Require Import Py Num BufferModel SimplifyModel.
Open Scope Z_scope.

(** int(x) of a float: of an infinity it raises OverflowError, of a NaN ValueError. *)
Definition int64 (x : f64) : res Z :=
  match x with
  | S754_infinity _ => Err OverflowError
  | S754_nan => Err ValueError
  | _ => Ok (f_trunc x)
  end.
(** coord.py:36, nearest(x) = int(x + copysign(0.5, x)) *)
Definition nearest64 (x : f64) : res Z :=
  int64 (fadd x (if f_sign x then f_of (-1) (-1) else f_of 1 (-1))).
(** x / m *)
Definition div64 (x m : f64) : res f64 := if SFeqb m (fofZ 0) then Err ZeroDivisionError else Ok (fdiv x m).
(** coord.py:243-247, one point *)
Definition cell64 (m : f64) (xy : f64 * f64) : res (Z * Z) :=
  (u <- div64 (fst xy) m ;; i <- nearest64 u ;; v <- div64 (snd xy) m ;; j <- nearest64 v ;; Ok (i, j))%res.
(** coord.py:303-308. The code works lazily; what it yields before it meets a
    point that raises is not modelled. *)
Definition simplify64 (fuel : nat) (xys : list (f64 * f64)) (scl : f64) (closed : bool) (k : Z) : option gen :=
  match mapM (cell64 scl) xys with
  | Err e => match @buf_new pt k with Err e' => Some ([], Err e') | Ok _ => Some ([], Err e) end
  | Ok s => if closed then closed_no_slit fuel s k else open_no_slit fuel s k
  end.
