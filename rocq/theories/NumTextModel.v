(** The texts of boxes and real variables whose corners and bounds are ints
    or floats. *)
From Verif Require Import Py Num Text StrModel BBoxModel ReprModel FloatReprModel.
Open Scope Z_scope.

(** A Python int or float *)
Inductive number : Type := Int (z : Z) | Float (d : f64).
(** What str.format() makes of one; without a format it is str(). *)
Definition num_str (x : number) : list Z := match x with Int z => str_int z | Float d => repr64 d end.
(** bbox.py:53-54 *)
Definition box_repr (b : bbox number) : list Z :=
  text "BBox((" ++ num_str (bx0 b) ++ text ", " ++ num_str (by0 b) ++ text "), (" ++
  num_str (bx1 b) ++ text ", " ++ num_str (by1 b) ++ text "))".
(** grid.py:77-92: the attributes of FVar that its texts show *)
Record real : Type := mkreal { r_name : list Z; r_min : number; r_max : number; r_size : Z; r_null : bool }.
(** grid.py:94-95 *)
Definition real_repr (f : real) : list Z :=
  text "FVar(" ++ num_str (r_min f) ++ text ", " ++ num_str (r_max f) ++ text ", " ++
  str_int (r_size f) ++ text ", " ++ str_bool (r_null f) ++ text ")".
(** grid.py:97-101 *)
Definition real_str (f : real) : list Z :=
  if r_null f
  then text "real " ++ r_name f ++ text " in [" ++ num_str (r_min f) ++ text "; " ++ num_str (r_max f) ++ text "] or null"
  else text "real " ++ r_name f ++ text " in [" ++ num_str (r_min f) ++ text "; " ++ num_str (r_max f) ++ text "]".
