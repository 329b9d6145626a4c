(** Model of the texts coral's objects print as: __repr__ and __str__ of BBox,
    Buffer, IVar, FVar and SVar, and of BBox's argument count. *)
From Coq Require Import QArith.
From Verif Require Import Py Text StrModel BBoxModel BufferModel GridModel.
Open Scope Z_scope.

(** str() of a bool *)
Definition str_bool (b : bool) : list Z := if b then text "True" else text "False".

(** bbox.py:53-54; the corners are ints. *)
Definition bb_repr (b : bbox Z) : list Z :=
  text "BBox((" ++ str_int (bx0 b) ++ text ", " ++ str_int (by0 b) ++ text "), (" ++
  str_int (bx1 b) ++ text ", " ++ str_int (by1 b) ++ text "))".

(** coord.py:48-49 *)
Definition buf_repr {A} (b : buffer A) : list Z := text "Buffer(" ++ str_int (b_n b) ++ text ")".

(** " ".join *)
Fixpoint spaced (l : list (list Z)) : list Z :=
  match l with [] => [] | [w] => w | w :: r => w ++ 32 :: spaced r end.
(** str() of a slot of the buffer: an int, or None where nothing was stored *)
Definition str_slot (o : option Z) : list Z := match o with Some z => str_int z | None => text "None" end.
(** coord.py:51-61; the items are ints. *)
Definition buf_text (fuel : nat) (b : buffer Z) : option (res (list Z)) :=
  if b_isempty b then Some (Ok (text "<>"))
  else match b_str fuel b with
       | None => None
       | Some (Err e) => Some (Err e)
       | Some (Ok l) => Some (Ok (text "<" ++ spaced (map str_slot l) ++ text ">"))
       end.

(** grid.py:49-50; nullable is a bool. *)
Definition ivar_repr (f : ivar) : list Z :=
  text "IVar(" ++ str_int (i_min f) ++ text ", " ++ str_int (i_max f) ++ text ", " ++
  str_bool (i_nullable f) ++ text ")".
(** grid.py:52-56 *)
Definition ivar_str (f : ivar) : list Z :=
  if i_nullable f
  then text "integer " ++ i_name f ++ text " in [" ++ str_int (i_min f) ++ text "; " ++ str_int (i_max f) ++ text "] or null"
  else text "integer " ++ i_name f ++ text " in [" ++ str_int (i_min f) ++ text "; " ++ str_int (i_max f) ++ text "]".

(** str() of a bound of an FVar; only bounds that are ints are modelled. *)
Definition str_bound (q : Q) : list Z := str_int (Qnum q / Zpos (Qden q)).
(** grid.py:94-95 *)
Definition fvar_repr (f : fvar) : list Z :=
  text "FVar(" ++ str_bound (f_min f) ++ text ", " ++ str_bound (f_max f) ++ text ", " ++
  str_int (Z.of_nat (f_size f)) ++ text ", " ++ str_bool (f_nullable f) ++ text ")".
(** grid.py:97-101 *)
Definition fvar_str (f : fvar) : list Z :=
  if f_nullable f
  then text "real " ++ f_name f ++ text " in [" ++ str_bound (f_min f) ++ text "; " ++ str_bound (f_max f) ++ text "] or null"
  else text "real " ++ f_name f ++ text " in [" ++ str_bound (f_min f) ++ text "; " ++ str_bound (f_max f) ++ text "]".

(** grid.py:130-131 *)
Definition svar_repr (f : svar) : list Z :=
  text "SVar(" ++ str_int (Z.of_nat (s_size f)) ++ text ", " ++ str_bool (s_nullable f) ++ text ")".
(** grid.py:133-137 *)
Definition svar_str (f : svar) : list Z :=
  if s_nullable f
  then text "string " ++ s_name f ++ text " of " ++ str_int (Z.of_nat (s_size f)) ++ text " bytes or null"
  else text "string " ++ s_name f ++ text " of " ++ str_int (Z.of_nat (s_size f)) ++ text " bytes".

(** ** The constructors, called with arguments that are ints, bools and tuples *)
Inductive pyval : Type := PInt (z : Z) | PBool (b : bool) | PTuple (l : list pyval).

(** A bool is an int. *)
Definition as_int (v : pyval) : res Z :=
  match v with PInt z => Ok z | PBool b => Ok (b2z b) | PTuple _ => Err TypeError end.
(** x, y = v, where x and y are ints; a tuple of tuples is refused here,
    Python would store it. *)
Definition as_point (v : pyval) : res (Z * Z) :=
  match v with
  | PTuple [a; b] => x <- as_int a ;; y <- as_int b ;; Ok (x, y)
  | PTuple _ => Err ValueError
  | _ => Err TypeError
  end.
Fixpoint as_points (l : list pyval) : res (list (Z * Z)) :=
  match l with [] => Ok [] | v :: r => p <- as_point v ;; q <- as_points r ;; Ok (p :: q) end.
(** bbox.py:40-44 for ints *)
Definition grow_z (b : bbox Z) (p : Z * Z) : bbox Z :=
  let '(x, y) := p in
  let '(x0, x1) := if x <? bx0 b then (x, bx1 b) else if bx1 b <? x then (bx0 b, x) else (bx0 b, bx1 b) in
  let '(y0, y1) := if y <? by0 b then (y, by1 b) else if by1 b <? y then (by0 b, y) else (by0 b, by1 b) in
  mkbb x0 y0 x1 y1.
(** bbox.py:33-51 *)
Definition bb_init (args : list pyval) : res (bbox Z) :=
  match args with
  | [] => Ok (mkbb 0 0 0 0)
  | [PTuple l] =>
      ps <- as_points l ;;
      match ps with [] => Err StopIteration | p :: r => Ok (fold_left grow_z r (mkbb (fst p) (snd p) (fst p) (snd p))) end
  | [_] => Err TypeError
  | [a; b] => p <- as_point a ;; q <- as_point b ;; Ok (mkbb (fst p) (snd p) (fst q) (snd q))
  | _ => Err BareException
  end.

(** coord.py:40-46; n & (n - 1) needs an int. *)
Definition buf_init {A} (args : list pyval) : res (buffer A) :=
  match args with [a] => n <- as_int a ;; buf_new n | _ => Err TypeError end.

(** The first argument of the variables is only stored and printed; a number
    there is kept as its text. *)
Definition as_name (v : pyval) : list Z :=
  match v with PInt z => str_int z | PBool b => str_bool b | PTuple _ => [] end.
Definition as_bool (v : pyval) : bool :=
  match v with PInt z => negb (z =? 0) | PBool b => b | PTuple l => match l with [] => false | _ => true end end.
(** grid.py:28 *)
Definition ivar_init (args : list pyval) : res ivar :=
  match args with
  | [n; a; b] => x <- as_int a ;; y <- as_int b ;; ivar_new (as_name n) x y false
  | [n; a; b; c] => x <- as_int a ;; y <- as_int b ;; ivar_new (as_name n) x y (as_bool c)
  | _ => Err TypeError
  end.
(** grid.py:80 *)
Definition fvar_init (args : list pyval) : res fvar :=
  match args with
  | [n; a; b; s] => x <- as_int a ;; y <- as_int b ;; z <- as_int s ;; fvar_new (as_name n) (inject_Z x) (inject_Z y) z false
  | [n; a; b; s; c] => x <- as_int a ;; y <- as_int b ;; z <- as_int s ;; fvar_new (as_name n) (inject_Z x) (inject_Z y) z (as_bool c)
  | _ => Err TypeError
  end.
(** grid.py:125-128; a negative size is kept as 0. *)
Definition svar_init (args : list pyval) : res svar :=
  match args with
  | [n; a] => x <- as_int a ;; Ok (mksvar (as_name n) (Z.to_nat x) false)
  | [n; a; c] => x <- as_int a ;; Ok (mksvar (as_name n) (Z.to_nat x) (as_bool c))
  | _ => Err TypeError
  end.
