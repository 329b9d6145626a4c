(** Model of coral/bbox.py. *)
From Verif Require Import Num.
Open Scope Z_scope.

(** bbox.py:25-31, class BBox with slots x0, y0, x1, y1. *)
Record bbox (T : Type) : Type := mkbb { bx0 : T; by0 : T; bx1 : T; by1 : T }.
Arguments mkbb {T} bx0 by0 bx1 by1.
Arguments bx0 {T} b.
Arguments by0 {T} b.
Arguments bx1 {T} b.
Arguments by1 {T} b.

Section BBox.
  Context {T : Type} `{PyNum T}.

  (** bbox.py:35-36, BBox(). *)
  Definition bb_empty : bbox T := mkbb (nofZ 0) (nofZ 0) (nofZ 0) (nofZ 0).

  (** bbox.py:45-48, BBox(p0, p1). *)
  Definition bb_corners (p0 p1 : T * T) : bbox T :=
    mkbb (fst p0) (snd p0) (fst p1) (snd p1).

  (** bbox.py:40-44, body of the loop over the remaining points. *)
  Definition bb_grow (b : bbox T) (p : T * T) : bbox T :=
    let '(x, y) := p in
    let '(x0, x1) :=
      if nlt x (bx0 b) then (x, bx1 b)
      else if nlt (bx1 b) x then (bx0 b, x)
      else (bx0 b, bx1 b) in
    let '(y0, y1) :=
      if nlt y (by0 b) then (y, by1 b)
      else if nlt (by1 b) y then (by0 b, y)
      else (by0 b, by1 b) in
    mkbb x0 y0 x1 y1.

  (** bbox.py:37-44, BBox(iterable); next() on an exhausted iterator raises
      StopIteration. *)
  Definition bb_of_points (points : list (T * T)) : res (bbox T) :=
    match points with
    | [] => Err StopIteration
    | p :: r => Ok (fold_left bb_grow r (bb_corners p p))
    end.

  (** bbox.py:120-130. *)
  Definition bb_width (b : bbox T) : T := nsub (bx1 b) (bx0 b).
  Definition bb_height (b : bbox T) : T := nsub (by1 b) (by0 b).
  Definition bb_area (b : bbox T) : T :=
    nmul (nsub (bx1 b) (bx0 b)) (nsub (by1 b) (by0 b)).

  (** bbox.py:65-66, __bool__: a number is true unless it equals 0. *)
  Definition bb_bool (b : bbox T) : bool := negb (neq (bb_area b) (nofZ 0)).

  (** bbox.py:68-75. *)
  Definition bb_or (a b : bbox T) : bbox T :=
    if negb (bb_bool a) then b
    else if negb (bb_bool b) then a
    else mkbb (nmin (bx0 a) (bx0 b)) (nmin (by0 a) (by0 b))
              (nmax (bx1 a) (bx1 b)) (nmax (by1 a) (by1 b)).

  (** bbox.py:77-86. *)
  Definition bb_and (a b : bbox T) : bbox T :=
    if negb (bb_bool a) || negb (bb_bool b) then bb_empty
    else
      let x0 := nmax (bx0 a) (bx0 b) in
      let y0 := nmax (by0 a) (by0 b) in
      let x1 := nmin (bx1 a) (bx1 b) in
      let y1 := nmin (by1 a) (by1 b) in
      if nle x1 x0 || nle y1 y0 then bb_empty
      else mkbb x0 y0 x1 y1.

  (** bbox.py:136-139. *)
  Definition bb_has_point (b : bbox T) (p : T * T) : bool :=
    let '(x, y) := p in
    (nle (bx0 b) x && nlt x (bx1 b)) && (nle (by0 b) y && nlt y (by1 b)).

  (** bbox.py:141-145. *)
  Definition bb_has_bbox (b other : bbox T) : bool :=
    let p0 := (bx0 other, by0 other) in
    let p1 := (bx1 other, by1 other) in
    bb_has_point b p0 && bb_has_point b p1.

  (** bbox.py:88-95, __contains__; the third case (neither a box nor a
      2-tuple) raises TypeError. *)
  Inductive item : Type := IBox (b : bbox T) | IPoint (p : T * T) | IOther.
  Definition bb_contains (b : bbox T) (i : item) : res bool :=
    match i with
    | IBox o => Ok (bb_has_bbox b o)
    | IPoint p => Ok (bb_has_point b p)
    | IOther => Err TypeError
    end.

  (** bbox.py:147-153. *)
  Definition bb_collide (a b : bbox T) : bool :=
    let xok := (nle (bx0 a) (bx0 b) && nlt (bx0 b) (bx1 a))
            || (nle (bx0 b) (bx0 a) && nlt (bx0 a) (bx1 b)) in
    let yok := (nle (by0 a) (by0 b) && nlt (by0 b) (by1 a))
            || (nle (by0 b) (by0 a) && nlt (by0 a) (by1 b)) in
    xok && yok.

  (** bbox.py:110-112. *)
  Definition bb_copy (b : bbox T) : bbox T :=
    bb_corners (bx0 b, by0 b) (bx1 b, by1 b).

  (** bbox.py:114-118. *)
  Definition bb_center (b : bbox T) : T * T :=
    (ndiv (nadd (bx0 b) (bx1 b)) (nofZ 2), ndiv (nadd (by0 b) (by1 b)) (nofZ 2)).

  (** bbox.py:155-161. *)
  Definition bb_translate (b : bbox T) (dx dy : T) : bbox T :=
    mkbb (nadd (bx0 b) dx) (nadd (by0 b) dy) (nadd (bx1 b) dx) (nadd (by1 b) dy).

  (** bbox.py:97-98. *)
  Definition bb_add (b : bbox T) (p : T * T) : bbox T := bb_translate b (fst p) (snd p).

  (** bbox.py:100-102; unary minus is written 0 - x (exact for the instances
      the theorems use). *)
  Definition bb_sub (b : bbox T) (p : T * T) : bbox T :=
    bb_translate b (nsub (nofZ 0) (fst p)) (nsub (nofZ 0) (snd p)).

  (** bbox.py:163-173. *)
  Definition bb_scale (b : bbox T) (factor : T) : bbox T :=
    let half_factor := ndiv factor (nofZ 2) in
    let half_width := nmul (bb_width b) half_factor in
    let half_height := nmul (bb_height b) half_factor in
    let '(cx, cy) := bb_center b in
    mkbb (nsub cx half_width) (nsub cy half_height)
         (nadd cx half_width) (nadd cy half_height).

  (** bbox.py:104-105. *)
  Definition bb_mul (b : bbox T) (factor : T) : bbox T := bb_scale b factor.

  (** bbox.py:107-108, self.scale(1/factor). *)
  Definition bb_truediv (b : bbox T) (factor : T) : res (bbox T) :=
    f <- ndivE (nofZ 1) factor ;; Ok (bb_scale b f).

  (** bbox.py:62-63. *)
  Definition bb_lt (a b : bbox T) : bool := nlt (bb_area a) (bb_area b).

  (** bbox.py:56-60.  [h] is Python's hash of one coordinate, [comb] the
      function by which CPython combines the hashes of a tuple's items; both
      are left open here. *)
  Definition bb_hash (h : T -> Z) (comb : list Z -> Z) (b : bbox T) : Z :=
    comb [h (bx0 b); h (by0 b); h (bx1 b); h (by1 b)].
  Definition bb_eq (h : T -> Z) (comb : list Z -> Z) (a b : bbox T) : bool :=
    bb_hash h comb a =? bb_hash h comb b.

  (** functools.total_ordering (bbox.py:24) given __lt__ and __eq__:
      __gt__ = not (a < b) and a != b;  __le__ = a < b or a == b;
      __ge__ = not (a < b). *)
  Definition bb_gt h comb (a b : bbox T) : bool := negb (bb_lt a b) && negb (bb_eq h comb a b).
  Definition bb_le h comb (a b : bbox T) : bool := bb_lt a b || bb_eq h comb a b.
  Definition bb_ge (a b : bbox T) : bool := negb (bb_lt a b).
End BBox.
Arguments item T : clear implicits.

(** CPython's hash of an int on a 64-bit build (Objects/longobject.c,
    long_hash): the value reduced modulo 2^61-1 keeping the sign, with -1
    replaced by -2. *)
Definition py_hash_int (z : Z) : Z :=
  let r := Z.rem z (2 ^ 61 - 1) in
  if r =? -1 then -2 else r.
