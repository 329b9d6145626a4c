(** Vocabulary of the statements on anti-aliased lines in double arithmetic. *)
From Coq Require Import Reals.
From Verif Require Import Num FloatLib RasterModel RasterSpec.
Open Scope R_scope.

(** A point with double coordinates, and their values. *)
Definition at2 (p : f64 * f64) (P : R * R) : Prop := isf (fst p) (fst P) /\ isf (snd p) (snd P).
(** Height at abscissa [x] of the line through two points. *)
Definition on_line (P Q : R * R) (x : R) : R := snd P + (snd Q - snd P) / (fst Q - fst P) * (x - fst P).
(** Points from which a line can be drawn inside a canvas of the given size: a
    whole point that is not in the last row or column, or any point one pixel
    away from the edges (two from the last row and column). *)
Definition whole (r : R) : Prop := exists z : Z, r = IZR z.
Definition fits (w h : Z) (P : R * R) : Prop :=
  (whole (fst P) /\ whole (snd P) /\ 0 <= fst P <= IZR (w - 2) /\ 0 <= snd P <= IZR (h - 2)) \/
  (1 <= fst P <= IZR (w - 3) /\ 1 <= snd P <= IZR (h - 3)).
(** Up to a million pixels wide and high. *)
Definition fair (w h : Z) : Prop := (w <= 2 ^ 20 /\ h <= 2 ^ 20)%Z.

(** A weight that blending accepts: within a thousandth of [0,1]. *)
Definition weight (a : f64) : Prop := exists A, isf a A /\ - / 1024 <= A <= 1 + / 1024.
(** Pixels touched by a line: at most a pixel (and a thousandth) above or below
    it, or left or right of it, and between the columns or rows of its ends. *)
Definition beside (P Q : R * R) (x y : R) : Prop :=
  fst P <> fst Q /\ Rabs (y - on_line P Q x) <= 1 + / 1024 /\
  Rmin (fst P) (fst Q) - / 2 - / 1024 <= x <= Rmax (fst P) (fst Q) + / 2 + / 1024.
Definition near_line (P Q : R * R) (q : Z * Z) : Prop :=
  beside P Q (IZR (fst q)) (IZR (snd q)) \/
  beside (snd P, fst P) (snd Q, fst Q) (IZR (snd q)) (IZR (fst q)).
(** What painting did to a canvas: every pixel got a value between its old one
    and the ink, and those that changed satisfy [near]. *)
Definition inked {V} (get get' : Z * Z -> res V) (between : V -> V -> Prop) (near : Z * Z -> Prop) (w h : Z) : Prop :=
  forall q v, in_canvas w h q -> get q = Ok v -> exists v', get' q = Ok v' /\ between v v' /\ (v' <> v -> near q).
Definition g_between (ink v v' : Z) : Prop := (Z.min v ink <= v' <= Z.max v ink)%Z.
Definition c_between (ink v v' : Z * Z * Z) : Prop :=
  let '(r, g, b) := ink in let '(r0, g0, b0) := v in let '(r1, g1, b1) := v' in
  g_between r r0 r1 /\ g_between g g0 g1 /\ g_between b b0 b1.
(** Near one of the sides of a polygon. *)
Definition near_outline (points : list (f64 * f64)) (q : Z * Z) : Prop :=
  exists e P Q, In e (sides points) /\ at2 (fst e) P /\ at2 (snd e) Q /\ near_line P Q q.
(** Points a line can be drawn from; points with the same coordinates. *)
Definition good_point (w h : Z) (p : f64 * f64) : Prop := exists P, at2 p P /\ fits w h P.
Definition same_point (p q : f64 * f64) : Prop := exists P, at2 p P /\ at2 q P.
