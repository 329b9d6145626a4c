(** Spherical geometry: specification. *)
From Coq Require Export Reals QArith List.
Export ListNotations.
Open Scope R_scope.

(** The point of the unit sphere at a longitude and latitude in degrees. *)
Definition vec : Type := R * R * R.
Definition rad (x : R) : R := x * PI / 180.
Definition on_sphere (lon lat : R) : vec :=
  (cos (rad lat) * cos (rad lon), cos (rad lat) * sin (rad lon), sin (rad lat)).
Definition dot (u v : vec) : R :=
  let '(a, b, c) := u in let '(x, y, z) := v in a * x + b * y + c * z.
(** t is the angle between the two points. *)
Definition central_angle (lon1 lat1 lon2 lat2 t : R) : Prop :=
  0 <= t <= PI /\ cos t = dot (on_sphere lon1 lat1) (on_sphere lon2 lat2).
(** Equal up to whole turns, in degrees. *)
Definition same_lon (a b : R) : Prop := exists k : Z, a = b + IZR k * 360.
Definition valid_lat (lat : R) : Prop := -90 <= lat <= 90.

(** Polygons in the plane: edges from each vertex to the next, and back. *)
Definition closed_edges {A} (l : list A) : list (A * A) :=
  match l with [] => [] | p :: r => combine l (r ++ [p]) end.
Definition cross (p q : R * R) : R := fst p * snd q - fst q * snd p.
Definition rsum (l : list R) : R := fold_right Rplus 0 l.
(** Twice the signed area *)
Definition area2 (l : list (R * R)) : R := rsum (map (fun e => cross (fst e) (snd e)) (closed_edges l)).
Definition shift (d p : R * R) : R * R := (fst p + fst d, snd p + snd d).

(** The direction of the winds, in degrees clockwise from the north. *)
Open Scope Q_scope.
Definition turn_near (a b d : Q) : Prop := exists k : Z, - d <= a - b + inject_Z k * 360 <= d.
