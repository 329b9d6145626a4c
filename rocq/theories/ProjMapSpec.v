(** What a map does to small distances. *)
From Verif Require Import Py GeoSpec.
From Coq Require Import Reals.
Open Scope R_scope.

(** A map takes degrees of longitude and latitude to a point of the plane, or
    fails. *)
Definition map := R -> R -> res (R * R).
Definition across (m : res (R * R)) : R := match m with Ok (x, _) => x | Err _ => 0 end.
Definition upward (m : res (R * R)) : R := match m with Ok (_, y) => y | Err _ => 0 end.
(** Close to the point the map does not fail, on the point's parallel and on
    its meridian. *)
Definition works_around (f : map) (lon lat : R) : Prop :=
  exists d, 0 < d /\ forall h, Rabs h < d -> (exists a, f (lon + h) lat = Ok a) /\ (exists a, f lon (lat + h) = Ok a).
(** How fast the two coordinates grow per radian of longitude (xl, yl) and of
    latitude (xp, yp). *)
Definition growth (f : map) (lon lat xl yl xp yp : R) : Prop :=
  works_around f lon lat /\
  derivable_pt_lim (fun h => across (f h lat)) lon (xl * (PI / 180)) /\
  derivable_pt_lim (fun h => upward (f h lat)) lon (yl * (PI / 180)) /\
  derivable_pt_lim (fun h => across (f lon h)) lat (xp * (PI / 180)) /\
  derivable_pt_lim (fun h => upward (f lon h)) lat (yp * (PI / 180)).
(** Where the meridian has the radius of curvature m and the parallel the
    radius n cos(lat), a step of u radians of longitude and v radians of
    latitude is n cos(lat) u long to the east and m v to the north. Whatever
    its direction it is drawn k times as long, and north is to the left of
    east. *)
Definition same_shape (f : map) (lon lat m n k : R) : Prop :=
  exists xl yl xp yp, growth f lon lat xl yl xp yp /\
  (forall u v, (xl * u + xp * v) * (xl * u + xp * v) + (yl * u + yp * v) * (yl * u + yp * v) =
     k * k * ((n * cos (rad lat) * u) * (n * cos (rad lat) * u) + m * v * (m * v))) /\
  xl * yp - xp * yl = k * k * (m * n * cos (rad lat)).
(** The radii of curvature of an ellipsoid *)
Definition along_meridian (a e lat : R) : R := a * (1 - e * e) / ((1 - e * e * sin (rad lat) * sin (rad lat)) * sqrt (1 - e * e * sin (rad lat) * sin (rad lat))).
Definition across_meridian (a e lat : R) : R := a / sqrt (1 - e * e * sin (rad lat) * sin (rad lat)).
(** Small areas are drawn in the size they have on a sphere of radius r. *)
Definition same_area (f : map) (lon lat r : R) : Prop :=
  exists xl yl xp yp, growth f lon lat xl yl xp yp /\ xl * yp - xp * yl = r * r * cos (rad lat).
(** Parallels and meridians meet at right angles; steps north are drawn h times
    as long, steps east k times. *)
Definition scales (f : map) (lon lat k h : R) : Prop :=
  exists xl yl xp yp, growth f lon lat xl yl xp yp /\
  xl * xl + yl * yl = k * cos (rad lat) * (k * cos (rad lat)) /\ xp * xp + yp * yp = h * h /\ xl * xp + yl * yp = 0.
