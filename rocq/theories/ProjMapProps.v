(** Which projections keep shapes, and which keep areas. *)
From Verif Require Import ProjModel GeoSpec ProjMapSpec ProjMap.
Open Scope R_scope.

(** C120 *)
(** Mercator, on the sphere and on an ellipsoid, away from the poles and from
    the meridian opposite to the origin: scale() is the factor by which every
    small distance is drawn longer, in all directions. *)
Theorem C120_mercator : forall l0 b0 r lon lat, -90 < lat < 90 -> cos (rad (lon - l0)) <> -1 -> let p := proj_new (Some (l0, b0)) (Some r) in exists k,
  mercator_scale p lon lat = Ok k /\ same_shape (mercator_geo2rect p) lon lat r r k.
Proof. exact mercator_shape. Qed.
Theorem C120_emercator : forall l0 b0 ell lon lat, 0 < el_a ell -> 0 <= el_e ell < 1 -> -90 < lat < 90 -> cos (rad (lon - l0)) <> -1 ->
  let p := eproj_new (Some (l0, b0)) (Some ell) in exists k, emercator_scale p lon lat = Ok k /\
  same_shape (emercator_geo2rect p) lon lat (along_meridian (el_a ell) (el_e ell) lat) (across_meridian (el_a ell) (el_e ell) lat) k.
Proof. exact emercator_shape. Qed.
(** Transverse Mercator, away from the two meridians a quarter turn from the
    origin's and from the edge y = +-r PI where the plane is cut. *)
Theorem C120_tmercator : forall l0 b0 r lon lat, 0 < r -> -90 < lat < 90 -> cos (rad (lon - l0)) <> 0 -> let p := proj_new (Some (l0, b0)) (Some r) in
  (forall x y, tmercator_geo2rect p lon lat = Ok (x, y) -> - (r * PI) < y < r * PI) -> exists k,
  tmercator_scale p lon lat = Ok k /\ same_shape (tmercator_geo2rect p) lon lat r r k.
Proof. exact tmercator_shape. Qed.
Theorem C120_omercator : forall l0 b0 r lon lat, -90 < lat < 90 -> cos (rad (lon - l0)) <> 0 -> let p := proj_new (Some (l0, b0)) (Some r) in exists k,
  omercator_scale p lon lat = Ok k /\ same_shape (omercator_geo2rect p) lon lat r r k.
Proof. exact omercator_shape. Qed.
(** Stereographic, everywhere but at the point opposite to the origin. *)
Theorem C120_stereographic : forall l0 b0 r lon lat, -1 < dot (on_sphere l0 b0) (on_sphere lon lat) ->
  same_shape (stereo_geo2rect (proj_new (Some (l0, b0)) (Some r))) lon lat r r (2 / (1 + dot (on_sphere l0 b0) (on_sphere lon lat))).
Proof. exact stereo_shape. Qed.
Theorem C120_azimuthal_area : forall l0 b0 r lon lat, -1 < dot (on_sphere l0 b0) (on_sphere lon lat) ->
  same_area (equalarea_geo2rect (proj_new (Some (l0, b0)) (Some r))) lon lat r.
Proof. exact equalarea_area. Qed.
(** The conic keeps areas: it stretches north-south by scale() and shrinks
    east-west as much. *)
Theorem C120_conic_area : forall lat1 lat2 r lon lat, sin (rad lat1) + sin (rad lat2) <> 0 -> -90 < lat < 90 -> exists k m, conic_new (Some (lat1, lat2)) (Some r) = Ok k /\
  conic_scale k lon lat = Ok m /\ m <> 0 /\ same_area (conic_geo2rect k) lon lat r /\ scales (conic_geo2rect k) lon lat (r / m) (r * m).
Proof. exact conic_area. Qed.
Example C120_case : -90 < 45 < 90 /\ cos (rad (60 - 0)) <> -1 /\ cos (rad (60 - 0)) <> 0 /\ -1 < dot (on_sphere 0 0) (on_sphere 60 45) /\ sin (rad 30) + sin (rad 60) <> 0 /\
  (forall x y, tmercator_geo2rect (proj_new (Some (0, 0)) (Some 6371)) 60 45 = Ok (x, y) -> - (6371 * PI) < y < 6371 * PI).
Proof. exact map_case. Qed.

Print Assumptions C120_mercator.
Print Assumptions C120_emercator.
Print Assumptions C120_tmercator.
Print Assumptions C120_omercator.
Print Assumptions C120_stereographic.
Print Assumptions C120_azimuthal_area.
Print Assumptions C120_conic_area.
