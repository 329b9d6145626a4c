(** Map projections: theorems. *)
From Coq Require Import Reals SpecFloat.
From Verif Require Import Num FloatLib PfSpec RealNum GeoModel GeoSpec TrigLib GeoProofs ProjModel ProjProofs ProjIter ProjEckert ProjFloat ProjScale ProjGlue.
From Coq Require Import Lra.
Open Scope R_scope.

(** C21 *)
Theorem C21_corangle : forall a, exists N r, (forall n, (N <= n)%nat -> corangle_loop PI n a = Some r) /\
  - PI <= r <= PI /\ (exists k : Z, r = a + IZR k * (2 * PI)) /\ (- PI <= a <= PI -> r = a).
Proof. exact (fun a => ex_intro _ (turns a) (corangle_loop_spec a)). Qed.
(** In doubles the loop never ends for angles beyond 2^56, infinities included. *)
Theorem C21_huge_refuted : forall a fuel, wf64 a -> SFltb (fofZ (2 ^ 56)) a = true \/ SFltb a (fofZ (- 2 ^ 56)) = true ->
  corangle_loop pi64 fuel a = None.
Proof. exact corangle_huge. Qed.
Example C21_case : let a := fofZ (10 ^ 17) in SFltb (fofZ (2 ^ 56)) a = true /\ valid_binary 53 1024 a = true /\ (SFltb (fofZ (2 ^ 56)) (S754_infinity false)) = true.
Proof. vm_compute. auto. Qed.

(** C22 *)
Theorem C22_mercator : forall l0 b0 r lon lat, r <> 0 -> -90 < lat < 90 -> let p := proj_new (Some (l0, b0)) (Some r) in
  exists x y lon', mercator_geo2rect p lon lat = Ok (x, y) /\ mercator_rect2geo p x y = Ok (lon', lat) /\ same_lon lon' lon /\ -180 <= lon' <= 180.
Proof. exact mercator_round. Qed.
Theorem C22_pole : forall p lon, mercator_geo2rect p lon (-90) = Err ProjectionError.
Proof. exact mercator_pole. Qed.
(** On the ellipsoid: whenever the loop ends, in both directions. *)
Theorem C22_ellipsoid : forall fuel l0 b0 ell lon lat x y r, 0 < el_a ell -> 0 <= el_e ell < 1 -> -90 < lat < 90 ->
  let p := eproj_new (Some (l0, b0)) (Some ell) in
  emercator_geo2rect p lon lat = Ok (x, y) -> emercator_rect2geo fuel p x y = Some r -> exists lon', r = Ok (lon', lat) /\ same_lon lon' lon.
Proof. exact emercator_back. Qed.
Theorem C22_ellipsoid_back : forall fuel l0 b0 ell x y lon lat, 0 < el_a ell -> 0 <= el_e ell < 1 -> - (PI * el_a ell) < x < PI * el_a ell ->
  let p := eproj_new (Some (l0, b0)) (Some ell) in
  emercator_rect2geo fuel p x y = Some (Ok (lon, lat)) -> emercator_geo2rect p lon lat = Ok (x, y).
Proof. exact emercator_forth. Qed.
(** The estimate after n turns of the loop *)
Theorem C22_ellipsoid_near : forall n l0 b0 ell lon lat x y, 0 < el_a ell -> 0 <= el_e ell < 1 -> -90 < lat < 90 ->
  emercator_geo2rect (eproj_new (Some (l0, b0)) (Some ell)) lon lat = Ok (x, y) -> let t := exp (- y / el_a ell) in
  exists l, turns_of_loop n (el_e ell) t (PI / 2 - 2 * atan t) = Ok l /\
  Rabs (l - radians lat) <= (el_e ell * el_e ell) ^ n * (el_e ell * artanh (el_e ell)).
Proof. exact emercator_converges. Qed.
Theorem C22_sphere : forall fuel l0 b0 ell x y, 0 < el_a ell -> el_e ell = 0 ->
  exists lon lat, emercator_rect2geo (S fuel) (eproj_new (Some (l0, b0)) (Some ell)) x y = Some (Ok (lon, lat)).
Proof. exact emercator_sphere. Qed.
Example C22_case : -90 < 45 < 90 /\ 0 < el_a WGS84 /\ 0 <= el_e WGS84 < 1 /\ (exists x y, emercator_geo2rect (eproj_new (Some (0, 0)) (Some WGS84)) 12 45 = Ok (x, y)).
Proof. exact wgs84_case. Qed.

(** C23 *)
Theorem C23_tmercator : forall l0 b0 r lon lat, r <> 0 -> -90 < lat < 90 -> let p := proj_new (Some (l0, b0)) (Some r) in
  -1 < cos (rad lat) * sin (rad (lon - l0)) < 1 ->
  exists x y lon', tmercator_geo2rect p lon lat = Ok (x, y) /\ tmercator_rect2geo p x y = Ok (lon', lat) /\ same_lon lon' lon.
Proof. exact tmercator_round. Qed.
Theorem C23_edge : forall l0 b0 r lon lat, let p := proj_new (Some (l0, b0)) (Some r) in
  cos (rad lat) * sin (rad (lon - l0)) = 1 \/ cos (rad lat) * sin (rad (lon - l0)) = -1 -> tmercator_geo2rect p lon lat = Err ProjectionError.
Proof. exact tmercator_edge. Qed.
(** Another point of the far hemisphere, and the two points of the edge *)
Example C23_case : -1 < cos (rad 60) * sin (rad (90 - 0)) < 1 /\ cos (rad 0) * sin (rad (90 - 0)) = 1.
Proof.
  replace (rad (90 - 0)) with (PI / 2) by (unfold rad; field). replace (rad 60) with (PI / 3) by (unfold rad; field). replace (rad 0) with 0 by (unfold rad; field).
  rewrite sin_PI2, cos_PI3, cos_0. lra.
Qed.

(** C24 *)
(** u is the cosine of the angle between the point and the origin. *)
Theorem C24_near : forall l0 b0 r lon lat, 0 < r -> -90 < lat < 90 -> let p := proj_new (Some (l0, b0)) (Some r) in
  -1 < dot (on_sphere l0 b0) (on_sphere lon lat) < 1 -> 0 < cos (rad (lon - l0)) ->
  (exists x y lon', stereo_geo2rect p lon lat = Ok (x, y) /\ stereo_rect2geo p x y = Ok (lon', lat) /\ same_lon lon' lon) /\
  (exists x y lon', equidistant_geo2rect p lon lat = Ok (x, y) /\ equidistant_rect2geo p x y = Ok (lon', lat) /\ same_lon lon' lon) /\
  (exists x y lon', equalarea_geo2rect p lon lat = Ok (x, y) /\ equalarea_rect2geo p x y = Ok (lon', lat) /\ same_lon lon' lon).
Proof.
  exact (fun l0 b0 r lon lat Pr V U N => conj (az_near l0 b0 r lon lat _ _ (stereo_az l0 b0 r lon lat Pr) V U N)
    (conj (az_near l0 b0 r lon lat _ _ (equidistant_az l0 b0 r lon lat Pr) V U N) (az_near l0 b0 r lon lat _ _ (equalarea_az l0 b0 r lon lat Pr) V U N))).
Qed.
(** More than a quarter turn of longitude away from the origin *)
Theorem C24_far_refuted : forall l0 b0 r lon lat, 0 < r -> -90 < lat < 90 -> let p := proj_new (Some (l0, b0)) (Some r) in
  -1 < dot (on_sphere l0 b0) (on_sphere lon lat) < 1 -> cos (rad (lon - l0)) < 0 ->
  (exists x y lon', stereo_geo2rect p lon lat = Ok (x, y) /\ stereo_rect2geo p x y = Ok (lon', lat) /\ same_lon lon' (lon + 180)) /\
  (exists x y lon', equidistant_geo2rect p lon lat = Ok (x, y) /\ equidistant_rect2geo p x y = Ok (lon', lat) /\ same_lon lon' (lon + 180)) /\
  (exists x y lon', equalarea_geo2rect p lon lat = Ok (x, y) /\ equalarea_rect2geo p x y = Ok (lon', lat) /\ same_lon lon' (lon + 180)).
Proof.
  exact (fun l0 b0 r lon lat Pr V U N => conj (az_far l0 b0 r lon lat _ _ (stereo_az l0 b0 r lon lat Pr) V U N)
    (conj (az_far l0 b0 r lon lat _ _ (equidistant_az l0 b0 r lon lat Pr) V U N) (az_far l0 b0 r lon lat _ _ (equalarea_az l0 b0 r lon lat Pr) V U N))).
Qed.
(** Exactly a quarter turn away, or at a pole *)
Theorem C24_edge : forall l0 b0 r lon lat, 0 < r -> let p := proj_new (Some (l0, b0)) (Some r) in
  -1 < dot (on_sphere l0 b0) (on_sphere lon lat) < 1 -> cos (rad (lon - l0)) = 0 \/ cos (rad lat) = 0 ->
  (exists x y, stereo_geo2rect p lon lat = Ok (x, y) /\ stereo_rect2geo p x y = Err ZeroDivisionError) /\
  (exists x y, equidistant_geo2rect p lon lat = Ok (x, y) /\ equidistant_rect2geo p x y = Err ZeroDivisionError) /\
  (exists x y, equalarea_geo2rect p lon lat = Ok (x, y) /\ equalarea_rect2geo p x y = Err ZeroDivisionError).
Proof.
  exact (fun l0 b0 r lon lat Pr U N => conj (az_edge l0 b0 r lon lat _ _ (stereo_az l0 b0 r lon lat Pr) U N)
    (conj (az_edge l0 b0 r lon lat _ _ (equidistant_az l0 b0 r lon lat Pr) U N) (az_edge l0 b0 r lon lat _ _ (equalarea_az l0 b0 r lon lat Pr) U N))).
Qed.
(** The origin, also when it is given by other coordinates *)
Theorem C24_centre : forall l0 b0 r lon lat, let p := proj_new (Some (l0, b0)) (Some r) in
  dot (on_sphere l0 b0) (on_sphere lon lat) = 1 -> stereo_geo2rect p lon lat = Ok (0, 0) /\ equalarea_geo2rect p lon lat = Ok (0, 0) /\
  equidistant_geo2rect p lon lat = (if Req_bool lon l0 && Req_bool lat b0 then Ok (0, 0) else Err ZeroDivisionError).
Proof. exact centre_forth. Qed.
Theorem C24_centre_refuted : forall l0 b0 r, let p := proj_new (Some (l0, b0)) (Some r) in 0 < r ->
  stereo_rect2geo p 0 0 = Err ZeroDivisionError /\ equidistant_rect2geo p 0 0 = Err ZeroDivisionError /\ equalarea_rect2geo p 0 0 = Err ZeroDivisionError.
Proof. exact centre_back. Qed.
Theorem C24_antipode : forall l0 b0 r lon lat, let p := proj_new (Some (l0, b0)) (Some r) in
  dot (on_sphere l0 b0) (on_sphere lon lat) = -1 ->
  stereo_geo2rect p lon lat = Err ZeroDivisionError /\ equalarea_geo2rect p lon lat = Err ZeroDivisionError /\ equidistant_geo2rect p lon lat = Err ZeroDivisionError.
Proof. exact antipode_forth. Qed.
(** Distance and direction from the origin *)
Theorem C24_polar : forall l0 b0 r lon lat, let p := proj_new (Some (l0, b0)) (Some r) in 0 < r ->
  -1 < dot (on_sphere l0 b0) (on_sphere lon lat) < 1 -> exists x y d,
  equidistant_geo2rect p lon lat = Ok (x, y) /\ haversine l0 b0 lon lat (Some r) = Ok d /\
  x = - d * sin (rad (bearing l0 b0 lon lat)) /\ y = d * cos (rad (bearing l0 b0 lon lat)).
Proof. exact equidistant_polar. Qed.
Example C24_case : -1 < dot (on_sphere 0 0) (on_sphere 60 0) < 1 /\ 0 < cos (rad (60 - 0)) /\ -1 < dot (on_sphere 0 0) (on_sphere 120 0) < 1 /\ cos (rad (120 - 0)) < 0 /\
  -1 < dot (on_sphere 0 0) (on_sphere 90 0) < 1 /\ cos (rad (90 - 0)) = 0 /\ dot (on_sphere 0 0) (on_sphere 180 0) = -1 /\ dot (on_sphere 0 0) (on_sphere 0 0) = 1.
Proof. exact azimuthal_case. Qed.

(** C25 *)
Theorem C25_conic : forall lat1 lat2 r lon lat, 0 < r -> sin (rad lat1) + sin (rad lat2) <> 0 -> -90 < lat < 90 ->
  -180 < (sin (rad lat1) + sin (rad lat2)) / 2 * lon <= 180 ->
  exists k x y, conic_new (Some (lat1, lat2)) (Some r) = Ok k /\ conic_geo2rect k lon lat = Ok (x, y) /\ conic_rect2geo k x y = Ok (lon, lat).
Proof. exact conic_round. Qed.
Theorem C25_default_refuted : forall lat1 lat2 r, sin (rad lat1) + sin (rad lat2) = 0 -> conic_new (Some (lat1, lat2)) r = Err ZeroDivisionError.
Proof. exact conic_default. Qed.
Example C25_case : sin (rad 30) + sin (rad 90) <> 0 /\ -180 < (sin (rad 30) + sin (rad 90)) / 2 * -100 <= 180 /\ sin (rad (-30)) + sin (rad (-90)) <> 0 /\ sin (rad 0) + sin (rad 0) = 0.
Proof.
  replace (rad 30) with (PI / 6) by (unfold rad; field). replace (rad 90) with (PI / 2) by (unfold rad; field). replace (rad 0) with 0 by (unfold rad; field).
  replace (rad (-30)) with (- (PI / 6)) by (unfold rad; field). replace (rad (-90)) with (- (PI / 2)) by (unfold rad; field). rewrite !sin_neg, sin_PI6, sin_PI2, sin_0. lra.
Qed.

(** C84 *)
Theorem C84_omercator : forall l0 b0 r lon lat, r <> 0 -> -90 < lat < 90 -> let p := proj_new (Some (l0, b0)) (Some r) in
  0 < cos (rad (lon - l0)) ->
  exists x y lon', omercator_geo2rect p lon lat = Ok (x, y) /\ omercator_rect2geo p x y = Ok (lon', lat) /\ same_lon lon' lon.
Proof. exact omercator_round. Qed.
Theorem C84_quarter : forall l0 b0 r lon lat, let p := proj_new (Some (l0, b0)) (Some r) in
  cos (rad (lon - l0)) = 0 -> omercator_geo2rect p lon lat = Err ZeroDivisionError.
Proof. exact omercator_quarter. Qed.
Theorem C84_far_refuted : forall l0 r lon lat, r <> 0 -> -90 < lat < 90 -> let p := proj_new (Some (l0, 0)) (Some r) in
  cos (rad (lon - l0)) < 0 -> exists x y lon', omercator_geo2rect p lon lat = Ok (x, y) /\ omercator_rect2geo p x y = Ok (lon', - lat) /\ same_lon (lon' - l0) (180 - (lon - l0)).
Proof. exact omercator_far. Qed.
Example C84_case : 0 < cos (rad (60 - 0)) /\ cos (rad (90 - 0)) = 0 /\ cos (rad (120 - 0)) < 0.
Proof. exact (match azimuthal_case with conj _ (conj A (conj _ (conj C (conj _ (conj B _))))) => conj A (conj B C) end). Qed.

(** C85 *)
Theorem C85_eckert : forall l0 b0 r lon lat, 0 < r -> valid_lat lat -> let p := proj_new (Some (l0, b0)) (Some r) in exists N x y lon' lat',
  (forall fuel, (N <= fuel)%nat -> eckert_geo2rect fuel p lon lat = Some (Ok (x, y))) /\ eckert_rect2geo p x y = Ok (lon', lat') /\ same_lon lon' lon /\
  valid_lat lat' /\ Rabs (sin (rad lat') - sin (rad lat)) <= 4 / 1000000 / (2 + PI / 2).
Proof. exact eckert_near. Qed.
Example C85_case : valid_lat (-90) /\ valid_lat 90 /\ 0 < default_radius.
Proof. unfold valid_lat, default_radius, WGS84, wgs84_f. cbn. lra. Qed.

(** C86 *)
(** Along a meridian the plane distance grows scale times as fast as the
    distance on the sphere. *)
Theorem C86_mercator : forall l0 b0 r lon lat, -90 < lat < 90 -> let p := proj_new (Some (l0, b0)) (Some r) in exists k,
  mercator_scale p lon lat = Ok k /\ derivable_pt_lim (fun h => y_of (mercator_geo2rect p lon h)) lat (r * k * (PI / 180)).
Proof. exact mercator_scale_lim. Qed.
Theorem C86_emercator : forall l0 b0 ell lon lat, 0 < el_a ell -> 0 <= el_e ell < 1 -> -90 < lat < 90 ->
  let p := eproj_new (Some (l0, b0)) (Some ell) in exists k,
  emercator_scale p lon lat = Ok k /\ derivable_pt_lim (fun h => y_of (emercator_geo2rect p lon h)) lat (meridian_radius (el_a ell) (el_e ell) lat * k * (PI / 180)).
Proof. exact emercator_scale_lim. Qed.
Theorem C86_conic : forall lat1 lat2 r lat, sin (rad lat1) + sin (rad lat2) <> 0 -> -90 < lat < 90 -> exists k m,
  conic_new (Some (lat1, lat2)) (Some r) = Ok k /\ conic_scale k 0 lat = Ok m /\
  derivable_pt_lim (fun h => y_of (conic_geo2rect k 0 h)) lat (r * m * (PI / 180)).
Proof. exact conic_scale_lim. Qed.
(** The other four classes: NotImplemented is called, and cannot be. *)
Theorem C86_others : forall p lon lat, other_scale p lon lat = Err TypeError.
Proof. reflexivity. Qed.
Example C86_case : -90 < 45 < 90 /\ 0 < el_a WGS84 /\ 0 <= el_e WGS84 < 1.
Proof. exact (match wgs84_case with conj A (conj B (conj C _)) => conj A (conj B C) end). Qed.

Print Assumptions C21_corangle.
Print Assumptions C21_huge_refuted.
Print Assumptions C22_mercator.
Print Assumptions C22_pole.
Print Assumptions C22_ellipsoid.
Print Assumptions C22_ellipsoid_back.
Print Assumptions C22_ellipsoid_near.
Print Assumptions C22_sphere.
Print Assumptions C23_tmercator.
Print Assumptions C23_edge.
Print Assumptions C24_near.
Print Assumptions C24_far_refuted.
Print Assumptions C24_edge.
Print Assumptions C24_centre.
Print Assumptions C24_centre_refuted.
Print Assumptions C24_antipode.
Print Assumptions C24_polar.
Print Assumptions C25_conic.
Print Assumptions C25_default_refuted.
Print Assumptions C84_omercator.
Print Assumptions C84_quarter.
Print Assumptions C84_far_refuted.
Print Assumptions C85_eckert.
Print Assumptions C86_mercator.
Print Assumptions C86_emercator.
Print Assumptions C86_conic.
Print Assumptions C86_others.
