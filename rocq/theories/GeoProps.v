(** Spherical geometry: theorems. *)
From Coq Require Import Lia Permutation QArith Reals.
From Verif Require Import Num RealNum BBoxModel GeoModel GeoSpec TrigLib GeoProofs GeoCompass GeoCentroid GeoGlue GeoForward ProjProofs.
From Coq Require Import Lra.
Open Scope R_scope.

(** C15 *)
(** The radius times the angle between the two points. *)
Theorem C15_angle : forall lon1 lat1 lon2 lat2 r, exists t,
  haversine lon1 lat1 lon2 lat2 (Some r) = Ok (r * t) /\ central_angle lon1 lat1 lon2 lat2 t.
Proof. exact haversine_angle. Qed.
Theorem C15_bounds : forall lon1 lat1 lon2 lat2 r, 0 <= r ->
  exists d, haversine lon1 lat1 lon2 lat2 (Some r) = Ok d /\ 0 <= d <= PI * r.
Proof. exact haversine_bounds. Qed.
Theorem C15_symmetric : forall lon1 lat1 lon2 lat2 r,
  haversine lon1 lat1 lon2 lat2 (Some r) = haversine lon2 lat2 lon1 lat1 (Some r).
Proof. exact haversine_sym. Qed.
Theorem C15_self : forall lon lat r, haversine lon lat lon lat (Some r) = Ok 0.
Proof. exact haversine_self. Qed.
Theorem C15_zero : forall lon1 lat1 lon2 lat2 r, 0 < r ->
  (haversine lon1 lat1 lon2 lat2 (Some r) = Ok 0 <-> on_sphere lon1 lat1 = on_sphere lon2 lat2).
Proof. exact haversine_zero. Qed.
Theorem C15_shift : forall lon1 lat1 lon2 lat2 r s,
  haversine (lon1 + s) lat1 (lon2 + s) lat2 (Some r) = haversine lon1 lat1 lon2 lat2 (Some r).
Proof. exact haversine_shift. Qed.
Theorem C15_turn : forall lon1 lat1 lon2 lat2 r k,
  haversine lon1 lat1 (lon2 + IZR k * 360) lat2 (Some r) = haversine lon1 lat1 lon2 lat2 (Some r).
Proof. exact haversine_turn. Qed.
Theorem C15_triangle : forall lon1 lat1 lon2 lat2 lon3 lat3 r, 0 <= r -> exists a b c,
  haversine lon1 lat1 lon2 lat2 (Some r) = Ok a /\ haversine lon2 lat2 lon3 lat3 (Some r) = Ok b /\
  haversine lon1 lat1 lon3 lat3 (Some r) = Ok c /\ c <= a + b.
Proof. exact haversine_triangle. Qed.
(** Without a radius: that of the Earth at the mean latitude. *)
Theorem C15_default : forall lon1 lat1 lon2 lat2, exists r t,
  radiusat ((lat1 + lat2) / 2) None = Ok r /\ el_b WGS84 <= r <= el_a WGS84 /\
  haversine lon1 lat1 lon2 lat2 None = Ok (r * t) /\ central_angle lon1 lat1 lon2 lat2 t.
Proof. exact haversine_default. Qed.
(** A quarter of the equator *)
Example C15_case : haversine 0 0 90 0 (Some 10) = Ok (10 * (PI / 2)) /\ 0 < 10.
Proof.
  split; [|lra]. destruct (haversine_angle 0 0 90 0 10) as (t & E & A). rewrite E. do 2 f_equal. apply (angle_unique 0 0 90 0); [exact A|]. split; [pose proof PI_RGT_0; lra|].
  rewrite dot_formula, cos_PI2. replace (90 - 0) with 90 by ring. rewrite rad_90, cos_PI2. replace (radians 0) with 0 by (unfold radians; ring). rewrite sin_0. ring.
Qed.

(** C16 *)
Theorem C16_destination : forall lon1 lat1 lon2 lat2 r, -90 < lat1 < 90 -> -90 < lat2 < 90 -> 0 < r -> exists d lon,
  haversine lon1 lat1 lon2 lat2 (Some r) = Ok d /\
  destination lon1 lat1 (bearing lon1 lat1 lon2 lat2) d (Some r) = Ok (lon, lat2) /\ same_lon lon lon2 /\ -180 <= lon <= 180.
Proof. exact destination_ok. Qed.
(** Bearings grow anticlockwise from the north. *)
Theorem C16_sense : forall lon1 lat1 lon2 lat2, -90 < lat2 < 90 ->
  (0 < lon2 - lon1 < 180 -> -180 < bearing lon1 lat1 lon2 lat2 < 0) /\ (0 < lon1 - lon2 < 180 -> 0 < bearing lon1 lat1 lon2 lat2 < 180).
Proof. exact (fun a b c d V => conj (fun L => bearing_east a b c d L V) (fun L => bearing_west a b c d L V)). Qed.
Theorem C16_meridian : forall lon lat1 lat2, valid_lat lat1 -> valid_lat lat2 ->
  (lat1 < lat2 -> bearing lon lat1 lon lat2 = 0) /\ (lat2 < lat1 -> lat1 - lat2 < 180 -> bearing lon lat1 lon lat2 = 180).
Proof. exact bearing_meridian. Qed.
(** A journey along a great circle has the given length and starts with the given bearing. *)
Theorem C16_forward : forall lon lat b d r, valid_lat lat -> 0 < r -> 0 <= d <= PI * r ->
  exists lon2 lat2, destination lon lat b d (Some r) = Ok (lon2, lat2) /\ valid_lat lat2 /\ -180 <= lon2 <= 180 /\
    haversine lon lat lon2 lat2 (Some r) = Ok d /\
    (-90 < lat < 90 -> 0 < d < PI * r -> same_lon (bearing lon lat lon2 lat2) b).
Proof. exact destination_forward. Qed.
(** Without a radius: that of the Earth at the start. *)
Theorem C16_default : forall lon lat b d, exists r, radiusat lat None = Ok r /\ el_b WGS84 <= r <= el_a WGS84 /\
  destination lon lat b d None = destination lon lat b d (Some r).
Proof. exact destination_default. Qed.
(** Without a radius the two functions take it at different latitudes: going
    north from the equator falls short of every goal. *)
Theorem C16_default_refuted : forall lon lat, 0 < lat < 90 -> exists d lon' lat', haversine lon 0 lon lat None = Ok d /\
  destination lon 0 (bearing lon 0 lon lat) d None = Ok (lon', lat') /\ lat' < lat.
Proof. exact default_short. Qed.
Example C16_case : -90 < 48 < 90 /\ -90 < -34 < 90 /\ 0 < 6371000 /\ 0 < 18 - 2 < 180 /\ valid_lat 48 /\ 0 < 48 < 90 /\ 0 < 1000000 < PI * 6371000.
Proof. unfold valid_lat. pose proof PI2_1. repeat split; lra. Qed.

(** C17 *)
Theorem C17_midpoint : forall lon1 lat1 lon2 lat2 r, valid_lat lat1 -> valid_lat lat2 ->
  dot (on_sphere lon1 lat1) (on_sphere lon2 lat2) <> -1 -> exists lon lat d h,
  midpoint lon1 lat1 lon2 lat2 = Ok (lon, lat) /\ valid_lat lat /\ haversine lon1 lat1 lon2 lat2 (Some r) = Ok d /\
  haversine lon1 lat1 lon lat (Some r) = Ok h /\ haversine lon2 lat2 lon lat (Some r) = Ok h /\ h = d / 2.
Proof. exact midpoint_half. Qed.
Example C17_case : valid_lat 0 /\ dot (on_sphere 0 0) (on_sphere 90 0) <> -1.
Proof.
  unfold valid_lat. split; [lra|]. rewrite dot_formula. replace (90 - 0) with 90 by ring. rewrite rad_90, cos_PI2. replace (radians 0) with 0 by (unfold radians; ring). rewrite sin_0. lra.
Qed.

(** C18 *)
Theorem C18_bounds : forall lat e, 0 < el_b e <= el_a e -> exists r, radiusat lat (Some e) = Ok r /\ el_b e <= r <= el_a e.
Proof. exact radiusat_bounds. Qed.
Theorem C18_ends : forall e, 0 < el_b e <= el_a e -> radiusat 0 (Some e) = Ok (el_a e) /\ radiusat 90 (Some e) = Ok (el_b e).
Proof. exact (fun e H => conj (radiusat_equator e H) (radiusat_pole e H)). Qed.
(** The distance from the centre to the point (x, z) of the ellipse whose normal makes the angle lat with the equator. *)
Theorem C18_surface : forall lat e, 0 < el_b e <= el_a e -> exists r x z k, radiusat lat (Some e) = Ok r /\ 0 <= r /\ r * r = x * x + z * z /\
  (x / el_a e) * (x / el_a e) + (z / el_b e) * (z / el_b e) = 1 /\
  0 < k /\ x / (el_a e * el_a e) = k * cos (rad lat) /\ z / (el_b e * el_b e) = k * sin (rad lat).
Proof. exact radiusat_surface. Qed.
Theorem C18_south : forall lat e, radiusat (- lat) e = radiusat lat e.
Proof. exact radiusat_south. Qed.
Example C18_case : 0 < el_b WGS84 <= el_a WGS84.
Proof. exact wgs84_ok. Qed.

(** C19 *)
Theorem C19_cardinal : forall b, exists w, bearing2cardinal b = Ok w /\ turn_near (- b)%Q (azimuth w) (45 # 4).
Proof. exact cardinal_near. Qed.
Theorem C19_cardinal_turn : forall b k, bearing2cardinal (b + inject_Z k * 360) = bearing2cardinal b.
Proof. exact cardinal_turn. Qed.
Theorem C19_hours : forall b, (0 < bearing2hours b /\ bearing2hours b <= 12)%Q /\ exists k, (30 * bearing2hours b == - b + inject_Z k * 360)%Q.
Proof. exact (fun b => match hours_spec b with conj A (conj B C) => conj (conj A B) C end). Qed.
Theorem C19_hours_turn : forall b k, (bearing2hours (b + inject_Z k * 360) == bearing2hours b)%Q.
Proof. exact hours_turn. Qed.
Example C19_case : bearing2cardinal (-100) = Ok wE /\ bearing2cardinal 100 = Ok wW /\ bearing2cardinal 719 = Ok wN /\ Qeq_bool (bearing2hours (-90)) 3 = true /\ Qeq_bool (bearing2hours 0) 12 = true.
Proof. vm_compute. auto. Qed.

(** C20 *)
(** One polygon in the plane; the value is the centroid and twice the signed area. *)
Theorem C20_flat : forall l, area2 l = 0 <-> poly_centroid l = Err ZeroDivisionError.
Proof. exact centroid_flat. Qed.
Theorem C20_triangle : forall p q r, area2 [p; q; r] <> 0 ->
  poly_centroid [p; q; r] = Ok (((fst p + fst q + fst r) / 3, (snd p + snd q + snd r) / 3), area2 [p; q; r]).
Proof. exact centroid_triangle. Qed.
Theorem C20_start : forall a b, poly_centroid (a ++ b) = poly_centroid (b ++ a).
Proof. exact centroid_rotate. Qed.
Theorem C20_orientation : forall l c w, poly_centroid l = Ok (c, w) -> poly_centroid (rev l) = Ok (c, - w).
Proof. exact centroid_rev. Qed.
Theorem C20_shift : forall d l c w, poly_centroid l = Ok (c, w) -> poly_centroid (map (shift d) l) = Ok (shift d c, w).
Proof. exact centroid_shift. Qed.
(** A polygon cut in two along the chord from p to q *)
Theorem C20_cut : forall p a q b c1 w1 c2 w2,
  poly_centroid (p :: a ++ [q]) = Ok (c1, w1) -> poly_centroid (q :: b ++ [p]) = Ok (c2, w2) -> w1 + w2 <> 0 ->
  poly_centroid (p :: a ++ q :: b) = Ok (((fst c1 * w1 + fst c2 * w2) / (w1 + w2), (snd c1 * w1 + snd c2 * w2) / (w1 + w2)), w1 + w2).
Proof. exact centroid_cut. Qed.
(** Several polygons *)
Theorem C20_region : forall cw, rsum (map snd cw) <> 0 -> exists c, region_centroid cw = Ok c /\
  fst c * rsum (map snd cw) = rsum (map (fun c => fst (fst c) * snd c) cw) /\ snd c * rsum (map snd cw) = rsum (map (fun c => snd (fst c) * snd c) cw).
Proof. exact region_mean. Qed.
Theorem C20_parts : forall p a q b c1 w1 c2 w2 c w, poly_centroid (p :: a ++ [q]) = Ok (c1, w1) -> poly_centroid (q :: b ++ [p]) = Ok (c2, w2) ->
  poly_centroid (p :: a ++ q :: b) = Ok (c, w) -> region_centroid [(c1, w1); (c2, w2)] = Ok c.
Proof. exact region_parts. Qed.
(** What geocentroid returns: the centroid in the equal-area plane around a
    point within epsilon of it. *)
Theorem C20_result : forall fuel region bb eps c, geocentroid fuel region bb (Some eps) = Some (Ok c) -> exists c' xys cw m,
  mapM (mapM (fun p => equalarea_geo2rect (proj_new (Some c') None) (fst p) (snd p))) region = Ok xys /\ mapM poly_centroid xys = Ok cw /\
  fst m * rsum (map snd cw) = rsum (map (fun c => fst (fst c) * snd c) cw) /\ snd m * rsum (map snd cw) = rsum (map (fun c => snd (fst c) * snd c) cw) /\
  equalarea_rect2geo (proj_new (Some c') None) (fst m) (snd m) = Ok c /\ Rabs (fst c - fst c') <= eps /\ Rabs (snd c - snd c') <= eps.
Proof. exact geocentroid_exit. Qed.
(** The order of the polygons, the first vertices and the orientation of all
    the polygons together do not matter, given the same bounding box. *)
Theorem C20_order : forall fuel region region' b eps, Permutation region region' \/ Forall2 same_ring region region' \/ region' = map (@rev _) region ->
  geocentroid fuel region (Some b) eps = geocentroid fuel region' (Some b) eps.
Proof. exact geocentroid_ext. Qed.
Theorem C20_empty : forall fuel eps, geocentroid fuel [] None eps = Some (Err AttributeError).
Proof. exact geocentroid_empty. Qed.
(** A box symmetric about the equator is already centred, and the inverse
    projection fails at the centre. *)
Theorem C20_box_refuted : forall fuel l w h eps, 0 < w < 90 -> 0 < h < 90 ->
  geocentroid (S fuel) [[(l - w, - h); (l + w, - h); (l + w, h); (l - w, h)]] None eps = Some (Err ZeroDivisionError).
Proof. exact box_centroid. Qed.
Example C20_case : area2 [(0, 0); (4, 0); (4, 3)] = 12 /\ rsum (map snd [((1, 1), 12); ((2, 5), -4)]) <> 0 /\
  poly_centroid ((0, 0) :: [(4, 0)] ++ (4, 3) :: [(0, 3)]) = Ok ((2, 3 / 2), 24).
Proof.
  split; [unfold area2, cross; cbn; lra|]. split; [cbn; lra|]. rewrite centroid_eq. unfold esum, area2, cross, mx, my, ecross. cbn. rewrite !ndivE_R by lra. unfold cross. cbn. do 2 f_equal; [f_equal|]; lra.
Qed.
(** An octant seen from one of its corners *)
Example C20_octant : exists c, geocentroid 1 [[(0, 0); (90, 0); (0, 90)]] (Some (mkbb (-1) (-1) 1 1)) (Some 180) = Some (Ok c).
Proof. exact octant_centroid. Qed.

Print Assumptions C15_angle.
Print Assumptions C15_bounds.
Print Assumptions C15_symmetric.
Print Assumptions C15_self.
Print Assumptions C15_zero.
Print Assumptions C15_shift.
Print Assumptions C15_turn.
Print Assumptions C15_triangle.
Print Assumptions C15_default.
Print Assumptions C16_destination.
Print Assumptions C16_sense.
Print Assumptions C16_meridian.
Print Assumptions C16_forward.
Print Assumptions C16_default.
Print Assumptions C16_default_refuted.
Print Assumptions C17_midpoint.
Print Assumptions C18_bounds.
Print Assumptions C18_ends.
Print Assumptions C18_surface.
Print Assumptions C18_south.
Print Assumptions C19_cardinal.
Print Assumptions C19_cardinal_turn.
Print Assumptions C19_hours.
Print Assumptions C19_hours_turn.
Print Assumptions C20_flat.
Print Assumptions C20_triangle.
Print Assumptions C20_start.
Print Assumptions C20_orientation.
Print Assumptions C20_shift.
Print Assumptions C20_cut.
Print Assumptions C20_region.
Print Assumptions C20_parts.
Print Assumptions C20_result.
Print Assumptions C20_order.
Print Assumptions C20_empty.
Print Assumptions C20_box_refuted.
