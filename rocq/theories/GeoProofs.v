(** Spherical geometry: distances, bearings and midpoints. *)
From Coq Require Import Lia.
From Verif Require Import GeoModel GeoSpec TrigLib.
Open Scope R_scope.

(** * The haversine *)
Lemma half_sin x : sin (x / 2) * sin (x / 2) = (1 - cos x) / 2.
Proof. replace (cos x) with (cos (2 * (x / 2))) by (f_equal; field). rewrite cos_2a_sin. lra. Qed.
Definition hav (lon1 lat1 lon2 lat2 : R) : R := (1 - dot (on_sphere lon1 lat1) (on_sphere lon2 lat2)) / 2.
Lemma dot_formula lon1 lat1 lon2 lat2 : dot (on_sphere lon1 lat1) (on_sphere lon2 lat2) =
  sin (radians lat1) * sin (radians lat2) + cos (radians lat1) * cos (radians lat2) * cos (radians (lon2 - lon1)).
Proof. unfold dot, on_sphere. rewrite rad_minus, cos_minus, <- !rad_radians. ring. Qed.
Lemma hav_formula lon1 lat1 lon2 lat2 :
  sin (radians (lat2 - lat1) / 2) * sin (radians (lat2 - lat1) / 2) +
  sin (radians (lon2 - lon1) / 2) * sin (radians (lon2 - lon1) / 2) * cos (radians lat1) * cos (radians lat2) = hav lon1 lat1 lon2 lat2.
Proof.
  unfold hav. rewrite dot_formula, !half_sin. rewrite (rad_minus lat2 lat1), cos_minus. field.
Qed.
Lemma unit_dot lon lat : dot (on_sphere lon lat) (on_sphere lon lat) = 1.
Proof. rewrite dot_formula. replace (radians (lon - lon)) with 0 by (unfold radians; ring). rewrite cos_0. pose proof (sc (radians lat)). lra. Qed.
Lemma dot_sym u v : dot u v = dot v u.
Proof. destruct u as [[a b] c], v as [[x y] z]. cbn. ring. Qed.
Lemma sq x : 0 <= x * x.
Proof. apply Rle_0_sqr. Qed.
Lemma cauchy a b c x y z : a * a + b * b + c * c = 1 -> x * x + y * y + z * z = 1 -> -1 <= a * x + b * y + c * z <= 1.
Proof.
  intros U V. pose proof (sq (a - x)). pose proof (sq (b - y)). pose proof (sq (c - z)).
  pose proof (sq (a + x)). pose proof (sq (b + y)). pose proof (sq (c + z)). split; lra.
Qed.
Lemma dot_bound lon1 lat1 lon2 lat2 : -1 <= dot (on_sphere lon1 lat1) (on_sphere lon2 lat2) <= 1.
Proof. pose proof (unit_dot lon1 lat1) as U. pose proof (unit_dot lon2 lat2) as V. unfold dot, on_sphere in *. apply cauchy; assumption. Qed.
Lemma atan2_half a : 0 <= a <= 1 -> let c := 2 * atan2 (sqrt a) (sqrt (1 - a)) in 0 <= c <= PI /\ cos c = 1 - 2 * a.
Proof.
  intros B c. destruct (polar (sqrt (1 - a)) (sqrt a)) as [C S]. rewrite !sqrt_sqrt in C, S by lra.
  replace (1 - a + a) with 1 in C, S by ring. rewrite sqrt_1, Rmult_1_l in C, S.
  assert (P1 : 0 <= cos (atan2 (sqrt a) (sqrt (1 - a)))) by (rewrite C; apply sqrt_pos).
  assert (P2 : 0 <= sin (atan2 (sqrt a) (sqrt (1 - a)))) by (rewrite S; apply sqrt_pos).
  pose proof (atan2_bound (sqrt a) (sqrt (1 - a))) as T. pose proof PI_RGT_0 as P. set (t := atan2 (sqrt a) (sqrt (1 - a))) in *.
  split.
  - unfold c. split.
    + destruct (Rlt_dec t 0) as [L|L]; [|lra]. exfalso. assert (sin t < 0) by (apply sin_lt_0_var; lra). lra.
    + destruct (Rlt_dec (PI / 2) t) as [L|L]; [|lra]. exfalso. assert (cos t < 0) by (apply cos_lt_0; lra). lra.
  - unfold c. rewrite cos_2a_sin. rewrite S. rewrite Rmult_assoc, sqrt_sqrt by lra. lra.
Qed.
Lemma haversine_angle lon1 lat1 lon2 lat2 r : exists t, haversine lon1 lat1 lon2 lat2 (Some r) = Ok (r * t) /\ central_angle lon1 lat1 lon2 lat2 t.
Proof.
  unfold haversine, radius_or. cbn [bind]. rewrite hav_formula. set (a := hav lon1 lat1 lon2 lat2).
  assert (B : 0 <= a <= 1) by (unfold a, hav; pose proof (dot_bound lon1 lat1 lon2 lat2); lra).
  rewrite !math_sqrt_ok by lra. cbn [bind]. eexists. split; [reflexivity|]. destruct (atan2_half a B) as [R C]. split; [exact R|].
  rewrite C. unfold a, hav. lra.
Qed.
Lemma angle_unique lon1 lat1 lon2 lat2 t t' : central_angle lon1 lat1 lon2 lat2 t -> central_angle lon1 lat1 lon2 lat2 t' -> t = t'.
Proof.
  intros [B C] [B' C']. rewrite <- C' in C. rewrite <- (acos_cos t), <- (acos_cos t') by lra. rewrite C. reflexivity.
Qed.
Lemma angle_sym lon1 lat1 lon2 lat2 t : central_angle lon1 lat1 lon2 lat2 t -> central_angle lon2 lat2 lon1 lat1 t.
Proof. intros [B C]. split; [exact B|]. rewrite C. apply dot_sym. Qed.
Lemma haversine_sym lon1 lat1 lon2 lat2 r : haversine lon1 lat1 lon2 lat2 (Some r) = haversine lon2 lat2 lon1 lat1 (Some r).
Proof.
  destruct (haversine_angle lon1 lat1 lon2 lat2 r) as (t & E & A), (haversine_angle lon2 lat2 lon1 lat1 r) as (t' & E' & A').
  rewrite E, E'. rewrite (angle_unique _ _ _ _ t t' A); [reflexivity|apply angle_sym, A'].
Qed.
Lemma haversine_same lon1 lat1 lon2 lat2 lon1' lat1' lon2' lat2' r :
  dot (on_sphere lon1 lat1) (on_sphere lon2 lat2) = dot (on_sphere lon1' lat1') (on_sphere lon2' lat2') ->
  haversine lon1 lat1 lon2 lat2 (Some r) = haversine lon1' lat1' lon2' lat2' (Some r).
Proof.
  intros D. destruct (haversine_angle lon1 lat1 lon2 lat2 r) as (t & E & A), (haversine_angle lon1' lat1' lon2' lat2' r) as (t' & E' & A').
  rewrite E, E'. do 2 f_equal. apply (angle_unique lon1 lat1 lon2 lat2); [exact A|]. destruct A' as [B C]. split; [exact B|]. rewrite C. symmetry. exact D.
Qed.
Lemma haversine_shift lon1 lat1 lon2 lat2 r s : haversine (lon1 + s) lat1 (lon2 + s) lat2 (Some r) = haversine lon1 lat1 lon2 lat2 (Some r).
Proof. apply haversine_same. rewrite !dot_formula. replace (lon2 + s - (lon1 + s)) with (lon2 - lon1) by ring. reflexivity. Qed.
Lemma haversine_turn lon1 lat1 lon2 lat2 r k : haversine lon1 lat1 (lon2 + IZR k * 360) lat2 (Some r) = haversine lon1 lat1 lon2 lat2 (Some r).
Proof.
  apply haversine_same. rewrite !dot_formula. do 2 f_equal.
  replace (radians (lon2 + IZR k * 360 - lon1)) with (radians (lon2 - lon1) + IZR k * (2 * PI)) by (unfold radians; field). apply cos_turns.
Qed.
Lemma haversine_self lon lat r : haversine lon lat lon lat (Some r) = Ok 0.
Proof.
  destruct (haversine_angle lon lat lon lat r) as (t & E & A). rewrite E. f_equal. rewrite (angle_unique lon lat lon lat t 0 A); [ring|].
  split; [pose proof PI_RGT_0; lra|]. rewrite cos_0, unit_dot. reflexivity.
Qed.
(** The triangle inequality *)
Lemma angle_triangle lon1 lat1 lon2 lat2 lon3 lat3 a b c : central_angle lon1 lat1 lon2 lat2 a -> central_angle lon2 lat2 lon3 lat3 b ->
  central_angle lon1 lat1 lon3 lat3 c -> c <= a + b.
Proof.
  intros [Ba Ca] [Bb Cb] [Bc Cc]. destruct (Rle_dec c (a + b)) as [L|L]; [exact L|exfalso]. apply Rnot_le_lt in L.
  assert (Lc : cos c < cos (a + b)) by (apply cos_decreasing_1; lra). rewrite cos_plus in Lc.
  assert (Sa : 0 <= sin a) by (apply sin_ge_0; lra). assert (Sb : 0 <= sin b) by (apply sin_ge_0; lra).
  pose proof (sc a) as Qa. pose proof (sc b) as Qb. rewrite Ca in *. rewrite Cb in *. rewrite Cc in *.
  pose proof (unit_dot lon1 lat1) as U. pose proof (unit_dot lon2 lat2) as V. pose proof (unit_dot lon3 lat3) as W.
  destruct (on_sphere lon1 lat1) as [[u1 u2] u3], (on_sphere lon2 lat2) as [[v1 v2] v3], (on_sphere lon3 lat3) as [[w1 w2] w3].
  unfold dot in *. set (p := u1 * v1 + u2 * v2 + u3 * v3) in *. set (q := v1 * w1 + v2 * w2 + v3 * w3) in *.
  (* the components orthogonal to v *)
  assert (X : (u1 * w1 + u2 * w2 + u3 * w3) - p * q = (u1 - p * v1) * (w1 - q * v1) + (u2 - p * v2) * (w2 - q * v2) + (u3 - p * v3) * (w3 - q * v3)).
  { transitivity ((u1 * w1 + u2 * w2 + u3 * w3) - p * q - q * p + p * q * (v1 * v1 + v2 * v2 + v3 * v3)); [rewrite V; ring|unfold p, q; ring]. }
  assert (NU : (u1 - p * v1) * (u1 - p * v1) + (u2 - p * v2) * (u2 - p * v2) + (u3 - p * v3) * (u3 - p * v3) = sin a * sin a).
  { transitivity ((u1 * u1 + u2 * u2 + u3 * u3) - 2 * p * p + p * p * (v1 * v1 + v2 * v2 + v3 * v3)); [unfold p; ring|rewrite U, V; lra]. }
  assert (NW : (w1 - q * v1) * (w1 - q * v1) + (w2 - q * v2) * (w2 - q * v2) + (w3 - q * v3) * (w3 - q * v3) = sin b * sin b).
  { transitivity ((w1 * w1 + w2 * w2 + w3 * w3) - 2 * q * q + q * q * (v1 * v1 + v2 * v2 + v3 * v3)); [unfold q; ring|rewrite W, V; lra]. }
  set (a1 := u1 - p * v1) in *. set (a2 := u2 - p * v2) in *. set (a3 := u3 - p * v3) in *.
  set (b1 := w1 - q * v1) in *. set (b2 := w2 - q * v2) in *. set (b3 := w3 - q * v3) in *.
  assert (CS : (a1 * b1 + a2 * b2 + a3 * b3) * (a1 * b1 + a2 * b2 + a3 * b3) <= (sin a * sin b) * (sin a * sin b)).
  { replace ((sin a * sin b) * (sin a * sin b)) with ((sin a * sin a) * (sin b * sin b)) by ring. rewrite <- NU, <- NW.
    clear. assert (0 <= (a1 * b2 - a2 * b1) * (a1 * b2 - a2 * b1)) by apply Rle_0_sqr. assert (0 <= (a1 * b3 - a3 * b1) * (a1 * b3 - a3 * b1)) by apply Rle_0_sqr.
    assert (0 <= (a2 * b3 - a3 * b2) * (a2 * b3 - a3 * b2)) by apply Rle_0_sqr. lra. }
  assert (S0 : 0 <= sin a * sin b) by (apply Rmult_le_pos; assumption).
  assert (- (sin a * sin b) <= a1 * b1 + a2 * b2 + a3 * b3).
  { set (z := a1 * b1 + a2 * b2 + a3 * b3) in *. set (m := sin a * sin b) in *. clearbody z m. clear - CS S0. nra. }
  lra.
Qed.
Lemma haversine_triangle lon1 lat1 lon2 lat2 lon3 lat3 r : 0 <= r -> exists a b c, haversine lon1 lat1 lon2 lat2 (Some r) = Ok a /\
  haversine lon2 lat2 lon3 lat3 (Some r) = Ok b /\ haversine lon1 lat1 lon3 lat3 (Some r) = Ok c /\ c <= a + b.
Proof.
  intros P. destruct (haversine_angle lon1 lat1 lon2 lat2 r) as (a & Ea & A), (haversine_angle lon2 lat2 lon3 lat3 r) as (b & Eb & B), (haversine_angle lon1 lat1 lon3 lat3 r) as (c & Ec & C).
  eexists _, _, _. split; [exact Ea|]. split; [exact Eb|]. split; [exact Ec|]. pose proof (angle_triangle _ _ _ _ _ _ a b c A B C). nra.
Qed.
Lemma haversine_bounds lon1 lat1 lon2 lat2 r : 0 <= r -> exists d, haversine lon1 lat1 lon2 lat2 (Some r) = Ok d /\ 0 <= d <= PI * r.
Proof. intros P. destruct (haversine_angle lon1 lat1 lon2 lat2 r) as (t & E & B & _). eexists. split; [exact E|]. split; nra. Qed.
(** Zero only for the same point of the sphere *)
Lemma haversine_zero lon1 lat1 lon2 lat2 r : 0 < r -> haversine lon1 lat1 lon2 lat2 (Some r) = Ok 0 <-> on_sphere lon1 lat1 = on_sphere lon2 lat2.
Proof.
  intros P. split.
  - destruct (haversine_angle lon1 lat1 lon2 lat2 r) as (t & E & B & C). rewrite E. intros X. injection X as X.
    assert (t = 0) by nra. subst t. rewrite cos_0 in C. pose proof (unit_dot lon1 lat1) as U. pose proof (unit_dot lon2 lat2) as V.
    destruct (on_sphere lon1 lat1) as [[a b] c], (on_sphere lon2 lat2) as [[x y] z]. cbn in *.
    assert (Q : (a - x) * (a - x) + (b - y) * (b - y) + (c - z) * (c - z) = 0) by lra.
    assert (a = x /\ b = y /\ c = z). { pose proof (Rle_0_sqr (a - x)). pose proof (Rle_0_sqr (b - y)). pose proof (Rle_0_sqr (c - z)). unfold Rsqr in *.
      split; [|split]; apply Rminus_diag_uniq, Rsqr_0_uniq; unfold Rsqr; lra. }
    destruct H as (-> & -> & ->). reflexivity.
  - intros E. rewrite <- (haversine_self lon1 lat1 r). apply haversine_same. rewrite E. reflexivity.
Qed.

(** * Bearing and destination *)
Lemma radius_some r lat : radius_or (Some r) lat = Ok r.
Proof. reflexivity. Qed.
Lemma destination_ok lon1 lat1 lon2 lat2 r : -90 < lat1 < 90 -> -90 < lat2 < 90 -> 0 < r ->
  exists d lon, haversine lon1 lat1 lon2 lat2 (Some r) = Ok d /\
    destination lon1 lat1 (bearing lon1 lat1 lon2 lat2) d (Some r) = Ok (lon, lat2) /\ same_lon lon lon2 /\ -180 <= lon <= 180.
Proof.
  intros B1 B2 P. destruct (haversine_angle lon1 lat1 lon2 lat2 r) as (t & E & Bt & C). exists (r * t).
  unfold destination, bearing. rewrite radius_some. cbn [bind]. rewrite ndivE_R by lra. replace (r * t / r) with t by (field; lra). cbn [bind].
  rewrite rad_deg. rewrite dot_formula in C. rewrite (rad_minus lon2) in C. rewrite (rad_minus lon1).
  pose proof (cos_pos_strict lat1 B1) as K1. pose proof (cos_pos_strict lat2 B2) as K2.
  pose proof (sc (radians lat1)) as S1. pose proof (sc (radians lat2)) as S2.
  pose proof (rad_lat_strict lat2 B2) as R2.
  set (f1 := radians lat1) in *. set (f2 := radians lat2) in *. set (D := radians lon1 - radians lon2) in *.
  replace (radians lon2 - radians lon1) with (- D) in C by (unfold D; ring). rewrite cos_neg in C.
  set (y := sin D * cos f2). set (x := cos f1 * sin f2 - sin f1 * cos f2 * cos D).
  assert (St : 0 <= sin t) by (apply sin_ge_0; lra).
  assert (N : x * x + y * y = sin t * sin t).
  { pose proof (sc t) as Qt. rewrite C in Qt. pose proof (sc D) as QD. unfold x, y.
    replace (sin t * sin t) with (1 - (sin f1 * sin f2 + cos f1 * cos f2 * cos D) * (sin f1 * sin f2 + cos f1 * cos f2 * cos D)) by lra.
    assert (Z1 : sin D * sin D = 1 - cos D * cos D) by lra. assert (Z2 : sin f1 * sin f1 = 1 - cos f1 * cos f1) by lra.
    assert (Z3 : sin f2 * sin f2 = 1 - cos f2 * cos f2) by lra.
    transitivity (cos f1 * cos f1 * (sin f2 * sin f2) - 2 * cos f1 * sin f2 * sin f1 * cos f2 * cos D + (sin f1 * sin f1) * cos f2 * cos f2 * cos D * cos D + (sin D * sin D) * cos f2 * cos f2); [ring|].
    transitivity (1 - (sin f1 * sin f1) * (sin f2 * sin f2) - 2 * sin f1 * sin f2 * cos f1 * cos f2 * cos D - cos f1 * cos f1 * cos f2 * cos f2 * cos D * cos D); [|ring].
    rewrite Z1, Z2, Z3. ring. }
  destruct (polar x y) as [PX PY]. rewrite N in PX, PY. rewrite sqrt_square in PX, PY by exact St.
  set (b := atan2 y x) in *.
  assert (SL : sin f1 * cos t + cos f1 * sin t * cos b = sin f2).
  { replace (cos f1 * sin t * cos b) with (cos f1 * (sin t * cos b)) by ring. rewrite PX, C. unfold x.
    transitivity (sin f2 * (sin f1 * sin f1 + cos f1 * cos f1)); [ring|rewrite S1; ring]. }
  rewrite SL. rewrite math_asin_ok by (pose proof (SIN_bound f2); lra). cbn [bind]. rewrite asin_sin by lra.
  eexists. split; [exact E|]. split; [f_equal; f_equal; unfold f2; apply deg_rad|].
  assert (T : same_turn (atan2 (sin b * sin t * cos f1) (cos t - sin f1 * sin f2)) D).
  { apply (atan2_turn (cos f1 * cos f2)); [apply Rmult_lt_0_compat; assumption|rewrite C; ring|].
    replace (sin b * sin t * cos f1) with (sin t * sin b * cos f1) by ring. rewrite PY. unfold y. ring. }
  split.
  - apply same_lon_rad. rewrite rad_deg. eapply same_turn_trans; [apply corangle_turn|].
    replace (radians lon2) with (radians lon1 - D) by (unfold D; ring). apply same_turn_minus; [apply same_turn_refl|exact T].
  - match goal with |- context [corangle ?a] => destruct (corangle_spec a) as (Bc & _ & _); set (c := corangle a) in * end.
    pose proof PI_RGT_0 as PP. unfold degrees. assert (c * (180 / PI) * PI = c * 180) by (field; lra). split; nra.
Qed.

(** * Midpoint *)
Lemma midpoint_vec lon1 lat1 lon2 lat2 : valid_lat lat1 -> valid_lat lat2 -> exists lon lat n, midpoint lon1 lat1 lon2 lat2 = Ok (lon, lat) /\ 0 <= n /\ valid_lat lat /\
  n * n = 2 + 2 * dot (on_sphere lon1 lat1) (on_sphere lon2 lat2) /\
  n * dot (on_sphere lon1 lat1) (on_sphere lon lat) = 1 + dot (on_sphere lon1 lat1) (on_sphere lon2 lat2) /\
  n * dot (on_sphere lon2 lat2) (on_sphere lon lat) = 1 + dot (on_sphere lon1 lat1) (on_sphere lon2 lat2).
Proof.
  intros V1 V2. unfold midpoint. rewrite rad_minus.
  set (f1 := radians lat1). set (f2 := radians lat2). set (D := radians lon2 - radians lon1).
  set (X := cos f1 + cos f2 * cos D). set (Y := cos f2 * sin D). set (Zz := sin f1 + sin f2).
  rewrite math_sqrt_ok by nra. cbn [bind]. set (rho := sqrt (X * X + Y * Y)).
  assert (Rp : 0 <= rho) by apply sqrt_pos.
  assert (Rr : rho * rho = X * X + Y * Y) by (apply sqrt_sqrt; nra).
  eexists _, _, (sqrt (rho * rho + Zz * Zz)). split; [reflexivity|]. split; [apply sqrt_pos|].
  destruct (polar X Y) as [PX PY]. fold rho in PX, PY. set (l := atan2 Y X) in *.
  destruct (polar rho Zz) as [PR PZ]. set (n := sqrt (rho * rho + Zz * Zz)) in *. set (f := atan2 Zz rho) in *.
  assert (Nn : n * n = rho * rho + Zz * Zz) by (apply sqrt_sqrt; nra).
  pose proof (sc f1) as S1. pose proof (sc f2) as S2. pose proof (sc D) as SD.
  assert (N2 : n * n = 2 + 2 * (sin f1 * sin f2 + cos f1 * cos f2 * cos D)).
  { rewrite Nn, Rr. unfold X, Y, Zz. transitivity (cos f1 * cos f1 + sin f1 * sin f1 + sin f2 * sin f2 + 2 * cos f1 * cos f2 * cos D + 2 * sin f1 * sin f2 + cos f2 * cos f2 * (sin D * sin D + cos D * cos D)); [ring|].
    rewrite SD. lra. }
  split; [|split; [|split]].
  - unfold valid_lat, degrees. pose proof PI_RGT_0 as P.
    assert (Bf : - (PI / 2) <= f <= PI / 2).
    { unfold f, atan2. destruct (Rlt_bool_spec 0 rho); [pose proof (atan_bound (Zz / rho)); lra|]. destruct (Rlt_bool_spec rho 0); [lra|].
      destruct (Rlt_bool 0 Zz); [lra|]. destruct (Rlt_bool Zz 0); lra. }
    assert (f * (180 / PI) * PI = f * 180) by (field; lra). split; nra.
  - rewrite dot_formula. fold f1 f2. rewrite rad_minus. exact N2.
  - rewrite !dot_formula. rewrite !rad_minus, !rad_deg. fold f1 f2. fold D. replace (radians lon1 + l - radians lon1) with l by ring.
    replace (n * (sin f1 * sin f + cos f1 * cos f * cos l)) with (sin f1 * (n * sin f) + cos f1 * ((n * cos f) * cos l)) by ring.
    rewrite PR, PZ, PX. unfold X, Zz. lra.
  - rewrite !dot_formula. rewrite !rad_minus, !rad_deg. fold f1 f2. fold D. replace (radians lon1 + l - radians lon2) with (l - D) by (unfold D; ring).
    rewrite cos_minus.
    replace (n * (sin f2 * sin f + cos f2 * cos f * (cos l * cos D + sin l * sin D))) with (sin f2 * (n * sin f) + cos f2 * ((n * cos f) * cos l * cos D + (n * cos f) * sin l * sin D)) by ring.
    rewrite PR, PZ, PX, PY. unfold X, Y, Zz.
    transitivity (sin f2 * sin f2 + cos f2 * cos f2 * (sin D * sin D + cos D * cos D) + sin f1 * sin f2 + cos f1 * cos f2 * cos D); [ring|rewrite SD; lra].
Qed.
Lemma midpoint_half lon1 lat1 lon2 lat2 r : valid_lat lat1 -> valid_lat lat2 ->
  dot (on_sphere lon1 lat1) (on_sphere lon2 lat2) <> -1 ->
  exists lon lat d h, midpoint lon1 lat1 lon2 lat2 = Ok (lon, lat) /\ valid_lat lat /\ haversine lon1 lat1 lon2 lat2 (Some r) = Ok d /\
    haversine lon1 lat1 lon lat (Some r) = Ok h /\ haversine lon2 lat2 lon lat (Some r) = Ok h /\ h = d / 2.
Proof.
  intros V1 V2 NA. destruct (midpoint_vec lon1 lat1 lon2 lat2 V1 V2) as (lon & lat & n & Em & Pn & Vl & Nn & D1 & D2).
  set (c := dot (on_sphere lon1 lat1) (on_sphere lon2 lat2)) in *. pose proof (dot_bound lon1 lat1 lon2 lat2) as Bc. fold c in Bc.
  destruct (haversine_angle lon1 lat1 lon2 lat2 r) as (t & E & Bt & Ct). fold c in Ct.
  exists lon, lat, (r * t), (r * (t / 2)). split; [exact Em|]. split; [exact Vl|]. split; [exact E|].
  assert (Np : 0 < n) by (destruct Pn as [Pn|<-]; [exact Pn|exfalso; lra]).
  assert (Half : n = 2 * cos (t / 2)).
  { assert (H : 0 <= cos (t / 2)) by (apply cos_ge_0; pose proof PI_RGT_0; lra).
    assert (Q : n * n = (2 * cos (t / 2)) * (2 * cos (t / 2))).
    { rewrite Nn, <- Ct. replace t with (2 * (t / 2)) at 1 by field. rewrite cos_2a_cos. ring. }
    apply Rsqr_inj; [lra|lra|exact Q]. }
  assert (Ch : cos (t / 2) = n / 2) by lra.
  assert (A1 : central_angle lon1 lat1 lon lat (t / 2)).
  { split; [lra|]. rewrite Ch. apply Rmult_eq_reg_l with n; [|lra]. rewrite D1. lra. }
  assert (A2 : central_angle lon2 lat2 lon lat (t / 2)).
  { split; [lra|]. rewrite Ch. apply Rmult_eq_reg_l with n; [|lra]. rewrite D2. lra. }
  destruct (haversine_angle lon1 lat1 lon lat r) as (t1 & E1 & A1'), (haversine_angle lon2 lat2 lon lat r) as (t2 & E2 & A2').
  rewrite E1, E2, (angle_unique _ _ _ _ _ _ A1 A1'), <- (angle_unique _ _ _ _ _ _ A2 A2'), <- (angle_unique _ _ _ _ _ _ A1 A1').
  split; [reflexivity|]. split; [reflexivity|]. lra.
Qed.

Lemma div_mult x y : y <> 0 -> x / y * y = x.
Proof. intros N. field. exact N. Qed.
(** * The radius of an ellipsoid *)
Lemma radiusat_bounds lat e : 0 < el_b e <= el_a e -> exists r, radiusat lat (Some e) = Ok r /\ el_b e <= r <= el_a e.
Proof.
  intros [Pb L]. unfold radiusat. set (a := el_a e) in *. set (b := el_b e) in *. set (f := radians lat).
  pose proof (sc f) as S. set (C := cos f * cos f). set (D := sin f * sin f).
  assert (PC : 0 <= C) by apply Rle_0_sqr. assert (PD : 0 <= D) by apply Rle_0_sqr. assert (CD : C = 1 - D) by (unfold C, D; lra).
  assert (Den : 0 < a * a * cos f * cos f + b * b * sin f * sin f).
  { replace (a * a * cos f * cos f) with (a * a * C) by (unfold C; ring). replace (b * b * sin f * sin f) with (b * b * D) by (unfold D; ring).
    assert (0 < b * b) by nra. assert (b * b <= a * a) by nra. rewrite CD. nra. }
  rewrite ndivE_R by lra. cbn [bind].
  set (q := (a * a * (a * a * cos f * cos f) + b * b * (b * b * sin f * sin f)) / (a * a * cos f * cos f + b * b * sin f * sin f)).
  assert (Q : b * b <= q <= a * a).
  { unfold q. assert (0 < b * b) by nra. assert (b * b <= a * a) by nra.
    replace (a * a * cos f * cos f) with (a * a * C) in * by (unfold C; ring). replace (b * b * sin f * sin f) with (b * b * D) in * by (unfold D; ring).
    assert (0 <= a * a * C) by (apply Rmult_le_pos; lra). assert (0 <= b * b * D) by (apply Rmult_le_pos; lra). split.
    - apply Rmult_le_reg_r with (a * a * C + b * b * D); [exact Den|]. rewrite div_mult by lra. nra.
    - apply Rmult_le_reg_r with (a * a * C + b * b * D); [exact Den|]. rewrite div_mult by lra. nra. }
  rewrite math_sqrt_ok by nra. eexists. split; [reflexivity|]. split.
  - rewrite <- (sqrt_square b) by lra. apply sqrt_le_1; nra.
  - rewrite <- (sqrt_square a) by lra. apply sqrt_le_1; nra.
Qed.
Lemma radiusat_equator e : 0 < el_b e <= el_a e -> radiusat 0 (Some e) = Ok (el_a e).
Proof.
  intros [Pb L]. unfold radiusat. replace (radians 0) with 0 by (unfold radians; ring). rewrite cos_0, sin_0.
  assert (0 < el_a e) by lra. rewrite ndivE_R by nra. cbn [bind].
  match goal with |- math_sqrt ?q = _ => replace q with (el_a e * el_a e) by (field; nra) end.
  rewrite math_sqrt_ok by nra. rewrite sqrt_square by lra. reflexivity.
Qed.
Lemma radiusat_pole e : 0 < el_b e <= el_a e -> radiusat 90 (Some e) = Ok (el_b e).
Proof.
  intros [Pb L]. unfold radiusat. rewrite rad_90, cos_PI2, sin_PI2.
  rewrite ndivE_R by nra. cbn [bind].
  match goal with |- math_sqrt ?q = _ => replace q with (el_b e * el_b e) by (field; nra) end.
  rewrite math_sqrt_ok by nra. rewrite sqrt_square by lra. reflexivity.
Qed.
Lemma radiusat_south lat e : radiusat (- lat) e = radiusat lat e.
Proof. unfold radiusat. replace (radians (- lat)) with (- radians lat) by (unfold radians; ring). rewrite cos_neg, sin_neg. f_equal. f_equal; ring. Qed.
