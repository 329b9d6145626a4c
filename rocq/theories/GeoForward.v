(** Where a journey of a given length and bearing ends. *)
From Coq Require Import Lia.
From Verif Require Import GeoModel GeoSpec TrigLib GeoProofs GeoCentroid.
From Coq Require Import Lra.
Open Scope R_scope.

Section Journey.
Variables f b d : R.
Let s : R := sin f * cos d + cos f * sin d * cos b.
Lemma journey_sin : -1 <= s <= 1.
Proof.
  pose proof (sc f) as Qf. pose proof (sc d) as Qd. pose proof (sc b) as Qb.
  pose proof (cauchy (sin f) (cos f) 0 (cos d) (sin d * cos b) (sin d * sin b)) as C.
  assert (U : sin f * sin f + cos f * cos f + 0 * 0 = 1) by lra.
  assert (V : cos d * cos d + sin d * cos b * (sin d * cos b) + sin d * sin b * (sin d * sin b) = 1).
  { transitivity (cos d * cos d + sin d * sin d * (sin b * sin b + cos b * cos b)); [ring|]. rewrite Qb. lra. }
  specialize (C U V). unfold s. lra.
Qed.
Lemma journey_norm : 0 <= cos f ->
  sqrt ((cos d - sin f * s) * (cos d - sin f * s) + (sin b * sin d * cos f) * (sin b * sin d * cos f)) = cos f * cos (asin s).
Proof.
  intros P. pose proof journey_sin as B. pose proof (asin_bound s) as Ba. assert (Pc : 0 <= cos (asin s)) by (apply cos_ge_0; lra).
  rewrite <- (sqrt_square (cos f * cos (asin s))) by (apply Rmult_le_pos; assumption). f_equal.
  pose proof (sc (asin s)) as Qa. rewrite sin_asin in Qa by exact B.
  replace (cos f * cos (asin s) * (cos f * cos (asin s))) with (cos f * cos f * (1 - s * s)) by (replace (1 - s * s) with (cos (asin s) * cos (asin s)) by lra; ring).
  pose proof (sc f) as Qf. pose proof (sc d) as Qd. pose proof (sc b) as Qb.
  assert (X : cos d - sin f * s = cos f * (cos f * cos d - sin f * sin d * cos b)).
  { unfold s. transitivity (cos d * (1 - sin f * sin f) - cos f * sin f * sin d * cos b); [ring|]. replace (1 - sin f * sin f) with (cos f * cos f) by lra. ring. }
  rewrite X.
  transitivity (cos f * cos f * ((cos f * cos d - sin f * sin d * cos b) * (cos f * cos d - sin f * sin d * cos b) + sin d * sin d * (sin b * sin b))); [ring|].
  f_equal. unfold s. replace (sin b * sin b) with (1 - cos b * cos b) by lra.
  transitivity (cos d * cos d * (cos f * cos f) + sin d * sin d * (1 - cos b * cos b * (1 - sin f * sin f)) - 2 * sin f * cos f * sin d * cos d * cos b); [ring|].
  replace (1 - sin f * sin f) with (cos f * cos f) by lra. replace (cos f * cos f) with (1 - sin f * sin f) at 1 by lra.
  transitivity ((cos d * cos d + sin d * sin d) - (sin f * sin f * cos d * cos d + cos f * cos f * sin d * sin d * cos b * cos b + 2 * sin f * cos f * sin d * cos d * cos b)); [ring|].
  replace (cos d * cos d + sin d * sin d) with 1 by lra. ring.
Qed.
End Journey.

Lemma destination_forward lon lat b d r : valid_lat lat -> 0 < r -> 0 <= d <= PI * r ->
  exists lon2 lat2, destination lon lat b d (Some r) = Ok (lon2, lat2) /\ valid_lat lat2 /\ -180 <= lon2 <= 180 /\
    haversine lon lat lon2 lat2 (Some r) = Ok d /\
    (-90 < lat < 90 -> 0 < d < PI * r -> same_lon (bearing lon lat lon2 lat2) b).
Proof.
  intros V P D. pose proof PI_RGT_0 as PP. unfold destination. rewrite radius_some. cbn [bind]. rewrite ndivE_R by lra. cbn [bind].
  set (t := d / r). assert (Et : r * t = d) by (unfold t; field; lra).
  assert (Bt : 0 <= t <= PI) by (split; nra).
  set (f := radians lat). set (c := radians b). pose proof (journey_sin f c t) as Bs. rewrite math_asin_ok by exact Bs. cbn [bind].
  pose proof (cos_pos_lat lat V) as Pf. fold f in Pf.
  pose proof (journey_norm f c t Pf) as N. set (s := sin f * cos t + cos f * sin t * cos c) in *.
  rewrite sin_asin by exact Bs. set (f2 := asin s) in *. pose proof (asin_bound s) as B2. fold f2 in B2.
  assert (S2 : sin f2 = s) by (apply sin_asin; exact Bs).
  destruct (polar (cos t - sin f * s) (sin c * sin t * cos f)) as [PX PY]. rewrite N in PX, PY.
  set (dl := atan2 (sin c * sin t * cos f) (cos t - sin f * s)) in *.
  destruct (corangle_spec (radians lon - dl)) as (Bc & Tc & _). set (l2 := corangle (radians lon - dl)) in *.
  assert (Dt : same_turn (radians lon - l2) dl).
  { replace dl with (radians lon - (radians lon - dl)) by ring. apply same_turn_minus; [apply same_turn_refl|exact Tc]. }
  exists (degrees l2), (degrees f2). split; [reflexivity|]. split; [|split; [|split]].
  - unfold valid_lat, degrees. assert (f2 * (180 / PI) * PI = f2 * 180) by (field; lra). split; nra.
  - unfold degrees. assert (l2 * (180 / PI) * PI = l2 * 180) by (field; lra). split; nra.
  - assert (A : central_angle lon lat (degrees l2) (degrees f2) t).
    { split; [exact Bt|]. rewrite dot_formula, rad_minus, !rad_deg. fold f. replace (l2 - radians lon) with (- (radians lon - l2)) by ring.
      rewrite cos_neg, (same_turn_cos _ _ Dt), S2, PX. ring. }
    destruct (haversine_angle lon lat (degrees l2) (degrees f2) r) as (t' & E & A'). rewrite E, <- (angle_unique _ _ _ _ _ _ A A'). f_equal. exact Et.
  - intros VS DS. assert (Ts : 0 < t < PI) by (split; nra). assert (St : 0 < sin t) by (apply sin_gt_0; lra).
    pose proof (cos_pos_strict lat VS) as Cf. fold f in Cf. pose proof (sc f) as Qf.
    unfold bearing. rewrite rad_minus, !rad_deg. fold f. rewrite (same_turn_sin _ _ Dt), (same_turn_cos _ _ Dt), S2.
    rewrite <- (deg_rad b). apply same_turn_deg. fold c. apply (atan2_turn (sin t)); [exact St| |].
    + apply Rmult_eq_reg_l with (cos f); [|lra].
      transitivity (cos f * cos f * s - sin f * (cos f * cos f2 * cos dl)); [ring|]. rewrite PX.
      transitivity (s * (sin f * sin f + cos f * cos f) - sin f * cos t); [ring|]. rewrite Qf. unfold s. ring.
    + apply Rmult_eq_reg_l with (cos f); [|lra]. transitivity (cos f * cos f2 * sin dl); [ring|]. rewrite PY. ring.
Qed.
Lemma destination_default lon lat b d : exists r, radiusat lat None = Ok r /\ el_b WGS84 <= r <= el_a WGS84 /\
  destination lon lat b d None = destination lon lat b d (Some r).
Proof.
  destruct (radiusat_bounds lat WGS84 wgs84_ok) as (r & E & B). exists r. change (radiusat lat None) with (radiusat lat (Some WGS84)).
  split; [exact E|]. split; [exact B|]. unfold destination, radius_or. change (radiusat lat None) with (radiusat lat (Some WGS84)). rewrite E. reflexivity.
Qed.
Lemma radiusat_surface lat e : 0 < el_b e <= el_a e -> exists r x z k, radiusat lat (Some e) = Ok r /\ 0 <= r /\ r * r = x * x + z * z /\
  (x / el_a e) * (x / el_a e) + (z / el_b e) * (z / el_b e) = 1 /\
  0 < k /\ x / (el_a e * el_a e) = k * cos (rad lat) /\ z / (el_b e * el_b e) = k * sin (rad lat).
Proof.
  intros B. destruct (radiusat_bounds lat e B) as (r & E & Br). destruct B as [Pb L]. revert E. unfold radiusat. rewrite <- rad_radians.
  set (a := el_a e) in *. set (b := el_b e) in *. set (f := radians lat). pose proof (sc f) as S.
  set (den := a * a * cos f * cos f + b * b * sin f * sin f).
  assert (PC : 0 <= cos f * cos f) by apply Rle_0_sqr. assert (PD : 0 <= sin f * sin f) by apply Rle_0_sqr.
  assert (Den : 0 < den).
  { unfold den. replace (a * a * cos f * cos f) with (a * a * (cos f * cos f)) by ring. replace (b * b * sin f * sin f) with (b * b * (sin f * sin f)) by ring.
    assert (0 < b * b) by nra. assert (b * b <= a * a) by nra. nra. }
  rewrite ndivE_R by lra. cbn [bind]. intros E.
  set (q := (a * a * (a * a * cos f * cos f) + b * b * (b * b * sin f * sin f)) / den) in *.
  assert (Pq : 0 <= q).
  { unfold q. apply Rmult_le_pos; [|left; apply Rinv_0_lt_compat; exact Den].
    replace (a * a * (a * a * cos f * cos f)) with ((a * a * cos f) * (a * a * cos f)) by ring. replace (b * b * (b * b * sin f * sin f)) with ((b * b * sin f) * (b * b * sin f)) by ring.
    pose proof (Rle_0_sqr (a * a * cos f)). pose proof (Rle_0_sqr (b * b * sin f)). unfold Rsqr in *. lra. }
  pose proof E as E'. rewrite math_sqrt_ok in E' by exact Pq. injection E' as E'.
  set (n := sqrt den). assert (Pn : 0 < n) by (apply sqrt_lt_R0; exact Den). assert (Nn : n * n = den) by (apply sqrt_sqrt; lra).
  exists r, (a * a * cos f / n), (b * b * sin f / n), (/ n).
  assert (Pa : 0 < a) by lra.
  split; [exact E|]. split; [lra|]. split; [|split; [|split; [|split]]].
  - rewrite <- E'. rewrite sqrt_sqrt by exact Pq. unfold q. rewrite <- Nn. field. lra.
  - transitivity (den / (n * n)); [unfold den; field; split; [|split]; lra|]. rewrite Nn. field. lra.
  - apply Rinv_0_lt_compat, Pn.
  - field. lra.
  - field. lra.
Qed.
