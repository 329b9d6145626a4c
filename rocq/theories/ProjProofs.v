(** Map projections: the inverse undoes the projection. *)
From Coq Require Import Lia.
From Verif Require Import ProjModel GeoSpec TrigLib.
Open Scope R_scope.

Lemma div_r r x : r <> 0 -> ndivE (r * x) r = Ok x.
Proof. intros N. rewrite ndivE_R by exact N. f_equal. field. exact N. Qed.
Lemma asin_lat lat : valid_lat lat -> math_asin (sin (radians lat)) = Ok (radians lat).
Proof. intros V. rewrite math_asin_ok by apply SIN_bound. f_equal. apply asin_sin. pose proof (rad_lat lat V). lra. Qed.
Lemma new_lon0 l b r : p_lon0 (proj_new (Some (l, b)) r) = radians l.
Proof. reflexivity. Qed.
Lemma new_lat0 l b r : p_lat0 (proj_new (Some (l, b)) r) = radians b.
Proof. reflexivity. Qed.

Lemma corangle_back a b : same_turn (corangle (a - b) + b) a.
Proof. destruct (corangle_turn (a - b)) as (k & E). exists k. rewrite E. ring. Qed.
(** * Logarithms and hyperbolic functions *)
Lemma tan_quarter f : - (PI / 2) < f < PI / 2 -> tan (PI / 4 + f / 2) = (1 + sin f) / cos f /\ 0 < (1 + sin f) / cos f.
Proof.
  intros B. pose proof PI_RGT_0 as P. set (y := PI / 4 + f / 2). assert (Cy : 0 < cos y) by (apply cos_gt_0; unfold y; lra).
  assert (Cf : 0 < cos f) by (apply cos_gt_0; lra).
  assert (S2 : cos f = 2 * sin y * cos y). { rewrite <- sin_2a. unfold y. replace (2 * (PI / 4 + f / 2)) with (PI / 2 + f) by field. rewrite sin_plus, sin_PI2, cos_PI2. ring. }
  assert (C2 : sin f = 2 * sin y * sin y - 1). { pose proof (cos_2a_sin y) as H. replace (2 * y) with (PI / 2 + f) in H by (unfold y; field). rewrite cos_plus, sin_PI2, cos_PI2 in H. lra. }
  assert (E : tan y = (1 + sin f) / cos f).
  { unfold tan. rewrite C2, S2. assert (0 < sin y) by (apply sin_gt_0; unfold y; lra). field. lra. }
  split; [exact E|]. rewrite <- E. apply tan_gt_0; unfold y; lra.
Qed.
Lemma sinh_ln t : 0 < t -> sinh (ln t) = (t - / t) / 2.
Proof. intros P. unfold sinh. rewrite exp_Ropp, exp_ln by exact P. reflexivity. Qed.
Lemma sc_pos f : 0 < cos f -> 0 < 1 + sin f.
Proof. intros C. pose proof (sc f) as H. pose proof (SIN_bound f). assert (sin f <> -1) by (intros E; rewrite E in H; nra). lra. Qed.
Lemma gd_inverse f : - (PI / 2) < f < PI / 2 -> atan (sinh (ln (tan (PI / 4 + f / 2)))) = f.
Proof.
  intros B. destruct (tan_quarter f B) as [E P]. rewrite E. rewrite sinh_ln by exact P.
  assert (Cf : 0 < cos f) by (apply cos_gt_0; lra). pose proof (sc_pos f Cf) as Pf.
  replace (((1 + sin f) / cos f - / ((1 + sin f) / cos f)) / 2) with (tan f); [apply atan_tan; exact B|].
  unfold tan. pose proof (sc f) as Q.
  replace (/ ((1 + sin f) / cos f)) with ((1 - sin f) / cos f); [field; lra|].
  apply Rmult_eq_reg_r with ((1 + sin f) * cos f); [|nra].
  replace ((1 - sin f) / cos f * ((1 + sin f) * cos f)) with (1 - sin f * sin f) by (field; lra).
  replace (/ ((1 + sin f) / cos f) * ((1 + sin f) * cos f)) with (cos f * cos f) by (field; lra). lra.
Qed.
(** b = tanh h *)
Definition artanh (b : R) : R := ln ((1 + b) / (1 - b)) / 2.
Lemma artanh_hyp b : -1 < b < 1 -> 0 < sqrt (1 - b * b) /\ sinh (artanh b) = b / sqrt (1 - b * b) /\ cosh (artanh b) = 1 / sqrt (1 - b * b).
Proof.
  intros B. set (S := sqrt (1 - b * b)). assert (PS : 0 < S) by (apply sqrt_lt_R0; nra). split; [exact PS|].
  assert (SS : S * S = 1 - b * b) by (apply sqrt_sqrt; nra).
  assert (E : exp (artanh b) = S / (1 - b)).
  { apply Rsqr_inj; [left; apply exp_pos|left; apply Rdiv_lt_0_compat; lra|]. unfold Rsqr. rewrite <- exp_plus. unfold artanh.
    replace (ln ((1 + b) / (1 - b)) / 2 + ln ((1 + b) / (1 - b)) / 2) with (ln ((1 + b) / (1 - b))) by field.
    rewrite exp_ln by (apply Rdiv_lt_0_compat; lra). replace (S / (1 - b) * (S / (1 - b))) with ((S * S) / ((1 - b) * (1 - b))) by (field; lra).
    rewrite SS. field. lra. }
  assert (E' : exp (- artanh b) = (1 - b) / S) by (rewrite exp_Ropp, E; field; lra).
  split; [unfold sinh|unfold cosh]; rewrite E, E'.
  - apply Rmult_eq_reg_r with (2 * S * (1 - b)); [|apply Rmult_integral_contrapositive_currified; lra].
    replace ((S / (1 - b) - (1 - b) / S) / 2 * (2 * S * (1 - b))) with (S * S - (1 - b) * (1 - b)) by (field; lra). rewrite SS. field. lra.
  - apply Rmult_eq_reg_r with (2 * S * (1 - b)); [|apply Rmult_integral_contrapositive_currified; lra].
    replace ((S / (1 - b) + (1 - b) / S) / 2 * (2 * S * (1 - b))) with (S * S + (1 - b) * (1 - b)) by (field; lra). rewrite SS. field. lra.
Qed.

(** * Mercator *)
Lemma mercator_forward l0 b0 r lon lat : -90 < lat < 90 -> exists x y, mercator_geo2rect (proj_new (Some (l0, b0)) (Some r)) lon lat = Ok (x, y) /\
  x = r * corangle (radians lon - radians l0) /\ y = r * ln (tan (PI / 4 + radians lat / 2)).
Proof.
  intros B. unfold mercator_geo2rect. destruct (Req_bool_spec lat (-90)) as [E|_]; [lra|].
  destruct (tan_quarter (radians lat) (rad_lat_strict lat B)) as [T P]. rewrite math_log_ok by (rewrite T; exact P). cbn [bind].
  eexists _, _. split; [reflexivity|]. split; reflexivity.
Qed.
Lemma mercator_round l0 b0 r lon lat : r <> 0 -> -90 < lat < 90 -> let p := proj_new (Some (l0, b0)) (Some r) in
  exists x y lon', mercator_geo2rect p lon lat = Ok (x, y) /\ mercator_rect2geo p x y = Ok (lon', lat) /\ same_lon lon' lon /\ -180 <= lon' <= 180.
Proof.
  intros N B p. destruct (mercator_forward l0 b0 r lon lat B) as (x & y & E & -> & ->). fold p in E. eexists _, _, _. split; [exact E|].
  unfold mercator_rect2geo. change (p_r p) with r. rewrite !div_r by exact N. cbn [bind]. rewrite gd_inverse by (apply rad_lat_strict; exact B).
  rewrite deg_rad. split; [reflexivity|]. split.
  - apply same_lon_rad. rewrite rad_deg. eapply same_turn_trans; [apply corangle_turn|]. change (p_lon0 p) with (radians l0).
    apply corangle_back.
  - match goal with |- context [corangle ?a] => destruct (corangle_spec a) as (Bc & _ & _); set (c := corangle a) in * end.
    pose proof PI_RGT_0 as PP. unfold degrees. assert (c * (180 / PI) * PI = c * 180) by (field; lra). split; nra.
Qed.
Lemma mercator_pole p lon : mercator_geo2rect p lon (-90) = Err ProjectionError.
Proof. unfold mercator_geo2rect. destruct (Req_bool_spec (-90) (-90)); [reflexivity|congruence]. Qed.

(** * Transverse Mercator *)
Lemma tmercator_round l0 b0 r lon lat : r <> 0 -> -90 < lat < 90 -> let p := proj_new (Some (l0, b0)) (Some r) in
  -1 < cos (rad lat) * sin (rad (lon - l0)) < 1 ->
  exists x y lon', tmercator_geo2rect p lon lat = Ok (x, y) /\ tmercator_rect2geo p x y = Ok (lon', lat) /\ same_lon lon' lon.
Proof.
  intros N B p L. unfold tmercator_geo2rect. change (p_lon0 p) with (radians l0). change (p_lat0 p) with (radians b0). change (p_r p) with r.
  rewrite <- !rad_radians, rad_minus in L. set (f := radians lat) in *. set (D := radians lon - radians l0) in *. set (b := cos f * sin D) in *.
  destruct (Req_bool_spec b (-1)); [lra|]. destruct (Req_bool_spec b 1); [lra|]. cbn [orb].
  rewrite math_atanh_ok by exact L. cbn [bind]. eexists _, _, _. split; [reflexivity|].
  unfold tmercator_rect2geo. change (p_lon0 p) with (radians l0). change (p_lat0 p) with (radians b0). change (p_r p) with r.
  rewrite !div_r by exact N. cbn [bind]. fold (artanh b).
  destruct (artanh_hyp b L) as (PS & Sh & Ch). rewrite Sh, Ch.
  set (d := corangle (atan2 (tan f) (cos D) - radians b0) + radians b0).
  assert (Td : same_turn d (atan2 (tan f) (cos D))).
  { apply corangle_back. }
  rewrite (same_turn_sin _ _ Td), (same_turn_cos _ _ Td).
  destruct (polar (cos D) (tan f)) as [PC PT]. set (rho := sqrt (cos D * cos D + tan f * tan f)) in *.
  pose proof (cos_pos_strict lat B) as Cf. fold f in Cf. pose proof (sc f) as Qf. pose proof (sc D) as QD.
  assert (Sq : sqrt (1 - b * b) = cos f * rho).
  { unfold rho. rewrite <- (sqrt_square (cos f)) at 1 by lra. rewrite <- sqrt_mult; [|nra|nra]. f_equal. unfold b, tan.
    replace (cos f * cos f * (cos D * cos D + sin f / cos f * (sin f / cos f))) with (cos f * cos f * (cos D * cos D) + sin f * sin f) by (field; lra).
    replace (cos D * cos D) with (1 - sin D * sin D) by lra. lra. }
  rewrite Sq in *. assert (Pr : 0 < rho) by (destruct (Rle_or_lt rho 0); [nra|assumption]).
  set (a := atan2 (tan f) (cos D)) in *.
  rewrite ndivE_R; [|apply Rgt_not_eq, Rdiv_lt_0_compat; lra]. cbn [bind].
  replace (sin a / (1 / (cos f * rho))) with (sin f); cycle 1.
  { replace (sin a / (1 / (cos f * rho))) with ((rho * sin a) * cos f) by (field; lra). rewrite PT. unfold tan. field. lra. }
  pose proof (asin_lat lat ltac:(unfold valid_lat; lra)) as AL. fold f in AL. rewrite AL. cbn [bind]. replace (degrees f) with lat by (symmetry; apply deg_rad). split; [reflexivity|].
  apply same_lon_rad. rewrite rad_deg. replace (radians lon) with (radians l0 + D) by (unfold D; ring).
  apply same_turn_plus; [apply same_turn_refl|].
  apply (atan2_turn (/ rho)); [apply Rinv_0_lt_compat; exact Pr| |].
  - fold a. apply Rmult_eq_reg_l with rho; [|lra]. rewrite PC. field. lra.
  - fold rho. unfold b. field. lra.
Qed.
Lemma tmercator_edge l0 b0 r lon lat : let p := proj_new (Some (l0, b0)) (Some r) in
  cos (rad lat) * sin (rad (lon - l0)) = 1 \/ cos (rad lat) * sin (rad (lon - l0)) = -1 -> tmercator_geo2rect p lon lat = Err ProjectionError.
Proof.
  intros p E. unfold tmercator_geo2rect. change (p_lon0 p) with (radians l0). rewrite <- !rad_radians, rad_minus in E.
  destruct (Req_bool_spec (cos (radians lat) * sin (radians lon - radians l0)) (-1)); [reflexivity|].
  destruct (Req_bool_spec (cos (radians lat) * sin (radians lon - radians l0)) 1); [reflexivity|]. tauto.
Qed.

(** * Oblique Mercator *)
Lemma atan_cos_sin v h : 0 < h -> let w := sqrt (h * h + v * v) in 0 < w /\ cos (atan (v / h)) = h / w /\ sin (atan (v / h)) = v / w.
Proof.
  intros P w. assert (W : w = h * sqrt (1 + (v / h)²)) by (apply sqrt_scaled; exact P). pose proof (sqrt_pos_1 (v / h)) as Q.
  split; [rewrite W; apply Rmult_lt_0_compat; assumption|]. rewrite cos_atan, sin_atan, W. split; field; lra.
Qed.
Lemma tan_back D : 0 < cos D -> same_turn (atan (tan D)) D.
Proof.
  intros C. pose proof (atan_cos_sin (sin D) (cos D) C) as (W & Ec & Es). rewrite Rplus_comm, sc, sqrt_1 in *.
  unfold tan. apply same_angle; [rewrite Ec|rewrite Es]; field.
Qed.
Lemma tan_back_neg D : cos D < 0 -> same_turn (atan (tan D)) (D + PI).
Proof.
  intros C. assert (T : tan D = tan (D + PI)).
  { unfold tan. rewrite neg_sin, neg_cos. field. lra. }
  rewrite T. apply tan_back. rewrite neg_cos. lra.
Qed.
Lemma omercator_round l0 b0 r lon lat : r <> 0 -> -90 < lat < 90 -> let p := proj_new (Some (l0, b0)) (Some r) in
  0 < cos (rad (lon - l0)) ->
  exists x y lon', omercator_geo2rect p lon lat = Ok (x, y) /\ omercator_rect2geo p x y = Ok (lon', lat) /\ same_lon lon' lon.
Proof.
  intros N B p L. unfold omercator_geo2rect. change (p_lon0 p) with (radians l0). change (p_lat0 p) with (radians b0). change (p_r p) with r.
  rewrite <- !rad_radians, rad_minus in L. set (f := radians lat) in *. set (D := radians lon - radians l0) in *.
  set (c := cos (radians b0)). set (s := sin (radians b0)). pose proof (sc (radians b0)) as Q0. fold c s in Q0.
  pose proof (cos_pos_strict lat B) as Cf. fold f in Cf. pose proof (sc f) as Qf. pose proof (sc D) as QD.
  set (a := s * sin f - c * cos f * sin D). set (V := sin f * c + s * cos f * sin D). set (H := cos f * cos D).
  assert (PH : 0 < H) by (apply Rmult_lt_0_compat; assumption).
  assert (One : a * a + V * V + H * H = 1).
  { transitivity ((s * s + c * c) * (sin f * sin f) + (s * s + c * c) * (cos f * cos f) * (sin D * sin D) + cos f * cos f * (cos D * cos D)); [unfold a, V, H; ring|].
    rewrite Q0. transitivity (sin f * sin f + cos f * cos f * (sin D * sin D + cos D * cos D)); [ring|]. rewrite QD. lra. }
  assert (Ba : -1 < a < 1) by (split; nra).
  assert (Ev : tan f * c + s * sin D = V / cos f) by (unfold V, tan; field; lra). rewrite Ev.
  rewrite ndivE_R by lra. cbn [bind]. rewrite math_atanh_ok by exact Ba. cbn [bind]. fold (artanh a).
  replace (V / cos f / cos D) with (V / H) by (unfold H; field; lra).
  eexists _, _, _. split; [reflexivity|].
  unfold omercator_rect2geo. change (p_lon0 p) with (radians l0). change (p_lat0 p) with (radians b0). change (p_r p) with r. fold c s.
  rewrite !div_r by exact N. cbn [bind]. destruct (artanh_hyp a Ba) as (PS & Sh & Ch).
  assert (Th : tanh (artanh a) = a) by (unfold tanh; rewrite Sh, Ch; field; lra). rewrite Th, Sh, Ch.
  destruct (atan_cos_sin V H PH) as (PW & Ec & Es). rewrite Ec, Es. assert (EW : sqrt (1 - a * a) = sqrt (H * H + V * V)) by (f_equal; lra). rewrite EW in *.
  set (W := sqrt (H * H + V * V)) in *.
  rewrite ndivE_R by (apply Rgt_not_eq, Rdiv_lt_0_compat; lra). cbn [bind].
  replace (s * a + c * (V / W) / (1 / W)) with (sin f); cycle 1.
  { replace (c * (V / W) / (1 / W)) with (c * V) by (field; lra). unfold a, V. transitivity ((s * s + c * c) * sin f); [rewrite Q0; ring|ring]. }
  pose proof (asin_lat lat ltac:(unfold valid_lat; lra)) as AL. fold f in AL. rewrite AL. cbn [bind].
  rewrite ndivE_R by (apply Rgt_not_eq, Rdiv_lt_0_compat; lra). cbn [bind]. replace (degrees f) with lat by (symmetry; apply deg_rad). split; [reflexivity|].
  fold W. replace ((s * (V / W) - c * (a / W)) / (H / W)) with (tan D); cycle 1.
  { replace ((s * (V / W) - c * (a / W)) / (H / W)) with ((s * V - c * a) / H) by (field; lra).
    replace (s * V - c * a) with ((s * s + c * c) * (cos f * sin D)) by (unfold a, V; ring). rewrite Q0. unfold H, tan. field. lra. }
  apply same_lon_rad. rewrite rad_deg. replace (radians lon) with (radians l0 + D) by (unfold D; ring).
  apply same_turn_plus; [apply same_turn_refl|apply tan_back; exact L].
Qed.
Lemma omercator_quarter l0 b0 r lon lat : let p := proj_new (Some (l0, b0)) (Some r) in
  cos (rad (lon - l0)) = 0 -> omercator_geo2rect p lon lat = Err ZeroDivisionError.
Proof.
  intros p E. unfold omercator_geo2rect. change (p_lon0 p) with (radians l0). rewrite <- rad_radians, rad_minus in E. rewrite E, ndivE_zero. reflexivity.
Qed.
(** On the far side another point comes back, shown for an equatorial origin. *)
Lemma omercator_far l0 r lon lat : r <> 0 -> -90 < lat < 90 -> let p := proj_new (Some (l0, 0)) (Some r) in
  cos (rad (lon - l0)) < 0 -> exists x y lon', omercator_geo2rect p lon lat = Ok (x, y) /\ omercator_rect2geo p x y = Ok (lon', - lat) /\ same_lon (lon' - l0) (180 - (lon - l0)).
Proof.
  intros N B p L. set (m := 2 * l0 + 180 - lon).
  assert (L' : 0 < cos (rad (m - l0))).
  { unfold m. replace (rad (2 * l0 + 180 - lon - l0)) with (PI - rad (lon - l0)) by (unfold rad; field). rewrite Rtrigo_facts.cos_pi_minus. lra. }
  destruct (omercator_round l0 0 r m (- lat) N ltac:(lra) L') as (x & y & lon' & E & E' & k & S). fold p in E, E'.
  exists x, y, lon'. split; [|split; [assumption|]]; [|exists k; rewrite S; unfold m; ring]. rewrite <- E. clear E E' S L'.
  unfold omercator_geo2rect. change (p_lon0 p) with (radians l0). change (p_lat0 p) with (radians 0). change (p_r p) with r.
  replace (radians 0) with 0 by (unfold radians; ring). rewrite cos_0, sin_0.
  replace (radians m - radians l0) with (PI - (radians lon - radians l0)) by (unfold m, radians; field).
  replace (radians (- lat)) with (- radians lat) by (unfold radians; ring). rewrite Rtrigo_facts.cos_pi_minus, Rtrigo_facts.sin_pi_minus, cos_neg, sin_neg, tan_neg.
  rewrite <- rad_radians, rad_minus in L. set (D := radians lon - radians l0) in *. set (f := radians lat).
  rewrite !ndivE_R by lra. cbn [bind].
  replace ((- tan f * 1 + 0 * sin D) / - cos D) with ((tan f * 1 + 0 * sin D) / cos D) by (field; lra).
  replace (0 * - sin f - 1 * cos f * sin D) with (0 * sin f - 1 * cos f * sin D) by ring. reflexivity.
Qed.

(** * Azimuthal projections *)
Section Azimuthal.
  Variables (l0 b0 r lon lat : R).
  Let p := proj_new (Some (l0, b0)) (Some r).
  Let f := radians lat.
  Let D := radians lon - radians l0.
  Let c0 := cos (radians b0).
  Let s0 := sin (radians b0).
  Let A := cos f * sin D.
  Let B := c0 * sin f - s0 * cos f * cos D.
  Let C := s0 * sin f + c0 * cos f * cos D.
  Let s := sqrt (1 - C * C).
  Lemma az_one : A * A + B * B + C * C = 1.
  Proof.
    pose proof (sc (radians b0)) as Q0. fold c0 s0 in Q0. pose proof (sc f) as Qf. pose proof (sc D) as QD.
    transitivity ((s0 * s0 + c0 * c0) * (sin f * sin f) + cos f * cos f * ((s0 * s0 + c0 * c0) * (cos D * cos D) + sin D * sin D)); [unfold A, B, C; ring|].
    rewrite Q0. transitivity (sin f * sin f + cos f * cos f * (sin D * sin D + cos D * cos D)); [ring|]. rewrite QD. lra.
  Qed.
  Lemma az_bound : -1 <= C <= 1.
  Proof. pose proof az_one. pose proof (Rle_0_sqr A). pose proof (Rle_0_sqr B). unfold Rsqr in *. split; nra. Qed.
  Lemma az_sin_pos : -1 < C < 1 -> 0 < s /\ s * s = 1 - C * C.
  Proof. intros H. split; [apply sqrt_lt_R0; nra|apply sqrt_sqrt; nra]. Qed.
  Lemma az_rho m : 0 <= m -> sqrt ((m * A) * (m * A) + (m * B) * (m * B)) = m * s.
  Proof.
    intros P. replace ((m * A) * (m * A) + (m * B) * (m * B)) with ((m * m) * (1 - C * C)) by (pose proof az_one; nra).
    rewrite sqrt_mult; [|nra|pose proof az_bound; nra]. rewrite sqrt_square by exact P. reflexivity.
  Qed.
  Lemma az_lat : C * s0 + B * c0 = sin f.
  Proof. pose proof (sc (radians b0)) as Q0. fold c0 s0 in Q0. transitivity ((s0 * s0 + c0 * c0) * sin f); [unfold B, C; ring|rewrite Q0; ring]. Qed.
  Lemma az_den : c0 * C - s0 * B = cos f * cos D.
  Proof. pose proof (sc (radians b0)) as Q0. fold c0 s0 in Q0. transitivity ((s0 * s0 + c0 * c0) * (cos f * cos D)); [unfold B, C; ring|rewrite Q0; ring]. Qed.
  Lemma az_polar (q : R) : (p_lat0 p = PI / 2 -> c0 = 0 /\ s0 = 1) /\ (p_lat0 p = - PI / 2 -> c0 = 0 /\ s0 = -1).
  Proof.
    unfold c0, s0. change (p_lat0 p) with (radians b0). split; intros ->.
    - rewrite cos_PI2, sin_PI2. auto.
    - replace (- PI / 2) with (- (PI / 2)) by field. rewrite cos_neg, sin_neg, cos_PI2, sin_PI2. auto.
  Qed.
  (** The common inverse, at a point m (A, B) of the plane with cos c = C *)
  Lemma inverse_at m c : valid_lat lat -> 0 < m -> -1 < C < 1 -> 0 <= c <= PI -> cos c = C -> cos f * cos D <> 0 ->
    azimuthal_inverse p c (m * s) (m * A) (m * B) = Ok (degrees (radians l0 + atan (tan D)), lat).
  Proof.
    intros V Pm HC Bc Ec ND. destruct (az_sin_pos HC) as [Ps Ss].
    assert (Es : sin c = s). { apply Rsqr_inj; [apply sin_ge_0; lra|lra|]. unfold Rsqr. pose proof (sc c) as Q. rewrite Ec in Q. lra. }
    unfold azimuthal_inverse. rewrite Ec, Es. change (cos (p_lat0 p)) with c0. change (sin (p_lat0 p)) with s0. change (p_lon0 p) with (radians l0).
    assert (Nd : cos D <> 0) by (intros E; apply ND; rewrite E; ring). assert (Nf : cos f <> 0) by (intros E; apply ND; rewrite E; ring).
    destruct (az_polar 0) as [P1 P2]. pose proof az_den as AD. pose proof az_lat as AL.
    assert (Q : (if Req_bool (p_lat0 p) (PI / 2) then ndivE (m * A) (- (m * B)) else if Req_bool (p_lat0 p) (- PI / 2) then ndivE (m * A) (m * B) else
      ndivE (m * A * s) (m * s * c0 * C - m * B * s0 * s)) = Ok (tan D)).
    { destruct (Req_bool_spec (p_lat0 p) (PI / 2)) as [E|_]; [|destruct (Req_bool_spec (p_lat0 p) (- PI / 2)) as [E|_]].
      - destruct (P1 E) as [E1 E2]. rewrite E1, E2 in AD. assert (EB : B = - (cos f * cos D)) by lra. rewrite EB. rewrite ndivE_R by nra. f_equal. unfold A, tan. field. repeat split; (assumption || lra).
      - destruct (P2 E) as [E1 E2]. rewrite E1, E2 in AD. assert (EB : B = cos f * cos D) by lra. rewrite EB. rewrite ndivE_R by nra. f_equal. unfold A, tan. field. repeat split; (assumption || lra).
      - replace (m * s * c0 * C - m * B * s0 * s) with (m * s * (cos f * cos D)) by (rewrite <- AD; ring).
        rewrite ndivE_R by (apply Rmult_integral_contrapositive_currified; nra). f_equal. unfold A, tan. field. repeat split; (assumption || lra). }
    rewrite Q. cbn [bind]. rewrite ndivE_R by nra. cbn [bind]. replace (C * s0 + m * B * s * c0 / (m * s)) with (sin f) by (rewrite <- AL; field; lra).
    unfold f. rewrite asin_lat by exact V. cbn [bind]. rewrite deg_rad. reflexivity.
  Qed.
  Lemma inverse_zero m c : 0 < m -> -1 < C < 1 -> 0 <= c <= PI -> cos c = C -> cos f * cos D = 0 ->
    azimuthal_inverse p c (m * s) (m * A) (m * B) = Err ZeroDivisionError.
  Proof.
    intros Pm HC Bc Ec ND. destruct (az_sin_pos HC) as [Ps Ss].
    assert (Es : sin c = s). { apply Rsqr_inj; [apply sin_ge_0; lra|lra|]. unfold Rsqr. pose proof (sc c) as Q. rewrite Ec in Q. lra. }
    unfold azimuthal_inverse. rewrite Ec, Es. change (cos (p_lat0 p)) with c0. change (sin (p_lat0 p)) with s0.
    destruct (az_polar 0) as [P1 P2]. pose proof az_den as AD. rewrite ND in AD.
    destruct (Req_bool_spec (p_lat0 p) (PI / 2)) as [E|_]; [|destruct (Req_bool_spec (p_lat0 p) (- PI / 2)) as [E|_]].
    - destruct (P1 E) as [E1 E2]. rewrite E1, E2 in AD. assert (EB : - (m * B) = 0) by nra. rewrite EB, ndivE_zero. reflexivity.
    - destruct (P2 E) as [E1 E2]. rewrite E1, E2 in AD. assert (EB : m * B = 0) by nra. rewrite EB, ndivE_zero. reflexivity.
    - replace (m * s * c0 * C - m * B * s0 * s) with (m * s * (c0 * C - s0 * B)) by ring. rewrite AD, Rmult_0_r, ndivE_zero. reflexivity.
  Qed.
  (** Stereographic *)
  Lemma stereo_at : 0 < r -> -1 < C < 1 -> exists m c, stereo_geo2rect p lon lat = Ok (m * A, m * B) /\ 0 < m /\ 0 <= c <= PI /\ cos c = C /\
    stereo_rect2geo p (m * A) (m * B) = azimuthal_inverse p c (m * s) (m * A) (m * B).
  Proof.
    intros Pr HC. destruct (az_sin_pos HC) as [Ps Ss]. set (q := s / (1 + C)).
    exists (r * (2 / (1 + C))), (2 * atan q). assert (Pm : 0 < r * (2 / (1 + C))) by (apply Rmult_lt_0_compat; [exact Pr|apply Rdiv_lt_0_compat; lra]).
    assert (Pq : 0 < q) by (apply Rdiv_lt_0_compat; lra).
    split; [|split; [exact Pm|]].
    - unfold stereo_geo2rect, azimuthal_cos, azimuthal_xy. fold f. change (p_lon0 p) with (radians l0). change (sin (p_lat0 p)) with s0. change (cos (p_lat0 p)) with c0. fold D. fold C.
      rewrite ndivE_R by lra. reflexivity.
    - split; [|split].
      + pose proof (atan_bound q). pose proof (atan_increasing 0 q Pq) as Hi. rewrite atan_0 in Hi. lra.
      + rewrite cos_2a_cos, cos_atan. pose proof (sqrt_pos_1 q) as W.
        replace (2 * (1 / sqrt (1 + q²)) * (1 / sqrt (1 + q²)) - 1) with (2 / (sqrt (1 + q²) * sqrt (1 + q²)) - 1) by (field; lra).
        rewrite sqrt_sqrt by (pose proof (Rle_0_sqr q); lra). unfold Rsqr, q.
        replace (s / (1 + C) * (s / (1 + C))) with ((s * s) / ((1 + C) * (1 + C))) by (field; lra). rewrite Ss. field. nra.
      + unfold stereo_rect2geo. rewrite math_sqrt_ok by nra. cbn [bind]. rewrite az_rho by lra. change (p_r p) with r. rewrite ndivE_R by lra. cbn [bind].
        replace (r * (2 / (1 + C)) * s / (2 * r)) with q by (unfold q; field; lra). reflexivity.
  Qed.
  (** Azimuthal equidistant *)
  Lemma equidistant_at : 0 < r -> -1 < C < 1 -> exists m c, equidistant_geo2rect p lon lat = Ok (m * A, m * B) /\ 0 < m /\ 0 <= c <= PI /\ cos c = C /\
    equidistant_rect2geo p (m * A) (m * B) = azimuthal_inverse p c (m * s) (m * A) (m * B).
  Proof.
    intros Pr HC. destruct (az_sin_pos HC) as [Ps Ss]. set (c := acos C). pose proof (acos_bound C) as Bc. fold c in Bc.
    assert (Ec : cos c = C) by (apply cos_acos; lra).
    assert (Es : sin c = s). { apply Rsqr_inj; [apply sin_ge_0; lra|lra|]. unfold Rsqr. pose proof (sc c) as Q. rewrite Ec in Q. lra. }
    assert (Pc : 0 < c). { destruct (Req_dec c 0) as [Z0|]; [|lra]. rewrite Z0, sin_0 in Es. lra. }
    exists (r * (c / s)), c. assert (Pm : 0 < r * (c / s)) by (apply Rmult_lt_0_compat; [exact Pr|apply Rdiv_lt_0_compat; lra]).
    split; [|split; [exact Pm|]].
    - unfold equidistant_geo2rect. fold f. change (p_lon0 p) with (radians l0). change (p_lat0 p) with (radians b0).
      destruct (Req_bool_spec (radians lon) (radians l0)) as [E1|_]; cbn [andb].
      + destruct (Req_bool_spec f (radians b0)) as [E2|_].
        * exfalso. assert (C = 1); [|lra]. unfold C, D, s0, c0. rewrite E1, <- E2. rewrite Rminus_diag_eq by reflexivity. rewrite cos_0. pose proof (sc f). lra.
        * unfold azimuthal_cos, azimuthal_xy. fold f. change (p_lon0 p) with (radians l0). change (sin (p_lat0 p)) with s0. change (cos (p_lat0 p)) with c0. fold D. fold C.
          rewrite math_acos_ok by lra. cbn [bind]. fold c. rewrite Es, ndivE_R by lra. reflexivity.
      + unfold azimuthal_cos, azimuthal_xy. fold f. change (p_lon0 p) with (radians l0). change (sin (p_lat0 p)) with s0. change (cos (p_lat0 p)) with c0. fold D. fold C.
        rewrite math_acos_ok by lra. cbn [bind]. fold c. rewrite Es, ndivE_R by lra. reflexivity.
    - split; [lra|]. split; [exact Ec|].
      unfold equidistant_rect2geo. rewrite math_sqrt_ok by nra. cbn [bind]. rewrite az_rho by lra. change (p_r p) with r. rewrite ndivE_R by lra. cbn [bind].
      replace (r * (c / s) * s / r) with c by (field; lra). reflexivity.
  Qed.
  (** Lambert azimuthal equal-area *)
  Lemma equalarea_at : 0 < r -> -1 < C < 1 -> exists m c, equalarea_geo2rect p lon lat = Ok (m * A, m * B) /\ 0 < m /\ 0 <= c <= PI /\ cos c = C /\
    equalarea_rect2geo p (m * A) (m * B) = azimuthal_inverse p c (m * s) (m * A) (m * B).
  Proof.
    intros Pr HC. destruct (az_sin_pos HC) as [Ps Ss]. set (k := sqrt (2 / (1 + C))).
    assert (Pk2 : 0 < 2 / (1 + C)) by (apply Rdiv_lt_0_compat; lra). assert (Pk : 0 < k) by (apply sqrt_lt_R0; exact Pk2).
    assert (Kk : k * k = 2 / (1 + C)) by (apply sqrt_sqrt; lra).
    set (z := k * s / 2). assert (Pz : 0 < z) by (unfold z; nra).
    assert (Zz : z * z = (1 - C) / 2). { unfold z. replace (k * s / 2 * (k * s / 2)) with ((k * k) * (s * s) / 4) by field. rewrite Kk, Ss. field. lra. }
    assert (Bz : z <= 1) by nra.
    exists (r * k), (2 * asin z). assert (Pm : 0 < r * k) by (apply Rmult_lt_0_compat; assumption).
    split; [|split; [exact Pm|]].
    - unfold equalarea_geo2rect, azimuthal_cos, azimuthal_xy. fold f. change (p_lon0 p) with (radians l0). change (sin (p_lat0 p)) with s0. change (cos (p_lat0 p)) with c0. fold D. fold C.
      rewrite ndivE_R by lra. cbn [bind]. rewrite math_sqrt_ok by lra. reflexivity.
    - assert (Sz : sin (asin z) = z) by (apply sin_asin; lra). split; [|split].
      + pose proof (asin_bound z) as H. split; [|lra]. destruct (Rle_or_lt 0 (asin z)) as [H1|H1]; [lra|]. exfalso.
        pose proof PI_RGT_0. assert (sin (asin z) < 0) by (apply sin_lt_0_var; lra). lra.
      + rewrite cos_2a_sin, Sz. lra.
      + unfold equalarea_rect2geo. rewrite math_sqrt_ok by nra. cbn [bind]. rewrite az_rho by lra. change (p_r p) with r. rewrite ndivE_R by lra. cbn [bind].
        replace (r * k * s / (2 * r)) with z by (unfold z; field; lra). rewrite math_asin_ok by lra. reflexivity.
  Qed.
End Azimuthal.

(** * Albers *)
Lemma conic_c lat1 lat2 : cos (radians lat1) * cos (radians lat1) + 2 * ((sin (radians lat1) + sin (radians lat2)) / 2) * sin (radians lat1) = 1 + sin (radians lat1) * sin (radians lat2).
Proof. pose proof (sc (radians lat1)). nra. Qed.
Lemma conic_make lat1 lat2 r : sin (rad lat1) + sin (rad lat2) <> 0 -> exists k, conic_new (Some (lat1, lat2)) (Some r) = Ok k /\
  k_r k = r /\ k_n k = (sin (rad lat1) + sin (rad lat2)) / 2 /\ k_c k = 1 + sin (rad lat1) * sin (rad lat2).
Proof.
  intros N. rewrite <- !rad_radians in *. unfold conic_new. rewrite conic_c. pose proof (SIN_bound (radians lat1)). pose proof (SIN_bound (radians lat2)).
  rewrite math_sqrt_ok by nra. cbn [bind]. rewrite ndivE_R by lra. cbn [bind]. eexists. split; [reflexivity|]. cbn. auto.
Qed.
Lemma conic_default lat1 lat2 r : sin (rad lat1) + sin (rad lat2) = 0 -> conic_new (Some (lat1, lat2)) r = Err ZeroDivisionError.
Proof.
  intros N. rewrite <- !rad_radians in *. unfold conic_new. rewrite conic_c. pose proof (SIN_bound (radians lat1)). pose proof (SIN_bound (radians lat2)).
  rewrite math_sqrt_ok by nra. cbn [bind]. replace ((sin (radians lat1) + sin (radians lat2)) / 2) with 0 by lra. rewrite ndivE_zero. reflexivity.
Qed.
Lemma conic_round lat1 lat2 r lon lat : 0 < r -> sin (rad lat1) + sin (rad lat2) <> 0 -> -90 < lat < 90 ->
  -180 < (sin (rad lat1) + sin (rad lat2)) / 2 * lon <= 180 ->
  exists k x y, conic_new (Some (lat1, lat2)) (Some r) = Ok k /\ conic_geo2rect k lon lat = Ok (x, y) /\ conic_rect2geo k x y = Ok (lon, lat).
Proof.
  intros Pr N B T. destruct (conic_make lat1 lat2 r N) as (k & Ek & Kr & Kn & Kc). set (s1 := sin (rad lat1)) in *. set (s2 := sin (rad lat2)) in *.
  assert (B1 : -1 <= s1 <= 1) by apply SIN_bound. assert (B2 : -1 <= s2 <= 1) by apply SIN_bound.
  set (n := (s1 + s2) / 2) in *. assert (Nn : n <> 0) by (unfold n; lra).
  set (f := radians lat). pose proof (cos_pos_strict lat B) as Cf. fold f in Cf. pose proof (sc f) as Qf.
  assert (Bs : -1 < sin f < 1) by (split; nra).
  set (w := k_c k - 2 * k_n k * sin f). assert (Pw : 0 < w).
  { unfold w. rewrite Kc, Kn. unfold n. replace (1 + s1 * s2 - 2 * ((s1 + s2) / 2) * sin f) with (((1 - s1) * (1 - s2) * (1 + sin f) + (1 + s1) * (1 + s2) * (1 - sin f)) / 2) by field.
    assert (0 <= (1 - s1) * (1 - s2)) by nra. assert (0 <= (1 + s1) * (1 + s2)) by nra.
    assert (H1 : 0 < (1 - s1) * (1 - s2) \/ 0 < (1 + s1) * (1 + s2)). { destruct (Req_dec ((1 - s1) * (1 - s2)) 0) as [Z0|]; [right|left; lra].
      destruct (Req_dec ((1 + s1) * (1 + s2)) 0) as [Z1|]; [|lra]. exfalso. apply N. lra. }
    destruct H1; nra. }
  set (q := sqrt w). assert (Pq : 0 < q) by (apply sqrt_lt_R0; exact Pw). assert (Qq : q * q = w) by (apply sqrt_sqrt; lra).
  exists k. unfold conic_geo2rect. fold f. fold w. rewrite math_sqrt_ok by lra. cbn [bind]. fold q. rewrite Kr, Kn. rewrite ndivE_R by exact Nn. cbn [bind].
  set (t := n * radians lon). set (P := r * q / n). eexists _, _. split; [exact Ek|]. split; [reflexivity|].
  unfold conic_rect2geo. rewrite Kr, Kn.
  replace (P * sin t * (P * sin t) + (k_p0 k - (k_p0 k - P * cos t)) * (k_p0 k - (k_p0 k - P * cos t))) with (P * P) by (pose proof (sc t); nra).
  rewrite math_sqrt_ok by nra. cbn [bind].
  assert (Et : - PI < t <= PI). { unfold t, radians. pose proof PI_RGT_0. split; nra. }
  assert (L : forall x y, (exists m, 0 < m /\ x = m * sin t /\ y = m * cos t) -> ndivE (atan2 x y) n = Ok (radians lon)).
  { intros x y (m & Pm & -> & ->). rewrite atan2_polar by assumption. rewrite ndivE_R by exact Nn. f_equal. unfold t. field. exact Nn. }
  assert (Fin : (pnr <- ndivE (sqrt (P * P) * n) r ;; q0 <- ndivE (k_c k - pnr * pnr) (2 * n) ;; lat0 <- math_asin q0 ;; Ok (degrees (radians lon), degrees lat0)) = Ok (lon, lat)).
  { rewrite ndivE_R by lra. cbn [bind]. rewrite ndivE_R by lra. cbn [bind].
    replace (sqrt (P * P) * n / r * (sqrt (P * P) * n / r)) with ((sqrt (P * P) * sqrt (P * P)) * n * n / (r * r)) by (field; lra). rewrite sqrt_sqrt by nra.
    replace (P * P * n * n / (r * r)) with (q * q) by (unfold P; field; lra). rewrite Qq. unfold w. rewrite Kn.
    replace ((k_c k - (k_c k - 2 * n * sin f)) / (2 * n)) with (sin f) by (field; exact Nn). unfold f. rewrite asin_lat by (unfold valid_lat; lra). cbn [bind]. rewrite !deg_rad. reflexivity. }
  destruct (Rlt_bool_spec n 0) as [S|S].
  - rewrite L; [exact Fin|]. exists (- P). assert (P < 0) by (unfold P, Rdiv; pose proof (Rinv_lt_0_compat n S); pose proof (Rmult_lt_0_compat r q Pr Pq); nra). split; [lra|]. split; ring.
  - rewrite L; [exact Fin|]. exists P. assert (0 < P) by (unfold P; apply Rdiv_lt_0_compat; nra). split; [lra|]. split; ring.
Qed.
