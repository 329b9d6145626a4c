(** The azimuthal projections against the sphere. *)
From Coq Require Import Lia.
From Verif Require Import GeoModel GeoSpec TrigLib GeoProofs ProjModel ProjProofs.
From Coq Require Import Lra.
Open Scope R_scope.

Section Azimuthal.
  Variables (l0 b0 r lon lat : R).
  Let p := proj_new (Some (l0, b0)) (Some r).
  Let f := radians lat.
  Let D := radians lon - radians l0.
  Let A := cos f * sin D.
  Let B := cos (radians b0) * sin f - sin (radians b0) * cos f * cos D.
  Let C := sin (radians b0) * sin f + cos (radians b0) * cos f * cos D.
  Let u := dot (on_sphere l0 b0) (on_sphere lon lat).
  Lemma az_dot : u = C.
  Proof. unfold u, C, f, D. rewrite dot_formula, rad_minus. ring. Qed.
  (** What the three projections have in common *)
  Definition azimuthal (g i : R -> R -> res (R * R)) : Prop :=
    exists m c, g lon lat = Ok (m * A, m * B) /\ 0 < m /\ 0 <= c <= PI /\ cos c = C /\ i (m * A) (m * B) = azimuthal_inverse p c (m * sqrt (1 - C * C)) (m * A) (m * B).
  Variables (g i : R -> R -> res (R * R)).
  Hypothesis At : -1 < C < 1 -> azimuthal g i.
  Lemma cos_D : cos (rad (lon - l0)) = cos D.
  Proof. unfold D. rewrite <- rad_radians, rad_minus. reflexivity. Qed.
  Lemma az_near : -90 < lat < 90 -> -1 < u < 1 -> 0 < cos (rad (lon - l0)) -> exists x y lon', g lon lat = Ok (x, y) /\ i x y = Ok (lon', lat) /\ same_lon lon' lon.
  Proof.
    intros V U N. rewrite cos_D in N. rewrite az_dot in U. destruct (At U) as (m & c & E & Pm & Bc & Ec & I). exists (m * A), (m * B). eexists. split; [exact E|]. split.
    - rewrite I. apply inverse_at; try assumption; [unfold valid_lat; lra|]. pose proof (cos_pos_strict lat V). fold f in H. apply Rmult_integral_contrapositive_currified; fold D f; lra.
    - fold D. pose proof (tan_back D N) as T. rewrite <- (TrigLib.deg_rad lon). apply same_turn_deg. replace (radians lon) with (radians l0 + D) by (unfold D; ring). apply same_turn_plus; [apply same_turn_refl|exact T].
  Qed.
  Lemma az_far : -90 < lat < 90 -> -1 < u < 1 -> cos (rad (lon - l0)) < 0 -> exists x y lon', g lon lat = Ok (x, y) /\ i x y = Ok (lon', lat) /\ same_lon lon' (lon + 180).
  Proof.
    intros V U N. rewrite cos_D in N. rewrite az_dot in U. destruct (At U) as (m & c & E & Pm & Bc & Ec & I). exists (m * A), (m * B). eexists. split; [exact E|]. split.
    - rewrite I. apply inverse_at; try assumption; [unfold valid_lat; lra|]. pose proof (cos_pos_strict lat V). fold f in H. apply Rmult_integral_contrapositive_currified; fold D f; lra.
    - fold D. pose proof (tan_back_neg D N) as T. rewrite <- (TrigLib.deg_rad (lon + 180)). apply same_turn_deg. replace (radians (lon + 180)) with (radians l0 + (D + PI)) by (unfold D, radians; field). apply same_turn_plus; [apply same_turn_refl|exact T].
  Qed.
  Lemma az_edge : -1 < u < 1 -> cos (rad (lon - l0)) = 0 \/ cos (rad lat) = 0 -> exists x y, g lon lat = Ok (x, y) /\ i x y = Err ZeroDivisionError.
  Proof.
    intros U N. rewrite cos_D, <- rad_radians in N. fold f in N. rewrite az_dot in U. destruct (At U) as (m & c & E & Pm & Bc & Ec & I). exists (m * A), (m * B). split; [exact E|].
    rewrite I. apply inverse_zero; try assumption. fold D f. destruct N as [-> | ->]; ring.
  Qed.
  (** At the centre itself *)
  Lemma az_centre_AB : u = 1 -> A = 0 /\ B = 0.
  Proof.
    intros U. rewrite az_dot in U. pose proof (az_one l0 b0 lon lat) as O. fold f D in O. fold A B C in O. rewrite U in O.
    pose proof (Rle_0_sqr A) as PA. pose proof (Rle_0_sqr B) as PB. unfold Rsqr in *. split; apply Rsqr_0_uniq; unfold Rsqr; lra.
  Qed.
End Azimuthal.

Section Three.
  Variables (l0 b0 r lon lat : R).
  Let p := proj_new (Some (l0, b0)) (Some r).
  Let u := dot (on_sphere l0 b0) (on_sphere lon lat).
  Lemma stereo_az : 0 < r -> -1 < sin (radians b0) * sin (radians lat) + cos (radians b0) * cos (radians lat) * cos (radians lon - radians l0) < 1 ->
    azimuthal l0 b0 r lon lat (stereo_geo2rect p) (stereo_rect2geo p).
  Proof. intros P H. exact (stereo_at l0 b0 r lon lat P H). Qed.
  Lemma equidistant_az : 0 < r -> -1 < sin (radians b0) * sin (radians lat) + cos (radians b0) * cos (radians lat) * cos (radians lon - radians l0) < 1 ->
    azimuthal l0 b0 r lon lat (equidistant_geo2rect p) (equidistant_rect2geo p).
  Proof. intros P H. exact (equidistant_at l0 b0 r lon lat P H). Qed.
  Lemma equalarea_az : 0 < r -> -1 < sin (radians b0) * sin (radians lat) + cos (radians b0) * cos (radians lat) * cos (radians lon - radians l0) < 1 ->
    azimuthal l0 b0 r lon lat (equalarea_geo2rect p) (equalarea_rect2geo p).
  Proof. intros P H. exact (equalarea_at l0 b0 r lon lat P H). Qed.

  Lemma inverse_centre c : azimuthal_inverse p c 0 0 0 = Err ZeroDivisionError.
  Proof.
    unfold azimuthal_inverse. cbv zeta.
    replace (- (0)) with 0 by ring.
    destruct (Req_bool (p_lat0 p) (PI / 2)); [rewrite ndivE_zero; reflexivity|]. destruct (Req_bool (p_lat0 p) (- PI / 2)); [rewrite ndivE_zero; reflexivity|].
    replace (0 * cos (p_lat0 p) * cos c - 0 * sin (p_lat0 p) * sin c) with 0 by ring. rewrite ndivE_zero. reflexivity.
  Qed.
  Lemma sqrt_00 : sqrt (0 * 0 + 0 * 0) = 0.
  Proof. replace (0 * 0 + 0 * 0) with 0 by ring. apply sqrt_0. Qed.
  Lemma centre_back : 0 < r -> stereo_rect2geo p 0 0 = Err ZeroDivisionError /\ equidistant_rect2geo p 0 0 = Err ZeroDivisionError /\ equalarea_rect2geo p 0 0 = Err ZeroDivisionError.
  Proof.
    intros P. unfold stereo_rect2geo, equidistant_rect2geo, equalarea_rect2geo. rewrite !math_sqrt_ok by lra. cbn [bind]. rewrite sqrt_00. change (p_r p) with r. rewrite !ndivE_R by lra. cbn [bind].
    rewrite math_asin_ok by (replace (0 / (2 * r)) with 0 by (field; lra); lra). cbn [bind]. split; [|split]; apply inverse_centre.
  Qed.
  Lemma centre_forth : u = 1 -> stereo_geo2rect p lon lat = Ok (0, 0) /\ equalarea_geo2rect p lon lat = Ok (0, 0) /\
    equidistant_geo2rect p lon lat = (if Req_bool lon l0 && Req_bool lat b0 then Ok (0, 0) else Err ZeroDivisionError).
  Proof.
    intros U. destruct (az_centre_AB l0 b0 lon lat U) as [EA EB]. unfold u in U. rewrite az_dot in U.
    unfold stereo_geo2rect, equalarea_geo2rect, equidistant_geo2rect, azimuthal_cos, azimuthal_xy. change (p_lon0 p) with (radians l0). change (p_lat0 p) with (radians b0). change (p_r p) with r.
    rewrite U, EA, EB. rewrite ndivE_R by lra. cbn [bind]. rewrite math_sqrt_ok by lra. cbn [bind].
    split; [rewrite !Rmult_0_r; reflexivity|]. split; [rewrite !Rmult_0_r; reflexivity|].
    assert (Q : forall x y, Req_bool (radians x) (radians y) = Req_bool x y).
    { intros x y. destruct (Req_bool_spec x y) as [E0|N], (Req_bool_spec (radians x) (radians y)) as [E|M]; [reflexivity|subst; congruence| |reflexivity]. exfalso. apply N. rewrite <- (TrigLib.deg_rad x), <- (TrigLib.deg_rad y), E. reflexivity. }
    rewrite !Q. destruct (Req_bool lon l0 && Req_bool lat b0); [reflexivity|]. rewrite math_acos_ok by lra. cbn [bind]. rewrite acos_1, sin_0, ndivE_zero. reflexivity.
  Qed.
  Lemma antipode_forth : u = -1 -> stereo_geo2rect p lon lat = Err ZeroDivisionError /\ equalarea_geo2rect p lon lat = Err ZeroDivisionError /\ equidistant_geo2rect p lon lat = Err ZeroDivisionError.
  Proof.
    intros U. unfold u in U. rewrite az_dot in U.
    unfold stereo_geo2rect, equalarea_geo2rect, equidistant_geo2rect, azimuthal_cos, azimuthal_xy. change (p_lon0 p) with (radians l0). change (p_lat0 p) with (radians b0).
    assert (E : Req_bool (radians lon) (radians l0) && Req_bool (radians lat) (radians b0) = false).
    { destruct (Req_bool_spec (radians lon) (radians l0)) as [E1|]; [|reflexivity]. destruct (Req_bool_spec (radians lat) (radians b0)) as [E2|]; [|reflexivity]. exfalso.
      rewrite E1, E2, Rminus_diag_eq, cos_0 in U by reflexivity. pose proof (sc (radians b0)). lra. }
    rewrite E, U. rewrite math_acos_ok by lra. cbn [bind]. replace (1 + -1) with 0 by ring. 
    assert (PIa : sin (acos (-1)) = 0). { rewrite sin_acos by lra. replace (1 - (-1)²) with 0 by (unfold Rsqr; ring). apply sqrt_0. }
    rewrite PIa, !ndivE_zero. auto.
  Qed.
  (** The polar coordinates of the equidistant projection are distance and bearing. *)
  Lemma equidistant_polar : 0 < r -> -1 < u < 1 -> exists x y d, equidistant_geo2rect p lon lat = Ok (x, y) /\ haversine l0 b0 lon lat (Some r) = Ok d /\
    x = - d * sin (rad (bearing l0 b0 lon lat)) /\ y = d * cos (rad (bearing l0 b0 lon lat)).
  Proof.
    intros P U. unfold u in U. rewrite az_dot in U. set (C := sin (radians b0) * sin (radians lat) + cos (radians b0) * cos (radians lat) * cos (radians lon - radians l0)) in *.
    set (A := cos (radians lat) * sin (radians lon - radians l0)). set (B := cos (radians b0) * sin (radians lat) - sin (radians b0) * cos (radians lat) * cos (radians lon - radians l0)).
    assert (O : A * A + B * B + C * C = 1) by exact (az_one l0 b0 lon lat).
    destruct (haversine_angle l0 b0 lon lat r) as (t & H & Bt & Ct). rewrite az_dot in Ct. fold C in Ct.
    assert (Et : acos C = t) by (rewrite <- Ct; apply acos_cos; lra).
    set (s := sqrt (1 - C * C)). assert (Ps : 0 < s) by (apply sqrt_lt_R0; nra). assert (Ss : s * s = 1 - C * C) by (apply sqrt_sqrt; nra).
    assert (Es : sin t = s). { apply Rsqr_inj; [apply sin_ge_0; lra|lra|]. unfold Rsqr. pose proof (sc t) as Q. rewrite Ct in Q. lra. }
    assert (Eb : bearing l0 b0 lon lat = degrees (atan2 (- A) B)).
    { unfold bearing. do 2 f_equal; [|rewrite rad_minus; unfold B]; rewrite ?rad_minus.
      - unfold A. replace (radians l0 - radians lon) with (- (radians lon - radians l0)) by ring. rewrite sin_neg. ring.
      - replace (radians l0 - radians lon) with (- (radians lon - radians l0)) by ring. rewrite cos_neg. reflexivity. }
    destruct (polar B (- A)) as [PC PS]. replace (B * B + - A * - A) with (1 - C * C) in PC, PS by lra. fold s in PC, PS.
    exists (r * (t / s) * A), (r * (t / s) * B), (r * t). split; [|split; [exact H|]].
    - unfold equidistant_geo2rect, azimuthal_cos, azimuthal_xy. change (p_lon0 p) with (radians l0). change (p_lat0 p) with (radians b0). change (p_r p) with r. fold C A B.
      destruct (Req_bool_spec (radians lon) (radians l0)) as [E1|]; cbn [andb]; [destruct (Req_bool_spec (radians lat) (radians b0)) as [E2|]|].
      + exfalso. assert (C = 1); [|lra]. unfold C. rewrite E1, E2, Rminus_diag_eq, cos_0 by reflexivity. pose proof (sc (radians b0)). lra.
      + rewrite math_acos_ok by lra. cbn [bind]. rewrite Et, Es, ndivE_R by lra. reflexivity.
      + rewrite math_acos_ok by lra. cbn [bind]. rewrite Et, Es, ndivE_R by lra. reflexivity.
    - rewrite Eb, <- rad_radians, TrigLib.rad_deg. set (b := atan2 (- A) B) in *. assert (EA : A = - (s * sin b)) by lra. rewrite EA, <- PC. split; field; lra.
  Qed.
End Three.
Lemma azimuthal_case : -1 < dot (on_sphere 0 0) (on_sphere 60 0) < 1 /\ 0 < cos (rad (60 - 0)) /\ -1 < dot (on_sphere 0 0) (on_sphere 120 0) < 1 /\ cos (rad (120 - 0)) < 0 /\
  -1 < dot (on_sphere 0 0) (on_sphere 90 0) < 1 /\ cos (rad (90 - 0)) = 0 /\ dot (on_sphere 0 0) (on_sphere 180 0) = -1 /\ dot (on_sphere 0 0) (on_sphere 0 0) = 1.
Proof.
  rewrite !dot_formula, !Rminus_0_r, !rad_radians. replace (rad 0) with 0 by (unfold rad; field). replace (rad 60) with (PI / 3) by (unfold rad; field). replace (rad 120) with (2 * (PI / 3)) by (unfold rad; field).
  replace (rad 90) with (PI / 2) by (unfold rad; field). replace (rad 180) with PI by (unfold rad; field). rewrite sin_0, cos_0, cos_PI3, cos_2PI3, cos_PI2, cos_PI. lra.
Qed.
