(** The scale functions are the derivatives of the projections. *)
From Coq Require Import Lia.
From Verif Require Import ProjModel GeoSpec TrigLib ProjProofs ProjIter.
Open Scope R_scope.

(** Derivative of a function that is known near the point *)
Lemma lim_near f g x l d : 0 < d -> (forall h, Rabs (h - x) < d -> f h = g h) -> derivable_pt_lim g x l -> derivable_pt_lim f x l.
Proof.
  intros Pd E D eps Pe. destruct (D eps Pe) as [e He]. assert (Pm : 0 < Rmin e d) by (apply Rmin_pos; [apply cond_pos|exact Pd]).
  exists (mkposreal _ Pm). intros h Nh Lh. cbn [pos] in Lh.
  assert (L1 : Rabs h < e) by (eapply Rlt_le_trans; [exact Lh|apply Rmin_l]). assert (L2 : Rabs h < d) by (eapply Rlt_le_trans; [exact Lh|apply Rmin_r]).
  rewrite !E; [apply He; assumption| |].
  - unfold Rminus. rewrite Rplus_opp_r, Rabs_R0. exact Pd.
  - replace (x + h - x) with h by ring. exact L2.
Qed.
Lemma lat_room lat : -90 < lat < 90 -> exists d, 0 < d /\ forall h, Rabs (h - lat) < d -> -90 < h < 90.
Proof.
  intros B. exists (Rmin (90 - lat) (90 + lat)). split; [apply Rmin_pos; lra|]. intros h L.
  assert (L1 : Rabs (h - lat) < 90 - lat) by (eapply Rlt_le_trans; [exact L|apply Rmin_l]). assert (L2 : Rabs (h - lat) < 90 + lat) by (eapply Rlt_le_trans; [exact L|apply Rmin_r]).
  apply Rabs_def2 in L1, L2. lra.
Qed.
Lemma rad_lim x : derivable_pt_lim radians x (PI / 180).
Proof.
  apply (lim_near _ (fun x => PI / 180 * x) _ _ 1); [lra|intros; unfold radians; ring|]. assert (D : derivable_pt_lim (fun x => PI / 180 * x) x (PI / 180 * 1)) by apply (derivable_pt_lim_scal id), derivable_pt_lim_id. rewrite Rmult_1_r in D. exact D.
Qed.
(** The second coordinate of a projection; 0 where it fails. *)
Definition y_of (m : res (R * R)) : R := match m with Ok (_, y) => y | Err _ => 0 end.
Lemma mercator_scale_lim l0 b0 r lon lat : -90 < lat < 90 -> let p := proj_new (Some (l0, b0)) (Some r) in exists k,
  mercator_scale p lon lat = Ok k /\ derivable_pt_lim (fun h => y_of (mercator_geo2rect p lon h)) lat (r * k * (PI / 180)).
Proof.
  intros B p. pose proof (cos_pos_strict lat B) as C. unfold mercator_scale. rewrite ndivE_R by lra. eexists. split; [reflexivity|].
  destruct (lat_room lat B) as (d & Pd & Hd). apply (lim_near _ (fun h => r * iso (radians h)) _ _ d Pd).
  - intros h L. specialize (Hd h L). destruct (mercator_forward l0 b0 r lon h Hd) as (x & y & E & _ & ->). fold p in E. rewrite E. cbn [y_of].
    rewrite iso_log by (apply rad_lat_strict; exact Hd). reflexivity.
  - replace (r * (1 / cos (radians lat)) * (PI / 180)) with (r * (/ cos (radians lat) * (PI / 180))) by (field; lra).
    apply derivable_pt_lim_scal. apply (derivable_pt_lim_comp radians iso); [apply rad_lim|apply iso_lim, rad_lat_strict, B].
Qed.
(** On the ellipsoid, against the radius of curvature of the meridian. *)
Definition meridian_radius (a e lat : R) : R := a * (1 - e * e) / ((1 - e * e * sin (rad lat) * sin (rad lat)) * sqrt (1 - e * e * sin (rad lat) * sin (rad lat))).
Lemma emercator_scale_lim l0 b0 ell lon lat : 0 < el_a ell -> 0 <= el_e ell < 1 -> -90 < lat < 90 -> let p := eproj_new (Some (l0, b0)) (Some ell) in exists k,
  emercator_scale p lon lat = Ok k /\ derivable_pt_lim (fun h => y_of (emercator_geo2rect p lon h)) lat (meridian_radius (el_a ell) (el_e ell) lat * k * (PI / 180)).
Proof.
  intros A E B p. set (a := el_a ell) in *. set (e := el_e ell) in *. pose proof (cos_pos_strict lat B) as C. pose proof (rad_lat_strict lat B) as Bf. unfold meridian_radius. rewrite <- !rad_radians.
  unfold emercator_scale. change (e_ell p) with ell. fold e. set (f := radians lat) in *. pose proof (e_sin e f E) as Es.
  set (w := 1 - e * e * sin f * sin f). assert (Pw : 0 < w) by (unfold w; nra). rewrite math_sqrt_ok by lra. cbn [bind]. rewrite ndivE_R by lra.
  assert (Ps : 0 < sqrt w) by (apply sqrt_lt_R0; exact Pw). eexists. split; [reflexivity|].
  destruct (lat_room lat B) as (d & Pd & Hd). apply (lim_near _ (fun h => a * (iso (radians h) - e * artanh (e * sin (radians h)))) _ _ d Pd).
  - intros h L. specialize (Hd h L). unfold p. rewrite eforward by assumption. reflexivity.
  - replace (a * (1 - e * e) / (w * sqrt w) * (sqrt w / cos f) * (PI / 180)) with (a * (/ cos f * (PI / 180) - e * (/ (1 - e * sin f * (e * sin f)) * (e * (cos f * (PI / 180)))))).
    + apply derivable_pt_lim_scal. apply (derivable_pt_lim_minus (fun h => iso (radians h)) (fun h => e * artanh (e * sin (radians h)))).
      * apply (derivable_pt_lim_comp radians iso); [apply rad_lim|apply iso_lim, Bf].
      * apply (derivable_pt_lim_scal (fun h => artanh (e * sin (radians h)))). apply (derivable_pt_lim_comp (fun h => e * sin (radians h)) artanh); [|apply artanh_lim; exact Es].
        apply (derivable_pt_lim_scal (fun h => sin (radians h))). apply (derivable_pt_lim_comp radians sin); [apply rad_lim|apply derivable_pt_lim_sin].
    + replace (1 - e * sin f * (e * sin f)) with w by (unfold w; ring). assert (Cc : cos f * cos f = 1 - sin f * sin f) by (pose proof (sc f); lra).
      replace (a * (/ cos f * (PI / 180) - e * (/ w * (e * (cos f * (PI / 180)))))) with (a * (w - e * e * (cos f * cos f)) / (w * cos f) * (PI / 180)) by (field; lra).
      rewrite Cc. replace (w - e * e * (1 - sin f * sin f)) with (1 - e * e) by (unfold w; ring). field. split; [lra|split; lra].
Qed.
(** Along the meridians of the conic: the distance from the apex. *)
Lemma sqrt_lim x : 0 < x -> derivable_pt_lim sqrt x (/ (2 * sqrt x)).
Proof. apply derivable_pt_lim_sqrt. Qed.
Lemma conic_scale_lim lat1 lat2 r lat : sin (rad lat1) + sin (rad lat2) <> 0 -> -90 < lat < 90 -> exists k m, conic_new (Some (lat1, lat2)) (Some r) = Ok k /\
  conic_scale k 0 lat = Ok m /\ derivable_pt_lim (fun h => y_of (conic_geo2rect k 0 h)) lat (r * m * (PI / 180)).
Proof.
  intros N B. destruct (conic_make lat1 lat2 r N) as (k & Ek & Kr & Kn & Kc). exists k.
  assert (Pw : forall h, -90 < h < 90 -> 0 < k_c k - 2 * k_n k * sin (radians h)).
  { intros h Bh. rewrite Kc, Kn. set (s1 := sin (rad lat1)) in *. set (s2 := sin (rad lat2)) in *. pose proof (sin_open _ (rad_lat_strict h Bh)) as Bs. set (s := sin (radians h)) in *.
    assert (B1 : -1 <= s1 <= 1) by apply SIN_bound. assert (B2 : -1 <= s2 <= 1) by apply SIN_bound.
    replace (1 + s1 * s2 - 2 * ((s1 + s2) / 2) * s) with (((1 - s1) * (1 - s2) * (1 + s) + (1 + s1) * (1 + s2) * (1 - s)) / 2) by field.
    assert (0 <= (1 - s1) * (1 - s2)) by nra. assert (0 <= (1 + s1) * (1 + s2)) by nra.
    assert (H1 : 0 < (1 - s1) * (1 - s2) \/ 0 < (1 + s1) * (1 + s2)). { destruct (Req_dec ((1 - s1) * (1 - s2)) 0) as [Z0|]; [right|left; lra].
      destruct (Req_dec ((1 + s1) * (1 + s2)) 0) as [Z1|]; [|lra]. exfalso. apply N. lra. }
    destruct H1; nra. }
  pose proof (Pw lat B) as P0. set (w := k_c k - 2 * k_n k * sin (radians lat)) in *. assert (Ps : 0 < sqrt w) by (apply sqrt_lt_R0; exact P0).
  assert (Nn : k_n k <> 0) by (rewrite Kn; lra).
  unfold conic_scale. fold w. rewrite math_sqrt_ok by lra. cbn [bind]. rewrite ndivE_R by lra. eexists. split; [exact Ek|]. split; [reflexivity|].
  destruct (lat_room lat B) as (d & Pd & Hd). apply (lim_near _ (fun h => k_p0 k - r / k_n k * sqrt (k_c k - 2 * k_n k * sin (radians h))) _ _ d Pd).
  - intros h L. specialize (Hd h L). unfold conic_geo2rect. pose proof (Pw h Hd). rewrite math_sqrt_ok by lra. cbn [bind]. rewrite ndivE_R by exact Nn. cbn [bind y_of].
    rewrite Kr. replace (k_n k * radians 0) with 0 by (unfold radians; ring). rewrite cos_0. field. exact Nn.
  - replace (r * (cos (radians lat) / sqrt w) * (PI / 180)) with (0 - r / k_n k * (/ (2 * sqrt w) * (0 - 2 * k_n k * (cos (radians lat) * (PI / 180))))) by (field; split; lra).
    apply (derivable_pt_lim_minus (fun _ => k_p0 k) (fun h => r / k_n k * sqrt (k_c k - 2 * k_n k * sin (radians h)))); [apply derivable_pt_lim_const|].
    apply (derivable_pt_lim_scal (fun h => sqrt (k_c k - 2 * k_n k * sin (radians h)))).
    apply (derivable_pt_lim_comp (fun h => k_c k - 2 * k_n k * sin (radians h)) sqrt); [|apply sqrt_lim; exact P0].
    apply (derivable_pt_lim_minus (fun _ => k_c k) (fun h => 2 * k_n k * sin (radians h))); [apply derivable_pt_lim_const|].
    apply (derivable_pt_lim_scal (fun h => sin (radians h))). apply (derivable_pt_lim_comp radians sin); [apply rad_lim|apply derivable_pt_lim_sin].
Qed.
