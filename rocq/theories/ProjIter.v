(** The two projections that iterate: ellipsoidal Mercator and Eckert IV. *)
From Coq Require Import Lia.
From Verif Require Import ProjModel GeoSpec TrigLib ProjProofs.
Open Scope R_scope.

(** * Derivatives *)
Lemma artanh_lim x : -1 < x < 1 -> derivable_pt_lim artanh x (/ (1 - x * x)).
Proof.
  intros B.
  assert (A : derivable_pt_lim (fun x => ln (1 + x)) x (/ (1 + x) * (0 + 1))).
  { apply (derivable_pt_lim_comp (fun x => 1 + x) ln); [|apply derivable_pt_lim_ln; lra].
    apply derivable_pt_lim_plus; [apply derivable_pt_lim_const|apply derivable_pt_lim_id]. }
  assert (C : derivable_pt_lim (fun x => ln (1 - x)) x (/ (1 - x) * (0 - 1))).
  { apply (derivable_pt_lim_comp (fun x => 1 - x) ln); [|apply derivable_pt_lim_ln; lra].
    apply derivable_pt_lim_minus; [apply derivable_pt_lim_const|apply derivable_pt_lim_id]. }
  pose proof (derivable_pt_lim_scal _ (/ 2) _ _ (derivable_pt_lim_minus _ _ _ _ _ A C)) as D.
  replace (/ 2 * (/ (1 + x) * (0 + 1) - / (1 - x) * (0 - 1))) with (/ (1 - x * x)) in D by (field; nra).
  assert (E : forall h, -1 < h < 1 -> artanh h = / 2 * (ln (1 + h) - ln (1 - h))).
  { intros h Bh. unfold artanh, Rdiv. rewrite ln_mult, ln_Rinv; [lra|lra|lra|apply Rinv_0_lt_compat; lra]. }
  intros eps Pe. destruct (D eps Pe) as [d Hd]. assert (Pm : 0 < Rmin d (Rmin (1 - x) (1 + x))) by (repeat apply Rmin_pos; [apply cond_pos|lra|lra]).
  exists (mkposreal _ Pm). intros h Nh Lh. cbn [pos] in Lh.
  assert (L1 : Rabs h < d) by (eapply Rlt_le_trans; [exact Lh|apply Rmin_l]).
  assert (L2 : Rabs h < Rmin (1 - x) (1 + x)) by (eapply Rlt_le_trans; [exact Lh|apply Rmin_r]).
  assert (L3 : Rabs h < 1 - x) by (eapply Rlt_le_trans; [exact L2|apply Rmin_l]). assert (L4 : Rabs h < 1 + x) by (eapply Rlt_le_trans; [exact L2|apply Rmin_r]).
  apply Rabs_def2 in L3, L4. specialize (Hd h Nh L1). rewrite !E by lra. exact Hd.
Qed.
Lemma artanh_mono a b : -1 < a -> a <= b -> b < 1 -> artanh a <= artanh b.
Proof.
  intros A B C. unfold artanh. assert (ln ((1 + a) / (1 - a)) <= ln ((1 + b) / (1 - b))); [|lra].
  destruct B as [B|<-]; [|lra]. left. apply ln_increasing; [apply Rdiv_lt_0_compat; lra|].
  apply Rmult_lt_reg_r with ((1 - a) * (1 - b)); [nra|].
  replace ((1 + a) / (1 - a) * ((1 - a) * (1 - b))) with ((1 + a) * (1 - b)) by (field; lra).
  replace ((1 + b) / (1 - b) * ((1 - a) * (1 - b))) with ((1 + b) * (1 - a)) by (field; lra). nra.
Qed.
Lemma artanh_opp a : -1 < a < 1 -> artanh (- a) = - artanh a.
Proof.
  intros A. unfold artanh. replace ((1 + - a) / (1 - - a)) with (/ ((1 + a) / (1 - a))) by (field; lra). rewrite ln_Rinv by (apply Rdiv_lt_0_compat; lra). lra.
Qed.
Lemma artanh_0 : artanh 0 = 0.
Proof. unfold artanh. replace ((1 + 0) / (1 - 0)) with 1 by field. rewrite ln_1. lra. Qed.
(** Shrinking the argument by e shrinks the difference by e. *)
Lemma artanh_shrink e a b : 0 <= e < 1 -> -1 < a -> a <= b -> b < 1 -> 0 <= artanh (e * b) - artanh (e * a) <= e * (artanh b - artanh a).
Proof.
  intros Pe A B C. split.
  - pose proof (artanh_mono (e * a) (e * b)) as M. assert (artanh (e * a) <= artanh (e * b)) by (apply M; nra). lra.
  - destruct B as [B|<-]; [|lra].
    destruct (MVT_cor2 (fun x => e * artanh x - artanh (e * x)) (fun x => e * / (1 - x * x) - / (1 - (e * x) * (e * x)) * (e * 1)) a b B) as (c & Ec & Bc).
    + intros c Bc. apply derivable_pt_lim_minus; [apply derivable_pt_lim_scal, artanh_lim; lra|].
      apply (derivable_pt_lim_comp (fun x => e * x) artanh); [apply derivable_pt_lim_scal, derivable_pt_lim_id|apply artanh_lim; nra].
    + assert (Q : / (1 - e * c * (e * c)) <= / (1 - c * c)).
      { apply Rinv_le_contravar; [nra|]. assert (0 <= c * c) by nra. assert (e * e <= 1) by nra. nra. }
      assert (0 <= (e * / (1 - c * c) - / (1 - e * c * (e * c)) * (e * 1)) * (b - a)); [|lra].
      apply Rmult_le_pos; [nra|lra].
Qed.
Lemma artanh_shrink_abs e a b : 0 <= e < 1 -> -1 < a < 1 -> -1 < b < 1 -> Rabs (artanh (e * b) - artanh (e * a)) <= e * Rabs (artanh b - artanh a).
Proof.
  intros Pe A B. destruct (Rle_or_lt a b) as [L|L].
  - pose proof (artanh_shrink e a b Pe ltac:(lra) L ltac:(lra)) as [H1 H2]. pose proof (artanh_mono a b ltac:(lra) L ltac:(lra)).
    rewrite !Rabs_pos_eq by lra. exact H2.
  - pose proof (artanh_shrink e b a Pe ltac:(lra) ltac:(lra) ltac:(lra)) as [H1 H2]. pose proof (artanh_mono b a ltac:(lra) ltac:(lra) ltac:(lra)).
    rewrite (Rabs_minus_sym (artanh (e * b))), (Rabs_minus_sym (artanh b)). rewrite !Rabs_pos_eq by lra. exact H2.
Qed.

(** * Isometric latitude *)
Definition iso (l : R) : R := artanh (sin l).
Lemma sin_open l : - (PI / 2) < l < PI / 2 -> -1 < sin l < 1.
Proof. intros B. assert (0 < cos l) by (apply cos_gt_0; lra). pose proof (sc l). split; nra. Qed.
Lemma iso_lim l : - (PI / 2) < l < PI / 2 -> derivable_pt_lim iso l (/ cos l).
Proof.
  intros B. assert (C : 0 < cos l) by (apply cos_gt_0; lra).
  replace (/ cos l) with (/ (1 - sin l * sin l) * cos l).
  - apply (derivable_pt_lim_comp sin artanh); [apply derivable_pt_lim_sin|apply artanh_lim, sin_open, B].
  - replace (1 - sin l * sin l) with (cos l * cos l) by (pose proof (sc l); lra). field. lra.
Qed.
Lemma iso_expands a b : - (PI / 2) < a < PI / 2 -> - (PI / 2) < b < PI / 2 -> Rabs (a - b) <= Rabs (iso a - iso b).
Proof.
  assert (W : forall a b, - (PI / 2) < a -> a < b -> b < PI / 2 -> b - a <= iso b - iso a).
  { intros x y A B C. destruct (MVT_cor2 iso (fun l => / cos l) x y B) as (c & Ec & Bc); [intros; apply iso_lim; lra|].
    rewrite Ec. assert (Pc : 0 < cos c) by (apply cos_gt_0; lra). assert (1 <= / cos c).
    { rewrite <- Rinv_1. apply Rinv_le_contravar; [exact Pc|]. pose proof (COS_bound c). lra. }
    nra. }
  intros A B. destruct (Rtotal_order a b) as [L|[->|L]].
  - specialize (W a b ltac:(lra) L ltac:(lra)). rewrite (Rabs_minus_sym a), (Rabs_minus_sym (iso a)). rewrite !Rabs_pos_eq by lra. exact W.
  - unfold Rminus. rewrite !Rplus_opp_r. lra.
  - specialize (W b a ltac:(lra) L ltac:(lra)). rewrite !Rabs_pos_eq by lra. exact W.
Qed.
Lemma iso_log l : - (PI / 2) < l < PI / 2 -> ln (tan (PI / 4 + l / 2)) = iso l.
Proof.
  intros B. destruct (tan_quarter l B) as [E P]. rewrite E. unfold iso, artanh. assert (Cf : 0 < cos l) by (apply cos_gt_0; lra).
  pose proof (sin_open l B). replace ((1 + sin l) / (1 - sin l)) with ((1 + sin l) / cos l * ((1 + sin l) / cos l)).
  - rewrite ln_mult by exact P. lra.
  - replace ((1 + sin l) / cos l * ((1 + sin l) / cos l)) with ((1 + sin l) * (1 + sin l) / (cos l * cos l)) by (field; lra).
    replace (cos l * cos l) with ((1 - sin l) * (1 + sin l)) by (pose proof (sc l); lra). field. lra.
Qed.
Lemma iso_of z : 0 < z -> - (PI / 2) < PI / 2 - 2 * atan z < PI / 2 /\ iso (PI / 2 - 2 * atan z) = - ln z.
Proof.
  intros P. pose proof (atan_bound z) as B. pose proof (atan_increasing 0 z P) as I. rewrite atan_0 in I. split; [lra|].
  unfold iso. rewrite sin_shift. rewrite cos_2a_cos, cos_atan. pose proof (sqrt_pos_1 z) as W.
  replace (2 * (1 / sqrt (1 + z²)) * (1 / sqrt (1 + z²)) - 1) with (2 / (sqrt (1 + z²) * sqrt (1 + z²)) - 1) by (field; lra).
  rewrite sqrt_sqrt by (pose proof (Rle_0_sqr z); lra). unfold artanh, Rsqr.
  replace ((1 + (2 / (1 + z * z) - 1)) / (1 - (2 / (1 + z * z) - 1))) with (/ (z * z)).
  - rewrite ln_Rinv by nra. rewrite ln_mult by exact P. lra.
  - field. nra.
Qed.

(** * Ellipsoidal Mercator *)
Lemma e_sin e l : 0 <= e < 1 -> -1 < e * sin l < 1.
Proof. intros E. pose proof (SIN_bound l). split; nra. Qed.
Lemma e_power e l : 0 <= e < 1 -> exists q, ndivE (1 - e * sin l) (1 + e * sin l) = Ok q /\ math_pow q (e / 2) = Ok (Rpower q (e / 2)) /\ 0 < Rpower q (e / 2) /\
  ln (Rpower q (e / 2)) = - (e * artanh (e * sin l)).
Proof.
  intros E. pose proof (e_sin e l E) as B. exists ((1 - e * sin l) / (1 + e * sin l)). rewrite ndivE_R by lra.
  assert (P : 0 < (1 - e * sin l) / (1 + e * sin l)) by (apply Rdiv_lt_0_compat; lra).
  split; [reflexivity|]. split; [unfold math_pow; destruct (Rle_bool_spec ((1 - e * sin l) / (1 + e * sin l)) 0); [lra|reflexivity]|].
  split; [apply exp_pos|]. unfold Rpower. rewrite ln_exp. unfold artanh.
  replace ((1 - e * sin l) / (1 + e * sin l)) with (/ ((1 + e * sin l) / (1 - e * sin l))) by (field; lra). rewrite ln_Rinv by (apply Rdiv_lt_0_compat; lra). lra.
Qed.
Lemma step_iso e t l : 0 <= e < 1 -> 0 < t -> exists l', emercator_step e t l = Ok l' /\ - (PI / 2) < l' < PI / 2 /\ iso l' = - ln t + e * artanh (e * sin l).
Proof.
  intros E P. unfold emercator_step. destruct (e_power e l E) as (q & Eq & Ep & Pw & Lw). rewrite Eq. cbn [bind]. rewrite Ep. cbn [bind].
  eexists. split; [reflexivity|]. destruct (iso_of (t * Rpower q (e / 2)) ltac:(apply Rmult_lt_0_compat; assumption)) as [B I]. split; [exact B|].
  rewrite I, ln_mult, Lw by assumption. lra.
Qed.
Lemma eforward l0 b0 ell lon lat : 0 <= el_e ell < 1 -> -90 < lat < 90 ->
  emercator_geo2rect (eproj_new (Some (l0, b0)) (Some ell)) lon lat =
  Ok (el_a ell * corangle (radians lon - radians l0), el_a ell * (iso (radians lat) - el_e ell * artanh (el_e ell * sin (radians lat)))).
Proof.
  intros E B. unfold emercator_geo2rect. destruct (Req_bool_spec lat (-90)); [lra|]. cbn [eproj_new e_ell e_lon0].
  destruct (e_power (el_e ell) (radians lat) E) as (q & Eq & Ep & Pw & Lw). rewrite Eq. cbn [bind]. rewrite Ep. cbn [bind].
  pose proof (rad_lat_strict lat B) as R. destruct (tan_quarter _ R) as [T P]. rewrite math_log_ok by (apply Rmult_lt_0_compat; [rewrite T; exact P|exact Pw]). cbn [bind].
  rewrite ln_mult; [|rewrite T; exact P|exact Pw]. rewrite Lw, iso_log by exact R. reflexivity.
Qed.
Lemma eloop_exit fuel e t l0 r : 0 <= e < 1 -> 0 < t -> emercator_loop fuel e t l0 = Some r -> exists l, r = Ok l /\ emercator_step e t l = Ok l.
Proof.
  intros E P. revert l0. induction fuel as [|n IH]; intros l0 H; [discriminate|]. cbn [emercator_loop] in H.
  destruct (step_iso e t l0 E P) as (l' & S & _). rewrite S in H. destruct (Req_bool_spec l' l0) as [Q|Q].
  - inversion H; subst. exists l0. split; [reflexivity|exact S].
  - apply (IH l' H).
Qed.
(** A fixed point of the step is the latitude. *)
Lemma fixed_unique e t l l' : 0 <= e < 1 -> 0 < t -> emercator_step e t l = Ok l -> emercator_step e t l' = Ok l' -> l = l'.
Proof.
  intros E P F F'. destruct (step_iso e t l E P) as (m & S & B & I). rewrite F in S. inversion S; subst m. clear S.
  destruct (step_iso e t l' E P) as (m & S & B' & I'). rewrite F' in S. inversion S; subst m. clear S.
  assert (D : Rabs (iso l - iso l') <= e * (e * Rabs (iso l - iso l'))).
  { replace (iso l - iso l') with (e * (artanh (e * sin l) - artanh (e * sin l'))) at 1 by (rewrite I, I'; ring).
    rewrite Rabs_mult, (Rabs_pos_eq e) by lra. apply Rmult_le_compat_l; [lra|]. apply artanh_shrink_abs; [exact E|apply sin_open; exact B'|apply sin_open; exact B]. }
  pose proof (Rabs_pos (iso l - iso l')) as Z. assert (E2 : 0 < 1 - e * e) by nra. assert (Z0 : Rabs (iso l - iso l') = 0) by (set (d := Rabs (iso l - iso l')) in *; clearbody d; nra).
  pose proof (iso_expands l l' B B') as X. rewrite Z0 in X. pose proof (Rabs_pos (l - l')). destruct (Req_dec l l') as [|N]; [assumption|].
  exfalso. pose proof (Rabs_pos_lt (l - l') ltac:(lra)). lra.
Qed.
Lemma rect_err_free fuel l0 b0 ell x y r : 0 < el_a ell -> 0 <= el_e ell < 1 ->
  emercator_rect2geo fuel (eproj_new (Some (l0, b0)) (Some ell)) x y = Some r -> exists l, r = Ok (degrees (corangle (x / el_a ell + radians l0)), degrees l) /\
    emercator_step (el_e ell) (exp (- y / el_a ell)) l = Ok l.
Proof.
  intros A E. unfold emercator_rect2geo. cbn [eproj_new e_ell e_lon0]. rewrite !ndivE_R by lra.
  destruct (emercator_loop fuel (el_e ell) (exp (- y / el_a ell)) _) as [q|] eqn:L; [|discriminate].
  apply eloop_exit in L; [|exact E|apply exp_pos]. destruct L as (l & -> & F). intros H. inversion H; subst. exists l. split; [reflexivity|exact F].
Qed.
(** When the loop ends, the inverse is exact. *)
Lemma emercator_back fuel l0 b0 ell lon lat x y r : 0 < el_a ell -> 0 <= el_e ell < 1 -> -90 < lat < 90 -> let p := eproj_new (Some (l0, b0)) (Some ell) in
  emercator_geo2rect p lon lat = Ok (x, y) -> emercator_rect2geo fuel p x y = Some r -> exists lon', r = Ok (lon', lat) /\ same_lon lon' lon.
Proof.
  intros A E B p G H. unfold p in *. rewrite eforward in G by assumption. inversion G; subst x y. clear G.
  apply rect_err_free in H; [|assumption|assumption]. destruct H as (l & -> & F).
  set (y := el_a ell * (iso (radians lat) - el_e ell * artanh (el_e ell * sin (radians lat)))) in *.
  assert (F' : emercator_step (el_e ell) (exp (- y / el_a ell)) (radians lat) = Ok (radians lat)).
  { destruct (step_iso (el_e ell) (exp (- y / el_a ell)) (radians lat) E (exp_pos _)) as (m & S & Bm & I). rewrite S. f_equal.
    rewrite ln_exp in I. assert (I2 : iso m = iso (radians lat)) by (rewrite I; unfold y; field; lra).
    pose proof (iso_expands m (radians lat) Bm (rad_lat_strict lat B)) as X. rewrite I2 in X. unfold Rminus at 2 in X. rewrite Rplus_opp_r, Rabs_R0 in X.
    destruct (Req_dec m (radians lat)) as [|N]; [assumption|]. exfalso. pose proof (Rabs_pos_lt (m - radians lat) ltac:(lra)). lra. }
  rewrite (fixed_unique _ _ _ _ E (exp_pos _) F F'). rewrite deg_rad. eexists. split; [reflexivity|].
  apply same_lon_rad. rewrite rad_deg. eapply same_turn_trans; [apply corangle_turn|].
  replace (el_a ell * corangle (radians lon - radians l0) / el_a ell) with (corangle (radians lon - radians l0)) by (field; lra). apply corangle_back.
Qed.
Lemma emercator_forth fuel l0 b0 ell x y lon lat : 0 < el_a ell -> 0 <= el_e ell < 1 -> - (PI * el_a ell) < x < PI * el_a ell -> let p := eproj_new (Some (l0, b0)) (Some ell) in
  emercator_rect2geo fuel p x y = Some (Ok (lon, lat)) -> emercator_geo2rect p lon lat = Ok (x, y).
Proof.
  intros A E Bx p H. unfold p in *. apply rect_err_free in H; [|assumption|assumption]. destruct H as (l & H & F). inversion H; subst lon lat. clear H.
  destruct (step_iso (el_e ell) (exp (- y / el_a ell)) l E (exp_pos _)) as (m & S & Bm & I). rewrite F in S. inversion S; subst m. clear S.
  assert (Bl : -90 < degrees l < 90). { unfold degrees. pose proof PI_RGT_0. assert (l * (180 / PI) * PI = l * 180) by (field; lra). split; nra. }
  rewrite eforward by assumption. rewrite !rad_deg. rewrite I, ln_exp. f_equal. f_equal; [|field; lra].
  set (u := x / el_a ell). assert (Bu : - PI < u < PI).
  { assert (U : u * el_a ell = x) by (unfold u; field; lra). split; nra. }
  assert (T : same_turn (corangle (u + radians l0) - radians l0) u).
  { destruct (corangle_turn (u + radians l0)) as (k & Ek). exists k. rewrite Ek. ring. }
  destruct (corangle_spec (corangle (u + radians l0) - radians l0)) as (Bc & Tc & _). set (c := corangle (corangle (u + radians l0) - radians l0)) in *.
  assert (Ec : c = u).
  { assert (T2 : same_turn c u) by (eapply same_turn_trans; [exact Tc|exact T]). destruct T2 as (k & Ek). pose proof PI_RGT_0.
    assert (-1 < IZR k < 1) as [K1 K2] by (split; nra). apply lt_IZR in K1, K2. assert (k = 0)%Z by lia. subst k. lra. }
  rewrite Ec. unfold u. field. lra.
Qed.
(** The turns of the loop close in on the latitude, by a factor e*e each. *)
Fixpoint turns_of_loop (n : nat) (e t l : R) : res R :=
  match n with O => Ok l | S n => l' <- emercator_step e t l ;; turns_of_loop n e t l' end.
Lemma turns_near n e t f l : 0 <= e < 1 -> 0 < t -> - (PI / 2) < f < PI / 2 -> - (PI / 2) < l < PI / 2 -> iso f = - ln t + e * artanh (e * sin f) ->
  exists l', turns_of_loop n e t l = Ok l' /\ Rabs (iso l' - iso f) <= (e * e) ^ n * Rabs (iso l - iso f) /\ - (PI / 2) < l' < PI / 2.
Proof.
  intros E P Bf. revert l. induction n as [|n IH]; intros l Bl F; [exists l; cbn; split; [reflexivity|split; [lra|exact Bl]]|].
  destruct (step_iso e t l E P) as (m & S & Bm & I). destruct (IH m Bm F) as (l' & E' & L' & B'). exists l'. cbn [turns_of_loop]. rewrite S. cbn [bind]. split; [exact E'|].
  split; [|exact B']. eapply Rle_trans; [exact L'|]. cbn [pow]. rewrite (Rmult_comm (e * e)), Rmult_assoc. apply Rmult_le_compat_l; [apply pow_le; nra|].
  replace (iso m - iso f) with (e * (artanh (e * sin l) - artanh (e * sin f))) by (rewrite I, F; ring).
  rewrite Rabs_mult, (Rabs_pos_eq e), Rmult_assoc by lra. apply Rmult_le_compat_l; [lra|]. apply artanh_shrink_abs; [exact E|apply sin_open; exact Bf|apply sin_open; exact Bl].
Qed.
Lemma emercator_converges n l0 b0 ell lon lat x y : 0 < el_a ell -> 0 <= el_e ell < 1 -> -90 < lat < 90 ->
  emercator_geo2rect (eproj_new (Some (l0, b0)) (Some ell)) lon lat = Ok (x, y) -> let t := exp (- y / el_a ell) in
  exists l, turns_of_loop n (el_e ell) t (PI / 2 - 2 * atan t) = Ok l /\ Rabs (l - radians lat) <= (el_e ell * el_e ell) ^ n * (el_e ell * artanh (el_e ell)).
Proof.
  intros A E B G t. rewrite eforward in G by assumption. inversion G; subst x. clear G. pose proof (rad_lat_strict lat B) as Bf. set (f := radians lat) in *. set (e := el_e ell) in *.
  assert (F : iso f = - ln t + e * artanh (e * sin f)). { unfold t. rewrite ln_exp. rewrite <- H1. field. lra. }
  destruct (iso_of t (exp_pos _)) as [Bl I]. destruct (turns_near n e t f _ E (exp_pos _) Bf Bl F) as (l & El & Ll & Bl').
  exists l. split; [exact El|]. eapply Rle_trans; [apply iso_expands; assumption|]. eapply Rle_trans; [exact Ll|]. apply Rmult_le_compat_l; [apply pow_le; nra|].
  rewrite I, F. replace (- ln t - (- ln t + e * artanh (e * sin f))) with (- (e * artanh (e * sin f))) by ring. rewrite Rabs_Ropp, Rabs_mult, (Rabs_pos_eq e) by lra.
  apply Rmult_le_compat_l; [lra|]. pose proof (sin_open f Bf). destruct (Rle_or_lt 0 (sin f)) as [S|S].
  - assert (artanh 0 <= artanh (e * sin f)) by (apply artanh_mono; nra). rewrite artanh_0 in *. rewrite Rabs_pos_eq by assumption. apply artanh_mono; nra.
  - assert (artanh 0 <= artanh (e * - sin f)) by (apply artanh_mono; nra). rewrite artanh_0 in *.
    replace (e * sin f) with (- (e * - sin f)) by ring. rewrite artanh_opp by (split; nra). rewrite Rabs_Ropp, Rabs_pos_eq by assumption. apply artanh_mono; nra.
Qed.
(** A sphere: one turn is enough. *)
Lemma emercator_sphere fuel l0 b0 ell x y : 0 < el_a ell -> el_e ell = 0 ->
  exists lon lat, emercator_rect2geo (S fuel) (eproj_new (Some (l0, b0)) (Some ell)) x y = Some (Ok (lon, lat)).
Proof.
  intros A E. unfold emercator_rect2geo. cbn [eproj_new e_ell e_lon0]. rewrite !ndivE_R by lra. rewrite E. set (t := exp (- y / el_a ell)).
  assert (S : emercator_step 0 t (PI / 2 - 2 * atan t) = Ok (PI / 2 - 2 * atan t)).
  { unfold emercator_step. rewrite !Rmult_0_l. rewrite ndivE_R by lra. cbn [bind]. replace ((1 - 0) / (1 + 0)) with 1 by field.
    unfold math_pow. destruct (Rle_bool_spec 1 0); [lra|]. cbn [bind]. replace (0 / 2) with 0 by field. rewrite Rpower_O by lra. rewrite Rmult_1_r. reflexivity. }
  cbn [emercator_loop]. rewrite S. destruct (Req_bool_spec (PI / 2 - 2 * atan t) (PI / 2 - 2 * atan t)); [|congruence]. cbn [rmap]. eauto.
Qed.
Lemma wgs84_case : -90 < 45 < 90 /\ 0 < el_a WGS84 /\ 0 <= el_e WGS84 < 1 /\ (exists x y, emercator_geo2rect (eproj_new (Some (0, 0)) (Some WGS84)) 12 45 = Ok (x, y)).
Proof.
  assert (E : 0 <= el_e WGS84 < 1). { unfold WGS84. cbn [el_e]. split; [apply sqrt_pos|]. apply Rlt_le_trans with (sqrt 1); [apply sqrt_lt_1_alt|rewrite sqrt_1; lra]. unfold wgs84_f. lra. }
  split; [lra|]. split; [cbn; lra|]. split; [exact E|]. rewrite eforward by (try exact E; lra). eauto.
Qed.
