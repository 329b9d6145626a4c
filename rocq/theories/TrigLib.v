(** Angles: atan2, whole turns, corangle. *)
From Coq Require Import Lia.
From Verif Require Import ProjModel GeoSpec.
Open Scope R_scope.

Lemma rad_radians x : radians x = rad x.
Proof. unfold radians, rad. field. Qed.
Lemma deg_rad x : degrees (radians x) = x.
Proof. unfold degrees, radians. field. apply PI_neq0. Qed.
Lemma rad_deg x : radians (degrees x) = x.
Proof. unfold degrees, radians. field. apply PI_neq0. Qed.
Lemma rad_minus x y : radians (x - y) = radians x - radians y.
Proof. unfold radians. ring. Qed.
Lemma rad_90 : radians 90 = PI / 2.
Proof. unfold radians. field. Qed.
Lemma rad_lat x : valid_lat x -> - (PI / 2) <= radians x <= PI / 2.
Proof. intros B. pose proof PI_RGT_0. unfold radians. split; destruct B; nra. Qed.
Lemma rad_lat_strict x : -90 < x < 90 -> - (PI / 2) < radians x < PI / 2.
Proof. intros B. pose proof PI_RGT_0. unfold radians. split; destruct B; nra. Qed.

Lemma sc x : sin x * sin x + cos x * cos x = 1.
Proof. pose proof (sin2_cos2 x) as H. unfold Rsqr in H. exact H. Qed.

(** * Whole turns *)
Definition same_turn (a b : R) : Prop := exists k : Z, a = b + IZR k * (2 * PI).
Lemma same_turn_refl a : same_turn a a.
Proof. exists 0%Z. ring. Qed.
Lemma same_turn_sym a b : same_turn a b -> same_turn b a.
Proof. intros (k & ->). exists (- k)%Z. rewrite opp_IZR. ring. Qed.
Lemma same_turn_trans a b c : same_turn a b -> same_turn b c -> same_turn a c.
Proof. intros (k & ->) (j & ->). exists (k + j)%Z. rewrite plus_IZR. ring. Qed.
Lemma same_turn_plus a b c d : same_turn a b -> same_turn c d -> same_turn (a + c) (b + d).
Proof. intros (k & ->) (j & ->). exists (k + j)%Z. rewrite plus_IZR. ring. Qed.
Lemma same_turn_minus a b c d : same_turn a b -> same_turn c d -> same_turn (a - c) (b - d).
Proof. intros (k & ->) (j & ->). exists (k - j)%Z. rewrite minus_IZR. ring. Qed.
Lemma sin_turns x k : sin (x + IZR k * (2 * PI)) = sin x.
Proof.
  assert (N : forall x n, sin (x + INR n * (2 * PI)) = sin x).
  { intros y n. replace (y + INR n * (2 * PI)) with (y + 2 * INR n * PI) by ring. apply sin_period. }
  destruct (Z_le_dec 0 k) as [P|P].
  - rewrite <- (Z2Nat.id k P), <- INR_IZR_INZ. apply N.
  - rewrite <- (N (x + IZR k * (2 * PI)) (Z.to_nat (- k))). rewrite INR_IZR_INZ, Z2Nat.id by lia. rewrite opp_IZR. f_equal. ring.
Qed.
Lemma cos_turns x k : cos (x + IZR k * (2 * PI)) = cos x.
Proof.
  assert (N : forall x n, cos (x + INR n * (2 * PI)) = cos x).
  { intros y n. replace (y + INR n * (2 * PI)) with (y + 2 * INR n * PI) by ring. apply cos_period. }
  destruct (Z_le_dec 0 k) as [P|P].
  - rewrite <- (Z2Nat.id k P), <- INR_IZR_INZ. apply N.
  - rewrite <- (N (x + IZR k * (2 * PI)) (Z.to_nat (- k))). rewrite INR_IZR_INZ, Z2Nat.id by lia. rewrite opp_IZR. f_equal. ring.
Qed.
Lemma same_turn_sin a b : same_turn a b -> sin a = sin b.
Proof. intros (k & ->). apply sin_turns. Qed.
Lemma same_turn_cos a b : same_turn a b -> cos a = cos b.
Proof. intros (k & ->). apply cos_turns. Qed.
Lemma same_angle a b : cos a = cos b -> sin a = sin b -> same_turn a b.
Proof.
  intros C S. assert (E : cos (a - b) = 1) by (rewrite cos_minus, C, S; pose proof (sc b); lra).
  assert (Z0 : sin ((a - b) / 2) = 0).
  { replace (a - b) with (2 * ((a - b) / 2)) in E by field. rewrite cos_2a_sin in E. nra. }
  apply sin_eq_0_0 in Z0. destruct Z0 as (k & E'). exists k. lra.
Qed.
Lemma same_turn_eq a b : same_turn a b -> - PI < a <= PI -> - PI < b <= PI -> a = b.
Proof.
  intros (k & ->) A B. pose proof PI_RGT_0 as P. assert (K : (k = 0)%Z).
  { assert (-1 < IZR k < 1) by (split; nra). destruct H as [L U]. apply lt_IZR in L, U. lia. }
  subst. ring.
Qed.
Lemma same_turn_deg a b : same_turn a b -> same_lon (degrees a) (degrees b).
Proof. intros (k & ->). exists k. unfold degrees. field. apply PI_neq0. Qed.
Lemma same_lon_rad a b : same_lon a b <-> same_turn (radians a) (radians b).
Proof.
  split; intros (k & E); exists k.
  - subst. unfold radians. field.
  - apply (f_equal degrees) in E. rewrite deg_rad in E. rewrite E. unfold degrees, radians. field. apply PI_neq0.
Qed.

(** * atan2 *)
Lemma sqrt_scaled x y : 0 < x -> sqrt (x * x + y * y) = x * sqrt (1 + (y / x)²).
Proof.
  intros P. replace (x * x + y * y) with ((x * x) * (1 + (y / x)²)) by (unfold Rsqr; field; lra).
  rewrite sqrt_mult; [|nra|pose proof (Rle_0_sqr (y / x)); lra]. rewrite sqrt_square by lra. reflexivity.
Qed.
Lemma sqrt_pos_1 z : 0 < sqrt (1 + z²).
Proof. apply sqrt_lt_R0. pose proof (Rle_0_sqr z). lra. Qed.
Lemma polar x y : sqrt (x * x + y * y) * cos (atan2 y x) = x /\ sqrt (x * x + y * y) * sin (atan2 y x) = y.
Proof.
  unfold atan2. destruct (Rlt_bool_spec 0 x) as [P|P].
  - rewrite sqrt_scaled by exact P. rewrite cos_atan, sin_atan. pose proof (sqrt_pos_1 (y / x)). split; field; lra.
  - destruct (Rlt_bool_spec x 0) as [N|N].
    + replace (x * x + y * y) with ((- x) * (- x) + (- y) * (- y)) by ring. rewrite sqrt_scaled by lra.
      replace (- y / - x) with (y / x) by (field; lra). pose proof (sqrt_pos_1 (y / x)).
      destruct (Rle_bool_spec 0 y).
      * rewrite neg_cos, neg_sin, cos_atan, sin_atan. split; field; lra.
      * replace (atan (y / x) - PI) with (- (- atan (y / x) + PI)) by ring. rewrite cos_neg, sin_neg, neg_cos, neg_sin, cos_neg, sin_neg, cos_atan, sin_atan.
        split; field; lra.
    + assert (x = 0) by lra. subst x. replace (0 * 0 + y * y) with (y * y) by ring.
      destruct (Rlt_bool_spec 0 y).
      * rewrite sqrt_square by lra. rewrite cos_PI2, sin_PI2. lra.
      * destruct (Rlt_bool_spec y 0).
        -- replace (y * y) with ((- y) * (- y)) by ring. rewrite sqrt_square by lra. rewrite cos_neg, sin_neg, cos_PI2, sin_PI2. lra.
        -- assert (y = 0) by lra. subst. rewrite cos_0, sin_0. replace (0 * 0) with 0 by ring. rewrite sqrt_0. lra.
Qed.
Lemma atan2_bound y x : - PI < atan2 y x <= PI.
Proof.
  pose proof PI_RGT_0. unfold atan2. destruct (Rlt_bool_spec 0 x) as [P|P].
  - pose proof (atan_bound (y / x)). lra.
  - destruct (Rlt_bool_spec x 0) as [N|N].
    + destruct (Rle_bool_spec 0 y) as [Y|Y].
      * pose proof (atan_bound (y / x)). assert (y / x <= 0) by (apply Rmult_le_reg_r with (- x); [lra|]; replace (y / x * - x) with (- y) by (field; lra); lra).
        assert (atan (y / x) <= 0) by (rewrite <- atan_0; destruct (Req_dec (y / x) 0) as [->|]; [lra|left; apply atan_increasing; lra]). lra.
      * pose proof (atan_bound (y / x)). assert (0 < y / x) by (apply Rmult_lt_reg_r with (- x); [lra|]; replace (y / x * - x) with (- y) by (field; lra); lra).
        assert (0 < atan (y / x)) by (rewrite <- atan_0; apply atan_increasing; lra). lra.
    + destruct (Rlt_bool 0 y); [lra|]. destruct (Rlt_bool y 0); lra.
Qed.
Lemma atan2_turn rho x y t : 0 < rho -> x = rho * cos t -> y = rho * sin t -> same_turn (atan2 y x) t.
Proof.
  intros P -> ->. destruct (polar (rho * cos t) (rho * sin t)) as [C S].
  replace (rho * cos t * (rho * cos t) + rho * sin t * (rho * sin t)) with (rho * rho) in C, S by (pose proof (sc t) as H; nra).
  rewrite sqrt_square in C, S by lra. apply same_angle; nra.
Qed.
Lemma atan2_polar rho t : 0 < rho -> - PI < t <= PI -> atan2 (rho * sin t) (rho * cos t) = t.
Proof. intros P B. apply same_turn_eq; [apply (atan2_turn rho); auto|apply atan2_bound|exact B]. Qed.

(** * corangle *)
Lemma add_turns_spec n a : - IZR (Z.of_nat n) * (2 * PI) <= a + PI ->
  exists r k, add_turns (2 * PI) (0 - PI) (S n) a = Some r /\ - PI <= r /\ r = a + IZR k * (2 * PI) /\ (- PI <= a -> r = a) /\ (a < - PI -> r < PI).
Proof.
  revert a. pose proof PI_RGT_0 as P. induction n as [|n IH]; intros a B.
  - cbn [add_turns]. change (nlt a (0 - PI)) with (Rlt_bool a (0 - PI)). cbn in B. destruct (Rlt_bool_spec a (0 - PI)) as [L|L]; [lra|].
    exists a, 0%Z. split; [reflexivity|]. split; [lra|]. split; [ring|]. split; [reflexivity|lra].
  - remember (S n) as m. cbn [add_turns]. subst m. change (nlt a (0 - PI)) with (Rlt_bool a (0 - PI)). destruct (Rlt_bool_spec a (0 - PI)) as [L|L].
    + rewrite Nat2Z.inj_succ, succ_IZR in B. change (nadd a (2 * PI)) with (a + 2 * PI).
      destruct (IH (a + 2 * PI)) as (r & k & E & Br & Er & S1 & S2); [lra|]. exists r, (k + 1)%Z.
      split; [exact E|]. split; [exact Br|]. split; [rewrite plus_IZR, Er; ring|]. split; [lra|]. intros _.
      destruct (Rlt_dec (a + 2 * PI) (- PI)) as [L'|L']; [apply S2, L'|rewrite S1 by lra; lra].
    + exists a, 0%Z. split; [reflexivity|]. split; [lra|]. split; [ring|]. split; [reflexivity|lra].
Qed.
Lemma sub_turns_spec n a : a - PI <= IZR (Z.of_nat n) * (2 * PI) ->
  exists r k, sub_turns (2 * PI) PI (S n) a = Some r /\ r <= PI /\ r = a - IZR k * (2 * PI) /\ (a <= PI -> r = a) /\ (PI < a -> - PI < r).
Proof.
  revert a. pose proof PI_RGT_0 as P. induction n as [|n IH]; intros a B.
  - cbn [sub_turns]. change (nlt PI a) with (Rlt_bool PI a). cbn in B. destruct (Rlt_bool_spec PI a) as [L|L]; [lra|].
    exists a, 0%Z. split; [reflexivity|]. split; [lra|]. split; [ring|]. split; [reflexivity|lra].
  - remember (S n) as m. cbn [sub_turns]. subst m. change (nlt PI a) with (Rlt_bool PI a). destruct (Rlt_bool_spec PI a) as [L|L].
    + rewrite Nat2Z.inj_succ, succ_IZR in B. change (nsub a (2 * PI)) with (a - 2 * PI).
      destruct (IH (a - 2 * PI)) as (r & k & E & Br & Er & S1 & S2); [lra|]. exists r, (k + 1)%Z.
      split; [exact E|]. split; [exact Br|]. split; [rewrite plus_IZR, Er; ring|]. split; [lra|]. intros _.
      destruct (Rlt_dec PI (a - 2 * PI)) as [L'|L']; [apply S2, L'|rewrite S1 by lra; lra].
    + exists a, 0%Z. split; [reflexivity|]. split; [lra|]. split; [ring|]. split; [reflexivity|lra].
Qed.
Lemma add_turns_more n a r : add_turns (2 * PI) (0 - PI) n a = Some r -> forall m, (n <= m)%nat -> add_turns (2 * PI) (0 - PI) m a = Some r.
Proof.
  revert a. induction n as [|n IH]; intros a E m L; [discriminate|]. destruct m as [|m]; [lia|]. cbn [add_turns] in *.
  destruct (nlt a (0 - PI)); [apply IH; [exact E|lia]|exact E].
Qed.
Lemma sub_turns_more n a r : sub_turns (2 * PI) PI n a = Some r -> forall m, (n <= m)%nat -> sub_turns (2 * PI) PI m a = Some r.
Proof.
  revert a. induction n as [|n IH]; intros a E m L; [discriminate|]. destruct m as [|m]; [lia|]. cbn [sub_turns] in *.
  destruct (nlt PI a); [apply IH; [exact E|lia]|exact E].
Qed.
Definition whole (a : R) : nat := Z.to_nat (up (Rabs a / (2 * PI))).
Lemma turns_bound a : Rabs a < IZR (Z.of_nat (whole a)) * (2 * PI).
Proof.
  pose proof PI_RGT_0 as P. unfold whole. destruct (archimed (Rabs a / (2 * PI))) as [U _].
  assert (0 <= Rabs a / (2 * PI)). { apply Rmult_le_pos; [apply Rabs_pos|left; apply Rinv_0_lt_compat; lra]. }
  assert (0 <= up (Rabs a / (2 * PI)))%Z by (apply le_IZR; lra).
  rewrite Z2Nat.id by assumption.
  assert (E : Rabs a = Rabs a / (2 * PI) * (2 * PI)) by (field; lra). rewrite E at 1. apply Rmult_lt_compat_r; lra.
Qed.
(** The loops end with an angle in range. *)
Lemma corangle_loop_spec a : exists r, (forall n, (turns a <= n)%nat -> corangle_loop PI n a = Some r) /\
  - PI <= r <= PI /\ same_turn r a /\ (- PI <= a <= PI -> r = a).
Proof.
  pose proof PI_RGT_0 as P. pose proof (turns_bound a) as B. pose proof (Rle_abs a). pose proof (Rle_abs (- a)) as H0. rewrite Rabs_Ropp in H0.
  destruct (add_turns_spec (whole a) a) as (r & k & E & Br & Er & S1 & S2); [lra|].
  assert (Rb : r - PI <= IZR (Z.of_nat (whole a)) * (2 * PI)).
  { destruct (Rlt_dec a (- PI)) as [L|L]; [|rewrite S1 by lra; lra]. specialize (S2 L). pose proof (Rabs_pos a). lra. }
  destruct (sub_turns_spec (whole a) r Rb) as (r' & k' & E' & Br' & Er' & S1' & S2').
  exists r'. split; [|split; [|split]].
  - intros n L. unfold corangle_loop. change (nsub (nofZ 0) PI) with (0 - PI). change (nmul (nofZ 2) PI) with (2 * PI).
    rewrite (add_turns_more _ _ _ E n L). apply (sub_turns_more _ _ _ E' n L).
  - split; [|exact Br']. destruct (Rlt_dec PI r) as [L|L]; [specialize (S2' L); lra|rewrite S1' by lra; exact Br].
  - exists (k - k')%Z. rewrite minus_IZR, Er', Er. ring.
  - intros I. rewrite S1', S1 by (rewrite ?S1; lra). reflexivity.
Qed.
Lemma corangle_spec a : - PI <= corangle a <= PI /\ same_turn (corangle a) a /\ (- PI <= a <= PI -> corangle a = a).
Proof.
  destruct (corangle_loop_spec a) as (r & L & B & S & I). unfold corangle. rewrite L by lia. auto.
Qed.
(** Sines and cosines do not see corangle. *)
Lemma corangle_turn a : same_turn (corangle a) a.
Proof. apply corangle_spec. Qed.

(** * Division and the math functions where they are defined *)
Lemma ndivE_R (x y : R) : y <> 0 -> ndivE x y = Ok (x / y).
Proof. intros N. unfold ndivE. change (Num.neq y (nofZ 0)) with (Req_bool y 0). destruct (Req_bool_spec y 0); [contradiction|reflexivity]. Qed.
Lemma ndivE_zero (x : R) : ndivE x 0 = Err ZeroDivisionError.
Proof. unfold ndivE. change (Num.neq 0 (nofZ 0)) with (Req_bool 0 0). destruct (Req_bool_spec 0 0); [reflexivity|congruence]. Qed.
Lemma math_sqrt_ok x : 0 <= x -> math_sqrt x = Ok (sqrt x).
Proof. intros P. unfold math_sqrt. destruct (Rlt_bool_spec x 0); [lra|reflexivity]. Qed.
Lemma math_log_ok x : 0 < x -> math_log x = Ok (ln x).
Proof. intros P. unfold math_log. destruct (Rle_bool_spec x 0); [lra|reflexivity]. Qed.
Lemma math_asin_ok x : -1 <= x <= 1 -> math_asin x = Ok (asin x).
Proof. intros P. unfold math_asin. destruct (Rle_bool_spec (-1) x), (Rle_bool_spec x 1); try lra. reflexivity. Qed.
Lemma math_acos_ok x : -1 <= x <= 1 -> math_acos x = Ok (acos x).
Proof. intros P. unfold math_acos. destruct (Rle_bool_spec (-1) x), (Rle_bool_spec x 1); try lra. reflexivity. Qed.
Lemma math_atanh_ok x : -1 < x < 1 -> math_atanh x = Ok (ln ((1 + x) / (1 - x)) / 2).
Proof. intros P. unfold math_atanh. destruct (Rlt_bool_spec (-1) x), (Rlt_bool_spec x 1); try lra. reflexivity. Qed.
Lemma cos_pos_strict x : -90 < x < 90 -> 0 < cos (radians x).
Proof. intros B. apply cos_gt_0; apply rad_lat_strict in B; lra. Qed.
Lemma cos_pos_lat x : valid_lat x -> 0 <= cos (radians x).
Proof. intros B. apply cos_ge_0; apply rad_lat in B; lra. Qed.
