(** Eckert IV: the Newton loop ends and what it leaves. *)
From Coq Require Import Lia.
From Verif Require Import ProjModel GeoSpec TrigLib ProjProofs.
Open Scope R_scope.

Definition ek (t : R) : R := t + sin t * cos t + 2 * sin t.
Lemma ek_lim t : derivable_pt_lim ek t (eckert_den t).
Proof.
  unfold ek. replace (eckert_den t) with (1 + (cos t * cos t + sin t * - sin t) + 2 * cos t).
  - apply (derivable_pt_lim_plus (fun t => t + sin t * cos t) (fun t => 2 * sin t)).
    + apply (derivable_pt_lim_plus (fun t => t) (fun t => sin t * cos t)); [apply derivable_pt_lim_id|].
      apply (derivable_pt_lim_mult sin cos); [apply derivable_pt_lim_sin|apply derivable_pt_lim_cos].
    + apply (derivable_pt_lim_scal sin); apply derivable_pt_lim_sin.
  - unfold eckert_den. pose proof (sc t). lra.
Qed.
Lemma ek_0 : ek 0 = 0.
Proof. unfold ek. rewrite sin_0. ring. Qed.
Lemma ek_top : ek (PI / 2) = eckert_c.
Proof. unfold ek, eckert_c. rewrite sin_PI2, cos_PI2. field. Qed.
Lemma c_pos : 0 < eckert_c.
Proof. unfold eckert_c. pose proof PI_RGT_0. lra. Qed.
Lemma den_pos t : 0 <= t < PI / 2 -> 0 < eckert_den t.
Proof. intros B. assert (0 < cos t) by (apply cos_gt_0; lra). unfold eckert_den. nra. Qed.
Lemma den_le_4 t : eckert_den t <= 4.
Proof. unfold eckert_den. pose proof (COS_bound t). nra. Qed.
Lemma ek_step t r : 0 <= t -> t < r -> r <= PI / 2 -> 0 < ek r - ek t < eckert_den t * (r - t).
Proof.
  intros A B C. destruct (MVT_cor2 ek eckert_den t r B) as (c & E & Bc); [intros; apply ek_lim|]. rewrite E.
  assert (D : 0 < cos c < cos t). { split; [apply cos_gt_0; lra|apply cos_decreasing_1; pose proof PI_RGT_0; lra]. }
  assert (0 < eckert_den c < eckert_den t) by (unfold eckert_den; split; nra). split; nra.
Qed.
Lemma ek_mono t r : 0 <= t -> t <= r -> r <= PI / 2 -> ek t <= ek r.
Proof. intros A [B|<-] C; [|lra]. pose proof (ek_step t r A B C). lra. Qed.
Lemma ek_root k : 0 <= k <= eckert_c -> exists r, 0 <= r <= PI / 2 /\ ek r = k.
Proof.
  intros B. pose proof PI_RGT_0 as P.
  assert (Cn : continuity (fun t => ek t - k)).
  { intros t. apply derivable_continuous_pt. exists (eckert_den t - 0). apply (derivable_pt_lim_minus ek (fun _ => k)); [apply ek_lim|apply derivable_pt_lim_const]. }
  destruct (IVT_cor (fun t => ek t - k) 0 (PI / 2) Cn) as (z & Bz & E); [lra|rewrite ek_0, ek_top; nra|]. exists z. split; [exact Bz|lra].
Qed.
(** The loop from the left of the root *)
Lemma loop_ends n s th r : 0 <= th -> th <= r -> r <= PI / 2 -> th < PI / 2 -> ek r = eckert_c * s -> r - th <= INR n * (1 / 1000000) ->
  exists t, (forall m, (n <= m)%nat -> eckert_loop (S m) s th = Some (Ok t)) /\ th <= t <= r /\ t < PI / 2 /\ 0 <= eckert_c * s - ek t <= 4 / 1000000.
Proof.
  intros A B C D R. revert th A B D. induction n as [|n IH]; intros th A B D L.
  - cbn [INR] in L. assert (E : th = r) by lra. subst th. exists r. split; [|split; [lra|split; [exact D|lra]]].
    intros m _. cbn [eckert_loop]. pose proof (den_pos r ltac:(lra)). rewrite ndivE_R by lra. cbn [bind].
    replace (- eckert_num s r) with 0 by (unfold eckert_num; unfold ek in R; lra). unfold Rdiv. rewrite Rmult_0_l, Rabs_R0.
    destruct (Rlt_bool_spec (1 * / 1000000) 0); [lra|reflexivity].
  - pose proof (den_pos th ltac:(lra)) as Pd. set (delta := - eckert_num s th / eckert_den th).
    assert (Nu : - eckert_num s th = ek r - ek th) by (unfold eckert_num; rewrite R; unfold ek; ring).
    assert (Dd : delta * eckert_den th = ek r - ek th) by (unfold delta; rewrite Nu; field; lra).
    assert (Bd : 0 <= delta /\ (th < r -> delta < r - th) /\ delta <= r - th).
    { destruct B as [B|B].
      - pose proof (ek_step th r A B C). split; [nra|]. split; [intros; nra|nra].
      - subst th. rewrite Rminus_diag_eq in Dd by reflexivity. assert (delta = 0) by nra. lra. }
    destruct Bd as (B0 & B1 & B2). destruct (Rlt_dec (1 / 1000000) delta) as [G|G].
    + assert (th < r) by (destruct B; lra). specialize (B1 H). rewrite S_INR in L.
      destruct (IH (th + delta)) as (t & Et & Bt & Ut & Ft); [lra|lra|lra|lra|].
      exists t. split; [|split; [lra|split; assumption]]. intros [|m] Lm; [lia|]. cbn [eckert_loop]. rewrite ndivE_R by lra. cbn [bind]. fold delta.
      rewrite Rabs_pos_eq by lra. destruct (Rlt_bool_spec (1 / 1000000) delta); [|lra]. apply Et. lia.
    + exists th. split; [|split; [lra|split; [exact D|]]].
      * intros m _. cbn [eckert_loop]. rewrite ndivE_R by lra. cbn [bind]. fold delta. rewrite Rabs_pos_eq by lra. destruct (Rlt_bool_spec (1 / 1000000) delta); [lra|reflexivity].
      * rewrite <- R, <- Dd. pose proof (den_le_4 th). split; nra.
Qed.
Lemma loop_odd n s th : eckert_loop n (- s) (- th) = option_map (rmap Ropp) (eckert_loop n s th).
Proof.
  revert th. induction n as [|n IH]; intros th; [reflexivity|]. cbn [eckert_loop].
  assert (Ed : eckert_den (- th) = eckert_den th) by (unfold eckert_den; rewrite cos_neg; reflexivity).
  assert (En : eckert_num (- s) (- th) = - eckert_num s th) by (unfold eckert_num; rewrite cos_neg, sin_neg; ring). rewrite Ed, En.
  destruct (Req_dec (eckert_den th) 0) as [Z0|N]; [rewrite Z0, !ndivE_zero; reflexivity|]. rewrite !ndivE_R by exact N. cbn [bind].
  replace (- - eckert_num s th / eckert_den th) with (- (- eckert_num s th / eckert_den th)) by (field; exact N). set (d := - eckert_num s th / eckert_den th).
  rewrite Rabs_Ropp. destruct (Rlt_bool (1 / 1000000) (Rabs d)); [|reflexivity]. rewrite <- IH. f_equal. ring.
Qed.
Lemma x_le_tan x : 0 <= x < PI / 2 -> x <= tan x.
Proof.
  intros [[A|<-] B]; [|rewrite tan_0; lra].
  destruct (MVT_cor2 sin cos 0 x A) as (c & E & Bc); [intros; apply derivable_pt_lim_sin|]. rewrite sin_0 in E.
  assert (Px : 0 < cos x) by (apply cos_gt_0; lra). assert (cos x < cos c) by (apply cos_decreasing_1; lra).
  unfold tan. apply Rmult_le_reg_r with (cos x); [exact Px|]. replace (sin x / cos x * cos x) with (sin x) by (field; lra). nra.
Qed.
Lemma start_left f : 0 <= f <= PI / 2 -> ek (f / 2) <= eckert_c * sin f.
Proof.
  intros B. pose proof PI_RGT_0 as P. set (h := f / 2). assert (Bh : 0 <= h <= PI / 4) by (unfold h; lra).
  assert (S2 : sin f = 2 * sin h * cos h) by (rewrite <- sin_2a; f_equal; unfold h; field).
  assert (Sh : 0 <= sin h) by (apply sin_ge_0; lra).
  assert (Ch : 1 / 2 <= cos h * cos h). { assert (C2 : 0 <= cos (2 * h)) by (apply cos_ge_0; lra). rewrite cos_2a_cos in C2. lra. }
  assert (Ph : 0 < cos h) by (apply cos_gt_0; lra).
  assert (C7 : 7 / 10 <= cos h) by nra.
  pose proof (x_le_tan h ltac:(lra)) as T. assert (T2 : h * cos h <= sin h).
  { apply Rle_trans with (tan h * cos h); [nra|]. unfold tan. right. field. lra. }
  unfold ek, eckert_c. rewrite S2. assert (P3 : 3 < PI) by (pose proof PI2_3_2; unfold PI2 in *; lra).
  assert (h <= 2 * sin h * cos h). { assert (h * (1 / 2) <= h * (cos h * cos h)) by nra. assert (h * (cos h * cos h) <= sin h * cos h) by nra. lra. }
  assert (2 * sin h <= 20 / 7 * sin h * cos h) by nra.
  assert (0 <= sin h * cos h) by nra. nra.
Qed.
Lemma above (x : R) : exists n, x < INR n.
Proof.
  exists (Z.to_nat (up x)). rewrite INR_IZR_INZ. destruct (archimed x) as [U _]. assert (IZR (up x) <= IZR (Z.of_nat (Z.to_nat (up x)))) by (apply IZR_le; lia). lra.
Qed.
Lemma loop_pos f : 0 <= f <= PI / 2 -> exists N t, (forall m, (N <= m)%nat -> eckert_loop m (sin f) (f / 2) = Some (Ok t)) /\ 0 <= t < PI / 2 /\ 0 <= eckert_c * sin f - ek t <= 4 / 1000000.
Proof.
  intros B. pose proof PI_RGT_0 as P. pose proof c_pos as PC. pose proof (SIN_bound f) as BS. assert (S0 : 0 <= sin f) by (apply sin_ge_0; lra).
  destruct (ek_root (eckert_c * sin f)) as (r & Br & Er); [split; nra|].
  assert (Lr : f / 2 <= r). { destruct (Rle_or_lt (f / 2) r) as [|G]; [assumption|]. exfalso. pose proof (ek_step r (f / 2) ltac:(lra) G ltac:(lra)). pose proof (start_left f B). lra. }
  destruct (above ((r - f / 2) * 1000000)) as (n & Hn).
  destruct (loop_ends n (sin f) (f / 2) r) as (t & Et & Bt & Ut & Ft); [lra|exact Lr|lra|lra|exact Er|lra|].
  exists (S n), t. split; [|split; [lra|exact Ft]]. intros [|m] L; [lia|]. apply Et. lia.
Qed.
Lemma ek_neg t : ek (- t) = - ek t.
Proof. unfold ek. rewrite cos_neg, sin_neg. ring. Qed.
Lemma loop_any f : - (PI / 2) <= f <= PI / 2 -> exists N t, (forall m, (N <= m)%nat -> eckert_loop m (sin f) (f / 2) = Some (Ok t)) /\ - (PI / 2) < t < PI / 2 /\
  Rabs (ek t - eckert_c * sin f) <= 4 / 1000000 /\ -1 <= ek t / eckert_c <= 1.
Proof.
  intros B. pose proof c_pos as PC. pose proof PI_RGT_0 as P.
  assert (U : forall t, 0 <= t < PI / 2 -> 0 <= ek t / eckert_c <= 1).
  { intros t Bt. pose proof (ek_mono 0 t ltac:(lra) ltac:(lra) ltac:(lra)) as M0. rewrite ek_0 in M0. pose proof (ek_mono t (PI / 2) ltac:(lra) ltac:(lra) ltac:(lra)) as M1. rewrite ek_top in M1.
    assert (Q : ek t / eckert_c * eckert_c = ek t) by (field; lra). split; nra. }
  destruct (Rle_or_lt 0 f) as [G|G].
  - destruct (loop_pos f ltac:(lra)) as (N & t & E & Bt & F). exists N, t. split; [exact E|]. split; [lra|]. split; [rewrite Rabs_minus_sym, Rabs_pos_eq by lra; lra|].
    specialize (U t Bt). lra.
  - destruct (loop_pos (- f) ltac:(lra)) as (N & t & E & Bt & F). exists N, (- t). rewrite sin_neg in *. split; [|split; [lra|]].
    + intros m L. replace (sin f) with (- (- sin f)) by ring. replace (f / 2) with (- (- f / 2)) by field. rewrite loop_odd, E by exact L. reflexivity.
    + rewrite ek_neg. split; [replace (- ek t - eckert_c * sin f) with (eckert_c * - sin f - ek t) by ring; rewrite Rabs_pos_eq; lra|].
      specialize (U t Bt). replace (- ek t / eckert_c) with (- (ek t / eckert_c)) by (field; lra). lra.
Qed.
Lemma eckert_near l0 b0 r lon lat : 0 < r -> valid_lat lat -> let p := proj_new (Some (l0, b0)) (Some r) in exists N x y lon' lat',
  (forall fuel, (N <= fuel)%nat -> eckert_geo2rect fuel p lon lat = Some (Ok (x, y))) /\ eckert_rect2geo p x y = Ok (lon', lat') /\ same_lon lon' lon /\
  valid_lat lat' /\ Rabs (sin (rad lat') - sin (rad lat)) <= 4 / 1000000 / (2 + PI / 2).
Proof.
  intros Pr V p. pose proof PI_RGT_0 as P. pose proof c_pos as PC. destruct (loop_any (radians lat) ltac:(pose proof (rad_lat lat V); lra)) as (N & t & E & Bt & F & U).
  set (f := radians lat) in *. assert (Pcx : 0 < eckert_cx) by (apply Rdiv_lt_0_compat; [lra|apply sqrt_lt_R0; nra]).
  assert (Pcy : 0 < eckert_cy) by (apply Rmult_lt_0_compat; [lra|apply sqrt_lt_R0, Rdiv_lt_0_compat; lra]).
  assert (Ct : 0 < cos t) by (apply cos_gt_0; lra).
  exists N. eexists _, _, _, _. split; [intros fuel L; unfold eckert_geo2rect; fold f; rewrite E by exact L; cbn [rmap]; reflexivity|].
  unfold eckert_rect2geo. change (p_r p) with r. change (p_lon0 p) with (radians l0). rewrite (ndivE_R _ (eckert_cy * r)) by nra. cbn [bind].
  replace (eckert_cy * r * sin t / (eckert_cy * r)) with (sin t) by (field; lra). rewrite math_asin_ok by apply SIN_bound. cbn [bind]. rewrite asin_sin by lra.
  rewrite ndivE_R by (apply Rgt_not_eq; apply Rmult_lt_0_compat; nra). cbn [bind]. rewrite ndivE_R by lra. cbn [bind]. fold (ek t). rewrite math_asin_ok by exact U. cbn [bind].
  split; [reflexivity|]. split; [|split].
  - apply same_lon_rad. rewrite rad_deg.
    match goal with |- same_turn (_ + ?q) _ => replace q with (corangle (radians lon - radians l0)) by (field; split; [|split]; lra) end.
    rewrite Rplus_comm. apply corangle_back.
  - unfold valid_lat, degrees. pose proof (asin_bound (ek t / eckert_c)). assert (asin (ek t / eckert_c) * (180 / PI) * PI = asin (ek t / eckert_c) * 180) by (field; lra). split; nra.
  - rewrite <- !rad_radians, rad_deg. rewrite sin_asin by exact U. fold f. change (2 + PI / 2) with eckert_c.
    replace (ek t / eckert_c - sin f) with ((ek t - eckert_c * sin f) / eckert_c) by (field; lra). unfold Rdiv at 1. rewrite Rabs_mult, (Rabs_pos_eq (/ eckert_c)) by (left; apply Rinv_0_lt_compat; lra).
    unfold Rdiv at 1. apply Rmult_le_compat_r; [left; apply Rinv_0_lt_compat; lra|exact F].
Qed.
