(** P files in double arithmetic: which writes succeed. *)
From Coq Require Import ZArith Reals Lia Lra SpecFloat Psatz ZifyBool.
From Flocq Require Import Core IEEE754.BinarySingleNaN.
From Verif Require Import Num FloatLib BBoxModel BBoxProofs BBoxFloatSpec BBoxFloat VlvModel VlvProofs PfModel PfProofs PfSpec PfExact PfAccept PfHist PfFinal PfFloat PfFloatNorm PfFloatSpec PfFloatEnds PfFloatTrip PfFloatBack.
Open Scope Z_scope.

(** ** Grid codes *)
Definition gridR (h : Z) (r : R) : R := rnd (rnd (rnd (r + IZR h) * 65535) / IZR (2 * h)).
Definition eta : R := (/ 268435456 / 360 + / 274877906944)%R.
Lemma grid_val (x : f64) r h : h = 90 \/ h = 180 -> isf x r -> (IZR (- h) <= r <= IZR h)%R ->
  isf (fdiv (fmul (fadd x (fofZ h)) (fofZ UMAX2)) (fofZ (2 * h))) (gridR h r) /\ (0 <= gridR h r <= 65535)%R /\
  (Rabs (gridR h r - (r + IZR h) * 65535 / IZR (2 * h)) <= eta)%R.
Proof.
  intros Hh Hx B. assert (Ih : isf (fofZ h) (IZR h)) by (apply isf_int; lia).
  assert (I2 : isf (fofZ (2 * h)) (IZR (2 * h))) by (apply isf_int; lia).
  assert (Iu : isf (fofZ UMAX2) 65535) by (apply (isf_int 65535); lia).
  assert (P : (0 < IZR (2 * h))%R) by (apply IZR_lt; lia). rewrite opp_IZR in B.
  assert (B1 : (IZR 0 <= r + IZR h <= IZR (2 * h))%R) by (rewrite mult_IZR in *; cbn; lra). assert (B1' := B1).
  assert (A1 : isf (fadd x (fofZ h)) (rnd (r + IZR h))).
  { apply isf_fadd; auto. apply small_le. eapply Rle_trans; [apply Rabs_0_le; exact B1|]. apply IZR_le; lia. }
  apply rnd_between in B1; [|lia|lia]. unfold gridR. set (s := rnd (r + IZR h)) in *.
  assert (B2 : (IZR 0 <= s * 65535 <= IZR (2 * h * 65535))%R) by (rewrite (mult_IZR (2 * h)); cbn in *; lra). assert (B2' := B2).
  assert (A2 : isf (fmul (fadd x (fofZ h)) (fofZ UMAX2)) (rnd (s * 65535))).
  { apply isf_fmul; auto. apply small_le. eapply Rle_trans; [apply Rabs_0_le; exact B2|]. apply IZR_le; lia. }
  apply rnd_between in B2; [|lia|lia]. set (t := rnd (s * 65535)) in *.
  assert (B3 : (IZR 0 <= t / IZR (2 * h) <= IZR 65535)%R).
  { rewrite (mult_IZR (2 * h)) in B2. split.
    - apply Rmult_le_pos; [apply B2|]. apply Rlt_le, Rinv_0_lt_compat. exact P.
    - apply Rmult_le_reg_r with (IZR (2 * h)); [exact P|]. unfold Rdiv. rewrite Rmult_assoc, Rinv_l by lra. lra. }
  split; [|split; [apply (rnd_between 0 65535); [lia|lia|exact B3]|]].
  { apply isf_fdiv; auto; [lra|]. apply small_le. eapply Rle_trans; [apply Rabs_0_le; exact B3|]. apply IZR_le; lia. }
  assert (E3 : (Rabs (rnd (t / IZR (2 * h)) - t / IZR (2 * h)) <= bpow radix2 (16 - 54))%R).
  { apply rnd_err; [lia|]. change (bpow radix2 16) with 65536%R. apply Rabs_def1; cbn in B3; lra. }
  change (bpow radix2 (16 - 54)) with (/ 274877906944)%R in E3. apply Rabs_le_inv in E3. unfold eta.
  assert (E2 : (Rabs (t - (r + IZR h) * 65535) <= IZR (2 * h) * (/ 268435456 / 360))%R).
  { destruct Hh as [-> | ->].
    - assert (F1 : (Rabs (s - (r + 90)) <= bpow radix2 (8 - 54))%R) by (apply rnd_err; [lia|]; change (bpow radix2 8) with 256%R; change (IZR (2 * 90)) with 180%R in *; apply Rabs_def1; cbn in *; lra).
      assert (F2 : (Rabs (t - s * 65535) <= bpow radix2 (24 - 54))%R) by (apply rnd_err; [lia|]; change (bpow radix2 24) with 16777216%R; change (IZR (2 * 90 * 65535)) with 11796300%R in *; apply Rabs_def1; cbn in *; lra).
      change (bpow radix2 (8 - 54)) with (/ 70368744177664)%R in F1. change (bpow radix2 (24 - 54)) with (/ 1073741824)%R in F2.
      apply Rabs_le_inv in F1. apply Rabs_le_inv in F2. apply Rabs_le. change (IZR (2 * 90)) with 180%R. lra.
    - assert (F1 : (Rabs (s - (r + 180)) <= bpow radix2 (9 - 54))%R) by (apply rnd_err; [lia|]; change (bpow radix2 9) with 512%R; change (IZR (2 * 180)) with 360%R in *; apply Rabs_def1; cbn in *; lra).
      assert (F2 : (Rabs (t - s * 65535) <= bpow radix2 (25 - 54))%R) by (apply rnd_err; [lia|]; change (bpow radix2 25) with 33554432%R; change (IZR (2 * 180 * 65535)) with 23592600%R in *; apply Rabs_def1; cbn in *; lra).
      change (bpow radix2 (9 - 54)) with (/ 35184372088832)%R in F1. change (bpow radix2 (25 - 54)) with (/ 536870912)%R in F2.
      apply Rabs_le_inv in F1. apply Rabs_le_inv in F2. apply Rabs_le. change (IZR (2 * 180)) with 360%R. lra. }
  apply Rabs_le_inv in E2. destruct Hh as [-> | ->].
  - change (IZR (2 * 90)) with 180%R in *. apply Rabs_le. lra.
  - change (IZR (2 * 180)) with 360%R in *. apply Rabs_le. lra.
Qed.
(** A side of a box: its codes, and its edges around the points. *)
Lemma side_codes h (a b : f64) r0 r1 : h = 90 \/ h = 180 -> isf a r0 -> isf b r1 -> (IZR (- h) <= r0)%R -> (r0 + / 1048576 <= r1)%R -> (r1 <= IZR h)%R ->
  let k0 := f_floor (fdiv (fmul (fadd a (fofZ h)) (fofZ UMAX2)) (fofZ (2 * h))) in
  let k1 := f_ceil (fdiv (fmul (fadd b (fofZ h)) (fofZ UMAX2)) (fofZ (2 * h))) in
  0 <= k0 < k1 /\ k1 <= 65535 /\
  (IZR (k0 * (2 * h)) / 65535 - IZR h <= r0 + IZR (2 * h) / 65535 * eta)%R /\ (r0 < IZR ((k0 + 1) * (2 * h)) / 65535 - IZR h + IZR (2 * h) / 65535 * eta)%R /\
  (r1 - IZR (2 * h) / 65535 * eta <= IZR (k1 * (2 * h)) / 65535 - IZR h)%R /\ (IZR ((k1 - 1) * (2 * h)) / 65535 - IZR h - IZR (2 * h) / 65535 * eta < r1)%R.
Proof.
  intros Hh Ha Hb L0 L1 L2. assert (Th : (0 < / 1048576)%R) by lra. destruct (grid_val a r0 h Hh Ha) as (Ia & Ba & Ea); [lra|]. destruct (grid_val b r1 h Hh Hb) as (Ib & Bb & Eb); [lra|].
  cbv zeta. rewrite (isf_floor _ _ Ia), (isf_ceil _ _ Ib). apply Rabs_le_inv in Ea. apply Rabs_le_inv in Eb.
  pose proof (Zfloor_lb (gridR h r0)) as K1. pose proof (Zfloor_ub (gridR h r0)) as K2. pose proof (Zceil_ub (gridR h r1)) as K3. pose proof (Zceil_lb (gridR h r1)) as K4.
  set (k0 := Zfloor (gridR h r0)) in *. set (k1 := Zceil (gridR h r1)) in *.
  assert (F0 : 0 <= k0) by (apply Zfloor_lub; apply Ba). assert (F1 : k1 <= 65535) by (apply Zceil_glb; apply Bb).
  unfold eta in *. destruct Hh as [-> | ->].
  - change (2 * 90) with 180 in *. split; [split; [exact F0|]|split; [exact F1|]].
    + apply lt_IZR. lra.
    + rewrite !mult_IZR, plus_IZR, minus_IZR. lra.
  - change (2 * 180) with 360 in *. split; [split; [exact F0|]|split; [exact F1|]].
    + apply lt_IZR. lra.
    + rewrite !mult_IZR, plus_IZR, minus_IZR. lra.
Qed.

(** ** Codes of the points *)
Lemma coord_ok h U k0 k1 x r0 r1 : h = 90 \/ h = 180 -> 0 < U < 2 ^ 32 -> 0 <= k0 < k1 -> k1 <= 65535 -> finite64 x -> (IZR (- h) <= r0)%R -> (r1 <= IZR h)%R ->
  (IZR (k0 * (2 * h)) / 65535 - IZR h <= r0 + IZR (2 * h) / 65535 * eta)%R ->
  (r1 - IZR (2 * h) / 65535 * eta <= IZR (k1 * (2 * h)) / 65535 - IZR h)%R -> (r0 <= val x <= r1)%R ->
  exists u, quant_coord U (edge64 h k0) (edge64 h k1) x = Ok u /\ 0 <= u <= U.
Proof.
  intros Hh HU K0 K1 Fx G0 G1 L0 L1 Bx.
  destruct (edge_val h k0 Hh ltac:(lia)) as (I0 & B0 & E0). destruct (edge_val h k1 Hh ltac:(lia)) as (I1 & B1 & E1).
  pose proof (edge_apart h k0 k1 Hh ltac:(lia) ltac:(lia) ltac:(lia)) as Ap. fold (edge64 h k0) in I0. fold (edge64 h k1) in I1.
  assert (P : (IZR h <= 180)%R) by (apply IZR_le; lia). assert (P0 : (0 < IZR h)%R) by (apply IZR_lt; lia). rewrite opp_IZR in *.
  destruct (quant_real U _ _ x _ _ _ ltac:(lia) I0 I1 (val_isf x Fx)) as [(DN & _)|(DN & DB & E & Iq & ID)];
    try (apply Rabs_le; lra).
  { apply edges_apart; auto; lia. }
  { exfalso. assert (C : (/ 1024 <= rnd (edgeR h k1 - edgeR h k0))%R); [|lra]. change (/ 1024)%R with (bpow radix2 (-10)).
    apply rnd_ge; [lia|]. change (bpow radix2 (-10)) with (/ 1024)%R. assert (/ 1024 <= IZR h / 65536)%R by (destruct Hh as [-> | ->]; lra). lra. }
  rewrite E. eexists. split; [reflexivity|]. pose proof (isf_round _ _ Iq) as Ru.
  set (e0 := edgeR h k0) in *. set (e1 := edgeR h k1) in *. set (D := rnd (e1 - e0)) in *. set (s := rnd (val x - e0)) in *. set (t := rnd (s * IZR U)) in *.
  set (u := f_round _) in *. clearbody u.
  apply Rabs_le_inv in E0. apply Rabs_le_inv in E1.
  (* h-scaled errors *)
  assert (UR : (1 <= IZR U <= 4294967295)%R) by (split; apply IZR_le; lia).
  assert (ED : (Rabs (D - (e1 - e0)) <= IZR h / 180 * / 35184372088832)%R).
  { destruct Hh as [-> | ->].
    - eapply Rle_trans; [apply (rnd_err _ 8); [lia|]|]; [change (bpow radix2 8) with 256%R; apply Rabs_def1; lra|]. change (bpow radix2 (8 - 54)) with (/ 70368744177664)%R. lra.
    - eapply Rle_trans; [apply (rnd_err _ 9); [lia|]|]; [change (bpow radix2 9) with 512%R; apply Rabs_def1; lra|]. change (bpow radix2 (9 - 54)) with (/ 35184372088832)%R. lra. }
  assert (Es : (Rabs (s - (val x - e0)) <= IZR h / 180 * / 35184372088832)%R).
  { destruct Hh as [-> | ->].
    - eapply Rle_trans; [apply (rnd_err _ 8); [lia|]|]; [change (bpow radix2 8) with 256%R; apply Rabs_def1; lra|]. change (bpow radix2 (8 - 54)) with (/ 70368744177664)%R. lra.
    - eapply Rle_trans; [apply (rnd_err _ 9); [lia|]|]; [change (bpow radix2 9) with 512%R; apply Rabs_def1; lra|]. change (bpow radix2 (9 - 54)) with (/ 35184372088832)%R. lra. }
  apply Rabs_le_inv in ED. apply Rabs_le_inv in Es.
  assert (Bs : (Rabs s <= IZR h * 2.2)%R) by (apply Rabs_le; lra).
  assert (Et : (Rabs (t - s * IZR U) <= IZR h / 180 * / 8192)%R).
  { assert (Bsu : (Rabs (s * IZR U) <= IZR h * 2.2 * 4294967295)%R) by (rewrite Rabs_mult, (Rabs_pos_eq (IZR U)) by lra; apply Rmult_le_compat; try apply Rabs_pos; lra).
    destruct Hh as [-> | ->].
    - eapply Rle_trans; [apply (rnd_err _ 40); [lia|]|]; [change (bpow radix2 40) with 1099511627776%R; lra|]. change (bpow radix2 (40 - 54)) with (/ 16384)%R. lra.
    - eapply Rle_trans; [apply (rnd_err _ 41); [lia|]|]; [change (bpow radix2 41) with 2199023255552%R; lra|]. change (bpow radix2 (41 - 54)) with (/ 8192)%R. lra. }
  apply Rabs_le_inv in Et.
  assert (DP : (IZR h / 65536 - IZR h / 180 * / 35184372088832 <= D)%R) by lra.
  assert (DP0 : (0 < D)%R) by (destruct Hh as [-> | ->]; lra).
  (* s within D, nearly *)
  set (del := (IZR h / 180 * (/ 4398046511104))%R).
  assert (S0 : (- del <= s)%R) by (unfold del, eta in *; rewrite !mult_IZR in *; destruct Hh as [-> | ->]; lra).
  assert (S1 : (s <= D + del)%R) by (unfold del, eta in *; rewrite !mult_IZR in *; destruct Hh as [-> | ->]; lra).
  assert (DL : (0 <= del)%R) by (unfold del; destruct Hh as [-> | ->]; lra).
  assert (M0 : (- (del * 4294967295) <= s * IZR U)%R).
  { apply (Rle_trans _ (- del * IZR U)); [|apply Rmult_le_compat_r; lra]. rewrite <- Ropp_mult_distr_l. apply Ropp_le_contravar. apply Rmult_le_compat_l; lra. }
  assert (M1 : (s * IZR U <= D * IZR U + del * 4294967295)%R).
  { apply (Rle_trans _ ((D + del) * IZR U)); [apply Rmult_le_compat_r; lra|]. rewrite Rmult_plus_distr_r. apply Rplus_le_compat_l. apply Rmult_le_compat_l; lra. }
  assert (T0 : (- (7 / 16) * D <= t)%R) by (unfold del in *; destruct Hh as [-> | ->]; lra).
  assert (T1 : (t <= (IZR U + 7 / 16) * D)%R) by (unfold del in *; destruct Hh as [-> | ->]; lra).
  assert (Q0 : (- (7 / 16) <= t / D)%R) by (apply Rmult_le_reg_r with D; [exact DP0|]; unfold Rdiv; rewrite Rmult_assoc, Rinv_l by lra; lra).
  assert (Q1 : (t / D <= IZR U + 7 / 16)%R) by (apply Rmult_le_reg_r with D; [exact DP0|]; unfold Rdiv; rewrite Rmult_assoc, Rinv_l by lra; lra).
  assert (R0 : (- (7 / 16) <= rnd (t / D))%R).
  { apply round_ge_generic; [apply fexp64_valid|apply valid_rnd_N| |exact Q0]. replace (- (7 / 16))%R with (F2R (Float radix2 (-7) (-4))) by (unfold F2R; cbn [Fnum Fexp]; change (bpow radix2 (-4)) with (/ 16)%R; lra).
    apply generic_format_F2R. intros _. unfold cexp, fexp64, SpecFloat.fexp, SpecFloat.emin.
    assert (mag radix2 (F2R (Float radix2 (-7) (-4))) <= 1); [|lia]. apply mag_le_bpow; [apply F2R_neq_0; cbn; lia|].
    unfold F2R; cbn [Fnum Fexp]. change (bpow radix2 (-4)) with (/ 16)%R. change (bpow radix2 1) with 2%R. apply Rabs_def1; lra. }
  assert (R1 : (rnd (t / D) <= IZR U + 7 / 16)%R).
  { apply round_le_generic; [apply fexp64_valid|apply valid_rnd_N| |exact Q1].
    replace (IZR U + 7 / 16)%R with (F2R (Float radix2 (16 * U + 7) (-4))) by (unfold F2R; cbn [Fnum Fexp]; rewrite plus_IZR, mult_IZR; change (bpow radix2 (-4)) with (/ 16)%R; lra).
    apply generic_format_F2R. intros _. unfold cexp, fexp64, SpecFloat.fexp, SpecFloat.emin.
    assert (mag radix2 (F2R (Float radix2 (16 * U + 7) (-4))) <= 33); [|lia]. apply mag_le_bpow; [apply F2R_neq_0; cbn; lia|].
    unfold F2R; cbn [Fnum Fexp]. rewrite plus_IZR, mult_IZR. change (bpow radix2 (-4)) with (/ 16)%R. change (bpow radix2 33) with 8589934592%R. apply Rabs_def1; lra. }
  apply Rabs_le_inv in Ru. assert (A0 : (-1 < IZR u)%R) by lra. assert (A1 : (IZR u < IZR (U + 1))%R) by (rewrite plus_IZR; lra).
  apply lt_IZR in A0, A1. lia.
Qed.

(** ** The box around the points *)
Definition hull64 (ps : list dpt) (b : bbox f64) : Prop :=
  (forall p, In p ps -> (val (bx0 b) <= val (fst p) <= val (bx1 b) /\ val (by0 b) <= val (snd p) <= val (by1 b))%R) /\
  (exists y, In (bx0 b, y) ps) /\ (exists y, In (bx1 b, y) ps) /\
  (exists x, In (x, by0 b) ps) /\ (exists x, In (x, by1 b) ps).
Definition wide (b : bbox f64) : Prop := (val (bx0 b) + / 1048576 <= val (bx1 b) /\ val (by0 b) + / 1048576 <= val (by1 b))%R.
Lemma worldR_lon ps b : Forall in_worldR ps -> hull64 ps b ->
  finite64 (bx0 b) /\ finite64 (bx1 b) /\ finite64 (by0 b) /\ finite64 (by1 b) /\
  (-180 <= val (bx0 b))%R /\ (val (bx1 b) <= 180)%R /\ (-90 <= val (by0 b))%R /\ (val (by1 b) <= 90)%R.
Proof.
  rewrite Forall_forall. intros W (_ & (y0 & I0) & (y1 & I1) & (x0 & J0) & (x1 & J1)).
  destruct (W _ I0) as (A1 & _ & A2 & _), (W _ I1) as (B1 & _ & B2 & _), (W _ J0) as (_ & C1 & _ & C2), (W _ J1) as (_ & D1 & _ & D2). cbn [fst snd] in *.
  repeat (split; [assumption|]). lra.
Qed.
Lemma leb_val x y : finite64 x -> finite64 y -> SFleb x y = true -> (val x <= val y)%R.
Proof.
  intros A B L. rewrite (isf_le _ _ _ _ (val_isf _ A) (val_isf _ B)) in L. destruct (Rle_bool_spec (val x) (val y)); [assumption|discriminate].
Qed.
Lemma ltb_val x y : finite64 x -> finite64 y -> (SFltb x y = true /\ (val x < val y)%R) \/ (SFltb x y = false /\ (val y <= val x)%R).
Proof.
  intros A B. rewrite (isf_lt _ _ _ _ (val_isf _ A) (val_isf _ B)). destruct (Rlt_bool_spec (val x) (val y)); auto.
Qed.
Lemma hull64_of ps : ps <> [] -> Forall in_worldR ps -> exists b, bb_of_points ps = Ok b /\ hull64 ps b.
Proof.
  intros N W. assert (W' := W). rewrite Forall_forall in W.
  destruct (of_points_tight_F ps N) as (b & E & A & T).
  { intros x y H. destruct (W _ H) as (A & B & _). split; eapply isf_not_nan; apply val_isf; assumption. }
  exists b. split; [exact E|]. split; [|exact T]. intros [x y] H. destruct (A x y H) as (A1 & A2 & A3 & A4). destruct (W _ H) as (F1 & F2 & _). cbn [fst snd] in *.
  destruct T as ((y0 & I0) & (y1 & I1) & (x0 & J0) & (x1 & J1)).
  destruct (W _ I0) as (K1 & _), (W _ I1) as (K2 & _), (W _ J0) as (_ & K3 & _), (W _ J1) as (_ & K4 & _). cbn [fst snd] in *.
  split; split; apply leb_val; assumption.
Qed.
Lemma pow20 : (/ 2 ^ 20 = / 1048576)%R.
Proof. f_equal. lra. Qed.
Lemma spread_wide ps b : hull64 ps b -> spread64 ps -> wide b.
Proof.
  unfold spread64, wide. rewrite pow20. intros (A & _) [(p & q & P & Q & L) (p' & q' & P' & Q' & L')].
  pose proof (A _ P). pose proof (A _ Q). pose proof (A _ P'). pose proof (A _ Q'). lra.
Qed.
Lemma spread64_nonempty ps : spread64 ps -> ps <> [].
Proof. intros [(p & _ & H & _) _] ->. exact H. Qed.
Lemma side_wide lo hi : (-180 <= lo)%R -> (hi <= 180)%R -> (lo + / 1048576 <= hi)%R -> side lo hi.
Proof.
  intros A B C. assert (P : (180 <= 2 ^ 500)%R) by (rewrite <- pow500; apply Rle_trans with (bpow radix2 8); [change (bpow radix2 8) with 256%R; lra|apply bpow_le; lia]).
  assert (Q : (/ 2 ^ 500 <= / 1048576)%R) by (apply Rinv_le_contravar; [lra|]; rewrite <- pow500; change 1048576%R with (bpow radix2 20); apply bpow_le; lia).
  split; [apply Rabs_le; lra|]. split; [apply Rabs_le; lra|]. right. lra.
Qed.
Lemma wide_bool ps b : Forall in_worldR ps -> hull64 ps b -> wide b -> bb_bool b = true.
Proof.
  intros W H [V1 V2]. destruct (worldR_lon ps b W H) as (F1 & F2 & F3 & F4 & L1 & L2 & L3 & L4).
  apply (bool_solid b (mkbb (val (bx0 b)) (val (by0 b)) (val (bx1 b)) (val (by1 b)))).
  - repeat split; cbn [bx0 bx1 by0 by1]; apply val_isf; assumption.
  - split; apply side_wide; cbn [bx0 bx1 by0 by1]; lra.
  - split; cbn [bx0 bx1 by0 by1]; lra.
Qed.
Lemma hull64_or ps qs a b : Forall in_worldR ps -> Forall in_worldR qs -> hull64 ps a -> hull64 qs b -> wide a -> wide b ->
  hull64 (ps ++ qs) (bb_or a b) /\ wide (bb_or a b).
Proof.
  intros Wa Wb Ha Hb Pa Pb. unfold bb_or. rewrite (wide_bool ps a), (wide_bool qs b) by assumption. cbn [negb].
  destruct (worldR_lon ps a Wa Ha) as (A1 & A2 & A3 & A4 & _). destruct (worldR_lon qs b Wb Hb) as (B1 & B2 & B3 & B4 & _).
  destruct Pa as [Pa1 Pa2], Pb as [Pb1 Pb2].
  destruct Ha as (A & (y0 & I0) & (y1 & I1) & (x0 & J0) & (x1 & J1)).
  destruct Hb as (B & (y0' & I0') & (y1' & I1') & (x0' & J0') & (x1' & J1')).
  unfold hull64, wide, nmin, nmax. cbn [bx0 bx1 by0 by1 nlt NumF].
  destruct (ltb_val (bx0 b) (bx0 a) B1 A1) as [[-> G1]|[-> G1]]; destruct (ltb_val (by0 b) (by0 a) B3 A3) as [[-> G2]|[-> G2]];
  destruct (ltb_val (bx1 a) (bx1 b) A2 B2) as [[-> G3]|[-> G3]]; destruct (ltb_val (by1 a) (by1 b) A4 B4) as [[-> G4]|[-> G4]];
  (split; [split; [intros p Hp; apply in_app_iff in Hp; destruct Hp as [Hp|Hp]; [apply A in Hp|apply B in Hp]; lra|
     repeat split; eexists; apply in_app_iff; eauto]|lra]).
Qed.
Lemma fold_hull64 parts : forall ps a, Forall in_worldR ps -> Forall (Forall in_worldR) parts -> hull64 ps a -> wide a -> Forall spread64 parts ->
  exists b, foldM bb_step parts (Some a) = Ok (Some b) /\ hull64 (ps ++ concat parts) b /\ wide b.
Proof.
  induction parts as [|p parts IH]; intros ps a W Ws Ha Pa F; cbn [foldM concat].
  - exists a. rewrite app_nil_r. auto.
  - inversion F as [|? ? Sp F']; subst. inversion Ws as [|? ? W1 W2]; subst. destruct (hull64_of p (spread64_nonempty p Sp) W1) as (c & Ec & Hc).
    unfold bb_step at 1. rewrite Ec. cbn [bind].
    destruct (hull64_or ps p a c W W1 Ha Hc Pa (spread_wide p c Hc Sp)) as (Ho & Po).
    destruct (IH (ps ++ p) (bb_or a c)) as (b & E & Hb & Pb); auto; [apply Forall_app; auto|]. exists b.
    rewrite app_assoc. auto.
Qed.
Lemma parts_hull64 parts : parts <> [] -> Forall (Forall in_worldR) parts -> Forall spread64 parts ->
  exists b, foldM bb_step parts None = Ok (Some b) /\ hull64 (concat parts) b /\ wide b.
Proof.
  intros N W F. destruct parts as [|p parts]; [congruence|]. inversion F as [|? ? Sp F']; subst. inversion W as [|? ? W1 W2]; subst.
  destruct (hull64_of p (spread64_nonempty p Sp) W1) as (c & Ec & Hc). cbn [foldM]. unfold bb_step at 1. rewrite Ec. cbn [bind].
  destruct (fold_hull64 parts p c W1 W2 Hc (spread_wide p c Hc Sp) F') as (b & E & Hb & Pb). exists b. auto.
Qed.

(** ** Rings and normalisation *)
Lemma last_nth_error {A} (l : list A) d q : nth_error l (length l - 1) = Some q -> last l d = q.
Proof.
  intros H. assert (N : l <> []) by (intros ->; discriminate). rewrite (last_nth l d N) in H. congruence.
Qed.
Lemma ring64_drop poly part : Forall in_worldR poly -> ring64 poly part -> drop_closing poly = Ok part.
Proof.
  intros W R. assert (N : poly <> []) by (destruct R as [[_ (q & ->)]|(_ & N & _)]; [destruct part; discriminate|exact N]).
  destruct poly as [|p r]; [congruence|]. cbn [drop_closing]. f_equal.
  assert (L : nth_error (p :: r) (length (p :: r) - 1) = Some (last (p :: r) p)) by (apply last_nth; discriminate).
  rewrite Forall_forall in W. destruct (W p (or_introl eq_refl)) as (F1 & F2 & _).
  destruct (W (last (p :: r) p)) as (G1 & G2 & _); [apply (nth_error_In _ _ L)|].
  pose proof (eqb_same p (last (p :: r) p) F1 F2 G1 G2) as Q. destruct R as [[(a & b & A & B & C) (q & E)]|(NC & _ & ->)].
  - injection A as <-. rewrite L in B. injection B as <-. apply Q in C. rewrite C, E. apply removelast_last.
  - destruct (point_eqb p (last (p :: r) p)); [|reflexivity]. exfalso. apply NC. exists p, (last (p :: r) p). split; [reflexivity|]. split; [exact L|apply Q; reflexivity].
Qed.
Lemma world_norm f p : in_worldR p -> norm_point (S f) p = Some p.
Proof.
  intros (A & B & C & D). apply norm_point_id64. unfold in_world64.
  assert (K : forall x z, finite64 x -> Z.abs z <= 180 -> (IZR z <= val x)%R -> SFleb (fofZ z) x = true).
  { intros x z Fx Hz L. rewrite (isf_le _ _ (IZR z) (val x)); [apply Rle_bool_true; exact L|apply isf_int; lia|apply val_isf; exact Fx]. }
  assert (K' : forall x z, finite64 x -> Z.abs z <= 180 -> (val x <= IZR z)%R -> SFleb x (fofZ z) = true).
  { intros x z Fx Hz L. rewrite (isf_le _ _ (val x) (IZR z)); [apply Rle_bool_true; exact L|apply val_isf; exact Fx|apply isf_int; lia]. }
  split; [apply K; [exact A|lia|lra]|]. split; [apply K'; [exact A|lia|lra]|]. split; [apply K; [exact B|lia|lra]|apply K'; [exact B|lia|lra]].
Qed.
Lemma norm_world64 f polys : Forall (Forall in_worldR) polys -> omap (omap (norm_point (S f))) polys = Some polys.
Proof.
  intros F. apply omap_Forall2. induction F as [|poly polys Fp _ IH]; constructor; [|exact IH].
  apply omap_Forall2. induction Fp as [|p poly Hp _ IH']; constructor; [|exact IH'].
  apply world_norm. exact Hp.
Qed.
Lemma quant_points_accept64 n umax X0 X1 Y0 Y1 (ps : list dpt) : 0 <= umax < 256 ^ Z.of_nat n ->
  (forall p, In p ps -> (exists u, quant_coord umax X0 X1 (fst p) = Ok u /\ 0 <= u <= umax) /\ (exists u, quant_coord umax Y0 Y1 (snd p) = Ok u /\ 0 <= u <= umax)) ->
  exists ds, quant_points n umax (X0, X1, Y0, Y1) ps = (ds, Ok tt).
Proof.
  intros U. induction ps as [|p ps IH]; intros A; [exists []; reflexivity|].
  destruct IH as (ds & E); [intros; apply A; right; assumption|].
  destruct (A p (or_introl eq_refl)) as [(u & Eu & Hu) (v & Ev & Hv)]. cbn [quant_points].
  unfold quant_point. rewrite Eu, Ev. cbn [bind].
  unfold pack2. rewrite !pack_be_ok by lia. cbn [bind]. rewrite E. eauto.
Qed.
Lemma write_accepts64 f w name polys parts :
  consistent w -> w_size w <> 8 -> Forall (Forall in_worldR) polys -> Forall2 ring64 polys parts -> parts <> [] -> Forall spread64 parts ->
  exists w' a1 a2 c1 c2, pf_write (S f) w name polys = Some (w', Ok tt) /\
    w_bboxes w' = w_bboxes w ++ [(a1, a2, c1, c2)] /\
    tight_gridR gridR_lon (/ 2 ^ 40) (map fst (concat parts)) a1 a2 /\ tight_gridR gridR_lat (/ 2 ^ 40) (map snd (concat parts)) c1 c2 /\
    0 <= a1 < a2 /\ a2 <= 65535 /\ 0 <= c1 < c2 /\ c2 <= 65535.
Proof.
  intros G S8 W R N Sp. unfold pf_write. rewrite (norm_world64 f polys W).
  assert (M : mapM drop_closing polys = Ok parts).
  { clear - W R. induction R as [|a b l m R _ IH]; [reflexivity|]. inversion W; subst. cbn [mapM]. rewrite (ring64_drop a b) by assumption. cbn [bind]. rewrite IH by assumption. reflexivity. }
  rewrite M.
  assert (W' : Forall (Forall in_worldR) parts).
  { clear - W R. induction R as [|a b l m R _ IH]; [constructor|]. inversion W as [|? ? W1 W2]; subst. constructor; [|apply IH; exact W2].
    rewrite Forall_forall in *. intros p Hp. apply W1. apply (ring64_in a b); assumption. }
  assert (Wc : Forall in_worldR (concat parts)).
  { clear - W'. induction W'; [constructor|]. cbn. apply Forall_app; auto. }
  destruct (parts_hull64 parts N W' Sp) as (b & Eb & Hb & [V1 V2]). rewrite Eb.
  destruct (worldR_lon _ _ Wc Hb) as (F1 & F2 & F3 & F4 & L1 & L2 & L3 & L4).
  destruct (side_codes 180 _ _ _ _ (or_intror eq_refl) (val_isf _ F1) (val_isf _ F2) L1 V1 L2) as (P1 & P2 & P3 & P4 & P5 & P6).
  destruct (side_codes 90 _ _ _ _ (or_introl eq_refl) (val_isf _ F3) (val_isf _ F4) L3 V2 L4) as (Q1 & Q2 & Q3 & Q4 & Q5 & Q6).
  unfold quant_box. cbn [nfloor nceil RoundF ndiv nmul nadd nofZ NumF]. change 360 with (2 * 180). change 180 with (2 * 90) at 6 8.
  set (a1 := f_floor (fdiv (fmul (fadd (bx0 b) (fofZ 180)) (fofZ UMAX2)) (fofZ (2 * 180)))) in *.
  set (a2 := f_ceil (fdiv (fmul (fadd (bx1 b) (fofZ 180)) (fofZ UMAX2)) (fofZ (2 * 180)))) in *.
  change (fofZ 180) with (fofZ (2 * 90)).
  set (c1 := f_floor (fdiv (fmul (fadd (by0 b) (fofZ 90)) (fofZ UMAX2)) (fofZ (2 * 90)))) in *.
  set (c2 := f_ceil (fdiv (fmul (fadd (by1 b) (fofZ 90)) (fofZ UMAX2)) (fofZ (2 * 90)))) in *.
  cbn [w_n w_umax w_add_bbox w_add_partlen w_add_name dequant_box nsub ndiv nofZ NumF].
  destruct (getfmt_inv _ _ _ G) as (Gn & Gu & Gs). pose proof (getfmt_code _ _ _ G) as Gc.
  assert (U32 : 0 < w_umax w < 2 ^ 32).
  { assert (w_size w = 1 \/ w_size w = 2 \/ w_size w = 4) as [E|[E|E]] by lia; rewrite Gu, E; cbn; lia. }
  destruct Hb as (Hin & (y0 & I0) & (y1 & I1) & (x0 & J0) & (x1 & J1)). rewrite Forall_forall in Wc.
  destruct (quant_points_accept64 (w_n w) (w_umax w) (edge64 180 a1) (edge64 180 a2) (edge64 90 c1) (edge64 90 c2) (concat parts)) as (ds & Eds); [lia| |].
  { intros p Hp. destruct (Wc p Hp) as (Fa & Fb & _). destruct (Hin p Hp) as [Ha Hb].
    split; [apply (coord_ok 180 _ a1 a2 _ (val (bx0 b)) (val (bx1 b)))|apply (coord_ok 90 _ c1 c2 _ (val (by0 b)) (val (by1 b)))]; auto; lia. }
  unfold edge64 in Eds. change (2 * 180) with 360 in *. change (2 * 90) with 180 in *. rewrite Eds.
  do 5 eexists. split; [reflexivity|]. cbn [w_add_data w_bboxes w_add_bbox w_add_partlen w_add_name].
  split; [reflexivity|]. unfold tight_gridR, gridR_lon, gridR_lat. rewrite p40.
  unfold eta in *. rewrite !(Z.mul_comm 360), !(Z.mul_comm 180).
  split; [|split].
  - split; [|split].
    + intros v Hv. apply in_map_iff in Hv. destruct Hv as (p & <- & Hp). destruct (Hin p Hp). lra.
    + exists (bx0 b). split; [apply in_map_iff; exists (bx0 b, y0); auto|]. lra.
    + exists (bx1 b). split; [apply in_map_iff; exists (bx1 b, y1); auto|]. lra.
  - split; [|split].
    + intros v Hv. apply in_map_iff in Hv. destruct Hv as (p & <- & Hp). destruct (Hin p Hp). lra.
    + exists (by0 b). split; [apply in_map_iff; exists (x0, by0 b); auto|]. lra.
    + exists (by1 b). split; [apply in_map_iff; exists (x1, by1 b); auto|]. lra.
  - lia.
Qed.
