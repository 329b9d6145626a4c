(** P files in double arithmetic: bringing coordinates into the world. *)
From Coq Require Import ZArith Reals Lia Lra SpecFloat Psatz ZifyBool.
From Flocq Require Import Core IEEE754.BinarySingleNaN.
From Verif Require Import Num FloatLib BBoxModel PfModel PfProofs PfSpec PfFloat.
Open Scope Z_scope.

Lemma IZR2 n : 0 <= n -> IZR (2 ^ n) = bpow radix2 n.
Proof. intros H. apply (IZR_Zpower radix2). exact H. Qed.

(** ** Doubles below and above a power of two *)
Lemma cexp_below r e : -1021 <= e -> r <> 0%R -> (Rabs r < bpow radix2 e)%R -> cexp radix2 fexp64 r <= e - 53 \/ cexp radix2 fexp64 r <= -1074.
Proof.
  intros He N B. unfold cexp. apply mag_le_bpow in B; [|exact N].
  unfold fexp64, SpecFloat.fexp, SpecFloat.emin. lia.
Qed.
Lemma multiple_above r e : -1000 <= e -> generic_format radix2 fexp64 r -> (bpow radix2 e <= Rabs r)%R ->
  exists m, r = (IZR m * bpow radix2 (e - 52))%R.
Proof.
  intros He F B. assert (M : e + 1 <= mag radix2 r) by (apply mag_ge_bpow; replace (e + 1 - 1) with e by lia; exact B).
  assert (C : e - 52 <= cexp radix2 fexp64 r) by (unfold cexp, fexp64, SpecFloat.fexp, SpecFloat.emin; lia).
  set (c := cexp radix2 fexp64 r) in *. exists (Ztrunc (scaled_mantissa radix2 fexp64 r) * 2 ^ (c - (e - 52))).
  rewrite F at 1. unfold F2R. cbn [Fnum Fexp]. fold c. rewrite mult_IZR, (IZR2 (c - (e - 52))) by lia.
  rewrite Rmult_assoc, <- bpow_plus. do 2 f_equal. lia.
Qed.
Lemma add_exact r j q : 0 <= q <= 60 -> generic_format radix2 fexp64 r -> (Rabs r < bpow radix2 (53 + q))%R ->
  (Rabs (r + IZR (j * 2 ^ q)) <= Rabs r)%R -> generic_format radix2 fexp64 (r + IZR (j * 2 ^ q)).
Proof.
  intros Hq F B L. destruct (Req_dec r 0) as [->|N].
  { rewrite Rabs_R0 in L. pose proof (Rabs_pos (0 + IZR (j * 2 ^ q))). destruct (Req_dec (0 + IZR (j * 2 ^ q)) 0) as [->|E]; [apply generic_format_0|]. apply Rabs_no_R0 in E. lra. }
  destruct (Req_dec (r + IZR (j * 2 ^ q)) 0) as [->|Z]; [apply generic_format_0|].
  assert (C : cexp radix2 fexp64 r <= q).
  { destruct (cexp_below r (53 + q) ltac:(lia) N B); lia. }
  set (c := cexp radix2 fexp64 r) in *. set (m := Ztrunc (scaled_mantissa radix2 fexp64 r)).
  assert (E : (r + IZR (j * 2 ^ q) = F2R (Float radix2 (m + j * 2 ^ (q - c)) c))%R).
  { rewrite F at 1. unfold F2R. cbn [Fnum Fexp]. fold c m. rewrite plus_IZR, Rmult_plus_distr_r, !mult_IZR. f_equal.
    rewrite (IZR2 q), (IZR2 (q - c)) by lia. rewrite Rmult_assoc, <- bpow_plus. do 2 f_equal. lia. }
  rewrite E. apply generic_format_F2R. intros _. rewrite <- E. unfold c, cexp.
  assert (mag radix2 (r + IZR (j * 2 ^ q)) <= mag radix2 r) by (apply mag_le_abs; [exact Z|exact L]).
  unfold fexp64, SpecFloat.fexp. lia.
Qed.
(** Half a unit in the last place below a power of two. *)
Lemma rnd_err r e : -1000 <= e -> (Rabs r < bpow radix2 e)%R -> (Rabs (rnd r - r) <= bpow radix2 (e - 54))%R.
Proof.
  intros He B. destruct (Req_dec r 0) as [->|N].
  { unfold rnd. rewrite round_0 by apply valid_rnd_N. rewrite Rminus_0_r, Rabs_R0. apply bpow_ge_0. }
  pose proof (error_le_half_ulp radix2 fexp64 (fun z => negb (Z.even z)) r) as H. unfold rnd, ZnearestE.
  eapply Rle_trans; [exact H|]. rewrite ulp_neq_0 by exact N.
  replace (e - 54) with (-1 + (e - 53)) by lia. rewrite bpow_plus. change (bpow radix2 (-1)) with (/ 2)%R.
  apply Rmult_le_compat_l; [lra|]. apply bpow_le. destruct (cexp_below r e ltac:(lia) N B); lia.
Qed.
(** Too far from zero to move. *)
Lemma rnd_stuck r d e : -1000 <= e -> generic_format radix2 fexp64 r -> (bpow radix2 e < Rabs r)%R ->
  (0 <= d)%R -> (2 * d < bpow radix2 (e - 52))%R -> (r < 0)%R -> rnd (r + d) = r.
Proof.
  intros He F B D L S. assert (Fe : generic_format radix2 fexp64 (bpow radix2 e)).
  { apply generic_format_bpow. unfold fexp64, SpecFloat.fexp, SpecFloat.emin. lia. }
  set (u := bpow radix2 (e - 52)) in *. assert (U : (0 < u)%R) by apply bpow_gt_0.
  assert (Eb : bpow radix2 e = (IZR (2 ^ 52) * u)%R).
  { unfold u. rewrite (IZR2 52) by lia. rewrite <- bpow_plus. f_equal. lia. }
  destruct (multiple_above r e He F) as [m Em]; [lra|]. fold u in Em. rewrite Rabs_left in B by exact S.
  assert (Hm : m + 1 <= - 2 ^ 52).
  { assert (IZR m < IZR (- 2 ^ 52))%R; [|apply lt_IZR in H; lia]. rewrite opp_IZR.
    apply Rmult_lt_reg_r with u; [exact U|]. rewrite <- Em. lra. }
  assert (Low : (r + u <= - bpow radix2 e)%R).
  { rewrite Eb, Em. apply IZR_le in Hm. rewrite plus_IZR, opp_IZR in Hm. nra. }
  assert (G : (rnd (r + d) <= - bpow radix2 e)%R).
  { apply round_le_generic; [apply fexp64_valid|apply valid_rnd_N|apply generic_format_opp; exact Fe|]. lra. }
  assert (G0 : (r <= rnd (r + d))%R).
  { apply round_ge_generic; [apply fexp64_valid|apply valid_rnd_N|exact F|lra]. }
  assert (Fr : generic_format radix2 fexp64 (rnd (r + d))) by (apply generic_format_round; [apply fexp64_valid|apply valid_rnd_N]).
  destruct (multiple_above (rnd (r + d)) e He Fr) as [m' Em'].
  { rewrite Rabs_left1 by (pose proof (bpow_gt_0 radix2 e); lra). lra. }
  fold u in Em'.
  assert (N : (Rabs (rnd (r + d) - (r + d)) <= Rabs (r - (r + d)))%R).
  { apply (round_N_pt radix2 fexp64 (fun z => negb (Z.even z)) (r + d)). exact F. }
  replace (r - (r + d))%R with (- d)%R in N by ring. rewrite Rabs_Ropp, (Rabs_pos_eq d) in N by exact D.
  apply Rabs_le_inv in N. assert (K : (0 <= IZR (m' - m) < 1)%R).
  { rewrite minus_IZR. split; [apply Rmult_le_reg_r with u; [exact U|]|apply Rmult_lt_reg_r with u; [exact U|]];
      rewrite Rmult_minus_distr_r, <- Em, <- Em'; lra. }
  destruct K as [K1 K2]. apply le_IZR in K1. apply lt_IZR in K2. assert (m' = m) by lia. subst m'. congruence.
Qed.
Lemma rnd_opp r : rnd (- r) = (- rnd r)%R.
Proof. apply round_NE_opp. Qed.

(** ** The loops *)
Lemma isf_pow n : 0 <= n <= 1000 -> isf (fofZ (2 ^ n)) (bpow radix2 n).
Proof.
  intros H. rewrite <- (rnd_bpow n), <- IZR2 by lia. apply isf_fofZ. rewrite IZR2 by lia.
  apply (small_bpow _ n); [lia|]. rewrite Rabs_pos_eq by apply bpow_ge_0. lra.
Qed.
Lemma isf_mpow n : 0 <= n <= 1000 -> isf (fofZ (- 2 ^ n)) (- bpow radix2 n).
Proof.
  intros H. rewrite <- (rnd_bpow n), <- rnd_opp, <- IZR2, <- opp_IZR by lia. apply isf_fofZ. rewrite opp_IZR, IZR2 by lia.
  apply (small_bpow _ n); [lia|]. rewrite Rabs_Ropp, Rabs_pos_eq by apply bpow_ge_0. lra.
Qed.
Lemma small_step r d e : 0 <= e <= 1000 -> (Rabs r <= bpow radix2 e)%R -> (Rabs d <= bpow radix2 e)%R -> small (r + d).
Proof.
  intros He A B. apply (small_bpow _ (e + 1)); [lia|]. rewrite bpow_plus. change (bpow radix2 1) with 2%R.
  eapply Rle_trans; [apply Rabs_triang|]. lra.
Qed.
(** Upwards: with [2^e] at most 2^102 times the step, below -h, by 2h. *)
Section Up.
  Variables (h e : Z).
  Hypothesis Hh : h = 180 /\ e = 62 \/ h = 90 /\ e = 61.
  Lemma step_bound : (IZR (2 * h) - bpow radix2 (e - 54) >= 1 /\ IZR (2 * h) <= bpow radix2 e)%R.
  Proof.
    destruct Hh as [[-> ->]|[-> ->]]; cbn -[IZR bpow]; split.
    - change (bpow radix2 8) with 256%R. change (IZR (2 * 180)) with 360%R. lra.
    - change (bpow radix2 62) with (IZR (2 ^ 62)). apply IZR_le. lia.
    - change (bpow radix2 7) with 128%R. change (IZR (2 * 90)) with 180%R. lra.
    - change (bpow radix2 61) with (IZR (2 ^ 61)). apply IZR_le. lia.
  Qed.
  Lemma h_pos : 0 < h <= 180 /\ 60 <= e <= 62.
  Proof. destruct Hh as [[-> ->]|[-> ->]]; lia. Qed.
  Lemma up_step r : (- bpow radix2 e <= r < IZR (- h))%R ->
    (r + 1 <= rnd (r + IZR (2 * h)))%R /\ (rnd (r + IZR (2 * h)) <= IZR h)%R.
  Proof.
    intros [A B]. pose proof h_pos as [P Q]. destruct step_bound as [S1 S2]. rewrite opp_IZR in B. split.
    - assert (E : (Rabs (rnd (r + IZR (2 * h)) - (r + IZR (2 * h))) <= bpow radix2 (e - 54))%R).
      { apply rnd_err; [lia|]. rewrite mult_IZR in *. assert (0 < IZR h)%R by (apply IZR_lt; lia). apply Rabs_def1; lra. }
      apply Rabs_le_inv in E. lra.
    - rewrite <- (rnd_IZR h) by lia. apply rnd_le. rewrite mult_IZR. lra.
  Qed.
  Lemma up_ends : forall (n : nat) (x : f64) r, isf x r -> (- bpow radix2 e <= r <= IZR h)%R -> (IZR (- h) - r <= INR n)%R ->
    exists y ry, isf y ry /\ (IZR (- h) <= ry <= IZR h)%R /\
      (forall fuel, (n < fuel)%nat -> while_add fuel (fun v => SFltb v (fofZ (- h))) (fofZ (2 * h)) x = Some y) /\
      (IZR (- h) <= r -> y = x)%R /\
      (forall q j, IZR (2 * h) = IZR (j * 2 ^ q) -> 0 <= q <= 60 -> (Rabs r < bpow radix2 (53 + q))%R -> exists k, ry = (r + IZR (2 * h * k))%R).
  Proof.
    pose proof h_pos as [P Q]. assert (Ih : isf (fofZ (- h)) (IZR (- h))) by (apply isf_int; lia).
    assert (I2 : isf (fofZ (2 * h)) (IZR (2 * h))) by (apply isf_int; lia). pose proof step_bound as [_ S2].
    induction n as [|n IH]; intros x r Hx [A B] L.
    - assert (C : (IZR (- h) <= r)%R) by (cbn in L; lra). exists x, r. split; [exact Hx|]. split; [lra|]. split; [|split; [reflexivity|]].
      + intros fuel F. destruct fuel as [|f]; [lia|]. cbn [while_add]. rewrite (isf_lt _ _ _ _ Hx Ih).
        destruct (Rlt_bool_spec r (IZR (- h))); [lra|reflexivity].
      + intros q j _ _ _. exists 0. rewrite Z.mul_0_r. ring.
    - destruct (Rlt_le_dec r (IZR (- h))) as [C|C].
      + destruct (up_step r) as [U1 U2]; [lra|].
        assert (Hs : isf (fadd x (fofZ (2 * h))) (rnd (r + IZR (2 * h)))).
        { apply isf_fadd; auto. apply (small_step _ _ e); [lia| |].
          - apply Rabs_le. rewrite opp_IZR in C. assert (0 < IZR h)%R by (apply IZR_lt; lia). pose proof (bpow_gt_0 radix2 e). lra.
          - rewrite Rabs_pos_eq by (apply IZR_le; lia). exact S2. }
        destruct (IH _ _ Hs) as (y & ry & Y1 & Y2 & Y3 & Y4 & Y5).
        { split; [|exact U2]. lra. }
        { rewrite S_INR in L. lra. }
        exists y, ry. split; [exact Y1|]. split; [exact Y2|]. split; [|split; [lra|]].
        * intros fuel F. destruct fuel as [|f]; [lia|]. cbn [while_add]. rewrite (isf_lt _ _ _ _ Hx Ih).
          destruct (Rlt_bool_spec r (IZR (- h))); [|lra]. apply Y3. lia.
        * intros q j E Hq Bq. rewrite opp_IZR in C. assert (Ph : (0 < IZR h)%R) by (apply IZR_lt; lia).
          assert (Ab : (Rabs (r + IZR (2 * h)) <= Rabs r)%R).
          { rewrite (Rabs_left r) by lra. rewrite mult_IZR. apply Rabs_le. lra. }
          assert (Ex : rnd (r + IZR (2 * h)) = (r + IZR (2 * h))%R).
          { apply round_generic; [apply valid_rnd_N|]. rewrite E. apply add_exact; auto; [apply (isf_format _ _ Hx)|rewrite <- E; exact Ab]. }
          destruct (Y5 q j E Hq) as [k Ek]; [rewrite Ex; lra|]. exists (k + 1). rewrite Ek, Ex, Z.mul_add_distr_l, Z.mul_1_r, plus_IZR. ring.
      + exists x, r. split; [exact Hx|]. split; [lra|]. split; [|split; [reflexivity|]].
        * intros fuel F. destruct fuel as [|f]; [lia|]. cbn [while_add]. rewrite (isf_lt _ _ _ _ Hx Ih).
          destruct (Rlt_bool_spec r (IZR (- h))); [lra|reflexivity].
        * intros q j _ _ _. exists 0. rewrite Z.mul_0_r. ring.
  Qed.
  Lemma up_stuck (x : f64) r fuel : isf x r -> (r < - bpow radix2 e)%R ->
    while_add fuel (fun v => SFltb v (fofZ (- h))) (fofZ (2 * h)) x = None.
  Proof.
    intros Hx L. pose proof h_pos as [P Q]. assert (Ih : isf (fofZ (- h)) (IZR (- h))) by (apply isf_int; lia).
    assert (I2 : isf (fofZ (2 * h)) (IZR (2 * h))) by (apply isf_int; lia). pose proof (bpow_gt_0 radix2 e) as Pe.
    assert (E : rnd (r + IZR (2 * h)) = r).
    { apply (rnd_stuck _ _ e); [lia|apply (isf_format _ _ Hx)|rewrite Rabs_left by lra; lra|apply IZR_le; lia| |lra].
      destruct Hh as [[-> ->]|[-> ->]]; cbn -[IZR bpow].
      - change (bpow radix2 10) with 1024%R. change (IZR (2 * 180)) with 360%R. lra.
      - change (bpow radix2 9) with 512%R. change (IZR (2 * 90)) with 180%R. lra. }
    assert (Hs : isf (fadd x (fofZ (2 * h))) r).
    { rewrite <- E. apply isf_fadd; auto. unfold small. rewrite E. destruct Hx as (b & _ & _ & <-). apply abs_B2R_lt_emax. }
    assert (Es : fadd x (fofZ (2 * h)) = x) by (apply (isf_inj _ _ r); auto; lra).
    induction fuel as [|f IH]; [reflexivity|]. cbn [while_add]. change (nadd x (fofZ (2 * h))) with (fadd x (fofZ (2 * h))). rewrite Es.
    rewrite (isf_lt _ _ _ _ Hx Ih). destruct (Rlt_bool_spec r (IZR (- h))) as [_|C]; [exact IH|exfalso].
    destruct step_bound as [_ S]. rewrite opp_IZR, mult_IZR in *. assert (0 < IZR h)%R by (apply IZR_lt; lia). lra.
  Qed.
End Up.

(** Downwards, above 180 by 360. *)
Lemma down_step r : (180 < r <= bpow radix2 62)%R -> (rnd (r + IZR (-360)) <= r - 1)%R /\ (-180 <= rnd (r + IZR (-360)))%R.
Proof.
  intros H. destruct (up_step 180 62 (or_introl (conj eq_refl eq_refl)) (- r)) as [A B].
  { change (IZR (- (180))) with (-180)%R. lra. }
  replace (- r + IZR (2 * 180))%R with (- (r + IZR (-360)))%R in A, B by (change (IZR (2 * 180)) with 360%R; change (IZR (-360)) with (-360)%R; ring).
  rewrite rnd_opp in A, B. lra.
Qed.
Lemma down_ends : forall (n : nat) (x : f64) r, isf x r -> (-180 <= r <= bpow radix2 62)%R -> (r - 180 <= INR n)%R ->
  exists y ry, isf y ry /\ (-180 <= ry <= 180)%R /\
    (forall fuel, (n < fuel)%nat -> while_add fuel (fun v => SFltb (fofZ 180) v) (fofZ (-360)) x = Some y) /\
    (r <= 180 -> y = x)%R /\
    ((Rabs r < bpow radix2 56)%R -> exists k, ry = (r + IZR (360 * k))%R).
Proof.
  assert (Ih : isf (fofZ 180) 180) by (apply isf_int; lia).
  assert (I2 : isf (fofZ (-360)) (IZR (-360))) by (apply isf_int; lia).
  assert (S2 : (360 <= bpow radix2 62)%R) by (change (bpow radix2 62) with (IZR (2 ^ 62)); apply IZR_le; lia).
  assert (Base : forall x r, isf x r -> (-180 <= r <= 180)%R ->
    exists y ry, isf y ry /\ (-180 <= ry <= 180)%R /\
    (forall fuel, (0 < fuel)%nat -> while_add fuel (fun v => SFltb (fofZ 180) v) (fofZ (-360)) x = Some y) /\
    (r <= 180 -> y = x)%R /\ ((Rabs r < bpow radix2 56)%R -> exists k, ry = (r + IZR (360 * k))%R)).
  { intros x r Hx B. exists x, r. split; [exact Hx|]. split; [exact B|]. split; [|split; [reflexivity|]].
    - intros fuel F. destruct fuel as [|f]; [lia|]. cbn [while_add]. rewrite (isf_lt _ _ _ _ Ih Hx).
      destruct (Rlt_bool_spec 180 r); [lra|reflexivity].
    - intros _. exists 0. rewrite Z.mul_0_r. ring. }
  induction n as [|n IH]; intros x r Hx [A B] L.
  - cbn in L. apply (Base x r Hx). lra.
  - destruct (Rlt_le_dec 180 r) as [C|C].
    + destruct (down_step r) as [U1 U2]; [lra|].
      assert (Hs : isf (fadd x (fofZ (-360))) (rnd (r + IZR (-360)))).
      { apply isf_fadd; auto. apply (small_step _ _ 62); [lia| |].
        - rewrite Rabs_pos_eq by lra. exact B.
        - change (IZR (-360)) with (-360)%R. rewrite Rabs_left by lra. lra. }
      destruct (IH _ _ Hs) as (y & ry & Y1 & Y2 & Y3 & Y4 & Y5); [lra|rewrite S_INR in L; lra|].
      exists y, ry. split; [exact Y1|]. split; [exact Y2|]. split; [|split; [lra|]].
      * intros fuel F. destruct fuel as [|f]; [lia|]. cbn [while_add]. rewrite (isf_lt _ _ _ _ Ih Hx).
        destruct (Rlt_bool_spec 180 r); [|lra]. apply Y3. lia.
      * intros Bq. change (IZR (-360)) with (IZR (-45 * 2 ^ 3)) in *.
        assert (Ab : (Rabs (r + IZR (-45 * 2 ^ 3)) <= Rabs r)%R).
        { rewrite (Rabs_pos_eq r) by lra. change (IZR (-45 * 2 ^ 3)) with (-360)%R. apply Rabs_le. lra. }
        assert (Ex : rnd (r + IZR (-45 * 2 ^ 3)) = (r + IZR (-45 * 2 ^ 3))%R).
        { apply round_generic; [apply valid_rnd_N|]. apply add_exact; [lia|apply (isf_format _ _ Hx)|exact Bq|exact Ab]. }
        destruct Y5 as [k Ek]; [rewrite Ex; lra|]. exists (k - 1). rewrite Ek, Ex, Z.mul_sub_distr_l, minus_IZR.
        change (IZR (-45 * 2 ^ 3)) with (-360)%R. change (IZR (360 * 1)) with 360%R. ring.
    + destruct (Base x r Hx) as (y & ry & Y1 & Y2 & Y3 & Y4); [lra|]. exists y, ry. split; [exact Y1|]. split; [exact Y2|].
      split; [intros fuel F; apply Y3; lia|exact Y4].
Qed.
Lemma down_stuck (x : f64) r fuel : isf x r -> (bpow radix2 62 < r)%R ->
  while_add fuel (fun v => SFltb (fofZ 180) v) (fofZ (-360)) x = None.
Proof.
  intros Hx L. assert (Ih : isf (fofZ 180) 180) by (apply isf_int; lia).
  assert (I2 : isf (fofZ (-360)) (IZR (-360))) by (apply isf_int; lia). pose proof (bpow_gt_0 radix2 62) as Pe.
  assert (E : rnd (r + IZR (-360)) = r).
  { replace (r + IZR (-360))%R with (- (- r + 360))%R by (change (IZR (-360)) with (-360)%R; ring). rewrite rnd_opp.
    rewrite (rnd_stuck _ _ 62); [ring|lia|apply generic_format_opp, (isf_format _ _ Hx)|rewrite Rabs_Ropp, Rabs_pos_eq by lra; lra|lra| |lra].
    change (bpow radix2 (62 - 52)) with 1024%R. lra. }
  assert (Hs : isf (fadd x (fofZ (-360))) r).
  { rewrite <- E. apply isf_fadd; auto. unfold small. rewrite E. destruct Hx as (b & _ & _ & <-). apply abs_B2R_lt_emax. }
  assert (Es : fadd x (fofZ (-360)) = x) by (apply (isf_inj _ _ r); auto; lra).
  assert (S2 : (360 <= bpow radix2 62)%R) by (change (bpow radix2 62) with (IZR (2 ^ 62)); apply IZR_le; lia).
  induction fuel as [|f IH]; [reflexivity|]. cbn [while_add]. change (nadd x (fofZ (-360))) with (fadd x (fofZ (-360))). rewrite Es.
  rewrite (isf_lt _ _ _ _ Ih Hx). destruct (Rlt_bool_spec 180 r) as [_|C]; [exact IH|lra].
Qed.
(** Above 90 by a further 180. *)
Lemma lat_stuck fuel : forall (x : f64) r, isf x r -> (90 < r)%R ->
  while_add fuel (fun v => SFltb (fofZ 90) v) (fofZ 180) x = None.
Proof.
  assert (Ih : isf (fofZ 90) 90) by (apply isf_int; lia). assert (I2 : isf (fofZ 180) 180) by (apply isf_int; lia).
  induction fuel as [|f IH]; intros x r Hx L; [reflexivity|]. cbn [while_add].
  rewrite (isf_lt _ _ _ _ Ih Hx). destruct (Rlt_bool_spec 90 r) as [_|C]; [|lra].
  assert (G : (r <= rnd (r + 180))%R).
  { apply round_ge_generic; [apply fexp64_valid|apply valid_rnd_N|apply (isf_format _ _ Hx)|lra]. }
  apply (IH _ (rnd (r + 180))); [|lra]. apply isf_fadd; auto.
  destruct (Rle_lt_dec r (bpow radix2 62)) as [S|S].
  - apply (small_step _ _ 62); [lia|rewrite Rabs_pos_eq by lra; exact S|].
    rewrite Rabs_pos_eq by lra. change (bpow radix2 62) with (IZR (2 ^ 62)). apply IZR_le. lia.
  - (* 180 is less than half the distance to the next double *)
    assert (E : (Rabs (rnd (r + 180) - (r + 180)) <= Rabs (r - (r + 180)))%R).
    { apply (round_N_pt radix2 fexp64 (fun z => negb (Z.even z)) (r + 180)). apply (isf_format _ _ Hx). }
    unfold small. destruct (multiple_above (rnd (r + 180)) 62) as [m Em]; [lia| |rewrite Rabs_pos_eq by lra; lra|].
    { apply generic_format_round; [apply fexp64_valid|apply valid_rnd_N]. }
    destruct (multiple_above r 62) as [m' Em']; [lia|apply (isf_format _ _ Hx)|rewrite Rabs_pos_eq by lra; lra|].
    change (bpow radix2 (62 - 52)) with 1024%R in *.
    replace (r - (r + 180))%R with (-180)%R in E by ring. rewrite (Rabs_left (-180)) in E by lra. apply Rabs_le_inv in E.
    assert (K : (-1 < IZR (m - m') < 1)%R) by (rewrite minus_IZR; lra). destruct K as [K1 K2].
    apply lt_IZR in K1. apply lt_IZR in K2. assert (m = m') by lia. subst m'. rewrite Em, <- Em'.
    destruct Hx as (b & _ & _ & <-). apply abs_B2R_lt_emax.
Qed.
