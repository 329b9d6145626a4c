(** Scan conversion with doubles: error of the marks. *)
From Coq Require Import ZArith QArith Reals Qreals Lia Lra List ZifyBool SpecFloat Permutation.
From Flocq Require Import Core IEEE754.BinarySingleNaN.
From Verif Require Import Num FloatLib RasterAA GridFloat PfModel PfFloatTrip PfFloatNorm RasterModel RasterSpec RasterScan ScanFloatSpec.
Import ListNotations.
Open Scope R_scope.

Lemma rel_near r : bpow radix2 (-100) <= r -> Rabs (rnd r - r) <= r * / 4503599627370496.
Proof.
  intros L. assert (P : 0 < bpow radix2 (-100)) by apply bpow_gt_0. pose proof (rnd_near r r ltac:(rewrite Rabs_pos_eq; lra)) as H.
  assert (T : bpow radix2 (-1000) <= bpow radix2 (-153)) by (apply bpow_le; lia).
  replace (bpow radix2 (-153)) with (bpow radix2 (-100) * / 9007199254740992) in T
    by (change (/ 9007199254740992) with (bpow radix2 (-53)); rewrite <- bpow_plus; reflexivity).
  nra.
Qed.
(** The step from row to row: a > 0 columns in b > 0 rows *)
Lemma step_abs (a b : R) : 1 <= a <= 2097152 -> 1 <= b <= 1048576 ->
  let S := rnd (b / a) in let D := rnd (1 / S) in
  / 4194304 <= S <= 2097152 /\ Rabs (D - a / b) <= a / b * / 1125899906842624 /\ small (b / a) /\ small (1 / S) /\ 0 < D <= 4194304.
Proof.
  intros Ha Hb S D. set (t := b / a).
  assert (T1 : t * a = b) by (unfold t; field; lra). assert (T2 : / t = a / b) by (unfold t; field; lra).
  assert (T3 : / 2097152 <= t <= 1048576).
  { split; [apply Rmult_le_reg_r with a; [lra|]; rewrite T1; lra|apply Rmult_le_reg_r with a; [lra|]; rewrite T1; nra]. }
  assert (B100 : bpow radix2 (-100) <= / 4194304) by (change (/ 4194304) with (bpow radix2 (-22)); apply bpow_le; lia).
  pose proof (rel_near t ltac:(lra)) as E1. fold S in E1. apply Rabs_le_inv in E1. change (rnd t) with S in E1.
  assert (S1 : / 4194304 <= S <= 2097152) by nra.
  set (u := 1 / S). assert (U1 : u * S = 1) by (unfold u; field; lra). assert (U2 : / 2097152 <= u <= 4194304).
  { split; [apply Rmult_le_reg_r with S; [lra|]; rewrite U1; lra|apply Rmult_le_reg_r with S; [lra|]; rewrite U1; lra]. }
  pose proof (rel_near u ltac:(lra)) as E2. change (rnd u) with D in E2. apply Rabs_le_inv in E2.
  set (q := a / b) in *. assert (Q1 : q * t = 1) by (rewrite <- T2; field; lra). assert (Q2 : 0 < q) by (apply Rmult_lt_reg_r with t; [lra|]; lra).
  assert (UQ : Rabs (u - q) <= q * / 2251799813685248).
  { replace (u - q) with (q * u * (t - S)) by (transitivity ((q * t) * u - q * (u * S)); [ring|rewrite Q1, U1; ring]).
    assert (K : Rabs (u * (t - S)) <= / 2251799813685248).
    { apply Rabs_le. assert (UT : u * t <= 2) by nra. nra. }
    rewrite Rmult_assoc, Rabs_mult, (Rabs_pos_eq q) by lra. apply Rmult_le_compat_l; lra. }
  apply Rabs_le_inv in UQ.
  split; [exact S1|]. split; [apply Rabs_le; lra|]. split; [|split].
  - apply small_le. change (IZR (2 ^ 100)) with 1267650600228229401496703205376. fold t. rewrite Rabs_pos_eq; lra.
  - apply small_le. change (IZR (2 ^ 100)) with 1267650600228229401496703205376. fold u. rewrite Rabs_pos_eq; lra.
  - assert (Q3 : q <= 2097152) by (apply Rmult_le_reg_r with b; [lra|]; unfold q; replace (a / b * b) with a by (field; lra); nra). lra.
Qed.
(** The running abscissa *)
Lemma iter_near x0 s X0 Sx S d (n : nat) : isf x0 X0 -> isf s Sx -> Rabs (Sx - S) <= d -> 0 <= d -> INR n * d <= 1 -> INR n <= 1048576 ->
  (forall k, (k <= n)%nat -> Rabs (X0 + INR k * S) <= 1048576) -> Rabs Sx <= 4194304 ->
  forall k, (k <= n)%nat -> exists X, isf (Nat.iter k (fun x => fadd x s) x0) X /\ Rabs (X - (X0 + INR k * S)) <= INR k * (d + / 2147483648).
Proof.
  intros I0 Is Hd Pd Nd Nn B HS. induction k as [|k IH]; intros K.
  - exists X0. split; [exact I0|]. cbn [INR]. replace (X0 - (X0 + 0 * S)) with 0 by ring. rewrite Rabs_R0. lra.
  - destruct (IH ltac:(lia)) as (X & I & E). cbn [Nat.iter nat_rect]. assert (KN : INR (Datatypes.S k) <= INR n) by (apply le_INR; exact K). rewrite S_INR in *.
    pose proof (pos_INR k) as PK. pose proof (B (Datatypes.S k) K) as BK. rewrite S_INR in BK.
    apply Rabs_le_inv in E, Hd, BK, HS. set (c := INR k) in *.
    assert (C : c * d <= 1 /\ (c + 1) * d <= 1) by nra.
    assert (R : Rabs (X + Sx - (X0 + (c + 1) * S)) <= (c + 1) * d + c * / 2147483648) by (apply Rabs_le; lra). apply Rabs_le_inv in R.
    assert (R2 : Rabs (X + Sx) < bpow radix2 22) by (apply Rabs_def1; change (bpow radix2 22) with 4194304; lra).
    exists (rnd (X + Sx)). split; [apply (isf_fadd _ _ _ _ I Is); apply (small_lt _ 22); [lia|exact R2]|].
    pose proof (near (X + Sx) 22 ltac:(lia) R2) as N. change (bpow radix2 (22 - 54)) with (/ 4294967296) in N. apply Rabs_le_inv in N. apply Rabs_le. lra.
Qed.
Lemma f_nabs x r : isf x r -> small r -> isf (nabs x) (Rabs r).
Proof.
  intros I M. unfold nabs. cbn [nlt nsub nofZ NumF]. assert (Z0 : isf (fofZ 0) 0) by (apply (isf_int 0); lia). rewrite (isf_lt _ _ _ _ I Z0).
  destruct (Rlt_bool_spec r 0) as [L|L].
  - rewrite Rabs_left by exact L. pose proof (isf_fsub _ _ _ _ Z0 I) as H. replace (0 - r) with (- r) in H by ring.
    assert (E : rnd (- r) = - r).
    { assert (F : generic_format radix2 fexp64 (- r)) by (apply generic_format_opp, (isf_format _ _ I)). apply round_generic; [apply valid_rnd_N|exact F]. }
    rewrite E in H. apply H. unfold small in *. rewrite E, Rabs_Ropp. pose proof (rnd_id _ _ I) as E2. rewrite E2 in M. exact M.
  - rewrite Rabs_pos_eq by exact L. exact I.
Qed.
Definition step64 (x0 x1 dy : Z) : f64 := fdiv (fofZ (if (x0 <? x1)%Z then 1 else -1)) (nabs (fdiv (fofZ dy) (fofZ (x1 - x0)))).
Lemma step64_ok x0 x1 dy : (1 <= dy <= 2 ^ 20)%Z -> (x0 <> x1)%Z -> (Z.abs (x1 - x0) <= 2 ^ 21)%Z ->
  exists D, isf (step64 x0 x1 dy) D /\ Rabs (D - IZR (x1 - x0) / IZR dy) <= IZR (Z.abs (x1 - x0)) / IZR dy * / 1125899906842624 /\ Rabs D <= 4194304.
Proof.
  intros Hy N Hx. set (a := IZR (Z.abs (x1 - x0))). set (b := IZR dy).
  assert (Ha : 1 <= a <= 2097152) by (split; [apply (IZR_le 1)|apply (IZR_le _ 2097152)]; lia).
  assert (Hb : 1 <= b <= 1048576) by (split; [apply (IZR_le 1)|apply (IZR_le _ 1048576)]; lia).
  destruct (step_abs a b Ha Hb) as (S1 & D1 & M1 & M2 & D2). set (S := rnd (b / a)) in *. set (D := rnd (1 / S)) in *.
  assert (C : exists sg, (sg = 1 \/ sg = -1) /\ IZR (x1 - x0) = sg * a /\ (if (x0 <? x1)%Z then 1 else -1)%Z = (if (x0 <? x1)%Z then 1 else -1)%Z /\ isf (fofZ (if (x0 <? x1)%Z then 1 else -1)) sg).
  { destruct (Z.ltb_spec x0 x1) as [L|L].
    - exists 1. split; [auto|]. split; [unfold a; rewrite Rmult_1_l; f_equal; lia|]. split; [reflexivity|apply (isf_int 1); lia].
    - exists (-1). split; [auto|]. split; [unfold a; rewrite <- mult_IZR; f_equal; lia|]. split; [reflexivity|apply (isf_int (-1)); lia]. }
  destruct C as (sg & Sg & Ex & _ & Is).
  assert (OPP : forall r, rnd (sg * r) = sg * rnd r).
  { intros r. destruct Sg as [-> | ->]; [rewrite !Rmult_1_l; reflexivity|]. replace (-1 * r) with (- r) by ring. rewrite rnd_opp. ring. }
  assert (SM : forall r, small r -> small (sg * r)).
  { intros r H. unfold small in *. rewrite OPP, Rabs_mult. destruct Sg as [-> | ->]; [rewrite Rabs_R1|rewrite (Rabs_left (-1)) by lra]; lra. }
  assert (Iy : isf (fofZ dy) b) by (apply isf_int; lia). assert (Ix : isf (fofZ (x1 - x0)) (sg * a)) by (rewrite <- Ex; apply isf_int; lia).
  assert (Q : b / (sg * a) = sg * (b / a)) by (destruct Sg as [-> | ->]; field; lra).
  assert (Iq : isf (fdiv (fofZ dy) (fofZ (x1 - x0))) (sg * S)).
  { unfold S. rewrite <- OPP, <- Q. apply isf_fdiv; [exact Iy|exact Ix|destruct Sg as [-> | ->]; lra|]. rewrite Q. apply SM, M1. }
  assert (SS : small (sg * S)) by (apply small_le; change (IZR (2 ^ 100)) with 1267650600228229401496703205376; rewrite Rabs_mult, (Rabs_pos_eq S) by lra; destruct Sg as [-> | ->]; [rewrite Rabs_R1|rewrite (Rabs_left (-1)) by lra]; lra).
  pose proof (f_nabs _ _ Iq SS) as Ia. rewrite Rabs_mult, (Rabs_pos_eq S) in Ia by lra.
  replace (Rabs sg) with 1 in Ia by (destruct Sg as [-> | ->]; [rewrite Rabs_R1|rewrite (Rabs_left (-1)) by lra]; lra). rewrite Rmult_1_l in Ia.
  assert (Q' : sg / S = sg * (1 / S)) by (field; lra).
  exists (sg * D). split; [|split].
  - unfold step64, D. rewrite <- OPP, <- Q'. apply isf_fdiv; [exact Is|exact Ia|lra|]. rewrite Q'. apply SM, M2.
  - fold b. rewrite Ex. replace (sg * D - sg * a / b) with (sg * (D - a / b)) by (field; lra). rewrite Rabs_mult.
    replace (Rabs sg) with 1 by (destruct Sg as [-> | ->]; [rewrite Rabs_R1|rewrite (Rabs_left (-1)) by lra]; lra). rewrite Rmult_1_l. exact D1.
  - rewrite Rabs_mult, (Rabs_pos_eq D) by lra. destruct Sg as [-> | ->]; [rewrite Rabs_R1|rewrite (Rabs_left (-1)) by lra]; lra.
Qed.
Lemma meets_R x0 y0 x1 y1 y : (y0 < y1)%Z -> Q2R (meets ((x0, y0), (x1, y1)) y) = IZR x0 + IZR (y - y0) * (IZR (x1 - x0) / IZR (y1 - y0)).
Proof.
  intros L. cbn [meets]. assert (J : forall z, Q2R (inject_Z z) = IZR z) by (intros z; unfold Q2R; cbn; lra).
  assert (0 < IZR (y1 - y0)) by (apply (IZR_lt 0); lia).
  rewrite Q2R_plus, Q2R_div, Q2R_mult, !J; [field; lra|]. intros C. apply Qeq_eqR in C. rewrite J in C. change (Q2R 0) with (0 * / 1) in C. lra.
Qed.
Definition mark64 (x0 y0 x1 y1 y : Z) : Z :=
  if (x0 =? x1)%Z then x0 else f_round (Nat.iter (Z.to_nat (y - y0)) (fun x => fadd x (step64 x0 x1 (y1 - y0))) (fofZ x0)).
Lemma mark64_ok h x0 y0 x1 y1 y : (h <= 2 ^ 20)%Z -> moderate h (x0, y0) -> moderate h (x1, y1) -> (y0 <= y < y1)%Z ->
  Rabs (IZR (mark64 x0 y0 x1 y1 y) - Q2R (meets ((x0, y0), (x1, y1)) y)) <= / 2 + / 1024 /\
  (0 <= x0 -> 0 <= x1 -> 0 <= mark64 x0 y0 x1 y1 y)%Z.
Proof.
  intros Hh (B0 & C0) (B1 & C1) R. cbn [fst snd] in *. rewrite meets_R by lia. unfold mark64.
  set (dy := IZR (y1 - y0)). assert (Pd : 1 <= dy <= 1048576) by (split; [apply (IZR_le 1)|apply (IZR_le _ 1048576)]; lia).
  set (k := IZR (y - y0)). assert (Pk : 0 <= k <= dy) by (split; [apply (IZR_le 0)|apply IZR_le]; lia).
  destruct (Z.eqb_spec x0 x1) as [->|N].
  - rewrite Z.sub_diag. replace (IZR x1 - (IZR x1 + k * (0 / dy))) with 0 by (field; lra). rewrite Rabs_R0. split; [lra|auto].
  - destruct (step64_ok x0 x1 (y1 - y0) ltac:(lia) N ltac:(lia)) as (D & ID & ED & BD). fold dy in ED.
    set (S := IZR (x1 - x0) / dy) in *. set (d := IZR (Z.abs (x1 - x0)) / dy * / 1125899906842624) in *.
    assert (Pa : 0 <= IZR (Z.abs (x1 - x0)) <= 2097152) by (split; [apply (IZR_le 0)|apply (IZR_le _ 2097152)]; lia).
    assert (Dd : dy * d = IZR (Z.abs (x1 - x0)) * / 1125899906842624) by (unfold d; field; lra).
    assert (P0 : 0 <= d) by (apply Rmult_le_reg_l with dy; [lra|]; lra).
    assert (DS : dy * S = IZR x1 - IZR x0) by (unfold S; rewrite minus_IZR; field; lra).
    assert (X0 : -1048576 <= IZR x0 <= 1048576) by (split; [apply (IZR_le (-1048576))|apply (IZR_le _ 1048576)]; lia).
    assert (X1 : -1048576 <= IZR x1 <= 1048576) by (split; [apply (IZR_le (-1048576))|apply (IZR_le _ 1048576)]; lia).
    assert (IN : INR (Z.to_nat (y1 - y0)) = dy) by (rewrite INR_IZR_INZ, Z2Nat.id by lia; reflexivity).
    assert (IK : INR (Z.to_nat (y - y0)) = k) by (rewrite INR_IZR_INZ, Z2Nat.id by lia; reflexivity).
    assert (CV : forall c, 0 <= c <= dy -> Rmin (IZR x0) (IZR x1) <= IZR x0 + c * S <= Rmax (IZR x0) (IZR x1)).
    { intros c Hc. set (lam := c / dy). assert (L1 : lam * dy = c) by (unfold lam; field; lra).
      assert (L2 : 0 <= lam <= 1) by (split; apply Rmult_le_reg_r with dy; lra).
      replace (IZR x0 + c * S) with (IZR x0 + lam * (IZR x1 - IZR x0)) by (rewrite <- L1, <- DS; ring).
      unfold Rmin, Rmax. destruct (Rle_dec (IZR x0) (IZR x1)); nra. }
    destruct (iter_near (fofZ x0) (step64 x0 x1 (y1 - y0)) (IZR x0) D S d (Z.to_nat (y1 - y0))) with (k := Z.to_nat (y - y0)) as (X & IX & EX).
    + apply isf_int; lia.
    + exact ID.
    + exact ED.
    + exact P0.
    + rewrite IN, Dd. lra.
    + rewrite IN. lra.
    + intros j Hj. assert (INR j <= dy) by (rewrite <- IN; apply le_INR, Hj). destruct (CV (INR j)) as [V1 V2]; [split; [apply pos_INR|assumption]|].
      apply Rabs_le. split; [eapply Rle_trans; [|exact V1]; apply Rmin_glb; lra|eapply Rle_trans; [exact V2|]; apply Rmax_lub; lra].
    + exact BD.
    + lia.
    + rewrite IK in EX. pose proof (isf_round _ _ IX) as RX. apply Rabs_le_inv in EX, RX.
      assert (KD : k * (d + / 2147483648) <= / 1024) by (assert (k * d <= dy * d) by (apply Rmult_le_compat_r; lra); nra).
      split; [apply Rabs_le; lra|]. intros Z0 Z1. destruct (CV k Pk) as [V1 _]. assert (0 <= Rmin (IZR x0) (IZR x1)) by (apply Rmin_glb; apply (IZR_le 0); lia).
      match goal with |- (0 <= ?m)%Z => assert (G : -1 < IZR m) by lra; apply (lt_IZR (-1)) in G; lia end.
Qed.
