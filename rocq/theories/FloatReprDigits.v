(** The fewest digits that read as a double. *)
From Coq Require Import ZArith Reals Lia Lra SpecFloat Psatz.
From Flocq Require Import Core IEEE754.BinarySingleNaN.
From Verif Require Import Py Num Text FloatLib FloatTextModel FloatTextSpec FloatText FloatTextRound FloatTextOrder FloatReprModel.
Open Scope Z_scope.

Lemma p10 k : (0 < powerRZ 10 k)%R.
Proof. apply powerRZ_lt. lra. Qed.
Lemma p10_add a b : powerRZ 10 (a + b) = (powerRZ 10 a * powerRZ 10 b)%R.
Proof. apply powerRZ_add. lra. Qed.
Lemma p10_IZR k : 0 <= k -> powerRZ 10 k = IZR (10 ^ k).
Proof. intros H. destruct k as [|q|q]; [reflexivity|apply pow_pos_IZR|lia]. Qed.
Lemma p10_neg k : k < 0 -> powerRZ 10 k = (/ IZR (10 ^ (- k)))%R.
Proof. intros H. destruct k as [|q|q]; [lia|lia|]. cbn [Z.opp]. rewrite <- pow_pos_IZR. reflexivity. Qed.

Section Digits.
Variables (m : positive) (e : Z).
Hypothesis V : valid_binary 53 1024 (S754_finite false m e) = true.
Let d := S754_finite false m e.
Let r : R := (IZR (Zpos m) * bpow radix2 e)%R.
Lemma d_isf : isf d r.
Proof. exact (isf_valid d V eq_refl). Qed.
Lemma r_pos : (0 < r)%R.
Proof. unfold r. apply Rmult_lt_0_compat; [apply IZR_lt; reflexivity|apply bpow_gt_0]. Qed.
Lemma r_format : generic_format radix2 fexp64 r.
Proof. eapply isf_format, d_isf. Qed.
Lemma r_small : (r < bpow radix2 1024)%R.
Proof. destruct d_isf as (b & _ & F & E). pose proof (abs_B2R_lt_emax 53 1024 b) as H. rewrite E, Rabs_pos_eq in H by (apply Rlt_le, r_pos). exact H. Qed.
Lemma r_low : (bpow radix2 (-1074) <= r)%R.
Proof.
  destruct (proj1 (format_iff r) r_format) as (n & f & _ & F & E). pose proof r_pos as P. rewrite E in P |- *.
  assert (N : 0 < n). { apply lt_IZR. apply (Rmult_lt_reg_r (bpow radix2 f)); [apply bpow_gt_0|]. rewrite Rmult_0_l. exact P. }
  apply Rle_trans with (bpow radix2 f); [apply bpow_le, F|]. rewrite <- (Rmult_1_l (bpow radix2 f)) at 1. apply Rmult_le_compat_r; [apply bpow_ge_0|]. apply IZR_le. lia.
Qed.

(** ** Fractions *)
Lemma scaled_spec k : let '(a, b) := scaled (Zpos m) e k in 0 < b /\ IZR a = (r / powerRZ 10 k * IZR b)%R.
Proof.
  unfold scaled.
  assert (F : let '(p, q) := if 0 <=? e then (Zpos m * 2 ^ e, 1) else (Zpos m, 2 ^ (- e)) in 0 < q /\ IZR p = (r * IZR q)%R).
  { destruct (Z.leb_spec 0 e) as [L|L].
    - split; [lia|]. unfold r. rewrite mult_IZR, Rmult_1_r. f_equal. rewrite <- (IZR_Zpower radix2) by exact L. reflexivity.
    - split; [apply Z.pow_pos_nonneg; lia|]. unfold r. change (IZR (2 ^ - e)) with (IZR (radix2 ^ - e)). rewrite (IZR_Zpower radix2) by lia. rewrite bpow_opp.
      field. apply Rgt_not_eq, bpow_gt_0. }
  destruct (if 0 <=? e then _ else _) as [p q]. destruct F as (Q & E). destruct (Z.leb_spec 0 k) as [L|L].
  - split; [apply Z.mul_pos_pos; [exact Q|apply Z.pow_pos_nonneg; lia]|]. rewrite mult_IZR, <- p10_IZR by exact L. rewrite E. field. apply Rgt_not_eq, p10.
  - split; [exact Q|]. rewrite mult_IZR, E, (p10_neg k L). field. apply IZR_neq. pose proof (Z.pow_pos_nonneg 10 (- k)). lia.
Qed.
Lemma find_exp_spec f : forall K, (powerRZ 10 (K - 1) <= r)%R -> (r < powerRZ 10 (K + Z.of_nat f))%R ->
  (powerRZ 10 (find_exp f (Zpos m) e K - 1) <= r < powerRZ 10 (find_exp f (Zpos m) e K))%R.
Proof.
  induction f as [|f IH]; intros K L U.
  - cbn [find_exp]. rewrite Z.add_0_r in U. split; assumption.
  - cbn [find_exp]. pose proof (scaled_spec K) as S. destruct (scaled (Zpos m) e K) as [a b]. destruct S as (B & A). apply IZR_lt in B.
    assert (E : (r = IZR a / IZR b * powerRZ 10 K)%R) by (rewrite A; field; split; apply Rgt_not_eq; first [exact B|apply p10]).
    pose proof (p10 K) as P. destruct (Z.ltb_spec a b) as [C|C].
    + split; [exact L|]. rewrite E. rewrite <- (Rmult_1_l (powerRZ 10 K)) at 2. apply Rmult_lt_compat_r; [exact P|]. apply IZR_lt in C.
      apply (Rmult_lt_reg_r (IZR b)); [exact B|]. unfold Rdiv. rewrite Rmult_assoc, Rinv_l by (apply Rgt_not_eq, B). lra.
    + apply IH.
      * replace (K + 1 - 1) with K by lia. rewrite E. rewrite <- (Rmult_1_l (powerRZ 10 K)) at 1. apply Rmult_le_compat_r; [lra|]. apply IZR_le in C.
        apply (Rmult_le_reg_r (IZR b)); [exact B|]. unfold Rdiv. rewrite Rmult_assoc, Rinv_l by (apply Rgt_not_eq, B). lra.
      * replace (K + 1 + Z.of_nat f) with (K + Z.of_nat (S f)) by lia. exact U.
Qed.
Let K : Z := find_exp 700 (Zpos m) e (-330).
Lemma K_spec : (powerRZ 10 (K - 1) <= r < powerRZ 10 K)%R.
Proof.
  apply find_exp_spec.
  - apply Rle_trans with (2 := r_low). change (-330 - 1) with (-331). rewrite p10_neg by lia. change (bpow radix2 (-1074)) with (/ IZR (2 ^ 1074))%R.
    apply Rinv_le; [apply IZR_lt; reflexivity|]. apply IZR_le. vm_compute. discriminate.
  - apply Rlt_le_trans with (1 := r_small). change (-330 + Z.of_nat 700) with 370. rewrite p10_IZR by lia. change (bpow radix2 1024) with (IZR (2 ^ 1024)). apply IZR_le. vm_compute. discriminate.
Qed.

(** ** Which numbers read as the double *)
Definition value (n k : Z) : R := (IZR n * powerRZ 10 k)%R.
Lemma dec_false n k : dec_value false n k = value n k.
Proof. unfold dec_value, value. ring. Qed.
Lemma good_iff n k : 0 < n -> (decimal64 false n k = d <-> rnd (value n k) = r).
Proof.
  intros N. destruct (decimal_cases false n k ltac:(lia)) as (A & B). rewrite dec_false in A, B. split.
  - intros E. rewrite E in A, B. destruct (Rlt_or_le (Rabs (rnd (value n k))) (bpow radix2 1024)) as [S|S].
    + destruct (A S) as (I & _). exact (isf_fun _ _ _ I d_isf).
    + assert (NS : ~ small (value n k)) by (unfold small; lra). specialize (B NS). clear - B. unfold d in B. discriminate B.
  - intros E. assert (S : small (value n k)) by (unfold small; rewrite E, Rabs_pos_eq by (apply Rlt_le, r_pos); exact r_small).
    destruct (A S) as (I & _). rewrite E in I. apply (isf_inj _ _ r I d_isf). apply Rgt_not_eq, r_pos.
Qed.
Lemma reads_iff n k : 0 < n -> (reads_as n k m e = true <-> rnd (value n k) = r).
Proof.
  intros N. rewrite <- good_iff by exact N. unfold reads_as, d. split.
  - destruct (decimal64 false n k) as [s|s| |s m' e']; try discriminate. destruct s; [discriminate|]. intros H. apply andb_prop in H. destruct H as (H1 & H2).
    apply Pos.eqb_eq in H1. apply Z.eqb_eq in H2. subst. reflexivity.
  - intros ->. rewrite Pos.eqb_refl, Z.eqb_refl. reflexivity.
Qed.
Lemma rnd_r : rnd r = r.
Proof. apply round_generic; [apply valid_rnd_N|exact r_format]. Qed.
Lemma between x y : rnd x = r -> (x <= y <= r \/ r <= y <= x)%R -> rnd y = r.
Proof.
  intros X [(A & B)|(A & B)]; apply rnd_le in A; apply rnd_le in B; rewrite X, rnd_r in *; lra.
Qed.
(** Every number with q digits has one at least as near on the grid of q digits. *)
Lemma to_grid q n k : 1 <= q -> 0 < n < 10 ^ q -> rnd (value n k) = r ->
  exists N, 0 < N /\ rnd (value N (K - q)) = r /\ (Rabs (value N (K - q) - r) <= Rabs (value n k - r))%R.
Proof.
  intros Q N G. pose proof K_spec as (KL & KU). destruct (Rlt_or_le (value n k) (powerRZ 10 (K - 1))) as [C|C].
  - assert (E : value (10 ^ (q - 1)) (K - q) = powerRZ 10 (K - 1)).
    { unfold value. rewrite <- p10_IZR, <- p10_add by lia. f_equal. lia. }
    exists (10 ^ (q - 1)). split; [apply Z.pow_pos_nonneg; lia|]. rewrite E. split; [apply (between (value n k) _ G); left; lra|].
    rewrite !Rabs_left1 by lra. lra.
  - assert (D : K - q <= k).
    { destruct (Z_lt_le_dec k (K - q)) as [L|L]; [exfalso|exact L].
      assert (B : (value n k < powerRZ 10 (q + k))%R).
      { unfold value. rewrite p10_add. apply Rmult_lt_compat_r; [apply p10|]. rewrite p10_IZR by lia. apply IZR_lt. lia. }
      pose proof (pow10_le (q + k) (K - 1) ltac:(lia)). lra. }
    exists (n * 10 ^ (k - (K - q))).
    assert (E : value (n * 10 ^ (k - (K - q))) (K - q) = value n k).
    { unfold value. rewrite mult_IZR, <- p10_IZR by lia. rewrite Rmult_assoc, <- p10_add. do 2 f_equal. lia. }
    rewrite E. split; [apply Z.mul_pos_pos; [lia|apply Z.pow_pos_nonneg; lia]|]. split; [exact G|lra].
Qed.

(** ** The search *)
Definition low (k : Z) : Z := let '(a, b) := scaled (Zpos m) e k in a / b.
Definition first_try (k : Z) : Z := let '(a, b) := scaled (Zpos m) e k in if 2 * (a mod b) <=? b then a / b else a / b + 1.
Lemma low_spec k : (value (low k) k <= r < value (low k + 1) k)%R.
Proof.
  unfold low, value. pose proof (scaled_spec k) as S. destruct (scaled (Zpos m) e k) as [a b]. destruct S as (B & A).
  pose proof (Z.div_mod a b ltac:(lia)) as DM. pose proof (Z.mod_pos_bound a b B) as MB. set (q := a / b) in *. set (t := a mod b) in *.
  pose proof (p10 k) as P. assert (E : (r = IZR a / IZR b * powerRZ 10 k)%R) by (rewrite A; field; split; apply Rgt_not_eq; first [exact P|apply IZR_lt, B]).
  rewrite DM, plus_IZR, mult_IZR in E. assert (BP : (0 < IZR b)%R) by (apply IZR_lt, B).
  assert (T : (0 <= IZR t * / IZR b < 1)%R).
  { assert (T1 : (0 <= IZR t < IZR b)%R) by (split; [apply IZR_le|apply IZR_lt]; lia). split; [apply Rmult_le_pos; [lra|apply Rlt_le, Rinv_0_lt_compat, BP]|].
    apply (Rmult_lt_reg_r (IZR b)); [exact BP|]. rewrite Rmult_assoc, Rinv_l by lra. lra. }
  replace ((IZR b * IZR q + IZR t) / IZR b * powerRZ 10 k)%R with ((IZR q + IZR t * / IZR b) * powerRZ 10 k)%R in E by (field; lra).
  rewrite E, plus_IZR. split; [apply Rmult_le_compat_r; lra|apply Rmult_lt_compat_r; lra].
Qed.
Lemma first_spec k : (first_try k = low k \/ first_try k = low k + 1) /\ (Rabs (value (first_try k) k - r) <= / 2 * powerRZ 10 k)%R.
Proof.
  pose proof (low_spec k) as LS. unfold first_try, low, value in *. pose proof (scaled_spec k) as S. destruct (scaled (Zpos m) e k) as [a b]. destruct S as (B & A).
  pose proof (Z.div_mod a b ltac:(lia)) as DM. pose proof (Z.mod_pos_bound a b B) as MB. set (q := a / b) in *. set (t := a mod b) in *.
  pose proof (p10 k) as P. assert (E : (r = IZR a / IZR b * powerRZ 10 k)%R) by (rewrite A; field; split; apply Rgt_not_eq; first [exact P|apply IZR_lt, B]).
  rewrite DM, plus_IZR, mult_IZR in E. assert (BP : (0 < IZR b)%R) by (apply IZR_lt, B).
  replace ((IZR b * IZR q + IZR t) / IZR b * powerRZ 10 k)%R with (IZR q * powerRZ 10 k + IZR t * / IZR b * powerRZ 10 k)%R in E by (field; lra).
  assert (X : (IZR t * / IZR b * IZR b = IZR t)%R) by (field; lra). set (x := (IZR t * / IZR b)%R) in *. set (u := powerRZ 10 k) in *.
  rewrite plus_IZR in LS. destruct (Z.leb_spec (2 * t) b) as [C|C]; (split; [tauto|]).
  - apply IZR_le in C. rewrite mult_IZR in C. assert (x <= / 2)%R by (apply (Rmult_le_reg_r (IZR b)); lra).
    pose proof (Rmult_le_compat_r u x (/ 2) ltac:(lra) H). apply Rabs_le. lra.
  - apply IZR_lt in C. rewrite mult_IZR in C. assert (/ 2 <= x)%R by (apply (Rmult_le_reg_r (IZR b)); lra).
    pose proof (Rmult_le_compat_r u (/ 2) x ltac:(lra) H). rewrite plus_IZR. apply Rabs_le. lra.
Qed.
Definition other (k : Z) : Z := 2 * low k + 1 - first_try k.
Lemma shortest_step f p : shortest (S f) m e p K =
  (let k := K - p in if reads_as (first_try k) k m e then (first_try k, k) else if reads_as (other k) k m e then (other k, k) else shortest f m e (p + 1) K).
Proof.
  cbn [shortest]. cbv zeta. unfold other, first_try, low. destruct (scaled (Zpos m) e (K - p)) as [a b]. destruct (2 * (a mod b) <=? b).
  - replace (2 * (a / b) + 1 - a / b) with (a / b + 1) by lia. reflexivity.
  - replace (2 * (a / b) + 1 - (a / b + 1)) with (a / b) by lia. reflexivity.
Qed.
Lemma low_digits p : 1 <= p -> 10 ^ (p - 1) <= low (K - p) < 10 ^ p.
Proof.
  intros P. pose proof (low_spec (K - p)) as (A & B). pose proof K_spec as (C & D). pose proof (p10 (K - p)) as U. unfold value in A, B.
  replace K with (p + (K - p)) in D by lia. rewrite p10_add, p10_IZR in D by lia.
  replace (K - 1) with (p - 1 + (K - p)) in C by lia. rewrite p10_add, p10_IZR in C by lia.
  split.
  - assert (L : (IZR (10 ^ (p - 1)) < IZR (low (K - p) + 1))%R) by (apply (Rmult_lt_reg_r (powerRZ 10 (K - p))); [exact U|lra]). apply lt_IZR in L. lia.
  - apply lt_IZR. apply (Rmult_lt_reg_r (powerRZ 10 (K - p))); [exact U|lra].
Qed.
Lemma tries_digits p : 1 <= p -> 10 ^ (p - 1) <= first_try (K - p) <= 10 ^ p /\ 10 ^ (p - 1) <= other (K - p) <= 10 ^ p.
Proof. intros P. pose proof (low_digits p P). destruct (first_spec (K - p)) as ([E|E] & _); unfold other; rewrite E; lia. Qed.
(** One of the two tries reads as the double if anything on the grid does. *)
Lemma tries_reach k N : 0 < N -> rnd (value N k) = r ->
  (rnd (value (first_try k) k) = r /\ (Rabs (value (first_try k) k - r) <= Rabs (value N k - r))%R) \/
  (rnd (value (first_try k) k) <> r /\ rnd (value (other k) k) = r /\ (Rabs (value (other k) k - r) <= Rabs (value N k - r))%R).
Proof.
  intros NP G. pose proof (low_spec k) as LS. pose proof (first_spec k) as (FS & FN). pose proof (p10 k) as P.
  assert (MONO : forall a b, a <= b -> (value a k <= value b k)%R) by (intros a b H; unfold value; apply Rmult_le_compat_r; [lra|apply IZR_le, H]).
  assert (STEP : (value (low k + 1) k = value (low k) k + powerRZ 10 k)%R) by (unfold value; rewrite plus_IZR; ring).
  assert (NEAR : forall c, (c = low k /\ N <= low k \/ c = low k + 1 /\ low k + 1 <= N) -> rnd (value c k) = r /\ (Rabs (value c k - r) <= Rabs (value N k - r))%R).
  { intros c [(-> & L)|(-> & L)]; apply MONO in L.
    - split; [apply (between _ _ G); left; lra|]. rewrite !Rabs_left1 by lra. lra.
    - split; [apply (between _ _ G); right; lra|]. rewrite !Rabs_pos_eq by lra. lra. }
  assert (FARO : forall c, c = low k \/ c = low k + 1 -> (Rabs (value (first_try k) k - r) <= Rabs (value c k - r))%R).
  { intros c C. destruct FS as [F|F], C as [C|C]; subst c; rewrite F in FN |- *; try lra.
    - rewrite Rabs_left1 in FN |- * by lra. rewrite Rabs_pos_eq by lra. lra.
    - rewrite Rabs_pos_eq in FN |- * by lra. rewrite Rabs_left1 by lra. lra. }
  destruct (Z_le_gt_dec N (low k)) as [L|L].
  - destruct (NEAR (low k) ltac:(left; lia)) as (G1 & N1). pose proof (FARO (low k) ltac:(auto)) as FA.
    destruct (Req_dec (rnd (value (first_try k) k)) r) as [Y|Y]; [left; split; [exact Y|lra]|right]. split; [exact Y|].
    destruct FS as [F|F]; [rewrite F in Y; contradiction|]. unfold other. rewrite F. replace (2 * low k + 1 - (low k + 1)) with (low k) by lia. auto.
  - destruct (NEAR (low k + 1) ltac:(right; lia)) as (G1 & N1). pose proof (FARO (low k + 1) ltac:(auto)) as FA.
    destruct (Req_dec (rnd (value (first_try k) k)) r) as [Y|Y]; [left; split; [exact Y|lra]|right]. split; [exact Y|].
    destruct FS as [F|F]; [|rewrite F in Y; contradiction]. unfold other. rewrite F. replace (2 * low k + 1 - low k) with (low k + 1) by lia. auto.
Qed.
Lemma seventeen : rnd (value (first_try (K - 17)) (K - 17)) = r.
Proof.
  pose proof (tries_digits 17 ltac:(lia)) as ((L & _) & _). pose proof (first_spec (K - 17)) as (_ & N). set (n := first_try (K - 17)) in *. set (k := K - 17) in *.
  pose proof (p10 k) as P. assert (X : (10000000000000000 * powerRZ 10 k <= value n k)%R).
  { unfold value. apply Rmult_le_compat_r; [lra|]. apply IZR_le in L. exact L. }
  apply rnd_back; [exact r_format|]. rewrite (Rabs_pos_eq r) by (apply Rlt_le, r_pos). change (bpow radix2 (-54)) with (/ 18014398509481984)%R.
  set (y := value n k) in *. pose proof (Rabs_le_inv _ _ N). lra.
Qed.
Lemma shortest_spec f : forall p, 1 <= p -> p + Z.of_nat f = 18 -> (1 <= f)%nat ->
  let '(n, k) := shortest f m e p K in exists q, p <= q <= 17 /\ k = K - q /\ 10 ^ (q - 1) <= n <= 10 ^ q /\ rnd (value n k) = r /\
    (forall N, 0 < N -> rnd (value N k) = r -> (Rabs (value n k - r) <= Rabs (value N k - r))%R) /\
    (forall p' N, p <= p' < q -> 0 < N -> rnd (value N (K - p')) <> r).
Proof.
  induction f as [|f IH]; intros p P F H; [lia|]. rewrite shortest_step. cbv zeta.
  pose proof (tries_digits p P) as (T1 & T2). pose proof (Z.pow_pos_nonneg 10 (p - 1) ltac:(lia) ltac:(lia)) as PP.
  destruct (reads_as (first_try (K - p)) (K - p) m e) eqn:R1.
  - apply reads_iff in R1; [|lia]. exists p. split; [lia|]. split; [reflexivity|]. split; [lia|]. split; [exact R1|]. split; [|lia].
    intros N NP G. destruct (tries_reach (K - p) N NP G) as [(_ & D)|(Y & _)]; [exact D|contradiction].
  - assert (N1 : rnd (value (first_try (K - p)) (K - p)) <> r) by (rewrite <- reads_iff by lia; congruence).
    destruct (reads_as (other (K - p)) (K - p) m e) eqn:R2.
    + apply reads_iff in R2; [|lia]. exists p. split; [lia|]. split; [reflexivity|]. split; [lia|]. split; [exact R2|]. split; [|lia].
      intros N NP G. destruct (tries_reach (K - p) N NP G) as [(Y & _)|(_ & _ & D)]; [contradiction|exact D].
    + assert (N2 : rnd (value (other (K - p)) (K - p)) <> r) by (rewrite <- reads_iff by lia; congruence).
      assert (Q : p <> 17) by (intros ->; apply N1, seventeen).
      specialize (IH (p + 1) ltac:(lia) ltac:(lia) ltac:(lia)). destruct (shortest f m e (p + 1) K) as [n k]. destruct IH as (q & Q1 & Q2 & Q3 & Q4 & Q5 & Q6).
      exists q. split; [lia|]. split; [exact Q2|]. split; [exact Q3|]. split; [exact Q4|]. split; [exact Q5|].
      intros p' N B NP G. destruct (Z.eq_dec p' p) as [->|]; [|apply (Q6 p' N); [lia|exact NP|exact G]].
      destruct (tries_reach (K - p) N NP G) as [(Y & _)|(_ & Y & _)]; contradiction.
Qed.
(** No number with fewer digits reads as the double, and none with as many is nearer. *)
Lemma digits_spec : let '(n, k) := shortest 17 m e 1 K in 0 < n /\ rnd (value n k) = r /\
  exists j n' k', 1 <= j <= 17 /\ 0 < n' < 10 ^ j /\ value n' k' = value n k /\
  forall n0 k0, 0 < n0 -> rnd (value n0 k0) = r -> 10 ^ (j - 1) <= n0 /\ (n0 < 10 ^ j -> (Rabs (value n k - r) <= Rabs (value n0 k0 - r))%R).
Proof.
  pose proof (shortest_spec 17 1 ltac:(lia) eq_refl ltac:(lia)) as S. destruct (shortest 17 m e 1 K) as [n k]. destruct S as (q & Q1 & -> & Q3 & Q4 & Q5 & Q6).
  pose proof (Z.pow_pos_nonneg 10 (q - 1) ltac:(lia) ltac:(lia)) as PP. split; [lia|]. split; [exact Q4|].
  assert (exists n' k', 0 < n' < 10 ^ q /\ value n' k' = value n (K - q)) as (n' & k' & A & B).
  { destruct (Z.eq_dec n (10 ^ q)) as [->|].
    - exists (10 ^ (q - 1)), (K - q + 1). split; [split; [lia|apply Z.pow_lt_mono_r; lia]|]. unfold value. rewrite <- !p10_IZR, <- !p10_add by lia. f_equal. lia.
    - exists n, (K - q). split; [lia|reflexivity]. }
  exists q, n', k'. split; [lia|]. split; [exact A|]. split; [exact B|]. intros n0 k0 P0 G0. split.
  - destruct (Z_lt_le_dec n0 (10 ^ (q - 1))) as [L|L]; [exfalso|exact L]. destruct (Z.eq_dec q 1) as [->|]; [cbn in L; lia|].
    destruct (to_grid (q - 1) n0 k0 ltac:(lia) ltac:(lia) G0) as (N & NP & G & _). apply (Q6 (q - 1) N); [lia|exact NP|exact G].
  - intros L. destruct (to_grid q n0 k0 ltac:(lia) ltac:(lia) G0) as (N & NP & G & D). specialize (Q5 N NP G). lra.
Qed.
End Digits.
