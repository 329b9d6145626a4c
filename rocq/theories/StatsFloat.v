(** Statistics of doubles: how far the answers are from the exact ones. *)
From Coq Require Import ZArith Reals Lia Lra List SpecFloat.
From Flocq Require Import Core IEEE754.BinarySingleNaN.
From Flocq Require Import Relative Plus_error.
From Verif Require Import Num FloatLib RasterAA RasterAALine GridFloat StatsModel StatsSpec StatsReal StatsFloatModel StatsFloatSpec StatsFloatLib StatsFloatCalls.
Import ListNotations.
Open Scope R_scope.

Definition fm (r : R) : Prop := generic_format radix2 fexp64 r.
Lemma fm_rnd r : fm (rnd r). Proof. apply generic_format_round; [apply fexp_correct; reflexivity|apply valid_rnd_N]. Qed.
Lemma fm_reads l L : reads l L -> Forall fm L.
Proof. induction 1; constructor; [eapply isf_format; eassumption|assumption]. Qed.
Lemma rel_add a b : fm a -> fm b -> exists e, Rabs e <= / 9007199254740992 /\ rnd (a + b) = (a + b) * (1 + e).
Proof.
  intros I J. pose proof (FLT_plus_error_N_ex radix2 (-1074) 53 (fun z => negb (Z.even z)) a b) as H.
  destruct H as (e & E & Q); [exact I|exact J|]. exists e. split; [|exact Q]. eapply Rle_trans; [exact E|].
  assert (U : u_ro radix2 53 = / 9007199254740992).
  { unfold u_ro. change (- (53) + 1)%Z with (-52)%Z. change (bpow radix2 (-52)) with (/ 4503599627370496). lra. }
  rewrite U. unfold Rdiv. assert (H : / (1 + / 9007199254740992) <= 1).
  { rewrite <- Rinv_1. apply Rinv_le; lra. }
  assert (H0 : 0 <= / 9007199254740992) by lra. revert H H0. generalize (/ (1 + / 9007199254740992)) (/ 9007199254740992). intros p q. nra.
Qed.
Lemma rel_sub a b : fm a -> fm b -> exists e, Rabs e <= / 9007199254740992 /\ rnd (a - b) = (a - b) * (1 + e).
Proof. intros I J. apply (rel_add a (- b)); [exact I|]. apply generic_format_opp. exact J. Qed.
Notation eps := (/ 9007199254740992) (only parsing).
Notation eta := (bpow radix2 (-1000)) (only parsing).

(** ** The average *)
Lemma nR_count L : nR L = count L. Proof. apply ofN. Qed.
Lemma mean_err t n : 1 <= n -> Rabs (rnd (rnd t / n) - t / n) <= Rabs (t / n) * (3 * / 9007199254740992) + 3 * bpow radix2 (-1000).
Proof.
  intros N. pose proof (rnd_near t (Rabs t) (Rle_refl _)) as H1. pose proof (rnd_near (rnd t / n) _ (Rle_refl _)) as H2.
  pose proof tiny as Ti. assert (I : 0 < / n <= 1). { split; [apply Rinv_0_lt_compat; lra|]. rewrite <- Rinv_1. apply Rinv_le; lra. }
  assert (H3 : Rabs (rnd t / n - t / n) <= Rabs (t / n) * / 9007199254740992 + bpow radix2 (-1000)).
  { replace (rnd t / n - t / n) with ((rnd t - t) * / n) by (unfold Rdiv; ring). unfold Rdiv. rewrite !Rabs_mult, (Rabs_pos_eq (/ n)) by lra. nra. }
  pose proof (Rabs_triang (t / n) (rnd t / n - t / n)) as H4. replace (t / n + (rnd t / n - t / n)) with (rnd t / n) in H4 by ring.
  pose proof (Rabs_triang (rnd (rnd t / n) - rnd t / n) (rnd t / n - t / n)) as H5.
  replace (rnd (rnd t / n) - rnd t / n + (rnd t / n - t / n)) with (rnd (rnd t / n) - t / n) in H5 by ring. pose proof (Rabs_pos (t / n)). lra.
Qed.
(** How far the rounded average can be, squared. *)
Notation noise := blur (only parsing).
Lemma avg_err L : L <> [] -> Rabs (avgR L - mean L) <= Rabs (mean L) * (3 * / 9007199254740992) + 3 * bpow radix2 (-1000).
Proof. intros N. pose proof (nR_pos L N). unfold avgR, mean. rewrite <- nR_count. apply mean_err. assumption. Qed.
Lemma sq_abs a b : Rabs a <= b -> a ^ 2 <= b ^ 2.
Proof. intros H. rewrite <- (pow2_abs a). pose proof (Rabs_pos a). nra. Qed.
Lemma noise_dev L : L <> [] -> (avgR L - mean L) ^ 2 <= noise L.
Proof.
  intros N. pose proof (sq_abs _ _ (avg_err L N)) as H. eapply Rle_trans; [exact H|]. unfold blur.
  assert (E : (bpow radix2 (-1000)) ^ 2 * 18 <= bpow radix2 (-1900)).
  { replace (bpow radix2 (-1000) ^ 2) with (bpow radix2 (-2000)) by (change (-2000)%Z with (-1000 + -1000)%Z; rewrite bpow_plus; ring).
    apply Rle_trans with (bpow radix2 (-2000) * bpow radix2 5); [|rewrite <- bpow_plus; apply bpow_le; lia].
    apply Rmult_le_compat_l; [apply bpow_ge_0|]. change (bpow radix2 5) with 32. lra. }
  rewrite <- (pow2_abs (mean L)). set (m := Rabs (mean L)) in *. set (d := bpow radix2 (-1000)) in *.
  assert (A : (m * (3 * / 9007199254740992) + 3 * d) ^ 2 <= 2 * (m * (3 * / 9007199254740992)) ^ 2 + 2 * (3 * d) ^ 2).
  { pose proof (pow2_ge_0 (m * (3 * / 9007199254740992) - 3 * d)). lra. }
  assert (B : 2 * (m * (3 * / 9007199254740992)) ^ 2 <= m ^ 2 / IZR (2 ^ 100)).
  { replace ((m * (3 * / 9007199254740992)) ^ 2) with (m ^ 2 * (9 * / 81129638414606681695789005144064)) by (field).
    change (IZR (2 ^ 100)) with 1267650600228229401496703205376. unfold Rdiv. pose proof (pow2_ge_0 m). lra. }
  lra.
Qed.
Lemma noise_pos L : 0 < noise L.
Proof.
  unfold blur. pose proof (bpow_gt_0 radix2 (-1900)). assert (0 <= mean L ^ 2 / IZR (2 ^ 100)); [|lra].
  unfold Rdiv. apply Rmult_le_pos; [apply pow2_ge_0|]. left. apply Rinv_0_lt_compat. apply IZR_lt. reflexivity.
Qed.

(** ** The variance *)
Lemma total_diff {A} (f g h : A -> R) l : (forall x, In x l -> Rabs (f x - g x) <= h x) -> Rabs (total (map f l) - total (map g l)) <= total (map h l).
Proof.
  induction l as [|x l IH]; intros H; cbn [map total fold_right]; [rewrite Rminus_0_r, Rabs_R0; lra|].
  specialize (IH (fun y I => H y (or_intror I))). specialize (H x (or_introl eq_refl)). unfold total in IH.
  match goal with |- Rabs (f x + ?p - (g x + ?q)) <= _ => replace (f x + p - (g x + q)) with ((f x - g x) + (p - q)) by ring; pose proof (Rabs_triang (f x - g x) (p - q)) end. lra.
Qed.
Lemma prod_err a b : exists e d, Rabs e <= / 9007199254740992 /\ Rabs d <= bpow radix2 (-1000) /\ rnd (a * b) = a * b * (1 + e) + d.
Proof. apply rnd_rel. Qed.
Lemma eps3 e1 e2 e3 : Rabs e1 <= / 9007199254740992 -> Rabs e2 <= / 9007199254740992 -> Rabs e3 <= / 9007199254740992 ->
  Rabs ((1 + e1) * (1 + e2) * (1 + e3) - 1) <= 4 * / 9007199254740992.
Proof.
  intros A B C. apply Rabs_le_inv in A. apply Rabs_le_inv in B. apply Rabs_le_inv in C.
  assert (P : Rabs ((1 + e1) * (1 + e2) - 1) <= / 3602879701896396).
  { apply Rabs_le. assert (Rabs (e1 * e2) <= / 9007199254740992 * / 9007199254740992). { rewrite Rabs_mult. apply Rmult_le_compat; try apply Rabs_pos; apply Rabs_le; lra. }
    apply Rabs_le_inv in H. lra. }
  apply Rabs_le_inv in P. set (p := (1 + e1) * (1 + e2)) in *. apply Rabs_le.
  assert (Rabs ((p - 1) * e3) <= / 3602879701896396 * / 9007199254740992). { rewrite Rabs_mult. apply Rmult_le_compat; try apply Rabs_pos; apply Rabs_le; lra. }
  apply Rabs_le_inv in H. lra.
Qed.
Lemma scaled g q d k : Rabs (q - 1) <= k -> Rabs d <= bpow radix2 (-1000) -> Rabs (g * q + d - g) <= k * Rabs g + bpow radix2 (-1000).
Proof.
  intros K D. replace (g * q + d - g) with (g * (q - 1) + d) by ring. eapply Rle_trans; [apply Rabs_triang|]. rewrite Rabs_mult. pose proof (Rabs_pos g). nra.
Qed.
Lemma sq_err u x : fm u -> fm x -> Rabs (sqR u x - (x - u) ^ 2) <= 4 * / 9007199254740992 * (x - u) ^ 2 + bpow radix2 (-1000).
Proof.
  intros U X. unfold sqR. destruct (rel_sub x u X U) as (e & E & ->). destruct (prod_err ((x - u) * (1 + e)) ((x - u) * (1 + e))) as (f & d & F & D & ->).
  replace ((x - u) * (1 + e) * ((x - u) * (1 + e)) * (1 + f) + d) with ((x - u) ^ 2 * ((1 + e) * (1 + e) * (1 + f)) + d) by ring.
  rewrite <- (Rabs_pos_eq ((x - u) ^ 2)) at 3 by apply pow2_ge_0. apply scaled; [apply eps3; assumption|exact D].
Qed.
(** Rounding a sum close to [s], and its quotient. *)
Lemma quot_err q s n : 1 <= n -> 0 <= s -> Rabs (q - s) <= 4 * / 9007199254740992 * s + n * bpow radix2 (-1000) ->
  Rabs (rnd (rnd q / n) - s / n) <= 8 * / 9007199254740992 * (s / n) + 6 * bpow radix2 (-1000).
Proof.
  intros N S H. pose proof (mean_err q n N) as M. pose proof tiny as Ti.
  assert (I : 0 < / n) by (apply Rinv_0_lt_compat; lra).
  assert (H1 : Rabs (q / n - s / n) <= 4 * / 9007199254740992 * (s / n) + bpow radix2 (-1000)).
  { replace (q / n - s / n) with ((q - s) * / n) by (unfold Rdiv; ring). rewrite Rabs_mult, (Rabs_pos_eq (/ n)) by lra.
    replace (4 * / 9007199254740992 * (s / n) + bpow radix2 (-1000)) with ((4 * / 9007199254740992 * s + n * bpow radix2 (-1000)) * / n) by (field; lra).
    apply Rmult_le_compat_r; [lra|exact H]. }
  assert (P : 0 <= s / n) by (apply Rmult_le_pos; lra).
  pose proof (Rabs_triang (s / n) (q / n - s / n)) as H4. replace (s / n + (q / n - s / n)) with (q / n) in H4 by ring. rewrite (Rabs_pos_eq (s / n)) in H4 by exact P.
  pose proof (Rabs_triang (rnd (rnd q / n) - q / n) (q / n - s / n)) as H5.
  replace (rnd (rnd q / n) - q / n + (q / n - s / n)) with (rnd (rnd q / n) - s / n) in H5 by ring. lra.
Qed.
(** Squares about another centre. *)
Lemma dev_sum c (L : list R) : total (map (fun x => x - c) L) = total L - count L * c.
Proof. unfold count. induction L as [|x L IH]; cbn [map total fold_right length]; [cbn; ring|]. unfold total in IH. rewrite IH, S_INR. ring. Qed.
Lemma about c L : L <> [] -> total (map (fun x => (x - c) ^ 2) L) / count L = variance L + (c - mean L) ^ 2.
Proof.
  intros N. pose proof (count_pos L N) as P. unfold variance.
  assert (E : total (map (fun x => (x - c) ^ 2) L) = total (map (fun x => (x - mean L) ^ 2) L) + count L * (c - mean L) ^ 2).
  { rewrite (total_map_ext (fun x => (x - c) ^ 2) (fun x => ((x - mean L) ^ 2 + (2 * (mean L - c)) * (x - mean L)) + (c - mean L) ^ 2)) by (intros; ring).
    rewrite !total_map_add, total_map_scale, total_dev by exact N. rewrite total_map_const. fold (count L). ring. }
  rewrite E. field. lra.
Qed.
Lemma var_err L : L <> [] -> Forall fm L -> Rabs (varR L - (variance L + (avgR L - mean L) ^ 2)) <=
  8 * / 9007199254740992 * (variance L + (avgR L - mean L) ^ 2) + 6 * bpow radix2 (-1000).
Proof.
  intros N F. pose proof (nR_pos L N) as P. rewrite <- (about (avgR L) L N). rewrite <- nR_count. unfold varR. apply quot_err; [exact P| |].
  - apply total_nonneg. intros x _. apply pow2_ge_0.
  - eapply Rle_trans; [apply (total_diff _ _ (fun x => 4 * / 9007199254740992 * (x - avgR L) ^ 2 + bpow radix2 (-1000)))|].
    + intros x I. apply sq_err; [apply fm_rnd|]. rewrite Forall_forall in F. apply F. exact I.
    + rewrite total_map_add, total_map_scale, total_map_const. fold (count L). rewrite <- nR_count. lra.
Qed.
Lemma var_close L : L <> [] -> Forall fm L -> Rabs (varR L - variance L) <= variance L / IZR (2 ^ 50) + 2 * noise L + bpow radix2 (-900).
Proof.
  intros N F. pose proof (var_err L N F) as H. pose proof (noise_dev L N) as D. pose proof (variance_nonneg L N). pose proof (pow2_ge_0 (avgR L - mean L)).
  set (d := (avgR L - mean L) ^ 2) in *. assert (E : 6 * bpow radix2 (-1000) <= bpow radix2 (-900)).
  { apply Rle_trans with (bpow radix2 3 * bpow radix2 (-1000)); [|rewrite <- bpow_plus; apply bpow_le; lia]. apply Rmult_le_compat_r; [apply bpow_ge_0|]. change (bpow radix2 3) with 8. lra. }
  change (IZR (2 ^ 50)) with 1125899906842624. apply Rabs_le. apply Rabs_le_inv in H. lra.
Qed.
Lemma std_close v : 0 <= v -> Rabs (rnd (sqrt v) - sqrt v) <= sqrt v / IZR (2 ^ 53) + bpow radix2 (-1000).
Proof. intros V. change (IZR (2 ^ 53)) with 9007199254740992. apply rnd_near. rewrite Rabs_pos_eq; [lra|apply sqrt_pos]. Qed.

(** ** The covariance *)
Lemma term_err n u v x y : 1 <= n -> fm u -> fm v -> fm x -> fm y ->
  Rabs (termR n u v x y - (x - u) * (y - v) / n) <= 6 * / 9007199254740992 * Rabs ((x - u) * (y - v) / n) + 3 * bpow radix2 (-1000).
Proof.
  intros N U V X Y. unfold termR. destruct (rel_sub x u X U) as (e & E & ->). destruct (rel_sub y v Y V) as (f & F & ->).
  pose proof (mean_err ((x - u) * (1 + e) * ((y - v) * (1 + f))) n N) as M. set (g := (x - u) * (y - v) / n).
  replace ((x - u) * (1 + e) * ((y - v) * (1 + f)) / n) with (g * ((1 + e) * (1 + f) * (1 + 0))) in M by (unfold g; field; lra).
  pose proof (eps3 e f 0 E F ltac:(rewrite Rabs_R0; lra)) as Q.
  assert (Q2 : Rabs ((1 + e) * (1 + f) * (1 + 0) - 1) <= / 3602879701896396).
  { apply Rabs_le_inv in E. apply Rabs_le_inv in F. assert (Rabs (e * f) <= / 9007199254740992 * / 9007199254740992). { rewrite Rabs_mult. apply Rmult_le_compat; try apply Rabs_pos; apply Rabs_le; lra. }
    apply Rabs_le_inv in H. apply Rabs_le. lra. }
  set (q := (1 + e) * (1 + f) * (1 + 0)) in *.
  assert (H : Rabs (g * q - g) <= / 3602879701896396 * Rabs g). { replace (g * q - g) with (g * (q - 1)) by ring. rewrite Rabs_mult. pose proof (Rabs_pos g). nra. }
  pose proof (Rabs_triang g (g * q - g)) as H1. replace (g + (g * q - g)) with (g * q) in H1 by ring.
  match goal with |- Rabs (?a - g) <= _ => pose proof (Rabs_triang (a - g * q) (g * q - g)) as H2; replace (a - g * q + (g * q - g)) with (a - g) in H2 by ring end.
  pose proof (Rabs_pos g). lra.
Qed.
Lemma pow_ge1 k : 1 <= (1 + / 9007199254740992) ^ k.
Proof. apply pow_R1_Rle. lra. Qed.
Lemma pow_lin k : (Z.of_nat k <= 2 ^ 20)%Z -> (1 + / 9007199254740992) ^ k <= 1 + 2 * INR k * / 9007199254740992.
Proof.
  induction k as [|k IH]; intros K; [cbn; lra|]. rewrite S_INR. cbn [pow]. specialize (IH ltac:(lia)).
  assert (B : 0 <= INR k <= 1048576). { rewrite <- ofN. split; [apply IZR_le; lia|]. change 1048576 with (IZR (2 ^ 20)). apply IZR_le. lia. }
  nra.
Qed.
Lemma covL_err n u v A : forall B c, fm c ->
  let T := total (map (fun p => termR n u v (fst p) (snd p)) (combine A B)) in
  let W := Rabs c + total (map (fun p => Rabs (termR n u v (fst p) (snd p))) (combine A B)) in
  Rabs (covL n u v A B c - (c + T)) <= ((1 + / 9007199254740992) ^ length A - 1) * W.
Proof.
  induction A as [|x A IH]; intros B c C; cbv zeta.
  - cbn [covL combine map total fold_right length pow]. replace (c - (c + 0)) with 0 by ring. rewrite Rabs_R0. lra.
  - destruct B as [|y B].
    + cbn [covL combine map total fold_right]. replace (c - (c + 0)) with 0 by ring. rewrite Rabs_R0.
      apply Rmult_le_pos; [pose proof (pow_ge1 (length (x :: A))); lra|]. pose proof (Rabs_pos c). lra.
    + cbn [covL combine map length]. rewrite !total_cons. cbn [fst snd]. set (t := termR n u v x y).
      destruct (rel_add c t C (fm_rnd _)) as (e & E & Q). specialize (IH B (rnd (c + t)) (fm_rnd _)). cbv zeta in IH.
      set (T := total (map (fun p => termR n u v (fst p) (snd p)) (combine A B))) in *.
      set (W := total (map (fun p => Rabs (termR n u v (fst p) (snd p))) (combine A B))) in *.
      assert (Wp : 0 <= W) by (apply total_nonneg; intros; apply Rabs_pos).
      set (r := covL n u v A B (rnd (c + t))) in *. pose proof (pow_ge1 (length A)) as G. cbn [pow]. set (g := (1 + / 9007199254740992) ^ length A) in *.
      assert (S1 : Rabs (rnd (c + t) - (c + t)) <= / 9007199254740992 * (Rabs c + Rabs t)).
      { rewrite Q. replace ((c + t) * (1 + e) - (c + t)) with (e * (c + t)) by ring. rewrite Rabs_mult. apply Rmult_le_compat; try apply Rabs_pos; [exact E|apply Rabs_triang]. }
      assert (S2 : Rabs (rnd (c + t)) <= (1 + / 9007199254740992) * (Rabs c + Rabs t)).
      { pose proof (Rabs_triang (c + t) (rnd (c + t) - (c + t))) as H. replace (c + t + (rnd (c + t) - (c + t))) with (rnd (c + t)) in H by ring.
        pose proof (Rabs_triang c t). lra. }
      pose proof (Rabs_triang (r - (rnd (c + t) + T)) (rnd (c + t) - (c + t))) as H3.
      replace (r - (rnd (c + t) + T) + (rnd (c + t) - (c + t))) with (r - (c + (t + T))) in H3 by ring.
      set (w := Rabs c + Rabs t) in *. assert (w0 : 0 <= w) by (unfold w; pose proof (Rabs_pos c); pose proof (Rabs_pos t); lra).
      replace (Rabs c + (Rabs t + W)) with (w + W) by (unfold w; ring).
      assert (S3 : (g - 1) * (Rabs (rnd (c + t)) + W) <= (g - 1) * ((1 + / 9007199254740992) * w + W)) by (apply Rmult_le_compat_l; lra).
      assert (S4 : 0 <= (g - 1) * W) by (apply Rmult_le_pos; lra). assert (S5 : 0 <= g * W * / 9007199254740992) by (apply Rmult_le_pos; [apply Rmult_le_pos; lra|lra]).
      lra.
Qed.
Lemma over_fst (h : R -> R) (A B : list R) : length A = length B -> total (map (fun p => h (fst p)) (combine A B)) = total (map h A).
Proof. intros L. rewrite <- (map_map fst h), combine_fst by exact L. reflexivity. Qed.
Lemma over_snd (h : R -> R) (A B : list R) : length A = length B -> total (map (fun p => h (snd p)) (combine A B)) = total (map h B).
Proof. intros L. rewrite <- (map_map snd h), combine_snd by exact L. reflexivity. Qed.
Lemma cs_abs (f g : R * R -> R) ps : total (map (fun p => Rabs (f p * g p)) ps) <= sqrt (total (map (fun p => f p ^ 2) ps) * total (map (fun p => g p ^ 2) ps)).
Proof.
  pose proof (cs (map (fun p => (Rabs (f p), Rabs (g p))) ps)) as H. rewrite !map_map in H. cbn [fst snd] in H.
  rewrite (total_map_ext (fun p => Rabs (f p) ^ 2) (fun p => f p ^ 2)) in H by (intros; apply pow2_abs).
  rewrite (total_map_ext (fun p => Rabs (g p) ^ 2) (fun p => g p ^ 2)) in H by (intros; apply pow2_abs).
  rewrite (total_map_ext (fun p => Rabs (f p * g p)) (fun p => Rabs (f p) * Rabs (g p))) by (intros; apply Rabs_mult).
  set (T := total (map (fun p => Rabs (f p) * Rabs (g p)) ps)) in *.
  assert (P : 0 <= T) by (apply total_nonneg; intros; apply Rmult_le_pos; apply Rabs_pos).
  rewrite <- (sqrt_pow2 T P). apply sqrt_le_1_alt. exact H.
Qed.
Lemma about2 u v A B : A <> [] -> length A = length B ->
  total (map (fun p => (fst p - u) * (snd p - v)) (combine A B)) / count A = covariance A B + (u - mean A) * (v - mean B).
Proof.
  intros N L. pose proof (count_pos A N) as P. assert (NB : B <> []) by (destruct A; [contradiction|destruct B; discriminate]). unfold covariance.
  assert (E : total (map (fun p => (fst p - u) * (snd p - v)) (combine A B)) =
    total (map (fun p => (fst p - mean A) * (snd p - mean B)) (combine A B)) + count A * ((u - mean A) * (v - mean B))).
  { rewrite (total_map_ext (fun p => (fst p - u) * (snd p - v)) (fun p => (((fst p - mean A) * (snd p - mean B) + (mean B - v) * (fst p - mean A)) +
      (mean A - u) * (snd p - mean B)) + (u - mean A) * (v - mean B))) by (intros; ring).
    rewrite !total_map_add, !total_map_scale, total_map_const. rewrite (over_fst (fun x => x - mean A)), (over_snd (fun x => x - mean B)), !total_dev by assumption.
    assert (C : INR (length (combine A B)) = count A) by (unfold count; rewrite combine_length, <- L, Nat.min_id; reflexivity). rewrite C. ring. }
  rewrite E. field. lra.
Qed.
Lemma cs_about u v A B : A <> [] -> length A = length B ->
  total (map (fun p => Rabs ((fst p - u) * (snd p - v))) (combine A B)) / count A <=
  sqrt ((variance A + (u - mean A) ^ 2) * (variance B + (v - mean B) ^ 2)).
Proof.
  intros N L. pose proof (count_pos A N) as P. assert (NB : B <> []) by (destruct A; [contradiction|destruct B; discriminate]).
  assert (CB : count B = count A) by (unfold count; rewrite L; reflexivity).
  pose proof (cs_abs (fun p => fst p - u) (fun p => snd p - v) (combine A B)) as H. cbv beta in H.
  rewrite (over_fst (fun x => (x - u) ^ 2)), (over_snd (fun x => (x - v) ^ 2)) in H by assumption.
  rewrite <- (about u A N), <- (about v B NB), CB.
  set (SA := total (map (fun x => (x - u) ^ 2) A)) in *. set (SB := total (map (fun x => (x - v) ^ 2) B)) in *.
  assert (0 <= SA) by (apply total_nonneg; intros; apply pow2_ge_0). assert (0 <= SB) by (apply total_nonneg; intros; apply pow2_ge_0).
  replace (SA / count A * (SB / count A)) with ((SA * SB) / (count A) ^ 2) by (field; lra).
  rewrite sqrt_div by (try (apply Rmult_le_pos; assumption); nra). rewrite sqrt_pow2 by lra.
  unfold Rdiv. apply Rmult_le_compat_r; [left; apply Rinv_0_lt_compat; exact P|exact H].
Qed.
Lemma total_scale_abs {T} (f : T -> R) n l : 0 < n -> total (map (fun p => Rabs (f p / n)) l) = total (map (fun p => Rabs (f p)) l) / n.
Proof.
  intros N. unfold Rdiv. rewrite Rmult_comm. rewrite <- total_map_scale. apply total_map_ext. intros x _. rewrite Rabs_mult, (Rabs_pos_eq (/ n)); [ring|].
  left. apply Rinv_0_lt_compat. exact N.
Qed.
Lemma total_div {T} (f : T -> R) n l : total (map (fun p => f p / n) l) = total (map f l) / n.
Proof. unfold Rdiv. rewrite Rmult_comm. rewrite <- total_map_scale. apply total_map_ext. intros x _. ring. Qed.
Lemma in_comb (P : R -> Prop) (Q : R -> Prop) A : forall B, Forall P A -> Forall Q B -> forall p, In p (combine A B) -> P (fst p) /\ Q (snd p).
Proof.
  induction A as [|x A IH]; intros [|y B] FA FB p I; try destruct I as [].
  - inversion FA; inversion FB; subst; cbn [fst snd]; auto.
  - inversion FA; inversion FB; subst. apply (IH B); assumption.
Qed.
Definition Gsum (A B : list R) : R := total (map (fun p => Rabs ((fst p - avgR A) * (snd p - avgR B))) (combine A B)) / count A.
Lemma cov_raw A B : A <> [] -> length A = length B -> Forall fm A -> Forall fm B -> (Z.of_nat (length A) <= 2 ^ 20)%Z ->
  Rabs (covR A B - (covariance A B + (avgR A - mean A) * (avgR B - mean B))) <= (count A + 4) / IZR (2 ^ 52) * Gsum A B + bpow radix2 (-900).
Proof.
  intros N L FA FB Z. pose proof (nR_pos A N) as P. pose proof (nR_le A Z) as P2. change (bpow radix2 20) with 1048576 in P2.
  pose proof (covL_err (nR A) (avgR A) (avgR B) A B 0 (generic_format_0 _ _)) as H. cbv zeta in H. fold (covR A B) in H.
  rewrite Rplus_0_l, Rabs_R0, Rplus_0_l in H.
  set (t := fun p : R * R => termR (nR A) (avgR A) (avgR B) (fst p) (snd p)) in *.
  set (g := fun p : R * R => (fst p - avgR A) * (snd p - avgR B) / nR A).
  assert (TE : forall p, In p (combine A B) -> Rabs (t p - g p) <= 6 * / 9007199254740992 * Rabs (g p) + 3 * bpow radix2 (-1000)).
  { intros p I. destruct (in_comb fm fm A B FA FB p I). apply term_err; [exact P|apply fm_rnd|apply fm_rnd|assumption|assumption]. }
  assert (LC : INR (length (combine A B)) = nR A) by (rewrite nR_count; unfold count; rewrite combine_length, <- L, Nat.min_id; reflexivity).
  assert (EG : total (map (fun p => Rabs (g p)) (combine A B)) = Gsum A B).
  { unfold g, Gsum. rewrite <- nR_count. apply (total_scale_abs (fun p => (fst p - avgR A) * (snd p - avgR B))). lra. }
  assert (ES : total (map g (combine A B)) = covariance A B + (avgR A - mean A) * (avgR B - mean B)).
  { rewrite <- (about2 (avgR A) (avgR B) A B N L), <- nR_count. apply total_div. }
  pose proof (total_diff t g _ _ TE) as D. rewrite total_map_add, total_map_scale, total_map_const, LC, EG, ES in D.
  assert (AB : total (map (fun p => Rabs (t p)) (combine A B)) <= (1 + 6 * / 9007199254740992) * Gsum A B + 3 * nR A * bpow radix2 (-1000)).
  { eapply Rle_trans; [apply (total_le _ (fun p => (1 + 6 * / 9007199254740992) * Rabs (g p) + 3 * bpow radix2 (-1000)))|].
    - intros p I. specialize (TE p I). pose proof (Rabs_triang (g p) (t p - g p)) as R'. replace (g p + (t p - g p)) with (t p) in R' by ring. lra.
    - rewrite total_map_add, total_map_scale, total_map_const, LC, EG. lra. }
  assert (GP : 0 <= Gsum A B). { rewrite <- EG. apply total_nonneg. intros. apply Rabs_pos. }
  pose proof (pow_lin (length A) Z) as PL. fold (count A) in PL. rewrite <- nR_count in PL. pose proof (pow_ge1 (length A)) as PG.
  set (k := (1 + / 9007199254740992) ^ length A) in *.
  set (W := total (map (fun p => Rabs (t p)) (combine A B))) in *. assert (W0 : 0 <= W) by (apply total_nonneg; intros; apply Rabs_pos).
  fold t in H. pose proof tiny as Ti.
  assert (E9 : 1073741824 * bpow radix2 (-1000) <= bpow radix2 (-900)).
  { change 1073741824 with (bpow radix2 30). rewrite <- bpow_plus. apply bpow_le. lia. }
  assert (K1 : (k - 1) * W <= 2 * nR A * / 9007199254740992 * W) by (apply Rmult_le_compat_r; [exact W0|lra]).
  assert (K2 : 2 * nR A * / 9007199254740992 * W <= 2 * nR A * / 9007199254740992 * ((1 + 6 * / 9007199254740992) * Gsum A B + 3 * nR A * bpow radix2 (-1000))).
  { apply Rmult_le_compat_l; [|exact AB]. lra. }
  set (S := covariance A B + (avgR A - mean A) * (avgR B - mean B)) in *. set (T := total (map t (combine A B))) in *.
  assert (H' : Rabs (covR A B - T) <= (k - 1) * W) by exact H.
  pose proof (Rabs_triang (covR A B - T) (T - S)) as R'. replace (covR A B - T + (T - S)) with (covR A B - S) in R' by ring.
  rewrite <- nR_count. change (IZR (2 ^ 52)) with 4503599627370496. set (G := Gsum A B) in *. set (n := nR A) in *. set (d := bpow radix2 (-1000)) in *.
  assert (K3 : 2 * n * / 9007199254740992 * ((1 + 6 * / 9007199254740992) * G + 3 * n * d) <= 2 * n * / 9007199254740992 * G + / 9007199254740992 * G + d).
  { assert (n * G <= 1048576 * G) by (apply Rmult_le_compat_r; lra). assert (n * n <= 1048576 * 1048576) by (apply Rmult_le_compat; lra).
    assert (n * n * d <= 1048576 * 1048576 * d) by (apply Rmult_le_compat_r; lra). lra. }
  assert (K4 : n * d <= 1048576 * d) by (apply Rmult_le_compat_r; lra).
  unfold Rdiv. lra.
Qed.
Lemma sqrt_mono2 a b c d : 0 <= a <= c -> 0 <= b <= d -> sqrt (a * b) <= sqrt (c * d).
Proof. intros A B. apply sqrt_le_1_alt. apply Rmult_le_compat; lra. Qed.
Lemma cov_close A B : A <> [] -> length A = length B -> Forall fm A -> Forall fm B -> (Z.of_nat (length A) <= 2 ^ 20)%Z ->
  Rabs (covR A B - covariance A B) <=
    (count A + 4) / IZR (2 ^ 52) * sqrt ((variance A + noise A) * (variance B + noise B)) + sqrt (noise A * noise B) + bpow radix2 (-900).
Proof.
  intros N L FA FB Z. assert (NB : B <> []) by (destruct A; [contradiction|destruct B; discriminate]).
  pose proof (cov_raw A B N L FA FB Z) as H. pose proof (cs_about (avgR A) (avgR B) A B N L) as C. fold (Gsum A B) in C.
  pose proof (noise_dev A N) as DA. pose proof (noise_dev B NB) as DB. pose proof (variance_nonneg A N) as VA. pose proof (variance_nonneg B NB) as VB.
  pose proof (pow2_ge_0 (avgR A - mean A)) as QA. pose proof (pow2_ge_0 (avgR B - mean B)) as QB.
  assert (C2 : Gsum A B <= sqrt ((variance A + noise A) * (variance B + noise B))) by (eapply Rle_trans; [exact C|]; apply sqrt_mono2; lra).
  assert (D : Rabs ((avgR A - mean A) * (avgR B - mean B)) <= sqrt (noise A * noise B)).
  { rewrite <- (sqrt_pow2 (Rabs ((avgR A - mean A) * (avgR B - mean B)))) by apply Rabs_pos. rewrite pow2_abs. rewrite Rpow_mult_distr. apply sqrt_mono2; lra. }
  assert (K : 0 <= (count A + 4) / IZR (2 ^ 52)).
  { pose proof (count_pos A N). apply Rmult_le_pos; [lra|]. left. apply Rinv_0_lt_compat. apply IZR_lt. reflexivity. }
  pose proof (Rmult_le_compat_l _ _ _ K C2) as M. set (e := (avgR A - mean A) * (avgR B - mean B)) in *.
  pose proof (Rabs_triang (covR A B - (covariance A B + e)) e) as T. replace (covR A B - (covariance A B + e) + e) with (covR A B - covariance A B) in T by ring. lra.
Qed.

(** ** The correlation *)
Lemma var_up L : L <> [] -> Forall fm L -> bpow radix2 (-500) <= varR L ->
  variance L + (avgR L - mean L) ^ 2 <= (1 + 10 * / 9007199254740992) * varR L.
Proof.
  intros N F V. pose proof (var_err L N F) as H. set (M := variance L + (avgR L - mean L) ^ 2) in *. apply Rabs_le_inv in H.
  assert (E : 1208925819614629174706176 * bpow radix2 (-1000) <= bpow radix2 (-500)).
  { change 1208925819614629174706176 with (bpow radix2 80). rewrite <- bpow_plus. apply bpow_le. lia. }
  pose proof tiny. lra.
Qed.
Lemma std_dn v : bpow radix2 (-500) <= v -> (1 - 2 * / 9007199254740992) * sqrt v <= rnd (sqrt v).
Proof.
  intros V. assert (V0 : 0 <= v) by (pose proof (bpow_gt_0 radix2 (-500)); lra). pose proof (std_close v V0) as H. apply Rabs_le_inv in H. change (IZR (2 ^ 53)) with 9007199254740992 in H.
  assert (L : bpow radix2 (-250) <= sqrt v).
  { rewrite <- (sqrt_square (bpow radix2 (-250))) by apply bpow_ge_0. apply sqrt_le_1_alt. rewrite <- bpow_plus. exact V. }
  assert (E : 1208925819614629174706176 * bpow radix2 (-1000) <= bpow radix2 (-250)).
  { change 1208925819614629174706176 with (bpow radix2 80). rewrite <- bpow_plus. apply bpow_le. lia. }
  pose proof tiny. unfold Rdiv in H. lra.
Qed.
Lemma corr_close A B : A <> [] -> length A = length B -> Forall fm A -> Forall fm B -> (Z.of_nat (length A) <= 2 ^ 20)%Z ->
  bpow radix2 (-500) <= varR A -> bpow radix2 (-500) <= varR B -> Rabs (corrR A B) <= 1 + (count A + 16) / IZR (2 ^ 52).
Proof.
  intros N L FA FB Z VA VB. assert (NB : B <> []) by (destruct A; [contradiction|destruct B; discriminate]).
  pose proof (nR_pos A N) as P. pose proof (nR_le A Z) as P2. change (bpow radix2 20) with 1048576 in P2. rewrite nR_count in P, P2.
  pose proof (bpow_gt_0 radix2 (-500)) as B5.
  pose proof (cov_raw A B N L FA FB Z) as H. pose proof (cs_about (avgR A) (avgR B) A B N L) as C. fold (Gsum A B) in C.
  pose proof (about2 (avgR A) (avgR B) A B N L) as E2.
  assert (G0 : Rabs (covariance A B + (avgR A - mean A) * (avgR B - mean B)) <= Gsum A B).
  { rewrite <- E2. unfold Gsum, Rdiv. rewrite Rabs_mult, (Rabs_pos_eq (/ count A)) by (left; apply Rinv_0_lt_compat; lra).
    apply Rmult_le_compat_r; [left; apply Rinv_0_lt_compat; lra|].
    pose proof (total_diff (fun p => (fst p - avgR A) * (snd p - avgR B)) (fun _ => 0) (fun p => Rabs ((fst p - avgR A) * (snd p - avgR B))) (combine A B)) as TD.
    rewrite total_map_const, Rmult_0_r, Rminus_0_r in TD. apply TD. intros p _. rewrite Rminus_0_r. lra. }
  set (e := covariance A B + (avgR A - mean A) * (avgR B - mean B)) in *.
  pose proof (variance_nonneg A N) as VA0. pose proof (variance_nonneg B NB) as VB0.
  pose proof (pow2_ge_0 (avgR A - mean A)) as QA. pose proof (pow2_ge_0 (avgR B - mean B)) as QB.
  pose proof (var_up A N FA VA) as UA. pose proof (var_up B NB FB VB) as UB.
  set (S := sqrt (varR A) * sqrt (varR B)).
  assert (GS : Gsum A B <= (1 + 10 * / 9007199254740992) * S).
  { eapply Rle_trans; [exact C|]. replace ((1 + 10 * / 9007199254740992) * S) with (sqrt (((1 + 10 * / 9007199254740992) * varR A) * ((1 + 10 * / 9007199254740992) * varR B))).
    - apply sqrt_mono2; lra.
    - replace (((1 + 10 * / 9007199254740992) * varR A) * ((1 + 10 * / 9007199254740992) * varR B)) with ((1 + 10 * / 9007199254740992) ^ 2 * (varR A * varR B)) by ring.
      rewrite sqrt_mult by (try apply pow2_ge_0; apply Rmult_le_pos; lra). rewrite sqrt_pow2 by lra. unfold S. rewrite sqrt_mult by lra. reflexivity. }
  assert (SL : bpow radix2 (-500) <= S).
  { unfold S. change (-500)%Z with (-250 + -250)%Z. rewrite bpow_plus. apply Rmult_le_compat; try apply bpow_ge_0;
      rewrite <- (sqrt_square (bpow radix2 (-250))) by apply bpow_ge_0; apply sqrt_le_1_alt; rewrite <- bpow_plus; assumption. }
  assert (E9 : 1208925819614629174706176 * bpow radix2 (-900) <= bpow radix2 (-500)).
  { change 1208925819614629174706176 with (bpow radix2 80). rewrite <- bpow_plus. apply bpow_le. lia. }
  assert (E10 : bpow radix2 (-1000) <= bpow radix2 (-900)) by (apply bpow_le; lia).
  pose proof (bpow_gt_0 radix2 (-1000)) as E11.
  assert (E12 : 1208925819614629174706176 * bpow radix2 (-500) <= 1). { change 1208925819614629174706176 with (bpow radix2 80). rewrite <- bpow_plus. apply (bpow_le radix2 _ 0). lia. }
  (* the denominator *)
  assert (PD : (1 - 6 * / 9007199254740992) * S <= prodR A B).
  { unfold prodR. pose proof (std_dn _ VA) as DA. pose proof (std_dn _ VB) as DB. fold (stdR A) in DA. fold (stdR B) in DB.
    pose proof (sqrt_pos (varR A)). pose proof (sqrt_pos (varR B)).
    assert (M : (1 - 2 * / 9007199254740992) ^ 2 * S <= stdR A * stdR B).
    { replace ((1 - 2 * / 9007199254740992) ^ 2 * S) with (((1 - 2 * / 9007199254740992) * sqrt (varR A)) * ((1 - 2 * / 9007199254740992) * sqrt (varR B))) by (unfold S; ring).
      apply Rmult_le_compat; try assumption; apply Rmult_le_pos; lra. }
    pose proof (rnd_near (stdR A * stdR B) (stdR A * stdR B)) as RN.
    assert (M0 : 0 <= stdR A * stdR B) by (apply Rmult_le_pos; [pose proof (std_low A N VA)|pose proof (std_low B NB VB)]; pose proof (bpow_gt_0 radix2 (-250)); lra).
    specialize (RN ltac:(rewrite Rabs_pos_eq; lra)). apply Rabs_le_inv in RN. lra. }
  assert (P0 : 0 < prodR A B) by lra.
  set (K := 1 + (count A + 4) / IZR (2 ^ 52)) in *. change (IZR (2 ^ 52)) with 4503599627370496 in *.
  assert (KB : 1 <= K <= 1 + / 1073741824) by (unfold K, Rdiv; lra).
  assert (CU : Rabs (covR A B) <= K * ((1 + 11 * / 9007199254740992) * S)).
  { pose proof (Rabs_triang (covR A B - e) e) as T. replace (covR A B - e + e) with (covR A B) in T by ring.
    assert (K * Gsum A B <= K * ((1 + 10 * / 9007199254740992) * S)) by (apply Rmult_le_compat_l; lra).
    assert (S <= K * S) by (rewrite <- (Rmult_1_l S) at 1; apply Rmult_le_compat_r; lra).
    replace (K * Gsum A B) with (Gsum A B + (count A + 4) / 4503599627370496 * Gsum A B) in * by (unfold K; ring). lra. }
  assert (QU : Rabs (covR A B / prodR A B) <= K * (1 + 18 * / 9007199254740992)).
  { unfold Rdiv. rewrite Rabs_mult, (Rabs_pos_eq (/ prodR A B)) by (left; apply Rinv_0_lt_compat; exact P0).
    apply Rmult_le_reg_r with (prodR A B); [exact P0|]. rewrite Rmult_assoc, Rinv_l by lra. rewrite Rmult_1_r. eapply Rle_trans; [exact CU|].
    rewrite (Rmult_assoc K). apply Rmult_le_compat_l; [lra|].
    apply Rle_trans with ((1 + 18 * / 9007199254740992) * ((1 - 6 * / 9007199254740992) * S)); [|apply Rmult_le_compat_l; lra].
    rewrite <- Rmult_assoc. apply Rmult_le_compat_r; lra. }
  unfold corrR. pose proof (rnd_near _ _ QU) as RN. set (q := covR A B / prodR A B) in *.
  pose proof (Rabs_triang q (rnd q - q)) as T. replace (q + (rnd q - q)) with (rnd q) in T by ring.
  replace (1 + (count A + 16) / 4503599627370496) with (K + 24 * / 9007199254740992) by (unfold K, Rdiv; lra). lra.
Qed.
