(** The Gini coefficients of doubles: how far they are from the exact one. *)
From Coq Require Import ZArith Reals Lia Lra List SpecFloat Permutation.
From Flocq Require Import Core IEEE754.BinarySingleNaN.
From Flocq Require Import Relative.
From Verif Require Import Num FloatLib RasterAA GridFloat StatsModel StatsSpec StatsReal StatsFloatModel StatsFloatSpec StatsFloatLib StatsFloatCalls StatsFloat.
Import ListNotations.
Open Scope R_scope.

Notation uu := (/ 9007199254740992) (only parsing).
(** ** Multiples of the least double are rounded with a relative error *)
Definition units (r : R) : Prop := exists k, r = IZR k * bpow radix2 (-1074).
Lemma units_fm r : fm r -> units r.
Proof.
  intros F. apply (FLT_format_generic radix2 (-1074) 53) in F. destruct F as [[m e] Q _ E]. cbn [Fnum Fexp] in *.
  exists (m * 2 ^ (e + 1074))%Z. rewrite Q. unfold F2R. cbn [Fnum Fexp]. rewrite mult_IZR, (IZR_Zpower radix2) by lia.
  rewrite Rmult_assoc, <- bpow_plus. do 2 f_equal. lia.
Qed.
Lemma units_rnd r : units (rnd r). Proof. apply units_fm. apply fm_rnd. Qed.
Lemma units_plus a b : units a -> units b -> units (a + b).
Proof. intros [k ->] [j ->]. exists (k + j)%Z. rewrite plus_IZR. ring. Qed.
Lemma units_opp a : units a -> units (- a).
Proof. intros [k ->]. exists (- k)%Z. rewrite opp_IZR. ring. Qed.
Lemma units_int i a : units a -> units (IZR i * a).
Proof. intros [k ->]. exists (i * k)%Z. rewrite mult_IZR. ring. Qed.
Lemma units_abs a : units a -> units (Rabs a).
Proof. intros U. unfold Rabs. destruct (Rcase_abs a); [apply units_opp|]; exact U. Qed.
Lemma units_total' L : Forall fm L -> units (total L).
Proof. induction 1; cbn [total fold_right]; [exists 0%Z; ring|]. apply units_plus; [apply units_fm; assumption|exact IHForall]. Qed.
Lemma units_rel r : units r -> Rabs (rnd r - r) <= Rabs r * uu.
Proof.
  intros [k Q]. destruct (Rlt_or_le (Rabs r) (bpow radix2 (-1022))) as [S|S].
  - assert (F : generic_format radix2 fexp64 r).
    { apply (generic_format_FLT radix2 (-1074) 53). exists (Float radix2 k (-1074)); cbn [Fnum Fexp]; [exact Q| |lia].
      apply lt_IZR. rewrite abs_IZR. rewrite Q in S. rewrite Rabs_mult, (Rabs_pos_eq (bpow radix2 (-1074))) in S by apply bpow_ge_0.
      replace (bpow radix2 (-1022)) with (bpow radix2 52 * bpow radix2 (-1074)) in S by (rewrite <- bpow_plus; reflexivity).
      apply Rmult_lt_reg_r in S; [|apply bpow_gt_0]. eapply Rlt_trans; [exact S|]. change (IZR (radix2 ^ 53)) with (bpow radix2 53). apply bpow_lt. lia. }
    assert (E : rnd r = r) by (apply round_generic; [apply valid_rnd_N|exact F]). rewrite E.
    rewrite Rminus_diag_eq, Rabs_R0 by reflexivity. pose proof (Rabs_pos r). lra.
  - pose proof (relative_error_N_FLT radix2 (-1074) 53 ltac:(reflexivity) (fun z => negb (Z.even z)) r S) as H.
    change (bpow radix2 (- (53) + 1)) with (/ 4503599627370496) in H. unfold rnd. change (round radix2 fexp64) with (round radix2 (FLT_exp (-1074) 53)).
    eapply Rle_trans; [exact H|]. lra.
Qed.

(** ** Bands *)
Definition band (m : nat) (C c : R) : Prop := (1 - uu) ^ m * C <= c <= (1 + uu) ^ m * C.
Lemma band_rnd m C c : 0 <= C -> units c -> band m C c -> band (S m) C (rnd c).
Proof.
  intros P U [B1 B2]. assert (P1 : 0 <= (1 - uu) ^ m) by (apply pow_le; lra). assert (P2 : 0 <= (1 + uu) ^ m) by (apply pow_le; lra).
  assert (P0 : 0 <= (1 - uu) ^ m * C) by (apply Rmult_le_pos; assumption).
  pose proof (units_rel c U) as H. rewrite (Rabs_pos_eq c) in H by lra. apply Rabs_le_inv in H. unfold band. cbn [pow].
  rewrite !Rmult_assoc. split; [apply Rle_trans with ((1 - uu) * c); [apply Rmult_le_compat_l; lra|lra]|apply Rle_trans with ((1 + uu) * c); [lra|apply Rmult_le_compat_l; lra]].
Qed.
Lemma band_plus m C c D d : band m C c -> band m D d -> band m (C + D) (c + d).
Proof. unfold band. rewrite !Rmult_plus_distr_l. lra. Qed.
Lemma band_scale m C c k : 0 <= k -> band m C c -> band m (k * C) (k * c).
Proof.
  intros K [B1 B2]. split.
  - replace ((1 - uu) ^ m * (k * C)) with (k * ((1 - uu) ^ m * C)) by ring. apply Rmult_le_compat_l; assumption.
  - replace ((1 + uu) ^ m * (k * C)) with (k * ((1 + uu) ^ m * C)) by ring. apply Rmult_le_compat_l; assumption.
Qed.
Lemma band_more m k C c : 0 <= C -> band m C c -> band (k + m) C c.
Proof.
  intros P B. induction k as [|k [IH1 IH2]]; [exact B|]. cbn [Nat.add]. unfold band. cbn [pow].
  assert (P1 : 0 <= (1 - uu) ^ (k + m)) by (apply pow_le; lra). assert (P2 : 0 <= (1 + uu) ^ (k + m)) by (apply pow_le; lra).
  pose proof (Rmult_le_pos _ _ P1 P). pose proof (Rmult_le_pos _ _ P2 P). rewrite !Rmult_assoc. split; lra.
Qed.
Lemma band_0 m : band m 0 0. Proof. unfold band. lra. Qed.
Lemma band_exact C : band 0 C C. Proof. unfold band. cbn [pow]. lra. Qed.
Lemma pow_up m : INR m * uu <= / 2 -> (1 + uu) ^ m <= 1 + INR m * (2 * uu).
Proof.
  induction m as [|m IH]; intros H; [cbn; lra|]. rewrite S_INR in *. cbn [pow]. specialize (IH ltac:(pose proof (pos_INR m); lra)).
  pose proof (pos_INR m). apply Rle_trans with ((1 + uu) * (1 + INR m * (2 * uu))); [apply Rmult_le_compat_l; lra|].
  assert (INR m * uu * uu <= / 2 * uu) by (apply Rmult_le_compat_r; lra). lra.
Qed.
Lemma pow_low m : 1 - INR m * uu <= (1 - uu) ^ m.
Proof.
  induction m as [|m IH]; [cbn; lra|]. rewrite S_INR. cbn [pow]. pose proof (pos_INR m).
  apply Rle_trans with ((1 - uu) * (1 - INR m * uu)); [|apply Rmult_le_compat_l; lra].
  assert (0 <= INR m * uu * uu) by (apply Rmult_le_pos; [apply Rmult_le_pos|]; lra). lra.
Qed.
Lemma band_near m C c : 0 <= C -> INR m * uu <= / 2 -> band m C c -> exists a, Rabs a <= INR m * (2 * uu) /\ c = C * (1 + a).
Proof.
  intros P M [B1 B2]. pose proof (pow_up m M) as H1. pose proof (pow_low m) as H2. pose proof (pos_INR m) as H3.
  apply (Rmult_le_compat_r C) in H1; [|exact P]. apply (Rmult_le_compat_r C) in H2; [|exact P].
  destruct (Req_dec C 0) as [->|N].
  - exists 0. rewrite Rabs_R0. split; [|rewrite !Rmult_0_r in *; lra]. apply Rmult_le_pos; lra.
  - exists (c / C - 1). split; [|field; exact N]. assert (Pc : 0 < C) by lra.
    replace (c / C - 1) with ((c - C) * / C) by (field; exact N). rewrite Rabs_mult, (Rabs_pos_eq (/ C)) by (left; apply Rinv_0_lt_compat; exact Pc).
    apply Rmult_le_reg_r with C; [exact Pc|]. rewrite Rmult_assoc, Rinv_l, Rmult_1_r by exact N. apply Rabs_le.
    assert (0 <= INR m * uu * C) by (apply Rmult_le_pos; [apply Rmult_le_pos|]; lra). lra.
Qed.

(** ** The sums *)
Lemma total_map_pos' {A} (f : A -> R) l : (forall x, 0 <= f x) -> 0 <= total (map f l).
Proof. intros P. induction l; cbn [map total fold_right]; [lra|]. unfold total in IHl. specialize (P a). lra. Qed.
Lemma row_band x L : fm x -> Forall fm L -> forall m S s, (1 <= m)%nat -> 0 <= S -> fm s -> band m S s ->
  band (length L + m) (S + total (map (fun y => Rabs (x - y)) L)) (fold_left (fun s y => rnd (s + Rabs (rnd (x - y)))) L s) /\
  fm (fold_left (fun s y => rnd (s + Rabs (rnd (x - y)))) L s).
Proof.
  intros X. induction 1 as [|y L Y _ IH]; intros m S s M P Fs B; cbn [fold_left length map Nat.add].
  - cbn [total fold_right]. rewrite Rplus_0_r. auto.
  - assert (B1 : band 1 (Rabs (x - y)) (Rabs (rnd (x - y)))).
    { destruct (rel_sub x y X Y) as (e & E & ->). rewrite Rabs_mult. apply Rabs_le_inv in E. rewrite (Rabs_pos_eq (1 + e)) by lra.
      pose proof (Rabs_pos (x - y)) as Q. unfold band. cbn [pow]. rewrite !Rmult_1_r. rewrite !(Rmult_comm _ (Rabs (x - y))). split; apply Rmult_le_compat_l; lra. }
    assert (Bm : band m (Rabs (x - y)) (Rabs (rnd (x - y)))).
    { replace m with ((m - 1) + 1)%nat by lia. apply band_more; [apply Rabs_pos|exact B1]. }
    assert (BN : band (Datatypes.S m) (S + Rabs (x - y)) (rnd (s + Rabs (rnd (x - y))))).
    { apply band_rnd; [pose proof (Rabs_pos (x - y)); lra| |apply band_plus; assumption].
      apply units_plus; [apply units_fm; exact Fs|apply units_abs; apply units_rnd]. }
    assert (PN : 0 <= S + Rabs (x - y)) by (pose proof (Rabs_pos (x - y)); lra).
    destruct (IH (Datatypes.S m) _ _ ltac:(lia) PN (fm_rnd _) BN) as [R1 R2].
    rewrite total_cons, <- Rplus_assoc. replace (Datatypes.S (length L + m)) with (length L + Datatypes.S m)%nat by lia. auto.
Qed.
Lemma kak_band L : Forall fm L -> forall m S s, (1 <= m)%nat -> 0 <= S -> fm s -> band m S s ->
  band (length (pairs L) + m) (S + spread L) (kakL L s) /\ fm (kakL L s).
Proof.
  induction 1 as [|x L X F IH]; intros m S s M P Fs B; cbn [kakL pairs length].
  - unfold spread. cbn. rewrite Rplus_0_r. auto.
  - destruct (row_band x L X F m S s M P Fs B) as [B1 F1].
    assert (Q : 0 <= total (map (fun y => Rabs (x - y)) L)) by (apply total_map_pos'; intros; apply Rabs_pos).
    assert (PN : 0 <= S + total (map (fun y => Rabs (x - y)) L)) by lra.
    destruct (IH (length L + m)%nat _ _ ltac:(lia) PN F1 B1) as [B2 F2].
    rewrite spread_cons, <- Rplus_assoc, app_length, map_length. replace (length L + length (pairs L) + m)%nat with (length (pairs L) + (length L + m))%nat by lia. auto.
Qed.
Lemma pairs_length {A} (l : list A) : (2 * length (pairs l) + length l = length l * length l)%nat.
Proof. induction l as [|x l IH]; [reflexivity|]. cbn [pairs length]. rewrite app_length, map_length. nia. Qed.
Lemma pairs_INR L : INR (length (pairs L)) = count L * (count L - 1) / 2.
Proof.
  pose proof (pairs_length L) as H. apply (f_equal INR) in H. rewrite plus_INR, !mult_INR in H. cbn [INR] in H. unfold count. lra.
Qed.
Lemma dea_band L : Forall fm L -> Forall (fun x => 0 <= x) L -> forall i m S s, (0 <= i)%Z -> (1 <= m)%nat -> 0 <= S -> fm s -> band m S s ->
  band (length L + m) (S + weighted i L) (deaL i L s) /\ fm (deaL i L s).
Proof.
  induction 1 as [|x L X F IH]; intros T i m S s I0 M P Fs B; cbn [deaL length weighted].
  - rewrite Rplus_0_r. auto.
  - inversion T; subst. assert (Pi : 0 <= IZR i) by (apply IZR_le; exact I0). assert (Q : 0 <= IZR i * x) by (apply Rmult_le_pos; assumption).
    assert (B1 : band 1 (IZR i * x) (rnd (IZR i * x))) by (apply (band_rnd 0); [exact Q|apply units_int; apply units_fm; exact X|apply band_exact]).
    assert (Bm : band m (IZR i * x) (rnd (IZR i * x))) by (replace m with ((m - 1) + 1)%nat by lia; apply band_more; assumption).
    assert (BN : band (Datatypes.S m) (S + IZR i * x) (rnd (s + rnd (IZR i * x)))).
    { apply band_rnd; [lra|apply units_plus; [apply units_fm; exact Fs|apply units_rnd]|apply band_plus; assumption]. }
    assert (PN : 0 <= S + IZR i * x) by lra.
    destruct (IH ltac:(assumption) (i + 1)%Z (Datatypes.S m) _ _ ltac:(lia) ltac:(lia) PN (fm_rnd _) BN) as [R1 R2].
    rewrite <- Rplus_assoc. replace (Datatypes.S (length L) + m)%nat with (length L + Datatypes.S m)%nat by lia. auto.
Qed.

(** ** Quotients *)
Lemma factor e1 e2 b : Rabs e1 <= uu -> Rabs e2 <= uu -> Rabs b <= 6 * uu -> 0 < 1 + b /\ Rabs ((1 + e1) * (1 + e2) / (1 + b) - 1) <= 9 * uu.
Proof.
  intros E1 E2 B. pose proof (Rabs_le_inv _ _ B) as B'. assert (P : 0 < 1 + b) by lra. split; [exact P|].
  replace ((1 + e1) * (1 + e2) / (1 + b) - 1) with ((e1 + e2 + e1 * e2 - b) * / (1 + b)) by (field; lra).
  rewrite Rabs_mult, (Rabs_pos_eq (/ (1 + b))) by (left; apply Rinv_0_lt_compat; exact P).
  assert (H1 : Rabs (e1 + e2 + e1 * e2 - b) <= 85 / 10 * uu).
  { assert (H : Rabs (e1 * e2) <= uu * uu) by (rewrite Rabs_mult; apply Rmult_le_compat; try apply Rabs_pos; assumption).
    apply Rabs_le. apply Rabs_le_inv in H. apply Rabs_le_inv in E1. apply Rabs_le_inv in E2. lra. }
  assert (H2 : / (1 + b) <= 101 / 100).
  { apply Rmult_le_reg_l with (1 + b); [exact P|]. rewrite Rinv_r by lra. lra. }
  assert (0 < / (1 + b)) by (apply Rinv_0_lt_compat; exact P).
  apply Rle_trans with (85 / 10 * uu * (101 / 100)); [apply Rmult_le_compat; try lra; apply Rabs_pos|lra].
Qed.
Lemma factor2 a t e : Rabs a <= e -> e <= / 10 -> Rabs (t - 1) <= 9 * uu -> Rabs ((1 + a) * t - 1) <= e + 12 * uu.
Proof.
  intros A E T. replace ((1 + a) * t - 1) with (a + (1 + a) * (t - 1)) by ring. eapply Rle_trans; [apply Rabs_triang|].
  rewrite Rabs_mult. assert (H : Rabs (1 + a) <= 11 / 10) by (apply Rabs_le; apply Rabs_le_inv in A; lra).
  assert (Rabs (1 + a) * Rabs (t - 1) <= 11 / 10 * (9 * uu)) by (apply Rmult_le_compat; try apply Rabs_pos; assumption). lra.
Qed.
(** A rounded numerator over a rounded denominator, with two more roundings. *)
Lemma quotient2 x y A B n a b e : 0 <= x -> 0 < y -> 1 <= n -> A = x * (1 + a) -> B = y * (1 + b) -> Rabs a <= e -> e <= / 10 -> Rabs b <= 6 * uu ->
  bpow radix2 (-499) <= B -> Rabs (rnd (rnd (A / n) / B) - x / n / y) <= x / n / y * (e + 12 * uu) + bpow radix2 (-500).
Proof.
  intros X Y N EA EB Ha He Hb LB. destruct (rnd_rel (A / n)) as (e1 & d1 & E1 & D1 & ->). destruct (rnd_rel ((A / n * (1 + e1) + d1) / B)) as (e2 & d2 & E2 & D2 & ->).
  destruct (factor e1 e2 b E1 E2 Hb) as [P F]. set (t := (1 + e1) * (1 + e2) / (1 + b)) in *. pose proof (bpow_gt_0 radix2 (-499)) as P499. set (G := x / n / y).
  assert (PG : 0 <= G). { unfold G, Rdiv. apply Rmult_le_pos; [apply Rmult_le_pos; [exact X|]|]; left; apply Rinv_0_lt_compat; lra. }
  assert (Q : (A / n * (1 + e1) + d1) / B * (1 + e2) + d2 - G = G * ((1 + a) * t - 1) + (d1 / B * (1 + e2) + d2)).
  { unfold G, t. rewrite EA, EB. field. repeat split; lra. }
  rewrite Q. eapply Rle_trans; [apply Rabs_triang|]. apply Rplus_le_compat.
  - rewrite Rabs_mult, (Rabs_pos_eq G) by exact PG. apply Rmult_le_compat_l; [exact PG|]. apply factor2; assumption.
  - assert (IB : 0 < / B <= bpow radix2 499).
    { split; [apply Rinv_0_lt_compat; lra|]. change 499%Z with (- (-499))%Z. rewrite bpow_opp. apply Rinv_le; assumption. }
    assert (H1 : Rabs (d1 / B) <= bpow radix2 (-501)).
    { unfold Rdiv. rewrite Rabs_mult, (Rabs_pos_eq (/ B)) by lra. change (-501)%Z with (-1000 + 499)%Z. rewrite bpow_plus. apply Rmult_le_compat; try lra. apply Rabs_pos. }
    assert (H2 : Rabs (d1 / B * (1 + e2)) <= bpow radix2 (-501) * (11 / 10)).
    { rewrite Rabs_mult. apply Rmult_le_compat; try apply Rabs_pos; [exact H1|]. apply Rabs_le. apply Rabs_le_inv in E2. lra. }
    assert (H3 : bpow radix2 (-1000) <= bpow radix2 (-501) * / 16) by (change (/ 16) with (bpow radix2 (-4)); rewrite <- bpow_plus; apply bpow_le; lia).
    assert (H4 : bpow radix2 (-500) = 2 * bpow radix2 (-501)) by (change 2 with (bpow radix2 1); rewrite <- bpow_plus; reflexivity).
    pose proof (Rabs_triang (d1 / B * (1 + e2)) d2). pose proof (bpow_gt_0 radix2 (-501)). lra.
Qed.
Lemma avg_near L : L <> [] -> bpow radix2 (-499) <= mean L -> exists b, Rabs b <= 4 * uu /\ avgR L = mean L * (1 + b).
Proof.
  intros N M. pose proof (avg_err L N) as E. pose proof (bpow_gt_0 radix2 (-499)) as P. rewrite (Rabs_pos_eq (mean L)) in E by lra.
  exists ((avgR L - mean L) * / mean L). split; [|field; lra]. rewrite Rabs_mult, (Rabs_pos_eq (/ mean L)) by (left; apply Rinv_0_lt_compat; lra).
  apply Rmult_le_reg_r with (mean L); [lra|]. rewrite Rmult_assoc, Rinv_l, Rmult_1_r by lra.
  assert (H : 3 * bpow radix2 (-1000) <= bpow radix2 (-499) * uu).
  { apply Rle_trans with (bpow radix2 2 * bpow radix2 (-1000)); [change (bpow radix2 2) with 4; pose proof (bpow_gt_0 radix2 (-1000)); lra|].
    change uu with (bpow radix2 (-53)). rewrite <- !bpow_plus. apply bpow_le. lia. }
  lra.
Qed.
(** An integer multiple of the average, rounded. *)
Lemma mavg_near L k : L <> [] -> (1 <= k)%Z -> bpow radix2 (-499) <= mean L -> exists b, Rabs b <= 6 * uu /\ rnd (IZR k * avgR L) = IZR k * mean L * (1 + b).
Proof.
  intros N K M. destruct (avg_near L N M) as (b & B & Q). assert (PK : 1 <= IZR k) by (apply IZR_le; exact K). pose proof (bpow_gt_0 radix2 (-499)) as P.
  assert (U : units (IZR k * avgR L)) by (apply units_int; apply units_rnd). pose proof (units_rel _ U) as E. pose proof (Rabs_le_inv _ _ B) as B'.
  assert (PM : 0 < IZR k * mean L) by (apply Rmult_lt_0_compat; lra).
  assert (QQ : IZR k * avgR L = IZR k * mean L * (1 + b)) by (rewrite Q; ring).
  set (r := IZR k * avgR L) in *. set (m := IZR k * mean L) in *. assert (Pr : 0 <= r) by (rewrite QQ; apply Rmult_le_pos; lra). rewrite (Rabs_pos_eq r Pr) in E.
  exists (rnd r / m - 1). split; [|field; lra]. replace (rnd r / m - 1) with ((rnd r - m) * / m) by (field; lra).
  rewrite Rabs_mult, (Rabs_pos_eq (/ m)) by (left; apply Rinv_0_lt_compat; lra). apply Rmult_le_reg_r with m; [exact PM|]. rewrite Rmult_assoc, Rinv_l, Rmult_1_r by lra.
  replace (rnd r - m) with ((rnd r - r) + m * b) by (rewrite QQ; ring). eapply Rle_trans; [apply Rabs_triang|]. rewrite Rabs_mult, (Rabs_pos_eq m) by lra.
  assert (m * Rabs b <= m * (4 * uu)) by (apply Rmult_le_compat_l; lra).
  assert (r <= m * 2) by (rewrite QQ; apply Rmult_le_compat_l; lra). lra.
Qed.
Lemma avg_low L : L <> [] -> bpow radix2 (-499) <= mean L -> bpow radix2 (-500) <= avgR L.
Proof.
  intros N M. destruct (avg_near L N M) as (b & B & ->). apply Rabs_le_inv in B. pose proof (bpow_gt_0 radix2 (-499)) as P.
  replace (bpow radix2 (-500)) with (bpow radix2 (-499) * / 2); [|change (/ 2) with (bpow radix2 (-1)); rewrite <- bpow_plus; reflexivity].
  apply Rmult_le_compat; lra.
Qed.
Lemma fm_0 : fm 0. Proof. apply generic_format_0. Qed.
Lemma spread_pos L : 0 <= spread L.
Proof. unfold spread. apply total_map_pos'. intros; apply Rabs_pos. Qed.
Lemma count_le L : tame L -> count L <= 1048576.
Proof. intros [_ N]. rewrite <- nR_count. apply IZR_le. exact N. Qed.
Lemma ordersR L : IZR (orders L) = count L * (count L - 1). Proof. apply npair. Qed.
Lemma kak_close L : Forall fm L -> tame L -> (2 <= length L)%nat -> bpow radix2 (-499) <= mean L ->
  0 <= kakR L /\ Rabs (kakR L - gini L) <= gini L * ((count L * (count L - 1) / 2 + 8) / IZR (2 ^ 52)) + bpow radix2 (-500).
Proof.
  intros F T N M. pose proof (two_ne L N) as NE. destruct (count_two L N) as [C1 C2]. pose proof (count_le L T) as C3. pose proof (bpow_gt_0 radix2 (-499)) as P.
  destruct (kak_band L F 1%nat 0 0 ltac:(lia) ltac:(lra) fm_0 (band_0 1)) as [B FB]. rewrite Rplus_0_l in B.
  pose proof (spread_pos L) as SP.
  assert (B2 : band (Datatypes.S (length (pairs L) + 1)) (2 * spread L) (rnd (2 * kakL L 0))).
  { apply band_rnd; [lra|apply (units_int 2); apply units_fm; exact FB|apply band_scale; [lra|exact B]]. }
  set (N2 := Datatypes.S (length (pairs L) + 1)) in *.
  assert (HN : INR N2 = count L * (count L - 1) / 2 + 2) by (unfold N2; rewrite S_INR, plus_INR, pairs_INR; cbn [INR]; lra).
  assert (HB : 0 <= count L * (count L - 1) <= 1099511627776).
  { split; [apply Rmult_le_pos; lra|]. apply Rle_trans with (1048576 * 1048576); [apply Rmult_le_compat; lra|lra]. }
  destruct (band_near N2 (2 * spread L) _ ltac:(lra) ltac:(rewrite HN; lra) B2) as (a & A & EA).
  destruct (mavg_near L 2 NE ltac:(lia) M) as (b & Bb & EB).
  assert (LB : bpow radix2 (-499) <= rnd (2 * avgR L)) by (apply twice_avg; apply avg_low; assumption).
  pose proof (quotient2 (2 * spread L) (2 * mean L) _ _ (IZR (orders L)) a b (INR N2 * (2 * uu)) ltac:(lra) ltac:(lra)
    ltac:(destruct (orders_bounds L (proj2 T)) as (_ & _ & O); apply IZR_le; specialize (O N); lia) EA EB A ltac:(rewrite HN; lra) Bb LB) as H.
  fold (kakR L) in H.
  assert (EG : 2 * spread L / IZR (orders L) / (2 * mean L) = gini L).
  { rewrite gini_spread, ordersR. field. lra. }
  rewrite EG in H.
  split.
  - unfold kakR. apply rnd_pos. apply Rmult_le_pos; [apply rnd_pos; apply Rmult_le_pos|left; apply Rinv_0_lt_compat; lra].
    + apply rnd_pos. apply Rmult_le_pos; [lra|]. destruct B as [B1 _]. eapply Rle_trans; [|exact B1]. apply Rmult_le_pos; [apply pow_le; lra|exact SP].
    + left. apply Rinv_0_lt_compat. rewrite ordersR. apply Rmult_lt_0_compat; lra.
  - eapply Rle_trans; [exact H|]. change (IZR (2 ^ 52)) with 4503599627370496.
    replace (INR N2 * (2 * uu) + 12 * uu) with ((count L * (count L - 1) / 2 + 8) / 4503599627370496) by (rewrite HN; field). apply Rle_refl.
Qed.
Lemma kakL_equal x L : Forall (fun y => y = x) L -> kakL L 0 = 0.
Proof.
  induction 1 as [|y L -> F IH]; [reflexivity|]. cbn [kakL]. assert (E : fold_left (fun s y => rnd (s + Rabs (rnd (x - y)))) L 0 = 0).
  { clear IH. induction F as [|y L -> F IH]; [reflexivity|]. cbn [fold_left]. rewrite Rminus_diag_eq by reflexivity.
    assert (Z : rnd 0 = 0) by (apply (rnd_IZR 0); cbn; lia). rewrite Z, Rabs_R0, Rplus_0_r, Z. exact IH. }
  rewrite E. exact IH.
Qed.
Lemma kak_equal x L : Forall (fun y => y = x) L -> kakR L = 0.
Proof.
  intros F. assert (Z : rnd 0 = 0) by (apply (rnd_IZR 0); cbn; lia). unfold kakR. rewrite (kakL_equal x L F), Rmult_0_r, Z. unfold Rdiv. rewrite Rmult_0_l, Z, Rmult_0_l. exact Z.
Qed.

(** ** Deaton's formula *)
Lemma sortedR_perm L : Permutation (sortedR L) L. Proof. apply sort_desc_perm. Qed.
Lemma dea_exact L : (2 <= length L)%nat -> mean L <> 0 ->
  gini L = (count L + 1) / (count L - 1) - 2 * (total L + weighted 0 (sortedR L)) / (IZR (orders L) * mean L).
Proof.
  intros N M. destruct (count_two L N) as [C1 C2]. rewrite gini_spread, ordersR.
  rewrite <- (spread_perm _ _ (sortedR_perm L)). pose proof (spread_desc _ (sort_desc_sorted L)) as SD. fold (sortedR L) in SD. rewrite SD.
  assert (Cs : count (sortedR L) = count L) by (unfold count; rewrite (Permutation_length (sortedR_perm L)); reflexivity).
  rewrite Cs, (total_perm _ _ (sortedR_perm L)), <- (mean_total L) by (apply two_ne; exact N). field. lra.
Qed.
Lemma dea_close L : Forall fm L -> Forall (fun x => 0 <= x) L -> tame L -> (2 <= length L)%nat -> bpow radix2 (-499) <= mean L ->
  Rabs (deaR L - gini L) <= (3 * count L + 40) / IZR (2 ^ 52).
Proof.
  intros F PL T N M. pose proof (two_ne L N) as NE. destruct (count_two L N) as [C1 C2]. pose proof (count_le L T) as C3. pose proof (bpow_gt_0 radix2 (-499)) as P.
  pose proof (total_pos L PL) as TP.
  assert (FS : Forall fm (sortedR L)) by (rewrite Forall_forall in *; intros y J; apply F; apply sorted_in; exact J).
  assert (PS : Forall (fun x => 0 <= x) (sortedR L)) by (rewrite Forall_forall in *; intros y J; apply PL; apply sorted_in; exact J).
  assert (B1 : band 1 (total L) (rnd (total L))) by (apply (band_rnd 0); [exact TP|apply units_total'; exact F|apply band_exact]).
  destruct (dea_band (sortedR L) FS PS 0%Z 1%nat (total L) (rnd (total L)) ltac:(lia) ltac:(lia) TP (fm_rnd _) B1) as [B FB].
  set (S := total L + weighted 0 (sortedR L)) in *. set (D := deaL 0 (sortedR L) (rnd (total L))) in *.
  assert (WP : 0 <= S).
  { assert (G : forall l i, Forall (fun x => 0 <= x) l -> (0 <= i)%Z -> 0 <= weighted i l).
    { induction l as [|x l IH]; intros i H I0; cbn [weighted]; [lra|]. inversion H; subst. apply IZR_le in I0 as I1.
      assert (0 <= IZR i * x) by (apply Rmult_le_pos; assumption). specialize (IH (i + 1)%Z ltac:(assumption) ltac:(lia)). lra. }
    specialize (G (sortedR L) 0%Z PS ltac:(lia)). unfold S. lra. }
  assert (B2 : band (Datatypes.S (length (sortedR L) + 1)) (2 * S) (rnd (2 * D))).
  { apply band_rnd; [lra|apply (units_int 2); apply units_fm; exact FB|apply band_scale; [lra|exact B]]. }
  set (N2 := Datatypes.S (length (sortedR L) + 1)) in *.
  assert (HN : INR N2 = count L + 2) by (unfold N2; rewrite (Permutation_length (sortedR_perm L)), S_INR, plus_INR; unfold count; cbn [INR]; lra).
  destruct (band_near N2 (2 * S) _ ltac:(lra) ltac:(rewrite HN; lra) B2) as (a & A & EA).
  destruct (orders_bounds L (proj2 T)) as (_ & _ & O2). specialize (O2 N).
  destruct (mavg_near L (orders L) NE ltac:(lia) M) as (b & Bb & EB).
  set (Q := rnd (IZR (orders L) * avgR L)) in *.
  assert (LB : bpow radix2 (-499) <= Q) by (apply many_avg; [exact O2|apply avg_low; assumption]).
  assert (O1 : 2 <= IZR (orders L)) by (apply IZR_le; exact O2).
  assert (PM : 0 < IZR (orders L) * mean L) by (apply Rmult_lt_0_compat; lra).
  (* the quotient *)
  set (Bx := 2 * S / (IZR (orders L) * mean L)).
  pose proof (dea_exact L N ltac:(lra)) as EG. fold S in EG. fold Bx in EG.
  assert (GP : 0 <= gini L).
  { rewrite gini_spread. apply Rmult_le_pos; [apply spread_pos|]. left. apply Rinv_0_lt_compat. apply Rmult_lt_0_compat; [apply Rmult_lt_0_compat; lra|lra]. }
  assert (BxP : 0 <= Bx) by (unfold Bx; apply Rmult_le_pos; [lra|left; apply Rinv_0_lt_compat; exact PM]).
  set (Pq := (count L + 1) / (count L - 1)) in *.
  assert (C4 : 2 <= count L) by (unfold count; apply le_INR in N; cbn [INR] in N; exact N).
  assert (P3 : 0 <= Pq <= 3).
  { split; [unfold Pq; apply Rmult_le_pos; [lra|left; apply Rinv_0_lt_compat; lra]|].
    unfold Pq. apply Rmult_le_reg_r with (count L - 1); [lra|]. unfold Rdiv. rewrite Rmult_assoc, Rinv_l by lra. lra. }
  set (e := INR N2 * (2 * uu)) in *. assert (He : 0 <= e <= / 100) by (unfold e; rewrite HN; lra).
  assert (HQ : Rabs (rnd (rnd (2 * D) / Q) - Bx) <= 3 * (e + 12 * uu) + bpow radix2 (-1000)).
  { destruct (rnd_rel (rnd (2 * D) / Q)) as (e1 & d1 & E1 & D1 & ->).
    destruct (factor e1 0 b E1 ltac:(rewrite Rabs_R0; lra) Bb) as [Pb Fb].
    assert (X : rnd (2 * D) / Q * (1 + e1) + d1 - Bx = Bx * ((1 + a) * ((1 + e1) * (1 + 0) / (1 + b)) - 1) + d1).
    { unfold Bx. rewrite EA, EB. field. repeat split; lra. }
    rewrite X. eapply Rle_trans; [apply Rabs_triang|]. apply Rplus_le_compat; [|exact D1]. rewrite Rabs_mult, (Rabs_pos_eq Bx) by exact BxP.
    apply Rmult_le_compat; [exact BxP|apply Rabs_pos|lra|]. apply factor2; [exact A|lra|exact Fb]. }
  assert (HA : Rabs (rnd Pq - Pq) <= 3 * uu + bpow radix2 (-1000)) by (apply rnd_near; rewrite Rabs_pos_eq; lra).
  assert (EP : IZR (Z.of_nat (length L) + 1) / IZR (Z.of_nat (length L) - 1) = Pq) by (rewrite plus_IZR, minus_IZR, ofN; reflexivity).
  unfold deaR. rewrite EP. fold D. fold Q. set (qa := rnd Pq) in *. set (qb := rnd (rnd (2 * D) / Q)) in *.
  destruct (rel_sub qa qb (fm_rnd _) (fm_rnd _)) as (e2 & E2 & ->).
  assert (T3 : bpow radix2 (-1000) <= / 1000 * uu).
  { apply Rle_trans with (bpow radix2 (-70)); [apply bpow_le; lia|]. change (bpow radix2 (-70)) with (/ 1180591620717411303424). lra. }
  pose proof (bpow_gt_0 radix2 (-1000)) as T0.
  apply Rabs_le_inv in HQ. apply Rabs_le_inv in HA.
  assert (H1 : Rabs (qa - qb) <= 4) by (apply Rabs_le; lra).
  assert (H2 : Rabs ((qa - qb) * e2) <= 4 * uu) by (rewrite Rabs_mult; apply Rmult_le_compat; try apply Rabs_pos; assumption).
  replace ((qa - qb) * (1 + e2) - gini L) with ((qa - Pq) - (qb - Bx) + (qa - qb) * e2) by (rewrite EG; ring).
  change (IZR (2 ^ 52)) with 4503599627370496. assert (EE : e = (count L + 2) / 4503599627370496) by (unfold e; rewrite HN; field).
  apply Rabs_le_inv in H2. apply Rabs_le. lra.
Qed.
