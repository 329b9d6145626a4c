(** Rounding to integers, half away from zero, in double arithmetic: every
    case of int(x + copysign(0.5, x)). *)
From Coq Require Import ZArith Reals Lia Lra SpecFloat ZifyBool.
From Flocq Require Import Core IEEE754.BinarySingleNaN.
From Verif Require Import Num FloatLib RasterAA SimplifyModel.
Open Scope R_scope.

Lemma fmt_of m e : (Z.abs m < 2 ^ 53)%Z -> (-1074 <= e)%Z -> generic_format radix2 fexp64 (IZR m * bpow radix2 e).
Proof. intros M E. apply (generic_format_FLT radix2 (-1074) 53). exists (Float radix2 m e); [reflexivity|exact M|exact E]. Qed.
Lemma rnd_fmt r : generic_format radix2 fexp64 r -> rnd r = r.
Proof. intros F. apply round_generic; [apply valid_rnd_N|exact F]. Qed.
Lemma fmt_at r k : generic_format radix2 fexp64 r -> bpow radix2 (k - 1) <= r < bpow radix2 k -> (-1021 <= k)%Z ->
  cexp radix2 fexp64 r = (k - 53)%Z /\ exists m, r = IZR m * bpow radix2 (k - 53).
Proof.
  intros F B K. pose proof (mag_unique_pos radix2 r k B) as M.
  assert (C : cexp radix2 fexp64 r = (k - 53)%Z) by (unfold cexp, fexp64, SpecFloat.fexp, SpecFloat.emin; rewrite M; lia).
  split; [exact C|]. exists (Ztrunc (scaled_mantissa radix2 fexp64 r)). rewrite F at 1. unfold F2R. cbn. rewrite C. reflexivity.
Qed.
Lemma binade r : 0 < r -> exists k, bpow radix2 (k - 1) <= r < bpow radix2 k.
Proof. intros P. exists (mag radix2 r). pose proof (bpow_mag_le radix2 r ltac:(lra)) as A. pose proof (bpow_mag_gt radix2 r) as B. rewrite Rabs_pos_eq in A, B by lra. split; assumption. Qed.
Lemma pow_nat k : (0 <= k)%Z -> bpow radix2 k = IZR (2 ^ k).
Proof. intros K. symmetry. apply (IZR_Zpower radix2). exact K. Qed.
Lemma binade_up r k n : bpow radix2 (k - 1) <= r < bpow radix2 k -> (0 <= n)%Z -> bpow radix2 n <= r -> (n < k)%Z.
Proof. intros [_ B] N R. apply (lt_bpow radix2). lra. Qed.
Lemma binade_down r k n : bpow radix2 (k - 1) <= r < bpow radix2 k -> r < bpow radix2 n -> (k <= n)%Z.
Proof. intros [B _] R. assert (k - 1 < n)%Z by (apply (lt_bpow radix2); lra). lia. Qed.

(** The sum with one half: exact between an integer and the next half. *)
Lemma half_exact r n : generic_format radix2 fexp64 r -> (1 <= n < 2 ^ 52)%Z -> IZR n < r < IZR n + / 2 -> rnd (r + / 2) = r + / 2.
Proof.
  intros F N B. apply rnd_fmt. assert (1 <= IZR n) by (apply IZR_le; lia). assert (IZR n + 1 <= 4503599627370496) by (change 1 with (IZR 1); rewrite <- plus_IZR; apply IZR_le; lia).
  destruct (binade r) as [k K]; [lra|].
  assert (K0 : (0 < k)%Z) by (apply (binade_up r k 0 K); [lia|change (bpow radix2 0) with 1; lra]).
  assert (K1 : (k <= 52)%Z) by (apply (binade_down r k 52 K); change (bpow radix2 52) with 4503599627370496; lra).
  destruct (fmt_at r k F K ltac:(lia)) as [_ [m E]].
  assert (U : (n + 1 <= 2 ^ k)%Z). { assert (L : IZR n < IZR (2 ^ k)) by (rewrite <- pow_nat by lia; lra). apply lt_IZR in L. lia. }
  assert (U' : r + / 2 < bpow radix2 k). { rewrite pow_nat by lia. apply IZR_le in U. rewrite plus_IZR in U. lra. }
  assert (HH : / 2 = IZR (2 ^ (52 - k)) * bpow radix2 (k - 53)).
  { rewrite <- pow_nat by lia. rewrite <- bpow_plus. replace (52 - k + (k - 53))%Z with (-1)%Z by ring. reflexivity. }
  assert (S : r + / 2 = IZR (m + 2 ^ (52 - k)) * bpow radix2 (k - 53)) by (rewrite plus_IZR, E, HH; ring).
  rewrite S. apply fmt_of; [|lia]. pose proof (bpow_gt_0 radix2 (k - 53)) as P.
  assert (Z0 : 0 < IZR (m + 2 ^ (52 - k))). { apply (Rmult_lt_reg_r (bpow radix2 (k - 53))); [exact P|]. rewrite <- S. lra. }
  assert (Z1 : IZR (m + 2 ^ (52 - k)) < IZR (2 ^ 53)).
  { apply (Rmult_lt_reg_r (bpow radix2 (k - 53))); [exact P|]. rewrite <- S. rewrite <- (pow_nat 53) by lia. rewrite <- bpow_plus. replace (53 + (k - 53))%Z with k by ring. exact U'. }
  apply lt_IZR in Z0, Z1. lia.
Qed.
Lemma half_sum n : (0 <= n < 2 ^ 52)%Z -> rnd (IZR n + / 2) = IZR n + / 2.
Proof.
  intros N. apply rnd_fmt. replace (IZR n + / 2) with (IZR (2 * n + 1) * bpow radix2 (-1)); [apply fmt_of; lia|].
  rewrite plus_IZR, mult_IZR. change (bpow radix2 (-1)) with (/ 2). lra.
Qed.

Definition just_below_half : R := / 2 - / 18014398509481984.
(** The largest integer at most [r + 1/2], for [0 <= r]. *)
Lemma near_small r : generic_format radix2 fexp64 r -> 0 <= r < 4503599627370496 -> r <> just_below_half ->
  IZR (Ztrunc (rnd (r + / 2))) - / 2 <= r < IZR (Ztrunc (rnd (r + / 2))) + / 2.
Proof.
  intros F B X. set (n := Zfloor (r + / 2)). pose proof (Zfloor_lb (r + / 2)) as L. pose proof (Zfloor_ub (r + / 2)) as U. fold n in L, U.
  assert (N0 : (0 <= n)%Z) by (apply Zfloor_lub; change (IZR 0) with 0; lra).
  assert (N1 : (n <= 2 ^ 52)%Z). { apply le_IZR. apply (Rle_trans _ (IZR (Zfloor (4503599627370496 + / 2)))); [apply IZR_le, Zfloor_le; lra|].
    rewrite (Zfloor_imp 4503599627370496); [apply Rle_refl|]. split; [lra|]. rewrite plus_IZR. lra. }
  assert (G : IZR n <= rnd (r + / 2) < IZR n + 1).
  { split; [rewrite <- (rnd_IZR n) by lia; apply rnd_le; exact L|].
    destruct (Rle_lt_dec r (IZR n)) as [A|A].
    - destruct (Z.eq_dec n (2 ^ 52)) as [E|E].
      + assert (rnd (r + / 2) <= rnd (IZR n)).
        2:{ rewrite rnd_IZR in H by lia. lra. }
        (* r is below 2^52, hence at most 2^52 - 1/2 *)
        destruct (binade r) as [k K]; [assert (IZR n = 4503599627370496) by (rewrite E; reflexivity); lra|].
        assert (K1 : (k <= 52)%Z) by (apply (binade_down r k 52 K); change (bpow radix2 52) with 4503599627370496; lra).
        assert (K0 : (51 < k)%Z) by (apply (binade_up r k 51 K); [lia|change (bpow radix2 51) with 2251799813685248; assert (IZR n = 4503599627370496) by (rewrite E; reflexivity); lra]).
        assert (k = 52%Z) by lia. subst k. destruct (fmt_at r 52 F K ltac:(lia)) as [_ [m M]]. change (bpow radix2 (52 - 53)) with (/ 2) in M.
        apply rnd_le. assert (IZR m < IZR (2 ^ 53)) by (change (IZR (2 ^ 53)) with (2 * 4503599627370496); lra). apply lt_IZR in H.
        assert (IZR m <= IZR (2 ^ 53 - 1)) by (apply IZR_le; lia). change (IZR (2 ^ 53 - 1)) with 9007199254740991 in H0. rewrite E. change (IZR (2 ^ 52)) with 4503599627370496. lra.
      + apply (Rle_lt_trans _ (rnd (IZR n + / 2))); [apply rnd_le; lra|]. rewrite half_sum by lia. lra.
    - assert (N2 : (n < 2 ^ 52)%Z). { apply lt_IZR. change (IZR (2 ^ 52)) with 4503599627370496. lra. }
      destruct (Z.eq_dec n 0) as [E|E].
      + rewrite E in *. change (IZR 0) with 0 in *.
        assert (R : r <= / 2 - / 9007199254740992 \/ / 2 - / 9007199254740992 < r) by lra. destruct R as [R|R].
        * apply (Rle_lt_trans _ (rnd (1 - / 9007199254740992))); [apply rnd_le; lra|]. rewrite rnd_fmt; [lra|].
          replace (1 - / 9007199254740992) with (IZR 9007199254740991 * bpow radix2 (-53)); [apply fmt_of; lia|]. change (bpow radix2 (-53)) with (/ 9007199254740992). lra.
        * exfalso. assert (K : bpow radix2 (-1 - 1) <= r < bpow radix2 (-1)).
          { change (bpow radix2 (-1 - 1)) with (/ 4). change (bpow radix2 (-1)) with (/ 2). lra. }
          destruct (fmt_at r (-1) F K ltac:(lia)) as [_ [m M]]. change (bpow radix2 (-1 - 53)) with (/ 18014398509481984) in M.
          apply X. unfold just_below_half. assert (IZR m < 9007199254740992) by lra. assert (9007199254740990 < IZR m) by lra.
          apply lt_IZR in H, H0. assert (m = 9007199254740991%Z) by lia. subst m. lra.
      + rewrite (half_exact r n F) by (try lia; lra). lra. }
  assert (T : Ztrunc (rnd (r + / 2)) = n).
  { assert (0 <= IZR n) by (apply IZR_le; exact N0). rewrite Ztrunc_floor by lra. apply Zfloor_imp. rewrite plus_IZR. lra. }
  rewrite T. lra.
Qed.
Lemma near_below_half : Ztrunc (rnd (just_below_half + / 2)) = 1%Z.
Proof.
  replace (just_below_half + / 2) with (IZR 18014398509481983 * bpow radix2 (-54)).
  2:{ change (bpow radix2 (-54)) with (/ 18014398509481984). unfold just_below_half. lra. }
  assert (E : rnd (IZR 18014398509481983 * bpow radix2 (-54)) = 1).
  { pose proof (isf_valid (f_of 18014398509481983 (-54)) eq_refl eq_refl) as I.
    unfold rnd, round, scaled_mantissa, cexp.
    assert (M : mag radix2 (IZR 18014398509481983 * bpow radix2 (-54)) = 0%Z :> Z).
    { apply mag_unique_pos. change (bpow radix2 (-54)) with (/ 18014398509481984). change (bpow radix2 (0 - 1)) with (/ 2). change (bpow radix2 0) with 1. lra. }
    rewrite M. change (fexp64 0) with (-53)%Z. change (bpow radix2 (- -53)) with 9007199254740992. change (bpow radix2 (-54)) with (/ 18014398509481984).
    replace (18014398509481983 * / 18014398509481984 * 9007199254740992) with (9007199254740991 + / 2) by lra.
    unfold Znearest. rewrite (Zfloor_imp 9007199254740991) by (rewrite plus_IZR; lra). rewrite Rcompare_Eq by lra. cbn [negb Z.even].
    rewrite (Zceil_imp 9007199254740992) by (rewrite minus_IZR; lra). unfold F2R. cbn [Fnum Fexp]. change (bpow radix2 (-53)) with (/ 9007199254740992). lra. }
  rewrite E. apply (Ztrunc_IZR 1).
Qed.
(** Between 2^52 and 2^53 the doubles are the integers: odd ones move to the
    next even one. *)
Lemma near_big r : generic_format radix2 fexp64 r -> 4503599627370496 <= r < 9007199254740992 ->
  exists n, r = IZR n /\ Ztrunc (rnd (r + / 2)) = (if Z.even n then n else n + 1)%Z.
Proof.
  intros F B. assert (K : bpow radix2 (53 - 1) <= r < bpow radix2 53).
  { change (bpow radix2 (53 - 1)) with 4503599627370496. change (bpow radix2 53) with 9007199254740992. exact B. }
  destruct (fmt_at r 53 F K ltac:(lia)) as [_ [n M]]. change (bpow radix2 (53 - 53)) with 1 in M. rewrite Rmult_1_r in M. exists n. split; [exact M|].
  assert (N : (n <= 9007199254740991)%Z). { assert (IZR n < 9007199254740992) by lra. apply lt_IZR in H. lia. } apply IZR_le in N.
  assert (E : rnd (r + / 2) = IZR (if Z.even n then n else n + 1)).
  { unfold rnd, round, scaled_mantissa, cexp.
    assert (G : mag radix2 (r + / 2) = 53%Z :> Z).
    { apply mag_unique_pos. change (bpow radix2 (53 - 1)) with 4503599627370496. change (bpow radix2 53) with 9007199254740992. lra. }
    rewrite G. change (fexp64 53) with 0%Z. change (bpow radix2 (- 0)) with 1. rewrite Rmult_1_r. unfold Znearest.
    rewrite (Zfloor_imp n) by (rewrite plus_IZR; lra). rewrite Rcompare_Eq by lra. rewrite (Zceil_imp (n + 1)) by (rewrite minus_IZR, plus_IZR; lra).
    unfold F2R. cbn [Fnum Fexp]. change (bpow radix2 0) with 1. rewrite Rmult_1_r. destruct (Z.even n); reflexivity. }
  rewrite E. apply Ztrunc_IZR.
Qed.
Lemma near_huge_both r : generic_format radix2 fexp64 r -> 9007199254740992 <= r -> rnd (r + / 2) = r /\ exists n, r = IZR n /\ Ztrunc (rnd (r + / 2)) = n.
Proof.
  intros F B. destruct (binade r) as [k K]; [lra|].
  assert (K0 : (53 < k)%Z) by (apply (binade_up r k 53 K); [lia|change (bpow radix2 53) with 9007199254740992; exact B]).
  destruct (fmt_at r k F K ltac:(lia)) as [C [m M]].
  assert (R : r = IZR (m * 2 ^ (k - 53))) by (rewrite mult_IZR, <- pow_nat by lia; exact M).
  assert (P : 0 < bpow radix2 (k - 53)) by apply bpow_gt_0.
  assert (Q : 2 <= bpow radix2 (k - 53)) by (change 2 with (bpow radix2 1); apply bpow_le; lia).
  assert (U : r + / 2 < bpow radix2 k).
  { assert (m + 1 <= 2 ^ 53)%Z.
    { assert (IZR m < IZR (2 ^ 53)). { apply (Rmult_lt_reg_r (bpow radix2 (k - 53))); [exact P|]. rewrite <- M, <- (pow_nat 53) by lia. rewrite <- bpow_plus. replace (53 + (k - 53))%Z with k by ring. apply K. } apply lt_IZR in H. lia. }
    apply IZR_le in H. rewrite plus_IZR, <- (pow_nat 53) in H by lia.
    assert ((IZR m + 1) * bpow radix2 (k - 53) <= bpow radix2 53 * bpow radix2 (k - 53)) by (apply Rmult_le_compat_r; lra).
    rewrite <- bpow_plus in H0. replace (53 + (k - 53))%Z with k in H0 by ring. rewrite Rmult_plus_distr_r, <- M in H0. lra. }
  assert (E : rnd (r + / 2) = r).
  { unfold rnd, round, scaled_mantissa, cexp.
    assert (G : mag radix2 (r + / 2) = k :> Z) by (apply mag_unique_pos; lra).
    rewrite G. assert (FE : fexp64 k = (k - 53)%Z) by (unfold fexp64, SpecFloat.fexp, SpecFloat.emin; lia). rewrite FE.
    rewrite (Znearest_imp _ _ m); [unfold F2R; cbn [Fnum Fexp]; symmetry; exact M|].
    rewrite bpow_opp, M. replace ((IZR m * bpow radix2 (k - 53) + / 2) * / bpow radix2 (k - 53) - IZR m) with (/ 2 * / bpow radix2 (k - 53)) by (field; lra).
    assert (I : 0 < / bpow radix2 (k - 53) <= / 2) by (split; [apply Rinv_0_lt_compat; exact P|apply Rinv_le; lra]). rewrite Rabs_pos_eq by lra. lra. }
  split; [exact E|]. exists (m * 2 ^ (k - 53))%Z. split; [exact R|]. rewrite E, R. apply Ztrunc_IZR.
Qed.
Lemma near_huge r : generic_format radix2 fexp64 r -> 9007199254740992 <= r -> exists n, r = IZR n /\ Ztrunc (rnd (r + / 2)) = n.
Proof. intros F B. apply (proj2 (near_huge_both r F B)). Qed.
