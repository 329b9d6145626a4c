(** Rounding and simplification of doubles: proofs. *)
From Coq Require Import ZArith Reals Lia Lra List SpecFloat ZifyBool.
From Flocq Require Import Core IEEE754.BinarySingleNaN.
From Verif Require Import Py Num FloatLib RasterAA GridFloat BufferModel SimplifyModel SimplifySpec SimplifyFloatModel SimplifyFloatSpec NearestFloat.
Import ListNotations.
Open Scope R_scope.

Lemma rnd_opp r : rnd (- r) = - rnd r.
Proof. apply round_NE_opp. Qed.
Lemma isf_sign x r : isf x r -> (0 < r -> f_sign x = false) /\ (r < 0 -> f_sign x = true).
Proof.
  intros (p & <- & Fp & <-). destruct p as [s|s| |s m e H]; try discriminate; cbn [B2R B2SF f_sign].
  - split; lra.
  - destruct s; split; intros L; try reflexivity; exfalso.
    + assert (F2R (Float radix2 (cond_Zopp true (Z.pos m)) e) < 0) by (apply F2R_lt_0; reflexivity). lra.
    + assert (0 < F2R (Float radix2 (cond_Zopp false (Z.pos m)) e)) by (apply F2R_gt_0; reflexivity). lra.
Qed.
Lemma isf_mhalf : isf (f_of (-1) (-1)) (- / 2).
Proof.
  pose proof (isf_valid (f_of (-1) (-1)) eq_refl eq_refl) as I. replace (- / 2) with (SF2R radix2 (f_of (-1) (-1))); [exact I|].
  change (f_of (-1) (-1)) with (S754_finite true (2 ^ 52) (-53)). unfold SF2R. rewrite F2R_div by lia. change (IZR (-4503599627370496) / IZR 9007199254740992 = - / 2). lra.
Qed.
Lemma isf_phalf : isf (f_of 1 (-1)) (/ 2).
Proof. exact isf_half. Qed.
Lemma huge_format x r : isf x r -> Rabs r < bpow radix2 1024.
Proof. intros (p & _ & _ & <-). apply abs_B2R_lt_emax. Qed.
(** The value of the truncation of a finite sum *)
Lemma isf_out y r : isf y r -> int64 y = Ok (Ztrunc r).
Proof. intros I. pose proof (isf_trunc y r I) as T. pose proof I as (p & <- & Fp & _). rewrite <- T. destruct p; try discriminate; reflexivity. Qed.

(** Everything about the rounding of a non-negative double. *)
Definition outcome (r : R) (q : Z) : Prop :=
  (0 <= q)%Z /\ ((r = just_below_half /\ q = 1%Z) \/ (exists n, r = IZR (2 * n + 1) /\ (2 ^ 52 < 2 * n + 1 < 2 ^ 53)%Z /\ q = (2 * n + 2)%Z) \/
   (~ below_half r /\ ~ odd_giant r /\ IZR q - / 2 <= r < IZR q + / 2)).
Lemma below_half_iff r : 0 <= r -> below_half r <-> r = just_below_half.
Proof. intros P. unfold below_half, just_below_half. rewrite Rabs_pos_eq by exact P. change (IZR (2 ^ 54)) with 18014398509481984. tauto. Qed.
Lemma pos_outcome r : generic_format radix2 fexp64 r -> 0 <= r -> outcome r (Ztrunc (rnd (r + / 2))).
Proof.
  intros F P. split.
  { assert (H : 0 <= rnd (r + / 2)) by (change 0 with (IZR 0) at 1; rewrite <- (rnd_IZR 0) by lia; apply rnd_le; change (IZR 0) with 0; lra).
    rewrite Ztrunc_floor by exact H. apply Zfloor_lub. exact H. }
  destruct (Req_dec r just_below_half) as [E|E]; [left; split; [exact E|rewrite E; apply near_below_half]|right].
  assert (NB : ~ below_half r) by (rewrite below_half_iff by exact P; exact E).
  destruct (Rlt_le_dec r 4503599627370496) as [S|S].
  { right. split; [exact NB|]. split; [|apply near_small; [exact F|lra|exact E]].
    intros (n & N & B). rewrite Rabs_pos_eq in N by exact P. rewrite N in S. apply lt_IZR in S. lia. }
  destruct (Rlt_le_dec r 9007199254740992) as [S'|S'].
  - destruct (near_big r F ltac:(lra)) as (n & N & T). rewrite T. destruct (Z.even n) eqn:Ev.
    + right. split; [exact NB|]. split; [|rewrite N; lra]. intros (k & K & _). rewrite Rabs_pos_eq, N in K by exact P. apply eq_IZR in K.
      apply Z.even_spec in Ev. destruct Ev as [j J]. lia.
    + left. assert (O : Z.Odd n) by (apply Z.odd_spec; rewrite <- Z.negb_even, Ev; reflexivity). destruct O as [k K]. exists k. rewrite <- K. split; [exact N|]. split; [|lia].
      rewrite N in S, S'. apply le_IZR in S. apply lt_IZR in S'. lia.
  - destruct (near_huge r F S') as (n & N & T). rewrite T. right. split; [exact NB|]. split; [|rewrite N; lra].
    intros (k & K & B). rewrite Rabs_pos_eq, N in K by exact P. rewrite N in S'. apply le_IZR in S'. apply eq_IZR in K. lia.
Qed.
(** The sum does not overflow. *)
Lemma sum_small r : generic_format radix2 fexp64 r -> 0 <= r < bpow radix2 1024 -> small (r + / 2).
Proof.
  intros F P. destruct (Rlt_le_dec r 9007199254740992) as [S|S].
  - apply small_le. rewrite Rabs_pos_eq by lra. change (IZR (2 ^ 100)) with 1267650600228229401496703205376. lra.
  - destruct (near_huge_both r F S) as [E _]. unfold small. rewrite E, Rabs_pos_eq by lra. lra.
Qed.

Lemma nearest_pos x r : isf x r -> 0 < r -> exists q, nearest64 x = Ok q /\ outcome r q.
Proof.
  intros I P. unfold nearest64. rewrite (proj1 (isf_sign x r I) P). pose proof (isf_format x r I) as F.
  pose proof (huge_format x r I) as B. rewrite Rabs_pos_eq in B by lra.
  rewrite (isf_out _ _ (isf_fadd _ _ _ _ I isf_phalf (sum_small r F ltac:(lra)))). eexists. split; [reflexivity|]. apply pos_outcome; [exact F|lra].
Qed.
Lemma nearest_neg x r : isf x r -> r < 0 -> exists q, nearest64 x = Ok (- q)%Z /\ outcome (- r) q.
Proof.
  intros I P. unfold nearest64. rewrite (proj2 (isf_sign x r I) P). pose proof (isf_format x r I) as F.
  assert (F' : generic_format radix2 fexp64 (- r)) by (apply generic_format_opp; exact F).
  pose proof (huge_format x r I) as B. rewrite Rabs_left in B by lra.
  assert (S : small (r + - / 2)).
  { pose proof (sum_small (- r) F' ltac:(lra)) as S. unfold small in *. replace (r + - / 2) with (- (- r + / 2)) by ring. rewrite rnd_opp, Rabs_Ropp. exact S. }
  rewrite (isf_out _ _ (isf_fadd _ _ _ _ I isf_mhalf S)). replace (r + - / 2) with (- (- r + / 2)) by ring. rewrite rnd_opp, Ztrunc_opp.
  eexists. split; [reflexivity|]. apply pos_outcome; [exact F'|lra].
Qed.
Lemma nearest_zero x : isf x 0 -> nearest64 x = Ok 0%Z.
Proof.
  intros I. unfold nearest64. assert (S : forall h, Rabs h <= 1 -> small (0 + h)).
  { intros h H. apply small_le. rewrite Rplus_0_l. change (IZR (2 ^ 100)) with 1267650600228229401496703205376. lra. }
  assert (T : forall h, -1 < h < 1 -> h * 2 = IZR (Ztrunc (h * 2)) -> Ztrunc (rnd (0 + h)) = 0%Z).
  { intros h B E. rewrite Rplus_0_l. apply trunc_zero. assert (R : rnd h = h).
    { apply rnd_fmt. replace h with (IZR (Ztrunc (h * 2)) * bpow radix2 (-1)) by (change (bpow radix2 (-1)) with (/ 2); lra). apply fmt_of; [|lia].
      assert (-2 < IZR (Ztrunc (h * 2)) < 2) by lra. destruct H as [H1 H2]. apply lt_IZR in H1, H2. lia. }
    rewrite R. exact B. }
  destruct (f_sign x).
  - rewrite (isf_out _ _ (isf_fadd _ _ _ _ I isf_mhalf (S (- / 2) ltac:(rewrite Rabs_left by lra; lra)))). rewrite T; [reflexivity|lra|].
    replace (- / 2 * 2) with (IZR (-1)) by lra. rewrite Ztrunc_IZR. reflexivity.
  - rewrite (isf_out _ _ (isf_fadd _ _ _ _ I isf_phalf (S (/ 2) ltac:(rewrite Rabs_pos_eq by lra; lra)))). rewrite T; [reflexivity|lra|].
    replace (/ 2 * 2) with (IZR 1) by lra. rewrite Ztrunc_IZR. reflexivity.
Qed.
(** All finite doubles: [s] is the sign. *)
Lemma nearest_any x r : isf x r -> exists s q, (s = 1 \/ s = -1)%Z /\ r = IZR s * Rabs r /\ nearest64 x = Ok (s * q)%Z /\ outcome (Rabs r) q.
Proof.
  intros I. destruct (Rtotal_order r 0) as [L|[E|G]].
  - destruct (nearest_neg x r I L) as (q & N & O). exists (-1)%Z, q. rewrite Rabs_left by exact L. split; [auto|]. split; [lra|]. split; [rewrite N; f_equal; lia|exact O].
  - subst r. exists 1%Z, 0%Z. rewrite Rabs_R0. split; [auto|]. split; [lra|]. split; [apply nearest_zero, I|].
    split; [lia|]. right. right. split; [|split; [|change (IZR 0) with 0; lra]].
    + unfold below_half. rewrite Rabs_R0. change (IZR (2 ^ 54)) with 18014398509481984. lra.
    + intros (n & N & B). rewrite Rabs_R0 in N. change 0 with (IZR 0) in N. apply eq_IZR in N. lia.
  - destruct (nearest_pos x r I G) as (q & N & O). exists 1%Z, q. rewrite Rabs_pos_eq by lra. split; [auto|]. split; [lra|]. split; [rewrite N; f_equal; lia|exact O].
Qed.
Lemma nearest_ok x r : isf x r -> exists q, nearest64 x = Ok q /\ 0 <= r * IZR q /\
  (below_half r -> Z.abs q = 1%Z) /\ (odd_giant r -> IZR (Z.abs q) = Rabs r + 1) /\ (rounds_to r q <-> ~ below_half r /\ ~ odd_giant r).
Proof.
  intros I. destruct (nearest_any x r I) as (s & q & S & R & N & Q0 & O). exists (s * q)%Z. split; [exact N|].
  assert (A : Z.abs (s * q) = q) by (rewrite Z.abs_mul; destruct S as [-> | ->]; cbn; lia).
  assert (Sg : 0 <= r * IZR (s * q)).
  { rewrite R, mult_IZR. apply IZR_le in Q0. pose proof (Rabs_pos r). assert (IZR s * IZR s = 1) by (destruct S as [-> | ->]; lra).
    replace (IZR s * Rabs r * (IZR s * IZR q)) with (IZR s * IZR s * (Rabs r * IZR q)) by ring. rewrite H0, Rmult_1_l. apply Rmult_le_pos; assumption. }
  split; [exact Sg|]. unfold rounds_to. rewrite A.
  assert (BH : below_half r <-> Rabs r = just_below_half) by (rewrite <- below_half_iff by apply Rabs_pos; unfold below_half; rewrite Rabs_Rabsolu; tauto).
  assert (OG : odd_giant r <-> odd_giant (Rabs r)) by (unfold odd_giant; rewrite Rabs_Rabsolu; tauto).
  assert (BR : below_half (Rabs r) <-> below_half r) by (unfold below_half; rewrite Rabs_Rabsolu; tauto).
  destruct O as [[E1 ->]|[(n & E1 & E2 & ->)|(E1 & E2 & E3)]].
  - split; [auto|]. split.
    + intros (n & N' & B). exfalso. unfold just_below_half in E1. rewrite E1 in N'. assert (0 < IZR (2 * n + 1) < 1) by lra. destruct H as [H1 H2]. apply lt_IZR in H1, H2. lia.
    + split; [|intros [H _]; exfalso; apply H, BH, E1]. intros [[H _] _]. exfalso. unfold just_below_half in E1. change (IZR 1) with 1 in H. lra.
  - assert (Od : odd_giant r) by (exists n; auto). split.
    + intros H. apply BH in H. exfalso. unfold just_below_half in H. rewrite H in E1. assert (0 < IZR (2 * n + 1) < 1) by lra. destruct H0 as [H1 H2]. apply lt_IZR in H1, H2. lia.
    + split; [intros _; rewrite E1, <- (plus_IZR _ 1); f_equal; lia|]. split; [|intros [_ H]; contradiction]. intros [[H _] _]. exfalso. rewrite E1 in H.
      replace (IZR (2 * n + 2)) with (IZR (2 * n + 1) + 1) in H by (rewrite <- (plus_IZR _ 1); f_equal; lia). lra.
  - split; [intros H; exfalso; apply E1, BR, H|]. split; [intros H; exfalso; apply E2, OG, H|]. split; [intros _; rewrite <- BR, OG; auto|]. intros _. auto.
Qed.
(** The error *)
Lemma nearest_err x r q : isf x r -> nearest64 x = Ok q -> Rabs (r - IZR q) <= 1 /\ (Rabs r < IZR (2 ^ 52) -> Rabs (r - IZR q) <= / 2 + / IZR (2 ^ 54)).
Proof.
  intros I Nq. destruct (nearest_any x r I) as (s & q' & S & R & N & Q0 & O). rewrite N in Nq. injection Nq as <-.
  assert (E : Rabs (r - IZR (s * q')) = Rabs (Rabs r - IZR q')).
  { rewrite R at 1. rewrite mult_IZR. replace (IZR s * Rabs r - IZR s * IZR q') with (IZR s * (Rabs r - IZR q')) by ring. rewrite Rabs_mult.
    replace (Rabs (IZR s)) with 1; [ring|]. destruct S as [-> | ->]; [rewrite Rabs_pos_eq; lra|rewrite Rabs_left; lra]. }
  rewrite E. change (IZR (2 ^ 54)) with 18014398509481984. change (IZR (2 ^ 52)) with 4503599627370496.
  destruct O as [[E1 ->]|[(n & E1 & E2 & ->)|(E1 & E2 & E3)]].
  - rewrite E1. unfold just_below_half. change (IZR 1) with 1. rewrite Rabs_left by lra. lra.
  - replace (IZR (2 * n + 2)) with (IZR (2 * n + 1) + 1) by (rewrite <- (plus_IZR _ 1); f_equal; lia). rewrite E1.
    split; [apply Rabs_le; lra|]. intros H. exfalso. apply lt_IZR in H. lia.
  - assert (Rabs (Rabs r - IZR q') <= / 2) by (apply Rabs_le; lra). lra.
Qed.

(** ** Cells *)
Lemma div_ok x m X M : isf x X -> isf m M -> M <> 0 -> Rabs X < Rabs M * IZR (2 ^ 52) -> div64 x m = Ok (fdiv x m) /\ isf (fdiv x m) (rnd (X / M)) /\ Rabs (X / M) < IZR (2 ^ 52).
Proof.
  intros Ix Im N B. assert (P : 0 < Rabs M) by (apply Rabs_pos_lt; exact N).
  assert (Q : Rabs (X / M) < IZR (2 ^ 52)).
  { unfold Rdiv. rewrite Rabs_mult, Rabs_inv. apply (Rmult_lt_reg_r (Rabs M)); [exact P|]. rewrite Rmult_assoc, Rinv_l, Rmult_1_r by lra. lra. }
  split; [|split; [|exact Q]].
  - unfold div64. rewrite (isf_eq _ _ _ _ Im (isf_int 0 ltac:(lia))). rewrite Req_bool_false by (change (IZR 0) with 0; exact N). reflexivity.
  - apply isf_fdiv; try assumption. apply small_le. change (IZR (2 ^ 100)) with 1267650600228229401496703205376. change (IZR (2 ^ 52)) with 4503599627370496 in Q. lra.
Qed.
Lemma tiny54 : 0 < bpow radix2 (-1000) <= / 18014398509481984.
Proof. split; [apply bpow_gt_0|]. change (/ 18014398509481984) with (bpow radix2 (-54)). apply bpow_le. lia. Qed.
Lemma coordinate_cell x m X M : isf x X -> isf m M -> M <> 0 -> Rabs X < Rabs M * IZR (2 ^ 52) ->
  exists q, (u <- div64 x m ;; nearest64 u)%res = Ok q /\ in_cell M X q.
Proof.
  intros Ix Im N B. destruct (div_ok x m X M Ix Im N B) as (D & I & Q). rewrite D. cbn [bind].
  destruct (nearest_ok _ _ I) as (q & Nq & _). exists q. split; [exact Nq|]. destruct (nearest_err _ _ q I Nq) as [_ E].
  assert (P : 0 < Rabs M) by (apply Rabs_pos_lt; exact N).
  change (IZR (2 ^ 52)) with 4503599627370496 in *. change (IZR (2 ^ 54)) with 18014398509481984 in *.
  destruct (rnd_rel (X / M)) as (e & d & He & Hd & Er).
  pose proof tiny54 as T.
  assert (DD : Rabs (rnd (X / M) - X / M) <= Rabs (X / M) * / 9007199254740992 + / 36028797018963968).
  { rewrite Er. replace (X / M * (1 + e) + d - X / M) with (X / M * e + d) by ring. eapply Rle_trans; [apply Rabs_triang|]. rewrite Rabs_mult. pose proof (Rabs_pos (X / M)).
    assert (Rabs (X / M) * Rabs e <= Rabs (X / M) * / 9007199254740992) by (apply Rmult_le_compat_l; lra).
    assert (bpow radix2 (-1000) <= bpow radix2 (-55)) by (apply bpow_le; lia). change (bpow radix2 (-55)) with (/ 36028797018963968) in H1. lra. }
  assert (E2 : Rabs (rnd (X / M) - IZR q) <= / 2 + / 18014398509481984 \/ 4503599627370496 <= Rabs (rnd (X / M))).
  { destruct (Rlt_le_dec (Rabs (rnd (X / M))) 4503599627370496) as [L|L]; [left; apply E, L|right; exact L]. }
  assert (G : Rabs (X / M - IZR q) <= / 2 + / 9007199254740992 + Rabs (X / M) * / 9007199254740992).
  { destruct E2 as [E2|E2].
    - replace (X / M - IZR q) with ((rnd (X / M) - IZR q) - (rnd (X / M) - X / M)) by ring. eapply Rle_trans; [apply Rabs_triang|]. rewrite Rabs_Ropp. lra.
    - (* the quotient was rounded to 2^52 *)
      assert (U : Rabs (rnd (X / M)) <= 4503599627370496).
      { change 4503599627370496 with (bpow radix2 52) in *. apply rnd_abs_le; [lia|lra]. }
      assert (V : Rabs (rnd (X / M)) = 4503599627370496) by lra.
      assert (W : IZR q = rnd (X / M)).
      { destruct (nearest_any _ _ I) as (s & q' & S & R & N' & Q0 & O). rewrite N' in Nq. injection Nq as <-. rewrite mult_IZR. rewrite R, V. rewrite V in O.
        destruct O as [[O1 _]|[(n & O1 & O2 & _)|(_ & _ & O3)]].
        - unfold just_below_half in O1. lra.
        - apply eq_IZR in O1. lia.
        - f_equal. assert (A1 : IZR q' < 4503599627370497) by lra. assert (A2 : 4503599627370495 < IZR q') by lra. apply lt_IZR in A1, A2. f_equal. lia. }
      rewrite W, <- Rabs_Ropp. replace (- (X / M - rnd (X / M))) with (rnd (X / M) - X / M) by ring. lra. }
  unfold in_cell. change (IZR (2 ^ 53)) with 9007199254740992.
  assert (K : X - M * IZR q = M * (X / M - IZR q)) by (field; exact N). rewrite K, Rabs_mult.
  assert (J : Rabs X = Rabs M * Rabs (X / M)) by (rewrite <- Rabs_mult; f_equal; field; exact N). rewrite J.
  assert (Rabs M * Rabs (X / M - IZR q) <= Rabs M * (/ 2 + / 9007199254740992 + Rabs (X / M) * / 9007199254740992)) by (apply Rmult_le_compat_l; lra). lra.
Qed.
Lemma cell_ok m M p P : isf m M -> M <> 0 -> holds_pt p P -> in_reach M P -> exists c, cell64 m p = Ok c /\ cell_of M P c.
Proof.
  intros Im N [I1 I2] [B1 B2]. destruct (coordinate_cell _ m _ M I1 Im N B1) as (i & E1 & C1). destruct (coordinate_cell _ m _ M I2 Im N B2) as (j & E2 & C2).
  exists (i, j). split; [|split; assumption]. unfold cell64. destruct (div64 (fst p) m) as [u|]; [|discriminate]. cbn [bind] in *. rewrite E1. cbn [bind].
  destruct (div64 (snd p) m) as [v|]; [|discriminate]. cbn [bind] in *. rewrite E2. reflexivity.
Qed.
Lemma cells_ok m M ps : isf m M -> M <> 0 -> forall Ps, Forall2 holds_pt ps Ps -> Forall (in_reach M) Ps -> exists s, mapM (cell64 m) ps = Ok s /\ Forall2 (cell_of M) Ps s.
Proof.
  intros Im N. induction ps as [|p ps IH]; intros Ps H R; inversion H as [|? P ? Ps' H1 H2]; subst; [exists []; split; [reflexivity|constructor]|].
  inversion R as [|? ? R1 R2]; subst. destruct (cell_ok m M p P Im N H1 R1) as (c & E & C). destruct (IH Ps' H2 R2) as (s & Es & Cs).
  exists (c :: s). split; [|constructor; assumption]. cbn [mapM]. rewrite E. cbn [bind]. rewrite Es. reflexivity.
Qed.

(** ** Cells whose size is a power of two: exact quotients *)
Lemma quotient_exact x X k : isf x X -> medium X -> (-200 <= k <= 200)%Z -> rnd (X / bpow radix2 k) = X / bpow radix2 k.
Proof.
  intros I M K. apply rnd_fmt. destruct M as [->|[M1 M2]]; [unfold Rdiv; rewrite Rmult_0_l; apply generic_format_0|].
  pose proof (generic_format_abs _ _ _ (isf_format x X I)) as F. pose proof (bpow_gt_0 radix2 (-400)) as P.
  destruct (binade (Rabs X)) as [j J]; [lra|].
  assert (J0 : (-400 < j)%Z) by (apply (lt_bpow radix2); lra).
  destruct (fmt_at _ j F J ltac:(lia)) as [_ [m E]]. pose proof (bpow_gt_0 radix2 (j - 53)) as PJ.
  assert (Mb : (Z.abs m < 2 ^ 53)%Z).
  { assert (0 <= IZR m). { apply (Rmult_le_reg_r (bpow radix2 (j - 53))); [exact PJ|]. rewrite Rmult_0_l, <- E. apply Rabs_pos. }
    assert (IZR m < IZR (2 ^ 53)). { apply (Rmult_lt_reg_r (bpow radix2 (j - 53))); [exact PJ|]. rewrite <- E, <- (pow_nat 53) by lia. rewrite <- bpow_plus. replace (53 + (j - 53))%Z with j by ring. apply J. }
    apply le_IZR in H. apply lt_IZR in H0. lia. }
  assert (G : generic_format radix2 fexp64 (Rabs X / bpow radix2 k)).
  { rewrite E. unfold Rdiv. rewrite <- bpow_opp, Rmult_assoc, <- bpow_plus. apply fmt_of; [exact Mb|lia]. }
  unfold Rabs in G. destruct (Rcase_abs X); [|exact G]. apply generic_format_opp in G. replace (- (- X / bpow radix2 k)) with (X / bpow radix2 k) in G; [exact G|]. field. pose proof (bpow_gt_0 radix2 k). lra.
Qed.
Lemma coordinate_exact x m X k : isf x X -> isf m (bpow radix2 k) -> (-200 <= k <= 200)%Z -> medium X -> regular (X / bpow radix2 k) ->
  exists q, (u <- div64 x m ;; nearest64 u)%res = Ok q /\ rounds_to (X / bpow radix2 k) q.
Proof.
  intros Ix Im K M R. pose proof (bpow_gt_0 radix2 k) as P.
  assert (B : Rabs (X / bpow radix2 k) <= bpow radix2 600).
  { unfold Rdiv. rewrite Rabs_mult, Rabs_inv, (Rabs_pos_eq (bpow radix2 k)) by lra. rewrite <- bpow_opp.
    apply (Rle_trans _ (bpow radix2 400 * bpow radix2 200)); [|rewrite <- bpow_plus; apply Rle_refl].
    apply Rmult_le_compat; [apply Rabs_pos|apply bpow_ge_0| |apply bpow_le; lia]. destruct M as [->|[_ M]]; [rewrite Rabs_R0; apply bpow_ge_0|exact M]. }
  assert (I : isf (fdiv x m) (X / bpow radix2 k)).
  { rewrite <- (quotient_exact x X k Ix M K). apply isf_fdiv; try assumption; [lra|]. apply (small_bpow _ 600); [lia|exact B]. }
  unfold div64. rewrite (isf_eq _ _ _ _ Im (isf_int 0 ltac:(lia))). rewrite Req_bool_false by (change (IZR 0) with 0; lra). cbn [bind].
  destruct (nearest_ok _ _ I) as (q & Nq & _ & _ & _ & Q). exists q. split; [exact Nq|apply Q, R].
Qed.
