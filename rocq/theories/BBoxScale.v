(** Boxes in double arithmetic. *)
From Coq Require Import ZArith Reals Lia Lra Bool SpecFloat.
From Flocq Require Import Core IEEE754.BinarySingleNaN.
From Flocq Require Import Plus_error Mult_error Relative.
From Verif Require Import Num FloatLib RasterAA GridFloat NearestFloat BBoxModel BBoxScaleSpec.
Open Scope R_scope.

Lemma rnd_opp' r : rnd (- r) = - rnd r.
Proof. apply round_NE_opp. Qed.
Lemma b500 : IZR (2 ^ 500) = bpow radix2 500.
Proof. rewrite (IZR_Zpower radix2) by lia. reflexivity. Qed.
Lemma b500i : / IZR (2 ^ 500) = bpow radix2 (-500).
Proof. rewrite b500, <- bpow_opp. reflexivity. Qed.
Lemma rnd_abs_ge r e : (-1074 <= e)%Z -> bpow radix2 e <= Rabs r -> bpow radix2 e <= Rabs (rnd r).
Proof.
  intros E B. pose proof (bpow_gt_0 radix2 e). destruct (Rle_or_lt 0 r) as [P|P].
  - rewrite Rabs_pos_eq in B by exact P. pose proof (rnd_le _ _ B) as L. rewrite rnd_bpow in L by exact E. rewrite Rabs_pos_eq; lra.
  - rewrite Rabs_left in B by exact P. pose proof (rnd_le _ _ B) as L. rewrite rnd_bpow, rnd_opp' in L by exact E. rewrite Rabs_left; lra.
Qed.
(** A sum of two doubles has a purely relative error. *)
Lemma add_rel a b : generic_format radix2 fexp64 a -> generic_format radix2 fexp64 b -> Rabs (rnd (a + b) - (a + b)) <= Rabs (a + b) * / 9007199254740992.
Proof.
  intros A B. destruct (@FLT_plus_error_N_ex radix2 (-1074) 53 eq_refl (fun z => negb (Z.even z)) a b A B) as (e & E & Q).
  assert (Q' : rnd (a + b) = (a + b) * (1 + e)) by exact Q. rewrite Q'.
  replace ((a + b) * (1 + e) - (a + b)) with ((a + b) * e) by ring. rewrite Rabs_mult. apply Rmult_le_compat_l; [apply Rabs_pos|].
  eapply Rle_trans; [exact E|]. assert (W : u_ro radix2 53 = / 9007199254740992) by (change (/ 2 * / 4503599627370496 = / 9007199254740992); lra). rewrite W. clear W.
  unfold Rdiv. apply Rle_trans with (/ 9007199254740992 * 1); [|lra]. apply Rmult_le_compat_l; [lra|]. rewrite <- Rinv_1. apply Rinv_le_contravar; lra.
Qed.
Lemma fmt_opp r : generic_format radix2 fexp64 r -> generic_format radix2 fexp64 (- r).
Proof. apply generic_format_opp. Qed.
Lemma sub_rel a b : generic_format radix2 fexp64 a -> generic_format radix2 fexp64 b -> Rabs (rnd (a - b) - (a - b)) <= Rabs (a - b) * / 9007199254740992.
Proof. intros A B. exact (add_rel a (- b) A (fmt_opp _ B)). Qed.
Lemma small_at r e : (e <= 1023)%Z -> Rabs r <= bpow radix2 e -> small r.
Proof. intros E B. apply (small_bpow r 1023); [lia|]. eapply Rle_trans; [exact B|]. apply bpow_le. exact E. Qed.
Lemma abs2 a b m : Rabs a <= m -> Rabs b <= m -> Rabs (a + b) <= 2 * m /\ Rabs (a - b) <= 2 * m.
Proof. intros A B. split; [eapply Rle_trans; [apply Rabs_triang|]; lra|unfold Rminus; eapply Rle_trans; [apply Rabs_triang|]; rewrite Rabs_Ropp; lra]. Qed.
Lemma twice m e : m <= bpow radix2 e -> 2 * m <= bpow radix2 (e + 1).
Proof. intros H. rewrite bpow_plus, (Rmult_comm _ (bpow radix2 1)). change (bpow radix2 1) with 2. lra. Qed.

(** ** Areas *)
Lemma side64 u v a b : isf u a -> isf v b -> Rabs a <= IZR (2 ^ 500) -> Rabs b <= IZR (2 ^ 500) ->
  isf (fsub v u) (rnd (b - a)) /\ Rabs (rnd (b - a)) <= bpow radix2 501.
Proof.
  intros U V A B. destruct (abs2 b a _ B A) as [_ S]. rewrite b500 in S. assert (S' : Rabs (b - a) <= bpow radix2 501) by (eapply Rle_trans; [exact S|]; apply (twice _ 500), Rle_refl).
  split; [apply isf_fsub; [exact V|exact U|apply (small_at _ 501); [lia|exact S']]|]. apply rnd_abs_le; [lia|exact S'].
Qed.
Lemma area_small p q : Rabs p <= bpow radix2 501 -> Rabs q <= bpow radix2 501 -> small (p * q).
Proof.
  intros P Q. apply (small_at _ 1002); [lia|]. rewrite Rabs_mult. change 1002%Z with (501 + 501)%Z. rewrite bpow_plus. apply Rmult_le_compat; try apply Rabs_pos; assumption.
Qed.
Lemma area64 b r : isbox b r -> usual r ->
  isf (bb_area b) (rnd (rnd (X1 r - X0 r) * rnd (Y1 r - Y0 r))) /\ small (rnd (X1 r - X0 r) * rnd (Y1 r - Y0 r)).
Proof.
  intros (A & B & C & D) ((WA & WB & WC & WD) & _). destruct (side64 _ _ _ _ A C WA WC) as [I1 S1]. destruct (side64 _ _ _ _ B D WB WD) as [I2 S2].
  pose proof (area_small _ _ S1 S2) as S. split; [|exact S]. apply isf_fmul; assumption.
Qed.
Lemma side_rnd s : side_ok s -> (s = 0 /\ rnd s = 0) \/ (s <> 0 /\ bpow radix2 (-500) <= Rabs (rnd s)).
Proof.
  intros [-> |H]; [left; split; [reflexivity|apply (rnd_IZR 0); lia]|right]. rewrite b500i in H. split; [|apply rnd_abs_ge; [lia|exact H]].
  intros ->. rewrite Rabs_R0 in H. pose proof (bpow_gt_0 radix2 (-500)). lra.
Qed.
(** The larger of two clearly different areas *)
Lemma prod_rel p q p' q' e : 0 <= e <= 1 -> Rabs (p' - p) <= Rabs p * e -> Rabs (q' - q) <= Rabs q * e -> Rabs (p' * q' - p * q) <= Rabs (p * q) * (3 * e).
Proof.
  intros E A B. replace (p' * q' - p * q) with (p * (q' - q) + (p' - p) * q + (p' - p) * (q' - q)) by ring.
  eapply Rle_trans; [eapply Rle_trans; [apply Rabs_triang|apply Rplus_le_compat_r, Rabs_triang]|]. rewrite !Rabs_mult.
  pose proof (Rabs_pos p). pose proof (Rabs_pos q). pose proof (Rabs_pos (p' - p)). pose proof (Rabs_pos (q' - q)).
  assert (Rabs p * Rabs (q' - q) <= Rabs p * (Rabs q * e)) by (apply Rmult_le_compat_l; lra).
  assert (Rabs (p' - p) * Rabs q <= Rabs p * e * Rabs q) by (apply Rmult_le_compat_r; lra).
  assert (Rabs (p' - p) * Rabs (q' - q) <= Rabs p * e * (Rabs q * e)) by (apply Rmult_le_compat; lra).
  assert (0 <= Rabs p * Rabs q) by (apply Rmult_le_pos; lra).
  assert (Rabs p * e * (Rabs q * e) <= Rabs p * Rabs q * e) by (replace (Rabs p * e * (Rabs q * e)) with (Rabs p * Rabs q * (e * e)) by ring; apply Rmult_le_compat_l; nra). nra.
Qed.
Lemma area_val b r : isbox b r -> usual r -> exists a, isf (bb_area b) a /\ Rabs (a - rarea r) <= Rabs (rarea r) * / IZR (2 ^ 50).
Proof.
  intros I U. destruct (area64 b r I U) as [A _]. eexists. split; [exact A|]. destruct I as (IA & IB & IC & ID), U as (_ & S1 & S2). unfold rarea.
  pose proof (sub_rel _ _ (isf_format _ _ IC) (isf_format _ _ IA)) as E1. pose proof (sub_rel _ _ (isf_format _ _ ID) (isf_format _ _ IB)) as E2.
  set (p := X1 r - X0 r) in *. set (q := Y1 r - Y0 r) in *. pose proof (prod_rel p q (rnd p) (rnd q) (/ 9007199254740992) ltac:(lra) E1 E2) as E3.
  assert (E4 : Rabs (rnd (rnd p * rnd q) - rnd p * rnd q) <= Rabs (rnd p * rnd q) * / 4503599627370496).
  { destruct (side_rnd p S1) as [[_ ->]|[_ L1]]; [rewrite Rmult_0_l, (rnd_IZR 0), Rminus_diag_eq, Rabs_R0 by (lia || reflexivity); lra|].
    destruct (side_rnd q S2) as [[_ ->]|[_ L2]]; [rewrite Rmult_0_r, (rnd_IZR 0), Rminus_diag_eq, Rabs_R0 by (lia || reflexivity); lra|].
    assert (K : bpow radix2 (-1000) <= Rabs (rnd p * rnd q)) by (rewrite Rabs_mult; change (-1000)%Z with (-500 + -500)%Z; rewrite bpow_plus; pose proof (bpow_ge_0 radix2 (-500)); apply Rmult_le_compat; lra).
    eapply Rle_trans; [apply (relative_error_N_FLT radix2 (-1074) 53 ltac:(reflexivity) (fun z => negb (Z.even z)) (rnd p * rnd q))|].
    - eapply Rle_trans; [|exact K]. apply bpow_le. lia.
    - change (/ 2 * / 4503599627370496 * Rabs (rnd p * rnd q) <= Rabs (rnd p * rnd q) * / 4503599627370496). pose proof (Rabs_pos (rnd p * rnd q)). lra. }
  change (IZR (2 ^ 50)) with 1125899906842624. set (u := rnd p * rnd q) in *. set (v := p * q) in *.
  assert (E5 : Rabs u <= Rabs v * (1 + 3 * / 9007199254740992)) by (replace u with (v + (u - v)) by ring; eapply Rle_trans; [apply Rabs_triang|]; lra).
  replace (rnd u - v) with ((rnd u - u) + (u - v)) by ring. eapply Rle_trans; [apply Rabs_triang|]. pose proof (Rabs_pos v). lra.
Qed.
Lemma lt64 a b ra rb : isbox a ra -> isbox b rb -> usual ra -> usual rb -> rordered ra -> rordered rb ->
  rarea ra * (1 + / IZR (2 ^ 48)) < rarea rb -> bb_lt a b = true /\ bb_lt b a = false.
Proof.
  intros IA IB UA UB [O1 O2] [O3 O4] L. destruct (area_val a ra IA UA) as (u & Iu & Eu). destruct (area_val b rb IB UB) as (v & Iv & Ev).
  assert (PA : 0 <= rarea ra) by (apply Rmult_le_pos; lra). assert (PB : 0 <= rarea rb) by (apply Rmult_le_pos; lra).
  rewrite (Rabs_pos_eq (rarea ra)) in Eu by assumption. rewrite (Rabs_pos_eq (rarea rb)) in Ev by assumption. apply Rabs_le_inv in Eu, Ev.
  change (IZR (2 ^ 50)) with 1125899906842624 in *. change (IZR (2 ^ 48)) with 281474976710656 in L.
  unfold bb_lt. cbn [nlt NumF]. rewrite (isf_lt _ _ _ _ Iu Iv), (isf_lt _ _ _ _ Iv Iu). split; [apply Rlt_bool_true|apply Rlt_bool_false]; lra.
Qed.

(** ** Moving and scaling *)
Lemma shift64 u x v d : isf u x -> isf v d -> Rabs x <= IZR (2 ^ 500) -> Rabs d <= IZR (2 ^ 500) -> isf (fadd u v) (rnd (x + d)).
Proof.
  intros U V A B. destruct (abs2 x d _ A B) as [S _]. rewrite b500 in S. apply isf_fadd; [exact U|exact V|]. apply (small_at _ 501); [lia|]. eapply Rle_trans; [exact S|]. apply (twice _ 500), Rle_refl.
Qed.
Lemma translate64 b r u v dx dy : isbox b r -> within (IZR (2 ^ 500)) r -> isf u dx -> isf v dy -> Rabs dx <= IZR (2 ^ 500) -> Rabs dy <= IZR (2 ^ 500) ->
  exists r', isbox (bb_translate b u v) r' /\
    Rabs (X0 r' - (X0 r + dx)) <= Rabs (X0 r + dx) * / IZR (2 ^ 53) /\ Rabs (Y0 r' - (Y0 r + dy)) <= Rabs (Y0 r + dy) * / IZR (2 ^ 53) /\
    Rabs (X1 r' - (X1 r + dx)) <= Rabs (X1 r + dx) * / IZR (2 ^ 53) /\ Rabs (Y1 r' - (Y1 r + dy)) <= Rabs (Y1 r + dy) * / IZR (2 ^ 53) /\
    (rordered r -> rordered r') /\
    (forall p q x y, isf p x -> isf q y -> rin r x y ->
       exists x' y', isf (fadd p u) x' /\ isf (fadd q v) y' /\ X0 r' <= x' <= X1 r' /\ Y0 r' <= y' <= Y1 r').
Proof.
  intros (A & B & C & D) (WA & WB & WC & WD) U V DX DY. change (IZR (2 ^ 53)) with 9007199254740992.
  exists (mkrb (rnd (X0 r + dx)) (rnd (Y0 r + dy)) (rnd (X1 r + dx)) (rnd (Y1 r + dy))). cbn [X0 Y0 X1 Y1].
  split; [unfold isbox; cbn; split; [|split; [|split]]; apply shift64; assumption|].
  split; [apply add_rel; eapply isf_format; eassumption|]. split; [apply add_rel; eapply isf_format; eassumption|]. split; [apply add_rel; eapply isf_format; eassumption|]. split; [apply add_rel; eapply isf_format; eassumption|].
  split; [intros [O1 O2]; split; apply rnd_le; cbn; lra|].
  intros p q x y P Q [H1 H2]. exists (rnd (x + dx)), (rnd (y + dy)).
  assert (Ax : Rabs x <= IZR (2 ^ 500)) by (apply Rabs_le_inv in WA, WC; apply Rabs_le; lra).
  assert (Ay : Rabs y <= IZR (2 ^ 500)) by (apply Rabs_le_inv in WB, WD; apply Rabs_le; lra).
  split; [apply shift64; assumption|]. split; [apply shift64; assumption|]. split; split; apply rnd_le; lra.
Qed.

Definition eta : R := bpow radix2 (-1000).
Lemma eta_tiny : 0 < eta /\ IZR (2 ^ 100) * eta <= bpow radix2 (-900) /\ eta <= bpow radix2 (-900) /\ 64 * bpow radix2 (-900) <= / IZR (2 ^ 800).
Proof.
  unfold eta. assert (E : IZR (2 ^ 100) = bpow radix2 100) by reflexivity. rewrite E, <- bpow_plus. split; [apply bpow_gt_0|]. split; [apply bpow_le; lia|]. split; [apply bpow_le; lia|].
  assert (E8 : / IZR (2 ^ 800) = bpow radix2 (-800)) by (rewrite (IZR_Zpower radix2) by lia; rewrite <- bpow_opp; reflexivity). rewrite E8.
  change 64 with (bpow radix2 6). rewrite <- bpow_plus. apply bpow_le. lia.
Qed.
Lemma axis64 u v w a b m f : isf u a -> isf v b -> isf w f -> Rabs a <= m -> Rabs b <= m -> m <= IZR (2 ^ 100) -> Rabs f <= IZR (2 ^ 100) ->
  exists c h lo hi, isf (fdiv (fadd u v) (fofZ 2)) c /\ isf (fmul (fsub v u) (fdiv w (fofZ 2))) h /\
    isf (fsub (fdiv (fadd u v) (fofZ 2)) (fmul (fsub v u) (fdiv w (fofZ 2)))) lo /\
    isf (fadd (fdiv (fadd u v) (fofZ 2)) (fmul (fsub v u) (fdiv w (fofZ 2)))) hi /\
    Rabs (lo - ((a + b) / 2 - f * (b - a) / 2)) <= m * (1 + Rabs f) * / IZR (2 ^ 50) + / IZR (2 ^ 800) /\
    Rabs (hi - ((a + b) / 2 + f * (b - a) / 2)) <= m * (1 + Rabs f) * / IZR (2 ^ 50) + / IZR (2 ^ 800) /\
    (a <= b -> 0 <= f -> lo <= hi).
Proof.
  intros U V W A B M F. destruct eta_tiny as (Z0 & Z1 & Z2 & Z3). assert (M0 : 0 <= m) by (pose proof (Rabs_pos a); lra).
  assert (G0 : 0 <= m * Rabs f) by (apply Rmult_le_pos; [exact M0|apply Rabs_pos]).
  set (k := / 9007199254740992) in *. assert (K : 0 < k < / 4503599627370496) by (unfold k; lra).
  destruct (abs2 a b m A B) as [S1 _]. destruct (abs2 b a m B A) as [_ S2].
  assert (TT : IZR (2 ^ 100) = bpow radix2 100) by reflexivity.
  assert (T1 : 2 * m <= bpow radix2 101) by (apply (twice m 100); lra).
  pose proof (add_rel a b (isf_format _ _ U) (isf_format _ _ V)) as E1. pose proof (sub_rel b a (isf_format _ _ V) (isf_format _ _ U)) as E2. fold k in E1, E2.
  assert (E1' : Rabs (rnd (a + b) - (a + b)) <= 2 * m * k) by (eapply Rle_trans; [exact E1|]; apply Rmult_le_compat_r; lra).
  assert (E2' : Rabs (rnd (b - a) - (b - a)) <= 2 * m * k) by (eapply Rle_trans; [exact E2|]; apply Rmult_le_compat_r; lra).
  set (s := rnd (a + b)) in *. set (p := rnd (b - a)) in *.
  assert (Is : isf (fadd u v) s) by (apply isf_fadd; [exact U|exact V|apply (small_at _ 101); [lia|lra]]).
  assert (Ip : isf (fsub v u) p) by (apply isf_fsub; [exact V|exact U|apply (small_at _ 101); [lia|lra]]).
  assert (Bs : Rabs s <= 2 * m * (1 + k)) by (replace s with ((s - (a + b)) + (a + b)) by ring; eapply Rle_trans; [apply Rabs_triang|]; lra).
  assert (Bp : Rabs p <= 2 * m * (1 + k)) by (replace p with ((p - (b - a)) + (b - a)) by ring; eapply Rle_trans; [apply Rabs_triang|]; lra).
  assert (Mk : 0 <= m * k) by (apply Rmult_le_pos; lra). assert (Mk1 : m * k <= m * / 4503599627370496) by (apply Rmult_le_compat_l; lra).
  (* the middle *)
  assert (Hs : Rabs (s / 2) <= m * (1 + k)) by (unfold Rdiv; rewrite Rabs_mult, (Rabs_pos_eq (/ 2)) by lra; lra).
  pose proof (rnd_near (s / 2) _ Hs) as E3. fold k in E3. fold eta in E3. set (c := rnd (s / 2)) in *.
  assert (Ic : isf (fdiv (fadd u v) (fofZ 2)) c) by (apply isf_fdiv; [exact Is|apply (isf_int 2); lia|lra|apply (small_at _ 101); [lia|lra]]).
  assert (Mkk : m * (1 + k) * k <= 2 * (m * k)) by (replace (m * (1 + k) * k) with (m * k * (1 + k)) by ring; nra).
  assert (Ec : Rabs (c - (a + b) / 2) <= 3 * (m * k) + eta).
  { replace (c - (a + b) / 2) with ((c - s / 2) + (s - (a + b)) / 2) by field. eapply Rle_trans; [apply Rabs_triang|]. unfold Rdiv at 2. rewrite (Rabs_mult _ (/ 2)), (Rabs_pos_eq (/ 2)) by lra. lra. }
  (* half the factor *)
  assert (Hf : Rabs (f / 2) <= Rabs f / 2) by (unfold Rdiv; rewrite Rabs_mult, (Rabs_pos_eq (/ 2)) by lra; lra).
  pose proof (rnd_near (f / 2) _ Hf) as E4. fold k in E4. fold eta in E4. set (q := rnd (f / 2)) in *. pose proof (Rabs_pos f) as F0.
  assert (Iq : isf (fdiv w (fofZ 2)) q) by (apply isf_fdiv; [exact W|apply (isf_int 2); lia|lra|apply (small_at _ 100); [lia|lra]]).
  (* half the side *)
  assert (E5 : Rabs (p * q - f * (b - a) / 2) <= 3 * (m * Rabs f * k) + 3 * bpow radix2 (-900)).
  { replace (p * q - f * (b - a) / 2) with (p * (q - f / 2) + (p - (b - a)) * (f / 2)) by field. eapply Rle_trans; [apply Rabs_triang|]. rewrite !Rabs_mult.
    assert (X1 : Rabs p * Rabs (q - f / 2) <= 2 * m * (1 + k) * (Rabs f / 2 * k + eta)) by (apply Rmult_le_compat; try apply Rabs_pos; assumption).
    assert (X2 : Rabs (p - (b - a)) * Rabs (f / 2) <= 2 * m * k * (Rabs f / 2)) by (apply Rmult_le_compat; try apply Rabs_pos; assumption).
    assert (X3 : 0 <= m * Rabs f * k <= m * Rabs f * k) by (split; [apply Rmult_le_pos; lra|lra]).
    assert (X4 : m * Rabs f * k * k <= m * Rabs f * k * / 4503599627370496) by (apply Rmult_le_compat_l; lra).
    assert (X5 : m * eta <= bpow radix2 (-900)) by (eapply Rle_trans; [|exact Z1]; apply Rmult_le_compat_r; lra).
    assert (X6 : 0 <= m * eta) by (apply Rmult_le_pos; lra). assert (X7 : m * eta * k <= m * eta * / 4503599627370496) by (apply Rmult_le_compat_l; lra). lra. }
  assert (Gk : 0 <= m * Rabs f * k) by (apply Rmult_le_pos; lra). assert (Gk1 : m * Rabs f * k <= m * Rabs f * / 4503599627370496) by (apply Rmult_le_compat_l; lra).
  assert (Bx : Rabs (f * (b - a) / 2) <= m * Rabs f).
  { unfold Rdiv. rewrite !Rabs_mult, (Rabs_pos_eq (/ 2)) by lra. replace (m * Rabs f) with (Rabs f * (2 * m) * / 2) by field. apply Rmult_le_compat_r; [lra|]. apply Rmult_le_compat_l; lra. }
  assert (Bpq : Rabs (p * q) <= m * Rabs f * (1 + 3 * k) + 3 * bpow radix2 (-900)).
  { replace (p * q) with ((p * q - f * (b - a) / 2) + f * (b - a) / 2) by ring. eapply Rle_trans; [apply Rabs_triang|]. lra. }
  assert (Gbig : m * Rabs f <= bpow radix2 200).
  { change 200%Z with (100 + 100)%Z. rewrite bpow_plus, <- TT. apply Rmult_le_compat; lra. }
  assert (T9 : bpow radix2 (-900) <= 1) by (change 1 with (bpow radix2 0); apply bpow_le; lia).
  assert (TA : 1 <= bpow radix2 101) by (change 1 with (bpow radix2 0); apply bpow_le; lia). assert (TB : bpow radix2 101 <= bpow radix2 200) by (apply bpow_le; lia).
  assert (TC : 64 * bpow radix2 200 <= bpow radix2 206) by (change 206%Z with (6 + 200)%Z; rewrite (bpow_plus _ 6); change (bpow radix2 6) with 64; lra).
  pose proof (rnd_near (p * q) _ Bpq) as E6. fold k in E6. fold eta in E6. set (h := rnd (p * q)) in *.
  assert (Ih : isf (fmul (fsub v u) (fdiv w (fofZ 2))) h) by (apply isf_fmul; [exact Ip|exact Iq|apply (small_at _ 206); [lia|lra]]).
  assert (N9 : 0 < bpow radix2 (-900)) by apply bpow_gt_0.
  assert (Y1 : (m * Rabs f * (1 + 3 * k) + 3 * bpow radix2 (-900)) * k <= 2 * (m * Rabs f * k) + bpow radix2 (-900)).
  { assert (m * Rabs f * k * k <= m * Rabs f * k * / 4503599627370496) by (apply Rmult_le_compat_l; lra). assert (bpow radix2 (-900) * k <= bpow radix2 (-900) * / 4503599627370496) by (apply Rmult_le_compat_l; lra). lra. }
  assert (Eh : Rabs (h - f * (b - a) / 2) <= 5 * (m * Rabs f * k) + 5 * bpow radix2 (-900)).
  { replace (h - f * (b - a) / 2) with ((h - p * q) + (p * q - f * (b - a) / 2)) by ring. eapply Rle_trans; [apply Rabs_triang|]. lra. }
  assert (Bc0 : Rabs ((a + b) / 2) <= m) by (unfold Rdiv; rewrite Rabs_mult, (Rabs_pos_eq (/ 2)) by lra; lra).
  assert (Fin : forall x e, Rabs (x - e) <= 3 * (m * k) + eta + (5 * (m * Rabs f * k) + 5 * bpow radix2 (-900)) -> Rabs e <= m + m * Rabs f ->
    small x /\ Rabs (rnd x - e) <= m * (1 + Rabs f) * / IZR (2 ^ 50) + / IZR (2 ^ 800)).
  { intros x e D E. assert (Bxx : Rabs x <= 2 * m + 2 * (m * Rabs f) + 6 * bpow radix2 (-900)) by (replace x with ((x - e) + e) by ring; eapply Rle_trans; [apply Rabs_triang|]; lra).
    split; [apply (small_at _ 206); [lia|lra]|]. pose proof (rnd_near x _ Bxx) as Ex. fold k in Ex. fold eta in Ex.
    replace (rnd x - e) with ((rnd x - x) + (x - e)) by ring. eapply Rle_trans; [apply Rabs_triang|].
    assert (bpow radix2 (-900) * k <= bpow radix2 (-900) * / 4503599627370496) by (apply Rmult_le_compat_l; lra).
    replace (/ IZR (2 ^ 50)) with (8 * k) by (unfold k; change (IZR (2 ^ 50)) with 1125899906842624; lra). lra. }
  exists c, h, (rnd (c - h)), (rnd (c + h)).
  destruct (Fin (c - h) ((a + b) / 2 - f * (b - a) / 2)) as [Sl El].
  { replace (c - h - ((a + b) / 2 - f * (b - a) / 2)) with ((c - (a + b) / 2) + - (h - f * (b - a) / 2)) by ring. eapply Rle_trans; [apply Rabs_triang|]. rewrite Rabs_Ropp. lra. }
  { unfold Rminus. eapply Rle_trans; [apply Rabs_triang|]. rewrite Rabs_Ropp. unfold Rminus in Bx. lra. }
  destruct (Fin (c + h) ((a + b) / 2 + f * (b - a) / 2)) as [Sh Eh2].
  { replace (c + h - ((a + b) / 2 + f * (b - a) / 2)) with ((c - (a + b) / 2) + (h - f * (b - a) / 2)) by ring. eapply Rle_trans; [apply Rabs_triang|]. lra. }
  { eapply Rle_trans; [apply Rabs_triang|]. lra. }
  split; [exact Ic|]. split; [exact Ih|]. split; [apply isf_fsub; assumption|]. split; [apply isf_fadd; assumption|]. split; [exact El|]. split; [exact Eh2|].
  intros O P. assert (R0 : rnd 0 = 0) by (apply (rnd_IZR 0); lia).
  assert (0 <= p) by (rewrite <- R0; apply rnd_le; lra). assert (0 <= q) by (rewrite <- R0; apply rnd_le; lra).
  assert (0 <= h) by (rewrite <- R0; apply rnd_le; apply Rmult_le_pos; assumption). apply rnd_le. lra.
Qed.
Lemma scale64 b r w f m : isbox b r -> isf w f -> within m r -> m <= IZR (2 ^ 100) -> Rabs f <= IZR (2 ^ 100) ->
  exists r', isbox (bb_scale b w) r' /\
    (let e := m * (1 + Rabs f) * / IZR (2 ^ 50) + / IZR (2 ^ 800) in
     Rabs (X0 r' - ((X0 r + X1 r) / 2 - f * (X1 r - X0 r) / 2)) <= e /\ Rabs (Y0 r' - ((Y0 r + Y1 r) / 2 - f * (Y1 r - Y0 r) / 2)) <= e /\
     Rabs (X1 r' - ((X0 r + X1 r) / 2 + f * (X1 r - X0 r) / 2)) <= e /\ Rabs (Y1 r' - ((Y0 r + Y1 r) / 2 + f * (Y1 r - Y0 r) / 2)) <= e) /\
    (rordered r -> 0 <= f -> rordered r').
Proof.
  intros (A & B & C & D) W (WA & WB & WC & WD) M F.
  destruct (axis64 _ _ _ _ _ m _ A C W WA WC M F) as (c1 & h1 & l1 & i1 & _ & _ & L1 & I1 & P1 & Q1 & O1).
  destruct (axis64 _ _ _ _ _ m _ B D W WB WD M F) as (c2 & h2 & l2 & i2 & _ & _ & L2 & I2 & P2 & Q2 & O2).
  exists (mkrb l1 l2 i1 i2). split; [unfold isbox; cbn; tauto|]. split; [cbv zeta; cbn [X0 Y0 X1 Y1]; tauto|]. intros [R1 R2] F0. split; cbn [X0 Y0 X1 Y1]; auto.
Qed.
Lemma div64 b w f : isf w f -> (f = 0 -> bb_truediv b w = Err ZeroDivisionError) /\
  (/ IZR (2 ^ 100) <= Rabs f -> exists q, isf q (rnd (1 / f)) /\ bb_truediv b w = Ok (bb_scale b q)).
Proof.
  intros W. unfold bb_truediv, ndivE. cbn [neq nofZ NumF]. rewrite (isf_eq _ _ _ _ W (isf_int 0 ltac:(lia))). split.
  - intros ->. rewrite Req_bool_true by reflexivity. reflexivity.
  - intros L. assert (P : 0 < / IZR (2 ^ 100)) by (apply Rinv_0_lt_compat; lra). assert (N : f <> 0) by (intros ->; rewrite Rabs_R0 in L; lra).
    rewrite Req_bool_false by exact N. exists (fdiv (fofZ 1) w). split; [|reflexivity]. apply isf_fdiv; [apply (isf_int 1); lia|exact W|exact N|].
    apply small_le. unfold Rdiv. rewrite Rmult_1_l, Rabs_inv. rewrite <- (Rinv_inv (IZR (2 ^ 100))). apply Rinv_le_contravar; [exact P|exact L].
Qed.
