(** The canvas box of drawings with double coordinates. *)
From Coq Require Import ZArith Reals Lia Lra List SpecFloat Bool.
From Flocq Require Import Core IEEE754.BinarySingleNaN.
From Verif Require Import Num RealNum FloatLib GridFloat BBoxModel StrModel Text VectorModel BBoxFloatSpec BBoxFloat VectorSpecR FrameSpec FrameProofs VectorPage VectorFloatSpec.
From Verif Require BBoxScale.
Import ListNotations.
Open Scope R_scope.

Notation uu := (/ 9007199254740992) (only parsing).
Definition fm (r : R) : Prop := generic_format radix2 fexp64 r.
Lemma fm_isf x r : isf x r -> fm r. Proof. apply isf_format. Qed.
Lemma rel_add a b : fm a -> fm b -> Rabs (rnd (a + b) - (a + b)) <= Rabs (a + b) * uu.
Proof. apply BBoxScale.add_rel. Qed.
Lemma rel_sub a b : fm a -> fm b -> Rabs (rnd (a - b) - (a - b)) <= Rabs (a - b) * uu.
Proof. apply BBoxScale.sub_rel. Qed.
Lemma pow400 : bpow radix2 400 = 2 ^ 400. Proof. rewrite bpow_powerRZ. unfold powerRZ. f_equal. Qed.
Lemma pow_400 : bpow radix2 (-400) = / 2 ^ 400. Proof. change (-400)%Z with (- (400))%Z. rewrite bpow_opp, pow400. reflexivity. Qed.
Lemma pow50 : 2 ^ 50 = 1125899906842624. Proof. lra. Qed.
Lemma pow51 : 2 ^ 51 = 2251799813685248. Proof. lra. Qed.
Lemma pow_chain : / 2 ^ 500 <= / 2 * / 2 ^ 400 /\ 2 ^ 50 * 2 ^ 400 * 4 <= 2 ^ 500 /\ 0 < / 2 ^ 400.
Proof.
  rewrite <- pow_500, <- pow500, <- pow_400, <- pow400. split; [|split].
  - change (/ 2) with (bpow radix2 (-1)). rewrite <- bpow_plus. apply bpow_le. lia.
  - replace (2 ^ 50) with (bpow radix2 50) by (rewrite bpow_powerRZ; unfold powerRZ; f_equal). change 4 with (bpow radix2 2). rewrite <- !bpow_plus. apply bpow_le. lia.
  - apply bpow_gt_0.
Qed.
Lemma rnd_abs500 v : Rabs v <= 2 ^ 500 -> Rabs (rnd v) <= 2 ^ 500.
Proof. rewrite <- pow500. apply rnd_abs_le. lia. Qed.
(** ** One direction: a rounded interval around an exact one *)
Definition sideF (lo hi a b : R) : Prop :=
  side lo hi /\ lo < hi /\ Rabs (a - lo) <= slack lo hi /\ Rabs (b - hi) <= slack lo hi.
Lemma slack_max lo hi : 0 <= slack lo hi /\ Rabs lo <= slack lo hi * 2251799813685248 /\ Rabs hi <= slack lo hi * 2251799813685248.
Proof.
  unfold slack. rewrite pow51. pose proof (Rmax_l (Rabs lo) (Rabs hi)). pose proof (Rmax_r (Rabs lo) (Rabs hi)). pose proof (Rabs_pos lo). lra.
Qed.
Lemma abs_back v r : Rabs (r - v) <= Rabs v * uu -> Rabs v <= Rabs r * (1 + / 4503599627370496).
Proof.
  intros H. assert (Rabs v <= Rabs r + Rabs (r - v)). { replace v with (r - (r - v)) at 1 by ring. eapply Rle_trans; [apply Rabs_triang|]. rewrite Rabs_Ropp. lra. }
  pose proof (Rabs_pos v). pose proof (Rabs_pos r). lra.
Qed.
Lemma circle_side x r : fm x -> fm r -> span x r -> sideF (rnd (x - r)) (rnd (x + r)) (x - r) (x + r).
Proof.
  intros X Rr ((L & U) & B). destruct pow_chain as (P1 & P2 & P3). rewrite pow50 in B.
  pose proof (rel_sub x r X Rr) as E1. pose proof (rel_add x r X Rr) as E2.
  assert (B1 : Rabs (x - r) <= 1125899906842625 * r) by (apply Rabs_le_inv in B; apply Rabs_le; lra).
  assert (B2 : Rabs (x + r) <= 1125899906842625 * r) by (apply Rabs_le_inv in B; apply Rabs_le; lra).
  set (lo := rnd (x - r)) in *. set (hi := rnd (x + r)) in *.
  pose proof (abs_back _ _ E1) as K1. pose proof (abs_back _ _ E2) as K2. destruct (slack_max lo hi) as (S0 & S1 & S2).
  assert (T1 : Rabs (x - r - lo) <= slack lo hi) by (rewrite Rabs_minus_sym; lra).
  assert (T2 : Rabs (x + r - hi) <= slack lo hi) by (rewrite Rabs_minus_sym; lra).
  assert (D : r <= hi - lo).
  { assert (A1 : Rabs (lo - (x - r)) <= / 7 * r) by lra. assert (A2 : Rabs (hi - (x + r)) <= / 7 * r) by lra. apply Rabs_le_inv in A1. apply Rabs_le_inv in A2. lra. }
  assert (Q1 : Rabs lo <= 2 ^ 500) by (apply (rnd_abs500 (x - r)); lra).
  assert (Q2 : Rabs hi <= 2 ^ 500) by (apply (rnd_abs500 (x + r)); lra).
  split; [split; [exact Q1|split; [exact Q2|right; lra]]|]. split; [lra|]. split; assumption.
Qed.
Lemma image_side x s : fm x -> span x s -> sideF x (rnd (rnd s + x)) x (x + s).
Proof.
  intros X ((L & U) & B). destruct pow_chain as (P1 & P2 & P3). rewrite pow50 in B.
  assert (Rs : Rabs (rnd s - s) <= s * (uu * (1 + / 100))).
  { destruct (rnd_rel s) as (e & d & E & D & ->). replace (s * (1 + e) + d - s) with (s * e + d) by ring. eapply Rle_trans; [apply Rabs_triang|].
    assert (Rabs (s * e) <= s * uu) by (rewrite Rabs_mult, (Rabs_pos_eq s) by lra; apply Rmult_le_compat_l; lra).
    assert (bpow radix2 (-1000) <= s * (uu * / 100)).
    { apply Rle_trans with (bpow radix2 (-400) * bpow radix2 (-60)); [rewrite <- bpow_plus; apply bpow_le; lia|].
      apply Rmult_le_compat; try apply bpow_ge_0; [rewrite pow_400; exact L|]. change (bpow radix2 (-60)) with (/ 1152921504606846976). lra. }
    lra. }
  assert (F : fm (rnd s)) by (apply generic_format_round; [apply fexp64_valid|apply valid_rnd_N]).
  pose proof (rel_add (rnd s) x F X) as E2. set (t := rnd s) in *. set (hi := rnd (t + x)) in *.
  pose proof (abs_back _ _ E2) as K2. destruct (slack_max x hi) as (S0 & S1 & S2).
  apply Rabs_le_inv in Rs. 
  assert (B2 : Rabs (t + x) <= 1125899906842626 * s) by (apply Rabs_le_inv in B; apply Rabs_le; lra).
  assert (A2 : Rabs (hi - (t + x)) <= / 7 * s) by lra.
  assert (TS : t <= Rabs (t + x) + Rabs x). { replace t with ((t + x) - x) at 1 by ring. pose proof (Rle_abs (t + x)). pose proof (Rle_abs (- x)). rewrite Rabs_Ropp in *. lra. }
  assert (T2 : Rabs (x + s - hi) <= slack x hi).
  { replace (x + s - hi) with (- (hi - (t + x)) + (- (t - s))) by ring. eapply Rle_trans; [apply Rabs_triang|]. rewrite !Rabs_Ropp.
    assert (Rabs (t - s) <= s * (uu * (1 + / 100))) by (apply Rabs_le; lra). lra. }
  assert (Q1 : Rabs x <= 2 ^ 500) by lra.
  assert (Q2 : Rabs hi <= 2 ^ 500) by (apply (rnd_abs500 (t + x)); lra).
  apply Rabs_le_inv in A2.
  split; [split; [exact Q1|split; [exact Q2|right; lra]]|]. split; [lra|]. split; [replace (x - x) with 0 by ring; rewrite Rabs_R0; exact S0|exact T2].
Qed.
Lemma grow_doubles b r p P : doubles b r -> isp p P -> doubles (bb_grow b p) (bb_grow r P).
Proof.
  intros (A0 & A1 & A2 & A3) (PX & PY). destruct p as [x y], P as [X Y]. cbn [fst snd] in *. unfold bb_grow.
  change (@nlt f64 NumF) with SFltb. change (@nlt R NumR) with RealNum.Rlt_bool.
  assert (SB : forall u v, RealNum.Rlt_bool u v = Raux.Rlt_bool u v) by (intros u v; destruct (RealNum.Rlt_bool_spec u v), (Raux.Rlt_bool_spec u v); try reflexivity; lra).
  rewrite !SB.
  rewrite (isf_lt _ _ _ _ PX A0), (isf_lt _ _ _ _ A2 PX), (isf_lt _ _ _ _ PY A1), (isf_lt _ _ _ _ A3 PY).
  destruct (Raux.Rlt_bool X (bx0 r)), (Raux.Rlt_bool (bx1 r) X), (Raux.Rlt_bool Y (by0 r)), (Raux.Rlt_bool (by1 r) Y); unfold doubles; cbn [bx0 by0 bx1 by1]; repeat split; assumption.
Qed.
Lemma fold_doubles l L : Forall2 isp l L -> forall b r, doubles b r -> doubles (fold_left bb_grow l b) (fold_left bb_grow L r).
Proof. induction 1 as [|p P l L I F IH]; intros b r D; cbn [fold_left]; [exact D|]. apply IH. apply grow_doubles; assumption. Qed.
(** ** The box of a shape *)
Definition shape_ok (o : op R) (r : bbox R) : Prop :=
  ordinary r /\ BBoxFloatSpec.solid r /\ (forall p, drawn o p -> coversF r p) /\ touchesF [o] r.
Lemma between_cover lo hi a b v : sideF lo hi a b -> a <= v <= b -> lo - slack lo hi <= v <= hi + slack lo hi.
Proof. intros (_ & _ & A & B) V. apply Rabs_le_inv in A. apply Rabs_le_inv in B. lra. Qed.
Lemma poly_shape o (L : list (R * R)) P r : L = P :: r -> (forall p, drawn o p <-> exists u v, In u L /\ In v L /\ segment u v p) ->
  spread_out (map fst L) -> spread_out (map snd L) -> shape_ok o (fold_left bb_grow r (bb_corners P P)).
Proof.
  intros E Dr (FX & a & b & Ia & Ib & LX) (FY & c & d & Ic & Id & LY). destruct pow_chain as (P1 & P2 & P3).
  assert (T : tight (fold_left bb_grow r (bb_corners P P)) L) by (subst L; apply points_tight; reflexivity).
  set (bx := fold_left bb_grow r (bb_corners P P)) in *. clearbody bx.
  assert (L4 : 2 ^ 400 <= 2 ^ 500) by (rewrite <- pow500, <- pow400; apply bpow_le; lia).
  apply in_map_iff in Ia. destruct Ia as (pa & <- & Ia). apply in_map_iff in Ib. destruct Ib as (pb & <- & Ib).
  apply in_map_iff in Ic. destruct Ic as (pc & <- & Ic). apply in_map_iff in Id. destruct Id as (pd & <- & Id).
  pose proof (poly_touches o L bx Dr T) as TT.
  destruct T as (Cv & (q0 & J0 & Q0) & (q1 & J1 & Q1) & (q2 & J2 & Q2) & (q3 & J3 & Q3)).
  rewrite Forall_forall in FX, FY.
  assert (GX : forall q, In q L -> Rabs (fst q) <= 2 ^ 500) by (intros q J; specialize (FX (fst q) (in_map fst _ _ J)); cbv beta in FX; lra).
  assert (GY : forall q, In q L -> Rabs (snd q) <= 2 ^ 500) by (intros q J; specialize (FY (snd q) (in_map snd _ _ J)); cbv beta in FY; lra).
  pose proof (Cv pa Ia) as [Ca _]. pose proof (Cv pb Ib) as [Cb _]. pose proof (Cv pc Ic) as [_ Cc]. pose proof (Cv pd Id) as [_ Cd].
  destruct (slack_max (bx0 bx) (bx1 bx)) as (SX & _). destruct (slack_max (by0 bx) (by1 bx)) as (SY & _).
  split; [|split; [|split]].
  - split; (split; [|split; [|right; lra]]); [rewrite <- Q0|rewrite <- Q1|rewrite <- Q2|rewrite <- Q3]; auto.
  - split; lra.
  - intros p Dp. apply Dr in Dp. destruct Dp as (u & v & Iu & Iv & (t & Ht & Ex & Ey)). destruct (Cv u Iu) as [U1 U2]. destruct (Cv v Iv) as [V1 V2].
    pose proof (seg_between _ _ _ _ _ t U1 V1 Ht Ex). pose proof (seg_between _ _ _ _ _ t U2 V2 Ht Ey). split; lra.
  - destruct TT as ((o1 & p1 & I1 & D1 & E1) & (o2 & p2 & I2 & D2 & E2) & (o3 & p3 & I3 & D3 & E3) & (o4 & p4 & I4 & D4 & E4)).
    assert (Z : forall x y s, x = y -> 0 <= s -> Rabs (x - y) <= s) by (intros x y s -> S; replace (y - y) with 0 by ring; rewrite Rabs_R0; exact S).
    split; [exists o1, p1; auto|]. split; [exists o2, p2; auto|]. split; [exists o3, p3; auto|exists o4, p4; auto].
Qed.
Lemma image_shape (o : op R) x y z X Y Z w h : isf x X -> isf y Y -> isf z Z -> (0 < w <= 2 ^ 53)%Z -> (0 < h <= 2 ^ 53)%Z ->
  span X (IZR w * Z) -> span Y (IZR h * Z) -> (forall p, drawn o p <-> X <= fst p <= X + IZR w * Z /\ Y <= snd p <= Y + IZR h * Z) ->
  exists r, doubles (bb_corners (x, y) (nadd (nmul (nofZ w) z) x, nadd (nmul (nofZ h) z) y)) r /\ shape_ok o r.
Proof.
  intros I1 I2 Iz W1 H1 SX SY Dr. destruct pow_chain as (P1 & P2 & P3).
  assert (S5 : forall v, Rabs v <= 2 ^ 500 -> small v) by (intros v; rewrite <- pow500; apply BBoxScale.small_at; lia).
  assert (Jw : isf (nofZ w) (IZR w)) by (apply (isf_int w); lia). assert (Jh : isf (nofZ h) (IZR h)) by (apply (isf_int h); lia).
  pose proof (image_side X _ (fm_isf _ _ I1) SX) as CX. pose proof (image_side Y _ (fm_isf _ _ I2) SY) as CY.
  assert (SM : forall v t, span v t -> small t /\ small (rnd t + v) /\ 0 < t).
  { intros v t ((L & U) & B). rewrite pow50 in *. assert (H : Rabs t <= 2 ^ 400) by (rewrite Rabs_pos_eq; lra).
    assert (H' : Rabs (rnd t) <= 2 ^ 400) by (rewrite <- pow400 in *; apply rnd_abs_le; [lia|exact H]).
    split; [apply S5; lra|]. split; [apply S5; apply Rabs_le_inv in B; apply Rabs_le_inv in H'; apply Rabs_le; lra|lra]. }
  destruct (SM _ _ SX) as (M1 & M2 & M3). destruct (SM _ _ SY) as (M4 & M5 & M6).
  exists (mkbb X Y (rnd (rnd (IZR w * Z) + X)) (rnd (rnd (IZR h * Z) + Y))). split.
  { unfold doubles, bb_corners. cbn [bx0 by0 bx1 by1 fst snd]. split; [exact I1|]. split; [exact I2|].
    split; (apply isf_fadd; [apply isf_fmul; assumption|assumption|assumption]). }
  split; [|split; [|split]].
  - split; [apply CX|apply CY].
  - split; [apply CX|apply CY].
  - intros p Dp. apply Dr in Dp. split; cbn [bx0 by0 bx1 by1]; [apply (between_cover _ _ X (X + IZR w * Z)); [exact CX|apply Dp]|apply (between_cover _ _ Y (Y + IZR h * Z)); [exact CY|apply Dp]].
  - destruct CX as (_ & _ & A1 & A2). destruct CY as (_ & _ & A3 & A4).
    split; [exists o, (X, Y)|split; [exists o, (X + IZR w * Z, Y)|split; [exists o, (X, Y)|exists o, (X, Y + IZR h * Z)]]]; cbn [bx0 by0 bx1 by1 fst snd]; (split; [left; reflexivity|split; [apply Dr; cbn [fst snd]; lra|assumption]]).
Qed.
Lemma shape_box o O ob : geo o O -> plain O -> obox o = Some ob -> exists r, doubles ob r /\ shape_ok O r.
Proof.
  intros G Pl Q. assert (S5 : forall v e, (e <= 1000)%Z -> Rabs v <= bpow radix2 e -> small v) by (intros v e He; apply BBoxScale.small_at; lia).
  destruct pow_chain as (P1 & P2 & P3).
  destruct G as [[x y] [X Y] r r' f s f' s' [I1 I2] Ir|l L s s' F|l L f s f' s' F|l L r r' f s f' s' F|d w p P z z' c Ip Iz|d w z z' c Iz| |o o' K K'].
  - cbn [fst snd] in *. cbn [obox] in Q. injection Q as <-. cbn [plain] in Pl. destruct Pl as [SX SY].
    pose proof (circle_side X r' (fm_isf _ _ I1) (fm_isf _ _ Ir) SX) as CX. pose proof (circle_side Y r' (fm_isf _ _ I2) (fm_isf _ _ Ir) SY) as CY.
    assert (SM : forall v, span v r' -> small (v - r') /\ small (v + r')).
    { intros v ((L & U) & B). rewrite pow50 in *. assert (H : Rabs (v - r') <= 2 ^ 500 /\ Rabs (v + r') <= 2 ^ 500) by (apply Rabs_le_inv in B; split; apply Rabs_le; lra).
      rewrite <- pow500 in H. split; apply (S5 _ 500%Z); try lia; apply H. }
    destruct (SM X SX) as [M1 M2]. destruct (SM Y SY) as [M3 M4].
    exists (mkbb (rnd (X - r')) (rnd (Y - r')) (rnd (X + r')) (rnd (Y + r'))). split.
    { unfold doubles, bb_corners. cbn [bx0 by0 bx1 by1 fst snd]. split; [apply isf_fsub; assumption|]. split; [apply isf_fsub; assumption|]. split; apply isf_fadd; assumption. }
    assert (PR : 0 <= r') by (destruct SX as ((L & U) & B); lra).
    split; [|split; [|split]].
    + split; [apply CX|apply CY].
    + split; [apply CX|apply CY].
    + intros [px py] Dp. cbn [drawn fst snd] in Dp. split; cbn [fst snd bx0 by0 bx1 by1].
      * apply (between_cover _ _ (X - r') (X + r')); [exact CX|]. assert (E : Rabs (px - X) <= r') by (apply pow_sq_le; [exact PR|pose proof (pow2_ge_0 (py - Y)); lra]). apply Rabs_def2_le in E. lra.
      * apply (between_cover _ _ (Y - r') (Y + r')); [exact CY|]. assert (E : Rabs (py - Y) <= r') by (apply pow_sq_le; [exact PR|pose proof (pow2_ge_0 (px - X)); lra]). apply Rabs_def2_le in E. lra.
    + destruct CX as (_ & _ & A1 & A2). destruct CY as (_ & _ & A3 & A4). set (o := OCircle (X, Y) r' f' s').
      split; [exists o, (X - r', Y)|split; [exists o, (X + r', Y)|split; [exists o, (X, Y - r')|exists o, (X, Y + r')]]]; cbn [bx0 by0 bx1 by1 fst snd]; (split; [left; reflexivity|split; [cbn [drawn o fst snd]; nra|assumption]]).
  - destruct F as [|p P l L Ip F]; [discriminate|]. cbn [obox] in Q. injection Q as <-. cbn [plain] in Pl. destruct Pl as [Pl|[PX PY]]; [discriminate|].
    exists (fold_left bb_grow L (bb_corners P P)). split; [apply (fold_doubles _ _ F); destruct Ip; unfold doubles, bb_corners; cbn; auto|].
    apply (poly_shape _ (P :: L) P L eq_refl); [intros q; reflexivity|exact PX|exact PY].
  - destruct F as [|p P l L Ip F]; [discriminate|]. cbn [obox] in Q. injection Q as <-. cbn [plain] in Pl. destruct Pl as [Pl|[PX PY]]; [discriminate|].
    exists (fold_left bb_grow L (bb_corners P P)). split; [apply (fold_doubles _ _ F); destruct Ip; unfold doubles, bb_corners; cbn; auto|].
    apply (poly_shape _ (P :: L) P L eq_refl); [intros q; reflexivity|exact PX|exact PY].
  - destruct F as [|p P l L Ip F]; [discriminate|]. cbn [obox] in Q. injection Q as <-. cbn [plain] in Pl. destruct Pl as [Pl|[PX PY]]; [discriminate|].
    exists (fold_left bb_grow L (bb_corners P P)). split; [apply (fold_doubles _ _ F); destruct Ip; unfold doubles, bb_corners; cbn; auto|].
    apply (poly_shape _ (P :: L) P L eq_refl); [intros q; reflexivity|exact PX|exact PY].
  - destruct p as [x y], P as [X Y]. destruct Ip as [I1 I2]. cbn [fst snd] in I1, I2. cbn [obox] in Q. injection Q as <-. cbn [plain] in Pl. destruct Pl as (W1 & H1 & _ & SX & SY).
    apply (image_shape _ x y z X Y z' w (img_height d w c)); try assumption. intros q. reflexivity.
  - cbn [obox] in Q. injection Q as <-. cbn [plain] in Pl. destruct Pl as (W1 & H1 & _ & SX & SY).
    assert (I0 : isf (nofZ 0) 0) by (apply (isf_int 0); lia).
    exact (image_shape (OImage d w None z' c) (nofZ 0) (nofZ 0) z 0 0 z' w (img_height d w c) I0 I0 Iz W1 H1 SX SY (fun q => iff_refl _)).
  - discriminate.
  - exfalso. destruct o; cbn in *; try contradiction; discriminate.
Qed.

(** ** The canvas box after a history *)
Definition boxed (l : list (op R)) (b : bbox f64) : Prop :=
  (b = bb_empty /\ forall o p, In o l -> ~ drawn o p) \/
  (exists r, doubles b r /\ ordinary r /\ BBoxFloatSpec.solid r /\ (forall o p, In o l -> drawn o p -> coversF r p) /\ touchesF l r).
Lemma slack_mono lo hi lo' hi' : lo' <= lo -> lo <= hi -> hi <= hi' -> slack lo hi <= slack lo' hi'.
Proof.
  intros A B C. unfold slack. apply Rmult_le_compat_r; [left; apply Rinv_0_lt_compat; lra|].
  apply Rmax_lub; apply Rabs_le; pose proof (Rmax_l (Rabs lo') (Rabs hi')); pose proof (Rmax_r (Rabs lo') (Rabs hi'));
    pose proof (Rle_abs lo'); pose proof (Rle_abs hi'); pose proof (Rle_abs (- lo')); pose proof (Rle_abs (- hi')); rewrite Rabs_Ropp in *; lra.
Qed.
Lemma covers_more a b p : BBoxFloatSpec.solid a -> BBoxFloatSpec.within a b -> coversF a p -> coversF b p.
Proof.
  intros (S1 & S2) (W1 & W2 & W3 & W4) (C1 & C2). pose proof (slack_mono (bx0 a) (bx1 a) (bx0 b) (bx1 b) W1 ltac:(lra) W3). pose proof (slack_mono (by0 a) (by1 a) (by0 b) (by1 b) W2 ltac:(lra) W4).
  split; lra.
Qed.
Lemma touch_pick (l m : list (op R)) (P : R * R -> R) (a b c sa sb sc : R) : (c = a \/ c = b) -> sa <= sc -> sb <= sc ->
  (exists o p, In o l /\ drawn o p /\ Rabs (P p - a) <= sa) -> (exists o p, In o m /\ drawn o p /\ Rabs (P p - b) <= sb) ->
  exists o p, In o (l ++ m) /\ drawn o p /\ Rabs (P p - c) <= sc.
Proof.
  intros [->| ->] A B (o & p & I & D & E) (o' & p' & I' & D' & E').
  - exists o, p. split; [apply in_or_app; auto|]. split; [exact D|lra].
  - exists o', p'. split; [apply in_or_app; auto|]. split; [exact D'|lra].
Qed.
Lemma touch_union l m a b u : BBoxFloatSpec.solid a -> BBoxFloatSpec.solid b -> BBoxFloatSpec.within a u -> BBoxFloatSpec.within b u ->
  (forall c, BBoxFloatSpec.within a c -> BBoxFloatSpec.within b c -> BBoxFloatSpec.within u c) -> touchesF l a -> touchesF m b -> touchesF (l ++ m) u.
Proof.
  intros (SA1 & SA2) (SB1 & SB2) WA WB LE (T0 & T1 & T2 & T3) (U0 & U1 & U2 & U3).
  set (c := mkbb (Rmin (bx0 a) (bx0 b)) (Rmin (by0 a) (by0 b)) (Rmax (bx1 a) (bx1 b)) (Rmax (by1 a) (by1 b))).
  assert (Wc : BBoxFloatSpec.within u c).
  { apply LE; unfold BBoxFloatSpec.within, c; cbn [bx0 by0 bx1 by1]; auto using Rmin_l, Rmin_r, Rmax_l, Rmax_r. }
  destruct WA as (A1 & A2 & A3 & A4). destruct WB as (B1 & B2 & B3 & B4). destruct Wc as (C1 & C2 & C3 & C4). cbn [c bx0 by0 bx1 by1] in C1, C2, C3, C4.
  pose proof (slack_mono (bx0 a) (bx1 a) (bx0 u) (bx1 u) A1 ltac:(lra) A3). pose proof (slack_mono (by0 a) (by1 a) (by0 u) (by1 u) A2 ltac:(lra) A4).
  pose proof (slack_mono (bx0 b) (bx1 b) (bx0 u) (bx1 u) B1 ltac:(lra) B3). pose proof (slack_mono (by0 b) (by1 b) (by0 u) (by1 u) B2 ltac:(lra) B4).
  assert (M : forall x y z, Rmin x y <= z -> z <= x -> z <= y -> z = x \/ z = y) by (intros x y z; unfold Rmin; destruct (Rle_dec x y); intros; [left|right]; lra).
  assert (M' : forall x y z, z <= Rmax x y -> x <= z -> y <= z -> z = x \/ z = y) by (intros x y z; unfold Rmax; destruct (Rle_dec x y); intros; [right|left]; lra).
  split; [|split; [|split]].
  - apply (touch_pick l m fst (bx0 a) (bx0 b) (bx0 u) (slack (bx0 a) (bx1 a)) (slack (bx0 b) (bx1 b))); auto.
  - apply (touch_pick l m fst (bx1 a) (bx1 b) (bx1 u) (slack (bx0 a) (bx1 a)) (slack (bx0 b) (bx1 b))); auto.
  - apply (touch_pick l m snd (by0 a) (by0 b) (by0 u) (slack (by0 a) (by1 a)) (slack (by0 b) (by1 b))); auto.
  - apply (touch_pick l m snd (by1 a) (by1 b) (by1 u) (slack (by0 a) (by1 a)) (slack (by0 b) (by1 b))); auto.
Qed.
Lemma step_box l b O ob r : boxed l b -> doubles ob r -> shape_ok O r -> boxed (l ++ [O]) (bb_or b ob).
Proof.
  intros B D (OR & SR & CR & TR). right. destruct B as [[-> N]|(q & DQ & OQ & SQ & CQ & TQ)].
  - assert (OE : ordinary zero_box).
    { assert (side 0 0) by (split; [rewrite Rabs_R0; apply pow_le; lra|]; split; [rewrite Rabs_R0; apply pow_le; lra|left; reflexivity]). split; assumption. }
    destruct (or_flat bb_empty ob zero_box r empty_doubles D OE OR) as [F _]. rewrite F by (intros [S _]; unfold zero_box in S; cbn in S; lra).
    exists r. split; [exact D|]. split; [exact OR|]. split; [exact SR|]. split.
    + intros o p I Dr. apply in_app_or in I. destruct I as [I|[<-|[]]]; [elim (N o p I Dr)|apply CR; exact Dr].
    + destruct TR as ((o1 & p1 & I1 & X1) & (o2 & p2 & I2 & X2) & (o3 & p3 & I3 & X3) & (o4 & p4 & I4 & X4)).
      split; [exists o1, p1|split; [exists o2, p2|split; [exists o3, p3|exists o4, p4]]]; split; auto using in_or_app.
  - destruct (or_doubles b ob q r DQ D OQ OR SQ SR) as (u & DU & OU & SU & W1 & W2 & LE).
    exists u. split; [exact DU|]. split; [exact OU|]. split; [exact SU|]. split; [|apply (touch_union l [O] q r u); assumption].
    intros o p I Dr. apply in_app_or in I. destruct I as [I|[<-|[]]]; [apply (covers_more q u p SQ W1); eauto|apply (covers_more r u p SR W2); auto].
Qed.
Lemma boxed_quiet l b O : boxed l b -> (forall p, ~ drawn O p) -> boxed (l ++ [O]) b.
Proof.
  intros [[-> N]|(q & DQ & OQ & SQ & CQ & TQ)] NO; [left; split; [reflexivity|]|right].
  - intros o p I. apply in_app_or in I. destruct I as [I|[<-|[]]]; auto.
  - exists q. split; [exact DQ|]. split; [exact OQ|]. split; [exact SQ|]. split.
    + intros o p I Dr. apply in_app_or in I. destruct I as [I|[<-|[]]]; [eauto|elim (NO p Dr)].
    + destruct TQ as ((o1 & p1 & I1 & X1) & (o2 & p2 & I2 & X2) & (o3 & p3 & I3 & X3) & (o4 & p4 & I4 & X4)).
      split; [exists o1, p1|split; [exists o2, p2|split; [exists o3, p3|exists o4, p4]]]; split; auto using in_or_app.
Qed.
Lemma obox_none o O : geo o O -> obox o = None -> forall p, ~ drawn O p.
Proof.
  intros G Q p. destruct G as [[x y] [X Y] r r' f s f' s' [I1 I2] Ir|l L s s' F|l L f s f' s' F|l L r r' f s f' s' F|d w [x y] P z z' c Ip Iz|d w z z' c Iz| |o o' K K'].
  - discriminate.
  - destruct F; [|discriminate]. intros (a & b & [] & _).
  - destruct F; [|discriminate]. intros (a & b & [] & _).
  - destruct F; [|discriminate]. intros (a & b & [] & _).
  - discriminate.
  - discriminate.
  - intros [].
  - destruct o'; cbn in *; try contradiction; auto.
Qed.
Lemma boxed_history ops : forall OPS h c h' c' acc, history h c ops = Some (h', c') -> Forall2 geo ops OPS -> Forall plain OPS ->
  boxed acc (cv_bbox c) -> boxed (since acc OPS) (cv_bbox c').
Proof.
  induction ops as [|o ops IH]; intros OPS h c h' c' acc Hh G Pl B; inversion G as [|o' O ops' OPS' G1 G2]; subst.
  - cbn [history] in Hh. injection Hh as <- <-. exact B.
  - cbn [history] in Hh. destruct (perform h c o) as [h1 [c1 [[]|e]]] eqn:P; [|discriminate]. pose proof (perform_box h c o h1 c1 P) as PB.
    inversion Pl as [|? ? P1 P2]; subst.
    assert (R : (o = OReset /\ O = OReset) \/ (o <> OReset /\ since acc (O :: OPS') = since (acc ++ [O]) OPS')).
    { destruct G1; try (right; split; [discriminate|reflexivity]); [left; auto|right]. destruct o, o'; cbn in *; try contradiction; split; try discriminate; reflexivity. }
    destruct R as [[-> ->]|[NR Es]].
    + cbn [since]. apply (IH OPS' h1 c1 h' c' []); try assumption. rewrite PB. left. split; [reflexivity|intros o p []].
    + rewrite Es. apply (IH OPS' h1 c1 h' c' (acc ++ [O])); try assumption. rewrite PB.
      assert (E : forall (A : Type) (u v : A), match o with OReset => u | _ => v end = v) by (intros; destruct o; try reflexivity; contradiction).
      rewrite E. destruct (obox o) as [ob|] eqn:Q.
      * destruct (shape_box o O ob G1 P1 Q) as (r & D & S). apply (step_box acc _ O ob r); assumption.
      * apply boxed_quiet; [exact B|exact (obox_none o O G1 Q)].
Qed.
