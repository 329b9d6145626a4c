(** Boxes of doubles: the operations agree with those on the real corners. *)
From Coq Require Import Reals Lra Lia ZArith Bool SpecFloat.
From Flocq Require Import Core IEEE754.BinarySingleNaN.
From Verif Require Import Num BBoxModel FloatLib BBoxFloatSpec.
Open Scope R_scope.

Lemma pow500 : bpow radix2 500 = 2 ^ 500.
Proof. rewrite bpow_powerRZ. unfold powerRZ. f_equal. Qed.
Lemma pow_500 : bpow radix2 (-500) = / 2 ^ 500.
Proof. change (-500)%Z with (- (500))%Z. rewrite bpow_opp, pow500. reflexivity. Qed.
Lemma rnd_ge e r : (-1074 <= e)%Z -> bpow radix2 e <= r -> bpow radix2 e <= rnd r.
Proof.
  intros He H. apply round_ge_generic; [apply fexp64_valid|apply valid_rnd_N| |exact H].
  apply generic_format_bpow. unfold fexp64, SpecFloat.fexp, SpecFloat.emin. lia.
Qed.
Lemma rnd_0 : rnd 0 = 0.
Proof. apply round_0. apply valid_rnd_N. Qed.

Lemma side_small lo hi : side lo hi -> Rabs (hi - lo) <= bpow radix2 501.
Proof.
  intros (A & B & _). change 501%Z with (500 + 1)%Z. rewrite bpow_plus, pow500. change (bpow radix2 1) with 2.
  apply Rabs_le_inv in A. apply Rabs_le_inv in B. apply Rabs_le. lra.
Qed.
Lemma side_width lo hi : side lo hi ->
  (lo = hi /\ rnd (hi - lo) = 0) \/ (lo < hi /\ bpow radix2 (-500) <= rnd (hi - lo)).
Proof.
  intros (A & B & [E|L]); [left|right].
  - subst. split; [reflexivity|]. rewrite Rminus_diag_eq by reflexivity. apply rnd_0.
  - pose proof (bpow_gt_0 radix2 (-500)). rewrite <- pow_500 in L. split; [lra|]. apply rnd_ge; [lia|lra].
Qed.

Lemma bool_solid b r : doubles b r -> ordinary r -> (bb_bool b = true <-> solid r).
Proof.
  intros (X0 & Y0 & X1 & Y1) (SX & SY).
  assert (W : isf (fsub (bx1 b) (bx0 b)) (rnd (bx1 r - bx0 r))).
  { apply isf_fsub; [assumption..|]. apply (small_bpow _ 501); [lia|apply side_small, SX]. }
  assert (H : isf (fsub (by1 b) (by0 b)) (rnd (by1 r - by0 r))).
  { apply isf_fsub; [assumption..|]. apply (small_bpow _ 501); [lia|apply side_small, SY]. }
  assert (BW : Rabs (rnd (bx1 r - bx0 r)) <= bpow radix2 501) by (apply rnd_abs_le; [lia|apply side_small, SX]).
  assert (BH : Rabs (rnd (by1 r - by0 r)) <= bpow radix2 501) by (apply rnd_abs_le; [lia|apply side_small, SY]).
  assert (A : isf (bb_area b) (rnd (rnd (bx1 r - bx0 r) * rnd (by1 r - by0 r)))).
  { apply isf_fmul; [assumption..|]. apply (small_bpow _ 1002); [lia|].
    rewrite Rabs_mult. change 1002%Z with (501 + 501)%Z. rewrite bpow_plus.
    apply Rmult_le_compat; [apply Rabs_pos..| |]; assumption. }
  unfold bb_bool. change (@neq f64 NumF) with SFeqb. change (@nofZ f64 NumF 0) with (fofZ 0).
  rewrite (isf_eq _ _ _ _ A (isf_int 0 ltac:(lia))). unfold solid.
  destruct (side_width _ _ SX) as [(EX & RX)|(EX & RX)].
  - rewrite RX, Rmult_0_l, rnd_0. rewrite Req_bool_true by reflexivity. split; [discriminate|lra].
  - destruct (side_width _ _ SY) as [(EY & RY)|(EY & RY)].
    + rewrite RY, Rmult_0_r, rnd_0. rewrite Req_bool_true by reflexivity. split; [discriminate|lra].
    + pose proof (bpow_gt_0 radix2 (-500)) as P. pose proof (bpow_gt_0 radix2 (-1000)) as P'.
      assert (G : bpow radix2 (-1000) <= rnd (rnd (bx1 r - bx0 r) * rnd (by1 r - by0 r))).
      { apply rnd_ge; [lia|]. change (-1000)%Z with (-500 + -500)%Z. rewrite bpow_plus.
        apply Rmult_le_compat; lra. }
      rewrite Req_bool_false by lra. split; [tauto|reflexivity].
Qed.
Lemma bool_flat b r : doubles b r -> ordinary r -> ~ solid r -> bb_bool b = false.
Proof.
  intros D O N. destruct (bb_bool b) eqn:E; [|reflexivity]. elim N. apply (bool_solid b); assumption.
Qed.

Ltac rb :=
  repeat (first
    [ match goal with |- context [Rle_bool ?a ?b] => destruct (Rle_bool_spec a b) end
    | match goal with |- context [Rlt_bool ?a ?b] => destruct (Rlt_bool_spec a b) end ]).

Lemma has_point_inside b r px py x y : doubles b r -> isf px x -> isf py y ->
  (bb_has_point b (px, py) = true <-> inside r x y).
Proof.
  intros (X0 & Y0 & X1 & Y1) PX PY. unfold bb_has_point, inside.
  change (@nle f64 NumF) with SFleb. change (@nlt f64 NumF) with SFltb.
  rewrite (isf_le _ _ _ _ X0 PX), (isf_le _ _ _ _ Y0 PY), (isf_lt _ _ _ _ PX X1), (isf_lt _ _ _ _ PY Y1).
  rb; cbn [andb]; split; try discriminate; try reflexivity; lra.
Qed.
Lemma max_isf x y a b : isf x a -> isf y b -> isf (nmax x y) (Rmax a b).
Proof.
  intros X Y. unfold nmax. change (@nlt f64 NumF) with SFltb. rewrite (isf_lt _ _ _ _ X Y).
  destruct (Rlt_bool_spec a b); [rewrite Rmax_right by lra|rewrite Rmax_left by lra]; assumption.
Qed.
Lemma min_isf x y a b : isf x a -> isf y b -> isf (nmin x y) (Rmin a b).
Proof.
  intros X Y. unfold nmin. change (@nlt f64 NumF) with SFltb. rewrite (isf_lt _ _ _ _ Y X).
  destruct (Rlt_bool_spec b a); [rewrite Rmin_right by lra|rewrite Rmin_left by lra]; assumption.
Qed.
Definition zero_box : bbox R := mkbb 0 0 0 0.
Lemma empty_doubles : doubles bb_empty zero_box.
Proof. repeat split; apply (isf_int 0); lia. Qed.
Lemma inside_solid r x y : inside r x y -> solid r.
Proof. unfold inside, solid. lra. Qed.

Lemma and_doubles a b ra rb : doubles a ra -> doubles b rb -> ordinary ra -> ordinary rb ->
  exists ri, doubles (bb_and a b) ri /\
    (forall x y, inside ri x y <-> inside ra x y /\ inside rb x y) /\
    ((forall x y, ~ (inside ra x y /\ inside rb x y)) -> bb_and a b = bb_empty).
Proof.
  intros DA DB OA OB. unfold bb_and.
  assert (NE : forall x y, ~ inside zero_box x y) by (unfold inside, zero_box; cbn; intros; lra).
  destruct (bb_bool a) eqn:EA; cbn [negb orb].
  2:{ exists zero_box. split; [apply empty_doubles|]. split; [|reflexivity].
      intros x y. split; [intros I; elim (NE _ _ I)|]. intros [I _].
      apply inside_solid, (bool_solid a) in I; [congruence|assumption..]. }
  destruct (bb_bool b) eqn:EB; cbn [negb orb].
  2:{ exists zero_box. split; [apply empty_doubles|]. split; [|reflexivity].
      intros x y. split; [intros I; elim (NE _ _ I)|]. intros [_ I].
      apply inside_solid, (bool_solid b) in I; [congruence|assumption..]. }
  destruct DA as (A0 & A1 & A2 & A3). destruct DB as (B0 & B1 & B2 & B3).
  pose proof (max_isf _ _ _ _ A0 B0) as M0. pose proof (max_isf _ _ _ _ A1 B1) as M1.
  pose proof (min_isf _ _ _ _ A2 B2) as M2. pose proof (min_isf _ _ _ _ A3 B3) as M3.
  change (@nle f64 NumF) with SFleb. rewrite (isf_le _ _ _ _ M2 M0), (isf_le _ _ _ _ M3 M1).
  set (X0 := Rmax (bx0 ra) (bx0 rb)) in *. set (Y0 := Rmax (by0 ra) (by0 rb)) in *.
  set (X1 := Rmin (bx1 ra) (bx1 rb)) in *. set (Y1 := Rmin (by1 ra) (by1 rb)) in *.
  assert (SX : forall x, X0 <= x < X1 <-> bx0 ra <= x < bx1 ra /\ bx0 rb <= x < bx1 rb).
  { intros x. unfold X0, X1, Rmax, Rmin. destruct (Rle_dec (bx0 ra) (bx0 rb)), (Rle_dec (bx1 ra) (bx1 rb)); lra. }
  assert (SY : forall y, Y0 <= y < Y1 <-> by0 ra <= y < by1 ra /\ by0 rb <= y < by1 rb).
  { intros x. unfold Y0, Y1, Rmax, Rmin. destruct (Rle_dec (by0 ra) (by0 rb)), (Rle_dec (by1 ra) (by1 rb)); lra. }
  clearbody X0 Y0 X1 Y1.
  destruct (Rle_bool_spec X1 X0) as [L|L]; cbn [orb].
  { exists zero_box. split; [apply empty_doubles|]. split; [|reflexivity].
    intros x y. split; [intros I; elim (NE _ _ I)|]. unfold inside. intros [[I _] [J _]].
    pose proof (proj2 (SX x) (conj I J)). lra. }
  destruct (Rle_bool_spec Y1 Y0) as [L'|L']; cbn [orb].
  { exists zero_box. split; [apply empty_doubles|]. split; [|reflexivity].
    intros x y. split; [intros I; elim (NE _ _ I)|]. unfold inside. intros [[_ I] [_ J]].
    pose proof (proj2 (SY y) (conj I J)). lra. }
  exists (mkbb X0 Y0 X1 Y1). split; [repeat split; assumption|]. unfold inside. cbn [bx0 by0 bx1 by1]. split.
  - intros x y. rewrite SX, SY. tauto.
  - intros N. elim (N X0 Y0). pose proof (proj1 (SX X0)). pose proof (proj1 (SY Y0)).
    assert (X0 <= X0 < X1) by lra. assert (Y0 <= Y0 < Y1) by lra. tauto.
Qed.

Lemma or_doubles a b ra rb : doubles a ra -> doubles b rb -> ordinary ra -> ordinary rb ->
  solid ra -> solid rb ->
  exists ru, doubles (bb_or a b) ru /\ ordinary ru /\ solid ru /\ within ra ru /\ within rb ru /\
    (forall c, within ra c -> within rb c -> within ru c).
Proof.
  intros DA DB OA OB SA SB. unfold bb_or.
  rewrite (proj2 (bool_solid a ra DA OA) SA), (proj2 (bool_solid b rb DB OB) SB). cbn [negb].
  destruct DA as (A0 & A1 & A2 & A3). destruct DB as (B0 & B1 & B2 & B3).
  exists (mkbb (Rmin (bx0 ra) (bx0 rb)) (Rmin (by0 ra) (by0 rb)) (Rmax (bx1 ra) (bx1 rb)) (Rmax (by1 ra) (by1 rb))).
  split. { repeat split; cbn [bx0 by0 bx1 by1]; (apply max_isf || apply min_isf); assumption. }
  assert (Z : forall l h l' h', side l h -> side l' h' -> l < h -> l' < h' -> side (Rmin l l') (Rmax h h')).
  { intros l h l' h' (P1 & P2 & P3) (Q1 & Q2 & Q3) L L'. unfold side, Rmin, Rmax.
    destruct (Rle_dec l l'), (Rle_dec h h'); (split; [assumption|]); (split; [assumption|]); right; lra. }
  destruct OA as (OA1 & OA2). destruct OB as (OB1 & OB2). destruct SA as (SA1 & SA2). destruct SB as (SB1 & SB2).
  unfold ordinary, solid, within. cbn [bx0 by0 bx1 by1].
  split; [split; apply Z; assumption|].
  pose proof (Rmin_l (bx0 ra) (bx0 rb)). pose proof (Rmin_r (bx0 ra) (bx0 rb)).
  pose proof (Rmin_l (by0 ra) (by0 rb)). pose proof (Rmin_r (by0 ra) (by0 rb)).
  pose proof (Rmax_l (bx1 ra) (bx1 rb)). pose proof (Rmax_r (bx1 ra) (bx1 rb)).
  pose proof (Rmax_l (by1 ra) (by1 rb)). pose proof (Rmax_r (by1 ra) (by1 rb)).
  repeat (split; [lra|]). intros c C D.
  split; [apply Rmin_glb; lra|]. split; [apply Rmin_glb; lra|]. split; apply Rmax_lub; lra.
Qed.
Lemma or_flat a b ra rb : doubles a ra -> doubles b rb -> ordinary ra -> ordinary rb ->
  (~ solid ra -> bb_or a b = b) /\ (solid ra -> ~ solid rb -> bb_or a b = a).
Proof.
  intros DA DB OA OB. unfold bb_or. split.
  - intros N. rewrite (bool_flat a ra) by assumption. reflexivity.
  - intros S N. rewrite (proj2 (bool_solid a ra DA OA) S), (bool_flat b rb) by assumption. reflexivity.
Qed.

Lemma collide_doubles a b ra rb : doubles a ra -> doubles b rb -> solid ra -> solid rb ->
  (bb_collide a b = true <-> exists x y, inside ra x y /\ inside rb x y).
Proof.
  intros (A0 & A1 & A2 & A3) (B0 & B1 & B2 & B3) (SA1 & SA2) (SB1 & SB2). unfold bb_collide.
  change (@nle f64 NumF) with SFleb. change (@nlt f64 NumF) with SFltb.
  rewrite (isf_le _ _ _ _ A0 B0), (isf_le _ _ _ _ B0 A0), (isf_le _ _ _ _ A1 B1), (isf_le _ _ _ _ B1 A1).
  rewrite (isf_lt _ _ _ _ B0 A2), (isf_lt _ _ _ _ A0 B2), (isf_lt _ _ _ _ B1 A3), (isf_lt _ _ _ _ A1 B3).
  rewrite andb_true_iff, !orb_true_iff, !andb_true_iff. unfold inside. split.
  - intros [HX HY].
    assert (EX : exists x, bx0 ra <= x < bx1 ra /\ bx0 rb <= x < bx1 rb).
    { destruct HX as [[P Q]|[P Q]].
      - exists (bx0 rb). destruct (Rle_bool_spec (bx0 ra) (bx0 rb)); [|discriminate].
        destruct (Rlt_bool_spec (bx0 rb) (bx1 ra)); [|discriminate]. lra.
      - exists (bx0 ra). destruct (Rle_bool_spec (bx0 rb) (bx0 ra)); [|discriminate].
        destruct (Rlt_bool_spec (bx0 ra) (bx1 rb)); [|discriminate]. lra. }
    assert (EY : exists y, by0 ra <= y < by1 ra /\ by0 rb <= y < by1 rb).
    { destruct HY as [[P Q]|[P Q]].
      - exists (by0 rb). destruct (Rle_bool_spec (by0 ra) (by0 rb)); [|discriminate].
        destruct (Rlt_bool_spec (by0 rb) (by1 ra)); [|discriminate]. lra.
      - exists (by0 ra). destruct (Rle_bool_spec (by0 rb) (by0 ra)); [|discriminate].
        destruct (Rlt_bool_spec (by0 ra) (by1 rb)); [|discriminate]. lra. }
    destruct EX as (x & EX). destruct EY as (y & EY). exists x, y. tauto.
  - intros (x & y & (P1 & P2) & (Q1 & Q2)). split.
    + destruct (Rle_dec (bx0 ra) (bx0 rb)); [left|right]; split;
        (apply Rle_bool_true || apply Rlt_bool_true); lra.
    + destruct (Rle_dec (by0 ra) (by0 rb)); [left|right]; split;
        (apply Rle_bool_true || apply Rlt_bool_true); lra.
Qed.
Lemma has_bbox_doubles a b ra rb : doubles a ra -> doubles b rb ->
  (bb_has_bbox a b = true <-> inside ra (bx0 rb) (by0 rb) /\ inside ra (bx1 rb) (by1 rb)).
Proof.
  intros DA (B0 & B1 & B2 & B3). unfold bb_has_bbox. rewrite andb_true_iff.
  rewrite (has_point_inside a ra _ _ _ _ DA B0 B1), (has_point_inside a ra _ _ _ _ DA B2 B3). tauto.
Qed.

Lemma center_side lo hi x0 x1 : isf x0 lo -> isf x1 hi -> side lo hi ->
  exists c, isf (fdiv (fadd x0 x1) (fofZ 2)) c /\ lo <= c <= hi.
Proof.
  intros I0 I1 (A & B & O). apply Rabs_le_inv in A. apply Rabs_le_inv in B.
  assert (L : lo <= hi).
  { destruct O as [->|O]; [lra|]. pose proof (bpow_gt_0 radix2 (-500)) as P. rewrite pow_500 in P. lra. }
  assert (D : forall r x, isf x r -> rnd (2 * r) = 2 * r).
  { intros r x I. apply round_generic; [apply valid_rnd_N|].
    pose proof (isf_format _ _ I) as F. apply (FLT_format_generic radix2 (-1074) 53) in F.
    destruct F as [[m e] E1 E2 E3]. cbn in E2, E3.
    apply (generic_format_FLT radix2 (-1074) 53). exists (Float radix2 m (e + 1)); cbn; [|exact E2|lia].
    rewrite E1. unfold F2R. cbn [Fnum Fexp]. rewrite bpow_plus. change (bpow radix2 1) with 2. ring. }
  assert (P5 : 2 * 2 ^ 500 = bpow radix2 501).
  { change 501%Z with (500 + 1)%Z. rewrite bpow_plus, pow500. change (bpow radix2 1) with 2. ring. }
  assert (S : isf (fadd x0 x1) (rnd (lo + hi))).
  { apply isf_fadd; [assumption..|]. apply (small_bpow _ 501); [lia|]. apply Rabs_le. lra. }
  assert (R : 2 * lo <= rnd (lo + hi) <= 2 * hi).
  { rewrite <- (D lo x0 I0), <- (D hi x1 I1). split; apply rnd_le; lra. }
  assert (S2 : isf (fdiv (fadd x0 x1) (fofZ 2)) (rnd (rnd (lo + hi) / 2))).
  { apply isf_fdiv; [assumption|apply (isf_int 2); lia|lra|]. apply (small_bpow _ 501); [lia|]. apply Rabs_le. lra. }
  exists (rnd (rnd (lo + hi) / 2)). split; [exact S2|].
  assert (G : forall r x, isf x r -> rnd r = r).
  { intros r x I. apply round_generic; [apply valid_rnd_N|]. apply (isf_format _ _ I). }
  pose proof (rnd_le lo (rnd (lo + hi) / 2) ltac:(lra)). pose proof (rnd_le (rnd (lo + hi) / 2) hi ltac:(lra)).
  rewrite (G lo x0 I0) in *. rewrite (G hi x1 I1) in *. lra.
Qed.
Lemma center_doubles b r : doubles b r -> ordinary r ->
  exists cx cy, isf (fst (bb_center b)) cx /\ isf (snd (bb_center b)) cy /\
    bx0 r <= cx <= bx1 r /\ by0 r <= cy <= by1 r.
Proof.
  intros (A0 & A1 & A2 & A3) (SX & SY).
  destruct (center_side _ _ _ _ A0 A2 SX) as (cx & C1 & C2). destruct (center_side _ _ _ _ A1 A3 SY) as (cy & C3 & C4).
  exists cx, cy. split; [exact C1|]. split; [exact C3|]. split; assumption.
Qed.
Lemma translate_doubles b r dx dy DX DY : doubles b r -> ordinary r -> isf dx DX -> isf dy DY ->
  Rabs DX <= 2 ^ 500 -> Rabs DY <= 2 ^ 500 ->
  exists r', doubles (bb_translate b dx dy) r' /\ bx0 r' <= bx1 r' /\ by0 r' <= by1 r'.
Proof.
  intros (A0 & A1 & A2 & A3) ((X1 & X2 & X3) & (Y1 & Y2 & Y3)) IX IY BX BY.
  assert (P5 : 2 * 2 ^ 500 = bpow radix2 501).
  { change 501%Z with (500 + 1)%Z. rewrite bpow_plus, pow500. change (bpow radix2 1) with 2. ring. }
  pose proof (bpow_gt_0 radix2 (-500)) as P. rewrite pow_500 in P.
  exists (mkbb (rnd (bx0 r + DX)) (rnd (by0 r + DY)) (rnd (bx1 r + DX)) (rnd (by1 r + DY))).
  apply Rabs_le_inv in X1. apply Rabs_le_inv in X2. apply Rabs_le_inv in Y1. apply Rabs_le_inv in Y2.
  apply Rabs_le_inv in BX. apply Rabs_le_inv in BY.
  split; [repeat split; cbn [bx0 by0 bx1 by1]; apply isf_fadd; try assumption;
          apply (small_bpow _ 501); try lia; apply Rabs_le; lra|].
  cbn [bx0 by0 bx1 by1]. split; apply rnd_le; lra.
Qed.
