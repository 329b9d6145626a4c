(** A whole anti-aliased line in double arithmetic. *)
From Coq Require Import ZArith Reals Lia Lra SpecFloat.
From Flocq Require Import Core IEEE754.BinarySingleNaN.
From Verif Require Import Num FloatLib PfFloatNorm SimplifyModel RasterModel RasterSpec RasterAASpec RasterAA RasterAALine.
Open Scope R_scope.

Lemma fits_range w h P : fair w h -> fits w h P -> 0 <= fst P <= 1048576 /\ 0 <= snd P <= 1048576 /\ (whole (fst P) \/ 1 <= snd P) /\
  fst P <= IZR (w - 2) /\ snd P <= IZR (h - 2).
Proof.
  intros [Fw Fh] F. assert (Aw : IZR (w - 2) <= 1048576) by (apply IZR_le; lia). assert (Ah : IZR (h - 2) <= 1048576) by (apply IZR_le; lia).
  assert (Cw : IZR (w - 3) = IZR (w - 2) - 1) by (rewrite <- minus_IZR; f_equal; lia).
  assert (Ch : IZR (h - 3) = IZR (h - 2) - 1) by (rewrite <- minus_IZR; f_equal; lia).
  destruct F as [(W & _ & A & B)|(A & B)]; repeat split; try lra; first [left; exact W|right; lra].
Qed.
(** Around the end of a line its height is inside the canvas. *)
Lemma fits_height w h P n gam : fits w h P -> Rabs (n - fst P) <= / 2 + / 8589934592 -> (whole (fst P) -> n = fst P) ->
  Rabs gam <= 1 + / 1125899906842624 -> 0 <= snd P + gam * (n - fst P) <= IZR (h - 2).
Proof.
  intros F N W G. destruct F as [(Wx & _ & A & B)|(A & B)].
  - rewrite (W Wx). rewrite Rminus_diag_eq, Rmult_0_r, Rplus_0_r by reflexivity. exact B.
  - assert (Ch : IZR (h - 3) = IZR (h - 2) - 1) by (rewrite <- minus_IZR; f_equal; lia).
    assert (Q : Rabs (gam * (n - fst P)) <= 6 / 10).
    { rewrite Rabs_mult. apply Rle_trans with ((1 + / 1125899906842624) * (/ 2 + / 8589934592)); [|lra].
      apply Rmult_le_compat; try apply Rabs_pos; assumption. }
    apply Rabs_le_inv in Q. lra.
Qed.
Lemma fits_pixel w h P n : fits w h P -> Rabs (IZR n - fst P) <= / 2 + / 8589934592 -> (whole (fst P) -> IZR n = fst P) -> (n <= w - 2)%Z.
Proof.
  intros F N W. apply Rabs_le_inv in N. apply Z.lt_succ_r. apply lt_IZR. rewrite succ_IZR. destruct F as [(Wx & _ & A & B)|(A & B)].
  - rewrite (W Wx). lra.
  - assert (Cw : IZR (w - 3) = IZR (w - 2) - 1) by (rewrite <- minus_IZR; f_equal; lia). lra.
Qed.
Lemma trunc_range r k : 0 <= r -> r < IZR k + 1 -> (0 <= Ztrunc r <= k)%Z.
Proof.
  intros P U. rewrite Ztrunc_floor by exact P. split; [apply Zfloor_lub; exact P|]. apply Z.lt_succ_r. apply lt_IZR. rewrite succ_IZR.
  pose proof (Zfloor_lb r). lra.
Qed.
Definition wu_all (steep : bool) (g x0 y0 x1 y1 : f64) : list ((Z * Z) * f64) :=
  let '(xpxl1, yend1, p1) := wu_end steep g x0 y0 in
  let '(xpxl2, _, p2) := wu_end steep g x1 y1 in
  p1 ++ p2 ++ wu_inner steep g (zfromto (xpxl1 + 1) xpxl2) (nadd yend1 g).
Definition unit_weight (a : f64) : Prop := exists A, isf a A /\ 0 <= A <= 1.
(** What a line consists of. *)
Definition line_of (steep : bool) (w h : Z) (P Q : R * R) (px : list ((Z * Z) * f64)) : Prop :=
  exists n1 n2 r1 r2 a1 a2 b1 b2 pairs,
    px = wu_pair steep n1 r1 a1 a2 ++ wu_pair steep n2 r2 b1 b2 ++ concat (map (fun '(x, y, a1, a2) => wu_pair steep x y a1 a2) pairs) /\
    Rabs (IZR n1 - fst P) <= / 2 + / 8589934592 /\ Rabs (IZR n2 - fst Q) <= / 2 + / 8589934592 /\
    (0 <= n1 <= w - 2)%Z /\ (0 <= n2 <= w - 2)%Z /\ (0 <= r1 <= h - 2)%Z /\ (0 <= r2 <= h - 2)%Z /\
    unit_weight a1 /\ unit_weight a2 /\ unit_weight b1 /\ unit_weight b2 /\
    map (fun '(x, _, _, _) => x) pairs = zfromto (n1 + 1) n2 /\
    (IZR r1 - / 1024 <= on_line P Q (IZR n1) <= IZR r1 + 1 + / 1024) /\ (IZR r2 - / 1024 <= on_line P Q (IZR n2) <= IZR r2 + 1 + / 1024) /\
    Forall (drawn (on_line P Q)) pairs /\
    Forall (fun '(x, y, _, _) => n1 < x < n2 /\ 0 <= y <= h - 2)%Z pairs.
Lemma affine_between c gam p a x b k : a <= x <= b -> 0 <= c + gam * (a - p) <= k -> 0 <= c + gam * (b - p) <= k -> 0 <= c + gam * (x - p) <= k.
Proof.
  intros X A B. destruct (Rle_lt_dec 0 gam) as [S|S].
  - assert (0 <= gam * (x - a)) by (apply Rmult_le_pos; lra). assert (0 <= gam * (b - x)) by (apply Rmult_le_pos; lra). lra.
  - assert (0 <= - gam * (x - a)) by (apply Rmult_le_pos; lra). assert (0 <= - gam * (b - x)) by (apply Rmult_le_pos; lra). lra.
Qed.
Lemma core steep w h x0 y0 x1 y1 P Q : fair w h -> fits w h P -> fits w h Q ->
  isf x0 (fst P) -> isf y0 (snd P) -> isf x1 (fst Q) -> isf y1 (snd Q) -> fst P < fst Q ->
  Rabs (rnd (snd Q - snd P)) <= rnd (fst Q - fst P) ->
  line_of steep w h P Q (wu_all steep (fdiv (fsub y1 y0) (fsub x1 x0)) x0 y0 x1 y1).
Proof.
  intros Fa FP FQ I0 J0 I1 J1 Lt St.
  destruct (fits_range w h P Fa FP) as (BX0 & BY0 & O0 & _). destruct (fits_range w h Q Fa FQ) as (BX1 & BY1 & O1 & _).
  destruct (slope x0 y0 x1 y1 _ _ _ _ I0 J0 I1 J1 Lt) as (G & Ig & Bg & Eg & Bgam); [apply Rabs_le; lra ..|exact St|].
  set (g := fdiv (fsub y1 y0) (fsub x1 x0)) in *. set (gam := (snd Q - snd P) / (fst Q - fst P)) in *.
  destruct (end_double steep g x0 y0 G _ _ Ig I0 J0 Bg BX0 BY0 O0) as (V1 & a1 & a2 & A1 & A2 & W1 & Iv1 & Ev1 & Wh1 & Pv1 & Ia1 & Ia2 & Ba1 & Ba2).
  destruct (end_double steep g x1 y1 G _ _ Ig I1 J1 Bg BX1 BY1 O1) as (V2 & b1 & b2 & B1 & B2 & W2 & Iv2 & Ev2 & Wh2 & Pv2 & Ib1 & Ib2 & Bb1 & Bb2).
  destruct (nearest_double x0 _ I0 BX0) as (_ & _ & _ & N1p & N1b & N1w). destruct (nearest_double x1 _ I1 BX1) as (_ & _ & _ & N2p & N2b & N2w).
  set (n1 := nearestT x0) in *. set (n2 := nearestT x1) in *.
  pose proof (fits_height w h P (IZR n1) gam FP N1b N1w Bgam) as H1. pose proof (fits_height w h Q (IZR n2) gam FQ N2b N2w Bgam) as H2.
  assert (One : Rabs G <= 1 + / 1125899906842624) by lra.
  pose proof (fits_height w h P (IZR n1) G FP N1b N1w One) as K1. pose proof (fits_height w h Q (IZR n2) G FQ N2b N2w One) as K2.
  pose proof (fits_pixel w h P n1 FP N1b N1w) as U1. pose proof (fits_pixel w h Q n2 FQ N2b N2w) as U2.
  apply Rabs_le_inv in Ev1. apply Rabs_le_inv in Ev2. pose proof (Rabs_le_inv _ _ Eg) as Eg'.
  pose proof (Rabs_le_inv _ _ N1b) as N1b'. pose proof (Rabs_le_inv _ _ N2b) as N2b'.
  set (L := on_line P Q).
  assert (L1 : L (IZR n1) = snd P + gam * (IZR n1 - fst P)) by reflexivity.
  assert (L2 : L (IZR n2) = snd Q + gam * (IZR n2 - fst Q)).
  { unfold L, on_line, gam. field. lra. }
  assert (Ls : forall x, L (x + 1) = L x + gam) by (intros x; unfold L, on_line; fold gam; ring).
  assert (Lr : forall x, (n1 < x < n2)%Z -> 0 <= L (IZR x) <= IZR (h - 2)).
  { intros x [X1 X2]. apply IZR_lt in X1. apply IZR_lt in X2. rewrite <- L1 in H1. rewrite <- L2 in H2.
    exact (affine_between (snd P) gam (fst P) (IZR n1) (IZR x) (IZR n2) (IZR (h - 2)) (conj (Rlt_le _ _ X1) (Rlt_le _ _ X2)) H1 H2). }
  assert (Hh : IZR (h - 2) <= 1048576) by (destruct Fa; apply IZR_le; lia).
  assert (Er0 : Rabs (rnd (V1 + G) - L (IZR (n1 + 1))) <= / 1073741824).
  { assert (Nr : Rabs (rnd (V1 + G) - (V1 + G)) <= / 8589934592).
    { apply near21. pose proof (Rabs_le_inv _ _ Bg). apply Rabs_def1; lra. }
    apply Rabs_le_inv in Nr. rewrite plus_IZR, Ls, L1.
    assert (D : Rabs (G * (IZR n1 - fst P) - gam * (IZR n1 - fst P)) <= / 1125899906842624).
    { rewrite <- Rmult_minus_distr_r, Rabs_mult. rewrite <- (Rmult_1_r (/ 1125899906842624)).
      apply Rmult_le_compat; try apply Rabs_pos; [exact Eg|]. apply Rabs_le. lra. }
    apply Rabs_le_inv in D. apply Rabs_le. lra. }
  destruct (inner_double steep g G gam L n2 Ig Bg Eg Ls (Z.to_nat (n2 - (n1 + 1))) (n1 + 1)%Z (nadd (height_at g x0 y0) g) (rnd (V1 + G)) eq_refl)
    as (pairs & Ei & Mi & Fi).
  - apply isf_fadd; [exact Iv1|exact Ig|]. apply small22. pose proof (Rabs_le_inv _ _ Bg). apply Rabs_le. lra.
  - assert (Ln : INR (Z.to_nat (n2 - (n1 + 1))) <= 1048576).
    { rewrite INR_IZR_INZ. apply IZR_le. destruct Fa. lia. }
    lra.
  - intros x X. specialize (Lr x ltac:(lia)). lra.
  - exists n1, n2, (Ztrunc V1), (Ztrunc V2), a1, a2, b1, b2, pairs.
    split; [unfold wu_all; rewrite W1, W2; f_equal; f_equal; exact Ei|].
    split; [exact N1b|]. split; [exact N2b|]. split; [lia|]. split; [lia|].
    split; [apply trunc_range; lra|]. split; [apply trunc_range; lra|].
    split; [exists A1; auto|]. split; [exists A2; auto|]. split; [exists B1; auto|]. split; [exists B2; auto|].
    split; [exact Mi|]. fold L. rewrite L1, L2.
    assert (Cl : forall n X, Rabs (IZR n - X) <= / 2 + / 8589934592 -> Rabs (G * (IZR n - X) - gam * (IZR n - X)) <= / 1125899906842624).
    { intros n X D. rewrite <- Rmult_minus_distr_r, Rabs_mult. rewrite <- (Rmult_1_r (/ 1125899906842624)).
      apply Rmult_le_compat; try apply Rabs_pos; [exact Eg|]. lra. }
    pose proof (Rabs_le_inv _ _ (Cl n1 (fst P) N1b)) as Cl1. pose proof (Rabs_le_inv _ _ (Cl n2 (fst Q) N2b)) as Cl2.
    pose proof (trunc_bounds V1 Pv1) as T1. pose proof (trunc_bounds V2 Pv2) as T2.
    split; [lra|]. split; [lra|]. split; [exact Fi|].
    assert (In1 : Forall (fun x => n1 < x < n2)%Z (map (fun '(x, _, _, _) => x) pairs)).
    { rewrite Mi. unfold zfromto. apply Forall_forall. intros x Hx. apply in_map_iff in Hx. destruct Hx as (k & <- & Hk). apply in_seq in Hk. lia. }
    clear - Fi In1 Lr. induction pairs as [|[[[x y] c1] c2] r IH]; [constructor|]. inversion Fi as [|? ? D Fr]; subst. inversion In1 as [|? ? X Xr]; subst.
    constructor; [|apply IH; assumption]. split; [exact X|]. destruct D as (C1 & C2 & _ & _ & _ & _ & _ & _ & D1 & D2). split; [exact D1|].
    specialize (Lr x X). apply Z.lt_succ_r. apply lt_IZR. rewrite succ_IZR. lra.
Qed.
