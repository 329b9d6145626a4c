(** Anti-aliased lines in double arithmetic. *)
From Coq Require Import ZArith Reals Lia Lra SpecFloat.
From Flocq Require Import Core IEEE754.BinarySingleNaN.
From Flocq Require Import Relative Plus_error.
From Verif Require Import Num FloatLib PfFloatNorm SimplifyModel RasterModel RasterSpec RasterAASpec RasterAA.
Open Scope R_scope.

Ltac pows := rewrite ?(p_val 2 1), ?(p_val 1 0), ?(p_val 2097152 21), ?(p_val 4194304 22) by (reflexivity || lia).
Lemma near0 r : Rabs r < 1 -> Rabs (rnd r - r) <= / 18014398509481984.
Proof. intros B. rewrite <- (b_val 18014398509481984 54) by (reflexivity || lia). apply (near r 0); [lia|]. rewrite (p_val 1 0) by (reflexivity || lia). exact B. Qed.
Lemma near1 r : Rabs r < 2 -> Rabs (rnd r - r) <= / 9007199254740992.
Proof. intros B. rewrite <- (b_val 9007199254740992 53) by (reflexivity || lia). apply (near r 1); [lia|]. rewrite (p_val 2 1) by (reflexivity || lia). exact B. Qed.
Lemma near21 r : Rabs r < 2097152 -> Rabs (rnd r - r) <= / 8589934592.
Proof. intros B. rewrite <- (b_val 8589934592 33) by (reflexivity || lia). apply (near r 21); [lia|]. rewrite (p_val 2097152 21) by (reflexivity || lia). exact B. Qed.
Lemma small22 r : Rabs r <= 4194304 -> small r.
Proof. intros B. apply (small_bpow r 22); [lia|]. rewrite (p_val 4194304 22) by (reflexivity || lia). exact B. Qed.
Lemma rndIZ z : (Z.abs z <= 2 ^ 53)%Z -> rnd (IZR z) = IZR z.
Proof. apply rnd_IZR. Qed.
Lemma rnd_in r a b : (Z.abs a <= 2 ^ 53)%Z -> (Z.abs b <= 2 ^ 53)%Z -> IZR a <= r <= IZR b -> IZR a <= rnd r <= IZR b.
Proof. intros A B [X Y]. rewrite <- (rnd_IZR a A), <- (rnd_IZR b B). split; apply rnd_le; assumption. Qed.
Lemma rnd_opp r : rnd (- r) = - rnd r.
Proof. unfold rnd. apply round_NE_opp. Qed.

(** Subtraction is exact up to a relative error. *)
Lemma sub_rel x y a b : isf x a -> isf y b -> exists e, Rabs e <= / 9007199254740992 /\ rnd (a - b) = (a - b) * (1 + e).
Proof.
  intros I J. pose proof (FLT_plus_error_N_ex radix2 (-1074) 53 (fun z => negb (Z.even z)) a (- b)) as H.
  destruct H as (e & E & Q); [exact (isf_format x a I)|apply generic_format_opp; exact (isf_format y b J)|].
  exists e. split; [|exact Q]. eapply Rle_trans; [exact E|].
  assert (U : u_ro radix2 53 = / 9007199254740992).
  { unfold u_ro. change (- (53) + 1)%Z with (-52)%Z. change (bpow radix2 (-52)) with (/ 4503599627370496). lra. }
  rewrite U. unfold Rdiv. assert (H : / (1 + / 9007199254740992) <= 1).
  { rewrite <- Rinv_1. apply Rinv_le; lra. }
  assert (H0 : 0 <= / 9007199254740992) by lra. revert H H0. generalize (/ (1 + / 9007199254740992)) (/ 9007199254740992). intros p q. nra.
Qed.
Lemma sub_nonneg x y a b : isf x a -> isf y b -> a < b -> 0 < rnd (b - a).
Proof.
  intros I J L. destruct (sub_rel y x b a J I) as (e & E & ->). apply Rabs_le_inv in E. apply Rmult_lt_0_compat; lra.
Qed.

(** The slope. *)
Lemma slope x0 y0 x1 y1 X0 Y0 X1 Y1 : isf x0 X0 -> isf y0 Y0 -> isf x1 X1 -> isf y1 Y1 -> X0 < X1 ->
  Rabs X0 <= 2097152 -> Rabs X1 <= 2097152 -> Rabs Y0 <= 2097152 -> Rabs Y1 <= 2097152 ->
  Rabs (rnd (Y1 - Y0)) <= rnd (X1 - X0) ->
  exists G, isf (fdiv (fsub y1 y0) (fsub x1 x0)) G /\ Rabs G <= 1 /\
    Rabs (G - (Y1 - Y0) / (X1 - X0)) <= / 1125899906842624 /\ Rabs ((Y1 - Y0) / (X1 - X0)) <= 1 + / 1125899906842624.
Proof.
  intros I0 J0 I1 J1 L Bx0 Bx1 By0 By1 S.
  assert (Ix : isf (fsub x1 x0) (rnd (X1 - X0))).
  { apply isf_fsub; [exact I1|exact I0|]. apply small22. apply Rabs_le_inv in Bx0. apply Rabs_le_inv in Bx1. apply Rabs_le. lra. }
  assert (Iy : isf (fsub y1 y0) (rnd (Y1 - Y0))).
  { apply isf_fsub; [exact J1|exact J0|]. apply small22. apply Rabs_le_inv in By0. apply Rabs_le_inv in By1. apply Rabs_le. lra. }
  destruct (sub_rel x1 x0 X1 X0 I1 I0) as (e1 & E1 & Q1). destruct (sub_rel y1 y0 Y1 Y0 J1 J0) as (e2 & E2 & Q2).
  pose proof (sub_nonneg x0 x1 X0 X1 I0 I1 L) as Px. set (dx := rnd (X1 - X0)) in *. set (dy := rnd (Y1 - Y0)) in *.
  apply Rabs_le_inv in E1. apply Rabs_le_inv in E2.
  assert (Rq : Rabs (dy / dx) <= 1).
  { unfold Rdiv. rewrite Rabs_mult, (Rabs_pos_eq (/ dx)) by (left; apply Rinv_0_lt_compat; exact Px).
    apply (Rmult_le_reg_r dx); [exact Px|]. rewrite Rmult_assoc, Rinv_l by lra. lra. }
  set (g := (Y1 - Y0) / (X1 - X0)).
  assert (Qg : dy / dx = g * (1 + (e2 - e1) * / (1 + e1))).
  { rewrite Q1, Q2. unfold g. field. split; lra. }
  set (t := (e2 - e1) * / (1 + e1)) in *.
  assert (Bt : Rabs t <= / 3000000000000000).
  { unfold t. rewrite Rabs_mult. assert (A1 : Rabs (e2 - e1) <= 2 * / 9007199254740992) by (apply Rabs_le; lra).
    assert (A2 : 0 < / (1 + e1) <= 4 * / 3).
    { split; [apply Rinv_0_lt_compat; lra|]. replace (4 * / 3) with (/ (3 / 4)) by field. apply Rinv_le; lra. }
    rewrite (Rabs_pos_eq (/ (1 + e1))) by lra.
    apply Rle_trans with (2 * / 9007199254740992 * (4 * / 3)); [|lra]. apply Rmult_le_compat; try lra. apply Rabs_pos. }
  apply Rabs_le_inv in Bt.
  assert (Bg : Rabs g <= 1 + / 1125899906842624).
  { rewrite Qg, Rabs_mult, (Rabs_pos_eq (1 + t)) in Rq by lra. pose proof (Rabs_pos g). nra. }
  exists (rnd (dy / dx)). split; [|split; [|split]].
  - apply isf_fdiv; [exact Iy|exact Ix|lra|]. apply small22. lra.
  - apply Rabs_le_inv in Rq. apply Rabs_le. pose proof (rnd_in (dy / dx) (-1) 1 ltac:(lia) ltac:(lia) ltac:(lra)). lra.
  - assert (N : Rabs (rnd (dy / dx) - dy / dx) <= / 9007199254740992) by (apply near1; lra).
    apply Rabs_le_inv in N. assert (M : Rabs (dy / dx - g) <= / 2000000000000000).
    { rewrite Qg. replace (g * (1 + t) - g) with (g * t) by ring. rewrite Rabs_mult.
      assert (Rabs t <= / 3000000000000000) by (apply Rabs_le; lra).
      apply Rle_trans with ((1 + / 1125899906842624) * / 3000000000000000); [|lra]. apply Rmult_le_compat; try apply Rabs_pos; lra. }
    apply Rabs_le_inv in M. apply Rabs_le. lra.
  - exact Bg.
Qed.

(** The pixel nearest to a coordinate. *)
Lemma isf_sign_pos x r : isf x r -> f_sign x = true -> r <= 0.
Proof.
  intros (p & <- & Fp & E) S. destruct p as [s|s| |s m e H]; try discriminate; cbn in E, S; subst.
  - lra.
  - left. apply F2R_lt_0. reflexivity.
Qed.
Lemma nearest_double x X : isf x X -> 0 <= X <= 1048576 ->
  isf (nadd x half) (rnd (X + / 2)) /\ 0 <= rnd (X + / 2) <= 1048577 /\
  let N := nearestT x in N = Ztrunc (rnd (X + / 2)) /\ (0 <= N)%Z /\
  Rabs (IZR N - X) <= / 2 + / 8589934592 /\ (whole X -> IZR N = X).
Proof.
  intros I B. assert (Ih : isf (nadd x half) (rnd (X + / 2))).
  { apply isf_fadd; [exact I|exact isf_half|]. apply small22. apply Rabs_le. lra. }
  pose proof (rnd_in (X + / 2) 0 1048577 ltac:(lia) ltac:(lia) ltac:(lra)) as Bh.
  split; [exact Ih|]. split; [exact Bh|]. cbn zeta.
  assert (E : nearestT x = Ztrunc (rnd (X + / 2))).
  { unfold nearestT. cbn [nint nneg IntF]. destruct (f_sign x) eqn:S; [|apply isf_trunc; exact Ih].
    pose proof (isf_sign_pos x X I S). assert (X = 0) by lra. subst X.
    assert (Im : isf (nsub x half) (rnd (0 - / 2))).
    { apply isf_fsub; [exact I|exact isf_half|]. apply small22. apply Rabs_le. lra. }
    rewrite (isf_trunc _ _ Im).
    assert (H1 : Rabs (rnd (0 - / 2) - (0 - / 2)) <= / 18014398509481984) by (apply near0; apply Rabs_def1; lra).
    assert (H2 : Rabs (rnd (0 + / 2) - (0 + / 2)) <= / 18014398509481984) by (apply near0; apply Rabs_def1; lra).
    apply Rabs_le_inv in H1. apply Rabs_le_inv in H2. rewrite !trunc_zero by lra. reflexivity. }
  split; [exact E|]. rewrite E. pose proof (trunc_bounds _ (proj1 Bh)) as T.
  assert (Nn : Rabs (rnd (X + / 2) - (X + / 2)) <= / 8589934592) by (apply near21; apply Rabs_def1; lra). apply Rabs_le_inv in Nn.
  set (N := Ztrunc (rnd (X + / 2))) in *. split; [|split].
  - assert (H : -1 < IZR N) by lra. apply (lt_IZR (-1)) in H. lia.
  - apply Rabs_le. lra.
  - intros (z & ->). f_equal. assert (H1 : IZR (z - 1) < IZR N) by (rewrite minus_IZR; lra). assert (H2 : IZR N < IZR (z + 1)) by (rewrite plus_IZR; lra).
    apply lt_IZR in H1. apply lt_IZR in H2. lia.
Qed.
Lemma unit_part r : 0 <= r -> 0 <= r - IZR (Ztrunc r) < 1.
Proof. intros P. pose proof (trunc_bounds r P). lra. Qed.
Lemma rfpart_unit x r : isf x r -> 0 <= r <= 2097152 -> exists F, isf (rfpart x) F /\ 0 <= F <= 1.
Proof.
  intros I B. pose proof (unit_part r (proj1 B)) as U. exists (rnd (1 - (r - IZR (Ztrunc r)))). split.
  - apply isf_sub1; [apply isf_fpart; [exact I|]|].
    + rewrite Rabs_pos_eq by lra. apply Rle_trans with 2097152; [lra|]. apply IZR_le. lia.
    + rewrite Rabs_pos_eq; lra.
  - apply (rnd_in _ 0 1); try lia; lra.
Qed.
Lemma fpart_unit x r : isf x r -> 0 <= r <= 2097152 -> exists F, isf (fpart x) F /\ 0 <= F <= 1.
Proof.
  intros I B. pose proof (unit_part r (proj1 B)) as U. exists (r - IZR (Ztrunc r)). split; [|lra].
  apply isf_fpart; [exact I|]. rewrite Rabs_pos_eq by lra. apply Rle_trans with 2097152; [lra|]. apply IZR_le. lia.
Qed.
Lemma mul_unit x y a b : isf x a -> isf y b -> 0 <= a <= 1 -> 0 <= b <= 1 -> exists c, isf (nmul x y) c /\ 0 <= c <= 1.
Proof.
  intros I J A B. assert (P : 0 <= a * b <= 1) by (split; nra). exists (rnd (a * b)). split.
  - apply isf_fmul; [exact I|exact J|]. apply small22. rewrite Rabs_pos_eq; lra.
  - apply (rnd_in _ 0 1); try lia; lra.
Qed.

(** One end of the line. *)
Definition height_at (g x y : f64) : f64 := nadd y (nmul g (nsub (nofZ (nearestT x)) x)).
Lemma height_double g x y G X Y : isf g G -> isf x X -> isf y Y -> Rabs G <= 1 -> 0 <= X <= 1048576 -> 0 <= Y <= 1048576 ->
  exists V, isf (height_at g x y) V /\ Rabs (V - (Y + G * (IZR (nearestT x) - X))) <= / 4294967296 /\ (whole X -> V = Y).
Proof.
  intros Ig Ix Iy Bg Bx By. destruct (nearest_double x X Ix Bx) as (_ & _ & _ & N0 & Nb & Nw). set (N := nearestT x) in *.
  apply Rabs_le_inv in Nb.
  assert (Nz : (Z.abs N <= 2 ^ 53)%Z).
  { assert (H : IZR N <= 1048577) by lra. apply le_IZR in H. lia. }
  assert (Id : isf (nsub (nofZ N) x) (rnd (IZR N - X))).
  { apply isf_fsub; [apply isf_int; exact Nz|exact Ix|]. apply small22. apply Rabs_le. lra. }
  assert (Ed : Rabs (rnd (IZR N - X) - (IZR N - X)) <= / 18014398509481984) by (apply near0; apply Rabs_def1; lra). apply Rabs_le_inv in Ed.
  set (d := rnd (IZR N - X)) in *.
  assert (Bp : Rabs (G * d) <= 6 / 10).
  { rewrite Rabs_mult. replace (6 / 10) with (1 * (6 / 10)) by lra. apply Rmult_le_compat; try apply Rabs_pos; [exact Bg|]. apply Rabs_le. lra. }
  assert (Ip : isf (nmul g (nsub (nofZ N) x)) (rnd (G * d))).
  { apply isf_fmul; [exact Ig|exact Id|]. apply small22. lra. }
  assert (Ep : Rabs (rnd (G * d) - G * d) <= / 18014398509481984) by (apply near0; lra). apply Rabs_le_inv in Ep. apply Rabs_le_inv in Bp.
  set (p := rnd (G * d)) in *.
  assert (Iv : isf (height_at g x y) (rnd (Y + p))).
  { apply isf_fadd; [exact Iy|exact Ip|]. apply small22. apply Rabs_le. lra. }
  assert (Ev : Rabs (rnd (Y + p) - (Y + p)) <= / 8589934592) by (apply near21; apply Rabs_def1; lra). apply Rabs_le_inv in Ev.
  exists (rnd (Y + p)). split; [exact Iv|]. split.
  - assert (Dd : Rabs (G * d - G * (IZR N - X)) <= / 18014398509481984).
    { rewrite <- Rmult_minus_distr_l, Rabs_mult. rewrite <- (Rmult_1_l (/ 18014398509481984)). apply Rmult_le_compat; try apply Rabs_pos; [exact Bg|]. apply Rabs_le. lra. }
    apply Rabs_le_inv in Dd. apply Rabs_le. lra.
  - intros W. assert (D0 : d = 0).
    { unfold d. rewrite (Nw W), Rminus_diag_eq by reflexivity. apply (rnd_IZR 0). lia. }
    assert (P0 : p = 0) by (unfold p; rewrite D0, Rmult_0_r; apply (rnd_IZR 0); lia).
    rewrite P0, Rplus_0_r. exact (rnd_id y Y Iy).
Qed.
Lemma end_double steep g x y G X Y : isf g G -> isf x X -> isf y Y -> Rabs G <= 1 -> 0 <= X <= 1048576 -> 0 <= Y <= 1048576 ->
  whole X \/ 1 <= Y ->
  exists V a1 a2 A1 A2, wu_end steep g x y = (nearestT x, height_at g x y, wu_pair steep (nearestT x) (Ztrunc V) a1 a2) /\
    isf (height_at g x y) V /\ Rabs (V - (Y + G * (IZR (nearestT x) - X))) <= / 4294967296 /\ (whole X -> V = Y) /\
    0 <= V /\ isf a1 A1 /\ isf a2 A2 /\ 0 <= A1 <= 1 /\ 0 <= A2 <= 1.
Proof.
  intros Ig Ix Iy Bg Bx By Op. destruct (height_double g x y G X Y Ig Ix Iy Bg Bx By) as (V & Iv & Ev & Wv).
  destruct (nearest_double x X Ix Bx) as (Ih & Bh & _ & _ & Nb & _). apply Rabs_le_inv in Nb.
  pose proof (Rabs_le_inv _ _ Ev) as Ev'.
  assert (Bp : Rabs (G * (IZR (nearestT x) - X)) <= 6 / 10).
  { rewrite Rabs_mult. replace (6 / 10) with (1 * (6 / 10)) by lra. apply Rmult_le_compat; try apply Rabs_pos; [exact Bg|]. apply Rabs_le. lra. }
  apply Rabs_le_inv in Bp.
  assert (Pv : 0 <= V <= 2097152) by (destruct Op as [W|L]; [rewrite (Wv W)|]; lra).
  destruct (rfpart_unit _ _ Ih ltac:(lra)) as (Gp & Igp & Bgp).
  destruct (rfpart_unit _ _ Iv Pv) as (F1 & I1 & B1). destruct (fpart_unit _ _ Iv Pv) as (F2 & I2 & B2).
  destruct (mul_unit _ _ _ _ I1 Igp B1 Bgp) as (A1 & J1 & C1). destruct (mul_unit _ _ _ _ I2 Igp B2 Bgp) as (A2 & J2 & C2).
  exists V, (nmul (rfpart (height_at g x y)) (rfpart (nadd x half))), (nmul (fpart (height_at g x y)) (rfpart (nadd x half))), A1, A2.
  split; [|split; [exact Iv|]; split; [exact Ev|]; split; [exact Wv|]; split; [lra|]; split; [exact J1|]; split; [exact J2|]; split; assumption].
  unfold wu_end. cbn zeta. fold (height_at g x y). cbn [nint IntF]. rewrite (isf_trunc _ _ Iv). reflexivity.
Qed.

(** Between the ends. *)
Definition drawn (L : R -> R) (q : Z * Z * f64 * f64) : Prop :=
  let '(x, y, a1, a2) := q in
  exists A1 A2, isf a1 A1 /\ isf a2 A2 /\ - / 1024 <= A2 < 1 /\ 0 <= A1 <= 1 + / 1024 /\ Rabs (A1 + A2 - 1) <= / 9007199254740992 /\
    Rabs (IZR y + A2 - L (IZR x)) <= / 1024 /\ (0 <= y)%Z /\ IZR y <= L (IZR x) + / 1024.
Lemma zfromto_cons a b : (a < b)%Z -> zfromto a b = a :: zfromto (a + 1) b.
Proof.
  intros L. unfold zfromto. replace (Z.to_nat (b - a)) with (S (Z.to_nat (b - (a + 1)))) by lia. cbn [seq map]. f_equal; [lia|].
  rewrite <- seq_shift, map_map. apply map_ext. intros k. lia.
Qed.
Lemma zfromto_nil a b : (b <= a)%Z -> zfromto a b = [].
Proof. intros L. unfold zfromto. replace (Z.to_nat (b - a)) with 0%nat by lia. reflexivity. Qed.
Lemma inner_double steep g G gam L b : isf g G -> Rabs G <= 1 -> Rabs (G - gam) <= / 1125899906842624 -> (forall x, L (x + 1) = L x + gam) ->
  forall n a y Y, n = Z.to_nat (b - a) -> isf y Y -> Rabs (Y - L (IZR a)) + INR n * / 4294967296 <= / 1024 ->
  (forall x, (a <= x < b)%Z -> 0 <= L (IZR x) <= 1048577) -> 
  exists pairs, wu_inner steep g (zfromto a b) y = concat (map (fun '(x, y, a1, a2) => wu_pair steep x y a1 a2) pairs) /\
    map (fun '(x, _, _, _) => x) pairs = zfromto a b /\ Forall (drawn L) pairs.
Proof.
  intros Ig Bg Eg Ls. induction n as [|n IH]; intros a y Y Hn Iy Er Lb.
  { rewrite zfromto_nil by lia. exists []. cbn. auto. }
  assert (Lt : (a < b)%Z) by lia. rewrite zfromto_cons by exact Lt. cbn [wu_inner].
  assert (La : 0 <= L (IZR a) <= 1048577) by (apply Lb; lia). rewrite S_INR in Er.
  assert (Pn : 0 <= INR n) by apply pos_INR. pose proof (Rabs_pos (Y - L (IZR a))) as P0.
  assert (Ed : Rabs (Y - L (IZR a)) <= / 1024) by lra. pose proof (Rabs_le_inv _ _ Ed) as Ed'. apply Rabs_le_inv in Eg. pose proof (Rabs_le_inv _ _ Bg) as Bg'.
  assert (In : isf (nadd y g) (rnd (Y + G))).
  { apply isf_fadd; [exact Iy|exact Ig|]. apply small22. apply Rabs_le. lra. }
  assert (Ns : Rabs (rnd (Y + G) - (Y + G)) <= / 8589934592) by (apply near21; apply Rabs_def1; lra).
  destruct (IH (a + 1)%Z (nadd y g) (rnd (Y + G))) as (pairs & E & M & F); [lia|exact In| |intros x Hx; apply Lb; lia|].
  { rewrite plus_IZR, Ls. apply Rabs_le_inv in Ns.
    assert (Rabs (rnd (Y + G) - (L (IZR a) + gam)) <= Rabs (Y - L (IZR a)) + / 4294967296); [|lra].
    replace (rnd (Y + G) - (L (IZR a) + gam)) with ((Y - L (IZR a)) + ((rnd (Y + G) - (Y + G)) + (G - gam))) by ring.
    eapply Rle_trans; [apply Rabs_triang|]. apply Rplus_le_compat_l. apply Rabs_le. lra. }
  exists ((a, Ztrunc Y, rfpart y, fpart y) :: pairs). cbn [map concat]. split; [|split].
  - cbn [nint IntF]. rewrite (isf_trunc _ _ Iy), E. reflexivity.
  - f_equal. exact M.
  - constructor; [|exact F]. unfold drawn.
    assert (If : isf (fpart y) (Y - IZR (Ztrunc Y))).
    { apply isf_fpart; [exact Iy|]. apply Rle_trans with 1048578; [apply Rabs_le; lra|apply IZR_le; lia]. }
    assert (Bf : - / 1024 <= Y - IZR (Ztrunc Y) < 1 /\ (0 <= Ztrunc Y)%Z /\ IZR (Ztrunc Y) <= L (IZR a) + / 1024).
    { destruct (Rle_lt_dec 0 Y) as [P|P].
      - pose proof (trunc_bounds Y P). split; [lra|]. split; [|lra]. rewrite Ztrunc_floor by exact P. apply Zfloor_lub. exact P.
      - rewrite trunc_zero by lra. split; [lra|]. split; [lia|lra]. }
    destruct Bf as (Bf & Pz & Pu). set (F2 := Y - IZR (Ztrunc Y)) in *.
    assert (I1 : isf (rfpart y) (rnd (1 - F2))) by (apply isf_sub1; [exact If|]; apply Rabs_le; lra).
    assert (N1 : Rabs (rnd (1 - F2) - (1 - F2)) <= / 9007199254740992) by (apply near1; apply Rabs_def1; lra).
    exists (rnd (1 - F2)), F2. split; [exact I1|]. split; [exact If|]. split; [exact Bf|]. split.
    + split; [apply (rnd_in _ 0 2); try lia; lra|].
      assert (K : rnd (1 + / 1024) = 1 + / 1024).
      { replace (1 + / 1024) with (F2R (Float radix2 1025 (-10))); [|unfold F2R; cbn [Fnum Fexp]; change (bpow radix2 (-10)) with (/ 1024); lra].
        apply round_generic; [apply valid_rnd_N|]. apply generic_format_F2R. intros _. unfold cexp.
        rewrite (mag_unique_pos radix2 _ 1); [vm_compute; congruence|].
        unfold F2R; cbn [Fnum Fexp]. change (bpow radix2 (-10)) with (/ 1024). change (bpow radix2 1) with 2. change (bpow radix2 (1 - 1)) with 1. lra. }
      rewrite <- K. apply rnd_le. lra.
    + split.
      * replace (rnd (1 - F2) + F2 - 1) with (rnd (1 - F2) - (1 - F2)) by ring. exact N1.
      * split; [|split; assumption]. replace (IZR (Ztrunc Y) + F2) with Y by (unfold F2; ring). exact Ed.
Qed.
