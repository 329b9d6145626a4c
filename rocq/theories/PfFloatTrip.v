(** P files in double arithmetic: quantising and back. *)
From Coq Require Import ZArith Reals Lia Lra SpecFloat Psatz ZifyBool.
From Flocq Require Import Core IEEE754.BinarySingleNaN.
From Verif Require Import Num FloatLib BBoxModel PfModel PfProofs PfSpec PfExact PfFloat PfFloatNorm PfFloatSpec PfFloatEnds.
Open Scope Z_scope.

Lemma nearest_pos m d (a : Z) : 0 < d -> 0 <= m ->
  a = (let q := m / d in let r := m mod d in if 2 * r <? d then q else if d <? 2 * r then q + 1 else if Z.even q then q else q + 1) ->
  (Rabs (IZR a - IZR m / IZR d) <= / 2)%R.
Proof.
  intros Hd Hm E. cbv zeta in E. pose proof (Z.div_mod m d ltac:(lia)) as D. pose proof (Z.mod_pos_bound m d Hd) as B.
  set (q := m / d) in *. set (r := m mod d) in *. assert (P : (0 < IZR d)%R) by (apply IZR_lt; lia).
  assert (Em : (IZR m / IZR d = IZR q + IZR r / IZR d)%R) by (rewrite D, plus_IZR, mult_IZR; field; lra).
  assert (Rr : (0 <= IZR r / IZR d)%R) by (apply Rmult_le_pos; [apply IZR_le; lia|apply Rlt_le, Rinv_0_lt_compat; exact P]).
  assert (Lo : 2 * r <= d -> (IZR r / IZR d <= / 2)%R).
  { intros L. apply IZR_le in L. rewrite mult_IZR in L. apply Rmult_le_reg_r with (IZR d); [exact P|]. unfold Rdiv. rewrite Rmult_assoc, Rinv_l by lra. lra. }
  assert (Hi : d <= 2 * r -> (/ 2 <= IZR r / IZR d)%R).
  { intros L. apply IZR_le in L. rewrite mult_IZR in L. apply Rmult_le_reg_r with (IZR d); [exact P|]. unfold Rdiv. rewrite Rmult_assoc, Rinv_l by lra. lra. }
  assert (R1 : (IZR r / IZR d <= 1)%R).
  { apply Rmult_le_reg_r with (IZR d); [exact P|]. unfold Rdiv. rewrite Rmult_assoc, Rinv_l by lra. assert (IZR r <= IZR d)%R by (apply IZR_le; lia). lra. }
  rewrite Em. apply Rabs_le.
  destruct (Z.ltb_spec (2 * r) d); [subst a; specialize (Lo ltac:(lia)); lra|].
  destruct (Z.ltb_spec d (2 * r)); [subst a; rewrite plus_IZR; specialize (Hi ltac:(lia)); lra|].
  specialize (Lo ltac:(lia)). specialize (Hi ltac:(lia)). destruct (Z.even q); subst a; rewrite ?plus_IZR; lra.
Qed.
Lemma isf_round x r : isf x r -> (Rabs (IZR (f_round x) - r) <= / 2)%R.
Proof.
  intros (p & <- & Fp & <-). destruct p as [s|s| |s m e H]; try discriminate.
  - cbn. rewrite Rminus_0_r, Rabs_R0. lra.
  - cbn [B2SF B2R]. unfold f_round.
    match goal with |- context [if s then - ?a else ?a] => set (v := a) end.
    assert (K : (Rabs (IZR v - F2R (Float radix2 (Zpos m) e)) <= / 2)%R).
    { subst v. destruct (Z.leb_spec 0 e) as [E|E].
      - rewrite F2R_mul by lia. rewrite Rminus_diag_eq by reflexivity. rewrite Rabs_R0. lra.
      - rewrite F2R_div by lia. apply nearest_pos; [apply Z.pow_pos_nonneg; lia|lia|reflexivity]. }
    destruct s; cbn [cond_Zopp].
    + change (Z.neg m) with (- Z.pos m). rewrite F2R_Zopp, opp_IZR.
      replace (- IZR v - - F2R (Float radix2 (Z.pos m) e))%R with (- (IZR v - F2R (Float radix2 (Z.pos m) e)))%R by ring. rewrite Rabs_Ropp. exact K.
    + exact K.
Qed.

(** ** Powers of two as numerals *)
Ltac pw := change (bpow radix2 9) with 512%R in *; change (bpow radix2 8) with 256%R in *; change (bpow radix2 (-45)) with (/ 35184372088832)%R in *;
  change (bpow radix2 (-46)) with (/ 70368744177664)%R in *; change (bpow radix2 (-44)) with (/ 17592186044416)%R in *.
Lemma p40 : (2 ^ 40 = 1099511627776)%R.
Proof. lra. Qed.

(** ** Grid edges *)
Definition edgeR (h k : Z) : R := rnd (rnd (IZR (k * (2 * h)) / 65535) - IZR h).
Lemma edge_val h k : h = 90 \/ h = 180 -> 0 <= k <= 65535 ->
  isf (fsub (fdiv (fofZ (k * (2 * h))) (fofZ UMAX2)) (fofZ h)) (edgeR h k) /\ (IZR (- h) <= edgeR h k <= IZR h)%R /\
  (Rabs (edgeR h k - (IZR (k * (2 * h)) / 65535 - IZR h)) <= IZR h / 180 * (/ 35184372088832 + / 70368744177664))%R.
Proof.
  intros Hh Hk. assert (Ks : 0 <= k * (2 * h) <= 65535 * (2 * h)) by nia.
  assert (I1 : isf (fofZ (k * (2 * h))) (IZR (k * (2 * h)))) by (apply isf_int; lia).
  assert (I2 : isf (fofZ UMAX2) 65535) by (apply (isf_int 65535); lia).
  assert (I3 : isf (fofZ h) (IZR h)) by (apply isf_int; lia).
  assert (Bq : (0 <= IZR (k * (2 * h)) / 65535 <= IZR (2 * h))%R).
  { destruct Ks as [K1 K2]. apply IZR_le in K1, K2. rewrite (mult_IZR 65535) in K2. split; [apply Rmult_le_pos; lra|].
    apply Rmult_le_reg_r with 65535%R; [lra|]. unfold Rdiv. rewrite Rmult_assoc, Rinv_l by lra. lra. }
  assert (P : (0 < IZR h)%R) by (apply IZR_lt; lia).
  set (q := (IZR (k * (2 * h)) / 65535)%R) in *.
  assert (I4 : isf (fdiv (fofZ (k * (2 * h))) (fofZ UMAX2)) (rnd q)).
  { apply isf_fdiv; [exact I1|exact I2|lra|]. apply small_le. rewrite Rabs_pos_eq by apply Bq. eapply Rle_trans; [apply Bq|]. apply IZR_le. lia. }
  assert (B4 : (0 <= rnd q <= IZR (2 * h))%R) by (apply (rnd_between 0 (2 * h)); [lia|lia|exact Bq]).
  assert (B5 : (IZR (- h) <= rnd q - IZR h <= IZR h)%R) by (rewrite opp_IZR; rewrite mult_IZR in B4; lra).
  split; [|split].
  - unfold edgeR. fold q. apply isf_fsub; auto. apply small_le. rewrite opp_IZR in B5. apply Rabs_le.
    assert (IZR h <= IZR (2 ^ 100))%R by (apply IZR_le; lia). lra.
  - apply rnd_between; [lia|lia|exact B5].
  - unfold edgeR. fold q.
    assert (E1 : (Rabs (rnd q - q) <= IZR h / 180 * / 35184372088832)%R).
    { destruct Hh as [-> | ->].
      - eapply Rle_trans; [apply (rnd_err q 8); [lia|]|]; [|change (8 - 54) with (-46)]; pw; [apply Rabs_def1; change (IZR (2 * 90)) with 180%R in *|]; lra.
      - eapply Rle_trans; [apply (rnd_err q 9); [lia|]|]; [|change (9 - 54) with (-45)]; pw; [apply Rabs_def1; change (IZR (2 * 180)) with 360%R in *|]; lra. }
    assert (E2 : (Rabs (rnd (rnd q - IZR h) - (rnd q - IZR h)) <= IZR h / 180 * / 70368744177664)%R).
    { destruct Hh as [-> | ->].
      - eapply Rle_trans; [apply (rnd_err _ 7); [lia|]|]; [change (bpow radix2 7) with 128%R; rewrite opp_IZR in B5; apply Rabs_def1; lra|].
        change (bpow radix2 (7 - 54)) with (/ 140737488355328)%R. lra.
      - eapply Rle_trans; [apply (rnd_err _ 8); [lia|]|]; [change (bpow radix2 8) with 256%R; rewrite opp_IZR in B5; apply Rabs_def1; lra|].
        change (bpow radix2 (8 - 54)) with (/ 70368744177664)%R. lra. }
    apply Rabs_le_inv in E1. apply Rabs_le_inv in E2. apply Rabs_le. lra.
Qed.
Lemma edge_apart h k0 k1 : h = 90 \/ h = 180 -> 0 <= k0 <= 65535 -> 0 <= k1 <= 65535 -> k0 < k1 ->
  (IZR h / 65536 < edgeR h k1 - edgeR h k0)%R.
Proof.
  intros Hh H0 H1 L. destruct (edge_val h k0 Hh H0) as (_ & _ & E0). destruct (edge_val h k1 Hh H1) as (_ & _ & E1).
  apply Rabs_le_inv in E0. apply Rabs_le_inv in E1. assert (L' : (IZR k0 + 1 <= IZR k1)%R) by (rewrite <- plus_IZR; apply IZR_le; lia).
  rewrite !mult_IZR in *. destruct Hh as [-> | ->]; lra.
Qed.

(** ** A coordinate there and back *)
Lemma quant_real U (a b x : f64) e0 e1 r : 0 < U <= 2 ^ 53 -> isf a e0 -> isf b e1 -> isf x r ->
  (Rabs e0 <= 180)%R -> (Rabs e1 <= 180)%R -> (Rabs r <= 180)%R -> (e0 = e1 \/ / 1024 <= Rabs (e1 - e0))%R ->
  let D := rnd (e1 - e0) in let q := rnd (rnd (rnd (r - e0) * IZR U) / D) in
  (D = 0%R /\ quant_coord U a b x = Err ZeroDivisionError) \/
  (D <> 0%R /\ (/ 1024 <= Rabs D <= 360)%R /\ quant_coord U a b x = Ok (f_round (fdiv (fmul (fsub x a) (fofZ U)) (fsub b a))) /\
   isf (fdiv (fmul (fsub x a) (fofZ U)) (fsub b a)) q /\ isf (fsub b a) D).
Proof.
  intros HU Ha Hb Hx B0 B1 Br Ap. cbv zeta. apply Rabs_le_inv in B0. apply Rabs_le_inv in B1. apply Rabs_le_inv in Br.
  assert (IU : isf (fofZ U) (IZR U)) by (apply isf_int; lia).
  assert (S1 : (Rabs (e1 - e0) <= 360)%R) by (apply Rabs_le; lra). assert (S2 : (Rabs (r - e0) <= 360)%R) by (apply Rabs_le; lra).
  assert (P9 : (360 <= bpow radix2 9)%R) by (change (bpow radix2 9) with 512%R; lra).
  assert (HD : isf (fsub b a) (rnd (e1 - e0))) by (apply isf_fsub; auto; apply (small_bpow _ 9); [lia|lra]).
  assert (Hs : isf (fsub x a) (rnd (r - e0))) by (apply isf_fsub; auto; apply (small_bpow _ 9); [lia|lra]).
  assert (Bs : (Rabs (rnd (r - e0)) <= bpow radix2 9)%R) by (apply rnd_abs_le; [lia|lra]).
  assert (BU : (0 < IZR U <= bpow radix2 53)%R) by (split; [apply IZR_lt; lia|rewrite <- IZR2 by lia; apply IZR_le; lia]).
  assert (Bt : (Rabs (rnd (r - e0) * IZR U) <= bpow radix2 62)%R).
  { rewrite Rabs_mult, (Rabs_pos_eq (IZR U)) by lra. change 62 with (9 + 53). rewrite bpow_plus. apply Rmult_le_compat; try apply Rabs_pos; lra. }
  assert (Ht : isf (fmul (fsub x a) (fofZ U)) (rnd (rnd (r - e0) * IZR U))) by (apply isf_fmul; auto; apply (small_bpow _ 62); [lia|exact Bt]).
  assert (Bt' : (Rabs (rnd (rnd (r - e0) * IZR U)) <= bpow radix2 62)%R) by (apply rnd_abs_le; [lia|exact Bt]).
  unfold quant_coord, ndivE. cbn [neq nsub nmul nofZ NumF nround RoundF ndiv].
  assert (I0 : isf (fofZ 0) 0%R) by (apply (isf_int 0); lia). rewrite (isf_eq _ _ _ _ HD I0).
  destruct (Req_bool_spec (rnd (e1 - e0)) 0) as [E|N]; [left; split; [exact E|reflexivity]|right].
  assert (Al : (/ 1024 <= Rabs (rnd (e1 - e0)))%R).
  { destruct Ap as [->|Ap]; [elim N; rewrite Rminus_diag_eq by reflexivity; apply round_0; apply valid_rnd_N|].
    change (/ 1024)%R with (bpow radix2 (-10)) in *. apply abs_round_ge_generic; [apply fexp64_valid|apply valid_rnd_N| |exact Ap].
    apply generic_format_bpow. unfold fexp64, SpecFloat.fexp, SpecFloat.emin. lia. }
  split; [exact N|]. split; [split; [exact Al|]|].
  { change 360%R with (IZR 360) in *. unfold Rabs at 1. destruct (Rcase_abs (rnd (e1 - e0))).
    - rewrite <- rnd_opp. rewrite <- (rnd_IZR 360) by lia. apply rnd_le. apply Rabs_le_inv in S1. lra.
    - rewrite <- (rnd_IZR 360) by lia. apply rnd_le. apply Rabs_le_inv in S1. lra. }
  split; [reflexivity|]. split; [|exact HD]. apply isf_fdiv; auto. apply (small_bpow _ 72); [lia|]. unfold Rdiv. rewrite Rabs_mult.
  change 72 with (62 + 10). rewrite bpow_plus. apply Rmult_le_compat; try apply Rabs_pos; [exact Bt'|]. rewrite Rabs_Rinv by exact N.
  change (bpow radix2 10) with 1024%R. replace 1024%R with (/ / 1024)%R by lra. apply Rinv_le; lra.
Qed.
Lemma coord_trip n U (a b x : f64) e0 e1 r u : n = 1 \/ n = 2 \/ n = 4 -> U = 256 ^ n - 1 -> isf a e0 -> isf b e1 -> isf x r ->
  (Rabs e0 <= 180)%R -> (Rabs e1 <= 180)%R -> (Rabs r <= 180)%R -> (e0 = e1 \/ / 1024 <= Rabs (e1 - e0))%R ->
  quant_coord U a b x = Ok u -> 0 <= u <= U ->
  exists r', isf (fadd a (fdiv (fmul (fofZ u) (fsub b a)) (fofZ U))) r' /\
    (Rabs (r' - r) <= Rabs (e1 - e0) / IZR (2 * U) + / 1099511627776)%R.
Proof.
  intros Hn HU Ha Hb Hx B0 B1 Br Ap Q Hu.
  assert (N8 : 0 < 8 * n <= 32) by lia. assert (UL : 0 < U < 2 ^ (8 * n) /\ 2 ^ (8 * n - 1) <= U) by (destruct Hn as [->|[->| ->]]; subst U; cbn; lia).
  assert (UM : 2 ^ (8 * n) <= 2 ^ 32) by (apply Z.pow_le_mono_r; lia).
  destruct (quant_real U a b x e0 e1 r ltac:(lia) Ha Hb Hx B0 B1 Br Ap) as [(_ & E)|(DN & DB & E & Iq & ID)]; [congruence|]. 
  rewrite E in Q. apply Ok_inj in Q. pose proof (isf_round _ _ Iq) as Ru. rewrite Q in Ru. clear E Q.
  apply Rabs_le_inv in B0. apply Rabs_le_inv in B1. apply Rabs_le_inv in Br.
  (* sizes *)
  set (X := bpow radix2 (8 * n)). assert (PX : (0 < X)%R) by apply bpow_gt_0.
  assert (RU : (0 < IZR U < X /\ X / 2 <= IZR U)%R).
  { unfold X. split; [split; [apply IZR_lt; lia|rewrite <- IZR2 by lia; apply IZR_lt; lia]|].
    replace (bpow radix2 (8 * n) / 2)%R with (bpow radix2 (8 * n - 1)); [rewrite <- IZR2 by lia; apply IZR_le; lia|].
    unfold Zminus. rewrite bpow_plus. reflexivity. }
  assert (Ruu : (0 <= IZR u <= IZR U)%R) by (split; apply IZR_le; lia).
  set (D := rnd (e1 - e0)) in *. set (s := rnd (r - e0)) in *. set (t := rnd (s * IZR U)) in *. set (q := rnd (t / D)) in *.
  assert (Es : (Rabs (s - (r - e0)) <= bpow radix2 (9 - 54))%R) by (apply rnd_err; [lia|change (bpow radix2 9) with 512%R; apply Rabs_def1; lra]).
  assert (ED : (Rabs (D - (e1 - e0)) <= bpow radix2 (9 - 54))%R) by (apply rnd_err; [lia|change (bpow radix2 9) with 512%R; apply Rabs_def1; lra]).
  assert (Bs : (Rabs s <= 400)%R) by (change (bpow radix2 (9 - 54)) with (/ 35184372088832)%R in Es; apply Rabs_le_inv in Es; apply Rabs_le; lra).
  assert (Et : (Rabs (t - s * IZR U) <= X * bpow radix2 (9 - 54))%R).
  { unfold X. rewrite <- bpow_plus. replace (8 * n + (9 - 54)) with (8 * n + 9 - 54) by lia. apply rnd_err; [lia|].
    rewrite bpow_plus. fold X. change (bpow radix2 9) with 512%R. rewrite Rabs_mult, (Rabs_pos_eq (IZR U)) by lra.
    apply (Rle_lt_trans _ (400 * IZR U)); [apply Rmult_le_compat_r; lra|lra]. }
  assert (Eq : (Rabs (q - t / D) <= X * bpow radix2 (1 - 54))%R).
  { unfold X. rewrite <- bpow_plus. replace (8 * n + (1 - 54)) with (8 * n + 1 - 54) by lia. apply rnd_err; [lia|].
    destruct (Rlt_le_dec (Rabs (t / D)) (bpow radix2 (8 * n + 1))) as [L|L]; [exact L|exfalso].
    assert (G : (bpow radix2 (8 * n + 1) <= Rabs q)%R).
    { apply abs_round_ge_generic; [apply fexp64_valid|apply valid_rnd_N| |exact L]. apply generic_format_bpow. unfold fexp64, SpecFloat.fexp, SpecFloat.emin. lia. }
    rewrite bpow_plus in G. fold X in G. change (bpow radix2 1) with 2%R in G.
    assert (X1 : (1 <= X)%R) by (change 1%R with (bpow radix2 0); apply bpow_le; lia).
    assert (Rabs q <= IZR U + / 2)%R; [|lra]. apply Rabs_le_inv in Ru. apply Rabs_le. lra. }
  assert (QD : (Rabs (q * D - t) <= X * bpow radix2 (1 - 54) * 360)%R).
  { replace (q * D - t)%R with ((q - t / D) * D)%R by (field; exact DN). rewrite Rabs_mult. apply Rmult_le_compat; try apply Rabs_pos; [exact Eq|apply DB]. }
  assert (UD : (Rabs (IZR u * D - q * D) <= / 2 * Rabs D)%R).
  { replace (IZR u * D - q * D)%R with ((IZR u - q) * D)%R by ring. rewrite Rabs_mult. apply Rmult_le_compat_r; [apply Rabs_pos|exact Ru]. }
  (* reading *)
  assert (Iu : isf (fofZ u) (IZR u)) by (apply isf_int; lia). assert (IU : isf (fofZ U) (IZR U)) by (apply isf_int; lia).
  assert (Bv : (Rabs (IZR u * D) < X * bpow radix2 9)%R).
  { rewrite Rabs_mult, (Rabs_pos_eq (IZR u)) by lra. change (bpow radix2 9) with 512%R.
    apply (Rle_lt_trans _ (IZR U * 360)); [apply Rmult_le_compat; try apply Rabs_pos; lra|lra]. }
  set (v := rnd (IZR u * D)).
  assert (Iv : isf (fmul (fofZ u) (fsub b a)) v).
  { apply isf_fmul; auto. apply (small_bpow _ (8 * n + 9)); [lia|]. rewrite bpow_plus. fold X. lra. }
  assert (Ev : (Rabs (v - IZR u * D) <= X * bpow radix2 (9 - 54))%R).
  { unfold X. rewrite <- bpow_plus. replace (8 * n + (9 - 54)) with (8 * n + 9 - 54) by lia. apply rnd_err; [lia|]. rewrite bpow_plus. exact Bv. }
  assert (Bw : (Rabs (v / IZR U) <= 400)%R).
  { unfold Rdiv. rewrite Rabs_mult, Rabs_Rinv, (Rabs_pos_eq (IZR U)) by lra. apply Rmult_le_reg_r with (IZR U); [lra|]. rewrite Rmult_assoc, Rinv_l, Rmult_1_r by lra.
    apply Rabs_le_inv in Ev. change (bpow radix2 (9 - 54)) with (/ 35184372088832)%R in Ev.
    assert (Rabs (IZR u * D) <= IZR U * 360)%R by (rewrite Rabs_mult, (Rabs_pos_eq (IZR u)) by lra; apply Rmult_le_compat; try apply Rabs_pos; lra).
    apply Rabs_le_inv in H. apply Rabs_le. lra. }
  set (w := rnd (v / IZR U)).
  assert (Iw : isf (fdiv (fmul (fofZ u) (fsub b a)) (fofZ U)) w).
  { apply isf_fdiv; auto; [lra|]. apply (small_bpow _ 9); [lia|]. change (bpow radix2 9) with 512%R. lra. }
  assert (Ew : (Rabs (w - v / IZR U) <= bpow radix2 (9 - 54))%R) by (apply rnd_err; [lia|]; change (bpow radix2 9) with 512%R; lra).
  change (bpow radix2 (9 - 54)) with (/ 35184372088832)%R in *. change (bpow radix2 (1 - 54)) with (/ 9007199254740992)%R in *.
  apply Rabs_le_inv in Ew. assert (Bw' := Rabs_le_inv _ _ Bw).
  exists (rnd (e0 + w)). split.
  { apply isf_fadd; auto. apply (small_bpow _ 10); [lia|]. change (bpow radix2 10) with 1024%R. apply Rabs_le. lra. }
  assert (Er : (Rabs (rnd (e0 + w) - (e0 + w)) <= bpow radix2 (10 - 54))%R).
  { apply rnd_err; [lia|]. change (bpow radix2 10) with 1024%R. apply Rabs_def1; lra. }
  change (bpow radix2 (10 - 54)) with (/ 17592186044416)%R in Er.
  (* sum, all multiplied by U *)
  apply Rabs_le_inv in Er. apply Rabs_le_inv in Ev. apply Rabs_le_inv in UD. apply Rabs_le_inv in QD. apply Rabs_le_inv in Et. apply Rabs_le_inv in Es.
  assert (DD : (Rabs D <= Rabs (e1 - e0) + / 35184372088832)%R).
  { replace D with ((e1 - e0) + (D - (e1 - e0)))%R by ring. eapply Rle_trans; [apply Rabs_triang|]. lra. }
  set (U' := IZR U) in *. assert (Xu : (X <= 2 * U')%R) by lra.
  assert (K1 : (Rabs (v - (r - e0) * U') <= / 2 * Rabs D + U' * (/ 4398046511104))%R).
  { apply Rabs_le. assert (M : (- (/ 35184372088832 * U') <= (s - (r - e0)) * U' <= / 35184372088832 * U')%R).
    { split; [|apply Rmult_le_compat_r; lra]. rewrite Ropp_mult_distr_l. apply Rmult_le_compat_r; lra. }
    assert (1 <= U')%R by (unfold U'; apply IZR_le; lia).
    split; lra. }
  assert (K2 : (Rabs (v / U' - (r - e0)) <= / 2 * Rabs D / U' + / 4398046511104)%R).
  { replace (v / U' - (r - e0))%R with ((v - (r - e0) * U') / U')%R by (field; lra). unfold Rdiv. rewrite Rabs_mult, Rabs_Rinv, (Rabs_pos_eq U') by lra.
    apply Rmult_le_reg_r with U'; [lra|]. rewrite Rmult_assoc, Rinv_l, Rmult_1_r by lra.
    replace ((/ 2 * Rabs D * / U' + / 4398046511104) * U')%R with (/ 2 * Rabs D + U' * / 4398046511104)%R by (field; lra). exact K1. }
  assert (K3 : (/ 2 * Rabs D / U' <= Rabs (e1 - e0) / IZR (2 * U) + / 35184372088832)%R).
  { rewrite mult_IZR. fold U'. apply Rmult_le_reg_r with U'; [lra|].
    replace (/ 2 * Rabs D / U' * U')%R with (/ 2 * Rabs D)%R by (field; lra).
    replace ((Rabs (e1 - e0) / (2 * U') + / 35184372088832) * U')%R with (/ 2 * Rabs (e1 - e0) + / 35184372088832 * U')%R by (field; lra).
    assert (1 <= U')%R by (unfold U'; apply IZR_le; lia). lra. }
  apply Rabs_le_inv in K2. apply Rabs_le. lra.
Qed.
