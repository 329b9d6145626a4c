(** x // y is the exact floor. *)
From Coq Require Import ZArith Reals Lia Lra SpecFloat Psatz.
From Flocq Require Import Core IEEE754.BinarySingleNaN.
From Flocq Require Import Div_sqrt_error.
From Verif Require Import Py Num FloatLib NearestFloat GridFloat StatsFloat CompassFloat FloorDivModel FloorDivSpec.
Open Scope R_scope.

Lemma rem_val x y X Y : isf x X -> isf y Y -> 0 < Y -> Y <= bpow radix2 900 ->
  isf (f_rem x y) (X - IZR (Ztrunc (X / Y)) * Y) /\ Rabs (X - IZR (Ztrunc (X / Y)) * Y) < Y /\ 0 <= (X - IZR (Ztrunc (X / Y)) * Y) * X.
Proof.
  intros I J N0 Y9. set (k := Ztrunc (X / Y)). set (r := X - IZR k * Y).
  assert (Fy : generic_format radix2 fexp64 r) by (apply (format_REM_ZR radix2 fexp64 X Y); [exact (isf_format _ _ I)|exact (isf_format _ _ J)]).
  assert (B : Rabs r < Y /\ 0 <= r * X).
  { assert (E : X = X / Y * Y) by (field; lra). assert (Ey : r = (X / Y - IZR k) * Y) by (unfold r; rewrite E at 1; ring). set (q := X / Y) in *.
    destruct (Rle_or_lt 0 q) as [P|P].
    - assert (Ek : k = Zfloor q) by (apply Ztrunc_floor; exact P). pose proof (Zfloor_lb q) as L. pose proof (Zfloor_ub q) as U. rewrite <- Ek in L, U.
      assert (Y0 : 0 <= r) by (rewrite Ey; apply Rmult_le_pos; lra). assert (R0 : 0 <= X) by (rewrite E; apply Rmult_le_pos; lra).
      split; [rewrite Rabs_pos_eq by exact Y0|apply Rmult_le_pos; assumption]. rewrite Ey. apply Rlt_le_trans with (1 * Y); [apply Rmult_lt_compat_r; lra|lra].
    - assert (Ek : k = Zceil q) by (apply Ztrunc_ceil; lra). pose proof (Zceil_ub q) as L. pose proof (Zceil_lb q) as U. rewrite <- Ek in L, U.
      assert (Y0 : 0 <= - r) by (rewrite Ey, Ropp_mult_distr_l; apply Rmult_le_pos; lra). assert (R0 : 0 <= - X) by (rewrite E, Ropp_mult_distr_l; apply Rmult_le_pos; lra).
      split; [rewrite Rabs_left1 by lra|replace (r * X) with (- r * - X) by ring; apply Rmult_le_pos; assumption]. rewrite Ey, Ropp_mult_distr_l.
      apply Rlt_le_trans with (1 * Y); [apply Rmult_lt_compat_r; lra|lra]. }
  split; [|exact B]. destruct B as [B _]. destruct I as (b & <- & Fb & <-). destruct J as (c & <- & Fc & <-).
  destruct c as [s'| | |s' m' e' H']; try discriminate; [cbn [B2R] in N0; lra|].
  destruct b as [s| | |s m e H]; try discriminate.
  - cbn [B2SF f_rem]. cbn [B2R] in *. unfold r, k. unfold Rdiv. rewrite Rmult_0_l, Ztrunc_IZR, Rmult_0_l, Rminus_0_r. exists (B754_zero s). repeat split.
  - cbn [B2SF f_rem]. cbn [B2R] in *.
    assert (Ev : signed s m = cond_Zopp s (Z.pos m)) by (destruct s; reflexivity). assert (Ew : signed s' m' = cond_Zopp s' (Z.pos m')) by (destruct s'; reflexivity). rewrite Ev, Ew.
    set (v := cond_Zopp s (Z.pos m)) in *. set (w := cond_Zopp s' (Z.pos m')) in *.
    set (f := Z.min e e'). set (a := (v * 2 ^ (e - f))%Z). set (d := (w * 2 ^ (e' - f))%Z).
    assert (Ea : F2R (Float radix2 v e) = IZR a * bpow radix2 f).
    { unfold F2R, a. cbn [Fnum Fexp]. rewrite mult_IZR, (IZR_Zpower radix2), Rmult_assoc, <- bpow_plus by lia. do 2 f_equal. lia. }
    assert (Ed : F2R (Float radix2 w e') = IZR d * bpow radix2 f).
    { unfold F2R, d. cbn [Fnum Fexp]. rewrite mult_IZR, (IZR_Zpower radix2), Rmult_assoc, <- bpow_plus by lia. do 2 f_equal. lia. }
    pose proof (bpow_gt_0 radix2 f) as Pf.
    assert (D0 : (0 < d)%Z) by (apply lt_IZR; rewrite Ed in N0; apply Rmult_lt_reg_r with (bpow radix2 f); lra). assert (D0r : 0 < IZR d) by (apply (IZR_lt 0); exact D0).
    assert (Eq : F2R (Float radix2 v e) / F2R (Float radix2 w e') = IZR a / IZR d) by (rewrite Ea, Ed; field; lra).
    assert (Ek : k = Z.quot a d) by (unfold k; rewrite Eq; apply Ztrunc_div; lia).
    assert (Er : r = IZR (Z.rem a d) * bpow radix2 f).
    { assert (Q : (Z.rem a d = a - d * k)%Z) by (rewrite Ek; pose proof (Z.quot_rem' a d); lia). rewrite Q, minus_IZR, !mult_IZR. unfold r. rewrite Ea, Ed. ring. }
    rewrite <- (rnd_fmt r Fy). rewrite Er. apply isf_f_of. rewrite <- Er. apply (small_bpow _ 900); [lia|]. lra.
Qed.

Lemma half : isf (f_of 1 (-1)) (/ 2).
Proof.
  pose proof (isf_valid (f_of 1 (-1)) eq_refl eq_refl) as I. replace (/ 2) with (SF2R radix2 (f_of 1 (-1))); [exact I|].
  change (f_of 1 (-1)) with (S754_finite false 4503599627370496 (-53)). unfold SF2R. rewrite F2R_div by lia. change (IZR 4503599627370496 / IZR 9007199254740992 = / 2). lra.
Qed.
(** The last step: an integer out of its approximation *)
Lemma snapped div v k x y : isf div v -> Rabs (v - IZR k) <= 2 / 5 -> (Z.abs k <= 2 ^ 51)%Z ->
  (match fdiv x y with S754_nan => False | _ => True end) ->
  isf (match div with
       | S754_finite _ _ _ =>
            let fl := fofZ (f_floor div) in
            if SFltb (f_of 1 (-1)) (fsub div fl) then fadd fl (fofZ 1) else fl
       | S754_zero _ => match fdiv x y with S754_zero s | S754_finite s _ _ | S754_infinity s => S754_zero s | S754_nan => S754_nan end
       | _ => div
       end) (IZR k).
Proof.
  intros I C K Nn.
  assert (Z0 : forall s, v = 0 -> isf (S754_zero s) (IZR k)).
  { intros s V0. assert (k = 0%Z) as ->. { apply Rabs_le_inv in C. assert (-1 < k < 1)%Z by (split; apply lt_IZR; lra). lia. } exists (B754_zero s). repeat split. }
  assert (Main : isf (if SFltb (f_of 1 (-1)) (fsub div (fofZ (f_floor div))) then fadd (fofZ (f_floor div)) (fofZ 1) else fofZ (f_floor div)) (IZR k)).
  { rewrite (isf_floor div v I). pose proof (Zfloor_lb v) as L. pose proof (Zfloor_ub v) as U. apply Rabs_le_inv in C.
    assert (Hf : Zfloor v = k \/ Zfloor v = (k - 1)%Z).
    { assert (k - 2 < Zfloor v < k + 1)%Z; [|lia]. split; apply lt_IZR; rewrite ?minus_IZR, ?plus_IZR; lra. }
    assert (If : isf (fofZ (Zfloor v)) (IZR (Zfloor v))) by (apply isf_int; lia).
    assert (Is : isf (fsub div (fofZ (Zfloor v))) (rnd (v - IZR (Zfloor v)))) by (apply isf_fsub; auto; apply (small_bpow _ 2); [lia|]; change (bpow radix2 2) with 4; rewrite Rabs_pos_eq; lra).
    rewrite (isf_lt _ _ _ _ half Is).
    pose proof (rnd_near (v - IZR (Zfloor v)) 1 ltac:(rewrite Rabs_pos_eq; lra)) as Rn. apply Rabs_le_inv in Rn.
    assert (Ti : bpow radix2 (-1000) <= / 1024) by (change (/ 1024) with (bpow radix2 (-10)); apply bpow_le; lia).
    destruct Hf as [Hf|Hf]; rewrite Hf in *.
    - rewrite Rlt_bool_false by lra. exact If.
    - rewrite minus_IZR in *. rewrite Rlt_bool_true by lra.
      replace (IZR k) with (rnd (IZR (k - 1) + 1)); [apply isf_fadd; [rewrite <- minus_IZR in If; exact If|apply (isf_int 1); lia|]|].
      + rewrite <- plus_IZR. apply small_le. rewrite <- abs_IZR. apply IZR_le. lia.
      + rewrite <- plus_IZR. rewrite rnd_IZR by lia. f_equal. lia. }
  destruct I as (b & <- & Fb & Eb). destruct b as [s| | |s m e H]; try discriminate; cbn [B2SF] in *.
  - destruct (fdiv x y); try contradiction; apply Z0; cbn in Eb; lra.
  - exact Main.
Qed.
Lemma isf_nonan x r : isf x r -> match x with S754_nan => False | _ => True end.
Proof. intros (b & <- & F & _). destruct b; try discriminate; exact I. Qed.
Lemma floor_cell x s X S : isf s S -> bpow radix2 (-900) <= S <= bpow radix2 900 -> coordinate x S X -> exists i, floordiv64 x s = Ok i /\ cell_of i S X.
Proof.
  intros J (S1 & S2) (I & Bq & Bx). assert (S0 : 0 < S) by (pose proof (bpow_gt_0 radix2 (-900)); lra).
  destruct (rem_val x s X S I J S0 S2) as (Im & Bm & Sm). set (k := Ztrunc (X / S)) in *. set (Y := X - IZR k * S) in *.
  assert (Q : Rabs (X / S) <= 1125899906842624).
  { change (bpow radix2 50) with 1125899906842624 in Bq. unfold Rdiv. rewrite Rabs_mult, (Rabs_pos_eq (/ S)) by (apply Rlt_le, Rinv_0_lt_compat, S0).
    apply Rmult_le_reg_r with S; [exact S0|]. rewrite Rmult_assoc, Rinv_l by lra. lra. }
  assert (K : (Z.abs k <= 1125899906842624)%Z).
  { unfold k. rewrite <- Ztrunc_abs. apply le_IZR. eapply Rle_trans; [|exact Q]. rewrite Ztrunc_floor by apply Rabs_pos. apply Zfloor_lb. }
  assert (Kr : Rabs (IZR k) <= 1125899906842624) by (rewrite <- abs_IZR; apply IZR_le in K; exact K).
  assert (EX : X - Y = IZR k * S) by (unfold Y; ring).
  assert (Bd : Rabs (X - Y) <= bpow radix2 901).
  { eapply Rle_trans; [apply Rabs_triang|]. rewrite Rabs_Ropp. change 901%Z with (900 + 1)%Z. rewrite bpow_plus. change (bpow radix2 1) with 2. lra. }
  assert (I1 : isf (fsub x (f_rem x s)) (rnd (X - Y))) by (apply isf_fsub; [exact I|exact Im|apply (small_bpow _ 901); [lia|exact Bd]]).
  destruct (rel_sub X Y (isf_format _ _ I) (isf_format _ _ Im)) as (e & E & Eq). rewrite Eq in I1.
  assert (Ez : (X - Y) * (1 + e) / S = IZR k * (1 + e)) by (rewrite EX; field; lra).
  assert (Ke : Rabs (IZR k * e) <= / 8).
  { rewrite Rabs_mult. apply Rle_trans with (1125899906842624 * / 9007199254740992); [apply Rmult_le_compat; try apply Rabs_pos; assumption|lra]. }
  assert (Bz : Rabs (IZR k * (1 + e)) <= 1125899906842625).
  { replace (IZR k * (1 + e)) with (IZR k + IZR k * e) by ring. eapply Rle_trans; [apply Rabs_triang|]. lra. }
  assert (I2 : isf (fdiv (fsub x (f_rem x s)) s) (rnd (IZR k * (1 + e)))).
  { rewrite <- Ez. apply isf_fdiv; [exact I1|exact J|lra|]. rewrite Ez. apply (small_bpow _ 51); [lia|]. change (bpow radix2 51) with 2251799813685248. lra. }
  pose proof (rnd_near _ _ Bz) as Rz. set (z := rnd (IZR k * (1 + e))) in *.
  assert (Ti : bpow radix2 (-1000) <= / 1024) by (change (/ 1024) with (bpow radix2 (-10)); apply bpow_le; lia).
  assert (Cz : Rabs (z - IZR k) <= 26 / 100).
  { replace (z - IZR k) with ((z - IZR k * (1 + e)) + IZR k * e) by ring. eapply Rle_trans; [apply Rabs_triang|]. lra. }
  assert (Nn : match fdiv x s with S754_nan => False | _ => True end).
  { apply (isf_nonan _ (rnd (X / S))). apply isf_fdiv; [exact I|exact J|lra|]. apply (small_bpow _ 50); [lia|exact Q]. }
  assert (I0 : isf (fofZ 0) 0) by (apply (isf_int 0); lia).
  unfold floordiv64. rewrite (isf_eq _ _ _ _ J I0), Req_bool_false by lra. cbv zeta. rewrite (isf_eq _ _ _ _ Im I0), (isf_lt _ _ _ _ J I0), (isf_lt _ _ _ _ Im I0).
  rewrite (Rlt_bool_false S) by lra. eexists. split; [reflexivity|].
  destruct (Req_bool_spec Y 0) as [Y0|Y0]; cbn [negb andb].
  - exists k. split; [apply (snapped _ z); [exact I2|lra|lia|exact Nn]|]. unfold Y in *. lra.
  - destruct (Rlt_bool_spec Y 0) as [Yn|Yp]; cbn [xorb].
    + apply Rabs_def2 in Bm. exists (k - 1)%Z. split; [|unfold Y in *; rewrite minus_IZR; lra].
      assert (B1 : Rabs (z - 1) <= 1125899906842627).
      { replace (z - 1) with ((z - IZR k) + (IZR k - 1)) by ring. eapply Rle_trans; [apply Rabs_triang|]. assert (Rabs (IZR k - 1) <= 1125899906842625) by (rewrite <- minus_IZR, <- abs_IZR; apply IZR_le; lia). lra. }
      apply (snapped _ (rnd (z - 1))).
      * apply isf_fsub; [exact I2|apply (isf_int 1); lia|]. apply (small_bpow _ 51); [lia|]. change (bpow radix2 51) with 2251799813685248. lra.
      * pose proof (rnd_near _ _ B1) as R1. rewrite minus_IZR. replace (rnd (z - 1) - (IZR k - 1)) with ((rnd (z - 1) - (z - 1)) + (z - IZR k)) by ring. eapply Rle_trans; [apply Rabs_triang|]. lra.
      * lia.
      * exact Nn.
    + apply Rabs_def2 in Bm. exists k. split; [apply (snapped _ z); [exact I2|lra|lia|exact Nn]|]. unfold Y in *. lra.
Qed.
Lemma cells s S p X Y : isf s S -> bpow radix2 (-900) <= S <= bpow radix2 900 -> coordinate (fst p) S X -> coordinate (snd p) S Y ->
  exists i j, cell64 s p = Ok (i, j) /\ cell_of i S X /\ cell_of j S Y.
Proof.
  intros J B C D. destruct (floor_cell _ _ _ _ J B C) as (i & Ei & Ci). destruct (floor_cell _ _ _ _ J B D) as (j & Ej & Cj).
  exists i, j. unfold cell64. rewrite Ei. cbn. rewrite Ej. cbn. auto.
Qed.
Lemma one_cell i j S X : 0 < S -> cell_of i S X -> cell_of j S X -> exists k : Z, isf i (IZR k) /\ isf j (IZR k).
Proof.
  intros S0 (k & Ik & Lk & Uk) (l & Il & Ll & Ul). exists k. split; [exact Ik|]. replace k with l; [exact Il|].
  assert (A : IZR k < IZR l + 1) by (apply Rmult_lt_reg_r with S; lra). assert (B : IZR l < IZR k + 1) by (apply Rmult_lt_reg_r with S; lra).
  rewrite <- plus_IZR in A, B. apply lt_IZR in A. apply lt_IZR in B. lia.
Qed.
Lemma zero_scale p s : cell64 (S754_zero s) p = Err ZeroDivisionError.
Proof. destruct s; reflexivity. Qed.
Lemma cell_mono i j S X X' : 0 < S -> X <= X' -> cell_of i S X -> cell_of j S X' -> SFleb i j = true.
Proof.
  intros S0 L (k & Ik & Lk & Uk) (l & Il & Ll & Ul). rewrite (isf_le _ _ _ _ Ik Il). apply Rle_bool_true.
  assert (A : IZR k < IZR l + 1) by (apply Rmult_lt_reg_r with S; lra). rewrite <- plus_IZR in A. apply lt_IZR in A. apply IZR_le. lia.
Qed.
Definition tenth : f64 := S754_finite false 7205759403792794 (-56).
Definition tenthR : R := 7205759403792794 / 72057594037927936.
Lemma tenth_val : isf tenth tenthR.
Proof.
  pose proof (isf_valid tenth eq_refl eq_refl) as I. replace tenthR with (SF2R radix2 tenth); [exact I|]. unfold tenth, SF2R. rewrite F2R_div by lia. reflexivity.
Qed.
Lemma tenth_fits : isf tenth tenthR /\ bpow radix2 (-900) <= tenthR <= bpow radix2 900 /\ coordinate (fofZ 1) tenthR 1 /\ coordinate (fofZ (-7)) tenthR (-7).
Proof.
  assert (A : bpow radix2 (-900) <= bpow radix2 (-10)) by (apply bpow_le; lia). assert (B : bpow radix2 10 <= bpow radix2 900) by (apply bpow_le; lia).
  change (bpow radix2 (-10)) with (/ 1024) in A. change (bpow radix2 10) with 1024 in B.
  split; [exact tenth_val|]. split; [unfold tenthR; lra|]. unfold coordinate, tenthR. change (bpow radix2 50) with 1125899906842624.
  split; (split; [first [apply (isf_int 1); lia|apply (isf_int (-7)); lia]|]); [rewrite (Rabs_pos_eq 1) by lra|rewrite (Rabs_left (-7)) by lra]; lra.
Qed.
Lemma quotient : exists x s X S, isf s S /\ bpow radix2 (-900) <= S <= bpow radix2 900 /\ coordinate x S X /\ ~ cell_of (fofZ (f_floor (fdiv x s))) S X.
Proof.
  destruct tenth_fits as (A & B & C & _). exists (fofZ 1), tenth, 1, tenthR. split; [exact A|]. split; [exact B|]. split; [exact C|].
  intros (k & I & L & U). assert (E : fofZ (f_floor (fdiv (fofZ 1) tenth)) = fofZ 10) by (vm_compute; reflexivity). rewrite E in I.
  rewrite (isf_fun _ _ _ I (isf_int 10 ltac:(lia))) in L. unfold tenthR in L. lra.
Qed.
