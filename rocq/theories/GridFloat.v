(** Real fields of grid files in double arithmetic. *)
From Coq Require Import ZArith Reals Lia Lra List SpecFloat ZifyBool.
From Flocq Require Import Core IEEE754.BinarySingleNaN.
From Flocq Require Import Relative Mult_error.
From Verif Require Import Num FloatLib PfFloatTrip RasterAA RasterAALine VlvModel VlvProofs GridModel.
Open Scope R_scope.

Notation ulp0 := (/ 9007199254740992) (only parsing).
(** Rounding: a relative error, or an absolute one for the tiniest numbers. *)
Lemma rnd_rel r : exists e d, Rabs e <= / 9007199254740992 /\ Rabs d <= bpow radix2 (-1000) /\ rnd r = r * (1 + e) + d.
Proof.
  destruct (error_N_FLT radix2 (-1074) 53 ltac:(reflexivity) (fun z => negb (Z.even z)) r) as (e & d & E & D & _ & Q).
  exists e, d. split; [|split; [|exact Q]].
  - eapply Rle_trans; [exact E|]. change (bpow radix2 (- (53) + 1)) with (/ 4503599627370496). lra.
  - eapply Rle_trans; [exact D|]. pose proof (bpow_gt_0 radix2 (-1074)). assert (bpow radix2 (-1074) <= bpow radix2 (-1000)) by (apply bpow_le; lia). lra.
Qed.
Lemma rnd_near r b : Rabs r <= b -> Rabs (rnd r - r) <= b * / 9007199254740992 + bpow radix2 (-1000).
Proof.
  intros B. destruct (rnd_rel r) as (e & d & E & D & ->). replace (r * (1 + e) + d - r) with (r * e + d) by ring.
  eapply Rle_trans; [apply Rabs_triang|]. apply Rplus_le_compat; [|exact D]. rewrite Rabs_mult. apply Rmult_le_compat; try apply Rabs_pos; assumption.
Qed.
Lemma tiny : 0 < bpow radix2 (-1000) <= bpow radix2 (-800).
Proof. split; [apply bpow_gt_0|apply bpow_le; lia]. Qed.
Lemma small200 r : Rabs r <= bpow radix2 400 -> small r.
Proof. apply small_bpow. lia. Qed.

Section Field.
  Variables (mn mx : f64) (MN MX M : R) (S : Z).
  Hypotheses (In : isf mn MN) (Ix : isf mx MX) (Lt : MN < MX) (Bn : Rabs MN <= M) (Bx : Rabs MX <= M)
    (Big : M <= bpow radix2 100) (Gap : bpow radix2 (-100) <= MX - MN) (Bs : (255 <= S <= 2 ^ 64)%Z).
  Let D := MX - MN.
  Let D' := rnd (MX - MN).
  Let S' := rnd (IZR S).

  Lemma p100 : 0 < bpow radix2 (-100) /\ bpow radix2 100 <= bpow radix2 300.
  Proof. split; [apply bpow_gt_0|apply bpow_le; lia]. Qed.
  Lemma S_facts : 255 <= IZR S <= 18446744073709551616 /\ isf (fofZ S) S' /\ Rabs (S' - IZR S) <= IZR S * / 4503599627370496 /\ 255 <= S' <= 18446744073709551616.
  Proof.
    assert (B : 255 <= IZR S <= 18446744073709551616) by (split; [apply (IZR_le 255)|apply (IZR_le S 18446744073709551616)]; lia).
    split; [exact B|]. assert (A : Rabs (IZR S) <= IZR S) by (rewrite Rabs_pos_eq; lra).
    pose proof (rnd_near (IZR S) (IZR S) A) as N. fold S' in N.
    assert (T : bpow radix2 (-1000) <= / 9007199254740992).
    { change (/ 9007199254740992) with (bpow radix2 (-53)). apply bpow_le. lia. }
    split; [apply isf_fofZ; apply (small_bpow _ 64); [lia|]; rewrite Rabs_pos_eq by lra; apply B|].
    split; [lra|]. split.
    - rewrite <- (rnd_IZR 255) by lia. apply rnd_le. lra.
    - assert (G : rnd (bpow radix2 64) = bpow radix2 64) by (apply round_generic; [apply valid_rnd_N|apply generic_format_bpow; vm_compute; discriminate]).
      change 18446744073709551616 with (bpow radix2 64) in *. rewrite <- G. apply rnd_le. lra.
  Qed.
  Lemma D_facts : 0 < D /\ D <= 2 * M /\ isf (fsub mx mn) D' /\ Rabs (D' - D) <= D * / 9007199254740992 /\ 0 < D'.
  Proof.
    apply Rabs_le_inv in Bn, Bx. assert (0 < D <= 2 * M) by (unfold D; lra). split; [lra|]. split; [lra|].
    pose proof p100 as [_ P]. split.
    - apply isf_fsub; [exact Ix|exact In|]. apply small200. fold D. rewrite Rabs_pos_eq by lra.
      apply Rle_trans with (2 * bpow radix2 300); [lra|]. change 2 with (bpow radix2 1). rewrite <- bpow_plus. apply bpow_le. lia.
    - unfold D'. destruct (sub_rel mx mn MX MN Ix In) as (e & E & ->). fold D. split; [|apply Rabs_le_inv in E; apply Rmult_lt_0_compat; lra].
      replace (D * (1 + e) - D) with (D * e) by ring. rewrite Rabs_mult, (Rabs_pos_eq D) by lra. apply Rmult_le_compat_l; lra.
  Qed.

  (** The quotient before rounding to an index. *)
  Section Encode.
    Variables (x : f64) (X : R).
    Hypotheses (I : isf x X) (B : MN <= X <= MX).
    Let a := (X - MN) / D.
    Lemma code_float : exists t, isf (fdiv (fmul (fsub x mn) (fofZ S)) (fsub mx mn)) t /\ Rabs (t - a * IZR S) <= IZR S * / 281474976710656 /\ 0 <= a <= 1 /\ 0 <= t.
    Proof.
      destruct S_facts as (BS & IS & ES & BS'). destruct D_facts as (PD & LD & ID & ED & PD'). pose proof p100 as [P0 P1]. pose proof tiny as [T0 T1].
      assert (Da : 0 <= a <= 1).
      { unfold a. split; [apply Rmult_le_pos; [lra|left; apply Rinv_0_lt_compat; exact PD]|].
        apply (Rmult_le_reg_r D); [exact PD|]. unfold Rdiv. rewrite Rmult_assoc, Rinv_l by lra. unfold D. lra. }
      set (u := rnd (X - MN)).
      assert (Iu : isf (fsub x mn) u).
      { apply isf_fsub; [exact I|exact In|]. apply small200. rewrite Rabs_pos_eq by lra. apply Rle_trans with (2 * bpow radix2 300); [unfold D in *; lra|].
        change 2 with (bpow radix2 1). rewrite <- bpow_plus. apply bpow_le. lia. }
      assert (Bu : 0 <= u <= D').
      { split; [unfold u; rewrite <- (rnd_IZR 0) by lia; apply rnd_le; lra|]. unfold u, D'. apply rnd_le. lra. }
      set (v := u / D').
      assert (Bv : 0 <= v <= 1).
      { unfold v. split; [apply Rmult_le_pos; [lra|left; apply Rinv_0_lt_compat; exact PD']|].
        apply (Rmult_le_reg_r D'); [exact PD'|]. unfold Rdiv. rewrite Rmult_assoc, Rinv_l by lra. lra. }
      assert (Ev : Rabs (v - a) <= / 2251799813685248).
      { destruct (sub_rel x mn X MN I In) as (e2 & E2 & Q2). destruct (sub_rel mx mn MX MN Ix In) as (e1 & E1 & Q1).
        apply Rabs_le_inv in E1, E2. assert (Q : v = a * (1 + (e2 - e1) * / (1 + e1))).
        { unfold v, u, D', a, D. rewrite Q1, Q2. field. lra. }
        replace (v - a) with (a * ((e2 - e1) * / (1 + e1))) by (rewrite Q; ring). rewrite Rabs_mult, (Rabs_pos_eq a) by lra.
        assert (A1 : Rabs (e2 - e1) <= 2 * / 9007199254740992) by (apply Rabs_le; lra).
        assert (A2 : 0 < / (1 + e1) <= 2).
        { split; [apply Rinv_0_lt_compat; lra|]. replace 2 with (/ (/ 2)) by field. apply Rinv_le; lra. }
        rewrite Rabs_mult, (Rabs_pos_eq (/ (1 + e1))) by lra. pose proof (Rabs_pos (e2 - e1)).
        assert (W : Rabs (e2 - e1) * / (1 + e1) <= / 2251799813685248) by nra.
        assert (W0 : 0 <= Rabs (e2 - e1) * / (1 + e1)) by (apply Rmult_le_pos; lra). nra. }
      assert (Eu : u = v * D') by (unfold v; field; lra).
      set (p := rnd (u * S')).
      assert (BD' : D' <= bpow radix2 102).
      { apply Rabs_le_inv in ED. replace (bpow radix2 102) with (4 * bpow radix2 100) by (change 4 with (bpow radix2 2); rewrite <- bpow_plus; reflexivity). lra. }
      assert (Bp : 0 <= u * S' <= D' * S') by (split; [apply Rmult_le_pos; lra|apply Rmult_le_compat_r; lra]).
      assert (BDS : D' * S' <= bpow radix2 166).
      { replace (bpow radix2 166) with (bpow radix2 102 * 18446744073709551616).
        - apply Rmult_le_compat; lra.
        - change 18446744073709551616 with (bpow radix2 64). rewrite <- bpow_plus. reflexivity. }
      assert (B166 : bpow radix2 166 <= bpow radix2 300) by (apply bpow_le; lia).
      assert (B300 : bpow radix2 300 <= bpow radix2 400) by (apply bpow_le; lia).
      assert (Ip : isf (fmul (fsub x mn) (fofZ S)) p).
      { apply isf_fmul; [exact Iu|exact IS|]. apply small200. rewrite Rabs_pos_eq by lra. lra. }
      assert (Np : Rabs (p - u * S') <= D' * S' * / 9007199254740992 + bpow radix2 (-1000)) by (apply rnd_near; rewrite Rabs_pos_eq; lra).
      assert (GapD : bpow radix2 (-101) <= D').
      { apply Rabs_le_inv in ED. change (bpow radix2 (-100)) with (/ 1267650600228229401496703205376) in *. change (bpow radix2 (-101)) with (/ 2535301200456458802993406410752). fold D in Gap. lra. }
      assert (Tq : bpow radix2 (-1000) <= D' * / 9007199254740992).
      { apply Rle_trans with (bpow radix2 (-101) * / 9007199254740992); [|apply Rmult_le_compat_r; lra].
        change (/ 9007199254740992) with (bpow radix2 (-53)). rewrite <- bpow_plus. apply bpow_le. lia. }
      assert (Np' : Rabs (p - u * S') <= D' * (S' * / 4503599627370496)).
      { eapply Rle_trans; [exact Np|]. assert (D' * 1 <= D' * S') by (apply Rmult_le_compat_l; lra). lra. }
      set (w := p / D').
      assert (Ew : Rabs (w - v * S') <= S' * / 4503599627370496).
      { replace (w - v * S') with ((p - u * S') / D') by (unfold w; rewrite Eu; field; lra). unfold Rdiv. rewrite Rabs_mult, (Rabs_pos_eq (/ D')) by (left; apply Rinv_0_lt_compat; exact PD').
        apply (Rmult_le_reg_r D'); [exact PD'|]. rewrite Rmult_assoc, Rinv_l by lra. lra. }
      assert (Bw : 0 <= v * S' <= S') by (split; [apply Rmult_le_pos; lra|nra]).
      assert (Aw : Rabs w <= 2 * S') by (apply Rabs_le_inv in Ew; apply Rabs_le; lra).
      exists (rnd w). split; [apply isf_fdiv; [exact Ip|exact ID|lra|]; apply small200; fold w; apply Rle_trans with (bpow radix2 65); [change (bpow radix2 65) with 36893488147419103232; lra|apply bpow_le; lia]|].
      cut (Rabs (rnd w - a * IZR S) <= IZR S * / 281474976710656).
      { intros H. split; [exact H|]. split; [exact Da|]. rewrite <- (rnd_IZR 0) by lia. apply rnd_le. unfold w.
        apply Rmult_le_pos; [|left; apply Rinv_0_lt_compat; exact PD']. unfold p. rewrite <- (rnd_IZR 0) by lia. apply rnd_le. lra. }
      pose proof (rnd_near w _ Aw) as Nw.
      assert (Tw : bpow radix2 (-1000) <= / 9007199254740992).
      { change (/ 9007199254740992) with (bpow radix2 (-53)). apply bpow_le. lia. }
      assert (Eva : Rabs (v * S' - a * S') <= S' * / 2251799813685248).
      { replace (v * S' - a * S') with ((v - a) * S') by ring. rewrite Rabs_mult, (Rabs_pos_eq S') by lra. rewrite (Rmult_comm S'). apply Rmult_le_compat_r; lra. }
      assert (Eas : Rabs (a * S' - a * IZR S) <= IZR S * / 4503599627370496).
      { replace (a * S' - a * IZR S) with (a * (S' - IZR S)) by ring. rewrite Rabs_mult, (Rabs_pos_eq a) by lra. pose proof (Rabs_pos (S' - IZR S)). nra. }
      apply Rabs_le_inv in Nw, Ew, Eva, Eas, ES. apply Rabs_le. lra.
    Qed.
    Lemma index_float : let i := Z.min (f_round (fdiv (fmul (fsub x mn) (fofZ S)) (fsub mx mn))) S in
      (0 <= i <= S)%Z /\ Rabs (IZR i - a * IZR S) <= / 2 + IZR S * / 281474976710656 /\ 0 <= a <= 1.
    Proof.
      intros i. destruct code_float as (t & It & Et & Ba & T0). destruct S_facts as (BS & _). pose proof (isf_round _ _ It) as R.
      unfold i. set (k := f_round _) in *.
      apply Rabs_le_inv in R, Et. assert (P : 0 <= a * IZR S <= IZR S) by (split; [apply Rmult_le_pos; lra|nra]).
      assert (K : (0 <= k)%Z).
      { assert (-1 < k)%Z; [|lia]. apply lt_IZR. lra. }
      split; [lia|]. split; [|exact Ba]. apply Rabs_le. destruct (Z.min_spec k S) as [[Q ->]|[Q ->]]; [lra|].
      apply IZR_le in Q. lra.
    Qed.
  End Encode.

  (** The value of an index. *)
  Lemma value_float i : (0 <= i <= S)%Z -> exists y, isf (fadd mn (fdiv (fmul (fofZ i) (fsub mx mn)) (fofZ S))) y /\
    Rabs (y - (MN + IZR i / IZR S * D)) <= M * / 70368744177664 /\ MN <= y.
  Proof.
    intros Bi. destruct S_facts as (BS & IS & ES & BS'). destruct D_facts as (PD & LD & ID & ED & PD'). pose proof p100 as [P0 P1]. pose proof tiny as [T0 T1].
    assert (Tw : bpow radix2 (-1000) <= / 9007199254740992).
    { change (/ 9007199254740992) with (bpow radix2 (-53)). apply bpow_le. lia. }
    assert (Bi' : 0 <= IZR i <= IZR S) by (split; [apply (IZR_le 0)|apply IZR_le]; lia).
    set (i' := rnd (IZR i)).
    assert (Ii : isf (fofZ i) i') by (apply isf_fofZ; apply (small_bpow _ 64); [lia|]; change (bpow radix2 64) with 18446744073709551616; rewrite Rabs_pos_eq; lra).
    assert (Ni : Rabs (i' - IZR i) <= IZR S * / 4503599627370496).
    { assert (A : Rabs (IZR i) <= IZR S) by (rewrite Rabs_pos_eq; lra). pose proof (rnd_near _ _ A) as N. fold i' in N. lra. }
    assert (Bi2 : 0 <= i' <= S').
    { split; [unfold i'; rewrite <- (rnd_IZR 0) by lia; apply rnd_le; lra|]. unfold i', S'. apply rnd_le. lra. }
    assert (PiS : 0 < / S') by (apply Rinv_0_lt_compat; lra).
    set (b' := i' / S').
    assert (Bb : 0 <= b' <= 1).
    { unfold b'. split; [apply Rmult_le_pos; lra|]. apply (Rmult_le_reg_r S'); [lra|]. unfold Rdiv. rewrite Rmult_assoc, Rinv_l by lra. lra. }
    set (b := IZR i / IZR S).
    assert (Bb0 : 0 <= b <= 1).
    { assert (0 < / IZR S) by (apply Rinv_0_lt_compat; lra). unfold b. split; [apply Rmult_le_pos; lra|]. apply (Rmult_le_reg_r (IZR S)); [lra|]. unfold Rdiv. rewrite Rmult_assoc, Rinv_l by lra. lra. }
    assert (Eb : Rabs (b' - b) <= / 1125899906842624).
    { replace (b' - b) with ((i' - IZR i) / S' + b * ((IZR S - S') / S')) by (unfold b', b; field; lra).
      assert (HS : IZR S * / S' <= 1 + / 2251799813685248).
      { apply (Rmult_le_reg_r S'); [lra|]. rewrite Rmult_assoc, Rinv_l by lra. apply Rabs_le_inv in ES. lra. }
      assert (A1 : Rabs ((i' - IZR i) / S') <= IZR S * / S' * / 4503599627370496).
      { unfold Rdiv. rewrite Rabs_mult, (Rabs_pos_eq (/ S')) by lra. replace (IZR S * / S' * / 4503599627370496) with (IZR S * / 4503599627370496 * / S') by ring. apply Rmult_le_compat_r; lra. }
      assert (A2 : Rabs ((IZR S - S') / S') <= IZR S * / S' * / 4503599627370496).
      { unfold Rdiv. rewrite Rabs_mult, (Rabs_pos_eq (/ S')), Rabs_minus_sym by lra. replace (IZR S * / S' * / 4503599627370496) with (IZR S * / 4503599627370496 * / S') by ring. apply Rmult_le_compat_r; lra. }
      eapply Rle_trans; [apply Rabs_triang|]. rewrite (Rabs_mult b), (Rabs_pos_eq b) by lra. pose proof (Rabs_pos ((IZR S - S') / S')).
      assert (b * Rabs ((IZR S - S') / S') <= Rabs ((IZR S - S') / S')) by nra. lra. }
    assert (BD' : D' <= bpow radix2 102).
    { apply Rabs_le_inv in ED. replace (bpow radix2 102) with (4 * bpow radix2 100) by (change 4 with (bpow radix2 2); rewrite <- bpow_plus; reflexivity). lra. }
    assert (Bp : 0 <= i' * D' <= D' * S') by (split; [apply Rmult_le_pos; lra|rewrite (Rmult_comm D'); apply Rmult_le_compat_r; lra]).
    assert (BDS : D' * S' <= bpow radix2 166).
    { replace (bpow radix2 166) with (bpow radix2 102 * 18446744073709551616).
      - apply Rmult_le_compat; lra.
      - change 18446744073709551616 with (bpow radix2 64). rewrite <- bpow_plus. reflexivity. }
    assert (B166 : bpow radix2 166 <= bpow radix2 300) by (apply bpow_le; lia).
    assert (B102 : 2 * bpow radix2 102 <= bpow radix2 166) by (change 2 with (bpow radix2 1); rewrite <- bpow_plus; apply bpow_le; lia).
    assert (B300 : bpow radix2 300 <= bpow radix2 400) by (apply bpow_le; lia).
    set (q := rnd (i' * D')).
    assert (Iq : isf (fmul (fofZ i) (fsub mx mn)) q).
    { apply isf_fmul; [exact Ii|exact ID|]. apply small200. rewrite Rabs_pos_eq; lra. }
    assert (GapD : bpow radix2 (-101) <= D').
    { apply Rabs_le_inv in ED. change (bpow radix2 (-100)) with (/ 1267650600228229401496703205376) in *. change (bpow radix2 (-101)) with (/ 2535301200456458802993406410752). fold D in Gap. lra. }
    assert (Tq : bpow radix2 (-1000) <= D' * / 9007199254740992).
    { apply Rle_trans with (bpow radix2 (-101) * / 9007199254740992); [|apply Rmult_le_compat_r; lra].
      change (/ 9007199254740992) with (bpow radix2 (-53)). rewrite <- bpow_plus. apply bpow_le. lia. }
    assert (Nq : Rabs (q - i' * D') <= D' * / 4503599627370496 * S').
    { assert (A : Rabs (i' * D') <= D' * S') by (rewrite Rabs_pos_eq; lra). pose proof (rnd_near _ _ A) as N. fold q in N. assert (D' * 1 <= D' * S') by (apply Rmult_le_compat_l; lra). lra. }
    set (w := q / S').
    assert (Ew : Rabs (w - b' * D') <= D' * / 4503599627370496).
    { replace (w - b' * D') with ((q - i' * D') / S') by (unfold w, b'; field; lra). unfold Rdiv. rewrite Rabs_mult, (Rabs_pos_eq (/ S')) by lra.
      apply (Rmult_le_reg_r S'); [lra|]. rewrite Rmult_assoc, Rinv_l by lra. lra. }
    assert (Bb' : 0 <= b' * D' <= D') by (split; [apply Rmult_le_pos; lra|nra]).
    assert (Aw : Rabs w <= 2 * D') by (apply Rabs_le_inv in Ew; apply Rabs_le; lra).
    assert (Pq : 0 <= q) by (unfold q; rewrite <- (rnd_IZR 0) by lia; apply rnd_le; lra).
    set (r := rnd w).
    assert (Ir : isf (fdiv (fmul (fofZ i) (fsub mx mn)) (fofZ S)) r).
    { apply isf_fdiv; [exact Iq|exact IS|lra|]. apply small200. fold w. lra. }
    assert (Pr : 0 <= r) by (unfold r; rewrite <- (rnd_IZR 0) by lia; apply rnd_le; unfold w; apply Rmult_le_pos; lra).
    pose proof (rnd_near w _ Aw) as Nw. fold r in Nw.
    assert (Ebd : Rabs (b' * D' - b * D) <= D' * / 1125899906842624 + D * / 9007199254740992).
    { replace (b' * D' - b * D) with ((b' - b) * D' + b * (D' - D)) by ring. eapply Rle_trans; [apply Rabs_triang|].
      rewrite !Rabs_mult, (Rabs_pos_eq D'), (Rabs_pos_eq b) by lra. pose proof (Rabs_pos (D' - D)).
      apply Rplus_le_compat; [rewrite (Rmult_comm D'); apply Rmult_le_compat_r; lra|]. nra. }
    assert (Er : Rabs (r - b * D) <= D * / 281474976710656).
    { apply Rabs_le_inv in Nw, Ew, Ebd, ED. apply Rabs_le. lra. }
    assert (Bbd : 0 <= b * D <= D) by (split; [apply Rmult_le_pos; lra|nra]).
    pose proof Bn as Bn'. pose proof Bx as Bx'. apply Rabs_le_inv in Bn', Bx'.
    assert (Am : Rabs (MN + r) <= 2 * M).
    { apply Rabs_le_inv in Er. apply Rabs_le. unfold D in *. lra. }
    pose proof (rnd_near _ _ Am) as Ny.
    exists (rnd (MN + r)). split; [|split].
    - apply isf_fadd; [exact In|exact Ir|]. apply small200. eapply Rle_trans; [exact Am|]. apply Rle_trans with (2 * bpow radix2 300); [lra|].
      change 2 with (bpow radix2 1). rewrite <- bpow_plus. apply bpow_le. lia.
    - assert (Tm : bpow radix2 (-1000) <= M * / 1125899906842624) by (apply Rabs_le_inv in ED; lra).
      apply Rabs_le_inv in Ny, Er. apply Rabs_le. lra.
    - rewrite <- (rnd_id mn MN In) at 1. apply rnd_le. lra.
  Qed.
End Field.

(** ** Fields of a grid *)
Definition widthZ (size : nat) : Prop := (size = 1 \/ size = 2 \/ size = 4 \/ size = 8)%nat.
Definition spanZ (size : nat) (nl : bool) : Z := (256 ^ Z.of_nat size - b2z nl)%Z.
Lemma span_bounds size nl : widthZ size -> (255 <= spanZ size nl <= 2 ^ 64)%Z.
Proof. intros [->|[->|[->| ->]]]; destruct nl; vm_compute; split; discriminate. Qed.
Section Api.
  Variables (mn mx : f64) (MN MX M : R) (size : nat) (nl : bool).
  Hypotheses (In : isf mn MN) (Ix : isf mx MX) (Bn : Rabs MN <= M) (Bx : Rabs MX <= M)
    (Big : M <= bpow radix2 100) (Gap : bpow radix2 (-100) <= MX - MN) (W : widthZ size).
  Let S := spanZ size nl.
  Local Lemma lt_bounds : MN < MX.
  Proof. pose proof (bpow_gt_0 radix2 (-100)). lra. Qed.
  Local Lemma guard x X : isf x X -> (SFleb mn x && SFleb x mx)%bool = true <-> MN <= X <= MX.
  Proof.
    intros I. rewrite (isf_le _ _ _ _ In I), (isf_le _ _ _ _ I Ix), Bool.andb_true_iff.
    destruct (Rle_bool_spec MN X), (Rle_bool_spec X MX); intuition (try discriminate; try lra).
  Qed.
  Lemma encF_out x X : isf x X -> ~ MN <= X <= MX -> fvarF_encode mn mx size nl x = Err AssertionError.
  Proof.
    intros I N. unfold fvarF_encode. cbv zeta. destruct (SFleb mn x && SFleb x mx)%bool eqn:E; [|reflexivity].
    exfalso. apply N. exact (proj1 (guard x X I) E).
  Qed.
  Lemma encF_in x X : isf x X -> MN <= X <= MX -> exists i, (0 <= i <= S)%Z /\
    Rabs (IZR i - (X - MN) / (MX - MN) * IZR S) <= / 2 + IZR S * / 281474976710656 /\ fvarF_encode mn mx size nl x = pack_be size i.
  Proof.
    intros I B. unfold fvarF_encode. cbv zeta. rewrite (proj2 (guard x X I) B). fold (spanZ size nl). fold S. eexists. 
    destruct (index_float mn mx MN MX M S In Ix lt_bounds Bn Bx Big Gap (span_bounds size nl W) x X I B) as (A1 & A2 & _).
    split; [exact A1|]. split; [exact A2|reflexivity].
  Qed.
  Lemma spanR : 255 <= IZR S.
  Proof. apply (IZR_le 255). apply span_bounds. exact W. Qed.
  Lemma decF data : Forall is_byte data -> length data = size -> exists y Y, fvarF_decode mn mx size nl data = Ok y /\ isf y Y /\
    Rabs (Y - (MN + IZR (be_value data) / IZR S * (MX - MN))) <= M * / 70368744177664 /\ MN <= Y /\ (0 <= be_value data <= S)%Z.
  Proof.
    intros F L. pose proof (be_value_range data F) as R. rewrite L in R.
    assert (Bv : (0 <= be_value data <= S)%Z) by (unfold S, spanZ; destruct nl; cbn [b2z]; lia).
    destruct (value_float mn mx MN MX M S In Ix lt_bounds Bn Bx Big Gap (span_bounds size nl W) _ Bv) as (Y & IY & EY & LY).
    eexists. exists Y. split; [|split; [exact IY|auto]]. unfold fvarF_decode, unpack_be. cbv zeta. rewrite L, Z.eqb_refl. reflexivity.
  Qed.
  Lemma closeF x X data : isf x X -> fvarF_encode mn mx size nl x = Ok data -> length data = size /\ exists y Y, fvarF_decode mn mx size nl data = Ok y /\ isf y Y /\
    Rabs (Y - X) <= (MX - MN) / IZR S / 2 + M * / 35184372088832.
  Proof.
    intros I E. destruct (Rle_lt_dec MN X) as [B1|B1]; [|rewrite (encF_out x X I) in E by lra; discriminate].
    destruct (Rle_lt_dec X MX) as [B2|B2]; [|rewrite (encF_out x X I) in E by lra; discriminate].
    destruct (encF_in x X I (conj B1 B2)) as (i & Bi & Ei & Q). rewrite Q in E. apply pack_be_inv in E. destruct E as [R ->].
    split; [apply be_bytes_length|].
    destruct (decF (be_bytes size i) (be_bytes_byte size i) (be_bytes_length size i)) as (y & Y & Ed & IY & EY & _). exists y, Y.
    split; [exact Ed|]. split; [exact IY|]. rewrite be_value_bytes, Z.mod_small in EY by exact R.
    pose proof spanR as HS. pose proof lt_bounds as HL. set (D := MX - MN) in *. set (a := (X - MN) / D) in *.
    assert (EX : X = MN + a * D) by (unfold a, D; field; lra).
    assert (PD : 0 < D) by (unfold D; lra). assert (PS : 0 < / IZR S) by (apply Rinv_0_lt_compat; lra).
    assert (Eq : Rabs (IZR i / IZR S - a) <= / IZR S / 2 + / 281474976710656).
    { replace (IZR i / IZR S - a) with ((IZR i - a * IZR S) / IZR S) by (field; lra). unfold Rdiv. rewrite Rabs_mult, (Rabs_pos_eq (/ IZR S)) by lra.
      replace (/ IZR S * / 2 + / 281474976710656) with ((/ 2 + IZR S * / 281474976710656) * / IZR S) by (field; lra). apply Rmult_le_compat_r; lra. }
    assert (Eq' : Rabs (IZR i / IZR S * D - a * D) <= D / IZR S / 2 + D * / 281474976710656).
    { replace (IZR i / IZR S * D - a * D) with ((IZR i / IZR S - a) * D) by ring. rewrite Rabs_mult, (Rabs_pos_eq D) by lra.
      replace (D / IZR S / 2 + D * / 281474976710656) with ((/ IZR S / 2 + / 281474976710656) * D) by (field; lra). apply Rmult_le_compat_r; lra. }
    apply Rabs_le_inv in Bn, Bx. assert (D <= 2 * M) by (unfold D; lra).
    apply Rabs_le_inv in Eq', EY. apply Rabs_le. lra.
  Qed.
  Lemma encodableF x X : isf x X -> MN <= X <= MX ->
    (exists data, fvarF_encode mn mx size nl x = Ok data) \/
    (fvarF_encode mn mx size nl x = Err StructError /\ nl = false /\ MX - X <= (MX - MN) / IZR S / 2 + (MX - MN) * / 281474976710656).
  Proof.
    intros I B. destruct (encF_in x X I B) as (i & Bi & Ei & ->). destruct (Z.lt_ge_cases i (256 ^ Z.of_nat size)) as [L|L].
    { left. rewrite pack_be_ok by lia. eexists. reflexivity. }
    right. rewrite pack_be_err by lia. split; [reflexivity|].
    assert (N : nl = false) by (unfold S, spanZ in Bi; destruct nl; [cbn [b2z] in Bi; lia|reflexivity]). split; [exact N|].
    assert (i = S) by (unfold S, spanZ in *; rewrite N in *; cbn [b2z] in *; lia). subst i.
    pose proof spanR as HS. pose proof lt_bounds as HL. set (D := MX - MN) in *. set (a := (X - MN) / D) in *.
    assert (PD : 0 < D) by (unfold D; lra). assert (PS : 0 < / IZR S) by (apply Rinv_0_lt_compat; lra).
    assert (EX : MX - X = (1 - a) * D) by (unfold a, D; field; lra). rewrite EX.
    replace (D / IZR S / 2 + D * / 281474976710656) with ((/ IZR S / 2 + / 281474976710656) * D) by (field; lra). apply Rmult_le_compat_r; [lra|].
    apply Rabs_le_inv in Ei. apply (Rmult_le_reg_r (IZR S)); [lra|].
    replace ((/ IZR S / 2 + / 281474976710656) * IZR S) with (/ 2 + IZR S * / 281474976710656) by (field; lra). lra.
  Qed.
  (** Stored codes do not drift when the field is not too fine for doubles. *)
  Lemma stableF data : Forall is_byte data -> length data = size -> (be_value data < S)%Z -> IZR S * M <= 1099511627776 * (MX - MN) ->
    exists y Y, fvarF_decode mn mx size nl data = Ok y /\ isf y Y /\ MN <= Y <= MX /\ fvarF_encode mn mx size nl y = Ok data.
  Proof.
    intros F L Lt C. destruct (decF data F L) as (y & Y & Ed & IY & EY & LY & Bv). exists y, Y. split; [exact Ed|]. split; [exact IY|].
    pose proof spanR as HS. pose proof lt_bounds as HL. set (D := MX - MN) in *. set (k := be_value data) in *.
    assert (PD : 0 < D) by (unfold D; lra). assert (PS : 0 < / IZR S) by (apply Rinv_0_lt_compat; lra).
    assert (Lt' : IZR k <= IZR S - 1) by (rewrite <- minus_IZR; apply IZR_le; lia).
    assert (Err : M * / 70368744177664 <= D / IZR S * / 64).
    { apply (Rmult_le_reg_r (IZR S)); [lra|]. replace (D / IZR S * / 64 * IZR S) with (D * / 64) by (field; lra). lra. }
    assert (Up : IZR k / IZR S * D <= D - D / IZR S).
    { replace (D - D / IZR S) with ((IZR S - 1) / IZR S * D) by (field; lra). apply Rmult_le_compat_r; [lra|]. unfold Rdiv. apply Rmult_le_compat_r; lra. }
    assert (PDS : 0 < D / IZR S) by (apply Rdiv_lt_0_compat; lra).
    apply Rabs_le_inv in EY. assert (BY : MN <= Y <= MX) by (unfold D in *; lra). split; [exact BY|].
    destruct (encF_in y Y IY BY) as (i & Bi & Ei & ->). fold D in Ei.
    assert (Ek : i = k).
    { assert (Rabs ((Y - MN) / D * IZR S - IZR k) <= / 64).
      { replace ((Y - MN) / D * IZR S - IZR k) with ((Y - (MN + IZR k / IZR S * D)) * (IZR S / D)) by (field; lra).
        assert (0 < IZR S / D) by (apply Rdiv_lt_0_compat; lra). rewrite Rabs_mult, (Rabs_pos_eq (IZR S / D)) by lra.
        apply (Rmult_le_reg_r (D / IZR S)); [lra|]. rewrite Rmult_assoc. replace (IZR S / D * (D / IZR S)) with 1 by (field; lra).
        rewrite Rmult_1_r. apply Rabs_le. lra. }
      assert (IZR S * / 281474976710656 <= / 64).
      { apply Rabs_le_inv in Bn, Bx. assert (D <= 2 * M) by (unfold D; lra).
        assert (IZR S * D <= 2199023255552 * D) by nra. assert (IZR S <= 2199023255552) by (apply (Rmult_le_reg_r D); lra). lra. }
      apply Rabs_le_inv in Ei, H. assert (- (1) < IZR i - IZR k < 1) by lra. assert (-1 < i - k < 1)%Z; [|lia]. split; apply lt_IZR; rewrite minus_IZR; lra. }
    subst i. unfold k. pose proof (be_value_range data F) as R. rewrite L in R. rewrite pack_be_ok by exact R. rewrite <- L, be_bytes_value by exact F. reflexivity.
  Qed.
End Api.
Lemma maximumF mn mx MN MX M size x : isf mn MN -> isf mx MX -> Rabs MN <= M -> Rabs MX <= M -> M <= bpow radix2 100 -> bpow radix2 (-100) <= MX - MN -> widthZ size ->
  isf x MX -> fvarF_encode mn mx size false x = Err StructError.
Proof.
  intros In Ix Bn Bx Big Gap W I. pose proof (bpow_gt_0 radix2 (-100)) as P0. assert (Lt : MN < MX) by lra.
  unfold fvarF_encode. cbv zeta. rewrite (proj2 (guard mn mx MN MX In Ix x MX I)) by lra.
  set (S := (256 ^ Z.of_nat size - b2z false)%Z).
  assert (PS : exists k, (0 <= k <= 64)%Z /\ S = (2 ^ k)%Z).
  { destruct W as [->|[->|[->| ->]]]; [exists 8%Z|exists 16%Z|exists 32%Z|exists 64%Z]; split; try lia; reflexivity. }
  destruct PS as (k & Bk & ES). assert (ES' : IZR S = bpow radix2 k) by (rewrite ES, (IZR_Zpower radix2) by lia; reflexivity).
  destruct (D_facts mn mx MN MX M In Ix Lt Bn Bx Big) as (PD & LD & ID & ED & PD').
  assert (Iu : isf (fsub x mn) (rnd (MX - MN))).
  { apply isf_fsub; [exact I|exact In|]. apply small200. rewrite Rabs_pos_eq by lra. apply Rle_trans with (2 * bpow radix2 100); [lra|].
    change 2 with (bpow radix2 1). rewrite <- bpow_plus. apply bpow_le. lia. }
  set (D' := rnd (MX - MN)) in *.
  assert (IS : isf (fofZ S) (bpow radix2 k)).
  { rewrite <- ES'. assert (G : rnd (IZR S) = IZR S) by (rewrite ES'; apply round_generic; [apply valid_rnd_N|apply generic_format_bpow; unfold fexp64, SpecFloat.fexp, emin; cbn; lia]).
    rewrite <- G. apply isf_fofZ. apply (small_bpow _ 64); [lia|]. rewrite ES', Rabs_pos_eq by apply bpow_ge_0. apply bpow_le. lia. }
  assert (Ex : rnd (D' * bpow radix2 k) = D' * bpow radix2 k).
  { apply round_generic; [apply valid_rnd_N|]. apply (mult_bpow_pos_exact_FLT radix2 (-1074) 53); [|lia]. exact (isf_format _ _ ID). }
  assert (Pk : 0 < bpow radix2 k) by apply bpow_gt_0.
  assert (Ip : isf (fmul (fsub x mn) (fofZ S)) (D' * bpow radix2 k)).
  { rewrite <- Ex. apply isf_fmul; [exact Iu|exact IS|]. apply small200. rewrite Rabs_pos_eq by (apply Rmult_le_pos; lra).
    apply Rle_trans with (bpow radix2 102 * bpow radix2 k); [apply Rmult_le_compat_r; [lra|]|rewrite <- bpow_plus; apply bpow_le; lia].
    apply Rabs_le_inv in ED. replace (bpow radix2 102) with (4 * bpow radix2 100) by (change 4 with (bpow radix2 2); rewrite <- bpow_plus; reflexivity). lra. }
  assert (It : isf (fdiv (fmul (fsub x mn) (fofZ S)) (fsub mx mn)) (IZR S)).
  { assert (Eq : D' * bpow radix2 k / D' = IZR S) by (rewrite ES'; field; lra).
    replace (IZR S) with (rnd (D' * bpow radix2 k / D')) by (rewrite Eq, ES'; exact (rnd_id _ _ IS)).
    apply isf_fdiv; [exact Ip|exact ID|lra|]. apply small200. rewrite Eq, ES', Rabs_pos_eq by lra. apply bpow_le. lia. }
  pose proof (isf_round _ _ It) as R. apply Rabs_le_inv in R. set (i := f_round _) in *.
  assert (i = S). { assert (-1 < i - S < 1)%Z; [|lia]. split; apply lt_IZR; rewrite minus_IZR; lra. }
  apply pack_be_err. subst i. rewrite H. unfold S. cbn [b2z]. lia.
Qed.
