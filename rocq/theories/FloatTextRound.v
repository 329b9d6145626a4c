(** float(bytes) is the nearest double: rounding. *)
From Coq Require Import ZArith Reals Lia Lra SpecFloat Psatz.
From Flocq Require Import Core IEEE754.BinarySingleNaN.
From Verif Require Import Num FloatLib FloatTextModel FloatTextSpec.
Open Scope Z_scope.

Definition signed (neg : bool) (x : R) : R := ((if neg then -1 else 1) * x)%R.
Lemma ratio_cases neg p q : let x := signed neg (IZR (Zpos p) / IZR (Zpos q)) in
  (small x -> isf (ratio64 neg p q) (rnd x) /\ sign_SF (ratio64 neg p q) = neg) /\ (~ small x -> ratio64 neg p q = S754_infinity neg).
Proof.
  intros x. pose proof (Bdiv_correct_aux 53 1024 Hprec53 Hmax1024 mode_NE neg p 0 false q 0) as C. cbv zeta in C.
  assert (E : ratio64 neg p q = (let '(mz, ez, lz) := SFdiv_core_binary 53 1024 (Zpos p) 0 (Zpos q) 0 in
     BinarySingleNaN.binary_round_aux 53 1024 mode_NE (xorb neg false) mz ez lz)).
  { unfold ratio64. destruct (SFdiv_core_binary _ _ _ _ _ _) as [[mz ez] lz]. rewrite round_aux_equiv, Bool.xorb_false_r. reflexivity. }
  rewrite Bool.xorb_false_r in C, E. unfold f64 in *. rewrite <- E in C. destruct C as (V & C).
  assert (X : (F2R (Float radix2 (cond_Zopp neg (Zpos p)) 0) / F2R (Float radix2 (cond_Zopp false (Zpos q)) 0))%R = x).
  { unfold x, signed, F2R. cbn [Fnum Fexp bpow]. destruct neg; cbn [cond_Zopp Z.opp]; [change (Zneg p) with (- Zpos p); rewrite opp_IZR|];
      field; apply IZR_neq; discriminate. }
  rewrite X in C. change (round radix2 (SpecFloat.fexp 53 1024) (round_mode mode_NE) x) with (rnd x) in C.
  split; intros S.
  - rewrite Rlt_bool_true in C by exact S. destruct C as (C1 & C2 & C3). split; [|exact C3]. rewrite <- C1. apply isf_valid; assumption.
  - rewrite Rlt_bool_false in C by (apply Rnot_lt_le; exact S). exact C.
Qed.
Lemma pow_pos_IZR q : powerRZ 10 (Zpos q) = IZR (10 ^ Zpos q).
Proof. cbn [powerRZ]. rewrite pow_IZR, positive_nat_Z. reflexivity. Qed.
Lemma decimal_cases neg n k : 0 <= n -> let x := dec_value neg n k in
  (small x -> isf (decimal64 neg n k) (rnd x) /\ sign_SF (decimal64 neg n k) = neg) /\ (~ small x -> decimal64 neg n k = S754_infinity neg).
Proof.
  intros N x. destruct n as [|p|p]; [| |lia].
  - assert (X : x = 0%R) by (unfold x, dec_value; rewrite Rmult_0_l, Rmult_0_r; reflexivity). rewrite X. unfold rnd. rewrite round_0 by apply valid_rnd_N.
    split.
    + intros _. split; [|reflexivity]. exists (B754_zero neg). repeat split.
    + intros S. elim S. unfold small, rnd. rewrite round_0 by apply valid_rnd_N. rewrite Rabs_R0. apply bpow_gt_0.
  - destruct k as [|q|q].
    + pose proof (ratio_cases neg p 1) as C. cbv zeta in C. unfold decimal64. rewrite Z.pow_0_r, Z.mul_1_r. cbn [Z.to_pos].
      replace (signed neg (IZR (Zpos p) / 1)) with x in C; [exact C|]. unfold x, dec_value, signed. cbn [powerRZ]. field.
    + pose proof (ratio_cases neg (Z.to_pos (Zpos p * 10 ^ Zpos q)) 1) as C. cbv zeta in C. unfold decimal64.
      rewrite Z2Pos.id in C by (apply Z.mul_pos_pos; [lia|apply Z.pow_pos_nonneg; lia]).
      replace (signed neg (IZR (Zpos p * 10 ^ Zpos q) / 1)) with x in C; [exact C|]. unfold x, dec_value, signed. rewrite pow_pos_IZR, mult_IZR. field.
    + pose proof (ratio_cases neg p (10 ^ q)) as C. cbv zeta in C. unfold decimal64.
      replace (signed neg (IZR (Zpos p) / IZR (Zpos (10 ^ q)))) with x in C; [exact C|]. unfold x, dec_value, signed.
      rewrite Pos2Z.inj_pow. rewrite <- pow_pos_IZR. reflexivity.
Qed.
(** Nearest among all numbers a double can have *)
Lemma rnd_nearest x f : generic_format radix2 fexp64 f -> (Rabs (rnd x - x) <= Rabs (f - x))%R.
Proof.
  intros F. destruct (round_N_pt radix2 fexp64 (fun z => negb (Z.even z)) x) as (_ & H). exact (H f F).
Qed.
(** Numbers a double can have: m * 2^e *)
Lemma format_iff x : generic_format radix2 fexp64 x <-> exists m e, Z.abs m < 2 ^ 53 /\ -1074 <= e /\ x = (IZR m * bpow radix2 e)%R.
Proof.
  split.
  - intros F. apply (FLT_format_generic radix2 (-1074) 53) in F. destruct F as [[m e] H1 H2 H3]. exists m, e. cbn in *. auto.
  - intros (m & e & H1 & H2 & ->). apply (generic_format_FLT radix2 (-1074) 53). exists (Float radix2 m e); auto.
Qed.
