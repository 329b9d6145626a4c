(** corangle in double arithmetic: ordinary angles. *)
From Coq Require Import ZArith Reals Lia Lra SpecFloat.
From Flocq Require Import Core IEEE754.BinarySingleNaN Sterbenz.
From Verif Require Import Num FloatLib RasterAA GridFloat PfSpec ProjModel ProjFloat.
Open Scope R_scope.

(** The value of math.pi *)
Definition P64 : R := 884279719003555 / 281474976710656.
Lemma isf_pi : isf pi64 P64.
Proof.
  pose proof (isf_valid pi64 eq_refl eq_refl) as I. replace P64 with (SF2R radix2 pi64); [exact I|].
  change pi64 with (S754_finite false 7074237752028440 (-51)). unfold SF2R. rewrite F2R_div by lia. unfold P64. change (IZR 7074237752028440 / IZR 2251799813685248 = 884279719003555 / 281474976710656). lra.
Qed.
Lemma isf_pi2 : isf pi2_64 (2 * P64).
Proof.
  pose proof (isf_valid pi2_64 eq_refl eq_refl) as I. replace (2 * P64) with (SF2R radix2 pi2_64); [exact I|].
  change pi2_64 with (S754_finite false 7074237752028440 (-50)). unfold SF2R. rewrite F2R_div by lia. unfold P64. change (IZR 7074237752028440 / IZR 1125899906842624 = 2 * (884279719003555 / 281474976710656)). lra.
Qed.
Lemma isf_mpi : isf (fsub (fofZ 0) pi64) (- P64).
Proof.
  pose proof (isf_valid (fsub (fofZ 0) pi64) eq_refl eq_refl) as I. replace (- P64) with (SF2R radix2 (fsub (fofZ 0) pi64)); [exact I|].
  change (fsub (fofZ 0) pi64) with (S754_finite true 7074237752028440 (-51)). unfold SF2R. rewrite F2R_div by lia. unfold P64. change (IZR (-7074237752028440) / IZR 2251799813685248 = - (884279719003555 / 281474976710656)). lra.
Qed.
Lemma P64_val : 3.14 < P64 < 3.15.
Proof. unfold P64. lra. Qed.

(** One turn back *)
Lemma step_real X : generic_format radix2 fexp64 X -> P64 < X <= 1125899906842624 ->
  - P64 <= rnd (X - 2 * P64) <= X - 6 /\ Rabs (rnd (X - 2 * P64) - (X - 2 * P64)) <= X * / 9007199254740992 /\
  (X <= 4 * P64 -> rnd (X - 2 * P64) = X - 2 * P64) /\ small (X - 2 * P64).
Proof.
  intros F B. pose proof P64_val as V.
  assert (E : X <= 4 * P64 -> rnd (X - 2 * P64) = X - 2 * P64).
  { intros L. apply round_generic; [apply valid_rnd_N|]. apply sterbenz; [typeclasses eauto|typeclasses eauto|exact F|exact (isf_format _ _ isf_pi2)|lra]. }
  assert (D : Rabs (rnd (X - 2 * P64) - (X - 2 * P64)) <= X * / 9007199254740992).
  { destruct (Rle_lt_dec X (4 * P64)) as [L|L].
    - rewrite (E L). replace (X - 2 * P64 - (X - 2 * P64)) with 0 by ring. rewrite Rabs_R0. lra.
    - pose proof (rnd_near (X - 2 * P64) (X - 2 * P64) ltac:(rewrite Rabs_pos_eq; lra)) as H. assert (T : bpow radix2 (-1000) <= bpow radix2 (-53)) by (apply bpow_le; lia).
      change (bpow radix2 (-53)) with (/ 9007199254740992) in T. lra. }
  split; [split|split; [exact D|split; [exact E|]]].
  - assert (H : rnd (- P64) <= rnd (X - 2 * P64)) by (apply rnd_le; lra). rewrite (rnd_id _ _ isf_mpi) in H. exact H.
  - apply Rabs_le_inv in D. lra.
  - apply small_le. change (IZR (2 ^ 100)) with 1267650600228229401496703205376. apply Rabs_le. lra.
Qed.
Lemma sub_done x X n : isf x X -> X <= P64 -> sub_turns pi2_64 pi64 (S n) x = Some x.
Proof. intros I L. cbn [sub_turns nlt NumF]. rewrite (isf_lt _ _ _ _ isf_pi I), Rlt_bool_false by lra. reflexivity. Qed.
Lemma sub_ok B : 0 <= B <= 1125899906842624 -> forall n x X, isf x X -> - P64 <= X <= B -> X <= P64 + 6 * INR n ->
  exists r R k, (forall fuel, (n < fuel)%nat -> sub_turns pi2_64 pi64 fuel x = Some r) /\ isf r R /\ - P64 <= R <= P64 /\
    Rabs (R - (X - INR k * (2 * P64))) <= INR k * (B * / 9007199254740992) /\ (X <= 4 * P64 -> R = X - INR k * (2 * P64)) /\ (X <= P64 -> k = 0%nat).
Proof.
  intros HB. assert (DONE : forall n x X, isf x X -> - P64 <= X <= P64 -> exists r R k, (forall fuel, (n < fuel)%nat -> sub_turns pi2_64 pi64 fuel x = Some r) /\ isf r R /\ - P64 <= R <= P64 /\
    Rabs (R - (X - INR k * (2 * P64))) <= INR k * (B * / 9007199254740992) /\ (X <= 4 * P64 -> R = X - INR k * (2 * P64)) /\ (X <= P64 -> k = 0%nat)).
  { intros n x X I L. exists x, X, 0%nat. cbn [INR]. rewrite !Rmult_0_l. split; [intros [|f] Hf; [lia|apply (sub_done x X f I); lra]|].
    split; [exact I|]. split; [exact L|]. split; [replace (X - (X - 0)) with 0 by ring; rewrite Rabs_R0; lra|]. split; [intros _; ring|auto]. }
  induction n as [|n IH]; intros x X I L M; [apply (DONE _ x X I); cbn in M; lra|].
  destruct (Rle_lt_dec X P64) as [G|G]; [apply (DONE _ x X I); lra|].
  destruct (step_real X (isf_format _ _ I) ltac:(lra)) as (S1 & S2 & S3 & S4).
  pose proof (isf_fsub _ _ _ _ I isf_pi2 S4) as I'. rewrite S_INR in M.
  destruct (IH _ _ I' ltac:(lra) ltac:(lra)) as (r & R & k & H1 & H2 & H3 & H4 & H5 & H6). exists r, R, (S k).
  split; [|split; [exact H2|split; [exact H3|split; [|split; [|intros; lra]]]]].
  - intros [|f] Hf; [lia|]. cbn [sub_turns nlt nsub NumF]. rewrite (isf_lt _ _ _ _ isf_pi I), Rlt_bool_true by exact G. apply H1. lia.
  - rewrite S_INR. replace (R - (X - (INR k + 1) * (2 * P64))) with ((R - (rnd (X - 2 * P64) - INR k * (2 * P64))) + (rnd (X - 2 * P64) - (X - 2 * P64))) by ring.
    eapply Rle_trans; [apply Rabs_triang|]. assert (X * / 9007199254740992 <= B * / 9007199254740992) by (apply Rmult_le_compat_r; lra). lra.
  - intros L4. rewrite S_INR. rewrite (H5 ltac:(lra)), (S3 L4). ring.
Qed.
Lemma add_done x X n : isf x X -> - P64 <= X -> add_turns pi2_64 (fsub (fofZ 0) pi64) (S n) x = Some x.
Proof. intros I L. cbn [add_turns nlt NumF]. rewrite (isf_lt _ _ _ _ I isf_mpi), Rlt_bool_false by lra. reflexivity. Qed.
Lemma rnd_neg r : rnd (- r) = - rnd r.
Proof. apply round_NE_opp. Qed.
Lemma add_ok B : 0 <= B <= 1125899906842624 -> forall n x X, isf x X -> - B <= X <= P64 -> - X <= P64 + 6 * INR n ->
  exists r R k, (forall fuel, (n < fuel)%nat -> add_turns pi2_64 (fsub (fofZ 0) pi64) fuel x = Some r) /\ isf r R /\ - P64 <= R <= P64 /\
    Rabs (R - (X + INR k * (2 * P64))) <= INR k * (B * / 9007199254740992) /\ (- 4 * P64 <= X -> R = X + INR k * (2 * P64)).
Proof.
  intros HB. assert (DONE : forall n x X, isf x X -> - P64 <= X <= P64 -> exists r R k, (forall fuel, (n < fuel)%nat -> add_turns pi2_64 (fsub (fofZ 0) pi64) fuel x = Some r) /\ isf r R /\ - P64 <= R <= P64 /\
    Rabs (R - (X + INR k * (2 * P64))) <= INR k * (B * / 9007199254740992) /\ (- 4 * P64 <= X -> R = X + INR k * (2 * P64))).
  { intros n x X I L. exists x, X, 0%nat. cbn [INR]. rewrite !Rmult_0_l. split; [intros [|f] Hf; [lia|apply (add_done x X f I); lra]|].
    split; [exact I|]. split; [exact L|]. split; [replace (X - (X + 0)) with 0 by ring; rewrite Rabs_R0; lra|]. intros _; ring. }
  induction n as [|n IH]; intros x X I L M; [apply (DONE _ x X I); cbn in M; lra|].
  destruct (Rle_lt_dec (- X) P64) as [G|G]; [apply (DONE _ x X I); lra|].
  destruct (step_real (- X) (generic_format_opp _ _ _ (isf_format _ _ I)) ltac:(lra)) as (S1 & S2 & S3 & S4).
  assert (EN : rnd (X + 2 * P64) = - rnd (- X - 2 * P64)) by (rewrite <- rnd_neg; f_equal; ring).
  assert (S5 : small (X + 2 * P64)) by (unfold small in *; rewrite EN, Rabs_Ropp; exact S4).
  pose proof (isf_fadd _ _ _ _ I isf_pi2 S5) as I'. rewrite EN in I'. rewrite S_INR in M.
  destruct (IH _ _ I' ltac:(lra) ltac:(lra)) as (r & R & k & H1 & H2 & H3 & H4 & H5). exists r, R, (S k).
  split; [|split; [exact H2|split; [exact H3|split]]].
  - intros [|f] Hf; [lia|]. cbn [add_turns nlt nadd NumF]. rewrite (isf_lt _ _ _ _ I isf_mpi), Rlt_bool_true by lra. apply H1. lia.
  - rewrite S_INR. replace (R - (X + (INR k + 1) * (2 * P64))) with ((R - (- rnd (- X - 2 * P64) + INR k * (2 * P64))) - (rnd (- X - 2 * P64) - (- X - 2 * P64))) by ring.
    eapply Rle_trans; [apply Rabs_triang|]. rewrite Rabs_Ropp. assert (- X * / 9007199254740992 <= B * / 9007199254740992) by (apply Rmult_le_compat_r; lra). lra.
  - intros L4. rewrite S_INR. rewrite (H5 ltac:(lra)), (S3 ltac:(lra)). ring.
Qed.
Lemma corangle_ok a A : isf a A -> Rabs A <= IZR (2 ^ 50) -> exists N r R (k : Z),
  (forall n, (N <= n)%nat -> corangle_loop pi64 n a = Some r) /\ isf r R /\ - P64 <= R <= P64 /\
  Rabs (R - (A + IZR k * (2 * P64))) <= Rabs (IZR k) * (Rabs A * / IZR (2 ^ 53)) /\
  (Rabs A <= 4 * P64 -> R = A + IZR k * (2 * P64)) /\ (Rabs A <= P64 -> r = a).
Proof.
  intros I B. change (IZR (2 ^ 50)) with 1125899906842624 in B. change (IZR (2 ^ 53)) with 9007199254740992.
  pose proof P64_val as V. pose proof (Rabs_pos A) as PA.
  set (n := Z.to_nat (up (Rabs A))). assert (Hn : Rabs A <= P64 + 6 * INR n).
  { destruct (archimed (Rabs A)) as [U _]. assert (0 <= up (Rabs A))%Z by (apply le_IZR; change (IZR 0) with 0; lra).
    assert (INR n = IZR (up (Rabs A))) by (unfold n; rewrite INR_IZR_INZ, Z2Nat.id by assumption; reflexivity). lra. }
  exists (S n). assert (AB : - Rabs A <= A <= Rabs A) by (split; [pose proof (Rle_abs (- A)); rewrite Rabs_Ropp in H; lra|apply Rle_abs]).
  assert (RK : forall k, Rabs (INR k) = INR k) by (intros k; apply Rabs_pos_eq, pos_INR).
  destruct (Rle_lt_dec (- P64) A) as [L|L].
  - destruct (sub_ok (Rabs A) ltac:(lra) n a A I ltac:(lra) ltac:(lra)) as (r & R & k & H1 & H2 & H3 & H4 & H5 & H6).
    exists r, R, (- Z.of_nat k)%Z. rewrite opp_IZR, <- INR_IZR_INZ, Rabs_Ropp, RK.
    split; [|split; [exact H2|split; [exact H3|split; [|split]]]].
    + intros f Hf. unfold corangle_loop. fold pi2_64. destruct f as [|f]; [lia|]. change (@nsub f64 NumF (@nofZ f64 NumF 0) pi64) with (fsub (fofZ 0) pi64). rewrite (add_done a A f I L). apply H1. lia.
    + replace (A + - INR k * (2 * P64)) with (A - INR k * (2 * P64)) by ring. exact H4.
    + intros L4. rewrite (H5 ltac:(lra)). ring.
    + intros L4. specialize (H1 (S n) ltac:(lia)). rewrite (sub_done a A n I ltac:(lra)) in H1. injection H1 as <-. reflexivity.
  - destruct (add_ok (Rabs A) ltac:(lra) n a A I ltac:(lra)) as (r & R & k & H1 & H2 & H3 & H4 & H5).
    { rewrite Rabs_left in Hn by lra. lra. }
    exists r, R, (Z.of_nat k). rewrite <- INR_IZR_INZ, RK.
    split; [|split; [exact H2|split; [exact H3|split; [exact H4|split]]]].
    + intros f Hf. unfold corangle_loop. fold pi2_64. destruct f as [|f]; [lia|]. change (@nsub f64 NumF (@nofZ f64 NumF 0) pi64) with (fsub (fofZ 0) pi64). rewrite H1 by lia. apply (sub_done r R f H2). lra.
    + intros L4. apply H5. lra.
    + intros L4. lra.
Qed.
