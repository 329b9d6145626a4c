(** Simplification of doubles: the whole function. *)
From Coq Require Import ZArith Reals Qreals QArith Lia Lra List SpecFloat.
From Flocq Require Import Core IEEE754.BinarySingleNaN.
From Verif Require Import Py Num FloatLib BufferModel SimplifyModel SimplifySpec SimplifyProofs SnapProofs ClosedProofs SimplifyFloatModel SimplifyFloatSpec SimplifyFloat.
Import ListNotations.
Open Scope R_scope.

Lemma Forall2_len {A B} (P : A -> B -> Prop) l m : Forall2 P l m -> length l = length m.
Proof. induction 1; cbn; congruence. Qed.
Lemma open64 ps Ps m M n k fuel : isf m M -> M <> 0 -> Forall2 holds_pt ps Ps -> Forall (in_reach M) Ps ->
  (0 <= k)%Z -> n = (2 ^ k)%Z -> (n < Z.of_nat fuel)%Z -> (2 <= length ps)%nat ->
  exists s a mid z, Forall2 (cell_of M) Ps s /\ simplify64 fuel ps m false n = Some (a :: mid ++ [z], Ok tt) /\
    hd_error s = Some a /\ last s a = z /\ cancels (turns (dedup s)) mid /\ subseq (a :: mid ++ [z]) s /\
    ((Z.of_nat (length (turns (dedup s))) <= n)%Z -> no_adjacent mid).
Proof.
  intros Im N H R Hk Hn Hf L. destruct (cells_ok m M ps Im N Ps H R) as (s & E & C).
  assert (Ls : (2 <= length s)%nat) by (rewrite <- (Forall2_len _ _ _ C), <- (Forall2_len _ _ _ H); exact L).
  destruct (open_spec s n k fuel Hk Hn Hf Ls) as (a & mid & z & O). exists s, a, mid, z. split; [exact C|]. unfold simplify64. rewrite E. exact O.
Qed.
Lemma closed64 ps Ps m M n k fuel : isf m M -> M <> 0 -> Forall2 holds_pt ps Ps -> Forall (in_reach M) Ps ->
  (0 <= k)%Z -> n = (2 ^ k)%Z -> (n < Z.of_nat fuel)%Z -> (3 <= length ps)%nat ->
  exists s out, Forall2 (cell_of M) Ps s /\ simplify64 fuel ps m true n = Some (out, Ok tt) /\
    (forall v, In v out -> In v s) /\ hd_error out = hd_error s /\ (forall d, last out d = last s d).
Proof.
  intros Im N H R Hk Hn Hf L. destruct (cells_ok m M ps Im N Ps H R) as (s & E & C).
  assert (Ls : (3 <= length s)%nat) by (rewrite <- (Forall2_len _ _ _ C), <- (Forall2_len _ _ _ H); exact L).
  destruct (closed_vertices s n k fuel Hk Hn Hf Ls) as (out & O). exists s, out. split; [exact C|]. unfold simplify64. rewrite E. exact O.
Qed.
Lemma zero64 fuel ps m closed n : isf m 0 -> ps <> [] -> (exists b, @buf_new (Z * Z) n = Ok b) -> simplify64 fuel ps m closed n = Some ([], Err ZeroDivisionError).
Proof.
  intros Im N [b B]. destruct ps as [|p ps]; [congruence|]. unfold simplify64. cbn [mapM]. unfold cell64, div64.
  rewrite (isf_eq _ _ _ _ Im (isf_int 0 ltac:(lia))). rewrite Req_bool_true by reflexivity. cbn [bind]. change pt with (Z * Z)%type. rewrite B. reflexivity.
Qed.
Lemma special64 s : nearest64 (S754_infinity s) = Err OverflowError /\ nearest64 S754_nan = Err ValueError.
Proof. destruct s; split; reflexivity. Qed.

(** ** Powers of two: the same as in exact arithmetic *)
Lemma rounds_Q (x : Q) q : rounds_to (Q2R x) q -> rounds x q.
Proof.
  intros [[A B] C]. assert (Ab : Rabs (Q2R x) = Q2R (Qabs.Qabs x)).
  { pattern (Qabs.Qabs x). apply Qabs.Qabs_case; intros H; apply Qle_Rle in H; rewrite ?RMicromega.Q2R_0 in H.
    - rewrite Rabs_pos_eq by exact H. reflexivity.
    - rewrite Q2R_opp. unfold Rabs. destruct (Rcase_abs (Q2R x)); [reflexivity|lra]. }
  assert (Z2 : forall z, Q2R (inject_Z z) = IZR z) by (intros z; unfold Q2R; cbn; lra).
  assert (Hf : Q2R (1 # 2) = / 2) by (unfold Q2R; cbn; lra).
  rewrite Ab in A, B. split; [|split].
  - apply Rle_Qle. rewrite Q2R_minus, Z2, Hf. exact A.
  - apply Rlt_Qlt. rewrite Q2R_plus, Z2, Hf. exact B.
  - apply Rle_Qle. rewrite Q2R_mult, Z2, RMicromega.Q2R_0. exact C.
Qed.
Lemma cells_exact m mq ps k : isf m (Q2R mq) -> (-200 <= k <= 200)%Z -> Q2R mq = bpow radix2 k -> forall qs, Forall2 exact_pt ps qs ->
  Forall (fun P => exact_cell mq (fst P) /\ exact_cell mq (snd P)) qs -> exists s, mapM (cell64 m) ps = Ok s /\ snapped mq qs s.
Proof.
  intros Im K Ek. assert (Nz : ~ (mq == 0)%Q). { intros Z0. apply Qeq_eqR in Z0. rewrite Ek, RMicromega.Q2R_0 in Z0. pose proof (bpow_gt_0 radix2 k). lra. }
  assert (D : forall x, Q2R (x / mq) = Q2R x / bpow radix2 k) by (intros x; rewrite Q2R_div, Ek by exact Nz; reflexivity).
  rewrite Ek in Im. induction ps as [|p ps IH]; intros qs H R; inversion H as [|? P ? Ps' [I1 I2] H2]; subst; [exists []; split; [reflexivity|constructor]|].
  inversion R as [|? ? [[M1 R1] [M2 R2]] R3]; subst. cbn [fst snd] in I1, I2. rewrite D in R1, R2.
  destruct (coordinate_exact _ m _ k I1 Im K M1 R1) as (i & E1 & C1). destruct (coordinate_exact _ m _ k I2 Im K M2 R2) as (j & E2 & C2).
  destruct (IH Ps' H2 R3) as (s & Es & Cs). exists ((i, j) :: s). split.
  - cbn [mapM]. unfold cell64 at 1. destruct (div64 (fst p) m) as [u|]; [|discriminate]. cbn [bind] in *. rewrite E1. cbn [bind].
    destruct (div64 (snd p) m) as [v|]; [|discriminate]. cbn [bind] in *. rewrite E2. cbn [bind]. rewrite Es. reflexivity.
  - constructor; [|exact Cs]. cbn [fst snd]. rewrite <- D in C1, C2. split; apply rounds_Q; assumption.
Qed.
Lemma exact64 m mq ps qs k fuel closed n : isf m (Q2R mq) -> (-200 <= k <= 200)%Z -> Q2R mq = bpow radix2 k -> Forall2 exact_pt ps qs ->
  Forall (fun P => exact_cell mq (fst P) /\ exact_cell mq (snd P)) qs -> simplify64 fuel ps m closed n = simplify fuel qs mq closed n.
Proof.
  intros Im K Ek H R. destruct (cells_exact m mq ps k Im K Ek qs H R) as (s & E & S).
  assert (Nz : ~ (mq == 0)%Q). { intros Z0. apply Qeq_eqR in Z0. rewrite Ek, RMicromega.Q2R_0 in Z0. pose proof (bpow_gt_0 radix2 k). lra. }
  rewrite (simplify_snapped fuel mq qs s closed n Nz S). unfold simplify64. rewrite E. reflexivity.
Qed.
