(** Rounding and simplification of doubles (coral/coord.py). *)
From Coq Require Import ZArith QArith Reals Qreals Lia Lra List SpecFloat.
From Flocq Require Import Core IEEE754.BinarySingleNaN.
From Verif Require Import Py Num FloatLib BufferModel SimplifyModel SimplifySpec SimplifyFloatModel SimplifyFloatSpec SimplifyFloat SimplifyFloatApi.
Import ListNotations.
Open Scope R_scope.

(** C127 *)
(** Rounding half away from zero: right for every finite double, except for
    those just below one half and for the odd integers between 2^52 and 2^53,
    which end up one further from zero. *)
Theorem C127_nearest : forall x r, isf x r -> exists q, nearest64 x = Ok q /\ 0 <= r * IZR q /\
  (below_half r -> Z.abs q = 1%Z) /\ (odd_giant r -> IZR (Z.abs q) = Rabs r + 1) /\ (rounds_to r q <-> ~ below_half r /\ ~ odd_giant r).
Proof. exact nearest_ok. Qed.
Theorem C127_error : forall x r q, isf x r -> nearest64 x = Ok q ->
  Rabs (r - IZR q) <= 1 /\ (Rabs r < IZR (2 ^ 52) -> Rabs (r - IZR q) <= / 2 + / IZR (2 ^ 54)).
Proof. exact nearest_err. Qed.
Theorem C127_special : forall s, nearest64 (S754_infinity s) = Err OverflowError /\ nearest64 S754_nan = Err ValueError.
Proof. exact special64. Qed.
(** Both kinds of exceptions, and an ordinary tie *)
Example C127_nearest_case : isf (f_of 9007199254740991 (-54)) (/ 2 - / IZR (2 ^ 54)) /\ below_half (/ 2 - / IZR (2 ^ 54)) /\
  nearest64 (f_of 9007199254740991 (-54)) = Ok 1%Z /\
  isf (fofZ (- (2 ^ 52 + 1))) (IZR (- (2 ^ 52 + 1))) /\ odd_giant (IZR (- (2 ^ 52 + 1))) /\ nearest64 (fofZ (- (2 ^ 52 + 1))) = Ok (- (2 ^ 52 + 2))%Z /\
  nearest64 (f_of (-5) (-1)) = Ok (-3)%Z.
Proof.
  split; [|split; [|split; [vm_compute; reflexivity|split; [apply isf_int; lia|split; [|split; vm_compute; reflexivity]]]]].
  - pose proof (isf_valid (f_of 9007199254740991 (-54)) eq_refl eq_refl) as I. replace (/ 2 - / IZR (2 ^ 54)) with (SF2R radix2 (f_of 9007199254740991 (-54))); [exact I|].
    change (f_of 9007199254740991 (-54)) with (S754_finite false 9007199254740991 (-54)). unfold SF2R. rewrite F2R_div by lia.
    change (IZR 9007199254740991 / IZR 18014398509481984 = / 2 - / IZR 18014398509481984). lra.
  - unfold below_half. rewrite Rabs_pos_eq; [reflexivity|]. change (IZR (2 ^ 54)) with 18014398509481984. lra.
  - exists 2251799813685248%Z. rewrite <- abs_IZR. split; [reflexivity|lia].
Qed.

(** A path: every vertex is moved to its cell, at most half a cell away up to
    rounding; then the corners are kept as in exact arithmetic. *)
Theorem C127_open : forall ps Ps m M n k fuel, isf m M -> M <> 0 -> Forall2 holds_pt ps Ps -> Forall (in_reach M) Ps ->
  (0 <= k)%Z -> n = (2 ^ k)%Z -> (n < Z.of_nat fuel)%Z -> (2 <= length ps)%nat ->
  exists s a mid z, Forall2 (cell_of M) Ps s /\ simplify64 fuel ps m false n = Some (a :: mid ++ [z], Ok tt) /\
    hd_error s = Some a /\ last s a = z /\ cancels (turns (dedup s)) mid /\ subseq (a :: mid ++ [z]) s /\
    ((Z.of_nat (length (turns (dedup s))) <= n)%Z -> no_adjacent mid).
Proof. exact open64. Qed.
Theorem C127_closed : forall ps Ps m M n k fuel, isf m M -> M <> 0 -> Forall2 holds_pt ps Ps -> Forall (in_reach M) Ps ->
  (0 <= k)%Z -> n = (2 ^ k)%Z -> (n < Z.of_nat fuel)%Z -> (3 <= length ps)%nat ->
  exists s out, Forall2 (cell_of M) Ps s /\ simplify64 fuel ps m true n = Some (out, Ok tt) /\
    (forall v, In v out -> In v s) /\ hd_error out = hd_error s /\ (forall d, last out d = last s d).
Proof. exact closed64. Qed.
Theorem C127_zero_cell : forall fuel ps m closed n, isf m 0 -> ps <> [] -> (exists b, @buf_new (Z * Z) n = Ok b) ->
  simplify64 fuel ps m closed n = Some ([], Err ZeroDivisionError).
Proof. exact zero64. Qed.
(** Cells whose size is a power of two: the same as in exact arithmetic. *)
Theorem C127_binary : forall m mq ps qs k fuel closed n, isf m (Q2R mq) -> (-200 <= k <= 200)%Z -> Q2R mq = bpow radix2 k -> Forall2 exact_pt ps qs ->
  Forall (fun P => exact_cell mq (fst P) /\ exact_cell mq (snd P)) qs -> simplify64 fuel ps m closed n = simplify fuel qs mq closed n.
Proof. exact exact64. Qed.
(** Other sizes: a point almost in the middle between two cells can fall on
    the other side, 2.75 with cells of size 1.1 for instance. *)
Theorem C127_tenths_refuted : exists (x m : f64) (xq mq : Q) q, isf x (Q2R xq) /\ isf m (Q2R mq) /\ cell64 m (x, x) = Ok (q, q) /\ rounds (xq / mq) (q - 1).
Proof.
  exists (f_of 11 (-2)), (f_of 4953959590107546 (-52)), (11 # 4)%Q, (4953959590107546 # 4503599627370496)%Q, 3%Z. split; [|split; [|split; [vm_compute; reflexivity|]]].
  - pose proof (isf_valid (f_of 11 (-2)) eq_refl eq_refl) as I. replace (Q2R (11 # 4)) with (SF2R radix2 (f_of 11 (-2))); [exact I|].
    change (f_of 11 (-2)) with (S754_finite false 6192449487634432 (-51)). unfold SF2R. rewrite F2R_div by lia. unfold Q2R. cbn. lra.
  - pose proof (isf_valid (f_of 4953959590107546 (-52)) eq_refl eq_refl) as I. replace (Q2R (4953959590107546 # 4503599627370496)) with (SF2R radix2 (f_of 4953959590107546 (-52))); [exact I|].
    change (f_of 4953959590107546 (-52)) with (S754_finite false 4953959590107546 (-52)). unfold SF2R. rewrite F2R_div by lia. unfold Q2R. cbn. lra.
  - split; [|split]; vm_compute; try reflexivity; discriminate.
Qed.
(** A path over a spike, in cells of size one half *)
Definition zigzag : list (f64 * f64) := [(fofZ 0, fofZ 0); (fofZ 1, f_of 1 (-4)); (fofZ 2, fofZ 0); (fofZ 2, fofZ 3); (fofZ 5, fofZ 3)].
Definition zigzagQ : list (Q * Q) := [(0, 0); (1, 1 # 16); (2, 0); (2, 3); (5, 3)]%Q.
Lemma sixteenth : isf (f_of 1 (-4)) (Q2R (1 # 16)).
Proof.
  pose proof (isf_valid (f_of 1 (-4)) eq_refl eq_refl) as I. replace (Q2R (1 # 16)) with (SF2R radix2 (f_of 1 (-4))); [exact I|].
  change (f_of 1 (-4)) with (S754_finite false (2 ^ 52) (-56)). unfold SF2R. rewrite F2R_div by lia. unfold Q2R. cbn. lra.
Qed.
Lemma int_Q z : (Z.abs z <= 2 ^ 53)%Z -> isf (fofZ z) (Q2R (inject_Z z)).
Proof. intros H. replace (Q2R (inject_Z z)) with (IZR z) by (unfold Q2R; cbn; lra). apply isf_int, H. Qed.
Example C127_case : simplify64 9 zigzag (f_of 1 (-1)) false 8 = Some ([(0, 0); (4, 0); (4, 6); (10, 6)]%Z, Ok tt) /\
  isf (f_of 1 (-1)) (Q2R (1 # 2)) /\ Q2R (1 # 2) = bpow radix2 (-1) /\ Forall2 exact_pt zigzag zigzagQ /\
  Forall (fun P => exact_cell (1 # 2) (fst P) /\ exact_cell (1 # 2) (snd P)) zigzagQ /\ Forall (in_reach (/ 2)) (map (fun P => (Q2R (fst P), Q2R (snd P))) zigzagQ).
Proof.
  assert (H : Q2R (1 # 2) = / 2) by (unfold Q2R; cbn; lra).
  split; [vm_compute; reflexivity|]. split; [rewrite H; exact isf_phalf|]. split; [rewrite H; reflexivity|].
  split; [|split].
  - unfold zigzag, zigzagQ. repeat (apply Forall2_cons; [split; cbn [fst snd]; first [exact sixteenth|apply (int_Q 0); lia|apply (int_Q 1); lia|apply (int_Q 2); lia|apply (int_Q 3); lia|apply (int_Q 5); lia]|]). apply Forall2_nil.
  - assert (P : 0 < bpow radix2 (-400) <= / 16) by (split; [apply bpow_gt_0|change (/ 16) with (bpow radix2 (-4)); apply bpow_le; lia]).
    assert (P' : 8 <= bpow radix2 400) by (change 8 with (bpow radix2 3); apply bpow_le; lia).
    assert (R : forall x : Q, (0 <= Q2R x <= 5)%R -> (Q2R x = 0 \/ / 16 <= Q2R x) -> (Q2R x = / 16 \/ exists z, (0 <= z)%Z /\ Q2R x = IZR z) -> exact_cell (1 # 2) x).
    { intros x B C D. assert (E : Q2R (x / (1 # 2)) = 2 * Q2R x) by (rewrite Q2R_div by discriminate; rewrite H; field). split.
      - destruct C as [C|C]; [left; exact C|right; rewrite Rabs_pos_eq by lra; lra].
      - rewrite E. split.
        + unfold below_half. rewrite Rabs_pos_eq by lra. change (IZR (2 ^ 54)) with 18014398509481984. destruct D as [D|(z & Z0 & D)]; [lra|]. rewrite D.
          destruct (Z.eq_dec z 0) as [->|N]; [change (IZR 0) with 0; lra|]. assert (1 <= IZR z) by (apply IZR_le; lia). lra.
        + intros (n & N & M). rewrite Rabs_pos_eq in N by lra. assert (IZR (2 * n + 1) <= 10) by lra. apply le_IZR in H0. lia. }
    assert (RZ : forall z, (0 <= z <= 5)%Z -> exact_cell (1 # 2) (inject_Z z)).
    { intros z B. assert (E : Q2R (inject_Z z) = IZR z) by (unfold Q2R; cbn; lra). destruct B as [B1 B2]. pose proof (IZR_le _ _ B1). pose proof (IZR_le _ _ B2).
      apply R; rewrite E; [lra| |right; exists z; auto]. destruct (Z.eq_dec z 0) as [->|N]; [left; reflexivity|right]. assert (1 <= IZR z) by (apply IZR_le; lia). lra. }
    assert (RS : exact_cell (1 # 2) (1 # 16)) by (assert (E : Q2R (1 # 16) = / 16) by (unfold Q2R; cbn; lra); apply R; rewrite E; [lra|right; lra|left; reflexivity]).
    unfold zigzagQ. repeat (apply Forall_cons; [cbn [fst snd]; split; first [exact RS|apply (RZ 0%Z); lia|apply (RZ 1%Z); lia|apply (RZ 2%Z); lia|apply (RZ 3%Z); lia|apply (RZ 5%Z); lia]|]). apply Forall_nil.
  - cbn [map zigzagQ fst snd]. assert (G : forall x y : R, 0 <= x <= 5 -> 0 <= y <= 5 -> in_reach (/ 2) (x, y)).
    { intros x y X Y. unfold in_reach. cbn [fst snd]. change (IZR (2 ^ 52)) with 4503599627370496. rewrite !Rabs_pos_eq by lra. lra. }
    repeat (apply Forall_cons; [apply G; unfold Q2R; cbn; lra|]). apply Forall_nil.
Qed.

Print Assumptions C127_nearest.
Print Assumptions C127_error.
Print Assumptions C127_special.
Print Assumptions C127_open.
Print Assumptions C127_closed.
Print Assumptions C127_zero_cell.
Print Assumptions C127_binary.
Print Assumptions C127_tenths_refuted.
