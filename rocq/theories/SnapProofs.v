(** nearest(), sqr_fit() and collinear(), and the lift of the path theorems to
    simplify(). *)
From Coq Require Import ZifyBool ZifyNat Lqa SpecFloat Qfield.
From Verif Require Import Num BufferModel BufferSpec BufferProofs SimplifyModel SimplifySpec
  SimplifyProofs ClosedProofs.
Open Scope Z_scope.

Lemma q_trunc_floor q : (0 <= q)%Q -> q_trunc q = Qfloor q.
Proof.
  destruct q as [a b]. unfold q_trunc, Qfloor, Qle. cbn. intros H.
  apply Z.quot_div_nonneg; lia.
Qed.
Lemma q_trunc_opp q : q_trunc (- q) = - q_trunc q.
Proof. destruct q as [a b]. unfold q_trunc. cbn. apply Z.quot_opp_l. lia. Qed.
Lemma q_trunc_comp p q : (p == q)%Q -> q_trunc p = q_trunc q.
Proof.
  intros H. destruct (Qlt_le_dec p 0) as [N|N].
  - assert (q_trunc (- p) = q_trunc (- q)).
    { rewrite !q_trunc_floor by lra. apply Qfloor_comp. rewrite H. reflexivity. }
    rewrite !q_trunc_opp in H0. lia.
  - rewrite !q_trunc_floor by lra. apply Qfloor_comp. exact H.
Qed.
Lemma nearest_pos x : (0 <= x)%Q -> nearestQ x = Qfloor (x + (1#2)).
Proof.
  intros H. unfold nearestQ. replace (Qlt_bool x 0) with false
    by (symmetry; apply Qlt_bool_false; exact H).
  apply q_trunc_floor. lra.
Qed.
Lemma nearest_comp x y : (x == y)%Q -> nearestQ x = nearestQ y.
Proof.
  intros H. unfold nearestQ. assert (E : Qlt_bool x 0 = Qlt_bool y 0).
  { apply eq_true_iff_eq. rewrite !Qlt_bool_true, H. reflexivity. }
  rewrite E. apply q_trunc_comp. rewrite H. reflexivity.
Qed.
Lemma nearest_opp x : nearestQ (- x) = - nearestQ x.
Proof.
  destruct (Qlt_le_dec x 0) as [N|N]; [|destruct (Qlt_le_dec 0 x) as [P|P]].
  - unfold nearestQ. replace (Qlt_bool x 0) with true by (symmetry; apply Qlt_bool_true; exact N).
    replace (Qlt_bool (- x) 0) with false by (symmetry; apply Qlt_bool_false; lra).
    rewrite <- q_trunc_opp. apply q_trunc_comp. ring.
  - unfold nearestQ.
    replace (Qlt_bool (- x) 0) with true by (symmetry; apply Qlt_bool_true; lra).
    replace (Qlt_bool x 0) with false by (symmetry; apply Qlt_bool_false; exact N).
    rewrite <- q_trunc_opp. apply q_trunc_comp. ring.
  - assert (E : (x == 0)%Q) by lra.
    assert (E' : (- x == 0)%Q) by (rewrite E; ring).
    rewrite (nearest_comp _ _ E), (nearest_comp _ _ E'). reflexivity.
Qed.

Lemma nearest_pos_bounds x : (0 <= x)%Q ->
  0 <= nearestQ x /\ (inject_Z (nearestQ x) - (1#2) <= x)%Q /\
  (x < inject_Z (nearestQ x) + (1#2))%Q.
Proof.
  intros H. rewrite (nearest_pos x H).
  pose proof (Qfloor_le (x + (1#2))) as A. pose proof (Qlt_floor (x + (1#2))) as B.
  rewrite inject_Z_plus in B. change (inject_Z 1) with 1%Q in B.
  split; [|split; lra].
  rewrite Zle_Qle. change (inject_Z 0) with 0%Q.
  assert (C : (-1 < inject_Z (Qfloor (x + (1 # 2))))%Q) by lra.
  change (-1)%Q with (inject_Z (-1)) in C. rewrite <- Zlt_Qlt in C.
  change 0%Q with (inject_Z 0). rewrite <- Zle_Qle. lia.
Qed.

Lemma nearest_rounds x : rounds x (nearestQ x).
Proof.
  unfold rounds. destruct (Qlt_le_dec x 0) as [N|N].
  - assert (N' : (0 <= - x)%Q) by lra. destruct (nearest_pos_bounds (- x) N') as (A & B & C).
    rewrite nearest_opp in *. rewrite inject_Z_opp in *.
    rewrite Qabs_neg by lra. rewrite Z.abs_neq by lia. rewrite inject_Z_opp.
    split; [exact B|]. split; [exact C|].
    assert (D : (0 <= - inject_Z (nearestQ x))%Q).
    { rewrite <- inject_Z_opp. change 0%Q with (inject_Z 0). rewrite <- Zle_Qle. exact A. }
    setoid_replace (x * inject_Z (nearestQ x))%Q with ((- x) * (- inject_Z (nearestQ x)))%Q by ring.
    apply Qmult_le_0_compat; assumption.
  - destruct (nearest_pos_bounds x N) as (A & B & C).
    rewrite Qabs_pos by assumption. rewrite Z.abs_eq by lia.
    split; [exact B|]. split; [exact C|]. apply Qmult_le_0_compat; [exact N|].
    change 0%Q with (inject_Z 0). rewrite <- Zle_Qle. exact A.
Qed.

Lemma inject_lt_add1 a b : (inject_Z a < inject_Z b + 1)%Q -> a <= b.
Proof.
  intros H. change 1%Q with (inject_Z 1) in H. rewrite <- inject_Z_plus, <- Zlt_Qlt in H. lia.
Qed.

Lemma rounds_unique x p q : rounds x p -> rounds x q -> p = q.
Proof.
  unfold rounds. intros (A1 & A2 & A3) (B1 & B2 & B3).
  assert (E : Z.abs p = Z.abs q).
  { assert (Z.abs p <= Z.abs q) by (apply inject_lt_add1; lra).
    assert (Z.abs q <= Z.abs p) by (apply inject_lt_add1; lra). lia. }
  destruct (Z.eq_dec p q) as [D|D]; [exact D|exfalso].
  assert (Eq : q = - p) by lia. subst q.
  rewrite inject_Z_opp in B3.
  assert (Z0 : (x * inject_Z p == 0)%Q) by lra.
  apply Qmult_integral in Z0. destruct Z0 as [Z0|Z0].
  - rewrite Z0 in A1. change (Qabs 0) with 0%Q in A1.
    assert (Z.abs p <= 0).
    { apply inject_lt_add1. change (inject_Z 0) with 0%Q. lra. }
    lia.
  - change 0%Q with (inject_Z 0) in Z0. rewrite inject_Z_injective in Z0. lia.
Qed.

Lemma rounds_iff x q : rounds x q <-> nearestQ x = q.
Proof.
  split; intros H; [|subst; apply nearest_rounds].
  apply (rounds_unique x); [apply nearest_rounds|exact H].
Qed.

Lemma nearest_half x : (Qabs (x - inject_Z (nearestQ x)) <= 1#2)%Q.
Proof.
  destruct (nearest_rounds x) as (A & B & C).
  apply Qabs_Qle_condition.
  destruct (Qlt_le_dec x 0) as [N|N].
  - rewrite Qabs_neg in A, B by lra.
    destruct (Z_lt_le_dec 0 (nearestQ x)) as [P|P].
    + exfalso. assert ((0 < inject_Z (nearestQ x))%Q)
        by (change 0%Q with (inject_Z 0); rewrite <- Zlt_Qlt; exact P). nra.
    + rewrite Z.abs_neq in A, B by lia. rewrite inject_Z_opp in A, B. lra.
  - rewrite Qabs_pos in A, B by lra.
    destruct (Z_lt_le_dec (nearestQ x) 0) as [P|P].
    + destruct (Qlt_le_dec 0 x) as [N'|N'].
      * exfalso. assert ((inject_Z (nearestQ x) < 0)%Q)
          by (change 0%Q with (inject_Z 0); rewrite <- Zlt_Qlt; exact P). nra.
      * rewrite Z.abs_neq in A, B by lia. rewrite inject_Z_opp in A, B. lra.
    + rewrite Z.abs_eq in A, B by lia. lra.
Qed.

Lemma nearest_mono x y : (x <= y)%Q -> nearestQ x <= nearestQ y.
Proof.
  intros H. destruct (Qlt_le_dec x 0) as [Nx|Nx]; [destruct (Qlt_le_dec y 0) as [Ny|Ny]|].
  - assert (Ny' : (0 <= - y)%Q) by lra. assert (Nx' : (0 <= - x)%Q) by lra.
    pose proof (nearest_pos _ Ny') as A. pose proof (nearest_pos _ Nx') as B.
    rewrite nearest_opp in A, B.
    assert (Qfloor (- y + (1 # 2)) <= Qfloor (- x + (1 # 2))) by (apply Qfloor_resp_le; lra). lia.
  - assert (Nx' : (0 <= - x)%Q) by lra.
    destruct (nearest_pos_bounds _ Nx') as (A & _). destruct (nearest_pos_bounds _ Ny) as (B & _).
    rewrite nearest_opp in A. lia.
  - assert (Ny : (0 <= y)%Q) by lra. rewrite (nearest_pos _ Nx), (nearest_pos _ Ny).
    apply Qfloor_resp_le. lra.
Qed.

Lemma snap_err x m : (0 < m)%Q -> (Qabs (x - m * inject_Z (nearestQ (x / m))) <= m / 2)%Q.
Proof.
  intros Hm. pose proof (nearest_half (x / m)) as H.
  setoid_replace (x - m * inject_Z (nearestQ (x / m)))%Q with
    (m * (x / m - inject_Z (nearestQ (x / m))))%Q by (field; lra).
  rewrite Qabs_Qmult, (Qabs_pos m) by lra.
  setoid_replace (m / 2)%Q with (m * (1#2))%Q by field.
  rewrite (Qmult_comm m), (Qmult_comm m). apply Qmult_le_compat_r; [exact H|lra].
Qed.

Lemma sqr_fit_snapped m xys s : ~ (m == 0)%Q -> snapped m xys s -> sqr_fit m xys = (s, Ok tt).
Proof.
  intros Hm H. unfold sqr_fit. destruct xys as [|xy xys'] eqn:E.
  - inversion H; subst. reflexivity.
  - rewrite <- E in *. replace (Qeq_bool m 0) with false by (symmetry; apply Qeq_bool_false; exact Hm).
    f_equal. clear E. induction H as [|[x y] [a b] l l' [H1 H2] H IH]; [reflexivity|].
    cbn in *. apply rounds_iff in H1, H2. rewrite H1, H2, IH. reflexivity.
Qed.
Lemma snapped_ex m xys : exists s, snapped m xys s.
Proof.
  exists (map (fun '(x, y) => (nearestQ (x / m), nearestQ (y / m)))%Q xys).
  induction xys as [|[x y] l IH]; constructor; [|exact IH].
  split; apply nearest_rounds.
Qed.
Lemma simplify_snapped fuel m xys s closed k : ~ (m == 0)%Q -> snapped m xys s ->
  simplify fuel xys m closed k =
  if closed then closed_no_slit fuel s k else open_no_slit fuel s k.
Proof. intros Hm H. unfold simplify. rewrite (sqr_fit_snapped m xys s Hm H). reflexivity. Qed.

Lemma simplify_zero fuel m xys closed k : (m == 0)%Q -> xys <> [] ->
  (exists b, @buf_new pt k = Ok b) ->
  simplify fuel xys m closed k = Some ([], Err ZeroDivisionError).
Proof.
  intros Hm Hx (b & Eb). unfold simplify, sqr_fit. destruct xys as [|xy r]; [congruence|].
  replace (Qeq_bool m 0) with true by (symmetry; apply Qeq_bool_true; exact Hm).
  rewrite Eb. reflexivity.
Qed.

Lemma open_exact s n k fuel :
  0 <= k -> n = 2 ^ k -> n < Z.of_nat fuel -> (2 <= length s)%nat ->
  no_adjacent (turns (dedup s)) ->
  exists a, hd_error s = Some a /\
    open_no_slit fuel s n = Some (a :: turns (dedup s) ++ [last s a], Ok tt).
Proof.
  intros Hk En Hf Hs Hna. destruct s as [|p [|q s]]; cbn in Hs; try lia.
  rewrite (open_run k n Hk En fuel p q s Hf).
  pose proof (feed_plain k n Hk En (turns (dedup (p :: q :: s))) [] [] ltac:(cbn; lia) Hna) as F.
  destruct (fold_left (qcorner n) (turns (dedup (p :: q :: s))) ([], [])) as [o ql].
  destruct F as [F _]. exists p. split; [reflexivity|].
  rewrite app_assoc, F. reflexivity.
Qed.

(** collinear *)
Lemma collinearQ_iff a b c :
  collinearQ a b c = true <->
  ((fst b - fst a) * (snd c - snd a) - (snd b - snd a) * (fst c - fst a) == 0)%Q.
Proof.
  destruct a as [xa ya], b as [xb yb], c as [xc yc]. unfold collinearQ; cbn.
  rewrite Qeq_bool_true. split; intros H; lra.
Qed.

Definition crossQ (a b c : Q * Q) : Q :=
  ((fst b - fst a) * (snd c - snd a) - (snd b - snd a) * (fst c - fst a))%Q.
Lemma collinearQ_cross a b c : collinearQ a b c = Qeq_bool (crossQ a b c) 0.
Proof. apply eq_true_iff_eq. rewrite Qeq_bool_true. apply collinearQ_iff. Qed.
Lemma Qeq_bool_scale k x y : ~ (k == 0)%Q -> (y == k * x)%Q -> Qeq_bool y 0 = Qeq_bool x 0.
Proof.
  intros Hk E. apply eq_true_iff_eq. rewrite !Qeq_bool_true. rewrite E. split; intros H.
  - apply Qmult_integral in H. tauto.
  - rewrite H. ring.
Qed.
Lemma collinear_swap12 a b c : collinearQ b a c = collinearQ a b c.
Proof.
  rewrite !collinearQ_cross. apply (Qeq_bool_scale (-1)); [lra|]. unfold crossQ. ring.
Qed.
Lemma collinear_swap23 a b c : collinearQ a c b = collinearQ a b c.
Proof.
  rewrite !collinearQ_cross. apply (Qeq_bool_scale (-1)); [lra|]. unfold crossQ. ring.
Qed.
Lemma collinear_affine (m11 m12 m21 m22 dx dy : Q) (f : Q * Q -> Q * Q) a b c :
  (forall x y, f (x, y) = (m11 * x + m12 * y + dx, m21 * x + m22 * y + dy)%Q) ->
  ~ (m11 * m22 - m12 * m21 == 0)%Q ->
  collinearQ (f a) (f b) (f c) = collinearQ a b c.
Proof.
  intros Hf Hd. rewrite !collinearQ_cross. apply (Qeq_bool_scale _ _ _ Hd).
  destruct a as [xa ya], b as [xb yb], c as [xc yc]. rewrite !Hf. unfold crossQ; cbn. ring.
Qed.
Lemma collinear_refl12 a c : collinearQ a a c = true.
Proof. rewrite collinearQ_cross. apply Qeq_bool_true. unfold crossQ. ring. Qed.
