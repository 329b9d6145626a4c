(** Facts about round() (ties to even) on exact numbers. *)
From Coq Require Import Lqa.
From Verif Require Import Num.
Open Scope Z_scope.

Lemma Qfloor_unique q z : (inject_Z z <= q)%Q -> (q < inject_Z z + 1)%Q -> Qfloor q = z.
Proof.
  intros A B. pose proof (Qfloor_le q) as C. pose proof (Qlt_floor q) as D.
  rewrite inject_Z_plus in D. change (inject_Z 1) with 1%Q in D.
  assert (E1 : (inject_Z z < inject_Z (Qfloor q) + 1)%Q) by lra.
  assert (E2 : (inject_Z (Qfloor q) < inject_Z z + 1)%Q) by lra.
  change 1%Q with (inject_Z 1) in E1, E2. rewrite <- inject_Z_plus, <- Zlt_Qlt in E1, E2. lia.
Qed.

Lemma q_round_comp p q : (p == q)%Q -> q_round p = q_round q.
Proof.
  intros H. unfold q_round. rewrite (Qfloor_comp p q H).
  assert (E1 : Qlt_bool (p - inject_Z (Qfloor q)) (1#2) = Qlt_bool (q - inject_Z (Qfloor q)) (1#2)).
  { apply eq_true_iff_eq. rewrite !Qlt_bool_true, H. reflexivity. }
  assert (E2 : Qlt_bool (1#2) (p - inject_Z (Qfloor q)) = Qlt_bool (1#2) (q - inject_Z (Qfloor q))).
  { apply eq_true_iff_eq. rewrite !Qlt_bool_true, H. reflexivity. }
  rewrite E1, E2. reflexivity.
Qed.

Lemma inject_1 : inject_Z 1 = 1%Q.
Proof. reflexivity. Qed.

Lemma q_round_half q : (Qabs (q - inject_Z (q_round q)) <= 1#2)%Q.
Proof.
  apply Qabs_Qle_condition. unfold q_round.
  pose proof (Qfloor_le q) as A. pose proof (Qlt_floor q) as B.
  rewrite inject_Z_plus, inject_1 in B.
  destruct (Qlt_bool (q - inject_Z (Qfloor q)) (1#2)) eqn:E1; qbool; [lra|].
  destruct (Qlt_bool (1#2) (q - inject_Z (Qfloor q))) eqn:E2; qbool.
  - rewrite inject_Z_plus, inject_1. lra.
  - destruct (Z.even (Qfloor q)); [lra|]. rewrite inject_Z_plus, inject_1. lra.
Qed.

Lemma q_round_bounds q : (inject_Z (q_round q) - (1#2) <= q <= inject_Z (q_round q) + (1#2))%Q.
Proof.
  pose proof (q_round_half q) as H. apply Qabs_Qle_condition in H. lra.
Qed.

Lemma Zlt_of_Q a b : (inject_Z a < inject_Z b)%Q -> a < b.
Proof. rewrite <- Zlt_Qlt. auto. Qed.
Lemma Zle_of_Q a b : (inject_Z a <= inject_Z b)%Q -> a <= b.
Proof. rewrite <- Zle_Qle. auto. Qed.
Lemma Zle_of_Q1 a b : (inject_Z a < inject_Z b + 1)%Q -> a <= b.
Proof.
  intros H. rewrite <- inject_1, <- inject_Z_plus in H. apply Zlt_of_Q in H. lia.
Qed.

(** Strictly within half: that integer. *)
Lemma q_round_near q z : (inject_Z z - (1#2) < q)%Q -> (q < inject_Z z + (1#2))%Q -> q_round q = z.
Proof.
  intros A B. pose proof (q_round_bounds q) as [C D].
  assert (q_round q <= z) by (apply Zle_of_Q1; lra).
  assert (z <= q_round q) by (apply Zle_of_Q1; lra). lia.
Qed.
Lemma q_round_Z z : q_round (inject_Z z) = z.
Proof. apply q_round_near; lra. Qed.
(** The tie rule. *)
Lemma q_round_tie q z : (q == inject_Z z + (1#2))%Q -> q_round q = if Z.even z then z else z + 1.
Proof.
  intros H. assert (F : Qfloor q = z) by (apply Qfloor_unique; lra).
  unfold q_round. rewrite F.
  replace (Qlt_bool (q - inject_Z z) (1#2)) with false by (symmetry; apply Qlt_bool_false; lra).
  replace (Qlt_bool (1#2) (q - inject_Z z)) with false by (symmetry; apply Qlt_bool_false; lra).
  reflexivity.
Qed.

Lemma q_round_mono p q : (p <= q)%Q -> q_round p <= q_round q.
Proof.
  intros H. pose proof (q_round_bounds p) as [A B]. pose proof (q_round_bounds q) as [C D].
  destruct (Qlt_le_dec p q) as [L|L].
  - apply Zle_of_Q1. lra.
  - rewrite (q_round_comp p q) by lra. lia.
Qed.
Lemma q_round_range q a b : (inject_Z a <= q <= inject_Z b)%Q -> a <= q_round q <= b.
Proof.
  intros [A B]. apply q_round_mono in A, B. rewrite q_round_Z in A, B. lia.
Qed.
