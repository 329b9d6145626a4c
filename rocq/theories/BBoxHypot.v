(** The diagonal of a box. *)
From Coq Require Import Reals Lra Bool.
From Verif Require Import Num RealNum BBoxModel BBoxHypotModel.
Open Scope R_scope.

Lemma hypot_sq b : 0 <= bb_hypot b /\ bb_hypot b * bb_hypot b = (bx1 b - bx0 b) * (bx1 b - bx0 b) + (by1 b - by0 b) * (by1 b - by0 b).
Proof.
  unfold bb_hypot. cbv zeta. split; [apply sqrt_pos|]. rewrite sqrt_sqrt; [reflexivity|]. pose proof (Rle_0_sqr (bx1 b - bx0 b)). pose proof (Rle_0_sqr (by1 b - by0 b)). unfold Rsqr in *. unfold bb_width, bb_height. cbn [nsub NumR]. lra.
Qed.
Lemma hypot_char b d : 0 <= d -> d * d = (bx1 b - bx0 b) * (bx1 b - bx0 b) + (by1 b - by0 b) * (by1 b - by0 b) -> bb_hypot b = d.
Proof.
  intros P E. destruct (hypot_sq b) as [P' E']. rewrite <- E in E'. nra.
Qed.
Lemma hypot_zero b : bb_hypot b = 0 <-> bx0 b = bx1 b /\ by0 b = by1 b.
Proof.
  destruct (hypot_sq b) as [P E]. split; [intros Z; rewrite Z in E|intros [A B]; apply hypot_char; [lra|rewrite A, B; ring]].
  pose proof (Rle_0_sqr (bx1 b - bx0 b)) as U. pose proof (Rle_0_sqr (by1 b - by0 b)) as V. unfold Rsqr in U, V.
  split; [assert (W : (bx1 b - bx0 b) * (bx1 b - bx0 b) = 0) by lra|assert (W : (by1 b - by0 b) * (by1 b - by0 b) = 0) by lra]; apply Rmult_integral in W; lra.
Qed.
Lemma hypot_translate b dx dy : bb_hypot (bb_translate b dx dy) = bb_hypot b.
Proof. apply hypot_char; [apply hypot_sq|]. destruct (hypot_sq b) as [_ ->]. unfold bb_translate. cbn. ring. Qed.
Lemma hypot_scale b f : bb_hypot (bb_scale b f) = Rabs f * bb_hypot b.
Proof.
  destruct (hypot_sq b) as [P E]. apply hypot_char; [apply Rmult_le_pos; [apply Rabs_pos|exact P]|].
  replace (Rabs f * bb_hypot b * (Rabs f * bb_hypot b)) with (Rabs f * Rabs f * (bb_hypot b * bb_hypot b)) by ring. rewrite E, <- Rabs_mult, Rabs_pos_eq by apply Rle_0_sqr.
  unfold bb_scale, bb_width, bb_height, bb_center. cbn. field.
Qed.
(** No two points of the box are further apart. *)
Lemma hypot_diameter b x y u v : bx0 b <= x <= bx1 b -> by0 b <= y <= by1 b -> bx0 b <= u <= bx1 b -> by0 b <= v <= by1 b ->
  sqrt ((u - x) * (u - x) + (v - y) * (v - y)) <= bb_hypot b.
Proof.
  intros A B C D. unfold bb_hypot. cbv zeta. apply sqrt_le_1_alt. unfold bb_width, bb_height. cbn [nsub NumR].
  assert (Sq : forall p q, - p <= q <= p -> q * q <= p * p) by (intros p q H; assert (0 <= (p - q) * (p + q)) by (apply Rmult_le_pos; lra); lra).
  apply Rplus_le_compat; apply Sq; lra.
Qed.
Lemma hypot_bounds b : bx0 b <= bx1 b -> by0 b <= by1 b ->
  bx1 b - bx0 b <= bb_hypot b /\ by1 b - by0 b <= bb_hypot b /\ bb_hypot b <= (bx1 b - bx0 b) + (by1 b - by0 b).
Proof. intros A B. destruct (hypot_sq b) as [P E].
  assert (Lt : forall p q, 0 <= p -> 0 <= q -> p * p <= q * q -> p <= q) by (intros p q Hp Hq H; apply Rsqr_incr_0; assumption).
  pose proof (Rle_0_sqr (bx1 b - bx0 b)) as U. pose proof (Rle_0_sqr (by1 b - by0 b)) as V. unfold Rsqr in U, V.
  assert (0 <= (bx1 b - bx0 b) * (by1 b - by0 b)) by (apply Rmult_le_pos; lra).
  split; [apply Lt; lra|]. split; [apply Lt; lra|]. apply Lt; lra.
Qed.
