(** The compass. *)
From Verif Require Import SimplifyModel SimplifySpec SimplifyProofs SnapProofs RasterCanvas GeoModel GeoSpec.
From Coq Require Import Lia Lqa.
(** * The compass *)
Section Compass.
Open Scope Q_scope.
(** The sixteen winds, clockwise from the north. *)
Definition azimuth (w : wind) : Q :=
  match w with
  | wN => 0 | wNNE => 45 # 2 | wNE => 45 | wENE => 135 # 2
  | wE => 90 | wESE => 225 # 2 | wSE => 135 | wSSE => 315 # 2
  | wS => 180 | wSSW => 405 # 2 | wSW => 225 | wWSW => 495 # 2
  | wW => 270 | wWNW => 585 # 2 | wNW => 315 | wNNW => 675 # 2
  end.
Lemma q_mod_spec b : exists k, q_mod (b + 360) 360 == b + inject_Z k * 360 /\ 0 <= q_mod (b + 360) 360 /\ q_mod (b + 360) 360 < 360.
Proof.
  unfold q_mod. set (f := Qfloor ((b + 360) / 360)). exists (1 - f)%Z.
  assert (L : inject_Z f <= (b + 360) / 360) by apply Qfloor_le. assert (U : (b + 360) / 360 < inject_Z (f + 1)) by apply Qlt_floor.
  rewrite inject_Z_plus in U. unfold Z.sub. rewrite inject_Z_plus, inject_Z_opp.
  assert (E : (b + 360) / 360 == (b + 360) * (1 # 360)) by (field). rewrite E in L, U. change (inject_Z 1) with 1 in *.
  split; [|split]; lra.
Qed.
Lemma q_mod_turn b k : q_mod (b + inject_Z k * 360 + 360) 360 == q_mod (b + 360) 360.
Proof.
  destruct (q_mod_spec (b + inject_Z k * 360)) as (j & Ej & Lj & Uj). destruct (q_mod_spec b) as (i & Ei & Li & Ui).
  assert (D : inject_Z (k + j - i) * 360 == q_mod (b + inject_Z k * 360 + 360) 360 - q_mod (b + 360) 360).
  { unfold Z.sub. rewrite !inject_Z_plus, inject_Z_opp. rewrite Ej, Ei. ring. }
  set (x := q_mod (b + inject_Z k * 360 + 360) 360) in *. set (y := q_mod (b + 360) 360) in *. clearbody x y.
  assert (A : inject_Z (k + j - i) < inject_Z 1) by (change (inject_Z 1) with 1; lra).
  assert (B : inject_Z (-1) < inject_Z (k + j - i)) by (change (inject_Z (-1)) with (-1); lra).
  rewrite <- Zlt_Qlt in A, B. assert (Z0 : (k + j - i = 0)%Z) by lia. rewrite Z0 in D. change (inject_Z 0) with 0 in D. lra.
Qed.
#[local] Instance nearestQ_proper : Proper (Qeq ==> eq) nearestQ.
Proof.
  intros x y E. symmetry. apply rounds_iff. assert (H : rounds x (nearestQ x)) by (apply rounds_iff; reflexivity).
  unfold rounds in *. rewrite <- E. exact H.
Qed.
Lemma nearestQ_nonneg x : 0 <= x -> nearestQ x = Qfloor (x + (1 # 2)).
Proof.
  intros P. unfold nearestQ. destruct (Qlt_bool x 0) eqn:E; [apply Qlt_bool_true in E; lra|]. apply q_trunc_floor. lra.
Qed.
Lemma cardinal_near b : exists w, bearing2cardinal b = Ok w /\ turn_near (- b) (azimuth w) (45 # 4).
Proof.
  unfold bearing2cardinal. destruct (q_mod_spec b) as (k & E & L & U). set (m := q_mod (b + 360) 360) in *.
  assert (I : nearestQ (2 * m / 45) = nearestQ (m * (2 # 45))) by (apply nearestQ_proper; field). cbv zeta. rewrite I. rewrite nearestQ_nonneg by lra.
  pose proof (Qfloor_le (m * (2 # 45) + (1 # 2))) as F1. pose proof (Qlt_floor (m * (2 # 45) + (1 # 2))) as F2.
  set (i := Qfloor (m * (2 # 45) + (1 # 2))) in *. rewrite inject_Z_plus in F2. change (inject_Z 1) with 1 in F2.
  assert (R0 : (-1 < i)%Z) by (rewrite Zlt_Qlt; change (inject_Z (-1)) with (-1); lra).
  assert (R1 : (i < 17)%Z) by (rewrite Zlt_Qlt; change (inject_Z 17) with 17; lra).
  clearbody i m.
  assert (C : (i = 0 \/ i = 1 \/ i = 2 \/ i = 3 \/ i = 4 \/ i = 5 \/ i = 6 \/ i = 7 \/ i = 8 \/ i = 9 \/ i = 10 \/ i = 11 \/ i = 12 \/ i = 13 \/ i = 14 \/ i = 15 \/ i = 16)%Z) by lia.
  unfold turn_near.
  destruct C as [C|C]; [subst i; eexists; split; [reflexivity|]; exists (- k)%Z; rewrite inject_Z_opp; cbn [azimuth]; change (inject_Z 0) with 0 in *; split; lra|].
  assert (K : inject_Z (1 - k) == 1 - inject_Z k) by (unfold Z.sub; rewrite inject_Z_plus, inject_Z_opp; reflexivity).
  repeat (destruct C as [C|C]; [subst i; eexists; split; [reflexivity|]; exists (1 - k)%Z; rewrite K; cbn [azimuth];
    match type of F1 with inject_Z ?z <= _ => change (inject_Z z) with (z # 1) in * end; split; lra|]).
  subst i; eexists; split; [reflexivity|]; exists (1 - k)%Z; rewrite K; cbn [azimuth]. change (inject_Z 16) with 16 in *. split; lra.
Qed.
Lemma cardinal_turn b k : bearing2cardinal (b + inject_Z k * 360) = bearing2cardinal b.
Proof.
  unfold bearing2cardinal. cbv zeta. do 2 f_equal. apply nearestQ_proper. rewrite q_mod_turn. reflexivity.
Qed.
Lemma hours_spec b : 0 < bearing2hours b /\ bearing2hours b <= 12 /\ exists k, 30 * bearing2hours b == - b + inject_Z k * 360.
Proof.
  unfold bearing2hours. destruct (q_mod_spec b) as (k & E & L & U). cbv zeta. set (m := q_mod (b + 360) 360) in *.
  assert (I : m / 30 == m * (1 # 30)) by field. rewrite I. split; [lra|]. split; [lra|]. exists (1 - k)%Z.
  unfold Z.sub. rewrite inject_Z_plus, inject_Z_opp. change (inject_Z 1) with 1. lra.
Qed.
Lemma hours_turn b k : bearing2hours (b + inject_Z k * 360) == bearing2hours b.
Proof. unfold bearing2hours. cbv zeta. rewrite q_mod_turn. reflexivity. Qed.
End Compass.
