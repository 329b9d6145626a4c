(** Scan conversion with doubles: rows and filled polygons. *)
From Coq Require Import ZArith QArith Reals Qreals Lia Lra List ZifyBool SpecFloat Permutation.
From Flocq Require Import Core IEEE754.BinarySingleNaN.
From Verif Require Import Num FloatLib PfModel StrModel RoundProofs RasterModel RasterSpec RasterScan RasterApi ScanFloatSpec ScanFloat.
Import ListNotations.
Open Scope Z_scope.

Definition cross64 (y : Z) (e : (Z * Z) * (Z * Z)) : list mark :=
  let '((x0, y0), (x1, y1)) := e in
  if crosses true y e then [(mark64 x0 y0 x1 y1 y, true)] else if crosses false y e then [(mark64 x1 y1 x0 y0 y, false)] else [].
Lemma scan_down64 x0 y0 x1 y1 down scans : 0 <= y0 -> y0 < y1 <= Z.of_nat (length scans) ->
  exists s', (if x0 =? x1 then scan_vertical (Z.to_nat (y1 - y0)) y0 x0 down scans
     else scan_rows (Z.to_nat (y1 - y0)) y0 (nofZ x0 : f64)
            (ndiv (nofZ (if x0 <? x1 then 1 else -1)) (nabs (ndiv (nofZ (y1 - y0)) (nofZ (x1 - x0))))) down scans) = (s', Ok tt) /\
    length s' = length scans /\
    forall r, 0 <= r -> row s' r = if (y0 <=? r) && (r <? y1) then heappush (mark64 x0 y0 x1 y1 r, down) (row scans r) else row scans r.
Proof.
  intros P Y. unfold mark64. destruct (Z.eqb_spec x0 x1) as [->|N].
  - destruct (scan_vertical_in (Z.to_nat (y1 - y0)) y0 x1 down scans ltac:(lia) ltac:(lia)) as (s' & E & L' & R').
    exists s'. split; [exact E|]. split; [exact L'|]. intros r Pr. rewrite (R' r Pr). rewrite Z2Nat.id by lia.
    replace (y0 + (y1 - y0)) with y1 by lia. reflexivity.
  - match goal with |- context [scan_rows ?n ?y ?x ?st ?d ?s] =>
      destruct (scan_rows_in n y x st d s ltac:(lia) ltac:(lia)) as (s' & E & L' & R') end.
    exists s'. split; [exact E|]. split; [exact L'|]. intros r Pr. rewrite (R' r Pr). rewrite Z2Nat.id by lia.
    replace (y0 + (y1 - y0)) with y1 by lia. reflexivity.
Qed.
Lemma scan_edge64 e scans : below (Z.of_nat (length scans)) (fst e) -> below (Z.of_nat (length scans)) (snd e) ->
  exists s', scan_edge (T := f64) e scans = (s', Ok tt) /\ length s' = length scans /\
    forall r, 0 <= r -> row s' r = push_all (cross64 r e) (row scans r).
Proof.
  destruct e as [[x0 y0] [x1 y1]]. unfold below. cbn [fst snd]. intros [A1 A2] [B1 B2]. unfold scan_edge.
  destruct (Z.eqb_spec y0 y1) as [->|N].
  - exists scans. split; [reflexivity|]. split; [reflexivity|]. intros r Pr. unfold cross64, crosses.
    replace ((y1 <=? r) && (r <? y1)) with false by lia. reflexivity.
  - destruct (Z.ltb_spec y0 y1) as [C|C].
    + destruct (scan_down64 x0 y0 x1 y1 true scans A1 ltac:(lia)) as (s' & E & L' & R').
      exists s'. split; [exact E|]. split; [exact L'|]. intros r Pr. rewrite (R' r Pr). unfold cross64, crosses.
      destruct ((y0 <=? r) && (r <? y1)) eqn:K; [reflexivity|]. replace ((y1 <=? r) && (r <? y0)) with false by lia. reflexivity.
    + destruct (scan_down64 x1 y1 x0 y0 false scans B1 ltac:(lia)) as (s' & E & L' & R').
      exists s'. split; [exact E|]. split; [exact L'|]. intros r Pr. rewrite (R' r Pr). unfold cross64, crosses.
      replace ((y0 <=? r) && (r <? y1)) with false by lia. destruct ((y1 <=? r) && (r <? y0)) eqn:K; reflexivity.
Qed.
Lemma scan_edges64 es : forall scans, Forall (fun e => below (Z.of_nat (length scans)) (fst e) /\ below (Z.of_nat (length scans)) (snd e)) es ->
  exists s', scan_edges (T := f64) es scans = (s', Ok tt) /\ length s' = length scans /\
    forall r, 0 <= r -> row s' r = push_all (concat (map (cross64 r) es)) (row scans r).
Proof.
  induction es as [|e es IH]; intros scans F.
  - exists scans. split; [reflexivity|]. split; reflexivity.
  - destruct (Forall_inv F) as [B1 B2]. apply Forall_inv_tail in F.
    destruct (scan_edge64 e scans B1 B2) as (s1 & E1 & L1 & R1). cbn [scan_edges]. rewrite E1.
    destruct (IH s1 ltac:(rewrite L1; exact F)) as (s' & E' & L' & R'). exists s'. split; [exact E'|]. split; [lia|].
    intros r Pr. rewrite (R' r Pr), (R1 r Pr). cbn [map concat]. rewrite push_all_app. reflexivity.
Qed.
Definition marks64 (points : list (Z * Z)) (y : Z) : list mark := concat (map (cross64 y) (sides points)).
Lemma scan64 height points : 0 <= height -> Forall (below height) points ->
  exists s', scanpolygon (T := f64) height points None = (s', Ok tt) /\ Z.of_nat (length s') = height /\
    forall y, 0 <= y -> Permutation (row s' y) (marks64 points y) /\ sorted (row s' y).
Proof.
  intros P F. unfold scanpolygon. rewrite edges_sides. pose proof (sides_forall _ _ F) as FS.
  assert (L0 : Z.of_nat (length (repeat ([] : list mark) (Z.to_nat height))) = height) by (rewrite repeat_length; lia).
  destruct (scan_edges64 (sides points) (repeat [] (Z.to_nat height))) as (s' & E & L' & R').
  { rewrite L0. exact FS. }
  exists s'. split; [exact E|]. split; [lia|]. intros y Py. rewrite (R' y Py), row_empty. fold (marks64 points y). split.
  - rewrite push_all_perm, app_nil_r. reflexivity.
  - apply push_all_sorted. constructor.
Qed.
Lemma cross64_near h y e : h <= 2 ^ 20 -> moderate h (fst e) -> moderate h (snd e) ->
  Forall2 (near_mark y) (filter (fun e => crosses true y e || crosses false y e) [e]) (cross64 y e) /\
  (0 <= fst (fst e) -> 0 <= fst (snd e) -> Forall (fun m : mark => 0 <= fst m) (cross64 y e)).
Proof.
  destruct e as [[x0 y0] [x1 y1]]. cbn [fst snd]. intros H M0 M1. cbn [filter]. unfold cross64.
  destruct (crosses true y (x0, y0, (x1, y1))) eqn:C; cbn [orb].
  - cbn [crosses] in C. destruct (mark64_ok h x0 y0 x1 y1 y H M0 M1 ltac:(lia)) as [E N]. split; [|intros; repeat constructor; cbn; auto].
    constructor; [|constructor]. split; [cbn [crosses snd]; exact C|]. cbn [fst snd]. split; [exact E|]. intros ->. unfold mark64. rewrite Z.eqb_refl. reflexivity.
  - destruct (crosses false y (x0, y0, (x1, y1))) eqn:D; [|split; [constructor|intros; constructor]].
    cbn [crosses] in D. destruct (mark64_ok h x1 y1 x0 y0 y H M1 M0 ltac:(lia)) as [E N]. split; [|intros; repeat constructor; cbn; auto].
    constructor; [|constructor]. split; [cbn [crosses snd]; exact D|]. cbn [fst snd].
    split; [|intros ->; unfold mark64; rewrite Z.eqb_refl; reflexivity].
    rewrite (Qeq_eqR _ _ (meets_swap (x0, y0) (x1, y1) y ltac:(cbn; lia))). exact E.
Qed.
Lemma marks64_near h points y : h <= 2 ^ 20 -> Forall (moderate h) points -> Forall2 (near_mark y) (crossers points y) (marks64 points y) /\
  (Forall (fun p => 0 <= fst p) points -> Forall (fun m : mark => 0 <= fst m) (marks64 points y)).
Proof.
  intros H F. split.
  - pose proof (sides_forall _ _ F) as FS. unfold crossers, marks64. induction FS as [|e es [M0 M1] FS IH]; [constructor|].
    cbn [map concat]. change (e :: es) with ([e] ++ es). rewrite filter_app. apply Forall2_app; [apply (proj1 (cross64_near h y e H M0 M1))|exact IH].
  - intros X. pose proof (sides_forall _ _ F) as FS. pose proof (sides_forall _ _ X) as XS. unfold marks64. induction FS as [|e es [M0 M1] FS IH]; [constructor|].
    cbn [map concat]. apply Forall_app. destruct (Forall_inv XS) as [X0 X1]. split; [apply (proj2 (cross64_near h y e H M0 M1)); assumption|apply IH, (Forall_inv_tail XS)].
Qed.
Lemma moderate_below h points : Forall (moderate h) points -> Forall (below h) points.
Proof. apply Forall_impl. intros p [_ H]. exact H. Qed.
Lemma rows64 height points : 0 <= height <= 2 ^ 20 -> Forall (moderate height) points ->
  exists s', scanpolygon (T := f64) height points None = (s', Ok tt) /\ Z.of_nat (length s') = height /\
    forall y, 0 <= y -> sorted (row s' y) /\ exists ms, Permutation (row s' y) ms /\ Forall2 (near_mark y) (crossers points y) ms.
Proof.
  intros H F. destruct (scan64 height points ltac:(lia) (moderate_below _ _ F)) as (s' & E & L & R). exists s'. split; [exact E|]. split; [exact L|].
  intros y Py. destruct (R y Py) as [Pm S]. split; [exact S|]. exists (marks64 points y). split; [exact Pm|]. apply (marks64_near height); [lia|exact F].
Qed.
(** Marks away from the middle are those of exact arithmetic *)
Lemma near_exact y e m : near_mark y e m -> off_middle (Q2R (meets e y)) -> fst m = q_round (meets e y).
Proof.
  intros (_ & N & _) O. set (x := meets e y) in *. pose proof (q_round_bounds x) as [B1 B2]. apply Qle_Rle in B1, B2.
  rewrite Q2R_minus in B1. rewrite Q2R_plus in B2. assert (J : forall z, Q2R (inject_Z z) = IZR z) by (intros z; unfold Q2R; cbn; lra).
  rewrite J in B1, B2. replace (Q2R (1 # 2)) with (/ 2)%R in B1, B2 by (unfold Q2R; cbn; lra).
  set (q := q_round x) in *. apply Rabs_le_inv in N. change (IZR (2 ^ 10)) with 1024%R in N.
  pose proof (O q) as O1. pose proof (O (q - 1)) as O2. rewrite minus_IZR in O2. change (IZR (2 ^ 10)) with 1024%R in O1, O2.
  assert (U : (Q2R x < IZR q + / 2 - / 1024)%R).
  { revert O1. unfold Rabs. destruct (Rcase_abs (Q2R x - (IZR q + / 2))); intros; lra. }
  assert (V : (IZR q - / 2 + / 1024 < Q2R x)%R).
  { revert O2. unfold Rabs. destruct (Rcase_abs (Q2R x - (IZR q - 1 + / 2))); intros; lra. }
  assert (W1 : (IZR (fst m) < IZR (q + 1))%R) by (rewrite plus_IZR; lra). assert (W2 : (IZR (q - 1) < IZR (fst m))%R) by (rewrite minus_IZR; lra).
  apply lt_IZR in W1, W2. lia.
Qed.
Lemma exact_marks points y ms : Forall2 (near_mark y) (crossers points y) ms -> Forall (fun e => off_middle (Q2R (meets e y))) (crossers points y) ->
  ms = row_marks points y.
Proof.
  unfold crossers, row_marks. revert ms. induction (sides points) as [|e es IH]; intros ms F O; cbn [filter] in F, O.
  - inversion F. reflexivity.
  - cbn [map concat]. unfold crossing at 1.
    assert (X : crosses true y e = true -> crosses false y e = false) by (destruct e as [[x0 y0] [x1 y1]]; cbn; lia).
    destruct (crosses true y e) eqn:C; cbn [orb] in F, O.
    + inversion F as [|? m ? ms' Nm Fm]; subst. pose proof (near_exact _ _ _ Nm (Forall_inv O)) as Q. destruct m as [mx md]. cbn [fst] in Q. subst mx.
      destruct Nm as [Nm _]. cbn [snd] in Nm. destruct md; [|rewrite (X eq_refl) in Nm; discriminate]. cbn [app]. f_equal. apply IH; [exact Fm|exact (Forall_inv_tail O)].
    + destruct (crosses false y e) eqn:D.
      * inversion F as [|? m ? ms' Nm Fm]; subst. pose proof (near_exact _ _ _ Nm (Forall_inv O)) as Q. destruct m as [mx md]. cbn [fst] in Q. subst mx.
        destruct Nm as [Nm _]. cbn [snd] in Nm. destruct md; [rewrite C in Nm; discriminate|]. cbn [app]. f_equal. apply IH; [exact Fm|exact (Forall_inv_tail O)].
      * cbn [app]. apply IH; assumption.
Qed.
(** Filled polygons *)
Lemma filled64_ok {C V R} (set : C -> Z * Z -> V -> res C) (get : C -> Z * Z -> res R) (ok : C -> Prop) w h (v : V) (r : R) c points :
  (forall c p, ok c -> in_canvas w h p -> exists c', set c p v = Ok c' /\ ok c' /\ get c' p = Ok r /\
    forall q, in_canvas w h q -> q <> p -> get c' q = get c q) ->
  ok c -> 0 <= h <= 2 ^ 20 -> Forall (fun p => 0 <= fst p /\ moderate h p) points ->
  exists c' marks, filled64 set w h points v c = Ok c' /\ ok c' /\ (forall y, Forall2 (near_mark y) (crossers points y) (marks y)) /\
    forall q, in_canvas w h q -> (painted w (marks (snd q)) (fst q) -> get c' q = Ok r) /\
                                (~ painted w (marks (snd q)) (fst q) -> get c' q = get c q).
Proof.
  intros SO K P F. assert (Fm : Forall (moderate h) points) by (eapply Forall_impl; [|exact F]; intros ? [_ ?]; assumption).
  assert (Fx : Forall (fun p => 0 <= fst p) points) by (eapply Forall_impl; [|exact F]; intros ? [? _]; assumption).
  unfold filled64. destruct (scan64 h points ltac:(lia) (moderate_below _ _ Fm)) as (s' & E & L & Rm). rewrite E.
  assert (N : forall n, (n < length s')%nat -> nth n s' [] = row s' (Z.of_nat n)) by (intros n _; unfold row; rewrite Nat2Z.id; reflexivity).
  assert (S : Forall sorted s').
  { apply Forall_forall. intros l Il. apply In_nth with (d := []) in Il. destruct Il as (n & Ln & <-). rewrite N by exact Ln. apply Rm. lia. }
  assert (CL : clear_left s').
  { apply Forall_forall. intros l Il. apply In_nth with (d := []) in Il. destruct Il as (n & Ln & <-). rewrite N by exact Ln.
    apply Forall_forall. intros m Im. destruct (Rm (Z.of_nat n) ltac:(lia)) as [Pm _]. apply (Permutation_in _ Pm) in Im.
    pose proof (proj2 (marks64_near h points (Z.of_nat n) ltac:(lia) Fm) Fx) as G. rewrite Forall_forall in G. apply G, Im. }
  destruct (fill_canvas set get ok w h v r c s' SO K S CL ltac:(lia)) as (ps & left & c' & Ef & Ep & K' & G). rewrite Ef, Ep. cbn [bind].
  exists c', (marks64 points). split; [reflexivity|]. split; [exact K'|]. split; [intros y; apply (marks64_near h); [lia|exact Fm]|].
  intros q Iq. destruct (G q Iq) as [G1 G2].
  assert (Py : 0 <= snd q) by (unfold in_canvas in Iq; lia). pose proof (painted_perm w _ _ (fst q) (proj1 (Rm (snd q) Py))) as Pq.
  split; intros Q; [apply G1, Pq, Q|apply G2; intros Q'; apply Q, Pq, Q'].
Qed.
Lemma fill64_bw w h c points v : bw_ok w h c -> 0 <= h <= 2 ^ 20 -> Forall (fun p => 0 <= fst p /\ moderate h p) points ->
  exists c' marks, filled64 bw_set w h points v c = Ok c' /\ bw_ok w h c' /\ (forall y, Forall2 (near_mark y) (crossers points y) (marks y)) /\
    forall q, in_canvas w h q -> (painted w (marks (snd q)) (fst q) -> bw_get c' q = Ok v) /\
                                (~ painted w (marks (snd q)) (fst q) -> bw_get c' q = bw_get c q).
Proof. intros K P F. apply filled64_ok; [|exact K|exact P|exact F]. intros c0 p K0 Ip. apply (bw_get_set w h c0 p v K0 Ip). Qed.
Lemma fill64_gray w h c points v : g_ok w h c -> 0 <= h <= 2 ^ 20 -> is_byte v -> Forall (fun p => 0 <= fst p /\ moderate h p) points ->
  exists c' marks, filled64 (g_set (T := f64)) w h points (GInt v) c = Ok c' /\ g_ok w h c' /\ (forall y, Forall2 (near_mark y) (crossers points y) (marks y)) /\
    forall q, in_canvas w h q -> (painted w (marks (snd q)) (fst q) -> g_get c' q = Ok v) /\
                                (~ painted w (marks (snd q)) (fst q) -> g_get c' q = g_get c q).
Proof. intros K P B F. apply filled64_ok; [|exact K|exact P|exact F]. intros c0 p K0 Ip. apply (g_get_set w h c0 p v K0 Ip B). Qed.
Lemma fill64_color w h c points r g b : c_ok w h c -> 0 <= h <= 2 ^ 20 -> is_byte r -> is_byte g -> is_byte b -> Forall (fun p => 0 <= fst p /\ moderate h p) points ->
  exists c' marks, filled64 (c_set (T := f64)) w h points ([r; g; b], None) c = Ok c' /\ c_ok w h c' /\ (forall y, Forall2 (near_mark y) (crossers points y) (marks y)) /\
    forall q, in_canvas w h q -> (painted w (marks (snd q)) (fst q) -> c_get c' q = Ok (r, g, b)) /\
                                (~ painted w (marks (snd q)) (fst q) -> c_get c' q = c_get c q).
Proof. intros K P Br Bg Bb F. apply filled64_ok; [|exact K|exact P|exact F]. intros c0 p K0 Ip. apply (c_get_set w h c0 p r g b K0 Ip Br Bg Bb). Qed.
