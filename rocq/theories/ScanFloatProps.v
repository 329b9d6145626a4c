(** Scan conversion and filled polygons with doubles (coral/raster.py). *)
From Coq Require Import ZArith QArith Reals Qreals Lia Lra List SpecFloat Permutation.
From Verif Require Import Num PfModel StrModel RasterModel RasterSpec ScanFloatSpec ScanFloat ScanFloatApi.
Import ListNotations.
Open Scope Z_scope.

(** C129 *)
(** Every row gets one mark for each side that crosses it, sorted; the sum of
    up to 2^20 rounded steps is at most 2^-10 off. *)
Theorem C129_marks : forall height points, 0 <= height <= 2 ^ 20 -> Forall (moderate height) points ->
  exists s', scanpolygon (T := f64) height points None = (s', Ok tt) /\ Z.of_nat (length s') = height /\
    forall y, 0 <= y -> sorted (row s' y) /\ exists ms, Permutation (row s' y) ms /\ Forall2 (near_mark y) (crossers points y) ms.
Proof. exact rows64. Qed.
(** Marks of that kind are those of exact arithmetic unless a side crosses the
    row within 2^-10 of the middle between two pixels; there C47_double_drift_refuted
    shows a different mark. *)
Theorem C129_exact : forall points y ms, Forall2 (near_mark y) (crossers points y) ms ->
  Forall (fun e => off_middle (Q2R (meets e y))) (crossers points y) -> ms = row_marks points y.
Proof. exact exact_marks. Qed.
(** The filled polygon is the one between such marks. *)
Theorem C129_fill_bw : forall w h c points v, bw_ok w h c -> 0 <= h <= 2 ^ 20 -> Forall (fun p => 0 <= fst p /\ moderate h p) points ->
  exists c' marks, filled64 bw_set w h points v c = Ok c' /\ bw_ok w h c' /\ (forall y, Forall2 (near_mark y) (crossers points y) (marks y)) /\
    forall q, in_canvas w h q -> (painted w (marks (snd q)) (fst q) -> bw_get c' q = Ok v) /\
                                (~ painted w (marks (snd q)) (fst q) -> bw_get c' q = bw_get c q).
Proof. exact fill64_bw. Qed.
Theorem C129_fill_gray : forall w h c points v, g_ok w h c -> 0 <= h <= 2 ^ 20 -> is_byte v -> Forall (fun p => 0 <= fst p /\ moderate h p) points ->
  exists c' marks, filled64 (g_set (T := f64)) w h points (GInt v) c = Ok c' /\ g_ok w h c' /\ (forall y, Forall2 (near_mark y) (crossers points y) (marks y)) /\
    forall q, in_canvas w h q -> (painted w (marks (snd q)) (fst q) -> g_get c' q = Ok v) /\
                                (~ painted w (marks (snd q)) (fst q) -> g_get c' q = g_get c q).
Proof. exact fill64_gray. Qed.
Theorem C129_fill_colour : forall w h c points r g b, c_ok w h c -> 0 <= h <= 2 ^ 20 -> is_byte r -> is_byte g -> is_byte b ->
  Forall (fun p => 0 <= fst p /\ moderate h p) points ->
  exists c' marks, filled64 (c_set (T := f64)) w h points ([r; g; b], None) c = Ok c' /\ c_ok w h c' /\ (forall y, Forall2 (near_mark y) (crossers points y) (marks y)) /\
    forall q, in_canvas w h q -> (painted w (marks (snd q)) (fst q) -> c_get c' q = Ok (r, g, b)) /\
                                (~ painted w (marks (snd q)) (fst q) -> c_get c' q = c_get c q).
Proof. exact fill64_color. Qed.
(** A slanted triangle: its row 1 is crossed at 7/3 and 2/9, away from the middles. *)
Definition slanted : list (Z * Z) := [(0, 0); (7, 3); (2, 9)].
Example C129_case : Forall (fun p => 0 <= fst p /\ moderate 10 p) slanted /\
  crossers slanted 1 = [((0, 0), (7, 3)); ((2, 9), (0, 0))] /\ Forall (fun e => off_middle (Q2R (meets e 1))) (crossers slanted 1) /\
  row (fst (scanpolygon (T := f64) 10 slanted None)) 1 = [(0, false); (2, true)] /\
  exists c0 c', g_new 8 10 0 = Ok c0 /\ g_ok 8 10 c0 /\ filled64 (g_set (T := f64)) 8 10 slanted (GInt 200) c0 = Ok c' /\ g_get c' (1, 1) = Ok 200 /\ g_get c' (2, 1) = Ok 0.
Proof.
  split; [repeat (apply Forall_cons; [unfold moderate; cbn [fst snd]; lia|]); apply Forall_nil|].
  split; [reflexivity|]. split.
  - change (crossers slanted 1) with [((0, 0), (7, 3)); ((2, 9), (0, 0))]. apply Forall_cons; [|apply Forall_cons; [|apply Forall_nil]].
    + intros n. replace (Q2R (meets ((0, 0), (7, 3)) 1)) with (7 / 3)%R by (unfold Q2R; cbn; lra). change (IZR (2 ^ 10)) with 1024%R.
      destruct (Z_le_gt_dec n 1) as [L|L]; [apply IZR_le in L; rewrite Rabs_pos_eq; lra|assert (2 <= IZR n)%R by (apply IZR_le; lia); rewrite Rabs_left1; lra].
    + intros n. replace (Q2R (meets ((2, 9), (0, 0)) 1)) with (2 / 9)%R by (unfold Q2R; cbn; lra). change (IZR (2 ^ 10)) with 1024%R.
      destruct (Z_le_gt_dec n (-1)) as [L|L]; [apply IZR_le in L; rewrite Rabs_pos_eq; lra|assert (0 <= IZR n)%R by (apply IZR_le; lia); rewrite Rabs_left1; lra].
  - split; [vm_compute; reflexivity|]. do 2 eexists. split; [vm_compute; reflexivity|]. split.
    + split; [reflexivity|]. split; [reflexivity|]. split; [reflexivity|]. cbn [g_data]. repeat (apply Forall_cons; [unfold is_byte; lia|]). apply Forall_nil.
    + split; [vm_compute; reflexivity|]. split; vm_compute; reflexivity.
Qed.

Print Assumptions C129_marks.
Print Assumptions C129_exact.
Print Assumptions C129_fill_bw.
Print Assumptions C129_fill_gray.
Print Assumptions C129_fill_colour.
