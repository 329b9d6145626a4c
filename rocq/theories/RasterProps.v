(** Raster drawing: theorems. *)
From Coq Require Import QArith Sorted Permutation.
From Verif Require Import Num PfModel StrModel RasterModel RasterSpec RasterCanvas RasterFill RasterScan RasterApi RasterMore RasterGlue.
Open Scope Z_scope.

(** C43 *)
Theorem C43_write_read : forall w h c p v, bw_ok w h c -> in_canvas w h p ->
  exists c', bw_set c p v = Ok c' /\ bw_ok w h c' /\ bw_get c' p = Ok v /\
    forall q, in_canvas w h q -> q <> p -> bw_get c' q = bw_get c q.
Proof. exact bw_get_set. Qed.
Theorem C43_new : forall w h bg, 0 <= w -> 0 <= h -> is_byte bg -> exists c, bw_new w h bg = Ok c /\ bw_ok w h c /\
  forall p, in_canvas w h p -> bw_get c p = Ok (Z.testbit bg (7 - fst p mod 8)).
Proof. exact api_bw_new. Qed.
Theorem C43_background : forall w h, 0 <= w -> 0 <= h ->
  (exists c, bw_new w h 0 = Ok c /\ forall p, in_canvas w h p -> bw_get c p = Ok false) /\
  (exists c, bw_new w h 255 = Ok c /\ forall p, in_canvas w h p -> bw_get c p = Ok true) /\
  (exists c, bw_new w h 1 = Ok c /\ forall p, in_canvas w h p -> bw_get c p = Ok (fst p mod 8 =? 7)).
Proof. exact api_bw_background. Qed.
Example C43_case : exists c c', bw_new 11 3 1 = Ok c /\ bw_ok 11 3 c /\ in_canvas 11 3 (10, 2) /\
  bw_set c (10, 2) true = Ok c' /\ map (fun x => bw_get c' (x, 2)) [7; 8; 9; 10] = [Ok true; Ok false; Ok false; Ok true] /\
  bw_get c' (10, 1) = Ok false.
Proof.
  eexists _, _. split; [vm_compute; reflexivity|]. split; [split; [reflexivity|]; split; [reflexivity|]; split; [reflexivity|]; split; [reflexivity|];
    repeat (apply Forall_cons; [split; vm_compute; congruence|]); apply Forall_nil|].
  split; [split; split; vm_compute; congruence|]. split; [vm_compute; reflexivity|]. split; vm_compute; reflexivity.
Qed.

(** C44 *)
Theorem C44_gray : forall w h c p v, g_ok w h c -> in_canvas w h p -> is_byte v ->
  exists c', g_set c p (GInt (T := Q) v) = Ok c' /\ g_ok w h c' /\ g_get c' p = Ok v /\
    forall q, in_canvas w h q -> q <> p -> g_get c' q = g_get c q.
Proof. exact g_get_set. Qed.
Theorem C44_gray_new : forall w h bg, 0 <= w -> 0 <= h -> is_byte bg -> exists c, g_new w h bg = Ok c /\ g_ok w h c /\
  forall p, in_canvas w h p -> g_get c p = Ok bg.
Proof. exact g_new_ok. Qed.
Theorem C44_colour : forall w h c p r g b, c_ok w h c -> in_canvas w h p -> is_byte r -> is_byte g -> is_byte b ->
  exists c', c_set c p ([r; g; b], None (A := Q)) = Ok c' /\ c_ok w h c' /\ c_get c' p = Ok (r, g, b) /\
    forall q, in_canvas w h q -> q <> p -> c_get c' q = c_get c q.
Proof. exact c_get_set. Qed.
Theorem C44_colour_new : forall w h r g b, 0 <= w -> 0 <= h -> is_byte r -> is_byte g -> is_byte b ->
  exists c, c_new w h [r; g; b] = Ok c /\ c_ok w h c /\ forall p, in_canvas w h p -> c_get c p = Ok (r, g, b).
Proof. exact c_new_ok. Qed.
Theorem C44_colour_grows : forall w h c p r g b, c_ok w h c -> w * h <= snd p * w + fst p -> is_byte r -> is_byte g -> is_byte b ->
  exists c', c_set c p ([r; g; b], None (A := Q)) = Ok c' /\ c_data c' = c_data c ++ [r; g; b] /\
    (forall q, in_canvas w h q -> c_get c' q = c_get c q).
Proof. exact c_set_out. Qed.
(** A short colour tuple shrinks the buffer and moves every later pixel. *)
Theorem C44_colour_short_refuted : exists c c', c_new 2 2 [9; 9; 9] = Ok c /\ c_ok 2 2 c /\
  c_set c (0, 0) ([7], None (A := Q)) = Ok c' /\ length (c_data c') = 10%nat /\ c_get c' (1, 1) = Err ValueError.
Proof.
  eexists _, _. split; [vm_compute; reflexivity|]. split; [split; [reflexivity|]; split; [reflexivity|]; split; [reflexivity|];
    repeat (apply Forall_cons; [split; vm_compute; congruence|]); apply Forall_nil|].
  split; [vm_compute; reflexivity|]. split; vm_compute; reflexivity.
Qed.
(** x == width is the first pixel of the next row. *)
Theorem C44_gray_wraps_refuted : exists c c', g_new 3 2 0 = Ok c /\ ~ in_canvas 3 2 (3, 0) /\
  g_set c (3, 0) (GInt (T := Q) 8) = Ok c' /\ g_get c' (0, 1) = Ok 8 /\ g_get c (0, 1) = Ok 0.
Proof.
  eexists _, _. split; [vm_compute; reflexivity|]. split; [intros [[_ C] _]; vm_compute in C; discriminate|].
  split; [vm_compute; reflexivity|]. split; vm_compute; reflexivity.
Qed.
Example C44_case : exists c c' d d', g_new 3 2 7 = Ok c /\ in_canvas 3 2 (2, 1) /\ g_set c (2, 1) (GInt (T := Q) 200) = Ok c' /\
  g_get c' (2, 1) = Ok 200 /\ g_get c' (1, 1) = Ok 7 /\
  c_new 2 2 [1; 2; 3] = Ok d /\ c_set d (0, 2) ([4; 5; 6], None (A := Q)) = Ok d' /\ length (c_data d') = 15%nat /\
  c_get d' (1, 1) = Ok (1, 2, 3).
Proof.
  eexists _, _, _, _. split; [vm_compute; reflexivity|]. split; [split; split; vm_compute; congruence|].
  repeat (split; [vm_compute; reflexivity|]). vm_compute. reflexivity.
Qed.

(** C45 *)
Theorem C45_gray : forall w h c p fg bg (a : Q), g_ok w h c -> in_canvas w h p -> g_get c p = Ok bg -> is_byte fg -> (0 <= a <= 1)%Q ->
  exists c' v, g_set c p (GTup [fg] (Some a)) = Ok c' /\ g_ok w h c' /\ g_get c' p = Ok v /\
    (forall q, in_canvas w h q -> q <> p -> g_get c' q = g_get c q) /\
    Z.min bg fg <= v <= Z.max bg fg /\
    (inject_Z v - (1 # 2) <= inject_Z bg * (1 - a) + inject_Z fg * a < inject_Z v + (1 # 2))%Q.
Proof. exact api_g_blend. Qed.
Theorem C45_colour : forall w h c p r g b r0 g0 b0 (a : Q), c_ok w h c -> in_canvas w h p -> c_get c p = Ok (r0, g0, b0) ->
  is_byte r -> is_byte g -> is_byte b -> (0 <= a <= 1)%Q ->
  exists c' r1 g1 b1, c_set c p ([r; g; b], Some a) = Ok c' /\ c_ok w h c' /\ c_get c' p = Ok (r1, g1, b1) /\
    (forall q, in_canvas w h q -> q <> p -> c_get c' q = c_get c q) /\
    Z.min r0 r <= r1 <= Z.max r0 r /\ Z.min g0 g <= g1 <= Z.max g0 g /\ Z.min b0 b <= b1 <= Z.max b0 b /\
    (inject_Z r1 - (1 # 2) <= inject_Z r0 * (1 - a) + inject_Z r * a < inject_Z r1 + (1 # 2))%Q /\
    (inject_Z g1 - (1 # 2) <= inject_Z g0 * (1 - a) + inject_Z g * a < inject_Z g1 + (1 # 2))%Q /\
    (inject_Z b1 - (1 # 2) <= inject_Z b0 * (1 - a) + inject_Z b * a < inject_Z b1 + (1 # 2))%Q.
Proof. exact api_c_blend. Qed.
Theorem C45_ends : forall w h c p fg bg, g_ok w h c -> in_canvas w h p -> g_get c p = Ok bg -> is_byte fg ->
  (exists c', g_set c p (GTup [fg] (Some 0%Q)) = Ok c' /\ g_get c' p = Ok bg) /\
  (exists c', g_set c p (GTup [fg] (Some 1%Q)) = Ok c' /\ g_get c' p = Ok fg).
Proof. exact api_blend_ends. Qed.
Example C45_case : exists c c', g_new 2 2 100 = Ok c /\ in_canvas 2 2 (1, 0) /\ is_byte 201 /\ (0 <= 1 # 4 <= 1)%Q /\
  g_set c (1, 0) (GTup [201] (Some (1 # 4))) = Ok c' /\ g_get c' (1, 0) = Ok 125.
Proof.
  eexists _, _. split; [vm_compute; reflexivity|]. split; [split; split; vm_compute; congruence|].
  split; [split; vm_compute; congruence|]. split; [split; vm_compute; congruence|]. split; vm_compute; reflexivity.
Qed.

(** C46 *)
Theorem C46_terminates : forall a b, exists fuel px, line fuel a b = Some px /\
  nth_error px 0 = Some a /\ nth_error px (length px - 1) = Some b /\
  Z.of_nat (length px) = Z.max (Z.abs (fst b - fst a)) (Z.abs (snd b - snd a)) + 1.
Proof. exact api_line. Qed.
(** The k-th pixel: k steps along the longer direction, and the shorter one
    within half a pixel, ties rounded towards the start. *)
Theorem C46_pixel : forall fuel a b px k p, line fuel a b = Some px -> nth_error px k = Some p ->
  let dx := Z.abs (fst b - fst a) in let dy := Z.abs (snd b - snd a) in
  let u := Z.abs (fst p - fst a) in let v := Z.abs (snd p - snd a) in
  Z.min (fst a) (fst b) <= fst p <= Z.max (fst a) (fst b) /\
  Z.min (snd a) (snd b) <= snd p <= Z.max (snd a) (snd b) /\
  (dy <= dx -> u = Z.of_nat k /\ (0 < dx -> - dx <= 2 * (v * dx - u * dy) < dx)) /\
  (dx < dy -> v = Z.of_nat k /\ - dy <= 2 * (u * dy - v * dx) < dy).
Proof. exact api_line_pixel. Qed.
Theorem C46_neighbours : forall fuel a b px k p q, line fuel a b = Some px -> nth_error px k = Some p -> nth_error px (S k) = Some q ->
  p <> q /\ Z.abs (fst p - fst q) <= 1 /\ Z.abs (snd p - snd q) <= 1.
Proof. exact api_line_neighbours. Qed.
Theorem C46_drawn : forall w h c a b v, g_ok w h c -> in_canvas w h a -> in_canvas w h b -> is_byte v ->
  exists fuel px c', line fuel a b = Some px /\ paint (g_set (T := Q)) px (GInt v) c = Ok c' /\ g_ok w h c' /\
    forall q, in_canvas w h q -> (In q px -> g_get c' q = Ok v) /\ (~ In q px -> g_get c' q = g_get c q).
Proof. exact api_line_gray. Qed.
(** Outlines are the lines between consecutive vertices, closed. *)
Theorem C46_outline : forall points, exists fuel px, strokepolygon fuel points = Some px /\
  forall q, In q px <-> exists a b f l, In (a, b) (sides points) /\ line f a b = Some l /\ In q l.
Proof. exact api_stroke. Qed.
(** The two directions of travel can paint different pixels. *)
Theorem C46_reverse_refuted : exists a b p q, line 9 a b = Some p /\ line 9 b a = Some q /\ In (1, 0) p /\ ~ In (1, 0) q.
Proof.
  exists (0, 0), (2, 1). eexists _, _. split; [vm_compute; reflexivity|]. split; [vm_compute; reflexivity|]. split; [vm_compute; auto|].
  intros [C|[C|[C|[]]]]; discriminate.
Qed.
Example C46_case : line 9 (5, 1) (0, -2) = Some [(5, 1); (4, 0); (3, 0); (2, -1); (1, -1); (0, -2)] /\
  line 9 (0, 0) (1, 3) = Some [(0, 0); (0, 1); (1, 2); (1, 3)].
Proof. split; vm_compute; reflexivity. Qed.

(** C47 *)
Theorem C47_marks : forall height points, 0 <= height -> Forall (fun p => 0 <= snd p <= height) points ->
  exists s', scanpolygon (T := Q) height points None = (s', Ok tt) /\ Z.of_nat (length s') = height /\
    forall y, 0 <= y -> Permutation (row s' y) (row_marks points y) /\ sorted (row s' y).
Proof. exact api_scan. Qed.
Theorem C47_marks_added : forall height points s, 0 <= height -> Forall (fun p => 0 <= snd p <= height) points ->
  Z.of_nat (length s) = height ->
  exists s', scanpolygon (T := Q) height points (Some s) = (s', Ok tt) /\ Z.of_nat (length s') = height /\
    forall y, 0 <= y -> Permutation (row s' y) (row_marks points y ++ row s y) /\ (sorted (row s y) -> sorted (row s' y)).
Proof. exact api_scan_more. Qed.
(** Doubles included. *)
Theorem C47_balance : forall (T : Type) (N : PyNum T) (R : PyRound T) height points, 0 <= height ->
  Forall (fun p => 0 <= snd p <= height) points ->
  exists s', scanpolygon (T := T) height points None = (s', Ok tt) /\
    forall y, 0 <= y -> length (filter snd (row s' y)) = length (filter (fun m => negb (snd m)) (row s' y)).
Proof. exact @api_balance. Qed.
Theorem C47_too_low : forall (T : Type) (N : PyNum T) (R : PyRound T) height points, 0 <= height ->
  Forall (fun p => 0 <= snd p) points -> Exists (too_low height) (sides points) ->
  exists s', scanpolygon (T := T) height points None = (s', Err IndexError).
Proof. exact @scan_out. Qed.
(** A vertex above the canvas marks the last row. *)
Theorem C47_negative_row_refuted : exists s', scanpolygon (T := Q) 4 [(1, 1); (3, -1); (5, 1)] None = (s', Ok tt) /\
  row s' 3 = [(3, false); (3, true)] /\ row_marks [(1, 1); (3, -1); (5, 1)] 3 = [].
Proof. eexists. split; [vm_compute; reflexivity|]. split; vm_compute; reflexivity. Qed.
(** In double arithmetic a mark can be one pixel off the rounded crossing. *)
Theorem C47_double_drift_refuted : exists s', scanpolygon (T := f64) 18 [(0, 0); (1, 18); (0, 18)] None = (s', Ok tt) /\
  row s' 9 = [(0, false); (1, true)] /\ Permutation (row_marks [(0, 0); (1, 18); (0, 18)] 9) [(0, false); (0, true)].
Proof.
  eexists. split; [vm_compute; reflexivity|]. split; [vm_compute; reflexivity|].
  replace (row_marks [(0, 0); (1, 18); (0, 18)] 9) with [(0, true); (0, false)] by (vm_compute; reflexivity). apply perm_swap.
Qed.
Example C47_case : scanpolygon (T := Q) 3 [(0, 3); (2, 0); (4, 3)] None =
    ([[(2, false); (2, true)]; [(1, false); (3, true)]; [(1, false); (3, true)]], Ok tt) /\
  Forall (fun p => 0 <= snd p <= 3) [(0, 3); (2, 0); (4, 3)] /\ Exists (too_low 2) (sides [(0, 3); (2, 0); (4, 3)]).
Proof.
  split; [vm_compute; reflexivity|]. split; [repeat (apply Forall_cons; [split; vm_compute; congruence|]); apply Forall_nil|].
  apply Exists_cons_hd. split; [discriminate|vm_compute; reflexivity].
Qed.

(** C48 *)
Theorem C48_row : forall width marks, sorted marks ->
  exists xs rest, fill_row width marks = (xs, Ok rest) /\ Forall (fun m => width <= fst m) rest /\
    forall x, In x xs <-> painted width marks x.
Proof. exact fill_row_painted. Qed.
Theorem C48_rows : forall width scans, Forall sorted scans -> forall y,
  exists ps left, fill_rows width y scans = (ps, Ok left) /\ NoDup ps /\ length left = length scans /\ Forall sorted left /\
    Forall (Forall (fun m => width <= fst m)) left /\
    forall p, In p ps <-> y <= snd p < y + Z.of_nat (length scans) /\ painted width (row scans (snd p - y)) (fst p).
Proof. exact fill_rows_painted. Qed.
(** The scans are used up. *)
Theorem C48_second_fill : forall width scans ps left, Forall sorted scans -> fill_rows width 0 scans = (ps, Ok left) ->
  exists left', fill_rows width 0 left = ([], Ok left').
Proof. exact fill_twice. Qed.
Theorem C48_polygon_gray : forall w h c points v, g_ok w h c -> 0 <= h -> is_byte v ->
  Forall (fun p => 0 <= fst p /\ 0 <= snd p <= h) points ->
  exists c', filled (g_set (T := Q)) w h points (GInt v) c = Ok c' /\ g_ok w h c' /\
    forall q, in_canvas w h q -> (painted w (row_marks points (snd q)) (fst q) -> g_get c' q = Ok v) /\
                                (~ painted w (row_marks points (snd q)) (fst q) -> g_get c' q = g_get c q).
Proof. exact api_fill_gray. Qed.
Theorem C48_polygon_bw : forall w h c points v, bw_ok w h c -> 0 <= h ->
  Forall (fun p => 0 <= fst p /\ 0 <= snd p <= h) points ->
  exists c', filled bw_set w h points v c = Ok c' /\ bw_ok w h c' /\
    forall q, in_canvas w h q -> (painted w (row_marks points (snd q)) (fst q) -> bw_get c' q = Ok v) /\
                                (~ painted w (row_marks points (snd q)) (fst q) -> bw_get c' q = bw_get c q).
Proof. exact api_fill_bw. Qed.
Theorem C48_polygon_colour : forall w h c points r g b, c_ok w h c -> 0 <= h -> is_byte r -> is_byte g -> is_byte b ->
  Forall (fun p => 0 <= fst p /\ 0 <= snd p <= h) points ->
  exists c', filled (c_set (T := Q)) w h points ([r; g; b], None) c = Ok c' /\ c_ok w h c' /\
    forall q, in_canvas w h q -> (painted w (row_marks points (snd q)) (fst q) -> c_get c' q = Ok (r, g, b)) /\
                                (~ painted w (row_marks points (snd q)) (fst q) -> c_get c' q = c_get c q).
Proof. exact api_fill_color. Qed.
(** Rectangles, clockwise on screen and anticlockwise. *)
Theorem C48_rectangle : forall w h c x0 y0 x1 y1 v, g_ok w h c -> is_byte v -> 0 <= x0 < x1 -> 0 <= y0 < y1 -> y1 <= h ->
  (exists c', filled (g_set (T := Q)) w h [(x0, y1); (x0, y0); (x1, y0); (x1, y1)] (GInt v) c = Ok c' /\
    forall x y, in_canvas w h (x, y) -> g_get c' (x, y) =
      if (x1 <? w) && ((x0 <=? x) && (x <? x1) && ((y0 <=? y) && (y <? y1))) then Ok v else g_get c (x, y)) /\
  (exists c', filled (g_set (T := Q)) w h [(x0, y0); (x0, y1); (x1, y1); (x1, y0)] (GInt v) c = Ok c' /\
    forall x y, in_canvas w h (x, y) -> g_get c' (x, y) =
      if (x0 <? w) && ((x <? x0) && ((y0 <=? y) && (y <? y1))) then Ok v else g_get c (x, y)).
Proof. exact api_rectangle. Qed.
Theorem C48_triangle : forall w h c p1 p2 p3 v, g_ok w h c -> is_byte v -> 0 <= h ->
  Forall (fun p => 0 <= fst p < w /\ 0 <= snd p <= h) [p1; p2; p3] -> 0 <= turn p1 p2 p3 ->
  exists c', filled (g_set (T := Q)) w h [p1; p2; p3] (GInt v) c = Ok c' /\
    forall y, 0 <= y < h ->
      (snd p1 <= y /\ snd p2 <= y /\ snd p3 <= y \/ y < snd p1 /\ y < snd p2 /\ y < snd p3) /\
        (forall x, 0 <= x < w -> g_get c' (x, y) = g_get c (x, y)) \/
      exists u d, In u (sides [p1; p2; p3]) /\ In d (sides [p1; p2; p3]) /\ crosses false y u = true /\ crosses true y d = true /\
        (meets u y <= meets d y)%Q /\
        forall x, 0 <= x < w -> g_get c' (x, y) =
          if (q_round (meets u y) <=? x) && (x <? q_round (meets d y)) then Ok v else g_get c (x, y).
Proof. exact api_triangle. Qed.
(** A mark left of the canvas paints pixels of the row above. *)
Theorem C48_left_overflow_refuted : exists c c', g_new 4 2 0 = Ok c /\
  filled (g_set (T := Q)) 4 2 [(-1, 2); (-1, 1); (2, 1); (2, 2)] (GInt 5) c = Ok c' /\ g_get c' (3, 0) = Ok 5.
Proof. eexists _, _. split; [vm_compute; reflexivity|]. split; vm_compute; reflexivity. Qed.
Example C48_case : exists c c' c2, g_new 6 4 0 = Ok c /\
  filled (g_set (T := Q)) 6 4 [(0, 4); (2, 0); (5, 4)] (GInt 5) c = Ok c' /\
  g_data c' = [0; 0; 0; 0; 0; 0;  0; 0; 5; 0; 0; 0;  0; 5; 5; 5; 0; 0;  5; 5; 5; 5; 0; 0] /\
  0 <= turn (0, 4) (2, 0) (5, 4) /\
  filled (g_set (T := Q)) 6 4 [(2, 1); (2, 3); (4, 3); (4, 1)] (GInt 5) c = Ok c2 /\
  g_data c2 = [0; 0; 0; 0; 0; 0;  5; 5; 0; 0; 0; 0;  5; 5; 0; 0; 0; 0;  0; 0; 0; 0; 0; 0].
Proof.
  eexists _, _, _. split; [vm_compute; reflexivity|]. split; [vm_compute; reflexivity|]. split; [vm_compute; reflexivity|].
  split; [vm_compute; congruence|]. split; vm_compute; reflexivity.
Qed.

(** C80 *)
Theorem C80_pgm : forall w h c, g_ok w h c ->
  exists head, g_save c = head ++ g_data c /\ head = [80; 53; 10] ++ str_int w ++ [32] ++ str_int h ++ [10; 50; 53; 53; 10] /\
    Z.of_nat (length (g_save c)) = Z.of_nat (length head) + w * h /\
    forall x y, in_canvas w h (x, y) -> exists v, g_get c (x, y) = Ok v /\
      nth_error (g_save c) (length head + Z.to_nat (y * w + x)) = Some v.
Proof. exact api_g_save. Qed.
Theorem C80_ppm : forall w h c, c_ok w h c ->
  exists head, c_save c = head ++ c_data c /\ head = [80; 54; 10] ++ str_int w ++ [32] ++ str_int h ++ [10; 50; 53; 53; 10] /\
    Z.of_nat (length (c_save c)) = Z.of_nat (length head) + 3 * (w * h) /\
    forall x y, in_canvas w h (x, y) -> exists r g b, c_get c (x, y) = Ok (r, g, b) /\
      let i := (length head + 3 * Z.to_nat (y * w + x))%nat in
      nth_error (c_save c) i = Some r /\ nth_error (c_save c) (i + 1) = Some g /\ nth_error (c_save c) (i + 2) = Some b.
Proof. exact api_c_save. Qed.
Theorem C80_pbm : forall w h c, bw_ok w h c ->
  exists head, bw_save c = head ++ bw_data c /\ head = [80; 52; 10] ++ str_int w ++ [32] ++ str_int h ++ [10] /\
    Z.of_nat (length (bw_save c)) = Z.of_nat (length head) + (w + 7) / 8 * h /\
    forall x y, in_canvas w h (x, y) -> exists b, nth_error (bw_save c) (length head + Z.to_nat (y * ((w + 7) / 8) + x / 8)) = Some b /\
      bw_get c (x, y) = Ok (Z.testbit b (7 - x mod 8)).
Proof. exact api_bw_save. Qed.
Example C80_case : exists c d, g_new 12 2 9 = Ok c /\ firstn 13 (g_save c) = [80; 53; 10; 49; 50; 32; 50; 10; 50; 53; 53; 10; 9] /\
  bw_new 9 1 255 = Ok d /\ bw_save d = [80; 52; 10; 57; 32; 49; 10; 255; 255].
Proof. eexists _, _. repeat (split; [vm_compute; reflexivity|]). vm_compute. reflexivity. Qed.

(** C81 *)
Theorem C81_flat : forall x0 y0 x1 y1 : Q, (x0 < x1)%Q -> (Qabs.Qabs (y1 - y0) <= x1 - x0)%Q -> (0 <= y0)%Q -> (0 <= y1)%Q ->
  exists n1 n2 e1 e2 pairs, aaline (x0, y0) (x1, y1) =
    Ok (e1 ++ e2 ++ concat (map (fun '(x, y, a1, a2) => [((x, y), a1); ((x, y + 1), a2)]) pairs)) /\
    (Qabs.Qabs (inject_Z n1 - x0) <= 1 # 2)%Q /\ (Qabs.Qabs (inject_Z n2 - x1) <= 1 # 2)%Q /\
    map (fun pa => fst (fst pa)) e1 = [n1; n1] /\ map (fun pa => fst (fst pa)) e2 = [n2; n2] /\
    map (fun '(x, _, _, _) => x) pairs = zfromto (n1 + 1) n2 /\
    Forall (fun '(x, y, a1, a2) => (0 <= a2 < 1)%Q /\ (a1 == 1 - a2)%Q /\
      (inject_Z y + a2 == y0 + (y1 - y0) / (x1 - x0) * (inject_Z x - x0))%Q) pairs.
Proof. exact aaline_flat. Qed.
(** The two ends, away from the left and top edges. *)
Theorem C81_ends : forall x0 y0 x1 y1 : Q, (0 <= x0 < x1)%Q -> (Qabs.Qabs (y1 - y0) <= x1 - x0)%Q -> (1 <= y0)%Q -> (1 <= y1)%Q ->
  exists n1 n2 p1 p2 a1 a2 b1 b2 rest, aaline (x0, y0) (x1, y1) =
    Ok (((n1, p1), a1) :: ((n1, p1 + 1), a2) :: ((n2, p2), b1) :: ((n2, p2 + 1), b2) :: rest) /\
    (0 <= a1)%Q /\ (0 <= a2)%Q /\ (0 <= b1)%Q /\ (0 <= b2)%Q /\
    (a1 + a2 == inject_Z n1 + (1 # 2) - x0)%Q /\ (b1 + b2 == inject_Z n2 + (1 # 2) - x1)%Q /\
    (let t := y0 + (y1 - y0) / (x1 - x0) * (inject_Z n1 - x0) in inject_Z p1 <= t < inject_Z p1 + 1 /\ a2 == (a1 + a2) * (t - inject_Z p1))%Q /\
    (let t := y1 + (y1 - y0) / (x1 - x0) * (inject_Z n2 - x1) in inject_Z p2 <= t < inject_Z p2 + 1 /\ b2 == (b1 + b2) * (t - inject_Z p2))%Q.
Proof. exact aaline_ends. Qed.
Theorem C81_steep : forall x0 y0 x1 y1 : Q, (Qabs.Qabs (x1 - x0) < Qabs.Qabs (y1 - y0))%Q ->
  aaline (x0, y0) (x1, y1) = rmap (map flip) (aaline (y0, x0) (y1, x1)).
Proof. exact aaline_steep. Qed.
Theorem C81_reverse : forall a b : Q * Q, ~ (fst a == fst b)%Q -> ~ (snd a == snd b)%Q -> aaline a b = aaline b a.
Proof. exact aaline_reverse. Qed.
Theorem C81_fails : forall (a b : Q * Q) e, aaline a b = Err e <-> e = ZeroDivisionError /\ (fst a == fst b)%Q /\ (snd a == snd b)%Q.
Proof. exact aaline_error. Qed.
Theorem C81_int_colour : forall (a b : Q * Q) c v px, aaline a b = Ok px -> g_aaline c a b (GInt v) = Err TypeError.
Proof. exact g_aaline_int. Qed.
(** Both ends weigh the part of the end pixel to the right of the end point,
    so the right end of a line is drawn fainter the more of it is covered. *)
Theorem C81_right_end_refuted : exists e1 e2 a1 a2, aaline (0%Q, 0%Q) ((34 # 10)%Q, 0%Q) = Ok (e1 ++ [((3, 0), a1); ((3, 1), a2)] ++ e2) /\
  length e1 = 2%nat /\ (a1 + a2 == 1 # 10)%Q.
Proof.
  eexists [_; _], _, _, _. split; [vm_compute; reflexivity|]. split; [reflexivity|]. vm_compute. reflexivity.
Qed.
(** Near the top edge a pixel gets a negative weight. *)
Theorem C81_negative_alpha_refuted : exists p rest, aaline ((4 # 10)%Q, 0%Q) ((24 # 10)%Q, (2 # 1)%Q) = Ok (p :: rest) /\
  exists q, In q (p :: rest) /\ (snd q < 0)%Q.
Proof.
  eexists _, _. split; [vm_compute; reflexivity|]. eexists. split; [right; left; reflexivity|]. vm_compute. reflexivity.
Qed.
Example C81_case : exists px a, aaline (0%Q, 1%Q) (4%Q, 3%Q) = Ok px /\ length px = 10%nat /\
  nth_error px 6 = Some ((2, 2), a) /\ (a == 1)%Q /\ (0 <= 0 < 4)%Q /\ (Qabs.Qabs (3 - 1) <= 4 - 0)%Q /\ (1 <= 1)%Q /\ (1 <= 3)%Q.
Proof. eexists _, _. split; [vm_compute; reflexivity|]. split; [reflexivity|]. split; [reflexivity|].
  split; [vm_compute; reflexivity|]. split; [split; vm_compute; congruence|]. split; [|split]; vm_compute; congruence. Qed.

Print Assumptions C43_write_read.
Print Assumptions C43_new.
Print Assumptions C43_background.
Print Assumptions C44_gray.
Print Assumptions C44_gray_new.
Print Assumptions C44_colour.
Print Assumptions C44_colour_new.
Print Assumptions C44_colour_grows.
Print Assumptions C44_colour_short_refuted.
Print Assumptions C44_gray_wraps_refuted.
Print Assumptions C45_gray.
Print Assumptions C45_colour.
Print Assumptions C45_ends.
Print Assumptions C46_terminates.
Print Assumptions C46_pixel.
Print Assumptions C46_neighbours.
Print Assumptions C46_drawn.
Print Assumptions C46_outline.
Print Assumptions C46_reverse_refuted.
Print Assumptions C47_marks.
Print Assumptions C47_marks_added.
Print Assumptions C47_balance.
Print Assumptions C47_too_low.
Print Assumptions C47_negative_row_refuted.
Print Assumptions C47_double_drift_refuted.
Print Assumptions C48_row.
Print Assumptions C48_rows.
Print Assumptions C48_second_fill.
Print Assumptions C48_polygon_gray.
Print Assumptions C48_polygon_bw.
Print Assumptions C48_polygon_colour.
Print Assumptions C48_rectangle.
Print Assumptions C48_triangle.
Print Assumptions C48_left_overflow_refuted.
Print Assumptions C80_pgm.
Print Assumptions C80_ppm.
Print Assumptions C80_pbm.
Print Assumptions C81_flat.
Print Assumptions C81_ends.
Print Assumptions C81_steep.
Print Assumptions C81_reverse.
Print Assumptions C81_fails.
Print Assumptions C81_int_colour.
Print Assumptions C81_right_end_refuted.
Print Assumptions C81_negative_alpha_refuted.
