(** C122, C123: anti-aliased drawing in double arithmetic. *)
From Coq Require Import ZArith Reals Lia Lra.
From Verif Require Import Num FloatLib RasterModel RasterAAModel RasterSpec RasterApi RasterAASpec RasterAA RasterAACanvas RasterAAEdge.
Open Scope R_scope.

(** C122 *)
Theorem C122_blend : forall w h c p fg bg (a : f64) A, g_ok w h c -> in_canvas w h p -> g_get c p = Ok bg -> is_byte fg ->
  isf a A -> - / 1024 <= A <= 1 + / 1024 ->
  exists c' v, g_set c p (GTup [fg] (Some a)) = Ok c' /\ g_ok w h c' /\ g_get c' p = Ok v /\
    (forall q, in_canvas w h q -> q <> p -> g_get c' q = g_get c q) /\
    (Z.min bg fg <= v <= Z.max bg fg)%Z /\
    Rabs (IZR v - (IZR bg * (1 - A) + IZR fg * A)) <= / 2 + / IZR (2 ^ 42).
Proof. exact api_g_blend_double. Qed.
Theorem C122_gray : forall w h c s e P Q fg, fair w h -> fits w h P -> fits w h Q -> at2 s P -> at2 e Q -> g_ok w h c -> is_byte fg -> P <> Q ->
  exists c', g_aaline c s e (GTup [fg] None) = Ok c' /\ g_ok w h c' /\ inked (g_get c) (g_get c') (g_between fg) (near_line P Q) w h.
Proof. exact api_g_aaline. Qed.
Theorem C122_colour : forall w h c s e P Q r g b, fair w h -> fits w h P -> fits w h Q -> at2 s P -> at2 e Q -> c_ok w h c ->
  is_byte r -> is_byte g -> is_byte b -> P <> Q ->
  exists c', c_aaline c s e [r; g; b] = Ok c' /\ c_ok w h c' /\ inked (c_get c) (c_get c') (c_between (r, g, b)) (near_line P Q) w h.
Proof. exact api_c_aaline. Qed.
Theorem C122_flat : forall w h s e P Q, fair w h -> fits w h P -> fits w h Q -> at2 s P -> at2 e Q -> fst P < fst Q -> Rabs (snd Q - snd P) <= fst Q - fst P ->
  exists n1 n2 e1 e2 pairs, aaline s e =
    Ok (e1 ++ e2 ++ concat (map (fun '(x, y, a1, a2) => [((x, y), a1); ((x, y + 1)%Z, a2)]) pairs)) /\
    Rabs (IZR n1 - fst P) <= / 2 + / 8589934592 /\ Rabs (IZR n2 - fst Q) <= / 2 + / 8589934592 /\
    map (fun pa => fst (fst pa)) e1 = [n1; n1] /\ map (fun pa => fst (fst pa)) e2 = [n2; n2] /\
    map (fun '(x, _, _, _) => x) pairs = zfromto (n1 + 1) n2 /\
    Forall (fun '(x, y, a1, a2) => exists A1 A2, isf a1 A1 /\ isf a2 A2 /\ - / 1024 <= A2 < 1 /\
      Rabs (A1 + A2 - 1) <= / 9007199254740992 /\ Rabs (IZR y + A2 - on_line P Q (IZR x)) <= / 1024) pairs.
Proof. exact api_aaline_flat. Qed.
(** A horizontal line of whole points in the last row, over the full width or
    any part of it. *)
Theorem C122_last_row : forall w h c c2 s e x0 x1 fg r g b, fair w h -> (0 <= x0 < x1)%Z -> (x1 < w)%Z -> (0 < h)%Z ->
  g_ok w h c -> c_ok w h c2 -> is_byte fg -> is_byte r -> is_byte g -> is_byte b ->
  at2 s (IZR x0, IZR (h - 1)) -> at2 e (IZR x1, IZR (h - 1)) ->
  g_aaline c s e (GTup [fg] None) = Err IndexError /\ c_aaline c2 s e [r; g; b] = Err ValueError.
Proof. exact api_last_row. Qed.
(** Near the top edge a byte overflows: a black line from (0.4, 0) to (2.4, 2)
    on white. *)
Theorem C122_top_edge_refuted : exists c, g_new 8 8 255 = Ok c /\
  g_aaline c (fdiv (fofZ 4) (fofZ 10), fofZ 0) (fdiv (fofZ 24) (fofZ 10), fofZ 2) (GTup [0%Z] None) = Err OverflowError.
Proof. eexists. split; [vm_compute; reflexivity|]. vm_compute. reflexivity. Qed.
Example C122_case : exists c c', g_new 10 8 255 = Ok c /\ g_ok 10 8 c /\ fair 10 8 /\
  at2 (fofZ 1, fofZ 2) (1, 2) /\ fits 10 8 (1, 2) /\ at2 (fofZ 6, f_of 9 (-1)) (6, 9 / 2) /\ fits 10 8 (6, 9 / 2) /\ (1, 2) <> (6, 9 / 2) /\
  isf (f_of 1 (-2)) (/ 4) /\
  g_aaline c (fofZ 1, fofZ 2) (fofZ 6, f_of 9 (-1)) (GTup [40%Z] None) = Ok c' /\
  g_get c' (3, 3)%Z = Ok 40%Z /\ g_get c' (4, 3)%Z = Ok 148%Z /\ g_get c' (4, 4)%Z = Ok 148%Z /\ g_get c' (4, 5)%Z = Ok 255%Z.
Proof.
  assert (Hh : isf (f_of 9 (-1)) (9 / 2)) by exact isf_9_2.
  eexists. eexists. split; [vm_compute; reflexivity|]. split; [repeat split; repeat constructor; vm_compute; congruence|].
  split; [split; vm_compute; congruence|]. split; [split; apply isf_int; lia|]. split; [left; cbn [fst snd]; repeat split; try (exists 1%Z; lra); try (exists 2%Z; lra); cbn; lra|].
  split; [split; [apply (isf_int 6); lia|exact Hh]|]. split; [right; cbn; lra|]. split; [intros E; injection E; lra|].
  split; [exact isf_1_4|]. split; [vm_compute; reflexivity|]. repeat split; vm_compute; reflexivity.
Qed.

Example C122_last_row_case : exists c, g_new 4 3 255 = Ok c /\ at2 (fofZ 0, fofZ 2) (IZR 0, IZR (3 - 1)) /\ at2 (fofZ 3, fofZ 2) (IZR 3, IZR (3 - 1)) /\
  g_aaline c (fofZ 0, fofZ 2) (fofZ 3, fofZ 2) (GTup [0%Z] None) = Err IndexError.
Proof. eexists. split; [vm_compute; reflexivity|]. split; [split; apply isf_int; lia|]. split; [split; apply isf_int; lia|]. vm_compute. reflexivity. Qed.

(** C123 *)
Theorem C123_gray : forall w h c points fg, fair w h -> is_byte fg -> g_ok w h c -> Forall (good_point w h) points ->
  Forall (fun e => ~ same_point (fst e) (snd e)) (sides points) ->
  exists c', g_stroke c points (GTup [fg] None) = Ok c' /\ g_ok w h c' /\ inked (g_get c) (g_get c') (g_between fg) (near_outline points) w h.
Proof. exact api_g_stroke. Qed.
Theorem C123_colour : forall w h c points r g b, fair w h -> is_byte r -> is_byte g -> is_byte b -> c_ok w h c -> Forall (good_point w h) points ->
  Forall (fun e => ~ same_point (fst e) (snd e)) (sides points) ->
  exists c', c_stroke c points [r; g; b] = Ok c' /\ c_ok w h c' /\ inked (c_get c) (c_get c') (c_between (r, g, b)) (near_outline points) w h.
Proof. exact api_c_stroke. Qed.
Theorem C123_repeated : forall w h c c2 points fg r g b, fair w h -> is_byte fg -> is_byte r -> is_byte g -> is_byte b -> g_ok w h c -> c_ok w h c2 ->
  Forall (good_point w h) points -> Exists (fun e => same_point (fst e) (snd e)) (sides points) ->
  g_stroke c points (GTup [fg] None) = Err ZeroDivisionError /\ c_stroke c2 points [r; g; b] = Err ZeroDivisionError.
Proof. exact api_stroke_repeat. Qed.
(** In particular a ring that ends where it starts, or a single point. *)
Theorem C123_closed : forall w h c c2 p mid fg r g b, fair w h -> is_byte fg -> is_byte r -> is_byte g -> is_byte b -> g_ok w h c -> c_ok w h c2 ->
  Forall (good_point w h) (p :: mid ++ [p]) ->
  g_stroke c (p :: mid ++ [p]) (GTup [fg] None) = Err ZeroDivisionError /\ c_stroke c2 (p :: mid ++ [p]) [r; g; b] = Err ZeroDivisionError.
Proof. exact api_stroke_closed. Qed.
Example C123_case : let t := [(fofZ 1, fofZ 1); (fofZ 6, fofZ 1); (fofZ 1, fofZ 5)] in exists c c', g_new 10 8 255 = Ok c /\ fair 10 8 /\
  Forall (good_point 10 8) t /\ Forall (fun e => ~ same_point (fst e) (snd e)) (sides t) /\
  g_stroke c t (GTup [0%Z] None) = Ok c' /\ g_get c' (1, 3)%Z = Ok 0%Z /\ g_get c' (2, 3)%Z = Ok 255%Z /\
  g_stroke c (t ++ [(fofZ 1, fofZ 1)]) (GTup [0%Z] None) = Err ZeroDivisionError.
Proof.
  cbn zeta. eexists. eexists. split; [vm_compute; reflexivity|]. split; [split; vm_compute; congruence|].
  assert (G : forall a b, (1 <= a <= 6)%Z -> (1 <= b <= 5)%Z -> good_point 10 8 (fofZ a, fofZ b)) by exact case_good.
  assert (D : forall a b c d, (1 <= a <= 6)%Z -> (1 <= b <= 6)%Z -> (1 <= c <= 6)%Z -> (1 <= d <= 6)%Z -> (a, b) <> (c, d) ->
    ~ same_point (fofZ a, fofZ b) (fofZ c, fofZ d)) by exact case_apart.
  split; [repeat constructor; apply G; lia|].
  split; [cbn [sides joined app]; repeat constructor; cbn [fst snd]; apply D; try lia; intros E; injection E; lia|].
  split; [vm_compute; reflexivity|]. split; [vm_compute; reflexivity|]. split; vm_compute; reflexivity.
Qed.

Print Assumptions C122_blend.
Print Assumptions C122_gray.
Print Assumptions C122_colour.
Print Assumptions C122_flat.
Print Assumptions C122_last_row.
Print Assumptions C122_top_edge_refuted.
Print Assumptions C123_gray.
Print Assumptions C123_colour.
Print Assumptions C123_repeated.
Print Assumptions C123_closed.
