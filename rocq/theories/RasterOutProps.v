(** Coordinates beside a canvas: C119. *)
From Coq Require Import QArith.
From Verif Require Import Num RasterModel RasterSpec RasterOutSpec RasterOut.
Open Scope Z_scope.

(** ** C119 *)
(** Every pair of integers stands for one pixel, or lies beside. *)
Theorem C119_cases w h p : 0 < w -> 0 <= h -> (exists q, stands_for w h p q) \/ beside w h p.
Proof. exact (cases w h p). Qed.
Theorem C119_one w h p q q' : stands_for w h p q -> stands_for w h p q' -> q = q' /\ ~ beside w h p.
Proof. exact (only_one w h p q q'). Qed.
Theorem C119_gray {T} `{PyNum T} `{PyInt T} w h c p q : g_ok w h c -> stands_for w h p q ->
  g_get c p = g_get c q /\ forall v : gcolor T, g_set c p v = g_set c q v.
Proof. exact (gray_for w h c p q). Qed.
Theorem C119_gray_beside {T} `{PyNum T} `{PyInt T} w h c p : g_ok w h c -> beside w h p -> g_get c p = Err IndexError /\
  (forall v, g_set c p (GInt (T := T) v) = Err IndexError) /\ (forall fg (a : T), g_set c p (GTup [fg] (Some a)) = Err IndexError).
Proof. exact (gray_beside w h c p). Qed.
Theorem C119_bits w h w8 c p q : bw_ok w h c -> padded w w8 -> stands_for w8 h p q ->
  bw_get c p = bw_get c q /\ forall v, bw_set c p v = bw_set c q v.
Proof. exact (bw_for w h w8 c p q). Qed.
Theorem C119_bits_beside w h w8 c p : bw_ok w h c -> padded w w8 -> beside w8 h p ->
  bw_get c p = Err IndexError /\ forall v, bw_set c p v = Err IndexError.
Proof. exact (bw_beside w h w8 c p). Qed.
Theorem C119_padding w h w8 c p v : 0 <= w -> bw_ok w h c -> padded w w8 -> w <= fst p < w8 -> 0 <= snd p < h ->
  exists c', bw_set c p v = Ok c' /\ bw_ok w h c' /\ forall q, in_canvas w h q -> bw_get c' q = bw_get c q.
Proof. exact (bw_padding w h w8 c p v). Qed.
Theorem C119_colour {T} `{PyNum T} `{PyInt T} w h c p q : c_ok w h c -> stands_for w h p q -> number w p <> -1 ->
  c_get c p = c_get c q /\ forall v : list Z * option T, c_set c p v = c_set c q v.
Proof. exact (colour_for w h c p q). Qed.
Theorem C119_colour_unread {T} `{PyNum T} `{PyInt T} w h c p : c_ok w h c -> number w p = -1 \/ beside w h p ->
  c_get c p = Err ValueError /\ forall r g b (a : T), c_set c p ([r; g; b], Some a) = Err ValueError.
Proof. exact (colour_unread w h c p). Qed.
(** An opaque pixel above the canvas moves the whole picture on by one pixel. *)
Theorem C119_above {T} `{PyNum T} `{PyInt T} w h c p r g b : c_ok w h c -> 0 < w -> 0 < h -> number w p < - (w * h) -> is_byte r -> is_byte g -> is_byte b ->
  exists c', c_set c p ([r; g; b], None (A := T)) = Ok c' /\ c_data c' = [r; g; b] ++ c_data c /\ c_get c' (0, 0) = Ok (r, g, b) /\
    forall q q', in_canvas w h q -> in_canvas w h q' -> follows w q q' -> c_get c' q' = c_get c q.
Proof. exact (colour_above w h c p r g b). Qed.
(** An opaque pixel number -1 is drawn in the last place, and the pixel that
    was there moves below the canvas. *)
Theorem C119_last {T} `{PyNum T} `{PyInt T} w h c p r g b : c_ok w h c -> 0 < w -> 0 < h -> number w p = -1 -> is_byte r -> is_byte g -> is_byte b ->
  exists c' last, c_set c p ([r; g; b], None (A := T)) = Ok c' /\ c_get c (w - 1, h - 1) = Ok last /\
    c_get c' (w - 1, h - 1) = Ok (r, g, b) /\ c_get c' (0, h) = Ok last /\
    (forall q, in_canvas w h q -> q <> (w - 1, h - 1) -> c_get c' q = c_get c q).
Proof. exact (colour_last w h c p r g b). Qed.
Lemma bytes_ok l : forallb is_byteb l = true -> Forall is_byte l.
Proof. induction l as [|x l IH]; [constructor|]. cbn. rewrite Bool.andb_true_iff. intros [A B]. constructor; [unfold is_byteb, is_byte in *; lia|auto]. Qed.
Example C119_case : exists c c' b g,
  c_new 2 2 [9; 8; 7] = Ok c /\ c_ok 2 2 c /\ c_set c (1, -3) ([1; 2; 3], None (A := Q)) = Ok c' /\ number 2 (1, -3) = -5 /\
  c_get c' (0, 0) = Ok (1, 2, 3) /\ c_get c' (1, 1) = Ok (9, 8, 7) /\ number 2 (-1, 0) = -1 /\
  bw_new 11 2 0 = Ok b /\ bw_ok 11 2 b /\ padded 11 16 /\ stands_for 16 2 (-1, 1) (15, 0) /\ beside 16 2 (0, 2) /\
  g_new 3 2 5 = Ok g /\ g_ok 3 2 g /\ stands_for 3 2 (1, -1) (1, 1) /\ beside 3 2 (0, -3).
Proof.
  do 4 eexists. split; [vm_compute; reflexivity|].
  split; [repeat (split; [reflexivity|]); apply bytes_ok; reflexivity|].
  repeat (split; [vm_compute; reflexivity|]).
  split; [repeat (split; [reflexivity|]); apply bytes_ok; reflexivity|].
  split; [split; [lia|reflexivity]|]. split; [split; [split; cbn; lia|left; reflexivity]|]. split; [right; vm_compute; discriminate|].
  split; [vm_compute; reflexivity|].
  split; [repeat (split; [reflexivity|]); apply bytes_ok; reflexivity|].
  split; [split; [split; cbn; lia|right; reflexivity]|]. left. reflexivity.
Qed.

Print Assumptions C119_cases.
Print Assumptions C119_one.
Print Assumptions C119_gray.
Print Assumptions C119_gray_beside.
Print Assumptions C119_bits.
Print Assumptions C119_bits_beside.
Print Assumptions C119_padding.
Print Assumptions C119_colour.
Print Assumptions C119_colour_unread.
Print Assumptions C119_above.
Print Assumptions C119_last.
