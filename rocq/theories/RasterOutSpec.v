(** Coordinates beside a canvas: vocabulary. *)
From Verif Require Import Num RasterSpec.
Open Scope Z_scope.

(** Pixels are numbered row by row; negative numbers count from the end. *)
Definition number (w : Z) (p : Z * Z) : Z := snd p * w + fst p.
(** The pixel [q] of a [w] by [h] canvas that [p] stands for. *)
Definition stands_for (w h : Z) (p q : Z * Z) : Prop :=
  in_canvas w h q /\ (number w q = number w p \/ number w q = number w p + w * h).
(** [p] stands for no pixel. *)
Definition beside (w h : Z) (p : Z * Z) : Prop := number w p < - (w * h) \/ w * h <= number w p.
(** [q] follows [p], row by row. *)
Definition follows (w : Z) (p q : Z * Z) : Prop := number w q = number w p + 1.
(** The width of a row of bits, a multiple of 8. *)
Definition padded (w w8 : Z) : Prop := w <= w8 < w + 8 /\ w8 mod 8 = 0.
