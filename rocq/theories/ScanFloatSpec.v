(** Specification vocabulary for scan conversion with doubles. *)
From Coq Require Import ZArith QArith Reals Qreals List Permutation.
From Verif Require Import Num PfModel RasterModel RasterSpec.
Import ListNotations.
Open Scope Z_scope.

(** The sides that cross a row *)
Definition crossers (points : list (Z * Z)) (y : Z) : list ((Z * Z) * (Z * Z)) :=
  filter (fun e => crosses true y e || crosses false y e) (sides points).
(** A mark for the crossing of a side: with its direction, half a pixel
    (plus 2^-10) beside the crossing at the most, and exact on a vertical side. *)
Definition near_mark (y : Z) (e : (Z * Z) * (Z * Z)) (m : mark) : Prop :=
  crosses (snd m) y e = true /\
  (Rabs (IZR (fst m) - Q2R (meets e y)) <= / 2 + / IZR (2 ^ 10))%R /\
  (fst (fst e) = fst (snd e) -> fst m = fst (fst e)).
(** Far enough from the middle between two pixels *)
Definition off_middle (x : R) : Prop := forall n, (/ IZR (2 ^ 10) < Rabs (x - (IZR n + / 2)))%R.
(** A vertex that a canvas of up to 2^20 rows can take *)
Definition moderate (height : Z) (p : Z * Z) : Prop := Z.abs (fst p) <= 2 ^ 20 /\ 0 <= snd p <= height.
(** scanpolygon then fillpolygons, as [filled], with doubles *)
Definition filled64 {C V} (set : C -> Z * Z -> V -> res C) (w h : Z) (points : list (Z * Z)) (v : V) (c : C) : res C :=
  match scanpolygon (T := f64) h points None with
  | (_, Err e) => Err e
  | (scans, Ok _) => let '(ps, r) := fill_rows w 0 scans in c' <- paint set ps v c ;; _ <- r ;; Ok c'
  end.
