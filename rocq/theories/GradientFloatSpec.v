(** Vocabulary for gradients with double positions and components. *)
From Coq Require Import Reals QArith Qreals.
From Verif Require Import Num FloatLib.
Open Scope Q_scope.

(** The double [v] has the rational value [q]. *)
Definition holds (v : f64) (q : Q) : Prop := isf v (Q2R q).
(** A stop given with doubles, and its exact position and colour. *)
Definition stop_holds (s : f64 * list f64) (t : Q * list Q) : Prop :=
  holds (fst s) (fst t) /\ Forall2 holds (snd s) (snd t).
(** Stops at most a million away from 0, with components of size at most 1024. *)
Definition moderate (points : list (Q * list Q)) : Prop :=
  forall t, In t points -> - (1000000) <= fst t <= 1000000 /\ Forall (fun v => - (1024) <= v <= 1024) (snd t).
(** A double within [d] of [q]. *)
Definition within (d : R) (v : f64) (q : Q) : Prop := exists r, isf v r /\ (Rabs (r - Q2R q) <= d)%R.
