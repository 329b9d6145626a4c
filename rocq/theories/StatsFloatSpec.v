(** Vocabulary for statistics of doubles. *)
From Coq Require Import ZArith Reals List SpecFloat.
From Flocq Require Import Core.
From Verif Require Import Num FloatLib StatsModel StatsSpec StatsFloatModel.
Import ListNotations.
Open Scope R_scope.

(** The numbers that a tuple of finite doubles holds. *)
Definition reads (l : list f64) (L : list R) : Prop := Forall2 isf l L.
(** At most 2^20 numbers, of size at most 2^100. *)
Definition tame (L : list R) : Prop :=
  Forall (fun x => Rabs x <= bpow radix2 100) L /\ (Z.of_nat (length L) <= 2 ^ 20)%Z.
Definition tame_arg (l : list f64) : Prop := exists L, reads l L /\ tame L.
(** A call with such arguments, or with an unhashable one. *)
Definition tame_call (c : stcall f64) : Prop :=
  match c with
  | CMax (Some l) | CMin (Some l) | CSum (Some l) | CLen (Some l) | CAvg (Some l) | CVar (Some l) | CStd (Some l)
  | CKak (Some l) | CDea (Some l) => tame_arg l
  | CCov (Some (a, b)) | CCorr (Some (a, b)) => tame_arg a /\ tame_arg b
  | _ => True
  end.
(** What the module answers to a call after a history of calls. *)
Definition answersF (h : list (stcall f64)) (c : stcall f64) (r : res (stvalue f64)) : Prop := snd (st_call c (st_run h)) = r.
(** The answer is a finite double of value [v]. *)
Definition answersR (h : list (stcall f64)) (c : stcall f64) (v : R) : Prop :=
  exists x, answersF h c (Ok (VNum x)) /\ isf x v.
(** [s] is a double nearest to [v]. *)
Definition nearest_to (v s : R) : Prop := forall y w, isf y w -> Rabs (s - v) <= Rabs (w - v).
(** What rounding the average can add to a variance. *)
Definition blur (L : list R) : R := (mean L) ^ 2 / IZR (2 ^ 100) + bpow radix2 (-1900).
(** [n] copies of 0.1. *)
Definition tenths (n : nat) : list f64 := repeat (S754_finite false 7205759403792794 (-56)) n.
