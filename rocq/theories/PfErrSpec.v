(** Vocabulary of the statements about the distances of a P file. *)
From Coq Require Import SpecFloat.
From Verif Require Import Num.

(** The ring of a polygon in any arithmetic: without the repetition of its
    first point. *)
Definition closes_by {P} (same : P -> P -> Prop) (poly : list P) : Prop :=
  exists p q, hd_error poly = Some p /\ nth_error poly (length poly - 1) = Some q /\ same p q.
Definition ring_by {P} (same : P -> P -> Prop) (poly part : list P) : Prop :=
  (closes_by same poly /\ exists q, poly = part ++ [q]) \/ (~ closes_by same poly /\ poly <> [] /\ part = poly).
Definition same64 (p q : f64 * f64) : Prop := SFeqb (fst p) (fst q) = true /\ SFeqb (snd p) (snd q) = true.

(** One distance for each point, from the given to the returned one. *)
Definition distances {T D} (hav : T -> T -> T -> T -> res D) (given got : list (T * T)) (errs : list D) : Prop :=
  Forall2 (fun pq e => hav (fst (fst pq)) (snd (fst pq)) (fst (snd pq)) (snd (snd pq)) = Ok e) (combine given got) errs /\
  length given = length got.
(** All points of some entities, in order. *)
Definition all_points {P} (ents : list (list (list P))) : list P := flat_map (@concat P) ents.
