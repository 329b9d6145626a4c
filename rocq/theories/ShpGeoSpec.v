(** Specification vocabulary for rings and their areas, independent of the model's
    own helpers. *)
From Coq Require Import Reals.
From Verif Require Import Py Num.
Open Scope Z_scope.

(** ** Areas *)
(** Twice the area on the left of the polyline, seen from the origin: the sum of the
    cross products of consecutive points *)
Fixpoint shoelace (l : list (R * R)) : R :=
  match l with
  | p :: ((q :: _) as r) => (fst p * snd q - fst q * snd p + shoelace r)%R
  | _ => 0%R
  end.
(** The points of the plane as lists of two coordinates *)
Definition flat {T} (l : list (T * T)) : list (list T) := map (fun p => [fst p; snd p]) l.
(** A closed ring: two points at least, the last is the first. *)
Definition ring_from {A} (p : A) (mid : list A) : list A := p :: mid ++ [p].
(** The ring starts again with its first point. *)
Definition closed {A} (l : list A) : Prop := exists p mid, l = ring_from p mid.
Definition shift (d : R * R) (l : list (R * R)) : list (R * R) := map (fun p => (fst p + fst d, snd p + snd d)%R) l.
(** Points whose [zip] has two columns *)
Definition planar {T} (l : list (list T)) : Prop := Forall (fun p => (2 <= length p)%nat) l /\ Exists (fun p => length p = 2%nat) l.

(** ** Parts *)
(** Offsets of parts in a list of [n] points *)
Definition offsets (n : nat) (parts : list Z) : Prop :=
  hd_error parts = Some 0 /\
  (forall k a b, nth_error parts k = Some a -> nth_error parts (S k) = Some b -> a <= b) /\
  Forall (fun o => 0 <= o <= Z.of_nat n) parts.
(** [rings] are the points, cut at the offsets. *)
Definition cut_at {A} (parts : list Z) (points : list A) (rings : list (list A)) : Prop :=
  concat rings = points /\ length rings = length parts /\
  forall k o, nth_error parts k = Some o -> Z.of_nat (length (concat (firstn k rings))) = o.
(** ** Polygons *)
(** Groups of rings, in order, each but the first starting with a clockwise ring
    ([cw]) and having no other clockwise ring *)
Definition grouped {A} (cw : A -> Prop) (rings : list A) (groups : list (list A)) : Prop :=
  concat groups = rings /\
  Forall (fun g => exists outer holes, g = outer :: holes /\ Forall (fun h => ~ cw h) holes) groups /\
  Forall (fun g => forall outer holes, g = outer :: holes -> cw outer) (tl groups) /\ groups <> [].

(** ** Types of shapes *)
Definition point_type (t : Z) : Prop := t = 1 \/ t = 11 \/ t = 21.
Definition multipoint_type (t : Z) : Prop := t = 8 \/ t = 18 \/ t = 28.
Definition line_type (t : Z) : Prop := t = 3 \/ t = 13 \/ t = 23.
Definition polygon_type (t : Z) : Prop := t = 5 \/ t = 15 \/ t = 25.

(** ** Rings with integer coordinates *)
(** The points as doubles, and as points of the plane *)
Definition dpt (p : Z * Z) : f64 * f64 := (fofZ (fst p), fofZ (snd p)).
Definition rpt (p : Z * Z) : R * R := (IZR (fst p), IZR (snd p)).
Definition within (B : Z) (p : Z * Z) : Prop := Z.abs (fst p) <= B /\ Z.abs (snd p) <= B.
(** Enough room for the exact sum *)
Definition roomy (r : list (Z * Z)) : Prop :=
  exists B p mid, r = ring_from p mid /\ 0 <= B /\ Z.of_nat (S (length mid)) * (2 * B * B) <= 2 ^ 53 /\ Forall (within B) r.
