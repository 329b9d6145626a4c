(** Half-planes, convex outlines and linear maps, for the centroid of polygons. *)
From Coq Require Import Reals List.
From Verif Require Import GeoSpec.
Import ListNotations.
Open Scope R_scope.

(** The half-plane a x + b y <= k *)
Definition side (a b k : R) (p : R * R) : Prop := a * fst p + b * snd p <= k.
(** Twice the signed area of the triangle o p q: positive if p, q go round o
    anticlockwise. *)
Definition turn (o p q : R * R) : R := (fst p - fst o) * (snd q - snd o) - (fst q - fst o) * (snd p - snd o).
(** All edges go round o in the same sense, or pass through it. *)
Definition round_left (o : R * R) (l : list (R * R)) : Prop := Forall (fun e => 0 <= turn o (fst e) (snd e)) (closed_edges l).
Definition round_right (o : R * R) (l : list (R * R)) : Prop := Forall (fun e => turn o (fst e) (snd e) <= 0) (closed_edges l).
(** Seen from one of its vertices, the outline goes round once in one sense:
    so do all convex polygons. *)
Definition fan_left (l : list (R * R)) : Prop := exists o, In o l /\ round_left o l.
(** Linear maps of the plane *)
Definition linear (a b c d : R) (p : R * R) : R * R := (a * fst p + b * snd p, c * fst p + d * snd p).
