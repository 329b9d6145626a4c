(** Vocabulary of the P-file statements, independent of the model. *)
From Coq Require Import QArith Qabs SpecFloat.
From Verif Require Import Num.
Open Scope Z_scope.
Notation qpt := (Q * Q)%type (only parsing).

Definition psizes : list Z := [1; 2; 4; 8].
(** Largest code of a coordinate of [size] bytes. *)
Definition max_code (size : Z) : Z := 256 ^ size - 1.

(** [q] is [p] brought into the world rectangle. *)
Definition lon_range (x : Q) : Prop := (-180 <= x <= 180)%Q.
Definition lat_range (y : Q) : Prop := (-90 <= y <= 90)%Q.
Definition normalised (p q : qpt) : Prop :=
  lon_range (fst q) /\ lat_range (snd q) /\
  (exists k, fst q == fst p + inject_Z (360 * k))%Q /\
  (exists k, snd q == snd p + inject_Z (180 * k))%Q /\
  (lon_range (fst p) -> lat_range (snd p) -> q = p).

(** The ring of a polygon: without the repetition of its first point. *)
Definition same_point (p q : qpt) : Prop := (fst p == fst q /\ snd p == snd q)%Q.
Definition closes (poly : list qpt) : Prop :=
  exists p q, hd_error poly = Some p /\ nth_error poly (length poly - 1) = Some q /\ same_point p q.
Definition ring (poly part : list qpt) : Prop :=
  (closes poly /\ exists q, poly = part ++ [q]) \/ (~ closes poly /\ poly <> [] /\ part = poly).

(** Within [dx] and [dy]. *)
Definition near (dx dy : Q) (p q : qpt) : Prop :=
  (Qabs (fst p - fst q) <= dx /\ Qabs (snd p - snd q) <= dy)%Q.
(** What must come back for [polys]: ring by ring, point by point. *)
Definition same_geometry (dx dy : Q) (polys out : list (list qpt)) : Prop :=
  Forall2 (fun poly got => exists norm part,
    Forall2 normalised poly norm /\ ring norm part /\ Forall2 (near dx dy) got part) polys out.

(** Half a quantisation step of a stored box side [a, b]. *)
Definition half_code (size : Z) (a b : Q) : Q := (Qabs (b - a) / inject_Z (2 * max_code size))%Q.

(** Points of a ring spread in both directions. *)
Definition spread (part : list qpt) : Prop :=
  (exists p q, In p part /\ In q part /\ ~ fst p == fst q)%Q /\
  (exists p q, In p part /\ In q part /\ ~ snd p == snd q)%Q.
(** The world grid of the stored boxes: 65535 steps each way. *)
Definition grid_lon (k : Z) : Q := (inject_Z (360 * k) / 65535 - 180)%Q.
Definition grid_lat (k : Z) : Q := (inject_Z (180 * k) / 65535 - 90)%Q.
Definition on_lon_line (part : list qpt) : Prop :=
  exists k, forall p, In p part -> (fst p == grid_lon k)%Q.
Definition on_lat_line (part : list qpt) : Prop :=
  exists k, forall p, In p part -> (snd p == grid_lat k)%Q.
(** [(a, b)] is the tightest interval of grid coordinates around [vs]. *)
Definition tight_grid (g : Z -> Q) (vs : list Q) (a b : Z) : Prop :=
  (forall v, In v vs -> (g a <= v <= g b)%Q) /\
  (exists v, In v vs /\ (v < g (a + 1)%Z)%Q) /\ (exists v, In v vs /\ (g (b - 1)%Z < v)%Q).

(** Entities [write] must accept: one ring that is not confined to a grid
    line, or any number of rings with boxes of non-zero area. *)
Definition acceptable (parts : list (list qpt)) : Prop :=
  (exists part, parts = [part] /\ part <> [] /\ ~ on_lon_line part /\ ~ on_lat_line part) \/
  (parts <> [] /\ Forall spread parts).
Definition in_world (p : qpt) : Prop := lon_range (fst p) /\ lat_range (snd p).

(** A double within the world's longitudes and latitudes. *)
Definition in_world64 (p : f64 * f64) : Prop :=
  SFleb (fofZ (-180)) (fst p) = true /\ SFleb (fst p) (fofZ 180) = true /\
  SFleb (fofZ (-90)) (snd p) = true /\ SFleb (snd p) (fofZ 90) = true.
(** Well-formed representation (every Python float has one). *)
Definition wf64 (x : f64) : Prop := valid_binary 53 1024 x = true.
(** Upper edges as the reader reports them, in double arithmetic. *)
Definition edge64_lon (k : Z) : f64 := fsub (fdiv (fofZ (k * 360)) (fofZ 65535)) (fofZ 180).
Definition edge64_lat (k : Z) : f64 := fsub (fdiv (fofZ (k * 180)) (fofZ 65535)) (fofZ 90).
