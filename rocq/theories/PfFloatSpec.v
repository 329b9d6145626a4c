(** Vocabulary for P files in double arithmetic, independent of the model. *)
From Coq Require Import Reals SpecFloat.
From Flocq Require Import Core IEEE754.BinarySingleNaN.
From Verif Require Import Num PfSpec.
Open Scope Z_scope.
Notation dpt := (f64 * f64)%type (only parsing).

(** The real number a finite double stands for. *)
Definition val (x : f64) : R := SF2R radix2 x.
Definition finite64 (x : f64) : Prop := wf64 x /\ is_finite_SF x = true.

(** Coordinates that [write] manages to bring into the world: steps of 360
    (180) degrees move a longitude of at most 2^62 (a latitude of at least
    -2^61), and nothing brings a latitude above 90 down. *)
Definition lon_settles (x : f64) : Prop :=
  is_nan x = true \/ (SFleb (fofZ (- 2 ^ 62)) x = true /\ SFleb x (fofZ (2 ^ 62)) = true).
Definition lat_settles (y : f64) : Prop :=
  is_nan y = true \/ (SFleb (fofZ (- 2 ^ 61)) y = true /\ SFleb y (fofZ 90) = true).

(** Coordinates of which the steps are exact. *)
Definition plain_point (p : dpt) : Prop :=
  finite64 (fst p) /\ finite64 (snd p) /\ (Rabs (val (fst p)) < 2 ^ 56)%R /\ (Rabs (val (snd p)) < 2 ^ 55)%R.
(** [q] is [p] brought into the world rectangle, without any rounding. *)
Definition normalised64 (p q : dpt) : Prop :=
  finite64 (fst q) /\ finite64 (snd q) /\
  (-180 <= val (fst q) <= 180)%R /\ (-90 <= val (snd q) <= 90)%R /\
  (exists k, val (fst q) = (val (fst p) + IZR (360 * k))%R) /\
  (exists k, val (snd q) = (val (snd p) + IZR (180 * k))%R) /\
  ((-180 <= val (fst p) <= 180)%R -> (-90 <= val (snd p) <= 90)%R -> q = p).

(** The ring of a polygon: without the repetition of its first point. *)
Definition same_point64 (p q : dpt) : Prop := val (fst p) = val (fst q) /\ val (snd p) = val (snd q).
Definition closes64 (poly : list dpt) : Prop :=
  exists p q, hd_error poly = Some p /\ nth_error poly (length poly - 1) = Some q /\ same_point64 p q.
Definition ring64 (poly part : list dpt) : Prop :=
  (closes64 poly /\ exists q, poly = part ++ [q]) \/ (~ closes64 poly /\ poly <> [] /\ part = poly).

Definition near64 (dx dy : R) (p q : dpt) : Prop :=
  finite64 (fst p) /\ finite64 (snd p) /\
  (Rabs (val (fst p) - val (fst q)) <= dx)%R /\ (Rabs (val (snd p) - val (snd q)) <= dy)%R.
Definition same_geometry64 (dx dy : R) (polys out : list (list dpt)) : Prop :=
  Forall2 (fun poly got => exists norm part,
    Forall2 normalised64 poly norm /\ ring64 norm part /\ Forall2 (near64 dx dy) got part) polys out.

(** Half a quantisation step of a stored box side, and the rounding errors
    of the double arithmetic: 2^-40 degrees, a tenth of a micrometre. *)
Definition half_code64 (size : Z) (a b : f64) : R :=
  (Rabs (val b - val a) / IZR (2 * max_code size) + / 2 ^ 40)%R.

(** Points of a ring at least 2^-20 degrees (a tenth of a metre) apart in
    both directions. *)
Definition spread64 (part : list dpt) : Prop :=
  (exists p q, In p part /\ In q part /\ (val (fst p) + / 2 ^ 20 <= val (fst q))%R) /\
  (exists p q, In p part /\ In q part /\ (val (snd p) + / 2 ^ 20 <= val (snd q))%R).
Definition in_worldR (p : dpt) : Prop :=
  finite64 (fst p) /\ finite64 (snd p) /\ (-180 <= val (fst p) <= 180)%R /\ (-90 <= val (snd p) <= 90)%R.
(** Grid coordinates of the stored boxes. *)
Definition gridR_lon (k : Z) : R := (IZR (360 * k) / 65535 - 180)%R.
Definition gridR_lat (k : Z) : R := (IZR (180 * k) / 65535 - 90)%R.
(** The interval of grid coordinates around [vs], tight up to [eps]. *)
Definition tight_gridR (g : Z -> R) (eps : R) (vs : list f64) (a b : Z) : Prop :=
  (forall v, In v vs -> g a - eps <= val v <= g b + eps)%R /\
  (exists v, In v vs /\ (val v < g (a + 1)%Z + eps)%R) /\ (exists v, In v vs /\ (g (b - 1)%Z - eps < val v)%R).
