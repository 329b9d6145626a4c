(** Vocabulary for drawings with double coordinates: what the calls mean in
    real numbers, and how far the canvas box may be off. *)
From Coq Require Import ZArith Reals List SpecFloat.
From Verif Require Import Num RealNum FloatLib BBoxModel StrModel Text VectorModel BBoxFloatSpec VectorSpecR.
Import ListNotations.
Open Scope R_scope.

Definition isp (p : f64 * f64) (P : R * R) : Prop := isf (fst p) (fst P) /\ isf (snd p) (snd P).
(** Calls that draw no shape *)
Definition passive {T} (o : op T) : Prop :=
  match o with OSetgray _ | OSetcolor _ _ _ | OSetink _ | OSetwidth _ | OSetdash _ _ | OMutate _ _ | OText _ _ _ _ _ => True | _ => False end.
(** [geo o O]: the call [o] with finite doubles draws the shape of [O]; inks are
    left out. *)
Inductive geo : op f64 -> op R -> Prop :=
| geo_circle p P r r' f s f' s' : isp p P -> isf r r' -> geo (OCircle p r f s) (OCircle P r' f' s')
| geo_line l L s s' : Forall2 isp l L -> geo (OPolyline l s) (OPolyline L s')
| geo_poly l L f s f' s' : Forall2 isp l L -> geo (OPolygon l f s) (OPolygon L f' s')
| geo_round l L r r' f s f' s' : Forall2 isp l L -> geo (ORounded l r f s) (ORounded L r' f' s')
| geo_image d w p P z z' c : isp p P -> isf z z' -> geo (OImage d w (Some p) z c) (OImage d w (Some P) z' c)
| geo_image0 d w z z' c : isf z z' -> geo (OImage d w None z c) (OImage d w None z' c)
| geo_reset : geo OReset OReset
| geo_passive o o' : passive o -> passive o' -> geo o o'.
(** Shapes that are neither huge nor tiny, nor too small for where they are *)
Definition span (lo size : R) : Prop := / 2 ^ 400 <= size <= 2 ^ 400 /\ Rabs lo <= 2 ^ 50 * size.
Definition spread_out (l : list R) : Prop := Forall (fun x => Rabs x <= 2 ^ 400) l /\ exists a b, In a l /\ In b l /\ a + / 2 ^ 400 <= b.
Definition plain (o : op R) : Prop :=
  match o with
  | OCircle (x, y) r _ _ => span x r /\ span y r
  | OPolyline l _ | OPolygon l _ _ | ORounded l _ _ _ => l = [] \/ spread_out (map fst l) /\ spread_out (map snd l)
  | OImage data w pos z col =>
      let '(x, y) := match pos with Some q => q | None => (0, 0) end in
      (0 < w <= 2 ^ 53)%Z /\ (0 < img_height data w col <= 2 ^ 53)%Z /\ / 2 ^ 300 <= z <= 2 ^ 300 /\
      span x (IZR w * z) /\ span y (IZR (img_height data w col) * z)
  | _ => True
  end.
(** Covered but for the rounding of the corners *)
Definition slack (lo hi : R) : R := Rmax (Rabs lo) (Rabs hi) / 2 ^ 51.
Definition coversF (b : bbox R) (p : R * R) : Prop :=
  bx0 b - slack (bx0 b) (bx1 b) <= fst p <= bx1 b + slack (bx0 b) (bx1 b) /\
  by0 b - slack (by0 b) (by1 b) <= snd p <= by1 b + slack (by0 b) (by1 b).
(** Every side of the box nearly touches something drawn. *)
Definition touchesF (l : list (op R)) (b : bbox R) : Prop :=
  (exists o p, In o l /\ drawn o p /\ Rabs (fst p - bx0 b) <= slack (bx0 b) (bx1 b)) /\
  (exists o p, In o l /\ drawn o p /\ Rabs (fst p - bx1 b) <= slack (bx0 b) (bx1 b)) /\
  (exists o p, In o l /\ drawn o p /\ Rabs (snd p - by0 b) <= slack (by0 b) (by1 b)) /\
  (exists o p, In o l /\ drawn o p /\ Rabs (snd p - by1 b) <= slack (by0 b) (by1 b)).
(** The three lines with which a page starts: "h h translate", "k k scale",
    "cx cy translate", each on a line of its own *)
Definition page_lines (h k cx cy : f64) : list (ch f64) :=
  [N h] ++ map C (text " ") ++ [N h] ++ map C (text " translate") ++ [C 10] ++
  [N k] ++ map C (text " ") ++ [N k] ++ map C (text " scale") ++ [C 10] ++
  [N cx] ++ map C (text " ") ++ [N cy] ++ map C (text " translate") ++ [C 10].
(** Where these three put a point *)
Definition on_page (h k cx cy : R) (p : R * R) : R * R := (h + k * (fst p + cx), h + k * (snd p + cy)).
(** The longer side of a box *)
Definition longer (b : bbox R) : R := Rmax (bx1 b - bx0 b) (by1 b - by0 b).
(** How far from where it should be a point may land on a page of size [s] *)
Definition page_slack (b : bbox R) (s m : R) : R :=
  s / 2 ^ 51 + 2 * ((s - m) / longer b) * Rmax (slack (bx0 b) (bx1 b)) (slack (by0 b) (by1 b)).
(** A page that is neither huge nor tiny *)
Definition page_ok (s m : R) : Prop := 0 <= m /\ m + / 2 ^ 400 <= s <= 2 ^ 400.
