(** Vocabulary of the raster statements. *)
From Coq Require Import Sorted.
From Verif Require Import Num PfModel RasterModel.
Open Scope Z_scope.

(** Pixels of a canvas of the given size. *)
Definition in_canvas (w h : Z) (p : Z * Z) : Prop := 0 <= fst p < w /\ 0 <= snd p < h.

(** Number of edges crossing row [y] (half open: the row of the lower end is
    not crossed), downwards or upwards. *)
Definition crosses (down : bool) (y : Z) (e : (Z * Z) * (Z * Z)) : bool :=
  let '((_, y0), (_, y1)) := e in
  if down then (y0 <=? y) && (y <? y1) else (y1 <=? y) && (y <? y0).
(** Abscissa at which the line through an edge meets row [y]. *)
Definition meets (e : (Z * Z) * (Z * Z)) (y : Z) : Q :=
  let '((x0, y0), (x1, y1)) := e in
  (inject_Z x0 + inject_Z (y - y0) * inject_Z (x1 - x0) / inject_Z (y1 - y0))%Q.

(** Which pixels of a row with the given marks get painted: the last mark at
    or left of x is an upward one (False), or x is on the canvas left of a
    first mark that is downward; and another mark lies to the right of x
    inside the canvas. *)
Definition last_is (marks : list mark) (x : Z) (d : bool) : Prop :=
  exists m, In m marks /\ fst m <= x /\ snd m = d /\
  (forall m', In m' marks -> fst m' <= x -> mark_leb m' m = true).
Definition painted (width : Z) (marks : list mark) (x : Z) : Prop :=
  (exists m, In m marks /\ x < fst m < width) /\
  (last_is marks x false \/
   (0 <= x /\ (forall m, In m marks -> x < fst m) /\
    exists m, In m marks /\ snd m = true /\ forall m', In m' marks -> mark_leb m m' = true)).
(** Canvases as the constructors make them and in-range writes keep them. *)
Definition bw_ok (w h : Z) (c : bwcanvas) : Prop :=
  bw_width c = w /\ bw_height c = h /\ bw_row c = 8 * ((w + 7) / 8) /\
  Z.of_nat (length (bw_data c)) = (w + 7) / 8 * h /\ Forall is_byte (bw_data c).
Definition g_ok (w h : Z) (c : gcanvas) : Prop :=
  g_width c = w /\ g_height c = h /\ Z.of_nat (length (g_data c)) = w * h /\ Forall is_byte (g_data c).
Definition c_ok (w h : Z) (c : ccanvas) : Prop :=
  c_width c = w /\ c_height c = h /\ Z.of_nat (length (c_data c)) = 3 * (w * h) /\ Forall is_byte (c_data c).

(** Sides of a polygon, the last vertex joined to the first. *)
Fixpoint joined {A} (l : list A) : list (A * A) :=
  match l with
  | a :: ((b :: _) as r) => (a, b) :: joined r
  | _ => []
  end.
Definition sides {A} (l : list A) : list (A * A) :=
  match l with [] => [] | a :: _ => joined (l ++ [a]) end.
(** The perimeter marks of row [y]: the rounded abscissa of every side crossing
    it, with the direction. *)
Definition crossing (y : Z) (e : (Z * Z) * (Z * Z)) : list mark :=
  if crosses true y e then [(q_round (meets e y), true)]
  else if crosses false y e then [(q_round (meets e y), false)] else [].
Definition row_marks (points : list (Z * Z)) (y : Z) : list mark := concat (map (crossing y) (sides points)).

(** Order of the marks of a row, and rows of a list of scans. *)
Definition mle (a b : mark) : Prop := mark_leb a b = true.
Definition sorted : list mark -> Prop := StronglySorted mle.
Definition row (scans : list (list mark)) (r : Z) : list mark := nth (Z.to_nat r) scans [].
Definition below (height : Z) (p : Z * Z) : Prop := 0 <= snd p <= height.
Definition too_low (height : Z) (e : (Z * Z) * (Z * Z)) : Prop :=
    snd (fst e) <> snd (snd e) /\ height < Z.max (snd (fst e)) (snd (snd e)).
(** No mark left of the canvas. *)
Definition clear_left (scans : list (list mark)) : Prop := Forall (Forall (fun m : mark => 0 <= fst m)) scans.
(** scanpolygon then fillpolygons, on any canvas with a well-behaved store. *)
Definition filled {C V} (set : C -> Z * Z -> V -> res C) (w h : Z) (points : list (Z * Z)) (v : V) (c : C) : res C :=
  match scanpolygon (T := Q) h points None with
  | (_, Err e) => Err e
  | (scans, Ok _) => let '(ps, r) := fill_rows w 0 scans in c' <- paint set ps v c ;; _ <- r ;; Ok c'
  end.
(** Twice the area of a triangle, positive when it runs clockwise on screen
    (y grows downwards). *)
Definition turn (a b c : Z * Z) : Z := (fst b - fst a) * (snd c - snd a) - (snd b - snd a) * (fst c - fst a).
(** Exchange of the two coordinates of a pixel. *)
Definition flip {A B} (pa : (A * A) * B) : (A * A) * B := ((snd (fst pa), fst (fst pa)), snd pa).
