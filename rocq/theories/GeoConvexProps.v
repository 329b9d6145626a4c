(** C137: the centroid of a polygon lies inside it. *)
From Coq Require Import Lra.
From Verif Require Import BBoxModel GeoModel GeoSpec GeoProofs GeoConvexSpec GeoConvex GeoGlue.
Open Scope R_scope.

(** If all edges go round a point o in one sense, the centroid lies in every
    half-plane that contains o and the vertices. *)
Theorem C137_hull : forall o l c w a b k, round_left o l \/ round_right o l -> poly_centroid l = Ok (c, w) ->
  side a b k o -> Forall (side a b k) l -> side a b k c.
Proof. exact centroid_inside. Qed.
Theorem C137_box : forall o l c w, round_left o l \/ round_right o l -> poly_centroid l = Ok (c, w) -> In o l -> forall x0 y0 x1 y1,
  (forall p, In p l -> x0 <= fst p <= x1 /\ y0 <= snd p <= y1) -> x0 <= fst c <= x1 /\ y0 <= snd c <= y1.
Proof. exact centroid_box. Qed.
(** The weight tells the sense. *)
Theorem C137_sense : forall o l c w, poly_centroid l = Ok (c, w) -> (round_left o l -> 0 < w) /\ (round_right o l -> w < 0).
Proof. exact centroid_sign. Qed.
(** Stretching, shearing, turning and mirroring *)
Theorem C137_linear : forall a b c d l m w, a * d - b * c <> 0 -> poly_centroid l = Ok (m, w) ->
  poly_centroid (map (linear a b c d) l) = Ok (linear a b c d m, (a * d - b * c) * w).
Proof. exact centroid_linear. Qed.
Theorem C137_region : forall cw m a b k, Forall (fun c => 0 < snd c) cw -> cw <> [] -> region_centroid cw = Ok m ->
  Forall (fun c => side a b k (fst c)) cw -> side a b k m.
Proof. exact region_inside. Qed.
(** The answer of geocentroid comes from a point of the plane that lies in
    every half-plane containing the projected polygons. *)
Theorem C137_geocentroid : forall fuel region bb eps c, region <> [] -> geocentroid fuel region bb (Some eps) = Some (Ok c) -> exists c' xys m,
  mapM (mapM (fun p => equalarea_geo2rect (proj_new (Some c') None) (fst p) (snd p))) region = Ok xys /\
  equalarea_rect2geo (proj_new (Some c') None) (fst m) (snd m) = Ok c /\ Rabs (fst c - fst c') <= eps /\ Rabs (snd c - snd c') <= eps /\
  (Forall fan_left xys -> forall a b k, Forall (Forall (side a b k)) xys -> side a b k m).
Proof. exact geocentroid_inside. Qed.
(** Not so for an outline that crosses itself. *)
Theorem C137_crossing_refuted : exists l c w, poly_centroid l = Ok (c, w) /\ 0 < w /\ (forall p, In p l -> 0 <= fst p <= 1) /\ fst c < 0.
Proof.
  exists [(0, 0); (1, 1); (1, 0); (0, 3 / 2)], (-1 / 3, 5 / 6), (1 / 2). split; [exact bow_tie|]. split; [lra|]. split; [|cbn [fst]; lra].
  intros p I. cbn [In] in I. destruct I as [<-|[<-|[<-|[<-|[]]]]]; cbn [fst]; lra.
Qed.
Example C137_case : round_left (0, 0) [(0, 0); (4, 0); (4, 3)] /\ fan_left [(0, 0); (4, 0); (4, 3)] /\
  poly_centroid [(0, 0); (4, 0); (4, 3)] = Ok ((8 / 3, 1), 12) /\ side 3 (-4) 12 (0, 0) /\ Forall (side 3 (-4) 12) [(0, 0); (4, 0); (4, 3)] /\
  2 * 3 - 1 * 5 <> 0.
Proof.
  assert (A : round_left (0, 0) [(0, 0); (4, 0); (4, 3)]).
  { unfold round_left. cbn [closed_edges app combine]. apply Forall_cons; [|apply Forall_cons; [|apply Forall_cons; [|apply Forall_nil]]]; unfold turn; cbn [fst snd]; lra. }
  split; [exact A|]. split; [exists (0, 0); split; [left; reflexivity|exact A]|]. split.
  - apply GeoCentroid.centroid_make; [| |unfold GeoCentroid.esum|unfold GeoCentroid.esum]; unfold area2; cbn [closed_edges app combine map rsum fold_right fst snd];
      unfold GeoCentroid.mx, GeoCentroid.my, GeoCentroid.ecross, cross; cbn [fst snd]; lra.
  - split; [unfold side; cbn [fst snd]; lra|]. split; [|lra].
    apply Forall_cons; [|apply Forall_cons; [|apply Forall_cons; [|apply Forall_nil]]]; unfold side; cbn [fst snd]; lra.
Qed.
Example C137_octant : exists c, geocentroid 1 [[(0, 0); (90, 0); (0, 90)]] (Some (mkbb (-1) (-1) 1 1)) (Some 180) = Some (Ok c).
Proof. exact octant_centroid. Qed.

Print Assumptions C137_hull.
Print Assumptions C137_box.
Print Assumptions C137_sense.
Print Assumptions C137_linear.
Print Assumptions C137_region.
Print Assumptions C137_geocentroid.
Print Assumptions C137_crossing_refuted.
