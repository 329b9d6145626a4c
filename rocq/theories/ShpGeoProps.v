(** Areas, orientation and the GeoJSON-like view of shapes: theorems. *)
From Coq Require Import Reals Lra SpecFloat.
From Verif Require Import Py Num RealNum FloatLib ShpFile ShpWriterModel ShpReaderModel ShpSpec ShpPrograms ShpRound ShpProps ShpGeoModel ShpGeoSpec ShpGeo ShpGeoFloat ShpGeoView ShpGeoEnd ShpOrder.
Open Scope Z_scope.

(** ** C78 *)
(** Over the reals *)
Theorem C78_area : forall p mid, signed_area (flat (ring_from p mid)) = Ok (shoelace (ring_from p mid) / 2)%R.
Proof. exact area_closed. Qed.
Theorem C78_reversed : forall p mid a, signed_area (flat (ring_from p mid)) = Ok a -> signed_area (flat (rev (ring_from p mid))) = Ok (- a)%R.
Proof. exact area_rev. Qed.
Theorem C78_shifted : forall p mid d, signed_area (flat (shift d (ring_from p mid))) = signed_area (flat (ring_from p mid)).
Proof. exact area_shift. Qed.
Theorem C78_rotated : forall p u q v, signed_area (flat (ring_from p (u ++ q :: v))) = signed_area (flat (ring_from q (v ++ p :: u))).
Proof. exact area_rotate. Qed.
(** Cutting a ring along a chord *)
Theorem C78_additive : forall p u q v a b,
  signed_area (flat (ring_from p (u ++ [q]))) = Ok a -> signed_area (flat (ring_from p (q :: v))) = Ok b ->
  signed_area (flat (ring_from p (u ++ q :: v))) = Ok (a + b)%R.
Proof. exact area_chord. Qed.
Example C78_case : signed_area (flat [(0, 0); (4, 0); (4, 3); (0, 3); (0, 0)])%R = Ok 12%R /\
  signed_area (flat [(0, 0); (0, 1); (1, 0); (0, 0)])%R = Ok (- (1 / 2))%R.
Proof.
  split; [etransitivity; [exact (C78_area (0, 0)%R [(4, 0); (4, 3); (0, 3)]%R)|]|etransitivity; [exact (C78_area (0, 0)%R [(0, 1); (1, 0)]%R)|]]; f_equal; cbn; lra.
Qed.
(** Open rings: moving the ring changes the value. *)
Theorem C78_open_ring_refuted : exists r d, signed_area (flat r) = Ok (1 / 2)%R /\ signed_area (flat (shift d r)) = Ok (11 / 2)%R.
Proof.
  exists [(0, 0); (1, 0); (0, 1)]%R, (10, 10)%R. unfold shift. cbn [map fst snd].
  split; (etransitivity; [eapply area_ok; [apply planar_flat; discriminate|apply pt_flat]|]); cbn; f_equal; lra.
Qed.
(** Exceptions, in every number system *)
Theorem C78_area_exceptions : forall (T : Type) (N : PyNum T) (l : list (list T)),
  (~ planar l -> signed_area l = Err ValueError) /\
  (planar l -> length l = 1%nat -> signed_area l = Err IndexError) /\
  (planar l -> (2 <= length l)%nat -> exists a, signed_area l = Ok a).
Proof. exact area_outcome. Qed.
Example C78_area_exceptions_case : planar [[1; 2]; [3; 4; 5]] /\ ~ planar [[1; 2; 3]; [1; 2; 3]] /\ ~ planar (@nil (list Z)).
Proof.
  unfold planar. split; [split; [repeat constructor; cbn; lia|left; reflexivity]|].
  split; intros [_ E]; inversion E as [? ? X|? ? X]; [discriminate|]; inversion X as [? ? Y|? ? Y]; [discriminate|inversion Y].
Qed.
(** In doubles: exact for closed rings with integer coordinates, while the sum fits *)
Theorem C78_doubles : forall r, roomy r ->
  exists a, signed_area (flat (map dpt r)) = Ok a /\ isf a (shoelace (map rpt r) / 2)%R /\ (nlt a (nofZ 0) = true <-> (shoelace (map rpt r) < 0)%R).
Proof. exact area_sign. Qed.
Definition lake : list (Z * Z) := [(100, 100); (100, 20000000); (10000003, 100); (100, 100)].
Definition island : list (Z * Z) := [(100, 100); (5, -7); (3, 100); (100, 100)].
Ltac within_tac := repeat (first [apply Forall_nil | apply Forall_cons; [split; cbn [fst snd]; lia|]]).
Lemma lake_roomy : roomy lake.
Proof. exists 30000000, (100, 100), [(100, 20000000); (10000003, 100)]. split; [reflexivity|]. split; [lia|]. split; [cbn; lia|within_tac]. Qed.
Lemma island_roomy : roomy island.
Proof. exists 100, (100, 100), [(5, -7); (3, 100)]. split; [reflexivity|]. split; [lia|]. split; [cbn; lia|within_tac]. Qed.
Example C78_doubles_case : roomy lake /\ (shoelace (map rpt lake) < 0)%R /\ roomy island /\ (0 <= shoelace (map rpt island) -> False)%R.
Proof. split; [exact lake_roomy|]. split; [cbn; lra|]. split; [exact island_roomy|]. cbn. lra. Qed.
(** Beyond that the value can be rounded to 0 and the orientation lost. *)
Theorem C78_large_ring_refuted : exists r, closed r /\ (shoelace (map rpt r) < 0)%R /\ signed_area (flat (map dpt r)) = Ok (fofZ 0).
Proof.
  exists [(4503599627370499, 4503599627370501); (4503599627370502, 4503599627370496); (4503599627370498, 4503599627370502); (4503599627370499, 4503599627370501)].
  split; [exists (4503599627370499, 4503599627370501), [(4503599627370502, 4503599627370496); (4503599627370498, 4503599627370502)]; reflexivity|].
  split; [cbn; lra|vm_compute; reflexivity].
Qed.

(** The view, by type *)
Theorem C78_view_point : forall (T : Type) (N : PyNum T) t (points : list (list T)) parts, point_type t ->
  geo_interface (Some t) points parts = match points with [] => Err IndexError | p :: _ => Ok (Some (GPoint p)) end.
Proof. exact @view_point. Qed.
Theorem C78_view_multipoint : forall (T : Type) (N : PyNum T) t (points : list (list T)) parts, multipoint_type t ->
  geo_interface (Some t) points parts = Ok (Some (GMultiPoint points)).
Proof. exact @view_multipoint. Qed.
Theorem C78_view_one_part : forall (T : Type) (N : PyNum T) t (points : list (list T)) o,
  (line_type t -> geo_interface (Some t) points (Some [o]) = Ok (Some (GLineString points))) /\
  (polygon_type t -> geo_interface (Some t) points (Some [o]) = Ok (Some (GPolygon [points]))).
Proof. exact @view_one. Qed.
Theorem C78_view_lines : forall (T : Type) (N : PyNum T) t (points : list (list T)) parts,
  line_type t -> offsets (length points) parts -> length parts <> 1%nat ->
  exists rings, cut_at parts points rings /\ geo_interface (Some t) points (Some parts) = Ok (Some (GMultiLineString rings)).
Proof. exact @view_lines. Qed.
(** Polygons: real coordinates, and integer coordinates in doubles *)
Theorem C78_view_polygons : forall t parts points rings,
  polygon_type t -> offsets (length points) parts -> length parts <> 1%nat -> cut_at parts points rings -> Forall closed (tl rings) ->
  exists groups, grouped (fun r => (shoelace r < 0)%R) rings groups /\
    geo_interface (Some t) (flat points) (Some parts) = Ok (Some (polygons (map (map flat) groups))).
Proof. exact view_real. Qed.
Theorem C78_view_polygons_doubles : forall t parts points rings,
  polygon_type t -> offsets (length points) parts -> length parts <> 1%nat -> cut_at parts points rings -> Forall roomy (tl rings) ->
  exists groups, grouped (fun r => (shoelace (map rpt r) < 0)%R) rings groups /\
    geo_interface (Some t) (flat (map dpt points)) (Some parts) = Ok (Some (polygons (map (map (fun r => flat (map dpt r))) groups))).
Proof. exact view_integer. Qed.
Theorem C78_parts_unique : forall (A : Type) parts (points : list A) l l', cut_at parts points l -> cut_at parts points l' -> l = l'.
Proof. exact @cut_unique. Qed.
Theorem C78_groups_unique : forall (A : Type) (cw : A -> Prop) rings g g', grouped cw rings g -> grouped cw rings g' -> g = g'.
Proof. exact @grouped_unique. Qed.
Example C78_view_polygons_case : let rings := [lake; rev lake; island; lake; rev island] in let parts := [0; 4; 8; 12; 16] in
  polygon_type 5 /\ offsets (length (concat rings)) parts /\ length parts <> 1%nat /\ cut_at parts (concat rings) rings /\ Forall roomy (tl rings) /\
  geo_interface (Some 5) (flat (map dpt (concat rings))) (Some parts) =
    Ok (Some (GMultiPolygon (map (map (fun r => flat (map dpt r))) [[lake; rev lake]; [island]; [lake; rev island]]))).
Proof.
  cbv zeta. split; [left; reflexivity|]. split.
  { split; [reflexivity|]. split; [|repeat (first [apply Forall_nil | apply Forall_cons; [cbn; lia|]])].
    intros k a b. do 5 (destruct k as [|k]; [cbn; intros A B; try discriminate; injection A as <-; injection B as <-; lia|]). destruct k; discriminate. }
  split; [discriminate|]. split.
  { split; [reflexivity|]. split; [reflexivity|]. intros k o. do 5 (destruct k as [|k]; [cbn; intros A; injection A as <-; reflexivity|]). destruct k; discriminate. }
  split; [|vm_compute; reflexivity].
  assert (RR : roomy (rev lake)) by (exists 30000000, (100, 100), [(10000003, 100); (100, 20000000)]; split; [reflexivity|]; split; [lia|]; split; [cbn; lia|within_tac]).
  assert (RI : roomy (rev island)) by (exists 100, (100, 100), [(3, 100); (5, -7)]; split; [reflexivity|]; split; [lia|]; split; [cbn; lia|within_tac]).
  repeat (first [apply Forall_nil | apply Forall_cons; [first [exact lake_roomy|exact island_roomy|exact RR|exact RI]|]]).
Qed.
(** The first ring, after the first, without an area decides the exception. *)
Theorem C78_view_exception : forall (T : Type) (N : PyNum T) e t (points : list (list T)) parts first pre bad post,
  polygon_type t -> offsets (length points) parts -> cut_at parts points (first :: pre ++ bad :: post) ->
  Forall (fun r => exists a, signed_area r = Ok a) pre -> signed_area bad = Err e ->
  geo_interface (Some t) points (Some parts) = Err e.
Proof. exact @view_error. Qed.
Theorem C78_view_no_parts : forall (T : Type) (N : PyNum T) t (points : list (list T)), line_type t \/ polygon_type t ->
  geo_interface (Some t) points None = Err AttributeError /\ geo_interface (Some t) points (Some []) = Err UnboundLocalError.
Proof. exact @view_no_parts. Qed.
Theorem C78_view_other : forall (T : Type) (N : PyNum T) t (points : list (list T)) parts,
  (forall z, t = Some z -> ~ (point_type z \/ multipoint_type z \/ line_type z \/ polygon_type z)) ->
  geo_interface t points parts = Ok None.
Proof. exact @view_other. Qed.

(** Shapes that a Reader gives *)
Theorem C78_read_shapes : forall ms t g s, read_back ms t g s ->
  (t = 1 \/ t = 11 \/ t = 21 -> exists v, hd_error (vertices g) = Some v /\ geo_of s = Ok (Some (GPoint (fxy v)))) /\
  (t = 8 -> geo_of s = Ok (Some (GMultiPoint (map fxy (vertices g))))) /\
  (t = 3 \/ t = 23 -> (exists part, g = [part] /\ geo_of s = Ok (Some (GLineString (map fxy part)))) \/
                     ((2 <= length g)%nat /\ geo_of s = Ok (Some (GMultiLineString (map (map fxy) g))))) /\
  (t = 5 \/ t = 25 -> (exists part, g = [part] /\ geo_of s = Ok (Some (GPolygon [map fxy part]))) \/
                     ((2 <= length g)%nat /\
                      ((Forall (fun r => (2 <= length r)%nat) (tl g) /\ exists groups, grouped clockwise g groups /\ geo_of s = Ok (Some (polygons (map (map (map fxy)) groups)))) \/
                       (exists first pre bad post e, g = first :: pre ++ bad :: post /\ Forall (fun r => (2 <= length r)%nat) pre /\ short bad e /\ geo_of s = Err e)))).
Proof. exact read_view. Qed.
(** Shapes that a Writer holds: their points have four coordinates, so a polygon of
    several rings has no view. *)
Theorem C78_writer_shapes : forall c parts t w w', (c = Poly parts t \/ c = Line parts t) -> polygon_type t -> call_doubles c -> do_call c w = (w', Ok tt) ->
  exists s, w_shapes w' = w_shapes w ++ [s] /\ s_type s = Some t /\
    ((2 <= length parts)%nat -> geo_of s = Err ValueError) /\
    (length parts = 1%nat -> geo_of s = Ok (Some (GPolygon [map (map f64_of_bits) (s_points s)]))) /\
    (parts = [] -> geo_of s = Err UnboundLocalError).
Proof. exact writer_view. Qed.
Example C78_shapes_case :
  (let g := [map vertex_of tri; map vertex_of (rev tri); map vertex_of tri] in
   read_back False 5 g {| s_type := Some 5; s_points := map xy (vertices g); s_parts := Some (part_starts g); s_ptypes := None;
                          s_z := None; s_m := None; s_bbox := Some [0; 0; d3; d3] |}) /\
  (exists w, call_doubles (Poly [tri; tri2] 5) /\ do_call (Poly [tri; tri2] 5) (Writer None) = (w, Ok tt)).
Proof.
  split; [|eexists; split; [doubles_tac|vm_compute; reflexivity]].
  cbv zeta. right. right. right. right. left. split; [right; reflexivity|]. exists [0; 0; d3; d3]. split; [|reflexivity].
  exists 0, 0, d3, d3. split; [reflexivity|].
  assert (LE : forall P : dbl -> Prop, P 0 -> P d3 -> forall l, Forall (fun x => x = 0 \/ x = d3) l -> forall x, In x l -> P x).
  { intros P P0 P3 l F x I. rewrite Forall_forall in F. destruct (F x I) as [->| ->]; assumption. }
  repeat split; try (cbn; tauto);
    (refine (LE _ _ _ _ _); [reflexivity|reflexivity|repeat (first [apply Forall_nil | apply Forall_cons; [first [left; reflexivity|right; reflexivity]|]])]).
Qed.

(** ** C94 *)
(** The order used for boxes and measures is that of the floats. *)
Theorem C94_order : forall a b, is_dbl a -> is_dbl b ->
  SFltb (f64_of_bits a) (f64_of_bits b) = dbl_lt a b /\ SFeqb (f64_of_bits a) (f64_of_bits b) = dbl_eq a b.
Proof. exact order_both. Qed.
Example C94_order_case : is_dbl d3 /\ is_dbl dm1 /\ f64_of_bits d3 = fofZ 3 /\ f64_of_bits dm1 = fofZ (-1).
Proof. repeat split; discriminate. Qed.

Print Assumptions C78_area.
Print Assumptions C78_reversed.
Print Assumptions C78_shifted.
Print Assumptions C78_rotated.
Print Assumptions C78_additive.
Print Assumptions C78_open_ring_refuted.
Print Assumptions C78_area_exceptions.
Print Assumptions C78_doubles.
Print Assumptions C78_large_ring_refuted.
Print Assumptions C78_view_point.
Print Assumptions C78_view_multipoint.
Print Assumptions C78_view_one_part.
Print Assumptions C78_view_lines.
Print Assumptions C78_view_polygons.
Print Assumptions C78_view_polygons_doubles.
Print Assumptions C78_parts_unique.
Print Assumptions C78_groups_unique.
Print Assumptions C78_view_exception.
Print Assumptions C78_view_no_parts.
Print Assumptions C78_view_other.
Print Assumptions C78_read_shapes.
Print Assumptions C78_writer_shapes.
Print Assumptions C94_order.
