(** Model of the spherical geometry of coral/coord.py over the reals. *)
From Verif Require Import BBoxModel SimplifyModel.
From Verif Require Export ProjModel.
Open Scope R_scope.

(** coord.py:98-110 *)
Definition radiusat (lat : R) (e : option ellipsoid) : res R :=
  let e := match e with None => WGS84 | Some e => e end in
  let a := el_a e in
  let b := el_b e in
  let radlat := radians lat in
  let acoslatsqr := a * a * cos radlat * cos radlat in
  let bsinlatsqr := b * b * sin radlat * sin radlat in
  let num := a * a * acoslatsqr + b * b * bsinlatsqr in
  let den := acoslatsqr + bsinlatsqr in
  q <- ndivE num den ;;
  math_sqrt q.
(** R=None *)
Definition radius_or (r : option R) (lat : R) : res R := match r with None => radiusat lat None | Some r => Ok r end.
(** coord.py:112-125 *)
Definition haversine (lon1 lat1 lon2 lat2 : R) (radius : option R) : res R :=
  r <- radius_or radius ((lat1 + lat2) / 2) ;;
  let dLat := radians (lat2 - lat1) in
  let dLon := radians (lon2 - lon1) in
  let lat1 := radians lat1 in
  let lat2 := radians lat2 in
  let a1 := sin (dLat / 2) * sin (dLat / 2) in
  let a2 := sin (dLon / 2) * sin (dLon / 2) * cos lat1 * cos lat2 in
  let a := a1 + a2 in
  s <- math_sqrt a ;;
  t <- math_sqrt (1 - a) ;;
  let c := 2 * atan2 s t in
  Ok (r * c).
(** coord.py:127-134 *)
Definition bearing (lon1 lat1 lon2 lat2 : R) : R :=
  let dLon := radians (lon1 - lon2) in
  let lat1 := radians lat1 in
  let lat2 := radians lat2 in
  let y := sin dLon * cos lat2 in
  let x := cos lat1 * sin lat2 - sin lat1 * cos lat2 * cos dLon in
  degrees (atan2 y x).
(** coord.py:136-163 *)
Definition destination (lon lat bear dist : R) (radius : option R) : res (R * R) :=
  let rlon := radians lon in
  let rlat := radians lat in
  let tc := radians bear in
  r <- radius_or radius lat ;;
  d <- ndivE dist r ;;
  let coslat := cos rlat in
  let sinlat := sin rlat in
  let cosd := cos d in
  let sind := sin d in
  let costc := cos tc in
  let sintc := sin tc in
  lat <- math_asin (sinlat * cosd + coslat * sind * costc) ;;
  let dlon := atan2 (sintc * sind * coslat) (cosd - sinlat * sin lat) in
  let lon := corangle (rlon - dlon) in
  Ok (degrees lon, degrees lat).
(** coord.py:165-182 *)
Definition midpoint (lon1 lat1 lon2 lat2 : R) : res (R * R) :=
  let dlon := radians (lon2 - lon1) in
  let lon1 := radians lon1 in
  let lat1 := radians lat1 in
  let lat2 := radians lat2 in
  let bx := cos lat2 * cos dlon in
  let by_ := cos lat2 * sin dlon in
  let lon3 := lon1 + atan2 by_ (cos lat1 + bx) in
  let sqcoslat1bx := (cos lat1 + bx) * (cos lat1 + bx) in
  s <- math_sqrt (sqcoslat1bx + by_ * by_) ;;
  let lat3 := atan2 (sin lat1 + sin lat2) s in
  Ok (degrees lon3, degrees lat3).

(** coord.py:200-204: one edge; cx, cy and sa *)
Definition edge_step (st : R * R * R) (e : (R * R) * (R * R)) : R * R * R :=
  let '(cx, cy, sa) := st in
  let '((x0, y0), (x1, y1)) := e in
  let f := x0 * y1 - x1 * y0 in
  (cx + (x0 + x1) * f, cy + (y0 + y1) * f, sa + f).
(** coord.py:197-208: one polygon *)
Definition poly_centroid (xys : list (R * R)) : res ((R * R) * R) :=
  let '(cx, cy, sa) := fold_left edge_step (combine xys (skipn 1 xys ++ firstn 1 xys)) (0, 0, 0) in
  let d := 3 * sa in
  cx <- ndivE cx d ;;
  cy <- ndivE cy d ;;
  Ok ((cx, cy), sa).
(** coord.py:210-213 *)
Definition weigh_step (st : R * R * R) (c : (R * R) * R) : R * R * R :=
  let '(cx, cy, sw) := st in
  let '((x, y), w) := c in
  (cx + x * w, cy + y * w, sw + w).
(** coord.py:209-215 *)
Definition region_centroid (cw : list ((R * R) * R)) : res (R * R) :=
  let '(cx, cy, sw) := fold_left weigh_step cw (0, 0, 0) in
  cx <- ndivE cx sw ;;
  cy <- ndivE cy sw ;;
  Ok (cx, cy).
(** coord.py:193-216: one turn of the loop, from c0 to c1 *)
Definition centroid_step (region : list (list (R * R))) (c0 : R * R) : res (R * R) :=
  let prj := proj_new (Some c0) None in
  cw <- mapM (fun poly =>
    xys <- mapM (fun p => equalarea_geo2rect prj (fst p) (snd p)) poly ;;
    poly_centroid xys) region ;;
  c <- region_centroid cw ;;
  equalarea_rect2geo prj (fst c) (snd c).
Fixpoint centroid_loop (fuel : nat) (region : list (list (R * R))) (epsilon : R) (c0 : R * R) : option (res (R * R)) :=
  match fuel with
  | O => None
  | S f =>
      match centroid_step region c0 with
      | Err x => Some (Err x)
      | Ok c1 =>
          if Rle_bool (Rabs (fst c1 - fst c0)) epsilon && Rle_bool (Rabs (snd c1 - snd c0)) epsilon then Some (Ok c1)
          else centroid_loop f region epsilon c1
      end
  end.
(** bb = BBox(poly) | bb, where bb is None at first and None is false. *)
Definition or_none (b : bbox R) (o : option (bbox R)) : option (bbox R) :=
  if negb (bb_bool b) then o else match o with None => Some b | Some o => Some (bb_or b o) end.
(** coord.py:184-219 *)
Definition geocentroid (fuel : nat) (region : list (list (R * R))) (bb : option (bbox R)) (epsilon : option R) : option (res (R * R)) :=
  match (match bb with
         | Some b => Ok (Some b)
         | None => foldM (fun o poly => b <- bb_of_points poly ;; Ok (or_none b o)) region None
         end) with
  | Err x => Some (Err x)
  | Ok None => Some (Err AttributeError)
  | Ok (Some b) =>
      let epsilon := match epsilon with None => 1 / 10000000000 | Some e => e end in
      centroid_loop fuel region epsilon (bb_center b)
  end.

(** coord.py:222-227 *)
Inductive wind := wN | wNNW | wNW | wWNW | wW | wWSW | wSW | wSSW | wS | wSSE | wSE | wESE | wE | wENE | wNE | wNNE.
Definition cardinals : list wind := [wN; wNNW; wNW; wWNW; wW; wWSW; wSW; wSSW; wS; wSSE; wSE; wESE; wE; wENE; wNE; wNNE].
(** x % m for a positive m *)
Definition q_mod (x m : Q) : Q := (x - m * inject_Z (Qfloor (x / m)))%Q.
(** coord.py:221-230 *)
Definition bearing2cardinal (b : Q) : res wind :=
  let b := q_mod (b + 360) 360 in
  let index := (2 * b / 45)%Q in
  py_get cardinals (nearestQ index mod 16)%Z.
(** coord.py:232-234 *)
Definition bearing2hours (b : Q) : Q :=
  let b := q_mod (b + 360) 360 in
  (12 - b / 30)%Q.
