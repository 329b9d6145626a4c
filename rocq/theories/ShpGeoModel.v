(** Model of signed_area and of the GeoJSON-like view of a shape
    (/repo/coral/shapefile.py), over any number system. *)
From Coq Require Import SpecFloat.
From Verif Require Import Num Py ShpFile ShpWriterModel.
Open Scope Z_scope.

Section Geo.
Context {T : Type} `{PyNum T}.
(** The number of tuples that [zip( *coords)] gives: none without arguments, and
    otherwise as many as the shortest point has coordinates. *)
Definition zip_count (coords : list (list T)) : nat :=
  match coords with
  | [] => O
  | p :: r => fold_left (fun n q => Nat.min n (length q)) r (length p)
  end.
(** shapefile.py:104-112. [sum] starts with the int 0. *)
Definition signed_area (coords : list (list T)) : res T :=
  if negb (Nat.eqb (zip_count coords) 2) then Err ValueError else
  let xs := map (fun p => nth 0 p (nofZ 0)) coords in
  let ys := map (fun p => nth 1 p (nofZ 0)) coords in
  x1 <- py_get xs 1 ;;
  y1 <- py_get ys 1 ;;
  let xs := xs ++ [x1] in
  let ys := ys ++ [y1] in
  terms <- mapM (fun i => x <- py_get xs (Z.of_nat i) ;;
                          y1 <- py_get ys (Z.of_nat i + 1) ;;
                          y0 <- py_get ys (Z.of_nat i - 1) ;;
                          Ok (nmul x (nsub y1 y0))) (seq 1 (length coords - 1)) ;;
  Ok (ndiv (fold_left nadd terms (nofZ 0)) (nofZ 2)).

(** The dictionaries with a type and coordinates. A list and a tuple of
    polygons are not distinguished. *)
Inductive geo : Type :=
| GPoint (p : list T)
| GMultiPoint (ps : list (list T))
| GLineString (ps : list (list T))
| GMultiLineString (l : list (list (list T)))
| GPolygon (rings : list (list (list T)))
| GMultiPolygon (polys : list (list (list (list T)))).

(** shapefile.py:147-156 and 170-179. The loop variable after the loop is the
    last part, which [ps] is as well; without parts it is unbound. *)
Fixpoint split_parts (points : list (list T)) (ps : option Z) (parts : list Z) : res (list (list (list T))) :=
  match parts with
  | [] => match ps with
          | None => Err UnboundLocalError
          | Some part => Ok [py_slice points part (Z.of_nat (length points))]
          end
  | part :: r => match ps with
                 | None => split_parts points (Some part) r
                 | Some p => l <- split_parts points (Some part) r ;; Ok (py_slice points p part :: l)
                 end
  end.
(** shapefile.py:180-188: [poly] is the group that is being filled. *)
Fixpoint group_rings (poly : list (list (list T))) (coords : list (list (list T))) : res (list (list (list (list T)))) :=
  match coords with
  | [] => Ok [poly]
  | coord :: r =>
      a <- signed_area coord ;;
      if nlt a (nofZ 0) then l <- group_rings [coord] r ;; Ok (poly :: l)
      else group_rings (poly ++ [coord]) r
  end.
(** shapefile.py:128-198. The attribute [parts] may be missing. *)
Definition geo_interface (t : option Z) (points : list (list T)) (parts : option (list Z)) : res (option geo) :=
  if type_in t [1; 21; 11] then
    p <- py_get points 0 ;; Ok (Some (GPoint p))
  else if type_in t [8; 28; 18] then
    Ok (Some (GMultiPoint points))
  else if type_in t [3; 23; 13] then
    match parts with
    | None => Err AttributeError
    | Some parts =>
        if Nat.eqb (length parts) 1 then Ok (Some (GLineString points))
        else l <- split_parts points None parts ;; Ok (Some (GMultiLineString l))
    end
  else if type_in t [5; 25; 15] then
    match parts with
    | None => Err AttributeError
    | Some parts =>
        if Nat.eqb (length parts) 1 then Ok (Some (GPolygon [points]))
        else
          l <- split_parts points None parts ;;
          first <- py_get l 0 ;;
          polys <- group_rings [first] (skipn 1 l) ;;
          match polys with
          | [rings] => Ok (Some (GPolygon rings))
          | _ => Ok (Some (GMultiPolygon polys))
          end
    end
  else Ok None.
End Geo.
Arguments geo : clear implicits.

(** The double with a given bit pattern. *)
Definition f64_of_bits (d : dbl) : f64 :=
  let s := 9223372036854775808 <=? d in
  let m := dbl_mag d in
  let e := m / 4503599627370496 in
  let f := m mod 4503599627370496 in
  if e =? 2047 then (if f =? 0 then S754_infinity s else S754_nan)
  else if e =? 0 then (match f with Zpos p => S754_finite s p (-1074) | _ => S754_zero s end)
  else match 4503599627370496 + f with Zpos p => S754_finite s p (e - 1075) | _ => S754_zero s end.
(** [shape.__geo_interface__] of the objects in Writers and Readers *)
Definition geo_of (s : shape) : res (option (geo f64)) :=
  geo_interface (s_type s) (map (map f64_of_bits) (s_points s)) (s_parts s).
