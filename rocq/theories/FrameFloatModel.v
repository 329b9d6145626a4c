(** Centres of frames in double arithmetic. *)
From Coq Require Import SpecFloat.
From Verif Require Import Py Num Text BBoxModel NumTextModel JsonModel.
Open Scope Z_scope.

(** math.pi, and the factors of CPython's math.degrees and math.radians
    (mathmodule.c: 180.0 / pi and pi / 180.0), as proj.py:77 and frame.py:66
    use them *)
Definition pi64 : f64 := S754_finite false 7074237752028440 (-51).
Definition degrees64 (x : f64) : f64 := fmul x (fdiv (fofZ 180) pi64).
Definition radians64 (x : f64) : f64 := fmul x (fdiv pi64 (fofZ 180)).

(** A frame with a spherical projection: the class name of the projection, its
    centre in radians, radius, and the bounding box *)
Record frame64 := mkf64 { f_type : list Z; f_lon0 : f64; f_lat0 : f64; f_r : number; f_box : bbox number }.
(** proj.py:69-81 (origin and radius given) and frame.py:45-47 *)
Definition new64 (cls : list Z) (lon lat : f64) (r : number) (b : bbox number) : frame64 :=
  mkf64 cls (radians64 lon) (radians64 lat) r b.
(** frame.py:49-83 *)
Definition save64 (f : frame64) : list Z :=
  frame_file (mkset (f_type f) (Float (degrees64 (f_lon0 f)), Float (degrees64 (f_lat0 f))) (Sphere (f_r f)) (f_box f)).
(** frame.py:115-133 for spheres. The class is known by its name; the order of
    the corners is left as it is in the file. None: anything else. *)
Fixpoint value_at (k : list Z) (l : list (list Z * doc)) : option doc :=
  match l with
  | [] => None
  | (k', v) :: r => match value_at k r with Some w => Some w | None => if list_eq_dec Z.eq_dec k' k then Some v else None end
  end.
Definition field (k : list Z) (d : option doc) : option doc :=
  match d with Some (DObj l) => value_at k l | _ => None end.
Definition load64 (s : list Z) : option frame64 :=
  let d := load_text s in
  let b := field (text "bounding") d in
  let p := field (text "projection") d in
  let m := field (text "model") p in
  match field (text "x0") b, field (text "y0") b, field (text "x1") b, field (text "y1") b with
  | Some (DNum x0), Some (DNum y0), Some (DNum x1), Some (DNum y1) =>
      match field (text "type") p, field (text "center") p, field (text "type") m, field (text "r") m with
      | Some (DStr t), Some (DArr [DNum (Float lon); DNum (Float lat)]), Some (DStr mt), Some (DNum r) =>
          if list_eq_dec Z.eq_dec mt (text "ellipsoid") then None else Some (new64 t lon lat r (mkbb x0 y0 x1 y1))
      | _, _, _, _ => None
      end
  | _, _, _, _ => None
  end.
