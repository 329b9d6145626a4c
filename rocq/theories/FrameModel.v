(** Model of coral/frame.py, over the real numbers. *)
From Verif Require Import Num RealNum BBoxModel BufferModel SimplifyModel VlvModel PfModel StrModel Text ProjModel.
Open Scope Z_scope.

(** The classes of proj.py deriving from Proj (proj.py:67, 107, 166, 192, 222,
    257, 300, 348) and their names. *)
Inductive sphere_class := CProjBase | CMercator | CTrans | CObliq | CEckert | CStereo | CEquidistant | CEqualArea.
Definition class_name (c : sphere_class) : list Z :=
  match c with
  | CProjBase => text "Proj" | CMercator => text "Mercator" | CTrans => text "TransMercator" | CObliq => text "ObliqMercator"
  | CEckert => text "EckertIV" | CStereo => text "Stereographic" | CEquidistant => text "AzimuthalEquidistant"
  | CEqualArea => text "AzimuthalEqualArea"
  end.
(** proj.py:93, 129 and 391. The base class CProj is left out. *)
Inductive projection :=
| PSphere (c : sphere_class) (p : proj)
| PEllipsoid (mercator : bool) (p : eproj)   (* EMercator or the base class EProj *)
| PConic (k : conic).

(** p.geo2rect(lon, lat): None when the loop of EckertIV has not ended within
    the fuel; the base classes have no such method. *)
Definition geo2rect (fuel : nat) (p : projection) (lon lat : R) : option (res (R * R)) :=
  match p with
  | PSphere CProjBase _ => Some (Err AttributeError)
  | PSphere CMercator p => Some (mercator_geo2rect p lon lat)
  | PSphere CTrans p => Some (tmercator_geo2rect p lon lat)
  | PSphere CObliq p => Some (omercator_geo2rect p lon lat)
  | PSphere CEckert p => eckert_geo2rect fuel p lon lat
  | PSphere CStereo p => Some (stereo_geo2rect p lon lat)
  | PSphere CEquidistant p => Some (equidistant_geo2rect p lon lat)
  | PSphere CEqualArea p => Some (equalarea_geo2rect p lon lat)
  | PEllipsoid true p => Some (emercator_geo2rect p lon lat)
  | PEllipsoid false _ => Some (Err AttributeError)
  | PConic k => Some (conic_geo2rect k lon lat)
  end.

(** frame.py:43-49 *)
Record frame := mkframe { fr_proj : projection; fr_box : bbox R }.

(** JSON values. The text written by json.dump and read by json.load is not
    modelled: a document comes back as it was saved, tuples as lists. *)
Inductive json := JNull | JNum (x : R) | JStr (s : list Z) | JArr (l : list json) | JObj (l : list (list Z * json)).
(** d[k] *)
Fixpoint assoc (k : list Z) (l : list (list Z * json)) : res json :=
  match l with
  | [] => Err KeyError
  | (k', v) :: r => if zlist_eqb k k' then Ok v else assoc k r
  end.
Definition jget (j : json) (k : list Z) : res json :=
  match j with JObj l => assoc k l | _ => Err TypeError end.
(** A number where a number is expected. Python would also let other values
    through here and fail later, or not at all; that is not modelled. *)
Definition jnum (j : json) : res R := match j with JNum x => Ok x | _ => Err TypeError end.
Definition jstr (j : json) : res (list Z) := match j with JStr s => Ok s | _ => Err TypeError end.
(** lon0, lat0 = origin *)
Definition jpair (j : json) : res (R * R) :=
  match j with
  | JArr [a; b] => x <- jnum a ;; y <- jnum b ;; Ok (x, y)
  | JArr _ => Err ValueError
  | _ => Err TypeError
  end.

(** frame.py:51-83: the document written *)
Definition frame_save (f : frame) : res json :=
  let model := match fr_proj f with
               | PEllipsoid _ p => JObj [(text "type", JStr (text "ellipsoid")); (text "a", JNum (el_a (e_ell p))); (text "b", JNum (el_b (e_ell p)));
                                         (text "e", JNum (el_e (e_ell p))); (text "f", JNum (el_f (e_ell p)))]
               | PSphere _ p => JObj [(text "type", JStr (text "sphere")); (text "r", JNum (p_r p))]
               | PConic k => JObj [(text "type", JStr (text "sphere")); (text "r", JNum (k_r k))]
               end in
  '(rlon, rlat) <- match fr_proj f with
                   | PEllipsoid _ p => Ok (e_lon0 p, e_lat0 p)
                   | PSphere _ p => Ok (p_lon0 p, p_lat0 p)
                   | PConic _ => Err AttributeError
                   end ;;
  let '(lon, lat) := (degrees rlon, degrees rlat) in
  let name := match fr_proj f with
              | PEllipsoid true _ => text "EMercator"
              | PEllipsoid false _ => text "EProj"
              | PSphere c _ => class_name c
              | PConic _ => text "ConicEqualArea"
              end in
  Ok (JObj [(text "projection", JObj [(text "type", JStr name); (text "center", JArr [JNum lon; JNum lat]);
                                       (text "orientation", JNum 0%R); (text "model", model)]);
            (text "bounding", JObj [(text "x0", JNum (bx0 (fr_box f))); (text "y0", JNum (by0 (fr_box f)));
                                     (text "x1", JNum (bx1 (fr_box f))); (text "y1", JNum (by1 (fr_box f)))])]).

(** getattr(proj, name): only the projection classes are modelled. *)
Inductive any_class := ASphere (c : sphere_class) | AEllipsoid (mercator : bool) | AConic.
Definition getattr_proj (name : list Z) : res any_class :=
  match find (fun c => zlist_eqb name (class_name c)) [CProjBase; CMercator; CTrans; CObliq; CEckert; CStereo; CEquidistant; CEqualArea] with
  | Some c => Ok (ASphere c)
  | None =>
      if zlist_eqb name (text "EMercator") then Ok (AEllipsoid true)
      else if zlist_eqb name (text "EProj") then Ok (AEllipsoid false)
      else if zlist_eqb name (text "ConicEqualArea") then Ok AConic
      else Err AttributeError
  end.
(** frame.py:133, Proj(c, r): an ellipsoidal class unpacks the number r. *)
Definition construct (c : any_class) (o : json) (r : R) : res projection :=
  o <- jpair o ;;
  match c with
  | ASphere c => Ok (PSphere c (proj_new (Some o) (Some r)))
  | AEllipsoid _ => Err TypeError
  | AConic => rmap PConic (conic_new (Some o) (Some r))
  end.
(** frame.py:117-135: the name Ellipsoid is not imported. *)
Definition frame_load (d : json) : res frame :=
  b <- jget d (text "bounding") ;;
  x0 <- (v <- jget b (text "x0") ;; jnum v) ;;
  y0 <- (v <- jget b (text "y0") ;; jnum v) ;;
  x1 <- (v <- jget b (text "x1") ;; jnum v) ;;
  y1 <- (v <- jget b (text "y1") ;; jnum v) ;;
  let bb := bb_corners (x0, y0) (x1, y1) in
  p <- jget d (text "projection") ;;
  t <- (v <- jget p (text "type") ;; jstr v) ;;
  cls <- getattr_proj t ;;
  c <- jget p (text "center") ;;
  m <- jget p (text "model") ;;
  mt <- jget m (text "type") ;;
  if match mt with JStr s => zlist_eqb s (text "ellipsoid") | _ => false end then Err NameError
  else
    r <- (v <- jget m (text "r") ;; jnum v) ;;
    prj <- construct cls c r ;;
    Ok (mkframe prj bb).

(** x // s *)
Definition floordiv (x s : R) : res R :=
  q <- ndivE x s ;; Ok (IZR (Int_part q)).
(** frame.py:85-90 *)
Definition frame_point (fuel : nat) (f : frame) (scale : R) (point : R * R) : option (res (R * R)) :=
  match geo2rect fuel (fr_proj f) (fst point) (snd point) with
  | None => None
  | Some r => Some ('(x, y) <- r ;; x <- floordiv x scale ;; y <- floordiv y scale ;; Ok (x, y))
  end.

(** The projections of all points; the first exception wins. *)
Fixpoint project (fuel : nat) (p : projection) (points : list (R * R)) : option (res (list (R * R))) :=
  match points with
  | [] => Some (Ok [])
  | (lon, lat) :: r =>
      match geo2rect fuel p lon lat with
      | None => None
      | Some (Err e) => Some (Err e)
      | Some (Ok xy) =>
          match project fuel p r with
          | None => None
          | Some x => Some (rmap (cons xy) x)
          end
      end
  end.

(** coord.py:36 on real numbers *)
Definition nearestR (x : R) : Z :=
  let v := (x + (if Rlt_bool x 0 then - (1 / 2) else 1 / 2))%R in
  if Rlt_bool v 0 then - Int_part (- v) else Int_part v.
(** frame.py:92-95 with coord.py:243-247 and 303-308 on real numbers (k is 8).
    What has been yielded before a projection raises is not modelled. *)
Definition frame_planify (fuel : nat) (f : frame) (scale : R) (points : list (R * R)) (closed : bool) : option gen :=
  match project fuel (fr_proj f) points with
  | None => None
  | Some (Err e) => Some ([], Err e)
  | Some (Ok xys) =>
      match xys with
      | [] => if closed then closed_no_slit fuel [] 8 else open_no_slit fuel [] 8
      | _ =>
          if Req_bool scale 0 then Some ([], Err ZeroDivisionError)
          else
            let s := map (fun '(x, y) => (nearestR (x / scale), nearestR (y / scale)))%R xys in
            if closed then closed_no_slit fuel s 8 else open_no_slit fuel s 8
      end
  end.

(** frame.py:100-105: whether the name is listed *)
Fixpoint any_collides (fuel : nat) (f : frame) (parts : list (list (R * R))) : option (res bool) :=
  match parts with
  | [] => Some (Ok false)
  | points :: r =>
      match project fuel (fr_proj f) points with
      | None => None
      | Some (Err e) => Some (Err e)
      | Some (Ok xys) =>
          match bb_of_points xys with
          | Err e => Some (Err e)
          | Ok bb => if bb_collide (fr_box f) bb then Some (Ok true) else any_collides fuel f r
          end
      end
  end.
(** frame.py:97-105: the lines collected (tqdm passes the names through). *)
Fixpoint cache_lines (fuel : nat) (f : frame) (pff : preader R) (names : list (list Z)) : option (res (list (list Z))) :=
  match names with
  | [] => Some (Ok [])
  | name :: r =>
      match pf_get pff name with
      | Err e => Some (Err e)
      | Ok parts =>
          match any_collides fuel f parts with
          | None => None
          | Some (Err e) => Some (Err e)
          | Some (Ok b) =>
              match cache_lines fuel f pff r with
              | None => None
              | Some x => Some (rmap (fun l => if b : bool then (name ++ [10]) :: l else l) x)
              end
          end
      end
  end.
(** frame.py:97-108: the text of the file and the returned number *)
Definition cachenames (fuel : nat) (f : frame) (pff : preader R) : option (res (list Z * Z)) :=
  match cache_lines fuel f pff (r_names pff) with
  | None => None
  | Some x => Some (rmap (fun l => (concat l, Z.of_nat (length l))) x)
  end.

(** for line in f: the lines of a translated text *)
Fixpoint file_lines (fuel : nat) (s : list Z) : list (list Z) :=
  match fuel with
  | O => []
  | S n => match s with [] => [] | _ => let '(l, t) := readline s in l :: file_lines n t end
  end.
(** frame.py:110-115 *)
Definition loadnames (content : list Z) : list (list Z) :=
  let s := univ_newlines content in
  map (rstrip_by is_space) (file_lines (length s) s).
