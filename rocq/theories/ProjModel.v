(** Model of coral/proj.py. Angles and lengths are real numbers: rounding, the
    infinities, NaN and the sign of zero are not modelled, and math.pi is PI
    (corangle is modelled for doubles as well). *)
From Coq Require Export Reals Lra.
From Verif Require Export Num RealNum.
Open Scope R_scope.

(** The math module: a ValueError where the function is not defined. *)
Definition radians (x : R) : R := x * (PI / 180).
Definition degrees (x : R) : R := x * (180 / PI).
Definition math_sqrt (x : R) : res R := if Rlt_bool x 0 then Err ValueError else Ok (sqrt x).
Definition math_log (x : R) : res R := if Rle_bool x 0 then Err ValueError else Ok (ln x).
Definition math_asin (x : R) : res R := if Rle_bool (-1) x && Rle_bool x 1 then Ok (asin x) else Err ValueError.
Definition math_acos (x : R) : res R := if Rle_bool (-1) x && Rle_bool x 1 then Ok (acos x) else Err ValueError.
Definition math_atanh (x : R) : res R :=
  if Rlt_bool (-1) x && Rlt_bool x 1 then Ok (ln ((1 + x) / (1 - x)) / 2) else Err ValueError.
(** math.atan2(y, x) *)
Definition atan2 (y x : R) : R :=
  if Rlt_bool 0 x then atan (y / x)
  else if Rlt_bool x 0 then (if Rle_bool 0 y then atan (y / x) + PI else atan (y / x) - PI)
  else if Rlt_bool 0 y then PI / 2 else if Rlt_bool y 0 then - (PI / 2) else 0.
(** math.tan is tan. The standard library divides by zero at odd multiples of
    a right angle; no double is one. *)

(** proj.py:28-34. None when the fuel is used up. *)
Section Corangle.
  Context {T : Type} `{PyNum T}.
  Fixpoint add_turns (pi2 mpi : T) (fuel : nat) (a : T) : option T :=
    match fuel with
    | O => None
    | S f => if nlt a mpi then add_turns pi2 mpi f (nadd a pi2) else Some a
    end.
  Fixpoint sub_turns (pi2 pi : T) (fuel : nat) (a : T) : option T :=
    match fuel with
    | O => None
    | S f => if nlt pi a then sub_turns pi2 pi f (nsub a pi2) else Some a
    end.
  Definition corangle_loop (pi : T) (fuel : nat) (a : T) : option T :=
    let pi2 := nmul (nofZ 2) pi in
    match add_turns pi2 (nsub (nofZ 0) pi) fuel a with
    | Some a => sub_turns pi2 pi fuel a
    | None => None
    end.
End Corangle.
(** Enough fuel; the proofs show that the loops end. *)
Definition turns (a : R) : nat := S (Z.to_nat (up (Rabs a / (2 * PI)))).
Definition corangle (a : R) : R := match corangle_loop PI (turns a) a with Some r => r | None => a end.

(** proj.py:40-65 *)
Record ellipsoid := { el_a : R; el_b : R; el_e : R; el_f : R }.
Definition make_ellipsoid (a f : R) : res ellipsoid :=
  e <- math_sqrt (2 * f - f * f) ;;
  Ok {| el_a := a; el_b := a * (1 - f); el_e := e; el_f := f |}.
Definition wgs84_f : R := 1 / (298257223563 / 1000000000).
Definition WGS84 : ellipsoid := {| el_a := 6378137; el_b := 6378137 * (1 - wgs84_f); el_e := sqrt (2 * wgs84_f - wgs84_f * wgs84_f); el_f := wgs84_f |}.
Definition grs80_f : R := 1 / (298257222101 / 1000000000).
Definition GRS80 : ellipsoid := {| el_a := 6378137; el_b := 6378137 * (1 - grs80_f); el_e := sqrt (2 * grs80_f - grs80_f * grs80_f); el_f := grs80_f |}.

(** proj.py:67-78: class Proj *)
Record proj := { p_lon0 : R; p_lat0 : R; p_r : R }.
Definition default_radius : R := (el_a WGS84 + el_b WGS84) / 2.
Definition proj_new (origin : option (R * R)) (radius : option R) : proj :=
  let '(lon0, lat0) := match origin with None => (0, 0) | Some o => o end in
  {| p_lon0 := radians lon0; p_lat0 := radians lat0; p_r := match radius with None => default_radius | Some r => r end |}.
(** proj.py:93-105: class EProj *)
Record eproj := { e_lon0 : R; e_lat0 : R; e_ell : ellipsoid }.
Definition eproj_new (origin : option (R * R)) (e : option ellipsoid) : eproj :=
  let '(lon0, lat0) := match origin with None => (0, 0) | Some o => o end in
  {| e_lon0 := radians lon0; e_lat0 := radians lat0; e_ell := match e with None => WGS84 | Some e => e end |}.

(** proj.py:107-127: class Mercator *)
Definition mercator_geo2rect (p : proj) (lon lat : R) : res (R * R) :=
  if Req_bool lat (-90) then Err ProjectionError else
  let '(lon, lat) := (radians lon, radians lat) in
  let x := p_r p * corangle (lon - p_lon0 p) in
  l <- math_log (tan (PI / 4 + lat / 2)) ;;
  Ok (x, p_r p * l).
Definition mercator_rect2geo (p : proj) (x y : R) : res (R * R) :=
  u <- ndivE x (p_r p) ;;
  let lon := corangle (u + p_lon0 p) in
  v <- ndivE y (p_r p) ;;
  let lat := atan (sinh v) in
  Ok (degrees lon, degrees lat).
Definition mercator_scale (p : proj) (lon lat : R) : res R := ndivE 1 (cos (radians lat)).

(** x ** y; only a positive base is ever meant here. *)
Definition math_pow (x y : R) : res R := if Rle_bool x 0 then Err ValueError else Ok (Rpower x y).
(** proj.py:129-164: class EMercator *)
Definition emercator_geo2rect (p : eproj) (lon lat : R) : res (R * R) :=
  if Req_bool lat (-90) then Err ProjectionError else
  let '(lon, lat) := (radians lon, radians lat) in
  let a := el_a (e_ell p) in
  let e := el_e (e_ell p) in
  let x := a * corangle (lon - e_lon0 p) in
  let esinlat := e * sin lat in
  let y := tan (PI / 4 + lat / 2) in
  q <- ndivE (1 - esinlat) (1 + esinlat) ;;
  w <- math_pow q (e / 2) ;;
  l <- math_log (y * w) ;;
  Ok (x, a * l).
(** proj.py:150-155: one turn of the loop *)
Definition emercator_step (e t l0 : R) : res R :=
  let esinlat := e * sin l0 in
  q <- ndivE (1 - esinlat) (1 + esinlat) ;;
  w <- math_pow q (e / 2) ;;
  Ok (PI / 2 - 2 * atan (t * w)).
Fixpoint emercator_loop (fuel : nat) (e t l0 : R) : option (res R) :=
  match fuel with
  | O => None
  | S f =>
      match emercator_step e t l0 with
      | Err x => Some (Err x)
      | Ok lat => if Req_bool lat l0 then Some (Ok lat) else emercator_loop f e t lat
      end
  end.
Definition emercator_rect2geo (fuel : nat) (p : eproj) (x y : R) : option (res (R * R)) :=
  let a := el_a (e_ell p) in
  match ndivE x a, ndivE (- y) a with
  | Ok u, Ok v =>
      let lon := corangle (u + e_lon0 p) in
      let t := exp v in
      match emercator_loop fuel (el_e (e_ell p)) t (PI / 2 - 2 * atan t) with
      | None => None
      | Some r => Some (rmap (fun lat => (degrees lon, degrees lat)) r)
      end
  | Err x, _ | _, Err x => Some (Err x)
  end.
Definition emercator_scale (p : eproj) (lon lat : R) : res R :=
  let lat := radians lat in
  let e := el_e (e_ell p) in
  s <- math_sqrt (1 - e * e * sin lat * sin lat) ;;
  ndivE s (cos lat).

(** proj.py:166-190: class TransMercator *)
Definition tmercator_geo2rect (p : proj) (lon lat : R) : res (R * R) :=
  let '(lon, lat) := (radians lon, radians lat) in
  let b := cos lat * sin (lon - p_lon0 p) in
  if Req_bool b (-1) || Req_bool b 1 then Err ProjectionError else
  h <- math_atanh b ;;
  Ok (p_r p * h, p_r p * corangle (atan2 (tan lat) (cos (lon - p_lon0 p)) - p_lat0 p)).
Definition tmercator_rect2geo (p : proj) (x y : R) : res (R * R) :=
  v <- ndivE y (p_r p) ;;
  let d := v + p_lat0 p in
  u <- ndivE x (p_r p) ;;
  let lon := p_lon0 p + atan2 (sinh u) (cos d) in
  q <- ndivE (sin d) (cosh u) ;;
  lat <- math_asin q ;;
  Ok (degrees lon, degrees lat).
Definition tmercator_scale (p : proj) (lon lat : R) : res R :=
  let '(lon, lat) := (radians lon, radians lat) in
  let b := cos lat * sin (lon - p_lon0 p) in
  s <- math_sqrt (1 - b * b) ;;
  ndivE 1 s.

(** proj.py:192-220: class ObliqMercator *)
Definition omercator_geo2rect (p : proj) (lon lat : R) : res (R * R) :=
  let '(lon, lat) := (radians lon, radians lat) in
  let c := cos (p_lat0 p) in
  let s := sin (p_lat0 p) in
  let a := s * sin lat - c * cos lat * sin (lon - p_lon0 p) in
  let v := tan lat * c + s * sin (lon - p_lon0 p) in
  let h := cos (lon - p_lon0 p) in
  q <- ndivE v h ;;
  t <- math_atanh a ;;
  Ok (p_r p * atan q, p_r p * t).
Definition omercator_rect2geo (p : proj) (x y : R) : res (R * R) :=
  let c := cos (p_lat0 p) in
  let s := sin (p_lat0 p) in
  xr <- ndivE x (p_r p) ;;
  yr <- ndivE y (p_r p) ;;
  w <- ndivE (c * sin xr) (cosh yr) ;;
  lat <- math_asin (s * tanh yr + w) ;;
  let v := s * sin xr - c * sinh yr in
  let h := cos xr in
  q <- ndivE v h ;;
  Ok (degrees (p_lon0 p + atan q), degrees lat).
Definition omercator_scale (p : proj) (lon lat : R) : res R :=
  let '(lon, lat) := (radians lon, radians lat) in
  let c := cos (p_lat0 p) in
  let s := sin (p_lat0 p) in
  let a := s * sin lat - c * cos lat * sin (lon - p_lon0 p) in
  k <- math_sqrt (1 - a * a) ;;
  ndivE 1 k.

(** proj.py:222-255: class EckertIV *)
Definition eckert_cx : R := 2 / sqrt (4 * PI + PI * PI).
Definition eckert_cy : R := 2 * sqrt (PI / (4 + PI)).
Definition eckert_c : R := 2 + PI / 2.
(** proj.py:234-240: None when the fuel is used up; theta is the value the
    last costheta and sintheta were computed from. *)
Definition eckert_num (sinlat theta : R) : R := theta + sin theta * cos theta + 2 * sin theta - eckert_c * sinlat.
Definition eckert_den (theta : R) : R := 2 * cos theta * (1 + cos theta).
Fixpoint eckert_loop (fuel : nat) (sinlat theta : R) : option (res R) :=
  match fuel with
  | O => None
  | S f =>
      match ndivE (- eckert_num sinlat theta) (eckert_den theta) with
      | Err x => Some (Err x)
      | Ok delta => if Rlt_bool (1 / 1000000) (Rabs delta) then eckert_loop f sinlat (theta + delta) else Some (Ok theta)
      end
  end.
Definition eckert_geo2rect (fuel : nat) (p : proj) (lon lat : R) : option (res (R * R)) :=
  let '(lon, lat) := (radians lon, radians lat) in
  match eckert_loop fuel (sin lat) (lat / 2) with
  | None => None
  | Some r => Some (rmap (fun theta =>
      (eckert_cx * p_r p * corangle (lon - p_lon0 p) * (1 + cos theta), eckert_cy * p_r p * sin theta)) r)
  end.
Definition eckert_rect2geo (p : proj) (x y : R) : res (R * R) :=
  q <- ndivE y (eckert_cy * p_r p) ;;
  theta <- math_asin q ;;
  u <- ndivE x (eckert_cx * p_r p * (1 + cos theta)) ;;
  v <- ndivE (theta + sin theta * cos theta + 2 * sin theta) eckert_c ;;
  lat <- math_asin v ;;
  Ok (degrees (p_lon0 p + u), degrees lat).

(** proj.py:257-275: class Stereographic; coslat0 and sinlat0 are computed when
    they are used. *)
Definition azimuthal_xy (p : proj) (k lon lat : R) : R * R :=
  let coslat0 := cos (p_lat0 p) in
  let sinlat0 := sin (p_lat0 p) in
  (p_r p * k * (cos lat * sin (lon - p_lon0 p)),
   p_r p * k * (coslat0 * sin lat - sinlat0 * cos lat * cos (lon - p_lon0 p))).
Definition azimuthal_cos (p : proj) (lon lat : R) : R :=
  sin (p_lat0 p) * sin lat + cos (p_lat0 p) * cos lat * cos (lon - p_lon0 p).
Definition stereo_geo2rect (p : proj) (lon lat : R) : res (R * R) :=
  let '(lon, lat) := (radians lon, radians lat) in
  k <- ndivE 2 (1 + azimuthal_cos p lon lat) ;;
  Ok (azimuthal_xy p k lon lat).
(** proj.py:280-295, and the same text at 328-343 and 371-386 *)
Definition azimuthal_inverse (p : proj) (c rho x y : R) : res (R * R) :=
  let coslat0 := cos (p_lat0 p) in
  let sinlat0 := sin (p_lat0 p) in
  let cosc := cos c in
  let sinc := sin c in
  q <- (if Req_bool (p_lat0 p) (PI / 2) then ndivE x (- y)
        else if Req_bool (p_lat0 p) (- PI / 2) then ndivE x y
        else
          let den := rho * coslat0 * cosc - y * sinlat0 * sinc in
          ndivE (x * sinc) den) ;;
  let lon := p_lon0 p + atan q in
  w <- ndivE (y * sinc * coslat0) rho ;;
  lat <- math_asin (cosc * sinlat0 + w) ;;
  Ok (degrees lon, degrees lat).
(** proj.py:277-295 *)
Definition stereo_rect2geo (p : proj) (x y : R) : res (R * R) :=
  rho <- math_sqrt (x * x + y * y) ;;
  q <- ndivE rho (2 * p_r p) ;;
  azimuthal_inverse p (2 * atan q) rho x y.
(** proj.py:300-323: class AzimuthalEquidistant *)
Definition equidistant_geo2rect (p : proj) (lon lat : R) : res (R * R) :=
  let '(lon, lat) := (radians lon, radians lat) in
  if Req_bool lon (p_lon0 p) && Req_bool lat (p_lat0 p) then Ok (0, 0) else
  c <- math_acos (azimuthal_cos p lon lat) ;;
  k <- ndivE c (sin c) ;;
  Ok (azimuthal_xy p k lon lat).
(** proj.py:325-343 *)
Definition equidistant_rect2geo (p : proj) (x y : R) : res (R * R) :=
  rho <- math_sqrt (x * x + y * y) ;;
  c <- ndivE rho (p_r p) ;;
  azimuthal_inverse p c rho x y.
(** proj.py:348-366: class AzimuthalEqualArea *)
Definition equalarea_geo2rect (p : proj) (lon lat : R) : res (R * R) :=
  let '(lon, lat) := (radians lon, radians lat) in
  q <- ndivE 2 (1 + azimuthal_cos p lon lat) ;;
  k <- math_sqrt q ;;
  Ok (azimuthal_xy p k lon lat).
(** proj.py:368-386 *)
Definition equalarea_rect2geo (p : proj) (x y : R) : res (R * R) :=
  rho <- math_sqrt (x * x + y * y) ;;
  q <- ndivE rho (2 * p_r p) ;;
  c <- math_asin q ;;
  azimuthal_inverse p (2 * c) rho x y.

(** proj.py:80-91 and 391-402: classes CProj and ConicEqualArea *)
Record conic := { k_lat1 : R; k_lat2 : R; k_r : R; k_n : R; k_c : R; k_p0 : R }.
Definition conic_new (parallels : option (R * R)) (radius : option R) : res conic :=
  let '(lat1, lat2) := match parallels with None => (0, 0) | Some o => o end in
  let '(lat1, lat2) := (radians lat1, radians lat2) in
  let r := match radius with None => default_radius | Some r => r end in
  let coslat12 := cos lat1 * cos lat1 in
  let n := (sin lat1 + sin lat2) / 2 in
  let c := coslat12 + 2 * n * sin lat1 in
  s <- math_sqrt c ;;
  p0 <- ndivE (r * s) n ;;
  Ok {| k_lat1 := lat1; k_lat2 := lat2; k_r := r; k_n := n; k_c := c; k_p0 := p0 |}.
(** proj.py:404-411 *)
Definition conic_geo2rect (k : conic) (lon lat : R) : res (R * R) :=
  let '(lon, lat) := (radians lon, radians lat) in
  s <- math_sqrt (k_c k - 2 * k_n k * sin lat) ;;
  p <- ndivE (k_r k * s) (k_n k) ;;
  let t := k_n k * lon in
  Ok (p * sin t, k_p0 k - p * cos t).
(** proj.py:413-425 *)
Definition conic_rect2geo (k : conic) (x y : R) : res (R * R) :=
  p <- math_sqrt (x * x + (k_p0 k - y) * (k_p0 k - y)) ;;
  let '(p0, x, y) := if Rlt_bool (k_n k) 0 then (- k_p0 k, - x, - y) else (k_p0 k, x, y) in
  let t := atan2 x (p0 - y) in
  lon <- ndivE t (k_n k) ;;
  pnr <- ndivE (p * k_n k) (k_r k) ;;
  q <- ndivE (k_c k - pnr * pnr) (2 * k_n k) ;;
  lat <- math_asin q ;;
  Ok (degrees lon, degrees lat).
(** proj.py:427-434 *)
Definition conic_scale (k : conic) (lon lat : R) : res R :=
  let lat := radians lat in
  s <- math_sqrt (k_c k - 2 * k_n k * sin lat) ;;
  ndivE (cos lat) s.
(** proj.py:254-255, 297-298, 345-346 and 388-389: NotImplemented is not
    callable. *)
Definition other_scale (p : proj) (lon lat : R) : res R := Err TypeError.
