(** Specification vocabulary for shapefiles, independent of the model's own
    helpers: the byte layout of the ESRI format, and what the shapes added by a
    program are. Doubles are 64-bit patterns, compared by [dbl_lt] (the IEEE
    order, see ShpFile.v). From the writer model only the record [shape] of the
    attributes of a shape object is used. *)
From Verif Require Import Py ShpFile ShpWriterModel.
Open Scope Z_scope.

(** ** Bytes *)
Definition byte_at (v k : Z) : Z := v / 256 ^ k mod 256.
(** Two's complement, least significant byte first. *)
Definition le32 (v : Z) : list Z := [byte_at v 0; byte_at v 1; byte_at v 2; byte_at v 3].
Definition be32 (v : Z) : list Z := [byte_at v 3; byte_at v 2; byte_at v 1; byte_at v 0].
Definition le64 (v : Z) : list Z :=
  [byte_at v 0; byte_at v 1; byte_at v 2; byte_at v 3;
   byte_at v 4; byte_at v 5; byte_at v 6; byte_at v 7].

(** ** Geometry of a shape as the user gave it *)
(** A vertex: x, y, z (elevation), m (measure). *)
Record vertex : Type := V { vx : dbl; vy : dbl; vz : dbl; vm : dbl }.
Definition coords (v : vertex) : list dbl := [vx v; vy v; vz v; vm v].
(** A shape is a list of parts. *)
Definition geometry := list (list vertex).
Definition vertices (g : geometry) : list vertex := concat g.
(** Start of each part: the number of vertices before it. *)
Fixpoint starts_from (n : Z) (g : geometry) : list Z :=
  match g with
  | [] => []
  | p :: r => n :: starts_from (n + Z.of_nat (length p)) r
  end.
Definition part_starts (g : geometry) : list Z := starts_from 0 g.

(** A least and a greatest element *)
Definition least (l : list dbl) (v : dbl) : Prop := In v l /\ forall x, In x l -> dbl_lt x v = false.
Definition greatest (l : list dbl) (v : dbl) : Prop := In v l /\ forall x, In x l -> dbl_lt v x = false.
(** [x0, y0, x1, y1] bounds the vertices, and every side is attained. *)
Definition bounds (vs : list vertex) (b : list dbl) : Prop :=
  exists x0 y0 x1 y1, b = [x0; y0; x1; y1] /\
    least (map vx vs) x0 /\ least (map vy vs) y0 /\
    greatest (map vx vs) x1 /\ greatest (map vy vs) y1.
(** The range of a list of measures together with 0 (the range the format
    would ask for is that of the measures alone). *)
Definition range0 (l : list dbl) (b : list dbl) : Prop :=
  exists a c, b = [a; c] /\ least (0 :: l) a /\ greatest (0 :: l) c.
Definition range_of (l : list dbl) (b : list dbl) : Prop :=
  exists a c, b = [a; c] /\ least l a /\ greatest l c.

(** ** Layout of the files
    ESRI Shapefile Technical Description: a 100-byte header and variable-length
    records, each with an 8-byte big-endian header (number, content length in
    16-bit words) followed by little-endian content. *)
(** Content of a record of type [t] (point, polyline, polygon, multipoint, point
    Z/M, polyline M, polygon M). *)
Definition doubles (l : list dbl) : list Z := flat_map le64 l.
Definition content (t : Z) (g : geometry) (c : list Z) : Prop :=
  let vs := vertices g in
  let xy := flat_map (fun v => doubles [vx v; vy v]) vs in
  (t = 1 /\ exists v, hd_error vs = Some v /\ c = le32 t ++ doubles [vx v; vy v]) \/
  (t = 11 /\ exists v, hd_error vs = Some v /\ c = le32 t ++ doubles [vx v; vy v; vz v; vm v]) \/
  (t = 21 /\ exists v, hd_error vs = Some v /\ c = le32 t ++ doubles [vx v; vy v; vm v]) \/
  (t = 8 /\ exists b, bounds vs b /\
     c = le32 t ++ doubles b ++ le32 (Z.of_nat (length vs)) ++ xy) \/
  ((t = 3 \/ t = 5) /\ exists b, bounds vs b /\
     c = le32 t ++ doubles b ++ le32 (Z.of_nat (length g)) ++ le32 (Z.of_nat (length vs)) ++
         flat_map le32 (part_starts g) ++ xy) \/
  ((t = 23 \/ t = 25) /\ exists b mb, bounds vs b /\ range0 (map vm vs) mb /\
     c = le32 t ++ doubles b ++ le32 (Z.of_nat (length g)) ++ le32 (Z.of_nat (length vs)) ++
         flat_map le32 (part_starts g) ++ xy ++ doubles mb ++ doubles (map vm vs)).

(** A record: number [n], content [c]. *)
Definition record_bytes (n : Z) (c : list Z) : list Z :=
  be32 n ++ be32 (Z.of_nat (length c) / 2) ++ c.
Fixpoint all_records (n : Z) (cs : list (list Z)) : list Z :=
  match cs with
  | [] => []
  | c :: r => record_bytes n c ++ all_records (n + 1) r
  end.
(** The header: code 9994, five unused words, the file length in 16-bit words,
    version 1000, type, box, z range, m range. *)
Definition header (words t : Z) (b z m : list dbl) : list Z :=
  be32 9994 ++ be32 0 ++ be32 0 ++ be32 0 ++ be32 0 ++ be32 0 ++ be32 words ++
  le32 1000 ++ le32 t ++ doubles b ++ doubles z ++ doubles m.
(** A .shp file of type [t] with the given contents. *)
Definition shp_file (t : Z) (b z m : list dbl) (cs : list (list Z)) : list Z :=
  let body := all_records 1 cs in
  header ((100 + Z.of_nat (length body)) / 2) t b z m ++ body.
(** The entries of a .shx file: offset and content length of every record, in
    16-bit words; [o] is the offset in bytes of the first. *)
Fixpoint index_entries (o : Z) (cs : list (list Z)) : list Z :=
  match cs with
  | [] => []
  | c :: r => be32 (o / 2) ++ be32 (Z.of_nat (length c) / 2) ++
              index_entries (o + 8 + Z.of_nat (length c)) r
  end.
Definition shx_file (t : Z) (b z m : list dbl) (cs : list (list Z)) : list Z :=
  header ((100 + 8 * Z.of_nat (length cs)) / 2) t b z m ++ index_entries 100 cs.
(** The header of a file declares a length of [n] bytes. *)
Definition declares (bs : list Z) (n : Z) : Prop :=
  firstn 4 (skipn 24 bs) = be32 (n / 2) /\ n mod 2 = 0 /\ 0 <= n / 2 < 2147483648.

(** ** What the calls of a program add *)
(** A point given as a list of coordinates: missing ones are 0, those after
    the fourth are not used. *)
Definition vertex_of (p : list dbl) : vertex := V (nth 0 p 0) (nth 1 p 0) (nth 2 p 0) (nth 3 p 0).
(** Closing a ring: the first point is repeated unless it equals the last. *)
Definition same_point (p q : list dbl) : Prop := Forall2 (fun a b => dbl_eq a b = true) p q.
Definition closed_ring (part part' : list (list dbl)) : Prop :=
  exists p, hd_error part = Some p /\
    ((same_point p (last part p) /\ part' = part) \/
     (~ same_point p (last part p) /\ part' = part ++ [p])).
Inductive call : Type :=
| Point (x y z m : dbl)
| Line (parts : list (list (list dbl))) (t : Z)
| Poly (parts : list (list (list dbl))) (t : Z)
| Null.
(** Geometry added by a call; the types 5, 15, 25 and 31 close their rings. *)
Definition ring_type (t : Z) : Prop := t = 5 \/ t = 15 \/ t = 25 \/ t = 31.
Definition parts_geometry (parts : list (list (list dbl))) (t : Z) (g : geometry) : Prop :=
  exists ps, g = map (map vertex_of) ps /\
    ((ring_type t /\ Forall2 closed_ring parts ps) \/ (~ ring_type t /\ ps = parts)).
Definition adds (c : call) (g : geometry) : Prop :=
  match c with
  | Point x y z m => g = [[V x y z m]]
  | Line parts t => parts_geometry parts t g
  | Poly parts t => parts_geometry parts t g
  | Null => g = []
  end.

(** The coordinates are doubles. *)
Definition call_doubles (c : call) : Prop :=
  match c with
  | Point x y z m => Forall is_dbl [x; y; z; m]
  | Line parts _ | Poly parts _ => Forall (Forall (Forall is_dbl)) parts
  | Null => True
  end.
(** The type of the file: that given to the Writer, or else that of the first
    shape. *)
Definition file_type (given : option Z) (calls : list call) (t : Z) : Prop :=
  t <> 0 /\
  (given = Some t \/
   ((given = None \/ given = Some 0) /\
    exists parts r, calls = Line parts t :: r \/ calls = Poly parts t :: r)).

(** ** What a Reader shows *)
(** A measure as the Reader gives it: None at or below -10e38. *)
Definition measure (v : vertex) : option dbl :=
  if dbl_lt dbl_nodata (vm v) then Some (vm v) else None.
(** Measures of both signs. *)
Definition mixed (vs : list vertex) : Prop :=
  (exists v, In v vs /\ dbl_lt (vm v) 0 = true) /\ (exists v, In v vs /\ dbl_lt 0 (vm v) = true).
Definition xy (v : vertex) : list dbl := [vx v; vy v].
(** The attributes of the shape object read from a record of type [t] written
    for the geometry [g]; [ms]: the measures are looked at. *)
Definition read_back (ms : Prop) (t : Z) (g : geometry) (s : shape) : Prop :=
  let vs := vertices g in
  (t = 1 /\ exists v, hd_error vs = Some v /\
     s = {| s_type := Some t; s_points := [xy v]; s_parts := None; s_ptypes := None;
            s_z := None; s_m := None; s_bbox := None |}) \/
  (t = 11 /\ exists v, hd_error vs = Some v /\
     s = {| s_type := Some t; s_points := [xy v]; s_parts := None; s_ptypes := None;
            s_z := Some [vz v]; s_m := Some [Some (vm v)]; s_bbox := None |}) \/
  (t = 21 /\ exists v, hd_error vs = Some v /\
     s = {| s_type := Some t; s_points := [xy v]; s_parts := None; s_ptypes := None;
            s_z := None; s_m := Some [Some (vm v)]; s_bbox := None |}) \/
  (t = 8 /\ exists b, bounds vs b /\
     s = {| s_type := Some t; s_points := map xy vs; s_parts := None; s_ptypes := None;
            s_z := None; s_m := None; s_bbox := Some b |}) \/
  ((t = 3 \/ t = 5) /\ exists b, bounds vs b /\
     s = {| s_type := Some t; s_points := map xy vs; s_parts := Some (part_starts g); s_ptypes := None;
            s_z := None; s_m := None; s_bbox := Some b |}) \/
  ((t = 23 \/ t = 25) /\ exists b m, bounds vs b /\
     ((ms /\ m = Some (map measure vs)) \/ (~ ms /\ m = None)) /\
     s = {| s_type := Some t; s_points := map xy vs; s_parts := Some (part_starts g); s_ptypes := None;
            s_z := None; s_m := m; s_bbox := Some b |}).
