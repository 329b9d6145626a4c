(** Model of shapefile.Writer (coral/shapefile.py:583-1064).
    Shapes, the .shp, .shx and .dbf writers. Coordinates are floats (see
    ShpFile.v), so the [except error] clauses around the packing of coordinates
    are unreachable except for a measure that is None. A [save] target is a
    file object: opening a path for writing is the empty file [new_file]. *)
From Verif Require Import Py Text StrModel Utf8Model VlvModel ShpFile.
Open Scope Z_scope.
Open Scope m_scope.

(** ** Shapes: shapefile.py:114-126. Attributes that only some shapes have are
    options. A point is the list of its coordinates. [s_ptypes = Some None]: the
    shared default argument of [poly] (shapefile.py:941). *)
Record shape : Type := mkShape {
  s_type : option Z;
  s_points : list (list dbl);
  s_parts : option (list Z);
  s_ptypes : option (option (list Z));
  s_z : option (list dbl);
  s_m : option (list (option dbl));
  s_bbox : option (list dbl)
}.
(** shapefile.py:115-126 *)
Definition new_shape (t : option Z) : shape := mkShape t [] None None None None None.
Definition set_type (t : option Z) (s : shape) : shape :=
  mkShape t (s_points s) (s_parts s) (s_ptypes s) (s_z s) (s_m s) (s_bbox s).
Definition set_points (p : list (list dbl)) (s : shape) : shape :=
  mkShape (s_type s) p (s_parts s) (s_ptypes s) (s_z s) (s_m s) (s_bbox s).
Definition set_z (z : option (list dbl)) (s : shape) : shape :=
  mkShape (s_type s) (s_points s) (s_parts s) (s_ptypes s) z (s_m s) (s_bbox s).
Definition set_m (m : option (list (option dbl))) (s : shape) : shape :=
  mkShape (s_type s) (s_points s) (s_parts s) (s_ptypes s) (s_z s) m (s_bbox s).
Definition set_parts (p : option (list Z)) (s : shape) : shape :=
  mkShape (s_type s) (s_points s) p (s_ptypes s) (s_z s) (s_m s) (s_bbox s).
Definition set_ptypes (p : option (option (list Z))) (s : shape) : shape :=
  mkShape (s_type s) (s_points s) (s_parts s) p (s_z s) (s_m s) (s_bbox s).
Definition set_bbox (b : option (list dbl)) (s : shape) : shape :=
  mkShape (s_type s) (s_points s) (s_parts s) (s_ptypes s) (s_z s) (s_m s) b.

(** Attribute values. [CFloat txt] is the float that [float(txt)] returns;
    [CBytes] is a bytes object (a blank cell as Reader returns it). *)
Inductive cell : Type := CStr (s : list Z) | CInt (z : Z) | CFloat (txt : list Z) | CBytes (bs : list Z).
(** A field size: an int or a decimal string (the default is "50"). *)
Inductive fsize : Type := FInt (z : Z) | FStr (s : list Z).
Record field : Type := mkField {
  fd_name : list Z; fd_type : list Z; fd_size : fsize; fd_dec : Z
}.

(** shapefile.py:585-598. [w_default]: the mutable default list of [poly]
    (shapefile.py:941), a global of the module; it is carried here. *)
Record writer : Type := mkWriter {
  w_type : option Z;
  w_shapes : list shape;
  w_fields : list field;
  w_records : list (list cell);
  w_offsets : list Z;
  w_lengths : list Z;
  w_shp : file;
  w_shx : file;
  w_dbf : file;
  w_default : list Z
}.
Definition Writer (t : option Z) : writer :=
  mkWriter t [] [] [] [] [] new_file new_file new_file [].
Definition w_set_type t w := mkWriter t (w_shapes w) (w_fields w) (w_records w) (w_offsets w) (w_lengths w) (w_shp w) (w_shx w) (w_dbf w) (w_default w).
Definition w_set_shapes s w := mkWriter (w_type w) s (w_fields w) (w_records w) (w_offsets w) (w_lengths w) (w_shp w) (w_shx w) (w_dbf w) (w_default w).
Definition w_set_fields x w := mkWriter (w_type w) (w_shapes w) x (w_records w) (w_offsets w) (w_lengths w) (w_shp w) (w_shx w) (w_dbf w) (w_default w).
Definition w_set_records x w := mkWriter (w_type w) (w_shapes w) (w_fields w) x (w_offsets w) (w_lengths w) (w_shp w) (w_shx w) (w_dbf w) (w_default w).
Definition w_set_offsets x w := mkWriter (w_type w) (w_shapes w) (w_fields w) (w_records w) x (w_lengths w) (w_shp w) (w_shx w) (w_dbf w) (w_default w).
Definition w_set_lengths x w := mkWriter (w_type w) (w_shapes w) (w_fields w) (w_records w) (w_offsets w) x (w_shp w) (w_shx w) (w_dbf w) (w_default w).
Definition w_set_shp x w := mkWriter (w_type w) (w_shapes w) (w_fields w) (w_records w) (w_offsets w) (w_lengths w) x (w_shx w) (w_dbf w) (w_default w).
Definition w_set_shx x w := mkWriter (w_type w) (w_shapes w) (w_fields w) (w_records w) (w_offsets w) (w_lengths w) (w_shp w) x (w_dbf w) (w_default w).
Definition w_set_dbf x w := mkWriter (w_type w) (w_shapes w) (w_fields w) (w_records w) (w_offsets w) (w_lengths w) (w_shp w) (w_shx w) x (w_default w).
Definition w_set_default x w := mkWriter (w_type w) (w_shapes w) (w_fields w) (w_records w) (w_offsets w) (w_lengths w) (w_shp w) (w_shx w) (w_dbf w) x.

(** ** Adding shapes *)
(** shapefile.py:925-927 *)
Definition null : M writer unit :=
  modify (fun w => w_set_shapes (w_shapes w ++ [new_shape (Some 0)]) w).
(** shapefile.py:929-933 *)
Definition point (x y z m : dbl) : M writer unit :=
  modify (fun w => w_set_shapes (w_shapes w ++ [set_points [[x; y; z; m]] (new_shape (w_type w))]) w).

(** [p == q] on points (lists of numbers; a list and a tuple are not
    distinguished, and neither is the identity shortcut for NaN). *)
Fixpoint point_eq (p q : list dbl) : bool :=
  match p, q with
  | [], [] => true
  | x :: p', y :: q' => dbl_eq x y && point_eq p' q'
  | _, _ => false
  end.
(** shapefile.py:950-954: an empty part raises IndexError. *)
Definition close_part (part : list (list dbl)) : res (list (list dbl)) :=
  match part with
  | [] => Err IndexError
  | p :: _ => if point_eq p (last part p) then Ok part else Ok (part ++ [p])
  end.
(** shapefile.py:961-963 *)
Definition pad_point (p : list dbl) : list dbl := p ++ repeat dbl_zero (4 - length p).
(** shapefile.py:955-964: part starts and points *)
Definition collect (acc : list Z * list (list dbl)) (part : list (list dbl)) : list Z * list (list dbl) :=
  let '(starts, points) := acc in
  (starts ++ [Z.of_nat (length points)], points ++ map pad_point part).
(** shapefile.py:941-970. [partTypes = None]: the default argument. *)
Definition poly (parts : list (list (list dbl))) (shapeType : Z) (partTypes : option (list Z)) : M writer unit :=
  parts' <~ lift (if type_in (Some shapeType) [5; 15; 25; 31] then mapM close_part parts else Ok parts) ;;
  let '(starts, points) := fold_left collect parts' ([], []) in
  let s := set_parts (Some starts) (set_points points (new_shape (Some shapeType))) in
  s' <~ (if shapeType =? 31 then
           let fill := map (fun _ => shapeType) parts in
           match partTypes with
           | Some [] => ret (set_ptypes (Some (Some fill)) s)
           | Some l => ret (set_ptypes (Some (Some l)) s)
           | None => modify (fun w => match w_default w with
                                      | [] => w_set_default fill w
                                      | _ => w
                                      end) ;;;
                     ret (set_ptypes (Some None) s)
           end
         else ret s) ;;
  modify (fun w => w_set_shapes (w_shapes w ++ [s']) w).
(** shapefile.py:935-939 *)
Definition line (parts : list (list (list dbl))) (shapeType : Z) : M writer unit :=
  poly parts shapeType (Some []).

(** ** Lengths and boxes *)
(** shapefile.py:618-675. [nParts] keeps the value of an earlier shape when the
    shape has no parts; UnboundLocalError if there is none. *)
Definition need_parts (nParts : option Z) : res Z :=
  match nParts with Some n => Ok n | None => Err UnboundLocalError end.
Definition shape_size (t : option Z) (st : Z * option Z) (s : shape) : res (Z * option Z) :=
  (let '(size, nParts) := st in
   let nParts := match s_parts s with Some l => Some (Z.of_nat (length l)) | None => nParts end in
   let nPoints := Z.of_nat (length (s_points s)) in
   let size := size + 12 in
   let size := if type_in t [3; 5; 8; 13; 15; 18; 23; 25; 28; 31] then size + 32 else size in
   size <- (if type_in t [3; 5; 13; 15; 23; 25; 31]
            then n <- need_parts nParts ;; Ok (size + 4 + n * 4) else Ok size) ;;
   let size := if type_in t [3; 5; 8; 13; 15; 23; 25; 31] then size + 4 + 16 * nPoints else size in
   size <- (if type_is t 31 then n <- need_parts nParts ;; Ok (size + n * 4) else Ok size) ;;
   let size := if type_in t [13; 15; 18; 31] then size + 16 + 8 * nPoints else size in
   let size := if type_in t [23; 25; 31] then size + 16 + 8 * nPoints else size in
   let size := if type_in t [1; 11; 21] then size + 16 else size in
   let size := if type_is t 11 then size + 8 else size in
   let size := if type_in t [11; 21] then size + 8 else size in
   Ok (size, nParts))%res.
Definition shp_file_length (w : writer) : res Z :=
  (st <- foldM (shape_size (w_type w)) (w_shapes w) (100, None) ;; Ok (fst st / 2))%res.

(** [px, py = list(zip( *points))[:2]]: ValueError unless there is a point and
    every point has two coordinates. *)
Definition columns (points : list (list dbl)) : res (list dbl * list dbl) :=
  match points with
  | [] => Err ValueError
  | _ =>
      if forallb (fun p => 2 <=? Z.of_nat (length p)) points
      then Ok (map (fun p => nth 0 p dbl_zero) points, map (fun p => nth 1 p dbl_zero) points)
      else Err ValueError
  end.
(** shapefile.py:677-687; the argument shapeTypes is never given. *)
Definition box_of (shapes : list shape) : res (list dbl) :=
  (cs <- mapM (fun s => columns (s_points s)) shapes ;;
   let x := flat_map fst cs in
   let y := flat_map snd cs in
   x0 <- dbl_min x ;; y0 <- dbl_min y ;; x1 <- dbl_max x ;; y1 <- dbl_max y ;;
   Ok [x0; y0; x1; y1])%res.
(** The coordinate number [k] of the points up to the first point that is too
    short (the IndexError is swallowed). *)
Fixpoint coords_at (k : nat) (points : list (list dbl)) : list dbl :=
  match points with
  | [] => []
  | p :: r => match nth_error p k with Some v => v :: coords_at k r | None => [] end
  end.
(** shapefile.py:689-698 *)
Definition zbox_of (shapes : list shape) : res (list dbl) :=
  (let z := flat_map (fun s => coords_at 2 (s_points s)) shapes in
   let z := match z with [] => [dbl_zero] | _ => z end in
   a <- dbl_min z ;; b <- dbl_max z ;; Ok [a; b])%res.
(** shapefile.py:700-708 *)
Definition mbox_of (shapes : list shape) : res (list dbl) :=
  (let m := dbl_zero :: flat_map (fun s => coords_at 3 (s_points s)) shapes in
   a <- dbl_min m ;; b <- dbl_max m ;; Ok [a; b])%res.

(** ** The .shp and .shx files *)
(** shapefile.py:710-754; [shx] selects the header type. *)
Definition shapefile_header (w : writer) (shx : bool) : M file unit :=
  f_seek 0 ;;;
  f_put (pack_many pack_bi [9994; 0; 0; 0; 0; 0]) ;;;
  (if shx then f_put (pack_bi ((100 + Z.of_nat (length (w_shapes w)) * 8) / 2))
   else n <~ lift (shp_file_length w) ;; f_put (pack_bi n)) ;;;
  f_put (pack_many pack_li_opt [Some 1000; w_type w]) ;;;
  (if type_is (w_type w) 0 then f_write (pack_ds [dbl_zero; dbl_zero; dbl_zero; dbl_zero])
   else b <~ lift (box_of (w_shapes w)) ;; f_write (pack_ds b)) ;;;
  z <~ lift (zbox_of (w_shapes w)) ;;
  m <~ lift (mbox_of (w_shapes w)) ;;
  f_write (pack_ds (z ++ m)).

Definition attr {A} (o : option A) : res A :=
  match o with Some a => Ok a | None => Err AttributeError end.
(** pack("<2d", *p[:2]): struct.error becomes ShapefileException. *)
Definition pack_xy (p : list dbl) : res (list Z) :=
  match p with x :: y :: _ => Ok (pack_ds [x; y]) | _ => Err ShapefileException end.
(** [s.points[0]] *)
Definition first_point (s : shape) : res (list dbl) := py_get (s_points s) 0.
(** [s.points[0].append(0)] if it has fewer than [n] coordinates *)
Definition extend_first (n : Z) (s : shape) : res shape :=
  (p <- first_point s ;;
   if Z.of_nat (length p) <? n
   then pts <- py_set (s_points s) 0 (p ++ [dbl_zero]) ;; Ok (set_points pts s)
   else Ok s)%res.

(** shapefile.py:857-872: a single Z value; the shape afterwards *)
Definition put_z (s : shape) : M file shape :=
  match s_z s with
  | Some z =>
      let z := match z with [] => [dbl_zero] | _ => z end in
      v <~ lift (py_get z 0) ;; f_write (dbl_bytes v) ;;; ret (set_z (Some z) s)
  | None =>
      s' <~ lift (extend_first 3 s) ;;
      v <~ lift (p <- first_point s' ;; py_get p 2)%res ;;
      f_write (dbl_bytes v) ;;; ret s'
  end.
(** shapefile.py:873-888: a single M value; None cannot be packed. *)
Definition put_m (s : shape) : M file shape :=
  match s_m s with
  | Some m =>
      let m := match m with [] => [Some dbl_zero] | _ => m end in
      v <~ lift (py_get m 0) ;;
      match v with
      | Some d => f_write (dbl_bytes d) ;;; ret (set_m (Some m) s)
      | None => raise ShapefileException
      end
  | None =>
      s' <~ lift (extend_first 4 s) ;;
      v <~ lift (p <- first_point s' ;; py_get p 3)%res ;;
      f_write (dbl_bytes v) ;;; ret s'
  end.
(** shapefile.py:798-888: the content of one record (from the shape type on),
    and the shape as it is left; [dflt] is the shared default list of poly. *)
Definition put_shape (dflt : list Z) (s : shape) : M file shape :=
  let t := s_type s in
  f_put (pack_li_opt t) ;;;
  when (type_in t [3; 5; 8; 13; 15; 18; 23; 25; 28; 31])
    (b <~ lift (box_of [s]) ;; f_write (pack_ds b)) ;;;
  when (type_in t [3; 5; 13; 15; 23; 25; 31])
    (p <~ lift (attr (s_parts s)) ;; f_put (pack_li (Z.of_nat (length p)))) ;;;
  when (type_in t [3; 5; 8; 13; 15; 23; 25; 31])
    (f_put (pack_li (Z.of_nat (length (s_points s))))) ;;;
  when (type_in t [3; 5; 13; 15; 23; 25; 31])
    (p <~ lift (attr (s_parts s)) ;; for_each (fun i => f_put (pack_li i)) p) ;;;
  when (type_is t 31)
    (p <~ lift (attr (s_ptypes s)) ;;
     for_each (fun i => f_put (pack_li i)) (match p with Some l => l | None => dflt end)) ;;;
  when (type_in t [3; 5; 8; 13; 15; 23; 25; 31])
    (for_each (fun p => f_put (pack_xy p)) (s_points s)) ;;;
  when (type_in t [13; 15; 18; 31])
    (b <~ lift (zbox_of [s]) ;; f_write (pack_ds b) ;;;
     z <~ lift (attr (s_z s)) ;; f_write (pack_ds z)) ;;;
  when (type_in t [13; 15; 18; 23; 25; 28; 31])
    (b <~ lift (mbox_of [s]) ;; f_write (pack_ds b) ;;;
     for_each (fun p => v <~ lift (py_get p 3) ;; f_write (dbl_bytes v)) (s_points s)) ;;;
  when (type_in t [1; 11; 21])
    (p <~ lift (first_point s) ;; x <~ lift (py_get p 0) ;; y <~ lift (py_get p 1) ;;
     f_write (pack_ds [x; y])) ;;;
  s' <~ (if type_is t 11 then put_z s else ret s) ;;
  (if type_in t [11; 21] then put_m s' else ret s').

Definition on_shp {A} : M file A -> M writer A := zoom w_shp w_set_shp.
Definition on_shx {A} : M file A -> M writer A := zoom w_shx w_set_shx.
Definition on_dbf {A} : M file A -> M writer A := zoom w_dbf w_set_dbf.

(** shapefile.py:792-896: record [i] (0-based; recNum = i + 1). Simplified: if
    the record fails, the shape keeps its new type but not the coordinates
    appended by put_z/put_m. *)
Definition shp_record (i : nat) : M writer unit :=
  w <~ get ;;
  s <~ lift (py_get (w_shapes w) (Z.of_nat i)) ;;
  off <~ on_shp f_tell ;;
  modify (fun w => w_set_offsets (w_offsets w ++ [off]) w) ;;;
  on_shp (f_put (pack_many pack_bi [Z.of_nat i + 1; 0])) ;;;
  start <~ on_shp f_tell ;;
  let s := if type_is (w_type w) 31 then s else set_type (w_type w) s in
  modify (fun w => w_set_shapes (set_nth i s (w_shapes w)) w) ;;;
  s' <~ on_shp (put_shape (w_default w) s) ;;
  modify (fun w => w_set_shapes (set_nth i s' (w_shapes w)) w) ;;;
  finish <~ on_shp f_tell ;;
  let len := (finish - start) / 2 in
  modify (fun w => w_set_lengths (w_lengths w ++ [len]) w) ;;;
  on_shp (f_seek (start - 4)) ;;;
  on_shp (f_put (pack_bi len)) ;;;
  on_shp (f_seek finish).
(** shapefile.py:787-792 *)
Definition shp_records : M writer unit :=
  on_shp (f_seek 100) ;;;
  w <~ get ;;
  for_each shp_record (seq 0 (length (w_shapes w))).
(** shapefile.py:898-904 *)
Definition shx_records : M writer unit :=
  on_shx (f_seek 100) ;;;
  w <~ get ;;
  for_each (fun i =>
    o <~ lift (py_get (w_offsets w) (Z.of_nat i)) ;;
    on_shx (f_put (pack_bi (o / 2))) ;;;
    n <~ lift (py_get (w_lengths w) (Z.of_nat i)) ;;
    on_shx (f_put (pack_bi n))) (seq 0 (length (w_shapes w))).

(** shapefile.py:1012-1013, 1022-1023 *)
Definition fix_type : M writer unit :=
  w <~ get ;;
  match w_type w with
  | None | Some 0 => s <~ lift (py_get (w_shapes w) 0) ;; modify (w_set_type (s_type s))
  | _ => ret tt
  end.
(** shapefile.py:1008-1016 *)
Definition saveShp (target : file) : M writer unit :=
  fix_type ;;;
  modify (w_set_shp target) ;;;
  w <~ get ;;
  on_shp (shapefile_header w false) ;;;
  shp_records.
(** shapefile.py:1018-1026 *)
Definition saveShx (target : file) : M writer unit :=
  fix_type ;;;
  modify (w_set_shx target) ;;;
  w <~ get ;;
  on_shx (shapefile_header w true) ;;;
  shx_records.

(** ** The attribute table *)
(** shapefile.py:972-974 *)
Definition add_field (name fieldType : list Z) (size : fsize) (dec : Z) : M writer unit :=
  modify (fun w => w_set_fields (w_fields w ++ [mkField name fieldType size dec]) w).

Fixpoint starts_with (p s : list Z) : bool :=
  match p, s with
  | [], _ => true
  | x :: p', y :: s' => (x =? y) && starts_with p' s'
  | _, [] => false
  end.
Definition deletion : list Z := text "Deletion".
(** [field[0].startswith("Deletion")] *)
Definition is_deletion (f : field) : bool := starts_with deletion (fd_name f).

(** The arguments of record(): positional, or keyword arguments (None is a
    null value). *)
Inductive rec_args : Type :=
| RecList (l : list cell)
| RecDict (d : list (list Z * option cell)).
Definition dict_find (k : list Z) (d : list (list Z * option cell)) : option (option cell) :=
  option_map snd (find (fun e => zlist_eqb (fst e) k) d).
(** shapefile.py:976-999 *)
Definition record (args : rec_args) : M writer unit :=
  w <~ get ;;
  f0 <~ lift (py_get (w_fields w) 0) ;;
  let n := length (w_fields w) in
  let n := if is_deletion f0 then Nat.pred n else n in
  r <~ lift (match args with
             | RecList [] => Ok []
             | RecList l => mapM (fun i => py_get l (Z.of_nat i)) (seq 0 n)
             | RecDict d =>
                 Ok (flat_map (fun f => match dict_find (fd_name f) d with
                                        | Some (Some v) => [v]
                                        | Some None => [CStr []]
                                        | None => []
                                        end) (w_fields w))
             end) ;;
  modify (fun w => match r with [] => w | _ => w_set_records (w_records w ++ [r]) w end).

Definition fsize_eqb (a b : fsize) : bool :=
  match a, b with
  | FInt x, FInt y => x =? y
  | FStr x, FStr y => zlist_eqb x y
  | _, _ => false
  end.
Definition field_eqb (a b : field) : bool :=
  zlist_eqb (fd_name a) (fd_name b) && zlist_eqb (fd_type a) (fd_type b) &&
  fsize_eqb (fd_size a) (fd_size b) && (fd_dec a =? fd_dec b).
(** fields.remove(f): the first equal element *)
Fixpoint remove_first (f : field) (l : list field) : list field :=
  match l with
  | [] => []
  | x :: r => if field_eqb x f then r else x :: remove_first f r
  end.
(** shapefile.py:763-766: the list is iterated by position while elements are
    removed from it. The length of the list is enough fuel. *)
Fixpoint drop_deletion (fuel i : nat) (l : list field) : list field :=
  match fuel with
  | O => l
  | S k => match nth_error l i with
           | None => l
           | Some f => drop_deletion k (S i) (if is_deletion f then remove_first f l else l)
           end
  end.
(** [int(size)] *)
Definition size_int (s : fsize) : res Z :=
  match s with FInt z => Ok z | FStr t => py_int t end.
(** pack("B"), pack("<H"), pack("<L") *)
Definition pack_u (n : nat) (v : Z) : res (list Z) := pack_le n v.
(** bytes.ljust(n), and str.ljust(n): spaces on the right *)
Definition ljust (n : Z) (s : list Z) : list Z := s ++ repeat 32 (Z.to_nat n - length s).
Definition rjust (n : Z) (s : list Z) : list Z := repeat 32 (Z.to_nat n - length s) ++ s.
(** bytes.replace(a, b) of single bytes *)
Definition replace1 (a b : Z) (s : list Z) : list Z := map (fun c => if c =? a then b else c) s.
(** pack("11s", s): cut or padded with zeros *)
Definition pack_s (n : nat) (s : list Z) : list Z := firstn n (s ++ repeat 0 n).
(** shapefile.py:775-783: one field descriptor *)
Definition field_bytes (f : field) : res (list Z) :=
  (name <- utf8_encode (fd_name f) ;;
   let name := replace1 32 0 (ljust 11 (replace1 32 95 name)) in
   ft <- utf8_encode (fd_type f) ;;
   size <- size_int (fd_size f) ;;
   c <- (match ft with [c] => Ok [c] | _ => Err StructError end) ;;
   b <- pack_u 1 size ;;
   d <- pack_u 1 (fd_dec f) ;;
   Ok (pack_s 11 name ++ c ++ repeat 0 4 ++ b ++ d ++ repeat 0 14))%res.
(** shapefile.py:756-785; [today] is time.localtime()[:3]. *)
Definition dbf_header (today : Z * Z * Z) : M writer unit :=
  let '(year, month, day) := today in
  on_dbf (f_seek 0) ;;;
  modify (fun w => w_set_fields (drop_deletion (length (w_fields w)) 0 (w_fields w)) w) ;;;
  w <~ get ;;
  let numRecs := Z.of_nat (length (w_records w)) in
  let headerLength := Z.of_nat (length (w_fields w)) * 32 + 33 in
  sizes <~ lift (mapM (fun f => size_int (fd_size f)) (w_fields w)) ;;
  let recordLength := zsum sizes + 1 in
  h <~ lift (b1 <- pack_u 1 3 ;; b2 <- pack_u 1 (year - 1900) ;; b3 <- pack_u 1 month ;;
             b4 <- pack_u 1 day ;; b5 <- pack_u 4 numRecs ;; b6 <- pack_u 2 headerLength ;;
             b7 <- pack_u 2 recordLength ;;
             Ok (b1 ++ b2 ++ b3 ++ b4 ++ b5 ++ b6 ++ b7 ++ repeat 0 20))%res ;;
  on_dbf (f_write h) ;;;
  for_each (fun f => on_dbf (f_put (field_bytes f))) (w_fields w) ;;;
  on_dbf (f_write [13]).

Section Str.
(** repr of the float [float(txt)]: not modelled, any function of the text. *)
Variable float_repr : list Z -> list Z.

Definition hex_digit (d : Z) : Z := if d <? 10 then 48 + d else 87 + d.
(** One byte inside repr(bytes); [q] is the quote. *)
Definition repr_byte (q c : Z) : list Z :=
  if c =? 9 then text "\t" else if c =? 10 then text "\n" else if c =? 13 then text "\r"
  else if (c =? q) || (c =? 92) then [92; c]
  else if (c <? 32) || (127 <=? c) then [92; 120; hex_digit (c / 16); hex_digit (c mod 16)]
  else [c].
(** str(value) *)
Definition str_cell (v : cell) : list Z :=
  match v with
  | CStr s => s
  | CInt z => str_int z
  | CFloat t => float_repr t
  | CBytes bs =>
      let q := if existsb (Z.eqb 39) bs && negb (existsb (Z.eqb 34) bs) then 34 else 39 in
      98 :: q :: flat_map (repr_byte q) bs ++ [q]
  end.
(** str.upper() of one character; outside ASCII not modelled (unchanged). *)
Definition upper1 (c : Z) : Z := if (97 <=? c) && (c <=? 122) then c - 32 else c.
(** [fieldType.upper() == c] for an upper-case ASCII letter c *)
Definition type_upper (f : field) (c : Z) : bool := zlist_eqb (map upper1 (fd_type f)) [c].
(** shapefile.py:912-923: the text of one cell *)
Definition cell_text (f : field) (v : cell) : res (list Z) :=
  (size <- size_int (fd_size f) ;;
   t <- (if type_upper f 78 then Ok (rjust size (str_cell v))
         else if type_upper f 76 then c <- py_get (str_cell v) 0 ;; Ok [upper1 c]
         else Ok (ljust size (py_slice (str_cell v) 0 size))) ;;
   _ <- py_assert (Z.of_nat (length t) =? size) ;;
   Ok t)%res.
(** shapefile.py:906-923 *)
Definition dbf_records : M writer unit :=
  w <~ get ;;
  for_each (fun r =>
    f0 <~ lift (py_get (w_fields w) 0) ;;
    when (negb (is_deletion f0)) (on_dbf (f_write [32])) ;;;
    for_each (fun fv => on_dbf (f_put (t <- cell_text (fst fv) (snd fv) ;; utf8_encode t)%res))
      (combine (w_fields w) r)) (w_records w).
(** shapefile.py:1028-1034 *)
Definition saveDbf (today : Z * Z * Z) (target : file) : M writer unit :=
  modify (w_set_dbf target) ;;;
  dbf_header today ;;;
  dbf_records.
(** shapefile.py:1036-1064: save(shp=, shx=, dbf=) or save(path), all three *)
Definition save (today : Z * Z * Z) (shp shx dbf : file) : M writer unit :=
  saveShp shp ;;; saveShx shx ;;; saveDbf today dbf.
End Str.
