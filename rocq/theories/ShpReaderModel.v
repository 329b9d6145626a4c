(** Model of shapefile.Reader (coral/shapefile.py:210-581). The files are
    file objects over byte strings (opening a path is the same with the bytes of
    the file). *)
From Verif Require Import Py Text StrModel Utf8Model VlvModel ShpFile ShpWriterModel.
Open Scope Z_scope.
Open Scope m_scope.

(** The attributes of a Reader: shapefile.py:228-238, 316-332.
    [r_hdr] is __dbfHdrLength. *)
Record reader : Type := mkReader {
  r_shp : option file;
  r_shx : option file;
  r_dbf : option file;
  r_offsets : list Z;
  r_shpLength : option Z;
  r_numRecords : option Z;
  r_fields : list field;
  r_hdr : Z;
  r_type : option Z;
  r_bbox : list dbl;
  r_elevation : list dbl;
  r_measure : list dbl
}.
Definition r_set_shp x r := mkReader x (r_shx r) (r_dbf r) (r_offsets r) (r_shpLength r) (r_numRecords r) (r_fields r) (r_hdr r) (r_type r) (r_bbox r) (r_elevation r) (r_measure r).
Definition r_set_shx x r := mkReader (r_shp r) x (r_dbf r) (r_offsets r) (r_shpLength r) (r_numRecords r) (r_fields r) (r_hdr r) (r_type r) (r_bbox r) (r_elevation r) (r_measure r).
Definition r_set_dbf x r := mkReader (r_shp r) (r_shx r) x (r_offsets r) (r_shpLength r) (r_numRecords r) (r_fields r) (r_hdr r) (r_type r) (r_bbox r) (r_elevation r) (r_measure r).
Definition r_set_offsets x r := mkReader (r_shp r) (r_shx r) (r_dbf r) x (r_shpLength r) (r_numRecords r) (r_fields r) (r_hdr r) (r_type r) (r_bbox r) (r_elevation r) (r_measure r).
Definition r_set_shpLength x r := mkReader (r_shp r) (r_shx r) (r_dbf r) (r_offsets r) x (r_numRecords r) (r_fields r) (r_hdr r) (r_type r) (r_bbox r) (r_elevation r) (r_measure r).
Definition r_set_dbfhdr n h r := mkReader (r_shp r) (r_shx r) (r_dbf r) (r_offsets r) (r_shpLength r) n (r_fields r) h (r_type r) (r_bbox r) (r_elevation r) (r_measure r).
Definition r_set_fields x r := mkReader (r_shp r) (r_shx r) (r_dbf r) (r_offsets r) (r_shpLength r) (r_numRecords r) x (r_hdr r) (r_type r) (r_bbox r) (r_elevation r) (r_measure r).
Definition r_set_type x r := mkReader (r_shp r) (r_shx r) (r_dbf r) (r_offsets r) (r_shpLength r) (r_numRecords r) (r_fields r) (r_hdr r) x (r_bbox r) (r_elevation r) (r_measure r).
Definition r_set_bbox x r := mkReader (r_shp r) (r_shx r) (r_dbf r) (r_offsets r) (r_shpLength r) (r_numRecords r) (r_fields r) (r_hdr r) (r_type r) x (r_elevation r) (r_measure r).
Definition r_set_elevation x r := mkReader (r_shp r) (r_shx r) (r_dbf r) (r_offsets r) (r_shpLength r) (r_numRecords r) (r_fields r) (r_hdr r) (r_type r) (r_bbox r) x (r_measure r).
Definition r_set_measure x r := mkReader (r_shp r) (r_shx r) (r_dbf r) (r_offsets r) (r_shpLength r) (r_numRecords r) (r_fields r) (r_hdr r) (r_type r) (r_bbox r) (r_elevation r) x.

(** shapefile.py:295-304: a missing file raises ShapefileException. The two
    reloads are omitted: load() has always run before (shapefile.py:241, 260),
    and it sets shpLength and makes fields non-empty. *)
Definition with_file {A} (g : reader -> option file) (p : option file -> reader -> reader)
    (m : M file A) : M reader A :=
  fun r => match g r with
           | Some f => let '(f', x) := m f in (p (Some f') r, x)
           | None => (r, Err ShapefileException)
           end.
Definition in_shp {A} : M file A -> M reader A := with_file r_shp r_set_shp.
Definition in_shx {A} : M file A -> M reader A := with_file r_shx r_set_shx.
Definition in_dbf {A} : M file A -> M reader A := with_file r_dbf r_set_dbf.

(** unpack(fmt, f.read(n)) *)
Definition f_get {A} (n : Z) (u : list Z -> res A) : M file A :=
  bs <~ f_read n ;; lift (u bs).

(** shapefile.py:316-332 *)
Definition shp_header : M reader unit :=
  in_shp (f_seek 24) ;;;
  n <~ in_shp (f_get 4 unpack_bi) ;;
  modify (r_set_shpLength (Some (n * 2))) ;;;
  in_shp (f_seek 32) ;;;
  t <~ in_shp (f_get 4 unpack_li) ;;
  modify (r_set_type (Some t)) ;;;
  b <~ in_shp (f_get 32 (unpack_ds 4)) ;;
  modify (r_set_bbox b) ;;;
  z <~ in_shp (f_get 16 (unpack_ds 2)) ;;
  modify (r_set_elevation z) ;;;
  m <~ in_shp (f_get 16 (unpack_ds 2)) ;;
  modify (r_set_measure m).

(** A count that may be None; [nPoints * 8] of None raises TypeError. *)
Definition count (n : option Z) : res Z :=
  match n with Some z => Ok z | None => Err TypeError end.
Definition truthy (n : option Z) : bool :=
  match n with Some z => negb (z =? 0) | None => false end.
(** shapefile.py:376-380 *)
Definition measure_of (m : dbl) : option dbl := if dbl_lt dbl_nodata m then Some m else None.
(** shapefile.py:334-392; [measure] is self.measure. *)
Definition get_shape (measure : list dbl) : M file shape :=
  hd <~ f_get 8 (unpack_many 4 unpack_bi 2) ;;
  recLength <~ lift (py_get hd 1) ;;
  here <~ f_tell ;;
  let next := here + 2 * recLength in
  t <~ f_get 4 unpack_li ;;
  let ty := Some t in
  let s := new_shape ty in
  s <~ (if negb (t =? 0) && type_in ty [3; 5; 8; 13; 15; 18; 23; 25; 28; 31]
        then b <~ f_get 32 (unpack_ds 4) ;; ret (set_bbox (Some b) s) else ret s) ;;
  nParts <~ (if type_in ty [3; 5; 13; 15; 23; 25; 31]
             then n <~ f_get 4 unpack_li ;; ret (Some n) else ret None) ;;
  nPoints <~ (if type_in ty [3; 5; 8; 13; 15; 23; 25; 31]
              then n <~ f_get 4 unpack_li ;; ret (Some n) else ret None) ;;
  s <~ (if truthy nParts
        then n <~ lift (count nParts) ;;
             p <~ f_get (n * 4) (unpack_many 4 unpack_li n) ;; ret (set_parts (Some p) s)
        else ret s) ;;
  s <~ (if t =? 31
        then n <~ lift (count nParts) ;;
             p <~ f_get (n * 4) (unpack_many 4 unpack_li n) ;; ret (set_ptypes (Some (Some p)) s)
        else ret s) ;;
  s <~ (if truthy nPoints
        then n <~ lift (count nPoints) ;;
             p <~ for_map (fun _ => f_get 16 (unpack_ds 2)) (seq 0 (Z.to_nat n)) ;;
             ret (set_points p s)
        else ret s) ;;
  s <~ (if type_in ty [13; 15; 18; 31]
        then _ <~ f_get 16 (unpack_ds 2) ;;
             n <~ lift (count nPoints) ;;
             z <~ f_get (n * 8) (unpack_ds n) ;; ret (set_z (Some z) s)
        else ret s) ;;
  s <~ (if type_in ty [13; 15; 18; 23; 25; 28; 31] && negb (existsb (dbl_eq dbl_zero) measure)
        then _ <~ f_get 16 (unpack_ds 2) ;;
             n <~ lift (count nPoints) ;;
             m <~ f_get (n * 8) (unpack_ds n) ;; ret (set_m (Some (map measure_of m)) s)
        else ret s) ;;
  s <~ (if type_in ty [1; 11; 21]
        then p <~ f_get 16 (unpack_ds 2) ;; ret (set_points [p] s) else ret s) ;;
  s <~ (if t =? 11
        then z <~ f_get 8 (unpack_ds 1) ;; ret (set_z (Some z) s) else ret s) ;;
  s <~ (if type_in ty [11; 21]
        then m <~ f_get 8 (unpack_ds 1) ;; ret (set_m (Some (map Some m)) s) else ret s) ;;
  f_seek next ;;;
  ret s.

(** shapefile.py:306-314 *)
Definition restrict_index (numRecords : option Z) (i : Z) : res Z :=
  match numRecords with
  | Some n =>
      if n =? 0 then Ok i
      else if n - 1 <? Z.abs i then Err IndexError
      else if i <? 0 then Ok (n + i) else Ok i
  | None => Ok i
  end.

(** shapefile.py:398-412 *)
Definition shape_index (i : Z) : M reader (option Z) :=
  r <~ get ;;
  match r_shx r with
  | None => ret None
  | Some _ =>
      (match r_offsets r with
       | [] =>
           in_shx (f_seek 24) ;;;
           n <~ in_shx (f_get 4 unpack_bi) ;;
           let num := (n * 2 - 100) / 8 in
           in_shx (f_seek 100) ;;;
           for_each (fun _ =>
             o <~ in_shx (f_get 4 unpack_bi) ;;
             modify (fun r => r_set_offsets (r_offsets r ++ [o * 2]) r) ;;;
             p <~ in_shx f_tell ;;
             in_shx (f_seek (p + 4))) (seq 0 (Z.to_nat num))
       | _ => ret tt
       end) ;;;
      r <~ get ;;
      o <~ lift (py_get (r_offsets r) i) ;;
      ret (Some o)
  end.

(** The loop of shapes() (shapefile.py:437-441) with fuel: None when it runs
    out. *)
Fixpoint shapes_loop (fuel : nat) (measure : list dbl) (len : Z) : M file (option (list shape)) :=
  match fuel with
  | O => ret None
  | S k =>
      p <~ f_tell ;;
      if p <? len then
        s <~ get_shape measure ;;
        l <~ shapes_loop k measure len ;;
        ret (option_map (cons s) l)
      else ret (Some [])
  end.
(** The loop over iterShapes() in shape() (shapefile.py:420-424) with fuel:
    None when it runs out, Some None when the shapes are exhausted. *)
Fixpoint find_loop (fuel : nat) (measure : list dbl) (len j i : Z) : M file (option (option shape)) :=
  match fuel with
  | O => ret None
  | S k =>
      p <~ f_tell ;;
      if p <? len then
        s <~ get_shape measure ;;
        if j =? i then ret (Some (Some s)) else find_loop k measure len (j + 1) i
      else ret (Some None)
  end.
(** shapefile.py:428-441; the same head in iterShapes, 443-450 *)
Definition rewind : M reader Z :=
  in_shp f_seek_end ;;;
  n <~ in_shp f_tell ;;
  modify (r_set_shpLength (Some n)) ;;;
  in_shp (f_seek 100) ;;;
  ret n.
Definition shapes (fuel : nat) : M reader (option (list shape)) :=
  n <~ rewind ;;
  r <~ get ;;
  in_shp (shapes_loop fuel (r_measure r) n).
(** iterShapes() (shapefile.py:443-451) consumed to the end: the shapes
    yielded, and how the iteration ends (None: the fuel ran out). *)
Fixpoint iter_loop (fuel : nat) (measure : list dbl) (len : Z) (f : file) : list shape * option (res unit) :=
  match fuel with
  | O => ([], None)
  | S k =>
      if Z.of_nat (fpos f) <? len then
        match get_shape measure f with
        | (f', Ok s) => let '(l, e) := iter_loop k measure len f' in (s :: l, e)
        | (_, Err x) => ([], Some (Err x))
        end
      else ([], Some (Ok tt))
  end.
Definition iterShapes (fuel : nat) (r : reader) : list shape * option (res unit) :=
  match rewind r with
  | (r', Ok n) => match r_shp r' with
                  | Some f => iter_loop fuel (r_measure r') n f
                  | None => ([], Some (Err ShapefileException))
                  end
  | (_, Err x) => ([], Some (Err x))
  end.

(** shapefile.py:414-426; seek(None) raises TypeError. *)
Definition shape_at (fuel : nat) (i : Z) : M reader (option shape) :=
  in_shp (ret tt) ;;;
  r <~ get ;;
  i <~ lift (restrict_index (r_numRecords r) i) ;;
  offset <~ shape_index i ;;
  found <~ (if truthy offset then ret (Some None)
            else n <~ rewind ;; r <~ get ;; in_shp (find_loop fuel (r_measure r) n 0 i)) ;;
  match found with
  | None => ret None
  | Some (Some s) => ret (Some s)
  | Some None =>
      match offset with
      | None => raise TypeError
      | Some o => in_shp (f_seek o) ;;;
                  r <~ get ;;
                  s <~ in_shp (get_shape (r_measure r)) ;; ret (Some s)
      end
  end.

(** ** The attribute table *)
(** shapefile.py:453-461: "<xxxxLH22x" *)
Definition unpack_dbf_head (bs : list Z) : res (Z * Z) :=
  if Z.of_nat (length bs) =? 32
  then (n <- unpack_le 4 (py_slice bs 4 8) ;; h <- unpack_le 2 (py_slice bs 8 10) ;; Ok (n, h))%res
  else Err StructError.
Definition dbf_header_length : M reader Z :=
  r <~ get ;;
  if r_hdr r =? 0 then
    '(n, h) <~ in_dbf (f_get 32 unpack_dbf_head) ;;
    modify (r_set_dbfhdr (Some n) h) ;;;
    ret h
  else ret (r_hdr r).
(** Index of the first NUL *)
Fixpoint find_nul (s : list Z) : option nat :=
  match s with
  | [] => None
  | c :: r => if c =? 0 then Some O else option_map S (find_nul r)
  end.
(** shapefile.py:469-482: "<11sc4xBB14x" and the field name *)
Definition unpack_field (bs : list Z) : res field :=
  if Z.of_nat (length bs) =? 32 then
    (let name := py_slice bs 0 11 in
     let name := match find_nul name with Some i => firstn i name | None => removelast name end in
     name <- utf8_decode name ;;
     ty <- utf8_decode (py_slice bs 11 12) ;;
     size <- unpack_le 1 (py_slice bs 16 17) ;;
     dec <- unpack_le 1 (py_slice bs 17 18) ;;
     Ok (mkField (lstrip_by is_space name) ty (FInt size) dec))%res
  else Err StructError.
(** ('DeletionFlag', 'C', 1, 0) *)
Definition flag_name : list Z := text "DeletionFlag".
Definition flag_field : field := mkField flag_name [67] (FInt 1) 0.
(** shapefile.py:463-485 *)
Definition read_dbf_header : M reader unit :=
  h <~ dbf_header_length ;;
  let n := (h - 33) / 32 in
  for_each (fun _ =>
    f <~ in_dbf (f_get 32 unpack_field) ;;
    modify (fun r => r_set_fields (r_fields r ++ [f]) r)) (seq 0 (Z.to_nat n)) ;;;
  t <~ in_dbf (f_read 1) ;;
  lift (py_assert (zlist_eqb t [13])) ;;;
  modify (fun r => r_set_fields (flag_field :: r_fields r) r).

(** bytes.strip(): ASCII white space *)
Definition byte_space (c : Z) : bool := ((9 <=? c) && (c <=? 13)) || (c =? 32).
Definition bstrip (s : list Z) : list Z := rstrip_by byte_space (lstrip_by byte_space s).
(** int(bytes) *)
Definition int_bytes (s : list Z) : res Z :=
  let r := match bstrip s with
           | 43 :: t => int_digits false 0 t
           | 45 :: t => option_map Z.opp (int_digits false 0 t)
           | t => int_digits false 0 t
           end in
  match r with Some z => Ok z | None => Err ValueError end.
(** The field sizes are ints in a Reader. *)
Definition rsize (f : field) : Z := match fd_size f with FInt z => z | FStr _ => 0 end.
(** float(bytes) of bytes without white space at the ends, as far as it raises
    ValueError (shapefile.py:516).  Underscores must stand between digits and
    are dropped. *)
Fixpoint drop_underscores (after : bool) (s : list Z) : option (list Z) :=
  match s with
  | [] => Some []
  | c :: r =>
      if c =? 95 then
        match r with
        | d :: _ => if after && is_digit d then drop_underscores false r else None
        | [] => None
        end
      else option_map (cons c) (drop_underscores (is_digit c) r)
  end.
(** The digits in front, and the rest. *)
Fixpoint span_digits (s : list Z) : list Z * list Z :=
  match s with
  | c :: r => if is_digit c then let '(a, b) := span_digits r in (c :: a, b) else ([], s)
  | [] => ([], [])
  end.
Definition skip_sign (s : list Z) : list Z :=
  match s with 43 :: r => r | 45 :: r => r | _ => s end.
Definition lower_letter (c : Z) : Z := if (65 <=? c) && (c <=? 90) then c + 32 else c.
Definition nonempty (s : list Z) : bool := match s with [] => false | _ => true end.
(** An exponent, or nothing. *)
Definition exponent_ok (s : list Z) : bool :=
  match s with
  | [] => true
  | c :: r => ((c =? 69) || (c =? 101)) &&
              let '(d, t) := span_digits (skip_sign r) in nonempty d && negb (nonempty t)
  end.
Definition float_ok (s : list Z) : bool :=
  match drop_underscores false s with
  | None => false
  | Some t =>
      let u := skip_sign t in
      let w := map lower_letter u in
      if zlist_eqb w (text "inf") || zlist_eqb w (text "infinity") || zlist_eqb w (text "nan") then true
      else
        let '(i, r) := span_digits u in
        let '(f, r') := match r with 46 :: r1 => span_digits r1 | _ => ([], r) end in
        nonempty (i ++ f) && exponent_ok r'
  end.
(** shapefile.py:506-531: one cell; the comparisons of [typ] with bytes
    ('D' and 'L') are always false; the value of float(value) is kept as its
    text. *)
Definition read_cell (f : field) (value : list Z) : res cell :=
  match bstrip value with
  | [] => Ok (CBytes value)
  | _ =>
      if zlist_eqb (fd_type f) [78] then
        (let v := bstrip (filter (fun c => negb (c =? 0)) value) in
         match v with
         | [] => Ok (CInt 0)
         | _ => if fd_dec f =? 0 then z <- int_bytes v ;; Ok (CInt z)
                else if float_ok v then Ok (CFloat v) else Err ValueError
         end)%res
      else (s <- utf8_decode value ;; Ok (CStr (strip s)))%res
  end.
Fixpoint read_cells (fs : list field) (vs : list (list Z)) : res (list cell) :=
  match fs, vs with
  | f :: fs', v :: vs' =>
      (if zlist_eqb (fd_name f) flag_name then read_cells fs' vs'
       else c <- read_cell f v ;; cs <- read_cells fs' vs' ;; Ok (c :: cs))%res
  | _, _ => Ok []
  end.
(** Consecutive pieces of the given sizes *)
Fixpoint pieces (sizes : list Z) (bs : list Z) : list (list Z) :=
  match sizes with
  | [] => []
  | n :: r => firstn (Z.to_nat n) bs :: pieces r (skipn (Z.to_nat n) bs)
  end.
(** shapefile.py:487-493: the sizes of the fields *)
Definition record_fmt : M reader (list Z) :=
  r <~ get ;;
  when (negb (truthy (r_numRecords r))) read_dbf_header ;;;
  r <~ get ;;
  ret (map rsize (r_fields r)).
(** shapefile.py:495-532: None is a deleted record. *)
Definition read_record : M reader (option (list cell)) :=
  in_dbf (ret tt) ;;;
  sizes <~ record_fmt ;;
  bs <~ in_dbf (f_read (zsum sizes)) ;;
  (if Z.of_nat (length bs) =? zsum sizes then
     let vs := pieces sizes bs in
     flag <~ lift (py_get vs 0) ;;
     if zlist_eqb flag [32]
     then r <~ get ;; l <~ lift (read_cells (r_fields r) vs) ;; ret (Some l)
     else ret None
   else raise StructError).
(** shapefile.py:534-543 *)
Definition record_at (i : Z) : M reader (option (list cell)) :=
  in_dbf (ret tt) ;;;
  r <~ get ;;
  when (negb (truthy (r_numRecords r))) read_dbf_header ;;;
  r <~ get ;;
  i <~ lift (restrict_index (r_numRecords r) i) ;;
  sizes <~ record_fmt ;;
  in_dbf (f_seek 0) ;;;
  h <~ dbf_header_length ;;
  in_dbf (f_seek (h + i * zsum sizes)) ;;;
  read_record.
(** shapefile.py:545-556. A deleted record (None) and an empty one ([]) are
    left out. *)
Definition keep (l : list (option (list cell))) : list (list cell) :=
  flat_map (fun r => match r with Some (c :: cs) => [c :: cs] | _ => [] end) l.
Definition records : M reader (list (list cell)) :=
  r <~ get ;;
  when (negb (truthy (r_numRecords r))) read_dbf_header ;;;
  h <~ dbf_header_length ;;
  in_dbf (f_seek h) ;;;
  r <~ get ;;
  n <~ lift (count (r_numRecords r)) ;;
  l <~ for_map (fun _ => read_record) (seq 0 (Z.to_nat n)) ;;
  ret (keep l).

(** iterRecords() (shapefile.py:558-568) consumed to the end: the records
    yielded, and how the iteration ends. *)
Fixpoint iter_records (n : nat) (r : reader) : list (list cell) * res unit :=
  match n with
  | O => ([], Ok tt)
  | S k => match read_record r with
           | (r', Ok x) => let '(l, e) := iter_records k r' in (keep [x] ++ l, e)
           | (_, Err x) => ([], Err x)
           end
  end.
Definition iterRecords (r : reader) : list (list cell) * res unit :=
  match ((r <~ get ;;
          when (negb (truthy (r_numRecords r))) read_dbf_header ;;;
          h <~ dbf_header_length ;;
          in_dbf (f_seek h) ;;;
          r <~ get ;;
          lift (count (r_numRecords r))) r)%m with
  | (r', Ok n) => iter_records (Z.to_nat n) r'
  | (_, Err x) => ([], Err x)
  end.

(** shapefile.py:228-262, 286-293: a Reader over the given files; shx is only
    looked at when shp is given. *)
Definition Reader (shp shx dbf : option (list Z)) : reader * res unit :=
  let open := option_map (fun bs => mkFile bs 0) in
  let r := mkReader (open shp) (match shp with Some _ => open shx | None => None end) (open dbf)
             [] None None [] 0 None [] [] [] in
  match shp, dbf with
  | None, None => (r, Err ShapefileException)
  | _, _ =>
      ((match shp with Some _ => shp_header | None => ret tt end) ;;;
       (match dbf with Some _ => read_dbf_header | None => ret tt end)) r
  end.

(** shapefile.py:570-574 *)
Definition shapeRecord (fuel : nat) (i : Z) : M reader (option (shape * option (list cell))) :=
  r <~ get ;;
  i <~ lift (restrict_index (r_numRecords r) i) ;;
  s <~ shape_at fuel i ;;
  match s with
  | None => ret None
  | Some s => c <~ record_at i ;; ret (Some (s, c))
  end.
(** shapefile.py:576-581 *)
Definition shapeRecords (fuel : nat) : M reader (option (list (shape * list cell))) :=
  s <~ shapes fuel ;;
  match s with
  | None => ret None
  | Some l => c <~ records ;; ret (Some (combine l c))
  end.
