(** Model of coral/rg.py: RangeGrid data sets. The pair of files is the bytes
    of the .rg file and the text of the .md file; paths and encodings of the
    text file are left out. A bound of a real column is a Python int when its
    denominator is 1; a float is represented with another denominator. *)
From Coq Require Import QArith.
From Verif Require Import Num VlvModel GridModel StrModel.
Open Scope Z_scope.

(** Identifiers are ints or strings; str(id_) and "{}".format(id_). *)
Inductive eid : Type := EInt (z : Z) | EStr (s : list Z).
Definition eid_text (e : eid) : list Z := match e with EInt z => str_int z | EStr s => s end.

(** A float bound makes base128 (>>=, or bytes((d,))) raise TypeError. *)
Definition bound_svlv (q : Q) : res (list Z) :=
  match Qden q with
  | 1%positive => writesvlv (Qnum q)
  | _ => Err TypeError
  end.
(** rg.py:162-178, one column of the header *)
Definition rg_column (f : field) : res (list Z) :=
  match f with
  | FI f =>
      nm <- ascii_encode (i_name f) ;;
      sz <- writevlv (i_size f) ;;
      a <- writesvlv (i_min f) ;; b <- writesvlv (i_max f) ;;
      Ok (nm ++ [0] ++ [0] ++ [b2z (i_nullable f)] ++ sz ++ a ++ b)
  | FF f =>
      nm <- ascii_encode (f_name f) ;;
      sz <- writevlv (Z.of_nat (f_size f)) ;;
      a <- bound_svlv (f_min f) ;; b <- bound_svlv (f_max f) ;;
      Ok (nm ++ [0] ++ [1] ++ [b2z (f_nullable f)] ++ sz ++ a ++ b)
  | FS f =>
      nm <- ascii_encode (s_name f) ;;
      sz <- writevlv (Z.of_nat (s_size f)) ;;
      Ok (nm ++ [0] ++ [2] ++ [b2z (s_nullable f)] ++ sz)
  end.
(** rg.py:153-178; the four bytes skipped are zeros until close. *)
Definition rg_header (fs : row) : res (list Z) :=
  let ncols := Z.of_nat (length fs) in
  _ <- py_assert (ncols <? 256) ;;
  n <- one_byte ncols ;;
  cols <- mapM rg_column fs ;;
  Ok ([82; 71; 1] ++ n ++ [0; 0; 0; 0] ++ concat cols).

Record rgwriter : Type := mkrw { rw_row : row; rw_file : list Z; rw_index : list (eid * list Z) }.
(** rg.py:145-151 *)
Definition rg_new (fs : row) : res rgwriter := h <- rg_header fs ;; Ok (mkrw fs h []).

(** rg.py:186-190: the rows of one segment; the bytes written and the
    number of rows, or the exception. *)
Fixpoint rg_rows (fs : row) (rows : list (list val)) : list Z * res Z :=
  match rows with
  | [] => ([], Ok 0)
  | r :: rest =>
      match row_encode fs r with
      | Err e => ([], Err e)
      | Ok data => let '(bs, n) := rg_rows fs rest in (data ++ bs, rmap (Z.add 1) n)
      end
  end.
(** rg.py:184-191 *)
Fixpoint rg_segs (fs : row) (segs : list (list (list val))) : list Z * res (list Z) :=
  match segs with
  | [] => ([], Ok [])
  | rows :: rest =>
      match rg_rows fs rows with
      | (bs, Err e) => (bs, Err e)
      | (bs, Ok n) => let '(bs', l) := rg_segs fs rest in (bs ++ bs', rmap (cons n) l)
      end
  end.
(** rg.py:180-192: the writer afterwards, and how the call ended. *)
Definition rg_write (w : rgwriter) (segs : list (list (list val))) (id_ : option eid)
  : rgwriter * res unit :=
  let id_ := match id_ with None => EInt (Z.of_nat (length (rw_index w))) | Some e => e end in
  let '(bs, l) := rg_segs (rw_row w) segs in
  match l with
  | Err e => (mkrw (rw_row w) (rw_file w ++ bs) (rw_index w), Err e)
  | Ok lens => (mkrw (rw_row w) (rw_file w ++ bs) (rw_index w ++ [(id_, lens)]), Ok tt)
  end.

(** rg.py:124-130 *)
Definition index_line (e : eid * list Z) : list Z :=
  eid_text (fst e) ++ [32] ++ str_int (Z.of_nat (length (snd e))) ++ [10] ++
  join 32 (map str_int (snd e)) ++ [10].
Definition rg_writeindex (index : list (eid * list Z)) : list Z :=
  str_int (Z.of_nat (length index)) ++ [10] ++ flat_map index_line index.
(** rg.py:132-141; the argument is the text after newline translation. *)
Fixpoint read_entries (n : nat) (s : list Z) : res (list (list Z * list Z)) :=
  match n with
  | O => Ok []
  | S m =>
      let '(l, s) := readline s in
      match split_on 32 l with
      | [id_; ensegs] =>
          _ <- py_int ensegs ;;
          let '(l, s) := readline s in
          elens <- mapM py_int (split_on 32 l) ;;
          rest <- read_entries m s ;;
          Ok ((id_, elens) :: rest)
      | _ => Err ValueError
      end
  end.
Definition rg_readindex (text : list Z) : res (list (list Z * list Z)) :=
  let s := univ_newlines text in
  let '(l, s) := readline s in
  n <- py_int l ;; read_entries (Z.to_nat n) s.

(** rg.py:194-201: the two files; struct.pack("I") raises struct.error for
    2^32 rows or more. *)
Definition rg_close (w : rgwriter) : res (list Z * list Z) :=
  let nrows := zsum (map (fun e => zsum (snd e)) (rw_index w)) in
  data <- pack_le 4 nrows ;;
  Ok (firstn 4 (rw_file w) ++ data ++ skipn 8 (rw_file w), rg_writeindex (rw_index w)).

(** ** Reader *)
Record rgreader : Type := mkrr {
  rr_file : list Z; rr_index : list (list Z * list Z); rr_row : row;
  rr_datapos : Z; rr_pos : Z; rr_idx : Z
}.
(** bool(ord(rg.read(1))) and ord(rg.read(1)) *)
Definition read_ord (s : list Z) : res (Z * list Z) :=
  match s with [] => Err TypeError | b :: r => Ok (b, r) end.
(** rg.py:229-247, after the name *)
Definition rg_read_column (name : list Z) (s : list Z) : res (field * list Z) :=
  '(tp, s) <- read_ord s ;;
  if tp =? 0 then
    '(nl, s) <- read_ord s ;; '(_, s) <- readvlv s ;;
    '(mn, s) <- readsvlv s ;; '(mx, s) <- readsvlv s ;;
    f <- ivar_new name mn mx (negb (nl =? 0)) ;; Ok (FI f, s)
  else if tp =? 1 then
    '(nl, s) <- read_ord s ;; '(size, s) <- readvlv s ;;
    '(mn, s) <- readsvlv s ;; '(mx, s) <- readsvlv s ;;
    f <- fvar_new name (inject_Z mn) (inject_Z mx) size (negb (nl =? 0)) ;; Ok (FF f, s)
  else if tp =? 2 then
    '(nl, s) <- read_ord s ;; '(size, s) <- readvlv s ;;
    Ok (FS (mksvar name (Z.to_nat size) (negb (nl =? 0))), s)
  else Err TypeError.
(** rg.py:221-248; [None]: a name's loop has not ended within the fuel. *)
Fixpoint rg_read_columns (fuel n : nat) (s : list Z) : option (res (row * list Z)) :=
  match n with
  | O => Some (Ok ([], s))
  | S m =>
      match readascii fuel s with
      | None => None
      | Some (Err e) => Some (Err e)
      | Some (Ok (name, s)) =>
          match rg_read_column name s with
          | Err e => Some (Err e)
          | Ok (f, s) =>
              match rg_read_columns fuel m s with
              | None => None
              | Some (Err e) => Some (Err e)
              | Some (Ok (fs, s)) => Some (Ok (f :: fs, s))
              end
          end
      end
  end.
Definition field_name (f : field) : list Z :=
  match f with FI f => i_name f | FF f => f_name f | FS f => s_name f end.
(** rg.py:205-250. [collections_in_scope] tells whether the module global
    "collections" exists (rg.py never imports it); [names_ok] whether
    namedtuple accepts the column names (ValueError otherwise). *)
Definition rg_open (collections_in_scope : bool) (names_ok : list (list Z) -> bool) (fuel : nat)
  (rg md : list Z) : option (res rgreader) :=
  match rg_readindex md with
  | Err e => Some (Err e)
  | Ok index =>
      let '(sig, s) := f_read 2 rg in
      let '(ver, s) := f_read 1 s in
      match (_ <- py_assert (zlist_eqb sig [82; 71]) ;; _ <- py_assert (zlist_eqb ver [1]) ;;
             '(ncols, s) <- read_ord s ;;
             let '(d, s) := f_read 4 s in
             _ <- unpack_le 4 d ;; Ok (ncols, s)) with
      | Err e => Some (Err e)
      | Ok (ncols, s) =>
          match rg_read_columns fuel (Z.to_nat ncols) s with
          | None => None
          | Some (Err e) => Some (Err e)
          | Some (Ok (fs, s)) =>
              if negb collections_in_scope then Some (Err NameError)
              else if negb (names_ok (map field_name fs)) then Some (Err ValueError)
              else let pos := Z.of_nat (length rg) - Z.of_nat (length s) in
                   Some (Ok (mkrr rg index fs pos pos 0))
          end
      end
  end.

(** rg.py:255-262: position of an id in the index and offset of its data *)
Fixpoint rg_find (size : Z) (id_ : list Z) (idx offset : Z) (l : list (list Z * list Z))
  : res (Z * Z) :=
  match l with
  | [] => Err KeyError
  | (e, lens) :: r =>
      if zlist_eqb e id_ then Ok (idx, offset)
      else rg_find size id_ (idx + 1) (offset + size * zsum lens) r
  end.
(** rg.py:266-268: reads of row.size bytes; [s]: the file from the position
    on; also the rest. *)
Fixpoint rg_read_rows (fs : row) (n : nat) (s : list Z) : res (list (list val) * list Z) :=
  match n with
  | O => Ok ([], s)
  | S m =>
      let '(d, s) := f_read (Z.to_nat (row_size fs)) s in
      r <- row_decode fs d ;;
      '(rs, s) <- rg_read_rows fs m s ;;
      Ok (r :: rs, s)
  end.
Fixpoint rg_read_segs (fs : row) (lens : list Z) (s : list Z)
  : res (list (list (list val)) * list Z) :=
  match lens with
  | [] => Ok ([], s)
  | n :: r =>
      '(rows, s) <- rg_read_rows fs (Z.to_nat n) s ;;
      '(segs, s) <- rg_read_segs fs r s ;;
      Ok (rows :: segs, s)
  end.
(** rg.py:252-270; on success also the reader afterwards (a failed read is
    not followed further). *)
Definition rg_read (rd : rgreader) (id_ : option eid) : res (list (list (list val)) * rgreader) :=
  '(idx, pos) <- match id_ with
                 | None => Ok (rr_idx rd, rr_pos rd)
                 | Some e =>
                     '(i, off) <- rg_find (row_size (rr_row rd)) (eid_text e) 0 0 (rr_index rd) ;;
                     Ok (i, rr_datapos rd + off)
                 end ;;
  '(_, lens) <- py_get (rr_index rd) idx ;;
  let s := skipn (Z.to_nat pos) (rr_file rd) in
  '(segs, s') <- rg_read_segs (rr_row rd) lens s ;;
  Ok (segs, mkrr (rr_file rd) (rr_index rd) (rr_row rd) (rr_datapos rd)
              (pos + (Z.of_nat (length s) - Z.of_nat (length s'))) (idx + 1)).
