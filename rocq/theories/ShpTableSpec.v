(** Specification vocabulary for the attribute tables (.dbf files) of
    shapefiles, independent of the model's own helpers: what a program puts into
    the table, the byte layout of the dBASE III format, and what is read back.
    From the writer model only the argument types ([field], [cell], [rec_args])
    are used. *)
From Verif Require Import Py Text StrModel Utf8Model ShpFile ShpWriterModel ShpSpec.
Open Scope Z_scope.

(** ** Texts *)
Definition ascii (s : list Z) : Prop := Forall (fun c => 0 <= c < 128) s.
Definition printable (s : list Z) : Prop := Forall (fun c => 32 <= c < 127) s.
(** ASCII white space of bytes, and of str (which has four more) *)
Definition blank_byte (c : Z) : Prop := 9 <= c <= 13 \/ c = 32.
Definition white (c : Z) : Prop := blank_byte c \/ 28 <= c <= 31.
Definition blank (s : list Z) : Prop := Forall blank_byte s.
(** [t] is [s] without the white space at both ends. *)
Definition stripped (s t : list Z) : Prop :=
  exists a b, s = a ++ t ++ b /\ Forall white a /\ Forall white b /\
    (forall c r, t = c :: r -> ~ white c) /\ (forall c r, t = r ++ [c] -> ~ white c).
(** ** Numbers in texts *)
Definition digit (c : Z) : Prop := 48 <= c <= 57.
(** Digits, with single underscores between them *)
Inductive digits : list Z -> Prop :=
| digits_one d : digit d -> digits [d]
| digits_more d s : digit d -> digits s -> digits (d :: s)
| digits_under d s : digit d -> digits s -> digits (d :: 95 :: s).
Definition sign (s : list Z) : Prop := s = [] \/ s = text "+" \/ s = text "-".
Definition int_text (s : list Z) : Prop := exists g d, s = g ++ d /\ sign g /\ digits d.
(** Digits with a point before, between or after them, or without one *)
Definition mantissa (m : list Z) : Prop :=
  digits m \/ (exists a, digits a /\ m = a ++ text ".") \/ (exists b, digits b /\ m = text "." ++ b) \/
  (exists a b, digits a /\ digits b /\ m = a ++ text "." ++ b).
Definition exponent (e : list Z) : Prop :=
  e = [] \/ exists g d, sign g /\ digits d /\ (e = text "e" ++ g ++ d \/ e = text "E" ++ g ++ d).
(** [c] is the letter [l], small or capital. *)
Definition letter (l c : Z) : Prop := c = l \/ c = l - 32.
Definition special (m : list Z) : Prop :=
  Forall2 letter (text "inf") m \/ Forall2 letter (text "infinity") m \/ Forall2 letter (text "nan") m.
Definition float_text (s : list Z) : Prop :=
  exists g m e, s = g ++ m ++ e /\ sign g /\ ((mantissa m /\ exponent e) \/ (special m /\ e = [])).

Definition spaces (n : Z) : list Z := repeat 32 (Z.to_nat n).
(** Cut or filled up with spaces to [n] characters *)
Definition fitted (n : Z) (s : list Z) : list Z := firstn (Z.to_nat n) (s ++ spaces n).

(** ** Columns *)
(** The size of a column: a number, or its decimal text. *)
Definition size_is (s : fsize) (n : Z) : Prop := s = FInt n \/ s = FStr (str_int n).
(** Kinds of columns, by their type letter: numbers, truth values, the rest *)
Definition numeric (f : field) : Prop := fd_type f = text "N" \/ fd_type f = text "n".
Definition logical (f : field) : Prop := fd_type f = text "L" \/ fd_type f = text "l".
(** A column that can be declared: a printable name, a one-letter type, a size
    of [n] that fits into a byte. *)
Definition column (f : field) (n : Z) : Prop :=
  printable (fd_name f) /\ (exists c, fd_type f = [c] /\ 0 <= c < 128) /\
  size_is (fd_size f) n /\ 0 <= n < 256 /\ 0 <= fd_dec f < 256.
Definition named_deletion (f : field) : Prop := exists s, fd_name f = text "Deletion" ++ s.
(** The name that is kept: spaces become underscores, ten characters. *)
Definition short_name (s : list Z) : list Z := firstn 10 (map (fun c => if c =? 32 then 95 else c) s).

(** The columns in a Reader: after a column for the deletion mark, those that
    were declared, with the short names. *)
Definition flag_column : field := mkField (text "DeletionFlag") (text "C") (FInt 1) 0.
Definition back (f : field) (n : Z) : field := mkField (short_name (fd_name f)) (fd_type f) (FInt n) (fd_dec f).
(** The declared columns [l] without a column for the deletion mark in front *)
Definition with_flag (l fs : list field) : Prop :=
  (l = fs \/ exists d, named_deletion d /\ l = d :: fs) /\ Forall (fun f => ~ named_deletion f) fs.

(** ** Rows *)
(** What record() adds for the columns [fs]: given by position, or by name (None
    is an empty text). *)
Definition given_row (fs : list field) (args : rec_args) (row : list cell) : Prop :=
  match args with
  | RecList l => (length fs <= length l)%nat /\ row = firstn (length fs) l
  | RecDict d => NoDup (map fst d) /\ Forall (fun e => forall s, fst e <> text "Deletion" ++ s) d /\ Forall2 (fun f v => exists o, In (fd_name f, o) d /\ v = match o with Some x => x | None => CStr [] end) fs row
  end.

(** ** Cells *)
Section Cells.
(** The text of a float. *)
Variable float_repr : list Z -> list Z.
Definition shown (v : cell) (s : list Z) : Prop :=
  match v with
  | CStr t => s = t
  | CInt z => s = str_int z
  | CFloat t => s = float_repr t
  | CBytes bs => Forall (eq 32) bs /\ s = text "b'" ++ bs ++ text "'"
  end.
Definition upper (c : Z) : Z := if (97 <=? c) && (c <=? 122) then c - 32 else c.
(** The text [t] that is stored for a cell with the text [s] in a column of size
    [n]: numbers are right-justified and must fit, truth values are one letter,
    everything else is cut or filled up. *)
Definition cell_string (f : field) (n : Z) (s t : list Z) : Prop :=
  (numeric f /\ Z.of_nat (length s) <= n /\ t = spaces (n - Z.of_nat (length s)) ++ s) \/
  (logical f /\ n = 1 /\ exists c r, s = c :: r /\ t = [upper c]) \/
  (~ numeric f /\ ~ logical f /\ t = fitted n s).
(** The bytes of a cell *)
Definition written (f : field) (n : Z) (v : cell) (bs : list Z) : Prop :=
  exists s t, shown v s /\ cell_string f n s t /\ utf8_encode t = Ok bs.
(** The text of a cell consists of code points; a truth value starts with an
    ASCII letter. *)
Definition proper (f : field) (v : cell) : Prop :=
  exists s, shown v s /\ Forall (fun c => 0 <= c < 1114112) s /\ (logical f -> forall c r, s = c :: r -> c < 128).
(** Cells that cannot be written: too long a number, or a truth value in a wide
    column; an empty truth value; a surrogate *)
Definition misfit (f : field) (n : Z) (v : cell) : Prop :=
  exists s, shown v s /\ ((numeric f /\ n < Z.of_nat (length s)) \/ (logical f /\ s <> [] /\ n <> 1)).
Definition empty_truth (f : field) (v : cell) : Prop := logical f /\ shown v [].
Definition surrogate (f : field) (n : Z) (v : cell) : Prop :=
  exists s t c, shown v s /\ cell_string f n s t /\ In c t /\ 55296 <= c < 57344.
(** What is raised for a cell that cannot be written *)
Definition failing (f : field) (n : Z) (v : cell) (e : exn) : Prop :=
  (e = AssertionError /\ misfit f n v) \/ (e = IndexError /\ empty_truth f v) \/ (e = UnicodeError /\ surrogate f n v).
(** A cell whose stored text is ASCII *)
Definition plain_cell (f : field) (n : Z) (v : cell) : Prop := exists s t, shown v s /\ cell_string f n s t /\ ascii t.
(** A cell of a column of size [n], with ASCII text, that can be stored, and its
    bytes in the file. *)
Definition stored (f : field) (n : Z) (v : cell) (bs : list Z) : Prop :=
  exists s, shown v s /\ ascii s /\
    ((numeric f /\ Z.of_nat (length s) <= n /\ bs = spaces (n - Z.of_nat (length s)) ++ s) \/
     (logical f /\ n = 1 /\ exists c r, s = c :: r /\ bs = [upper c]) \/
     (~ numeric f /\ ~ logical f /\ bs = fitted n s)).
(** A cell that can also be read: in an "N" column an int or an empty text, or
    with decimals an empty text or the text of a float. *)
Definition storable (f : field) (n : Z) (v : cell) : Prop :=
  (exists bs, stored f n v bs) /\
  (fd_type f = text "N" -> fd_dec f = 0 -> (exists z, v = CInt z) \/ shown v []) /\
  (fd_type f = text "N" -> fd_dec f <> 0 -> exists s, shown v s /\ (s = [] \/ float_text s)).
(** ** What is read back *)
(** The value that comes back for a cell: the bytes of a blank cell, a number
    without decimals for an int in an "N" column without decimals, a float for
    an "N" column with decimals, and otherwise the text without the white space
    at its ends. *)
Definition returned (f : field) (n : Z) (v c : cell) : Prop :=
  exists bs, stored f n v bs /\
    ((blank bs /\ c = CBytes bs) \/
     (~ blank bs /\ fd_type f = text "N" /\ fd_dec f = 0 /\ exists z, v = CInt z /\ c = CInt z) \/
     (~ blank bs /\ fd_type f = text "N" /\ fd_dec f <> 0 /\
        exists s, shown v s /\ float_text s /\ c = CFloat s) \/
     (~ blank bs /\ fd_type f <> text "N" /\ exists t, stripped bs t /\ c = CStr t)).
(** Whole rows: one value per column. *)
Definition cells_of (fs : list field) (ns : list Z) (v : list cell) : list (field * Z * cell) := combine (combine fs ns) v.
Definition row_written (fs : list field) (ns : list Z) (v : list cell) (bss : list (list Z)) : Prop :=
  length v = length fs /\ Forall2 (fun x bs => written (fst (fst x)) (snd (fst x)) (snd x) bs) (cells_of fs ns v) bss.
Definition row_proper (fs : list field) (ns : list Z) (v : list cell) : Prop :=
  length v = length fs /\ Forall (fun x => proper (fst (fst x)) (snd x)) (cells_of fs ns v).
Definition row_plain (fs : list field) (ns : list Z) (v : list cell) : Prop :=
  length v = length fs /\ Forall (fun x => plain_cell (fst (fst x)) (snd (fst x)) (snd x)) (cells_of fs ns v).
Definition row_stored (fs : list field) (ns : list Z) (v : list cell) (bss : list (list Z)) : Prop :=
  length v = length fs /\ Forall2 (fun x bs => stored (fst (fst x)) (snd (fst x)) (snd x) bs) (cells_of fs ns v) bss.
Definition row_storable (fs : list field) (ns : list Z) (v : list cell) : Prop :=
  length v = length fs /\ Forall (fun x => storable (fst (fst x)) (snd (fst x)) (snd x)) (cells_of fs ns v).
Definition row_returned (fs : list field) (ns : list Z) (v cs : list cell) : Prop :=
  length v = length fs /\ Forall2 (fun x c => returned (fst (fst x)) (snd (fst x)) (snd x) c) (cells_of fs ns v) cs.
End Cells.

(** ** Layout of the file *)
Definition le16 (v : Z) : list Z := [byte_at v 0; byte_at v 1].
(** A column: name (11 bytes, zero-filled), type, 4 reserved bytes, size,
    decimals, 14 reserved bytes *)
Definition descriptor (f : field) (n : Z) : list Z :=
  firstn 11 (map (fun c => if c =? 32 then 95 else c) (fd_name f) ++ repeat 0 11) ++
  fd_type f ++ repeat 0 4 ++ [n; fd_dec f] ++ repeat 0 14.
(** A row: a space (not deleted) and the cells *)
Definition row_bytes (cells : list (list Z)) : list Z := 32 :: concat cells.
(** Version 3, date of the last update, numbers of rows, of bytes before the
    first row and of bytes in a row, 20 reserved bytes, the columns, 13. *)
Definition dbf_start (today : Z * Z * Z) (fs : list field) (ns : list Z) (n : nat) : list Z :=
  let '(y, mo, d) := today in
  [3; y - 1900; mo; d] ++ le32 (Z.of_nat n) ++
  le16 (33 + 32 * Z.of_nat (length fs)) ++ le16 (1 + zsum ns) ++ repeat 0 20 ++
  concat (map (fun fn => descriptor (fst fn) (snd fn)) (combine fs ns)) ++ [13].
(** There is no end-of-file mark. *)
Definition dbf_file (today : Z * Z * Z) (fs : list field) (ns : list Z) (rows : list (list (list Z))) : list Z :=
  dbf_start today fs ns (length rows) ++ flat_map row_bytes rows.
(** The same with other marks than a space in front of the rows: these rows are
    deleted. *)
Definition marked_file (today : Z * Z * Z) (fs : list field) (ns : list Z) (marks : list Z) (rows : list (list (list Z))) : list Z :=
  dbf_start today fs ns (length rows) ++ flat_map (fun mr => fst mr :: concat (snd mr)) (combine marks rows).
Definition marked {A} (marks : list Z) (table : list A) : list (option A) :=
  map (fun mc => if fst mc =? 32 then Some (snd mc) else None) (combine marks table).
Definition undeleted {A} (marks : list Z) (table : list A) : list A :=
  map snd (filter (fun mc => fst mc =? 32) (combine marks table)).
(** A date that fits. *)
Definition plausible (today : Z * Z * Z) : Prop :=
  let '(y, mo, d) := today in 1900 <= y < 2156 /\ 1 <= mo <= 12 /\ 1 <= d <= 31.

(** ** Columns and rows as they are *)
(** The columns without those named "Deletion...", except that a column directly
    after a dropped one is not looked at. *)
Fixpoint alternate (fs fs' : list field) : Prop :=
  match fs with
  | [] => fs' = []
  | f :: r => (~ named_deletion f /\ exists s, fs' = f :: s /\ alternate r s) \/
              (named_deletion f /\ match r with [] => fs' = [] | g :: r' => exists s, fs' = g :: s /\ alternate r' s end)
  end.
(** The number of values a row needs: a first column named "Deletion..." does not
    count. *)
Definition row_width (fs : list field) (n : nat) : Prop :=
  exists f r, fs = f :: r /\ ((named_deletion f /\ n = length r) \/ (~ named_deletion f /\ n = length fs)).
(** The values given by name, in the order of the columns, and only those that
    are given; None is an empty text. *)
Inductive named_row (d : list (list Z * option cell)) : list field -> list cell -> Prop :=
| nr_nil : named_row d [] []
| nr_given f fs o row : In (fd_name f, o) d -> named_row d fs row ->
    named_row d (f :: fs) (match o with Some v => v | None => CStr [] end :: row)
| nr_missing f fs row : ~ In (fd_name f) (map fst d) -> named_row d fs row -> named_row d (f :: fs) row.
