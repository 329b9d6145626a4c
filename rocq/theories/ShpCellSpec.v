(** Specification vocabulary for what the bytes of any attribute table say:
    rows, cells, numbers.  From the models only the argument types ([field],
    [cell], [res]) and UTF-8 encoding are used. *)
From Verif Require Import Py Text Utf8Model ShpFile ShpWriterModel ShpTableSpec ShpHostileSpec.
Open Scope Z_scope.

(** ** Texts *)
(** [t] is [s] without the characters with [P] at both ends. *)
Definition trimmed (P : Z -> Prop) (s t : list Z) : Prop :=
  exists a b, s = a ++ t ++ b /\ Forall P a /\ Forall P b /\
    (forall c r, t = c :: r -> ~ P c) /\ (forall c r, t = r ++ [c] -> ~ P c).
(** White space of Unicode *)
Definition unicode_blank (c : Z) : Prop :=
  9 <= c <= 13 \/ 28 <= c <= 32 \/ 8192 <= c <= 8202 \/
  In c [133; 160; 5760; 8232; 8233; 8239; 8287; 12288].
(** The number that digits (and underscores) stand for *)
Definition digits_value (s : list Z) : Z :=
  fold_left (fun acc c => if c =? 95 then acc else 10 * acc + (c - 48)) s 0.
Definition int_value (s : list Z) (z : Z) : Prop :=
  exists g d, s = g ++ d /\ digits d /\
    ((g = text "-" /\ z = - digits_value d) \/ ((g = [] \/ g = text "+") /\ z = digits_value d)).

(** ** A list of outcomes, one after the other: all, or the first failure *)
Definition first_failing {A} (xs : list (res A)) (x : res (list A)) : Prop :=
  (exists l, xs = map Ok l /\ x = Ok l) \/ (exists l e rest, xs = map Ok l ++ Err e :: rest /\ x = Err e).

(** ** One cell of a column [f] with the bytes [bs] *)
Definition number_cell (f : field) (bs : list Z) (x : res cell) : Prop :=
  exists t, trimmed blank_byte (filter (fun c => negb (c =? 0)) bs) t /\
    ((t = [] /\ x = Ok (CInt 0)) \/
     (t <> [] /\ fd_dec f = 0 /\ exists z, int_value t z /\ x = Ok (CInt z)) \/
     (t <> [] /\ fd_dec f = 0 /\ ~ int_text t /\ x = Err ValueError) \/
     (fd_dec f <> 0 /\ float_text t /\ x = Ok (CFloat t)) \/
     (t <> [] /\ fd_dec f <> 0 /\ ~ float_text t /\ x = Err ValueError)).
Definition text_cell (bs : list Z) (x : res cell) : Prop :=
  (exists u t, utf8_encode u = Ok bs /\ trimmed unicode_blank u t /\ x = Ok (CStr t)) \/
  ((forall u, utf8_encode u <> Ok bs) /\ x = Err UnicodeError).
Definition cell_is (f : field) (bs : list Z) (x : res cell) : Prop :=
  (blank bs /\ x = Ok (CBytes bs)) \/
  (~ blank bs /\ fd_type f = text "N" /\ number_cell f bs x) \/
  (~ blank bs /\ fd_type f <> text "N" /\ text_cell bs x).

(** ** Rows of a table of the bytes [bs] *)
Definition row_start (bs : list Z) (i : nat) : Z := declared_header bs + Z.of_nat i * row_bytes bs.
Definition mark_of (bs : list Z) (i : nat) : Z := byte_of bs (Z.to_nat (row_start bs i)).
(** The bytes of the cell in row [i] and column [j]. *)
Definition cell_bytes (bs : list Z) (i j : nat) : list Z :=
  firstn (Z.to_nat (declared_width bs j))
    (skipn (Z.to_nat (row_start bs i + 1 + zsum (map (declared_width bs) (seq 0 j)))) bs).
(** A row that the file does not hold, a deleted row, and the cells of any other *)
Definition row_is (fs : list field) (bs : list Z) (i : nat) (x : res (option (list cell))) : Prop :=
  (Z.of_nat (length bs) < row_start bs (S i) /\ x = Err StructError) \/
  (row_start bs (S i) <= Z.of_nat (length bs) /\ mark_of bs i <> 32 /\ x = Ok None) \/
  (row_start bs (S i) <= Z.of_nat (length bs) /\ mark_of bs i = 32 /\
   exists xs y, length xs = length fs /\
     (forall j f c, nth_error fs j = Some f -> nth_error xs j = Some c -> cell_is f (cell_bytes bs i j) c) /\
     first_failing xs y /\ x = match y with Ok cs => Ok (Some cs) | Err e => Err e end).
Definition all_rows (fs : list field) (bs : list Z) (xs : list (res (option (list cell)))) : Prop :=
  Z.of_nat (length xs) = declared_rows bs /\ forall i x, nth_error xs i = Some x -> row_is fs bs i x.
(** Rows that are neither deleted nor without cells *)
Definition present (l : list (option (list cell))) : list (list cell) :=
  flat_map (fun x => match x with Some (c :: cs) => [c :: cs] | _ => [] end) l.

(** ** The descriptor of column [i] *)
Definition descriptor (bs : list Z) (i : nat) : list Z := firstn 32 (skipn (32 + 32 * i) bs).
(** The bytes of its name: up to a zero byte among the first eleven, or the
    first ten *)
Definition name_bytes (bs : list Z) (i : nat) (nm : list Z) : Prop :=
  (exists r, firstn 11 (descriptor bs i) = nm ++ 0 :: r /\ ~ In 0 nm) \/
  (~ In 0 (firstn 11 (descriptor bs i)) /\ nm = firstn 10 (descriptor bs i)).
Definition column_is (bs : list Z) (i : nat) (f : field) : Prop :=
  fd_size f = FInt (declared_width bs i) /\ fd_dec f = declared_decimals bs i /\
  fd_type f = [nth 11 (descriptor bs i) 0] /\ nth 11 (descriptor bs i) 0 < 128 /\
  exists nm u a, name_bytes bs i nm /\ utf8_encode u = Ok nm /\ u = a ++ fd_name f /\ Forall unicode_blank a /\
    forall c r, fd_name f = c :: r -> ~ unicode_blank c.
