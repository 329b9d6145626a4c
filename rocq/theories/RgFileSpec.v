(** The layout of a RangeGrid file, independent of the model: what a sequence
    of bytes has to be in order to be a file with given columns. *)
From Coq Require Import QArith.
From Verif Require Import Py PfFileSpec GridModel.
Open Scope Z_scope.

(** [bs] spells [v]: a byte that tells the sign and the absolute value. *)
Definition signed (v : Z) (bs : list Z) : Prop :=
  exists g n m, bs = g :: m /\ number n m /\ v = if g =? 0 then n else - n.
(** A column as the bytes state it: its name, kind (0 integer, 1 real, 2
    string), null byte, size and bounds (0 for strings). *)
Record column : Type := col { c_name : list Z; c_kind : Z; c_null : Z; c_size : Z; c_min : Z; c_max : Z }.
Definition column_bytes (c : column) (bs : list Z) : Prop :=
  exists z b, bs = c_name c ++ [0; c_kind c; c_null c] ++ z ++ b /\ Forall (fun x => 0 < x < 128) (c_name c) /\ number (c_size c) z /\
    ((c_kind c = 0 \/ c_kind c = 1) /\ (exists m n, b = m ++ n /\ signed (c_min c) m /\ signed (c_max c) n) \/
     c_kind c = 2 /\ b = [] /\ c_min c = 0 /\ c_max c = 0).
(** Codes of [s] bytes can tell apart the integers of a column, and null. *)
Definition fits (s : Z) (c : column) : Prop := c_max c - c_min c + (if c_null c =? 0 then 0 else 1) < 256 ^ s.
(** What the reader asks of a column. *)
Definition sound (c : column) : Prop :=
  (c_kind c = 0 -> c_min c < c_max c /\ fits 8 c) /\ (c_kind c = 1 -> c_min c < c_max c /\ In (c_size c) [1; 2; 4; 8]).
(** The variable that stands for a column. The size of an integer column is not
    taken from the file. *)
Definition stands (f : field) (c : column) : Prop :=
  match f with
  | FI f => c_kind c = 0 /\ i_name f = c_name c /\ i_min f = c_min c /\ i_max f = c_max c /\ i_nullable f = negb (c_null c =? 0) /\
      In (i_size f) [1; 2; 4; 8] /\ fits (i_size f) c /\ (forall s, In s [1; 2; 4; 8] -> fits s c -> i_size f <= s)
  | FF f => c_kind c = 1 /\ f_name f = c_name c /\ f_min f = inject_Z (c_min c) /\ f_max f = inject_Z (c_max c) /\
      f_nullable f = negb (c_null c =? 0) /\ Z.of_nat (f_size f) = c_size c
  | FS f => c_kind c = 2 /\ s_name f = c_name c /\ s_nullable f = negb (c_null c =? 0) /\ Z.of_nat (s_size f) = c_size c
  end.
(** The file with columns [cs] and [data] after them. The number of rows,
    [rows], can be anything. *)
Definition rg_layout (file : list Z) (cs : list column) (data : list Z) : Prop :=
  exists rows bs, file = [82; 71; 1; Z.of_nat (length cs)] ++ rows ++ concat bs ++ data /\ length rows = 4%nat /\ Forall2 column_bytes cs bs.
(** Two columns that the reader does not tell apart: it reads over the size of an
    integer column and asks of the null byte only whether it is 0. *)
Definition like (c' c : column) : Prop :=
  c_name c' = c_name c /\ c_kind c' = c_kind c /\ (c_kind c <> 2 -> c_min c' = c_min c /\ c_max c' = c_max c) /\ (c_null c' = 0 <-> c_null c = 0) /\ (c_kind c <> 0 -> c_size c' = c_size c).
