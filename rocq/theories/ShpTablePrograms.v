(** Programs over the whole shapefile API (shapes and attribute table), as the
    statements in ShpTableProps.v mention them: no proofs here. *)
From Verif Require Import Py ShpFile ShpWriterModel ShpReaderModel ShpSpec ShpPrograms ShpTableSpec.
Open Scope Z_scope.
Open Scope m_scope.

(** ** Writing *)
(** A call of a method of Writer: point(), line(), poly() or null(); field();
    record(). *)
Inductive step : Type := Shape (c : call) | Column (f : field) | Row (args : rec_args).
Definition do_step (s : step) : M writer unit :=
  match s with
  | Shape c => do_call c
  | Column f => add_field (fd_name f) (fd_type f) (fd_size f) (fd_dec f)
  | Row args => record args
  end.
Definition shapes_of (l : list step) : list call := flat_map (fun s => match s with Shape c => [c] | _ => [] end) l.
Definition columns_of (l : list step) : list field := flat_map (fun s => match s with Column f => [f] | _ => [] end) l.
Definition rows_of (l : list step) : list rec_args := flat_map (fun s => match s with Row a => [a] | _ => [] end) l.
(** No column is declared after the first row. *)
Definition columns_first (l : list step) : Prop := forall pre a post, l = pre ++ Row a :: post -> columns_of post = [].
(** The numbers in the header of the table fit. *)
Definition table_fits (fs : list field) (ns : list Z) (rows : list (list cell)) : Prop :=
  33 + 32 * Z.of_nat (length fs) < 65536 /\ 1 + zsum ns < 65536 /\ Z.of_nat (length rows) < 4294967296.
(** A program that has declared the columns [fs] of sizes [ns] and then added
    [rows], and shapes in between. *)
Record table_program (given : option Z) (steps : list step) (fs : list field) (ns : list Z) (rows : list (list cell)) (w : writer) : Prop := {
  tp_run : for_each do_step steps (Writer given) = (w, Ok tt);
  tp_columns : with_flag (columns_of steps) fs;
  tp_some : fs <> [];
  tp_first : columns_first steps;
  tp_sizes : Forall2 column fs ns;
  tp_rows : Forall2 (given_row fs) (rows_of steps) rows;
  tp_fits : table_fits fs ns rows
}.
(** The same with shapes of a type [t], saved into three new files. *)
Record saved_program (fr : list Z -> list Z) (today : Z * Z * Z) (given : option Z) (steps : list step) (t : Z)
  (fs : list field) (ns : list Z) (rows : list (list cell)) (w0 w1 : writer) : Prop := {
  sp_date : plausible today;
  sp_table : table_program given steps fs ns rows w0;
  sp_doubles : Forall call_doubles (shapes_of steps);
  sp_type : file_type given (shapes_of steps) t;
  sp_save : save fr today new_file new_file new_file w0 = (w1, Ok tt)
}.

(** ** Reading *)
(** The element of [n] that an index of Python means here: -n is refused. *)
Definition position (n : nat) (i : Z) (k : nat) : Prop :=
  (k < n)%nat /\ (i = Z.of_nat k \/ (i < 0 /\ (0 < k)%nat /\ Z.of_nat k = Z.of_nat n + i)).
Definition outside (n : nat) (i : Z) : Prop := Z.of_nat n <= Z.abs i.
(** A call of a method of Reader *)
Inductive lookup : Type := AllShapes | OneShape (i : Z) | AllRecords | OneRecord (i : Z) | AllPairs | OnePair (i : Z).
Definition look (fuel : nat) (l : lookup) : M reader unit :=
  match l with
  | AllShapes => shapes fuel ;;; ret tt
  | OneShape i => shape_at fuel i ;;; ret tt
  | AllRecords => records ;;; ret tt
  | OneRecord i => record_at i ;;; ret tt
  | AllPairs => shapeRecords fuel ;;; ret tt
  | OnePair i => shapeRecord fuel i ;;; ret tt
  end.
Definition index_of (l : lookup) : option Z :=
  match l with OneShape i | OneRecord i | OnePair i => Some i | _ => None end.
Definition of_table (l : lookup) : Prop := match l with AllRecords => True | OneRecord _ => True | _ => False end.
(** Earlier use of a Reader of [n] records and [m] shapes: any calls, with
    indices that are valid or refused, whether they raise or not. *)
Inductive used_by (P : lookup -> Prop) (n m : nat) (r0 : reader) : reader -> Prop :=
| used_new : used_by P n m r0 r0
| used_look r r' fuel l x : used_by P n m r0 r -> P l -> (m < fuel)%nat ->
    (forall i, index_of l = Some i -> (exists k, position n i k /\ (k < m)%nat) \/ outside n i) ->
    look fuel l r = (r', x) -> used_by P n m r0 r'.
