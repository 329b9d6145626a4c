(** Vocabulary of the RangeGrid statements. *)
From Coq Require Import QArith.
From Verif Require Import Py GridModel RgModel.
Open Scope Z_scope.

(** Column names the header can carry: ASCII without NUL. *)
Definition plain_name (s : list Z) : Prop := Forall (fun c => 0 < c < 128) s.
(** Bounds of real columns given as ints. *)
Definition int_bounds (f : field) : Prop :=
  match f with FF f => (exists z, f_min f = inject_Z z) /\ (exists z, f_max f = inject_Z z) | _ => True end.
(** Fields as their constructors make them. *)
Definition constructed (f : field) : Prop :=
  match f with
  | FI f => exists name mn mx nl, ivar_new name mn mx nl = Ok f
  | FF f => exists name mn mx size nl, fvar_new name mn mx size nl = Ok f
  | FS _ => True
  end.
(** Identifiers the index file can carry. *)
Definition clean_id (s : list Z) : Prop := ~ In 32 s /\ ~ In 10 s /\ ~ In 13 s.

(** Calls of write in order; [None] if one raises. *)
Fixpoint rg_write_all (w : rgwriter) (l : list (option eid * list (list (list val)))) : option rgwriter :=
  match l with
  | [] => Some w
  | (id_, segs) :: r =>
      match rg_write w segs id_ with
      | (w', Ok _) => rg_write_all w' r
      | (_, Err _) => None
      end
  end.
(** The identifiers under which they are stored: by default the number of
    the entity. *)
Fixpoint ids_from (k : Z) (l : list (option eid * list (list (list val)))) : list eid :=
  match l with
  | [] => []
  | (Some e, _) :: r => e :: ids_from (k + 1) r
  | (None, _) :: r => EInt k :: ids_from (k + 1) r
  end.
(** Number of rows. *)
Definition nrows (l : list (option eid * list (list (list val)))) : Z :=
  Z.of_nat (length (concat (concat (map snd l)))).
(** What an entity's segments look like after coding and decoding row by row. *)
Definition recoded (fs : row) (segs : list (list (list val))) : res (list (list (list val))) :=
  mapM (mapM (fun r => d <- row_encode fs r ;; row_decode fs d)) segs.
(** [n] calls of read() in a row. *)
Fixpoint rg_read_n (n : nat) (rd : rgreader) : res (list (list (list (list val)))) :=
  match n with
  | O => Ok []
  | S m => '(segs, rd) <- rg_read rd None ;; rest <- rg_read_n m rd ;; Ok (segs :: rest)
  end.
(** Rows after coding and decoding, without the division into segments. *)
Definition recoded_rows (fs : row) (rows : list (list val)) : res (list (list val)) :=
  mapM (fun r => d <- row_encode fs r ;; row_decode fs d) rows.
(** Entity [i] is the first one whose id reads like [e]. *)
Definition first_with (ids : list eid) (e : eid) (i : nat) : Prop :=
  (exists e', nth_error ids i = Some e' /\ eid_text e' = eid_text e) /\
  (forall j e', (j < i)%nat -> nth_error ids j = Some e' -> eid_text e' <> eid_text e).
(** Column lists for which the header can be written and read back. *)
Definition plain_row (fuel : nat) (fs : row) : Prop :=
  Forall (fun f => constructed f /\ plain_name (field_name f) /\ (length (field_name f) < fuel)%nat) fs.
(** Entities the index file can carry. *)
Definition storable (l : list (option eid * list (list (list val)))) : Prop :=
  Forall (fun e => snd e <> []) l /\ Forall (fun e => clean_id (eid_text e)) (ids_from 0 l).
