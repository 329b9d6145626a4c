(** Vocabulary for the table properties. *)
From Verif Require Import Py StrModel Utf8Model TableModel.
Open Scope Z_scope.

(** ** Rows *)
Section Rows.
  Context {V : Type}.
  (** What collections.namedtuple makes. *)
  Definition row_ok (r : row V) : Prop := NoDup (r_fields r) /\ length (r_values r) = length (r_fields r).
  (** Column [k] of the row holds [v]. *)
  Definition cell (r : row V) (k : str) (v : V) : Prop :=
    exists i, nth_error (r_fields r) i = Some k /\ nth_error (r_values r) i = Some v.
  (** All rows have these columns. *)
  Definition uniform (fields : list str) (t : list (row V)) : Prop :=
    Forall (fun r => r_fields r = fields /\ length (r_values r) = length fields) t.
  (** Column [k] shown with a default. *)
  Definition shows (empty : V) (r : row V) (k : str) (v : V) : Prop :=
    cell r k v \/ (~ In k (r_fields r) /\ v = empty).
  Definition agree (empty : V) (pivots : list str) (r1 r2 : row V) : Prop :=
    forall p, In p pivots -> exists v, shows empty r1 p v /\ shows empty r2 p v.
  (** The first row with a property, if any. *)
  Definition first_such {A} (P : A -> Prop) (l : list A) (o : option A) : Prop :=
    match o with
    | Some x => P x /\ exists before after, l = before ++ x :: after /\ Forall (fun y => ~ P y) before
    | None => Forall (fun y => ~ P y) l
    end.
  (** A cell of the join of a row with its partner. *)
  Definition joined (empty : V) (r1 : row V) (partner : option (row V)) (k : str) (v : V) : Prop :=
    match partner with
    | Some r2 => cell r2 k v \/ (~ In k (r_fields r2) /\ shows empty r1 k v)
    | None => shows empty r1 k v
    end.
  (** The elements with a property, in order. *)
  Inductive selected {A} (P : A -> Prop) : list A -> list A -> Prop :=
  | sel_nil : selected P [] []
  | sel_keep x l s : P x -> selected P l s -> selected P (x :: l) (x :: s)
  | sel_skip x l s : ~ P x -> selected P l s -> selected P (x :: l) s.
  (** Row [n] has the columns [fields] and holds there what [r] holds. *)
  Definition restricted (fields : list str) (r n : row V) : Prop :=
    r_fields n = fields /\ length (r_values n) = length fields /\
    forall k v, In k fields -> (cell n k v <-> cell r k v).
End Rows.

(** Names namedtuple takes (ASCII). *)
Definition letter (c : Z) : Prop := 65 <= c <= 90 \/ 97 <= c <= 122.
Definition name_ok (s : str) : Prop :=
  (exists c r, s = c :: r /\ letter c /\ Forall (fun d => letter d \/ 48 <= d <= 57 \/ d = 95) r) /\ ~ In s keywords.
Definition names_ok (l : list str) : Prop := Forall name_ok l /\ NoDup l.

(** ** Files *)
(** The characters at which codecs readers end lines. *)
Definition breaks : list Z := [10; 11; 12; 13; 28; 29; 30; 133; 8232; 8233].
(** A character that files can hold within a cell. *)
Definition cell_char (sep comm c : Z) : Prop := scalarb c = true /\ ~ In c breaks /\ c <> sep /\ c <> comm.
(** A line that is not blank and neither begins nor ends with white space. *)
Definition solid (s : str) : Prop :=
  (exists c r, s = c :: r /\ is_space c = false) /\ (exists r c, s = r ++ [c] /\ is_space c = false).
(** The columns [ks] of the row make a line that can be read back. *)
Definition writable (sep comm : Z) (ks : list str) (r : row str) : Prop :=
  exists vs, Forall2 (cell r) ks vs /\ Forall (Forall (cell_char sep comm)) vs /\ solid (join sep vs).
(** A line with nothing but white space before its comment. *)
Definition blank (comm : Z) (line : str) : Prop :=
  exists space comment, Forall (fun c => is_space c = true) space /\ (line = space \/ line = space ++ comm :: comment).
(** The content of a line: what is left without comment and surrounding space. *)
Definition content (comm : Z) (line w : str) : Prop :=
  solid w /\ ~ In comm w /\ exists left right comment,
    Forall (fun c => is_space c = true) left /\ Forall (fun c => is_space c = true) right /\
    ~ In comm left /\ ~ In comm right /\
    (line = left ++ w ++ right \/ line = left ++ w ++ right ++ comm :: comment).
(** The contents of the lines of a file that are not blank. *)
Inductive contents (comm : Z) : list str -> list str -> Prop :=
| con_nil : contents comm [] []
| con_skip line lines ws : blank comm line -> contents comm lines ws -> contents comm (line :: lines) ws
| con_keep line w lines ws : content comm line w -> contents comm lines ws -> contents comm (line :: lines) (w :: ws).
(** Lines that end with LF. *)
Definition text_of (lines : list str) : str := concat (map (fun l => l ++ [10]) lines).
Definition file_line (line : str) : Prop := Forall (fun c => scalarb c = true /\ ~ In c breaks) line.

(** ** pprint *)
Definition offset (widths : list nat) (j : nat) : nat := (fold_right Nat.add 0 (firstn j widths) + 3 * j)%nat.
(** The columns of a printed line. *)
Definition line_shows (widths : list nat) (cells : list str) (line : str) : Prop :=
  length cells = length widths /\
  forall j w c, nth_error widths j = Some w -> nth_error cells j = Some c ->
    exists rest, skipn (offset widths j) line = c ++ repeat 32 (w - length c) ++ rest /\
      (rest = [] /\ j = (length widths - 1)%nat \/ exists rest', rest = 32 :: 124 :: 32 :: rest').
(** The smallest width that holds these texts. *)
Definition fits (w : nat) (l : list str) : Prop :=
  Forall (fun s => (length s <= w)%nat) l /\ Exists (fun s => length s = w) l.
