(** Vocabulary for reading bytes that no Writer has produced. *)
From Verif Require Import Py ShpFile ShpWriterModel ShpSpec.
Open Scope Z_scope.

(** The 32-bit integers (two's complement) at offset [p] of [bs]. *)
Definition int32 (v : Z) : Prop := -2147483648 <= v < 2147483648.
Definition holds_be (bs : list Z) (p : nat) (v : Z) : Prop := int32 v /\ firstn 4 (skipn p bs) = be32 v.
Definition holds_le (bs : list Z) (p : nat) (v : Z) : Prop := int32 v /\ firstn 4 (skipn p bs) = le32 v.
(** The offsets at which a record starts: the first is 100, and each record
    says (in 16-bit words, without its header of 8 bytes) where the next is. *)
Inductive visited (bs : list Z) : nat -> Prop :=
| visited_first : visited bs 100
| visited_next : forall o n q, visited bs o -> (o < length bs)%nat -> holds_be bs (o + 4) n ->
    Z.of_nat q = Z.of_nat o + 8 + 2 * n -> visited bs q.
(** Every record lies after the one before it. *)
Definition advances (bs : list Z) : Prop :=
  forall o n, visited bs o -> (o < length bs)%nat -> holds_be bs (o + 4) n -> -4 < n.
(** What a program that reads the shapes may end with, other than their list. *)
Definition read_failure (bs : list Z) (e : exn) : Prop :=
  e = StructError \/
  (e = TypeError /\ exists o t, visited bs o /\ (o < length bs)%nat /\ holds_le bs (o + 8) t /\ (t = 18 \/ t = 28)) \/
  (e = ValueError /\ exists o n, visited bs o /\ (o < length bs)%nat /\ holds_be bs (o + 4) n /\ Z.of_nat o + 8 + 2 * n < 0).
(** [types] are the types of the records from offset [o] to the end. *)
Inductive records_from (bs : list Z) : nat -> list Z -> Prop :=
| records_end : forall o, (length bs <= o)%nat -> records_from bs o []
| records_one : forall o n q t ts, (o < length bs)%nat -> holds_be bs (o + 4) n -> holds_le bs (o + 8) t ->
    Z.of_nat q = Z.of_nat o + 8 + 2 * n -> records_from bs q ts -> records_from bs o (t :: ts).

(** ** Attribute tables *)
(** The header: number of rows, length of the header. *)
Definition byte_of (bs : list Z) (p : nat) : Z := nth p bs 0.
Definition declared_rows (bs : list Z) : Z :=
  byte_of bs 4 + 256 * byte_of bs 5 + 65536 * byte_of bs 6 + 16777216 * byte_of bs 7.
Definition declared_header (bs : list Z) : Z := byte_of bs 8 + 256 * byte_of bs 9.
Definition declared_columns (bs : list Z) : nat := Z.to_nat ((declared_header bs - 33) / 32).
(** Width and decimals of column [i], in its descriptor of 32 bytes. *)
Definition declared_width (bs : list Z) (i : nat) : Z := byte_of bs (32 + 32 * i + 16).
Definition declared_decimals (bs : list Z) (i : nat) : Z := byte_of bs (32 + 32 * i + 17).
(** Bytes of a row: one for the deletion mark. *)
Definition row_bytes (bs : list Z) : Z := 1 + zsum (map (declared_width bs) (seq 0 (declared_columns bs))).
