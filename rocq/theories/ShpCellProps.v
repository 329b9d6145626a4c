(** What the bytes of any attribute table say: theorems. *)
From Verif Require Import Py Text Utf8Model VlvModel ShpFile ShpWriterModel ShpReaderModel ShpSpec ShpTableSpec ShpTablePrograms ShpTable ShpHostileSpec ShpHostile ShpHostileDbf ShpCellSpec ShpCell.
From Verif Require ShpHostileProps.
Open Scope Z_scope.

(** ** C115 *)
(** A Reader over the table [bs] after any calls of record(). *)
Definition table_reader (bs : list Z) (is : list Z) (r : reader) : Prop :=
  exists shx r0, Reader None shx (Some bs) = (r0, Ok tt) /\ r = fold_left (fun r i => fst (record_at i r)) is r0.
(** Bytes that declare rows and a header. *)
Definition declares (bs : list Z) : Prop := Forall is_byte bs /\ declared_rows bs <> 0 /\ declared_header bs <> 0.
Lemma reader_table bs is r : declares bs -> table_reader bs is r -> exists new, table_of bs r new /\ r_fields r = flag_column :: new /\
  length new = declared_columns bs /\ forall i f, nth_error new i = Some f -> column_is bs i f.
Proof.
  intros [B [N H]] [shx [r0 [O ->]]]. pose proof (table_opens bs shx) as T. rewrite O in T.
  destruct (opened_of bs r0 B T) as [new [T0 [F [L C]]]]. exists new. pose proof (asked_of bs new is B N H r0 T0) as T1.
  split; [exact T1|]. split; [|split; [exact L|exact C]]. destruct T1 as [_ [_ [_ [_ [F1 _]]]]]. exact F1.
Qed.
Lemma rows_are bs r new : declares bs -> table_of bs r new -> all_rows new bs (map (out_row bs new) (seq 0 (Z.to_nat (declared_rows bs)))).
Proof.
  intros [B [N H]] [_ [_ [_ [_ [_ [W NM]]]]]]. split.
  - rewrite map_length, seq_length. pose proof (rows_nonneg bs B). lia.
  - intros i x X. rewrite nth_error_map in X. destruct (nth_error (seq 0 _) i) as [k|] eqn:E; [|discriminate]. cbn in X. injection X as <-.
    assert (I : (i < Z.to_nat (declared_rows bs))%nat) by (rewrite <- (seq_length (Z.to_nat (declared_rows bs)) 0); apply nth_error_Some; congruence).
    rewrite (nth_error_nth' _ 0%nat) in E by (rewrite seq_length; exact I). rewrite seq_nth in E by exact I. injection E as <-.
    exact (row_out_is bs new B W NM i).
Qed.
(** The columns are those of the descriptors. *)
Theorem C115_columns : forall bs is r, declares bs -> table_reader bs is r ->
  exists fs, r_fields r = flag_column :: fs /\ length fs = declared_columns bs /\
    forall i f, nth_error fs i = Some f -> column_is bs i f.
Proof. intros bs is r D R. destruct (reader_table bs is r D R) as [new [_ H]]. exists new. exact H. Qed.
(** records(): all rows that are not deleted, or the first failure. *)
Theorem C115_records : forall bs is r, declares bs -> table_reader bs is r ->
  exists xs y, all_rows (tl (r_fields r)) bs xs /\ first_failing xs y /\
    snd (records r) = match y with Ok l => Ok (present l) | Err e => Err e end.
Proof.
  intros bs is r D R. destruct (reader_table bs is r D R) as [new [T [F _]]]. rewrite F. cbn [tl].
  eexists _, _. split; [exact (rows_are bs r new D T)|]. split; [apply all_out_first|]. destruct D as [B [N H]]. exact (records_out bs new B N H r T).
Qed.
(** iterRecords(): the same rows, and those before the first failure. *)
Theorem C115_iter : forall bs is r, declares bs -> table_reader bs is r ->
  exists xs l, all_rows (tl (r_fields r)) bs xs /\
    ((xs = map Ok l /\ iterRecords r = (present l, Ok tt)) \/
     (exists e rest, xs = map Ok l ++ Err e :: rest /\ iterRecords r = (present l, Err e))).
Proof.
  intros bs is r D R. destruct (reader_table bs is r D R) as [new [T [F _]]]. rewrite F. cbn [tl].
  destruct D as [B [N H]]. destruct (iterRecords_out bs new B N H r T) as [l X].
  exists (map (out_row bs new) (seq 0 (Z.to_nat (declared_rows bs)))), l. split; [exact (rows_are bs r new (conj B (conj N H)) T)|exact X].
Qed.
(** record(): one row, counted from the start or from the end; whatever the
    other rows hold. *)
Theorem C115_record : forall bs is r i k, declares bs -> table_reader bs is r -> position (Z.to_nat (declared_rows bs)) i k ->
  row_is (tl (r_fields r)) bs k (snd (record_at i r)).
Proof.
  intros bs is r i k D R P. destruct (reader_table bs is r D R) as [new [T [F _]]]. rewrite F. cbn [tl]. destruct D as [B [N H]].
  apply restrict_at in P. rewrite Z2Nat.id in P by apply (rows_nonneg bs B). destruct (record_out bs new B N H r i k T P) as [p E]. rewrite E. cbn [snd].
  destruct T as [_ [_ [_ [_ [_ [W NM]]]]]]. exact (row_out_is bs new B W NM k).
Qed.
Theorem C115_record_outside : forall bs is r i, declares bs -> table_reader bs is r -> outside (Z.to_nat (declared_rows bs)) i ->
  snd (record_at i r) = Err IndexError.
Proof.
  intros bs is r i D R P. destruct (reader_table bs is r D R) as [new [T _]]. destruct D as [B [N H]]. pose proof (rows_nonneg bs B) as RN.
  apply restrict_out in P; [|lia]. rewrite Z2Nat.id in P by exact RN.
  assert (E0 : in_dbf (ret tt) r = (r, Ok tt)).
  { destruct r as [a b c d e' g h j l m n o]. destruct T as [E _]. cbn in E. destruct c; [reflexivity|contradiction]. }
  unfold record_at. unfold mbind at 1. rewrite E0. unfold mbind at 1, get at 1. rewrite (table_truthy bs new N r T). cbn [negb when]. unfold mbind at 1, ret at 1.
  unfold mbind at 1, get at 1. pose proof T as [_ [_ [NR _]]]. rewrite NR, P. reflexivity.
Qed.
(** The description leaves no choice. *)
Theorem C115_one : forall fs bs i x y, row_is fs bs i x -> row_is fs bs i y -> x = y.
Proof. exact row_fun. Qed.

(** A table of three rows and two columns, an "N" column without decimals and
    one with two: the number in row 1 is malformed. *)
Definition two_columns (a b c : list Z) : list Z :=
  [3; 116; 11; 16; 3; 0; 0; 0; 97; 0; 9; 0] ++ repeat 0 20 ++
  [65] ++ repeat 0 10 ++ [78] ++ repeat 0 4 ++ [3; 0] ++ repeat 0 14 ++
  [66] ++ repeat 0 10 ++ [78] ++ repeat 0 4 ++ [5; 2] ++ repeat 0 14 ++ [13] ++ a ++ b ++ c.
Definition some_table : list Z := two_columns (text "  12 1e-3") (text " 1_23.4.5") (text " -07  .5 ").
Example C115_case : declares some_table /\
  exists r, table_reader some_table [1; 7] r /\
    snd (record_at 0 r) = Ok (Some [CInt 12; CFloat (text "1e-3")]) /\ snd (record_at 1 r) = Err ValueError /\
    snd (record_at (-1) r) = Ok (Some [CInt (-7); CFloat (text ".5")]) /\
    snd (records r) = Err ValueError /\ iterRecords r = ([[CInt 12; CFloat (text "1e-3")]], Err ValueError) /\
    snd (record_at 3 r) = Err IndexError.
Proof.
  split; [split; [apply ShpHostileProps.bytesb_ok; vm_compute; reflexivity|split; vm_compute; discriminate]|].
  exists (fold_left (fun r i => fst (record_at i r)) [1; 7] (fst (Reader None None (Some some_table)))).
  split; [exists None, (fst (Reader None None (Some some_table))); split; [vm_compute; reflexivity|reflexivity]|].
  repeat match goal with |- _ /\ _ => split end; vm_compute; reflexivity.
Qed.

Print Assumptions C115_columns.
Print Assumptions C115_records.
Print Assumptions C115_iter.
Print Assumptions C115_record.
Print Assumptions C115_record_outside.
Print Assumptions C115_one.
