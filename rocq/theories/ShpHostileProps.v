(** Reading arbitrary bytes as a .shp file: theorems. *)
From Verif Require Import Py VlvModel ShpFile ShpWriterModel ShpReaderModel ShpSpec ShpHostileSpec ShpHostile ShpHostileDbf.
Open Scope Z_scope.

(** ** C111 *)
(** Any 100 bytes are accepted as a header; fewer raise struct.error. *)
Theorem C111_opens : forall bs shx, Forall is_byte bs ->
  ((length bs < 100)%nat -> snd (Reader (Some bs) shx None) = Err StructError) /\
  ((100 <= length bs)%nat -> exists r t, Reader (Some bs) shx None = (r, Ok tt) /\
    r_type r = Some t /\ holds_le bs 32 t /\ firstn 32 (skipn 36 bs) = doubles (r_bbox r) /\
    firstn 16 (skipn 68 bs) = doubles (r_elevation r) /\ firstn 16 (skipn 84 bs) = doubles (r_measure r)).
Proof.
  intros bs shx B. split; [apply Reader_short|]. intros L. destruct (Reader_shp bs shx B L) as [r [t [H [_ H']]]]. exists r, t. split; [exact H|exact H'].
Qed.

(** What shapes() returns or raises, whatever the bytes. *)
Theorem C111_outcome : forall bs shx r fuel, Forall is_byte bs -> Reader (Some bs) shx None = (r, Ok tt) ->
  match snd (shapes fuel r) with
  | Ok (Some ss) => (exists ts, map s_type ss = map Some ts /\ records_from bs 100 ts) /\ iterShapes fuel r = (ss, Some (Ok tt))
  | Err e => read_failure bs e /\ snd (iterShapes fuel r) = Some (Err e)
  | Ok None => snd (iterShapes fuel r) = None
  end.
Proof.
  intros bs shx r fuel B O. destruct (Nat.lt_ge_cases (length bs) 100) as [L|L].
  { pose proof (Reader_short bs shx L) as S. rewrite O in S. discriminate S. }
  destruct (Reader_shp bs shx B L) as [r' [t [O' [F _]]]]. assert (r' = r) by congruence. subst r'.
  rewrite (shapes_run fuel r _ F), (iterShapes_run fuel r _ F). cbn [fdata].
  pose proof (shapes_loop_outcome (r_measure r) bs B fuel (mkFile bs 100) eq_refl (visited_first bs)) as H. cbn [fpos] in H.
  pose proof (iter_loop_shapes (r_measure r) (Z.of_nat (length bs)) fuel (mkFile bs 100)) as I.
  destruct (snd (shapes_loop _ _ _ _)) as [[ss|]|e]; [split; [exact H|exact I]|exact I|split; [exact H|exact I]].
Qed.

(** When every record lies after the one before it, shapes() ends. *)
Theorem C111_ends : forall bs shx r fuel, Forall is_byte bs -> Reader (Some bs) shx None = (r, Ok tt) -> advances bs ->
  (length bs < 99 + 2 * fuel)%nat -> snd (shapes fuel r) <> Ok None.
Proof.
  intros bs shx r fuel B O A FU. destruct (Nat.lt_ge_cases (length bs) 100) as [L|L].
  { pose proof (Reader_short bs shx L) as S. rewrite O in S. discriminate S. }
  destruct (Reader_shp bs shx B L) as [r' [t [O' [F _]]]]. assert (r' = r) by congruence. subst r'.
  rewrite (shapes_run fuel r _ F). cbn [fdata]. apply (shapes_loop_ends (r_measure r) bs B A fuel (mkFile bs 100) eq_refl (visited_first bs)); cbn [fpos]; lia.
Qed.

(** It does not always: a null record that declares a length of -4 words is
    read again and again, whatever the rest of the file. *)
Theorem C111_never_ends : forall bs shx r, Forall is_byte bs -> Reader (Some bs) shx None = (r, Ok tt) ->
  (111 < length bs)%nat -> holds_be bs 104 (-4) -> holds_le bs 108 0 ->
  forall fuel, snd (shapes fuel r) = Ok None.
Proof.
  intros bs shx r B O L HN HT.
  destruct (Reader_shp bs shx B ltac:(lia)) as [r' [t [O' [F _]]]]. assert (r' = r) by congruence. subst r'.
  assert (G : exists s, get_shape (r_measure r) (mkFile bs 100) = (mkFile bs 100, Ok s)) by (apply null_again; assumption).
  destruct G as [s G]. intros fuel. rewrite (shapes_run fuel r _ F). cbn [fdata].
  induction fuel as [|k IH]; [reflexivity|]. cbn [shapes_loop]. unfold mbind at 1, f_tell. cbn [fpos].
  replace (Z.of_nat 100 <? Z.of_nat (length bs)) with true by (symmetry; apply Z.ltb_lt; lia).
  unfold mbind at 1. rewrite G. unfold mbind. destruct (shapes_loop k (r_measure r) (Z.of_nat (length bs)) (mkFile bs 100)) as [f2 x]. cbn in IH. subst x. reflexivity.
Qed.

(** A file with a multipoint-Z record (type 18) cannot be read, and one with a
    multipoint-M record (type 28) only when the header's measure range has a 0. *)
Theorem C111_multipoints : forall bs shx r fuel ss o t, Forall is_byte bs -> Reader (Some bs) shx None = (r, Ok tt) ->
  snd (shapes fuel r) = Ok (Some ss) -> visited bs o -> (o < length bs)%nat -> holds_le bs (o + 8) t ->
  t <> 18 /\ (t = 28 -> exists d, In d (r_measure r) /\ dbl_eq 0 d = true).
Proof.
  intros bs shx r fuel ss o t B O S V LO HT. destruct (Nat.lt_ge_cases (length bs) 100) as [L|L].
  { pose proof (Reader_short bs shx L) as X. rewrite O in X. discriminate X. }
  destruct (Reader_shp bs shx B L) as [r' [t' [O' [F _]]]]. assert (r' = r) by congruence. subst r'.
  rewrite (shapes_run fuel r _ F) in S. cbn [fdata] in S.
  destruct (shapes_loop_readable (r_measure r) bs B fuel o t ss S V LO HT) as [R1 R2]. split; [exact R1|].
  intros T. apply existsb_exists. apply R2. exact T.
Qed.

(** A file of a point and a null record; the same with the null record
    declaring -4 words; one with a record of type 18. *)
Definition two_records : list Z :=
  repeat 0 100 ++ be32 1 ++ be32 10 ++ le32 1 ++ repeat 7 16 ++ be32 2 ++ be32 2 ++ le32 0.
Lemma two_records_visited : forall o, visited two_records o -> (o = 100 \/ o = 128 \/ o = 140)%nat.
Proof.
  intros o V. induction V as [|o n q V IH L HN Q]; [auto|].
  destruct IH as [->|[->| ->]].
  - assert (n = 10) by (eapply holds_be_det; [exact HN|]; split; [unfold int32; lia|reflexivity]). lia.
  - assert (n = 2) by (eapply holds_be_det; [exact HN|]; split; [unfold int32; lia|reflexivity]). lia.
  - change (length two_records) with 140%nat in L. lia.
Qed.
Definition bytesb (l : list Z) : bool := forallb is_byteb l.
Lemma bytesb_ok l : bytesb l = true -> Forall is_byte l.
Proof. intros H. apply Forall_forall. intros x I. unfold bytesb in H. rewrite forallb_forall in H. specialize (H x I). unfold is_byteb in H. unfold is_byte.
  apply andb_true_iff in H. destruct H as [H1 H2]. apply Z.leb_le in H1. apply Z.ltb_lt in H2. lia. Qed.
Example C111_case :
  Forall is_byte two_records /\ advances two_records /\ (length two_records < 99 + 2 * 22)%nat /\
  (exists r ss, Reader (Some two_records) None None = (r, Ok tt) /\ snd (shapes 22 r) = Ok (Some ss) /\
     map s_type ss = [Some 1; Some 0]) /\
  (let bs := repeat 0 100 ++ be32 1 ++ be32 (-4) ++ le32 0 in
   Forall is_byte bs /\ (exists r, Reader (Some bs) None None = (r, Ok tt)) /\ (111 < length bs)%nat /\ holds_be bs 104 (-4) /\ holds_le bs 108 0) /\
  (let bs := repeat 0 100 ++ be32 1 ++ be32 56 ++ le32 18 ++ repeat 0 108 in
   Forall is_byte bs /\ (exists r, Reader (Some bs) None None = (r, Ok tt) /\ snd (shapes 100 r) = Err TypeError) /\
   visited bs 100 /\ (100 < length bs)%nat /\ holds_le bs 108 18).
Proof.
  split; [apply bytesb_ok; reflexivity|]. split.
  { intros o n V L HN. destruct (two_records_visited o V) as [->|[->| ->]].
    - assert (n = 10) by (eapply holds_be_det; [exact HN|]; split; [unfold int32; lia|reflexivity]). lia.
    - assert (n = 2) by (eapply holds_be_det; [exact HN|]; split; [unfold int32; lia|reflexivity]). lia.
    - change (length two_records) with 140%nat in L. lia. }
  split; [apply Nat.ltb_lt; reflexivity|]. split.
  { do 2 eexists. split; [vm_compute; reflexivity|]. split; [vm_compute; reflexivity|reflexivity]. }
  cbv zeta. split.
  - split; [apply bytesb_ok; reflexivity|]. split; [eexists; vm_compute; reflexivity|]. split; [apply Nat.ltb_lt; reflexivity|].
    split; (split; [unfold int32; lia|reflexivity]).
  - split; [apply bytesb_ok; reflexivity|]. split; [eexists; split; [vm_compute; reflexivity|vm_compute; reflexivity]|]. split; [constructor|].
    split; [apply Nat.ltb_lt; reflexivity|]. split; [unfold int32; lia|reflexivity].
Qed.

(** ** C112 *)
(** Opening a table of any bytes. *)
Theorem C112_opens : forall bs shx,
  match Reader None shx (Some bs) with
  | (r, Ok _) => (32 + 32 * declared_columns bs < length bs)%nat /\ byte_of bs (32 + 32 * declared_columns bs) = 13 /\
      r_numRecords r = Some (declared_rows bs) /\
      exists new, r_fields r = flag_field :: new /\ length new = declared_columns bs /\
      forall i f, nth_error new i = Some f -> fd_size f = FInt (declared_width bs i) /\ fd_dec f = declared_decimals bs i
  | (_, Err e) => e = StructError \/ e = AssertionError \/ e = UnicodeError
  end.
Proof.
  intros bs shx. pose proof (table_opens bs shx) as H. destruct (Reader None shx (Some bs)) as [r [[]|e]]; [|exact H].
  destruct H as [_ [_ [N [_ [new [F [L [T W]]]]]]]]. split; [apply nth_error_Some; congruence|]. split; [apply nth_error_nth; exact T|].
  split; [exact N|]. exists new. split; [exact F|]. split; [exact L|]. intros i f X. destruct (W i f X) as [W1 [W2 _]]. auto.
Qed.
(** Reading all rows: never more than the bytes of the file hold. *)
Theorem C112_rows : forall bs shx r, Forall is_byte bs -> Reader None shx (Some bs) = (r, Ok tt) ->
  declared_rows bs <> 0 -> declared_header bs <> 0 ->
  match snd (records r) with
  | Ok rows => Z.of_nat (length rows) <= declared_rows bs /\
      declared_header bs + declared_rows bs * row_bytes bs <= Z.of_nat (length bs) /\
      Forall (fun row => length row = length (filter (fun f => negb (zlist_eqb (fd_name f) flag_name)) (r_fields r))) rows
  | Err e => (e = StructError /\ Z.of_nat (length bs) < declared_header bs + declared_rows bs * row_bytes bs) \/
      e = UnicodeError \/ e = ValueError
  end.
Proof.
  intros bs shx r B O N H. pose proof (table_opens bs shx) as T. rewrite O in T. exact (records_run bs r B T N H).
Qed.
(** A table that declares one column of width 2 and three rows, with room for
    two; and the same declaring two. *)
Definition small_table (n : Z) : list Z :=
  [3; 116; 11; 16; n; 0; 0; 0; 65; 0; 3; 0] ++ repeat 0 20 ++
  [78] ++ repeat 0 10 ++ [67] ++ repeat 0 4 ++ [2; 0] ++ repeat 0 14 ++ [13] ++ [32; 97; 98; 42; 99; 100].
Example C112_case :
  Forall is_byte (small_table 2) /\ declared_rows (small_table 2) = 2 /\ declared_header (small_table 2) = 65 /\ row_bytes (small_table 2) = 3 /\
  (exists r, Reader None None (Some (small_table 2)) = (r, Ok tt) /\ snd (records r) = Ok [[CStr [97; 98]]]) /\
  (exists r, Reader None None (Some (small_table 3)) = (r, Ok tt) /\ snd (records r) = Err StructError).
Proof.
  split; [apply bytesb_ok; reflexivity|]. split; [reflexivity|]. split; [reflexivity|]. split; [reflexivity|].
  split; eexists; (split; [vm_compute; reflexivity|vm_compute; reflexivity]).
Qed.

Print Assumptions C111_opens.
Print Assumptions C111_outcome.
Print Assumptions C111_ends.
Print Assumptions C111_never_ends.
Print Assumptions C111_multipoints.
Print Assumptions C112_opens.
Print Assumptions C112_rows.
