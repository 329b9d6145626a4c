(** Shapefile attribute tables: theorems. *)
From Verif Require Import Py Text StrModel Utf8Model ShpFile ShpWriterModel ShpReaderModel ShpSpec ShpPrograms ShpProps ShpTableSpec ShpTablePrograms
  ShpTable ShpPairs ShpNames ShpFloatText.
Open Scope Z_scope.
Open Scope m_scope.

(** For the examples: a float is given by its text *)
Definition fr : list Z -> list Z := fun t => t.
Definition today : Z * Z * Z := (2015, 2, 28).
Definition cols : list field := [mkField (text "NAME OF TOWN") (text "C") (FInt 5) 0; mkField (text "POP") (text "N") (FStr (text "4")) 0;
  mkField (text "AREA") (text "N") (FInt 8) 3; mkField (text "CITY") (text "L") (FInt 1) 0].
Definition widths : list Z := [5; 4; 8; 1].
Definition args1 : rec_args := RecList [CStr (text " Ulm Donau"); CInt 123; CFloat (text "118.69"); CStr (text "true"); CInt 7].
Definition args2 : rec_args := RecDict [(text "CITY", Some (CStr (text "n"))); (text "POP", Some (CInt (-9))); (text "x", None); (text "AREA", Some (CStr [])); (text "NAME OF TOWN", None)].
Definition row1 : list cell := [CStr (text " Ulm Donau"); CInt 123; CFloat (text "118.69"); CStr (text "true")].
Definition row2 : list cell := [CStr []; CInt (-9); CStr []; CStr (text "n")].
Definition steps1 : list step := map Column cols ++ [Shape (Poly [tri] 5); Row args1; Row args2; Shape (Poly [tri2; [[d1; d1]]] 5)].
Definition written_by (given : option Z) (steps : list step) : writer := fst (for_each do_step steps (Writer given)).
Definition all_saved (w : writer) : writer := fst (save fr today new_file new_file new_file w).
Ltac nodel_tac := repeat (first [apply Forall_nil|apply Forall_cons]); intros [? X]; discriminate.
Ltac ascii_tac := repeat (first [apply Forall_nil|apply Forall_cons]); (split; [discriminate|reflexivity]).
Ltac range_tac := split; [discriminate|reflexivity].
Ltac column_tac := split; [repeat (first [apply Forall_nil|apply Forall_cons]); range_tac|]; split; [eexists; split; [reflexivity|range_tac]|];
  split; [first [left; reflexivity|right; reflexivity]|]; split; range_tac.
Ltac cf_tac := let pre := fresh in let a := fresh in let post := fresh in intros pre a post X;
  repeat (destruct pre as [|? pre]; [first [discriminate X|injection X as <- <-; reflexivity]|injection X as <- X]; try discriminate X);
  try (destruct pre; discriminate X).
Ltac row_tac := first [split; [cbn; lia|reflexivity]
  | split; [repeat constructor; cbn; intuition discriminate|]; split; [repeat (first [apply Forall_nil|apply Forall_cons]); intros ?; discriminate|];
    repeat (first [apply Forall2_nil|apply Forall2_cons; [eexists; split; [cbn [In]; repeat (first [left; reflexivity|right])|reflexivity]|]])].
Ltac table_tac := constructor; [vm_compute; reflexivity | split; [first [left; reflexivity|right; eexists; split; [eexists; reflexivity|reflexivity]]|nodel_tac] | discriminate | cf_tac
  | repeat (first [apply Forall2_nil|apply Forall2_cons; [column_tac|]]) | repeat (first [apply Forall2_nil|apply Forall2_cons; [row_tac|]]) | vm_compute; intuition congruence].
Lemma steps1_program : table_program None steps1 cols widths [row1; row2] (written_by None steps1).
Proof. table_tac. Qed.
Ltac not_tac := let X := fresh in intros [X|X]; vm_compute in X; discriminate X.
Ltac stored_tac := eexists; split; [reflexivity|]; split; [ascii_tac|];
  first [left; split; [left; reflexivity|split; [vm_compute; congruence|reflexivity]]
        |right; left; split; [left; reflexivity|split; [reflexivity|do 2 eexists; split; reflexivity]]
        |right; right; split; [not_tac|split; [not_tac|reflexivity]]].
Lemma rows1_storable : Forall (row_storable fr cols widths) [row1; row2].
Proof.
  repeat (first [apply Forall_nil|apply Forall_cons]); (split; [reflexivity|]); repeat (first [apply Forall_nil|apply Forall_cons]);
    (split; [eexists; stored_tac|split; intros T D; vm_compute in T; try discriminate T; try (exfalso; apply D; reflexivity); vm_compute in D; try discriminate D]);
    first [left; eexists; reflexivity | right; reflexivity | eexists; split; [reflexivity|first [left; reflexivity|right; apply float_ok_iff; vm_compute; reflexivity]]].
Qed.

(** ** C76 *)
Theorem C76_table_round_trip : forall fr today given steps fs ns rows w,
  plausible today -> table_program given steps fs ns rows w -> Forall (row_storable fr fs ns) rows ->
  exists table w1 r0, Forall2 (row_returned fr fs ns) rows table /\ saveDbf fr today new_file w = (w1, Ok tt) /\
    Reader None None (Some (fdata (w_dbf w1))) = (r0, Ok tt) /\
    r_fields r0 = flag_column :: map (fun fn => back (fst fn) (snd fn)) (combine fs ns) /\ r_numRecords r0 = Some (Z.of_nat (length rows)) /\
    (rows <> [] -> forall r, used_by of_table (length rows) (length rows) r0 r ->
       (exists r', records r = (r', Ok table)) /\ iterRecords r = (table, Ok tt) /\
       (forall i k cs, position (length rows) i k -> nth_error table k = Some cs -> exists r', record_at i r = (r', Ok (Some cs))) /\
       (forall i, outside (length rows) i -> exists r', record_at i r = (r', Err IndexError))) /\
    (rows = [] -> iterRecords r0 = ([], Err StructError) /\ (exists r', records r0 = (r', Err StructError)) /\
       forall i, exists r', record_at i r0 = (r', Err StructError)).
Proof. exact table_round_trip. Qed.
Example C76_case : plausible today /\ table_program None steps1 cols widths [row1; row2] (written_by None steps1) /\
  Forall (row_storable fr cols widths) [row1; row2] /\
  row_returned fr cols widths row1 [CStr (text "Ulm"); CInt 123; CFloat (text "118.69"); CStr (text "T")] /\
  row_returned fr cols widths row2 [CBytes (spaces 5); CInt (-9); CBytes (spaces 8); CStr (text "N")] /\
  table_program None (map Column cols) cols widths [] (written_by None (map Column cols)).
Proof.
  split; [cbn; lia|]. split; [exact steps1_program|]. split; [exact rows1_storable|].
  assert (ST : forall t, t <> [] -> Forall (fun c => 65 <= c <= 122) t -> forall a b, Forall (eq 32) a -> Forall (eq 32) b -> stripped (a ++ t ++ b) t).
  { intros t _ P a b A B. exists a, b. split; [reflexivity|]. assert (W : forall l, Forall (eq 32) l -> Forall white l).
    { intros l. apply Forall_impl. intros c <-. left. right. reflexivity. }
    split; [apply W, A|]. split; [apply W, B|]. rewrite Forall_forall in P. split.
    - intros c r E. specialize (P c ltac:(rewrite E; left; reflexivity)). unfold white, blank_byte. lia.
    - intros c r E. specialize (P c ltac:(rewrite E; apply in_or_app; right; left; reflexivity)). unfold white, blank_byte. lia. }
  assert (NB : forall l c, In c l -> 33 <= c -> ~ blank l).
  { intros l c I L B. unfold blank in B. rewrite Forall_forall in B. specialize (B c I). unfold blank_byte in B. lia. }
  split; [|split].
  - split; [reflexivity|]. repeat (first [apply Forall2_nil|apply Forall2_cons]).
    + eexists. split; [stored_tac|]. right. right. right. split; [apply (NB _ 85); [vm_compute; tauto|lia]|]. split; [discriminate|].
      eexists. split; [|reflexivity]. apply (ST (text "Ulm") ltac:(discriminate) ltac:(vm_compute; repeat constructor; congruence) [32] [32]); repeat constructor.
    + eexists. split; [stored_tac|]. right. left. split; [apply (NB _ 49); [vm_compute; tauto|lia]|]. split; [reflexivity|]. split; [reflexivity|]. eexists. split; reflexivity.
    + eexists. split; [stored_tac|]. right. right. left. split; [apply (NB _ 49); [vm_compute; tauto|lia]|]. split; [reflexivity|]. split; [discriminate|].
      eexists. split; [reflexivity|]. split; [|reflexivity]. apply float_ok_iff. vm_compute. reflexivity.
    + eexists. split; [stored_tac|]. right. right. right. split; [apply (NB _ 84); [vm_compute; tauto|lia]|]. split; [discriminate|].
      eexists. split; [|reflexivity]. apply (ST (text "T") ltac:(discriminate) ltac:(vm_compute; repeat constructor; congruence) [] []); repeat constructor.
  - assert (B : forall n, blank (spaces n)).
    { intros n. apply Forall_forall. intros c I. apply repeat_spec in I. right. exact I. }
    split; [reflexivity|]. repeat (first [apply Forall2_nil|apply Forall2_cons]).
    + eexists. split; [stored_tac|]. left. split; [apply (B 5)|reflexivity].
    + eexists. split; [stored_tac|]. right. left. split; [apply (NB _ 57); [vm_compute; tauto|lia]|]. split; [reflexivity|]. split; [reflexivity|]. eexists. split; reflexivity.
    + eexists. split; [stored_tac|]. left. split; [apply (B 8)|reflexivity].
    + eexists. split; [stored_tac|]. right. right. right. split; [apply (NB _ 78); [vm_compute; tauto|lia]|]. split; [discriminate|].
      eexists. split; [|reflexivity]. apply (ST (text "N") ltac:(discriminate) ltac:(vm_compute; repeat constructor; congruence) [] []); repeat constructor.
  - table_tac.
Qed.
(** The file is at least as long as its header says; it is longer exactly when
    some stored text is not ASCII. *)
Theorem C76_file_length : forall fr today given steps fs ns rows w w1,
  plausible today -> table_program given steps fs ns rows w -> Forall (row_proper fr fs ns) rows ->
  saveDbf fr today new_file w = (w1, Ok tt) ->
  let declared := 33 + 32 * Z.of_nat (length fs) + Z.of_nat (length rows) * (1 + zsum ns) in
  declared <= Z.of_nat (length (fdata (w_dbf w1))) /\
  (Z.of_nat (length (fdata (w_dbf w1))) = declared <-> Forall (row_plain fr fs ns) rows).
Proof.
  intros fr0 today0 given steps fs ns rows w w1 D P PR S. destruct (table_outcome fr0 today0 given steps fs ns rows w D P PR) as [[w' [bss [E [W F]]]]|[w' [e [E _]]]].
  - rewrite S in E. injection E as <-. cbv zeta. rewrite F. apply (file_length fr0 today0 fs ns rows bss (tp_sizes _ _ _ _ _ _ P) W).
  - rewrite S in E. discriminate.
Qed.
Ltac proper_tac := split; [reflexivity|]; repeat (first [apply Forall_nil|apply Forall_cons]); eexists; (split; [reflexivity|]);
  (split; [repeat (first [apply Forall_nil|apply Forall_cons]); (split; [discriminate|reflexivity])|];
   let X := fresh in let c := fresh in let r := fresh in let Y := fresh in
   first [intros [X|X]; vm_compute in X; discriminate X | intros _ c r Y; vm_compute in Y; first [discriminate Y|injection Y as <- _; reflexivity]]).
(** A name with a letter outside ASCII: the next row is misread. *)
Definition steps2 : list step := [Column (mkField (text "NAME") (text "C") (FInt 3) 0); Row (RecList [CStr [252; 98]]); Row (RecList [CStr (text "abc")]); Row (RecList [CStr (text "xyz")])].
Theorem C76_multibyte_refuted : exists w w1 r0 r1 r2,
  table_program None steps2 [mkField (text "NAME") (text "C") (FInt 3) 0] [3] [[CStr [252; 98]]; [CStr (text "abc")]; [CStr (text "xyz")]] w /\
  Forall (row_proper fr [mkField (text "NAME") (text "C") (FInt 3) 0] [3]) [[CStr [252; 98]]; [CStr (text "abc")]; [CStr (text "xyz")]] /\
  saveDbf fr today new_file w = (w1, Ok tt) /\ Reader None None (Some (fdata (w_dbf w1))) = (r0, Ok tt) /\
  records r0 = (r1, Ok [[CStr [252; 98]]; [CStr (text "ab")]]) /\ record_at 2 r0 = (r2, Ok None).
Proof.
  do 5 eexists. split; [table_tac|]. split.
  { repeat (first [apply Forall_nil|apply Forall_cons]); proper_tac. }
  split; [vm_compute; reflexivity|]. split; [vm_compute; reflexivity|]. split; vm_compute; reflexivity.
Qed.

(** ** C77 *)
Theorem C77_pairing : forall fr today given steps t fs ns rows w0 w1,
  good t -> saved_program fr today given steps t fs ns rows w0 w1 -> rows <> [] -> Forall (row_storable fr fs ns) rows ->
  exists gs ss table, Forall2 adds (shapes_of steps) gs /\ Forall2 (read_back (mixed (flat_map vertices gs)) t) gs ss /\
    Forall2 (row_returned fr fs ns) rows table /\
    forall shx, shx = None \/ shx = Some (fdata (w_shx w1)) ->
    exists r0, Reader (Some (fdata (w_shp w1))) shx (Some (fdata (w_dbf w1))) = (r0, Ok tt) /\
      forall r, used_by (fun _ => True) (length rows) (length ss) r0 r -> forall fuel, (length ss < fuel)%nat ->
        (exists r', shapeRecords fuel r = (r', Ok (Some (combine ss table)))) /\
        (exists r', shapes fuel r = (r', Ok (Some ss))) /\ (exists r', records r = (r', Ok table)) /\
        (forall i k s c, position (length rows) i k -> nth_error ss k = Some s -> nth_error table k = Some c ->
           (exists r', shapeRecord fuel i r = (r', Ok (Some (s, Some c)))) /\
           (exists r', shape_at fuel i r = (r', Ok (Some s))) /\ (exists r', record_at i r = (r', Ok (Some c)))) /\
        (forall i, outside (length rows) i ->
           (exists r', shapeRecord fuel i r = (r', Err IndexError)) /\
           (exists r', shape_at fuel i r = (r', Err IndexError)) /\ (exists r', record_at i r = (r', Err IndexError))).
Proof. exact pairing. Qed.
(** The same after some rows of the saved table have been marked as deleted. *)
Theorem C77_deleted : forall fr today given steps t fs ns rows w0 w1 bss marks,
  good t -> saved_program fr today given steps t fs ns rows w0 w1 ->
  rows <> [] -> Forall (row_storable fr fs ns) rows -> Forall2 (row_stored fr fs ns) rows bss -> length marks = length rows ->
  exists gs ss table, Forall2 adds (shapes_of steps) gs /\ Forall2 (read_back (mixed (flat_map vertices gs)) t) gs ss /\
    Forall2 (row_returned fr fs ns) rows table /\ fdata (w_dbf w1) = dbf_file today fs ns bss /\
    forall shx, shx = None \/ shx = Some (fdata (w_shx w1)) ->
    exists r0, Reader (Some (fdata (w_shp w1))) shx (Some (marked_file today fs ns marks bss)) = (r0, Ok tt) /\
      forall r, used_by (fun _ => True) (length rows) (length ss) r0 r -> forall fuel, (length ss < fuel)%nat ->
        (exists r', shapeRecords fuel r = (r', Ok (Some (combine ss (undeleted marks table))))) /\
        (exists r', shapes fuel r = (r', Ok (Some ss))) /\ (exists r', records r = (r', Ok (undeleted marks table))) /\
        (forall i k s c, position (length rows) i k -> nth_error ss k = Some s -> nth_error (marked marks table) k = Some c ->
           (exists r', shapeRecord fuel i r = (r', Ok (Some (s, c)))) /\
           (exists r', shape_at fuel i r = (r', Ok (Some s))) /\ (exists r', record_at i r = (r', Ok c))) /\
        (forall i, outside (length rows) i ->
           (exists r', shapeRecord fuel i r = (r', Err IndexError)) /\
           (exists r', shape_at fuel i r = (r', Err IndexError)) /\ (exists r', record_at i r = (r', Err IndexError))).
Proof. exact marked_pairing. Qed.
Lemma steps1_saved : saved_program fr today None steps1 5 cols widths [row1; row2] (written_by None steps1) (all_saved (written_by None steps1)).
Proof.
  constructor; [cbn; lia | exact steps1_program | doubles_tac | type_tac | vm_compute; reflexivity].
Qed.
Example C77_case : good 5 /\ saved_program fr today None steps1 5 cols widths [row1; row2] (written_by None steps1) (all_saved (written_by None steps1)) /\
  Forall (row_storable fr cols widths) [row1; row2] /\ (exists bss, Forall2 (row_stored fr cols widths) [row1; row2] bss) /\
  position 2 1 1 /\ position 2 (-1) 1 /\ position 2 0 0 /\ outside 2 2 /\ outside 2 (-2).
Proof.
  split; [unfold good; cbn [In]; tauto|]. split; [exact steps1_saved|]. split; [exact rows1_storable|]. split.
  { eexists. repeat (first [apply Forall2_nil|apply Forall2_cons]); (split; [reflexivity|]); repeat (first [apply Forall2_nil|apply Forall2_cons]); stored_tac. }
  unfold position, outside. repeat split; lia.
Qed.
(** With the first of two rows deleted, the first shape is paired with the second
    row. *)
Theorem C77_deleted_shift_refuted : exists bss r0 r1 s1 c2,
  Forall2 (row_stored fr cols widths) [row1; row2] bss /\ row_returned fr cols widths row2 c2 /\
  Reader (Some (fdata (w_shp (all_saved (written_by None steps1))))) None (Some (marked_file today cols widths [42; 32] bss)) = (r0, Ok tt) /\
  (exists r', shape_at 3 0 r0 = (r', Ok (Some s1))) /\
  shapeRecords 3 r0 = (r1, Ok (Some [(s1, c2)])).
Proof.
  do 5 eexists. split.
  { repeat (first [apply Forall2_nil|apply Forall2_cons]); (split; [reflexivity|]); repeat (first [apply Forall2_nil|apply Forall2_cons]); stored_tac. }
  split; [apply C76_case|]. split; [vm_compute; reflexivity|]. split; [eexists; vm_compute; reflexivity|vm_compute; reflexivity].
Qed.

(** ** C95 *)
Theorem C95_table_layout : forall fr today given steps fs ns rows w w1,
  plausible today -> table_program given steps fs ns rows w -> Forall (row_proper fr fs ns) rows ->
  saveDbf fr today new_file w = (w1, Ok tt) ->
  exists bss, Forall2 (row_written fr fs ns) rows bss /\ fdata (w_dbf w1) = dbf_file today fs ns bss.
Proof.
  intros fr0 today0 given steps fs ns rows w w1 D P PR S. destruct (table_outcome fr0 today0 given steps fs ns rows w D P PR) as [[w' [bss [E [W F]]]]|[w' [e [E _]]]].
  - rewrite S in E. injection E as <-. exists bss. auto.
  - rewrite S in E. discriminate.
Qed.
Lemma rows1_proper : Forall (row_proper fr cols widths) [row1; row2].
Proof. repeat (first [apply Forall_nil|apply Forall_cons]); proper_tac. Qed.
Example C95_case : Forall (row_proper fr cols widths) [row1; row2] /\ (exists w1, saveDbf fr today new_file (written_by None steps1) = (w1, Ok tt) /\
  length (fdata (w_dbf w1)) = (33 + 32 * 4 + 2 * 19)%nat).
Proof. split; [exact rows1_proper|]. eexists. split; vm_compute; reflexivity. Qed.

(** ** C96 *)
Theorem C96_saving_table : forall fr today given steps fs ns rows w,
  plausible today -> table_program given steps fs ns rows w -> Forall (row_proper fr fs ns) rows ->
  ((exists w1, saveDbf fr today new_file w = (w1, Ok tt)) <-> Forall (fun v => exists bss, row_written fr fs ns v bss) rows).
Proof.
  intros fr0 today0 given steps fs ns rows w D P PR. split.
  - intros [w1 S]. destruct (C95_table_layout fr0 today0 given steps fs ns rows w w1 D P PR S) as [bss [W _]].
    clear - W. induction W as [|v b vs bs H _ IH]; constructor; [exists b; exact H|exact IH].
  - intros F. assert (B : exists bss, Forall2 (row_written fr0 fs ns) rows bss).
    { clear - F. induction F as [|v vs [b H] _ [bs IH]]; [exists []; constructor|exists (b :: bs); constructor; assumption]. }
    destruct B as [bss B]. destruct (table_saved fr0 today0 given steps fs ns rows w w bss D P eq_refl B) as [w1 [E _]]. exists w1. exact E.
Qed.
Theorem C96_saving_table_fails : forall fr today given steps fs ns rows w w1 e,
  plausible today -> table_program given steps fs ns rows w -> Forall (row_proper fr fs ns) rows ->
  saveDbf fr today new_file w = (w1, Err e) ->
  Exists (fun v => Exists (fun x => failing fr (fst (fst x)) (snd (fst x)) (snd x) e) (cells_of fs ns v)) rows.
Proof.
  intros fr0 today0 given steps fs ns rows w w1 e D P PR S. destruct (table_outcome fr0 today0 given steps fs ns rows w D P PR) as [[w' [bss [E _]]]|[w' [e' [E H]]]].
  - rewrite S in E. discriminate.
  - rewrite S in E. injection E as <- <-. exact H.
Qed.
Definition num4 : field := mkField (text "POP") (text "N") (FInt 4) 0.
Definition flag3 : field := mkField (text "CITY") (text "L") (FInt 3) 0.
Example C96_cases :
  (let w := written_by None [Column num4; Row (RecList [CInt 12345])] in
   table_program None [Column num4; Row (RecList [CInt 12345])] [num4] [4] [[CInt 12345]] w /\ Forall (row_proper fr [num4] [4]) [[CInt 12345]] /\
   exists w1, saveDbf fr today new_file w = (w1, Err AssertionError)) /\
  (let w := written_by None [Column flag3; Row (RecList [CStr (text "yes")])] in
   table_program None [Column flag3; Row (RecList [CStr (text "yes")])] [flag3] [3] [[CStr (text "yes")]] w /\
   exists w1, saveDbf fr today new_file w = (w1, Err AssertionError)) /\
  (let w := written_by None [Column flag3; Row (RecList [CStr []])] in
   table_program None [Column flag3; Row (RecList [CStr []])] [flag3] [3] [[CStr []]] w /\ Forall (row_proper fr [flag3] [3]) [[CStr []]] /\
   exists w1, saveDbf fr today new_file w = (w1, Err IndexError)) /\
  exists w1, saveDbf fr today new_file (written_by None [Column (mkField (text "X") (text "C") (FInt 3) 0); Row (RecList [CStr [56000]])]) = (w1, Err UnicodeError).
Proof.
  split; [|split; [|split]]; cbv zeta.
  - split; [table_tac|]. split; [constructor; [proper_tac|constructor]|]. eexists. vm_compute. reflexivity.
  - split; [table_tac|]. eexists. vm_compute. reflexivity.
  - split; [table_tac|]. split; [constructor; [proper_tac|constructor]|]. eexists. vm_compute. reflexivity.
  - eexists. vm_compute. reflexivity.
Qed.
(** A row that was read with a blank number in it cannot be saved again. *)
Theorem C96_blank_number : forall fr today given steps fs ns rows table w f n v c bs,
  plausible today -> Forall2 (row_returned fr fs ns) rows table -> table_program given steps fs ns table w -> Forall (row_proper fr fs ns) table ->
  In v table -> In (f, n, c) (cells_of fs ns v) -> numeric f -> c = CBytes bs -> Z.of_nat (length bs) = n ->
  forall w1, saveDbf fr today new_file w <> (w1, Ok tt).
Proof.
  intros fr0 today0 given steps fs ns rows table w f n v c bs D _ P PR IV IC NU -> L w1 S.
  destruct (C95_table_layout fr0 today0 given steps fs ns table w w1 D P PR S) as [bss [W _]].
  assert (X : exists bs', written fr0 f n (CBytes bs) bs').
  { clear - W IV IC. induction W as [|y b vs bs' [_ H] _ IH]; [contradiction|]. destruct IV as [->|IV]; [|apply IH, IV].
    clear - H IC. induction H as [|x b' l bl H _ IH]; [contradiction|]. destruct IC as [->|IC]; [exists b'; exact H|apply IH, IC]. }
  destruct X as [bs' [s [t [[_ SH] [C _]]]]]. subst s. destruct C as [[_ [LE _]]|[[LO _]|[NN _]]]; [|destruct NU as [A|A], LO as [B|B]; rewrite A in B; discriminate|contradiction].
  rewrite !app_length in LE. cbn [length text app] in LE. change (length (text "b'")) with 2%nat in LE. change (length (text "'")) with 1%nat in LE. lia.
Qed.
Example C96_blank_case : exists table w, Forall2 (row_returned fr [num4] [4]) [[CStr []]] table /\
  table_program None [Column num4; Row (RecList [CBytes (spaces 4)])] [num4] [4] table w /\ Forall (row_proper fr [num4] [4]) table /\
  In (num4, 4, CBytes (spaces 4)) (cells_of [num4] [4] (hd [] table)).
Proof.
  exists [[CBytes (spaces 4)]]. eexists. split.
  { constructor; [|constructor]. split; [reflexivity|]. constructor; [|constructor]. eexists. split; [stored_tac|]. left. split; [|reflexivity].
    vm_compute. repeat (first [apply Forall_nil|apply Forall_cons]); right; reflexivity. }
  split; [table_tac|]. split; [|left; reflexivity]. constructor; [|constructor].
  split; [reflexivity|]. constructor; [|constructor]. eexists. split; [split; [repeat constructor|reflexivity]|]. split; [ascii_tac|intros [X|X]; vm_compute in X; discriminate X].
Qed.

(** ** C97 *)
Theorem C97_row_without_columns : forall args w, w_fields w = [] -> record args w = (w, Err IndexError).
Proof. exact record_none. Qed.
Theorem C97_row_by_position : forall l w n, row_width (w_fields w) n -> l <> [] ->
  ((n <= length l)%nat -> record (RecList l) w = (match n with O => w | _ => w_set_records (w_records w ++ [firstn n l]) w end, Ok tt)) /\
  ((length l < n)%nat -> record (RecList l) w = (w, Err IndexError)).
Proof. exact record_list. Qed.
Theorem C97_empty_row : forall w n, row_width (w_fields w) n -> record (RecList []) w = (w, Ok tt).
Proof. exact record_nothing. Qed.
Theorem C97_row_by_name : forall d w n row, row_width (w_fields w) n -> NoDup (map fst d) -> named_row d (w_fields w) row ->
  record (RecDict d) w = (match row with [] => w | _ => w_set_records (w_records w ++ [row]) w end, Ok tt).
Proof. exact record_dict. Qed.
Example C97_case : (forall w, w_fields w <> [] -> exists n, row_width (w_fields w) n) /\ (forall d fs, exists row, named_row d fs row) /\
  row_width cols 4 /\ named_row [(text "AREA", Some (CInt 3)); (text "NAME OF TOWN", None)] cols [CStr []; CInt 3].
Proof.
  split; [exact width_some|]. split; [exact named_total|]. split.
  { do 2 eexists. split; [reflexivity|]. right. split; [intros [s X]; discriminate|reflexivity]. }
  unfold cols. apply (nr_given _ (mkField (text "NAME OF TOWN") (text "C") (FInt 5) 0) _ None); [right; left; reflexivity|].
  apply nr_missing; [cbn; intuition discriminate|].
  apply (nr_given _ (mkField (text "AREA") (text "N") (FInt 8) 3) _ (Some (CInt 3))); [left; reflexivity|].
  apply nr_missing; [cbn; intuition discriminate|]. constructor.
Qed.
(** A missing name: the values of the later columns move to the left, and the row
    is too short in the file. *)
Definition colsAB : list field := [mkField (text "A") (text "C") (FInt 2) 0; mkField (text "B") (text "C") (FInt 2) 0].
Theorem C97_missing_name_refuted : exists w0 w w1 r0 r1,
  for_each do_step (map Column colsAB) (Writer None) = (w0, Ok tt) /\
  for_each do_step [Row (RecDict [(text "B", Some (CStr (text "b1")))]); Row (RecList [CStr (text "a2"); CStr (text "b2")]); Row (RecList [CStr (text "a3"); CStr (text "b3")])] w0 = (w, Ok tt) /\
  w_records w = [[CStr (text "b1")]; [CStr (text "a2"); CStr (text "b2")]; [CStr (text "a3"); CStr (text "b3")]] /\
  saveDbf fr today new_file w = (w1, Ok tt) /\ Reader None None (Some (fdata (w_dbf w1))) = (r0, Ok tt) /\
  record_at 0 r0 = (r1, Ok (Some [CStr (text "b1"); CStr (text "a")])).
Proof. do 5 eexists. repeat (split; [vm_compute; reflexivity|]). vm_compute. reflexivity. Qed.

(** ** C98 *)
Theorem C98_dropped_columns : forall fr today w w1 x, NoDup (w_fields w) -> saveDbf fr today new_file w = (w1, x) -> alternate (w_fields w) (w_fields w1).
Proof. exact dropped_columns. Qed.
Example C98_case :
  let D c := mkField (text "Deletion" ++ [c]) (text "C") (FInt 1) 0 in let X := mkField (text "X") (text "C") (FInt 1) 0 in
  let w := written_by None [Column (D 49); Column (D 50); Column X; Column (D 51)] in
  NoDup (w_fields w) /\ exists w1, saveDbf fr today new_file w = (w1, Ok tt) /\ w_fields w1 = [D 50; X].
Proof.
  cbv zeta. split; [vm_compute; repeat constructor; cbn; intuition discriminate|]. eexists. split; vm_compute; reflexivity.
Qed.

Print Assumptions C76_table_round_trip.
Print Assumptions C76_file_length.
Print Assumptions C76_multibyte_refuted.
Print Assumptions C77_pairing.
Print Assumptions C77_deleted.
Print Assumptions C77_deleted_shift_refuted.
Print Assumptions C95_table_layout.
Print Assumptions C96_saving_table.
Print Assumptions C96_saving_table_fails.
Print Assumptions C96_blank_number.
Print Assumptions C97_row_without_columns.
Print Assumptions C97_row_by_position.
Print Assumptions C97_empty_row.
Print Assumptions C97_row_by_name.
Print Assumptions C97_missing_name_refuted.
Print Assumptions C98_dropped_columns.
