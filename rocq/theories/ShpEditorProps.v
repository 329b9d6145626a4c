(** shapefile.Editor: theorems. *)
From Verif Require Import Py Text StrModel VlvModel ShpFile ShpWriterModel ShpReaderModel ShpEditorModel ShpSpec ShpPrograms ShpProps ShpTableSpec ShpTablePrograms
  ShpTableProps ShpSave ShpResave ShpRetable ShpEditorSpec ShpEditor ShpEditPoint ShpEditSave ShpEditOpen ShpFloatText.
Open Scope Z_scope.
Open Scope m_scope.

(** ** C99 *)
Theorem C99_opening : forall fr today given steps t fs ns rows w0 w1,
  good t -> saved_program fr today given steps t fs ns rows w0 w1 -> rows <> [] -> Forall (row_storable fr fs ns) rows ->
  exists gs ss table, Forall2 adds (shapes_of steps) gs /\ Forall2 (read_back (mixed (flat_map vertices gs)) t) gs ss /\
    Forall2 (row_returned fr fs ns) rows table /\
    forall auto fuel, (length (shapes_of steps) < fuel)%nat ->
    exists e, open_editor fuel auto (Some (fdata (w_shp w1))) (Some (fdata (w_shx w1))) (Some (fdata (w_dbf w1))) = Some (Ok (Some e)) /\
      shows_file auto t ss (flag_column :: map (fun fn => back (fst fn) (snd fn)) (combine fs ns)) table e.
Proof.
  intros fr0 today0 given steps t fs ns rows w0 w1 G SP AN ST.
  destruct (editor_program fr0 today0 given steps t fs ns rows w0 w1 G SP AN ST) as [gs [ss [table [cs [b [z [m [A [B [C [_ [_ [_ [O _]]]]]]]]]]]]]].
  exists gs, ss, table. repeat (split; [assumption|]). intros auto fuel FU. eexists. split.
  - apply O. rewrite <- (F2_length B), <- (F2_length A). exact FU.
  - repeat split.
Qed.
Theorem C99_no_rows : forall fr today given steps t fs ns w0 w1 auto fuel,
  good t -> saved_program fr today given steps t fs ns [] w0 w1 -> (length (shapes_of steps) < fuel)%nat ->
  open_editor fuel auto (Some (fdata (w_shp w1))) (Some (fdata (w_shx w1))) (Some (fdata (w_dbf w1))) = Some (Err StructError).
Proof. exact editor_no_rows. Qed.
Definition steps0 : list step := map Column cols ++ [Shape (Poly [tri] 5)].
Example C99_case : good 5 /\ saved_program fr today None steps1 5 cols widths [row1; row2] (written_by None steps1) (all_saved (written_by None steps1)) /\
  Forall (row_storable fr cols widths) [row1; row2] /\ (length (shapes_of steps1) < 3)%nat /\
  saved_program fr today None steps0 5 cols widths [] (written_by None steps0) (all_saved (written_by None steps0)).
Proof.
  split; [unfold good; cbn [In]; tauto|]. split; [exact steps1_saved|]. split; [exact rows1_storable|]. split; [cbn; lia|].
  constructor; [cbn; lia | table_tac | doubles_tac | type_tac | vm_compute; reflexivity].
Qed.

(** ** C100 *)
Theorem C100_save_again : forall fr today given steps t fs ns rows w0 w1 auto fuel e today',
  saved_program fr today given steps t fs ns rows w0 w1 -> rows <> [] -> Forall (row_storable fr fs ns) rows -> flat_type t ->
  (length (shapes_of steps) < fuel)%nat ->
  open_editor fuel auto (Some (fdata (w_shp w1))) (Some (fdata (w_shx w1))) (Some (fdata (w_dbf w1))) = Some (Ok (Some e)) ->
  Forall (Forall (solid fr)) (w_records (e_w e)) -> plausible today' ->
  exists e1 gs cs bss b z m b', e_save fr today' new_file new_file new_file e = (e1, Ok tt) /\
    Forall2 adds (shapes_of steps) gs /\ bounds (flat_map vertices gs) b /\ bounds (flat_map (kept t) gs) b' /\
    ((point_type t -> Forall (fun g => (length (vertices g) <= 1)%nat) gs) -> b' = b) /\
    fdata (w_shp w1) = shp_file t b z m cs /\ fdata (w_shp (e_w e1)) = shp_file t b' no_range no_range cs /\
    fdata (w_shx w1) = shx_file t b z m cs /\ fdata (w_shx (e_w e1)) = shx_file t b' no_range no_range cs /\
    Forall2 (row_stored fr (map (fun fn => back (fst fn) (snd fn)) (combine fs ns)) ns) (w_records (e_w e)) bss /\
    fdata (w_dbf (e_w e1)) = dbf_file today' (map (fun fn => back (fst fn) (snd fn)) (combine fs ns)) ns bss /\
    forall auto' fuel', (length (shapes_of steps) < fuel')%nat ->
    exists e2, open_editor fuel' auto' (Some (fdata (w_shp (e_w e1)))) (Some (fdata (w_shx (e_w e1)))) (Some (fdata (w_dbf (e_w e1)))) = Some (Ok (Some e2)) /\
      e_items e2 = e_items e /\ e_w e2 = e_w e.
Proof.
  intros fr0 today0 given steps t fs ns rows w0 w1 auto fuel e today' SP AN ST FT FU OE SO Date.
  assert (G : good t) by (apply flat_good; exact FT).
  destruct (editor_program fr0 today0 given steps t fs ns rows w0 w1 G SP AN ST) as [gs [ss [table [cs [b [z [m [A [B [C [BB [K1 [K2 [O [R _]]]]]]]]]]]]]]].
  assert (L : length (shapes_of steps) = length ss) by (rewrite (F2_length A), (F2_length B); reflexivity).
  rewrite L in *. rewrite (O auto fuel FU) in OE. injection OE as <-. cbn [e_w opened_editor opened_writer] in SO. change (w_records _) with table in SO.
  destruct (R FT SO today' auto Date) as [e1 [bss [b' [E1 [B1 [B2 [_ [_ [_ [B3 [F1 [F2 [F3 RO]]]]]]]]]]]]].
  exists e1, gs, cs, bss, b, z, m, b'. repeat (split; [assumption|]). intros auto' fuel' FU'. eexists. split; [apply RO, FU'|]. split; reflexivity.
Qed.
Theorem C100_measured : forall fr today given steps t fs ns rows w0 w1 auto fuel e,
  saved_program fr today given steps t fs ns rows w0 w1 -> rows <> [] -> Forall (row_storable fr fs ns) rows -> t = 23 \/ t = 25 ->
  (length (shapes_of steps) < fuel)%nat ->
  open_editor fuel auto (Some (fdata (w_shp w1))) (Some (fdata (w_shx w1))) (Some (fdata (w_dbf w1))) = Some (Ok (Some e)) ->
  exists e1, e_saveShp new_file e = (e1, Err IndexError).
Proof.
  intros fr0 today0 given steps t fs ns rows w0 w1 auto fuel e SP AN ST FT FU OE.
  assert (G : good t) by (unfold good; cbn; lia).
  destruct (editor_program fr0 today0 given steps t fs ns rows w0 w1 G SP AN ST) as [gs [ss [table [cs [b [z [m [A [B [C [BB [K1 [K2 [O [_ R]]]]]]]]]]]]]]].
  assert (L : length (shapes_of steps) = length ss) by (rewrite (F2_length A), (F2_length B); reflexivity).
  rewrite L in *. rewrite (O auto fuel FU) in OE. injection OE as <-. exact (R FT auto).
Qed.
Definition steps2 : list step := map Column cols ++ [Row args1; Shape (Poly [tri; tri2] 5)].
Definition steps3 : list step := [Column (mkField (text "N") (text "N") (FInt 3) 0); Shape (Point d1 d2 d3 dm1); Row (RecList [CInt 7]); Shape (Point d3 d1 d2 d1); Row (RecList [CInt (-5)])].
Definition opened (given : option Z) (steps : list step) : option (res (option editor)) :=
  let w := all_saved (written_by given steps) in
  open_editor 5 true (Some (fdata (w_shp w))) (Some (fdata (w_shx w))) (Some (fdata (w_dbf w))).
Ltac storable_tac :=
  repeat (first [apply Forall_nil|apply Forall_cons]); (split; [reflexivity|]); repeat (first [apply Forall_nil|apply Forall_cons]);
    (split; [eexists; stored_tac|split; intros T D; vm_compute in T; try discriminate T; try (exfalso; apply D; reflexivity); vm_compute in D; try discriminate D]);
    first [left; eexists; reflexivity | right; reflexivity | eexists; split; [reflexivity|first [left; reflexivity|right; apply float_ok_iff; vm_compute; reflexivity]]].
Ltac program_tac := constructor; [cbn; lia | table_tac | doubles_tac | type_tac | vm_compute; reflexivity].
Ltac opened_tac := eexists; split; [vm_compute; reflexivity|]; vm_compute; repeat (first [apply Forall_nil|apply Forall_cons]); first [exact I|discriminate|reflexivity].
Example C100_case :
  saved_program fr today None steps2 5 cols widths [row1] (written_by None steps2) (all_saved (written_by None steps2)) /\
  Forall (row_storable fr cols widths) [row1] /\ flat_type 5 /\
  (exists e, opened None steps2 = Some (Ok (Some e)) /\ Forall (Forall (solid fr)) (w_records (e_w e))) /\
  saved_program fr today (Some 11) steps3 11 [mkField (text "N") (text "N") (FInt 3) 0] [3] [[CInt 7]; [CInt (-5)]] (written_by (Some 11) steps3) (all_saved (written_by (Some 11) steps3)) /\
  Forall (row_storable fr [mkField (text "N") (text "N") (FInt 3) 0] [3]) [[CInt 7]; [CInt (-5)]] /\ flat_type 11 /\
  (exists e, opened (Some 11) steps3 = Some (Ok (Some e)) /\ Forall (Forall (solid fr)) (w_records (e_w e))).
Proof.
  split; [program_tac|]. split; [storable_tac|]. split; [unfold flat_type; cbn; tauto|]. split; [opened_tac|].
  split; [program_tac|]. split; [storable_tac|]. split; [unfold flat_type; cbn; tauto|]. opened_tac.
Qed.
Definition steps4 : list step := [Column (mkField (text "N") (text "N") (FInt 3) 0); Shape (Poly [[[d1; d2; d3; dm1]; [d2; d2; d3; d1]]] 23); Row (RecList [CInt 7])].
Example C100_measured_case :
  saved_program fr today None steps4 23 [mkField (text "N") (text "N") (FInt 3) 0] [3] [[CInt 7]] (written_by None steps4) (all_saved (written_by None steps4)) /\
  Forall (row_storable fr [mkField (text "N") (text "N") (FInt 3) 0] [3]) [[CInt 7]] /\ exists e, opened None steps4 = Some (Ok (Some e)).
Proof. split; [program_tac|]. split; [storable_tac|]. eexists. vm_compute. reflexivity. Qed.
(** Saving an opened file again does not reproduce it: a file of three-dimensional
    points loses the ranges of z and m. *)
Theorem C100_identity_refuted : exists w e e1,
  opened (Some 11) steps3 = Some (Ok (Some e)) /\ w = all_saved (written_by (Some 11) steps3) /\
  e_save fr today new_file new_file new_file e = (e1, Ok tt) /\
  fdata (w_dbf (e_w e1)) = fdata (w_dbf w) /\ fdata (w_shp (e_w e1)) <> fdata (w_shp w) /\
  firstn 32 (skipn 68 (fdata (w_shp (e_w e1)))) = repeat 0 32.
Proof.
  do 3 eexists. split; [vm_compute; reflexivity|]. split; [reflexivity|]. split; [vm_compute; reflexivity|].
  split; [vm_compute; reflexivity|]. split; [vm_compute; discriminate|vm_compute; reflexivity].
Qed.

(** ** C101 *)
Theorem C101_blank_number : forall fr today given steps t fs ns rows w0 w1 auto fuel e today' f n v bs,
  good t -> saved_program fr today given steps t fs ns rows w0 w1 -> rows <> [] -> Forall (row_storable fr fs ns) rows ->
  (length (shapes_of steps) < fuel)%nat ->
  open_editor fuel auto (Some (fdata (w_shp w1))) (Some (fdata (w_shx w1))) (Some (fdata (w_dbf w1))) = Some (Ok (Some e)) ->
  plausible today' -> Forall (row_proper fr (map (fun fn => back (fst fn) (snd fn)) (combine fs ns)) ns) (w_records (e_w e)) ->
  In v (w_records (e_w e)) -> In (f, n, CBytes bs) (cells_of fs ns v) -> numeric f ->
  exists e1 x, e_saveDbf fr today' new_file e = (e1, Err x).
Proof.
  intros fr0 today0 given steps t fs ns rows w0 w1 auto fuel e today' f n v bs G SP AN ST FU OE Date PR IV IC NU.
  destruct (editor_program fr0 today0 given steps t fs ns rows w0 w1 G SP AN ST) as [gs [ss [table [cs [b [z [m [A [B [C [BB [K1 [K2 [O _]]]]]]]]]]]]]].
  assert (L : length (shapes_of steps) = length ss) by (rewrite (F2_length A), (F2_length B); reflexivity).
  rewrite L in *. rewrite (O auto fuel FU) in OE. injection OE as <-. change (w_records _) with table in IV, PR.
  pose proof (sp_table _ _ _ _ _ _ _ _ _ _ SP) as P. pose proof (tp_sizes _ _ _ _ _ _ P) as Cols. pose proof (tp_fits _ _ _ _ _ _ P) as [F1 [F2 F3]].
  apply (editor_blank fr0 today' auto t ss fs ns table f n v bs Date Cols (tp_some _ _ _ _ _ _ P) (proj2 (tp_columns _ _ _ _ _ _ P))); try assumption.
  - split; [exact F1|]. split; [exact F2|]. rewrite <- (F2_length C). exact F3.
  - assert (X : exists u, row_returned fr0 fs ns u v).
    { clear - C IV. induction C as [|u x us xs R _ IH]; [contradiction|]. destruct IV as [->|IV]; [exists u; exact R|apply IH, IV]. }
    destruct X as [u R]. exact (blank_width fr0 fs ns Cols u v f n bs R IC NU).
Qed.
Definition steps5 : list step := [Column num4; Shape (Point d1 d2 d3 d1); Row (RecList [CStr []])].
Example C101_case : saved_program fr today (Some 1) steps5 1 [num4] [4] [[CStr []]] (written_by (Some 1) steps5) (all_saved (written_by (Some 1) steps5)) /\
  Forall (row_storable fr [num4] [4]) [[CStr []]] /\
  exists e, opened (Some 1) steps5 = Some (Ok (Some e)) /\ Forall (row_proper fr [num4] [4]) (w_records (e_w e)) /\
    w_records (e_w e) = [[CBytes (spaces 4)]] /\ numeric num4.
Proof.
  split; [program_tac|]. split; [storable_tac|]. eexists. split; [vm_compute; reflexivity|]. split; [|split; [reflexivity|left; reflexivity]].
  vm_compute w_records. constructor; [|constructor]. split; [reflexivity|]. constructor; [|constructor]. eexists. split; [split; [repeat constructor|reflexivity]|].
  split; [ascii_tac|intros [X|X]; vm_compute in X; discriminate X].
Qed.
(** A blank text and a blank truth value become something else when an opened
    file is saved. *)
Definition steps6 : list step := [Column (mkField (text "A") (text "C") (FInt 5) 0); Column (mkField (text "B") (text "L") (FInt 1) 0);
  Shape (Point d1 d2 d3 d1); Row (RecList [CStr []; CStr (text " ")])].
Theorem C101_blank_text_refuted : exists e e1 e2,
  opened (Some 1) steps6 = Some (Ok (Some e)) /\ w_records (e_w e) = [[CBytes (spaces 5); CBytes (spaces 1)]] /\
  e_save fr today new_file new_file new_file e = (e1, Ok tt) /\
  open_editor 5 true (Some (fdata (w_shp (e_w e1)))) (Some (fdata (w_shx (e_w e1)))) (Some (fdata (w_dbf (e_w e1)))) = Some (Ok (Some e2)) /\
  w_records (e_w e2) = [[CStr (text "b'"); CStr (text "B")]].
Proof. do 3 eexists. repeat (split; [vm_compute; reflexivity|]). vm_compute. reflexivity. Qed.

(** ** C102 *)
Theorem C102_delete_shape : forall a x b i part point e, e_items e = a ++ x :: b -> i <> 0 -> absent part -> absent point ->
  i = Z.of_nat (length a) \/ i = - 1 - Z.of_nat (length b) ->
  exists e1, delete (Some i) part point e = (e1, Ok tt) /\ e_items e1 = a ++ b /\ e_w e1 = e_w e /\ e_auto e1 = e_auto e.
Proof. intros a x b i part point e E I P Q J. eexists. split; [exact (delete_shape_ok a x b i part point e E I P Q J)|]. repeat split. Qed.
Theorem C102_out_of_range : forall i part point e, i <> 0 -> absent part -> absent point ->
  Z.of_nat (length (e_items e)) <= i \/ i < - Z.of_nat (length (e_items e)) -> delete (Some i) part point e = (e, Err IndexError).
Proof. exact delete_shape_out. Qed.
(** The first shape cannot be named by its number; nor has a point of a shape any
    effect. *)
Theorem C102_nothing : forall shape part point e,
  (absent shape /\ absent part /\ absent point) \/ (~ absent shape /\ absent part /\ ~ absent point) -> delete shape part point e = (e, Ok tt).
Proof. exact delete_nothing. Qed.
Theorem C102_parts : forall shape part point e, Forall ordinary (e_items e) -> ~ absent part -> (absent shape -> e_items e <> []) ->
  exists x, delete shape part point e = (e, Err x) /\
    (x = TypeError \/ x = IndexError /\ exists i, shape = Some i /\ (Z.of_nat (length (e_items e)) <= i \/ i < - Z.of_nat (length (e_items e)))).
Proof. exact delete_part_ordinary. Qed.
(** In a layer of [n] points delete(point=p) deletes p and the shapes after it, as
    many as half of [n]. *)
Theorem C102_points : forall a b e shape part, e_items e = a ++ b -> Forall a_point (a ++ b) -> a <> [] -> absent shape -> absent part ->
  let n := length (a ++ b) in
  exists e1, e_w e1 = e_w e /\
  ((2 * length a <= n)%nat -> delete shape part (Some (Z.of_nat (length a))) e = (e1, Ok tt) /\ e_items e1 = a ++ skipn (n - n / 2) b) /\
  ((n < 2 * length a)%nat -> delete shape part (Some (Z.of_nat (length a))) e = (e1, Err IndexError) /\ e_items e1 = a).
Proof.
  intros a b e shape part E F A S P n. rewrite (delete_points a b e shape part E F A S P). fold n.
  destruct (Nat.leb_spec (2 * length a) n) as [L|L]; eexists; (split; [|split; intros H]);
    try lia; [|split; reflexivity| |split; reflexivity]; reflexivity.
Qed.
Theorem C102_table_untouched : forall shape part point e, e_w (fst (delete shape part point e)) = e_w e /\ e_auto (fst (delete shape part point e)) = e_auto e.
Proof. exact delete_keeps. Qed.
Definition ed3 : editor := fst (for_each do_edit [Shape (Point d1 d2 d3 d1); Shape (Point d2 d2 d3 d1); Shape (Point d3 d2 d3 d1)] (new_editor (Some 1) false)).
Example C102_case : length (e_items ed3) = 3%nat /\ Forall a_point (e_items ed3) /\ Forall ordinary (e_items ed3) /\
  (exists e1, delete (Some 1) None None ed3 = (e1, Ok tt) /\ length (e_items e1) = 2%nat) /\
  (exists e1, delete (Some (-3)) None None ed3 = (e1, Ok tt) /\ length (e_items e1) = 2%nat) /\
  (exists e1, delete None None (Some 1) ed3 = (e1, Ok tt) /\ length (e_items e1) = 1%nat).
Proof.
  split; [reflexivity|]. split; [repeat constructor|]. split; [repeat constructor|].
  split; [eexists; split; reflexivity|]. split; [eexists; split; reflexivity|eexists; split; reflexivity].
Qed.
(** After deleting a shape and saving, the later shapes go with the rows of
    others. *)
Definition steps7 : list step := [Column (mkField (text "N") (text "N") (FInt 3) 0); Shape (Point d1 d2 d3 dm1); Row (RecList [CInt 7]); Shape (Point d3 d1 d2 d1); Row (RecList [CInt (-5)])].
Theorem C102_pairing_refuted : exists e e1 e2 r0 r1 s1 s2,
  opened (Some 1) steps7 = Some (Ok (Some e)) /\ e_items e = [EShape s1; EShape s2] /\ w_records (e_w e) = [[CInt 7]; [CInt (-5)]] /\
  delete (Some (-2)) None None e = (e1, Ok tt) /\ e_save fr today new_file new_file new_file e1 = (e2, Ok tt) /\
  Reader (Some (fdata (w_shp (e_w e2)))) (Some (fdata (w_shx (e_w e2)))) (Some (fdata (w_dbf (e_w e2)))) = (r0, Ok tt) /\
  shapeRecord 5 0 r0 = (r1, Ok (Some (s2, Some [CInt 7]))).
Proof. do 7 eexists. repeat (split; [vm_compute; reflexivity|]). vm_compute. reflexivity. Qed.

(** ** C103 *)
(** balance() adds an empty shape when there are too few shapes; it never adds a
    row. *)
Theorem C103_balance : forall e,
  let n := length (e_items e) in let r := length (w_records (e_w e)) in
  ((n < r)%nat -> exists e1, balance e = (e1, Ok tt) /\ e_items e1 = e_items e ++ [EShape (new_shape (Some 0))] /\ e_w e1 = e_w e) /\
  ((r <= n)%nat -> fst (balance e) = e /\ (snd (balance e) = Ok tt <-> (r = n \/ w_fields (e_w e) <> [])) /\
     (snd (balance e) <> Ok tt -> snd (balance e) = Err IndexError)).
Proof.
  intros e n r. rewrite balance_run. unfold rows_in. fold n r. destruct (Nat.ltb_spec n r) as [L|L].
  - split; [|lia]. intros _. eexists. split; [reflexivity|]. split; reflexivity.
  - split; [lia|]. intros _. cbn [fst snd]. split; [reflexivity|]. destruct (Nat.ltb_spec r n) as [M|M].
    + destruct (w_fields (e_w e)) as [|f l].
      * split; [split; [discriminate|intros [X|X]; [lia|congruence]]|reflexivity].
      * split; [split; [intros _; right; discriminate|reflexivity]|congruence].
    + split; [split; [intros _; left; lia|reflexivity]|congruence].
Qed.
Theorem C103_point : forall x y z m e shape part point, absent part -> absent point ->
  absent shape \/ (exists i, shape = Some i /\ - Z.of_nat (length (e_items e)) <= i < Z.of_nat (length (e_items e))) ->
  let e1 := mkEditor (e_auto e) (e_items e ++ [EPoint (w_type (e_w e)) x y z m]) (e_w e) in
  edit_point x y z m shape part point None e = if e_auto e then balance e1 else (e1, Ok tt).
Proof.
  intros x y z m e shape part point P Q S e1.
  rewrite (edit_point_plain x y z m e shape part point P Q).
  - change (with_point x y z m e) with e1. destruct (e_auto e); reflexivity.
  - destruct S as [S|[i [-> R]]]; [left; exact S|right]. exists i. destruct (py_get_within (e_items e) i R) as [v G]. exists v. split; [reflexivity|exact G].
Qed.
(** Shapes that exist are never changed, whatever the arguments. *)
Theorem C103_only_appends : forall x y z m shape part point addr e, Forall ordinary (e_items e) ->
  exists more, e_items (fst (edit_point x y z m shape part point addr e)) = e_items e ++ more.
Proof. exact edit_point_grows. Qed.
Theorem C103_update_refused : forall x y z m i j k point addr e,
  Forall ordinary (e_items e) -> - Z.of_nat (length (e_items e)) <= i < Z.of_nat (length (e_items e)) ->
  (i <> 0 -> j <> 0 -> edit_point x y z m (Some i) (Some j) point addr e = (e, Err TypeError)) /\
  edit_point x y z m None None None (Some (i, j, k)) e = (e, Err TypeError).
Proof.
  intros x y z m i j k point addr e F R.
  pose proof (py_get_within (e_items e) i R) as G.
  destruct G as [v G]. split; [intros NI NJ; exact (edit_shape_refused x y z m i j point addr e v F NI NJ G)|exact (edit_addr_refused x y z m i j k e v F G)].
Qed.
(** The documentation of balance: "make sure all three files are in synch". A
    point added to a layer that has columns stays without a row. *)
Theorem C103_in_sync_refuted : exists e e1,
  opened (Some 11) steps3 = Some (Ok (Some e)) /\ e_auto e = true /\ length (e_items e) = 2%nat /\ length (w_records (e_w e)) = 2%nat /\
  edit_point d1 d1 (Some d1) (Some d1) None None None None e = (e1, Ok tt) /\
  length (e_items e1) = 3%nat /\ length (w_records (e_w e1)) = 2%nat.
Proof. do 2 eexists. repeat (split; [vm_compute; reflexivity|]). vm_compute. reflexivity. Qed.
Example C103_case : Forall ordinary (e_items ed3) /\ (- Z.of_nat (length (e_items ed3)) <= 2 < Z.of_nat (length (e_items ed3))) /\
  edit_point d1 d1 None None None None None None (new_editor (Some 1) true) =
    (mkEditor true [EPoint (Some 1) d1 d1 None None] (Writer (Some 1)), Err IndexError) /\
  exists e1, edit_point d1 d1 None None (Some 7) (Some 1) None None ed3 = (e1, Err IndexError) /\ length (e_items e1) = 4%nat.
Proof.
  split; [repeat constructor|]. split; [cbn; lia|]. split; [vm_compute; reflexivity|]. eexists. split; vm_compute; reflexivity.
Qed.

(** ** C104 *)
(** Once there is a list among the shapes or a point without z or m, neither the
    shapes nor the index can be saved. *)
Theorem C104_unsaveable : forall e target, ~ (exists ss, Forall2 item_shape (e_items e) ss) ->
  (exists x, snd (e_saveShp target e) = Err x) /\ (exists x, snd (e_saveShx target e) = Err x).
Proof.
  intros e target N. apply save_never. destruct (plain (e_items e)) as [ss|] eqn:P; [|reflexivity]. exfalso. apply N. exists ss. apply plain_items, P.
Qed.
(** The attempt leaves the shapes, the columns and the rows alone; a layer
    without a type, or of type 0, takes that of its first shape. *)
Theorem C104_type : forall e target, ~ (exists ss, Forall2 item_shape (e_items e) ss) ->
  let t := match w_type (e_w e) with None | Some 0 => first_type (e_items e) (w_type (e_w e)) | u => u end in
  (let e1 := fst (e_saveShp target e) in e_items e1 = e_items e /\ w_type (e_w e1) = t /\ w_records (e_w e1) = w_records (e_w e) /\ w_fields (e_w e1) = w_fields (e_w e)) /\
  (let e1 := fst (e_saveShx target e) in e_items e1 = e_items e /\ w_type (e_w e1) = t /\ w_records (e_w e1) = w_records (e_w e) /\ w_fields (e_w e1) = w_fields (e_w e)).
Proof.
  intros e target N. apply save_type. destruct (plain (e_items e)) as [ss|] eqn:P; [|reflexivity]. exfalso. apply N. exists ss. apply plain_items, P.
Qed.
(** A point added without z or m is never got rid of by adding to the layer. *)
Theorem C104_program : forall x y z m e e1 r steps target, edit_point x y z m None None None None e = (e1, r) -> z = None \/ m = None ->
  let e2 := fst (for_each do_edit steps e1) in
  (exists x, snd (e_saveShp target e2) = Err x) /\ (exists x, snd (e_saveShx target e2) = Err x) /\
  forall fr today a b c, exists x, snd (e_save fr today a b c e2) = Err x.
Proof.
  intros x y z m e e1 r steps target R N e2. pose proof (stuck x y z m e e1 r steps R N) as P.
  destruct (save_never e2 target P) as [H1 H2]. split; [exact H1|]. split; [exact H2|].
  intros fr0 today0 a b c. destruct (save_never e2 a P) as [[v H] _]. exists v. unfold e_save, mbind. destruct (e_saveShp a e2) as [e3 r3]. cbn [snd] in H. rewrite H. reflexivity.
Qed.
Theorem C104_plain_points : forall e target t, w_type (e_w e) = Some t -> t = 1 \/ t = 11 \/ t = 21 -> Forall added_point (e_items e) ->
  Z.of_nat (length (e_items e)) < 16777216 -> Exists missing_z (e_items e) \/ Exists missing_m (e_items e) ->
  snd (e_saveShp target e) = Err (match e_items e with [EPoint _ _ _ None (Some _)] => ShapefileException | _ => TypeError end).
Proof. exact points_save_err. Qed.
Definition ed2d : editor := fst (for_each (fun p => edit_point (fst p) (snd p) None None None None None None) [(d1, d2); (d2, d2)] (new_editor (Some 1) false)).
Example C104_case : e_items ed2d = [EPoint (Some 1) d1 d2 None None; EPoint (Some 1) d2 d2 None None] /\
  ~ (exists ss, Forall2 item_shape (e_items ed2d) ss) /\ w_type (e_w ed2d) = Some 1 /\ Forall added_point (e_items ed2d) /\ Exists missing_z (e_items ed2d).
Proof.
  split; [reflexivity|]. split; [|split; [reflexivity|split; [repeat constructor|constructor; exact I]]].
  intros [ss F]. vm_compute in F. inversion F as [|? ? ? ? A B]; subst. exact A.
Qed.
(** A polygon of type 5 first, then a point without z *)
Example C104_type_case : let e := fst (edit_point d1 d2 None None None None None None (fst (for_each do_edit [Shape (Poly [tri] 5)] (new_editor None false)))) in
  w_type (e_w e) = None /\ ~ (exists ss, Forall2 item_shape (e_items e) ss) /\ w_type (e_w (fst (e_saveShp new_file e))) = Some 5.
Proof.
  cbv zeta. split; [reflexivity|]. split; [|vm_compute; reflexivity].
  intros [ss F]. apply plain_items in F. vm_compute in F. discriminate.
Qed.

(** ** C105 *)
Theorem C105_as_writer : forall steps fr today a b c e w, same_state e w -> e_auto e = false ->
  let e1 := fst (for_each do_edit steps e) in let w1 := fst (for_each do_step steps w) in
  same_state e1 w1 /\ snd (for_each do_edit steps e) = snd (for_each do_step steps w) /\
  same_state (fst (e_save fr today a b c e1)) (fst (save fr today a b c w1)) /\ snd (e_save fr today a b c e1) = snd (save fr today a b c w1).
Proof.
  intros steps fr0 today0 a b c e w S A e1 w1. apply same_agrees in S. destruct (edits_agree steps e w S A) as [H1 H2].
  split; [apply same_agrees, H1|]. split; [exact H2|]. destruct (save_agrees fr0 today0 a b c e1 w1 H1) as [H3 H4]. split; [apply same_agrees, H3|exact H4].
Qed.
Theorem C105_balanced : forall steps fr today a b c e w e1, same_state e w -> e_auto e = true -> for_each do_edit steps e = (e1, Ok tt) ->
  exists steps' w1, with_nulls steps steps' /\ for_each do_step steps' w = (w1, Ok tt) /\ same_state e1 w1 /\
    same_state (fst (e_save fr today a b c e1)) (fst (save fr today a b c w1)) /\ snd (e_save fr today a b c e1) = snd (save fr today a b c w1).
Proof.
  intros steps fr0 today0 a b c e w e1 S A R. apply same_agrees in S. destruct (edits_agree_auto steps e w e1 S A R) as [steps' [w1 [N [R' H]]]].
  exists steps', w1. split; [exact N|]. split; [exact R'|]. split; [apply same_agrees, H|].
  destruct (save_agrees fr0 today0 a b c e1 w1 H) as [H3 H4]. split; [apply same_agrees, H3|exact H4].
Qed.
Example C105_case : same_state (new_editor (Some 1) false) (Writer (Some 1)) /\ same_state (new_editor (Some 11) true) (Writer (Some 11)) /\
  exists e1, for_each do_edit steps3 (new_editor (Some 11) true) = (e1, Ok tt) /\ length (e_items e1) = 2%nat /\ length (w_records (e_w e1)) = 2%nat.
Proof. split; [repeat (split; [constructor|]); reflexivity|]. split; [repeat (split; [constructor|]); reflexivity|]. eexists. split; vm_compute; [reflexivity|split; reflexivity]. Qed.

Print Assumptions C99_opening.
Print Assumptions C99_no_rows.
Print Assumptions C100_save_again.
Print Assumptions C100_measured.
Print Assumptions C100_identity_refuted.
Print Assumptions C101_blank_number.
Print Assumptions C101_blank_text_refuted.
Print Assumptions C102_delete_shape.
Print Assumptions C102_out_of_range.
Print Assumptions C102_nothing.
Print Assumptions C102_parts.
Print Assumptions C102_points.
Print Assumptions C102_table_untouched.
Print Assumptions C102_pairing_refuted.
Print Assumptions C103_balance.
Print Assumptions C103_point.
Print Assumptions C103_only_appends.
Print Assumptions C103_update_refused.
Print Assumptions C103_in_sync_refuted.
Print Assumptions C104_unsaveable.
Print Assumptions C104_type.
Print Assumptions C104_program.
Print Assumptions C104_plain_points.
Print Assumptions C105_as_writer.
Print Assumptions C105_balanced.
