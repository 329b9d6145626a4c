(** Shapes together with their records: three files. *)
From Verif Require Import Py Text StrModel VlvModel ShpFile ShpWriterModel ShpReaderModel ShpLib ShpSpec ShpWriterProofs ShpSave ShpRead ShpApi ShpCalls
  ShpPrograms ShpRound ShpTableSpec ShpDbfWrite ShpDbfRead ShpTablePrograms ShpTable.
Open Scope Z_scope.
Open Scope m_scope.

(** ** The files of a program *)
Lemma program_files fr today given steps t fs ns rows w0 w1 bss : good t -> saved_program fr today given steps t fs ns rows w0 w1 ->
  Forall2 (row_stored fr fs ns) rows bss ->
  exists gs cs b z m, Forall2 adds (shapes_of steps) gs /\ Forall2 (readable t) gs cs /\ (mixed (flat_map vertices gs) <-> no_zero m) /\
    bounds (flat_map vertices gs) b /\ range_of (map vz (flat_map vertices gs)) z /\ range0 (map vm (flat_map vertices gs)) m /\
    doubles_ok (flat_map vertices gs) /\ Forall (fun g => vertices g <> []) gs /\
    numbered 1 cs /\ i32 ((100 + Z.of_nat (length (all_records 1 cs))) / 2) /\
    i32 ((100 + 8 * Z.of_nat (length cs)) / 2) /\ Forall (fun o => i32 (o / 2)) (offsets_from 100 cs) /\
    fdata (w_shp w1) = shp_file t b z m cs /\ fdata (w_shx w1) = shx_file t b z m cs /\ fdata (w_dbf w1) = dbf_file today fs ns bss /\
    exists ss, Forall2 represents ss gs /\ Forall2 (puts (w_default w0) t) ss cs /\ box_of ss = Ok b.
Proof.
  intros G [Date TP D T SV] B. unfold save in SV.
  apply mbind_ok in SV. destruct SV as [wa [u [S1 SV]]]. destruct u. apply mbind_ok in SV. destruct SV as [wb [u [S2 SV]]]. destruct u.
  assert (KT : tab wb = tab w0) by (rewrite (keeps_saveShx _ _ _ _ S2); apply (keeps_saveShp _ _ _ _ S1)).
  destruct (table_saved fr today given steps fs ns rows w0 wb bss Date TP KT (rows_written _ _ _ _ _ B)) as [w2 [E [E2 [_ [_ [K1 K2]]]]]].
  rewrite E in SV. apply pair_inv in SV. destruct SV as [<- _].
  destruct (steps_shapes steps (Writer given) w0 D (tp_run _ _ _ _ _ _ TP)) as [ss [gs [E1 [A [R [TY [E3 [E4 E5]]]]]]]].
  cbn [Writer w_shapes w_type w_offsets w_lengths app] in *.
  assert (ET := eff_type_calls given (shapes_of steps) t w0 ss T E3 E1 TY). rewrite <- E1 in R.
  destruct (save_both_ok t w0 wa wb gs ET G R E4 E5 S1 S2) as [cs [b [z [m [F1 [F2 [F3 [BX [I1 [I2 [I3 [I4 [I5 [PS [K3 K4]]]]]]]]]]]]]]].
  exists gs, cs, b, z, m. destruct BX as [B1 [B2 B3]].
  destruct (box_of_inv _ _ _ R B1) as [BB _].
  destruct (zbox_of_ok _ _ R) as [z' [Z1 Z2]]. rewrite B2 in Z1. injection Z1 as <-.
  destruct (mbox_of_ok _ _ R) as [m' [M1 M2]]. rewrite B3 in M1. injection M1 as <-.
  assert (NE : flat_map vertices gs <> []).
  { apply bounds_pos in BB. intros X. rewrite X in BB. cbn in BB. lia. }
  split; [exact A|]. split; [exact (readable_all t gs cs F1 _ R F2 I2)|].
  split; [eapply mbox_mixed; eassumption|]. split; [exact BB|]. split; [exact (Z2 NE)|]. split; [exact M2|].
  split; [eapply all_doubles; exact R|]. split; [exact F3|].
  split. { intros k Hk. specialize (I1 k Hk). replace (1 + Z.of_nat k) with (Z.of_nat k + 1) by lia. exact I1. }
  rewrite K1, K2. repeat (split; [assumption|]). exists (w_shapes w0). auto.
Qed.

(** ** A Reader of all three *)
Section Three.
Variables (t : Z) (b z m : list dbl) (cs : list (list Z)) (ss : list shape).
Hypothesis Lb : length b = 4%nat.
Hypothesis Lz : length z = 2%nat.
Hypothesis Lm : length m = 2%nat.
Variables (os ls : list Z).
Hypothesis Los : length os = length cs.
Hypothesis Lls : length ls = length cs.
Hypothesis Even : Forall (fun o => o mod 2 = 0) os.
Hypothesis Shown : Forall2 (shows m) cs ss.
Hypothesis Num : numbered 1 cs.
Hypothesis Off : Forall (fun o => i32 (o / 2)) os.
Hypothesis Cnt : i32 ((100 + 8 * Z.of_nat (length cs)) / 2).
Hypothesis Same : os = offsets_from 100 cs.
Variable hx : bool.
Variable fr : list Z -> list Z.
Variables (today : Z * Z * Z) (fs : list field) (ns : list Z).
Hypothesis Date : plausible today.
Hypothesis Cols : Forall2 column fs ns.
Hypothesis Some_ : fs <> [].
Variables (vals : list (list cell)) (rows : list (list (list Z))).
Hypothesis Rows : Forall2 (row_stored fr fs ns) vals rows.
Variable marks : list Z.
Hypothesis Marks : length marks = length rows.
Hypothesis Fits : table_fits fs ns vals.
Hypothesis Any : rows <> [].
Variable table : list (list cell).
Hypothesis Tab : Forall2 (row_returned fr fs ns) vals table.
Hypothesis Reads : Forall2 (row_reads fs ns) rows table.
Definition both (r : reader) : Prop := opened t b z m cs os ls hx r /\ table_open today fs ns rows marks r.

Lemma both_shp r r' : both r -> opened t b z m cs os ls hx r' -> r_dbf r' = r_dbf r -> info r' = info r -> both r'.
Proof.
  intros [O T] O' D I. split; [exact O'|]. apply (table_frame _ _ _ _ _ r); [exact T| |exact I]. rewrite D. apply (to_dbf _ _ _ _ _ r T).
Qed.
Lemma both_dbf r r' : both r -> table_open today fs ns rows marks r' -> others r' = others r -> both r'.
Proof.
  intros [[A B C D] T] T' O. split; [|exact T']. unfold others in O. injection O as O1 O2 O3 O4 O5 O6 O7.
  constructor; [rewrite O1; exact A|rewrite O2; exact B|rewrite O3; exact C|rewrite O7; exact D].
Qed.
Lemma three_shapes r fuel : both r -> (length cs < fuel)%nat -> runs (shapes fuel) r (fun r' x => x = Some ss /\ both r').
Proof.
  intros [O T] FU. eapply runs_weaken; [apply (shapes_ok t b z m cs ss Lb Lz Lm os ls Los Lls Shown Num hx r fuel O FU)|].
  intros r' x [-> [O' [D I]]]. split; [reflexivity|]. apply (both_shp r); [split; assumption|assumption..].
Qed.
Lemma three_shape r fuel i k s : both r -> (length cs < fuel)%nat -> position (length rows) i k -> nth_error ss k = Some s ->
  runs (shape_at fuel i) r (fun r' x => x = Some s /\ both r').
Proof.
  intros [O T] FU P K. eapply runs_weaken; [apply (shape_at_ok t b z m cs ss Lb Lz Lm os ls Los Lls Even Shown Num Off Cnt hx r fuel i k k s O FU)|].
  - rewrite (to_count _ _ _ _ _ r T). apply restrict_at, P.
  - rewrite Same. destruct hx; reflexivity.
  - exact K.
  - intros r' x [-> [O' [D I]]]. split; [reflexivity|]. apply (both_shp r); [split; assumption|assumption..].
Qed.
Lemma no_rows : length rows <> 0%nat.
Proof. intros L. apply length_zero_iff_nil in L. contradiction. Qed.
Lemma three_shape_out r fuel i : both r -> outside (length rows) i -> exists r', shape_at fuel i r = (r', Err IndexError) /\ both r'.
Proof.
  intros B O. pose proof B as [OP T]. pose proof (op_shp _ _ _ _ _ _ _ _ r OP) as [f [E D]].
  assert (X : runs (in_shp (ret tt)) r (fun r' _ => both r')).
  { eapply runs_shp; [exact E|reflexivity|]. intros r1 A1 B1 C1 D1 I1. apply (both_shp r); try assumption.
    apply (opened_frame _ _ _ _ _ _ _ _ r); try assumption. exists f. auto. }
  destruct X as [r1 [[] [E1 B1]]]. exists r1. split; [|exact B1]. unfold shape_at. rewrite (mbind_run _ _ _ _ _ E1).
  unfold mbind, get, lift. rewrite (to_count _ _ _ _ _ r1 (proj2 B1)), (restrict_out _ _ no_rows O). reflexivity.
Qed.
Lemma three_records r : both r -> runs records r (fun r' x => x = undeleted marks table /\ both r') /\ iterRecords r = (undeleted marks table, Ok tt).
Proof.
  intros B. destruct (records_fine fr today fs ns Date Cols Some_ vals rows Rows marks Marks Fits Any table Tab Reads r (proj2 B)) as [H1 H2].
  split; [|exact H2]. eapply runs_weaken; [exact H1|]. intros r' x [-> [T O]]. split; [reflexivity|]. apply (both_dbf r); assumption.
Qed.
Lemma three_record r i k c : both r -> position (length rows) i k -> nth_error (marked marks table) k = Some c ->
  runs (record_at i) r (fun r' x => x = c /\ both r').
Proof.
  intros B P K. eapply runs_weaken; [apply (record_fine fr today fs ns Date Cols vals rows Rows marks Marks Fits table Reads r i k (proj2 B) P)|].
  intros r' x [K' [T O]]. split; [congruence|]. apply (both_dbf r); assumption.
Qed.
Lemma three_record_out r i : both r -> outside (length rows) i -> exists r', record_at i r = (r', Err IndexError) /\ both r'.
Proof.
  intros B O. destruct (record_out today fs ns rows marks Any r i (proj2 B) O) as [r' [E [T OT]]]. exists r'. split; [exact E|]. apply (both_dbf r); assumption.
Qed.
Lemma position_again n i k : position n i k -> position n (Z.of_nat k) k.
Proof. intros [K _]. split; [exact K|]. left. reflexivity. Qed.
Lemma three_pair r fuel i k s c : both r -> (length cs < fuel)%nat -> position (length rows) i k -> nth_error ss k = Some s -> nth_error (marked marks table) k = Some c ->
  runs (shapeRecord fuel i) r (fun r' x => x = Some (s, c) /\ both r').
Proof.
  intros B FU P K1 K2. unfold shapeRecord. apply runs_bind. apply runs_get. apply runs_bind. apply (runs_lift _ (Z.of_nat k)).
  { rewrite (to_count _ _ _ _ _ r (proj2 B)). apply restrict_at, P. }
  apply runs_bind. eapply runs_weaken; [apply (three_shape r fuel _ k s B FU (position_again _ _ _ P) K1)|].
  intros r1 x [-> B1]. apply runs_bind. eapply runs_weaken; [apply (three_record r1 _ k c B1 (position_again _ _ _ P) K2)|].
  intros r2 x [-> B2]. apply runs_ret. auto.
Qed.
Lemma three_pair_out r fuel i : both r -> outside (length rows) i -> exists r', shapeRecord fuel i r = (r', Err IndexError) /\ both r'.
Proof.
  intros B O. exists r. split; [|exact B]. unfold shapeRecord, mbind, get, lift. rewrite (to_count _ _ _ _ _ r (proj2 B)), (restrict_out _ _ no_rows O). reflexivity.
Qed.
Lemma three_pairs r fuel : both r -> (length cs < fuel)%nat -> runs (shapeRecords fuel) r (fun r' x => x = Some (combine ss (undeleted marks table)) /\ both r').
Proof.
  intros B FU. unfold shapeRecords. apply runs_bind. eapply runs_weaken; [apply (three_shapes r fuel B FU)|]. intros r1 x [-> B1].
  apply runs_bind. eapply runs_weaken; [apply (three_records r1 B1)|]. intros r2 x [-> B2]. apply runs_ret. auto.
Qed.
Lemma three_look fuel l r r' x : both r -> (length ss < fuel)%nat ->
  (forall i, index_of l = Some i -> (exists k, position (length rows) i k /\ (k < length ss)%nat) \/ outside (length rows) i) ->
  look fuel l r = (r', x) -> both r'.
Proof.
  intros B FU IX H. rewrite <- (F2_length Shown) in FU.
  assert (FIN : forall A (mm : M reader A) Q, (mm ;;; ret tt) r = (r', x) -> runs mm r (fun r' x => Q x /\ both r') -> both r').
  { intros A mm Q E [r1 [y [E1 [_ B1]]]]. rewrite (mbind_run _ _ _ _ _ E1) in E. unfold ret in E. pinv E. exact B1. }
  assert (BAD : forall A (mm : M reader A), (mm ;;; ret tt) r = (r', x) -> (exists r', mm r = (r', Err IndexError) /\ both r') -> both r').
  { intros A mm E [r1 [E1 B1]]. unfold mbind in E. rewrite E1 in E. pinv E. exact B1. }
  assert (NS : forall k, (k < length ss)%nat -> exists s, nth_error ss k = Some s).
  { intros k K. destruct (nth_error ss k) as [s|] eqn:E; [exists s; reflexivity|apply nth_error_None in E; lia]. }
  assert (NT : forall i k, position (length rows) i k -> exists c, nth_error (marked marks table) k = Some c).
  { intros i k [K _]. assert (LT : length (marked marks table) = length rows).
    { unfold marked. rewrite map_length, combine_length, <- (F2_length Reads). lia. }
    rewrite <- LT in K. destruct (nth_error (marked marks table) k) as [s|] eqn:E; [exists s; reflexivity|apply nth_error_None in E; lia]. }
  destruct l as [|i| |i| |i]; cbn [look index_of] in *.
  - eapply FIN; [exact H|apply three_shapes; assumption].
  - destruct (IX i eq_refl) as [[k [P K]]|O]; [|eapply BAD; [exact H|apply three_shape_out; assumption]].
    destruct (NS k K) as [s Es]. eapply FIN; [exact H|eapply three_shape; eassumption].
  - eapply FIN; [exact H|apply three_records; assumption].
  - destruct (IX i eq_refl) as [[k [P K]]|O]; [|eapply BAD; [exact H|apply three_record_out; assumption]].
    destruct (NT i k P) as [c Ec]. eapply FIN; [exact H|eapply three_record; eassumption].
  - eapply FIN; [exact H|apply three_pairs; assumption].
  - destruct (IX i eq_refl) as [[k [P K]]|O]; [|eapply BAD; [exact H|apply three_pair_out; assumption]].
    destruct (NS k K) as [s Es]. destruct (NT i k P) as [c Ec]. eapply FIN; [exact H|eapply three_pair; eassumption].
Qed.
End Three.

Lemma three_open fr today fs ns rows bss marks t b z m cs shx : plausible today -> Forall2 column fs ns ->
  Forall2 (row_stored fr fs ns) rows bss -> length marks = length bss -> table_fits fs ns rows -> i32 t ->
  length b = 4%nat -> Forall is_dbl b -> length z = 2%nat -> Forall is_dbl z -> length m = 2%nat -> Forall is_dbl m ->
  i32 ((100 + Z.of_nat (length (all_records 1 cs))) / 2) -> shx = None \/ shx = Some (shx_file t b z m cs) ->
  exists r0, Reader (Some (shp_file t b z m cs)) shx (Some (marked_file today fs ns marks bss)) = (r0, Ok tt) /\
    both t b z m cs (offsets_from 100 cs) (map words cs) (match shx with Some _ => true | None => false end) today fs ns bss marks r0 /\
    r_type r0 = Some t /\ exists f, r_dbf r0 = Some f /\ rest f = flat_map mrow_bytes (mrows bss marks).
Proof.
  intros Date Cols B LM' [F1 [F2 F3]] TI Lb Db Lz Dz Lm Dm I1 HS. rewrite <- index_file_shx in HS.
  set (os := offsets_from 100 cs) in *. set (ls := map words cs) in *.
  assert (Los : length os = length cs) by apply offsets_length. assert (Lls : length ls = length cs) by apply map_length.
  set (hx := match shx with Some _ => true | None => false end).
  set (r00 := mkReader (Some (mkFile (shp_file t b z m cs) 0)) (option_map (fun bs => mkFile bs 0) shx)
    (Some (mkFile (marked_file today fs ns marks bss) 0)) [] None None [] 0 None [] [] []).
  destruct (header_ok t b z m cs Lb Lz Lm os ls Los Lls I1 TI Db Dz Dm r00 (mkFile (shp_file t b z m cs) 0) eq_refl eq_refl)
    as [r1 [[] [H0 [X1 [X2 [X3 [X4 [X5 [X6 [X7 [X8 [X9 [X10 X11]]]]]]]]]]]]].
  destruct (open_ok fr today fs ns Date Cols rows bss B marks LM' F1 F3 r1) as [r0 [[] [RO [TO [OT RF]]]]].
  { rewrite X3. eexists. split; [reflexivity|]. split; reflexivity. } { rewrite X7. reflexivity. } { rewrite X6. reflexivity. }
  exists r0. split.
  { change ((shp_header ;;; read_dbf_header) r00 = (r0, Ok tt)). rewrite (mbind_run _ _ _ _ _ H0). exact RO. }
  unfold others in OT. injection OT as O1 O2 O3 O4 O5 O6 O7. split; [|split; [rewrite O4; exact X8|exact RF]].
  split; [|exact TO]. constructor.
  - rewrite O1. exact X1.
  - unfold hx. rewrite O2, X2. destruct HS as [-> | ->]; cbn [option_map] in r00; [reflexivity|]. exists (mkFile (index_file t b z m cs os ls) 0). split; reflexivity.
  - left. rewrite O3. exact X4.
  - rewrite O7. exact X11.
Qed.

Lemma marked_pairing fr today given steps t fs ns rows w0 w1 bss marks : good t -> saved_program fr today given steps t fs ns rows w0 w1 ->
  rows <> [] -> Forall (row_storable fr fs ns) rows -> Forall2 (row_stored fr fs ns) rows bss -> length marks = length rows ->
  exists gs ss table, Forall2 adds (shapes_of steps) gs /\ Forall2 (read_back (mixed (flat_map vertices gs)) t) gs ss /\
    Forall2 (row_returned fr fs ns) rows table /\ fdata (w_dbf w1) = dbf_file today fs ns bss /\
    forall shx, shx = None \/ shx = Some (fdata (w_shx w1)) ->
    exists r0, Reader (Some (fdata (w_shp w1))) shx (Some (marked_file today fs ns marks bss)) = (r0, Ok tt) /\
      forall r, used_by (fun _ => True) (length rows) (length ss) r0 r -> forall fuel, (length ss < fuel)%nat ->
        (exists r', shapeRecords fuel r = (r', Ok (Some (combine ss (undeleted marks table))))) /\
        (exists r', shapes fuel r = (r', Ok (Some ss))) /\ (exists r', records r = (r', Ok (undeleted marks table))) /\
        (forall i k s c, position (length rows) i k -> nth_error ss k = Some s -> nth_error (marked marks table) k = Some c ->
           (exists r', shapeRecord fuel i r = (r', Ok (Some (s, c)))) /\
           (exists r', shape_at fuel i r = (r', Ok (Some s))) /\ (exists r', record_at i r = (r', Ok c))) /\
        (forall i, outside (length rows) i ->
           (exists r', shapeRecord fuel i r = (r', Err IndexError)) /\
           (exists r', shape_at fuel i r = (r', Err IndexError)) /\ (exists r', record_at i r = (r', Err IndexError))).
Proof.
  intros G SP AN ST B LM.
  destruct (program_files fr today given steps t fs ns rows w0 w1 bss G SP B)
    as [gs [cs [b [z [m [A [R [MX [BB [ZZ [MM [DD [NE [N [I1 [I2 [I3 [K1 [K2 [K3 _]]]]]]]]]]]]]]]]]]]].
  destruct (all_shown _ m t gs cs MX G R) as [ss [RB SH]].
  pose proof (sp_table _ _ _ _ _ _ _ _ _ _ SP) as P. pose proof (sp_date _ _ _ _ _ _ _ _ _ _ SP) as Date.
  pose proof (tp_sizes _ _ _ _ _ _ P) as Cols. pose proof (tp_fits _ _ _ _ _ _ P) as Fits. pose proof (tp_some _ _ _ _ _ _ P) as SM.
  pose proof Fits as [F1 [F2 F3]].
  destruct (all_reads fr fs ns Cols rows bss B ST) as [table [T1 T2]].
  exists gs, ss, table. split; [exact A|]. split; [exact RB|]. split; [exact T1|]. split; [exact K3|]. intros shx HS.
  destruct (bounds_dbl _ _ DD BB) as [Lb Db].
  destruct (range_of_dbl _ _ (coord_dbl vz _ vz_in DD) ZZ) as [Lz Dz].
  destruct (range0_dbl _ _ (coord_dbl vm _ vm_in DD) MM) as [Lm Dm].
  assert (EV := content_evens t gs cs R). pose proof (offsets_even cs EV 100 eq_refl) as OE.
  assert (LM' : length marks = length bss) by (rewrite LM; apply (F2_length B)).
  destruct (three_open fr today fs ns rows bss marks t b z m cs shx Date Cols B LM' Fits (good_i32 t G) Lb Db Lz Dz Lm Dm I1) as [r0 [RO [B0 _]]].
  { rewrite K2 in HS. exact HS. }
  rewrite K1. exists r0. split; [exact RO|].
  set (hx := match shx with Some _ => true | None => false end) in *.
  set (os := offsets_from 100 cs) in *. set (ls := map words cs) in *.
  assert (Los : length os = length cs) by apply offsets_length. assert (Lls : length ls = length cs) by apply map_length.
  assert (ANB : bss <> []) by (intros E; rewrite E in B; inversion B; subst; contradiction).
  assert (LB : length rows = length bss) by apply (F2_length B). rewrite LB.
  intros r U fuel FU.
  assert (BR : both t b z m cs os ls hx today fs ns bss marks r).
  { clear fuel FU. induction U as [|r r' fuel l x U IH PL FU IX H]; [exact B0|].
    exact (three_look t b z m cs ss Lb Lz Lm os ls Los Lls OE SH N I3 I2 eq_refl hx fr today fs ns Date Cols SM rows bss B marks LM' Fits ANB table T1 T2 fuel l r r' x IH FU IX H). }
  assert (FU' : (length cs < fuel)%nat) by (rewrite (F2_length SH); exact FU).
  split; [|split; [|split; [|split]]].
  - destruct (three_pairs t b z m cs ss Lb Lz Lm os ls Los Lls SH N hx fr today fs ns Date Cols SM rows bss B marks LM' Fits ANB table T1 T2 r fuel BR FU') as [r' [x [E [-> _]]]].
    exists r'. exact E.
  - destruct (three_shapes t b z m cs ss Lb Lz Lm os ls Los Lls SH N hx today fs ns bss marks r fuel BR FU') as [r' [x [E [-> _]]]]. exists r'. exact E.
  - destruct (three_records t b z m cs os ls hx fr today fs ns Date Cols SM rows bss B marks LM' Fits ANB table T1 T2 r BR) as [[r' [x [E [-> _]]]] _]. exists r'. exact E.
  - intros i k s c PI NS NT. split; [|split].
    + destruct (three_pair t b z m cs ss Lb Lz Lm os ls Los Lls OE SH N I3 I2 eq_refl hx fr today fs ns Date Cols rows bss B marks LM' Fits table T2 r fuel i k s c BR FU' PI NS NT) as [r' [x [E [-> _]]]].
      exists r'. exact E.
    + destruct (three_shape t b z m cs ss Lb Lz Lm os ls Los Lls OE SH N I3 I2 eq_refl hx today fs ns bss marks r fuel i k s BR FU' PI NS) as [r' [x [E [-> _]]]].
      exists r'. exact E.
    + destruct (three_record t b z m cs os ls hx fr today fs ns Date Cols rows bss B marks LM' Fits table T2 r i k c BR PI NT) as [r' [x [E [-> _]]]].
      exists r'. exact E.
  - intros i O. split; [|split].
    + destruct (three_pair_out t b z m cs os ls hx today fs ns bss marks ANB r fuel i BR O) as [r' [E _]]. exists r'. exact E.
    + destruct (three_shape_out t b z m cs os ls hx today fs ns bss marks ANB r fuel i BR O) as [r' [E _]]. exists r'. exact E.
    + destruct (three_record_out t b z m cs os ls hx today fs ns bss marks ANB r i BR O) as [r' [E _]]. exists r'. exact E.
Qed.

Lemma pairing fr today given steps t fs ns rows w0 w1 : good t -> saved_program fr today given steps t fs ns rows w0 w1 ->
  rows <> [] -> Forall (row_storable fr fs ns) rows ->
  exists gs ss table, Forall2 adds (shapes_of steps) gs /\ Forall2 (read_back (mixed (flat_map vertices gs)) t) gs ss /\
    Forall2 (row_returned fr fs ns) rows table /\
    forall shx, shx = None \/ shx = Some (fdata (w_shx w1)) ->
    exists r0, Reader (Some (fdata (w_shp w1))) shx (Some (fdata (w_dbf w1))) = (r0, Ok tt) /\
      forall r, used_by (fun _ => True) (length rows) (length ss) r0 r -> forall fuel, (length ss < fuel)%nat ->
        (exists r', shapeRecords fuel r = (r', Ok (Some (combine ss table)))) /\
        (exists r', shapes fuel r = (r', Ok (Some ss))) /\ (exists r', records r = (r', Ok table)) /\
        (forall i k s c, position (length rows) i k -> nth_error ss k = Some s -> nth_error table k = Some c ->
           (exists r', shapeRecord fuel i r = (r', Ok (Some (s, Some c)))) /\
           (exists r', shape_at fuel i r = (r', Ok (Some s))) /\ (exists r', record_at i r = (r', Ok (Some c)))) /\
        (forall i, outside (length rows) i ->
           (exists r', shapeRecord fuel i r = (r', Err IndexError)) /\
           (exists r', shape_at fuel i r = (r', Err IndexError)) /\ (exists r', record_at i r = (r', Err IndexError))).
Proof.
  intros G SP AN ST. destruct (stored_rows fr fs ns rows ST) as [bss B].
  destruct (marked_pairing fr today given steps t fs ns rows w0 w1 bss (repeat 32 (length rows)) G SP AN ST B (repeat_length _ _))
    as [gs [ss [table [A [R [T [D H]]]]]]].
  exists gs, ss, table. split; [exact A|]. split; [exact R|]. split; [exact T|]. intros shx HS.
  destruct (H shx HS) as [r0 [RO K]]. exists r0. split.
  { rewrite D, unmarked_file, <- (F2_length B). exact RO. }
  intros r U fuel FU. specialize (K r U fuel FU). destruct (unmarked table) as [U1 U2].
  rewrite <- (F2_length T) in U1, U2. rewrite U1, U2 in K. destruct K as [K1 [K2 [K3 [K4 K5]]]].
  split; [exact K1|]. split; [exact K2|]. split; [exact K3|]. split; [|exact K5].
  intros i k s c PI NS NC. apply (K4 i k s (Some c) PI NS). rewrite nth_error_map, NC. reflexivity.
Qed.
