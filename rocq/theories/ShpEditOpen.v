(** Opening a shapefile in an Editor, and saving it again. *)
From Verif Require Import Py Text StrModel VlvModel ShpFile ShpWriterModel ShpReaderModel ShpEditorModel ShpLib ShpSpec ShpWriterProofs ShpSave ShpRead ShpApi ShpCalls
  ShpPrograms ShpRound ShpTableSpec ShpDbfWrite ShpDbfRead ShpTablePrograms ShpTable ShpPairs ShpSuccess ShpEditorSpec ShpResave ShpRetable ShpEditor ShpEditPoint.
Open Scope Z_scope.
Open Scope m_scope.

(** ** The measures in the header do not matter for flat types *)
Definition of_type (t : Z) (m : M file shape) : Prop := forall f f' s, m f = (f', Ok s) -> s_type s = Some t.
Lemma of_type_ret t s : s_type s = Some t -> of_type t (ret s).
Proof. intros H f f' s' E. unfold ret in E. injection E as _ <-. exact H. Qed.
Lemma of_type_bind {A} t (m : M file A) k : (forall a, of_type t (k a)) -> of_type t (mbind m k).
Proof. intros H f f' s E. apply mbind_ok in E. destruct E as [f1 [a [_ E]]]. exact (H a _ _ _ E). Qed.
Lemma of_type_bind2 t (m : M file shape) k : of_type t m -> (forall s, s_type s = Some t -> of_type t (k s)) -> of_type t (mbind m k).
Proof. intros M H f f' s E. apply mbind_ok in E. destruct E as [f1 [a [E1 E]]]. exact (H a (M _ _ _ E1) _ _ _ E). Qed.
Ltac typed := repeat (cbv beta; match goal with
  | |- of_type _ (if ?b then _ else _) => destruct b
  | |- of_type _ (ret _) => apply of_type_ret; first [assumption|reflexivity]
  | |- of_type _ (mbind (A := shape) _ _) => apply of_type_bind2; [|intros ? ?]
  | |- of_type _ (mbind _ _) => apply of_type_bind; intros ?
  end).
Lemma measure_free m m' f f' s t : flat_type t -> get_shape m f = (f', Ok s) -> s_type s = Some t -> get_shape m' f = (f', Ok s).
Proof.
  intros FT H T. unfold get_shape in *.
  apply mbind_ok in H. destruct H as [f1 [hd [E1 H]]]. rewrite (mbind_run _ _ _ _ _ E1).
  apply mbind_ok in H. destruct H as [f2 [n [E2 H]]]. rewrite (mbind_run _ _ _ _ _ E2).
  apply mbind_ok in H. destruct H as [f3 [p [E3 H]]]. rewrite (mbind_run _ _ _ _ _ E3).
  apply mbind_ok in H. destruct H as [f4 [ty [E4 H]]]. rewrite (mbind_run _ _ _ _ _ E4).
  assert (K : ty = t).
  { cut (s_type s = Some ty); [congruence|]. revert H. clear.
    match goal with |- ?mm f4 = _ -> _ => assert (X : of_type ty mm); [|exact (X f4 f' s)] end.
    cbv zeta. typed. }
  subst ty. rewrite <- H.
  unfold flat_type in FT. cbn in FT. destruct FT as [<-|[<-|[<-|[<-|[<-|[<-|[]]]]]]]; reflexivity.
Qed.
Lemma shows_free m m' c s t : flat_type t -> shows m c s -> s_type s = Some t -> shows m' c s.
Proof. intros FT S T n f r I E. apply (measure_free m m' _ _ s t FT (S n f r I E) T). Qed.

(** ** Type 31 is the only one with part types *)
Lemma put_default d d' s t : s_type s = Some t -> t <> 31 -> put_shape_w d s = put_shape_w d' s.
Proof.
  intros T N. unfold put_shape_w. cbv zeta. rewrite T. apply Z.eqb_neq in N. assert (K : type_is (Some t) 31 = false) by (unfold type_is; cbn; rewrite ?N; reflexivity). rewrite K. reflexivity.
Qed.

(** ** Opening *)
Definition opened_writer (t : Z) (fs : list field) (ns : list Z) (table : list (list cell)) : writer :=
  w_set_records table (w_set_fields (flag_column :: backs fs ns) (Writer (Some t))).
Definition opened_editor (auto : bool) (t : Z) (ss : list shape) (fs : list field) (ns : list Z) (table : list (list cell)) : editor :=
  mkEditor auto (map EShape ss) (opened_writer t fs ns table).
Lemma open_files fr today fs ns rows bss table t b z m cs ss auto fuel : plausible today -> Forall2 column fs ns -> fs <> [] ->
  Forall2 (row_stored fr fs ns) rows bss -> rows <> [] -> table_fits fs ns rows -> i32 t ->
  length b = 4%nat -> Forall is_dbl b -> length z = 2%nat -> Forall is_dbl z -> length m = 2%nat -> Forall is_dbl m ->
  i32 ((100 + Z.of_nat (length (all_records 1 cs))) / 2) -> Forall2 (shows m) cs ss -> numbered 1 cs ->
  Forall2 (row_returned fr fs ns) rows table -> Forall2 (row_reads fs ns) bss table -> (length ss < fuel)%nat ->
  open_editor fuel auto (Some (shp_file t b z m cs)) (Some (shx_file t b z m cs)) (Some (dbf_file today fs ns bss)) =
    Some (Ok (Some (opened_editor auto t ss fs ns table))).
Proof.
  intros Date Cols SM B AN Fits TI Lb Db Lz Dz Lm Dm I1 SH N T1 T2 FU.
  assert (ANB : bss <> []) by (intros E; rewrite E in B; inversion B; subst; contradiction).
  rewrite unmarked_file. set (marks := repeat 32 (length bss)).
  assert (LM : length marks = length bss) by apply repeat_length.
  destruct (three_open fr today fs ns rows bss marks t b z m cs (Some (shx_file t b z m cs)) Date Cols B LM Fits TI Lb Db Lz Dz Lm Dm I1 (or_intror eq_refl)) as [r0 [RO [B0 [RT _]]]].
  set (os := offsets_from 100 cs) in *. set (ls := map words cs) in *.
  assert (Los : length os = length cs) by apply offsets_length. assert (Lls : length ls = length cs) by apply map_length.
  assert (FU' : (length cs < fuel)%nat) by (rewrite (F2_length SH); exact FU).
  destruct (three_shapes t b z m cs ss Lb Lz Lm os ls Los Lls SH N true today fs ns bss marks r0 fuel B0 FU') as [r1 [x [E1 [-> B1]]]].
  destruct (three_records t b z m cs os ls true fr today fs ns Date Cols SM rows bss B marks LM Fits ANB table T1 T2 r1 B1) as [[r2 [x [E2 [-> B2]]]] _].
  assert (U : undeleted marks table = table).
  { unfold marks. rewrite <- (F2_length B), (F2_length T1). apply unmarked. }
  rewrite U in E2. unfold open_editor. rewrite RO, E1, E2, RT, (to_fields _ _ _ _ _ _ (proj2 B2)). reflexivity.
Qed.

(** Without rows the table is opened again by records(), and is at its end. *)
Lemma open_no_rows today fs ns t b z m cs ss auto fuel : plausible today -> Forall2 column fs ns -> fs <> [] -> table_fits fs ns [] -> i32 t ->
  length b = 4%nat -> Forall is_dbl b -> length z = 2%nat -> Forall is_dbl z -> length m = 2%nat -> Forall is_dbl m ->
  i32 ((100 + Z.of_nat (length (all_records 1 cs))) / 2) -> Forall2 (shows m) cs ss -> numbered 1 cs -> (length ss < fuel)%nat ->
  open_editor fuel auto (Some (shp_file t b z m cs)) (Some (shx_file t b z m cs)) (Some (dbf_file today fs ns [])) = Some (Err StructError).
Proof.
  intros Date Cols SM Fits TI Lb Db Lz Dz Lm Dm I1 SH N FU.
  change (dbf_file today fs ns []) with (marked_file today fs ns [] []).
  destruct (three_open (fun x => x) today fs ns [] [] [] t b z m cs (Some (shx_file t b z m cs)) Date Cols (Forall2_nil _) eq_refl Fits TI Lb Db Lz Dz Lm Dm I1 (or_intror eq_refl)) as [r0 [RO [B0 [RT [f [EF RF]]]]]].
  set (os := offsets_from 100 cs) in *. set (ls := map words cs) in *.
  assert (Los : length os = length cs) by apply offsets_length. assert (Lls : length ls = length cs) by apply map_length.
  assert (FU' : (length cs < fuel)%nat) by (rewrite (F2_length SH); exact FU).
  destruct (shapes_ok t b z m cs ss Lb Lz Lm os ls Los Lls SH N true r0 fuel (proj1 B0) FU') as [r1 [x [E1 [-> [O1 [D1 J1]]]]]].
  pose proof (both_shp t b z m cs os ls true today fs ns [] [] r0 r1 B0 O1 D1 J1) as [_ TO].
  rewrite <- D1 in EF. destruct (reopen_empty today fs ns r1 f TO SM EF RF) as [r2 RE].
  assert (CZ : negb (truthy (r_numRecords r1)) = true) by (rewrite (to_count _ _ _ _ _ r1 TO); reflexivity).
  assert (RC : records r1 = (r2, Err StructError)).
  { unfold records. unfold mbind at 1. unfold get at 1. rewrite CZ. unfold when, mbind. rewrite RE. reflexivity. }
  unfold open_editor. rewrite RO, E1, RC. reflexivity.
Qed.

(** ** Saving again *)
Lemma opened_agrees auto t ss fs ns table : agrees (opened_editor auto t ss fs ns table) (w_set_shapes ss (opened_writer t fs ns table)).
Proof. split; [apply plain_shapes|reflexivity]. Qed.
Lemma resave fr today ms t gs ss cs b fs ns rows table auto : plausible today -> Forall2 column fs ns -> fs <> [] ->
  Forall (fun f => ~ named_deletion f) fs -> table_fits fs ns rows -> Forall2 (row_returned fr fs ns) rows table -> Forall (Forall (solid fr)) table ->
  flat_type t -> Forall2 (read_back ms t) gs ss -> Forall2 (content t) gs cs -> Forall2 (rewrites [] t) ss cs -> box_of ss = Ok b ->
  numbered 1 cs -> Forall (fun c => i32 (words c)) cs ->
  i32 ((100 + Z.of_nat (length (all_records 1 cs))) / 2) -> i32 ((100 + 8 * Z.of_nat (length cs)) / 2) ->
  Forall (fun o => i32 (o / 2)) (offsets_from 100 cs) ->
  exists e1 bss, e_save fr today new_file new_file new_file (opened_editor auto t ss fs ns table) = (e1, Ok tt) /\
    Forall2 (row_stored fr (backs fs ns) ns) table bss /\
    plain (e_items e1) = Some ss /\ w_fields (e_w e1) = backs fs ns /\ w_records (e_w e1) = table /\
    fdata (w_shp (e_w e1)) = shp_file t b no_range no_range cs /\ fdata (w_shx (e_w e1)) = shx_file t b no_range no_range cs /\
    fdata (w_dbf (e_w e1)) = dbf_file today (backs fs ns) ns bss.
Proof.
  intros Date Cols SM ND [H1 [H2 H3]] RR SO FT RB C RW BX N I1 I2 I3 I4.
  destruct (rows_again fr fs ns rows table Cols RR SO) as [ST _]. destruct (stored_rows _ _ _ _ ST) as [bss B].
  set (w := w_set_shapes ss (opened_writer t fs ns table)).
  destruct (save_read ms t w gs cs b FT eq_refl RB C RW BX eq_refl eq_refl) as [w1 [w2 [E1 [E2 [S1 [S2 [F1 F2]]]]]]]; try assumption.
  { intros k K. specialize (N k K). replace (Z.of_nat k + 1) with (1 + Z.of_nat k) by lia. exact N. }
  assert (KT : tab w2 = tab w) by (rewrite (keeps_saveShx _ _ _ _ E2); apply (keeps_saveShp _ _ _ _ E1)).
  assert (KF : w_fields w2 = flag_column :: backs fs ns /\ w_records w2 = table) by (unfold tab in KT; injection KT as K1 K2; split; [rewrite K1|rewrite K2]; reflexivity).
  destruct KF as [K1 K2].
  assert (LR : length table = length rows) by (symmetry; apply (F2_length RR)).
  destruct (saveDbf_run fr today (backs fs ns) ns Date (backs_columns fs ns Cols) w2 bss) as [w3 [[] [E3 [D1 [D2 [D3 D4]]]]]].
  { rewrite K1. apply backs_flag; assumption. } { rewrite backs_length by assumption. exact H1. } { exact H2. } { rewrite K2, LR. exact H3. }
  { left. intros X. apply SM. apply length_zero_iff_nil. rewrite <- (backs_length fs ns Cols), X. reflexivity. }
  { rewrite K2. apply rows_written, B. }
  assert (SV : save fr today new_file new_file new_file w = (w3, Ok tt)).
  { unfold save. rewrite (mbind_run _ _ _ _ _ E1), (mbind_run _ _ _ _ _ E2). exact E3. }
  destruct (save_agrees fr today new_file new_file new_file (opened_editor auto t ss fs ns table) w (opened_agrees auto t ss fs ns table)) as [A R].
  rewrite SV in A, R. cbn [fst snd] in A, R. destruct (e_save _ _ _ _ _ _) as [e1 r1]. cbn [fst snd] in A, R. subst r1. destruct A as [A1 A2].
  exists e1, bss. split; [reflexivity|]. split; [exact B|].
  assert (X : forall {T} (p : writer -> T), (forall w, p (w_set_shapes [] w) = p w) -> p (e_w e1) = p w3).
  { intros T p Hp. rewrite <- (Hp (e_w e1)), <- (Hp w3), A2. reflexivity. }
  rewrite (X _ w_fields), (X _ w_records), (X _ w_shp), (X _ w_shx), (X _ w_dbf) by reflexivity.
  assert (D5 := D3). injection D5 as _ Q1 _ _ Q2 Q3 _.
  rewrite A1, Q1, Q2, Q3, D1, D2, S2, K2, F1, F2. repeat (split; [reflexivity|]). exact D4.
Qed.

(** ** Programs *)
Lemma kept_box ms t gs ss : Forall2 (read_back ms t) gs ss -> doubles_ok (flat_map vertices gs) -> Forall (fun g => vertices g <> []) gs -> gs <> [] ->
  exists b, box_of ss = Ok b /\ bounds (flat_map (kept t) gs) b.
Proof.
  intros RB DD NE NN.
  assert (REP : Forall2 represents (map (lengthened t) gs) (map (fun g => [kept t g]) gs)).
  { clear - DD. induction gs as [|g gs IH]; [constructor|]. cbn [flat_map] in DD. unfold doubles_ok in DD. apply Forall_app in DD. destruct DD as [D1 D2].
    constructor; [apply lengthened_rep, D1|apply IH, D2]. }
  assert (SX : Forall2 same_xy ss (map (lengthened t) gs)).
  { clear - RB. induction RB as [|g s gs ss B _ IH]; constructor; [eapply lengthened_same, B|exact IH]. }
  destruct (box_of_ok (map (lengthened t) gs)) as [b BX].
  { destruct gs; [congruence|discriminate]. }
  { apply Forall_forall. intros s I. apply in_map_iff in I. destruct I as [g [<- I]]. rewrite Forall_forall in NE.
    assert (Dg : doubles_ok (vertices g)) by (unfold doubles_ok in *; rewrite Forall_forall in *; intros v Iv; apply DD, in_flat_map; exists g; auto).
    pose proof (lengthened_rep t g Dg) as R. split; [|apply (rep_long _ _ R)]. apply (points_nonempty _ _ R). cbn. rewrite app_nil_r. apply kept_empty, NE, I. }
  destruct (box_of_inv _ _ _ REP BX) as [BB _]. exists b. split; [rewrite (box_same _ _ SX); exact BX|].
  replace (flat_map (kept t) gs) with (flat_map vertices (map (fun g => [kept t g]) gs)); [exact BB|].
  clear. induction gs as [|g gs IH]; [reflexivity|]. cbn [map flat_map]. rewrite IH. f_equal. cbn. apply app_nil_r.
Qed.
Lemma rewrites_all d ms t gs ss' ss cs : flat_type t -> Forall2 represents ss' gs -> Forall2 (read_back ms t) gs ss -> Forall2 (puts d t) ss' cs ->
  Forall2 (rewrites [] t) ss cs.
Proof.
  intros FT R. revert ss cs. induction R as [|s' g ss' gs R1 _ IH]; intros ss cs B P; inversion B as [|? s ? sr B1 B2]; subst; inversion P as [|? c ? cr P1 P2]; subst; constructor.
  - destruct (read_points _ _ _ _ B1) as [_ TY]. split; [exact TY|]. rewrite (put_default [] d s t TY); [exact (read_puts d ms t g s' s c FT R1 B1 P1)|].
    unfold flat_type in FT. cbn in FT. lia.
  - apply IH; assumption.
Qed.
Lemma dbl_zero_ok : is_dbl dbl_zero.
Proof. unfold is_dbl, dbl_zero. lia. Qed.
Lemma no_range_ok : length no_range = 2%nat /\ Forall is_dbl no_range.
Proof. split; [reflexivity|]. repeat constructor; apply dbl_zero_ok. Qed.

Lemma editor_program fr today given steps t fs ns rows w0 w1 : good t -> saved_program fr today given steps t fs ns rows w0 w1 ->
  rows <> [] -> Forall (row_storable fr fs ns) rows ->
  exists gs ss table cs b z m, Forall2 adds (shapes_of steps) gs /\ Forall2 (read_back (mixed (flat_map vertices gs)) t) gs ss /\
    Forall2 (row_returned fr fs ns) rows table /\ bounds (flat_map vertices gs) b /\
    fdata (w_shp w1) = shp_file t b z m cs /\ fdata (w_shx w1) = shx_file t b z m cs /\
    (forall auto fuel, (length ss < fuel)%nat ->
      open_editor fuel auto (Some (fdata (w_shp w1))) (Some (fdata (w_shx w1))) (Some (fdata (w_dbf w1))) = Some (Ok (Some (opened_editor auto t ss fs ns table)))) /\
    (flat_type t -> Forall (Forall (solid fr)) table -> forall today' auto, plausible today' ->
      exists e1 bss b', e_save fr today' new_file new_file new_file (opened_editor auto t ss fs ns table) = (e1, Ok tt) /\
        bounds (flat_map (kept t) gs) b' /\ ((point_type t -> Forall (fun g => (length (vertices g) <= 1)%nat) gs) -> b' = b) /\
        plain (e_items e1) = Some ss /\ w_fields (e_w e1) = backs fs ns /\ w_records (e_w e1) = table /\
        Forall2 (row_stored fr (backs fs ns) ns) table bss /\
        fdata (w_shp (e_w e1)) = shp_file t b' no_range no_range cs /\ fdata (w_shx (e_w e1)) = shx_file t b' no_range no_range cs /\
        fdata (w_dbf (e_w e1)) = dbf_file today' (backs fs ns) ns bss /\
        forall auto' fuel, (length ss < fuel)%nat ->
          open_editor fuel auto' (Some (fdata (w_shp (e_w e1)))) (Some (fdata (w_shx (e_w e1)))) (Some (fdata (w_dbf (e_w e1)))) =
            Some (Ok (Some (opened_editor auto' t ss fs ns table)))) /\
    (t = 23 \/ t = 25 -> forall auto, exists e1, e_saveShp new_file (opened_editor auto t ss fs ns table) = (e1, Err IndexError)).
Proof.
  intros G SP AN ST. destruct (stored_rows fr fs ns rows ST) as [bss B].
  destruct (program_files fr today given steps t fs ns rows w0 w1 bss G SP B)
    as [gs [cs [b [z [m [A [R [MX [BB [ZZ [MM [DD [NE [N [I1 [I2 [I3 [K1 [K2 [K3 [ss0 [REP [PUT BX0]]]]]]]]]]]]]]]]]]]]]]].
  destruct (all_shown _ m t gs cs MX G R) as [ss [RB SH]].
  pose proof (sp_table _ _ _ _ _ _ _ _ _ _ SP) as P. pose proof (sp_date _ _ _ _ _ _ _ _ _ _ SP) as Date.
  pose proof (tp_sizes _ _ _ _ _ _ P) as Cols. pose proof (tp_fits _ _ _ _ _ _ P) as Fits. pose proof (tp_some _ _ _ _ _ _ P) as SM.
  pose proof (proj2 (tp_columns _ _ _ _ _ _ P)) as ND. pose proof Fits as [F1 [F2 F3]].
  destruct (all_reads fr fs ns Cols rows bss B ST) as [table [T1 T2]].
  destruct (bounds_dbl _ _ DD BB) as [Lb Db].
  destruct (range_of_dbl _ _ (coord_dbl vz _ vz_in DD) ZZ) as [Lz Dz].
  destruct (range0_dbl _ _ (coord_dbl vm _ vm_in DD) MM) as [Lm Dm].
  assert (C : Forall2 (content t) gs cs) by (clear - R; induction R as [|g c gs cs [X _] _ IH]; constructor; assumption).
  assert (IW : Forall (fun c => i32 (words c)) cs) by (clear - R; induction R as [|g c gs cs [_ [_ [_ X]]] _ IH]; constructor; assumption).
  assert (NN : gs <> []).
  { intros ->. apply bounds_pos in BB. cbn in BB. lia. }
  exists gs, ss, table, cs, b, z, m. repeat (split; [assumption|]).
  split; [|split].
  - intros auto fuel FU. rewrite K1, K2, K3.
    apply (open_files fr today fs ns rows bss table t b z m cs ss auto fuel); try assumption. apply good_i32, G.
  - intros FT SO today' auto Date'.
    destruct (kept_box _ t gs ss RB DD NE NN) as [b' [BX' BB']].
    assert (DK : doubles_ok (flat_map (kept t) gs)).
    { unfold doubles_ok in *. rewrite Forall_forall in *. intros v Iv. apply in_flat_map in Iv. destruct Iv as [g [Ig Iv]].
      apply DD, in_flat_map. exists g. split; [exact Ig|eapply kept_in, Iv]. }
    destruct (bounds_dbl _ _ DK BB') as [Lb' Db'].
    pose proof (rewrites_all _ _ t gs ss0 ss cs FT REP RB PUT) as RW.
    destruct (resave fr today' _ t gs ss cs b' fs ns rows table auto Date' Cols SM ND Fits T1 SO FT RB C RW BX' N IW I1 I2 I3) as [e1 [bss' [ES [B' [E1 [E2 [E3 [E4 [E5 E6]]]]]]]]].
    exists e1, bss', b'. split; [exact ES|]. split; [exact BB'|]. split.
    { intros ONE. rewrite <- (box_same ss0 ss) in BX'; [congruence|]. clear - REP RB ONE. revert RB. generalize (mixed (flat_map vertices gs)) as ms. intros ms RB.
      revert ss RB. induction REP as [|s g l gs R _ IH]; intros ss RB; inversion RB as [|? s' ? l' B1 B2]; subst; constructor.
      - apply (read_same _ t g s s' R B1). intros PT. specialize (ONE PT). inversion ONE; assumption.
      - apply IH; [|exact B2]. intros PT. specialize (ONE PT). inversion ONE; assumption. }
    repeat (split; [assumption|]). intros auto' fuel FU. rewrite E4, E5, E6.
    destruct (rows_again fr fs ns rows table Cols T1 SO) as [ST' RT].
    pose proof (backs_columns fs ns Cols) as Cols'.
    destruct (all_reads fr (backs fs ns) ns Cols' table bss' B' ST') as [table' [U1 U2]].
    assert (table' = table) as -> by exact (rows_fun fr (backs fs ns) ns table table' table Cols' U1 RT).
    destruct no_range_ok as [Ln Dn].
    replace (opened_editor auto' t ss fs ns table) with (opened_editor auto' t ss (backs fs ns) ns table) by (unfold opened_editor, opened_writer; rewrite (backs_idem fs ns Cols); reflexivity).
    apply (open_files fr today' (backs fs ns) ns table bss' table t b' no_range no_range cs ss auto' fuel); try assumption.
    + intros X. apply SM. apply length_zero_iff_nil. rewrite <- (backs_length fs ns Cols), X. reflexivity.
    + intros ->. inversion T1; subst; congruence.
    + unfold table_fits. rewrite (backs_length fs ns Cols), <- (F2_length T1). exact Fits.
    + apply good_i32, G.
    + clear - SH RB FT. revert RB. generalize (mixed (flat_map vertices gs)) as ms. intros ms RB. revert gs RB. induction SH as [|c s cs ss S _ IH]; intros gs RB; inversion RB as [|g ? gr ? B1 B2]; subst; constructor.
      * destruct (read_points _ _ _ _ B1) as [_ TY]. exact (shows_free m no_range c s t FT S TY).
      * eapply IH, B2.
  - intros D auto. destruct (kept_box _ t gs ss RB DD NE NN) as [b' [BX' _]].
    set (w := w_set_shapes ss (opened_writer t fs ns table)).
    destruct (measured_save _ t w gs cs b' D eq_refl RB R NE BX' I1) as [wx EX].
    unfold e_saveShp, mbind, get. unfold opened_editor at 1. cbn [e_items]. rewrite plain_shapes. unfold as_writer. cbn [e_w opened_editor].
    fold w. rewrite EX. eexists. reflexivity.
Qed.
Lemma editor_no_rows fr today given steps t fs ns w0 w1 auto fuel : good t -> saved_program fr today given steps t fs ns [] w0 w1 ->
  (length (shapes_of steps) < fuel)%nat ->
  open_editor fuel auto (Some (fdata (w_shp w1))) (Some (fdata (w_shx w1))) (Some (fdata (w_dbf w1))) = Some (Err StructError).
Proof.
  intros G SP FU.
  destruct (program_files fr today given steps t fs ns [] w0 w1 [] G SP (Forall2_nil _))
    as [gs [cs [b [z [m [A [R [MX [BB [ZZ [MM [DD [NE [N [I1 [I2 [I3 [K1 [K2 [K3 _]]]]]]]]]]]]]]]]]]]].
  destruct (all_shown _ m t gs cs MX G R) as [ss [RB SH]].
  pose proof (sp_table _ _ _ _ _ _ _ _ _ _ SP) as P. pose proof (sp_date _ _ _ _ _ _ _ _ _ _ SP) as Date.
  destruct (bounds_dbl _ _ DD BB) as [Lb Db].
  destruct (range_of_dbl _ _ (coord_dbl vz _ vz_in DD) ZZ) as [Lz Dz].
  destruct (range0_dbl _ _ (coord_dbl vm _ vm_in DD) MM) as [Lm Dm].
  rewrite K1, K2, K3.
  apply (open_no_rows today fs ns t b z m cs ss auto fuel); try assumption.
  - exact (tp_sizes _ _ _ _ _ _ P).
  - exact (tp_some _ _ _ _ _ _ P).
  - exact (tp_fits _ _ _ _ _ _ P).
  - apply good_i32, G.
  - rewrite <- (F2_length RB), <- (F2_length A). exact FU.
Qed.
(** ** A blank number cannot be saved *)
Lemma editor_blank fr today auto t ss fs ns table f n v bs : plausible today -> Forall2 column fs ns -> fs <> [] ->
  Forall (fun f => ~ named_deletion f) fs -> table_fits fs ns table -> Forall (row_proper fr (backs fs ns) ns) table ->
  In v table -> In (f, n, CBytes bs) (cells_of fs ns v) -> numeric f -> Z.of_nat (length bs) = n ->
  exists e1 x, e_saveDbf fr today new_file (opened_editor auto t ss fs ns table) = (e1, Err x).
Proof.
  intros Date Cols SM ND [H1 [H2 H3]] PR IV IC NU L. unfold e_saveDbf, zoom. cbn [e_w opened_editor].
  set (w := opened_writer t fs ns table).
  destruct (saveDbf_outcome fr today (backs fs ns) ns Date (backs_columns fs ns Cols) w) as [[w1 [bss [E [W _]]]]|[w1 [e [E _]]]].
  { apply backs_flag; assumption. }
  { rewrite backs_length by assumption. exact H1. } { exact H2. } { exact H3. }
  { intros X. apply SM. apply length_zero_iff_nil. rewrite <- (backs_length fs ns Cols), X. reflexivity. } { exact PR. }
  - exfalso. change (w_records w) with table in W.
    assert (IB : In (back f n, n, CBytes bs) (cells_of (backs fs ns) ns v)).
    { clear - Cols IC. unfold cells_of, backs in *. revert v IC. induction Cols as [|g k fs ns C _ IH]; intros v IC; [contradiction|].
      destruct v as [|y v]; [contradiction|]. cbn [combine map fst snd] in *. destruct IC as [Q|IC]; [left|right; apply IH, IC]. injection Q as -> -> ->. reflexivity. }
    assert (X : exists bs', written fr (back f n) n (CBytes bs) bs').
    { clear - W IV IB. induction W as [|y b vs bs' [_ H] _ IH]; [contradiction|]. destruct IV as [->|IV]; [|apply IH, IV].
      clear - H IB. induction H as [|x b' l bl H _ IH]; [contradiction|]. destruct IB as [->|IC]; [exists b'; exact H|apply IH, IC]. }
    destruct X as [bs' [s [t' [[_ SHW] [C _]]]]]. subst s. destruct C as [[_ [LE _]]|[[LO _]|[NN _]]]; [|destruct NU as [A|A], LO as [B|B]; cbn in B; rewrite A in B; discriminate|contradiction].
    rewrite !app_length in LE. change (length (text "b'")) with 2%nat in LE. change (length (text "'")) with 1%nat in LE. lia.
  - rewrite E. do 2 eexists. reflexivity.
Qed.
Lemma blank_width fr fs ns : Forall2 column fs ns -> forall u v f n bs, row_returned fr fs ns u v -> In (f, n, CBytes bs) (cells_of fs ns v) -> numeric f ->
  Z.of_nat (length bs) = n.
Proof.
  intros Cols u v f n bs [L R]. unfold cells_of in *. revert u v L R. induction Cols as [|g k fs ns C _ IH]; intros [|y u] v L R I; cbn in L; try discriminate; [contradiction|].
  cbn [combine] in R. inversion R as [|? c ? cs R1 R2]; subst. cbn [combine] in I. destruct I as [Q|I]; [|intros NU; exact (IH u cs ltac:(lia) R2 I NU)].
  injection Q as -> -> ->. cbn [fst snd] in R1. intros NU. destruct R1 as [bs' [S [[_ E]|[[_ [_ [_ [z [_ E]]]]]|[[_ [_ [_ [s [_ [_ E]]]]]]|[_ [_ [t [_ E]]]]]]]]]; try discriminate.
  injection E as ->. destruct S as [s [_ [_ [[_ [LE ->]]|[[LO _]|[NN _]]]]]]; [|destruct NU as [A|A], LO as [B|B]; rewrite A in B; discriminate|contradiction].
  unfold spaces. rewrite app_length, repeat_length. lia.
Qed.
Lemma plain_items l : forall ss, plain l = Some ss <-> Forall2 item_shape l ss.
Proof.
  induction l as [|x l IH]; intros ss.
  - cbn. split; [intros E; injection E as <-; constructor|intros H; inversion H; reflexivity].
  - assert (K : forall s, option_map (cons s) (plain l) = Some ss <-> exists r, ss = s :: r /\ Forall2 item_shape l r).
    { intros s. destruct (plain l) as [r|] eqn:E; cbn.
      - split; [intros Q; injection Q as <-; exists r; split; [reflexivity|apply IH; reflexivity]|].
        intros [r' [-> F]]. apply IH in F. congruence.
      - split; [discriminate|]. intros [r' [_ F]]. apply IH in F. discriminate. }
    assert (J : forall s, (forall s', item_shape x s' <-> s' = s) -> (exists r, ss = s :: r /\ Forall2 item_shape l r) <-> Forall2 item_shape (x :: l) ss).
    { intros s HS. split.
      - intros [r [-> F]]. constructor; [apply HS; reflexivity|exact F].
      - intros F. inversion F as [|? s' ? r A B]; subst. apply HS in A. subst s'. exists r. auto. }
    destruct x as [s|t a b [z|] [m|]|v]; cbn [plain]; try (rewrite K; apply J; intros s'; cbn; reflexivity);
      (split; [discriminate|intros F; inversion F as [|? ? ? ? A B]; contradiction]).
Qed.
Lemma same_agrees e w : same_state e w <-> agrees e w.
Proof.
  unfold same_state, agrees. rewrite plain_items. destruct e as [a l [x1 x2 x3 x4 x5 x6 x7 x8 x9 x10]], w as [y1 y2 y3 y4 y5 y6 y7 y8 y9 y10]. cbn. split.
  - intros [F [-> [-> [-> [-> [-> [-> [-> [-> ->]]]]]]]]]. split; [exact F|reflexivity].
  - intros [F E]. injection E as -> -> -> -> -> -> -> -> ->. repeat split. exact F.
Qed.
Lemma py_get_within {A} (l : list A) i : - Z.of_nat (length l) <= i < Z.of_nat (length l) -> exists v, py_get l i = Ok v.
Proof.
  intros R. set (k := Z.to_nat (if i <? 0 then i + Z.of_nat (length l) else i)).
  assert (K : (k < length l)%nat) by (unfold k; destruct (Z.ltb_spec i 0); lia).
  destruct (nth_error l k) as [v|] eqn:E; [|apply nth_error_None in E; lia]. destruct (nth_error_split l k E) as [a [b [-> L]]].
  exists v. apply py_get_at. unfold k in L. clearbody k. clear K E k. rewrite app_length in *. cbn [length] in *. destruct (Z.ltb_spec i 0); [right|left]; lia.
Qed.
Lemma do_edit_grows s e : grows e (fst (do_edit s e)).
Proof.
  assert (I : forall m, grows e (fst (inherited m e))) by (intros m; unfold inherited; destruct (m _) as [w r]; eexists; reflexivity).
  destruct s as [[x y z m|parts t|parts t|]|f|a]; try apply I. cbn [do_edit].
  rewrite (edit_point_plain x y (Some z) (Some m) e None None None (or_introl eq_refl) (or_introl eq_refl) (or_introl (or_introl eq_refl))).
  unfold when. destruct (e_auto e); [|eexists; reflexivity].
  destruct (balance_grows (with_point x y (Some z) (Some m) e)) as [more G]. exists ([EPoint (w_type (e_w e)) x y (Some z) (Some m)] ++ more). rewrite G. unfold with_point. cbn [e_items e_set_items].
  rewrite <- app_assoc. reflexivity.
Qed.
Lemma edits_grow steps : forall e, grows e (fst (for_each do_edit steps e)).
Proof.
  induction steps as [|s steps IH]; intros e; [apply grows_refl|]. cbn [for_each]. unfold mbind. destruct (do_edit_grows s e) as [a A].
  destruct (do_edit s e) as [e1 [[]|x]]; cbn [fst] in *; [|exists a; exact A]. destruct (IH e1) as [b B]. exists (a ++ b). rewrite B, A, app_assoc. reflexivity.
Qed.
Lemma stuck x y z m e e1 r steps : edit_point x y z m None None None None e = (e1, r) -> z = None \/ m = None ->
  plain (e_items (fst (for_each do_edit steps e1))) = None.
Proof.
  intros R N. rewrite (edit_point_plain x y z m e None None None (or_introl eq_refl) (or_introl eq_refl) (or_introl (or_introl eq_refl))) in R.
  assert (G : exists more, e_items e1 = (e_items e ++ [EPoint (w_type (e_w e)) x y z m]) ++ more).
  { unfold when in R. destruct (e_auto e); [destruct (balance_grows (with_point x y z m e)) as [more G]; rewrite R in G; exists more; exact G|].
    injection R as <- _. exists []. rewrite app_nil_r. reflexivity. }
  destruct G as [a A]. destruct (edits_grow steps e1) as [b B]. rewrite B, A, !plain_app.
  replace (plain [EPoint (w_type (e_w e)) x y z m]) with (@None (list shape)) by (destruct z, m, N; try discriminate; reflexivity).
  destruct (plain (e_items e)); reflexivity.
Qed.
