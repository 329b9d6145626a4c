(** Reading an attribute table: proofs. *)
From Verif Require Import Py Text StrModel StrProofs Utf8Model Utf8Proofs VlvModel VlvProofs ShpFile ShpWriterModel ShpReaderModel ShpLib ShpSpec ShpTableSpec ShpWriterProofs ShpSave ShpRead ShpRound ShpApi ShpDbfWrite ShpFloatText.
Open Scope Z_scope.
Open Scope m_scope.

(** ** White space *)
Lemma byte_space_spec c : byte_space c = true <-> blank_byte c.
Proof. unfold byte_space, blank_byte. rewrite orb_true_iff, andb_true_iff, !Z.leb_le, Z.eqb_eq. tauto. Qed.
Lemma lstrip_spec p s : exists a, s = a ++ lstrip_by p s /\ Forall (fun c => p c = true) a /\
  forall c r, lstrip_by p s = c :: r -> p c = false.
Proof.
  induction s as [|x s [a [E [A H]]]]; cbn.
  - exists []. split; [reflexivity|]. split; [constructor|]. discriminate.
  - destruct (p x) eqn:P.
    + exists (x :: a). split; [cbn; congruence|]. split; [constructor; assumption|exact H].
    + exists []. split; [reflexivity|]. split; [constructor|]. intros c r H1. injection H1 as -> _. exact P.
Qed.
Lemma rstrip_spec p s : exists b, s = rstrip_by p s ++ b /\ Forall (fun c => p c = true) b /\
  forall c r, rstrip_by p s = r ++ [c] -> p c = false.
Proof.
  induction s as [|x s [b [E [B H]]]].
  - exists []. split; [reflexivity|]. split; [constructor|]. intros c [|? ?]; discriminate.
  - cbn [rstrip_by]. destruct (rstrip_by p s) as [|y t] eqn:ER.
    + destruct (p x) eqn:P.
      * exists (x :: b). cbn [app] in *. split; [congruence|]. split; [constructor; assumption|]. intros c [|? ?]; discriminate.
      * exists b. cbn [app] in *. split; [congruence|]. split; [exact B|]. intros c [|z r] H1.
        -- injection H1 as <-. exact P.
        -- injection H1 as _ H1. destruct r; discriminate.
    + exists b. split; [cbn [app] in *; congruence|]. split; [exact B|]. intros c [|z r] H1; [discriminate|].
      apply (H c r). injection H1 as _ H1. exact H1.
Qed.
Lemma both_strip p s : let t := rstrip_by p (lstrip_by p s) in
  exists a b, s = a ++ t ++ b /\ Forall (fun c => p c = true) a /\ Forall (fun c => p c = true) b /\
    (forall c r, t = c :: r -> p c = false) /\ (forall c r, t = r ++ [c] -> p c = false).
Proof.
  intros t. destruct (lstrip_spec p s) as [a [E1 [A H1]]]. destruct (rstrip_spec p (lstrip_by p s)) as [b [E2 [B H2]]].
  fold t in E2, H2. exists a, b. split; [congruence|]. split; [exact A|]. split; [exact B|]. split; [|exact H2].
  intros c r T. rewrite T in E2. apply (H1 c (r ++ b)). exact E2.
Qed.
Lemma bstrip_nil s : bstrip s = [] <-> blank s.
Proof.
  unfold bstrip. destruct (both_strip byte_space s) as [a [b [E [A [B [H1 H2]]]]]]. set (t := rstrip_by _ _) in *. clearbody t. split.
  - intros ->. rewrite E. apply Forall_app. split; [|apply Forall_app; split; [constructor|]];
      [eapply Forall_impl; [|exact A]|eapply Forall_impl; [|exact B]]; intros c; apply byte_space_spec.
  - intros K. destruct t as [|c t]; [reflexivity|]. specialize (H1 c t eq_refl).
    rewrite E in K. apply Forall_app in K. destruct K as [_ K]. apply Forall_app in K. destruct K as [K _]. inversion K as [|? ? K1 K2]; subst.
    apply byte_space_spec in K1. congruence.
Qed.
Lemma is_space_ascii c : 0 <= c < 128 -> (is_space c = true <-> white c).
Proof.
  intros H. unfold is_space, white, blank_byte.
  rewrite ?orb_true_iff, ?andb_true_iff, ?Z.leb_le, ?Z.eqb_eq. lia.
Qed.
Lemma strip_stripped s : ascii s -> stripped s (strip s).
Proof.
  intros A. unfold strip. destruct (both_strip is_space s) as [a [b [E [HA [HB [H1 H2]]]]]]. set (t := rstrip_by _ _) in *. clearbody t.
  subst s. apply Forall_app in A. destruct A as [A1 A2]. apply Forall_app in A2. destruct A2 as [A2 A3].
  exists a, b. split; [reflexivity|].
  assert (W : forall l, ascii l -> Forall (fun c => is_space c = true) l -> Forall white l).
  { intros l L M. apply Forall_forall. intros c I. unfold ascii in L. rewrite Forall_forall in L, M. apply is_space_ascii; [apply (L c I)|apply (M c I)]. }
  split; [apply W; assumption|]. split; [apply W; assumption|].
  split.
  - intros c r -> K. inversion A2; subst. apply is_space_ascii in K; [|assumption]. rewrite (H1 c r eq_refl) in K. discriminate.
  - intros c r -> K. apply Forall_app in A2. destruct A2 as [_ A2]. inversion A2; subst. apply is_space_ascii in K; [|assumption]. rewrite (H2 c r eq_refl) in K. discriminate.
Qed.
(** Stripping a text without blanks between blanks *)
Lemma bstrip_inner a s : blank a -> Forall (fun c => ~ blank_byte c) s -> bstrip (a ++ s) = s.
Proof.
  intros A H. unfold bstrip.
  assert (E : lstrip_by byte_space (a ++ s) = s).
  { induction A as [|c a Hc A IH].
    - cbn. apply lstrip_none. destruct H as [|c s Hc H]; [exact I|]. destruct (byte_space c) eqn:E; [apply byte_space_spec in E; contradiction|reflexivity].
    - cbn. rewrite (proj2 (byte_space_spec c) Hc). exact IH. }
  rewrite E. apply rstrip_none. eapply Forall_impl; [|exact H]. cbn beta. intros c Hc.
  destruct (byte_space c) eqn:K; [apply byte_space_spec in K; contradiction|reflexivity].
Qed.
Lemma blank_spaces n : blank (spaces n).
Proof. apply Forall_forall. intros c H. apply repeat_spec in H. right. exact H. Qed.

(** ** A cell *)
Section Cells.
Variable fr : list Z -> list Z.
Lemma shown_fun v s s' : shown fr v s -> shown fr v s' -> s = s'.
Proof. intros A B. apply shown_str in A, B. congruence. Qed.
Lemma filter_all (l : list Z) : Forall (fun c => c <> 0) l -> filter (fun c => negb (c =? 0)) l = l.
Proof. induction 1 as [|c l Hc H IH]; [reflexivity|]. cbn. destruct (Z.eqb_spec c 0); [contradiction|]. cbn. rewrite IH. reflexivity. Qed.
Lemma int_bytes_str z : int_bytes (str_int z) = Ok z.
Proof.
  assert (N : Forall (fun c => ~ blank_byte c) (str_int z)).
  { eapply Forall_impl; [|apply (proj1 (str_int_chars z))]. cbn beta. unfold blank_byte. intros c H. lia. }
  pose proof (py_int_str z [] (Forall_nil _)) as P. rewrite app_nil_r in P. unfold py_int in P.
  pose proof (strip_str_int z [] (Forall_nil _)) as S. rewrite app_nil_r in S. rewrite S in P.
  unfold int_bytes. pose proof (bstrip_inner [] (str_int z) (Forall_nil _) N) as B. cbn [app] in B. rewrite B. exact P.
Qed.
Lemma text_N : text "N" = [78]. Proof. reflexivity. Qed.
Lemma read_cell_ok f n v bs : column f n -> stored fr f n v bs -> storable fr f n v ->
  exists c, returned fr f n v c /\ read_cell (back f n) bs = Ok c.
Proof.
  intros C ST [_ [N0 N1]]. pose proof (stored_ascii fr f n v bs ST) as A.
  unfold read_cell. destruct (bstrip bs) as [|b0 b1] eqn:EB.
  - exists (CBytes bs). split; [|reflexivity]. exists bs. split; [exact ST|]. left. split; [apply bstrip_nil, EB|reflexivity].
  - assert (NB : ~ blank bs) by (intros K; apply bstrip_nil in K; congruence). clear b0 b1 EB.
    cbn [back fd_type fd_dec]. rewrite <- text_N. destruct (zlist_eqb (fd_type f) (text "N")) eqn:ET.
    + apply zlist_eqb_eq in ET.
      assert (SB : exists s, shown fr v s /\ bs = spaces (n - Z.of_nat (length s)) ++ s).
      { destruct ST as [s [SH [_ [[_ [_ E]]|[[[L|L] _]|[NN _]]]]]]; [exists s; auto|rewrite ET in L; discriminate|rewrite ET in L; discriminate|].
        exfalso. apply NN. left. exact ET. }
      destruct SB as [s [SH E]].
      assert (NE : s <> []).
      { intros ->. apply NB. rewrite E, app_nil_r. apply blank_spaces. }
      assert (K : (fd_dec f = 0 /\ exists z, v = CInt z) \/ (fd_dec f <> 0 /\ float_text s)).
      { destruct (Z.eq_dec (fd_dec f) 0) as [D|D].
        - left. split; [exact D|]. destruct (N0 ET D) as [Z0|Z0]; [exact Z0|]. destruct NE. apply (shown_fun v); assumption.
        - right. split; [exact D|]. destruct (N1 ET D) as [s' [S1 S2]]. rewrite <- (shown_fun v s s' SH S1) in S2. destruct S2 as [S2|S2]; [contradiction|exact S2]. }
      assert (CL : Forall (fun x => x <> 0 /\ ~ blank_byte x) s).
      { destruct K as [[_ [z ->]]|[_ K]]; [|apply float_clean, K]. cbn in SH. subst s.
        eapply Forall_impl; [|apply (proj1 (str_int_chars z))]. cbn beta. unfold blank_byte. intros c H. lia. }
      assert (B1 : bstrip (filter (fun c => negb (c =? 0)) bs) = s).
      { rewrite filter_all.
        - rewrite E. apply bstrip_inner; [apply blank_spaces|]. eapply Forall_impl; [|exact CL]. cbn beta. tauto.
        - rewrite E. apply Forall_app. split; [|eapply Forall_impl; [|exact CL]; cbn beta; tauto].
          apply Forall_forall. intros c H. apply repeat_spec in H. lia. }
      rewrite B1. destruct s as [|c0 s0] eqn:ES; [contradiction|]. rewrite <- ES in *.
      destruct K as [[D [z ->]]|[D FT]].
      * rewrite D. cbn [Z.eqb]. cbn in SH. rewrite SH, int_bytes_str. cbn [bind]. exists (CInt z). split; [|reflexivity].
        exists bs. split; [exact ST|]. right. left. split; [exact NB|]. split; [exact ET|]. split; [exact D|]. exists z. auto.
      * destruct (Z.eqb_spec (fd_dec f) 0); [contradiction|]. rewrite (proj2 (float_ok_iff s) FT). exists (CFloat s). split; [|reflexivity].
        exists bs. split; [exact ST|]. right. right. left. split; [exact NB|]. split; [exact ET|]. split; [exact D|]. exists s. auto.
    + apply zlist_eqb_neq in ET. rewrite (ascii_decode bs A). cbn [bind]. exists (CStr (strip bs)). split; [|reflexivity].
      exists bs. split; [exact ST|]. right. right. right. split; [exact NB|]. split; [exact ET|]. exists (strip bs). split; [apply strip_stripped, A|reflexivity].
Qed.
End Cells.

(** ** The description of a column *)
Lemma slice_from {A} (l : list A) (a n : nat) : py_slice l (Z.of_nat a) (Z.of_nat (a + n)) = firstn n (skipn a l).
Proof.
  unfold py_slice, slice_clamp. destruct (Z.ltb_spec (Z.of_nat a) 0); [lia|]. destruct (Z.ltb_spec (Z.of_nat (a + n)) 0); [lia|].
  destruct (Z.ltb_spec (Z.min (Z.of_nat a) (Z.of_nat (length l))) (Z.min (Z.of_nat (a + n)) (Z.of_nat (length l)))) as [L|L].
  - replace (Z.to_nat (Z.min (Z.of_nat a) (Z.of_nat (length l)))) with a by lia.
    destruct (Nat.le_gt_cases (a + n) (length l)) as [M|M].
    + f_equal. lia.
    + rewrite !firstn_all2 by (rewrite skipn_length; lia). reflexivity.
  - destruct n as [|n]; [reflexivity|]. rewrite skipn_all2 by lia. reflexivity.
Qed.
Lemma find_nul_none u : Forall (fun c => c <> 0) u -> find_nul u = None.
Proof. induction 1 as [|c u Hc H IH]; [reflexivity|]. cbn. destruct (Z.eqb_spec c 0); [contradiction|]. rewrite IH. reflexivity. Qed.
Lemma find_nul_some u v : Forall (fun c => c <> 0) u -> find_nul (u ++ 0 :: v) = Some (length u).
Proof. induction 1 as [|c u Hc H IH]; [reflexivity|]. cbn. destruct (Z.eqb_spec c 0); [contradiction|]. rewrite IH. reflexivity. Qed.
Lemma name_cut u : Forall (fun c => c <> 0) u -> let nm := firstn 11 (u ++ repeat 0 11) in
  match find_nul nm with Some i => firstn i nm | None => removelast nm end = firstn 10 u.
Proof.
  intros H nm. destruct (Nat.le_gt_cases (length u) 10) as [L|L].
  - assert (E : nm = u ++ 0 :: repeat 0 (10 - length u)).
    { unfold nm. rewrite firstn_app, (firstn_all2 u) by lia. f_equal. change (0 :: repeat 0 (10 - length u)) with (repeat 0 (S (10 - length u))). replace (S (10 - length u)) with (11 - length u)%nat by lia.
      replace 11%nat with ((11 - length u) + length u)%nat at 2 by lia.
      rewrite repeat_app, firstn_app, repeat_length, Nat.sub_diag, firstn_O, app_nil_r. rewrite firstn_all2 by (rewrite repeat_length; lia). reflexivity. }
    rewrite E, find_nul_some by exact H. rewrite firstn_app, firstn_all, Nat.sub_diag, firstn_O, app_nil_r, firstn_all2 by lia. reflexivity.
  - assert (E : nm = firstn 11 u).
    { unfold nm. rewrite firstn_app. replace (11 - length u)%nat with 0%nat by lia. rewrite firstn_O, app_nil_r. reflexivity. }
    rewrite E, find_nul_none by (apply firstn_Forall, H). apply removelast_firstn. lia.
Qed.
Lemma unpack1 v : 0 <= v < 256 -> unpack_le 1 [v] = Ok v.
Proof. intros H. unfold unpack_le, unpack_be. cbn. reflexivity. Qed.
Lemma unpack_field_ok f n : column f n -> unpack_field (descriptor f n) = Ok (back f n).
Proof.
  intros [P [[c [T C]] [S [N D]]]]. unfold unpack_field, descriptor. rewrite T.
  pose proof (under_chars _ P) as U. fold (under (fd_name f)). set (u := under (fd_name f)) in *.
  assert (NZ : Forall (fun c => c <> 0) u) by (eapply Forall_impl; [|exact U]; cbn beta; intros; lia).
  pose proof (name_cut u NZ) as NC. cbv zeta in NC. set (nm := firstn 11 (u ++ repeat 0 11)) in *.
  assert (L : length nm = 11%nat) by (unfold nm; rewrite firstn_length, app_length, repeat_length; lia).
  clearbody nm. set (r := [c] ++ repeat 0 4 ++ [n; fd_dec f] ++ repeat 0 14).
  assert (LB : length (nm ++ r) = 32%nat) by (rewrite app_length, L; reflexivity). rewrite LB. cbn [Z.of_nat Z.eqb Pos.of_succ_nat Pos.succ Pos.eqb].
  assert (K : forall j, skipn (11 + j) (nm ++ r) = skipn j r).
  { intros j. rewrite skipn_plus. rewrite <- L, skipn_app, skipn_all, Nat.sub_diag. reflexivity. }
  rewrite (py_slice_to _ 11) by lia.
  assert (E1 : firstn (Z.to_nat 11) (nm ++ r) = nm).
  { change (Z.to_nat 11) with 11%nat. rewrite <- L, firstn_app, firstn_all, Nat.sub_diag, firstn_O, app_nil_r. reflexivity. }
  rewrite E1, NC.
  assert (A10 : Forall (fun c => 33 <= c < 127) (firstn 10 u)) by (apply firstn_Forall, U).
  rewrite ascii_decode by (eapply Forall_impl; [|exact A10]; cbn beta; intros; lia). cbn [bind].
  rewrite (slice_from (nm ++ r) 11 1 : py_slice (nm ++ r) 11 12 = _), (slice_from (nm ++ r) 16 1 : py_slice (nm ++ r) 16 17 = _),
    (slice_from (nm ++ r) 17 1 : py_slice (nm ++ r) 17 18 = _).
  rewrite (K 0%nat : skipn 11 (nm ++ r) = _), (K 5%nat : skipn 16 (nm ++ r) = _), (K 6%nat : skipn 17 (nm ++ r) = _).
  unfold r. cbn [skipn firstn app repeat]. rewrite ascii_decode by (constructor; [exact C|constructor]). cbn [bind].
  rewrite !unpack1 by assumption. cbn [bind]. unfold back. rewrite T. do 2 f_equal.
  apply lstrip_none. change (short_name (fd_name f)) with (firstn 10 u). destruct (firstn 10 u) as [|x l]; [exact I|].
  inversion A10 as [|? ? X Y]; subst. destruct (is_space x) eqn:ES; [|reflexivity].
  apply is_space_ascii in ES; [|lia]. unfold white, blank_byte in ES. lia.
Qed.
Lemma back_not_flag f n : zlist_eqb (fd_name (back f n)) flag_name = false.
Proof.
  apply zlist_eqb_neq. intros E. assert (L : length (fd_name (back f n)) = 12%nat) by (rewrite E; reflexivity).
  cbn [back fd_name] in L. unfold short_name in L. rewrite firstn_length in L. lia.
Qed.

(** ** The file *)
Lemma runs_dbf {A} (m : M file A) r f f' a (Q : reader -> A -> Prop) : r_dbf r = Some f -> m f = (f', Ok a) ->
  (forall r', r_dbf r' = Some f' -> r_shp r' = r_shp r -> r_shx r' = r_shx r -> r_offsets r' = r_offsets r -> info r' = info r ->
     Q r' a) -> runs (in_dbf m) r Q.
Proof.
  intros E M H. exists (r_set_dbf (Some f') r), a. unfold in_dbf, with_file. rewrite E, M. split; [reflexivity|]. apply H; reflexivity.
Qed.
Lemma row_length fs ns : Forall2 column fs ns -> forall fr v bss, row_stored fr fs ns v bss ->
  Forall2 (fun n bs => Z.of_nat (length bs) = n) ns bss.
Proof.
  intros C fr. induction C as [|f n fs ns C0 C IH]; intros v bss [L H].
  - cbn in H. inversion H. constructor.
  - destruct v as [|x v]; [discriminate|]. cbn [combine] in H. inversion H as [|? bs ? bss' H1 H2]; subst. cbn [fst snd] in H1.
    constructor; [apply (stored_length fr f n x); [apply C0|exact H1]|]. apply (IH v). split; [cbn in L; lia|exact H2].
Qed.
Lemma pieces_ok ns bss : Forall2 (fun n bs => Z.of_nat (length bs) = n) ns bss -> forall tl,
  pieces ns (concat bss ++ tl) = bss /\ Z.of_nat (length (concat bss)) = zsum ns.
Proof.
  induction 1 as [|n bs ns bss E H IH]; intros tl; [split; reflexivity|]. destruct (IH tl) as [I1 I2]. cbn [pieces concat].
  replace (Z.to_nat n) with (length bs) by lia. rewrite <- app_assoc, firstn_app, skipn_app, firstn_all, skipn_all, Nat.sub_diag, firstn_O, app_nil_r.
  cbn [skipn app]. rewrite I1. split; [reflexivity|]. rewrite app_length, zsum_cons. lia.
Qed.
Section Open.
Variable fr : list Z -> list Z.
Variables (today : Z * Z * Z) (fs : list field) (ns : list Z).
Hypothesis Date : plausible today.
Hypothesis Cols : Forall2 column fs ns.
Variables (vals : list (list cell)) (rows : list (list (list Z))).
Hypothesis Rows : Forall2 (row_stored fr fs ns) vals rows.
Variable marks : list Z.
Hypothesis Marks : length marks = length rows.
Hypothesis Fits1 : 33 + 32 * Z.of_nat (length fs) < 65536.
Hypothesis Fits2 : 1 + zsum ns < 65536.
Hypothesis Fits3 : Z.of_nat (length vals) < 4294967296.
Definition heads : list field := flag_field :: map (fun fn => back (fst fn) (snd fn)) (combine fs ns).
Definition head_len : Z := 33 + 32 * Z.of_nat (length fs).
Definition row_len : Z := 1 + zsum ns.
Definition mrow_bytes (mr : Z * list (list Z)) : list Z := fst mr :: concat (snd mr).
Definition mrows := combine marks rows.
Definition the_file : list Z := marked_file today fs ns marks rows.
Record table_open (r : reader) : Prop := {
  to_dbf : exists f, r_dbf r = Some f /\ fdata f = the_file;
  to_count : r_numRecords r = Some (Z.of_nat (length rows));
  to_fields : r_fields r = heads;
  to_hdr : r_hdr r = head_len
}.
(** What the operations on the table leave alone *)
Definition others (r : reader) := (r_shp r, r_shx r, r_offsets r, r_type r, r_bbox r, r_elevation r, r_measure r).
Lemma table_frame r r' : table_open r -> (exists f, r_dbf r' = Some f /\ fdata f = the_file) -> info r' = info r -> table_open r'.
Proof. intros [A B C D] E I. unfold info in I. constructor; [exact E|congruence|congruence|congruence]. Qed.
Lemma head_split : the_file = dbf_head today fs ns (length rows) ++ columns_bytes fs ns ++ [13] ++ flat_map mrow_bytes mrows.
Proof. unfold the_file, marked_file, dbf_start, dbf_head, columns_bytes, mrow_bytes, mrows. destruct today as [[y mo] d]. rewrite <- !app_assoc. reflexivity. Qed.
Lemma dbf_head_ok n : n = length vals -> unpack_dbf_head (dbf_head today fs ns n) = Ok (Z.of_nat n, head_len) /\ length (dbf_head today fs ns n) = 32%nat.
Proof.
  intros ->. unfold dbf_head, head_len. destruct today as [[y mo] d]. set (h := 33 + _) in *. set (k := Z.of_nat (length vals)) in *. split; [|reflexivity].
  unfold unpack_dbf_head. cbn [length app le32 le16 repeat Z.of_nat Z.eqb Pos.of_succ_nat Pos.succ Pos.eqb].
  assert (E1 : unpack_le 4 (le32 k) = Ok k) by (apply (unpack_be_bytes 4 k); unfold k in *; cbn; lia).
  assert (E2 : unpack_le 2 (le16 h) = Ok h) by (apply (unpack_be_bytes 2 h); unfold h in *; cbn; lia).
  match goal with |- context [py_slice ?l 4 8] => change (py_slice l 4 8) with (le32 k); change (py_slice l 8 10) with (le16 h) end.
  rewrite E1. cbn [bind]. rewrite E2. reflexivity.
Qed.
Lemma columns_length : length (columns_bytes fs ns) = (32 * length fs)%nat /\ length ns = length fs.
Proof.
  unfold columns_bytes. generalize Cols. generalize ns as ns'. generalize fs as fs'. clear. intros fs' ns' C0.
  induction C0 as [|f n l k C H [IH1 IH2]]; [split; reflexivity|]. cbn [combine map concat length fst snd]. split; [|lia].
  rewrite app_length, IH1. enough (length (descriptor f n) = 32%nat) by lia.
  destruct C as [_ [[c [T _]] _]]. unfold descriptor. rewrite T. rewrite !app_length, firstn_length, app_length, !repeat_length. cbn [length]. lia.
Qed.
Lemma first_length : length (dbf_head today fs ns (length rows) ++ columns_bytes fs ns ++ [13]) = Z.to_nat head_len.
Proof.
  rewrite !app_length, (proj1 columns_length), <- (F2_length Rows), (proj2 (dbf_head_ok _ eq_refl)). unfold head_len. cbn [length]. lia.
Qed.
(** Reading the columns one by one *)
Lemma fields_loop l k : Forall2 column l k -> forall j r f tl, r_dbf r = Some f -> rest f = columns_bytes l k ++ tl ->
  runs (for_each (fun _ : nat =>
    f <~ in_dbf (f_get 32 unpack_field) ;;
    modify (fun r => r_set_fields (r_fields r ++ [f]) r)) (seq j (length l))) r
   (fun r' _ => (exists f', r_dbf r' = Some f' /\ fdata f' = fdata f /\ rest f' = tl) /\ others r' = others r /\
     r_numRecords r' = r_numRecords r /\ r_hdr r' = r_hdr r /\
     r_fields r' = r_fields r ++ map (fun fn => back (fst fn) (snd fn)) (combine l k)).
Proof.
  induction 1 as [|g n l k C H IH]; intros j r f tl E R.
  - apply runs_ret. split; [exists f; auto|]. cbn. rewrite app_nil_r. auto.
  - cbn [length seq for_each]. unfold columns_bytes in R. cbn [combine map concat fst snd] in R. rewrite <- app_assoc in R.
    apply runs_bind. apply runs_bind.
    assert (LD : Z.of_nat (length (descriptor g n)) = 32).
    { destruct C as [_ [[c [T _]] _]]. unfold descriptor. rewrite T. rewrite !app_length, firstn_length, app_length, !repeat_length. cbn [length]. lia. }
    eapply runs_dbf; [exact E|apply (reads_get 32 unpack_field (descriptor g n) (back g n) LD (unpack_field_ok g n C) f _ R)|].
    intros r1 A1 B1 C1 D1 I1. apply runs_modify.
    eapply runs_weaken.
    + eapply (IH (Datatypes.S j) _ _ tl); [|apply (rest_advance f (descriptor g n)); exact R].
      change (r_dbf (r_set_fields ?a ?b)) with (r_dbf b). exact A1.
    + intros r2 [] [[f' [A2 [F2 R2]]] [O2 [N2 [H2 FL]]]]. split; [exists f'; auto|].
      change (others (r_set_fields ?a ?b)) with (others b) in O2. change (r_numRecords (r_set_fields ?a ?b)) with (r_numRecords b) in N2.
      change (r_hdr (r_set_fields ?a ?b)) with (r_hdr b) in H2. change (r_fields (r_set_fields ?a ?b)) with a in FL.
      unfold info in I1. injection I1 as J1 J2 J3 J4 J5 J6 J7.
      split; [rewrite O2; unfold others; congruence|]. split; [congruence|]. split; [congruence|].
      rewrite FL, J2, <- app_assoc. reflexivity.
Qed.
Lemma open_ok r : (exists f, r_dbf r = Some f /\ fdata f = the_file /\ fpos f = O) -> r_hdr r = 0 -> r_fields r = [] ->
  runs read_dbf_header r (fun r' _ => table_open r' /\ others r' = others r /\ exists f, r_dbf r' = Some f /\ rest f = flat_map mrow_bytes mrows).
Proof.
  intros [f [E [D P]]] H0 F0. unfold read_dbf_header.
  apply runs_bind. unfold dbf_header_length. apply runs_bind. apply runs_get. rewrite H0. cbn [Z.eqb].
  apply runs_bind.
  assert (R0 : rest f = dbf_head today fs ns (length rows) ++ columns_bytes fs ns ++ [13] ++ flat_map mrow_bytes mrows).
  { unfold rest. rewrite P, D. apply head_split. }
  assert (LR : length rows = length vals) by (symmetry; apply (F2_length Rows)).
  destruct (dbf_head_ok (length rows) LR) as [U UL].
  eapply runs_dbf; [exact E|eapply (reads_get 32 unpack_dbf_head _ _ _ U f); exact R0|].
  Unshelve. 2:{ rewrite UL. reflexivity. }
  intros r1 A1 B1 C1 D1 I1. apply runs_bind. apply runs_modify. apply runs_ret.
  set (r2 := r_set_dbfhdr _ _ r1).
  assert (K2 : r_dbf r2 = Some (advance f (length (dbf_head today fs ns (length rows)))) /\ others r2 = others r /\ r_fields r2 = [] /\
    r_numRecords r2 = Some (Z.of_nat (length rows)) /\ r_hdr r2 = head_len).
  { unfold info in I1. injection I1 as J1 J2 J3 J4 J5 J6 J7. unfold r2. split; [exact A1|]. split.
    - change (others (r_set_dbfhdr ?a ?b ?c)) with (others c). unfold others. congruence.
    - split; [change (r_fields (r_set_dbfhdr ?a ?b ?c)) with (r_fields c); congruence|]. split; reflexivity. }
  clearbody r2. destruct K2 as [A2 [O2 [F2 [N2 H2]]]].
  cbv zeta. replace (Z.to_nat ((head_len - 33) / 32)) with (length fs).
  2:{ unfold head_len. replace (33 + 32 * Z.of_nat (length fs) - 33) with (Z.of_nat (length fs) * 32) by lia. rewrite Z.div_mul by lia. lia. }
  apply runs_bind. eapply runs_weaken; [apply (fields_loop fs ns Cols 0 r2 _ ([13] ++ flat_map mrow_bytes mrows) A2); apply (rest_advance f _ _ R0)|].
  intros r3 [] [[f3 [A3 [D3 R3]]] [O3 [N3 [H3 F3]]]].
  apply runs_bind. eapply runs_dbf; [exact A3|apply (reads_read [13] 1 eq_refl f3 _ R3)|]. intros r4 A4 B4 C4 D4 I4.
  apply runs_bind. apply (runs_lift _ tt); [reflexivity|]. apply runs_modify.
  unfold info in I4. injection I4 as J1 J2 J3 J4 J5 J6 J7.
  split.
  - constructor.
    + exists (advance f3 (length [13])). split; [exact A4|]. cbn [advance fdata]. rewrite D3. exact D.
    + change (r_numRecords (r_set_fields ?a ?b)) with (r_numRecords b). congruence.
    + change (r_fields (r_set_fields ?a ?b)) with a. rewrite J2, F3, F2. reflexivity.
    + change (r_hdr (r_set_fields ?a ?b)) with (r_hdr b). congruence.
  - split; [change (others (r_set_fields ?a ?b)) with (others b); rewrite <- O2, <- O3; unfold others; congruence|].
    exists (advance f3 (length [13])). split; [exact A4|]. apply (rest_advance f3 [13] _ R3).
Qed.

Lemma read_cells_ok v bss : row_stored fr fs ns v bss -> row_storable fr fs ns v ->
  exists cs, row_returned fr fs ns v cs /\ read_cells (map (fun fn => back (fst fn) (snd fn)) (combine fs ns)) bss = Ok cs.
Proof.
  unfold row_stored, row_storable, row_returned, cells_of. generalize Cols. generalize ns as ns'. generalize fs as fs'. clear. intros fs' ns' C0.
  revert v bss. induction C0 as [|f n l k C H IH]; intros v bss [L R] [_ S].
  - exists []. cbn in *. split; [split; [exact L|constructor]|reflexivity].
  - destruct v as [|x v]; [discriminate|]. cbn [combine] in *. inversion R as [|? bs ? bss' R1 R2]; subst. inversion S as [|? ? S1 S2]; subst.
    cbn [fst snd length] in *. destruct (IH v bss') as [cs [[L' T] E]]; [split; [lia|exact R2]|split; [lia|exact S2]|].
    destruct (read_cell_ok fr f n x bs C R1 S1) as [c [T1 E1]]. exists (c :: cs). split; [split; [lia|constructor; [exact T1|exact T]]|].
    cbn [map read_cells fst snd]. rewrite back_not_flag, E1. cbn [bind]. rewrite E. reflexivity.
Qed.
(** A row that can be read back as [cs] *)
Definition row_reads (bss : list (list Z)) (cs : list cell) : Prop :=
  Z.of_nat (length (concat bss)) = zsum ns /\ pieces ns (concat bss) = bss /\
  read_cells (map (fun fn => back (fst fn) (snd fn)) (combine fs ns)) bss = Ok cs.
Lemma all_reads : Forall (row_storable fr fs ns) vals -> exists table, Forall2 (row_returned fr fs ns) vals table /\ Forall2 row_reads rows table.
Proof.
  generalize Rows. generalize rows as rows'. generalize vals as vals'. intros vals' rows' R0.
  induction R0 as [|v bss vs rs R H IH]; intros S.
  - exists []. split; constructor.
  - inversion S as [|? ? S1 S2]; subst. destruct (IH S2) as [table [T1 T2]].
    destruct (read_cells_ok v bss R S1) as [cs [C1 C2]]. exists (cs :: table). split; constructor; try assumption.
    destruct (pieces_ok ns bss (row_length fs ns Cols fr v bss R) []) as [P1 P2]. rewrite app_nil_r in P1. split; [exact P2|]. split; [exact P1|exact C2].
Qed.
(** The same with the mark *)
Definition mrow_reads (mr : Z * list (list Z)) (o : option (list cell)) : Prop :=
  Z.of_nat (length (concat (snd mr))) = zsum ns /\ pieces ns (concat (snd mr)) = snd mr /\
  ((fst mr = 32 /\ exists cs, o = Some cs /\ read_cells (map (fun fn => back (fst fn) (snd fn)) (combine fs ns)) (snd mr) = Ok cs) \/
   (fst mr <> 32 /\ o = None)).
Lemma mark_reads ms rs tb : length ms = length rs -> Forall2 row_reads rs tb -> Forall2 mrow_reads (combine ms rs) (marked ms tb).
Proof.
  clear. intros L H. revert ms L. induction H as [|bss cs rs tb [H1 [H2 H3]] H IH]; intros [|k ms] L; try discriminate; [constructor|].
  unfold marked. cbn [combine map fst snd]. constructor; [|apply IH; cbn in L; lia]. split; [exact H1|]. split; [exact H2|]. cbn [fst snd].
  destruct (Z.eqb_spec k 32); [left|right; auto]. split; [assumption|]. exists cs. auto.
Qed.
Lemma heads_sizes : map rsize heads = 1 :: ns.
Proof.
  unfold heads. cbn [map]. f_equal. rewrite map_map. cbn [back rsize fd_size].
  generalize (proj2 columns_length). generalize ns as k. generalize fs as l. clear. induction l as [|f l IH]; intros [|n k] L; try discriminate; [reflexivity|].
  cbn [combine map snd]. rewrite IH by (cbn in L; lia). reflexivity.
Qed.
Lemma nonzero (n : nat) : n <> O -> negb (truthy (Some (Z.of_nat n))) = false.
Proof. intros H. cbn. destruct (Z.eqb_spec (Z.of_nat n) 0); [lia|reflexivity]. Qed.
Lemma no_reload {A} r (k : M reader A) Q : table_open r -> rows <> [] -> runs k r Q ->
  runs (when (negb (truthy (r_numRecords r))) read_dbf_header ;;; k) r Q.
Proof.
  intros T NE H. apply runs_bind. rewrite (to_count r T). rewrite nonzero by (destruct rows; [contradiction|discriminate]).
  apply runs_ret. exact H.
Qed.
Lemma read_record_ok r f bss o tl (Q : reader -> option (list cell) -> Prop) : table_open r -> rows <> [] -> r_dbf r = Some f ->
  rest f = mrow_bytes bss ++ tl -> mrow_reads bss o ->
  (forall r', table_open r' -> others r' = others r -> r_dbf r' = Some (advance f (length (mrow_bytes bss))) -> Q r' o) ->
  runs read_record r Q.
Proof.
  intros T NE E R [L [P C]] HQ. unfold read_record. pose proof (to_dbf r T) as [f0 [E0 D0]].
  assert (f0 = f) by congruence. subst f0.
  apply runs_bind. eapply runs_dbf; [exact E|reflexivity|]. intros r1 A1 B1 C1 D1 I1.
  assert (T1 : table_open r1) by (apply (table_frame r); [exact T|exists f; auto|exact I1]).
  apply runs_bind. unfold record_fmt. apply runs_bind. apply runs_get.
  apply no_reload; [exact T1|exact NE|]. apply runs_bind. apply runs_get. apply runs_ret.
  rewrite (to_fields r1 T1), heads_sizes.
  assert (LR : Z.of_nat (length (mrow_bytes bss)) = zsum (1 :: ns)) by (rewrite zsum_cons; unfold mrow_bytes; cbn [length]; lia).
  apply runs_bind. eapply runs_dbf; [exact A1|apply (reads_read _ _ LR f tl R)|]. intros r2 A2 B2 C2 D2 I2.
  assert (T2 : table_open r2).
  { apply (table_frame r1); [exact T1|exists (advance f (length (mrow_bytes bss))); auto|exact I2]. }
  rewrite LR, Z.eqb_refl. cbv zeta.
  assert (PE : pieces (1 :: ns) (mrow_bytes bss) = [fst bss] :: snd bss).
  { unfold mrow_bytes. cbn [pieces]. change (Z.to_nat 1) with 1%nat. cbn [firstn skipn]. rewrite P. reflexivity. }
  rewrite PE.
  assert (O2 : others r2 = others r) by (unfold others; unfold info in I1, I2; congruence).
  apply runs_bind. apply (runs_lift _ [fst bss]); [reflexivity|]. cbn [zlist_eqb]. rewrite andb_true_r.
  destruct C as [[CM [cs [-> C]]]|[CM ->]].
  - rewrite CM. cbn [Z.eqb Pos.eqb]. apply runs_bind. apply runs_get. apply runs_bind. apply (runs_lift _ cs).
    { rewrite (to_fields r2 T2). unfold heads. cbn [read_cells]. change (zlist_eqb (fd_name flag_field) flag_name) with true. cbv iota. exact C. }
    apply runs_ret. apply HQ; assumption.
  - destruct (Z.eqb_spec (fst bss) 32); [contradiction|]. apply runs_ret. apply HQ; assumption.
Qed.
Lemma records_loop rs tb : Forall2 mrow_reads rs tb -> forall j r f tl, table_open r -> rows <> [] -> r_dbf r = Some f ->
  rest f = flat_map mrow_bytes rs ++ tl ->
  runs (for_map (fun _ : nat => read_record) (seq j (length rs))) r
    (fun r' x => x = tb /\ table_open r' /\ others r' = others r) /\
  iter_records (length rs) r = (keep tb, Ok tt).
Proof.
  induction 1 as [|bss o rs tb H HS IH]; intros j r f tl T NE E R.
  - split; [|reflexivity]. apply runs_ret. auto.
  - cbn [flat_map] in R. rewrite <- app_assoc in R. cbn [length seq for_map iter_records].
    assert (RR : runs read_record r (fun r' x => x = o /\ table_open r' /\ others r' = others r /\ r_dbf r' = Some (advance f (length (mrow_bytes bss))))).
    { apply (read_record_ok r f bss o _ _ T NE E R H). auto. }
    destruct RR as [r1 [x [E1 [-> [T1 [O1 A1]]]]]]. destruct (IH (Datatypes.S j) r1 _ tl T1 NE A1 (rest_advance f _ _ R)) as [[r2 [y [E2 [-> [T2 O2]]]]] IT].
    split.
    + exists r2, (o :: tb). unfold mbind, ret. rewrite E1, E2. split; [reflexivity|]. split; [reflexivity|]. split; [exact T2|congruence].
    + rewrite E1, IT. unfold keep. cbn [flat_map]. rewrite app_nil_r. reflexivity.
Qed.
Lemma start_run r (Q : reader -> unit -> Prop) : table_open r -> rows <> [] ->
  (forall r' f, table_open r' -> others r' = others r -> r_dbf r' = Some f -> rest f = flat_map mrow_bytes mrows ++ [] -> Q r' tt) ->
  runs (h <~ dbf_header_length ;; in_dbf (f_seek h)) r Q.
Proof.
  intros T NE HQ. pose proof (to_dbf r T) as [f [E D]].
  apply runs_bind. unfold dbf_header_length. apply runs_bind. apply runs_get. rewrite (to_hdr r T).
  assert (HZ : head_len =? 0 = false) by (apply Z.eqb_neq; unfold head_len; lia). rewrite HZ.
  apply runs_ret. eapply runs_dbf; [exact E|apply seek_to; unfold head_len; lia|]. intros r1 A1 B1 C1 D1 I1. rewrite D in A1.
  eapply HQ; [|  |exact A1|].
  - apply (table_frame r); [exact T|eexists; split; [exact A1|reflexivity]|exact I1].
  - unfold others. unfold info in I1. congruence.
  - unfold rest. cbn [fdata fpos]. rewrite head_split. rewrite <- first_length.
    replace (dbf_head today fs ns (length rows) ++ columns_bytes fs ns ++ [13] ++ flat_map mrow_bytes mrows)
      with ((dbf_head today fs ns (length rows) ++ columns_bytes fs ns ++ [13]) ++ flat_map mrow_bytes mrows) by (rewrite <- !app_assoc; reflexivity).
    rewrite skipn_app, skipn_all, Nat.sub_diag, app_nil_r. reflexivity.
Qed.
Lemma keep_marked ms tb : Forall (fun cs => cs <> []) tb -> keep (marked ms tb) = undeleted ms tb.
Proof.
  intros H. revert ms. induction H as [|cs tb H HS IH]; intros [|k ms]; try reflexivity.
  unfold keep, marked, undeleted in *. cbn [combine map flat_map filter fst snd]. rewrite IH. destruct (k =? 32); [|reflexivity].
  destruct cs; [contradiction|reflexivity].
Qed.
Lemma mrows_length : length mrows = length rows.
Proof. clear - Marks. unfold mrows. rewrite combine_length. lia. Qed.
Lemma bind_assoc {S A B C} (m : M S A) (k : A -> M S B) (h : B -> M S C) s : (x <~ m ;; (y <~ k x ;; h y)) s = (y <~ (x <~ m ;; k x) ;; h y) s.
Proof. unfold mbind. destruct (m s) as [s1 [a|e]]; reflexivity. Qed.
Lemma runs_assoc {S A B C} (m : M S A) (k : A -> M S B) (h : B -> M S C) s Q : runs (y <~ (x <~ m ;; k x) ;; h y) s Q -> runs (x <~ m ;; (y <~ k x ;; h y)) s Q.
Proof. intros [s' [a [E H]]]. exists s', a. rewrite bind_assoc. auto. Qed.
Lemma records_ok r tb : table_open r -> rows <> [] -> Forall2 mrow_reads mrows tb ->
  runs records r (fun r' x => x = keep tb /\ table_open r' /\ others r' = others r) /\ iterRecords r = (keep tb, Ok tt).
Proof.
  intros T NE RR. pose proof mrows_length as ML. split.
  - unfold records. apply runs_bind. apply runs_get. apply no_reload; [exact T|exact NE|].
    apply runs_assoc. apply runs_bind. apply start_run; [exact T|exact NE|]. intros r1 f T1 O1 E1 R1.
    apply runs_bind. apply runs_get. apply runs_bind. apply (runs_lift _ (Z.of_nat (length rows))); [rewrite (to_count r1 T1); reflexivity|].
    rewrite Nat2Z.id, <- ML. apply runs_bind. destruct (records_loop mrows tb RR 0 r1 f [] T1 NE E1 R1) as [L _].
    eapply runs_weaken; [exact L|]. intros r2 x [-> [T2 O2]]. apply runs_ret. split; [reflexivity|]. split; [exact T2|congruence].
  - unfold iterRecords.
    assert (W : runs (r <~ get ;; when (negb (truthy (r_numRecords r))) read_dbf_header ;;; h <~ dbf_header_length ;; in_dbf (f_seek h) ;;; r <~ get ;;
          lift (count (r_numRecords r))) r (fun r' n => n = Z.of_nat (length rows) /\ iter_records (length rows) r' = (keep tb, Ok tt))).
    { apply runs_bind. apply runs_get. apply no_reload; [exact T|exact NE|]. apply runs_assoc. apply runs_bind.
      apply start_run; [exact T|exact NE|]. intros r1 f T1 O1 E1 R1. apply runs_bind. apply runs_get.
      apply (runs_lift _ (Z.of_nat (length rows))); [rewrite (to_count r1 T1); reflexivity|]. split; [reflexivity|]. rewrite <- ML.
      apply (records_loop mrows tb RR 0 r1 f [] T1 NE E1 R1). }
    destruct W as [r' [n [E [-> IT]]]]. rewrite E, Nat2Z.id, IT. reflexivity.
Qed.

Lemma rows_skip : forall rs tb, Forall2 mrow_reads rs tb -> forall k bss, nth_error rs k = Some bss ->
  exists tl, skipn (k * Z.to_nat row_len) (flat_map mrow_bytes rs) = mrow_bytes bss ++ tl.
Proof.
  induction 1 as [|b0 cs rs tb [L H] HS IH]; intros k bss K; [destruct k; discriminate|].
  destruct k as [|k].
  - injection K as <-. exists (flat_map mrow_bytes rs). reflexivity.
  - cbn [nth_error] in K. destruct (IH k bss K) as [tl E]. exists tl. rewrite <- E. cbn [flat_map].
    assert (LR : length (mrow_bytes b0) = Z.to_nat row_len) by (unfold mrow_bytes, row_len; cbn [length]; lia).
    assert (SK : skipn (Z.to_nat row_len) (mrow_bytes b0 ++ flat_map mrow_bytes rs) = flat_map mrow_bytes rs)
      by (rewrite <- LR, skipn_app, skipn_all, Nat.sub_diag; reflexivity).
    cbn [Nat.mul]. rewrite skipn_plus, SK. reflexivity.
Qed.
Lemma record_at_ok r tb i k cs : table_open r -> Forall2 mrow_reads mrows tb -> nth_error tb k = Some cs ->
  restrict_index (r_numRecords r) i = Ok (Z.of_nat k) ->
  runs (record_at i) r (fun r' x => x = cs /\ table_open r' /\ others r' = others r).
Proof.
  intros T RR K RI. assert (KL : (k < length tb)%nat) by (apply nth_error_Some; congruence).
  pose proof (F2_length RR) as LT. pose proof mrows_length as ML.
  assert (NE : rows <> []) by (intros E; rewrite E in ML; cbn in ML; lia).
  unfold record_at. pose proof (to_dbf r T) as [f [E D]].
  apply runs_bind. eapply runs_dbf; [exact E|reflexivity|]. intros r1 A1 B1 C1 D1 I1.
  assert (T1 : table_open r1) by (apply (table_frame r); [exact T|exists f; auto|exact I1]).
  apply runs_bind. apply runs_get. apply no_reload; [exact T1|exact NE|].
  apply runs_bind. apply runs_get. apply runs_bind. apply (runs_lift _ (Z.of_nat k)).
  { rewrite (to_count r1 T1), <- (to_count r T). exact RI. }
  apply runs_bind. unfold record_fmt. apply runs_bind. apply runs_get. apply no_reload; [exact T1|exact NE|].
  apply runs_bind. apply runs_get. apply runs_ret. rewrite (to_fields r1 T1), heads_sizes.
  apply runs_bind. eapply runs_dbf; [exact A1|apply seek_to; lia|]. intros r2 A2 B2 C2 D2 I2.
  assert (T2 : table_open r2) by (apply (table_frame r1); [exact T1|eexists; split; [exact A2|exact D]|exact I2]).
  apply runs_bind. unfold dbf_header_length. apply runs_bind. apply runs_get. rewrite (to_hdr r2 T2).
  assert (HZ : head_len =? 0 = false) by (apply Z.eqb_neq; unfold head_len; lia). rewrite HZ. apply runs_ret.
  rewrite zsum_cons. fold row_len. pose proof (sizes_pos fs ns Cols) as SP.
  assert (RL : 0 <= row_len) by (unfold row_len; lia).
  apply runs_bind. eapply runs_dbf; [exact A2|apply seek_to; unfold head_len; nia|]. intros r3 A3 B3 C3 D3 I3. cbn [fdata] in A3. rewrite D in A3.
  assert (T3 : table_open r3) by (apply (table_frame r2); [exact T2|eexists; split; [exact A3|reflexivity]|exact I3]).
  destruct (nth_error mrows k) as [bss|] eqn:EB; [|apply nth_error_None in EB; lia].
  destruct (rows_skip mrows tb RR k bss EB) as [tl SK].
  assert (RK : mrow_reads bss cs).
  { clear - RR EB K. revert k EB K. induction RR as [|b0 c0 rs tb H HS IH]; intros [|k] EB K; try discriminate.
    - injection EB as ->. injection K as ->. exact H.
    - apply (IH k EB K). }
  eapply read_record_ok; [exact T3|exact NE|exact A3| |exact RK|].
  - unfold rest. cbn [fdata fpos]. rewrite head_split.
    replace (Z.to_nat (head_len + Z.of_nat k * row_len)) with (Z.to_nat head_len + k * Z.to_nat row_len)%nat by (unfold head_len in *; nia).
    rewrite skipn_plus. rewrite <- first_length.
    replace (dbf_head today fs ns (length rows) ++ columns_bytes fs ns ++ [13] ++ flat_map mrow_bytes mrows)
      with ((dbf_head today fs ns (length rows) ++ columns_bytes fs ns ++ [13]) ++ flat_map mrow_bytes mrows) by (rewrite <- !app_assoc; reflexivity).
    rewrite skipn_app, skipn_all, Nat.sub_diag. exact SK.
  - intros r4 T4 O4 A4. split; [reflexivity|]. split; [exact T4|]. rewrite O4. unfold others. unfold info in I1, I2, I3. congruence.
Qed.
End Open.
