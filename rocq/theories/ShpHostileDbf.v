(** Reading arbitrary bytes as an attribute table: lemmas. *)
From Verif Require Import Py StrModel Utf8Model VlvModel VlvProofs ShpFile ShpWriterModel ShpReaderModel ShpSpec ShpDbfRead ShpHostileSpec ShpHostile.
From Verif Require PfHist TableProofs.
Open Scope Z_scope.
Open Scope m_scope.

(** ** What decoding may raise *)
Lemma utf8_fuel_err fuel : forall bs e, utf8_decode_fuel fuel bs = Err e -> e = UnicodeError.
Proof.
  induction fuel as [|k IH]; intros bs e; cbn [utf8_decode_fuel]; [destruct bs; congruence|].
  assert (K : forall r' (g : list Z -> list Z) e, bind (utf8_decode_fuel k r') (fun s => Ok (g s)) = Err e -> e = UnicodeError).
  { intros r' g e'. destruct (utf8_decode_fuel k r') eqn:E; cbn; [discriminate|]. intros H. injection H as <-. eapply IH. exact E. }
  destruct bs as [|a r]; [discriminate|].
  destruct (a <? 128); [apply (K r (cons a))|].
  destruct ((194 <=? a) && (a <? 224)).
  { destruct r as [|b r']; [congruence|]. destruct (contb b); [apply (K r' (cons _))|congruence]. }
  destruct ((224 <=? a) && (a <? 240)).
  { destruct r as [|b [|c r']]; [congruence|congruence|]. cbv zeta. destruct (_ && _); [apply (K r' (cons _))|congruence]. }
  destruct ((240 <=? a) && (a <? 245)); [|congruence].
  destruct r as [|b [|c [|d r']]]; [congruence|congruence|congruence|]. cbv zeta. destruct (_ && _); [apply (K r' (cons _))|congruence].
Qed.
Lemma utf8_err bs e : utf8_decode bs = Err e -> e = UnicodeError.
Proof. apply utf8_fuel_err. Qed.
Lemma read_cell_err f v e : read_cell f v = Err e -> e = UnicodeError \/ e = ValueError.
Proof.
  unfold read_cell. destruct (bstrip v) as [|z0 l0]; [discriminate|]. destruct (zlist_eqb (fd_type f) [78]).
  - cbv zeta. destruct (bstrip (filter _ v)) as [|c l]; [discriminate|]. destruct (fd_dec f =? 0); [|destruct (float_ok (c :: l)); [discriminate|intros H; injection H as <-; auto]].
    unfold int_bytes. cbv zeta. destruct (match bstrip (c :: l) with [] => _ | _ => _ end); cbn; [discriminate|]. intros H. injection H as <-. auto.
  - destruct (utf8_decode v) eqn:E; cbn; [discriminate|]. intros H. injection H as <-. left. eapply utf8_err. exact E.
Qed.
Definition named (fs : list field) : list field := filter (fun f => negb (zlist_eqb (fd_name f) flag_name)) fs.
Lemma read_cells_run fs : forall vs, length vs = length fs ->
  match read_cells fs vs with
  | Ok cs => length cs = length (named fs)
  | Err e => e = UnicodeError \/ e = ValueError
  end.
Proof.
  induction fs as [|f fs IH]; intros [|v vs] L; try discriminate; [reflexivity|]. cbn [read_cells named filter].
  specialize (IH vs ltac:(cbn in L; lia)). unfold named in IH.
  destruct (zlist_eqb (fd_name f) flag_name); cbn [negb]; [exact IH|].
  destruct (read_cell f v) eqn:E; cbn [bind]; [|eapply read_cell_err; exact E].
  destruct (read_cells fs vs); cbn [bind length]; [lia|exact IH].
Qed.
Lemma pieces_length sizes : forall bs, length (pieces sizes bs) = length sizes.
Proof. induction sizes as [|n r IH]; intros bs; cbn; [reflexivity|]. rewrite IH. reflexivity. Qed.

(** ** Rows *)
Definition row_ok (fs : list field) (x : option (list cell)) : Prop :=
  match x with Some cs => length cs = length (named fs) | None => True end.
Definition row_size (r : reader) : Z := zsum (map rsize (r_fields r)).
Lemma record_fmt_run r : truthy (r_numRecords r) = true -> record_fmt r = (r, Ok (map rsize (r_fields r))).
Proof. intros T. unfold record_fmt, mbind, get, when, ret. rewrite T. reflexivity. Qed.
Lemma read_record_run r f : r_dbf r = Some f -> truthy (r_numRecords r) = true -> r_fields r <> [] -> 0 <= row_size r ->
  exists n x, read_record r = (r_set_dbf (Some (mkFile (fdata f) (fpos f + n))) r, x) /\
    n = length (firstn (Z.to_nat (row_size r)) (skipn (fpos f) (fdata f))) /\
    match x with
    | Ok a => Z.of_nat n = row_size r /\ row_ok (r_fields r) a
    | Err e => (e = StructError /\ Z.of_nat n < row_size r) \/ e = UnicodeError \/ e = ValueError
    end.
Proof.
  intros H T F S. destruct r as [a b c d e g h i j k l m]. cbn in H. subst c. unfold row_size in *. cbn [r_fields r_numRecords] in *.
  set (r := mkReader _ _ _ _ _ _ _ _ _ _ _ _).
  assert (E0 : in_dbf (ret tt) r = (r, Ok tt)) by reflexivity.
  unfold read_record. unfold mbind at 1. rewrite E0. unfold mbind at 1. rewrite (record_fmt_run r T). cbn [r_fields r].
  unfold mbind at 1, in_dbf, with_file, f_read. cbn [r_dbf r].
  replace (zsum (map rsize h) <? 0) with false by (symmetry; apply Z.ltb_ge; exact S).
  set (bs := firstn _ _). exists (length bs).
  destruct (Z.of_nat (length bs) =? zsum (map rsize h)) eqn:C.
  - apply Z.eqb_eq in C. cbv zeta. unfold mbind at 1, lift at 1.
    destruct h as [|fd h]; [contradiction|]. cbn [map pieces]. change (py_get (?x :: ?y) 0) with (Ok x).
    assert (P : length (pieces (map rsize (fd :: h)) bs) = length (fd :: h)) by (rewrite pieces_length, map_length; reflexivity).
    pose proof (read_cells_run (fd :: h) _ P) as R. cbn [map pieces] in R.
    cbv iota beta. match goal with |- context [if zlist_eqb ?x [32] then _ else _] => change (zlist_eqb x [32]) with (zlist_eqb (firstn (Z.to_nat (rsize fd)) bs) [32]) end.
    destruct (zlist_eqb (firstn (Z.to_nat (rsize fd)) bs) [32]).
    + unfold mbind at 1, get. unfold mbind, lift. cbn [r_fields].
      destruct (read_cells _ _) as [cs|x]; eexists; (split; [reflexivity|]); (split; [reflexivity|]).
      * split; [exact C|exact R].
      * right. exact R.
    + eexists. split; [reflexivity|]. split; [reflexivity|]. split; [exact C|exact I].
  - apply Z.eqb_neq in C. eexists. split; [reflexivity|]. split; [reflexivity|]. left. split; [reflexivity|].
    assert (length bs <= Z.to_nat (zsum (map rsize h)))%nat by apply firstn_le_length. lia.
Qed.
Lemma rows_run {A} (l : list A) : forall r f, r_dbf r = Some f -> truthy (r_numRecords r) = true -> r_fields r <> [] -> 0 < row_size r ->
  match snd (for_map (fun _ => read_record) l r) with
  | Ok rows => length rows = length l /\ Forall (row_ok (r_fields r)) rows /\
      (l <> [] -> Z.of_nat (fpos f) + Z.of_nat (length l) * row_size r <= Z.of_nat (length (fdata f)))
  | Err e => (e = StructError /\ Z.of_nat (length (fdata f)) < Z.of_nat (fpos f) + Z.of_nat (length l) * row_size r) \/
      e = UnicodeError \/ e = ValueError
  end.
Proof.
  induction l as [|y l IH]; intros r f H T F S; cbn [for_map].
  { cbn. split; [reflexivity|]. split; [constructor|]. intros X. exfalso. apply X. reflexivity. }
  destruct (read_record_run r f H T F ltac:(lia)) as [n [x [E [N X]]]]. unfold mbind at 1. rewrite E.
  assert (N' : (n <= length (fdata f) - fpos f)%nat) by (rewrite N, firstn_length, skipn_length; lia).
  assert (N'' : (n = Nat.min (Z.to_nat (row_size r)) (length (fdata f) - fpos f))%nat) by (rewrite N, firstn_length, skipn_length; reflexivity).
  destruct x as [a|e].
  - destruct X as [X1 X2]. set (r1 := r_set_dbf _ r).
    specialize (IH r1 (mkFile (fdata f) (fpos f + n)) eq_refl T F S). unfold mbind.
    change (row_size r1) with (row_size r) in IH. change (r_fields r1) with (r_fields r) in IH.
    destruct (for_map (fun _ => read_record) l r1) as [r2 [rows|e]]; cbn [snd ret fdata fpos length] in IH |- *.
    + destruct IH as [I1 [I2 I3]]. split; [lia|]. split; [constructor; assumption|]. intros _.
      destruct l as [|y' l]; [cbn [length]; lia|]. specialize (I3 ltac:(discriminate)). cbn [length] in *. nia.
    + destruct IH as [[I1 I2]|I]; [left|right; exact I]. split; [exact I1|]. nia.
  - cbn [snd]. destruct X as [[X1 X2]|X]; [left|right; exact X]. split; [exact X1|]. cbn [length]. nia.
Qed.

(** ** The header *)
Lemma head_run bs : (32 <= length bs)%nat -> unpack_dbf_head (firstn 32 bs) = Ok (declared_rows bs, declared_header bs).
Proof.
  intros L. unfold unpack_dbf_head. rewrite firstn_length, Nat.min_l by exact L. change (Z.of_nat 32 =? 32) with true. cbv iota.
  rewrite (slice_from (firstn 32 bs) 4 4 : py_slice (firstn 32 bs) 4 8 = _), (slice_from (firstn 32 bs) 8 2 : py_slice (firstn 32 bs) 8 10 = _).
  unfold declared_rows, declared_header, byte_of.
  do 10 (destruct bs as [|? bs]; [cbn in L; lia|]). cbn [firstn skipn nth].
  unfold unpack_le, unpack_be. cbn [rev app length Z.of_nat Z.eqb Pos.of_succ_nat Pos.succ Pos.eqb bind be_value fold_left]. unfold be_value. cbn [fold_left]. do 2 f_equal; ring.
Qed.
Lemma field_run l : length l = 32%nat ->
  match unpack_field l with
  | Ok fd => fd_size fd = FInt (nth 16 l 0) /\ fd_dec fd = nth 17 l 0
  | Err e => e = UnicodeError
  end.
Proof.
  intros L. unfold unpack_field. rewrite L. change (Z.of_nat 32 =? 32) with true. cbv iota zeta.
  set (nm := match find_nul _ with Some _ => _ | None => _ end). destruct (utf8_decode nm) eqn:E; cbn [bind]; [|eapply utf8_err; exact E].
  destruct (utf8_decode (py_slice l 11 12)) eqn:E1; cbn [bind]; [|eapply utf8_err; exact E1].
  rewrite (slice_from l 16 1 : py_slice l 16 17 = _), (slice_from l 17 1 : py_slice l 17 18 = _).
  clear E nm E1. do 18 (destruct l as [|? l]; [discriminate L|]). cbn. auto.
Qed.
Lemma field_short l : length l <> 32%nat -> unpack_field l = Err StructError.
Proof. intros L. unfold unpack_field. replace (_ =? 32) with false by (symmetry; apply Z.eqb_neq; lia). reflexivity. Qed.

Definition header_failure (e : exn) : Prop := e = StructError \/ e = AssertionError \/ e = UnicodeError.
Lemma fields_run {A} (l : list A) bs : forall r p, r_dbf r = Some (mkFile bs p) ->
  let '(r', x) := for_each (fun _ => f <~ in_dbf (f_get 32 unpack_field) ;; modify (fun r => r_set_fields (r_fields r ++ [f]) r)) l r in
  match x with
  | Ok _ => exists new, r' = r_set_fields (r_fields r ++ new) (r_set_dbf (Some (mkFile bs (p + 32 * length l))) r) /\
      length new = length l /\ (l <> [] -> p + 32 * length l <= length bs)%nat /\
      forall i fd, nth_error new i = Some fd -> fd_size fd = FInt (nth (p + 32 * i + 16) bs 0) /\ fd_dec fd = nth (p + 32 * i + 17) bs 0 /\
        unpack_field (firstn 32 (skipn (p + 32 * i) bs)) = Ok fd
  | Err e => e = StructError \/ e = UnicodeError
  end.
Proof.
  induction l as [|y l IH]; intros r p H; cbn [for_each].
  { cbn. exists []. split; [|split; [reflexivity|split; [congruence|intros [|i] fd X; discriminate X]]].
    destruct r as [a b c d e g h i j k m0 m]. cbn in H |- *. subst c. rewrite app_nil_r, Nat.add_0_r. reflexivity. }
  unfold mbind at 1. unfold mbind at 1. unfold in_dbf at 1, with_file. rewrite H. unfold f_get at 1, mbind at 1, f_read at 1. cbn [fpos fdata].
  change (32 <? 0) with false. cbv iota. change (Z.to_nat 32) with 32%nat. set (b := firstn 32 (skipn p bs)). unfold lift.
  destruct (Nat.eq_dec (length b) 32) as [L|L].
  2:{ rewrite (field_short b L). left. reflexivity. }
  pose proof (field_run b L) as F. destruct (unpack_field b) as [fd|e] eqn:UF; [|right; exact F].
  unfold modify at 1. rewrite L.
  set (r1 := r_set_fields _ _). specialize (IH r1 (p + 32)%nat eq_refl).
  destruct (for_each _ l r1) as [r2 [[]|e]]; [|exact IH].
  destruct IH as [new [R [LN [B FN]]]]. exists (fd :: new). split.
  { rewrite R. cbn [length]. replace (p + 32 * S (length l))%nat with (p + 32 + 32 * length l)%nat by lia.
    set (q := (p + 32 + 32 * length l)%nat). unfold r1. destruct r as [a b0 c d e g h i j k m0 m]. cbn. rewrite <- app_assoc. reflexivity. }
  split; [cbn; lia|]. split.
  { intros _. assert (LB : (p + 32 <= length bs)%nat) by (unfold b in L; rewrite firstn_length, skipn_length in L; lia).
    destruct l as [|y' l]; [cbn; lia|]. specialize (B ltac:(discriminate)). cbn [length] in *. lia. }
  assert (NB : forall j, (j < 32)%nat -> nth j b 0 = nth (p + j) bs 0).
  { intros j J. unfold b. rewrite <- (firstn_skipn p bs) at 2. assert (LB : (p + 32 <= length bs)%nat) by (unfold b in L; rewrite firstn_length, skipn_length in L; lia).
    rewrite app_nth2 by (rewrite firstn_length; lia). rewrite firstn_length, Nat.min_l by lia. replace (p + j - p)%nat with j by lia.
    rewrite <- (firstn_skipn 32 (skipn p bs)) at 2. rewrite app_nth1; [reflexivity|]. fold b. rewrite L. exact J. }
  intros [|i] fd'; cbn [nth_error]; intros X.
  - injection X as <-. rewrite Nat.mul_0_r, Nat.add_0_r, <- !NB by lia. destruct F as [F1 F2]. split; [exact F1|]. split; [exact F2|exact UF].
  - specialize (FN i fd' X). replace (p + 32 * S i)%nat with (p + 32 + 32 * i)%nat by lia. exact FN.
Qed.
Definition opened_table (bs : list Z) (r : reader) : Prop :=
  r_dbf r = Some (mkFile bs (32 + 32 * declared_columns bs + 1)) /\ (32 <= length bs)%nat /\
  r_numRecords r = Some (declared_rows bs) /\ r_hdr r = declared_header bs /\
  exists new, r_fields r = flag_field :: new /\ length new = declared_columns bs /\
    nth_error bs (32 + 32 * declared_columns bs) = Some 13 /\
    forall i fd, nth_error new i = Some fd -> fd_size fd = FInt (declared_width bs i) /\ fd_dec fd = declared_decimals bs i /\
      unpack_field (firstn 32 (skipn (32 + 32 * i) bs)) = Ok fd.
Lemma table_opens bs shx : let '(r, x) := Reader None shx (Some bs) in
  match x with Ok _ => opened_table bs r | Err e => header_failure e end.
Proof.
  unfold Reader. set (r0 := mkReader _ _ _ _ _ _ _ _ _ _ _ _). unfold mbind at 1, ret at 1.
  unfold read_dbf_header. unfold mbind at 1. unfold dbf_header_length. unfold mbind at 1, get. change (r_hdr r0 =? 0) with true. cbv iota.
  unfold mbind at 1. unfold in_dbf at 1, with_file. change (r_dbf r0) with (Some (mkFile bs 0)). cbv iota.
  unfold f_get at 1, mbind at 1, f_read at 1. cbn [fpos fdata skipn]. change (32 <? 0) with false. cbv iota. change (Z.to_nat 32) with 32%nat. unfold lift at 1.
  destruct (Nat.lt_ge_cases (length bs) 32) as [L|L].
  { unfold unpack_dbf_head. replace (_ =? 32) with false by (symmetry; apply Z.eqb_neq; rewrite firstn_length; lia). left. reflexivity. }
  rewrite (head_run bs L). rewrite firstn_length, Nat.min_l by exact L. unfold modify at 1. unfold mbind at 1. unfold ret at 1. cbv zeta.
  cbn [Nat.add]. set (r1 := r_set_dbfhdr _ _ _).
  pose proof (fields_run (seq 0 (Z.to_nat ((declared_header bs - 33) / 32))) bs r1 32 eq_refl) as F.
  unfold mbind at 1.
  destruct (for_each _ (seq 0 (Z.to_nat ((declared_header bs - 33) / 32))) r1) as [r2 [[]|e]].
  2:{ destruct F as [->| ->]; [left|right; right]; reflexivity. }
  destruct F as [new [R [LN [B FN]]]]. rewrite seq_length in R, LN, B. fold (declared_columns bs) in R, LN, B.
  unfold mbind at 1. unfold in_dbf at 1, with_file. assert (D : r_dbf r2 = Some (mkFile bs (32 + 32 * declared_columns bs))) by (rewrite R; reflexivity).
  rewrite D. unfold f_read at 1. cbn [fpos fdata]. change (1 <? 0) with false. cbv iota. change (Z.to_nat 1) with 1%nat.
  set (tb := firstn 1 (skipn (32 + 32 * declared_columns bs) bs)). unfold mbind at 1, lift at 1. unfold py_assert.
  destruct (zlist_eqb tb [13]) eqn:Z; [|right; left; reflexivity]. apply zlist_eqb_eq in Z. unfold modify.
  unfold opened_table. rewrite Z. rewrite R.
  cbn [length r_dbf r_set_fields r_set_dbf r_numRecords r_hdr r_fields r_set_dbfhdr r1 app].
  split; [reflexivity|]. split; [exact L|]. split; [reflexivity|]. split; [reflexivity|].
  exists new. split; [reflexivity|]. split; [exact LN|]. split.
  - unfold tb in Z. clear - Z. set (k := (32 + 32 * declared_columns bs)%nat) in *. clearbody k. revert bs Z. induction k as [|k IH]; intros [|x bs] Z; cbn in *; try discriminate; [congruence|apply IH; exact Z].
  - exact FN.
Qed.

(** ** records() *)
Lemma byte_nonneg bs p : Forall is_byte bs -> 0 <= nth p bs 0.
Proof. intros B. destruct (nth_in_or_default p bs 0) as [I|E]; [|rewrite E; lia]. rewrite Forall_forall in B. specialize (B _ I). unfold is_byte in B. lia. Qed.
Lemma widths bs new : length new = declared_columns bs ->
  (forall i fd, nth_error new i = Some fd -> fd_size fd = FInt (declared_width bs i) /\ fd_dec fd = declared_decimals bs i /\
      unpack_field (firstn 32 (skipn (32 + 32 * i) bs)) = Ok fd) ->
  map rsize new = map (declared_width bs) (seq 0 (declared_columns bs)).
Proof.
  intros L F. apply TableProofs.nth_error_ext. intros i. rewrite !nth_error_map.
  destruct (nth_error new i) as [fd|] eqn:E.
  - assert (I : (i < declared_columns bs)%nat) by (rewrite <- L; apply nth_error_Some; congruence).
    rewrite (nth_error_nth' (seq 0 (declared_columns bs)) 0%nat) by (rewrite seq_length; exact I). rewrite seq_nth by exact I. cbn [option_map Nat.add].
    unfold rsize. rewrite (proj1 (F i fd E)). reflexivity.
  - apply nth_error_None in E. assert (N : nth_error (seq 0 (declared_columns bs)) i = None) by (apply nth_error_None; rewrite seq_length; lia).
    rewrite N. reflexivity.
Qed.
Lemma zsum_widths bs l : Forall is_byte bs -> 0 <= zsum (map (declared_width bs) l).
Proof. intros B. induction l as [|i l IH]; [cbn; lia|]. cbn [map]. rewrite zsum_cons. pose proof (byte_nonneg bs (32 + 32 * i + 16) B). unfold declared_width at 1, byte_of. lia. Qed.
Lemma keep_length l : (length (keep l) <= length l)%nat.
Proof. unfold keep. induction l as [|[[|c cs]|] l IH]; cbn; lia. Qed.
Lemma keep_rows fs l : Forall (row_ok fs) l -> Forall (fun row => length row = length (named fs)) (keep l).
Proof. intros F. induction F as [|[[|c cs]|] l H F IH]; cbn; [constructor|exact IH|constructor; [exact H|exact IH]|exact IH]. Qed.
Lemma records_run bs r : Forall is_byte bs -> opened_table bs r -> declared_rows bs <> 0 -> declared_header bs <> 0 ->
  match snd (records r) with
  | Ok rows => Z.of_nat (length rows) <= declared_rows bs /\ declared_header bs + declared_rows bs * row_bytes bs <= Z.of_nat (length bs) /\
      Forall (fun row => length row = length (named (r_fields r))) rows
  | Err e => (e = StructError /\ Z.of_nat (length bs) < declared_header bs + declared_rows bs * row_bytes bs) \/ e = UnicodeError \/ e = ValueError
  end.
Proof.
  intros B [D [L [N [H [new [F [LN [_ FN]]]]]]]] N0 H0.
  assert (RS : row_size r = row_bytes bs).
  { unfold row_size, row_bytes. rewrite F. cbn [map]. rewrite zsum_cons, (widths bs new LN FN). reflexivity. }
  assert (NN : 0 <= declared_rows bs) by (unfold declared_rows, byte_of; pose proof (byte_nonneg bs 4 B); pose proof (byte_nonneg bs 5 B); pose proof (byte_nonneg bs 6 B); pose proof (byte_nonneg bs 7 B); lia).
  assert (HN : 0 <= declared_header bs) by (unfold declared_header, byte_of; pose proof (byte_nonneg bs 8 B); pose proof (byte_nonneg bs 9 B); lia).
  assert (T : truthy (r_numRecords r) = true) by (rewrite N; cbn; apply negb_true_iff, Z.eqb_neq; exact N0).
  pose proof (zsum_widths bs (seq 0 (declared_columns bs)) B) as ZW.
  unfold records. unfold mbind at 1, get at 1. rewrite T. cbn [negb when]. unfold mbind at 1, ret at 1. unfold mbind at 1.
  assert (DH : dbf_header_length r = (r, Ok (declared_header bs))).
  { unfold dbf_header_length, mbind, get. rewrite H. replace (declared_header bs =? 0) with false by (symmetry; apply Z.eqb_neq; exact H0). unfold ret. reflexivity. }
  rewrite DH. unfold mbind at 1. unfold in_dbf at 1, with_file. rewrite D. unfold f_seek. replace (declared_header bs <? 0) with false by (symmetry; apply Z.ltb_ge; exact HN).
  cbn [fdata]. set (r1 := r_set_dbf _ r). unfold mbind at 1, get at 1. unfold mbind at 1. change (r_numRecords r1) with (r_numRecords r). rewrite N. cbn [count]. unfold lift at 1.
  pose proof (rows_run (seq 0 (Z.to_nat (declared_rows bs))) r1 (mkFile bs (Z.to_nat (declared_header bs))) eq_refl T) as R.
  change (row_size r1) with (row_size r) in R. rewrite RS in R. change (r_fields r1) with (r_fields r) in R. rewrite seq_length in R. cbn [fpos fdata] in R.
  specialize (R ltac:(rewrite F; discriminate) ltac:(unfold row_bytes; lia)). unfold mbind.
  destruct (for_map (fun _ => read_record) (seq 0 (Z.to_nat (declared_rows bs))) r1) as [r2 [rows|e]]; cbn [snd ret] in R |- *.
  - destruct R as [R1 [R2 R3]]. split; [pose proof (keep_length rows); lia|]. split; [|apply keep_rows; exact R2].
    assert (X : seq 0 (Z.to_nat (declared_rows bs)) <> []) by (intros X; apply (f_equal (@length nat)) in X; rewrite seq_length in X; cbn in X; lia).
    specialize (R3 X). lia.
  - destruct R as [[R1 R2]|R]; [left; split; [exact R1|lia]|right; exact R].
Qed.
