(** Programs with attribute tables: what they leave in a Writer, saving, and
    reading back. *)
From Verif Require Import Py Text StrModel Utf8Model Utf8Proofs VlvModel ShpFile ShpWriterModel ShpReaderModel ShpLib ShpSpec ShpWriterProofs ShpSave ShpRead ShpApi ShpCalls
  ShpPrograms ShpRound ShpTableSpec ShpDbfWrite ShpDbfRead ShpTablePrograms.
Open Scope Z_scope.
Open Scope m_scope.

(** ** The steps of a program *)
Lemma steps_shapes steps : forall w w', Forall call_doubles (shapes_of steps) -> for_each do_step steps w = (w', Ok tt) ->
  exists ss gs, w_shapes w' = w_shapes w ++ ss /\ Forall2 adds (shapes_of steps) gs /\ Forall2 represents ss gs /\
    Forall2 (fun s c => s_type s = call_type (w_type w) c) ss (shapes_of steps) /\
    w_type w' = w_type w /\ w_offsets w' = w_offsets w /\ w_lengths w' = w_lengths w.
Proof.
  induction steps as [|st steps IH]; intros w w' D H.
  - cbn in H. unfold ret in H. pinv H. exists [], []. rewrite app_nil_r. repeat split; constructor.
  - cbn [for_each] in H. apply mbind_ok in H. destruct H as [w1 [u [X H]]]. destruct u.
    destruct st as [c|f|a].
    + cbn [shapes_of flat_map app] in D |- *. inversion D as [|? ? D1 D2]; subst.
      destruct (call_ok c w w1 D1 X) as [s [g [A [R [T [AD _]]]]]]. destruct AD as [S1 T1 O1 L1 F1 R1].
      destruct (IH w1 w' D2 H) as [ss [gs [S2 [A2 [R2 [T2 [E1 [E2 E3]]]]]]]].
      exists (s :: ss), (g :: gs). rewrite S2, S1, <- app_assoc. split; [reflexivity|].
      split; [constructor; assumption|]. split; [constructor; assumption|].
      split; [constructor; [exact T|rewrite <- T1; exact T2]|]. repeat split; congruence.
    + cbn [shapes_of flat_map app] in D |- *. cbn [do_step] in X. unfold add_field, modify in X. pinv X.
      destruct (IH _ w' D H) as [ss [gs K]]. exists ss, gs. exact K.
    + cbn [shapes_of flat_map app] in D |- *. cbn [do_step] in X. unfold record in X. unfold mbind, get, lift in X.
      destruct (py_get (w_fields w) 0); [|discriminate].
      match type of X with match (let (_, _) := (_, ?q) in _) with _ => _ end = _ => idtac | _ => idtac end.
      destruct (match a with RecList [] => _ | RecList l => _ | RecDict d => _ end) as [r|] in X; [|discriminate].
      unfold modify in X. apply pair_inv in X. destruct X as [X _].
      assert (K1 : (w_shapes w1, w_type w1, w_offsets w1, w_lengths w1) = (w_shapes w, w_type w, w_offsets w, w_lengths w)) by (subst w1; destruct r; reflexivity).
      clear X. injection K1 as J1 J2 J3 J4. destruct (IH w1 w' D H) as [ss [gs K]]. exists ss, gs. rewrite J1, J2, J3, J4 in K. exact K.
Qed.
Lemma columns_tail s l : columns_first (s :: l) -> columns_first l.
Proof. intros H pre a post E. apply (H (s :: pre) a post). rewrite E. reflexivity. Qed.
Lemma get_seq {A} (l : list A) : forall n, (n <= length l)%nat -> forall pre, mapM (fun i => py_get (pre ++ l) (Z.of_nat i)) (seq (length pre) n) = Ok (firstn n l).
Proof.
  induction l as [|x l IH]; intros n N pre; [destruct n; [reflexivity|cbn in N; lia]|].
  destruct n as [|n]; [reflexivity|]. cbn [seq mapM firstn].
  assert (G : py_get (pre ++ x :: l) (Z.of_nat (length pre)) = Ok x).
  { unfold py_get. destruct (Z.ltb_spec (Z.of_nat (length pre)) 0); [lia|].
    replace (0 <=? Z.of_nat (length pre)) with true by (symmetry; apply Z.leb_le; lia).
    replace (Z.of_nat (length pre) <? Z.of_nat (length (pre ++ x :: l))) with true by (symmetry; apply Z.ltb_lt; rewrite app_length; cbn [length]; lia).
    rewrite Nat2Z.id, nth_error_app2, Nat.sub_diag by lia. reflexivity. }
  rewrite G. cbn [bind]. specialize (IH n ltac:(cbn in N; lia) (pre ++ [x])).
  rewrite <- app_assoc, app_length, Nat.add_comm in IH. cbn [app length Nat.add] in IH. rewrite IH. reflexivity.
Qed.

Lemma dict_find_in d k o : NoDup (map fst d) -> In (k, o) d -> dict_find k d = Some o.
Proof.
  unfold dict_find. induction d as [|[k' o'] d IH]; intros N I; [contradiction|]. cbn [map fst] in N. inversion N as [|? ? N1 N2]; subst.
  cbn [find fst]. destruct I as [E|I].
  - injection E as -> ->. rewrite zlist_eqb_refl. reflexivity.
  - destruct (zlist_eqb k' k) eqn:E; [|apply IH; assumption]. apply zlist_eqb_eq in E. subst k'. exfalso. apply N1.
    change k with (fst (k, o)). apply in_map, I.
Qed.
Lemma dict_find_none d k : Forall (fun e : list Z * option cell => fst e <> k) d -> dict_find k d = None.
Proof.
  unfold dict_find. induction 1 as [|[k' o'] d E H IH]; [reflexivity|]. cbn [find fst] in *. apply zlist_eqb_neq in E. rewrite E. exact IH.
Qed.
Definition dict_row (fs : list field) (d : list (list Z * option cell)) : list cell :=
  flat_map (fun f => match dict_find (fd_name f) d with Some (Some v) => [v] | Some None => [CStr []] | None => [] end) fs.
Lemma dict_row_ok fs d row : NoDup (map fst d) ->
  Forall2 (fun f v => exists o, In (fd_name f, o) d /\ v = match o with Some x => x | None => CStr [] end) fs row -> dict_row fs d = row.
Proof.
  intros N H. unfold dict_row. induction H as [|f v fs row [o [I ->]] H IH]; [reflexivity|]. cbn [flat_map]. rewrite (dict_find_in d _ o N I), IH. destruct o; reflexivity.
Qed.
Lemma record_run w fs a row : with_flag (w_fields w) fs -> fs <> [] -> given_row fs a row ->
  record a w = (w_set_records (w_records w ++ [row]) w, Ok tt).
Proof.
  intros [WF ND] NE G. unfold record, mbind, get, lift.
  assert (F0 : exists f0, py_get (w_fields w) 0 = Ok f0 /\ (if is_deletion f0 then Nat.pred (length (w_fields w)) else length (w_fields w)) = length fs /\
    (w_fields w = fs \/ exists d, named_deletion d /\ w_fields w = d :: fs)).
  { destruct WF as [->|[d [D E]]].
    - destruct fs as [|f fs]; [contradiction|]. exists f. split; [reflexivity|]. inversion ND as [|? ? N1 N2]; subst.
      destruct (is_deletion f) eqn:ID; [apply is_deletion_spec in ID; contradiction|]. auto.
    - exists d. rewrite E. split; [reflexivity|]. rewrite (proj2 (is_deletion_spec d) D). split; [reflexivity|]. right. exists d. auto. }
  destruct F0 as [f0 [-> [LN WF']]]. cbv zeta. rewrite LN.
  assert (RN : row <> []).
  { destruct a as [l|d]; cbn [given_row] in G.
    - destruct G as [GL ->]. destruct fs as [|f fs]; [contradiction|]. destruct l; [cbn in GL; lia|]. discriminate.
    - destruct G as [_ [_ G]]. destruct fs as [|f fs]; [contradiction|]. inversion G; subst. discriminate. }
  assert (RE : (match a with
             | RecList [] => Ok []
             | RecList l => mapM (fun i => py_get l (Z.of_nat i)) (seq 0 (length fs))
             | RecDict d => Ok (dict_row (w_fields w) d)
             end) = Ok row).
  { destruct a as [l|d]; cbn [given_row] in G.
    - destruct G as [GL ->]. destruct l as [|c l]; [destruct fs; [contradiction|cbn in GL; lia]|]. exact (get_seq (c :: l) _ GL []).
    - destruct G as [N [K G]]. f_equal. destruct WF' as [->|[d0 [[s D0] ->]]]; [apply dict_row_ok; assumption|].
      unfold dict_row. cbn [flat_map]. rewrite dict_find_none.
      + apply dict_row_ok; assumption.
      + eapply Forall_impl; [|exact K]. intros e He. cbn beta. rewrite D0. apply He. }
  unfold dict_row in RE. rewrite RE. unfold modify. destruct row; [contradiction|reflexivity].
Qed.
Lemma call_frame c w w' : do_call c w = (w', Ok tt) -> w_fields w' = w_fields w /\ w_records w' = w_records w.
Proof.
  destruct c as [x y z m|parts t|parts t|]; cbn [do_call]; intros H.
  - unfold point, modify in H. pinv H. split; reflexivity.
  - unfold line, poly in H. unfold mbind, lift in H. destruct (if type_in _ _ then _ else _); [|discriminate].
    destruct (fold_left collect a ([], [])) as [starts points]. destruct (t =? 31).
    + unfold ret, modify in H. pinv H. split; reflexivity.
    + unfold ret, modify in H. pinv H. split; reflexivity.
  - unfold poly in H. unfold mbind, lift in H. destruct (if type_in _ _ then _ else _); [|discriminate].
    destruct (fold_left collect a ([], [])) as [starts points]. destruct (t =? 31).
    + unfold ret, modify in H. apply pair_inv in H. destruct H as [<- _]. destruct (w_default w); split; reflexivity.
    + unfold ret, modify in H. pinv H. split; reflexivity.
  - unfold null, modify in H. pinv H. split; reflexivity.
Qed.
Lemma steps_rows fs steps : fs <> [] -> forall w w' rows, columns_first steps -> with_flag (w_fields w ++ columns_of steps) fs ->
  Forall2 (given_row fs) (rows_of steps) rows -> for_each do_step steps w = (w', Ok tt) ->
  w_fields w' = w_fields w ++ columns_of steps /\ w_records w' = w_records w ++ rows.
Proof.
  intros NE. induction steps as [|st steps IH]; intros w w' rows CF WF G H.
  - cbn in H. unfold ret in H. pinv H. cbn in G. inversion G. cbn. rewrite !app_nil_r. auto.
  - cbn [for_each] in H. apply mbind_ok in H. destruct H as [w1 [u [X H]]]. destruct u. pose proof (columns_tail _ _ CF) as CT.
    destruct st as [c|f|a]; cbn [rows_of columns_of flat_map app] in G, WF |- *.
    + destruct (call_frame c w w1 X) as [F1 R1]. rewrite <- F1, <- R1. rewrite <- F1 in WF. apply IH; assumption.
    + cbn [do_step] in X. unfold add_field, modify in X. apply pair_inv in X. destruct X as [<- _].
      assert (IHH := fun W => IH _ w' rows CT W G H). destruct IHH as [I1 I2].
      * cbn. rewrite <- app_assoc. destruct f. exact WF.
      * rewrite I1, I2. cbn. rewrite <- app_assoc. destruct f. split; reflexivity.
    + inversion G as [|? row ? rows' G1 G2]; subst.
      assert (CN : columns_of steps = []) by (apply (CF [] a steps); reflexivity).
      assert (WF1 : with_flag (w_fields w) fs) by (change (flat_map _ steps) with (columns_of steps) in WF; rewrite CN, app_nil_r in WF; exact WF).
      cbn [do_step] in X. rewrite (record_run w fs a row WF1 NE G1) in X. apply pair_inv in X. destruct X as [<- _].
      assert (IHH := fun W => IH _ w' rows' CT W G2 H). destruct IHH as [I1 I2]; [exact WF|]. rewrite I1, I2. cbn. rewrite <- app_assoc. split; reflexivity.
Qed.

(** ** Saving the shapes leaves the table alone *)
Definition tab (w : writer) := (w_fields w, w_records w).
Definition keeps {A} (m : M writer A) : Prop := forall w w' x, m w = (w', x) -> tab w' = tab w.
Lemma keeps_ret {A} (a : A) : keeps (ret a).
Proof. intros w w' x H. unfold ret in H. pinv H. reflexivity. Qed.
Lemma keeps_lift {A} (a : res A) : keeps (lift a).
Proof. intros w w' x H. unfold lift in H. apply pair_inv in H. destruct H as [<- _]. reflexivity. Qed.
Lemma keeps_get : keeps get.
Proof. intros w w' x H. unfold get in H. apply pair_inv in H. destruct H as [<- _]. reflexivity. Qed.
Lemma keeps_modify g : (forall w, tab (g w) = tab w) -> keeps (modify g).
Proof. intros G w w' x H. unfold modify in H. apply pair_inv in H. destruct H as [<- _]. apply G. Qed.
Lemma keeps_bind {A B} (m : M writer A) (k : A -> M writer B) : keeps m -> (forall a, keeps (k a)) -> keeps (mbind m k).
Proof.
  intros Hm Hk w w' x H. unfold mbind in H. destruct (m w) as [w1 [a|e]] eqn:E.
  - rewrite (Hk a w1 w' x H). apply (Hm w w1 _ E).
  - apply pair_inv in H. destruct H as [<- _]. apply (Hm w w1 _ E).
Qed.
Lemma keeps_shp {A} (m : M file A) : keeps (on_shp m).
Proof. intros w w' x H. unfold on_shp, zoom in H. destruct (m (w_shp w)). apply pair_inv in H. destruct H as [<- _]. reflexivity. Qed.
Lemma keeps_shx {A} (m : M file A) : keeps (on_shx m).
Proof. intros w w' x H. unfold on_shx, zoom in H. destruct (m (w_shx w)). apply pair_inv in H. destruct H as [<- _]. reflexivity. Qed.
Lemma keeps_each {A} (body : A -> M writer unit) l : (forall a, keeps (body a)) -> keeps (for_each body l).
Proof. intros B. induction l; cbn [for_each]; [apply keeps_ret|apply keeps_bind; [apply B|intros; assumption]]. Qed.
Ltac keeps_tac := repeat first [apply keeps_shp | apply keeps_shx | apply keeps_lift | apply keeps_get | apply keeps_ret
  | apply keeps_modify; intros; reflexivity | apply keeps_each; intros ? | apply keeps_bind; [|intros ?]].
Lemma keeps_fix : keeps fix_type.
Proof.
  unfold fix_type. apply keeps_bind; [apply keeps_get|]. intros w. destruct (w_type w) as [[|p|p]|]; keeps_tac.
Qed.
Lemma keeps_saveShp f : keeps (saveShp f).
Proof. unfold saveShp, shp_records, shp_record. apply keeps_bind; [apply keeps_fix|intros _]. cbv zeta. keeps_tac. Qed.
Lemma keeps_saveShx f : keeps (saveShx f).
Proof. unfold saveShx, shx_records. apply keeps_bind; [apply keeps_fix|intros _]. keeps_tac. Qed.

(** ** Saving the table *)
Lemma stored_rows fr fs ns rows : Forall (row_storable fr fs ns) rows -> exists bss, Forall2 (row_stored fr fs ns) rows bss.
Proof.
  induction 1 as [|v rows [L S] _ [bss IH]]; [exists []; constructor|].
  assert (E : exists bs, row_stored fr fs ns v bs).
  { unfold row_stored. induction S as [|x l [[b B] _] _ [bs [_ IHl]]]; [exists []; split; [exact L|constructor]|]. exists (b :: bs). split; [exact L|]. constructor; assumption. }
  destruct E as [bs B]. exists (bs :: bss). constructor; assumption.
Qed.
Lemma program_tab given steps fs ns rows w : table_program given steps fs ns rows w -> with_flag (w_fields w) fs /\ w_records w = rows.
Proof.
  intros [R C S F Z G _]. destruct (steps_rows fs steps S (Writer given) w rows F C G R) as [E1 E2]. cbn in E1, E2. rewrite E1. auto.
Qed.
Lemma rows_written fr fs ns rows bss : Forall2 (row_stored fr fs ns) rows bss -> Forall2 (row_written fr fs ns) rows bss.
Proof.
  apply F2_impl. intros v bs [L H]. split; [exact L|]. eapply F2_impl; [|exact H]. intros x b. apply stored_written.
Qed.
Lemma table_saved fr today given steps fs ns rows w w1 bss : plausible today -> table_program given steps fs ns rows w -> tab w1 = tab w ->
  Forall2 (row_written fr fs ns) rows bss ->
  exists w2, saveDbf fr today new_file w1 = (w2, Ok tt) /\ fdata (w_dbf w2) = dbf_file today fs ns bss /\ w_fields w2 = fs /\ w_records w2 = rows /\
    w_shp w2 = w_shp w1 /\ w_shx w2 = w_shx w1.
Proof.
  intros Date P T ST. destruct (program_tab _ _ _ _ _ _ P) as [WF WR]. destruct P as [_ _ S _ Z _ [H1 [H2 H3]]].
  unfold tab in T. injection T as T1 T2.
  destruct (saveDbf_run fr today fs ns Date Z w1 bss) as [w2 [[] [E [F [R [I D]]]]]]; try assumption.
  - rewrite T1. exact WF.
  - rewrite T2, WR. exact H3.
  - left. exact S.
  - rewrite T2, WR. exact ST.
  - exists w2. split; [exact E|]. split; [exact D|]. split; [exact F|]. split; [congruence|]. split; congruence.
Qed.

Lemma table_outcome fr today given steps fs ns rows w : plausible today -> table_program given steps fs ns rows w ->
  Forall (row_proper fr fs ns) rows ->
  (exists w' bss, saveDbf fr today new_file w = (w', Ok tt) /\ Forall2 (row_written fr fs ns) rows bss /\ fdata (w_dbf w') = dbf_file today fs ns bss) \/
  (exists w' e, saveDbf fr today new_file w = (w', Err e) /\
     Exists (fun v => Exists (fun x => failing fr (fst (fst x)) (snd (fst x)) (snd x) e) (cells_of fs ns v)) rows).
Proof.
  intros Date P PR. destruct (program_tab _ _ _ _ _ _ P) as [WF WR]. destruct P as [_ _ S _ Z _ [H1 [H2 H3]]]. subst rows.
  apply saveDbf_outcome; assumption.
Qed.
(** ** Length of the file *)
Lemma char_ascii c : scalarb c = true -> (length (utf8_char c) = 1%nat <-> 0 <= c < 128).
Proof.
  intros H. apply scalar_range in H. unfold utf8_char. destruct (Z.ltb_spec c 128); [|destruct (Z.ltb_spec c 2048); [|destruct (Z.ltb_spec c 65536)]]; cbn; lia.
Qed.
Lemma encoded_length t bs : utf8_encode t = Ok bs -> (length t <= length bs)%nat /\ (length bs = length t <-> ascii t).
Proof.
  intros E. apply utf8_encode_inv in E. destruct E as [-> F]. split; [apply encode_length_ge|].
  induction F as [|c t HC F IH]; [split; [constructor|reflexivity]|]. cbn [flat_map length]. rewrite app_length.
  pose proof (char_nonempty c). pose proof (encode_length_ge t). pose proof (char_ascii c HC). split.
  - intros L. constructor; [apply H1; lia|apply IH; lia].
  - intros A. inversion A as [|? ? A1 A2]; subst. apply H1 in A1. apply IH in A2. lia.
Qed.
Lemma shown_fun fr v s s' : shown fr v s -> shown fr v s' -> s = s'.
Proof. destruct v; cbn [shown]; [congruence|congruence|congruence|intros [_ ->] [_ ->]; reflexivity]. Qed.
Lemma cell_string_fun f n s t t' : cell_string f n s t -> cell_string f n s t' -> t = t'.
Proof.
  assert (X : numeric f -> logical f -> False).
  { intros [A|A] [B|B]; rewrite A in B; discriminate. }
  intros [[A [_ ->]]|[[A [_ [c [r [E ->]]]]]|[A [B ->]]]] [[A' [_ ->]]|[[A' [_ [c' [r' [E' ->]]]]]|[A' [B' ->]]]]; try tauto; try reflexivity. congruence.
Qed.
Lemma written_length fr f n v bs : 0 <= n -> written fr f n v bs -> n <= Z.of_nat (length bs) /\ (Z.of_nat (length bs) = n <-> plain_cell fr f n v).
Proof.
  intros N [s [t [SH [C E]]]]. pose proof (cell_string_length fr f n s t N C) as L. destruct (encoded_length t bs E) as [L1 L2].
  split; [lia|]. split.
  - intros LE. exists s, t. split; [exact SH|]. split; [exact C|]. apply L2. lia.
  - intros [s' [t' [SH' [C' A]]]]. rewrite (shown_fun fr v s s' SH SH') in C. rewrite (cell_string_fun f n s' t t' C C') in *. apply L2 in A. lia.
Qed.
Lemma row_written_length fr fs ns v bss : Forall2 column fs ns -> row_written fr fs ns v bss ->
  zsum ns <= Z.of_nat (length (concat bss)) /\
  (Z.of_nat (length (concat bss)) = zsum ns <-> Forall (fun x => plain_cell fr (fst (fst x)) (snd (fst x)) (snd x)) (cells_of fs ns v)).
Proof.
  unfold row_written, cells_of. intros C0 [L H]. revert v bss L H. induction C0 as [|f n l k C HC IH]; intros v bss L H.
  - cbn in *. inversion H. cbn. split; [lia|]. split; [constructor|reflexivity].
  - destruct v as [|x v]; [discriminate|]. cbn [combine] in *. inversion H as [|? bs ? bss' H1 H2]; subst. cbn [fst snd] in H1.
    destruct C as [_ [_ [_ [N _]]]]. destruct (written_length fr f n x bs (proj1 N) H1) as [A1 A2].
    destruct (IH v bss' ltac:(cbn in L; lia) H2) as [B1 B2]. cbn [concat]. rewrite app_length, zsum_cons. split; [lia|]. split.
    + intros E. constructor; [apply A2; lia|apply B2; lia].
    + intros F. inversion F as [|? ? F1 F2]; subst. apply A2 in F1. apply B2 in F2. lia.
Qed.
Lemma concat_descriptors fs ns : Forall2 column fs ns -> length (concat (map (fun fn => descriptor (fst fn) (snd fn)) (combine fs ns))) = (32 * length fs)%nat.
Proof.
  induction 1 as [|f n l k C H IH]; [reflexivity|]. cbn [combine map concat fst snd length]. rewrite app_length, IH. destruct C as [_ [[c [T _]] _]].
  unfold descriptor. rewrite !app_length, firstn_length, app_length, T, !repeat_length. cbn [length]. lia.
Qed.
Lemma file_length fr today fs ns rows bss : Forall2 column fs ns -> Forall2 (row_written fr fs ns) rows bss ->
  let declared := 33 + 32 * Z.of_nat (length fs) + Z.of_nat (length rows) * (1 + zsum ns) in
  declared <= Z.of_nat (length (dbf_file today fs ns bss)) /\
  (Z.of_nat (length (dbf_file today fs ns bss)) = declared <-> Forall (row_plain fr fs ns) rows).
Proof.
  intros C R declared. unfold dbf_file. rewrite app_length.
  assert (E : length (dbf_start today fs ns (length bss)) = (33 + 32 * length fs)%nat).
  { unfold dbf_start. destruct today as [[y mo] d]. rewrite !app_length, (concat_descriptors fs ns C), repeat_length. cbn [length le32 le16]. lia. }
  rewrite E. subst declared. clear E.
  assert (K : Z.of_nat (length rows) * (1 + zsum ns) <= Z.of_nat (length (flat_map row_bytes bss)) /\
    (Z.of_nat (length (flat_map row_bytes bss)) = Z.of_nat (length rows) * (1 + zsum ns) <-> Forall (row_plain fr fs ns) rows)).
  { induction R as [|v b rows bss H R [IH1 IH2]]; [cbn; split; [lia|split; [constructor|reflexivity]]|].
    destruct (row_written_length fr fs ns v b C H) as [A1 A2]. cbn [flat_map]. rewrite app_length. unfold row_bytes at 1 3. cbn [length].
    split; [lia|]. split.
    - intros X. constructor; [split; [apply H|apply A2; lia]|apply IH2; lia].
    - intros F. inversion F as [|? ? F1 F2]; subst. apply (proj2 A2) in F1 || (destruct F1 as [_ F1]; apply A2 in F1). apply IH2 in F2. lia. }
  split; [lia|]. rewrite <- (proj2 K). lia.
Qed.

(** ** Reading the table *)
Lemma restrict_at n i k : position n i k -> restrict_index (Some (Z.of_nat n)) i = Ok (Z.of_nat k).
Proof.
  intros [K H]. unfold restrict_index. destruct (Z.eqb_spec (Z.of_nat n) 0); [lia|].
  destruct (Z.ltb_spec (Z.of_nat n - 1) (Z.abs i)); [lia|]. destruct (Z.ltb_spec i 0); f_equal; lia.
Qed.
Lemma restrict_out n i : n <> O -> outside n i -> restrict_index (Some (Z.of_nat n)) i = Err IndexError.
Proof.
  intros N H. unfold outside in H. unfold restrict_index. destruct (Z.eqb_spec (Z.of_nat n) 0); [lia|].
  destruct (Z.ltb_spec (Z.of_nat n - 1) (Z.abs i)); [reflexivity|lia].
Qed.
Lemma count_nonzero (n : nat) : n <> 0%nat -> negb (truthy (Some (Z.of_nat n))) = false.
Proof. intros H. cbn. destruct (Z.eqb_spec (Z.of_nat n) 0); [lia|reflexivity]. Qed.
Section Read.
Variable fr : list Z -> list Z.
Variables (today : Z * Z * Z) (fs : list field) (ns : list Z).
Hypothesis Date : plausible today.
Hypothesis Cols : Forall2 column fs ns.
Hypothesis Some_ : fs <> [].
Variables (vals : list (list cell)) (rows : list (list (list Z))).
Hypothesis Rows : Forall2 (row_stored fr fs ns) vals rows.
Variable marks : list Z.
Hypothesis Marks : length marks = length rows.
Hypothesis Fits : table_fits fs ns vals.
Hypothesis Any : rows <> [].
Variable table : list (list cell).
Hypothesis Tab : Forall2 (row_returned fr fs ns) vals table.
Hypothesis Reads : Forall2 (row_reads fs ns) rows table.
Notation table_open := (table_open today fs ns rows marks).
Lemma mreads : Forall2 (mrow_reads fs ns) (mrows rows marks) (marked marks table).
Proof. eapply mark_reads; eassumption. Qed.
Lemma table_full : Forall (fun cs => cs <> []) table.
Proof.
  clear - Tab Some_ Cols. revert table Tab. generalize vals. intros vals' table' T0.
  induction T0 as [|v cs vs tb [L R] _ IH]; [constructor|]. constructor; [|exact IH].
  intros ->. inversion R as [E|]. unfold cells_of in E.
  inversion Cols as [|f n l k C1 C2]; subst; [contradiction|]. destruct v; discriminate.
Qed.
Lemma records_fine r : table_open r -> runs records r (fun r' x => x = undeleted marks table /\ table_open r' /\ others r' = others r) /\ iterRecords r = (undeleted marks table, Ok tt).
Proof.
  intros T. destruct Fits as [F1 [F2 F3]]. rewrite <- (keep_marked marks table table_full).
  apply (records_ok fr today fs ns Date Cols vals rows Rows marks Marks F1 F3 r _ T Any mreads).
Qed.
Lemma record_fine r i k : table_open r -> position (length rows) i k ->
  runs (record_at i) r (fun r' x => nth_error (marked marks table) k = Some x /\ table_open r' /\ others r' = others r).
Proof.
  intros T P. destruct Fits as [F1 [F2 F3]].
  pose proof mreads as MR.
  assert (KL : (k < length (marked marks table))%nat) by (rewrite <- (F2_length MR), mrows_length; [apply P|exact Marks]).
  destruct (nth_error (marked marks table) k) as [o|] eqn:E; [|apply nth_error_None in E; lia].
  eapply runs_weaken; [apply (record_at_ok fr today fs ns Date Cols vals rows Rows marks Marks F1 F3 r _ i k o T MR E)|].
  - rewrite (to_count _ _ _ _ _ r T). apply restrict_at, P.
  - intros r' x [-> K]. auto.
Qed.
Lemma record_out r i : table_open r -> outside (length rows) i -> exists r', record_at i r = (r', Err IndexError) /\ table_open r' /\ others r' = others r.
Proof.
  intros T O. pose proof (to_dbf _ _ _ _ _ r T) as [f [E D]].
  assert (X : runs (in_dbf (ret tt)) r (fun r' _ => table_open r' /\ others r' = others r)).
  { eapply runs_dbf; [exact E|reflexivity|]. intros r1 A1 B1 C1 D1 I1. split.
    - apply (table_frame _ _ _ _ _ r); [exact T|exists f; auto|exact I1].
    - unfold others. unfold info in I1. congruence. }
  destruct X as [r1 [[] [E1 [T1 O1]]]]. exists r1. split; [|auto].
  unfold record_at. rewrite (mbind_run _ _ _ _ _ E1). unfold mbind at 1. unfold get at 1.
  assert (NZ : length rows <> 0%nat) by (intros L; apply length_zero_iff_nil in L; contradiction).
  rewrite (to_count _ _ _ _ _ r1 T1), (count_nonzero _ NZ).
  unfold when, mbind, ret, get, lift. rewrite (to_count _ _ _ _ _ r1 T1), (restrict_out _ _ NZ O). reflexivity.
Qed.
(** A step with the table *)
Lemma look_table fuel l r r' x : table_open r -> of_table l ->
  (forall i, index_of l = Some i -> (exists k, position (length rows) i k) \/ outside (length rows) i) ->
  look fuel l r = (r', x) -> table_open r' /\ others r' = others r.
Proof.
  intros T OT IX H. destruct l as [|i| |i| |i]; try contradiction; cbn [look index_of] in *.
  - destruct (records_fine r T) as [[r1 [y [E [_ K]]]] _]. rewrite (mbind_run _ _ _ _ _ E) in H. unfold ret in H. pinv H. exact K.
  - destruct (IX i eq_refl) as [[k P]|O].
    + destruct (record_fine r i k T P) as [r1 [y [E [_ K]]]]. rewrite (mbind_run _ _ _ _ _ E) in H. unfold ret in H. pinv H. exact K.
    + destruct (record_out r i T O) as [r1 [E K]]. unfold mbind in H. rewrite E in H. pinv H. exact K.
Qed.
End Read.

(** ** The table alone *)
Lemma reopen_empty today fs ns r f : table_open today fs ns [] [] r -> fs <> [] -> r_dbf r = Some f -> rest f = [] ->
  exists r', read_dbf_header r = (r', Err StructError).
Proof.
  intros T NE E R. unfold read_dbf_header.
  assert (H : dbf_header_length r = (r, Ok (head_len fs))).
  { unfold dbf_header_length, mbind, get. rewrite (to_hdr _ _ _ _ _ r T). destruct (Z.eqb_spec (head_len fs) 0) as [X|X]; [unfold head_len in X; lia|reflexivity]. }
  rewrite (mbind_run _ _ _ _ _ H). cbv zeta.
  replace (Z.to_nat ((head_len fs - 33) / 32)) with (length fs).
  2:{ unfold head_len. replace (33 + 32 * Z.of_nat (length fs) - 33) with (Z.of_nat (length fs) * 32) by lia. rewrite Z.div_mul by lia. lia. }
  destruct fs as [|g l]; [contradiction|]. cbn [length seq for_each].
  unfold mbind at 1 2 3. unfold in_dbf at 1, with_file. rewrite E. unfold f_get, mbind, f_read. fold (rest f). rewrite R.
  change (firstn (Z.to_nat 32) []) with (@nil Z). cbn [Z.ltb Z.compare]. cbn. eexists. reflexivity.
Qed.
Lemma marked_read fr today fs ns rows bss marks : plausible today -> Forall2 column fs ns -> fs <> [] -> table_fits fs ns rows ->
  Forall2 (row_stored fr fs ns) rows bss -> Forall (row_storable fr fs ns) rows -> length marks = length rows ->
  exists table r0, Forall2 (row_returned fr fs ns) rows table /\
    Reader None None (Some (marked_file today fs ns marks bss)) = (r0, Ok tt) /\
    r_fields r0 = flag_column :: map (fun fn => back (fst fn) (snd fn)) (combine fs ns) /\ r_numRecords r0 = Some (Z.of_nat (length rows)) /\
    (rows <> [] -> forall r, used_by of_table (length rows) (length rows) r0 r ->
       (exists r', records r = (r', Ok (undeleted marks table))) /\ iterRecords r = (undeleted marks table, Ok tt) /\
       (forall i k o, position (length rows) i k -> nth_error (marked marks table) k = Some o -> exists r', record_at i r = (r', Ok o)) /\
       (forall i, outside (length rows) i -> exists r', record_at i r = (r', Err IndexError))) /\
    (rows = [] -> iterRecords r0 = ([], Err StructError) /\ (exists r', records r0 = (r', Err StructError)) /\
       forall i, exists r', record_at i r0 = (r', Err StructError)).
Proof.
  intros Date Cols NE Fits B ST LM. pose proof Fits as [F1 [F2 F3]].
  destruct (all_reads fr fs ns Cols rows bss B ST) as [table [T1 T2]].
  set (r00 := mkReader None None (Some (mkFile (marked_file today fs ns marks bss) 0)) [] None None [] 0 None [] [] []).
  pose proof (F2_length B) as LB. assert (LM' : length marks = length bss) by congruence.
  destruct (open_ok fr today fs ns Date Cols rows bss B marks LM' F1 F3 r00) as [r0 [[] [RO [TO [_ [f [EF RF]]]]]]].
  { eexists. split; [reflexivity|]. split; reflexivity. } { reflexivity. } { reflexivity. }
  exists table, r0. split; [exact T1|]. split.
  { exact RO. }
  split; [apply (to_fields _ _ _ _ _ r0 TO)|]. split; [rewrite LB; apply (to_count _ _ _ _ _ r0 TO)|]. split.
  - intros AN r U. rewrite LB in U |- *.
    assert (ANB : bss <> []) by (intros ->; destruct rows; [contradiction|discriminate]).
    assert (TR : table_open today fs ns bss marks r).
    { clear - U TO T1 T2 Date Cols NE B Fits ANB LM'. induction U as [|r r' fuel l x U IH PL FU IX H]; [exact TO|].
      eapply (look_table fr today fs ns Date Cols NE rows bss B marks LM' Fits ANB table T1 T2 fuel l r r' x IH PL); [|exact H].
      intros i Hi. destruct (IX i Hi) as [[k [K1 _]]|O]; [left; exists k; exact K1|right; exact O]. }
    split; [|split; [|split]].
    + destruct (records_fine fr today fs ns Date Cols NE rows bss B marks LM' Fits ANB table T1 T2 r TR) as [[r' [x [E [-> _]]]] _]. exists r'. exact E.
    + apply (records_fine fr today fs ns Date Cols NE rows bss B marks LM' Fits ANB table T1 T2 r TR).
    + intros i k o K N. destruct (record_fine fr today fs ns Date Cols rows bss B marks LM' Fits table T2 r i k TR K) as [r' [x [E [N' _]]]].
      exists r'. rewrite E. congruence.
    + intros i O. destruct (record_out today fs ns bss marks ANB r i TR O) as [r' [E _]]. exists r'. exact E.
  - intros ->. inversion B. subst bss. destruct marks; [|discriminate]. cbn [flat_map mrows combine] in RF. clear RO T1 T2.
    destruct (reopen_empty today fs ns r0 f TO NE EF RF) as [r1 RE].
    assert (CZ : negb (truthy (r_numRecords r0)) = true) by (rewrite (to_count _ _ _ _ _ r0 TO); reflexivity).
    assert (W : forall A (k : M reader A), (when (negb (truthy (r_numRecords r0))) read_dbf_header ;;; k) r0 = (r1, Err StructError)).
    { intros A k. rewrite CZ. unfold when, mbind. rewrite RE. reflexivity. }
    split; [|split].
    + unfold iterRecords. unfold mbind at 1. unfold get at 1. rewrite W. reflexivity.
    + exists r1. unfold records. unfold mbind at 1. unfold get at 1. apply W.
    + intros i. unfold record_at.
      assert (X : in_dbf (ret tt) r0 = (r0, Ok tt)).
      { unfold in_dbf, with_file. rewrite EF. unfold ret. f_equal. destruct r0. cbn in EF. subst. reflexivity. }
      exists r1. rewrite (mbind_run _ _ _ _ _ X). unfold mbind at 1. unfold get at 1. apply W.
Qed.
Lemma unmarked_file today fs ns rows : dbf_file today fs ns rows = marked_file today fs ns (repeat 32 (length rows)) rows.
Proof.
  unfold dbf_file, marked_file. f_equal. induction rows as [|r rows IH]; [reflexivity|]. cbn [length repeat combine flat_map fst snd]. rewrite <- IH. reflexivity.
Qed.
Lemma unmarked {A} (table : list A) : undeleted (repeat 32 (length table)) table = table /\ marked (repeat 32 (length table)) table = map Some table.
Proof.
  unfold undeleted, marked. induction table as [|c table [IH1 IH2]]; [split; reflexivity|]. cbn [length repeat combine filter map fst snd Z.eqb Pos.eqb].
  rewrite IH1, IH2. split; reflexivity.
Qed.
Lemma table_round_trip fr today given steps fs ns rows w : plausible today -> table_program given steps fs ns rows w -> Forall (row_storable fr fs ns) rows ->
  exists table w1 r0, Forall2 (row_returned fr fs ns) rows table /\ saveDbf fr today new_file w = (w1, Ok tt) /\
    Reader None None (Some (fdata (w_dbf w1))) = (r0, Ok tt) /\
    r_fields r0 = flag_column :: map (fun fn => back (fst fn) (snd fn)) (combine fs ns) /\ r_numRecords r0 = Some (Z.of_nat (length rows)) /\
    (rows <> [] -> forall r, used_by of_table (length rows) (length rows) r0 r ->
       (exists r', records r = (r', Ok table)) /\ iterRecords r = (table, Ok tt) /\
       (forall i k cs, position (length rows) i k -> nth_error table k = Some cs -> exists r', record_at i r = (r', Ok (Some cs))) /\
       (forall i, outside (length rows) i -> exists r', record_at i r = (r', Err IndexError))) /\
    (rows = [] -> iterRecords r0 = ([], Err StructError) /\ (exists r', records r0 = (r', Err StructError)) /\
       forall i, exists r', record_at i r0 = (r', Err StructError)).
Proof.
  intros Date P ST. destruct (stored_rows fr fs ns rows ST) as [bss B].
  destruct (table_saved fr today given steps fs ns rows w w bss Date P eq_refl (rows_written _ _ _ _ _ B)) as [w1 [E1 [E2 _]]].
  destruct (marked_read fr today fs ns rows bss (repeat 32 (length bss)) Date (tp_sizes _ _ _ _ _ _ P) (tp_some _ _ _ _ _ _ P) (tp_fits _ _ _ _ _ _ P) B ST)
    as [table [r0 [T1 [RO [F0 [N0 [H1 H2]]]]]]]; [rewrite repeat_length, (F2_length B); reflexivity|].
  exists table, w1, r0. split; [exact T1|]. split; [exact E1|]. split; [rewrite E2, unmarked_file; exact RO|].
  split; [exact F0|]. split; [exact N0|]. split; [|exact H2]. intros AN r U. destruct (H1 AN r U) as [A1 [A2 [A3 A4]]].
  rewrite <- (F2_length B), (F2_length T1) in A1, A2, A3. destruct (unmarked table) as [U1 U2]. rewrite U1 in A1, A2. rewrite U2 in A3. rewrite <- (F2_length T1) in A3.
  split; [exact A1|]. split; [exact A2|]. split; [|exact A4]. intros i k cs PI N. apply (A3 i k (Some cs) PI). rewrite nth_error_map, N. reflexivity.
Qed.
