(** The methods of Reader that give shapes, on files that Writer wrote. *)
From Verif Require Import Py VlvModel ShpFile ShpWriterModel ShpReaderModel ShpLib ShpSpec ShpWriterProofs ShpSave ShpRead ShpPrograms.
Open Scope Z_scope.
Open Scope m_scope.

(** ** Successful runs with a postcondition *)
Definition runs {S A} (m : M S A) (s : S) (Q : S -> A -> Prop) : Prop :=
  exists s' a, m s = (s', Ok a) /\ Q s' a.
Lemma runs_bind {S A B} (m : M S A) (k : A -> M S B) s Q :
  runs m s (fun s1 a => runs (k a) s1 Q) -> runs (mbind m k) s Q.
Proof. intros [s1 [a [E [s2 [b [E2 H]]]]]]. exists s2, b. unfold mbind. rewrite E. auto. Qed.
Lemma runs_ret {S A} (a : A) (s : S) (Q : S -> A -> Prop) : Q s a -> runs (ret a) s Q.
Proof. intros H. exists s, a. auto. Qed.
Lemma runs_get {S} (s : S) (Q : S -> S -> Prop) : Q s s -> runs get s Q.
Proof. intros H. exists s, s. auto. Qed.
Lemma runs_modify {S} g (s : S) (Q : S -> unit -> Prop) : Q (g s) tt -> runs (modify g) s Q.
Proof. intros H. exists (g s), tt. auto. Qed.
Lemma runs_lift {S A} (x : res A) a (s : S) (Q : S -> A -> Prop) : x = Ok a -> Q s a -> runs (lift x) s Q.
Proof. intros -> H. exists s, a. auto. Qed.
Lemma runs_weaken {S A} (m : M S A) s (Q Q' : S -> A -> Prop) : runs m s Q -> (forall s' a, Q s' a -> Q' s' a) -> runs m s Q'.
Proof. intros [s' [a [E H]]] W. exists s', a. auto. Qed.

Definition info (r : reader) := (r_numRecords r, r_fields r, r_hdr r, r_type r, r_bbox r, r_elevation r, r_measure r).
Lemma runs_shp {A} (m : M file A) r f f' a (Q : reader -> A -> Prop) : r_shp r = Some f -> m f = (f', Ok a) ->
  (forall r', r_shp r' = Some f' -> r_shx r' = r_shx r -> r_dbf r' = r_dbf r -> r_offsets r' = r_offsets r -> info r' = info r ->
     Q r' a) -> runs (in_shp m) r Q.
Proof.
  intros E M H. exists (r_set_shp (Some f') r), a. unfold in_shp, with_file. rewrite E, M. split; [reflexivity|]. apply H; reflexivity.
Qed.
Lemma runs_shx {A} (m : M file A) r f f' a (Q : reader -> A -> Prop) : r_shx r = Some f -> m f = (f', Ok a) ->
  (forall r', r_shx r' = Some f' -> r_shp r' = r_shp r -> r_dbf r' = r_dbf r -> r_offsets r' = r_offsets r -> info r' = info r ->
     Q r' a) -> runs (in_shx m) r Q.
Proof.
  intros E M H. exists (r_set_shx (Some f') r), a. unfold in_shx, with_file. rewrite E, M. split; [reflexivity|]. apply H; reflexivity.
Qed.

Section Saved.
Variables (t : Z) (b z m : list dbl) (gs : list geometry) (cs : list (list Z)) (ss : list shape).
Hypothesis Lb : length b = 4%nat.
Hypothesis Lz : length z = 2%nat.
Hypothesis Lm : length m = 2%nat.
(** The entries of the index: those of a .shx file may point anywhere. *)
Variables (os ls : list Z).
Hypothesis Los : length os = length cs.
Hypothesis Lls : length ls = length cs.
Hypothesis Even : Forall (fun o => o mod 2 = 0) os.
Hypothesis Shown : Forall2 (shows m) cs ss.
Hypothesis Num : numbered 1 cs.
Hypothesis Index : Forall (fun o => i32 (o / 2)) os.
Hypothesis Count : i32 ((100 + 8 * Z.of_nat (length cs)) / 2).
Hypothesis Size : i32 ((100 + Z.of_nat (length (all_records 1 cs))) / 2).
Variable has_shx : bool.
Definition index_file : list Z :=
  header ((100 + 8 * Z.of_nat (length cs)) / 2) t b z m ++ flat_map (fun ol => entry (fst ol) (snd ol)) (combine os ls).

Record opened (r : reader) : Prop := {
  op_shp : exists f, r_shp r = Some f /\ fdata f = shp_file t b z m cs;
  op_shx : if has_shx then exists f, r_shx r = Some f /\ fdata f = index_file else r_shx r = None;
  op_offsets : r_offsets r = [] \/ (has_shx = true /\ r_offsets r = os);
  op_measure : r_measure r = m
}.
Lemma opened_frame r r' : opened r -> (exists f, r_shp r' = Some f /\ fdata f = shp_file t b z m cs) ->
  r_shx r' = r_shx r -> r_offsets r' = r_offsets r -> info r' = info r -> opened r'.
Proof.
  intros [A B C D] E X O I. constructor; [exact E|rewrite X; exact B|rewrite O; exact C|].
  unfold info in I. injection I as _ _ _ _ _ _ I. rewrite I. exact D.
Qed.
Lemma head_100 w : length (header w t b z m) = 100%nat.
Proof. apply header_length; assumption. Qed.
Lemma body_rest : rest (mkFile (shp_file t b z m cs) 100) = all_records 1 cs.
Proof.
  unfold rest, shp_file. cbv zeta. cbn [fdata fpos]. rewrite <- (head_100 ((100 + Z.of_nat (length (all_records 1 cs))) / 2)) at 1.
  rewrite skipn_app, skipn_all, Nat.sub_diag. reflexivity.
Qed.
Lemma file_length : length (shp_file t b z m cs) = (100 + length (all_records 1 cs))%nat.
Proof. unfold shp_file. cbv zeta. rewrite app_length, head_100. reflexivity. Qed.

Lemma rewind_ok r (Q : reader -> Z -> Prop) : opened r ->
  (forall r', r_shp r' = Some (mkFile (shp_file t b z m cs) 100) -> opened r' -> r_dbf r' = r_dbf r -> info r' = info r ->
     Q r' (Z.of_nat (length (shp_file t b z m cs)))) -> runs rewind r Q.
Proof.
  intros O H. pose proof (op_shp r O) as [f [E D]]. unfold rewind.
  apply runs_bind. eapply runs_shp; [exact E|reflexivity|]. intros r1 A1 B1 C1 D1 I1.
  apply runs_bind. eapply runs_shp; [exact A1|reflexivity|]. intros r2 A2 B2 C2 D2 I2. cbn [fpos fdata] in *.
  apply runs_bind. apply runs_modify.
  apply runs_bind. eapply runs_shp; [exact A2|reflexivity|]. intros r3 A3 B3 C3 D3 I3. cbn [fpos fdata] in *.
  apply runs_ret. rewrite D in *.
  apply H.
  - exact A3.
  - apply (opened_frame r); [exact O|eexists; split; [exact A3|reflexivity]|..].
    + rewrite B3. change (r_shx (r_set_shpLength _ ?x)) with (r_shx x). congruence.
    + rewrite D3. change (r_offsets (r_set_shpLength _ ?x)) with (r_offsets x). congruence.
    + rewrite I3. change (info (r_set_shpLength _ ?x)) with (info x). congruence.
  - rewrite C3. change (r_dbf (r_set_shpLength _ ?x)) with (r_dbf x). congruence.
  - rewrite I3. change (info (r_set_shpLength _ ?x)) with (info x). congruence.
Qed.
Lemma loops fuel : (length cs < fuel)%nat ->
  let f := mkFile (shp_file t b z m cs) 100 in
  let len := Z.of_nat (length (shp_file t b z m cs)) in
  (exists f', fdata f' = shp_file t b z m cs /\ shapes_loop fuel m len f = (f', Ok (Some ss))) /\
  iter_loop fuel m len f = (ss, Some (Ok tt)) /\
  forall k s, nth_error ss k = Some s ->
    exists f', fdata f' = shp_file t b z m cs /\ find_loop fuel m len 0 (Z.of_nat k) f = (f', Ok (Some (Some s))).
Proof.
  intros FU f len.
  destruct (shapes_loop_ok m cs ss Shown 1 f fuel Num) as [A [B C]].
  - unfold f. cbn [fdata fpos]. rewrite file_length. lia.
  - apply body_rest.
  - exact FU.
  - split; [eexists; split; [|exact A]; reflexivity|]. split; [exact B|].
    intros k s K. destruct (C 0 k s K) as [f' [D E]]. exists f'. split; [exact D|exact E].
Qed.
Lemma shapes_ok r fuel : opened r -> (length cs < fuel)%nat ->
  runs (shapes fuel) r (fun r' x => x = Some ss /\ opened r' /\ r_dbf r' = r_dbf r /\ info r' = info r).
Proof.
  intros O FU. unfold shapes. apply runs_bind. apply rewind_ok; [exact O|]. intros r1 A1 O1 D1 I1.
  apply runs_bind. apply runs_get. rewrite (op_measure r1 O1).
  destruct (loops fuel FU) as [[f' [Df L]] _].
  eapply runs_shp; [exact A1|exact L|]. intros r2 A2 B2 C2 D2 I2.
  split; [reflexivity|]. split; [|split; congruence].
  eapply (opened_frame r1); try eassumption. exists f'. auto.
Qed.
Lemma iter_ok r fuel : opened r -> (length cs < fuel)%nat -> iterShapes fuel r = (ss, Some (Ok tt)).
Proof.
  intros O FU. unfold iterShapes.
  assert (W : runs rewind r (fun r' n => r_shp r' = Some (mkFile (shp_file t b z m cs) 100) /\ r_measure r' = m /\
             n = Z.of_nat (length (shp_file t b z m cs)))).
  { apply rewind_ok; [exact O|]. intros r1 A1 O1 D1 I1. split; [exact A1|]. split; [apply (op_measure r1 O1)|reflexivity]. }
  destruct W as [r' [n [E [A [B ->]]]]]. rewrite E, A, B. apply (loops fuel FU).
Qed.

(** ** Reading the index *)
Lemma index_rest : skipn (Z.to_nat 100) index_file = flat_map (fun ol => entry (fst ol) (snd ol)) (combine os ls).
Proof.
  change (Z.to_nat 100) with 100%nat. unfold index_file. set (h := header _ t b z m).
  replace 100%nat with (length h) by apply head_100. rewrite skipn_app, skipn_all, Nat.sub_diag. reflexivity.
Qed.
Lemma seek_get {A} (f : file) n (u : list Z -> res A) bs tail a :
  skipn (Z.to_nat n) (fdata f) = bs ++ tail -> u bs = Ok a ->
  f_get (Z.of_nat (length bs)) u (mkFile (fdata f) (Z.to_nat n)) = (mkFile (fdata f) (Z.to_nat n + length bs), Ok a).
Proof.
  intros E U. rewrite (reads_get (Z.of_nat (length bs)) u bs a eq_refl U (mkFile (fdata f) (Z.to_nat n)) tail); [reflexivity|exact E].
Qed.
Definition index_step : nat -> M reader unit := fun _ =>
  o <~ in_shx (f_get 4 unpack_bi) ;;
  modify (fun r => r_set_offsets (r_offsets r ++ [o * 2]) r) ;;;
  p <~ in_shx f_tell ;;
  in_shx (f_seek (p + 4)).
Lemma index_loop xs : forall k r f, r_shx r = Some f -> rest f = flat_map (fun ol => entry (fst ol) (snd ol)) xs ->
  Forall (fun ol => fst ol mod 2 = 0 /\ i32 (fst ol / 2)) xs ->
  runs (for_each index_step (seq k (length xs))) r (fun r' _ =>
    (exists f', r_shx r' = Some f' /\ fdata f' = fdata f) /\ r_shp r' = r_shp r /\ r_dbf r' = r_dbf r /\
    r_offsets r' = r_offsets r ++ map fst xs /\ info r' = info r).
Proof.
  induction xs as [|[o l] xs IH]; intros k r f E R EV.
  - apply runs_ret. split; [exists f; auto|]. cbn [map]. rewrite app_nil_r. auto.
  - cbn [length seq for_each]. cbn [flat_map fst snd map] in *. unfold entry in R at 1. rewrite <- app_assoc in R.
    inversion EV as [|? ? [O2 I1] EV2]; subst. cbn [fst] in O2, I1.
    apply runs_bind. unfold index_step. apply runs_bind.
    eapply runs_shx; [exact E|apply (reads_get 4 unpack_bi (be32 (o / 2)) (o / 2) eq_refl (unpack_bi_be32 _ I1) f _ R)|].
    intros r1 A1 B1 C1 D1 F1. apply runs_bind. apply runs_modify. apply runs_bind.
    eapply runs_shx; [exact A1|reflexivity|]. intros r2 A2 B2 C2 D2 F2.
    eapply runs_shx; [exact A2|apply seek_to; lia|]. intros r3 A3 B3 C3 D3 F3.
    cbn [fdata fpos advance] in A3.
    replace (Z.to_nat (Z.of_nat (fpos f + length (be32 (o / 2))) + 4)) with (fpos f + 8)%nat in A3 by (change (length (be32 (o / 2))) with 4%nat; lia).
    eapply runs_weaken.
    + eapply (IH (Datatypes.S k) r3 _ A3).
      * unfold rest in R |- *. cbn [fdata fpos]. rewrite skipn_plus, R. reflexivity.
      * exact EV2.
    + intros r4 [] [[f' [A4 B4]] [C4 [D4 [E4 F4]]]]. cbn [fdata] in B4.
      split; [exists f'; auto|].
      rewrite C4, D4, E4, F4, B3, C3, D3, F3, B2, C2, D2, F2.
      change (r_shp (r_set_offsets ?a ?b)) with (r_shp b). change (r_dbf (r_set_offsets ?a ?b)) with (r_dbf b).
      change (r_offsets (r_set_offsets ?a ?b)) with a. change (info (r_set_offsets ?a ?b)) with (info b).
      rewrite B1, C1, D1, F1. split; [reflexivity|]. split; [reflexivity|]. split; [|reflexivity].
      rewrite <- app_assoc. cbn [app].
      replace (o / 2 * 2) with o; [reflexivity|]. pose proof (Z.div_mod o 2 ltac:(lia)). lia.
Qed.
Lemma map_fst_combine {A B} (x : list A) : forall (y : list B), length x = length y -> map fst (combine x y) = x.
Proof. induction x as [|a x IH]; intros [|c y] L; try discriminate; [reflexivity|]. cbn. rewrite IH by (cbn in L; lia). reflexivity. Qed.
Lemma entries_ok : Forall (fun ol => fst ol mod 2 = 0 /\ i32 (fst ol / 2)) (combine os ls).
Proof.
  apply Forall_forall. intros [o l] H. apply in_combine_l in H. cbn [fst]. rewrite Forall_forall in Even, Index. auto.
Qed.
Lemma index_loaded r : opened r -> has_shx = true -> exists f, r_shx r = Some f /\
  runs (match r_offsets r with
        | [] =>
           in_shx (f_seek 24) ;;;
           n <~ in_shx (f_get 4 unpack_bi) ;;
           let num := (n * 2 - 100) / 8 in
           in_shx (f_seek 100) ;;;
           for_each index_step (seq 0 (Z.to_nat num))
        | _ => ret tt
        end) r (fun r' _ => opened r' /\ r_shp r' = r_shp r /\ r_dbf r' = r_dbf r /\ info r' = info r /\ r_offsets r' = os).
Proof.
  intros O HX. pose proof (op_shx r O) as SX. rewrite HX in SX. destruct SX as [f [E D]]. exists f. split; [exact E|].
  destruct (r_offsets r) as [|o0 os'] eqn:OF.
  - apply runs_bind. eapply runs_shx; [exact E|apply seek_to; lia|]. intros r1 A1 B1 C1 D1 F1. rewrite D in A1.
      apply runs_bind. eapply runs_shx; [exact A1| |].
      { apply (reads_get 4 unpack_bi (be32 ((100 + 8 * Z.of_nat (length cs)) / 2)) _ eq_refl (unpack_bi_be32 _ Count) _ (skipn 28 index_file)).
        reflexivity. }
      intros r2 A2 B2 C2 D2 F2. cbv zeta. apply runs_bind.
      eapply runs_shx; [exact A2|apply seek_to; lia|]. intros r3 A3 B3 C3 D3 F3. cbn [fdata advance] in A3.
      replace (Z.to_nat (((100 + 8 * Z.of_nat (length cs)) / 2 * 2 - 100) / 8)) with (length (combine os ls)).
      2:{ rewrite combine_length, Los, Lls, Nat.min_id. replace (100 + 8 * Z.of_nat (length cs)) with ((50 + 4 * Z.of_nat (length cs)) * 2) by lia. rewrite Z.div_mul by lia.
          replace ((50 + 4 * Z.of_nat (length cs)) * 2 - 100) with (Z.of_nat (length cs) * 8) by lia. rewrite Z.div_mul by lia. lia. }
      eapply runs_weaken.
      * apply (index_loop (combine os ls) 0 r3 _ A3); [|exact entries_ok].
        unfold rest. cbn [fdata fpos]. apply index_rest.
      * intros r4 _ [[f' [A4 B4]] [C4 [D4 [E4 F4]]]]. cbn [fdata] in B4.
        assert (OF4 : r_offsets r4 = os) by (rewrite E4, D3, D2, D1, OF, map_fst_combine by congruence; reflexivity).
        split; [|split; [congruence|split; [congruence|split; [congruence|exact OF4]]]].
        constructor.
        -- rewrite C4, B3, B2, B1. apply (op_shp r O).
        -- rewrite HX. exists f'. split; [exact A4|exact B4].
        -- right. auto.
        -- assert (FI : info r4 = info r) by congruence. unfold info in FI. injection FI as _ _ _ _ _ _ FI. rewrite FI. apply (op_measure r O).
  - apply runs_ret. destruct (op_offsets r O) as [X|[_ X]]; [congruence|]. auto 6.
Qed.
Lemma shape_index_ok r k o : opened r -> has_shx = true -> nth_error os k = Some o ->
  runs (shape_index (Z.of_nat k)) r (fun r' x => x = Some o /\ opened r' /\ r_shp r' = r_shp r /\ r_dbf r' = r_dbf r /\ info r' = info r).
Proof.
  intros O HX K. unfold shape_index. apply runs_bind. apply runs_get.
  destruct (index_loaded r O HX) as [f [E RU]]. rewrite E.
  apply runs_bind. eapply runs_weaken; [exact RU|].
  intros r1 _ [O1 [A1 [B1 [C1 D1]]]]. apply runs_bind. apply runs_get. apply runs_bind.
  apply (runs_lift _ o); [rewrite D1; apply py_get_nat; exact K|]. apply runs_ret. auto.
Qed.
(** Any index: as in a list of Python *)
Lemma shape_index_any r i : opened r -> has_shx = true -> exists r',
  shape_index i r = (r', match py_get os i with Ok o => Ok (Some o) | Err e => Err e end) /\
  opened r' /\ r_shp r' = r_shp r /\ r_dbf r' = r_dbf r /\ info r' = info r.
Proof.
  intros O HX. destruct (index_loaded r O HX) as [f [E [r1 [[] [RU [O1 [A1 [B1 [C1 D1]]]]]]]]].
  exists r1. split; [|auto]. unfold shape_index. rewrite (mbind_run get _ r r r eq_refl). rewrite E.
  rewrite (mbind_run _ _ _ _ _ RU), (mbind_run get _ r1 r1 r1 eq_refl), D1. unfold mbind, lift. destruct (py_get os i); reflexivity.
Qed.
Lemma shape_at_ok r fuel i k j s : opened r -> (length cs < fuel)%nat -> restrict_index (r_numRecords r) i = Ok (Z.of_nat k) ->
  (if has_shx then nth_error os k = nth_error (offsets_from 100 cs) j else j = k) -> nth_error ss j = Some s ->
  runs (shape_at fuel i) r (fun r' x => x = Some s /\ opened r' /\ r_dbf r' = r_dbf r /\ info r' = info r).
Proof.
  intros O FU RI J K. unfold shape_at. pose proof (op_shp r O) as [f [E D]].
  apply runs_bind. eapply runs_shp; [exact E|reflexivity|]. intros r1 A1 B1 C1 D1 I1.
  assert (O1 : opened r1) by (apply (opened_frame r); try assumption; exists f; auto).
  apply runs_bind. apply runs_get. apply runs_bind. apply (runs_lift _ (Z.of_nat k)).
  { unfold info in I1. injection I1 as NR _. rewrite NR. exact RI. }
  destruct has_shx eqn:HX.
  - destruct (record_at_offset m cs ss Shown 1 (shp_file t b z m cs) (header ((100 + Z.of_nat (length (all_records 1 cs))) / 2) t b z m) Num eq_refl j s K)
      as [o [f' [N [P [Q G]]]]]. rewrite head_100 in N, P. change (Z.of_nat 100) with 100 in N. rewrite <- J in N.
    apply runs_bind. eapply runs_weaken; [apply (shape_index_ok r1 k o O1 HX N)|].
    intros r2 x [-> [O2 [A2 [B2 C2]]]]. rewrite (truthy_pos o) by lia. apply runs_bind. apply runs_ret.
    apply runs_bind. eapply runs_shp; [rewrite A2; exact A1|apply seek_to; lia|]. intros r3 A3 B3 C3 D3 I3. rewrite D in A3.
    assert (O3 : opened r3) by (apply (opened_frame r2); try assumption; eexists; split; [exact A3|reflexivity]).
    apply runs_bind. apply runs_get. apply runs_bind. rewrite (op_measure r3 O3).
    eapply runs_shp; [exact A3|exact G|]. intros r4 A4 B4 C4 D4 I4. apply runs_ret.
    split; [reflexivity|]. split; [|split; congruence].
    apply (opened_frame r3); try assumption. exists f'. auto.
  - subst j. pose proof (op_shx r1 O1) as SX. rewrite HX in SX.
    apply runs_bind. unfold shape_index. apply runs_bind. apply runs_get. rewrite SX. apply runs_ret.
    change (truthy None) with false. cbv iota. apply runs_bind. apply runs_bind. apply rewind_ok; [exact O1|].
    intros r2 A2 O2 D2 I2. apply runs_bind. apply runs_get. rewrite (op_measure r2 O2).
    destruct (loops fuel FU) as [_ [_ L]]. destruct (L k s K) as [f' [Df F]].
    eapply runs_shp; [exact A2|exact F|]. intros r3 A3 B3 C3 D3 I3. apply runs_ret.
    split; [reflexivity|]. split; [|split; congruence].
    apply (opened_frame r2); try assumption. exists f'. auto.
Qed.

(** Without an attribute table the index is used as it is. *)
Lemma py_get_end {A} (l : list A) k : (k < length l)%nat -> py_get l (Z.of_nat k - Z.of_nat (length l)) = py_get l (Z.of_nat k).
Proof.
  intros L. unfold py_get. cbv zeta. destruct (Z.ltb_spec (Z.of_nat k - Z.of_nat (length l)) 0); [|lia]. destruct (Z.ltb_spec (Z.of_nat k) 0); [lia|].
  replace (Z.of_nat k - Z.of_nat (length l) + Z.of_nat (length l)) with (Z.of_nat k) by lia. reflexivity.
Qed.
Lemma py_get_out {A} (l : list A) i : i < - Z.of_nat (length l) \/ Z.of_nat (length l) <= i -> py_get l i = Err IndexError.
Proof.
  intros H. unfold py_get. cbv zeta. destruct (Z.ltb_spec i 0).
  - destruct (Z.leb_spec 0 (i + Z.of_nat (length l))); [lia|reflexivity].
  - destruct (Z.ltb_spec i (Z.of_nat (length l))); [lia|]. rewrite andb_false_r. reflexivity.
Qed.
Lemma shape_at_end r fuel k j s : opened r -> has_shx = true -> r_numRecords r = None ->
  nth_error os k = nth_error (offsets_from 100 cs) j -> nth_error ss j = Some s ->
  runs (shape_at fuel (Z.of_nat k - Z.of_nat (length cs))) r (fun r' x => x = Some s /\ opened r' /\ r_dbf r' = r_dbf r /\ info r' = info r).
Proof.
  intros O HX NR J K. unfold shape_at. pose proof (op_shp r O) as [f [E D]].
  apply runs_bind. eapply runs_shp; [exact E|reflexivity|]. intros r1 A1 B1 C1 D1 I1.
  assert (O1 : opened r1) by (apply (opened_frame r); try assumption; exists f; auto).
  apply runs_bind. apply runs_get. apply runs_bind. apply (runs_lift _ (Z.of_nat k - Z.of_nat (length cs))).
  { unfold info in I1. injection I1 as N1 _. rewrite N1, NR. reflexivity. }
  destruct (record_at_offset m cs ss Shown 1 (shp_file t b z m cs) (header ((100 + Z.of_nat (length (all_records 1 cs))) / 2) t b z m) Num eq_refl j s K)
    as [o [f' [N [P [Q G]]]]]. rewrite head_100 in N, P. change (Z.of_nat 100) with 100 in N. rewrite <- J in N.
  assert (KL : (k < length os)%nat) by (apply nth_error_Some; congruence).
  destruct (shape_index_any r1 (Z.of_nat k - Z.of_nat (length cs)) O1 HX) as [r2 [E2 [O2 [A2 [B2 C2]]]]].
  rewrite <- Los, (py_get_end os k KL), (proj2 (py_get_nat os k o) N) in E2. rewrite <- Los.
  apply runs_bind. exists r2, (Some o). split; [exact E2|]. rewrite (truthy_pos o) by lia. apply runs_bind. apply runs_ret.
  apply runs_bind. eapply runs_shp; [rewrite A2; exact A1|apply seek_to; lia|]. intros r3 A3 B3 C3 D3 I3. rewrite D in A3.
  assert (O3 : opened r3) by (apply (opened_frame r2); try assumption; eexists; split; [exact A3|reflexivity]).
  apply runs_bind. apply runs_get. apply runs_bind. rewrite (op_measure r3 O3).
  eapply runs_shp; [exact A3|exact G|]. intros r4 A4 B4 C4 D4 I4. apply runs_ret.
  split; [reflexivity|]. split; [|split; congruence].
  apply (opened_frame r3); try assumption. exists f'. auto.
Qed.
Lemma shape_at_refused r fuel i : opened r -> (length cs < fuel)%nat -> r_numRecords r = None ->
  (if has_shx then i < - Z.of_nat (length cs) else i < 0) \/ Z.of_nat (length cs) <= i ->
  exists r', shape_at fuel i r = (r', Err (if has_shx then IndexError else TypeError)) /\ opened r' /\ r_dbf r' = r_dbf r /\ info r' = info r.
Proof.
  intros O FU NR H. unfold shape_at. pose proof (op_shp r O) as [f [E D]].
  assert (S0 : runs (in_shp (ret tt)) r (fun r1 _ => r_shp r1 = Some f /\ opened r1 /\ r_dbf r1 = r_dbf r /\ info r1 = info r)).
  { eapply runs_shp; [exact E|reflexivity|]. intros r1 A1 B1 C1 D1 I1. split; [exact A1|]. split; [|split; assumption].
    apply (opened_frame r); try assumption; exists f; auto. }
  destruct S0 as [r1 [[] [E0 [A1 [O1 [C1 I1]]]]]]. rewrite (mbind_run _ _ _ _ _ E0), (mbind_run get _ r1 r1 r1 eq_refl).
  assert (N1 : r_numRecords r1 = None) by (unfold info in I1; congruence). rewrite N1. change (restrict_index None i) with (Ok i).
  rewrite (mbind_run (lift (Ok i)) _ r1 r1 i eq_refl).
  destruct has_shx eqn:HX.
  - destruct (shape_index_any r1 i O1 HX) as [r2 [E2 [O2 [A2 [B2 C2]]]]]. rewrite (py_get_out os i) in E2 by (rewrite Los; exact H).
    exists r2. split; [unfold mbind at 1; rewrite E2; reflexivity|]. split; [exact O2|split; congruence].
  - pose proof (op_shx r1 O1) as SX. rewrite HX in SX.
    assert (E2 : shape_index i r1 = (r1, Ok None)) by (unfold shape_index; rewrite (mbind_run get _ r1 r1 r1 eq_refl), SX; reflexivity).
    rewrite (mbind_run _ _ _ _ _ E2). change (truthy None) with false. cbv iota.
    assert (S3 : runs (n <~ rewind ;; r <~ get ;; in_shp (find_loop fuel (r_measure r) n 0 i)) r1
      (fun r' x => x = Some None /\ opened r' /\ r_dbf r' = r_dbf r /\ info r' = info r)).
    { apply runs_bind. apply rewind_ok; [exact O1|]. intros r2 A2 O2 D2 I2. apply runs_bind. apply runs_get. rewrite (op_measure r2 O2).
      destruct (find_none m cs ss Shown 1 (mkFile (shp_file t b z m cs) 100) fuel 0 i Num) as [f' [Df F]].
      - cbn [fdata fpos]. rewrite file_length. lia.
      - apply body_rest.
      - exact FU.
      - lia.
      - cbn [fdata] in Df, F. eapply runs_shp; [exact A2|exact F|]. intros r3 A3 B3 C3 D3 I3.
        split; [reflexivity|]. split; [|split; congruence]. apply (opened_frame r2); try assumption. exists f'. auto. }
    destruct S3 as [r3 [x [E3 [-> [O3 [B3 C3]]]]]]. rewrite (mbind_run _ _ _ _ _ E3). exists r3. split; [reflexivity|auto].
Qed.

(** ** The header *)
Hypothesis Ti32 : i32 t.
Hypothesis Db : Forall is_dbl b.
Hypothesis Dz : Forall is_dbl z.
Hypothesis Dm : Forall is_dbl m.
Definition attrs (r : reader) := (r_shx r, r_dbf r, r_offsets r, r_numRecords r, r_fields r, r_hdr r, r_type r, r_bbox r, r_elevation r, r_measure r).
Lemma runs_shp_attrs {A} (g : M file A) r f f' a v (Q : reader -> A -> Prop) : r_shp r = Some f -> attrs r = v -> g f = (f', Ok a) ->
  (forall r', r_shp r' = Some f' -> attrs r' = v -> Q r' a) -> runs (in_shp g) r Q.
Proof.
  intros E V M H. exists (r_set_shp (Some f') r), a. unfold in_shp, with_file. rewrite E, M. split; [reflexivity|]. apply H; [reflexivity|exact V].
Qed.
Lemma header_ok r f : r_shp r = Some f -> fdata f = shp_file t b z m cs ->
  runs shp_header r (fun r' _ => (exists f', r_shp r' = Some f' /\ fdata f' = shp_file t b z m cs) /\
    r_shx r' = r_shx r /\ r_dbf r' = r_dbf r /\ r_offsets r' = r_offsets r /\
    r_numRecords r' = r_numRecords r /\ r_fields r' = r_fields r /\ r_hdr r' = r_hdr r /\
    r_type r' = Some t /\ r_bbox r' = b /\ r_elevation r' = z /\ r_measure r' = m).
Proof.
  intros E D. unfold shp_header. set (d := shp_file t b z m cs) in *.
  set (Q := fun _ _ => _). assert (V : attrs r = attrs r) by reflexivity.
  assert (HQ : forall r' f', r_shp r' = Some f' -> fdata f' = d ->
    attrs r' = (r_shx r, r_dbf r, r_offsets r, r_numRecords r, r_fields r, r_hdr r, Some t, b, z, m) -> Q r' tt).
  { intros r' f' X Y W. unfold attrs in W. injection W as W1 W2 W3 W4 W5 W6 W7 W8 W9 W10. unfold Q.
    split; [exists f'; auto|]. auto 12. }
  clearbody Q. unfold attrs at 2 in V.
  generalize dependent (r_measure r). generalize dependent (r_elevation r). generalize dependent (r_bbox r). generalize dependent (r_type r).
  generalize dependent (r_hdr r). generalize dependent (r_fields r). generalize dependent (r_numRecords r).
  generalize dependent (r_offsets r). generalize dependent (r_dbf r). generalize dependent (r_shx r).
  intros v1 v2 v3 v4 v5 v6 HQ v7 v8 v9 v10 V.
  apply runs_bind. eapply runs_shp_attrs; [exact E|exact V|apply seek_to; lia|]. clear r E V. intros r E V. rewrite D in E.
  apply runs_bind. eapply runs_shp_attrs; [exact E|exact V|apply (reads_get 4 unpack_bi (be32 ((100 + Z.of_nat (length (all_records 1 cs))) / 2)) _ eq_refl (unpack_bi_be32 _ Size) _ (skipn 28 d)); reflexivity|].
  clear r E V. intros r E V.
  apply runs_bind. apply runs_modify. change (r_shp r) with (r_shp (r_set_shpLength (Some ((100 + Z.of_nat (length (all_records 1 cs))) / 2 * 2)) r)) in E.
  change (attrs r) with (attrs (r_set_shpLength (Some ((100 + Z.of_nat (length (all_records 1 cs))) / 2 * 2)) r)) in V.
  revert E V. generalize (r_set_shpLength (Some ((100 + Z.of_nat (length (all_records 1 cs))) / 2 * 2)) r). clear r. intros r E V.
  apply runs_bind. eapply runs_shp_attrs; [exact E|exact V|apply seek_to; lia|]. clear r E V. intros r E V. cbn [fdata advance] in E.
  set (body := all_records 1 cs) in *.
  assert (R3 : rest (mkFile d (Z.to_nat 32)) = le32 t ++ doubles b ++ doubles z ++ doubles m ++ body).
  { unfold rest, d, shp_file, header. cbv zeta. rewrite <- !app_assoc. reflexivity. }
  clearbody body.
  apply runs_bind. eapply runs_shp_attrs; [exact E|exact V|apply (reads_get 4 unpack_li (le32 t) _ eq_refl (unpack_li_le32 _ Ti32) _ _ R3)|].
  clear r E V. intros r E V. apply rest_advance in R3.
  apply runs_bind. apply runs_modify. 
  assert (V' : attrs (r_set_type (Some t) r) = (v1, v2, v3, v4, v5, v6, Some t, v8, v9, v10)).
  { unfold attrs in V. injection V as V1 V2 V3 V4 V5 V6 V7 V8 V9 V10. unfold attrs. cbn [r_shx r_dbf r_offsets r_numRecords r_fields r_hdr r_type r_bbox r_elevation r_measure r_set_type r_set_bbox r_set_elevation r_set_measure]. congruence. }
  change (r_shp r) with (r_shp (r_set_type (Some t) r)) in E. clear V. revert E V'. generalize (r_set_type (Some t) r). clear r. intros r E V.
  apply runs_bind. eapply runs_shp_attrs; [exact E|exact V|apply (reads_get 32 (unpack_ds 4) (doubles b) b) with (r := doubles z ++ doubles m ++ body); [rewrite doubles_length, Lb; reflexivity|apply unpack_doubles; [exact Db|rewrite Lb; reflexivity]|exact R3]|].
  clear r E V. intros r E V. apply rest_advance in R3.
  apply runs_bind. apply runs_modify. 
  assert (V' : attrs (r_set_bbox b r) = (v1, v2, v3, v4, v5, v6, Some t, b, v9, v10)).
  { unfold attrs in V. injection V as V1 V2 V3 V4 V5 V6 V7 V8 V9 V10. unfold attrs. cbn [r_shx r_dbf r_offsets r_numRecords r_fields r_hdr r_type r_bbox r_elevation r_measure r_set_type r_set_bbox r_set_elevation r_set_measure]. congruence. }
  change (r_shp r) with (r_shp (r_set_bbox b r)) in E. clear V. revert E V'. generalize (r_set_bbox b r). clear r. intros r E V.
  apply runs_bind. eapply runs_shp_attrs; [exact E|exact V|apply (reads_get 16 (unpack_ds 2) (doubles z) z) with (r := doubles m ++ body); [rewrite doubles_length, Lz; reflexivity|apply unpack_doubles; [exact Dz|rewrite Lz; reflexivity]|exact R3]|].
  clear r E V. intros r E V. apply rest_advance in R3.
  apply runs_bind. apply runs_modify. 
  assert (V' : attrs (r_set_elevation z r) = (v1, v2, v3, v4, v5, v6, Some t, b, z, v10)).
  { unfold attrs in V. injection V as V1 V2 V3 V4 V5 V6 V7 V8 V9 V10. unfold attrs. cbn [r_shx r_dbf r_offsets r_numRecords r_fields r_hdr r_type r_bbox r_elevation r_measure r_set_type r_set_bbox r_set_elevation r_set_measure]. congruence. }
  change (r_shp r) with (r_shp (r_set_elevation z r)) in E. clear V. revert E V'. generalize (r_set_elevation z r). clear r. intros r E V.
  apply runs_bind. eapply runs_shp_attrs; [exact E|exact V|apply (reads_get 16 (unpack_ds 2) (doubles m) m) with (r := body); [rewrite doubles_length, Lm; reflexivity|apply unpack_doubles; [exact Dm|rewrite Lm; reflexivity]|exact R3]|].
  clear r E V. intros r E V.
  apply runs_modify. 
  assert (V' : attrs (r_set_measure m r) = (v1, v2, v3, v4, v5, v6, Some t, b, z, m)).
  { unfold attrs in V. injection V as V1 V2 V3 V4 V5 V6 V7 V8 V9 V10. unfold attrs. cbn [r_shx r_dbf r_offsets r_numRecords r_fields r_hdr r_type r_bbox r_elevation r_measure r_set_type r_set_bbox r_set_elevation r_set_measure]. congruence. }
  change (r_shp r) with (r_shp (r_set_measure m r)) in E.
  eapply HQ; [exact E|reflexivity|exact V'].
Qed.
End Saved.
