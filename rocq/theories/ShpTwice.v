(** Saving a Writer twice. *)
From Verif Require Import Py VlvModel ShpFile ShpWriterModel ShpReaderModel ShpLib ShpSpec ShpWriterProofs ShpSave ShpRead ShpApi ShpCalls ShpRound ShpPrograms.
Open Scope Z_scope.
Open Scope m_scope.

Fixpoint offsets_of (o : Z) (ns : list nat) : list Z :=
  match ns with [] => [] | n :: r => o :: offsets_of (o + 8 + Z.of_nat n) r end.
Lemma offsets_lengths cs : forall o, offsets_from o cs = offsets_of o (map (@length Z) cs).
Proof. induction cs as [|c cs IH]; intros o; cbn; [reflexivity|]. rewrite IH. reflexivity. Qed.
Lemma offsets_of_app a b : forall o, exists o', offsets_of o (a ++ b) = offsets_of o a ++ offsets_of o' b.
Proof.
  induction a as [|n a IH]; intros o; [exists o; reflexivity|]. cbn. destruct (IH (o + 8 + Z.of_nat n)) as [o' ->]. exists o'. reflexivity.
Qed.
Lemma contents_lengths t gs cs : Forall2 (content t) gs cs -> map (@length Z) cs = map (content_size t) gs.
Proof. induction 1 as [|g c gs cs C _ IH]; [reflexivity|]. cbn. rewrite IH, (content_length t g c C). reflexivity. Qed.
Lemma Forall2_app_both {A B} (P : A -> B -> Prop) a b c d : Forall2 P a c -> Forall2 P b d -> Forall2 P (a ++ b) (c ++ d).
Proof. apply Forall2_app. Qed.
Lemma represents_map t ss gs : Forall2 represents ss gs -> Forall2 represents (map (set_type t) ss) gs.
Proof. induction 1; cbn; constructor; [apply represents_type|]; assumption. Qed.
Lemma words_map cs : map words cs = map (fun n => Z.of_nat n / 2) (map (@length Z) cs).
Proof. rewrite map_map. reflexivity. Qed.
Lemma firstn_nth {A} (l m : list A) n : length l = n -> (forall k, (k < n)%nat -> nth_error l k = nth_error m k) ->
  (n <= length m)%nat -> l = firstn n m.
Proof.
  intros L K N. apply nth_ext_list; [rewrite firstn_length; lia|]. intros k Hk. rewrite L in Hk. rewrite (K k Hk). clear K L l.
  revert k Hk m N. induction n as [|n IH]; intros k Hk m N; [lia|]. destruct m as [|x m]; [cbn in N; lia|].
  destruct k as [|k]; [reflexivity|]. cbn. apply IH; [lia|cbn in N; lia].
Qed.

Lemma twice_files given calls1 calls2 t w0 w1 w2 w3 w4 w5 : good t -> twice given calls1 calls2 t w0 w1 w2 w3 w4 w5 ->
  exists gs1 gs2 cs1 cs b z m b1 z1 m1 os ls, Forall2 adds calls1 gs1 /\ Forall2 adds calls2 gs2 /\
    Forall2 (readable t) gs1 cs1 /\
    Forall2 (readable t) (gs1 ++ gs2) cs /\
    (mixed (flat_map vertices (gs1 ++ gs2)) <-> no_zero m) /\
    bounds (flat_map vertices (gs1 ++ gs2)) b /\ range_of (map vz (flat_map vertices (gs1 ++ gs2))) z /\
    range0 (map vm (flat_map vertices (gs1 ++ gs2))) m /\ doubles_ok (flat_map vertices (gs1 ++ gs2)) /\
    numbered 1 cs /\ i32 ((100 + Z.of_nat (length (all_records 1 cs))) / 2) /\ i32 ((100 + 8 * Z.of_nat (length cs)) / 2) /\
    Forall (fun o => i32 (o / 2)) os /\
    os = firstn (length cs) (offsets_from 100 cs1 ++ offsets_from 100 cs) /\
    ls = firstn (length cs) (map words cs1 ++ map words cs) /\
    fdata (w_shx w2) = shx_file t b1 z1 m1 cs1 /\
    fdata (w_shp w5) = shp_file t b z m cs /\ fdata (w_shx w5) = index_file t b z m cs os ls /\
    (calls2 = [] -> (b1, z1, m1) = (b, z, m)).
Proof.
  intros G [[D1 C1 T1 S1 X1] D2 C2 S2 X2].
  destruct (calls_ok calls1 (Writer given) w0 D1 C1) as [ss1 [gs1 [E1 [A1 [R1 [TY [E2 [E3 [E4 _]]]]]]]]]. cbn [Writer w_shapes w_type w_offsets w_lengths app] in *.
  assert (ET := eff_type_calls given calls1 t w0 ss1 T1 E2 E1 TY). rewrite <- E1 in R1.
  destruct (save_shp_ok t w0 w1 gs1 ET G R1 S1) as [cs1 [b1 [z1 [m1 [F1 [F2 [F3 [B1 [I1 [I2 [I3 [_ W1]]]]]]]]]]]].
  destruct (save_shx_ok t w1 w2) as [b1' [z1' [m1' [os1 [ls1 [B1' [L1 [L2 [K [J1 [J2 [J4 W2]]]]]]]]]]]].
  { rewrite W1. reflexivity. } { exact (proj1 ET). } { exact X1. }
  destruct (calls_ok calls2 w2 w3 D2 C2) as [ss2 [gs2 [H1 [A2 [R2 [_ [H2 [H3 [H4 _]]]]]]]]].
  assert (SH2 : w_shapes w2 = map (set_type (Some t)) ss1) by (rewrite W2, W1, <- E1; reflexivity).
  assert (OF2 : w_offsets w2 = offsets_from 100 cs1) by (rewrite W2, W1; cbn [w_set_shx w_offsets]; rewrite E3; reflexivity).
  assert (LN2 : w_lengths w2 = map words cs1) by (rewrite W2, W1; cbn [w_set_shx w_lengths]; rewrite E4; reflexivity).
  assert (TY2 : w_type w2 = Some t) by (rewrite W2, W1; reflexivity).
  assert (R : Forall2 represents (w_shapes w3) (gs1 ++ gs2)).
  { rewrite H1, SH2. apply Forall2_app; [apply represents_map; rewrite <- E1; exact R1|exact R2]. }
  assert (ET3 : eff_type w3 t) by (split; [exact (proj1 ET)|left; congruence]).
  destruct (save_shp_ok t w3 w4 (gs1 ++ gs2) ET3 G R S2) as [cs [b [z [m [P1 [P2 [P3 [B [Q1 [Q2 [Q3 [_ W4]]]]]]]]]]]].
  destruct (save_shx_ok t w4 w5) as [b' [z' [m' [os [ls [B' [V1 [V2 [V3 [V4 [V5 [V6 W5]]]]]]]]]]]].
  { rewrite W4. reflexivity. } { exact (proj1 ET). } { exact X2. }
  assert (LS : length (w_shapes w4) = length cs).
  { rewrite W4. cbn [w_shapes]. rewrite map_length, (F2_length R). apply (F2_length P1). }
  assert (LS1 : length (w_shapes w1) = length cs1).
  { rewrite W1. cbn [w_shapes]. rewrite map_length, (F2_length R1). apply (F2_length F1). }
  rewrite W4 in B'. cbn [w_shapes] in B'. apply boxes_type in B'.
  assert (EB : b' = b /\ z' = z /\ m' = m).
  { destruct B as [Y1 [Y2 Y3]]. destruct B' as [Z1 [Z2 Z3]]. rewrite Y1 in Z1. rewrite Y2 in Z2. rewrite Y3 in Z3.
    injection Z1 as <-. injection Z2 as <-. injection Z3 as <-. auto. }
  destruct EB as [-> [-> ->]].
  rewrite W1 in B1'. cbn [w_shapes] in B1'. apply boxes_type in B1'.
  assert (EB : b1' = b1 /\ z1' = z1 /\ m1' = m1).
  { destruct B1 as [Y1 [Y2 Y3]]. destruct B1' as [Z1 [Z2 Z3]]. rewrite Y1 in Z1. rewrite Y2 in Z2. rewrite Y3 in Z3.
    injection Z1 as <-. injection Z2 as <-. injection Z3 as <-. auto. }
  destruct EB as [-> [-> ->]].
  rewrite LS in *. rewrite LS1 in *.
  exists gs1, gs2, cs1, cs, b, z, m, b1, z1, m1, os, ls.
  pose proof B as [BX [BZ BM]].
  destruct (box_of_inv _ _ _ R BX) as [BB _].
  destruct (zbox_of_ok _ _ R) as [zz [Z1 Z2]]. rewrite BZ in Z1. injection Z1 as <-.
  destruct (mbox_of_ok _ _ R) as [mm [M1 M2]]. rewrite BM in M1. injection M1 as <-.
  assert (NE : flat_map vertices (gs1 ++ gs2) <> []).
  { apply bounds_pos in BB. intros X. rewrite X in BB. cbn in BB. lia. }
  split; [exact A1|]. split; [exact A2|]. split; [exact (readable_all t gs1 cs1 F1 _ R1 F2 I2)|].
  split; [exact (readable_all t (gs1 ++ gs2) cs P1 _ R P2 Q2)|].
  split; [eapply mbox_mixed; eassumption|]. split; [exact BB|]. split; [exact (Z2 NE)|]. split; [exact M2|].
  split; [eapply all_doubles; exact R|].
  split. { intros k Hk. specialize (Q1 k Hk). replace (1 + Z.of_nat k) with (Z.of_nat k + 1) by lia. exact Q1. }
  split; [exact Q3|]. split; [exact V6|]. split; [exact V4|].
  split.
  { apply firstn_nth; [exact V1| |rewrite app_length, !offsets_length; lia]. intros k Hk. rewrite (proj1 (V3 k Hk)), W4. cbn [w_offsets].
    rewrite H3, OF2. reflexivity. }
  split.
  { apply firstn_nth; [exact V2| |rewrite app_length, !map_length; lia]. intros k Hk. rewrite (proj2 (V3 k Hk)), W4. cbn [w_lengths].
    rewrite H4, LN2. reflexivity. }
  split.
  { rewrite W2. cbn [w_shx w_set_shx fdata whole]. unfold shx_file. rewrite <- entries_index. f_equal. f_equal. f_equal.
    - apply nth_ext_list; [rewrite L1, offsets_length; reflexivity|]. intros k Hk. rewrite L1 in Hk.
      rewrite (proj1 (K k Hk)), W1. cbn [w_offsets]. rewrite E3. reflexivity.
    - apply nth_ext_list; [rewrite L2, map_length; reflexivity|]. intros k Hk. rewrite L2 in Hk.
      rewrite (proj2 (K k Hk)), W1. cbn [w_lengths]. rewrite E4. reflexivity. }
  split; [rewrite W5, W4; reflexivity|]. split; [rewrite W5; reflexivity|].
  intros ->. cbn in C2. unfold ret in C2. pinv C2. rewrite SH2 in B. apply boxes_type in B. rewrite <- E1 in B.
  destruct B as [Y1 [Y2 Y3]]. destruct B1 as [U1 [U2 U3]]. congruence.
Qed.
Lemma readable_contents t gs cs : Forall2 (readable t) gs cs -> Forall2 (content t) gs cs.
Proof. induction 1 as [|g c gs cs [C _] _ IH]; constructor; assumption. Qed.
Lemma offsets_prefix t gs1 gs2 cs1 cs : Forall2 (readable t) gs1 cs1 -> Forall2 (readable t) (gs1 ++ gs2) cs ->
  (length cs1 <= length cs)%nat /\ (forall k, (k < length cs1)%nat ->
    nth_error (offsets_from 100 cs1) k = nth_error (offsets_from 100 cs) k /\ nth_error (map words cs1) k = nth_error (map words cs) k).
Proof.
  intros A B.
  assert (FA : Forall2 (content t) gs1 cs1) by (apply readable_contents, A).
  assert (FB : Forall2 (content t) (gs1 ++ gs2) cs) by (apply readable_contents, B).
  split.
  - rewrite <- (F2_length A), <- (F2_length B), app_length. lia.
  - intros k K. rewrite !offsets_lengths, !words_map, (contents_lengths t _ _ FA), (contents_lengths t _ _ FB), !map_app.
    destruct (offsets_of_app (map (content_size t) gs1) (map (content_size t) gs2) 100) as [o' ->].
    rewrite <- (F2_length A) in K. split.
    + rewrite nth_error_app1; [reflexivity|]. rewrite map_length || idtac.
      assert (LN : forall ns o, length (offsets_of o ns) = length ns) by (induction ns as [|n ns IH]; intros o; cbn; [|rewrite IH]; reflexivity).
      rewrite LN, map_length. exact K.
    + rewrite nth_error_app1; [reflexivity|]. rewrite !map_length. exact K.
Qed.
Lemma nth_firstn {A} (l : list A) n k : (k < n)%nat -> nth_error (firstn n l) k = nth_error l k.
Proof. revert n l. induction k as [|k IH]; intros [|n] [|x l] H; try lia; try reflexivity. cbn. apply IH. lia. Qed.
Lemma Forall_firstn {A} (P : A -> Prop) n l : Forall P l -> Forall P (firstn n l).
Proof. intros H. revert n. induction H; intros [|n]; cbn; constructor; auto. Qed.
(** What a Reader finds afterwards. *)
Lemma twice_read given calls1 calls2 t w0 w1 w2 w3 w4 w5 : good t -> twice given calls1 calls2 t w0 w1 w2 w3 w4 w5 ->
  let n1 := length calls1 in let n := length (calls1 ++ calls2) in
  exists gs ss b z m, Forall2 adds (calls1 ++ calls2) gs /\ Forall2 (read_back (mixed (flat_map vertices gs)) t) gs ss /\
    bounds (flat_map vertices gs) b /\ range_of (map vz (flat_map vertices gs)) z /\ range0 (map vm (flat_map vertices gs)) m /\
    forall shx, shx = None \/ shx = Some (fdata (w_shx w5)) ->
    exists r0, Reader (Some (fdata (w_shp w5))) shx None = (r0, Ok tt) /\ r_type r0 = Some t /\ r_bbox r0 = b /\ r_elevation r0 = z /\ r_measure r0 = m /\
      forall r, used n r0 r -> forall fuel, (n < fuel)%nat ->
        (exists r', shapes fuel r = (r', Ok (Some ss))) /\
        iterShapes fuel r = (ss, Some (Ok tt)) /\
        (forall k, (k < n)%nat -> exists r' s, shape_at fuel (Z.of_nat k) r = (r', Ok (Some s)) /\
           nth_error ss (match shx with Some _ => if (k <? n1)%nat then k else (k - n1)%nat | None => k end) = Some s) /\
        (shx <> None -> forall k, (k < n)%nat -> exists r' s, shape_at fuel (Z.of_nat k - Z.of_nat n) r = (r', Ok (Some s)) /\
           nth_error ss (if (k <? n1)%nat then k else (k - n1)%nat) = Some s) /\
        (forall i, (if shx then i < - Z.of_nat n else i < 0) \/ Z.of_nat n <= i ->
           exists r', shape_at fuel i r = (r', Err (if shx then IndexError else TypeError))).
Proof.
  intros G TW n1 n. destruct (twice_files given calls1 calls2 t w0 w1 w2 w3 w4 w5 G TW)
    as [gs1 [gs2 [cs1 [cs [b [z [m [b1 [z1 [m1 [os [ls [A1 [A2 [R1 [R [MX [BB [ZZ [MM [DD [N [I1 [I2 [I3 [EO [EL [_ [K1 [K2 _]]]]]]]]]]]]]]]]]]]]]]]]]]]]]].
  set (gs := gs1 ++ gs2) in *.
  destruct (all_shown _ m t gs cs MX G R) as [ss [RB SH]].
  exists gs, ss, b, z, m. split; [apply Forall2_app; assumption|]. split; [exact RB|]. split; [exact BB|]. split; [exact ZZ|]. split; [exact MM|].
  intros shx HS. rewrite K1. rewrite K2 in HS.
  destruct (offsets_prefix t gs1 gs2 cs1 cs R1 R) as [LE PX].
  assert (LC1 : n1 = length cs1) by (unfold n1; rewrite (F2_length A1); apply (F2_length R1)).
  assert (LC : n = length cs) by (unfold n; rewrite app_length, (F2_length A1), (F2_length A2), <- app_length; apply (F2_length R)).
  destruct (bounds_dbl _ _ DD BB) as [Lb Db].
  destruct (range_of_dbl _ _ (coord_dbl vz _ vz_in DD) ZZ) as [Lz Dz].
  destruct (range0_dbl _ _ (coord_dbl vm _ vm_in DD) MM) as [Lm Dm].
  destruct (files_read t b z m cs ss os ls (fun k => if (k <? n1)%nat then k else (k - n1)%nat) Lb Lz Lm Db Dz Dm (good_i32 t G))
    with (shx := shx) as [r0 [H1 [H2 [H3 [HZ [HM H4]]]]]]; try assumption.
  - rewrite EO, firstn_length, app_length, !offsets_length. lia.
  - rewrite EL, firstn_length, app_length, !map_length. lia.
  - rewrite EO. apply Forall_firstn. apply Forall_app.
    split; (apply offsets_even; [|reflexivity]); [exact (content_evens t gs1 cs1 R1)|exact (content_evens t gs cs R)].
  - intros k Hk. rewrite EO, nth_firstn by exact Hk. destruct (Nat.ltb_spec k n1) as [L|L].
    + rewrite nth_error_app1 by (rewrite offsets_length; lia). apply PX. lia.
    + rewrite nth_error_app2 by (rewrite offsets_length; lia). rewrite offsets_length, LC1. reflexivity.
  - exists r0. split; [exact H1|]. split; [exact H2|]. split; [exact H3|]. split; [exact HZ|]. split; [exact HM|]. intros r U fuel FU. rewrite LC in *.
    destruct (H4 r U fuel FU) as [B1 [B2 [B3 [B4 B5]]]]. split; [exact B1|]. split; [exact B2|]. split; [|split; [|exact B5]].
    + intros k Hk. set (j := match shx with Some _ => _ | None => k end) in *.
      destruct (nth_error ss j) as [s|] eqn:NS.
      * destruct (B3 k s Hk NS) as [r' E]. exists r', s. auto.
      * exfalso. apply nth_error_None in NS. rewrite <- (F2_length SH) in NS. unfold j in NS. destruct shx; [|lia]. destruct (Nat.ltb_spec k n1); lia.
    + intros HN k Hk. destruct (nth_error ss (if (k <? n1)%nat then k else (k - n1)%nat)) as [s|] eqn:NS.
      * destruct (B4 HN k s Hk NS) as [r' E]. exists r', s. auto.
      * exfalso. apply nth_error_None in NS. rewrite <- (F2_length SH) in NS. destruct (Nat.ltb_spec k n1); lia.
Qed.
(** Without additions the second index is the first one. *)
Lemma twice_same given calls t w0 w1 w2 w3 w4 w5 : good t -> twice given calls [] t w0 w1 w2 w3 w4 w5 ->
  fdata (w_shx w5) = fdata (w_shx w2).
Proof.
  intros G TW. destruct (twice_files given calls [] t w0 w1 w2 w3 w4 w5 G TW)
    as [gs1 [gs2 [cs1 [cs [b [z [m [b1 [z1 [m1 [os [ls [A1 [A2 [R1 [R [MX [BB [ZZ [MM [DD [N [I1 [I2 [I3 [EO [EL [K0 [K1 [K2 SM]]]]]]]]]]]]]]]]]]]]]]]]]]]]]].
  specialize (SM eq_refl). injection SM as -> -> ->. inversion A2; subst gs2. rewrite app_nil_r in R.
  destruct (offsets_prefix t gs1 [] cs1 cs R1) as [_ PX]; [rewrite app_nil_r; exact R|].
  assert (LE : length cs1 = length cs) by (rewrite <- (F2_length R1); apply (F2_length R)).
  rewrite K0, K2. unfold index_file. rewrite <- LE.
  replace os with (offsets_from 100 cs1); [|rewrite EO, <- LE, firstn_app, <- (offsets_length 100 cs1), firstn_all, Nat.sub_diag, app_nil_r; reflexivity].
  replace ls with (map words cs1); [|rewrite EL, <- LE, firstn_app, <- (map_length words cs1), firstn_all, Nat.sub_diag, app_nil_r; reflexivity].
  rewrite entries_index. reflexivity.
Qed.

(** ** The lengths in the headers *)
Lemma records_even n cs : Forall (fun c => 2 * words c = Z.of_nat (length c)) cs -> Z.of_nat (length (all_records n cs)) mod 2 = 0.
Proof.
  intros E. rewrite all_records_length. clear n. induction E as [|c cs E _ IH]; [reflexivity|]. cbn [fold_right]. rewrite <- E.
  match goal with |- (?a + ?x) mod 2 = 0 => replace (a + x) with (x + (4 + words c) * 2) by lia end. rewrite Z.mod_add by lia. exact IH.
Qed.
Lemma lengths_ok given calls t w0 w1 w2 : good t -> saved given calls t w0 w1 w2 ->
  let shp := fdata (w_shp w2) in let shx := fdata (w_shx w2) in
  declares shp (Z.of_nat (length shp)) /\ declares shx (Z.of_nat (length shx)) /\ length shx = (100 + 8 * length calls)%nat.
Proof.
  intros G SV. destruct (saved_files given calls t w0 w1 w2 G SV)
    as [gs [cs [b [z [m [A [R [MX [BB [ZZ [MM [DD [NE [N [I1 [I2 [I3 [K1 K2]]]]]]]]]]]]]]]]]].
  destruct (bounds_dbl _ _ DD BB) as [Lb _].
  destruct (range_of_dbl _ _ (coord_dbl vz _ vz_in DD) ZZ) as [Lz _].
  destruct (range0_dbl _ _ (coord_dbl vm _ vm_in DD) MM) as [Lm _].
  assert (HL : forall n, length (header n t b z m) = 100%nat) by (intros n; apply header_length; assumption).
  assert (LX : length (fdata (w_shx w2)) = (100 + 8 * length calls)%nat).
  { rewrite K2. unfold shx_file. rewrite app_length, HL, <- entries_index. f_equal.
    rewrite (F2_length A), (F2_length R). generalize 100. clear. induction cs as [|c cs IH]; intros o; [reflexivity|].
    cbn [offsets_from map combine flat_map length fst snd]. rewrite app_length, IH, entry_length. lia. }
  cbv zeta. split; [|split; [|exact LX]].
  - rewrite K1. set (n := Z.of_nat (length (shp_file t b z m cs))).
    assert (NE2 : n = 100 + Z.of_nat (length (all_records 1 cs))).
    { unfold n, shp_file. cbv zeta. rewrite app_length, HL. lia. }
    split; [|split].
    + rewrite NE2. unfold shp_file. reflexivity.
    + rewrite NE2. pose proof (records_even 1 cs (content_evens t gs cs R)) as E. rewrite Z.add_mod, E by lia. reflexivity.
    + rewrite NE2. split; [apply Z.div_pos; lia|]. unfold i32 in I1. lia.
  - rewrite LX, Nat2Z.inj_add, Nat2Z.inj_mul. change (Z.of_nat 100) with 100. change (Z.of_nat 8) with 8.
    assert (LC : length calls = length cs) by (rewrite (F2_length A); apply (F2_length R)). rewrite LC.
    split; [|split].
    + rewrite K2. reflexivity.
    + replace (100 + 8 * Z.of_nat (length cs)) with ((50 + 4 * Z.of_nat (length cs)) * 2) by lia. apply Z.mod_mul. lia.
    + split; [apply Z.div_pos; lia|]. unfold i32 in I2. lia.
Qed.
Lemma layout_ok given calls t w0 w1 w2 : good t -> saved given calls t w0 w1 w2 ->
  exists gs cs b z m, Forall2 adds calls gs /\ Forall2 (content t) gs cs /\
    bounds (flat_map vertices gs) b /\ range_of (map vz (flat_map vertices gs)) z /\ range0 (map vm (flat_map vertices gs)) m /\
    fdata (w_shp w2) = shp_file t b z m cs /\ fdata (w_shx w2) = shx_file t b z m cs.
Proof.
  intros G SV. destruct (saved_files given calls t w0 w1 w2 G SV)
    as [gs [cs [b [z [m [A [R [MX [BB [ZZ [MM [DD [NE [N [I1 [I2 [I3 [K1 K2]]]]]]]]]]]]]]]]]].
  exists gs, cs, b, z, m. split; [exact A|]. split; [exact (readable_contents t gs cs R)|]. auto 8.
Qed.
