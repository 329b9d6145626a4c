(** Round trip of the geometry files. *)
From Verif Require Import Py VlvModel ShpFile ShpWriterModel ShpReaderModel ShpLib ShpSpec ShpWriterProofs ShpSave ShpRead ShpApi ShpCalls ShpPrograms.
Open Scope Z_scope.
Open Scope m_scope.

Lemma long_doubles p : long_point p -> Forall is_dbl (coords (vertex_of p)).
Proof.
  intros [L D]. rewrite Forall_forall in D. unfold vertex_of, coords. cbn [vx vy vz vm].
  repeat (constructor; [apply D, nth_In; lia|]). constructor.
Qed.
Lemma represents_doubles s g : represents s g -> doubles_ok (vertices g).
Proof.
  intros R. unfold doubles_ok. rewrite <- (rep_points s g R). pose proof (rep_long s g R) as L.
  induction L as [|p l Lp _ IH]; [constructor|]. cbn. constructor; [apply long_doubles, Lp|exact IH].
Qed.
Lemma all_doubles ss gs : Forall2 represents ss gs -> doubles_ok (flat_map vertices gs).
Proof.
  induction 1 as [|s g ss gs R _ IH]; [constructor|]. cbn. apply Forall_app. split; [eapply represents_doubles, R|exact IH].
Qed.
(** ** When measures are read *)
Lemma fold_min_nan l : forall a, dbl_nan a = false -> dbl_nan (fold_left (fun a b => if dbl_lt b a then b else a) l a) = false.
Proof.
  induction l as [|x l IH]; intros a H; [exact H|]. cbn. apply IH. destruct (dbl_lt x a) eqn:E; [|exact H].
  unfold dbl_lt in E. destruct (dbl_nan x); [discriminate|reflexivity].
Qed.
Lemma fold_max_nan l : forall a, dbl_nan a = false -> dbl_nan (fold_left (fun a b => if dbl_lt a b then b else a) l a) = false.
Proof.
  induction l as [|x l IH]; intros a H; [exact H|]. cbn. apply IH. destruct (dbl_lt a x) eqn:E; [|exact H].
  unfold dbl_lt in E. destruct (dbl_nan x); [destruct (dbl_nan a); discriminate|reflexivity].
Qed.
Lemma not_zero_low a : dbl_nan a = false -> dbl_lt dbl_zero a = false -> (dbl_eq dbl_zero a = false <-> dbl_lt a dbl_zero = true).
Proof.
  unfold dbl_eq, dbl_lt. change (dbl_nan dbl_zero) with false. change (dbl_key dbl_zero) with 0. intros ->. cbn [negb andb]. intros H.
  apply Z.ltb_ge in H. rewrite Z.eqb_neq, Z.ltb_lt. lia.
Qed.
Lemma not_zero_high a : dbl_nan a = false -> dbl_lt a dbl_zero = false -> (dbl_eq dbl_zero a = false <-> dbl_lt dbl_zero a = true).
Proof.
  unfold dbl_eq, dbl_lt. change (dbl_nan dbl_zero) with false. change (dbl_key dbl_zero) with 0. intros ->. cbn [negb andb]. intros H.
  apply Z.ltb_ge in H. rewrite Z.eqb_neq, Z.ltb_lt. lia.
Qed.
Lemma mbox_mixed ss gs m : Forall2 represents ss gs -> mbox_of ss = Ok m -> (mixed (flat_map vertices gs) <-> no_zero m).
Proof.
  intros R H. unfold mbox_of in H. rewrite (measures ss gs R) in H. set (vs := flat_map vertices gs) in *.
  apply bind_ok in H. destruct H as [a [A H]]. apply bind_ok in H. destruct H as [c [C H]]. injection H as <-.
  assert (NA : dbl_nan a = false) by (cbn in A; injection A as <-; apply fold_min_nan; reflexivity).
  assert (NC : dbl_nan c = false) by (cbn in C; injection C as <-; apply fold_max_nan; reflexivity).
  apply dbl_min_least in A. apply dbl_max_greatest in C. destruct A as [A1 A2]. destruct C as [C1 C2].
  pose proof (not_zero_low a NA (A2 dbl_zero (or_introl eq_refl))) as LA.
  pose proof (not_zero_high c NC (C2 dbl_zero (or_introl eq_refl))) as LC.
  unfold no_zero, mixed. cbn [existsb]. rewrite !orb_false_iff, LA, LC.
  split.
  - intros [[v [Iv Nv]] [u [Iu Pu]]].
    assert (Xa : dbl_lt (vm v) a = false) by (apply A2; right; apply in_map, Iv).
    assert (Xc : dbl_lt c (vm u) = false) by (apply C2; right; apply in_map, Iu).
    split; [|split; [|reflexivity]].
    + unfold dbl_lt in *. rewrite NA in *. change (dbl_key dbl_zero) with 0. change (dbl_key 0) with 0 in Nv. change (dbl_nan 0) with false in Nv.
      change (dbl_nan dbl_zero) with false.
      destruct (dbl_nan (vm v)); [discriminate|]. cbn [negb andb] in *. apply Z.ltb_lt in Nv. apply Z.ltb_ge in Xa. apply Z.ltb_lt. lia.
    + unfold dbl_lt in *. rewrite NC in *. change (dbl_key dbl_zero) with 0. change (dbl_key 0) with 0 in Pu. change (dbl_nan 0) with false in Pu.
      change (dbl_nan dbl_zero) with false.
      destruct (dbl_nan (vm u)); [discriminate|]. cbn [negb andb] in *. apply Z.ltb_lt in Pu. apply Z.ltb_ge in Xc. apply Z.ltb_lt. lia.
  - intros [X [Y _]]. split.
    + destruct A1 as [<-|A1]; [rewrite dbl_lt_irrefl in X; discriminate|]. apply in_map_iff in A1. destruct A1 as [v [Ev Iv]].
      exists v. split; [exact Iv|]. rewrite Ev. exact X.
    + destruct C1 as [<-|C1]; [rewrite dbl_lt_irrefl in Y; discriminate|]. apply in_map_iff in C1. destruct C1 as [v [Ev Iv]].
      exists v. split; [exact Iv|]. rewrite Ev. exact Y.
Qed.

Lemma readable_all t gs cs : Forall2 (content t) gs cs -> forall ss, Forall2 represents ss gs -> Forall (fits t) gs ->
  Forall (fun c => i32 (words c)) cs -> Forall2 (readable t) gs cs.
Proof.
  induction 1 as [|g c gs cs C _ IH]; intros ss R F I; [constructor|].
  inversion R as [|s ? ss' ? R1 R2]; subst. inversion F; subst. inversion I; subst.
  constructor; [|eapply IH; eassumption]. split; [assumption|]. split; [assumption|]. split; [|assumption].
  eapply represents_doubles; exact R1.
Qed.
Lemma saved_files given calls t w0 w1 w2 : good t -> saved given calls t w0 w1 w2 ->
  exists gs cs b z m, Forall2 adds calls gs /\ Forall2 (readable t) gs cs /\ (mixed (flat_map vertices gs) <-> no_zero m) /\
    bounds (flat_map vertices gs) b /\ range_of (map vz (flat_map vertices gs)) z /\ range0 (map vm (flat_map vertices gs)) m /\
    doubles_ok (flat_map vertices gs) /\ Forall (fun g => vertices g <> []) gs /\
    numbered 1 cs /\ i32 ((100 + Z.of_nat (length (all_records 1 cs))) / 2) /\
    i32 ((100 + 8 * Z.of_nat (length cs)) / 2) /\ Forall (fun o => i32 (o / 2)) (offsets_from 100 cs) /\
    fdata (w_shp w2) = shp_file t b z m cs /\ fdata (w_shx w2) = shx_file t b z m cs.
Proof.
  intros G [D C T S1 S2].
  destruct (calls_ok calls (Writer given) w0 D C) as [ss [gs [E1 [A [R [TY [E2 [E3 [E4 _]]]]]]]]]. cbn [Writer w_shapes w_type w_offsets w_lengths app] in *.
  assert (ET := eff_type_calls given calls t w0 ss T E2 E1 TY).
  rewrite <- E1 in R.
  destruct (save_both_ok t w0 w1 w2 gs ET G R E3 E4 S1 S2) as [cs [b [z [m [F1 [F2 [F3 [B [I1 [I2 [I3 [I4 [I5 [_ [K1 K2]]]]]]]]]]]]]]].
  exists gs, cs, b, z, m.
  destruct B as [B1 [B2 B3]].
  destruct (box_of_inv _ _ _ R B1) as [BB _].
  destruct (zbox_of_ok _ _ R) as [z' [Z1 Z2]]. rewrite B2 in Z1. injection Z1 as <-.
  destruct (mbox_of_ok _ _ R) as [m' [M1 M2]]. rewrite B3 in M1. injection M1 as <-.
  assert (NE : flat_map vertices gs <> []).
  { apply bounds_pos in BB. intros X. rewrite X in BB. cbn in BB. lia. }
  split; [exact A|]. split.
  { exact (readable_all t gs cs F1 _ R F2 I2). }
  split; [eapply mbox_mixed; eassumption|]. split; [exact BB|]. split; [exact (Z2 NE)|]. split; [exact M2|].
  split; [eapply all_doubles; exact R|]. split; [exact F3|].
  split. { intros k Hk. specialize (I1 k Hk). replace (1 + Z.of_nat k) with (Z.of_nat k + 1) by lia. exact I1. }
  auto.
Qed.

Lemma content_evens t gs cs : Forall2 (readable t) gs cs -> Forall (fun c => 2 * words c = Z.of_nat (length c)) cs.
Proof. induction 1 as [|g c gs cs [C _] _ IH]; constructor; [eapply content_even; exact C|exact IH]. Qed.
Lemma offsets_even cs : Forall (fun c => 2 * words c = Z.of_nat (length c)) cs -> forall o, o mod 2 = 0 ->
  Forall (fun o => o mod 2 = 0) (offsets_from o cs).
Proof.
  induction 1 as [|c cs E _ IH]; intros o O; cbn [offsets_from]; constructor; [exact O|]. apply IH.
  rewrite <- E. replace (o + 8 + 2 * words c) with (o + (4 + words c) * 2) by lia. rewrite Z.mod_add by lia. exact O.
Qed.
(** A Reader over a .shp file and, possibly, an index whose entry [k] is the
    offset of record [at_ k]. *)
Lemma files_read t b z m cs ss os ls (at_ : nat -> nat) :
  length b = 4%nat -> length z = 2%nat -> length m = 2%nat -> Forall is_dbl b -> Forall is_dbl z -> Forall is_dbl m -> i32 t ->
  length os = length cs -> length ls = length cs -> Forall (fun o => o mod 2 = 0) os -> Forall (fun o => i32 (o / 2)) os ->
  Forall2 (shows m) cs ss -> numbered 1 cs -> i32 ((100 + Z.of_nat (length (all_records 1 cs))) / 2) ->
  i32 ((100 + 8 * Z.of_nat (length cs)) / 2) ->
  (forall k, (k < length cs)%nat -> nth_error os k = nth_error (offsets_from 100 cs) (at_ k)) ->
  forall shx, shx = None \/ shx = Some (index_file t b z m cs os ls) ->
  exists r0, Reader (Some (shp_file t b z m cs)) shx None = (r0, Ok tt) /\ r_type r0 = Some t /\ r_bbox r0 = b /\ r_elevation r0 = z /\ r_measure r0 = m /\
    forall r, used (length cs) r0 r -> forall fuel, (length cs < fuel)%nat ->
      (exists r', shapes fuel r = (r', Ok (Some ss))) /\
      iterShapes fuel r = (ss, Some (Ok tt)) /\
      (forall k s, (k < length cs)%nat -> nth_error ss (match shx with Some _ => at_ k | None => k end) = Some s ->
         exists r', shape_at fuel (Z.of_nat k) r = (r', Ok (Some s))) /\
      (shx <> None -> forall k s, (k < length cs)%nat -> nth_error ss (at_ k) = Some s ->
         exists r', shape_at fuel (Z.of_nat k - Z.of_nat (length cs)) r = (r', Ok (Some s))) /\
      (forall i, (if shx then i < - Z.of_nat (length cs) else i < 0) \/ Z.of_nat (length cs) <= i ->
         exists r', shape_at fuel i r = (r', Err (if shx then IndexError else TypeError))).
Proof.
  intros Lb Lz Lm Db Dz Dm TI Los Lls EV I3 SH N I1 I2 AT shx HS.
  set (hx := match shx with Some _ => true | None => false end).
  set (r00 := mkReader (Some (mkFile (shp_file t b z m cs) 0)) (option_map (fun bs => mkFile bs 0) shx) None [] None None [] 0 None [] [] []).
  destruct (header_ok t b z m cs Lb Lz Lm os ls Los Lls I1 TI Db Dz Dm r00 (mkFile (shp_file t b z m cs) 0) eq_refl eq_refl)
    as [r0 [[] [H0 [X1 [X2 [X3 [X4 [X5 [X6 [X7 [X8 [X9 [X10 X11]]]]]]]]]]]]].
  exists r0. split.
  { change ((shp_header ;;; ret tt) r00 = (r0, Ok tt)). rewrite (mbind_run _ _ _ _ _ H0). reflexivity. }
  split; [exact X8|]. split; [exact X9|]. split; [exact X10|]. split; [exact X11|].
  assert (O0 : opened t b z m cs os ls hx r0).
  { constructor.
    - exact X1.
    - unfold hx. destruct HS as [-> | ->]; cbn [option_map] in r00; rewrite X2; [reflexivity|]. exists (mkFile (index_file t b z m cs os ls) 0). split; reflexivity.
    - left. exact X4.
    - exact X11. }
  set (to := fun k => match shx with Some _ => at_ k | None => k end).
  assert (TO : forall k, (k < length cs)%nat -> (if hx then nth_error os k = nth_error (offsets_from 100 cs) (to k) else to k = k) /\ (to k < length ss)%nat).
  { intros k K. unfold hx, to. destruct shx.
    - split; [apply AT, K|]. rewrite <- (F2_length SH). assert (Y : nth_error (offsets_from 100 cs) (at_ k) <> None).
      { rewrite <- (AT k K). apply nth_error_Some. lia. }
      apply nth_error_Some in Y. rewrite offsets_length in Y. exact Y.
    - split; [reflexivity|]. rewrite <- (F2_length SH). exact K. }
  intros r U fuel FU.
  assert (HXS : (if shx then IndexError else TypeError) = (if hx then IndexError else TypeError)) by (unfold hx; destruct shx; reflexivity).
  assert (HIX : forall i, ((if shx then i < - Z.of_nat (length cs) else i < 0) \/ Z.of_nat (length cs) <= i) <->
                ((if hx then i < - Z.of_nat (length cs) else i < 0) \/ Z.of_nat (length cs) <= i)) by (intros i; unfold hx; destruct shx; tauto).
  assert (ONE : forall r fuel i, opened t b z m cs os ls hx r -> r_numRecords r = None -> (length cs < fuel)%nat ->
    exists r' x, shape_at fuel i r = (r', x) /\ opened t b z m cs os ls hx r' /\ r_numRecords r' = None /\
      (forall k s, i = Z.of_nat k -> (k < length cs)%nat -> nth_error ss (to k) = Some s -> x = Ok (Some s)) /\
      (hx = true -> forall k s, i = Z.of_nat k - Z.of_nat (length cs) -> (k < length cs)%nat -> nth_error ss (to k) = Some s -> x = Ok (Some s)) /\
      ((if hx then i < - Z.of_nat (length cs) else i < 0) \/ Z.of_nat (length cs) <= i -> x = Err (if hx then IndexError else TypeError))).
  { clear r U fuel FU. intros r fuel i O NR FU.
    destruct (Z_lt_dec i 0) as [I0|I0]; [destruct (bool_dec hx true) as [HX|HX]; [destruct (Z_lt_dec i (- Z.of_nat (length cs))) as [IN|IN]|]|destruct (Z_lt_dec i (Z.of_nat (length cs))) as [IN|IN]].
    - destruct (shape_at_refused t b z m cs ss Lb Lz Lm os ls Los Lls EV SH N I3 I2 hx r fuel i O FU NR) as [r1 [E1 [O1 [_ IF]]]]; [rewrite HX; lia|].
      exists r1, (Err (if hx then IndexError else TypeError)). split; [exact E1|]. split; [exact O1|]. split; [unfold info in IF; congruence|].
      split; [intros; lia|]. split; [intros; lia|reflexivity].
    - set (k := Z.to_nat (i + Z.of_nat (length cs))). assert (KL : (k < length cs)%nat) by (unfold k; lia). destruct (TO k KL) as [T1 T2]. rewrite HX in T1.
      destruct (nth_error ss (to k)) as [s|] eqn:NS; [|apply nth_error_None in NS; lia].
      destruct (shape_at_end t b z m cs ss Lb Lz Lm os ls Los Lls EV SH N I3 I2 hx r fuel k (to k) s O HX NR T1 NS) as [r1 [y [E1 [-> [O1 [_ IF]]]]]].
      replace (Z.of_nat k - Z.of_nat (length cs)) with i in E1 by (unfold k; lia).
      exists r1, (Ok (Some s)). split; [exact E1|]. split; [exact O1|]. split; [unfold info in IF; congruence|].
      split; [intros; lia|]. split; [|rewrite HX; intros; lia]. intros _ k' s' E KL' NS'. replace k' with k in NS' by (unfold k; lia). congruence.
    - apply not_true_is_false in HX.
      destruct (shape_at_refused t b z m cs ss Lb Lz Lm os ls Los Lls EV SH N I3 I2 hx r fuel i O FU NR) as [r1 [E1 [O1 [_ IF]]]]; [rewrite HX; lia|].
      exists r1, (Err (if hx then IndexError else TypeError)). split; [exact E1|]. split; [exact O1|]. split; [unfold info in IF; congruence|].
      split; [intros; lia|]. split; [rewrite HX; discriminate|reflexivity].
    - set (k := Z.to_nat i). assert (KL : (k < length cs)%nat) by (unfold k; lia). destruct (TO k KL) as [T1 T2].
      destruct (nth_error ss (to k)) as [s|] eqn:NS; [|apply nth_error_None in NS; lia].
      destruct (shape_at_ok t b z m cs ss Lb Lz Lm os ls Los Lls EV SH N I3 I2 hx r fuel (Z.of_nat k) k (to k) s O FU) as [r1 [y [E1 [-> [O1 [_ IF]]]]]].
      + rewrite NR. reflexivity.
      + exact T1.
      + exact NS.
      + replace (Z.of_nat k) with i in E1 by (unfold k; lia).
        exists r1, (Ok (Some s)). split; [exact E1|]. split; [exact O1|]. split; [unfold info in IF; congruence|].
        split; [|split; [intros; lia|destruct hx; intros; lia]]. intros k' s' E KL' NS'. replace k' with k in NS' by (unfold k; lia). congruence.
    - destruct (shape_at_refused t b z m cs ss Lb Lz Lm os ls Los Lls EV SH N I3 I2 hx r fuel i O FU NR) as [r1 [E1 [O1 [_ IF]]]]; [lia|].
      exists r1, (Err (if hx then IndexError else TypeError)). split; [exact E1|]. split; [exact O1|]. split; [unfold info in IF; congruence|].
      split; [intros; lia|]. split; [intros; lia|reflexivity]. }
  assert (OR : opened t b z m cs os ls hx r /\ r_numRecords r = None).
  { clear fuel FU. induction U as [|r r' fuel x U IH FU E|r r' fuel i x U IH FU E].
    - split; [exact O0|exact X5].
    - destruct IH as [O NR].
      destruct (shapes_ok t b z m cs ss Lb Lz Lm os ls Los Lls SH N hx r fuel O FU) as [r1 [y [E1 [_ [O1 [_ IN]]]]]].
      rewrite E in E1. apply pair_inv in E1. destruct E1 as [-> _]. split; [exact O1|]. unfold info in IN. congruence.
    - destruct IH as [O NR]. destruct (ONE r fuel i O NR FU) as [r1 [y [E1 [O1 [NR1 _]]]]].
      rewrite E in E1. apply pair_inv in E1. destruct E1 as [-> _]. auto. }
  destruct OR as [O NR]. split; [|split; [|split; [|split]]].
  - destruct (shapes_ok t b z m cs ss Lb Lz Lm os ls Los Lls SH N hx r fuel O FU) as [r1 [y [E1 [-> _]]]]. exists r1. exact E1.
  - apply (iter_ok t b z m cs ss Lb Lz Lm os ls Los Lls SH N hx r fuel O FU).
  - intros k s KL NS. destruct (ONE r fuel (Z.of_nat k) O NR FU) as [r1 [y [E1 [_ [_ [Y _]]]]]]. rewrite (Y k s eq_refl KL NS) in E1. exists r1. exact E1.
  - intros HN k s KL NS. assert (HX : hx = true) by (unfold hx; destruct shx; [reflexivity|congruence]).
    destruct (ONE r fuel (Z.of_nat k - Z.of_nat (length cs)) O NR FU) as [r1 [y [E1 [_ [_ [_ [Y _]]]]]]].
    rewrite (Y HX k s eq_refl KL) in E1; [exists r1; exact E1|]. unfold to. destruct shx; [exact NS|congruence].
  - intros i HI. apply HIX in HI. rewrite HXS. destruct (ONE r fuel i O NR FU) as [r1 [y [E1 [_ [_ [_ [_ Y]]]]]]]. rewrite (Y HI) in E1. exists r1. exact E1.
Qed.
Lemma index_file_shx t b z m cs : index_file t b z m cs (offsets_from 100 cs) (map words cs) = shx_file t b z m cs.
Proof. unfold index_file, shx_file. rewrite entries_index. reflexivity. Qed.
Lemma round_trip given calls t w0 w1 w2 : good t -> saved given calls t w0 w1 w2 ->
  exists gs ss b z m, Forall2 adds calls gs /\ Forall2 (read_back (mixed (flat_map vertices gs)) t) gs ss /\
    bounds (flat_map vertices gs) b /\ range_of (map vz (flat_map vertices gs)) z /\ range0 (map vm (flat_map vertices gs)) m /\
    forall shx, shx = None \/ shx = Some (fdata (w_shx w2)) ->
    exists r0, Reader (Some (fdata (w_shp w2))) shx None = (r0, Ok tt) /\ r_type r0 = Some t /\ r_bbox r0 = b /\ r_elevation r0 = z /\ r_measure r0 = m /\
      forall r, used (length calls) r0 r -> forall fuel, (length calls < fuel)%nat ->
        (exists r', shapes fuel r = (r', Ok (Some ss))) /\
        iterShapes fuel r = (ss, Some (Ok tt)) /\
        (forall k s, nth_error ss k = Some s -> exists r', shape_at fuel (Z.of_nat k) r = (r', Ok (Some s))) /\
        (shx <> None -> forall k s, nth_error ss k = Some s -> exists r', shape_at fuel (Z.of_nat k - Z.of_nat (length calls)) r = (r', Ok (Some s))) /\
        (forall i, (if shx then i < - Z.of_nat (length calls) else i < 0) \/ Z.of_nat (length calls) <= i ->
           exists r', shape_at fuel i r = (r', Err (if shx then IndexError else TypeError))).
Proof.
  intros G SV. destruct (saved_files given calls t w0 w1 w2 G SV)
    as [gs [cs [b [z [m [A [R [MX [BB [ZZ [MM [DD [NE [N [I1 [I2 [I3 [K1 K2]]]]]]]]]]]]]]]]]].
  destruct (all_shown _ m t gs cs MX G R) as [ss [RB SH]].
  exists gs, ss, b, z, m. split; [exact A|]. split; [exact RB|]. split; [exact BB|]. split; [exact ZZ|]. split; [exact MM|].
  intros shx HS.
  assert (LC : length calls = length cs) by (rewrite (F2_length A); apply (F2_length R)).
  destruct (bounds_dbl _ _ DD BB) as [Lb Db].
  destruct (range_of_dbl _ _ (coord_dbl vz _ vz_in DD) ZZ) as [Lz Dz].
  destruct (range0_dbl _ _ (coord_dbl vm _ vm_in DD) MM) as [Lm Dm].
  assert (EV := content_evens t gs cs R).
  rewrite K1, K2, <- index_file_shx in *.
  destruct (files_read t b z m cs ss (offsets_from 100 cs) (map words cs) (fun k => k) Lb Lz Lm Db Dz Dm (good_i32 t G))
    with (shx := shx) as [r0 [H1 [H2 [H3 [HZ [HM H4]]]]]]; try assumption.
  - apply offsets_length.
  - apply map_length.
  - apply offsets_even; [exact EV|reflexivity].
  - reflexivity.
  - exists r0. split; [exact H1|]. split; [exact H2|]. split; [exact H3|]. split; [exact HZ|]. split; [exact HM|]. intros r U fuel FU. rewrite LC in *.
    destruct (H4 r U fuel FU) as [A1 [A2 [A3 [A4 A5]]]]. split; [exact A1|]. split; [exact A2|].
    assert (KL : forall k s, nth_error ss k = Some s -> (k < length cs)%nat) by (intros k s NS; rewrite (F2_length SH); apply nth_error_Some; congruence).
    split; [|split; [|exact A5]].
    + intros k s NS. apply A3; [exact (KL k s NS)|]. destruct shx; exact NS.
    + intros HN k s NS. exact (A4 HN k s (KL k s NS) NS).
Qed.
