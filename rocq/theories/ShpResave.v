(** Saving shapes as a Reader gives them. *)
From Verif Require Import Py VlvModel ShpFile ShpWriterModel ShpReaderModel ShpLib ShpSpec ShpWriterProofs ShpSave ShpRead ShpApi ShpCalls ShpRound ShpSuccess ShpOutcome ShpPrograms ShpEditorSpec.
Open Scope Z_scope.
Open Scope m_scope.

(** ** What is computed from x and y only *)
Definition pair_xy (p : list dbl) : dbl * dbl := (nth 0 p dbl_zero, nth 1 p dbl_zero).
Definition flat_point (p : list dbl) : Prop := (2 <= length p)%nat.
Definition same_xy (s s' : shape) : Prop :=
  map pair_xy (s_points s) = map pair_xy (s_points s') /\ Forall flat_point (s_points s) /\ Forall flat_point (s_points s').
Lemma flat_forallb pts : Forall flat_point pts -> forallb (fun p : list dbl => 2 <=? Z.of_nat (length p)) pts = true.
Proof. intros F. apply forallb_forall. intros p I. apply (proj1 (Forall_forall _ _) F) in I. apply Z.leb_le. unfold flat_point in I. lia. Qed.
Lemma columns_flat pts : Forall flat_point pts -> pts <> [] -> columns pts = Ok (map fst (map pair_xy pts), map snd (map pair_xy pts)).
Proof. intros F N. unfold columns. rewrite (flat_forallb pts F), !map_map. destruct pts; [congruence|reflexivity]. Qed.
Lemma columns_same s s' : same_xy s s' -> columns (s_points s) = columns (s_points s').
Proof.
  intros [E [F F']]. destruct (s_points s) as [|p l] eqn:A, (s_points s') as [|p' l'] eqn:B; try discriminate; [reflexivity|].
  rewrite !columns_flat by (assumption || discriminate). rewrite E. reflexivity.
Qed.
Lemma box_same ss ss' : Forall2 same_xy ss ss' -> box_of ss = box_of ss'.
Proof.
  intros F. unfold box_of. assert (E : mapM (fun s => columns (s_points s)) ss = mapM (fun s => columns (s_points s)) ss').
  { induction F as [|s s' ss ss' H _ IH]; [reflexivity|]. cbn [mapM]. rewrite (columns_same s s' H), IH. reflexivity. }
  rewrite E. reflexivity.
Qed.
Lemma weach_same pts : forall pts', map pair_xy pts = map pair_xy pts' -> Forall flat_point pts -> Forall flat_point pts' ->
  weach (fun p => wput (pack_xy p)) pts = weach (fun p => wput (pack_xy p)) pts'.
Proof.
  induction pts as [|p l IH]; intros [|p' l'] E F F'; try discriminate; [reflexivity|].
  cbn [map] in E. injection E as E1 E2 E3. inversion F; subst. inversion F'; subst. cbn [weach].
  rewrite (IH l' E3) by assumption. f_equal. f_equal. unfold flat_point in *.
  destruct p as [|x [|y p]]; cbn in *; try lia. destruct p' as [|x' [|y' p']]; cbn in *; try lia. congruence.
Qed.

(** ** A shape as it is read *)
Lemma flat_good t : flat_type t -> good t.
Proof. unfold flat_type, good. cbn [In]. lia. Qed.
Lemma read_points ms t g s : read_back ms t g s -> s_points s = map xy (kept t g) /\ s_type s = Some t.
Proof.
  unfold read_back, kept. cbv zeta.
  intros [[-> [v [H ->]]]|[[-> [v [H ->]]]|[[-> [v [H ->]]]|[[-> [b [_ ->]]]|[[[-> | ->] [b [_ ->]]]|[[-> | ->] [b [m [_ [_ ->]]]]]]]]]]; cbn [type_in existsb Z.eqb Pos.eqb orb s_points s_type];
    try (split; reflexivity); (destruct (vertices g) as [|u l]; [discriminate|]; injection H as ->; split; reflexivity).
Qed.
Lemma flat_xy vs : Forall flat_point (map xy vs).
Proof. apply Forall_forall. intros p I. apply in_map_iff in I. destruct I as [v [<- _]]. unfold flat_point. cbn. lia. Qed.
Lemma xy_back vs : map pair_xy (map xy vs) = map (fun v => (vx v, vy v)) vs.
Proof. rewrite map_map. apply map_ext. reflexivity. Qed.
Lemma rep_xy s g : represents s g -> map pair_xy (s_points s) = map (fun v => (vx v, vy v)) (vertices g) /\ Forall flat_point (s_points s).
Proof.
  intros R. rewrite <- (rep_points s g R), map_map. split.
  - apply map_ext. intros p. reflexivity.
  - eapply Forall_impl; [|exact (rep_long s g R)]. intros p [L _]. unfold flat_point. lia.
Qed.
Lemma read_same ms t g s s' : represents s g -> read_back ms t g s' -> (point_type t -> (length (vertices g) <= 1)%nat) -> same_xy s s'.
Proof.
  intros R B K. destruct (read_points ms t g s' B) as [P _]. destruct (rep_xy s g R) as [X F].
  unfold same_xy. rewrite P, xy_back, X. split; [|split; [exact F|apply flat_xy]].
  f_equal. unfold kept. destruct (existsb (Z.eqb t) [1; 11; 21]) eqn:T; [|reflexivity].
  rewrite firstn_all2; [reflexivity|]. apply K. unfold point_type. apply existsb_exists in T. destruct T as [x [I E]].
  apply Z.eqb_eq in E. rewrite E. exact I.
Qed.

(** The same bytes, and the shape is left as it is *)
Definition alike {A B} (r : wres A) (r' : wres B) (y : B) : Prop := forall c x, r = Ok (c, x) -> r' = Ok (c, y).
Lemma alike_bind {A B C} (r : wres A) (k : A -> wres B) (k' : A -> wres C) y : (forall a, alike (k a) (k' a) y) -> alike (wbind r k) (wbind r k') y.
Proof.
  intros H c x E. unfold wbind in *. destruct r as [[b a]|e]; [|discriminate]. destruct (k a) as [[b2 x2]|e] eqn:K; [|discriminate].
  apply H in K. rewrite K. injection E as <- <-. reflexivity.
Qed.
Lemma alike_ret {A B} (a : A) (b : B) : alike (wret a) (wret b) b.
Proof. intros c x E. injection E as <- <-. reflexivity. Qed.
Lemma put_alike d t s s' : t = 3 \/ t = 5 \/ t = 8 -> s_type s = Some t -> s_type s' = Some t -> (t <> 8 -> s_parts s = s_parts s') ->
  same_xy s s' -> alike (put_shape_w d s) (put_shape_w d s') s'.
Proof.
  intros D T T' P S. unfold put_shape_w. cbv zeta. rewrite T, T'.
  assert (BX : box_of [s] = box_of [s']) by (apply box_same; constructor; [exact S|constructor]).
  assert (LN : length (s_points s) = length (s_points s')).
  { destruct S as [E _]. apply (f_equal (@length _)) in E. rewrite !map_length in E. exact E. }
  destruct S as [E [F F']]. assert (W := weach_same _ _ E F F'). rewrite BX, LN, W.
  destruct D as [->|[->| ->]]; cbn [type_is type_in existsb Z.eqb Pos.eqb orb wwhen];
    [rewrite (P ltac:(lia))|rewrite (P ltac:(lia))|]; repeat (apply alike_bind; intros ?); apply alike_ret.
Qed.
Lemma read_puts d ms t g s s' c : flat_type t -> represents s g -> read_back ms t g s' -> puts d t s c -> put_shape_w d s' = Ok (c, s').
Proof.
  intros FT R B [s2 P].
  destruct (put_shape_good d t (set_type (Some t) s) g c s2 (represents_type _ s g R) eq_refl (flat_good t FT) P) as [-> [C [_ [NV HP]]]].
  destruct (read_points _ _ _ _ B) as [_ TY].
  pose proof B as B0. unfold read_back in B. cbv zeta in B.
  destruct B as [[-> [v [H ->]]]|[[-> [v [H ->]]]|[[-> [v [H ->]]]|B]]].
  - destruct C as [[_ [u [H' ->]]]|C]; [|cbv zeta in C; exfalso; intuition lia].
    rewrite H in H'. injection H' as <-. reflexivity.
  - destruct C as [[C _]|[[_ [u [H' ->]]]|C]]; [lia| |cbv zeta in C; exfalso; intuition lia].
    rewrite H in H'. injection H' as <-. reflexivity.
  - destruct C as [[C _]|[[C _]|[[_ [u [H' ->]]]|C]]]; [lia|lia| |cbv zeta in C; exfalso; intuition lia].
    rewrite H in H'. injection H' as <-. reflexivity.
  - assert (D : t = 3 \/ t = 5 \/ t = 8).
    { unfold flat_type in FT. cbn [In] in FT. clear - B FT. intuition lia. }
    refine (put_alike d t (set_type (Some t) s) s' D eq_refl TY _ _ c _ P).
    + intros N8. pose proof (HP ltac:(cbn; lia)) as X. cbn [set_type s_parts]. cbn [set_type s_parts] in X. rewrite X.
      destruct B as [[-> _]|[[_ [b [_ ->]]]|[[-> | ->] _]]]; [lia|reflexivity|lia|lia].
    + cut (same_xy s s'); [intros Y; exact Y|]. apply (read_same ms t g s s' R B0). unfold point_type. cbn [In]. lia.
Qed.

(** ** Boxes *)
Definition lengthened (t : Z) (g : geometry) : shape := mkShape None (map coords (kept t g)) None None None None None.
Lemma kept_in t g v : In v (kept t g) -> In v (vertices g).
Proof. unfold kept. destruct (existsb _ _); [|auto]. destruct (vertices g) as [|u l]; cbn; tauto. Qed.
Lemma kept_empty t g : vertices g <> [] -> kept t g <> [].
Proof. unfold kept. destruct (existsb _ _); [|auto]. destruct (vertices g); cbn; [congruence|discriminate]. Qed.
Lemma lengthened_rep t g : doubles_ok (vertices g) -> represents (lengthened t g) [kept t g].
Proof.
  intros D. constructor; cbn; try reflexivity; try (right; reflexivity).
  - rewrite map_map, app_nil_r. erewrite map_ext; [apply map_id|]. intros []. reflexivity.
  - apply Forall_forall. intros p I. apply in_map_iff in I. destruct I as [v [<- I]]. apply kept_in in I.
    split; [cbn; lia|]. apply (proj1 (Forall_forall _ _) D v I).
Qed.
Lemma lengthened_same ms t g s : read_back ms t g s -> same_xy s (lengthened t g).
Proof.
  intros B. destruct (read_points _ _ _ _ B) as [P _]. unfold same_xy. rewrite P, xy_back. cbn [lengthened s_points]. rewrite map_map.
  split; [apply map_ext; intros []; reflexivity|]. split; [apply flat_xy|].
  apply Forall_forall. intros p I. apply in_map_iff in I. destruct I as [v [<- _]]. unfold flat_point. cbn. lia.
Qed.
Lemma short_coords vs k : (2 <= k)%nat -> coords_at k (map xy vs) = [].
Proof. intros K. destruct vs as [|v l]; [reflexivity|]. cbn. destruct k as [|[|k]]; [lia|lia|]. destruct k; reflexivity. Qed.
Lemma read_ranges ms t gs ss : Forall2 (read_back ms t) gs ss -> zbox_of ss = Ok no_range /\ mbox_of ss = Ok no_range.
Proof.
  intros F. assert (K : forall k, (2 <= k)%nat -> flat_map (fun s => coords_at k (s_points s)) ss = []).
  { intros k K. induction F as [|g s gs ss H _ IH]; [reflexivity|]. cbn [flat_map]. destruct (read_points _ _ _ _ H) as [P _].
    rewrite IH, P, (short_coords _ k K). reflexivity. }
  unfold zbox_of, mbox_of. rewrite !K by lia. cbv zeta. split; reflexivity.
Qed.

(** ** Saving *)
Definition rewrites (d : list Z) (t : Z) (s : shape) (c : list Z) : Prop := s_type s = Some t /\ put_shape_w d s = Ok (c, s).
Lemma set_type_same t s : s_type s = Some t -> set_type (Some t) s = s.
Proof. destruct s. cbn. intros ->. reflexivity. Qed.
Lemma rewrites_loop t todo : forall cs fin w, t <> 31 -> w_type w = Some t -> w_shapes w = fin ++ todo ->
  Forall2 (rewrites (w_default w) t) todo cs -> at_end (w_shp w) ->
  (forall k, (k < length cs)%nat -> i32 (Z.of_nat (length fin) + Z.of_nat k + 1)) -> Forall (fun c => i32 (words c)) cs ->
  for_each shp_record (seq (length fin) (length todo)) w =
   (mkWriter (Some t) (fin ++ todo) (w_fields w) (w_records w)
           (w_offsets w ++ offsets_from (Z.of_nat (length (fdata (w_shp w)))) cs)
           (w_lengths w ++ map words cs)
           (append (w_shp w) (all_records (Z.of_nat (length fin) + 1) cs)) (w_shx w) (w_dbf w) (w_default w), Ok tt).
Proof.
  induction todo as [|s todo IH]; intros cs fin w G T S R E N I.
  - inversion R. subst. cbn [length seq for_each ret]. unfold ret. f_equal.
    cbn [map offsets_from all_records]. rewrite !app_nil_r, append_nil. apply writer_ext; try reflexivity; try assumption.
    rewrite S, app_nil_r. reflexivity.
  - inversion R as [|s0 c todo0 cs' [TY P] R' E1 E2]. subst s0 todo0 cs. inversion I as [|? ? I1 I2]; subst.
    cbn [length seq for_each].
    assert (NE : nth_error (w_shapes w) (length fin) = Some s) by (rewrite S, nth_error_app2, Nat.sub_diag by lia; reflexivity).
    pose proof (N 0%nat ltac:(cbn; lia)) as N0. cbn in N0. rewrite Z.add_0_r in N0.
    pose proof (record_run (length fin) t w s T NE E N0) as RR.
    unfold typed in RR. apply Z.eqb_neq in G. rewrite G in RR. apply Z.eqb_neq in G. rewrite (set_type_same t s TY), P in RR.
    destruct (RR I1) as [w1 RW]. rewrite (mbind_run _ _ _ _ _ RW).
    destruct (shp_record_inv (length fin) t w s w1 G T NE E RW) as [c' [s' [P' [_ [_ W1]]]]].
    rewrite (set_type_same t s TY), P in P'. injection P' as <- <-.
    rewrite S, set_nth_app in W1.
    replace (Datatypes.S (length fin)) with (length (fin ++ [s])) by (rewrite app_length; cbn [length]; lia).
    rewrite (IH cs' (fin ++ [s]) w1 G).
    + rewrite W1. cbn [w_type w_shapes w_fields w_records w_offsets w_lengths w_shp w_shx w_dbf w_default map offsets_from all_records].
      rewrite <- !app_assoc, append_app, app_length. cbn [app length append fdata]. rewrite app_length, record_bytes_length.
      f_equal. f_equal.
      * f_equal. f_equal. f_equal. lia.
      * f_equal. f_equal. f_equal. lia.
    + rewrite W1. reflexivity.
    + rewrite W1. cbn [w_shapes]. rewrite <- app_assoc. reflexivity.
    + rewrite W1. exact R'.
    + rewrite W1. cbn [w_shp]. apply append_end. exact E.
    + intros k K. specialize (N (Datatypes.S k) ltac:(cbn [length]; lia)). rewrite app_length. cbn [length].
      replace (Z.of_nat (length fin + 1) + Z.of_nat k + 1) with (Z.of_nat (length fin) + Z.of_nat (Datatypes.S k) + 1) by lia. exact N.
    + exact I2.
Qed.
Lemma read_size ms t g s c : good t -> read_back ms t g s -> content t g c ->
  forall n np, exists np', shape_size (Some t) (n, np) s = Ok (n + 8 + Z.of_nat (length c), np').
Proof.
  intros FT B C n np. rewrite (content_length t g c C). unfold read_back in B. cbv zeta in B. unfold shape_size, content_size.
  destruct B as [[-> [v [H ->]]]|[[-> [v [H ->]]]|[[-> [v [H ->]]]|[[-> [b [_ ->]]]|[[[-> | ->] [b [_ ->]]]|[[-> | ->] [b [m [_ [_ ->]]]]]]]]]];
    cbn [s_parts s_points type_in type_is existsb Z.eqb Pos.eqb orb bind need_parts]; cbv zeta; rewrite ?map_length;
    unfold part_starts; rewrite ?starts_length; eexists; apply (f_equal Ok); (apply (f_equal2 pair); [cbn [length]; lia|reflexivity]).
Qed.
Lemma read_length ms t gs ss cs : good t -> Forall2 (read_back ms t) gs ss -> Forall2 (content t) gs cs -> forall n np,
  exists np', foldM (shape_size (Some t)) ss (n, np) = Ok (n + Z.of_nat (length (all_records 1 cs)), np').
Proof.
  intros FT B. revert cs. induction B as [|g s gs ss B _ IH]; intros cs C n np; inversion C as [|? c ? cs' C1 C2]; subst.
  - exists np. cbn. rewrite Z.add_0_r. reflexivity.
  - destruct (read_size ms t g s c FT B C1 n np) as [np1 E]. destruct (IH cs' C2 (n + 8 + Z.of_nat (length c)) np1) as [np2 E2].
    exists np2. cbn [foldM]. rewrite E. cbn [bind]. rewrite E2, !all_records_length. cbn [fold_right]. apply (f_equal Ok). apply (f_equal2 pair); [lia|reflexivity].
Qed.
Lemma read_header ms t w gs cs b : good t -> w_type w = Some t -> Forall2 (read_back ms t) gs (w_shapes w) -> Forall2 (content t) gs cs ->
  box_of (w_shapes w) = Ok b -> i32 ((100 + Z.of_nat (length (all_records 1 cs))) / 2) ->
  let hd := header ((100 + Z.of_nat (length (all_records 1 cs))) / 2) t b no_range no_range in
  length hd = 100%nat /\
  saveShp new_file w = for_each shp_record (seq 0 (length (w_shapes w))) (w_set_shp (whole hd) (w_set_type (Some t) w)).
Proof.
  intros G T B C BX I2 hd. assert (NZ : t <> 0) by (unfold good in G; cbn in G; lia).
  assert (ET : eff_type w t) by (split; [exact NZ|left; exact T]).
  destruct (read_ranges ms t gs _ B) as [ZB MB].
  assert (HL : length hd = 100%nat) by (apply header_length; [eapply box_of_length; exact BX|reflexivity|reflexivity]).
  split; [exact HL|].
  rewrite (save_starts w t ET). set (w0 := w_set_shp new_file (w_set_type (Some t) w)).
  destruct (read_length ms t gs _ cs G B C 100 None) as [np LN].
  assert (FL : shp_file_length w0 = Ok ((100 + Z.of_nat (length (all_records 1 cs))) / 2)).
  { unfold shp_file_length, w0. cbn [w_type w_shapes w_set_shp w_set_type]. rewrite LN. reflexivity. }
  pose proof (header_run w0 false t _ eq_refl NZ (good_i32 t G) FL I2) as HR. change (w_shapes w0) with (w_shapes w) in HR. rewrite BX in HR.
  destruct HR as [f HR]. destruct (header_bytes w0 false t f eq_refl NZ HR) as [n [b' [z [m [[B1 [B2 B3]] [N1 [_ E]]]]]]].
  change (w_shapes w0) with (w_shapes w) in B1, B2, B3. rewrite BX in B1. rewrite ZB in B2. rewrite MB in B3. rewrite FL in N1.
  injection B1 as <-. injection B2 as <-. injection B3 as <-. injection N1 as <-. fold hd in E. subst f.
  rewrite (mbind_run _ _ w0 (w_set_shp (whole hd) w0) tt).
  2:{ unfold on_shp, zoom. change (w_shp w0) with new_file. rewrite HR. reflexivity. }
  unfold shp_records. rewrite (mbind_run _ _ _ (w_set_shp (whole hd) w0) tt); [reflexivity|].
  unfold on_shp, zoom. cbn [w_shp w_set_shp]. unfold f_seek. cbn [Z.ltb Z.compare fdata whole]. unfold whole. rewrite HL. reflexivity.
Qed.
Lemma save_read ms t w gs cs b : flat_type t -> w_type w = Some t -> Forall2 (read_back ms t) gs (w_shapes w) -> Forall2 (content t) gs cs ->
  Forall2 (rewrites (w_default w) t) (w_shapes w) cs -> box_of (w_shapes w) = Ok b -> w_offsets w = [] -> w_lengths w = [] ->
  (forall k, (k < length cs)%nat -> i32 (Z.of_nat k + 1)) -> Forall (fun c => i32 (words c)) cs ->
  i32 ((100 + Z.of_nat (length (all_records 1 cs))) / 2) -> i32 ((100 + 8 * Z.of_nat (length cs)) / 2) ->
  Forall (fun o => i32 (o / 2)) (offsets_from 100 cs) ->
  exists w1 w2, saveShp new_file w = (w1, Ok tt) /\ saveShx new_file w1 = (w2, Ok tt) /\
    w_shapes w1 = w_shapes w /\ w_shapes w2 = w_shapes w /\
    fdata (w_shp w2) = shp_file t b no_range no_range cs /\ fdata (w_shx w2) = shx_file t b no_range no_range cs.
Proof.
  intros FT T B C R BX O L N I1 I2 I3 I4. assert (G := flat_good t FT).
  assert (NZ : t <> 0) by (unfold flat_type in FT; cbn in FT; lia).
  assert (ET : eff_type w t) by (split; [exact NZ|left; exact T]).
  destruct (read_ranges ms t gs _ B) as [ZB MB].
  assert (S1 : saveShp new_file w = (mkWriter (Some t) (w_shapes w) (w_fields w) (w_records w) (offsets_from 100 cs) (map words cs)
    (whole (shp_file t b no_range no_range cs)) (w_shx w) (w_dbf w) (w_default w), Ok tt)).
  { destruct (read_header ms t w gs cs b G T B C BX I2) as [HL ->]. set (hd := header _ t b no_range no_range) in *.
    set (w0 := w_set_type (Some t) w).
    change (seq 0) with (seq (length (@nil shape))).
    rewrite (rewrites_loop t (w_shapes w) cs [] (w_set_shp (whole hd) w0)).
    - cbn [app w_fields w_records w_offsets w_lengths w_shp w_shx w_dbf w_default w_set_shp fdata whole length Z.of_nat Z.add].
      rewrite HL. f_equal. apply writer_ext; try reflexivity.
      + cbn [w_offsets]. change (w_offsets w0) with (w_offsets w). rewrite O. reflexivity.
      + cbn [w_lengths]. change (w_lengths w0) with (w_lengths w). rewrite L. reflexivity.
      + cbn [w_shp]. unfold append, whole. cbn [fdata fpos]. unfold shp_file. fold hd. f_equal. rewrite app_length. reflexivity.
    - unfold flat_type in FT. cbn in FT. lia.
    - reflexivity.
    - reflexivity.
    - exact R.
    - reflexivity.
    - intros k K. cbn [length Z.of_nat Z.add]. exact (N k K).
    - exact I1. }
  assert (LS : length (w_shapes w) = length cs) by apply (F2_length R).
  set (w1 := mkWriter _ _ _ _ _ _ _ _ _ _) in S1. exists w1.
  destruct (save_shx_run t w1 b eq_refl NZ (good_i32 t G)) as [w2 S2].
  - exact BX.
  - change (w_shapes w1) with (w_shapes w). rewrite LS. replace (Z.of_nat (length cs) * 8) with (8 * Z.of_nat (length cs)) by lia. exact I3.
  - change (w_shapes w1) with (w_shapes w). rewrite LS. intros k Hk.
    destruct (nth_error (offsets_from 100 cs) k) as [o|] eqn:NO; [|apply nth_error_None in NO; rewrite offsets_length in NO; lia].
    destruct (nth_error cs k) as [c|] eqn:NC; [|apply nth_error_None in NC; lia].
    exists o, (words c). split; [exact NO|]. split; [apply map_nth_error, NC|]. split.
    + rewrite Forall_forall in I4. exact (I4 o (nth_error_In _ _ NO)).
    + rewrite Forall_forall in I1. apply I1. eapply nth_error_In, NC.
  - exists w2. split; [exact S1|]. split; [exact S2|]. split; [reflexivity|].
    destruct (save_shx_ok t w1 w2 eq_refl NZ S2) as [b' [z [m [os [ls [[B1 [B2 B3]] [L1 [L2 [K [_ [_ [_ W2]]]]]]]]]]]].
    change (w_shapes w1) with (w_shapes w) in *. rewrite BX in B1. rewrite ZB in B2. rewrite MB in B3.
    injection B1 as <-. injection B2 as <-. injection B3 as <-. rewrite W2.
    split; [reflexivity|]. split; [reflexivity|]. cbn [w_shx w_set_shx whole fdata]. rewrite LS in *.
    assert (EO : os = offsets_from 100 cs).
    { apply nth_ext_list; [rewrite L1, offsets_length; reflexivity|]. intros k Hk. rewrite L1 in Hk. exact (proj1 (K k Hk)). }
    assert (EL : ls = map words cs).
    { apply nth_ext_list; [rewrite L2, map_length; reflexivity|]. intros k Hk. rewrite L2 in Hk. exact (proj2 (K k Hk)). }
    rewrite EO, EL, entries_index. split; reflexivity.
Qed.

(** ** Measured types cannot be saved again *)
Lemma measured_error d ms t g s : t = 23 \/ t = 25 -> read_back ms t g s -> fits t g -> doubles_ok (vertices g) -> vertices g <> [] ->
  put_shape_w d s = Err IndexError.
Proof.
  intros D B [F1 F2] DD N. destruct (read_points _ _ _ _ B) as [P T].
  assert (K : kept t g = vertices g) by (unfold kept; destruct D as [-> | ->]; reflexivity). rewrite K in P.
  assert (PA : s_parts s = Some (part_starts g)).
  { unfold read_back in B. cbv zeta in B. destruct B as [[H _]|[[H _]|[[H _]|[[H _]|[[H _]|[_ [b [m [_ [_ ->]]]]]]]]]]; try lia. reflexivity. }
  destruct (one_box (lengthened t g) [kept t g] (lengthened_rep t g DD)) as [b BX]. { rewrite K. cbn. rewrite app_nil_r. exact N. }
  rewrite <- (box_same [s]) in BX by (constructor; [exact (lengthened_same ms t g s B)|constructor]).
  assert (IN3 : In t [3; 5; 23; 25]) by (cbn; lia). assert (IN8 : In t [3; 5; 8; 23; 25]) by (cbn; lia).
  destruct (F2 IN3) as [I2 I3]. destruct (each_li _ I3) as [[bl []] EL].
  assert (E1 : pack_li (Z.of_nat (length (part_starts g))) = Ok (le32 (Z.of_nat (length g)))).
  { unfold part_starts. rewrite starts_length. apply pack_li_32, I2. }
  assert (E2 : pack_li (Z.of_nat (length (s_points s))) = Ok (le32 (Z.of_nat (length (vertices g))))).
  { rewrite P, map_length. apply pack_li_32, F1, IN8. }
  assert (EX : exists bx, weach (fun p => wput (pack_xy p)) (s_points s) = Ok (bx, tt)).
  { rewrite P. clear. induction (vertices g) as [|v l [bx IH]]; [eexists; reflexivity|]. cbn [map weach]. rewrite IH. eexists. reflexivity. }
  destruct EX as [bx EX]. destruct (mbox_total [s]) as [mb MB].
  assert (EM : weach (fun p => wbind (wlift (py_get p 3)) (fun v => wwrite (dbl_bytes v))) (s_points s) = Err IndexError).
  { rewrite P. destruct (vertices g) as [|v l]; [congruence|]. reflexivity. }
  unfold put_shape_w. cbv zeta. rewrite T, BX, PA, E2, EX, MB, EM. cbn [attr wlift].
  destruct D as [-> | ->]; cbn [type_in type_is existsb Z.eqb Pos.eqb orb wwhen]; cbn [wbind]; rewrite E1, EL; reflexivity.
Qed.
Lemma measured_save ms t w gs cs b : t = 23 \/ t = 25 -> w_type w = Some t -> Forall2 (read_back ms t) gs (w_shapes w) ->
  Forall2 (readable t) gs cs -> Forall (fun g => vertices g <> []) gs -> box_of (w_shapes w) = Ok b ->
  i32 ((100 + Z.of_nat (length (all_records 1 cs))) / 2) -> exists w1, saveShp new_file w = (w1, Err IndexError).
Proof.
  intros D T B R NE BX I2. assert (G : good t) by (unfold good; cbn; lia).
  assert (C : Forall2 (content t) gs cs) by (clear - R; induction R as [|g c gs cs [X _] _ IH]; constructor; assumption).
  destruct (read_header ms t w gs cs b G T B C BX I2) as [HL ->]. set (hd := header _ t b no_range no_range) in *.
  set (w0 := w_set_shp (whole hd) (w_set_type (Some t) w)).
  assert (TY : w_type w0 = Some t) by reflexivity. assert (WE : at_end (w_shp w0)) by reflexivity.
  assert (WS : w_shapes w0 = w_shapes w) by reflexivity. clearbody w0.
  destruct B as [|g s gs ss Bs B]; [discriminate|]. inversion R as [|? c ? cs' [X1 [X2 [X3 X4]]] R']; subst. inversion NE as [|? ? NV NE']; subst.
  cbn [length seq for_each].
  pose proof (record_run 0 t w0 s TY) as RR. rewrite WS in RR. specialize (RR eq_refl WE ltac:(unfold i32; cbn; lia)).
  unfold typed in RR. rewrite (good_not_31 t G) in RR. destruct (read_points _ _ _ _ Bs) as [_ T1]. rewrite (set_type_same t s T1) in RR.
  rewrite (measured_error (w_default w0) ms t g s D Bs X2 X3 NV) in RR. destruct RR as [w1 RR]. exists w1. apply mbind_err, RR.
Qed.
