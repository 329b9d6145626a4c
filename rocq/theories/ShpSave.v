(** The files written by saveShp and saveShx. *)
From Verif Require Import Py VlvModel VlvProofs ShpFile ShpLib ShpSpec ShpWriterModel ShpReaderModel ShpWriterProofs ShpPrograms.
Open Scope Z_scope.
Open Scope m_scope.

Lemma be32_length v : length (be32 v) = 4%nat. Proof. reflexivity. Qed.
Lemma le32_length v : length (le32 v) = 4%nat. Proof. reflexivity. Qed.
Lemma flat_le32_length l : length (flat_map le32 l) = (4 * length l)%nat.
Proof. induction l as [|x l IH]; [reflexivity|]. cbn [flat_map length]. rewrite app_length, IH, le32_length. lia. Qed.
Lemma flat_xy_length (l : list vertex) : length (flat_map (fun v => doubles [vx v; vy v]) l) = (16 * length l)%nat.
Proof. induction l as [|x l IH]; [reflexivity|]. cbn [flat_map length]. rewrite app_length, IH, doubles_length. cbn [length]. lia. Qed.
(** The length of a record by type. *)
Definition content_size (t : Z) (g : geometry) : nat :=
  let n := length (vertices g) in
  let k := length g in
  if t =? 1 then 20%nat else if t =? 11 then 36%nat else if t =? 21 then 28%nat
  else if t =? 8 then (40 + 16 * n)%nat
  else if (t =? 3) || (t =? 5) then (44 + 4 * k + 16 * n)%nat
  else (60 + 4 * k + 24 * n)%nat.
Lemma content_length t g c : content t g c -> length c = content_size t g.
Proof.
  unfold content, content_size. cbv zeta.
  intros [[-> [v [_ ->]]]|[[-> [v [_ ->]]]|[[-> [v [_ ->]]]|[[-> [b [B ->]]]|[[T [b [B ->]]]|[T [b [mb [B [M ->]]]]]]]]]].
  - reflexivity.
  - reflexivity.
  - reflexivity.
  - destruct B as [x0 [y0 [x1 [y1 [-> _]]]]]. cbn [Z.eqb Pos.eqb orb].
    rewrite !app_length, !doubles_length, !le32_length, flat_xy_length. cbn [length]. lia.
  - destruct B as [x0 [y0 [x1 [y1 [-> _]]]]].
    rewrite !app_length, !doubles_length, !le32_length, flat_xy_length, flat_le32_length.
    unfold part_starts. rewrite starts_length. cbn [length]. destruct T as [-> | ->]; cbn [Z.eqb Pos.eqb orb]; lia.
  - destruct B as [x0 [y0 [x1 [y1 [-> _]]]]]. destruct M as [a [z [-> _]]].
    rewrite !app_length, !doubles_length, !le32_length, flat_xy_length, flat_le32_length, map_length.
    unfold part_starts. rewrite starts_length. cbn [length]. destruct T as [-> | ->]; cbn [Z.eqb Pos.eqb orb]; lia.
Qed.
Lemma content_size_even t g : Z.of_nat (content_size t g) mod 2 = 0.
Proof.
  unfold content_size. cbv zeta. set (n := length (vertices g)). set (k := length g).
  repeat match goal with |- context [if ?c then _ else _] => destruct c end.
  - reflexivity.
  - reflexivity.
  - reflexivity.
  - replace (Z.of_nat (40 + 16 * n)) with (0 + (20 + 8 * Z.of_nat n) * 2) by lia. rewrite Z.mod_add by lia. reflexivity.
  - replace (Z.of_nat (44 + 4 * k + 16 * n)) with (0 + (22 + 2 * Z.of_nat k + 8 * Z.of_nat n) * 2) by lia. rewrite Z.mod_add by lia. reflexivity.
  - replace (Z.of_nat (60 + 4 * k + 24 * n)) with (0 + (30 + 2 * Z.of_nat k + 12 * Z.of_nat n) * 2) by lia. rewrite Z.mod_add by lia. reflexivity.
Qed.
Lemma content_even t g c : content t g c -> 2 * (Z.of_nat (length c) / 2) = Z.of_nat (length c).
Proof.
  intros H. rewrite (content_length t g c H). pose proof (content_size_even t g) as E.
  pose proof (Z.div_mod (Z.of_nat (content_size t g)) 2 ltac:(lia)). lia.
Qed.
Lemma represents_type t s g : represents s g -> represents (set_type t s) g.
Proof. intros [A B C D E]. constructor; assumption. Qed.

(** Overwriting four bytes before the last [c]. *)
Lemma patch d old new c : length old = length new ->
  f_write new (mkFile (d ++ old ++ c) (length d)) = (mkFile (d ++ new ++ c) (length d + length new), Ok tt).
Proof.
  intros L. unfold f_write. cbn [fdata fpos].
  rewrite firstn_app, firstn_all, Nat.sub_diag, firstn_O, app_nil_r.
  replace (length d - length (d ++ old ++ c))%nat with 0%nat by (rewrite app_length; lia). cbn [repeat].
  rewrite app_nil_r, skipn_plus, skipn_app, skipn_all, Nat.sub_diag. cbn [skipn app].
  rewrite skipn_app, skipn_all2, <- L, Nat.sub_diag by lia. reflexivity.
Qed.
Lemma on_shp_run {A} (m : M file A) w f r : m (w_shp w) = (f, r) -> on_shp m w = (w_set_shp f w, r).
Proof. intros H. unfold on_shp, zoom. rewrite H. reflexivity. Qed.
Lemma on_shx_run {A} (m : M file A) w f r : m (w_shx w) = (f, r) -> on_shx m w = (w_set_shx f w, r).
Proof. intros H. unfold on_shx, zoom. rewrite H. reflexivity. Qed.
Lemma mbind_ok {S A B} (m : M S A) (k : A -> M S B) s s' b : mbind m k s = (s', Ok b) ->
  exists s1 a, m s = (s1, Ok a) /\ k a s1 = (s', Ok b).
Proof.
  unfold mbind. destruct (m s) as [s1 [a|e]]; intros H; [|discriminate]. exists s1, a. auto.
Qed.
Lemma mbind_run {S A B} (m : M S A) (k : A -> M S B) s s1 a : m s = (s1, Ok a) -> mbind m k s = k a s1.
Proof. intros H. unfold mbind. rewrite H. reflexivity. Qed.
Lemma outputs_ok {A} (m : M file A) r f f' a : outputs m r -> at_end f -> m f = (f', Ok a) ->
  exists bs, r = Ok (bs, a) /\ f' = append f bs.
Proof.
  intros O E H. specialize (O f E). destruct r as [[bs b]|e].
  - rewrite H in O. injection O as -> ->. exists bs. auto.
  - destruct O as [g O]. rewrite H in O. discriminate.
Qed.
Lemma pack_many_2 p (a b : Z) bs : (forall v x, p v = Ok x -> x = be32 v /\ i32 v) -> pack_many p [a; b] = Ok bs ->
  bs = be32 a ++ be32 b /\ i32 a /\ i32 b.
Proof.
  intros Hp H. apply pack_many_inv in H. destruct H as [bss [F ->]].
  inversion F as [|x y l l' Hx F' E1 E2]; subst. inversion F' as [|x' y' l2 l2' Hx' F'' E1 E2]; subst. inversion F''; subst.
  apply Hp in Hx. apply Hp in Hx'. destruct Hx as [-> I1]. destruct Hx' as [-> I2]. cbn [concat]. rewrite app_nil_r. auto.
Qed.

Lemma pair_inv {A B} (a c : A) (b d : B) : (a, b) = (c, d) -> a = c /\ b = d.
Proof. intros H. split; congruence. Qed.
Ltac pinv X := apply pair_inv in X; destruct X as [<- X].

Lemma writer_ext w a b c d e f g h i j : w_type w = a -> w_shapes w = b -> w_fields w = c -> w_records w = d ->
  w_offsets w = e -> w_lengths w = f -> w_shp w = g -> w_shx w = h -> w_dbf w = i -> w_default w = j ->
  w = mkWriter a b c d e f g h i j.
Proof. destruct w. cbn. intros; subst. reflexivity. Qed.

(** ** One record *)
Lemma shp_record_inv i t w s w' : t <> 31 -> w_type w = Some t -> nth_error (w_shapes w) i = Some s ->
  at_end (w_shp w) -> shp_record i w = (w', Ok tt) ->
  exists c s', put_shape_w (w_default w) (set_type (Some t) s) = Ok (c, s') /\ i32 (Z.of_nat i + 1) /\ i32 (Z.of_nat (length c) / 2) /\
    w' = mkWriter (Some t) (set_nth i s' (w_shapes w)) (w_fields w) (w_records w)
           (w_offsets w ++ [Z.of_nat (length (fdata (w_shp w)))])
           (w_lengths w ++ [Z.of_nat (length c) / 2])
           (append (w_shp w) (record_bytes (Z.of_nat i + 1) c)) (w_shx w) (w_dbf w) (w_default w).
Proof.
  intros G T N E H. unfold shp_record in H.
  apply mbind_ok in H. destruct H as [w1 [a1 [X H]]]. unfold get in X. injection X as <- <-.
  apply mbind_ok in H. destruct H as [w1 [s0 [X H]]]. unfold lift in X.
  assert (PG : py_get (w_shapes w) (Z.of_nat i) = Ok s).
  { unfold py_get. destruct (Z.ltb_spec (Z.of_nat i) 0); [lia|]. destruct (Z.leb_spec 0 (Z.of_nat i)); [|lia].
    assert (L : (i < length (w_shapes w))%nat) by (apply nth_error_Some; rewrite N; discriminate).
    destruct (Z.ltb_spec (Z.of_nat i) (Z.of_nat (length (w_shapes w)))); [|lia]. cbn [andb]. rewrite Nat2Z.id, N. reflexivity. }
  rewrite PG in X. injection X as <- <-.
  apply mbind_ok in H. destruct H as [w1 [off [X H]]].
  rewrite (on_shp_run f_tell w (w_shp w) (Ok (Z.of_nat (fpos (w_shp w))))) in X by reflexivity. injection X as <- <-.
  rewrite (mbind_run _ _ _ (w_set_offsets (w_offsets w ++ [Z.of_nat (fpos (w_shp w))]) (w_set_shp (w_shp w) w)) tt) in H by reflexivity.
  apply mbind_ok in H. destruct H as [w1 [u1 [X H]]].
  unfold on_shp at 1, zoom in X. cbn [w_shp w_set_offsets w_set_shp] in X.
  destruct (f_put (pack_many pack_bi [Z.of_nat i + 1; 0]) (w_shp w)) as [f1 r1] eqn:F1. pinv X. subst r1.
  apply (outputs_ok _ _ _ _ _ (out_put _) E) in F1. destruct F1 as [hdr [F1 F1']]. apply wput_inv in F1.
  apply pack_many_2 in F1; [|intros v x Hx; apply pack_bi_be32 in Hx; exact Hx]. destruct F1 as [HH [I1 _]].
  assert (E1 : at_end f1) by (rewrite F1'; apply append_end; exact E).
  apply mbind_ok in H. destruct H as [w2 [start [X H]]].
  unfold on_shp at 1, zoom, f_tell in X. cbn [w_shp w_set_shp] in X. pinv X. injection X as <-.
  rewrite T in H. replace (type_is (Some t) 31) with false in H
    by (cbn; destruct (Z.eqb_spec t 31); [contradiction|reflexivity]).
  cbv zeta in H.
  match type of H with (modify ?g ;;; _) ?st = _ => rewrite (mbind_run (modify g) _ st (g st) tt) in H by reflexivity end.
  apply mbind_ok in H. destruct H as [w3 [s' [X H]]].
  unfold on_shp at 1, zoom in X. cbn [w_shp w_set_shapes w_set_shp w_set_offsets w_default] in X.
  destruct (put_shape (w_default w) (set_type (Some t) s) f1) as [f2 r2] eqn:F2. pinv X. subst r2.
  apply (outputs_ok _ _ _ _ _ (out_put_shape _ _) E1) in F2. destruct F2 as [c [F2 ->]].
  match type of H with (modify ?g ;;; _) ?st = _ => rewrite (mbind_run (modify g) _ st (g st) tt) in H by reflexivity end.
  apply mbind_ok in H. destruct H as [w4 [fin [X H]]].
  unfold on_shp at 1, zoom, f_tell in X. cbn [w_shp w_set_shp w_set_shapes fpos append] in X. pinv X. injection X as <-.
  cbv zeta in H.
  match type of H with (modify ?g ;;; _) ?st = _ => rewrite (mbind_run (modify g) _ st (g st) tt) in H by reflexivity end.
  assert (P1 : fpos f1 = (length (fdata (w_shp w)) + 8)%nat).
  { rewrite F1', HH. unfold append. cbn [fpos]. unfold at_end in E. rewrite E, app_length, !be32_length. reflexivity. }
  replace (Z.of_nat (fpos f1 + length c) - Z.of_nat (fpos f1)) with (Z.of_nat (length c)) in H by lia.
  apply mbind_ok in H. destruct H as [w5 [u5 [X H]]].
  unfold on_shp at 1, zoom in X. cbn [w_shp w_set_lengths w_set_shapes w_set_shp w_set_offsets] in X.
  unfold f_seek at 1 in X. destruct (Z.ltb_spec (Z.of_nat (fpos f1) - 4) 0) as [|_]; [lia|]. cbn [fdata append] in X.
  pinv X.
  apply mbind_ok in H. destruct H as [w6 [u6 [X1 H]]].
  unfold on_shp at 1, zoom in X1. cbn [w_shp w_set_lengths w_set_shapes w_set_shp w_set_offsets] in X1.
  destruct (pack_bi (Z.of_nat (length c) / 2)) as [lb|] eqn:LB; [|discriminate X1].
  apply pack_bi_be32 in LB. destruct LB as [LB I2].
  unfold f_put at 1 in X1. rewrite (mbind_run _ _ _ (mkFile (fdata f1 ++ c) (Z.to_nat (Z.of_nat (fpos f1) - 4))) lb) in X1 by reflexivity.
  assert (FD : fdata f1 ++ c = (fdata (w_shp w) ++ be32 (Z.of_nat i + 1)) ++ be32 0 ++ c).
  { rewrite F1', HH. unfold append. cbn [fdata]. rewrite <- !app_assoc. reflexivity. }
  assert (PD : Z.to_nat (Z.of_nat (fpos f1) - 4) = length (fdata (w_shp w) ++ be32 (Z.of_nat i + 1))).
  { rewrite app_length, be32_length. lia. }
  rewrite FD, PD in X1. rewrite (patch _ (be32 0) lb c ltac:(rewrite LB; reflexivity)) in X1.
  pinv X1.
  unfold on_shp at 1, zoom in H. cbn [w_shp w_set_lengths w_set_shapes w_set_shp w_set_offsets] in H.
  unfold f_seek in H. destruct (Z.ltb_spec (Z.of_nat (fpos f1 + length c)) 0) as [|_]; [lia|]. cbn [fdata] in H.
  pinv H.
  exists c, s'. split; [exact F2|]. split; [exact I1|]. split; [exact I2|].
  apply writer_ext; try reflexivity.
  - exact T.
  - cbn [w_shapes w_set_lengths w_set_shapes w_set_shp w_set_offsets].
    clear. revert i. induction (w_shapes w) as [|x l IH]; intros [|i]; cbn; try reflexivity. rewrite IH. reflexivity.
  - cbn [w_offsets w_set_lengths w_set_shapes w_set_shp w_set_offsets]. unfold at_end in E. rewrite E. reflexivity.
  - cbn [w_shp w_set_lengths w_set_shapes w_set_shp w_set_offsets]. unfold append. f_equal.
    + unfold record_bytes. rewrite LB, <- !app_assoc. reflexivity.
    + rewrite Nat2Z.id, P1. unfold at_end in E. rewrite E. unfold record_bytes. rewrite !app_length, !be32_length. lia.
Qed.
Lemma good_31 t : good t -> t <> 31.
Proof. unfold good. cbn [In]. lia. Qed.
Lemma shp_record_ok i t w s g w' : good t -> w_type w = Some t -> nth_error (w_shapes w) i = Some s ->
  represents s g -> at_end (w_shp w) -> shp_record i w = (w', Ok tt) ->
  exists c, content t g c /\ fits t g /\ vertices g <> [] /\ has_parts t s g /\ i32 (Z.of_nat i + 1) /\ i32 (Z.of_nat (length c) / 2) /\
    put_shape_w (w_default w) (set_type (Some t) s) = Ok (c, set_type (Some t) s) /\
    w' = mkWriter (Some t) (set_nth i (set_type (Some t) s) (w_shapes w)) (w_fields w) (w_records w)
           (w_offsets w ++ [Z.of_nat (length (fdata (w_shp w)))])
           (w_lengths w ++ [Z.of_nat (length c) / 2])
           (append (w_shp w) (record_bytes (Z.of_nat i + 1) c)) (w_shx w) (w_dbf w) (w_default w).
Proof.
  intros G T N R E H. destruct (shp_record_inv i t w s w' (good_31 t G) T N E H) as [c [s' [P [I1 [I2 W]]]]].
  pose proof P as P'. apply (put_shape_good _ t _ g) in P'; [|apply represents_type; exact R|reflexivity|exact G].
  destruct P' as [-> [C [FT [NV HP]]]]. exists c. auto 10.
Qed.

(** ** All records *)
Fixpoint offsets_from (o : Z) (cs : list (list Z)) : list Z :=
  match cs with
  | [] => []
  | c :: r => o :: offsets_from (o + 8 + Z.of_nat (length c)) r
  end.
Definition words (c : list Z) : Z := Z.of_nat (length c) / 2.
Lemma record_bytes_length n c : length (record_bytes n c) = (8 + length c)%nat.
Proof. unfold record_bytes. rewrite !app_length, !be32_length. lia. Qed.
Lemma set_nth_app {A} (l : list A) x y r : set_nth (length l) y (l ++ x :: r) = l ++ y :: r.
Proof. induction l as [|z l IH]; cbn; [reflexivity|]. rewrite IH. reflexivity. Qed.
(** The record of a shape has the content [c]. *)
Definition puts (d : list Z) (t : Z) (s : shape) (c : list Z) : Prop := exists s', put_shape_w d (set_type (Some t) s) = Ok (c, s').
Lemma shp_loop_ok t todo : forall gs fin w w', good t -> w_type w = Some t -> w_shapes w = fin ++ todo ->
  Forall2 represents todo gs -> at_end (w_shp w) ->
  for_each shp_record (seq (length fin) (length todo)) w = (w', Ok tt) ->
  exists cs, Forall2 (content t) gs cs /\ Forall (fits t) gs /\ Forall (fun g => vertices g <> []) gs /\
    Forall2 (has_parts t) todo gs /\
    (forall k, (k < length cs)%nat -> i32 (Z.of_nat (length fin) + Z.of_nat k + 1)) /\
    Forall (fun c => i32 (words c)) cs /\
    Forall2 (puts (w_default w) t) todo cs /\
    w' = mkWriter (Some t) (fin ++ map (set_type (Some t)) todo) (w_fields w) (w_records w)
           (w_offsets w ++ offsets_from (Z.of_nat (length (fdata (w_shp w)))) cs)
           (w_lengths w ++ map words cs)
           (append (w_shp w) (all_records (Z.of_nat (length fin) + 1) cs)) (w_shx w) (w_dbf w) (w_default w).
Proof.
  induction todo as [|s todo IH]; intros gs fin w w' G T S R E H.
  - inversion R. subst. exists []. cbn in H. unfold ret in H. injection H as <-.
    repeat (split; [solve [constructor | intros k K; cbn in K; lia]|]).
    cbn [map offsets_from all_records]. rewrite !app_nil_r, append_nil. apply writer_ext; try reflexivity; try assumption.
    rewrite S, app_nil_r. reflexivity.
  - inversion R as [|s0 g todo0 gs' Rs R' E1 E2]. subst s0 todo0 gs. cbn [length seq for_each] in H.
    apply mbind_ok in H. destruct H as [w1 [u [H1 H2]]]. destruct u.
    apply (shp_record_ok (length fin) t w s g w1 G T) in H1; [|rewrite S, nth_error_app2, Nat.sub_diag by lia; reflexivity|exact Rs|exact E].
    destruct H1 as [c [C [F [NV [HP [I1 [I2 [PS W1]]]]]]]].
    rewrite S, set_nth_app in W1.
    replace (Datatypes.S (length fin)) with (length (fin ++ [set_type (Some t) s])) in H2 by (rewrite app_length; cbn [length]; lia).
    apply (IH gs' (fin ++ [set_type (Some t) s]) w1 w' G) in H2.
    + destruct H2 as [cs [C2 [F2 [NV2 [HP2 [I3 [I4 [PS2 W2]]]]]]]].
      exists (c :: cs). repeat (split; [constructor; assumption|]).
      split.
      { intros [|k] K; [rewrite Z.add_0_r; exact I1|]. cbn [length] in K. specialize (I3 k ltac:(lia)).
        rewrite app_length in I3. cbn [length] in I3. replace (Z.of_nat (length fin) + Z.of_nat (Datatypes.S k) + 1) with (Z.of_nat (length fin + 1) + Z.of_nat k + 1) by lia. exact I3. }
      split; [constructor; assumption|].
      split; [constructor; [eexists; exact PS|rewrite W1 in PS2; exact PS2]|].
      rewrite W2, W1. cbn [w_type w_shapes w_fields w_records w_offsets w_lengths w_shp w_shx w_dbf w_default map offsets_from all_records].
      rewrite <- !app_assoc, append_app, app_length. cbn [app length append fdata]. rewrite app_length, record_bytes_length.
      f_equal.
      * f_equal. f_equal. f_equal. lia.
      * f_equal. f_equal. f_equal. lia.
    + rewrite W1. reflexivity.
    + rewrite W1. cbn [w_shapes]. rewrite <- app_assoc. reflexivity.
    + exact R'.
    + rewrite W1. cbn [w_shp]. apply append_end. exact E.
Qed.

(** ** The header *)
Lemma shp_size_ok t ss gs : good t -> Forall2 represents ss gs -> Forall2 (has_parts t) ss gs -> forall n0 np n np',
  foldM (shape_size (Some t)) ss (n0, np) = Ok (n, np') ->
  n = n0 + fold_right (fun g a => 8 + Z.of_nat (content_size t g) + a) 0 gs.
Proof.
  intros G R. induction R as [|s g ss gs Rs R IH]; intros HP n0 np n np' H.
  - cbn in H. injection H as <- _. cbn. lia.
  - inversion HP as [|a b c d HP1 HP2 E1 E2]. subst. cbn [foldM] in H. apply bind_ok in H. destruct H as [[n1 np1] [H1 H2]].
    rewrite (IH HP2 _ _ _ _ H2). cbn [fold_right]. rewrite Z.add_assoc. f_equal. clear IH H2 HP HP2 R.
    assert (LN : length (s_points s) = length (vertices g)) by (rewrite <- (rep_points s g Rs), map_length; reflexivity).
    unfold shape_size in H1. rewrite LN in H1. unfold content_size.
    unfold good in G. cbn [In] in G. unfold has_parts in HP1. cbn [In] in HP1.
    destruct G as [<-|[<-|[<-|[<-|[<-|[<-|[<-|[<-|[]]]]]]]]];
      try (rewrite HP1 in H1 by auto 6; unfold part_starts in H1; rewrite starts_length in H1);
      cbn [type_in type_is existsb Z.eqb Pos.eqb orb bind need_parts] in H1 |- *;
      injection H1 as <- _; lia.
Qed.

Definition whole (bs : list Z) : file := mkFile bs (length bs).
Lemma whole_end bs : at_end (whole bs). Proof. reflexivity. Qed.
(** The boxes of the header *)
Definition boxes (ss : list shape) (b z m : list dbl) : Prop :=
  box_of ss = Ok b /\ zbox_of ss = Ok z /\ mbox_of ss = Ok m.
Lemma box_of_length ss b : box_of ss = Ok b -> length b = 4%nat.
Proof.
  unfold box_of. intros H. apply bind_ok in H. destruct H as [cs [_ H]].
  apply bind_ok in H. destruct H as [x0 [X0 H]]. apply bind_ok in H. destruct H as [y0 [Y0 H]].
  apply bind_ok in H. destruct H as [x1 [X1 H]]. apply bind_ok in H. destruct H as [y1 [Y1 H]]. injection H as <-. reflexivity.
Qed.
Lemma zbox_of_length ss b : zbox_of ss = Ok b -> length b = 2%nat.
Proof.
  unfold zbox_of. intros H. apply bind_ok in H. destruct H as [a [_ H]]. apply bind_ok in H. destruct H as [c [_ H]]. injection H as <-. reflexivity.
Qed.
Lemma mbox_of_length ss b : mbox_of ss = Ok b -> length b = 2%nat.
Proof.
  unfold mbox_of. intros H. apply bind_ok in H. destruct H as [a [_ H]]. apply bind_ok in H. destruct H as [c [_ H]]. injection H as <-. reflexivity.
Qed.
Lemma header_length w t b z m : length b = 4%nat -> length z = 2%nat -> length m = 2%nat -> length (header w t b z m) = 100%nat.
Proof. intros A B C. unfold header. rewrite !app_length, !doubles_length, !be32_length, !le32_length, A, B, C. reflexivity. Qed.

Lemma header_bytes w shx t f : w_type w = Some t -> t <> 0 ->
  shapefile_header w shx new_file = (f, Ok tt) ->
  exists n b z m, boxes (w_shapes w) b z m /\
    (if shx then n = (100 + Z.of_nat (length (w_shapes w)) * 8) / 2 else shp_file_length w = Ok n) /\
    i32 n /\ f = whole (header n t b z m).
Proof.
  intros T NZ H. unfold shapefile_header in H.
  rewrite (mbind_run _ _ _ new_file tt) in H by reflexivity.
  rewrite T in H. replace (type_is (Some t) 0) with false in H
    by (cbn; destruct (Z.eqb_spec t 0); [contradiction|reflexivity]).
  pose (W := wbind (wput (pack_many pack_bi [9994; 0; 0; 0; 0; 0])) (fun _ =>
        wbind (if shx then wput (pack_bi ((100 + Z.of_nat (length (w_shapes w)) * 8) / 2))
               else wbind (wlift (shp_file_length w)) (fun n => wput (pack_bi n))) (fun _ =>
        wbind (wput (pack_many pack_li_opt [Some 1000; Some t])) (fun _ =>
        wbind (wbind (wlift (box_of (w_shapes w))) (fun b => wwrite (pack_ds b))) (fun _ =>
        wbind (wlift (zbox_of (w_shapes w))) (fun z =>
        wbind (wlift (mbox_of (w_shapes w))) (fun m => wwrite (pack_ds (z ++ m))))))))).
  apply (outputs_ok _ W) in H; [|subst W|reflexivity].
  2:{ repeat (first [ apply out_bind; [|intros ?] | apply out_put | apply out_lift | apply out_write
                | match goal with |- outputs (if ?c then _ else _) _ => destruct c end ]). }
  destruct H as [bs [H ->]]. subst W.
  apply wbind_inv in H. destruct H as [b1 [u1 [c1 [H1 [H E1]]]]]. cbn [fst snd] in H, E1.
  apply wput_inv in H1. vm_compute in H1. injection H1 as <-.
  apply wbind_inv in H. destruct H as [b2 [u2 [c2 [H2 [H E2]]]]]. cbn [fst snd] in H, E2.
  assert (H2' : exists n, (if shx then n = (100 + Z.of_nat (length (w_shapes w)) * 8) / 2 else shp_file_length w = Ok n) /\
                 b2 = be32 n /\ i32 n).
  { destruct shx.
    - apply wput_inv, pack_bi_be32 in H2. eexists. split; [reflexivity|exact H2].
    - apply wbind_inv in H2. destruct H2 as [b3 [n [c3 [H2 [H3 E3]]]]]. cbn [fst snd] in H3, E3.
      apply wlift_inv in H2. destruct H2 as [H2 ->]. apply wput_inv, pack_bi_be32 in H3.
      exists n. split; [exact H2|]. rewrite E3. exact H3. }
  destruct H2' as [n [N [-> I]]]. clear H2.
  apply wbind_inv in H. destruct H as [b3 [u3 [c3 [H3 [H E3]]]]]. cbn [fst snd] in H, E3.
  apply wput_inv, pack_many_inv in H3. destruct H3 as [bss [F ->]].
  inversion F as [|x y l l' Hx F' X1 X2]; subst l x. subst bss. inversion F' as [|x' y' l2 l2' Hx' F'' X1 X2]; subst l2 x'. subst l'. inversion F''; subst l2'.
  cbn [pack_li_opt] in Hx, Hx'. apply pack_li_le32 in Hx. apply pack_li_le32 in Hx'. destruct Hx as [-> _]. destruct Hx' as [-> _].
  apply wbind_inv in H. destruct H as [b4 [u4 [c4 [H4 [H E4]]]]]. cbn [fst snd] in H, E4.
  apply wbind_inv in H4. destruct H4 as [b5 [bx [c5 [H4 [H5 E5]]]]]. cbn [fst snd] in H5, E5.
  apply wlift_inv in H4. destruct H4 as [B ->]. apply wwrite_inv in H5.
  apply wbind_inv in H. destruct H as [b6 [z [c6 [H6 [H E6]]]]]. cbn [fst snd] in H, E6.
  apply wlift_inv in H6. destruct H6 as [ZB ->].
  apply wbind_inv in H. destruct H as [b7 [m [c7 [H7 [H E7]]]]]. cbn [fst snd] in H, E7.
  apply wlift_inv in H7. destruct H7 as [MB ->]. apply wwrite_inv in H.
  exists n, bx, z, m. split; [split; [exact B|split; assumption]|]. split; [exact N|]. split; [exact I|].
  unfold append, whole, new_file. cbn [fdata fpos app Nat.add].
  assert (EQ : bs = header n t bx z m).
  { rewrite E1, E2, E3, E4, E5, E6, E7, H, H5. unfold header. rewrite pack_ds_app, <- !app_assoc. cbn [concat app]. reflexivity. }
  rewrite EQ. reflexivity.
Qed.

(** ** saveShp *)
(** The type under which the shapes are written. *)
Definition eff_type (w : writer) (t : Z) : Prop :=
  t <> 0 /\ (w_type w = Some t \/
   ((w_type w = None \/ w_type w = Some 0) /\ exists s, hd_error (w_shapes w) = Some s /\ s_type s = Some t)).
Lemma fix_type_ok w t : eff_type w t -> fix_type w = (w_set_type (Some t) w, Ok tt).
Proof.
  intros [N [T|[T [s [S E]]]]]; unfold fix_type, mbind, get.
  - rewrite T. destruct t as [|p|p]; [congruence| |]; unfold ret; f_equal; destruct w; cbn in T |- *; subst; reflexivity.
  - assert (P : py_get (w_shapes w) 0 = Ok s) by (destruct (w_shapes w); [discriminate|injection S as ->; reflexivity]).
    destruct T as [-> | ->]; unfold lift; rewrite P; unfold modify; rewrite E; reflexivity.
Qed.
Lemma all_records_length n cs : Z.of_nat (length (all_records n cs)) = fold_right (fun c a => 8 + Z.of_nat (length c) + a) 0 cs.
Proof. revert n. induction cs as [|c cs IH]; intros n; cbn [all_records fold_right]; [reflexivity|]. rewrite app_length, record_bytes_length, Nat2Z.inj_add, IH. lia. Qed.
Lemma sizes_agree t gs cs : Forall2 (content t) gs cs ->
  fold_right (fun g a => 8 + Z.of_nat (content_size t g) + a) 0 gs = fold_right (fun c a => 8 + Z.of_nat (length c) + a) 0 cs.
Proof. induction 1 as [|g c gs cs C _ IH]; [reflexivity|]. cbn [fold_right]. rewrite IH, (content_length t g c C). reflexivity. Qed.

Lemma save_shp_ok t w w' gs : eff_type w t -> good t -> Forall2 represents (w_shapes w) gs ->
  saveShp new_file w = (w', Ok tt) ->
  exists cs b z m, Forall2 (content t) gs cs /\ Forall (fits t) gs /\ Forall (fun g => vertices g <> []) gs /\
    boxes (w_shapes w) b z m /\
    (forall k, (k < length cs)%nat -> i32 (Z.of_nat k + 1)) /\ Forall (fun c => i32 (words c)) cs /\
    i32 ((100 + Z.of_nat (length (all_records 1 cs))) / 2) /\ Forall2 (puts (w_default w) t) (w_shapes w) cs /\
    w' = mkWriter (Some t) (map (set_type (Some t)) (w_shapes w)) (w_fields w) (w_records w)
           (w_offsets w ++ offsets_from 100 cs) (w_lengths w ++ map words cs)
           (whole (shp_file t b z m cs)) (w_shx w) (w_dbf w) (w_default w).
Proof.
  intros ET G R H. unfold saveShp in H. rewrite (mbind_run _ _ _ _ _ (fix_type_ok w t ET)) in H.
  match type of H with (modify ?g ;;; _) ?st = _ => rewrite (mbind_run (modify g) _ st (g st) tt) in H by reflexivity end.
  unfold mbind at 1, get at 1 in H.
  apply mbind_ok in H. destruct H as [w1 [u [X H]]]. destruct u.
  unfold on_shp, zoom in X. cbn [w_shp w_set_shp w_set_type] in X.
  destruct (shapefile_header (w_set_shp new_file (w_set_type (Some t) w)) false new_file) as [f1 r1] eqn:F1. pinv X. subst r1.
  apply (header_bytes _ false t) in F1; [|reflexivity|exact (proj1 ET)].
  destruct F1 as [n [b [z [m [B [N [I ->]]]]]]]. cbn [w_shapes w_set_shp w_set_type] in B.
  assert (HL : length (header n t b z m) = 100%nat).
  { destruct B as [B1 [B2 B3]]. apply header_length; [eapply box_of_length|eapply zbox_of_length|eapply mbox_of_length]; eassumption. }
  unfold shp_records in H. apply mbind_ok in H. destruct H as [w2 [u [X H]]]. destruct u.
  unfold on_shp, zoom in X. cbn [w_shp w_set_shp w_set_type] in X.
  unfold f_seek in X. cbn [Z.ltb Z.compare fdata whole] in X. pinv X.
  unfold mbind at 1, get at 1 in H. cbn [w_shapes w_set_shp w_set_type] in H.
  assert (WH : mkFile (header n t b z m) (Z.to_nat 100) = whole (header n t b z m)) by (unfold whole; rewrite HL; reflexivity).
  rewrite WH in H.
  apply (shp_loop_ok t (w_shapes w) gs []) in H; [|exact G|reflexivity|reflexivity|exact R|reflexivity].
  destruct H as [cs [C [F [NV [HP [I1 [I2 [PS W]]]]]]]].
  cbn [w_fields w_records w_offsets w_lengths w_shp w_shx w_dbf w_default w_set_shp w_set_type length app Z.of_nat Z.add fdata whole] in W.
  cbn [length Z.of_nat Z.add] in I1.
  exists cs, b, z, m. split; [exact C|]. split; [exact F|]. split; [exact NV|]. split; [exact B|].
  split; [exact I1|]. split; [exact I2|].
  assert (NN : n = (100 + Z.of_nat (length (all_records 1 cs))) / 2).
  { unfold shp_file_length in N. cbn [w_type w_shapes w_set_shp w_set_type] in N. apply bind_ok in N. destruct N as [[sz np] [N1 N2]].
    cbn [fst] in N2. injection N2 as <-. apply (shp_size_ok t _ _ G R HP) in N1. rewrite N1, (sizes_agree t gs cs C), all_records_length. reflexivity. }
  split; [rewrite <- NN; exact I|]. split; [exact PS|].
  rewrite W, HL. apply writer_ext; try reflexivity.
  cbn [w_shp]. unfold append, whole. cbn [fdata fpos]. unfold shp_file. rewrite <- NN. f_equal. rewrite app_length. reflexivity.
Qed.

(** ** saveShx *)
Definition entry (o l : Z) : list Z := be32 (o / 2) ++ be32 l.
Lemma entry_length o l : length (entry o l) = 8%nat. Proof. reflexivity. Qed.
Definition shx_step (w : writer) (i : nat) : M writer unit :=
  o <~ lift (py_get (w_offsets w) (Z.of_nat i)) ;;
  on_shx (f_put (pack_bi (o / 2))) ;;;
  n <~ lift (py_get (w_lengths w) (Z.of_nat i)) ;;
  on_shx (f_put (pack_bi n)).
Lemma py_get_nat {A} (l : list A) i x : py_get l (Z.of_nat i) = Ok x <-> nth_error l i = Some x.
Proof.
  unfold py_get. destruct (Z.ltb_spec (Z.of_nat i) 0); [lia|]. destruct (Z.leb_spec 0 (Z.of_nat i)); [|lia].
  destruct (Z.ltb_spec (Z.of_nat i) (Z.of_nat (length l))); cbn [andb].
  - rewrite Nat2Z.id. destruct (nth_error l i); split; congruence.
  - assert (E : nth_error l i = None) by (apply nth_error_None; lia). rewrite E. split; discriminate.
Qed.
Lemma w_set_shx_twice f g w : w_set_shx f (w_set_shx g w) = w_set_shx f w.
Proof. reflexivity. Qed.
Lemma shx_step_ok w0 i w w' : at_end (w_shx w) -> shx_step w0 i w = (w', Ok tt) ->
  exists o l, nth_error (w_offsets w0) i = Some o /\ nth_error (w_lengths w0) i = Some l /\ i32 (o / 2) /\ i32 l /\
    w' = w_set_shx (append (w_shx w) (entry o l)) w.
Proof.
  intros E H. unfold shx_step in H.
  apply mbind_ok in H. destruct H as [w1 [o [X H]]]. unfold lift in X. apply pair_inv in X. destruct X as [<- X].
  apply mbind_ok in H. destruct H as [w2 [u [Y H]]]. unfold on_shx, zoom in Y.
  destruct (f_put (pack_bi (o / 2)) (w_shx w)) as [f1 r1] eqn:F1. pinv Y. subst r1.
  apply (outputs_ok _ _ _ _ _ (out_put _) E) in F1. destruct F1 as [b1 [F1 ->]]. apply wput_inv, pack_bi_be32 in F1. destruct F1 as [-> I1].
  apply mbind_ok in H. destruct H as [w3 [l [Y H]]]. unfold lift in Y. apply pair_inv in Y. destruct Y as [<- Y].
  unfold on_shx, zoom in H. cbn [w_shx w_set_shx] in H.
  destruct (f_put (pack_bi l) (append (w_shx w) (be32 (o / 2)))) as [f2 r2] eqn:F2. pinv H. subst r2.
  apply (outputs_ok _ _ _ _ _ (out_put _) (append_end _ _ E)) in F2. destruct F2 as [b2 [F2 ->]]. apply wput_inv, pack_bi_be32 in F2. destruct F2 as [-> I2].
  exists o, l. apply py_get_nat in X. apply py_get_nat in Y. repeat (split; [assumption|]).
  rewrite append_app, w_set_shx_twice. reflexivity.
Qed.
(** The entries at positions [i .. i + n - 1] of the recorded offsets. *)
Lemma shx_loop_ok w0 n : forall i w w', at_end (w_shx w) -> for_each (shx_step w0) (seq i n) w = (w', Ok tt) ->
  exists os ls, length os = n /\ length ls = n /\
    (forall k, (k < n)%nat -> nth_error os k = nth_error (w_offsets w0) (i + k) /\ nth_error ls k = nth_error (w_lengths w0) (i + k)) /\
    Forall (fun o => i32 (o / 2)) os /\ Forall i32 ls /\
    w' = w_set_shx (append (w_shx w) (flat_map (fun ol => entry (fst ol) (snd ol)) (combine os ls))) w.
Proof.
  induction n as [|n IH]; intros i w w' E H.
  - cbn in H. unfold ret in H. injection H as <-. exists [], []. repeat split; try solve [constructor]; try lia.
    cbn. rewrite append_nil. destruct w; reflexivity.
  - cbn [seq for_each] in H. apply mbind_ok in H. destruct H as [w1 [u [X H]]]. destruct u.
    apply (shx_step_ok w0 i w w1 E) in X. destruct X as [o [l [O [L [I1 [I2 ->]]]]]].
    apply IH in H; [|cbn [w_shx w_set_shx]; apply append_end; exact E].
    destruct H as [os [ls [L1 [L2 [K [F1 [F2 ->]]]]]]].
    exists (o :: os), (l :: ls). split; [cbn; lia|]. split; [cbn; lia|]. split.
    { intros [|k] Hk; cbn [nth_error].
      - rewrite Nat.add_0_r. auto.
      - specialize (K k ltac:(lia)). replace (i + S k)%nat with (S i + k)%nat by lia. exact K. }
    split; [constructor; assumption|]. split; [constructor; assumption|].
    cbn [w_shx w_set_shx combine flat_map fst snd]. rewrite append_app, w_set_shx_twice. reflexivity.
Qed.
Lemma save_shx_ok t w w' : w_type w = Some t -> t <> 0 -> saveShx new_file w = (w', Ok tt) ->
  exists b z m os ls, boxes (w_shapes w) b z m /\
    length os = length (w_shapes w) /\ length ls = length (w_shapes w) /\
    (forall k, (k < length (w_shapes w))%nat ->
       nth_error os k = nth_error (w_offsets w) k /\ nth_error ls k = nth_error (w_lengths w) k) /\
    Forall (fun o => i32 (o / 2)) os /\ Forall i32 ls /\
    i32 ((100 + 8 * Z.of_nat (length (w_shapes w))) / 2) /\
    w' = w_set_shx (whole (header ((100 + 8 * Z.of_nat (length (w_shapes w))) / 2) t b z m ++
                           flat_map (fun ol => entry (fst ol) (snd ol)) (combine os ls))) w.
Proof.
  intros T NZ H. unfold saveShx in H.
  assert (ET : eff_type w t) by (split; [exact NZ|left; exact T]).
  rewrite (mbind_run _ _ _ _ _ (fix_type_ok w t ET)) in H.
  assert (W0 : w_set_type (Some t) w = w) by (destruct w; cbn in T |- *; subst; reflexivity). rewrite W0 in H.
  match type of H with (modify ?g ;;; _) ?st = _ => rewrite (mbind_run (modify g) _ st (g st) tt) in H by reflexivity end.
  unfold mbind at 1, get at 1 in H.
  apply mbind_ok in H. destruct H as [w1 [u [X H]]]. destruct u.
  unfold on_shx, zoom in X. cbn [w_shx w_set_shx] in X.
  destruct (shapefile_header (w_set_shx new_file w) true new_file) as [f1 r1] eqn:F1. pinv X. subst r1.
  apply (header_bytes _ true t) in F1; [|exact T|exact NZ].
  destruct F1 as [n [b [z [m [B [N [I ->]]]]]]]. cbn [w_shapes w_set_shx] in B, N.
  assert (HL : length (header n t b z m) = 100%nat).
  { destruct B as [B1 [B2 B3]]. apply header_length; [eapply box_of_length|eapply zbox_of_length|eapply mbox_of_length]; eassumption. }
  unfold shx_records in H. apply mbind_ok in H. destruct H as [w2 [u [X H]]]. destruct u.
  unfold on_shx, zoom in X. cbn [w_shx w_set_shx] in X.
  unfold f_seek in X. cbn [Z.ltb Z.compare fdata whole] in X. pinv X.
  unfold mbind at 1, get at 1 in H. cbn [w_shapes w_set_shx w_offsets w_lengths] in H.
  assert (WH : mkFile (header n t b z m) (Z.to_nat 100) = whole (header n t b z m)) by (unfold whole; rewrite HL; reflexivity).
  rewrite WH, !w_set_shx_twice in H.
  apply (shx_loop_ok w _ 0) in H; [|reflexivity].
  destruct H as [os [ls [L1 [L2 [K [F1 [F2 W]]]]]]].
  replace ((100 + 8 * Z.of_nat (length (w_shapes w))) / 2) with n by (rewrite N; f_equal; lia).
  exists b, z, m, os, ls. split; [exact B|]. split; [exact L1|]. split; [exact L2|]. split; [exact K|].
  split; [exact F1|]. split; [exact F2|]. split; [exact I|].
  rewrite W, w_set_shx_twice. cbn [w_shx w_set_shx]. unfold append, whole. cbn [fdata fpos]. rewrite app_length. reflexivity.
Qed.

(** Both files from a writer that has not been saved before. *)
Lemma boxes_type t ss b z m : boxes (map (set_type t) ss) b z m <-> boxes ss b z m.
Proof.
  unfold boxes, box_of, zbox_of, mbox_of.
  replace (mapM (fun s => columns (s_points s)) (map (set_type t) ss)) with (mapM (fun s => columns (s_points s)) ss).
  2:{ induction ss as [|s ss IH]; [reflexivity|]. cbn. rewrite IH. reflexivity. }
  rewrite !flat_map_concat_map, !map_map. reflexivity.
Qed.
Lemma nth_ext_list {A} (a b : list A) : length a = length b -> (forall k, (k < length a)%nat -> nth_error a k = nth_error b k) -> a = b.
Proof.
  revert b. induction a as [|x a IH]; intros [|y b] L K; try discriminate; [reflexivity|].
  pose proof (K 0%nat ltac:(cbn; lia)) as K0. cbn in K0. injection K0 as ->. f_equal. apply IH; [cbn in L; lia|].
  intros k Hk. apply (K (S k)). cbn. lia.
Qed.
Lemma offsets_length o cs : length (offsets_from o cs) = length cs.
Proof. revert o. induction cs as [|c cs IH]; intros o; cbn; [reflexivity|]. rewrite IH. reflexivity. Qed.
Lemma entries_index o cs :
  flat_map (fun ol => entry (fst ol) (snd ol)) (combine (offsets_from o cs) (map words cs)) = index_entries o cs.
Proof.
  revert o. induction cs as [|c cs IH]; intros o; [reflexivity|]. cbn [offsets_from map combine flat_map index_entries fst snd].
  rewrite IH. unfold entry. rewrite <- app_assoc. reflexivity.
Qed.
Lemma F2_length {A B} {P : A -> B -> Prop} {a b} : Forall2 P a b -> length a = length b.
Proof. induction 1; cbn; congruence. Qed.
Lemma save_both_ok t w w1 w2 gs : eff_type w t -> good t -> Forall2 represents (w_shapes w) gs ->
  w_offsets w = [] -> w_lengths w = [] ->
  saveShp new_file w = (w1, Ok tt) -> saveShx new_file w1 = (w2, Ok tt) ->
  exists cs b z m, Forall2 (content t) gs cs /\ Forall (fits t) gs /\ Forall (fun g => vertices g <> []) gs /\
    boxes (w_shapes w) b z m /\
    (forall k, (k < length cs)%nat -> i32 (Z.of_nat k + 1)) /\ Forall (fun c => i32 (words c)) cs /\
    i32 ((100 + Z.of_nat (length (all_records 1 cs))) / 2) /\
    i32 ((100 + 8 * Z.of_nat (length cs)) / 2) /\ Forall (fun o => i32 (o / 2)) (offsets_from 100 cs) /\
    Forall2 (puts (w_default w) t) (w_shapes w) cs /\
    fdata (w_shp w2) = shp_file t b z m cs /\ fdata (w_shx w2) = shx_file t b z m cs.
Proof.
  intros ET G R O L H1 H2.
  destruct (save_shp_ok t w w1 gs ET G R H1) as [cs [b [z [m [C [F [NV [B [I1 [I2 [I3 [PS W1]]]]]]]]]]]].
  destruct (save_shx_ok t w1 w2) as [b' [z' [m' [os [ls [B' [L1 [L2 [K [F1 [F2 [I4 W2]]]]]]]]]]]].
  - rewrite W1. reflexivity.
  - exact (proj1 ET).
  - exact H2.
  - assert (LS : length (w_shapes w1) = length cs).
    { rewrite W1. cbn [w_shapes]. rewrite map_length. rewrite (F2_length R). apply (F2_length C). }
    rewrite W1 in B'. cbn [w_shapes] in B'. apply boxes_type in B'.
    assert (EB : b' = b /\ z' = z /\ m' = m).
    { destruct B as [X1 [X2 X3]]. destruct B' as [Y1 [Y2 Y3]]. rewrite X1 in Y1. rewrite X2 in Y2. rewrite X3 in Y3.
      injection Y1 as <-. injection Y2 as <-. injection Y3 as <-. auto. }
    destruct EB as [-> [-> ->]].
    rewrite LS in *.
    assert (EO : os = offsets_from 100 cs).
    { apply nth_ext_list; [rewrite L1, offsets_length; reflexivity|]. intros k Hk. rewrite L1 in Hk.
      rewrite (proj1 (K k Hk)), W1. cbn [w_offsets]. rewrite O. reflexivity. }
    assert (EL : ls = map words cs).
    { apply nth_ext_list; [rewrite L2, map_length; reflexivity|]. intros k Hk. rewrite L2 in Hk.
      rewrite (proj2 (K k Hk)), W1. cbn [w_lengths]. rewrite L. reflexivity. }
    exists cs, b, z, m. repeat (split; [assumption|]). rewrite EO in F1. split; [exact F1|]. split; [exact PS|].
    rewrite W2. cbn [w_shp w_shx w_set_shx]. rewrite W1. cbn [w_shp fdata whole]. split; [reflexivity|].
    rewrite EO, EL, entries_index. reflexivity.
Qed.
