(** What the bytes of a .shp file say: lemmas about files. *)
From Verif Require Import Py VlvModel VlvProofs ShpFile ShpWriterModel ShpReaderModel ShpSpec ShpLib ShpWriterProofs ShpSave ShpRead ShpHostileSpec ShpHostile
  ShpBytesSpec ShpBytes ShpBytesRecord ShpBytesBack.
Open Scope Z_scope.
Open Scope m_scope.

Lemma record_det m bs o s q s' q' : record_at m bs o s q -> record_at m bs o s' q' -> s = s' /\ q = q'.
Proof.
  assert (X : exists measure, with_measures measure = m) by (destruct m; [exists []|exists [0]]; reflexivity). destruct X as [measure <-].
  intros H1 H2. apply record_do in H1. apply record_do in H2. rewrite H1 in H2. injection H2 as -> ->. auto.
Qed.
Section Loops.
  Variable measure : list dbl.
  Variable bs : list Z.
  Hypothesis Bytes : Forall is_byte bs.
  Let m := with_measures measure.
  Let len := Z.of_nat (length bs).
  Lemma iter_sound : forall fuel o ss e, iter_loop fuel measure len (mkFile bs o) = (ss, e) ->
    exists q, records_at m bs o ss q /\
      match e with
      | Some (Ok _) => (length bs <= q)%nat
      | Some (Err _) => (q < length bs)%nat /\ forall s q', ~ record_at m bs q s q'
      | None => length ss = fuel
      end.
  Proof using Bytes.
    induction fuel as [|k IH]; intros o ss e E; cbn [iter_loop] in E.
    - injection E as <- <-. exists o. split; [constructor|reflexivity].
    - cbn [fpos] in E. destruct (Z.ltb_spec (Z.of_nat o) len) as [C|C]; unfold len in C.
      + destruct (get_shape measure (mkFile bs o)) as [f' [s|x]] eqn:G.
        * destruct (record_inv measure bs o f' s Bytes G) as [q [-> R]]. destruct (iter_loop k measure len (mkFile bs q)) as [l e'] eqn:I. injection E as <- <-.
          destruct (IH _ _ _ I) as [q' [R' Q]]. exists q'. split; [econstructor; [lia|exact R|exact R']|]. destruct e' as [[|]|]; [exact Q|exact Q|cbn; lia].
        * injection E as <- <-. exists o. split; [constructor|]. split; [lia|]. intros s q' R. apply record_do in R. congruence.
      + injection E as <- <-. exists o. split; [constructor|lia].
  Qed.
  Lemma iter_complete o ss q : records_at m bs o ss q -> forall fuel, (length ss < fuel)%nat ->
    ((length bs <= q)%nat -> iter_loop fuel measure len (mkFile bs o) = (ss, Some (Ok tt))) /\
    ((q < length bs)%nat -> (forall s q', ~ record_at m bs q s q') -> exists x, iter_loop fuel measure len (mkFile bs o) = (ss, Some (Err x))).
  Proof using Bytes.
    intros R. induction R as [o|o s p ss q L R _ IH]; intros fuel F; (destruct fuel as [|fuel]; [cbn in F; lia|]); cbn [iter_loop fpos].
    - split.
      + intros L. destruct (Z.ltb_spec (Z.of_nat o) len) as [C|C]; unfold len in C; [lia|]. reflexivity.
      + intros L N. destruct (Z.ltb_spec (Z.of_nat o) len) as [C|C]; unfold len in C; [|lia]. destruct (get_shape measure (mkFile bs o)) as [f' [s|x]] eqn:G; [|eauto].
        destruct (record_inv measure bs o f' s Bytes G) as [q' [_ R']]. destruct (N s q' R').
    - destruct (Z.ltb_spec (Z.of_nat o) len) as [C|C]; unfold len in C; [|lia]. rewrite (record_do measure bs o s p R). cbn [length] in F.
      destruct (IH fuel ltac:(lia)) as [I1 I2]. split.
      + intros Q. rewrite (I1 Q). reflexivity.
      + intros Q N. destruct (I2 Q N) as [x X]. exists x. rewrite X. reflexivity.
  Qed.
  Lemma find_there o ss q : records_at m bs o ss q -> forall fuel j i s q', (length ss < fuel)%nat -> i = j + Z.of_nat (length ss) -> (q < length bs)%nat -> record_at m bs q s q' ->
    find_loop fuel measure len j i (mkFile bs o) = (mkFile bs q', Ok (Some (Some s))).
  Proof using Bytes.
    intros R. induction R as [o|o s p ss q L R _ IH]; intros fuel j i s0 q' F E Q R'; (destruct fuel as [|fuel]; [cbn in F; lia|]); cbn [find_loop]; unfold mbind at 1; cbn [f_tell fpos].
    - destruct (Z.ltb_spec (Z.of_nat o) len) as [C|C]; unfold len in C; [|lia]. unfold mbind. rewrite (record_do measure bs o s0 q' R').
      cbn in E. replace (j =? i) with true by (symmetry; apply Z.eqb_eq; lia). reflexivity.
    - destruct (Z.ltb_spec (Z.of_nat o) len) as [C|C]; unfold len in C; [|lia]. unfold mbind. rewrite (record_do measure bs o s p R).
      cbn [length] in E, F. replace (j =? i) with false by (symmetry; apply Z.eqb_neq; lia). apply IH; [lia|lia|exact Q|exact R'].
  Qed.
  Lemma find_not o ss q : records_at m bs o ss q -> forall fuel j i, (length ss < fuel)%nat -> i < j \/ j + Z.of_nat (length ss) <= i -> (length bs <= q)%nat ->
    find_loop fuel measure len j i (mkFile bs o) = (mkFile bs q, Ok (Some None)).
  Proof using Bytes.
    intros R. induction R as [o|o s p ss q L R _ IH]; intros fuel j i F E Q; (destruct fuel as [|fuel]; [cbn in F; lia|]); cbn [find_loop]; unfold mbind at 1; cbn [f_tell fpos].
    - destruct (Z.ltb_spec (Z.of_nat o) len) as [C|C]; unfold len in C; [lia|]. reflexivity.
    - destruct (Z.ltb_spec (Z.of_nat o) len) as [C|C]; unfold len in C; [|lia]. unfold mbind. rewrite (record_do measure bs o s p R).
      cbn [length] in E, F. replace (j =? i) with false by (symmetry; apply Z.eqb_neq; lia). apply IH; [lia|lia|exact Q].
  Qed.
End Loops.

(** ** The index *)
Definition entry : nat -> M reader unit := fun _ =>
  o <~ in_shx (f_get 4 unpack_bi) ;;
  modify (fun r => r_set_offsets (r_offsets r ++ [o * 2]) r) ;;;
  p <~ in_shx ShpFile.f_tell ;;
  in_shx (f_seek (p + 4)).
Lemma mul_comm_map vs : map (fun v => v * 2) vs = map (Z.mul 2) vs.
Proof. apply map_ext. intros v. lia. Qed.
Lemma entry_run ix p v x r : r_shx r = Some (mkFile ix p) -> holds_be ix p v ->
  entry x r = (r_set_shx (Some (mkFile ix (p + 8))) (r_set_offsets (r_offsets r ++ [2 * v]) r), Ok tt).
Proof.
  intros E [I H]. destruct r as [a b c d e g h i j k l m]. cbn in E. subst b. unfold entry, in_shx, with_file, mbind, modify, f_get, ShpFile.f_read, mbind, ShpFile.f_tell, f_seek, lift.
  cbn [r_shx r_offsets fdata fpos]. change (4 <? 0) with false. cbv iota. change (Z.to_nat 4) with 4%nat. rewrite H. change (length (be32 v)) with 4%nat.
  rewrite (unpack_bi_be32 v I). cbn [r_set_shx r_set_offsets r_shp r_shx r_dbf r_offsets r_shpLength r_numRecords r_fields r_hdr r_type r_bbox r_elevation r_measure fdata fpos].
  destruct (Z.ltb_spec (Z.of_nat (p + 4) + 4) 0); [lia|]. replace (Z.to_nat (Z.of_nat (p + 4) + 4)) with (p + 8)%nat by lia.
  replace (v * 2) with (2 * v) by lia. reflexivity.
Qed.
Lemma entry_short ix p x r : r_shx r = Some (mkFile ix p) -> (length ix < p + 4)%nat ->
  entry x r = (r_set_shx (Some (mkFile ix (p + length (firstn 4 (skipn p ix))))) r, Err StructError).
Proof.
  intros E L. destruct r as [a b c d e g h i j k l m]. cbn in E. subst b. unfold entry, in_shx, with_file, mbind, f_get, ShpFile.f_read, mbind, lift.
  cbn [r_shx r_offsets fdata fpos]. change (4 <? 0) with false. cbv iota. change (Z.to_nat 4) with 4%nat.
  rewrite unpack_bi_short by (apply cut_short; lia). reflexivity.
Qed.
Lemma entries_all ix : forall vs l p r, length l = length vs -> r_shx r = Some (mkFile ix p) ->
  (forall k v, nth_error vs k = Some v -> holds_be ix (p + 8 * k) v) ->
  exists q, for_each entry l r = (r_set_shx (Some (mkFile ix q)) (r_set_offsets (r_offsets r ++ map (Z.mul 2) vs) r), Ok tt).
Proof.
  induction vs as [|v vs IH]; intros [|x l] p r L E H; try discriminate L; cbn [for_each map].
  - exists p. rewrite app_nil_r. destruct r. cbn in E. subst. reflexivity.
  - pose proof (H 0%nat v eq_refl) as H0. rewrite Nat.mul_0_r, Nat.add_0_r in H0. unfold mbind. rewrite (entry_run ix p v x r E H0). cbn in L.
    destruct (IH l (p + 8)%nat (r_set_shx (Some (mkFile ix (p + 8))) (r_set_offsets (r_offsets r ++ [2 * v]) r)) ltac:(lia) eq_refl) as [q Q].
    { intros k w K. specialize (H (S k) w K). replace (p + 8 + 8 * k)%nat with (p + 8 * S k)%nat by lia. exact H. }
    exists q. rewrite Q. cbn [r_set_shx r_set_offsets r_offsets]. rewrite <- app_assoc. destruct r. reflexivity.
Qed.
Lemma entries_cut ix : forall vs l p r, (length vs < length l)%nat -> r_shx r = Some (mkFile ix p) -> (length ix < p + 8 * length vs + 4)%nat ->
  (forall k v, nth_error vs k = Some v -> holds_be ix (p + 8 * k) v) ->
  exists q, for_each entry l r = (r_set_shx (Some (mkFile ix q)) (r_set_offsets (r_offsets r ++ map (Z.mul 2) vs) r), Err StructError).
Proof.
  induction vs as [|v vs IH]; intros [|x l] p r L E S H; try (cbn in L; lia); cbn [for_each map].
  - unfold mbind. rewrite (entry_short ix p x r E) by (cbn in S; lia). eexists. rewrite app_nil_r. destruct r. reflexivity.
  - pose proof (H 0%nat v eq_refl) as H0. rewrite Nat.mul_0_r, Nat.add_0_r in H0. unfold mbind. rewrite (entry_run ix p v x r E H0). cbn [length] in L, S.
    destruct (IH l (p + 8)%nat (r_set_shx (Some (mkFile ix (p + 8))) (r_set_offsets (r_offsets r ++ [2 * v]) r)) ltac:(lia) eq_refl ltac:(lia)) as [q Q].
    { intros k w K. specialize (H (Datatypes.S k) w K). replace (p + 8 + 8 * k)%nat with (p + 8 * Datatypes.S k)%nat by lia. exact H. }
    exists q. rewrite Q. cbn [r_set_shx r_set_offsets r_offsets]. rewrite <- app_assoc. destruct r. reflexivity.
Qed.
Lemma shape_index_is i r : shape_index i r =
  match r_shx r with
  | None => (r, Ok None)
  | Some _ =>
      ((match r_offsets r with
       | [] => in_shx (f_seek 24) ;;; n <~ in_shx (f_get 4 unpack_bi) ;; in_shx (f_seek 100) ;;; for_each entry (seq 0 (Z.to_nat ((n * 2 - 100) / 8)))
       | _ => ret tt
       end) ;;; r <~ get ;; o <~ lift (py_get (r_offsets r) i) ;; ret (Some o)) r
  end.
Proof. unfold shape_index. unfold mbind at 1, get at 1. destruct (r_shx r); reflexivity. Qed.
Definition pick (os : list Z) (i : Z) : res (option Z) := match py_get os i with Ok o => Ok (Some o) | Err e => Err e end.
Lemma index_kept i r f : r_shx r = Some f -> r_offsets r <> [] -> shape_index i r = (r, pick (r_offsets r) i).
Proof.
  intros E N. rewrite shape_index_is, E. unfold pick. destruct (r_offsets r) as [|o os] eqn:O; [contradiction|]. unfold mbind, get, lift, ret. rewrite O. destruct (py_get _ i); reflexivity.
Qed.
Lemma index_load r ix p n : r_shx r = Some (mkFile ix p) -> holds_be ix 24 n ->
  (in_shx (f_seek 24) ;;; n <~ in_shx (f_get 4 unpack_bi) ;; in_shx (f_seek 100) ;;; for_each entry (seq 0 (Z.to_nat ((n * 2 - 100) / 8)))) r =
  for_each entry (seq 0 (Z.to_nat ((2 * n - 100) / 8))) (r_set_shx (Some (mkFile ix 100)) r).
Proof.
  intros E [I H]. destruct r as [a b c d e g h i j k l m]. cbn in E. subst b. unfold in_shx, with_file, mbind, f_get, ShpFile.f_read, mbind, f_seek, lift.
  change (24 <? 0) with false. change (100 <? 0) with false. cbv iota. cbn [r_shx r_set_shx fdata fpos]. change (4 <? 0) with false. cbv iota. change (Z.to_nat 4) with 4%nat. change (Z.to_nat 24) with 24%nat. change (Z.to_nat 100) with 100%nat.
  rewrite H, (unpack_bi_be32 n I). cbn [r_shx r_set_shx fdata]. replace (n * 2) with (2 * n) by lia. reflexivity.
Qed.
Lemma index_first i r ix p vs : r_shx r = Some (mkFile ix p) -> r_offsets r = [] -> index_has ix vs ->
  exists q, shape_index i r = (r_set_shx (Some (mkFile ix q)) (r_set_offsets (map (Z.mul 2) vs) r), pick (map (Z.mul 2) vs) i).
Proof.
  intros E O [n [H24 [L H]]]. rewrite shape_index_is, E, O. unfold mbind at 1. rewrite (index_load r ix p n E H24).
  destruct (entries_all ix vs (seq 0 (Z.to_nat ((2 * n - 100) / 8))) 100 (r_set_shx (Some (mkFile ix 100)) r) ltac:(rewrite seq_length; lia) eq_refl H) as [q Q].
  exists q. rewrite Q. unfold pick. destruct r. cbn in O. subst. unfold mbind, get, lift, ret. cbn [r_set_shx r_set_offsets r_offsets app]. destruct (py_get _ i); reflexivity.
Qed.
Lemma index_fail i r ix p vs : r_shx r = Some (mkFile ix p) -> r_offsets r = [] -> index_cut ix vs ->
  exists q, shape_index i r = (r_set_shx (Some (mkFile ix q)) (r_set_offsets (map (Z.mul 2) vs) r), Err StructError).
Proof.
  intros E O [n [H24 [L [S H]]]]. rewrite shape_index_is, E, O. unfold mbind at 1. rewrite (index_load r ix p n E H24).
  destruct (entries_cut ix vs (seq 0 (Z.to_nat ((2 * n - 100) / 8))) 100 (r_set_shx (Some (mkFile ix 100)) r) ltac:(rewrite seq_length; lia) eq_refl ltac:(lia) H) as [q Q].
  exists q. rewrite Q. destruct r. cbn in O. subst. reflexivity.
Qed.

(** ** One shape *)
(** [shape_at] once the offset is known. *)
Definition scan (fuel : nat) (i : Z) : M reader (option (option shape)) := n <~ rewind ;; r <~ get ;; in_shp (find_loop fuel (r_measure r) n 0 i).
Definition finish (fuel : nat) (i : Z) (offset : option Z) : M reader (option shape) :=
  found <~ (if truthy offset then ret (Some None) else scan fuel i) ;;
  match found with
  | None => ret None
  | Some (Some s) => ret (Some s)
  | Some None =>
      match offset with
      | None => raise TypeError
      | Some o => in_shp (f_seek o) ;;; r <~ get ;; s <~ in_shp (get_shape (r_measure r)) ;; ret (Some s)
      end
  end.
Lemma shape_at_is fuel i r f : r_shp r = Some f -> r_numRecords r = None -> shape_at fuel i r = mbind (shape_index i) (finish fuel i) r.
Proof.
  intros E N. destruct r as [a b c d e g h i' j k l m]. cbn in E, N. subst a g. unfold shape_at. unfold mbind at 1. unfold in_shp at 1, with_file. cbn [r_shp r_set_shp].
  unfold ret at 1. cbn [r_set_shp]. unfold mbind at 1, get at 1. cbn [r_numRecords restrict_index]. unfold mbind at 1, lift at 1. reflexivity.
Qed.
Lemma scan_is fuel i r f : r_shp r = Some f ->
  scan fuel i r = (let '(f', x) := find_loop fuel (r_measure r) (Z.of_nat (length (fdata f))) 0 i (mkFile (fdata f) 100) in
                   (r_set_shp (Some f') (r_set_shpLength (Some (Z.of_nat (length (fdata f)))) r), x)).
Proof.
  intros E. unfold scan. unfold mbind at 1. rewrite (rewind_ok r f E). unfold mbind, get, in_shp, with_file. cbn [r_shp r_set_shp r_set_shpLength r_measure].
  destruct (find_loop _ _ _ _ _ _) as [f' x]. destruct r. reflexivity.
Qed.
