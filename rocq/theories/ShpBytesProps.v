(** What the bytes of any .shp file say. *)
From Verif Require ShpHostileProps.
From Verif Require Import Py ShpFile ShpWriterModel ShpReaderModel ShpSpec ShpHostileSpec ShpHostile ShpBytesSpec ShpBytes ShpBytesRecord ShpBytesBack ShpBytesFile ShpBytesUse.
Open Scope Z_scope.

(** ** C117 *)
(** The bytes determine the shapes. *)
Theorem C117_one : forall m bs,
  (forall ss ss', holds_shapes m bs ss -> holds_shapes m bs ss' -> ss = ss') /\
  (forall o s q s' q', record_at m bs o s q -> record_at m bs o s' q' -> s = s' /\ q = q').
Proof.
  intros m bs. split; [|apply record_det]. intros ss ss' [q [R Q]] [q' [R' Q']]. exact (records_det m bs 100 ss q R Q ss' q' R' Q').
Qed.
(** shapes() returns exactly those. *)
Theorem C117_shapes : forall bs ix r range fuel ss, Forall is_byte bs -> all_bytes ix -> used bs ix r -> range_of bs range ->
  (snd (shapes fuel r) = Ok (Some ss) -> holds_shapes (with_measures range) bs ss) /\
  (holds_shapes (with_measures range) bs ss -> (length ss < fuel)%nat -> snd (shapes fuel r) = Ok (Some ss)).
Proof.
  intros bs ix r range fuel ss B BX U R. destruct (used_state bs ix r B BX U range R) as [[p P] [_ [M _]]]. rewrite (shapes_run fuel r _ P), M. cbn [fdata].
  pose proof (iter_loop_shapes range (Z.of_nat (length bs)) fuel (mkFile bs 100)) as I. split.
  - intros E. rewrite E in I. destruct (iter_sound range bs B _ _ _ _ I) as [q [R' Q]]. exists q. auto.
  - intros [q [R' Q]] F. destruct (iter_complete range bs B 100 ss q R' fuel F) as [C _]. rewrite (C Q) in I. cbn [snd] in I.
    destruct (snd (shapes_loop _ _ _ _)) as [[l|]|e]; [injection I as ->; reflexivity|discriminate I|discriminate I].
Qed.
(** iterShapes() yields the shapes of the records before the first that cannot
    be read; it ends with an exception exactly if there is one. *)
Theorem C117_iter : forall bs ix r range fuel ss e, Forall is_byte bs -> all_bytes ix -> used bs ix r -> range_of bs range ->
  (iterShapes fuel r = (ss, e) -> exists q, records_at (with_measures range) bs 100 ss q /\
     match e with
     | Some (Ok _) => (length bs <= q)%nat
     | Some (Err _) => (q < length bs)%nat /\ forall s q', ~ record_at (with_measures range) bs q s q'
     | None => length ss = fuel
     end) /\
  (forall q, records_at (with_measures range) bs 100 ss q -> (q < length bs)%nat -> (forall s q', ~ record_at (with_measures range) bs q s q') ->
     (length ss < fuel)%nat -> exists x, iterShapes fuel r = (ss, Some (Err x))).
Proof.
  intros bs ix r range fuel ss e B BX U R. destruct (used_state bs ix r B BX U range R) as [[p P] [_ [M _]]]. rewrite (iterShapes_run fuel r _ P), M. cbn [fdata]. split.
  - apply iter_sound. exact B.
  - intros q R' Q N F. apply (iter_complete range bs B 100 ss q R' fuel F); assumption.
Qed.
(** shape(i) without an index file: the records are counted from the first;
    an index that is negative or too large makes a TypeError. *)
Theorem C117_counted : forall bs r range fuel i ss q, Forall is_byte bs -> used bs None r -> range_of bs range ->
  records_at (with_measures range) bs 100 ss q -> (length ss < fuel)%nat ->
  (forall s q', i = Z.of_nat (length ss) -> (q < length bs)%nat -> record_at (with_measures range) bs q s q' -> snd (shape_at fuel i r) = Ok (Some s)) /\
  ((length bs <= q)%nat -> i < 0 \/ Z.of_nat (length ss) <= i -> snd (shape_at fuel i r) = Err TypeError).
Proof.
  intros bs r range fuel i ss q B U R RE F. pose proof (used_state bs None r B I U range R) as ST. pose proof ST as [_ [_ [_ N]]].
  destruct (shape_at_snd bs None range r fuel i I ST) as [_ K]. destruct (K None) as [r1 [S1 E]]; [rewrite shape_index_is, N; reflexivity|]. rewrite E.
  destruct (finish_scan bs None range r1 fuel i None B S1 eq_refl ss q RE F) as [A C]. split; [exact A|]. intros Q J. apply (C Q J). reflexivity.
Qed.
(** shape(i) with an index file: the record is where entry i says, whatever
    that record is. *)
Theorem C117_indexed : forall bs ix r range fuel i vs, Forall is_byte bs -> Forall is_byte ix -> used bs (Some ix) r -> range_of bs range -> index_has ix vs ->
  (i < - Z.of_nat (length vs) \/ Z.of_nat (length vs) <= i -> snd (shape_at fuel i r) = Err IndexError) /\
  (forall v, item vs i v -> v < 0 -> snd (shape_at fuel i r) = Err ValueError) /\
  (forall v s q, item vs i v -> 0 < v -> record_at (with_measures range) bs (Z.to_nat (2 * v)) s q -> snd (shape_at fuel i r) = Ok (Some s)) /\
  (forall v, item vs i v -> 0 < v -> (forall s q, ~ record_at (with_measures range) bs (Z.to_nat (2 * v)) s q) -> exists e, snd (shape_at fuel i r) = Err e).
Proof.
  intros bs ix r range fuel i vs B BX U R H. pose proof (used_state bs (Some ix) r B BX U range R) as ST.
  pose proof (index_by bs ix vs range r i ST H) as IX. destruct (shape_at_snd bs (Some ix) range r fuel i BX ST) as [KE K]. split.
  { intros O. apply KE. rewrite IX. apply pick_out. exact O. }
  assert (D : forall v, item vs i v -> exists r1, state bs (Some ix) range r1 /\ snd (shape_at fuel i r) = snd (finish fuel i (Some (2 * v)) r1)).
  { intros v V. apply K. rewrite IX. apply pick_item. exact V. }
  split; [|split].
  - intros v V L. destruct (D v V) as [r1 [S1 E]]. rewrite E. apply (finish_at bs (Some ix) range r1 fuel i (2 * v) B S1); lia.
  - intros v s q V L RE. destruct (D v V) as [r1 [S1 E]]. rewrite E. eapply (finish_at bs (Some ix) range r1 fuel i (2 * v) B S1); [lia|lia|exact RE].
  - intros v V L RE. destruct (D v V) as [r1 [S1 E]]. rewrite E. eapply (finish_at bs (Some ix) range r1 fuel i (2 * v) B S1); [lia|lia|exact RE].
Qed.
(** An entry 0 counts as none: the records are counted, and if there are too
    few, or [i] is negative, the file's own header is read as a record. *)
Theorem C117_zero : forall bs ix r range fuel i vs ss q, Forall is_byte bs -> Forall is_byte ix -> used bs (Some ix) r -> range_of bs range -> index_has ix vs -> item vs i 0 ->
  records_at (with_measures range) bs 100 ss q -> (length ss < fuel)%nat ->
  (forall s q', i = Z.of_nat (length ss) -> (q < length bs)%nat -> record_at (with_measures range) bs q s q' -> snd (shape_at fuel i r) = Ok (Some s)) /\
  ((length bs <= q)%nat -> i < 0 \/ Z.of_nat (length ss) <= i ->
     (forall s q', record_at (with_measures range) bs 0 s q' -> snd (shape_at fuel i r) = Ok (Some s)) /\
     ((forall s q', ~ record_at (with_measures range) bs 0 s q') -> exists e, snd (shape_at fuel i r) = Err e)).
Proof.
  intros bs ix r range fuel i vs ss q B BX U R H V RE F. pose proof (used_state bs (Some ix) r B BX U range R) as ST.
  pose proof (index_by bs ix vs range r i ST H) as IX. destruct (shape_at_snd bs (Some ix) range r fuel i BX ST) as [_ K].
  destruct (K (Some (2 * 0))) as [r1 [S1 E]]; [rewrite IX; apply pick_item; exact V|]. rewrite E.
  destruct (finish_scan bs (Some ix) range r1 fuel i (Some (2 * 0)) B S1 eq_refl ss q RE F) as [A C]. split; [exact A|]. intros Q J. apply (C Q J). discriminate.
Qed.
(** Every index file is complete, or ends too early. *)
Theorem C117_kinds : forall ix, Forall is_byte ix ->
  ((28 <= length ix)%nat -> exists vs, index_has ix vs \/ index_cut ix vs) /\
  (forall vs vs', index_has ix vs -> index_has ix vs' -> vs = vs') /\
  (forall vs vs', index_cut ix vs -> index_cut ix vs' -> vs = vs') /\
  (forall vs vs', index_has ix vs -> index_cut ix vs' -> False).
Proof.
  intros ix B. split; [|split; [apply has_det|split; [apply cut_det|apply has_not_cut]]].
  intros L. destruct (index_kinds ix B) as [C|C]; [lia|exact C].
Qed.
(** An index file that ends too early: the first call of shape() raises
    struct.error whatever it asks for, but the entries read are kept, and every
    later call is answered by them. *)
Theorem C117_cut : forall bs ix r range fuel i vs, Forall is_byte bs -> Forall is_byte ix -> Reader (Some bs) (Some ix) None = (r, Ok tt) -> range_of bs range -> index_cut ix vs ->
  snd (shape_at fuel i r) = Err StructError /\
  (vs <> [] -> forall r' fuel' i', r' = fst (shape_at fuel i r) ->
    (i' < - Z.of_nat (length vs) \/ Z.of_nat (length vs) <= i' -> snd (shape_at fuel' i' r') = Err IndexError) /\
    (forall v s q, item vs i' v -> 0 < v -> record_at (with_measures range) bs (Z.to_nat (2 * v)) s q -> snd (shape_at fuel' i' r') = Ok (Some s))).
Proof.
  intros bs ix r range fuel i vs B BX O R H. pose proof (used_state bs (Some ix) r B BX (used_new _ _ _ O) range R) as ST.
  assert (OE : r_offsets r = []).
  { destruct (Nat.lt_ge_cases (length bs) 100) as [L|L]; [pose proof (Reader_short bs (Some ix) L) as S; rewrite O in S; discriminate S|].
    unfold Reader in O. set (r0 := mkReader _ _ _ _ _ _ _ _ _ _ _ _) in O. destruct (header_reads r0 bs 0 B eq_refl L) as [n [t [b [z [m [_ [_ [_ [_ [_ [_ HR]]]]]]]]]]].
    unfold mbind in O. rewrite HR in O. injection O as <-. reflexivity. }
  destruct (index_by_cut bs ix vs range r i ST H) as [C1 _]. destruct (C1 OE) as [E1 E2].
  split; [apply (shape_at_snd bs (Some ix) range r fuel i BX ST); exact E1|].
  intros NV r' fuel' i' ->.
  assert (ST' : state bs (Some ix) range (fst (shape_at fuel i r))) by (apply shape_at_state; assumption).
  assert (OE' : r_offsets (fst (shape_at fuel i r)) <> []).
  { pose proof ST as [[p P] [N _]]. rewrite (shape_at_is fuel i r _ P N). unfold mbind. destruct (shape_index i r) as [r1 [off|e]]; cbn [fst snd] in *; [discriminate E1|].
    rewrite E2. destruct vs; [contradiction|discriminate]. }
  destruct (index_by_cut bs ix vs range _ i' ST' H) as [_ C2]. pose proof (C2 OE') as IX. destruct (shape_at_snd bs (Some ix) range _ fuel' i' BX ST') as [KE K]. split.
  - intros J. apply KE. rewrite IX. apply pick_out. exact J.
  - intros v s q V L RE. destruct (K (Some (2 * v))) as [r1 [S1 E]]; [rewrite IX; apply pick_item; exact V|]. rewrite E.
    eapply (finish_at bs (Some ix) range r1 fuel' i' (2 * v) B S1); [lia|lia|exact RE].
Qed.

(** A file whose header has the range 1 to 2 of measures, and two records: a
    line of two points with a measure and a missing one, and a null shape; an
    index whose entries are in the other order, and one that ends too early. *)
Definition d1 : dbl := 4607182418800017408.
Definition d2 : dbl := 4611686018427387904.
Definition lost : dbl := 18442240474082181119.
Definition line_content : list Z :=
  le32 23 ++ doubles [0; 0; d1; d2] ++ le32 1 ++ le32 2 ++ ints [0] ++ ints [] ++ doubles (concat [[0; 0]; [d1; d2]]) ++ doubles [] ++ doubles [] ++ doubles [d1; d1] ++ doubles [d2; lost].
Definition the_line : shape := mkShape (Some 23) [[0; 0]; [d1; d2]] (Some [0]) None None (Some [present d2; present lost]) (Some [0; 0; d1; d2]).
Definition the_null : shape := mkShape (Some 0) [] None None None None None.
Definition two_shapes : list Z :=
  repeat 0 84 ++ doubles [d1; d2] ++ (be32 1 ++ be32 56 ++ line_content) ++ (be32 2 ++ be32 2 ++ le32 0).
Definition swapped : list Z := repeat 0 24 ++ be32 58 ++ repeat 0 72 ++ be32 110 ++ be32 2 ++ be32 50 ++ be32 56.
Definition cut_off : list Z := repeat 0 24 ++ be32 58 ++ repeat 0 72 ++ be32 110 ++ be32 2 ++ [0; 0].
Lemma the_line_says : says true the_line line_content.
Proof.
  assert (D : Forall is_dbl [0; d1; d2; lost]) by (repeat (apply Forall_cons; [unfold is_dbl, d1, d2, lost; lia|]); apply Forall_nil).
  inversion D as [|? ? D0 Da]; subst. inversion Da as [|? ? D1 Db]; subst. inversion Db as [|? ? D2 Dc]; subst. inversion Dc as [|? ? D3 _]; subst.
  apply (says_many true 23 [0; 0; d1; d2] [0] [] 2 [[0; 0]; [d1; d2]] [] [] [d1; d1] [d2; lost]); try reflexivity.
  - repeat (apply Forall_cons; [assumption|]). apply Forall_nil.
  - unfold int32. lia.
  - repeat (apply Forall_cons; [split; [reflexivity|repeat (apply Forall_cons; [assumption|]); apply Forall_nil]|]). apply Forall_nil.
  - unfold int32. cbn. lia.
  - apply Forall_cons; [unfold int32; lia|apply Forall_nil].
  - intros E. discriminate E.
  - apply Forall_nil.
  - split; reflexivity.
  - change (measured 23 && true) with true. cbv iota. split; [lia|]. split; [reflexivity|]. split; [repeat (apply Forall_cons; [assumption|]); apply Forall_nil|].
    split; [reflexivity|]. repeat (apply Forall_cons; [assumption|]). apply Forall_nil.
Qed.
Lemma the_range : range_of two_shapes [d1; d2] /\ with_measures [d1; d2] = true.
Proof.
  split; [|vm_compute; reflexivity]. split; [reflexivity|]. split; [|vm_compute; reflexivity].
  repeat (apply Forall_cons; [unfold is_dbl, d1, d2; lia|]). apply Forall_nil.
Qed.
Lemma first_record : record_at true two_shapes 100 the_line 220.
Proof.
  exists 1, 56, line_content. split; [unfold int32; lia|]. split; [unfold int32; lia|]. split; [vm_compute; reflexivity|]. split; [exact the_line_says|]. reflexivity.
Qed.
Lemma second_record : record_at true two_shapes 220 the_null 232.
Proof.
  exists 2, 2, (le32 0). split; [unfold int32; lia|]. split; [unfold int32; lia|]. split; [vm_compute; reflexivity|]. split; [|reflexivity].
  apply says_null; [unfold int32; lia|reflexivity].
Qed.
Example C117_case :
  Forall is_byte two_shapes /\ Forall is_byte swapped /\ Forall is_byte cut_off /\
  range_of two_shapes [d1; d2] /\ holds_shapes (with_measures [d1; d2]) two_shapes [the_line; the_null] /\ present lost = None /\
  index_has swapped [110; 50] /\ index_cut cut_off [110] /\ item [110; 50] (-1) 50 /\
  record_at (with_measures [d1; d2]) two_shapes (Z.to_nat (2 * 50)) the_line 220 /\
  (exists r, Reader (Some two_shapes) (Some swapped) None = (r, Ok tt) /\ used two_shapes (Some swapped) r /\ snd (shape_at 1 0 r) = Ok (Some the_null)) /\
  (exists r, Reader (Some two_shapes) (Some cut_off) None = (r, Ok tt)) /\
  (exists r, Reader (Some two_shapes) None None = (r, Ok tt) /\ snd (shapes 3 r) = Ok (Some [the_line; the_null]) /\ snd (shape_at 3 2 r) = Err TypeError).
Proof.
  split; [apply ShpHostileProps.bytesb_ok; vm_compute; reflexivity|]. split; [apply ShpHostileProps.bytesb_ok; vm_compute; reflexivity|]. split; [apply ShpHostileProps.bytesb_ok; vm_compute; reflexivity|].
  destruct the_range as [R ->]. split; [exact R|].
  split; [exists 232%nat; split; [|vm_compute; repeat constructor]|].
  { eapply records_more; [|exact first_record|]; [vm_compute; repeat constructor|]. eapply records_more; [|exact second_record|constructor]. vm_compute; repeat constructor. }
  split; [vm_compute; reflexivity|].
  split.
  { exists 58. split; [split; [unfold int32; lia|vm_compute; reflexivity]|]. split; [reflexivity|].
    intros [|[|[|]]] v E; try discriminate E; injection E as <-; split; try (unfold int32; lia); vm_compute; reflexivity. }
  split.
  { exists 58. split; [split; [unfold int32; lia|vm_compute; reflexivity]|]. split; [vm_compute; repeat constructor|]. split; [vm_compute; repeat constructor|].
    intros [|[|]] v E; try discriminate E; injection E as <-; split; try (unfold int32; lia); vm_compute; reflexivity. }
  split; [split; [cbn; lia|reflexivity]|]. split; [exact first_record|].
  split; [exists (fst (Reader (Some two_shapes) (Some swapped) None))|].
  { assert (O : Reader (Some two_shapes) (Some swapped) None = (fst (Reader (Some two_shapes) (Some swapped) None), Ok tt)) by (vm_compute; reflexivity).
    split; [exact O|]. split; [apply used_new; exact O|]. vm_compute. reflexivity. }
  split; [exists (fst (Reader (Some two_shapes) (Some cut_off) None)); vm_compute; reflexivity|].
  exists (fst (Reader (Some two_shapes) None None)). split; [vm_compute; reflexivity|]. split; vm_compute; reflexivity.
Qed.

Print Assumptions C117_one.
Print Assumptions C117_shapes.
Print Assumptions C117_iter.
Print Assumptions C117_counted.
Print Assumptions C117_indexed.
Print Assumptions C117_zero.
Print Assumptions C117_kinds.
Print Assumptions C117_cut.
