(** What a Reader over any .shp bytes answers, call after call: lemmas. *)
From Verif Require TableProofs.
From Verif Require Import Py VlvModel VlvProofs ShpFile ShpWriterModel ShpReaderModel ShpSpec ShpLib ShpWriterProofs ShpSave ShpRead ShpHostileSpec ShpHostile
  ShpBytesSpec ShpBytes ShpBytesRecord ShpBytesBack ShpBytesFile.
Open Scope Z_scope.
Open Scope m_scope.

(** A Reader over the bytes [bs] of a .shp file, and [ix] of its index if there
    is one, after any calls of shape() and shapes(). *)
Inductive used (bs : list Z) (ix : option (list Z)) : reader -> Prop :=
| used_new : forall r, Reader (Some bs) ix None = (r, Ok tt) -> used bs ix r
| used_shape : forall r fuel i, used bs ix r -> used bs ix (fst (shape_at fuel i r))
| used_shapes : forall r fuel, used bs ix r -> used bs ix (fst (shapes fuel r)).

Lemma range_det bs a b : range_of bs a -> range_of bs b -> a = b.
Proof.
  intros [L1 [B1 S1]] [L2 [B2 S2]]. unfold stands in S1, S2. rewrite doubles_length in S1, S2. rewrite L1 in S1. rewrite L2 in S2.
  pose proof (unpack_doubles a 2 B1 ltac:(lia)) as U1. pose proof (unpack_doubles b 2 B2 ltac:(lia)) as U2. congruence.
Qed.
(** ** The state *)
Definition offsets_are (ix : list Z) (os : list Z) : Prop := os = [] \/ exists vs, (index_has ix vs \/ index_cut ix vs) /\ os = map (Z.mul 2) vs.
Definition state (bs : list Z) (ix : option (list Z)) (ms : list dbl) (r : reader) : Prop :=
  (exists p, r_shp r = Some (mkFile bs p)) /\ r_numRecords r = None /\ r_measure r = ms /\
  match ix with None => r_shx r = None | Some x => (exists p, r_shx r = Some (mkFile x p)) /\ offsets_are x (r_offsets r) end.
Lemma state_shp bs ix ms r p n : state bs ix ms r -> state bs ix ms (r_set_shp (Some (mkFile bs p)) (r_set_shpLength n r)).
Proof. intros [_ [A [B C]]]. destruct r. cbn in *. split; [exists p; reflexivity|]. split; [exact A|]. split; [exact B|exact C]. Qed.
Lemma state_shp1 bs ix ms r p : state bs ix ms r -> state bs ix ms (r_set_shp (Some (mkFile bs p)) r).
Proof. intros [_ [A [B C]]]. destruct r. cbn in *. split; [exists p; reflexivity|]. split; [exact A|]. split; [exact B|exact C]. Qed.
Lemma state_new bs ix r : Forall is_byte bs -> Reader (Some bs) ix None = (r, Ok tt) -> exists ms, range_of bs ms /\ state bs ix ms r.
Proof.
  intros B O. destruct (Nat.lt_ge_cases (length bs) 100) as [L|L].
  { pose proof (Reader_short bs ix L) as S. rewrite O in S. discriminate S. }
  unfold Reader in O. set (r0 := mkReader _ _ _ _ _ _ _ _ _ _ _ _) in O.
  destruct (header_reads r0 bs 0 B eq_refl L) as [n [t [b [z [m [_ [_ [_ [_ [H5 [UM H]]]]]]]]]]]. unfold mbind in O. rewrite H in O. injection O as <-. exists m. split.
  - pose proof (unpack_ds_inv 2 _ m (Forall_cut is_byte 16 84 bs B) UM) as E. unfold unpack_ds, unpack_many in UM. destruct (_ && _) in UM; [|discriminate UM].
    pose proof (mapM_length _ _ _ UM) as LM. rewrite chunks_length in LM. pose proof (mapM_range _ _ (chunks_bytes is_byte 8 _ _ (Forall_cut is_byte 16 84 bs B)) UM) as R.
    split; [exact LM|]. split; [exact R|]. unfold stands. rewrite doubles_length, LM. exact H5.
  - subst r0. split; [cbn; eauto|]. split; [reflexivity|]. split; [reflexivity|]. destruct ix as [x|]; cbn; [|reflexivity]. split; [eauto|]. left. reflexivity.
Qed.
Lemma get_shape_data measure f : Forall is_byte (fdata f) -> fdata (fst (get_shape measure f)) = fdata f.
Proof. intros B. pose proof (get_shape_runs measure f B) as G. unfold runs in G. destruct (get_shape measure f). apply G. Qed.
Lemma find_data measure len i : forall fuel j f, Forall is_byte (fdata f) -> fdata (fst (find_loop fuel measure len j i f)) = fdata f.
Proof.
  induction fuel as [|k IH]; intros j f B; [reflexivity|]. cbn [find_loop]. unfold mbind, ShpFile.f_tell. destruct (_ <? _); [|reflexivity].
  pose proof (get_shape_data measure f B) as G. destruct (get_shape measure f) as [f1 [s|e]]; [|exact G]. cbn [fst] in G. destruct (j =? i); [exact G|]. rewrite IH by (rewrite G; exact B). exact G.
Qed.
Lemma loop_data measure len : forall fuel f, Forall is_byte (fdata f) -> fdata (fst (shapes_loop fuel measure len f)) = fdata f.
Proof.
  induction fuel as [|k IH]; intros f B; [reflexivity|]. cbn [shapes_loop]. unfold mbind, ShpFile.f_tell. destruct (_ <? _); [|reflexivity].
  pose proof (get_shape_data measure f B) as G. destruct (get_shape measure f) as [f1 [s|e]]; [|exact G]. cbn [fst] in G.
  pose proof (IH f1 ltac:(rewrite G; exact B)) as G2. rewrite <- G, <- G2. destruct (shapes_loop k measure len f1) as [f2 [[l|]|e]]; reflexivity.
Qed.
(** Every index file. *)
Lemma holds_there ix p : Forall is_byte ix -> (p + 4 <= length ix)%nat -> exists v, holds_be ix p v.
Proof.
  intros B L. destruct (unpack_bi_len (firstn 4 (skipn p ix)) (cut_length ix 4 p L)) as [v U]. exists v. apply unpack_bi_inv; [apply Forall_cut; exact B|exact U].
Qed.
Lemma holds_len ix p v : holds_be ix p v -> (p + 4 <= length ix)%nat.
Proof. intros [_ H]. pose proof (f_equal (@length Z) H) as L. change (length (be32 v)) with 4%nat in L. rewrite firstn_length, skipn_length in L. lia. Qed.
Lemma entries_there ix : Forall is_byte ix -> forall c, exists vs, (forall k v, nth_error vs k = Some v -> holds_be ix (100 + 8 * k) v) /\
  (length vs = c \/ (length vs < c)%nat /\ (length ix < 104 + 8 * length vs)%nat).
Proof.
  intros B. induction c as [|c [vs [H C]]].
  - exists []. split; [intros k v K; destruct k; discriminate K|left; reflexivity].
  - destruct C as [C|[C1 C2]]; [|exists vs; split; [exact H|right; lia]].
    destruct (Nat.lt_ge_cases (length ix) (104 + 8 * length vs)) as [L|L]; [exists vs; split; [exact H|right; lia]|].
    destruct (holds_there ix (100 + 8 * length vs) B ltac:(lia)) as [v V]. exists (vs ++ [v]). split; [|left; rewrite app_length; cbn; lia].
    intros k w K. destruct (Nat.lt_ge_cases k (length vs)) as [K1|K1]; [rewrite nth_error_app1 in K by exact K1; exact (H k w K)|].
    rewrite nth_error_app2 in K by exact K1. destruct (k - length vs)%nat as [|[|]] eqn:D; try discriminate K. injection K as <-. replace k with (length vs) by lia. exact V.
Qed.
Lemma index_kinds ix : Forall is_byte ix -> (length ix < 28)%nat \/ exists vs, index_has ix vs \/ index_cut ix vs.
Proof.
  intros B. destruct (Nat.lt_ge_cases (length ix) 28) as [L|L]; [left; exact L|right]. destruct (holds_there ix 24 B ltac:(lia)) as [n N].
  destruct (entries_there ix B (Z.to_nat ((2 * n - 100) / 8))) as [vs [H C]]. exists vs. destruct C as [C|[C1 C2]]; [left|right]; exists n; auto.
Qed.
Lemma entries_det ix vs vs' : (forall k v, nth_error vs k = Some v -> holds_be ix (100 + 8 * k) v) -> (forall k v, nth_error vs' k = Some v -> holds_be ix (100 + 8 * k) v) ->
  length vs = length vs' -> vs = vs'.
Proof.
  intros H H' L. apply TableProofs.nth_error_ext. intros k. destruct (nth_error vs k) as [v|] eqn:E.
  - destruct (nth_error vs' k) as [w|] eqn:E'; [|apply nth_error_None in E'; pose proof (proj1 (nth_error_Some vs k) ltac:(congruence)); lia].
    f_equal. eapply holds_be_det; [exact (H k v E)|exact (H' k w E')].
  - apply nth_error_None in E. symmetry. apply nth_error_None. lia.
Qed.
Lemma has_det ix vs vs' : index_has ix vs -> index_has ix vs' -> vs = vs'.
Proof. intros [n [N [L H]]] [n' [N' [L' H']]]. rewrite (holds_be_det _ _ _ _ N N') in L. apply (entries_det ix); [exact H|exact H'|lia]. Qed.
Lemma cut_lens ix vs vs' : index_cut ix vs -> (forall k v, nth_error vs' k = Some v -> holds_be ix (100 + 8 * k) v) -> (length vs' <= length vs)%nat.
Proof.
  intros [n [N [L [S H]]]] H'. destruct (Nat.lt_ge_cases (length vs) (length vs')) as [C|C]; [|exact C].
  destruct (nth_error vs' (length vs)) as [v|] eqn:E; [|apply nth_error_None in E; lia]. apply H' in E. apply holds_len in E. lia.
Qed.
Lemma cut_det ix vs vs' : index_cut ix vs -> index_cut ix vs' -> vs = vs'.
Proof.
  intros C C'. pose proof C as [_ [_ [_ [_ H]]]]. pose proof C' as [_ [_ [_ [_ H']]]]. apply (entries_det ix); [exact H|exact H'|].
  pose proof (cut_lens ix vs vs' C H'). pose proof (cut_lens ix vs' vs C' H). lia.
Qed.
Lemma has_not_cut ix vs vs' : index_has ix vs -> index_cut ix vs' -> False.
Proof. intros [n [N [L H]]] C. pose proof (cut_lens ix vs' vs C H). destruct C as [n' [N' [L' _]]]. rewrite (holds_be_det _ _ _ _ N N') in L. lia. Qed.
Lemma index_short i r ix p : r_shx r = Some (mkFile ix p) -> r_offsets r = [] -> (length ix < 28)%nat ->
  exists q, shape_index i r = (r_set_shx (Some (mkFile ix q)) r, Err StructError).
Proof.
  intros E O L. rewrite shape_index_is, E, O. destruct r as [a b c d e g h i' j k l m]. cbn in E, O. subst b d. unfold in_shx, with_file, mbind, f_get, ShpFile.f_read, mbind, f_seek, lift.
  change (24 <? 0) with false. cbv iota. cbn [r_shx r_set_shx fdata fpos]. change (4 <? 0) with false. cbv iota. change (Z.to_nat 4) with 4%nat. change (Z.to_nat 24) with 24%nat.
  rewrite unpack_bi_short by (apply cut_short; lia). eexists. reflexivity.
Qed.
(** shape_index keeps the state *)
Definition same_shp (r r1 : reader) : Prop := r_shp r1 = r_shp r.
Lemma index_state bs ix ms r i : match ix with Some x => Forall is_byte x | None => True end -> state bs ix ms r ->
  state bs ix ms (fst (shape_index i r)) /\ r_shp (fst (shape_index i r)) = r_shp r.
Proof.
  intros B ST. pose proof ST as [A1 [A2 [A3 A4]]]. destruct ix as [x|]; [|rewrite shape_index_is, A4; split; [exact ST|reflexivity]].
  destruct A4 as [[p P] O]. destruct (r_offsets r) as [|o os] eqn:E.
  - destruct (index_kinds x B) as [L|[vs [H|H]]].
    + destruct (index_short i r x p P E L) as [q Q]. rewrite Q. cbn [fst]. split; [|destruct r; reflexivity]. destruct r. cbn in *. subst. split; [exact A1|]. split; [reflexivity|]. split; [reflexivity|]. cbn. split; [eauto|left; reflexivity].
    + destruct (index_first i r x p vs P E H) as [q Q]. rewrite Q. cbn [fst]. split; [|destruct r; reflexivity]. destruct r. cbn in *. subst. split; [exact A1|]. split; [reflexivity|]. split; [reflexivity|]. cbn. split; [eauto|]. right. eauto.
    + destruct (index_fail i r x p vs P E H) as [q Q]. rewrite Q. cbn [fst]. split; [|destruct r; reflexivity]. destruct r. cbn in *. subst. split; [exact A1|]. split; [reflexivity|]. split; [reflexivity|]. cbn. split; [eauto|]. right. eauto.
  - rewrite (index_kept i r _ P) by (rewrite E; discriminate). split; [exact ST|reflexivity].
Qed.
(** The offset: by the entries of the index. *)
Lemma index_by bs ix vs ms r i : state bs (Some ix) ms r -> index_has ix vs -> snd (shape_index i r) = pick (map (Z.mul 2) vs) i.
Proof.
  intros ST H. pose proof ST as [_ [_ [_ [[p P] O]]]]. destruct (r_offsets r) as [|o os] eqn:E.
  - destruct (index_first i r ix p vs P E H) as [q Q]. rewrite Q. reflexivity.
  - rewrite (index_kept i r _ P) by (rewrite E; discriminate). rewrite E. cbn [snd]. destruct O as [O|[vs' [[H'|H'] O]]]; [discriminate O| |].
    + rewrite O, (has_det ix vs' vs H' H). reflexivity.
    + destruct (has_not_cut ix vs vs' H H').
Qed.
Lemma index_by_cut bs ix vs ms r i : state bs (Some ix) ms r -> index_cut ix vs ->
  (r_offsets r = [] -> snd (shape_index i r) = Err StructError /\ r_offsets (fst (shape_index i r)) = map (Z.mul 2) vs) /\
  (r_offsets r <> [] -> snd (shape_index i r) = pick (map (Z.mul 2) vs) i).
Proof.
  intros ST H. pose proof ST as [_ [_ [_ [[p P] O]]]]. split; intros E.
  - destruct (index_fail i r ix p vs P E H) as [q Q]. rewrite Q. destruct r. auto.
  - rewrite (index_kept i r _ P) by exact E. cbn [snd]. destruct O as [O|[vs' [[H'|H'] O]]]; [contradiction| |].
    + destruct (has_not_cut ix vs' vs H' H).
    + rewrite O, (cut_det ix vs' vs H' H). reflexivity.
Qed.
(** ** finish *)
Lemma finish_state bs ix ms r fuel i off : Forall is_byte bs -> state bs ix ms r -> state bs ix ms (fst (finish fuel i off r)).
Proof.
  intros B ST. pose proof ST as [[p P] _]. unfold finish.
  assert (T : forall r o, state bs ix ms r -> state bs ix ms (fst ((in_shp (f_seek o) ;;; r <~ get ;; s <~ in_shp (get_shape (r_measure r)) ;; ret (Some s)) r))).
  { clear r p P ST. intros r o ST. pose proof ST as [[p P] _]. unfold mbind, in_shp, with_file, get, f_seek. rewrite P. destruct (o <? 0); [apply state_shp1; exact ST|].
    cbn [r_shp r_set_shp fdata]. pose proof (get_shape_data (r_measure (r_set_shp (Some (mkFile bs (Z.to_nat o))) r)) (mkFile bs (Z.to_nat o)) B) as G.
    destruct (get_shape _ _) as [[d q] [s|e]]; cbn [fst fdata] in G; subst d; cbn [fst ret]; apply state_shp1, state_shp1; exact ST. }
  unfold mbind at 1. destruct (truthy off).
  - cbn. destruct off; [apply T; exact ST|exact ST].
  - rewrite (scan_is fuel i r _ P). cbn [fdata]. pose proof (find_data (r_measure r) (Z.of_nat (length bs)) i fuel 0 (mkFile bs 100) B) as G.
    destruct (find_loop _ _ _ _ _ _) as [[d q] x]. cbn [fst fdata] in G. subst d.
    pose proof (state_shp bs ix ms r q (Some (Z.of_nat (length bs))) ST) as ST'.
    destruct x as [[[s|]|]|e]; cbn [fst ret]; try exact ST'. destruct off; [apply T; exact ST'|exact ST'].
Qed.
Definition all_bytes (ix : option (list Z)) : Prop := match ix with Some x => Forall is_byte x | None => True end.
Lemma shape_at_state bs ix ms r fuel i : Forall is_byte bs -> all_bytes ix -> state bs ix ms r -> state bs ix ms (fst (shape_at fuel i r)).
Proof.
  intros B BX ST. pose proof ST as [[p P] [N _]]. rewrite (shape_at_is fuel i r _ P N). unfold mbind.
  pose proof (index_state bs ix ms r i BX ST) as [S1 _]. destruct (shape_index i r) as [r1 [off|e]]; [|exact S1]. apply finish_state; assumption.
Qed.
Lemma shapes_state bs ix ms r fuel : Forall is_byte bs -> state bs ix ms r -> state bs ix ms (fst (shapes fuel r)).
Proof.
  intros B ST. pose proof ST as [[p P] _]. unfold shapes. unfold mbind at 1. rewrite (rewind_ok r _ P). unfold mbind, get, in_shp, with_file. cbn [r_shp r_set_shp r_set_shpLength r_measure fdata].
  pose proof (loop_data (r_measure r) (Z.of_nat (length bs)) fuel (mkFile bs 100) B) as G. destruct (shapes_loop _ _ _ _) as [[d q] x]. cbn [fst fdata] in G. subst d. cbn [fst].
  pose proof (state_shp bs ix ms r q (Some (Z.of_nat (length bs))) ST) as ST'. destruct r. exact ST'.
Qed.
Lemma used_state bs ix r : Forall is_byte bs -> all_bytes ix -> used bs ix r -> forall ms, range_of bs ms -> state bs ix ms r.
Proof.
  intros B BX U. induction U as [r O|r fuel i _ IH|r fuel _ IH]; intros ms R.
  - destruct (state_new bs ix r B O) as [ms' [R' S]]. rewrite (range_det bs ms ms' R R'). exact S.
  - apply shape_at_state; auto.
  - apply shapes_state; auto.
Qed.
(** ** What is answered *)
Lemma pick_item vs i v : item vs i v -> pick (map (Z.mul 2) vs) i = Ok (Some (2 * v)).
Proof.
  intros [R E]. unfold pick, py_get. cbv zeta. rewrite map_length. set (j := if i <? 0 then i + Z.of_nat (length vs) else i) in *.
  assert (J : 0 <= j < Z.of_nat (length vs)) by (unfold j; destruct (Z.ltb_spec i 0); lia).
  replace (0 <=? j) with true by (symmetry; apply Z.leb_le; lia). replace (j <? Z.of_nat (length vs)) with true by (symmetry; apply Z.ltb_lt; lia). cbn [andb].
  rewrite (map_nth_error (Z.mul 2) _ _ E). reflexivity.
Qed.
Lemma pick_out vs i : i < - Z.of_nat (length vs) \/ Z.of_nat (length vs) <= i -> pick (map (Z.mul 2) vs) i = Err IndexError.
Proof.
  intros H. unfold pick, py_get. cbv zeta. rewrite map_length. destruct (Z.ltb_spec i 0).
  - destruct (Z.leb_spec 0 (i + Z.of_nat (length vs))); [lia|reflexivity].
  - destruct (Z.ltb_spec i (Z.of_nat (length vs))); [lia|]. rewrite andb_false_r. reflexivity.
Qed.
Lemma shape_at_snd bs ix ms r fuel i : all_bytes ix -> state bs ix ms r ->
  (forall e, snd (shape_index i r) = Err e -> snd (shape_at fuel i r) = Err e) /\
  (forall off, snd (shape_index i r) = Ok off -> exists r1, state bs ix ms r1 /\ snd (shape_at fuel i r) = snd (finish fuel i off r1)).
Proof.
  intros BX ST. pose proof ST as [[p P] [N _]]. rewrite (shape_at_is fuel i r _ P N). unfold mbind.
  pose proof (index_state bs ix ms r i BX ST) as [S1 _]. destruct (shape_index i r) as [r1 x]. cbn [fst snd] in *. split.
  - intros e ->. reflexivity.
  - intros off ->. exists r1. auto.
Qed.
Lemma finish_at bs ix ms r fuel i o : Forall is_byte bs -> state bs ix ms r -> o <> 0 ->
  (o < 0 -> snd (finish fuel i (Some o) r) = Err ValueError) /\
  (0 < o -> (forall s q, record_at (with_measures ms) bs (Z.to_nat o) s q -> snd (finish fuel i (Some o) r) = Ok (Some s)) /\
            ((forall s q, ~ record_at (with_measures ms) bs (Z.to_nat o) s q) -> exists e, snd (finish fuel i (Some o) r) = Err e)).
Proof.
  intros B [[p P] [_ [M _]]] NZ. unfold finish. cbn [truthy]. replace (negb (o =? 0)) with true by (symmetry; apply negb_true_iff, Z.eqb_neq; exact NZ).
  destruct r as [a b c d e g h i' j k l m]. cbn in P, M. subst a m. unfold mbind, ret, in_shp, with_file, get, f_seek. cbn [r_shp].
  split.
  - intros L. replace (o <? 0) with true by (symmetry; apply Z.ltb_lt; lia). reflexivity.
  - intros L. replace (o <? 0) with false by (symmetry; apply Z.ltb_ge; lia). cbn [r_shp r_set_shp r_measure fdata]. split.
    + intros s q R. rewrite (record_do ms bs _ s q R). reflexivity.
    + intros NR. destruct (get_shape ms (mkFile bs (Z.to_nat o))) as [f' [s|x]] eqn:G; [|eexists; reflexivity].
      destruct (record_inv ms bs _ f' s B G) as [q [_ R]]. destruct (NR s q R).
Qed.
Lemma finish_scan bs ix ms r fuel i off : Forall is_byte bs -> state bs ix ms r -> truthy off = false ->
  forall ss q, records_at (with_measures ms) bs 100 ss q -> (length ss < fuel)%nat ->
  (forall s q', i = Z.of_nat (length ss) -> (q < length bs)%nat -> record_at (with_measures ms) bs q s q' -> snd (finish fuel i off r) = Ok (Some s)) /\
  ((length bs <= q)%nat -> i < 0 \/ Z.of_nat (length ss) <= i ->
     (off = None -> snd (finish fuel i off r) = Err TypeError) /\
     (off <> None -> (forall s q', record_at (with_measures ms) bs 0 s q' -> snd (finish fuel i off r) = Ok (Some s)) /\
                     ((forall s q', ~ record_at (with_measures ms) bs 0 s q') -> exists e, snd (finish fuel i off r) = Err e))).
Proof.
  intros B ST T ss q R F. pose proof ST as [[p P] [_ [M _]]].
  assert (FS : forall f' a, find_loop fuel ms (Z.of_nat (length bs)) 0 i (mkFile bs 100) = (f', Ok a) ->
    finish fuel i off r = match a with
      | None => ret None
      | Some (Some s) => ret (Some s)
      | Some None => match off with
          | None => raise TypeError
          | Some o => in_shp (f_seek o) ;;; r <~ get ;; s <~ in_shp (get_shape (r_measure r)) ;; ret (Some s)
          end
      end (r_set_shp (Some f') (r_set_shpLength (Some (Z.of_nat (length bs))) r))).
  { intros f' a E. unfold finish. rewrite T. unfold mbind at 1. rewrite (scan_is fuel i r _ P). cbn [fdata]. rewrite M, E. reflexivity. }
  split.
  - intros s q' I Q R'. rewrite (FS _ _ (find_there ms bs B 100 ss q R fuel 0 i s q' F ltac:(lia) Q R')). reflexivity.
  - intros Q I. specialize (FS _ _ (find_not ms bs B 100 ss q R fuel 0 i F ltac:(lia) Q)). rewrite FS. clear FS. split; [intros ->; reflexivity|].
    intros NO. destruct off as [o|]; [|contradiction]. cbn in T. apply negb_false_iff, Z.eqb_eq in T. subst o.
    destruct r as [a b c d e g h i' j k l m]. cbn in P, M. subst a m. unfold mbind, ret, in_shp, with_file, get, f_seek. change (0 <? 0) with false. cbv iota. cbn [r_shp r_set_shp r_set_shpLength r_measure fdata]. change (Z.to_nat 0) with 0%nat. split.
    + intros s q' R'. rewrite (record_do ms bs _ s q' R'). reflexivity.
    + intros NR. destruct (get_shape ms (mkFile bs 0)) as [f' [s|x]] eqn:G; [|eexists; reflexivity].
      destruct (record_inv ms bs _ f' s B G) as [q' [_ R']]. destruct (NR s q' R').
Qed.
Lemma records_det m bs o ss q : records_at m bs o ss q -> (length bs <= q)%nat -> forall ss' q', records_at m bs o ss' q' -> (length bs <= q')%nat -> ss = ss'.
Proof.
  induction 1 as [o|o s p ss q L R _ IH]; intros Q ss' q' R' Q'.
  - inversion R' as [|? ? ? ? ? L' _ _]; [reflexivity|]. lia.
  - inversion R' as [|? s' p' ss2 ? L' A' B']; subst; [lia|]. destruct (record_det m bs o s p s' p' R A') as [<- <-]. f_equal. eapply IH; eauto.
Qed.
