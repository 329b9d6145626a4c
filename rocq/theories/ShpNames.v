(** Columns named "Deletion..." and rows given by name. *)
From Verif Require Import Py Text ShpFile ShpWriterModel ShpSpec ShpSave ShpApi ShpPrograms ShpTableSpec ShpDbfWrite ShpTablePrograms ShpTable.
Open Scope Z_scope.
Open Scope m_scope.

(** ** Columns that are dropped *)
Lemma field_eqb_eq a b : field_eqb a b = true -> a = b.
Proof.
  unfold field_eqb. rewrite !andb_true_iff, !zlist_eqb_eq, Z.eqb_eq. destruct a as [n t s d], b as [n' t' s' d']. cbn.
  intros [[[-> ->] S] ->]. f_equal. destruct s, s'; cbn in S; try discriminate; [apply Z.eqb_eq in S|apply zlist_eqb_eq in S]; congruence.
Qed.
Lemma remove_at pre f l : ~ In f pre -> remove_first f (pre ++ f :: l) = pre ++ l.
Proof.
  induction pre as [|x pre IH]; intros N; cbn [app remove_first].
  - rewrite field_eqb_refl. reflexivity.
  - destruct (field_eqb x f) eqn:E; [apply field_eqb_eq in E; subst x; destruct N; left; reflexivity|]. rewrite IH; [reflexivity|].
    intros I. apply N. right. exact I.
Qed.
Lemma drop_past k i l : (length l <= i)%nat -> drop_deletion k i l = l.
Proof. intros H. destruct k; [reflexivity|]. cbn. rewrite (proj2 (nth_error_None _ _) H). reflexivity. Qed.
Lemma drop_alternate m : forall l, (length l <= m)%nat -> forall pre k, NoDup (pre ++ l) -> (length l <= k)%nat ->
  exists s, drop_deletion k (length pre) (pre ++ l) = pre ++ s /\ alternate l s.
Proof.
  induction m as [|m IH]; intros l LM pre k ND LK.
  - destruct l; [|cbn in LM; lia]. exists []. rewrite drop_past; [split; reflexivity|]. rewrite app_nil_r. reflexivity.
  - destruct l as [|f l].
    { exists []. rewrite drop_past; [split; reflexivity|]. rewrite app_nil_r. reflexivity. }
    cbn [length] in LM, LK. destruct k as [|k]; [lia|]. cbn [drop_deletion].
    rewrite nth_error_app2, Nat.sub_diag by lia. cbn [nth_error].
    destruct (is_deletion f) eqn:D.
    + rewrite (remove_at pre f l) by (apply NoDup_remove_2 in ND; intros I; apply ND, in_or_app; left; exact I).
      apply is_deletion_spec in D. destruct l as [|g l].
      * exists []. rewrite app_nil_r, drop_past by lia. split; [reflexivity|]. right. split; [exact D|reflexivity].
      * apply NoDup_remove_1 in ND. replace (pre ++ g :: l) with ((pre ++ [g]) ++ l) in * by (rewrite <- app_assoc; reflexivity).
        cbn [length] in LM, LK. destruct (IH l ltac:(lia) (pre ++ [g]) k ND ltac:(lia)) as [s [E A]].
        rewrite app_length, Nat.add_comm in E. cbn [length Nat.add] in E. rewrite E. exists (g :: s). rewrite <- app_assoc. split; [reflexivity|].
        right. split; [exact D|]. exists s. auto.
    + replace (pre ++ f :: l) with ((pre ++ [f]) ++ l) in * by (rewrite <- app_assoc; reflexivity).
      destruct (IH l ltac:(lia) (pre ++ [f]) k ND ltac:(lia)) as [s [E A]].
      rewrite app_length, Nat.add_comm in E. cbn [length Nat.add] in E. rewrite E. exists (f :: s). rewrite <- app_assoc. split; [reflexivity|].
      left. split; [|exists s; auto]. intros X. apply is_deletion_spec in X. congruence.
Qed.
Definition fkeeps {A} (m : M writer A) : Prop := forall w w' x, m w = (w', x) -> w_fields w' = w_fields w.
Lemma fk_lift {A} (a : res A) : fkeeps (lift a).
Proof. intros w w' x H. unfold lift in H. apply pair_inv in H. destruct H as [<- _]. reflexivity. Qed.
Lemma fk_get : fkeeps get.
Proof. intros w w' x H. unfold get in H. apply pair_inv in H. destruct H as [<- _]. reflexivity. Qed.
Lemma fk_ret {A} (a : A) : fkeeps (ret a).
Proof. intros w w' x H. unfold ret in H. apply pair_inv in H. destruct H as [<- _]. reflexivity. Qed.
Lemma fk_bind {A B} (m : M writer A) (k : A -> M writer B) : fkeeps m -> (forall a, fkeeps (k a)) -> fkeeps (mbind m k).
Proof.
  intros Hm Hk w w' x H. unfold mbind in H. destruct (m w) as [w1 [a|e]] eqn:E.
  - rewrite (Hk a w1 w' x H). apply (Hm w w1 _ E).
  - apply pair_inv in H. destruct H as [<- _]. apply (Hm w w1 _ E).
Qed.
Lemma fk_dbf {A} (m : M file A) : fkeeps (on_dbf m).
Proof. intros w w' x H. unfold on_dbf, zoom in H. destruct (m (w_dbf w)). apply pair_inv in H. destruct H as [<- _]. reflexivity. Qed.
Lemma fk_each {A} (body : A -> M writer unit) l : (forall a, fkeeps (body a)) -> fkeeps (for_each body l).
Proof. intros B. induction l; cbn [for_each]; [apply fk_ret|apply fk_bind; [apply B|intros; assumption]]. Qed.
Ltac fk_tac := repeat first [apply fk_dbf | apply fk_lift | apply fk_get | apply fk_ret | apply fk_each; intros ? | apply fk_bind; [|intros ?]
  | match goal with |- fkeeps (when ?b _) => destruct b; cbn [when] end].
Lemma dropped_columns fr today w w1 x : NoDup (w_fields w) -> saveDbf fr today new_file w = (w1, x) -> alternate (w_fields w) (w_fields w1).
Proof.
  intros ND H. unfold saveDbf in H. unfold mbind at 1 in H. unfold modify in H.
  set (w0 := w_set_dbf new_file w) in *.
  assert (F0 : w_fields w0 = w_fields w) by reflexivity. rewrite <- F0 in *. clearbody w0. clear F0 w.
  unfold dbf_header in H. destruct today as [[y mo] d].
  destruct (drop_alternate _ (w_fields w0) (le_n _) [] (length (w_fields w0)) ND (le_n _)) as [s [E A]]. cbn [app length] in E.
  enough (X : w_fields w1 = s) by (rewrite X; exact A). rewrite <- E.
  unfold mbind at 1 in H. unfold mbind at 1 in H.
  destruct (on_dbf (f_seek 0) w0) as [w2 [u|e]] eqn:E2; [|unfold on_dbf, zoom, f_seek in E2; cbn in E2; discriminate].
  pose proof (fk_dbf _ _ _ _ E2) as F2. unfold mbind at 1 in H. unfold modify in H.
  set (w3 := w_set_fields (drop_deletion (length (w_fields w2)) 0 (w_fields w2)) w2) in *.
  assert (F3 : w_fields w3 = drop_deletion (length (w_fields w2)) 0 (w_fields w2)) by reflexivity. rewrite F2 in F3. clearbody w3.
  rewrite <- F3.
  match type of H with (match ?m w3 with _ => _ end) = _ => assert (K : fkeeps m) by (cbv zeta; fk_tac); destruct (m w3) as [w4 [u4|e4]] eqn:E4 end.
  - rewrite <- (K _ _ _ E4). assert (K2 : fkeeps (dbf_records fr)) by (unfold dbf_records; fk_tac). apply (K2 _ _ _ H).
  - apply pair_inv in H. destruct H as [<- _]. apply (K _ _ _ E4).
Qed.

(** ** Adding a row *)
Lemma width_ok w n : row_width (w_fields w) n -> exists f0, py_get (w_fields w) 0 = Ok f0 /\ (if is_deletion f0 then Nat.pred (length (w_fields w)) else length (w_fields w)) = n.
Proof.
  intros [f [r [E H]]]. exists f. rewrite E. split; [reflexivity|]. destruct H as [[D ->]|[D ->]].
  - rewrite (proj2 (is_deletion_spec f) D). reflexivity.
  - destruct (is_deletion f) eqn:X; [apply is_deletion_spec in X; contradiction|]. rewrite E. reflexivity.
Qed.
Lemma width_some w : w_fields w <> [] -> exists n, row_width (w_fields w) n.
Proof.
  intros N. destruct (w_fields w) as [|f r]; [contradiction|]. destruct (is_deletion f) eqn:D.
  - apply is_deletion_spec in D. exists (length r), f, r. auto.
  - exists (Datatypes.S (length r)), f, r. split; [reflexivity|]. right. split; [|reflexivity]. intros X. apply is_deletion_spec in X. congruence.
Qed.
Lemma record_none args w : w_fields w = [] -> record args w = (w, Err IndexError).
Proof. intros E. unfold record, mbind, get, lift. rewrite E. reflexivity. Qed.
Lemma get_short {A} (l : list A) n : (length l < n)%nat -> mapM (fun i => py_get l (Z.of_nat i)) (seq 0 n) = Err IndexError.
Proof.
  intros L. assert (G : forall m (pre l' : list A), (length l' < m)%nat -> mapM (fun i => py_get (pre ++ l') (Z.of_nat i)) (seq (length pre) m) = Err IndexError).
  { clear. induction m as [|m IH]; intros pre l' L; [lia|]. cbn [seq mapM]. destruct l' as [|x l'].
    - unfold py_get. rewrite app_nil_r. destruct (Z.ltb_spec (Z.of_nat (length pre)) 0); [lia|].
      destruct (Z.ltb_spec (Z.of_nat (length pre)) (Z.of_nat (length pre))); [lia|]. rewrite andb_false_r. reflexivity.
    - assert (E : py_get (pre ++ x :: l') (Z.of_nat (length pre)) = Ok x).
      { unfold py_get. destruct (Z.ltb_spec (Z.of_nat (length pre)) 0); [lia|].
        replace (0 <=? Z.of_nat (length pre)) with true by (symmetry; apply Z.leb_le; lia).
        replace (Z.of_nat (length pre) <? Z.of_nat (length (pre ++ x :: l'))) with true by (symmetry; apply Z.ltb_lt; rewrite app_length; cbn [length]; lia).
        rewrite Nat2Z.id, nth_error_app2, Nat.sub_diag by lia. reflexivity. }
      rewrite E. cbn [bind]. specialize (IH (pre ++ [x]) l' ltac:(cbn in L; lia)). rewrite <- app_assoc, app_length, Nat.add_comm in IH. cbn [app length Nat.add] in IH.
      rewrite IH. reflexivity. }
  apply (G n [] l L).
Qed.
Lemma record_list l w n : row_width (w_fields w) n -> l <> [] ->
  ((n <= length l)%nat -> record (RecList l) w = (match n with O => w | _ => w_set_records (w_records w ++ [firstn n l]) w end, Ok tt)) /\
  ((length l < n)%nat -> record (RecList l) w = (w, Err IndexError)).
Proof.
  intros W NE. destruct (width_ok w n W) as [f0 [G L]]. unfold record, mbind, get, lift. rewrite G, L. cbv zeta.
  destruct l as [|c l]; [contradiction|]. split; intros H.
  - rewrite (get_seq (c :: l) n H [] : mapM (fun i => py_get (c :: l) (Z.of_nat i)) (seq 0 n) = _). unfold modify. destruct n; reflexivity.
  - rewrite (get_short (c :: l) n H). reflexivity.
Qed.
Lemma record_nothing w n : row_width (w_fields w) n -> record (RecList []) w = (w, Ok tt).
Proof. intros W. destruct (width_ok w n W) as [f0 [G L]]. unfold record, mbind, get, lift. rewrite G. reflexivity. Qed.
Lemma dict_row_named d fs row : NoDup (map fst d) -> named_row d fs row -> dict_row fs d = row.
Proof.
  intros N H. unfold dict_row. induction H as [|f fs o row I H IH|f fs row I H IH]; [reflexivity| |]; cbn [flat_map].
  - rewrite (dict_find_in d _ o N I), IH. destruct o; reflexivity.
  - rewrite dict_find_none, IH; [reflexivity|]. apply Forall_forall. intros e He E. apply I. rewrite <- E. apply in_map, He.
Qed.
Lemma record_dict d w n row : row_width (w_fields w) n -> NoDup (map fst d) -> named_row d (w_fields w) row ->
  record (RecDict d) w = (match row with [] => w | _ => w_set_records (w_records w ++ [row]) w end, Ok tt).
Proof.
  intros W N R. destruct (width_ok w n W) as [f0 [G _]]. unfold record, mbind, get, lift. rewrite G. cbv zeta.
  pose proof (dict_row_named d _ row N R) as E. unfold dict_row in E. rewrite E. reflexivity.
Qed.
Lemma named_total d fs : exists row, named_row d fs row.
Proof.
  induction fs as [|f fs [row IH]]; [exists []; constructor|].
  destruct (in_dec (list_eq_dec Z.eq_dec) (fd_name f) (map fst d)) as [I|I].
  - apply in_map_iff in I. destruct I as [[k o] [E I]]. cbn in E. subst k. eexists. apply nr_given; eassumption.
  - exists row. apply nr_missing; assumption.
Qed.
