(** Proofs about shapefile.Editor: adding points, balancing, programs. *)
From Verif Require Import Py ShpFile ShpWriterModel ShpReaderModel ShpSpec ShpPrograms ShpTablePrograms ShpSave ShpSuccess ShpEditorModel ShpEditorSpec ShpEditor.
Open Scope Z_scope.
Open Scope m_scope.

Lemma w_eta w : w_set_shapes (w_shapes w) (w_set_shapes [] w) = w.
Proof. destruct w. reflexivity. Qed.
Lemma e_eta e : mkEditor (e_auto e) (e_items e) (e_w e) = e. Proof. destruct e. reflexivity. Qed.

(** ** balance *)
Definition rows_in (e : editor) : nat := length (w_records (e_w e)).
Lemma balance_run e :
  balance e =
    if (length (e_items e) <? rows_in e)%nat then (e_set_items (e_items e ++ [EShape (new_shape (Some 0))]) e, Ok tt)
    else (e, if (rows_in e <? length (e_items e))%nat then match w_fields (e_w e) with [] => Err IndexError | _ => Ok tt end else Ok tt).
Proof.
  unfold balance, mbind, get, rows_in. destruct (_ <? _)%nat eqn:A.
  - unfold inherited, null, modify. cbn [w_set_shapes w_shapes w_type w_fields w_records app map].
    unfold e_set_items. do 2 f_equal. destruct e as [au it w]. destruct w. reflexivity.
  - destruct (length (w_records (e_w e)) <? length (e_items e))%nat eqn:B; [|reflexivity].
    unfold inherited, record, mbind, get, lift. destruct e as [au it w]. destruct w as [wt ws wf wr wo wl a b c d]. cbn [e_w w_set_shapes w_fields].
    destruct wf as [|f fs].
    + cbn. rewrite app_nil_r. reflexivity.
    + replace (py_get (f :: fs) 0) with (Ok f) by (symmetry; exact (py_get_at [] f fs 0 (or_introl eq_refl))).
      unfold modify. cbn. rewrite app_nil_r. reflexivity.
Qed.

(** ** point *)
Definition with_point (x y : dbl) (z m : option dbl) (e : editor) : editor :=
  e_set_items (e_items e ++ [EPoint (w_type (e_w e)) x y z m]) e.
Lemma edit_point_plain x y z m e shape part point : absent part -> absent point -> (absent shape \/ exists i v, shape = Some i /\ py_get (e_items e) i = Ok v) ->
  edit_point x y z m shape part point None e = (when (e_auto e) balance) (with_point x y z m e).
Proof.
  intros P Q S. unfold edit_point. assert (R : point_at x y z m shape part point e = (e, Ok tt)).
  { unfold point_at. rewrite (absent_falsy _ P), (absent_falsy _ Q). destruct S as [S|[i [v [-> G]]]].
    - rewrite (absent_falsy _ S). reflexivity.
    - destruct (truthy (Some i)); [|reflexivity]. unfold ensure_shape, on_index_error, mbind, get, lift. cbn [val]. rewrite G. reflexivity. }
  unfold mbind at 1. rewrite R. reflexivity.
Qed.
Lemma point_run x y z m e shape part point : absent part -> absent point -> (absent shape \/ exists i v, shape = Some i /\ py_get (e_items e) i = Ok v) ->
  edit_point x y z m shape part point None e =
    if e_auto e then
      if (length (e_items e) + 1 <? rows_in e)%nat then (e_set_items (e_items (with_point x y z m e) ++ [EShape (new_shape (Some 0))]) e, Ok tt)
      else (with_point x y z m e, if (rows_in e <? length (e_items e) + 1)%nat then match w_fields (e_w e) with [] => Err IndexError | _ => Ok tt end else Ok tt)
    else (with_point x y z m e, Ok tt).
Proof.
  intros P Q S. rewrite (edit_point_plain x y z m e shape part point P Q S). unfold when. destruct (e_auto e); [|reflexivity].
  rewrite balance_run. unfold rows_in, with_point. cbn [e_items e_set_items e_w]. rewrite app_length. cbn [length]. reflexivity.
Qed.
(** Shapes are never changed, only added. *)
Lemma py_get_ext {A} (l : list A) i x : py_get l i = Err IndexError -> i = Z.of_nat (length l) -> py_get (l ++ [x]) i = Ok x.
Proof. intros _ ->. apply py_get_at. left. reflexivity. Qed.
Definition grows (e e' : editor) : Prop := exists more, e_items e' = e_items e ++ more.
Lemma grows_refl e : grows e e. Proof. exists []. rewrite app_nil_r. reflexivity. Qed.
Lemma balance_grows e : grows e (fst (balance e)).
Proof. rewrite balance_run. destruct (_ <? _)%nat; [|apply grows_refl]. eexists. reflexivity. Qed.

(** An edit of a list at the end *)
Definition tail_ok (n : nat) (l : list elem) (e : editor) : Prop := exists more, e_items e = l ++ more /\ Forall ordinary l /\ length l = n.
Lemma set_nth_beyond {A} (l more : list A) k x : (length l <= k)%nat -> exists more', set_nth k x (l ++ more) = l ++ more'.
Proof.
  revert k. induction l as [|a l IH]; intros k H; [eexists; reflexivity|]. cbn [length] in H. destruct k as [|k]; [lia|]. cbn [app set_nth].
  destruct (IH k ltac:(lia)) as [m E]. exists m. rewrite E. reflexivity.
Qed.
Lemma in_item_tail {B} i (m : M _ B) l n e : tail_ok n l e -> tail_ok n l (fst (in_item i m e)).
Proof.
  intros [more [E [F L]]]. unfold in_item. destruct (py_get (e_items e) i) as [v|] eqn:G; [|exists more; split; [exact E|split; assumption]].
  destruct v as [s|t x y z k|v]; try (exists more; split; [exact E|split; assumption]).
  destruct (m v) as [v' r]. cbn [fst]. unfold py_set, py_get in *. set (j := if i <? 0 then _ else _) in *.
  destruct ((0 <=? j) && (j <? Z.of_nat (length (e_items e)))) eqn:R; [|exists more; split; [exact E|split; assumption]].
  cbn [e_set_items e_items]. destruct (nth_error (e_items e) (Z.to_nat j)) as [w|] eqn:N; [|discriminate]. injection G as ->.
  destruct (le_lt_dec (length l) (Z.to_nat j)) as [LE|LT].
  - destruct (set_nth_beyond l more (Z.to_nat j) (EList v') LE) as [more' E']. exists more'. cbn [e_items]. rewrite E. split; [exact E'|split; assumption].
  - exfalso. rewrite E, nth_error_app1 in N by assumption. rewrite Forall_forall in F. exact (F _ (nth_error_In _ _ N)).
Qed.
Lemma bind_tail {A B} l n (m : M editor A) (k : A -> M editor B) : (forall e, tail_ok n l e -> tail_ok n l (fst (m e))) ->
  (forall a e, tail_ok n l e -> tail_ok n l (fst (k a e))) -> forall e, tail_ok n l e -> tail_ok n l (fst (mbind m k e)).
Proof.
  intros H K e T. unfold mbind. specialize (H e T). destruct (m e) as [e1 [a|x]]; [|exact H]. apply K. exact H.
Qed.
Lemma each_tail {A} l n (f : A -> M editor unit) xs : (forall x e, tail_ok n l e -> tail_ok n l (fst (f x e))) ->
  forall e, tail_ok n l e -> tail_ok n l (fst (for_each f xs e)).
Proof. intros H. induction xs as [|x xs IH]; cbn [for_each]; [auto|]. apply bind_tail; [apply H|intros _; exact IH]. Qed.
Lemma append_tail l n more e : tail_ok n l e -> tail_ok n l (e_set_items (e_items e ++ more) e).
Proof. intros [m [E R]]. exists (m ++ more). cbn [e_items e_set_items]. rewrite E, app_assoc. split; [reflexivity|exact R]. Qed.
Lemma ensure_shape_tail i l n e : tail_ok n l e -> tail_ok n l (fst (ensure_shape i e)).
Proof.
  intros T. unfold ensure_shape, on_index_error, mbind, get, lift. destruct (py_get_res (e_items e) i) as [[v G]|G]; rewrite G; [exact T|].
  unfold modify. cbn [fst]. apply append_tail, T.
Qed.
Lemma on_index_tail l n (m h : M editor unit) : (forall e, tail_ok n l e -> tail_ok n l (fst (m e))) -> (forall e, tail_ok n l e -> tail_ok n l (fst (h e))) ->
  forall e, tail_ok n l e -> tail_ok n l (fst (on_index_error m h e)).
Proof.
  intros H K e T. unfold on_index_error. specialize (H e T). destruct (m e) as [e1 [a|x]]; [exact H|]. cbn in H. destruct x; try exact H. apply K, H.
Qed.
Lemma point_at_tail x y z m shape part point l n e : tail_ok n l e -> tail_ok n l (fst (point_at x y z m shape part point e)).
Proof.
  revert e. unfold point_at. destruct (truthy shape), (truthy part), (truthy point); try (intros e T; exact T); intros e T.
  - revert e T. apply bind_tail; [intros e; apply ensure_shape_tail|intros _]. apply bind_tail; [apply on_index_tail; intros e; apply in_item_tail|intros _].
    apply bind_tail; [apply on_index_tail; intros e; apply in_item_tail|intros _]. intros e. apply in_item_tail.
  - revert e T. apply bind_tail; [intros e; apply ensure_shape_tail|intros _]. apply bind_tail; [apply on_index_tail; intros e; apply in_item_tail|intros _].
    apply bind_tail; [intros e; apply in_item_tail|intros k]. apply each_tail. intros i e. apply in_item_tail.
  - apply ensure_shape_tail, T.
Qed.
Lemma edit_point_tail x y z m shape part point addr l n : forall e, tail_ok n l e -> tail_ok n l (fst (edit_point x y z m shape part point addr e)).
Proof.
  unfold edit_point. apply bind_tail; [intros e0; apply point_at_tail|intros _]. apply bind_tail.
  - destruct addr as [[[i j] k]|]; [intros e0; apply in_item_tail|]. intros e0 T. unfold modify. cbn [fst]. apply append_tail, T.
  - intros _. apply bind_tail; [intros e0 T; exact T|]. intros e1 e0 T. unfold when. destruct (e_auto e1); [|exact T].
    rewrite balance_run. destruct (_ <? _)%nat; cbn [fst]; [apply append_tail, T|exact T].
Qed.
Lemma edit_point_grows x y z m shape part point addr e : Forall ordinary (e_items e) -> grows e (fst (edit_point x y z m shape part point addr e)).
Proof.
  intros F. assert (T : tail_ok (length (e_items e)) (e_items e) e) by (exists []; rewrite app_nil_r; split; [reflexivity|split; [exact F|reflexivity]]).
  destruct (edit_point_tail x y z m shape part point addr _ _ e T) as [more [E _]]. exists more. exact E.
Qed.
(** Changing a point of a shape is refused. *)
Lemma edit_shape_refused x y z m i j point addr e v : Forall ordinary (e_items e) -> i <> 0 -> j <> 0 -> py_get (e_items e) i = Ok v ->
  edit_point x y z m (Some i) (Some j) point addr e = (e, Err TypeError).
Proof.
  intros F I J G. unfold edit_point, mbind at 1. unfold point_at. rewrite (some_truthy i I), (some_truthy j J). cbn [val].
  assert (E1 : ensure_shape i e = (e, Ok tt)) by (unfold ensure_shape, on_index_error, mbind, get, lift; rewrite G; reflexivity).
  assert (O : ordinary v) by (rewrite Forall_forall in F; exact (F _ (py_get_In _ _ _ G))).
  assert (E2 : ensure_part i j e = (e, Err TypeError)).
  { unfold ensure_part, on_index_error, in_item. rewrite G. destruct v; cbn in O; [reflexivity|reflexivity|contradiction]. }
  destruct (truthy point); unfold mbind at 1; rewrite E1; unfold mbind at 1; rewrite E2; reflexivity.
Qed.
Lemma edit_addr_refused x y z m i j k e v : Forall ordinary (e_items e) -> py_get (e_items e) i = Ok v ->
  edit_point x y z m None None None (Some (i, j, k)) e = (e, Err TypeError).
Proof.
  intros F G. assert (O : ordinary v) by (rewrite Forall_forall in F; exact (F _ (py_get_In _ _ _ G))).
  unfold edit_point, mbind at 1, point_at. cbn [truthy]. unfold ret. unfold mbind at 1. unfold in_item. rewrite G.
  destruct v; cbn in O; [reflexivity|reflexivity|contradiction].
Qed.

(** ** Programs: an Editor is a Writer *)
Definition agrees (e : editor) (w : writer) : Prop := plain (e_items e) = Some (w_shapes w) /\ w_set_shapes [] (e_w e) = w_set_shapes [] w.
Lemma plain_app a b : plain (a ++ b) = match plain a, plain b with Some x, Some y => Some (x ++ y) | _, _ => None end.
Proof.
  induction a as [|x a IH]; cbn [app plain]; [destruct (plain b); reflexivity|].
  destruct x as [s|t x y [z|] [m|]|l]; rewrite ?IH; try reflexivity; destruct (plain a), (plain b); reflexivity.
Qed.
Lemma plain_shapes ss : plain (map EShape ss) = Some ss.
Proof. induction ss as [|s ss IH]; [reflexivity|]. cbn [map plain]. rewrite IH. reflexivity. Qed.
Lemma set_set a b w : w_set_shapes a (w_set_shapes b w) = w_set_shapes a w. Proof. destruct w. reflexivity. Qed.
Lemma set_same w : w_set_shapes (w_shapes w) w = w. Proof. destruct w. reflexivity. Qed.
(** A method that appends to the shapes, whatever they are *)
Definition appends (m : M writer unit) : Prop := forall w, exists more w' r, m (w_set_shapes [] w) = (w_set_shapes more w', r) /\ m w = (w_set_shapes (w_shapes w ++ more) w', r).
Lemma inherited_agrees m e w : appends m -> agrees e w ->
  agrees (fst (inherited m e)) (fst (m w)) /\ snd (inherited m e) = snd (m w).
Proof.
  intros A [P Q]. destruct (A w) as [more [w' [r [E1 E2]]]]. unfold inherited. rewrite Q, E1, E2. cbn [fst snd]. split; [|reflexivity].
  split; cbn [e_items e_w w_shapes w_set_shapes].
  - rewrite plain_app, P, plain_shapes. reflexivity.
  - destruct w'. reflexivity.
Qed.
Lemma appends_step s : appends (do_step s).
Proof.
  intros w. destruct s as [[x y z m|parts t|parts t|]|f|a].
  - exists [set_points [[x; y; z; m]] (new_shape (w_type w))], w, (Ok tt). destruct w. split; reflexivity.
  - cbn [do_step do_call]. unfold line, poly, mbind, lift. destruct (if type_in _ _ then _ else _) as [ps|x]; [|exists [], w, (Err x); rewrite app_nil_r; split; [destruct w; reflexivity|rewrite set_same; reflexivity]].
    destruct (fold_left collect ps ([], [])) as [st pts]. destruct (t =? 31).
    + eexists _, w, (Ok tt). destruct w; split; reflexivity.
    + eexists _, w, (Ok tt). destruct w; split; reflexivity.
  - cbn [do_step do_call]. unfold poly, mbind, lift. destruct (if type_in _ _ then _ else _) as [ps|x]; [|exists [], w, (Err x); rewrite app_nil_r; split; [destruct w; reflexivity|rewrite set_same; reflexivity]].
    destruct (fold_left collect ps ([], [])) as [st pts]. destruct (t =? 31).
    + unfold modify, ret. cbn [w_default w_set_shapes]. destruct (w_default w) eqn:D.
      * eexists _, (w_set_default _ w), (Ok tt). destruct w; split; reflexivity.
      * eexists _, w, (Ok tt). destruct w; split; reflexivity.
    + eexists _, w, (Ok tt). destruct w; split; reflexivity.
  - exists [new_shape (Some 0)], w, (Ok tt). destruct w. split; reflexivity.
  - exists [], (w_set_fields (w_fields w ++ [mkField (fd_name f) (fd_type f) (fd_size f) (fd_dec f)]) w), (Ok tt). rewrite app_nil_r. destruct w. split; reflexivity.
  - cbn [do_step]. unfold record, mbind, get, lift. cbn [w_fields w_set_shapes].
    destruct (py_get (w_fields w) 0) as [f0|x]; [|exists [], w, (Err x); rewrite app_nil_r; split; [destruct w; reflexivity|rewrite set_same; reflexivity]].
    match goal with |- context [match ?r with Ok _ => _ | Err _ => _ end] => destruct r as [row|x] end; [|exists [], w, (Err x); rewrite app_nil_r; split; [destruct w; reflexivity|rewrite set_same; reflexivity]].
    unfold modify. destruct row as [|c row].
    + exists [], w, (Ok tt). rewrite app_nil_r. destruct w. split; reflexivity.
    + exists [], (w_set_records (w_records w ++ [c :: row]) w), (Ok tt). rewrite app_nil_r. destruct w. split; reflexivity.
Qed.
Lemma plain_length l ss : plain l = Some ss -> length l = length ss.
Proof.
  revert ss. induction l as [|x l IH]; intros ss; cbn [plain]; [intros [= <-]; reflexivity|].
  destruct x as [s|t x y [z|] [m|]|v]; try discriminate; destruct (plain l); try discriminate; cbn; intros [= <-]; cbn; rewrite (IH _ eq_refl); reflexivity.
Qed.
Lemma agrees_parts e w : agrees e w -> w_type (e_w e) = w_type w /\ w_fields (e_w e) = w_fields w /\ w_records (e_w e) = w_records w /\ length (e_items e) = length (w_shapes w).
Proof.
  intros [P Q]. rewrite (plain_length _ _ P). destruct w as [a b c d x f g h i j]. destruct (e_w e) as [a' b' c' d' x' f' g' h' i' j']. cbn in *.
  injection Q as -> -> -> -> -> -> -> -> ->. repeat split; reflexivity.
Qed.
Lemma point_agrees x y z m e w : agrees e w -> agrees (with_point x y (Some z) (Some m) e) (fst (point x y z m w)).
Proof.
  intros A. destruct (agrees_parts _ _ A) as [T _]. destruct A as [P Q]. split; cbn [e_items with_point e_set_items].
  - rewrite plain_app, P, T. cbn. destruct w. reflexivity.
  - unfold with_point. cbn [e_w e_set_items]. rewrite Q. destruct w. reflexivity.
Qed.
(** A null shape is put behind a point that leaves fewer shapes than rows. *)
Lemma null_agrees e w : agrees e w -> agrees (e_set_items (e_items e ++ [EShape (new_shape (Some 0))]) e) (fst (null w)).
Proof. intros [P Q]. split; cbn [e_items e_set_items]; [rewrite plain_app, P; cbn; destruct w; reflexivity|]. cbn [e_w e_set_items]. rewrite Q. destruct w. reflexivity. Qed.
Lemma edit_step s e w : agrees e w -> e_auto e = false ->
  agrees (fst (do_edit s e)) (fst (do_step s w)) /\ snd (do_edit s e) = snd (do_step s w) /\ e_auto (fst (do_edit s e)) = false.
Proof.
  intros A U. assert (I : agrees (fst (inherited (do_step s) e)) (fst (do_step s w)) /\ snd (inherited (do_step s) e) = snd (do_step s w) /\ e_auto (fst (inherited (do_step s) e)) = false).
  { destruct (inherited_agrees _ e w (appends_step s) A) as [B C]. split; [exact B|]. split; [exact C|].
    unfold inherited. destruct (do_step s (w_set_shapes [] (e_w e))). exact U. }
  destruct s as [[x y z m|parts t|parts t|]|f|a]; try exact I. clear I. cbn [do_edit].
  rewrite (point_run x y (Some z) (Some m) e None None None) by (first [left; reflexivity|left; left; reflexivity]). rewrite U. cbn [fst snd].
  split; [apply point_agrees, A|]. split; [reflexivity|exact U].
Qed.
Lemma edits_agree steps : forall e w, agrees e w -> e_auto e = false ->
  agrees (fst (for_each do_edit steps e)) (fst (for_each do_step steps w)) /\ snd (for_each do_edit steps e) = snd (for_each do_step steps w).
Proof.
  induction steps as [|s steps IH]; intros e w A U; [split; [exact A|reflexivity]|]. cbn [for_each]. unfold mbind.
  destruct (edit_step s e w A U) as [B [C D]]. destruct (do_edit s e) as [e1 r1]. destruct (do_step s w) as [w1 r]. cbn [fst snd] in *. subst r1.
  destruct r as [[]|x]; [apply IH; assumption|]. split; [exact B|reflexivity].
Qed.
Lemma edits_agree_auto steps : forall e w e1, agrees e w -> e_auto e = true -> for_each do_edit steps e = (e1, Ok tt) ->
  exists steps' w1, with_nulls steps steps' /\ for_each do_step steps' w = (w1, Ok tt) /\ agrees e1 w1.
Proof.
  induction steps as [|s steps IH]; intros e w e1 A U R.
  - injection R as <-. exists [], w. split; [constructor|]. split; [reflexivity|exact A].
  - cbn [for_each] in R. destruct (mbind_ok _ _ _ _ _ R) as [e2 [[] [R1 R2]]].
    assert (I : do_edit s e = inherited (do_step s) e -> exists steps' w1, with_nulls (s :: steps) steps' /\ for_each do_step steps' w = (w1, Ok tt) /\ agrees e1 w1).
    { intros DE. destruct (inherited_agrees _ e w (appends_step s) A) as [B C]. rewrite <- DE, R1 in B, C. cbn [fst snd] in *.
      destruct (do_step s w) as [w2 r2] eqn:DS. cbn [fst snd] in *. subst r2.
      assert (U2 : e_auto e2 = true).
      { rewrite DE in R1. unfold inherited in R1. destruct (do_step s (w_set_shapes [] (e_w e))) as [w3 r3]. injection R1 as <- _. exact U. }
      destruct (IH e2 w2 e1 B U2 R2) as [steps' [w1 [W [RW AW]]]]. exists (s :: steps'), w1. split; [constructor; exact W|]. split; [|exact AW].
      cbn [for_each]. unfold mbind. rewrite DS. exact RW. }
    destruct s as [[x y z m|parts t|parts t|]|f|a]; try exact (I eq_refl). clear I.
    cbn [do_edit] in R1. rewrite (point_run x y (Some z) (Some m) e None None None) in R1 by (first [left; reflexivity|left; left; reflexivity]). rewrite U in R1.
    pose proof (point_agrees x y z m e w A) as PA. unfold point, modify in PA. cbn [fst] in PA. set (w2 := w_set_shapes _ w) in PA.
    assert (DP : do_step (Shape (Point x y z m)) w = (w2, Ok tt)) by reflexivity.
    destruct (length (e_items e) + 1 <? rows_in e)%nat.
    + injection R1 as <-. pose proof (null_agrees _ _ PA) as NA. unfold null, modify in NA. cbn [fst] in NA. set (w3 := w_set_shapes _ w2) in NA.
      assert (DN : do_step (Shape Null) w2 = (w3, Ok tt)) by reflexivity.
      destruct (IH _ w3 e1 NA U R2) as [steps' [w1 [W [RW AW]]]].
      exists (Shape (Point x y z m) :: Shape Null :: steps'), w1. split; [apply wn_null, W|]. split; [|exact AW].
      cbn [for_each]. unfold mbind. rewrite DP, DN. exact RW.
    + destruct (if (rows_in e <? _)%nat then _ else _) as [[]|x0] eqn:RR; [|discriminate]. injection R1 as <-.
      destruct (IH _ w2 e1 PA U R2) as [steps' [w1 [W [RW AW]]]].
      exists (Shape (Point x y z m) :: steps'), w1. split; [apply wn_keep, W|]. split; [|exact AW]. cbn [for_each]. unfold mbind. rewrite DP. exact RW.
Qed.
(** Saving *)
Lemma as_writer_agrees m e w : agrees e w -> exists ss, plain (e_items e) = Some ss /\
  agrees (fst (as_writer ss m e)) (fst (m w)) /\ snd (as_writer ss m e) = snd (m w).
Proof.
  intros [P Q]. exists (w_shapes w). split; [exact P|]. unfold as_writer.
  replace (w_set_shapes (w_shapes w) (e_w e)) with w.
  2: { transitivity (w_set_shapes (w_shapes w) (w_set_shapes [] (e_w e))); [rewrite Q, set_set, set_same; reflexivity|apply set_set]. }
  destruct (m w) as [w1 r]. split; [|reflexivity]. split; cbn [fst e_items e_w]; [apply plain_shapes|apply set_set].
Qed.
(** saveDbf does not look at the shapes *)
Definition blind {A} (m : M writer A) : Prop := forall w ss, m (w_set_shapes ss w) = (w_set_shapes ss (fst (m w)), snd (m w)).
Lemma blind_bind {A B} (m : M writer A) (k : A -> M writer B) : blind m -> (forall a, blind (k a)) -> blind (mbind m k).
Proof. intros H K w ss. unfold mbind. rewrite H. destruct (m w) as [w1 [a|x]]; cbn [fst snd]; [apply K|reflexivity]. Qed.
Lemma blind_get {B} (k : writer -> M writer B) : (forall w ss, k (w_set_shapes ss w) = k w) -> (forall w, blind (k w)) -> blind (mbind get k).
Proof. intros H K w ss. unfold mbind, get. rewrite H. apply K. Qed.
Lemma blind_lift {A} (r : res A) : blind (lift r). Proof. intros w ss. reflexivity. Qed.
Lemma blind_on_dbf {A} (m : M file A) : blind (on_dbf m).
Proof. intros w ss. unfold on_dbf, zoom. destruct w. cbn. destruct (m _). reflexivity. Qed.
Lemma blind_each {A} (f : A -> M writer unit) l : (forall x, blind (f x)) -> blind (for_each f l).
Proof. intros H. induction l; cbn [for_each]; [intros w ss; reflexivity|]. apply blind_bind; [apply H|intros _; assumption]. Qed.
Lemma blind_when c m : blind m -> blind (when c m).
Proof. intros H. destruct c; [exact H|]. intros w ss. reflexivity. Qed.
Lemma blind_saveDbf fr today f : blind (saveDbf fr today f).
Proof.
  unfold saveDbf. apply blind_bind; [intros w ss; destruct w; reflexivity|intros _]. apply blind_bind.
  - unfold dbf_header. destruct today as [[y mo] d]. apply blind_bind; [apply blind_on_dbf|intros _].
    apply blind_bind; [intros w ss; destruct w; reflexivity|intros _]. apply blind_get; [intros w ss; destruct w; reflexivity|intros w].
    apply blind_bind; [apply blind_lift|intros sizes]. apply blind_bind; [apply blind_lift|intros h]. apply blind_bind; [apply blind_on_dbf|intros _].
    apply blind_bind; [apply blind_each; intros; apply blind_on_dbf|intros _]. apply blind_on_dbf.
  - intros _. unfold dbf_records. apply blind_get; [intros w ss; destruct w; reflexivity|intros w]. apply blind_each. intros r.
    apply blind_bind; [apply blind_lift|intros f0]. apply blind_bind; [apply blind_when, blind_on_dbf|intros _].
    apply blind_each. intros; apply blind_on_dbf.
Qed.
Lemma blind_shapes {A} (m : M writer A) w : blind m -> w_shapes (fst (m w)) = w_shapes w.
Proof. intros B. rewrite <- (set_same w) at 1. rewrite B. cbn [fst]. destruct (fst (m w)). reflexivity. Qed.
Lemma saveDbf_agrees fr today f e w : agrees e w ->
  agrees (fst (e_saveDbf fr today f e)) (fst (saveDbf fr today f w)) /\ snd (e_saveDbf fr today f e) = snd (saveDbf fr today f w).
Proof.
  intros [P Q]. unfold e_saveDbf, zoom.
  pose proof (blind_saveDbf fr today f (e_w e) []) as B1. pose proof (blind_saveDbf fr today f w []) as B2.
  pose proof (blind_shapes _ w (blind_saveDbf fr today f)) as BS. rewrite Q in B1. rewrite B1 in B2.
  destruct (saveDbf fr today f (e_w e)) as [w1 r1]. destruct (saveDbf fr today f w) as [w2 r2]. cbn [fst snd] in *.
  apply pair_inv in B2 as [B2 B3]. split; [|exact B3]. split; cbn [e_items e_set_w e_w]; [congruence|exact B2].
Qed.
Lemma save_agrees fr today a b c e w : agrees e w ->
  agrees (fst (e_save fr today a b c e)) (fst (save fr today a b c w)) /\ snd (e_save fr today a b c e) = snd (save fr today a b c w).
Proof.
  intros A. unfold e_save, save.
  assert (S1 : forall e w, agrees e w -> agrees (fst (e_saveShp a e)) (fst (saveShp a w)) /\ snd (e_saveShp a e) = snd (saveShp a w)).
  { intros e0 w0 A0. destruct (as_writer_agrees (saveShp a) e0 w0 A0) as [ss [P R]]. replace (e_saveShp a e0) with (as_writer ss (saveShp a) e0); [exact R|]. unfold e_saveShp, mbind at 1, get. rewrite P. reflexivity. }
  assert (S2 : forall e w, agrees e w -> agrees (fst (e_saveShx b e)) (fst (saveShx b w)) /\ snd (e_saveShx b e) = snd (saveShx b w)).
  { intros e0 w0 A0. destruct (as_writer_agrees (saveShx b) e0 w0 A0) as [ss [P R]]. replace (e_saveShx b e0) with (as_writer ss (saveShx b) e0); [exact R|]. unfold e_saveShx, mbind at 1, get. rewrite P. reflexivity. }
  unfold mbind. destruct (S1 e w A) as [A1 R1]. destruct (e_saveShp a e) as [e1 x1]. destruct (saveShp a w) as [w1 y1]. cbn [fst snd] in *. subst y1.
  destruct x1 as [[]|x]; [|split; [exact A1|reflexivity]].
  destruct (S2 e1 w1 A1) as [A2 R2]. destruct (e_saveShx b e1) as [e2 x2]. destruct (saveShx b w1) as [w2 y2]. cbn [fst snd] in *. subst y2.
  destruct x2 as [[]|x]; [|split; [exact A2|reflexivity]].
  apply saveDbf_agrees, A2.
Qed.
