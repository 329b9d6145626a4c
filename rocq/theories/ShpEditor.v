(** Proofs about shapefile.Editor: deleting, adding points, balancing. *)
From Verif Require Import Py ShpFile ShpWriterModel ShpReaderModel ShpSave ShpSuccess ShpEditorModel ShpEditorSpec.
Open Scope Z_scope.
Open Scope m_scope.

Lemma absent_falsy o : absent o -> truthy o = false.
Proof. intros [-> | ->]; reflexivity. Qed.
Lemma some_truthy z : z <> 0 -> truthy (Some z) = true.
Proof. intros H. cbn. destruct (z =? 0) eqn:E; [apply Z.eqb_eq in E; contradiction|reflexivity]. Qed.

(** ** py_del *)
Lemma py_del_at {A} (a : list A) x b i : i = Z.of_nat (length a) \/ i = - 1 - Z.of_nat (length b) -> py_del (a ++ x :: b) i = Ok (a ++ b).
Proof.
  intros H. unfold py_del. rewrite app_length. cbn [length].
  set (j := if i <? 0 then _ else _).
  assert (J : j = Z.of_nat (length a)).
  { subst j. destruct H as [-> | ->].
    - destruct (Z.ltb_spec (Z.of_nat (length a)) 0); lia.
    - destruct (Z.ltb_spec (- 1 - Z.of_nat (length b)) 0); lia. }
  rewrite J. replace (_ && _) with true.
  2: { symmetry. apply andb_true_intro. split; [apply Z.leb_le|apply Z.ltb_lt]; lia. }
  rewrite Nat2Z.id, firstn_app, firstn_all, Nat.sub_diag, app_nil_r.
  rewrite skipn_app, skipn_all2 by lia. replace (S (length a) - length a)%nat with 1%nat by lia. reflexivity.
Qed.
Lemma py_del_out {A} (l : list A) i : Z.of_nat (length l) <= i \/ i < - Z.of_nat (length l) -> py_del l i = Err IndexError.
Proof.
  intros H. unfold py_del. replace (_ && _) with false; [reflexivity|]. symmetry. apply andb_false_iff.
  destruct (Z.ltb_spec i 0); [left; apply Z.leb_gt|right; apply Z.ltb_ge]; lia.
Qed.
Lemma py_get_out {A} (l : list A) i : Z.of_nat (length l) <= i \/ i < - Z.of_nat (length l) -> py_get l i = Err IndexError.
Proof.
  intros H. unfold py_get. set (j := if i <? 0 then _ else _).
  destruct ((0 <=? j) && (j <? Z.of_nat (length l))) eqn:E.
  - apply andb_prop in E as [A1 B]. apply Z.leb_le in A1. apply Z.ltb_lt in B. subst j. destruct (Z.ltb_spec i 0); lia.
  - unfold j in *. reflexivity.
Qed.
Lemma py_get_at {A} (a : list A) x b i : i = Z.of_nat (length a) \/ i = - 1 - Z.of_nat (length b) -> py_get (a ++ x :: b) i = Ok x.
Proof.
  intros H. unfold py_get. rewrite app_length. cbn [length].
  set (j := if i <? 0 then _ else _).
  assert (J : j = Z.of_nat (length a)).
  { subst j. destruct H as [-> | ->].
    - destruct (Z.ltb_spec (Z.of_nat (length a)) 0); lia.
    - destruct (Z.ltb_spec (- 1 - Z.of_nat (length b)) 0); lia. }
  rewrite J. replace (_ && _) with true.
  2: { symmetry. apply andb_true_intro. split; [apply Z.leb_le|apply Z.ltb_lt]; lia. }
  rewrite Nat2Z.id, nth_error_app2, Nat.sub_diag by lia. reflexivity.
Qed.
Lemma py_get_In {A} (l : list A) i x : py_get l i = Ok x -> In x l.
Proof.
  unfold py_get. destruct (_ && _); [|discriminate]. destruct (nth_error l _) eqn:E; [|discriminate].
  intros [= ->]. eapply nth_error_In, E.
Qed.
Lemma py_get_res {A} (l : list A) i : (exists x, py_get l i = Ok x) \/ py_get l i = Err IndexError.
Proof. unfold py_get. destruct (_ && _); [|right; reflexivity]. destruct (nth_error l _); [left; eexists; reflexivity|right; reflexivity]. Qed.

(** ** delete *)
Lemma delete_shape_ok a x b i part point e : e_items e = a ++ x :: b -> i <> 0 -> absent part -> absent point ->
  i = Z.of_nat (length a) \/ i = - 1 - Z.of_nat (length b) -> delete (Some i) part point e = (e_set_items (a ++ b) e, Ok tt).
Proof.
  intros E I P Q H. unfold delete. rewrite (some_truthy i I), (absent_falsy _ P), (absent_falsy _ Q).
  unfold on_items. cbn [val]. rewrite E, (py_del_at a x b i H). reflexivity.
Qed.
Lemma delete_shape_out i part point e : i <> 0 -> absent part -> absent point ->
  Z.of_nat (length (e_items e)) <= i \/ i < - Z.of_nat (length (e_items e)) -> delete (Some i) part point e = (e, Err IndexError).
Proof.
  intros I P Q H. unfold delete. rewrite (some_truthy i I), (absent_falsy _ P), (absent_falsy _ Q).
  unfold on_items. cbn [val]. rewrite (py_del_out _ _ H). reflexivity.
Qed.
Lemma delete_nothing shape part point e : (absent shape /\ absent part /\ absent point) \/ (~ absent shape /\ absent part /\ ~ absent point) ->
  delete shape part point e = (e, Ok tt).
Proof.
  intros [[A [B C]]|[A [B C]]]; unfold delete.
  - rewrite (absent_falsy _ A), (absent_falsy _ B), (absent_falsy _ C). reflexivity.
  - assert (T : forall o, ~ absent o -> truthy o = true).
    { intros [z|] H; [|exfalso; apply H; left; reflexivity]. apply some_truthy. intros ->. apply H. right. reflexivity. }
    rewrite (T _ A), (absent_falsy _ B), (T _ C). reflexivity.
Qed.
Lemma truthy_inv o : ~ absent o -> exists z, o = Some z /\ z <> 0 /\ truthy o = true.
Proof.
  intros H. destruct o as [z|]; [|exfalso; apply H; left; reflexivity].
  exists z. assert (z <> 0) by (intros ->; apply H; right; reflexivity). split; [reflexivity|]. split; [assumption|apply some_truthy; assumption].
Qed.
Lemma in_item_ordinary {B} i (m : M _ B) e : Forall ordinary (e_items e) ->
  in_item i m e = (e, Err TypeError) /\ (exists x, py_get (e_items e) i = Ok x) \/ in_item i m e = (e, Err IndexError) /\ py_get (e_items e) i = Err IndexError.
Proof.
  intros F. unfold in_item. destruct (py_get_res (e_items e) i) as [[x G]|G]; rewrite G.
  - left. split; [|eexists; reflexivity]. rewrite Forall_forall in F. specialize (F x (py_get_In _ _ _ G)). destruct x; cbn in F; [reflexivity|reflexivity|contradiction].
  - right. split; reflexivity.
Qed.
(** Parts of shapes cannot be deleted. *)
Lemma delete_part_ordinary shape part point e : Forall ordinary (e_items e) -> ~ absent part ->
  (absent shape -> e_items e <> []) ->
  exists x, delete shape part point e = (e, Err x) /\
    (x = TypeError \/ x = IndexError /\ exists i, shape = Some i /\ (Z.of_nat (length (e_items e)) <= i \/ i < - Z.of_nat (length (e_items e)))).
Proof.
  intros F P N. destruct (truthy_inv _ P) as [j [-> [J T]]].
  assert (IN : forall B i (m : M _ B), truthy shape = true -> shape = Some i -> exists x, in_item i m e = (e, Err x) /\ (x = TypeError \/ x = IndexError /\ exists i, shape = Some i /\ (Z.of_nat (length (e_items e)) <= i \/ i < - Z.of_nat (length (e_items e))))).
  { intros B i m TS ->. destruct (in_item_ordinary i m e F) as [[E _]|[E G]]; rewrite E.
    - exists TypeError. split; [reflexivity|left; reflexivity].
    - exists IndexError. split; [reflexivity|]. right. split; [reflexivity|]. exists i. split; [reflexivity|].
      destruct (Z_le_gt_dec (Z.of_nat (length (e_items e))) i) as [|L]; [left; assumption|].
      destruct (Z_lt_ge_dec i (- Z.of_nat (length (e_items e)))) as [|L2]; [right; assumption|]. exfalso.
      unfold py_get in G. set (k := if i <? 0 then _ else _) in G.
      assert (K : 0 <= k < Z.of_nat (length (e_items e))) by (subst k; destruct (Z.ltb_spec i 0); lia).
      replace ((0 <=? k) && (k <? Z.of_nat (length (e_items e)))) with true in G.
      2: { symmetry. apply andb_true_intro. split; [apply Z.leb_le|apply Z.ltb_lt]; lia. }
      destruct (nth_error (e_items e) (Z.to_nat k)) eqn:NE; [discriminate|]. apply nth_error_None in NE. lia. }
  assert (LOOP : forall m : M (list (list (list (option dbl)))) unit, e_items e <> [] ->
    for_each (fun i => in_item (Z.of_nat i) m) (seq 0 (length (e_items e))) e = (e, Err TypeError)).
  { intros m NE. destruct (e_items e) as [|x l] eqn:E; [contradiction|]. cbn [length seq for_each].
    unfold mbind at 1. unfold in_item at 1. rewrite E. change (Z.of_nat 0) with 0.
    replace (py_get (x :: l) 0) with (Ok x) by (symmetry; exact (py_get_at [] x l 0 (or_introl eq_refl))). inversion F as [|? ? O _]; subst.
    destruct x; cbn in O; [reflexivity|reflexivity|contradiction]. }
  unfold delete. rewrite T. cbn [val].
  destruct shape as [s|]; cbn [truthy].
  - destruct (negb (s =? 0)) eqn:TS.
    + cbn [val]. assert (TS' : truthy (Some s) = true) by exact TS.
      destruct (truthy point); [exact (IN _ s _ TS' eq_refl)|exact (IN _ s _ TS' eq_refl)].
    + assert (A : absent (Some s)).
      { right. apply negb_false_iff in TS. apply Z.eqb_eq in TS. subst. reflexivity. }
      destruct (truthy point); exists TypeError; (split; [|left; reflexivity]); exact (LOOP _ (N A)).
  - destruct (truthy point); exists TypeError; (split; [|left; reflexivity]); exact (LOOP _ (N (or_introl eq_refl))).
Qed.

(** delete(point=p) in a layer of points *)
Lemma point_is x : a_point x -> elem_type x = Ok (Some 1).
Proof. destruct x as [s|t a b z m|l]; cbn; [intros ->|intros ->|contradiction]; reflexivity. Qed.
Lemma del_points_run (a : list elem) : forall fuel i b e, e_items e = a ++ b -> Forall a_point (a ++ b) -> (length (a ++ b) <= fuel + i)%nat ->
  let c := ((length a + length b - i + 1) / 2)%nat in
  del_points fuel i (Z.of_nat (length a)) e =
    if (c <=? length b)%nat then (e_set_items (a ++ skipn c b) e, Ok tt) else (e_set_items a e, Err IndexError).
Proof.
  induction fuel as [|fuel IH]; intros i b e E F L c.
  - rewrite app_length in L. subst c. replace (length a + length b - i)%nat with O by lia. cbn -[e_set_items].
    rewrite <- E. destruct e. reflexivity.
  - cbn [del_points]. unfold mbind at 1, get. rewrite E.
    destruct (nth_error (a ++ b) i) as [x|] eqn:N.
    + pose proof (nth_error_In _ _ N) as IN. rewrite Forall_forall in F. pose proof (point_is x (F x IN)) as T.
      assert (LI : (i < length a + length b)%nat).
      { rewrite <- app_length. apply nth_error_Some. rewrite N. discriminate. }
      unfold mbind at 1, lift. rewrite T. change (type_is (Some 1) 1) with true. cbv iota.
      unfold mbind at 1, on_items. rewrite E.
      destruct b as [|y b].
      * rewrite py_del_out by (rewrite app_nil_r; lia).
        subst c. cbn [length] in *. destruct (Nat.leb_spec ((length a + 0 - i + 1) / 2)%nat 0) as [Z|Z].
        -- exfalso. assert (1 <= (length a + 0 - i + 1) / 2)%nat by (apply Nat.div_le_lower_bound; lia). lia.
        -- rewrite app_nil_r in E. rewrite <- E. destruct e. reflexivity.
      * rewrite py_del_at by (left; reflexivity).
        set (e1 := e_set_items (a ++ b) e).
        assert (C : c = S ((length a + length b - S i + 1) / 2)).
        { subst c. cbn [length] in LI |- *. destruct (Nat.eq_dec i (length a + length b)) as [EI|NI].
          { replace (length a + S (length b) - i + 1)%nat with 2%nat by lia. replace (length a + length b - S i + 1)%nat with 1%nat by lia. reflexivity. }
          replace (length a + S (length b) - i + 1)%nat with (length a + length b - S i + 1 + 1 * 2)%nat by lia.
          rewrite Nat.div_add by lia. lia. }
        rewrite (IH (S i) b e1).
        -- rewrite C. cbn [length Nat.leb skipn]. destruct (_ <=? length b)%nat; reflexivity.
        -- reflexivity.
        -- rewrite Forall_forall. intros z IZ. apply F. apply in_app_iff in IZ. apply in_app_iff. destruct IZ; [left; assumption|right; right; assumption].
        -- rewrite app_length in *. cbn [length] in L. lia.
    + apply nth_error_None in N. rewrite app_length in N. subst c. replace (length a + length b - i)%nat with O by lia. cbn -[e_set_items].
      rewrite <- E. destruct e. reflexivity.
Qed.
Lemma delete_points a b e shape part : e_items e = a ++ b -> Forall a_point (a ++ b) -> a <> [] -> absent shape -> absent part ->
  let n := length (a ++ b) in
  delete shape part (Some (Z.of_nat (length a))) e =
    if (2 * length a <=? n)%nat then (e_set_items (a ++ skipn (n - n / 2) b) e, Ok tt) else (e_set_items a e, Err IndexError).
Proof.
  intros E F A S P n. unfold delete. rewrite (absent_falsy _ S), (absent_falsy _ P).
  assert (T : truthy (Some (Z.of_nat (length a))) = true).
  { apply some_truthy. destruct a; [contradiction|discriminate]. }
  rewrite T. unfold mbind, get. cbn [val]. rewrite E, (del_points_run a _ 0 b e E F) by lia.
  rewrite Nat.sub_0_r. fold n. assert (N : n = (length a + length b)%nat) by (unfold n; apply app_length). rewrite <- N.
  assert (C : ((n + 1) / 2 = n - n / 2)%nat).
  { pose proof (Nat.div_mod n 2 ltac:(lia)) as D. pose proof (Nat.mod_upper_bound n 2 ltac:(lia)) as M.
    symmetry. apply Nat.div_unique with (r := (1 - n mod 2)%nat); lia. }
  rewrite C.
  assert (Q : ((n - n / 2 <=? length b) = (2 * length a <=? n))%nat).
  { pose proof (Nat.div_mod n 2 ltac:(lia)) as D. pose proof (Nat.mod_upper_bound n 2 ltac:(lia)) as M.
    destruct (Nat.leb_spec (n - n / 2)%nat (length b)); destruct (Nat.leb_spec (2 * length a)%nat n); try reflexivity; lia. }
  rewrite Q. reflexivity.
Qed.
(** delete(point=p) elsewhere *)
Lemma delete_point_other x l e shape part p : e_items e = x :: l -> absent shape -> absent part -> p <> 0 ->
  (forall t, elem_type x = Ok t -> t <> Some 1) -> elem_parts x <> Some [] ->
  delete shape part (Some p) e = (e, Err (match elem_parts x with Some _ => TypeError | None => AttributeError end)).
Proof.
  intros E S P N T Q. unfold delete. rewrite (absent_falsy _ S), (absent_falsy _ P), (some_truthy p N). unfold mbind at 1, get. rewrite E.
  cbn [length del_points]. unfold mbind at 1, get. rewrite E. cbn [nth_error].
  unfold mbind at 1, lift. destruct (elem_type x) as [t|y] eqn:ET.
  - assert (TI : type_is t 1 = false).
    { destruct t as [t|]; [|reflexivity]. cbn. rewrite orb_false_r. apply Z.eqb_neq. intros ->. eapply T; reflexivity. }
    rewrite TI. destruct (elem_parts x) as [[|]|]; [contradiction|reflexivity|reflexivity].
  - destruct x; cbn in ET; try discriminate. injection ET as <-. reflexivity.
Qed.

(** The table stays as it is. *)
Definition keeps {A} (m : M editor A) : Prop := forall e, e_w (fst (m e)) = e_w e /\ e_auto (fst (m e)) = e_auto e.
Lemma keeps_bind {A B} (m : M editor A) (k : A -> M editor B) : keeps m -> (forall a, keeps (k a)) -> keeps (mbind m k).
Proof.
  intros H K e. unfold mbind. specialize (H e). destruct (m e) as [e1 [a|x]]; [|exact H]. cbn in H. destruct H as [H1 H2].
  destruct (K a e1) as [K1 K2]. rewrite K1, K2. split; assumption.
Qed.
Lemma keeps_ret {A} (a : A) : keeps (ret a). Proof. intros e. split; reflexivity. Qed.
Lemma keeps_raise {A} x : keeps (@raise editor A x). Proof. intros e. split; reflexivity. Qed.
Lemma keeps_lift {A} (r : res A) : keeps (lift r). Proof. intros e. split; reflexivity. Qed.
Lemma keeps_get : keeps get. Proof. intros e. split; reflexivity. Qed.
Lemma keeps_on_items g : keeps (on_items g). Proof. intros e. unfold on_items. destruct (g (e_items e)); split; reflexivity. Qed.
Lemma keeps_in_item {B} i (m : M _ B) : keeps (in_item i m).
Proof.
  intros e. unfold in_item. destruct (py_get (e_items e) i) as [[s|t x y z k|l]|]; try (split; reflexivity).
  destruct (m l) as [l' r]. destruct (py_set _ _ _); split; reflexivity.
Qed.
Lemma keeps_each {A} (f : A -> M editor unit) l : (forall x, keeps (f x)) -> keeps (for_each f l).
Proof. intros H. induction l; cbn; [apply keeps_ret|apply keeps_bind; [apply H|intros _; assumption]]. Qed.
Lemma keeps_del_points p : forall fuel i, keeps (del_points fuel i p).
Proof.
  induction fuel as [|k IH]; intros i; cbn [del_points]; [apply keeps_ret|]. apply keeps_bind; [apply keeps_get|]. intros e.
  destruct (nth_error (e_items e) i); [|apply keeps_ret]. apply keeps_bind; [apply keeps_lift|]. intros t.
  apply keeps_bind; [|intros _; apply IH]. destruct (type_is t 1); [apply keeps_on_items|]. destruct (elem_parts _) as [[|]|]; [apply keeps_ret|apply keeps_raise|apply keeps_raise].
Qed.
Lemma delete_keeps shape part point : keeps (delete shape part point).
Proof.
  unfold delete. destruct (truthy shape), (truthy part), (truthy point); try apply keeps_ret; try apply keeps_in_item; try apply keeps_on_items;
    (apply keeps_bind; [apply keeps_get|intros e]); first [apply keeps_del_points|apply keeps_each; intros; apply keeps_in_item].
Qed.
