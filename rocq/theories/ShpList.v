(** Lists among the shapes of an Editor. *)
From Verif Require Import Py ShpFile ShpWriterModel ShpReaderModel ShpSpec ShpPrograms ShpTablePrograms ShpEditorModel ShpEditorSpec ShpEditor ShpEditPoint ShpListSpec.
Open Scope Z_scope.
Open Scope m_scope.

Lemma set_nth_mid {A} (a : list A) x b v : set_nth (length a) v (a ++ x :: b) = a ++ v :: b.
Proof. induction a as [|y a IH]; [reflexivity|]. cbn [length set_nth app]. f_equal. exact IH. Qed.
Lemma set_at {A} (a : list A) x b i v : between i a b -> py_set (a ++ x :: b) i v = Ok (a ++ v :: b).
Proof.
  intros H. unfold py_set. rewrite app_length. cbn [length]. set (j := if i <? 0 then _ else _).
  assert (J : j = Z.of_nat (length a)).
  { subst j. destruct H as [-> | ->].
    - destruct (Z.ltb_spec (Z.of_nat (length a)) 0); lia.
    - destruct (Z.ltb_spec (- 1 - Z.of_nat (length b)) 0); lia. }
  rewrite J. destruct (Z.leb_spec 0 (Z.of_nat (length a))); [|lia]. destruct (Z.ltb_spec (Z.of_nat (length a)) (Z.of_nat (length a + S (length b)))); [|lia].
  cbn [andb]. rewrite Nat2Z.id. f_equal. apply set_nth_mid.
Qed.
Lemma get_at {A} (a : list A) x b i : between i a b -> py_get (a ++ x :: b) i = Ok x.
Proof. apply py_get_at. Qed.
Lemma get_beyond {A} (l : list A) i : beyond i l -> py_get l i = Err IndexError.
Proof.
  intros H. unfold py_get. set (j := if i <? 0 then _ else _). destruct (Z.leb_spec 0 j), (Z.ltb_spec j (Z.of_nat (length l))); try reflexivity.
  exfalso. subst j. destruct H; destruct (Z.ltb_spec i 0); lia.
Qed.
Lemma in_list_at {A B} (a : list A) x b i (m : M A B) : between i a b -> in_list i m (a ++ x :: b) = (a ++ fst (m x) :: b, snd (m x)).
Proof. intros H. unfold in_list. rewrite get_at by exact H. destruct (m x) as [x' r]. rewrite set_at by exact H. reflexivity. Qed.
Lemma in_item_at {B} a l b i (m : M (list (list (list (option dbl)))) B) e : e_items e = a ++ EList l :: b -> between i a b ->
  in_item i m e = (with_shapes (a ++ EList (fst (m l)) :: b) e, snd (m l)).
Proof. intros E H. unfold in_item. rewrite E, get_at by exact H. destruct (m l) as [l' r]. rewrite set_at by exact H. reflexivity. Qed.
Lemma same_shapes e l : e_items e = l -> with_shapes l e = e.
Proof. intros <-. destruct e. reflexivity. Qed.
Lemma with_twice l l' e : with_shapes l (with_shapes l' e) = with_shapes l e.
Proof. reflexivity. Qed.
(** ** The end of point() *)
Lemma balanced_when e : (e <~ get ;; when (e_auto e) balance) e = balanced e.
Proof. unfold mbind, get, when, balanced. destruct (e_auto e); reflexivity. Qed.
Lemma edit_ends x y z m shape part point e e1 : point_at x y z m shape part point e = (e1, Ok tt) ->
  edit_point x y z m shape part point None e = added x y z m (e_items e1) e1.
Proof. intros H. unfold edit_point. unfold mbind at 1. rewrite H. unfold mbind at 1, modify. apply balanced_when. Qed.
Lemma edit_done x y z m shape part point e l : point_at x y z m shape part point e = (with_shapes l e, Ok tt) ->
  edit_point x y z m shape part point None e = added x y z m l e.
Proof. intros H. rewrite (edit_ends _ _ _ _ _ _ _ _ _ H). reflexivity. Qed.
Lemma edit_fails x y z m shape part point addr e e1 er : point_at x y z m shape part point e = (e1, Err er) ->
  edit_point x y z m shape part point addr e = (e1, Err er).
Proof. intros H. unfold edit_point. unfold mbind at 1. rewrite H. reflexivity. Qed.
Lemma truthy_some i : i <> 0 -> truthy (Some i) = true.
Proof. intros N. cbn. destruct (Z.eqb_spec i 0); [contradiction|reflexivity]. Qed.
Lemma truthy_absent o : absent o -> truthy o = false.
Proof. intros [-> | ->]; reflexivity. Qed.
(** ** Places *)
Lemma ensure_shape_at a x b i e : e_items e = a ++ x :: b -> between i a b -> ensure_shape i e = (e, Ok tt).
Proof. intros E H. unfold ensure_shape, on_index_error, mbind, get, lift. rewrite E, get_at by exact H. reflexivity. Qed.
Lemma ensure_part_at a p l q b i j e : e_items e = a ++ EList (p ++ l :: q) :: b -> between i a b -> between j p q -> ensure_part i j e = (e, Ok tt).
Proof.
  intros E H J. unfold ensure_part, on_index_error. rewrite (in_item_at a _ b i _ e E H). rewrite (in_list_at p l q j _ J). cbn [fst snd ret]. rewrite same_shapes by exact E. reflexivity.
Qed.
Lemma ensure_point_at a p s c t q b i j k e : e_items e = a ++ EList (p ++ (s ++ c :: t) :: q) :: b -> between i a b -> between j p q -> between k s t ->
  ensure_point i j k e = (e, Ok tt).
Proof.
  intros E H J K. unfold ensure_point, on_index_error. rewrite (in_item_at a _ b i _ e E H). rewrite (in_list_at p _ q j _ J). rewrite (in_list_at s _ t k _ K).
  cbn [fst snd ret]. rewrite same_shapes by exact E. reflexivity.
Qed.
(** ** Coordinates *)
Lemma naught_dec d : is_dbl d -> (dbl_eq d dbl_zero = true <-> naught d).
Proof.
  intros D. unfold is_dbl in D. unfold dbl_eq, dbl_key, dbl_nan, dbl_mag, dbl_zero, naught. rewrite (Z.mod_small 0) by lia. cbn [Z.ltb negb andb]. rewrite andb_true_r.
  change (0 <? 9223372036854775808) with true. cbv iota. change (9218868437227405312 <? 0) with false. cbn [negb]. rewrite ?andb_true_r.
  destruct (Z.ltb_spec d 9223372036854775808).
  - rewrite Z.mod_small by lia. destruct (Z.ltb_spec 9218868437227405312 d), (Z.eqb_spec d 0); cbn; split; intros; try discriminate; try lia; auto.
  - assert (M : d mod 9223372036854775808 = d - 9223372036854775808) by (symmetry; apply (Z.mod_unique d 9223372036854775808 1); lia). rewrite M.
    destruct (Z.ltb_spec 9218868437227405312 (d - 9223372036854775808)), (Z.eqb_spec (- (d - 9223372036854775808)) 0); cbn; split; intros; try discriminate; try lia; auto.
Qed.
Lemma put_at (a : list (option dbl)) old b v k : dbls v -> k = Z.of_nat (length a) -> exists new, coordinate old v new /\ put_coord k v (a ++ old :: b) = (a ++ new :: b, Ok tt).
Proof.
  intros D ->. destruct v as [d|]; [|exists old; split; [constructor|reflexivity]]. unfold put_coord. pose proof (naught_dec d D) as N. destruct (dbl_eq d dbl_zero).
  - exists old. split; [constructor; apply N; reflexivity|reflexivity].
  - exists (Some d). split; [constructor; intros X; apply N in X; discriminate|]. unfold lift_list. rewrite set_at by (left; reflexivity). reflexivity.
Qed.
Lemma put_all x y z m a b c d : is_dbl x -> is_dbl y -> dbls z -> dbls m -> exists p, updated (Some x) (Some y) z m [a; b; c; d] p /\ put_coords x y z m [a; b; c; d] = (p, Ok tt).
Proof.
  intros X Y Z M. unfold put_coords.
  destruct (put_at [] a [b; c; d] (Some x) 0 X eq_refl) as (a' & A & E1). cbn [app] in E1.
  destruct (put_at [a'] b [c; d] (Some y) 1 Y eq_refl) as (b' & B & E2). cbn [app] in E2.
  destruct (put_at [a'; b'] c [d] z 2 Z eq_refl) as (c' & C & E3). cbn [app] in E3.
  destruct (put_at [a'; b'; c'] d [] m 3 M eq_refl) as (d' & D & E4). cbn [app] in E4.
  exists [a'; b'; c'; d']. split; [constructor; assumption|]. unfold mbind. rewrite E1, E2, E3. exact E4.
Qed.
Lemma updated_det x y z m p q q' : updated x y z m p q -> updated x y z m p q' -> q = q'.
Proof.
  intros U V. destruct U; inversion V; subst. assert (D : forall o v n n', coordinate o v n -> coordinate o v n' -> n = n').
  { intros o v n n' A B. destruct A; inversion B; subst; congruence || contradiction || reflexivity. }
  repeat f_equal; eapply D; eassumption.
Qed.
(** ** Theorems *)
Lemma list_made x y z m i e part point : i <> 0 -> beyond i (e_items e) -> absent part -> absent point ->
  edit_point x y z m (Some i) part point None e = added x y z m (e_items e ++ [EList []]) e.
Proof.
  intros N B P Q. erewrite edit_ends; [|unfold point_at; rewrite (truthy_some i N), (truthy_absent _ P), (truthy_absent _ Q); cbn [val];
    unfold ensure_shape, on_index_error, mbind, get, lift; rewrite get_beyond by exact B; unfold modify; reflexivity]. reflexivity.
Qed.
Lemma addressed x y z m i j k e a p s old t q b : e_items e = a ++ EList (p ++ (s ++ old :: t) :: q) :: b -> between i a b -> between j p q -> between k s t ->
  edit_point x y z m None None None (Some (i, j, k)) e = balanced (with_shapes (a ++ EList (p ++ (s ++ [Some x; Some y; z; m] :: t) :: q) :: b) e).
Proof.
  intros E H J K. unfold edit_point. unfold mbind at 1. change (point_at x y z m None None None e) with (e, Ok tt). cbv iota beta. unfold mbind at 1.
  rewrite (in_item_at a _ b i _ e E H). rewrite (in_list_at p _ q j _ J). assert (R : lift_list (fun l => py_set l k [Some x; Some y; z; m]) (s ++ old :: t) = (s ++ [Some x; Some y; z; m] :: t, Ok tt)) by (unfold lift_list; rewrite (set_at s old t k _ K); reflexivity).
  rewrite R. cbn [fst snd]. apply balanced_when.
Qed.
Lemma point_updated x y z m i j k e a p s old t q b : is_dbl x -> is_dbl y -> dbls z -> dbls m -> i <> 0 -> j <> 0 -> k <> 0 ->
  e_items e = a ++ EList (p ++ (s ++ old :: t) :: q) :: b -> between i a b -> between j p q -> between k s t -> length old = 4%nat ->
  exists new, updated (Some x) (Some y) z m old new /\
  edit_point x y z m (Some i) (Some j) (Some k) None e = added x y z m (a ++ EList (p ++ (s ++ new :: t) :: q) :: b) e.
Proof.
  intros X Y Z M Ni Nj Nk E H J K L. destruct old as [|c0 [|c1 [|c2 [|c3 [|]]]]]; try discriminate.
  destruct (put_all x y z m c0 c1 c2 c3 X Y Z M) as (new & U & Pn). exists new. split; [exact U|].
  apply edit_done. unfold point_at. rewrite (truthy_some i Ni), (truthy_some j Nj), (truthy_some k Nk). cbn [val].
  unfold mbind at 1. rewrite (ensure_shape_at a _ b i e E H). unfold mbind at 1. rewrite (ensure_part_at a p _ q b i j e E H J). unfold mbind at 1. rewrite (ensure_point_at a p s _ t q b i j k e E H J K).
  rewrite (in_item_at a _ b i _ e E H). rewrite (in_list_at p _ q j _ J). rewrite (in_list_at s _ t k _ K). rewrite Pn. reflexivity.
Qed.
Lemma part_loop x y z m i j : is_dbl x -> is_dbl y -> dbls z -> dbls m -> forall rest done e a p q b, 
  e_items e = a ++ EList (p ++ (done ++ rest) :: q) :: b -> between i a b -> between j p q -> Forall (fun c => length c = 4%nat) rest ->
  exists new, Forall2 (updated (Some x) (Some y) z m) rest new /\
  for_each (fun n => in_item i (in_list j (in_list (Z.of_nat n) (put_coords x y z m)))) (seq (length done) (length rest)) e =
    (with_shapes (a ++ EList (p ++ (done ++ new) :: q) :: b) e, Ok tt).
Proof.
  intros X Y Z M. induction rest as [|old rest IH]; intros done e a p q b E H J F.
  - exists []. split; [constructor|]. cbn [length seq for_each]. rewrite same_shapes by exact E. reflexivity.
  - inversion F as [|? ? L F']; subst. destruct old as [|c0 [|c1 [|c2 [|c3 [|]]]]]; try discriminate.
    destruct (put_all x y z m c0 c1 c2 c3 X Y Z M) as (new & U & Pn).
    destruct (IH (done ++ [new]) (with_shapes (a ++ EList (p ++ ((done ++ [new]) ++ rest) :: q) :: b) e) a p q b eq_refl H J F') as (news & Us & R).
    exists (new :: news). split; [constructor; assumption|]. cbn [length seq for_each]. unfold mbind at 1. rewrite (in_item_at a _ b i _ e E H). rewrite (in_list_at p _ q j _ J).
    rewrite (in_list_at done _ rest _ _ (or_introl eq_refl)). rewrite Pn. cbn [fst snd].
    rewrite app_length in R. cbn [length] in R. rewrite Nat.add_1_r in R. rewrite <- !app_assoc in R. cbn [app] in R. rewrite R, with_twice. reflexivity.
Qed.
Lemma part_updated x y z m i j point e a p l q b : is_dbl x -> is_dbl y -> dbls z -> dbls m -> i <> 0 -> j <> 0 -> absent point ->
  e_items e = a ++ EList (p ++ l :: q) :: b -> between i a b -> between j p q -> Forall (fun c => length c = 4%nat) l ->
  exists new, Forall2 (updated (Some x) (Some y) z m) l new /\
  edit_point x y z m (Some i) (Some j) point None e = added x y z m (a ++ EList (p ++ new :: q) :: b) e.
Proof.
  intros X Y Z M Ni Nj Ak E H J F. destruct (part_loop x y z m i j X Y Z M l [] e a p q b E H J F) as (new & U & R). exists new. split; [exact U|].
  apply edit_done. unfold point_at. rewrite (truthy_some i Ni), (truthy_some j Nj), (truthy_absent _ Ak). cbn [val].
  unfold mbind at 1. rewrite (ensure_shape_at a _ b i e E H). unfold mbind at 1. rewrite (ensure_part_at a p _ q b i j e E H J). unfold mbind at 1.
  rewrite (in_item_at a _ b i _ e E H). rewrite (in_list_at p _ q j _ J). unfold mbind at 1 2, get, ret. cbn [fst snd]. rewrite same_shapes by exact E. exact R.
Qed.
(** A new point is an empty list, and nothing can be stored in it. *)
Lemma put_empty x y z m : is_dbl x -> ~ naught x -> put_coords x y z m [] = ([], Err IndexError).
Proof.
  intros X Nx. unfold put_coords. unfold mbind at 1. assert (R : put_coord 0 (Some x) [] = ([], Err IndexError)); [|rewrite R; reflexivity].
  unfold put_coord. pose proof (naught_dec x X) as N. destruct (dbl_eq x dbl_zero); [exfalso; apply Nx, N; reflexivity|]. reflexivity.
Qed.
Lemma grown x y z m i j k e a p s q b : i <> 0 -> j <> 0 -> k <> 0 ->
  e_items e = a ++ EList (p ++ s :: q) :: b -> between i a b -> between j p q -> beyond k s ->
  point_at x y z m (Some i) (Some j) (Some k) e =
    (with_shapes (a ++ EList (p ++ fst (in_list k (put_coords x y z m) (s ++ [[]])) :: q) :: b) e, snd (in_list k (put_coords x y z m) (s ++ [[]]))).
Proof.
  intros Ni Nj Nk E H J K. unfold point_at. rewrite (truthy_some i Ni), (truthy_some j Nj), (truthy_some k Nk). cbn [val].
  unfold mbind at 1. rewrite (ensure_shape_at a _ b i e E H). unfold mbind at 1. rewrite (ensure_part_at a p _ q b i j e E H J).
  unfold mbind at 1. unfold ensure_point, on_index_error. rewrite (in_item_at a _ b i _ e E H). rewrite (in_list_at p _ q j _ J).
  assert (R : in_list k (ret tt) s = (s, Err IndexError)) by (unfold in_list; rewrite (get_beyond s k K); reflexivity). rewrite R. cbn [fst snd].
  rewrite same_shapes by exact E. rewrite (in_item_at a _ b i _ e E H). rewrite (in_list_at p _ q j _ J). unfold grow, modify. cbn [fst snd].
  rewrite (in_item_at a _ b i _ (with_shapes _ e) eq_refl H). rewrite (in_list_at p _ q j _ J). rewrite with_twice. reflexivity.
Qed.
Lemma point_made x y z m i j k e a p s q b : is_dbl x -> ~ naught x -> i <> 0 -> j <> 0 -> k <> 0 ->
  e_items e = a ++ EList (p ++ s :: q) :: b -> between i a b -> between j p q -> beyond k s -> s = [] \/ k <> - 1 - Z.of_nat (length s) -> forall addr,
  edit_point x y z m (Some i) (Some j) (Some k) addr e = (with_shapes (a ++ EList (p ++ (s ++ [[]]) :: q) :: b) e, Err IndexError).
Proof.
  intros X Nx Ni Nj Nk E H J K F addr. apply edit_fails. rewrite (grown x y z m i j k e a p s q b Ni Nj Nk E H J K).
  assert (R : in_list k (put_coords x y z m) (s ++ [[]]) = (s ++ [[]], Err IndexError)).
  { assert (C : between k s (@nil (list (option dbl))) \/ beyond k (s ++ [[]])).
    { unfold between, beyond. rewrite app_length. cbn [length]. destruct F as [-> | F]; [cbn [length] in *|]; destruct K as [K|K]; cbn [length] in *; lia. }
    destruct C as [C|C].
    - rewrite (in_list_at s [] [] k _ C). rewrite (put_empty x y z m X Nx). reflexivity.
    - unfold in_list. rewrite (get_beyond _ _ C). reflexivity. }
  rewrite R. reflexivity.
Qed.
(** One before the first point is, once the list has grown, the first point. *)
Lemma wrong_point x y z m i j e a p old s q b : is_dbl x -> is_dbl y -> dbls z -> dbls m -> i <> 0 -> j <> 0 ->
  e_items e = a ++ EList (p ++ (old :: s) :: q) :: b -> between i a b -> between j p q -> length old = 4%nat ->
  exists new, updated (Some x) (Some y) z m old new /\
  edit_point x y z m (Some i) (Some j) (Some (- Z.of_nat (length (old :: s)) - 1)) None e = added x y z m (a ++ EList (p ++ (new :: s ++ [[]]) :: q) :: b) e.
Proof.
  intros X Y Z M Ni Nj E H J L. destruct old as [|c0 [|c1 [|c2 [|c3 [|]]]]]; try discriminate.
  destruct (put_all x y z m c0 c1 c2 c3 X Y Z M) as (new & U & Pn). exists new. split; [exact U|].
  set (k := - Z.of_nat (length ([c0; c1; c2; c3] :: s)) - 1). apply edit_done. rewrite (grown x y z m i j k e a p ([c0; c1; c2; c3] :: s) q b Ni Nj); [|unfold k; lia|exact E|exact H|exact J|left; unfold k; lia].
  change (([c0; c1; c2; c3] :: s) ++ [[]]) with ([] ++ [c0; c1; c2; c3] :: (s ++ [[]])). rewrite in_list_at by (right; unfold k; rewrite app_length; cbn [length]; lia). rewrite Pn. reflexivity.
Qed.
(** The other failures *)
Lemma not_a_part x y z m i j k e a l b : e_items e = a ++ EList l :: b -> between i a b -> beyond j l ->
  edit_point x y z m None None None (Some (i, j, k)) e = (e, Err IndexError).
Proof.
  intros E H J. unfold edit_point. unfold mbind at 1. change (point_at x y z m None None None e) with (e, Ok tt). cbv iota beta. unfold mbind at 1.
  rewrite (in_item_at a _ b i _ e E H). unfold in_list. rewrite (get_beyond _ _ J). cbn [fst snd]. rewrite same_shapes by exact E. reflexivity.
Qed.
Lemma not_a_point x y z m i j k e a p s q b : e_items e = a ++ EList (p ++ s :: q) :: b -> between i a b -> between j p q -> beyond k s ->
  edit_point x y z m None None None (Some (i, j, k)) e = (e, Err IndexError).
Proof.
  intros E H J K. unfold edit_point. unfold mbind at 1. change (point_at x y z m None None None e) with (e, Ok tt). cbv iota beta. unfold mbind at 1.
  rewrite (in_item_at a _ b i _ e E H). rewrite (in_list_at p _ q j _ J). assert (R : py_set s k [Some x; Some y; z; m] = Err IndexError).
  { unfold py_set. set (n := if k <? 0 then _ else _). destruct (Z.leb_spec 0 n), (Z.ltb_spec n (Z.of_nat (length s))); try reflexivity. exfalso. subst n. destruct K; destruct (Z.ltb_spec k 0); lia. }
  assert (R' : lift_list (fun l => py_set l k [Some x; Some y; z; m]) s = (s, Err IndexError)) by (unfold lift_list; rewrite R; reflexivity). rewrite R'. cbn [fst snd]. rewrite same_shapes by exact E. reflexivity.
Qed.
