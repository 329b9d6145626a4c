(** signed_area and __geo_interface__: proofs. *)
From Coq Require Import Reals Lra.
From Verif Require Import Py Num RealNum ShpFile ShpWriterModel ShpGeoModel ShpGeoSpec PfProofs PfHist.
Open Scope Z_scope.

Section Any.
Context {T : Type} `{PyNum T}.
(** ** When signed_area raises *)
Lemma min_fold (r : list (list T)) : forall n, fold_left (fun n q => Nat.min n (length q)) r n = 2%nat <->
  ((2 <= n)%nat /\ Forall (fun p => (2 <= length p)%nat) r /\ (n = 2%nat \/ Exists (fun p => length p = 2%nat) r)).
Proof.
  induction r as [|q r IH]; intros n; cbn [fold_left].
  - split; [intros ->; split; [lia|split; [constructor|left; reflexivity]]|intros [_ [_ [A|A]]]; [exact A|inversion A]].
  - rewrite IH. split.
    + intros [A [B C]]. split; [lia|]. split; [constructor; [lia|exact B]|].
      destruct C as [C|C]; [|right; apply Exists_cons_tl, C]. destruct (Nat.min_dec n (length q)); [left; lia|right; apply Exists_cons_hd; lia].
    + intros [A [B C]]. inversion B as [|? ? B1 B2]; subst. split; [lia|]. split; [exact B2|]. destruct C as [C|C]; [left; lia|].
      inversion C as [? ? C1|? ? C1]; subst; [left; lia|right; exact C1].
Qed.
Lemma zip_planar (l : list (list T)) : zip_count l = 2%nat <-> planar l.
Proof.
  destruct l as [|p r]; cbn [zip_count].
  - split; [discriminate|intros [_ A]; inversion A].
  - rewrite min_fold. unfold planar. split.
    + intros [A [B C]]. split; [constructor; assumption|]. destruct C; [apply Exists_cons_hd; assumption|apply Exists_cons_tl; assumption].
    + intros [A B]. inversion A; subst. split; [assumption|]. split; [assumption|]. inversion B; subst; [left; assumption|right; assumption].
Qed.
Definition pt (p : list T) : T * T := (nth 0 p (nofZ 0), nth 1 p (nofZ 0)).
(** The products, for the points with the second one again at the end *)
Fixpoint terms (l : list (T * T)) : list T :=
  match l with
  | a :: ((b :: c :: _) as r) => nmul (fst b) (nsub (snd c) (snd a)) :: terms r
  | _ => []
  end.
Lemma get_at {A B} (f : A -> B) (l : list A) i x : nth_error l i = Some x -> py_get (map f l) (Z.of_nat i) = Ok (f x).
Proof. intros E. apply py_get_nth. rewrite nth_error_map, E. reflexivity. Qed.
Lemma terms_ok (l : list (T * T)) pre : mapM (fun i => x <- py_get (map fst (pre ++ l)) (Z.of_nat i) ;;
    y1 <- py_get (map snd (pre ++ l)) (Z.of_nat i + 1) ;;
    y0 <- py_get (map snd (pre ++ l)) (Z.of_nat i - 1) ;; Ok (nmul x (nsub y1 y0))) (seq (S (length pre)) (length l - 2)) = Ok (terms l).
Proof.
  revert pre. induction l as [|a l IH]; intros pre; [reflexivity|]. destruct l as [|b [|c l]]; [reflexivity|reflexivity|].
  cbn [length Nat.sub seq mapM]. change (terms (a :: b :: c :: l)) with (nmul (fst b) (nsub (snd c) (snd a)) :: terms (b :: c :: l)).
  assert (N : forall k x, nth_error (a :: b :: c :: l) k = Some x -> nth_error (pre ++ a :: b :: c :: l) (length pre + k) = Some x).
  { intros k x E. rewrite nth_error_app2 by lia. replace (length pre + k - length pre)%nat with k by lia. exact E. }
  replace (Z.of_nat (S (length pre)) + 1) with (Z.of_nat (length pre + 2)) by lia.
  replace (Z.of_nat (S (length pre)) - 1) with (Z.of_nat (length pre + 0)) by lia.
  replace (S (length pre)) with (length pre + 1)%nat by lia.
  rewrite (get_at fst _ _ b (N 1%nat b eq_refl)), (get_at snd _ _ c (N 2%nat c eq_refl)), (get_at snd _ _ a (N O a eq_refl)). cbn [bind].
  specialize (IH (pre ++ [a])). rewrite app_length, <- app_assoc in IH. cbn [app length] in IH.
  replace (S (length l) - 1)%nat with (length l) in IH by lia.
  replace (length l - 0)%nat with (length l) by lia. replace (S (S (length l)) - 2)%nat with (length l) in IH by lia.
  rewrite IH. reflexivity.
Qed.
Lemma area_ok (l : list (list T)) p0 p1 r : planar l -> map pt l = p0 :: p1 :: r ->
  signed_area l = Ok (ndiv (fold_left nadd (terms (p0 :: p1 :: r ++ [p1])) (nofZ 0)) (nofZ 2)).
Proof.
  intros P E. unfold signed_area. rewrite (proj2 (zip_planar l) P). cbn [Nat.eqb negb].
  assert (X : map (fun p => nth 0 p (nofZ 0)) l = map fst (p0 :: p1 :: r)) by (rewrite <- E, map_map; reflexivity).
  assert (Y : map (fun p => nth 1 p (nofZ 0)) l = map snd (p0 :: p1 :: r)) by (rewrite <- E, map_map; reflexivity).
  assert (L : length l = S (S (length r))) by (rewrite <- (map_length pt), E; reflexivity).
  rewrite X, Y, L. rewrite (get_at fst (p0 :: p1 :: r) 1 p1 eq_refl : py_get (map fst (p0 :: p1 :: r)) 1 = _), (get_at snd (p0 :: p1 :: r) 1 p1 eq_refl : py_get (map snd (p0 :: p1 :: r)) 1 = _). cbn [bind].
  change ([fst p1]) with (map fst [p1]). change ([snd p1]) with (map snd [p1]). rewrite <- !map_app. cbn [app].
  pose proof (terms_ok (p0 :: p1 :: r ++ [p1]) []) as M. cbn [app length] in M.
  replace (S (S (length r)) - 1)%nat with (S (S (length (r ++ [p1]))) - 2)%nat by (rewrite app_length; cbn [length]; lia).
  rewrite M. reflexivity.
Qed.
Lemma area_value_error l : ~ planar l -> signed_area l = Err ValueError.
Proof.
  intros P. unfold signed_area. destruct (Nat.eqb_spec (zip_count l) 2) as [E|E]; [|reflexivity]. apply zip_planar in E. contradiction.
Qed.
Lemma area_index_error (p : list T) : planar [p] -> signed_area [p] = Err IndexError.
Proof. intros P. unfold signed_area. rewrite (proj2 (zip_planar _) P). reflexivity. Qed.
Lemma area_some l : planar l -> (2 <= length l)%nat -> exists a, signed_area l = Ok a.
Proof.
  intros P L. destruct l as [|p0 [|p1 r]]; [cbn in L; lia|cbn in L; lia|]. eexists. apply (area_ok _ (pt p0) (pt p1) (map pt r) P). reflexivity.
Qed.
Lemma planar_flat (l : list (T * T)) : l <> [] -> planar (flat l).
Proof.
  intros N. split.
  - apply Forall_forall. intros q I. apply in_map_iff in I. destruct I as [x [<- _]]. cbn. lia.
  - destruct l; [contradiction|]. apply Exists_cons_hd. reflexivity.
Qed.
Lemma pt_flat (l : list (T * T)) : map pt (flat l) = l.
Proof. unfold flat. rewrite map_map. rewrite <- (map_id l) at 2. apply map_ext. intros []. reflexivity. Qed.

(** ** Parts *)
Lemma slice_eq {A} (l : list A) (a b : nat) : (a <= b)%nat -> (b <= length l)%nat -> py_slice l (Z.of_nat a) (Z.of_nat b) = firstn (b - a) (skipn a l).
Proof.
  intros AB BL. unfold py_slice, slice_clamp.
  destruct (Z.ltb_spec (Z.of_nat a) 0); [lia|]. destruct (Z.ltb_spec (Z.of_nat b) 0); [lia|].
  rewrite !Z.min_l by lia.
  destruct (Z.ltb_spec (Z.of_nat a) (Z.of_nat b)).
  - rewrite Nat2Z.id. f_equal. lia.
  - replace (b - a)%nat with O by lia. reflexivity.
Qed.
Lemma split_from (points : list (list T)) parts : forall (a : nat), (a <= length points)%nat ->
  (forall b, hd_error parts = Some b -> Z.of_nat a <= b) ->
  (forall k x y, nth_error parts k = Some x -> nth_error parts (S k) = Some y -> x <= y) ->
  Forall (fun o => 0 <= o <= Z.of_nat (length points)) parts ->
  exists rings, split_parts points (Some (Z.of_nat a)) parts = Ok rings /\ concat rings = skipn a points /\ length rings = S (length parts) /\
    forall k o, nth_error parts k = Some o -> Z.of_nat (a + length (concat (firstn (S k) rings))) = o.
Proof.
  induction parts as [|b parts IH]; intros a LA HD MO FO; cbn [split_parts].
  - exists [py_slice points (Z.of_nat a) (Z.of_nat (length points))]. rewrite slice_eq by lia. split; [reflexivity|].
    cbn [concat]. rewrite app_nil_r. split; [apply firstn_all2; rewrite skipn_length; lia|]. split; [reflexivity|]. intros [|k] o E; discriminate.
  - inversion FO as [|? ? F1 F2]; subst. specialize (HD b eq_refl). 
    destruct (IH (Z.to_nat b) ltac:(lia)) as [rings [E [C [L K]]]].
    + intros c Hc. destruct parts as [|c' parts]; [discriminate|]. injection Hc as ->. rewrite Z2Nat.id by lia. apply (MO O b c); reflexivity.
    + intros k x y A B. apply (MO (S k) x y); assumption.
    + exact F2.
    + rewrite Z2Nat.id in E by lia. rewrite E. cbn [bind]. eexists. split; [reflexivity|].
      assert (SL : py_slice points (Z.of_nat a) b = firstn (Z.to_nat b - a) (skipn a points)) by (rewrite <- slice_eq by lia; f_equal; lia).
      rewrite SL. set (m := Z.to_nat b) in *. assert (AM : (a <= m)%nat) by lia.
      cbn [concat length]. split; [|split; [lia|]].
      * rewrite C. replace (skipn m points) with (skipn (m - a) (skipn a points)) by (rewrite PfHist.skipn_skipn; f_equal; lia). apply firstn_skipn.
      * assert (LF : length (firstn (m - a) (skipn a points)) = (m - a)%nat) by (rewrite firstn_length, skipn_length; lia).
        intros [|k] o Hk.
        -- cbn in Hk. injection Hk as <-. cbn [firstn concat]. rewrite app_nil_r, LF. lia.
        -- cbn in Hk. specialize (K k o Hk). rewrite firstn_cons. cbn [concat]. rewrite app_length, LF. lia.
Qed.
Lemma split_ok (points : list (list T)) parts : offsets (length points) parts ->
  exists rings, split_parts points None parts = Ok rings /\ cut_at parts points rings.
Proof.
  intros [HD [MO FO]]. destruct parts as [|z parts]; [discriminate|]. injection HD as ->. cbn [split_parts]. inversion FO as [|? ? F1 F2]; subst.
  destruct (split_from points parts O ltac:(lia)) as [rings [E [C [L K]]]].
  - intros b Hb. destruct parts as [|b' parts]; [discriminate|]. injection Hb as ->. apply (MO O 0 b); reflexivity.
  - intros k x y A B. apply (MO (S k) x y); assumption.
  - exact F2.
  - exists rings. split; [exact E|]. split; [exact C|]. split; [exact L|]. intros [|k] o Hk; [injection Hk as <-; reflexivity|]. apply (K k o Hk).
Qed.

End Any.

(** ** Areas over the reals *)
Definition sumR (l : list R) : R := fold_right Rplus 0%R l.
Lemma fold_sum l : forall a, fold_left Rplus l a = (a + sumR l)%R.
Proof. induction l as [|x l IH]; intros a; cbn [fold_left]; unfold sumR; cbn [fold_right]; [lra|]. rewrite IH. unfold sumR. lra. Qed.
Lemma terms_shoelace (l : list (R * R)) q : forall a b, sumR (terms (a :: b :: l ++ [q])) =
  (shoelace (a :: b :: l) - fst a * snd b + fst (last (b :: l) b) * snd q)%R.
Proof.
  induction l as [|c l IH]; intros a b.
  - cbn. ring.
  - cbn [app]. change (terms (a :: b :: c :: l ++ [q])) with (nmul (fst b) (nsub (snd c) (snd a)) :: terms (b :: c :: l ++ [q])).
    change (sumR (?x :: ?r)) with (x + sumR r)%R. rewrite IH. change (nmul (fst b) (nsub (snd c) (snd a))) with (fst b * (snd c - snd a))%R.
    change (shoelace (a :: b :: c :: l)) with (fst a * snd b - fst b * snd a + shoelace (b :: c :: l))%R.
    replace (last (b :: c :: l) b) with (last (c :: l) c); [ring|].
    cbn [last]. destruct l as [|d l]; [reflexivity|]. clear. revert d. induction l as [|e l IH]; intros d; [reflexivity|]. apply IH.
Qed.
Lemma area_closed_pts (l : list (list R)) p mid : planar l -> map pt l = ring_from p mid -> signed_area l = Ok (shoelace (ring_from p mid) / 2)%R.
Proof.
  intros P E. unfold ring_from in *. destruct mid as [|q mid].
  - cbn [app] in E. rewrite (area_ok l p p [] P E). f_equal. cbn. unfold Rdiv. ring.
  - cbn [app] in E. rewrite (area_ok l p q (mid ++ [p]) P E). f_equal. change (fold_left nadd) with (fold_left Rplus). rewrite fold_sum.
    rewrite terms_shoelace. change (nofZ 0) with 0%R. change (ndiv ?a (nofZ 2)) with (a / 2)%R.
    replace (last (q :: mid ++ [p]) q) with p by (change (q :: mid ++ [p]) with ((q :: mid) ++ [p]); rewrite last_last; reflexivity).
    cbn [app]. f_equal. ring.
Qed.
Lemma area_closed p mid : signed_area (flat (ring_from p mid)) = Ok (shoelace (ring_from p mid) / 2)%R.
Proof. apply area_closed_pts; [apply planar_flat; discriminate|apply pt_flat]. Qed.
Lemma shoelace_app u p v : shoelace (u ++ p :: v) = (shoelace (u ++ [p]) + shoelace (p :: v))%R.
Proof.
  induction u as [|a u IH]; cbn [app]; [cbn [shoelace]; destruct v; lra|].
  destruct u as [|b u]; cbn [app] in *; [cbn [shoelace]; destruct v; lra|].
  change (shoelace (a :: b :: u ++ p :: v)) with (fst a * snd b - fst b * snd a + shoelace (b :: u ++ p :: v))%R.
  change (shoelace (a :: b :: u ++ [p])) with (fst a * snd b - fst b * snd a + shoelace (b :: u ++ [p]))%R. rewrite IH. lra.
Qed.
Lemma shoelace_rev l : shoelace (rev l) = (- shoelace l)%R.
Proof.
  induction l as [|a l IH]; [cbn; lra|]. cbn [rev]. destruct l as [|b l]; [cbn; lra|].
  cbn [rev] in *. rewrite <- app_assoc. cbn [app]. rewrite shoelace_app, IH.
  change (shoelace (a :: b :: l)) with (fst a * snd b - fst b * snd a + shoelace (b :: l))%R. cbn [shoelace]. lra.
Qed.
Lemma shoelace_shift d l : forall a, shoelace (shift d (a :: l)) =
  (shoelace (a :: l) + fst d * (snd (last (a :: l) a) - snd a) - snd d * (fst (last (a :: l) a) - fst a))%R.
Proof.
  induction l as [|b l IH]; intros a; [cbn; ring|].
  change (shoelace (shift d (a :: b :: l))) with ((fst a + fst d) * (snd b + snd d) - (fst b + fst d) * (snd a + snd d) + shoelace (shift d (b :: l)))%R.
  rewrite IH. change (shoelace (a :: b :: l)) with (fst a * snd b - fst b * snd a + shoelace (b :: l))%R.
  replace (last (a :: b :: l) a) with (last (b :: l) b); [ring|].
  cbn [last]. destruct l as [|e l]; [reflexivity|]. clear. revert e. induction l as [|e' l IH]; intros e; [reflexivity|]. apply IH.
Qed.
Lemma ring_rev {A} (p : A) mid : rev (ring_from p mid) = ring_from p (rev mid).
Proof. unfold ring_from. cbn [rev]. rewrite rev_app_distr. reflexivity. Qed.
Lemma ok_eq {A} (a b : A) : Ok a = Ok b -> b = a.
Proof. congruence. Qed.
Lemma area_rev p mid a : signed_area (flat (ring_from p mid)) = Ok a -> signed_area (flat (rev (ring_from p mid))) = Ok (- a)%R.
Proof. rewrite area_closed. intros E. apply ok_eq in E. subst a. rewrite ring_rev, area_closed, <- ring_rev, shoelace_rev. f_equal. lra. Qed.
Lemma area_shift p mid d : signed_area (flat (shift d (ring_from p mid))) = signed_area (flat (ring_from p mid)).
Proof.
  assert (E : shift d (ring_from p mid) = ring_from (fst p + fst d, snd p + snd d)%R (shift d mid)) by (unfold shift, ring_from; cbn [map]; rewrite map_app; reflexivity).
  rewrite E, !area_closed, <- E. f_equal. unfold ring_from. rewrite shoelace_shift.
  replace (last (p :: mid ++ [p]) p) with p by (change (p :: mid ++ [p]) with ((p :: mid) ++ [p]); rewrite last_last; reflexivity). f_equal. ring.
Qed.
(** Another start *)
Lemma area_rotate p u q v : signed_area (flat (ring_from p (u ++ q :: v))) = signed_area (flat (ring_from q (v ++ p :: u))).
Proof.
  rewrite !area_closed. do 2 f_equal. unfold ring_from. rewrite <- !app_assoc. cbn [app].
  change (p :: u ++ q :: v ++ [p]) with ((p :: u) ++ q :: v ++ [p]). change (q :: v ++ p :: u ++ [q]) with ((q :: v) ++ p :: u ++ [q]).
  rewrite (shoelace_app (p :: u)), (shoelace_app (q :: v)). cbn [app]. lra.
Qed.
(** A chord from the first point *)
Lemma area_chord p u q v a b : signed_area (flat (ring_from p (u ++ [q]))) = Ok a -> signed_area (flat (ring_from p (q :: v))) = Ok b ->
  signed_area (flat (ring_from p (u ++ q :: v))) = Ok (a + b)%R.
Proof.
  rewrite !area_closed. intros A B. apply ok_eq in A. apply ok_eq in B. subst a b. f_equal. unfold ring_from. rewrite <- !app_assoc. cbn [app].
  change (p :: u ++ q :: v ++ [p]) with ((p :: u) ++ q :: v ++ [p]). change (p :: u ++ [q; p]) with ((p :: u) ++ q :: [p]).
  rewrite (shoelace_app (p :: u) q (v ++ [p])), (shoelace_app (p :: u) q [p]). cbn [app].
  change (shoelace (p :: q :: v ++ [p])) with (fst p * snd q - fst q * snd p + shoelace (q :: v ++ [p]))%R.
  cbn [shoelace]. unfold Rdiv. ring.
Qed.
Lemma area_outcome (T : Type) (N : PyNum T) (l : list (list T)) :
  (~ planar l -> signed_area l = Err ValueError) /\
  (planar l -> length l = 1%nat -> signed_area l = Err IndexError) /\
  (planar l -> (2 <= length l)%nat -> exists a, signed_area l = Ok a).
Proof.
  split; [apply area_value_error|]. split; [|apply area_some]. intros P L. destruct l as [|p [|q l]]; try discriminate. apply area_index_error, P.
Qed.
