(** Names: the edit distance. *)
From Coq Require Import Lia Permutation.
From Verif Require Import Num NamesModel NamesSpec.
Open Scope Z_scope.

(** * Alignments *)
Lemma align_app s t k s' t' k' : align s t k -> align s' t' k' -> align (s ++ s') (t ++ t') (k + k').
Proof.
  intros A. revert s' t' k'. induction A; intros s' t' k' A'; cbn [app].
  - exact A'.
  - apply align_match, IHA, A'.
  - replace (k + 1 + k') with (k + k' + 1) by lia. apply align_subst, IHA, A'.
  - replace (k + 1 + k') with (k + k' + 1) by lia. apply align_delete, IHA, A'.
  - replace (k + 1 + k') with (k + k' + 1) by lia. apply align_insert, IHA, A'.
  - replace (k + 1 + k') with (k + k' + 1) by lia. apply align_swap, IHA, A'.
Qed.
Lemma align_rev s t k : align s t k -> align (rev s) (rev t) k.
Proof.
  intros A. induction A; cbn [rev].
  - constructor.
  - replace k with (k + 0) by lia. apply align_app; [exact IHA|]. apply align_match. constructor.
  - apply align_app; [exact IHA|]. apply (align_subst a b [] [] 0). constructor.
  - rewrite <- (app_nil_r (rev t)). apply align_app; [exact IHA|]. apply (align_delete a [] [] 0). constructor.
  - rewrite <- (app_nil_r (rev s)). apply align_app; [exact IHA|]. apply (align_insert b [] [] 0). constructor.
  - rewrite <- !app_assoc. cbn [app]. apply align_app; [exact IHA|]. apply (align_swap b a [] [] 0). constructor.
Qed.
Lemma align_sym s t k : align s t k -> align t s k.
Proof. intros A. induction A; constructor; assumption. Qed.
Lemma align_nonneg s t k : align s t k -> 0 <= k.
Proof. intros A. induction A; lia. Qed.
Lemma align_zero s t : align s t 0 -> s = t.
Proof.
  intros A. remember 0 as k eqn:E. induction A; try (apply align_nonneg in A; lia).
  - reflexivity.
  - f_equal. apply IHA, E.
Qed.
Lemma align_same s : align s s 0.
Proof. induction s; constructor; assumption. Qed.
Lemma align_diff s t k : align s t k -> Z.abs (Z.of_nat (length s) - Z.of_nat (length t)) <= k.
Proof. intros A. induction A; cbn [length]; lia. Qed.
Lemma align_ins_all t : align [] t (Z.of_nat (length t)).
Proof. induction t as [|b t IH]; [constructor|]. cbn [length]. rewrite Nat2Z.inj_succ. apply align_insert, IH. Qed.
Lemma align_max s t : exists k, align s t k /\ k <= Z.max (Z.of_nat (length s)) (Z.of_nat (length t)).
Proof.
  revert t. induction s as [|a s IH]; intros [|b t].
  - exists 0. split; [constructor|cbn; lia].
  - exists (Z.of_nat (length (b :: t))). split; [apply align_ins_all|cbn [length]; lia].
  - exists (Z.of_nat (length (a :: s))). split; [apply align_sym, align_ins_all|cbn [length]; lia].
  - destruct (IH t) as (k & A & L). exists (k + 1). split; [apply align_subst, A|cbn [length]; lia].
Qed.

(** * The least cost *)
Lemma distance_rev s t d : distance s t d -> distance (rev s) (rev t) d.
Proof.
  intros [A M]. split; [apply align_rev, A|]. intros k B. apply M.
  rewrite <- (rev_involutive s), <- (rev_involutive t). apply align_rev, B.
Qed.
Lemma distance_nil_l t : distance [] t (Z.of_nat (length t)).
Proof. split; [apply align_ins_all|]. intros k A. apply align_diff in A. cbn [length] in A. lia. Qed.
Lemma distance_nil_r s : distance s [] (Z.of_nat (length s)).
Proof. split; [apply align_sym, align_ins_all|]. intros k A. apply align_diff in A. cbn [length] in A. lia. Qed.
Lemma distance_unique s t d d' : distance s t d -> distance s t d' -> d = d'.
Proof. intros [A M] [A' M']. apply M in A'. apply M' in A. lia. Qed.

Lemma align_heads a b s t k : align (a :: s) (b :: t) k ->
  (a = b /\ align s t k) \/ (exists k', k = k' + 1 /\ (align s t k' \/ align s (b :: t) k' \/ align (a :: s) t k' \/
    exists s' t', s = b :: s' /\ t = a :: t' /\ align s' t' k')).
Proof. intros A. inversion A; subst; [left; auto|right; eexists; split; [reflexivity|]; eauto 8..]. Qed.
(** One step on heads, without the swap *)
Lemma distance_step a b s t del ins sub : distance s (b :: t) del -> distance (a :: s) t ins -> distance s t sub ->
  (forall s' t', s = b :: s' -> t = a :: t' -> False) ->
  distance (a :: s) (b :: t) (Z.min (Z.min (del + 1) (ins + 1)) (sub + (if a =? b then 0 else 1))).
Proof.
  intros [Ad Md] [Ai Mi] [As Ms] N. split.
  - destruct (Z.min_spec (Z.min (del + 1) (ins + 1)) (sub + (if a =? b then 0 else 1))) as [[_ ->]|[_ ->]].
    + destruct (Z.min_spec (del + 1) (ins + 1)) as [[_ ->]|[_ ->]]; [apply align_delete, Ad|apply align_insert, Ai].
    + destruct (Z.eqb_spec a b) as [->|_].
      * replace (sub + 0) with sub by lia. apply align_match, As.
      * apply align_subst, As.
  - intros k A. apply align_heads in A. destruct A as [[-> A]|(k' & -> & [A|[A|[A|(s' & t' & -> & -> & A)]]])].
    + rewrite Z.eqb_refl. apply Ms in A. lia.
    + apply Ms in A. destruct (a =? b); lia.
    + apply Md in A. lia.
    + apply Mi in A. lia.
    + exfalso. eapply N; reflexivity.
Qed.
(** with the swap *)
Lemma distance_swap a b s t del ins sub swp : distance (b :: s) (b :: a :: t) del -> distance (a :: b :: s) (a :: t) ins ->
  distance (b :: s) (a :: t) sub -> distance s t swp ->
  distance (a :: b :: s) (b :: a :: t)
    (Z.min (Z.min (Z.min (del + 1) (ins + 1)) (sub + (if a =? b then 0 else 1))) (swp + (if a =? b then 0 else 1))).
Proof.
  intros [Ad Md] [Ai Mi] [As Ms] [Aw Mw]. split.
  - destruct (Z.min_spec (Z.min (Z.min (del + 1) (ins + 1)) (sub + (if a =? b then 0 else 1))) (swp + (if a =? b then 0 else 1))) as [[_ ->]|[_ ->]].
    + destruct (Z.min_spec (Z.min (del + 1) (ins + 1)) (sub + (if a =? b then 0 else 1))) as [[_ ->]|[_ ->]].
      * destruct (Z.min_spec (del + 1) (ins + 1)) as [[_ ->]|[_ ->]]; [apply align_delete, Ad|apply align_insert, Ai].
      * destruct (Z.eqb_spec a b) as [->|_].
        -- replace (sub + 0) with sub by lia. apply align_match, As.
        -- apply align_subst, As.
    + destruct (Z.eqb_spec a b) as [->|_].
      * replace (swp + 0) with swp by lia. apply align_match, align_match, Aw.
      * apply align_swap, Aw.
  - intros k A. apply align_heads in A. destruct A as [[-> A]|(k' & -> & [A|[A|[A|(s' & t' & Es & Et & A)]]])].
    + rewrite Z.eqb_refl. apply Ms in A. lia.
    + apply Ms in A. destruct (a =? b); lia.
    + apply Md in A. lia.
    + apply Mi in A. lia.
    + injection Es as <-. injection Et as <-. apply Mw in A. destruct (a =? b); lia.
Qed.

(** * The table *)
Lemma firstn_snoc {A} (l : list A) n x : nth_error l n = Some x -> firstn (S n) l = firstn n l ++ [x].
Proof. revert n. induction l as [|y l IH]; intros [|n] E; cbn in *; try discriminate; [injection E as ->; reflexivity|f_equal; apply IH, E]. Qed.
Definition pre (n : Z) (s : str) : str := firstn (Z.to_nat (n + 1)) s.
Definition cell_ok (s1 s2 : str) (d : cells) (i j : Z) : Prop :=
  exists v, cell_get d i j = Ok v /\ distance (pre i s1) (pre j s2) v.
Lemma pre_snoc s i x : 0 <= i < Z.of_nat (length s) -> py_get s i = Ok x -> pre i s = pre (i - 1) s ++ [x].
Proof.
  intros N E. unfold pre. destruct (py_get_nonneg s i N) as (y & E' & En). rewrite E in E'. injection E' as <-.
  replace (Z.to_nat (i + 1)) with (S (Z.to_nat i)) by lia. rewrite (firstn_snoc _ _ _ En). f_equal. f_equal. lia.
Qed.
Lemma distance_of_rev s t d : distance (rev s) (rev t) d -> distance s t d.
Proof. intros D. rewrite <- (rev_involutive s), <- (rev_involutive t). apply distance_rev, D. Qed.
Lemma py_get_in {A} (l : list A) i : 0 <= i < Z.of_nat (length l) -> exists x, py_get l i = Ok x.
Proof. intros B. destruct (py_get_nonneg l i B) as (x & E & _). exists x. exact E. Qed.
Lemma cell_get_head i j v d : cell_get ((i, j, v) :: d) i j = Ok v.
Proof. cbn. rewrite !Z.eqb_refl. reflexivity. Qed.
Lemma cell_get_other i j v d i' j' : (i, j) <> (i', j') -> cell_get ((i, j, v) :: d) i' j' = cell_get d i' j'.
Proof. intros N. cbn. destruct (Z.eqb_spec i i'), (Z.eqb_spec j j'); subst; cbn; try reflexivity. congruence. Qed.

(** The inner body keeps all other cells and fills in (i, j). *)
Lemma cell_step s1 s2 i j d : 0 <= i < Z.of_nat (length s1) -> 0 <= j < Z.of_nat (length s2) ->
  cell_ok s1 s2 d (i - 1) j -> cell_ok s1 s2 d i (j - 1) -> cell_ok s1 s2 d (i - 1) (j - 1) ->
  (i <> 0 -> j <> 0 -> cell_ok s1 s2 d (i - 2) (j - 2)) ->
  exists d', damlev_cell s1 s2 i d j = Ok d' /\ cell_ok s1 s2 d' i j /\
    forall i' j', (i, j) <> (i', j') -> cell_get d' i' j' = cell_get d i' j'.
Proof.
  intros Bi Bj (del & Gd & Dd) (ins & Gi & Di) (sub & Gs & Ds) W. unfold damlev_cell.
  destruct (py_get_in s1 i Bi) as (a & Ea). destruct (py_get_in s2 j Bj) as (b & Eb).
  rewrite Ea, Eb, Gd, Gi, Gs. cbn [bind].
  set (m := Z.min (Z.min (del + 1) (ins + 1)) (sub + (if a =? b then 0 else 1))).
  assert (Pa : rev (pre i s1) = a :: rev (pre (i - 1) s1)) by (rewrite (pre_snoc s1 i a), rev_app_distr; [reflexivity|lia|exact Ea]).
  assert (Pb : rev (pre j s2) = b :: rev (pre (j - 1) s2)) by (rewrite (pre_snoc s2 j b), rev_app_distr; [reflexivity|lia|exact Eb]).
  apply distance_rev in Dd, Di, Ds. rewrite Pb in Dd. rewrite Pa in Di.
  assert (Plain : (forall s' t', rev (pre (i - 1) s1) = b :: s' -> rev (pre (j - 1) s2) = a :: t' -> False) ->
    exists d', Ok ((i, j, m) :: d) = Ok d' /\ cell_ok s1 s2 d' i j /\ (forall i' j', (i, j) <> (i', j') -> cell_get d' i' j' = cell_get d i' j')).
  { intros N. eexists. split; [reflexivity|]. split.
    - exists m. split; [apply cell_get_head|]. apply distance_of_rev. rewrite Pa, Pb. unfold m. apply distance_step; assumption.
    - intros i' j' Ne. apply cell_get_other, Ne. }
  destruct (Z.eqb_spec i 0) as [I0|I0]; cbn [negb andb].
  { apply Plain. intros s' t' E1 _. subst i. unfold pre in E1. discriminate. }
  destruct (Z.eqb_spec j 0) as [J0|J0]; cbn [negb andb].
  { apply Plain. intros s' t' _ E2. subst j. unfold pre in E2. discriminate. }
  destruct (py_get_in s2 (j - 1)) as (b' & Eb'); [lia|]. destruct (py_get_in s1 (i - 1)) as (a' & Ea'); [lia|].
  assert (Pa' : rev (pre (i - 1) s1) = a' :: rev (pre (i - 2) s1)).
  { rewrite (pre_snoc s1 (i - 1) a'), rev_app_distr; [|lia|exact Ea']. cbn. do 2 f_equal. f_equal. lia. }
  assert (Pb' : rev (pre (j - 1) s2) = b' :: rev (pre (j - 2) s2)).
  { rewrite (pre_snoc s2 (j - 1) b'), rev_app_distr; [|lia|exact Eb']. cbn. do 2 f_equal. f_equal. lia. }
  rewrite Eb'. cbn [bind]. destruct (Z.eqb_spec a b') as [<-|Nb]; [|apply Plain; intros s' t' _ E2; rewrite Pb' in E2; congruence].
  rewrite Ea'. cbn [bind]. destruct (Z.eqb_spec a' b) as [->|Na]; [|apply Plain; intros s' t' E1 _; rewrite Pa' in E1; congruence].
  rewrite cell_get_head. cbn [bind]. destruct (W I0 J0) as (swp & Gw & Dw). rewrite cell_get_other by (intros E; injection E; lia). rewrite Gw. cbn [bind].
  eexists. split; [reflexivity|]. split.
  - eexists. split; [apply cell_get_head|]. apply distance_of_rev. rewrite Pa, Pb, Pa', Pb'. rewrite Pa' in Dd, Di, Ds. rewrite Pb' in Dd, Di, Ds.
    apply distance_rev in Dw. unfold m. apply distance_swap; assumption.
  - intros i' j' Ne. rewrite !cell_get_other by exact Ne. reflexivity.
Qed.

(** * The loops *)
Definition done (s1 s2 : str) (d : cells) (i j : Z) : Prop :=
  forall i' j', -1 <= i' < Z.of_nat (length s1) -> -1 <= j' < Z.of_nat (length s2) ->
    i' < i \/ (i' = i /\ j' < j) \/ i' = -1 \/ j' = -1 -> cell_ok s1 s2 d i' j'.
Lemma foldM_app {A S} (f : S -> A -> res S) l1 l2 s : foldM f (l1 ++ l2) s = (s' <- foldM f l1 s ;; foldM f l2 s').
Proof. revert s. induction l1 as [|x l1 IH]; intros s; [reflexivity|]. cbn. destruct (f s x); cbn; [apply IH|reflexivity]. Qed.
Lemma zrange_snoc n : zrange (S n) = zrange n ++ [Z.of_nat n].
Proof. unfold zrange. rewrite seq_S, map_app. reflexivity. Qed.
Lemma inner_loop s1 s2 i d n : 0 <= i < Z.of_nat (length s1) -> (n <= length s2)%nat -> done s1 s2 d i 0 ->
  exists d', foldM (damlev_cell s1 s2 i) (zrange n) d = Ok d' /\ done s1 s2 d' i (Z.of_nat n).
Proof.
  intros Bi. revert d. induction n as [|n IH]; intros d L D.
  - exists d. split; [reflexivity|exact D].
  - destruct (IH d) as (d' & E & D'); [lia|exact D|]. rewrite zrange_snoc, foldM_app, E. cbn [bind foldM].
    destruct (cell_step s1 s2 i (Z.of_nat n) d') as (d'' & E' & C & K); [exact Bi|lia|apply D'; lia|apply D'; lia|apply D'; lia|intros; apply D'; lia|].
    rewrite E'. cbn [bind]. exists d''. split; [reflexivity|]. intros i' j' Bi' Bj' H.
    destruct (Z.eq_dec i' i) as [->|Ni].
    + destruct (Z.eq_dec j' (Z.of_nat n)) as [->|Nj]; [exact C|].
      destruct (D' i j' Bi' Bj') as (v & G & Dv); [lia|]. exists v. split; [|exact Dv]. rewrite K; [exact G|intros X; injection X; lia].
    + destruct (D' i' j' Bi' Bj') as (v & G & Dv); [lia|]. exists v. split; [|exact Dv]. rewrite K; [exact G|intros X; injection X; lia].
Qed.
Lemma outer_loop s1 s2 d n : (n <= length s1)%nat -> done s1 s2 d 0 0 ->
  exists d', foldM (fun d i => foldM (damlev_cell s1 s2 i) (zrange (length s2)) d) (zrange n) d = Ok d' /\ done s1 s2 d' (Z.of_nat n) 0.
Proof.
  revert d. induction n as [|n IH]; intros d L D.
  - exists d. split; [reflexivity|exact D].
  - destruct (IH d) as (d' & E & D'); [lia|exact D|]. rewrite zrange_snoc, foldM_app, E. cbn [bind foldM].
    destruct (inner_loop s1 s2 (Z.of_nat n) d' (length s2)) as (d'' & E' & D''); [lia|lia|exact D'|]. rewrite E'. cbn [bind].
    exists d''. split; [reflexivity|]. intros i' j' Bi Bj H. apply D''; [assumption|assumption|]. lia.
Qed.
Lemma column_fill l d i j : cell_get (fold_left (fun d i => (i, -1, i + 1) :: d) l d) i j =
  if (if in_dec Z.eq_dec i l then true else false) && (j =? -1) then Ok (i + 1) else cell_get d i j.
Proof.
  revert d. induction l as [|x l IH]; intros d; [reflexivity|]. cbn [fold_left]. rewrite IH. clear IH.
  destruct (in_dec Z.eq_dec i l) as [I|I], (in_dec Z.eq_dec i (x :: l)) as [I'|I']; cbn [andb].
  - destruct (j =? -1) eqn:E; [reflexivity|]. apply cell_get_other. intros X. injection X as _ X. subst. discriminate.
  - exfalso. apply I'. right. exact I.
  - destruct I' as [->|I']; [|tauto]. destruct (Z.eqb_spec j (-1)) as [->|E]; [apply cell_get_head|]. apply cell_get_other. congruence.
  - apply cell_get_other. intros X. injection X as -> _. apply I'. left. reflexivity.
Qed.
Lemma row_fill l d i j : cell_get (fold_left (fun d j => (-1, j, j + 1) :: d) l d) i j =
  if (if in_dec Z.eq_dec j l then true else false) && (i =? -1) then Ok (j + 1) else cell_get d i j.
Proof.
  revert d. induction l as [|x l IH]; intros d; [reflexivity|]. cbn [fold_left]. rewrite IH. clear IH.
  destruct (in_dec Z.eq_dec j l) as [I|I], (in_dec Z.eq_dec j (x :: l)) as [I'|I']; cbn [andb].
  - destruct (i =? -1) eqn:E; [reflexivity|]. apply cell_get_other. intros X. injection X as X _. subst. discriminate.
  - exfalso. apply I'. right. exact I.
  - destruct I' as [->|I']; [|tauto]. destruct (Z.eqb_spec i (-1)) as [->|E]; [apply cell_get_head|]. apply cell_get_other. congruence.
  - apply cell_get_other. intros X. injection X as _ ->. apply I'. left. reflexivity.
Qed.
Lemma from_minus_one_in n k : In k (from_minus_one n) <-> -1 <= k < n.
Proof.
  unfold from_minus_one, zrange. rewrite in_map_iff. split.
  - intros (x & <- & I). apply in_map_iff in I. destruct I as (y & <- & I). apply in_seq in I. lia.
  - intros B. exists (k + 1). split; [lia|]. apply in_map_iff. exists (Z.to_nat (k + 1)). split; [lia|]. apply in_seq. lia.
Qed.
Lemma damlev_ok s1 s2 : exists d, damlev s1 s2 = Ok d /\ distance s1 s2 d.
Proof.
  unfold damlev. cbv zeta. match goal with |- context [foldM _ _ ?d] => set (d0 := d) end.
  assert (D : done s1 s2 d0 0 0).
  { intros i j Bi Bj H. unfold d0, cell_ok. rewrite row_fill, column_fill.
    destruct (in_dec Z.eq_dec j _) as [Ij|Ij]; [|exfalso; apply Ij, from_minus_one_in; lia].
    destruct (in_dec Z.eq_dec i _) as [Ii|Ii]; [|exfalso; apply Ii, from_minus_one_in; lia]. cbn [andb].
    destruct (Z.eqb_spec i (-1)) as [->|Ni].
    - exists (j + 1). split; [reflexivity|]. change (pre (-1) s1) with (@nil Z).
      replace (j + 1) with (Z.of_nat (length (pre j s2))) by (unfold pre; rewrite firstn_length; lia). apply distance_nil_l.
    - destruct (Z.eqb_spec j (-1)) as [->|Nj]; [|lia]. exists (i + 1). split; [reflexivity|]. change (pre (-1) s2) with (@nil Z).
      replace (i + 1) with (Z.of_nat (length (pre i s1))) by (unfold pre; rewrite firstn_length; lia). apply distance_nil_r. }
  clearbody d0. destruct (outer_loop s1 s2 d0 (length s1)) as (d' & E & D'); [lia|exact D|]. rewrite E. cbn [bind].
  destruct (D' (Z.of_nat (length s1) - 1) (Z.of_nat (length s2) - 1)) as (v & G & Dv); [lia|lia|lia|].
  exists v. split; [exact G|]. unfold pre in Dv. replace (Z.to_nat (Z.of_nat (length s1) - 1 + 1)) with (length s1) in Dv by lia.
  replace (Z.to_nat (Z.of_nat (length s2) - 1 + 1)) with (length s2) in Dv by lia. rewrite !firstn_all in Dv. exact Dv.
Qed.

(** * Laws *)
Lemma distance_sym s t d : distance s t d -> distance t s d.
Proof. intros [A M]. split; [apply align_sym, A|]. intros k B. apply M, align_sym, B. Qed.
Lemma damlev_sym s t : damlev s t = damlev t s.
Proof.
  destruct (damlev_ok s t) as (d & E & D), (damlev_ok t s) as (d' & E' & D'). rewrite E, E'. f_equal.
  eapply distance_unique; [exact D|apply distance_sym, D'].
Qed.
Lemma damlev_zero s t : damlev s t = Ok 0 <-> s = t.
Proof.
  destruct (damlev_ok s t) as (d & E & A & M). rewrite E. split.
  - intros X. injection X as ->. apply align_zero, A.
  - intros ->. f_equal. pose proof (M 0 (align_same t)). apply align_nonneg in A. lia.
Qed.
Lemma damlev_bounds s t : exists d, damlev s t = Ok d /\
  Z.abs (Z.of_nat (length s) - Z.of_nat (length t)) <= d <= Z.max (Z.of_nat (length s)) (Z.of_nat (length t)).
Proof.
  destruct (damlev_ok s t) as (d & E & A & M). exists d. split; [exact E|]. split; [apply align_diff, A|].
  destruct (align_max s t) as (k & B & L). apply M in B. lia.
Qed.
