(** Names: folding, mapping and the Jaro similarity. *)
From Coq Require Import Lia Permutation Lqa Qfield.
From Verif Require Import Num NamesModel NamesSpec NamesProofs.
Open Scope Z_scope.

(** * ascii *)
Lemma trans_skip table c : ~ In c (map fst table) -> trans_get table c = c.
Proof.
  induction table as [|[a b] r IH]; intros N; [reflexivity|]. cbn. destruct (Z.eqb_spec a c) as [->|_]; [exfalso; apply N; left; reflexivity|].
  apply IH. intros I. apply N. right. exact I.
Qed.
Definition fold_char (c : Z) : Z := trans_get (combine (src_lower ++ src_upper) (dst_lower ++ dst_upper)) c.
Lemma ascii_map s : ascii s = map fold_char s.
Proof. reflexivity. Qed.
Definition listed : list Z := src_lower ++ src_upper.
Lemma listed_spec c : In c listed <-> exists b, lower_base c b \/ upper_base c b.
Proof.
  split.
  - intros I. unfold listed, src_lower, src_upper in I. cbn [app] in I. unfold lower_base, upper_base.
    repeat (destruct I as [<-|I]; [eexists; cbn; intuition reflexivity|]). destruct I.
  - intros (b & H). unfold lower_base, upper_base in H. cbn [In] in H. cbn. intuition (subst; auto 60).
Qed.
Lemma fold_char_listed c b : lower_base c b \/ upper_base c b -> fold_char c = b.
Proof. unfold lower_base, upper_base. cbn [In]. intros H. intuition (subst; reflexivity). Qed.
Lemma fold_char_other c : ~ In c listed -> fold_char c = c.
Proof. intros N. apply trans_skip. exact N. Qed.
Lemma fold_char_folds c : folds c (fold_char c).
Proof.
  unfold folds. destruct (in_dec Z.eq_dec c listed) as [I|N].
  - apply listed_spec in I. destruct I as (b & I). rewrite (fold_char_listed c b I). tauto.
  - right. right. split; [apply fold_char_other, N|]. intros x. split; intros I; apply N, listed_spec; exists x; auto.
Qed.
Lemma ascii_folds s : Forall2 folds s (ascii s).
Proof. rewrite ascii_map. induction s as [|c s IH]; constructor; [apply fold_char_folds|exact IH]. Qed.
Lemma folds_unique c b b' : folds c b -> folds c b' -> b = b'.
Proof.
  assert (U : forall b, lower_base c b \/ upper_base c b -> b = fold_char c) by (intros x I; symmetry; apply fold_char_listed, I).
  unfold folds. intros [A|[A|[-> A]]] [B|[B|[-> B]]]; try (rewrite (U b), (U b') by tauto; reflexivity); try (destruct (A b'); tauto); try (destruct (B b); tauto). reflexivity.
Qed.
Lemma listed_big c : In c listed -> 128 <= c.
Proof. intros I. unfold listed in I. cbn in I. intuition lia. Qed.
Lemma fold_small c b : lower_base c b \/ upper_base c b -> 0 <= b < 128.
Proof. unfold lower_base, upper_base. intuition lia. Qed.
Lemma ascii_plain s : Forall (fun c => 0 <= c < 128) s -> ascii s = s.
Proof.
  intros F. rewrite ascii_map. induction F as [|c s B F IH]; [reflexivity|]. cbn [map]. rewrite IH, fold_char_other; [reflexivity|].
  intros I. apply listed_big in I. lia.
Qed.
Lemma ascii_twice s : ascii (ascii s) = ascii s.
Proof.
  rewrite (ascii_map (ascii s)), (ascii_map s), map_map. apply map_ext. intros c. destruct (in_dec Z.eq_dec c listed) as [I|N].
  - apply listed_spec in I. destruct I as (b & I). rewrite (fold_char_listed c b I). apply fold_char_other. intros J. apply listed_big in J. apply fold_small in I. lia.
  - rewrite !(fold_char_other c N). reflexivity.
Qed.
Lemma ascii_length s : length (ascii s) = length s.
Proof. apply map_length. Qed.

(** * Errors *)
Lemma ndivE_Q (x y : Q) : ~ (y == 0)%Q -> ndivE x y = Ok (x / y)%Q.
Proof. intros N. unfold ndivE. change (Num.neq y (nofZ 0)) with (Qeq_bool y 0). apply Qeq_bool_false in N. rewrite N. reflexivity. Qed.
Lemma strerr_ok s t : s <> [] \/ t <> [] -> exists e : Q, strerr s t = Ok e /\ error s t e.
Proof.
  intros N. unfold strerr. destruct (damlev_ok s t) as (d & E & D). rewrite E. cbn [bind].
  assert (P : 0 < Z.of_nat (length s) + Z.of_nat (length t)) by (destruct s, t; cbn [length]; lia || (exfalso; destruct N; congruence)).
  assert (Z0 : ~ (inject_Z (Z.of_nat (length s) + Z.of_nat (length t)) == 0)%Q).
  { intros X. unfold Qeq, inject_Z in X. cbn in X. lia. }
  rewrite ndivE_Q by exact Z0. eexists. split; [reflexivity|]. exists d. split; [exact D|].
  rewrite Nat2Z.inj_add, (Z.mul_comm d 2). cbn [nofZ NumQ]. field. exact Z0.
Qed.
Lemma strerr_empty : strerr (T := Q) [] [] = Err ZeroDivisionError.
Proof. reflexivity. Qed.
Lemma len_pos (s t : list Z) : s <> [] \/ t <> [] -> ~ (inject_Z (Z.of_nat (length s + length t)) == 0)%Q.
Proof. intros N X. unfold Qeq, inject_Z in X. cbn in X. destruct s, t; cbn in X; try lia. destruct N; congruence. Qed.
Lemma error_unique s t e e' : s <> [] \/ t <> [] -> error s t e -> error s t e' -> (e == e')%Q.
Proof.
  intros N (d & D & E) (d' & D' & E'). rewrite (distance_unique s t d d' D D') in E. apply len_pos in N. rewrite <- E' in E.
  apply Qmult_inj_r in E; assumption.
Qed.

(** * The least error *)
Definition am_step (st : Q * Z * Z) (x : Q) : Q * Z * Z := let '(best, at_, k) := st in if nlt x best then (x, k, k + 1) else (best, at_, k + 1).
Lemma argmin_loop all r best at_ k : k = Z.of_nat (length all) - Z.of_nat (length r) ->
  (exists done, all = done ++ r /\ nth_error done (Z.to_nat at_) = Some best /\ 0 <= at_ /\
    forall j x, nth_error done j = Some x -> (best <= x)%Q /\ ((j < Z.to_nat at_)%nat -> (best < x)%Q)) ->
  let at' := snd (fst (fold_left am_step r (best, at_, k))) in
  0 <= at' /\ exists b, nth_error all (Z.to_nat at') = Some b /\
    forall j x, nth_error all j = Some x -> (b <= x)%Q /\ ((j < Z.to_nat at')%nat -> (b < x)%Q).
Proof.
  revert best at_ k. induction r as [|y r IH]; intros best at_ k Ek (dn & -> & Nb & P & M); cbn [fold_left].
  - cbn. rewrite app_nil_r. split; [exact P|]. exists best. split; assumption.
  - assert (L : k = Z.of_nat (length dn)) by (rewrite Ek, app_length; cbn [length]; lia).
    cbn [am_step]. destruct (nlt y best) eqn:E.
    + apply IH; [rewrite app_length in *; cbn [length] in *; lia|]. apply Qlt_bool_true in E.
      exists (dn ++ [y]). split; [rewrite <- app_assoc; reflexivity|]. clear Ek. subst k.
      split; [rewrite Nat2Z.id, nth_error_app2, Nat.sub_diag by lia; reflexivity|]. split; [lia|].
      intros j x Ej. rewrite Nat2Z.id. destruct (Nat.lt_ge_cases j (length dn)) as [Lj|Lj].
      * rewrite nth_error_app1 in Ej by exact Lj. destruct (M j x Ej) as [A _]. split; [lra|intros _; lra].
      * rewrite nth_error_app2 in Ej by exact Lj. destruct (j - length dn)%nat eqn:Ed; [|destruct n; discriminate].
        injection Ej as <-. split; [lra|lia].
    + apply IH; [rewrite app_length in *; cbn [length] in *; lia|]. apply Qlt_bool_false in E.
      exists (dn ++ [y]). split; [rewrite <- app_assoc; reflexivity|].
      assert (La : (Z.to_nat at_ < length dn)%nat) by (apply nth_error_Some; congruence).
      split; [rewrite nth_error_app1 by exact La; exact Nb|]. split; [exact P|].
      intros j x Ej. destruct (Nat.lt_ge_cases j (length dn)) as [Lj|Lj].
      * rewrite nth_error_app1 in Ej by exact Lj. apply (M j x Ej).
      * rewrite nth_error_app2 in Ej by exact Lj. destruct (j - length dn)%nat eqn:Ed; [|destruct n; discriminate].
        injection Ej as <-. split; [exact E|lia].
Qed.
Lemma argmin_ok (ds : list Q) : ds <> [] -> exists i b, argmin ds = Ok (Z.of_nat i) /\ nth_error ds i = Some b /\
  forall j x, nth_error ds j = Some x -> (b <= x)%Q /\ ((j < i)%nat -> (b < x)%Q).
Proof.
  destruct ds as [|d r]; [congruence|]. intros _. pose proof (argmin_loop (d :: r) r d 0 1) as H. cbv zeta in H.
  destruct H as (P & b & Nb & M).
  - cbn [length]. lia.
  - exists [d]. split; [reflexivity|]. split; [reflexivity|]. split; [lia|]. intros [|[|j]] x Ej; try discriminate. injection Ej as <-. split; [lra|lia].
  - exists (Z.to_nat (snd (fst (fold_left am_step r (d, 0, 1))))), b. split; [|split; [exact Nb|exact M]].
    cbn [argmin]. f_equal. fold am_step. lia.
Qed.

(** * Sorting *)
Notation mat := (str * str * Q)%type.
Definition higher (q p : mat) : bool := nlt (nsub (nofZ 0) (snd q)) (nsub (nofZ 0) (snd p)).
Lemma higher_spec q p : higher q p = true <-> (snd p < snd q)%Q.
Proof. unfold higher. cbn [nlt nsub nofZ NumQ]. rewrite Qlt_bool_true. change (inject_Z 0) with 0%Q. split; intros; lra. Qed.
Lemma higher_false q p : higher q p = false <-> (snd q <= snd p)%Q.
Proof. unfold higher. cbn [nlt nsub nofZ NumQ]. rewrite Qlt_bool_false. change (inject_Z 0) with 0%Q. split; intros; lra. Qed.
Lemma insert_eq (p q : mat) r : insert_match p (q :: r) = if higher q p then q :: insert_match p r else p :: q :: r.
Proof. reflexivity. Qed.
Lemma insert_perm (p : mat) l : Permutation (p :: l) (insert_match p l).
Proof.
  induction l as [|q r IH]; [reflexivity|]. rewrite insert_eq. destruct (higher q p); [|reflexivity].
  rewrite perm_swap. constructor. exact IH.
Qed.
Lemma sort_perm (l : list mat) : Permutation l (fold_right insert_match [] l).
Proof. induction l as [|p l IH]; [reflexivity|]. cbn. rewrite <- insert_perm. constructor. exact IH. Qed.
Lemma insert_desc p l : descending l -> descending (insert_match p l).
Proof.
  induction l as [|q r IH]; intros D; [cbn; tauto|]. rewrite insert_eq. destruct D as [Dq Dr]. destruct (higher q p) eqn:E.
  - apply higher_spec in E. split; [|apply IH, Dr]. intros m I. apply (Permutation_in _ (Permutation_sym (insert_perm p r))) in I.
    destruct I as [<-|I]; [lra|apply Dq, I].
  - apply higher_false in E. split; [|split; assumption]. intros m [<-|I]; [exact E|]. specialize (Dq m I). lra.
Qed.
Lemma sort_desc l : descending (fold_right insert_match [] l).
Proof. induction l as [|p l IH]; [exact I|]. cbn [fold_right]. apply insert_desc, IH. Qed.
Definition scored (q : Q) (m : mat) : bool := Qeq_bool (snd m) q.
Lemma insert_filter q p l : descending l -> filter (scored q) (insert_match p l) = filter (scored q) (p :: l).
Proof.
  induction l as [|m r IH]; intros D; [reflexivity|]. rewrite insert_eq. destruct D as [Dm Dr]. destruct (higher m p) eqn:E; [|reflexivity].
  cbn [filter]. rewrite (IH Dr). cbn [filter]. apply higher_spec in E. destruct (scored q m) eqn:Em, (scored q p) eqn:Ep; try reflexivity.
  unfold scored in Em, Ep. apply Qeq_bool_true in Em, Ep. lra.
Qed.
Lemma sort_filter q l : filter (scored q) (fold_right insert_match [] l) = filter (scored q) l.
Proof. induction l as [|p l IH]; [reflexivity|]. cbn [fold_right]. rewrite insert_filter by apply sort_desc. cbn [filter]. rewrite IH. reflexivity. Qed.

(** * mapping *)
Lemma mapM_total {A B} (f : A -> res B) (P : A -> B -> Prop) l : (forall x, In x l -> exists y, f x = Ok y /\ P x y) ->
  exists ys, mapM f l = Ok ys /\ Forall2 P l ys.
Proof.
  induction l as [|x l IH]; intros H; [exists []; split; [reflexivity|constructor]|].
  destruct (H x (or_introl eq_refl)) as (y & E & Py). destruct IH as (ys & Es & F); [intros z I; apply H; right; exact I|].
  exists (y :: ys). cbn. rewrite E. cbn [bind]. rewrite Es. cbn [bind]. split; [reflexivity|]. constructor; assumption.
Qed.
Lemma F2_nth {A B} (P : A -> B -> Prop) l l' i x : Forall2 P l l' -> nth_error l i = Some x -> exists y, nth_error l' i = Some y /\ P x y.
Proof.
  intros F. revert i. induction F as [|a b l l' Pab F IH]; intros [|i] E; try discriminate; [injection E as <-; exists b; auto|apply IH, E].
Qed.
Lemma F2_nth' {A B} (P : A -> B -> Prop) l l' i y : Forall2 P l l' -> nth_error l' i = Some y -> exists x, nth_error l i = Some x /\ P x y.
Proof.
  intros F. revert i. induction F as [|a b l l' Pab F IH]; intros [|i] E; try discriminate; [injection E as <-; exists a; auto|apply IH, E].
Qed.
Lemma get_nth {A} (l : list A) i x : nth_error l i = Some x -> py_get l (Z.of_nat i) = Ok x.
Proof.
  intros E. assert (L : (i < length l)%nat) by (apply nth_error_Some; congruence).
  destruct (py_get_nonneg l (Z.of_nat i)) as (y & G & Ny); [lia|]. rewrite Nat2Z.id, E in Ny. injection Ny as ->. exact G.
Qed.
Lemma match_one_ok values key : values <> [] -> (key = [] -> ~ In [] values) ->
  exists m, match_one values key = Ok m /\ closest values key m.
Proof.
  intros N K. unfold match_one.
  assert (K' : forall v, In v values -> key <> [] \/ v <> []).
  { intros v I. destruct key; [right; intros ->; apply K; auto|left; discriminate]. }
  destruct (mapM_total (strerr key) (error key) values) as (ds & Ed & F); [intros v I; apply strerr_ok, K', I|].
  rewrite Ed. cbn [bind]. destruct (argmin_ok ds) as (i & b & Ea & Nb & M); [inversion F; subst; congruence|].
  rewrite Ea. cbn [bind]. destruct (F2_nth' _ _ _ _ _ F Nb) as (v & Nv & Ev). rewrite (get_nth _ _ _ Nv), (get_nth _ _ _ Nb). cbn [bind].
  eexists. split; [reflexivity|]. split; [reflexivity|]. exists i, b. cbn [fst snd]. split; [exact Nv|]. split; [exact Ev|]. split; [reflexivity|].
  intros j v' e' Nj Ej. destruct (F2_nth _ _ _ _ _ F Nj) as (x & Nx & Ex). destruct (M j x Nx) as [A B].
  assert (X : (x == e')%Q) by (apply (error_unique key v'); [apply K'; eapply nth_error_In; exact Nj|assumption|assumption]).
  split; [lra|intros Lj; specialize (B Lj); lra].
Qed.
Lemma mapping_ok keys values : keys = [] \/ values <> [] -> (In [] keys -> ~ In [] values) ->
  exists m m0, mapping keys values = Ok m /\ Forall2 (closest values) keys m0 /\ Permutation m0 m /\ descending m /\
    forall q, filter (scored q) m = filter (scored q) m0.
Proof.
  intros V K. unfold mapping. destruct (mapM_total (match_one values) (closest values) keys) as (m0 & E & F).
  { intros k I. apply match_one_ok; [destruct V as [->|V]; [destruct I|exact V]|]. intros ->. apply K, I. }
  rewrite E. cbn [bind]. eexists _, m0. split; [reflexivity|]. split; [exact F|]. split; [apply sort_perm|]. split; [apply sort_desc|].
  intros q. apply sort_filter.
Qed.
Lemma mapM_err {A B} (f : A -> res B) l e : mapM f l = Err e -> exists x, In x l /\ f x = Err e.
Proof.
  induction l as [|x l IH]; cbn; [discriminate|]. destruct (f x) eqn:E; cbn [bind].
  - destruct (mapM f l) eqn:E'; cbn [bind]; [discriminate|]. intros X. injection X as ->. destruct IH as (y & I & Ey); [reflexivity|]. exists y. auto.
  - intros X. injection X as ->. exists x. auto.
Qed.
Lemma mapping_no_values keys : keys <> [] -> mapping (T := Q) keys [] = Err ValueError.
Proof. destruct keys; [congruence|reflexivity]. Qed.
Lemma strerr_err (k v : str) e : strerr (T := Q) k v = Err e -> e = ZeroDivisionError.
Proof.
  unfold strerr. destruct (damlev_ok k v) as (d & Ed & _). rewrite Ed. cbn [bind]. unfold ndivE. destruct (Num.neq _ _); congruence.
Qed.
Lemma empty_errors values : In [] values -> mapM (strerr (T := Q) []) values = Err ZeroDivisionError.
Proof.
  intros V. destruct (mapM (strerr (T := Q) []) values) as [l|e] eqn:E.
  - exfalso. revert l E. induction values as [|v values IH]; intros l E; [destruct V|]. cbn [mapM] in E.
    destruct (strerr (T := Q) [] v) eqn:Ev; [|discriminate]. cbn [bind] in E.
    destruct (mapM _ values) eqn:Em in E; [|discriminate]. destruct V as [->|V]; [discriminate|]. exact (IH V _ Em).
  - f_equal. apply mapM_err in E. destruct E as (v & _ & E). apply strerr_err in E. exact E.
Qed.
Lemma mapping_empty_pair keys values : In [] keys -> In [] values -> mapping (T := Q) keys values = Err ZeroDivisionError.
Proof.
  intros K V. unfold mapping.
  assert (O : forall k, k = [] \/ exists m, match_one (T := Q) values k = Ok m).
  { intros [|c k]; [left; reflexivity|]. right. destruct (match_one_ok values (c :: k)) as (m & E & _); [intros ->; destruct V|discriminate|]. exists m. exact E. }
  assert (B : match_one (T := Q) values [] = Err ZeroDivisionError) by (unfold match_one; rewrite empty_errors by exact V; reflexivity).
  enough (X : mapM (match_one (T := Q) values) keys = Err ZeroDivisionError) by (rewrite X; reflexivity).
  induction keys as [|k keys IH]; [destruct K|]. cbn [mapM]. destruct (O k) as [->|(m & E)]; [rewrite B; reflexivity|].
  rewrite E. cbn [bind]. destruct K as [->|K]; [congruence|]. rewrite (IH K). reflexivity.
Qed.
Lemma abbreviations_fails upper names n : names <> [] -> abbreviations upper names n = Err NameError.
Proof. destruct names; [congruence|reflexivity]. Qed.
