(** The cached module on doubles: every call returns what the formulas give,
    rounded at each step, whatever was called before. *)
From Coq Require Import ZArith Reals Lia Lra List SpecFloat.
From Flocq Require Import Core IEEE754.BinarySingleNaN.
From Verif Require RealNum.
From Verif Require Import Num FloatLib RasterAA GridFloat StatsModel StatsSpec StatsCache StatsFloatModel StatsFloatSpec StatsFloatLib.
Import ListNotations.
Open Scope R_scope.

(** ** The rounded formulas *)
Definition nR (L : list R) : R := IZR (Z.of_nat (length L)).
Definition avgR (L : list R) : R := rnd (rnd (total L) / nR L).
Definition sqR (u x : R) : R := rnd (rnd (x - u) * rnd (x - u)).
Definition varR (L : list R) : R := rnd (rnd (total (map (sqR (avgR L)) L)) / nR L).
Definition stdR (L : list R) : R := rnd (sqrt (varR L)).
Definition termR (n u v x y : R) : R := rnd (rnd (rnd (x - u) * rnd (y - v)) / n).
Fixpoint covL (n u v : R) (A B : list R) (c : R) : R :=
  match A, B with x :: r, y :: s => covL n u v r s (rnd (c + termR n u v x y)) | _, _ => c end.
Definition covR (A B : list R) : R := covL (nR A) (avgR A) (avgR B) A B 0.
Definition prodR (A B : list R) : R := rnd (stdR A * stdR B).
Definition corrR (A B : list R) : R := rnd (covR A B / prodR A B).
(** The sum over pairs, and the sum weighted by rank. *)
Fixpoint kakL (L : list R) (s : R) : R :=
  match L with [] => s | x :: r => kakL r (fold_left (fun s y => rnd (s + Rabs (rnd (x - y)))) r s) end.
Fixpoint deaL (i : Z) (L : list R) (s : R) : R :=
  match L with [] => s | x :: r => deaL (i + 1) r (rnd (s + rnd (IZR i * x))) end.
Definition orders (L : list R) : Z := (Z.of_nat (length L) * (Z.of_nat (length L) - 1))%Z.
Definition sortedR (L : list R) : list R := @sort_desc R RealNum.NumR L.
Definition kakR (L : list R) : R := rnd (rnd (rnd (2 * kakL L 0) / IZR (orders L)) / rnd (2 * avgR L)).
Definition deaR (L : list R) : R :=
  rnd (rnd (IZR (Z.of_nat (length L) + 1) / IZR (Z.of_nat (length L) - 1)) -
       rnd (rnd (2 * deaL 0 (sortedR L) (rnd (total L))) / rnd (IZR (orders L) * avgR L))).

Lemma isf_neq (x y : f64) a b : isf x a -> isf y b -> neq x y = Req_bool a b.
Proof. exact (isf_eq x y a b). Qed.
Lemma isf_nlt (x y : f64) a b : isf x a -> isf y b -> nlt x y = Rlt_bool a b.
Proof. exact (isf_lt x y a b). Qed.
(** ** Magnitudes *)
Lemma nR_pos L : L <> [] -> 1 <= nR L.
Proof. intros N. unfold nR. destruct L; [contradiction|]. apply IZR_le. cbn [length]. lia. Qed.
Lemma nR_le L : (Z.of_nat (length L) <= 2 ^ 20)%Z -> nR L <= bpow radix2 20.
Proof. intros N. unfold nR. change (bpow radix2 20) with (IZR (2 ^ 20)). apply IZR_le. exact N. Qed.
Lemma isf_n z : (0 <= z <= 2 ^ 20)%Z -> isf (nofZ z : f64) (IZR z).
Proof. intros B. apply isf_int. lia. Qed.
Lemma total_bound L b : Forall (fun x => Rabs x <= b) L -> Rabs (total L) <= nR L * b.
Proof.
  unfold nR. induction 1 as [|x L B _ IH]; [cbn; rewrite Rabs_R0; lra|]. cbn [length]. rewrite Nat2Z.inj_succ, succ_IZR. cbn [total fold_right] in *.
  pose proof (Rabs_triang x (fold_right Rplus 0 L)). unfold total in IH. lra.
Qed.
Lemma total_bpow L e : Forall (fun x => Rabs x <= bpow radix2 e) L -> (Z.of_nat (length L) <= 2 ^ 20)%Z -> Rabs (total L) <= bpow radix2 (20 + e).
Proof.
  intros B N. eapply Rle_trans; [apply total_bound; exact B|]. rewrite bpow_plus. apply Rmult_le_compat_r; [apply bpow_ge_0|]. apply nR_le. exact N.
Qed.
Lemma div_abs a n b : 1 <= n -> Rabs a <= b -> Rabs (a / n) <= b.
Proof.
  intros N B. unfold Rdiv. rewrite Rabs_mult, (Rabs_pos_eq (/ n)) by (left; apply Rinv_0_lt_compat; lra).
  assert (/ n <= 1) by (rewrite <- Rinv_1; apply Rinv_le; lra). assert (0 < / n) by (apply Rinv_0_lt_compat; lra).
  pose proof (Rabs_pos a). nra.
Qed.
Lemma mean_bpow L e : (-1000 <= e)%Z -> L <> [] -> Forall (fun x => Rabs x <= bpow radix2 e) L -> (Z.of_nat (length L) <= 2 ^ 20)%Z ->
  Rabs (rnd (rnd (total L) / nR L)) <= bpow radix2 (20 + e).
Proof.
  intros E N B Z. apply rnd_abs_le; [lia|]. apply div_abs; [apply nR_pos; exact N|]. apply rnd_abs_le; [lia|]. apply total_bpow; assumption.
Qed.
Lemma avg_bpow L : L <> [] -> tame L -> Rabs (avgR L) <= bpow radix2 120.
Proof. intros N [B Z]. apply (mean_bpow L 100); [lia|exact N|exact B|exact Z]. Qed.
Lemma dev_bpow u x : Rabs u <= bpow radix2 120 -> Rabs x <= bpow radix2 100 -> Rabs (x - u) <= bpow radix2 121.
Proof.
  intros U X. assert (bpow radix2 100 <= bpow radix2 120) by (apply bpow_le; lia).
  replace (bpow radix2 121) with (2 * bpow radix2 120) by (change 2 with (bpow radix2 1); rewrite <- bpow_plus; reflexivity).
  unfold Rminus. eapply Rle_trans; [apply Rabs_triang|]. rewrite Rabs_Ropp. lra.
Qed.
Lemma mul_bpow a b e f : Rabs a <= bpow radix2 e -> Rabs b <= bpow radix2 f -> Rabs (a * b) <= bpow radix2 (e + f).
Proof. intros A B. rewrite Rabs_mult, bpow_plus. apply Rmult_le_compat; try apply Rabs_pos; assumption. Qed.
Lemma rdev_bpow u x : Rabs u <= bpow radix2 120 -> Rabs x <= bpow radix2 100 -> Rabs (rnd (x - u)) <= bpow radix2 121.
Proof. intros U X. apply rnd_abs_le; [lia|]. apply dev_bpow; assumption. Qed.
Lemma sq_bpow u x : Rabs u <= bpow radix2 120 -> Rabs x <= bpow radix2 100 -> Rabs (sqR u x) <= bpow radix2 242.
Proof. intros U X. apply rnd_abs_le; [lia|]. apply (mul_bpow _ _ 121 121); apply rdev_bpow; assumption. Qed.
Lemma sqs_bpow u L : Rabs u <= bpow radix2 120 -> Forall (fun x => Rabs x <= bpow radix2 100) L -> Forall (fun x => Rabs x <= bpow radix2 242) (map (sqR u) L).
Proof. intros U. induction 1; cbn [map]; constructor; [apply sq_bpow; assumption|assumption]. Qed.
Lemma sq_nonneg u x : 0 <= sqR u x.
Proof. unfold sqR. rewrite <- (rnd_IZR 0) by (cbn; lia). apply rnd_le. apply Rle_0_sqr. Qed.
Lemma total_pos L : Forall (fun x => 0 <= x) L -> 0 <= total L.
Proof. induction 1; cbn [total fold_right] in *; [lra|]. unfold total in *. lra. Qed.
Lemma rnd_pos r : 0 <= r -> 0 <= rnd r.
Proof. intros P. rewrite <- (rnd_IZR 0) by (cbn; lia). apply rnd_le. exact P. Qed.
Lemma sqs_pos u L : Forall (fun x => 0 <= x) (map (sqR u) L).
Proof. apply Forall_forall. intros x I. apply in_map_iff in I. destruct I as (y & <- & _). apply sq_nonneg. Qed.
Lemma var_nonneg L : L <> [] -> 0 <= varR L.
Proof.
  intros N. pose proof (nR_pos L N). apply rnd_pos. apply Rmult_le_pos; [|left; apply Rinv_0_lt_compat; lra]. apply rnd_pos. apply total_pos. apply sqs_pos.
Qed.
Lemma nR_map {f} L : nR (map f L) = nR L. Proof. unfold nR. rewrite map_length. reflexivity. Qed.
Lemma var_bpow L : L <> [] -> tame L -> Rabs (varR L) <= bpow radix2 262.
Proof.
  intros N T. unfold varR. rewrite <- (nR_map (f := sqR (avgR L)) L). apply (mean_bpow _ 242); [lia| | |].
  - destruct L; [contradiction|discriminate].
  - apply sqs_bpow; [apply avg_bpow; assumption|apply T].
  - rewrite map_length. apply T.
Qed.
Lemma std_bpow L : L <> [] -> tame L -> 0 <= stdR L <= bpow radix2 131.
Proof.
  intros N T. pose proof (var_nonneg L N). split; [apply rnd_pos; apply sqrt_pos|].
  eapply Rle_trans; [apply Rle_abs|]. apply rnd_abs_le; [lia|]. rewrite Rabs_pos_eq by apply sqrt_pos.
  rewrite <- (sqrt_square (bpow radix2 131)) by apply bpow_ge_0. apply sqrt_le_1_alt. rewrite <- bpow_plus. change (131 + 131)%Z with 262%Z.
  eapply Rle_trans; [apply Rle_abs|apply var_bpow; assumption].
Qed.
Lemma term_bpow n u v x y : 1 <= n -> Rabs u <= bpow radix2 120 -> Rabs v <= bpow radix2 120 -> Rabs x <= bpow radix2 100 -> Rabs y <= bpow radix2 100 ->
  Rabs (termR n u v x y) <= bpow radix2 242.
Proof.
  intros N U V X Y. apply rnd_abs_le; [lia|]. apply div_abs; [exact N|]. apply rnd_abs_le; [lia|]. apply (mul_bpow _ _ 121 121); apply rdev_bpow; assumption.
Qed.
(** Partial sums: [k] terms stay below k * 2^243. *)
Lemma acc_bound c t k : (0 <= k <= 2 ^ 20)%Z -> Rabs c <= IZR k * bpow radix2 243 -> Rabs t <= bpow radix2 242 ->
  Rabs (rnd (c + t)) <= IZR (k + 1) * bpow radix2 243 /\ small (c + t).
Proof.
  intros K C T.
  assert (D : bpow radix2 243 = 2 * bpow radix2 242) by (change 2 with (bpow radix2 1); rewrite <- bpow_plus; reflexivity).
  assert (S : Rabs (c + t) <= IZR (k + 1) * bpow radix2 243 - bpow radix2 242).
  { eapply Rle_trans; [apply Rabs_triang|]. rewrite plus_IZR. lra. }
  assert (KB : 1 <= IZR (k + 1) <= 1048577) by (split; apply IZR_le; lia).
  pose proof (bpow_gt_0 radix2 242) as P.
  split.
  - pose proof (rnd_near (c + t) _ S) as N. pose proof tiny. assert (bpow radix2 (-800) <= bpow radix2 200) by (apply bpow_le; lia).
    assert (H20 : bpow radix2 242 = 4398046511104 * bpow radix2 200) by (change 4398046511104 with (bpow radix2 42); rewrite <- bpow_plus; reflexivity).
    pose proof (Rabs_triang (c + t) (rnd (c + t) - (c + t))) as TT. replace (c + t + (rnd (c + t) - (c + t))) with (rnd (c + t)) in TT by ring.
    assert (Q : (IZR (k + 1) * bpow radix2 243 - bpow radix2 242) * / 9007199254740992 <= bpow radix2 242 / 4).
    { rewrite D. nra. }
    lra.
  - apply small200. eapply Rle_trans; [exact S|]. assert (F : bpow radix2 242 * 2199023255552 <= bpow radix2 400).
    { change 2199023255552 with (bpow radix2 41). rewrite <- bpow_plus. apply bpow_le. lia. }
    rewrite D. nra.
Qed.

(** ** Keys *)
Lemma tup_vals k : forall K k' K', reads k K -> reads k' K' -> tup_eqb k k' = true -> K = K'.
Proof.
  induction k as [|x r IH]; intros K k' K' A B E; destruct k' as [|y s]; try discriminate; inversion A; inversion B; subst; [reflexivity|].
  cbn [tup_eqb] in E. apply andb_prop in E. destruct E as [E1 E2]. f_equal; [|eapply IH; eassumption].
  match goal with H : isf x ?a, H' : isf y ?b |- _ => change (neq x y) with (SFeqb x y) in E1; rewrite (isf_eq x y a b H H') in E1; destruct (Req_bool_spec a b); [assumption|discriminate] end.
Qed.
Definition reads2 (p : list f64 * list f64) (P : list R * list R) : Prop := reads (fst p) (fst P) /\ reads (snd p) (snd P).
Lemma tup2_vals k : forall K k' K', reads2 k K -> reads2 k' K' -> tup2_eqb k k' = true -> K = K'.
Proof.
  intros [A B] k' [A' B'] [H1 H2] [H3 H4] E. unfold tup2_eqb in E. apply andb_prop in E. destruct E as [E1 E2]. cbn [fst snd] in *.
  f_equal; eapply tup_vals; eassumption.
Qed.
Lemma find_in {K V} (keq : K -> K -> bool) k (l : list (K * V)) e : lru_find keq k l = Some e -> In e l /\ keq k (fst e) = true.
Proof.
  induction l as [|x r IH]; [discriminate|]. cbn [lru_find]. destruct (keq k (fst x)) eqn:Q.
  - intros F. injection F as <-. split; [left; reflexivity|exact Q].
  - intros F. destruct (IH F). split; [right; assumption|assumption].
Qed.

(** ** The invariant *)
Definition cacheP {K KR V} (rel : K -> KR -> Prop) (P : KR -> V -> Prop) (c : lru K V) : Prop :=
  forall e, In e (l_entries c) -> exists L, rel (fst e) L /\ P L (snd e).
Definition P_max (L : list R) (x : f64) : Prop := exists v, isf x v /\ In v L /\ forall y, In y L -> y <= v.
Definition P_min (L : list R) (x : f64) : Prop := exists v, isf x v /\ In v L /\ forall y, In y L -> v <= y.
Definition P_len (L : list R) (n : Z) : Prop := n = Z.of_nat (length L).
Definition P_avg (L : list R) (x : f64) : Prop := L <> [] /\ isf x (avgR L).
Definition P_var (L : list R) (x : f64) : Prop := L <> [] /\ isf x (varR L).
Definition P_std (L : list R) (x : f64) : Prop := L <> [] /\ isf x (stdR L).
Definition P_cov (P : list R * list R) (x : f64) : Prop :=
  fst P <> [] /\ (length (fst P) <= length (snd P))%nat /\ isf x (covR (fst P) (snd P)).
Definition P_corr (P : list R * list R) (x : f64) : Prop :=
  fst P <> [] /\ (length (fst P) <= length (snd P))%nat /\ prodR (fst P) (snd P) <> 0 /\
  (bpow radix2 (-500) <= varR (fst P) -> bpow radix2 (-500) <= varR (snd P) -> isf x (corrR (fst P) (snd P))).
Definition P_kak (L : list R) (x : f64) : Prop :=
  (2 <= length L)%nat /\ rnd (2 * avgR L) <> 0 /\ (bpow radix2 (-500) <= avgR L -> isf x (kakR L)).
Definition P_dea (L : list R) (x : f64) : Prop :=
  (2 <= length L)%nat /\ rnd (IZR (orders L) * avgR L) <> 0 /\ (bpow radix2 (-500) <= avgR L -> isf x (deaR L)).
Definition sumP (st : stats f64) : Prop :=
  (forall e, In e (l_entries (s_sum st)) -> exists L, reads (sumkey_values (fst e)) L /\ isf (snd e) (rnd (total L))) /\
  (forall i l v, In (SGen i l, v) (l_entries (s_sum st)) -> (i < s_gen st)%Z).
Record goodF (st : stats f64) : Prop := mkgoodF {
  gf_max : cacheP reads P_max (s_max st); gf_min : cacheP reads P_min (s_min st);
  gf_sum : sumP st; gf_len : cacheP reads P_len (s_len st); gf_avg : cacheP reads P_avg (s_avg st);
  gf_var : cacheP reads P_var (s_var st); gf_std : cacheP reads P_std (s_std st);
  gf_cov : cacheP reads2 P_cov (s_cov st); gf_corr : cacheP reads2 P_corr (s_corr st);
  gf_kak : cacheP reads P_kak (s_kak st); gf_dea : cacheP reads P_dea (s_dea st) }.
Lemma cacheP_empty {K KR V} (rel : K -> KR -> Prop) (P : KR -> V -> Prop) : cacheP rel P lru_empty.
Proof. intros e []. Qed.
Lemma goodF0 : goodF stats0.
Proof. split; try apply cacheP_empty. split; [intros e []|intros i l v []]. Qed.

Definition out {A} (P : A -> Prop) (E : exn -> Prop) (r : res A) : Prop := match r with Ok v => P v | Err e => E e end.
Definition givesF {A} (m : stats f64 -> stats f64 * res A) (P : A -> Prop) (E : exn -> Prop) : Prop :=
  forall st, goodF st -> goodF (fst (m st)) /\ out P E (snd (m st)).
Lemma givesF_ret {A} (r : res A) P E : out P E r -> givesF (mret r) P E.
Proof. intros O st G. split; [exact G|exact O]. Qed.
Lemma givesF_bind {A B} (m : stats f64 -> stats f64 * res A) (f : A -> stats f64 -> stats f64 * res B) P E P' (E' : exn -> Prop) :
  givesF m P E -> (forall e, E e -> E' e) -> (forall a, P a -> givesF (f a) P' E') -> givesF (mbind m f) P' E'.
Proof.
  intros M I F st G. unfold mbind. destruct (M st G) as [G' O]. destruct (m st) as [st' [a|e]]; cbn [fst snd out] in *.
  - apply F; assumption.
  - split; [exact G'|apply I; exact O].
Qed.
Lemma givesF_weak {A} (m : stats f64 -> stats f64 * res A) (P P' : A -> Prop) (E E' : exn -> Prop) :
  givesF m P E -> (forall a, P a -> P' a) -> (forall e, E e -> E' e) -> givesF m P' E'.
Proof. intros M HP HE st G. destruct (M st G) as [G' O]. split; [exact G'|]. destruct (snd (m st)); cbn [out] in *; auto. Qed.
Lemma givesF_memo {K KR V} (keq : K -> K -> bool) (rel : K -> KR -> Prop) (dom : KR -> Prop) (get : stats f64 -> lru K V) put max f
    (P : KR -> V -> Prop) (E : KR -> exn -> Prop) :
  (forall k L k' L', rel k L -> rel k' L' -> keq k k' = true -> L = L') ->
  (forall st, goodF st -> cacheP rel P (get st)) ->
  (forall c st, goodF st -> cacheP rel P c -> goodF (put c st)) ->
  (forall k L, rel k L -> dom L -> givesF (f k) (P L) (E L)) ->
  forall k L, rel k L -> dom L -> givesF (memo keq get put max f (Some k)) (P L) (E L).
Proof.
  intros KE GC PC F k L KL D st G. unfold memo. destruct (lru_lookup keq k (get st)) as [e|] eqn:Lk.
  - unfold lru_lookup in Lk. apply find_in in Lk. destruct Lk as [I Q]. pose proof (GC st G) as C. split; cbn [fst snd out].
    + apply PC; [exact G|]. intros x [<-|X]; [apply C; exact I|]. apply C. eapply remove_incl. exact X.
    + destruct (C e I) as (L' & R' & PV). rewrite (KE k L (fst e) L' KL R' Q). exact PV.
  - destruct (F k L KL D (put (lru_miss (get st)) st)) as [G' O].
    { apply PC; [exact G|]. exact (GC st G). }
    destruct (f k (put (lru_miss (get st)) st)) as [st' [v|e]]; cbn [fst snd out] in *.
    + split; [|exact O]. apply PC; [exact G'|]. unfold lru_store. intros x [<-|X]; [exists L; auto|]. apply (GC st' G').
      destruct (Nat.leb _ _) in X; [apply removelast_incl in X|]; exact X.
    + split; [exact G'|exact O].
Qed.
Definition never (e : exn) : Prop := False.

Lemma fold_maxF r : forall x X L, isf x X -> reads r L -> exists v, isf (fold_left nmax r x) v /\ In v (X :: L) /\ forall y, In y (X :: L) -> y <= v.
Proof.
  induction r as [|y r IH]; intros x X L I F; inversion F; subst; cbn [fold_left].
  - exists X. split; [exact I|]. split; [left; reflexivity|]. intros y [->|[]]. lra.
  - rename y0 into Y, l' into L'. rename H1 into J, H3 into F'.
    assert (C : (nlt x y = true /\ X < Y) \/ (nlt x y = false /\ Y <= X)).
    { change (nlt x y) with (SFltb x y). rewrite (isf_lt x y X Y I J). destruct (Rlt_bool_spec X Y); auto. }
    unfold nmax at 2. destruct C as [[-> C]|[-> C]].
    + destruct (IH y Y L' J F') as (v & V & M & B). exists v. split; [exact V|]. split; [right; exact M|].
      intros z [<-|Z]; [|apply B; exact Z]. specialize (B Y (or_introl eq_refl)). lra.
    + destruct (IH x X L' I F') as (v & V & M & B). exists v. split; [exact V|]. split; [destruct M as [M|M]; [left; exact M|right; right; exact M]|].
      intros z [<-|[<-|Z]]; [apply B; left; reflexivity| |apply B; right; exact Z]. specialize (B X (or_introl eq_refl)). lra.
Qed.
Lemma fold_minF r : forall x X L, isf x X -> reads r L -> exists v, isf (fold_left nmin r x) v /\ In v (X :: L) /\ forall y, In y (X :: L) -> v <= y.
Proof.
  induction r as [|y r IH]; intros x X L I F; inversion F; subst; cbn [fold_left].
  - exists X. split; [exact I|]. split; [left; reflexivity|]. intros y [->|[]]. lra.
  - rename y0 into Y, l' into L'. rename H1 into J, H3 into F'.
    assert (C : (nlt y x = true /\ Y < X) \/ (nlt y x = false /\ X <= Y)).
    { change (nlt y x) with (SFltb y x). rewrite (isf_lt y x Y X J I). destruct (Rlt_bool_spec Y X); auto. }
    unfold nmin at 2. destruct C as [[-> C]|[-> C]].
    + destruct (IH y Y L' J F') as (v & V & M & B). exists v. split; [exact V|]. split; [right; exact M|].
      intros z [<-|Z]; [|apply B; exact Z]. specialize (B Y (or_introl eq_refl)). lra.
    + destruct (IH x X L' I F') as (v & V & M & B). exists v. split; [exact V|]. split; [destruct M as [M|M]; [left; exact M|right; right; exact M]|].
      intros z [<-|[<-|Z]]; [apply B; left; reflexivity| |apply B; right; exact Z]. specialize (B X (or_introl eq_refl)). lra.
Qed.
Definition E_ext (L : list R) (e : exn) : Prop := L = [] /\ e = ValueError.
Definition E_zero (L : list R) (e : exn) : Prop := L = [] /\ e = ZeroDivisionError.
Ltac memo1 := apply (givesF_memo tup_eqb reads tame _ _ _ _ _ _ tup_vals); [intros st0 G0; apply G0|intros c0 st0 [] C0; split; assumption|].
Lemma max_givesF l L : reads l L -> tame L -> givesF (st_max (Some l)) (P_max L) (E_ext L).
Proof.
  unfold st_max. revert l L. memo1. intros l L F _. apply givesF_ret. inversion F as [|x X r R' I F']; subst; cbn [py_max out]; [split; reflexivity|].
  apply fold_maxF; assumption.
Qed.
Lemma min_givesF l L : reads l L -> tame L -> givesF (st_min (Some l)) (P_min L) (E_ext L).
Proof.
  unfold st_min. revert l L. memo1. intros l L F _. apply givesF_ret. inversion F as [|x X r R' I F']; subst; cbn [py_min out]; [split; reflexivity|].
  apply fold_minF; assumption.
Qed.
Lemma reads_length l L : reads l L -> length l = length L.
Proof. induction 1; cbn [length]; congruence. Qed.
Lemma len_givesF l L : reads l L -> tame L -> givesF (st_len (Some l)) (P_len L) never.
Proof.
  intros A B. apply (givesF_weak _ (P_len L) _ ((fun _ => never) L)); [|auto|auto]. revert l L A B. unfold st_len. memo1.
  intros l L F _. apply givesF_ret. unfold P_len. cbn [out]. rewrite (reads_length l L F). reflexivity.
Qed.

(** ** Sums *)
Definition P_sum (L : list R) (x : f64) : Prop := isf x (rnd (total L)).
Lemma sumF_put c st : goodF st -> (forall e, In e (l_entries c) -> exists L, reads (sumkey_values (fst e)) L /\ isf (snd e) (rnd (total L))) ->
  (forall i l v, In (SGen i l, v) (l_entries c) -> (i < s_gen st)%Z) -> goodF (put_sum c st).
Proof. intros [] A C. split; try assumption. split; [exact A|exact C]. Qed.
Lemma sumF_store st k L : goodF st -> (forall i l, k = SGen i l -> (i < s_gen st)%Z) -> reads (sumkey_values k) L -> small (total L) ->
  goodF (put_sum (lru_store 128 k (nfsum (sumkey_values k)) (lru_miss (s_sum st))) (put_sum (lru_miss (s_sum st)) st)).
Proof.
  intros G I F S. pose proof (gf_sum st G) as (A & C). change (put_sum ?c (put_sum ?d st)) with (put_sum c st). unfold lru_store. cbn [lru_miss l_entries l_hits l_misses].
  assert (Sub : forall e, In e (if Nat.leb 128 (length (l_entries (s_sum st))) then removelast (l_entries (s_sum st)) else l_entries (s_sum st)) -> In e (l_entries (s_sum st))).
  { intros e. destruct (Nat.leb 128 _); [apply removelast_incl|auto]. }
  apply sumF_put; [exact G| |]; cbn [l_entries].
  - intros e [<-|X]; [|apply A; apply Sub; exact X]. exists L. split; [exact F|]. apply isf_fsum; assumption.
  - intros i l v [X|X]; [|eapply C; apply Sub; exact X]. apply pair_equal_spec in X. destruct X as [X _]. eapply I. exact X.
Qed.
Lemma sum_givesF l L : reads l L -> small (total L) -> givesF (st_sum (Some (STup l))) (P_sum L) never.
Proof.
  intros F S st G. unfold st_sum, memo. destruct (lru_lookup sumkey_eqb (STup l) (s_sum st)) as [e|] eqn:Lk.
  - unfold lru_lookup in Lk. apply find_in in Lk. destruct Lk as [I Q]. pose proof (gf_sum st G) as (A & C). cbn [fst snd out]. split.
    + apply sumF_put; [exact G| |]; cbn [lru_hit l_entries].
      * intros x [<-|X]; [apply A; exact I|]. apply A. eapply remove_incl. exact X.
      * intros i m v [X|X]; [rewrite X in Q; discriminate|]. apply remove_incl in X. eapply C. exact X.
    + destruct (A e I) as (L' & R' & V). destruct (fst e) as [m|i m]; [|discriminate]. cbn [sumkey_eqb sumkey_values] in *.
      unfold P_sum. rewrite (tup_vals l L m L' F R' Q). exact V.
  - unfold mret. cbn [fst snd out]. split; [|apply isf_fsum; assumption]. apply (sumF_store st (STup l) L G); [|exact F|exact S]. intros i m X. discriminate.
Qed.
Lemma gen_freshF i l (es : list (sumkey f64 * f64)) : (forall j m v, In (SGen j m, v) es -> (j < i)%Z) -> lru_find sumkey_eqb (SGen i l) es = None.
Proof.
  induction es as [|[k v] r IH]; intros F; [reflexivity|]. cbn [lru_find fst]. destruct k as [m|j m]; cbn [sumkey_eqb].
  - apply IH. intros j m' v' X. eapply F. right. exact X.
  - pose proof (F j m v (or_introl eq_refl)). rewrite (proj2 (Z.eqb_neq i j)) by lia. apply IH. intros j' m' v' X. eapply F. right. exact X.
Qed.
Lemma gen_givesF {B} l L (f : f64 -> stats f64 -> stats f64 * res B) P E : reads l L -> small (total L) ->
  (forall s, isf s (rnd (total L)) -> givesF (f s) P E) -> givesF (mbind (new_gen l) (fun g => mbind (st_sum (Some g)) f)) P E.
Proof.
  intros F S H st G.
  pose (st' := mkstats (s_max st) (s_min st) (s_sum st) (s_len st) (s_avg st) (s_var st) (s_std st) (s_cov st) (s_corr st) (s_kak st) (s_dea st) (s_gen st + 1)%Z).
  assert (G' : goodF st').
  { destruct G as [? ? (A & C)]. split; try assumption. split; [exact A|]. intros i m v X. cbn [s_gen st']. specialize (C i m v X). lia. }
  assert (Lk : lru_lookup sumkey_eqb (SGen (s_gen st) l) (s_sum st') = None).
  { apply gen_freshF. apply G. }
  assert (Q : mbind (new_gen l) (fun g => mbind (st_sum (Some g)) f) st =
    f (nfsum l) (put_sum (lru_store 128 (SGen (s_gen st) l) (nfsum l) (lru_miss (s_sum st'))) (put_sum (lru_miss (s_sum st')) st'))).
  { change (mbind (st_sum (Some (SGen (s_gen st) l))) f st' =
      f (nfsum l) (put_sum (lru_store 128 (SGen (s_gen st) l) (nfsum l) (lru_miss (s_sum st'))) (put_sum (lru_miss (s_sum st')) st'))).
    unfold mbind, st_sum, memo. rewrite Lk. reflexivity. }
  rewrite Q. apply H; [apply isf_fsum; assumption|]. apply (sumF_store st' (SGen (s_gen st) l) L G'); [|exact F|exact S].
  intros i m X. injection X as <- _. cbn [s_gen st']. lia.
Qed.

(** ** The functions *)
Lemma div_len x r L : isf x r -> small (r / nR L) -> (Z.of_nat (length L) <= 2 ^ 20)%Z ->
  out (fun q => L <> [] /\ isf q (rnd (r / nR L))) (E_zero L) (ndivE x (nofZ (Z.of_nat (length L)))).
Proof.
  intros I S N. unfold ndivE. assert (J : isf (nofZ (Z.of_nat (length L)) : f64) (nR L)) by (apply isf_n; lia).
  rewrite (isf_neq _ _ _ _ J (isf_n 0 ltac:(lia))). destruct (Req_bool_spec (nR L) 0) as [Q|Q]; cbn [out].
  - split; [|reflexivity]. destruct L; [reflexivity|]. pose proof (nR_pos (r0 :: L) ltac:(discriminate)). lra.
  - split; [intros ->; apply Q; reflexivity|]. apply isf_fdiv; assumption.
Qed.
Lemma small_mean L e : (-1000 <= e <= 900)%Z -> Forall (fun x => Rabs x <= bpow radix2 e) L -> (Z.of_nat (length L) <= 2 ^ 20)%Z -> small (rnd (total L) / nR L).
Proof.
  intros E B N. destruct L as [|x L].
  - apply small_bpow with 0%Z; [lia|]. unfold nR. cbn [length total fold_right]. rewrite (rnd_IZR 0) by (cbn; lia). unfold Rdiv. rewrite Rmult_0_l, Rabs_R0. apply bpow_ge_0.
  - apply small_bpow with (20 + e)%Z; [lia|]. apply div_abs; [apply nR_pos; discriminate|]. apply rnd_abs_le; [lia|]. apply total_bpow; assumption.
Qed.
Lemma small_total L e : (-1000 <= e <= 900)%Z -> Forall (fun x => Rabs x <= bpow radix2 e) L -> (Z.of_nat (length L) <= 2 ^ 20)%Z -> small (total L).
Proof. intros E B N. apply small_bpow with (20 + e)%Z; [lia|]. apply total_bpow; assumption. Qed.
Lemma avg_givesF l L : reads l L -> tame L -> givesF (st_avg (Some l)) (P_avg L) (E_zero L).
Proof.
  unfold st_avg. revert l L. memo1. intros l L F T. destruct T as [TB TN].
  eapply givesF_bind; [apply (sum_givesF l L F); apply (small_total L 100); [lia|exact TB|exact TN]|intros e []|]. intros s Hs.
  eapply givesF_bind; [apply (len_givesF l L F); split; assumption|intros e []|]. intros n ->. apply givesF_ret.
  apply div_len; [exact Hs| |exact TN]. apply (small_mean L 100); [lia|exact TB|exact TN].
Qed.
Lemma sqs_reads u U l L : isf u U -> Rabs U <= bpow radix2 120 -> reads l L -> Forall (fun x => Rabs x <= bpow radix2 100) L ->
  reads (map (fun x => nmul (nsub x u) (nsub x u)) l) (map (sqR U) L).
Proof.
  intros I B. induction 1 as [|x X l L J _ IH]; intros T; cbn [map]; [constructor|]. inversion T; subst. constructor; [|apply IH; assumption].
  assert (D : isf (nsub x u) (rnd (X - U))) by (apply isf_fsub; [exact J|exact I|]; apply small_bpow with 121%Z; [lia|]; apply dev_bpow; assumption).
  apply isf_fmul; [exact D|exact D|]. apply small_bpow with 242%Z; [lia|]. apply (mul_bpow _ _ 121 121); apply rdev_bpow; assumption.
Qed.
Lemma var_givesF l L : reads l L -> tame L -> givesF (st_var (Some l)) (P_var L) (E_zero L).
Proof.
  unfold st_var. revert l L. memo1. intros l L F T. eapply givesF_bind; [apply (avg_givesF l L F T)|auto|]. intros u [NE Hu].
  pose proof (avg_bpow L NE T) as UB. pose proof (sqs_bpow (avgR L) L UB (proj1 T)) as SB.
  assert (SN : (Z.of_nat (length (map (sqR (avgR L)) L)) <= 2 ^ 20)%Z) by (rewrite map_length; apply T).
  eapply gen_givesF; [apply (sqs_reads u (avgR L) l L Hu UB F (proj1 T))|apply (small_total _ 242); [lia|exact SB|exact SN]|].
  intros s Hs. eapply givesF_bind; [apply (len_givesF l L F T)|intros e []|]. intros n ->. apply givesF_ret.
  apply div_len; [exact Hs| |apply T]. rewrite <- (nR_map (f := sqR (avgR L)) L). apply (small_mean _ 242); [lia|exact SB|exact SN].
Qed.
Lemma std_givesF l L : reads l L -> tame L -> givesF (st_std (Some l)) (P_std L) (E_zero L).
Proof.
  unfold st_std. revert l L. memo1. intros l L F T. eapply givesF_bind; [apply (var_givesF l L F T)|auto|]. intros v [NE Hv]. apply givesF_ret.
  unfold nsqrt, StatF. rewrite (isf_nlt _ _ _ _ Hv (isf_n 0 ltac:(lia))).
  pose proof (var_nonneg L NE) as P. rewrite Rlt_bool_false by exact P. split; [exact NE|]. apply isf_fsqrt; assumption.
Qed.

(** ** Two sequences *)
Definition E_cov (P : list R * list R) (e : exn) : Prop :=
  (fst P = [] \/ snd P = []) /\ e = ZeroDivisionError \/
  snd P <> [] /\ (length (snd P) < length (fst P))%nat /\ e = IndexError.
Definition tame2 (P : list R * list R) : Prop := tame (fst P) /\ tame (snd P).
Lemma loopF n u v U V a A : (1 <= n <= 2 ^ 20)%Z -> isf u U -> isf v V -> Rabs U <= bpow radix2 120 -> Rabs V <= bpow radix2 120 ->
  reads a A -> Forall (fun x => Rabs x <= bpow radix2 100) A -> forall b B c C k, reads b B -> Forall (fun x => Rabs x <= bpow radix2 100) B ->
  isf c C -> (0 <= k)%Z -> (k + Z.of_nat (length A) <= 2 ^ 20)%Z -> Rabs C <= IZR k * bpow radix2 243 ->
  out (fun x => (length A <= length B)%nat /\ isf x (covL (IZR n) U V A B C)) (fun e => (length B < length A)%nat /\ e = IndexError)
    (covar_loop n u v a b c).
Proof.
  intros N Iu Iv BU BV. induction 1 as [|x X a A Ix _ IH]; intros TA b B c C k FB TB Ic K0 K Bc; cbn [covar_loop].
  - split; [cbn; lia|exact Ic].
  - destruct FB as [|y Y b B Iy FB]; [split; [cbn; lia|reflexivity]|]. inversion TA; subst. inversion TB; subst.
    assert (N1 : 1 <= IZR n) by (apply IZR_le; lia).
    assert (D1 : isf (nsub x u) (rnd (X - U))) by (apply isf_fsub; [exact Ix|exact Iu|]; apply small_bpow with 121%Z; [lia|]; apply dev_bpow; assumption).
    assert (D2 : isf (nsub y v) (rnd (Y - V))) by (apply isf_fsub; [exact Iy|exact Iv|]; apply small_bpow with 121%Z; [lia|]; apply dev_bpow; assumption).
    assert (MB : Rabs (rnd (X - U) * rnd (Y - V)) <= bpow radix2 242) by (apply (mul_bpow _ _ 121 121); apply rdev_bpow; assumption).
    assert (M : isf (nmul (nsub x u) (nsub y v)) (rnd (rnd (X - U) * rnd (Y - V)))).
    { apply isf_fmul; [exact D1|exact D2|]. apply small_bpow with 242%Z; [lia|exact MB]. }
    assert (MR : Rabs (rnd (rnd (X - U) * rnd (Y - V))) <= bpow radix2 242) by (apply rnd_abs_le; [lia|exact MB]).
    assert (In' : isf (nofZ n : f64) (IZR n)) by (apply isf_n; lia).
    unfold ndivE. rewrite (isf_neq _ _ _ _ In' (isf_n 0 ltac:(lia))).
    rewrite Req_bool_false by lra. cbn [bind].
    assert (Q : isf (ndiv (nmul (nsub x u) (nsub y v)) (nofZ n)) (termR (IZR n) U V X Y)).
    { apply isf_fdiv; [exact M|exact In'|lra|]. apply small_bpow with 242%Z; [lia|]. apply div_abs; assumption. }
    assert (TBd : Rabs (termR (IZR n) U V X Y) <= bpow radix2 242) by (apply term_bpow; assumption).
    cbn [length] in K. destruct (acc_bound C (termR (IZR n) U V X Y) k ltac:(lia) Bc TBd) as [AB AS].
    assert (IA : isf (nadd c (ndiv (nmul (nsub x u) (nsub y v)) (nofZ n))) (rnd (C + termR (IZR n) U V X Y))) by (apply isf_fadd; assumption).
    specialize (IH ltac:(assumption) b B _ _ (k + 1)%Z FB ltac:(assumption) IA ltac:(lia) ltac:(lia) AB).
    cbn [covL length]. destruct (covar_loop n u v a b _) as [r|e]; cbn [out] in *; (split; [lia|apply IH]).
Qed.
Ltac memo2 := apply (givesF_memo tup2_eqb reads2 tame2 _ _ _ _ _ _ tup2_vals); [intros st0 G0; apply G0|intros c0 st0 [] C0; split; assumption|].
Lemma cov_givesF p P : reads2 p P -> tame2 P -> givesF (st_covar (Some p)) (P_cov P) (E_cov P).
Proof.
  unfold st_covar. revert p P. memo2. intros [a b] [A B] [FA FB] [TA TB]. cbn [fst snd] in *.
  eapply givesF_bind; [apply (len_givesF a A FA TA)|intros e []|]. intros n ->.
  eapply givesF_bind; [apply (avg_givesF a A FA TA)|intros e [Q ->]; left; cbn [fst snd]; auto|]. intros u [NA Hu].
  eapply givesF_bind; [apply (avg_givesF b B FB TB)|intros e [Q ->]; left; cbn [fst snd]; auto|]. intros v [NB Hv].
  apply givesF_ret. destruct TA as [TA NA'].
  assert (1 <= Z.of_nat (length A))%Z by (destruct A; [contradiction|cbn [length]; lia]).
  pose proof (loopF (Z.of_nat (length A)) u v (avgR A) (avgR B) a A ltac:(lia) Hu Hv (avg_bpow A NA (conj TA NA')) (avg_bpow B NB TB) FA TA
    b B (nofZ 0) 0 0%Z FB (proj1 TB) (isf_n 0 ltac:(lia)) ltac:(lia) ltac:(lia) ltac:(rewrite Rabs_R0; lra)) as H'.
  destruct (covar_loop _ _ _ _ _ _) as [r|e]; cbn [out] in *.
  - split; [exact NA|]. exact H'.
  - right. cbn [fst snd]. split; [exact NB|exact H'].
Qed.
(** Magnitude of the covariance. *)
Lemma covL_bound n U V A : 1 <= n -> Rabs U <= bpow radix2 120 -> Rabs V <= bpow radix2 120 -> Forall (fun x => Rabs x <= bpow radix2 100) A ->
  forall B C k, Forall (fun x => Rabs x <= bpow radix2 100) B -> (0 <= k)%Z -> (k + Z.of_nat (length A) <= 2 ^ 20)%Z -> Rabs C <= IZR k * bpow radix2 243 ->
  Rabs (covL n U V A B C) <= bpow radix2 263.
Proof.
  intros N BU BV. induction 1 as [|X A Hx _ IH]; intros B C k TB K0 K Bc.
  - cbn [covL]. eapply Rle_trans; [exact Bc|]. replace (bpow radix2 263) with (bpow radix2 20 * bpow radix2 243) by (rewrite <- bpow_plus; reflexivity).
    apply Rmult_le_compat_r; [apply bpow_ge_0|]. change (bpow radix2 20) with (IZR (2 ^ 20)). apply IZR_le. cbn [length] in K. lia.
  - cbn [length] in K. destruct TB as [|Y B Hy TB]; cbn [covL].
    + eapply Rle_trans; [exact Bc|]. replace (bpow radix2 263) with (bpow radix2 20 * bpow radix2 243) by (rewrite <- bpow_plus; reflexivity).
      apply Rmult_le_compat_r; [apply bpow_ge_0|]. change (bpow radix2 20) with (IZR (2 ^ 20)). apply IZR_le. lia.
    + destruct (acc_bound C (termR n U V X Y) k ltac:(lia) Bc ltac:(apply term_bpow; assumption)) as [AB _].
      apply IH with (k + 1)%Z; [exact TB|lia|lia|exact AB].
Qed.
Lemma cov_bpow A B : A <> [] -> B <> [] -> tame A -> tame B -> Rabs (covR A B) <= bpow radix2 263.
Proof.
  intros NA NB TA TB. apply covL_bound with 0%Z; [apply nR_pos; exact NA|apply avg_bpow; assumption|apply avg_bpow; assumption|apply TA|apply TB|lia|destruct TA; lia|].
  rewrite Rabs_R0. lra.
Qed.
Lemma std_low L : L <> [] -> bpow radix2 (-500) <= varR L -> bpow radix2 (-250) <= stdR L.
Proof.
  intros N V. rewrite <- (rnd_bpow (-250)) by lia. apply rnd_le. rewrite <- (sqrt_square (bpow radix2 (-250))) by apply bpow_ge_0.
  apply sqrt_le_1_alt. rewrite <- bpow_plus. exact V.
Qed.
Lemma prod_low A B : A <> [] -> B <> [] -> bpow radix2 (-500) <= varR A -> bpow radix2 (-500) <= varR B -> bpow radix2 (-500) <= prodR A B.
Proof.
  intros NA NB VA VB. rewrite <- (rnd_bpow (-500)) by lia. apply rnd_le. change (-500)%Z with (-250 + -250)%Z at 1. rewrite bpow_plus.
  apply Rmult_le_compat; try apply bpow_ge_0; apply std_low; assumption.
Qed.
Definition E_corr (P : list R * list R) (e : exn) : Prop :=
  E_cov P e \/ (length (fst P) <= length (snd P))%nat /\ fst P <> [] /\ prodR (fst P) (snd P) = 0 /\ e = ZeroDivisionError.
Lemma corr_givesF p P : reads2 p P -> tame2 P -> givesF (st_corr (Some p)) (P_corr P) (E_corr P).
Proof.
  unfold st_corr. revert p P. memo2. intros [a b] [A B] [FA FB] [TA TB]. cbn [fst snd] in *.
  eapply givesF_bind; [apply (cov_givesF (a, b) (A, B)); split; assumption|intros e H; left; exact H|]. intros c (NA & Le & Hc). cbn [fst snd] in *.
  eapply givesF_bind; [apply (std_givesF a A FA TA)|intros e [Q ->]; left; left; cbn [fst snd]; auto|]. intros d [_ Hd].
  eapply givesF_bind; [apply (std_givesF b B FB TB)|intros e [Q ->]; left; left; cbn [fst snd]; auto|]. intros d' [NB Hd'].
  apply givesF_ret. pose proof (std_bpow A NA TA) as SA. pose proof (std_bpow B NB TB) as SB.
  assert (M : isf (nmul d d') (prodR A B)).
  { apply isf_fmul; [exact Hd|exact Hd'|]. apply small_bpow with 262%Z; [lia|]. apply (mul_bpow _ _ 131 131); rewrite Rabs_pos_eq; lra. }
  unfold ndivE. rewrite (isf_neq _ _ _ _ M (isf_n 0 ltac:(lia))).
  destruct (Req_bool_spec (prodR A B) 0) as [Q|Q]; cbn [out].
  - right. cbn [fst snd]. auto.
  - split; [exact NA|]. split; [exact Le|]. split; [exact Q|]. cbn [fst snd]. intros VA VB. apply isf_fdiv; [exact Hc|exact M|exact Q|].
    pose proof (prod_low A B NA NB VA VB) as PL. pose proof (cov_bpow A B NA NB TA TB) as CB. apply small_bpow with 763%Z; [lia|].
    unfold Rdiv. apply (mul_bpow _ _ 263 500); [exact CB|]. pose proof (bpow_gt_0 radix2 (-500)).
    rewrite Rabs_pos_eq by (left; apply Rinv_0_lt_compat; lra). change 500%Z with (- (-500))%Z. rewrite bpow_opp. apply Rinv_le; [apply bpow_gt_0|exact PL].
Qed.
(** ** Gini coefficients *)
Lemma acc_bound2 c t k : (0 <= k <= 2 ^ 41)%Z -> Rabs c <= IZR k * bpow radix2 131 -> Rabs t <= bpow radix2 130 ->
  Rabs (rnd (c + t)) <= IZR (k + 1) * bpow radix2 131 /\ small (c + t).
Proof.
  intros K C T.
  assert (D : bpow radix2 131 = 2 * bpow radix2 130) by (change 2 with (bpow radix2 1); rewrite <- bpow_plus; reflexivity).
  assert (S : Rabs (c + t) <= IZR (k + 1) * bpow radix2 131 - bpow radix2 130).
  { eapply Rle_trans; [apply Rabs_triang|]. rewrite plus_IZR. lra. }
  assert (KB : 1 <= IZR (k + 1) <= 2199023255553) by (split; apply IZR_le; lia).
  pose proof (bpow_gt_0 radix2 130) as P.
  split.
  - pose proof (rnd_near (c + t) _ S) as N. pose proof tiny. assert (bpow radix2 (-800) <= bpow radix2 100) by (apply bpow_le; lia).
    assert (H20 : bpow radix2 130 = 1073741824 * bpow radix2 100) by (change 1073741824 with (bpow radix2 30); rewrite <- bpow_plus; reflexivity).
    pose proof (Rabs_triang (c + t) (rnd (c + t) - (c + t))) as TT. replace (c + t + (rnd (c + t) - (c + t))) with (rnd (c + t)) in TT by ring.
    assert (Q : (IZR (k + 1) * bpow radix2 131 - bpow radix2 130) * / 9007199254740992 <= bpow radix2 130 / 4).
    { rewrite D. nra. }
    lra.
  - apply small200. eapply Rle_trans; [exact S|]. assert (F : bpow radix2 130 * 4611686018427387904 <= bpow radix2 400).
    { change 4611686018427387904 with (bpow radix2 62). rewrite <- bpow_plus. apply bpow_le. lia. }
    rewrite D. nra.
Qed.
Lemma isf_st_abs x X : isf x X -> isf (st_abs x) (Rabs X).
Proof.
  intros J. unfold st_abs. rewrite (isf_nlt _ _ _ _ J (isf_n 0 ltac:(lia))). destruct (Rlt_bool_spec X 0) as [N|N].
  - rewrite Rabs_left by exact N. pose proof (isf_format x X J) as F. apply generic_format_opp in F.
    assert (Q : rnd (0 - X) = - X) by (unfold Rminus; rewrite Rplus_0_l; apply round_generic; [apply valid_rnd_N|exact F]). rewrite <- Q.
    apply isf_fsub; [apply isf_n; lia|exact J|]. unfold small. rewrite Q, Rabs_Ropp.
    destruct J as (p & _ & _ & <-). apply abs_B2R_lt_emax.
  - rewrite Rabs_pos_eq by exact N. exact J.
Qed.
Lemma diff_bpow x y : Rabs x <= bpow radix2 100 -> Rabs y <= bpow radix2 100 -> Rabs (x - y) <= bpow radix2 101.
Proof.
  intros X Y. replace (bpow radix2 101) with (2 * bpow radix2 100) by (change 2 with (bpow radix2 1); rewrite <- bpow_plus; reflexivity).
  unfold Rminus. eapply Rle_trans; [apply Rabs_triang|]. rewrite Rabs_Ropp. lra.
Qed.
Lemma rowF x X r L : isf x X -> Rabs X <= bpow radix2 100 -> reads r L -> Forall (fun x => Rabs x <= bpow radix2 100) L ->
  forall s S k, isf s S -> (0 <= k)%Z -> (k + Z.of_nat (length L) <= 2 ^ 41)%Z -> Rabs S <= IZR k * bpow radix2 131 ->
  isf (fold_left (fun s y => nadd s (st_abs (nsub x y))) r s) (fold_left (fun s y => rnd (s + Rabs (rnd (X - y)))) L S) /\
  Rabs (fold_left (fun s y => rnd (s + Rabs (rnd (X - y)))) L S) <= IZR (k + Z.of_nat (length L)) * bpow radix2 131.
Proof.
  intros Ix BX. induction 1 as [|y Y r L Iy _ IH]; intros T s S k Is K0 K B; cbn [fold_left length].
  - split; [exact Is|]. rewrite Z.add_0_r. exact B.
  - inversion T; subst. cbn [length] in K.
    assert (D : Rabs (X - Y) <= bpow radix2 101) by (apply diff_bpow; assumption).
    assert (ID : isf (nsub x y) (rnd (X - Y))) by (apply isf_fsub; [exact Ix|exact Iy|]; apply small_bpow with 101%Z; [lia|exact D]).
    assert (BD : Rabs (Rabs (rnd (X - Y))) <= bpow radix2 130).
    { rewrite Rabs_Rabsolu. eapply Rle_trans; [apply rnd_abs_le; [|exact D]; lia|apply bpow_le; lia]. }
    destruct (acc_bound2 S (Rabs (rnd (X - Y))) k ltac:(lia) B BD) as [AB AS].
    replace (k + Z.of_nat (Datatypes.S (length L)))%Z with (k + 1 + Z.of_nat (length L))%Z by lia.
    apply IH; [assumption| |lia|lia|exact AB].
    apply isf_fadd; [exact Is|apply isf_st_abs; exact ID|exact AS].
Qed.
Lemma kakF l L : reads l L -> Forall (fun x => Rabs x <= bpow radix2 100) L ->
  forall s S k, isf s S -> (0 <= k)%Z -> (k + Z.of_nat (length L) * Z.of_nat (length L) <= 2 ^ 41)%Z -> Rabs S <= IZR k * bpow radix2 131 ->
  isf (kak_loop l s) (kakL L S) /\ Rabs (kakL L S) <= bpow radix2 172.
Proof.
  induction 1 as [|x X r L Ix F IH]; intros T s S k Is K0 K B; cbn [kak_loop kakL length] in *.
  - split; [exact Is|]. eapply Rle_trans; [exact B|]. replace (bpow radix2 172) with (bpow radix2 41 * bpow radix2 131) by (rewrite <- bpow_plus; reflexivity).
    apply Rmult_le_compat_r; [apply bpow_ge_0|]. change (bpow radix2 41) with (IZR (2 ^ 41)). apply IZR_le. lia.
  - inversion T; subst. assert (Q : (k + Z.of_nat (length L) + Z.of_nat (length L) * Z.of_nat (length L) <= 2 ^ 41)%Z) by nia.
    destruct (rowF x X r L Ix ltac:(assumption) F ltac:(assumption) s S k Is K0 ltac:(nia) B) as [I1 B1].
    exact (IH ltac:(assumption) _ _ (k + Z.of_nat (length L))%Z I1 ltac:(lia) Q B1).
Qed.
Lemma deaF l L : reads l L -> Forall (fun x => Rabs x <= bpow radix2 100) L ->
  forall i s S k, isf s S -> (0 <= i)%Z -> (i + Z.of_nat (length L) <= 2 ^ 20)%Z -> (0 <= k)%Z -> (k + Z.of_nat (length L) <= 2 ^ 41)%Z ->
  Rabs S <= IZR k * bpow radix2 131 ->
  isf (dea_loop i l s) (deaL i L S) /\ Rabs (deaL i L S) <= bpow radix2 172.
Proof.
  induction 1 as [|x X r L Ix F IH]; intros T i s S k Is I0 Ib K0 K B; cbn [dea_loop deaL length] in *.
  - split; [exact Is|]. eapply Rle_trans; [exact B|]. replace (bpow radix2 172) with (bpow radix2 41 * bpow radix2 131) by (rewrite <- bpow_plus; reflexivity).
    apply Rmult_le_compat_r; [apply bpow_ge_0|]. change (bpow radix2 41) with (IZR (2 ^ 41)). apply IZR_le. lia.
  - inversion T; subst.
    assert (M : Rabs (IZR i * X) <= bpow radix2 120).
    { apply (mul_bpow _ _ 20 100); [|assumption]. rewrite Rabs_pos_eq by (apply IZR_le; exact I0). change (bpow radix2 20) with (IZR (2 ^ 20)). apply IZR_le. lia. }
    assert (IM : isf (nmul (nofZ i) x) (rnd (IZR i * X))).
    { apply isf_fmul; [apply isf_n; lia|exact Ix|]. apply small_bpow with 120%Z; [lia|exact M]. }
    assert (BM : Rabs (rnd (IZR i * X)) <= bpow radix2 130).
    { eapply Rle_trans; [apply rnd_abs_le; [|exact M]; lia|apply bpow_le; lia]. }
    destruct (acc_bound2 S (rnd (IZR i * X)) k ltac:(lia) B BM) as [AB AS].
    apply (IH ltac:(assumption) (i + 1)%Z _ _ (k + 1)%Z); [|lia|lia|lia|lia|exact AB].
    apply isf_fadd; assumption.
Qed.
Lemma insert_reads x X l L : isf x X -> reads l L -> reads (insert_desc x l) (@insert_desc R RealNum.NumR X L).
Proof.
  intros Ix. induction 1 as [|y Y l L Iy F IH]; cbn [insert_desc]; [constructor; [exact Ix|constructor]|].
  rewrite (isf_nlt y x Y X Iy Ix). change (@nlt R RealNum.NumR Y X) with (RealNum.Rlt_bool Y X).
  replace (RealNum.Rlt_bool Y X) with (Rlt_bool Y X).
  - destruct (Rlt_bool Y X); constructor; try assumption. constructor; assumption.
  - unfold RealNum.Rlt_bool. destruct (Rlt_bool_spec Y X); destruct (Rlt_dec Y X); try reflexivity; lra.
Qed.
Lemma sort_reads l L : reads l L -> reads (sort_desc l) (sortedR L).
Proof.
  intros F. unfold sort_desc, sortedR. assert (G : forall a A, reads a A -> reads (fold_left (fun acc x => insert_desc x acc) l a) (fold_left (fun acc x => @insert_desc R RealNum.NumR x acc) L A)).
  { induction F as [|x X l L Ix F IH]; intros a A FA; cbn [fold_left]; [exact FA|]. apply IH. apply insert_reads; assumption. }
  apply G. constructor.
Qed.
Lemma insert_in (x y : R) l : In y (@insert_desc R RealNum.NumR x l) -> y = x \/ In y l.
Proof.
  induction l as [|z l IH]; cbn [insert_desc]; [intros [<-|[]]; auto|]. destruct (nlt z x); [intros [<-|J]; auto|].
  intros [<-|J]; [right; left; reflexivity|]. destruct (IH J); [left; assumption|right; right; assumption].
Qed.
Lemma sorted_in L y : In y (sortedR L) -> In y L.
Proof.
  unfold sortedR, sort_desc. assert (G : forall A, In y (fold_left (fun acc x => @insert_desc R RealNum.NumR x acc) L A) -> In y L \/ In y A).
  { induction L as [|x L IH]; intros A J; cbn [fold_left] in J; [right; exact J|]. destruct (IH _ J) as [K|K]; [left; right; exact K|].
    apply insert_in in K. destruct K as [->|K]; [left; left; reflexivity|right; exact K]. }
  intros J. destruct (G [] J) as [K|[]]. exact K.
Qed.
Definition E_gini (L : list R) (e : exn) : Prop := ((length L < 2)%nat \/ rnd (2 * avgR L) = 0 \/ rnd (IZR (orders L) * avgR L) = 0) /\ e = ZeroDivisionError.
Lemma orders_bounds L : (Z.of_nat (length L) <= 2 ^ 20)%Z -> (0 <= orders L <= 2 ^ 40)%Z /\ (orders L = 0%Z <-> (length L < 2)%nat) /\ ((2 <= length L)%nat -> (2 <= orders L)%Z).
Proof. intros N. unfold orders. repeat split; nia. Qed.
Lemma two_bpow a e : Rabs a <= bpow radix2 e -> Rabs (2 * a) <= bpow radix2 (1 + e).
Proof. intros A. apply (mul_bpow 2 a 1 e); [|exact A]. rewrite Rabs_pos_eq by lra. apply Rle_refl. Qed.
Lemma twice_avg L : bpow radix2 (-500) <= avgR L -> bpow radix2 (-499) <= rnd (2 * avgR L).
Proof.
  intros A. rewrite <- (rnd_bpow (-499)) by lia. apply rnd_le. replace (bpow radix2 (-499)) with (2 * bpow radix2 (-500)); [lra|].
  change 2 with (bpow radix2 1). rewrite <- bpow_plus. reflexivity.
Qed.
Lemma many_avg L : (2 <= orders L)%Z -> bpow radix2 (-500) <= avgR L -> bpow radix2 (-499) <= rnd (IZR (orders L) * avgR L).
Proof.
  intros N A. rewrite <- (rnd_bpow (-499)) by lia. apply rnd_le. replace (bpow radix2 (-499)) with (2 * bpow radix2 (-500)).
  - apply IZR_le in N. pose proof (bpow_gt_0 radix2 (-500)). apply Rmult_le_compat; lra.
  - change 2 with (bpow radix2 1). rewrite <- bpow_plus. reflexivity.
Qed.
Lemma quot_small a d : Rabs a <= bpow radix2 173 -> bpow radix2 (-499) <= d -> Rabs (a / d) <= bpow radix2 672.
Proof.
  intros A D. unfold Rdiv. apply (mul_bpow _ _ 173 499); [exact A|]. pose proof (bpow_gt_0 radix2 (-499)).
  rewrite Rabs_pos_eq by (left; apply Rinv_0_lt_compat; lra). change 499%Z with (- (-499))%Z. rewrite bpow_opp. apply Rinv_le; [apply bpow_gt_0|exact D].
Qed.
Lemma kak_givesF l L : reads l L -> tame L -> givesF (st_kakwani (Some l)) (P_kak L) (E_gini L).
Proof.
  unfold st_kakwani. revert l L. memo1. intros l L F T. destruct T as [TB TN].
  eapply givesF_bind; [apply (len_givesF l L F); split; assumption|intros e []|]. intros n ->.
  eapply givesF_bind; [apply (avg_givesF l L F); split; assumption|intros e [-> ->]; split; [left; cbn; lia|reflexivity]|]. intros u [NE Hu].
  fold (orders L). destruct (orders_bounds L TN) as (OB & OZ & O2).
  assert (SQ : (0 + Z.of_nat (length L) * Z.of_nat (length L) <= 2 ^ 41)%Z).
  { pose proof (Z.mul_le_mono_nonneg (Z.of_nat (length L)) (2 ^ 20) (Z.of_nat (length L)) (2 ^ 20) ltac:(lia) TN ltac:(lia) TN). lia. }
  destruct (kakF l L F TB (nofZ 0) 0 0%Z (isf_n 0 ltac:(lia)) ltac:(lia) SQ ltac:(rewrite Rabs_R0; lra)) as [Is Bs].
  assert (Q : Rabs (2 * kakL L 0) <= bpow radix2 173) by (apply (two_bpow _ 172); exact Bs).
  assert (I2 : isf (nmul (nofZ 2) (kak_loop l (nofZ 0))) (rnd (2 * kakL L 0))).
  { apply isf_fmul; [apply isf_n; lia|exact Is|]. apply small_bpow with 173%Z; [lia|exact Q]. }
  assert (IO : isf (nofZ (orders L) : f64) (IZR (orders L))) by (apply isf_int; lia).
  assert (IU : isf (nmul (nofZ 2) u) (rnd (2 * avgR L))).
  { apply isf_fmul; [apply isf_n; lia|exact Hu|]. apply small_bpow with 121%Z; [lia|]. apply (two_bpow _ 120). apply avg_bpow; [exact NE|split; assumption]. }
  unfold ndivE at 1. rewrite (isf_neq _ _ _ _ IO (isf_n 0 ltac:(lia))).
  destruct (Req_bool_spec (IZR (orders L)) 0) as [Z0|Z0].
  { eapply givesF_bind with (P := fun _ => False) (E := E_gini L); [apply givesF_ret; split; [left; apply OZ; apply eq_IZR; exact Z0|reflexivity]|auto|intros a []]. }
  assert (N2 : (2 <= length L)%nat). { destruct (le_lt_dec 2 (length L)) as [?|C]; [assumption|]. apply OZ in C. rewrite C in Z0. lra. }
  specialize (O2 N2). assert (O1 : 2 <= IZR (orders L)) by (apply IZR_le; exact O2).
  assert (Bq : Rabs (rnd (2 * kakL L 0) / IZR (orders L)) <= bpow radix2 173) by (apply div_abs; [lra|apply rnd_abs_le; [lia|exact Q]]).
  eapply givesF_bind with (P := fun x => isf x (rnd (rnd (2 * kakL L 0) / IZR (orders L)))) (E := never);
    [apply givesF_ret; apply isf_fdiv; [exact I2|exact IO|exact Z0|]; apply small_bpow with 173%Z; [lia|exact Bq]|intros e []|].
  intros us Hus. apply givesF_ret. unfold ndivE. rewrite (isf_neq _ _ _ _ IU (isf_n 0 ltac:(lia))).
  destruct (Req_bool_spec (rnd (2 * avgR L)) 0) as [U0|U0]; cbn [out]; [split; auto|].
  split; [exact N2|]. split; [exact U0|]. intros A. apply isf_fdiv; [exact Hus|exact IU|exact U0|].
  apply small_bpow with 672%Z; [lia|]. apply quot_small; [apply rnd_abs_le; [lia|exact Bq]|apply twice_avg; exact A].
Qed.
Lemma dea_givesF l L : reads l L -> tame L -> givesF (st_deaton (Some l)) (P_dea L) (E_gini L).
Proof.
  unfold st_deaton. revert l L. memo1. intros l L F T. destruct T as [TB TN].
  eapply givesF_bind; [apply (len_givesF l L F); split; assumption|intros e []|]. intros n ->.
  eapply givesF_bind; [apply (avg_givesF l L F); split; assumption|intros e [-> ->]; split; [left; cbn; lia|reflexivity]|]. intros u [NE Hu].
  eapply givesF_bind; [apply (sum_givesF l L F); apply (small_total L 100); [lia|exact TB|exact TN]|intros e []|]. intros s Hs. unfold P_sum in Hs.
  fold (orders L). destruct (orders_bounds L TN) as (OB & OZ & O2).
  pose proof (sort_reads l L F) as FS. pose proof (reads_length _ _ FS) as LS.
  assert (LL : length (sortedR L) = length L).
  { rewrite <- LS. rewrite <- (reads_length _ _ F). unfold sort_desc. assert (G : forall (m : list f64) a, length (fold_left (fun acc x => insert_desc x acc) m a) = (length m + length a)%nat).
    { assert (I1 : forall (x : f64) a, length (insert_desc x a) = S (length a)) by (intros x a; induction a as [|y a IH]; cbn [insert_desc]; [reflexivity|]; destruct (nlt y x); cbn [length]; congruence).
      induction m as [|x m IH]; intros a; cbn [fold_left length]; [reflexivity|]. rewrite IH, I1. lia. }
    rewrite G. cbn [length]. lia. }
  assert (TS : Forall (fun x => Rabs x <= bpow radix2 100) (sortedR L)).
  { apply Forall_forall. intros y J. apply sorted_in in J. rewrite Forall_forall in TB. apply TB. exact J. }
  assert (BT : Rabs (rnd (total L)) <= IZR 1 * bpow radix2 131).
  { rewrite Rmult_1_l. apply rnd_abs_le; [lia|]. eapply Rle_trans; [apply (total_bpow L 100); assumption|apply bpow_le; lia]. }
  destruct (deaF _ _ FS TS 0%Z s _ 1%Z Hs ltac:(lia) ltac:(lia) ltac:(lia) ltac:(lia) BT) as [Is Bs].
  set (D := deaL 0 (sortedR L) (rnd (total L))) in *.
  assert (Q : Rabs (2 * D) <= bpow radix2 173) by (apply (two_bpow _ 172); exact Bs).
  assert (I2 : isf (nmul (nofZ 2) (dea_loop 0 (sort_desc l) s)) (rnd (2 * D))).
  { apply isf_fmul; [apply isf_n; lia|exact Is|]. apply small_bpow with 173%Z; [lia|exact Q]. }
  assert (IO : isf (nofZ (orders L) : f64) (IZR (orders L))) by (apply isf_int; lia).
  assert (BO : Rabs (IZR (orders L)) <= bpow radix2 40).
  { rewrite Rabs_pos_eq by (apply IZR_le; lia). change (bpow radix2 40) with (IZR (2 ^ 40)). apply IZR_le. lia. }
  assert (IU : isf (nmul (nofZ (orders L)) u) (rnd (IZR (orders L) * avgR L))).
  { apply isf_fmul; [exact IO|exact Hu|]. apply small_bpow with 160%Z; [lia|]. apply (mul_bpow _ _ 40 120); [exact BO|]. apply avg_bpow; [exact NE|split; assumption]. }
  assert (L1 : (1 <= length L)%nat) by (destruct L; [contradiction|cbn; lia]).
  assert (IP : isf (nofZ (Z.of_nat (length L) + 1) : f64) (IZR (Z.of_nat (length L) + 1))) by (apply isf_int; lia).
  assert (IM : isf (nofZ (Z.of_nat (length L) - 1) : f64) (IZR (Z.of_nat (length L) - 1))) by (apply isf_int; lia).
  unfold ndivE at 1. rewrite (isf_neq _ _ _ _ IM (isf_n 0 ltac:(lia))).
  destruct (Req_bool_spec (IZR (Z.of_nat (length L) - 1)) 0) as [Z0|Z0].
  { eapply givesF_bind with (P := fun _ => False) (E := E_gini L); [apply givesF_ret; split; [left; apply eq_IZR in Z0; lia|reflexivity]|auto|intros a []]. }
  assert (N2 : (2 <= length L)%nat). { destruct (le_lt_dec 2 (length L)) as [?|C]; [assumption|]. exfalso. apply Z0. replace (Z.of_nat (length L) - 1)%Z with 0%Z by lia. reflexivity. }
  specialize (O2 N2). assert (O1 : 2 <= IZR (orders L)) by (apply IZR_le; exact O2).
  assert (M1 : 1 <= IZR (Z.of_nat (length L) - 1)) by (apply IZR_le; lia).
  assert (Ba : Rabs (IZR (Z.of_nat (length L) + 1) / IZR (Z.of_nat (length L) - 1)) <= bpow radix2 21).
  { apply div_abs; [exact M1|]. rewrite Rabs_pos_eq by (apply IZR_le; lia). change (bpow radix2 21) with (IZR (2 ^ 21)). apply IZR_le. lia. }
  eapply givesF_bind with (P := fun x => isf x (rnd (IZR (Z.of_nat (length L) + 1) / IZR (Z.of_nat (length L) - 1)))) (E := never);
    [apply givesF_ret; apply isf_fdiv; [exact IP|exact IM|exact Z0|]; apply small_bpow with 21%Z; [lia|exact Ba]|intros e []|].
  intros a Ha. unfold ndivE. rewrite (isf_neq _ _ _ _ IU (isf_n 0 ltac:(lia))).
  destruct (Req_bool_spec (rnd (IZR (orders L) * avgR L)) 0) as [U0|U0].
  { eapply givesF_bind with (P := fun _ => False) (E := E_gini L); [apply givesF_ret; split; auto|auto|intros b []]. }
  eapply givesF_bind with (P := fun x => bpow radix2 (-500) <= avgR L -> isf x (rnd (rnd (2 * D) / rnd (IZR (orders L) * avgR L)))) (E := never).
  - apply givesF_ret. cbn [out]. intros A. apply isf_fdiv; [exact I2|exact IU|exact U0|]. apply small_bpow with 672%Z; [lia|].
    apply quot_small; [apply rnd_abs_le; [lia|exact Q]|apply many_avg; [exact O2|exact A]].
  - intros e [].
  - intros b Hb. apply givesF_ret. cbn [out]. split; [exact N2|]. split; [exact U0|]. intros A. specialize (Hb A).
    apply isf_fsub; [exact Ha|exact Hb|]. apply small_bpow with 673%Z; [lia|].
    replace (bpow radix2 673) with (2 * bpow radix2 672) by (change 2 with (bpow radix2 1); rewrite <- bpow_plus; reflexivity).
    assert (Bb : Rabs (rnd (rnd (2 * D) / rnd (IZR (orders L) * avgR L))) <= bpow radix2 672).
    { apply rnd_abs_le; [lia|]. apply quot_small; [apply rnd_abs_le; [lia|exact Q]|apply many_avg; [exact O2|exact A]]. }
    assert (Bc : Rabs (rnd (IZR (Z.of_nat (length L) + 1) / IZR (Z.of_nat (length L) - 1))) <= bpow radix2 672).
    { apply rnd_abs_le; [lia|]. eapply Rle_trans; [exact Ba|apply bpow_le; lia]. }
    unfold Rminus. eapply Rle_trans; [apply Rabs_triang|]. rewrite Rabs_Ropp. fold D. lra.
Qed.
Lemma clearF st : goodF st -> goodF (st_clear st).
Proof. intros []. split; try apply cacheP_empty; try assumption. split; [intros e []|intros i l v []]. Qed.
Lemma call_good c st : tame_call c -> goodF st -> goodF (fst (st_call c st)).
Proof.
  intros T G. destruct c as [[a|]|[a|]|[a|]|[a|]|[a|]|[a|]|[a|]|[[a b]|]|[[a b]|]|[a|]|[a|]|]; cbn [st_call vnum option_map fst snd tame_call] in *;
    try exact G; try (match type of T with tame_arg _ => destruct T as (L & F & T) | _ /\ _ => destruct T as [(A & FA & TA) (B & FB & TB)] end).
  - eapply max_givesF; eassumption.
  - eapply min_givesF; eassumption.
  - eapply sum_givesF; [exact F|apply (small_total L 100); [lia|apply T|apply T]|exact G].
  - eapply len_givesF; eassumption.
  - eapply avg_givesF; eassumption.
  - eapply var_givesF; eassumption.
  - eapply std_givesF; eassumption.
  - apply (cov_givesF (a, b) (A, B)); [split; assumption|split; assumption|exact G].
  - apply (corr_givesF (a, b) (A, B)); [split; assumption|split; assumption|exact G].
  - eapply kak_givesF; eassumption.
  - eapply dea_givesF; eassumption.
  - apply clearF. exact G.
Qed.
Lemma run_goodF h : Forall tame_call h -> goodF (st_run h).
Proof.
  intros F. unfold st_run. rewrite <- fold_left_rev_right. apply Forall_rev in F. induction F as [|c g T _ IH]; cbn [fold_right]; [exact goodF0|].
  apply call_good; assumption.
Qed.
