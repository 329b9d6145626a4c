(** String similarity with doubles. *)
From Coq Require Import ZArith QArith Reals Qreals Lia Lra Psatz List SpecFloat.
From Flocq Require Import Core IEEE754.BinarySingleNaN.
From Verif Require Import Py Num FloatLib RasterAA GridFloat NamesModel NamesSpec NamesProofs NamesMatch NamesJaro NamesFloatSpec ScanFloat.
Import ListNotations.
Open Scope R_scope.

Lemma inj_R z : Q2R (inject_Z z) = IZR z.
Proof. unfold Q2R. cbn. lra. Qed.
Lemma div_R x y : (y <> 0)%Z -> Q2R (inject_Z x / inject_Z y) = IZR x / IZR y.
Proof. intros N. rewrite Q2R_div, !inj_R; [reflexivity|]. intros C. apply N. unfold Qeq in C. cbn in C. lia. Qed.
Lemma ndivE_F (x y : f64) b : isf y b -> b <> 0 -> ndivE x y = Ok (fdiv x y).
Proof. intros I N. unfold ndivE. change (Num.neq y (nofZ 0)) with (SFeqb y (fofZ 0)). rewrite (isf_eq _ _ _ _ I (isf_int 0 ltac:(lia))), Req_bool_false by exact N. reflexivity. Qed.
Lemma ndivE_F0 x : ndivE x (fofZ 0) = Err ZeroDivisionError.
Proof. reflexivity. Qed.
Lemma small100 r : Rabs r <= 1267650600228229401496703205376 -> small r.
Proof. intros H. apply small_le. change (IZR (2 ^ 100)) with 1267650600228229401496703205376. exact H. Qed.

(** ** Error rates *)
(** A fraction with a denominator below 2^26, in [0, 2], and its double *)
Definition rate (f : f64) (q : Q) : Prop := exists a n, (0 <= a <= 2 * n)%Z /\ (0 < n <= 2 ^ 25)%Z /\ Q2R q = IZR a / IZR n /\ isf f (rnd (IZR a / IZR n)).
Lemma frac_gap a n b m : (0 < n <= 2 ^ 25)%Z -> (0 < m <= 2 ^ 25)%Z -> IZR a / IZR n < IZR b / IZR m -> IZR a / IZR n + / 1125899906842624 <= IZR b / IZR m.
Proof.
  intros N M L. assert (Pn : 1 <= IZR n <= 33554432) by (split; [apply (IZR_le 1)|apply (IZR_le _ 33554432)]; lia).
  assert (Pm : 1 <= IZR m <= 33554432) by (split; [apply (IZR_le 1)|apply (IZR_le _ 33554432)]; lia).
  set (x := IZR a / IZR n) in *. set (y := IZR b / IZR m) in *.
  assert (X : x * IZR n = IZR a) by (unfold x; field; lra). assert (Y : y * IZR m = IZR b) by (unfold y; field; lra).
  assert (D : (y - x) * (IZR n * IZR m) = IZR (b * n - a * m)) by (rewrite minus_IZR, !mult_IZR, <- X, <- Y; ring).
  assert (P : 0 < (y - x) * (IZR n * IZR m)) by (apply Rmult_lt_0_compat; nra). rewrite D in P. apply (lt_IZR 0) in P.
  assert (P1 : 1 <= IZR (b * n - a * m)) by (apply (IZR_le 1); lia). rewrite <- D in P1.
  assert (B : IZR n * IZR m <= 1125899906842624) by nra. assert (0 < IZR n * IZR m) by nra.
  assert (1 <= (y - x) * 1125899906842624) by nra. lra.
Qed.
Lemma frac_range a n : (0 <= a <= 2 * n)%Z -> (0 < n)%Z -> 0 <= IZR a / IZR n <= 2.
Proof.
  intros A N. assert (0 < IZR n) by (apply (IZR_lt 0); lia). assert (0 <= IZR a) by (apply (IZR_le 0); lia).
  assert (IZR a <= 2 * IZR n) by (rewrite <- mult_IZR; apply IZR_le; lia). split.
  - apply Rmult_le_reg_r with (IZR n); [lra|]. replace (IZR a / IZR n * IZR n) with (IZR a) by (field; lra). lra.
  - apply Rmult_le_reg_r with (IZR n); [lra|]. replace (IZR a / IZR n * IZR n) with (IZR a) by (field; lra). lra.
Qed.
Lemma near2 r : Rabs r < 4 -> Rabs (rnd r - r) <= / 4503599627370496.
Proof. intros B. exact (near r 2 ltac:(lia) B). Qed.
Lemma near1 r : Rabs r < 2 -> Rabs (rnd r - r) <= / 9007199254740992.
Proof. intros B. exact (near r 1 ltac:(lia) B). Qed.
Lemma q_lt_R a b : Qlt_bool a b = Rlt_bool (Q2R a) (Q2R b).
Proof.
  destruct (Rlt_bool_spec (Q2R a) (Q2R b)) as [L|L].
  - apply Qlt_bool_true, Rlt_Qlt, L.
  - apply Qlt_bool_false, Rle_Qle, L.
Qed.
Lemma rate_lt f1 q1 f2 q2 : rate f1 q1 -> rate f2 q2 -> nlt f1 f2 = nlt q1 q2.
Proof.
  intros (a & n & A & N & E1 & I1) (b & m & B & M & E2 & I2). cbn [nlt NumF NumQ]. rewrite (isf_lt _ _ _ _ I1 I2), q_lt_R, E1, E2.
  pose proof (frac_range a n A ltac:(lia)) as R1. pose proof (frac_range b m B ltac:(lia)) as R2.
  destruct (Rlt_bool_spec (IZR a / IZR n) (IZR b / IZR m)) as [L|L].
  - apply Rlt_bool_true. pose proof (frac_gap a n b m N M L) as G. pose proof (near2 (IZR a / IZR n) ltac:(rewrite Rabs_pos_eq; lra)) as N1.
    pose proof (near2 (IZR b / IZR m) ltac:(rewrite Rabs_pos_eq; lra)) as N2. apply Rabs_le_inv in N1, N2. lra.
  - apply Rlt_bool_false. apply rnd_le, L.
Qed.
(** ** Scores *)
Definition graded (f : f64) (q : Q) : Prop := exists a n, (0 <= a <= 2 * n)%Z /\ (0 < n <= 2 ^ 25)%Z /\ Q2R q = 1 - IZR a / IZR n /\ isf f (rnd (1 - rnd (IZR a / IZR n))).
Lemma rate_graded f q : rate f q -> graded (nsub (nofZ 1) f) (nsub (nofZ 1) q).
Proof.
  intros (a & n & A & N & E & I). exists a, n. split; [exact A|]. split; [exact N|]. cbn [nsub nofZ NumF NumQ]. split.
  - rewrite Q2R_minus, inj_R, E. reflexivity.
  - pose proof (frac_range a n A ltac:(lia)) as R. pose proof (near2 (IZR a / IZR n) ltac:(rewrite Rabs_pos_eq; lra)) as N1. apply Rabs_le_inv in N1.
    apply isf_fsub; [apply (isf_int 1); lia|exact I|]. apply small100, Rabs_le. lra.
Qed.
Lemma graded_near f q : graded f q -> exists x, isf f x /\ Rabs (x - Q2R q) <= / 2251799813685248 /\ Rabs x <= 3.
Proof.
  intros (a & n & A & N & E & I). exists (rnd (1 - rnd (IZR a / IZR n))). split; [exact I|]. rewrite E.
  pose proof (frac_range a n A ltac:(lia)) as R. pose proof (near2 (IZR a / IZR n) ltac:(rewrite Rabs_pos_eq; lra)) as N1. apply Rabs_le_inv in N1.
  pose proof (near1 (1 - rnd (IZR a / IZR n)) ltac:(apply Rabs_def1; lra)) as N2. apply Rabs_le_inv in N2. split; apply Rabs_le; lra.
Qed.
Lemma graded_lt f1 q1 f2 q2 : graded f1 q1 -> graded f2 q2 -> nlt (nsub (nofZ 0) f1) (nsub (nofZ 0) f2) = nlt (nsub (nofZ 0) q1) (nsub (nofZ 0) q2).
Proof.
  intros G1 G2. assert (S : forall f q, graded f q -> exists x, isf f x /\ isf (fsub (fofZ 0) f) (- x)).
  { intros f q G. destruct (graded_near f q G) as (x & I & _ & B). exists x. split; [exact I|].
    pose proof (isf_fsub _ _ _ _ (isf_int 0 ltac:(lia)) I) as H. rewrite Rminus_0_l in H.
    assert (E : rnd (- x) = - x) by (apply round_generic; [apply valid_rnd_N|apply generic_format_opp, (isf_format _ _ I)]). rewrite E in H. apply H.
    apply small100. rewrite Rabs_Ropp. lra. }
  destruct (S _ _ G1) as (x1 & I1 & J1), (S _ _ G2) as (x2 & I2 & J2). cbn [nlt nsub nofZ NumF NumQ]. rewrite (isf_lt _ _ _ _ J1 J2), q_lt_R, !Q2R_minus, !inj_R.
  destruct G1 as (a & n & A & N & E1 & K1), G2 as (b & m & B & M & E2 & K2). rewrite (isf_fun _ _ _ I1 K1), (isf_fun _ _ _ I2 K2), E1, E2.
  pose proof (frac_range a n A ltac:(lia)) as R1. pose proof (frac_range b m B ltac:(lia)) as R2.
  destruct (Rlt_bool_spec (0 - (1 - IZR a / IZR n)) (0 - (1 - IZR b / IZR m))) as [L|L].
  - apply Rlt_bool_true. pose proof (frac_gap a n b m N M ltac:(lra)) as G. pose proof (near2 (IZR a / IZR n) ltac:(rewrite Rabs_pos_eq; lra)) as N1.
    pose proof (near2 (IZR b / IZR m) ltac:(rewrite Rabs_pos_eq; lra)) as N2. apply Rabs_le_inv in N1, N2.
    pose proof (near1 (1 - rnd (IZR a / IZR n)) ltac:(apply Rabs_def1; lra)) as N3. pose proof (near1 (1 - rnd (IZR b / IZR m)) ltac:(apply Rabs_def1; lra)) as N4.
    apply Rabs_le_inv in N3, N4. lra.
  - apply Rlt_bool_false. assert (H : rnd (IZR b / IZR m) <= rnd (IZR a / IZR n)) by (apply rnd_le; lra).
    assert (H' : rnd (1 - rnd (IZR a / IZR n)) <= rnd (1 - rnd (IZR b / IZR m))) by (apply rnd_le; lra). lra.
Qed.
(** ** strerr *)
Lemma strerr_rate s t : short s -> short t ->
  (s = [] /\ t = [] /\ strerr (T := f64) s t = Err ZeroDivisionError /\ strerr (T := Q) s t = Err ZeroDivisionError) \/
  (exists f q, strerr s t = Ok f /\ strerr s t = Ok q /\ rate f q).
Proof.
  intros S T. destruct (length s + length t)%nat as [|k] eqn:L.
  - left. destruct s, t; try discriminate L. repeat split; reflexivity.
  - right. destruct (damlev_bounds s t) as (d & E & B). unfold strerr. rewrite E. cbn [bind]. unfold short in *.
    set (n := (Z.of_nat (length s) + Z.of_nat (length t))%Z). assert (Hn : (0 < n <= 2 ^ 25)%Z) by (unfold n; lia).
    assert (In : isf (fofZ n) (IZR n)) by (apply isf_int; lia). assert (Pn : 0 < IZR n) by (apply (IZR_lt 0); lia).
    exists (fdiv (fofZ (d * 2)) (fofZ n)), (inject_Z (d * 2) / inject_Z n)%Q. split; [apply (ndivE_F _ _ _ In); lra|].
    split; [apply ndivE_Q; intros C; unfold Qeq in C; cbn in C; lia|].
    assert (A : (0 <= d * 2 <= 2 * n)%Z) by (unfold n; lia). exists (d * 2)%Z, n. split; [exact A|]. split; [exact Hn|]. split; [apply div_R; lia|].
    apply isf_fdiv; [apply isf_int; lia|exact In|lra|]. apply small100. pose proof (frac_range _ _ A ltac:(lia)). rewrite Rabs_pos_eq; lra.
Qed.
(** ** The best value *)
Definition am {T} `{PyNum T} (st : T * Z * Z) (x : T) : T * Z * Z := let '(best, at_, k) := st in if nlt x best then (x, k, (k + 1)%Z) else (best, at_, (k + 1)%Z).
Lemma argmin_am {T} `{PyNum T} (d : T) r : argmin (d :: r) = Ok (snd (fst (fold_left am r (d, 0%Z, 1%Z)))).
Proof. reflexivity. Qed.
Lemma am_same fs qs : Forall2 rate fs qs -> forall f q a k, rate f q ->
  snd (fst (fold_left am fs (f, a, k))) = snd (fst (fold_left am qs (q, a, k))).
Proof.
  induction 1 as [|x y fs qs R F IH]; intros f q a k G; [reflexivity|]. cbn [fold_left am]. rewrite (rate_lt x y f q R G).
  destruct (nlt y q); apply IH; assumption.
Qed.
Lemma argmin_same fs qs : Forall2 rate fs qs -> argmin fs = argmin qs.
Proof. intros [|f q fs' qs' R F]; [reflexivity|]. rewrite !argmin_am. f_equal. apply am_same; assumption. Qed.
Lemma rates_all key values : short key -> Forall short values ->
  (mapM (strerr (T := f64) key) values = Err ZeroDivisionError /\ mapM (strerr (T := Q) key) values = Err ZeroDivisionError) \/
  exists fs qs, mapM (strerr key) values = Ok fs /\ mapM (strerr key) values = Ok qs /\ Forall2 rate fs qs.
Proof.
  intros K F. induction F as [|v vs V F IH]; [right; exists [], []; repeat split; constructor|]. cbn [mapM].
  destruct (strerr_rate key v K V) as [(_ & _ & -> & ->)|(f & q & -> & -> & R)]; [left; split; reflexivity|]. cbn [bind].
  destruct IH as [[-> ->]|(fs & qs & -> & -> & G)]; [left; split; reflexivity|]. right. exists (f :: fs), (q :: qs). repeat split. constructor; assumption.
Qed.
Definition twin (a : str * str * f64) (b : str * str * Q) : Prop := fst a = fst b /\ graded (snd a) (snd b).
Lemma forall2_nth {A B} (P : A -> B -> Prop) l l' i : Forall2 P l l' ->
  match nth_error l i, nth_error l' i with Some a, Some b => P a b | None, None => True | _, _ => False end.
Proof. intros F. revert i. induction F as [|a b l l' R F IH]; intros [|i]; cbn; auto; apply IH. Qed.
Lemma get_same {A B} (P : A -> B -> Prop) l l' i : Forall2 P l l' ->
  (py_get l i = Err IndexError /\ py_get l' i = Err IndexError) \/ exists a b, py_get l i = Ok a /\ py_get l' i = Ok b /\ P a b.
Proof.
  intros F. assert (L : length l = length l') by (induction F; cbn; congruence). unfold py_get. rewrite L.
  match goal with |- context [if ?c && ?d then _ else _] => destruct (c && d) end; [|left; split; reflexivity].
  match goal with |- context [nth_error _ ?k] => pose proof (forall2_nth P l l' k F) as H; destruct (nth_error l k), (nth_error l' k); try contradiction end.
  - right. eauto.
  - left; split; reflexivity.
Qed.
Lemma match_twin values key : short key -> Forall short values ->
  (exists e, match_one (T := f64) values key = Err e /\ match_one (T := Q) values key = Err e) \/
  exists a b, match_one values key = Ok a /\ match_one values key = Ok b /\ twin a b.
Proof.
  intros K V. unfold match_one. destruct (rates_all key values K V) as [[-> ->]|(fs & qs & -> & -> & R)]; [left; eexists; split; reflexivity|]. cbn [bind].
  rewrite (argmin_same fs qs R). destruct (argmin qs) as [i|e]; cbn [bind]; [|left; exists e; split; reflexivity].
  destruct (py_get values i) as [v|e]; cbn [bind]; [|left; exists e; split; reflexivity].
  destruct (get_same rate fs qs i R) as [[-> ->]|(f & q & -> & -> & G)]; cbn [bind]; [left; eexists; split; reflexivity|].
  right. eexists _, _. split; [reflexivity|]. split; [reflexivity|]. split; [reflexivity|]. apply rate_graded, G.
Qed.
Lemma insert_twin a b l l' : twin a b -> Forall2 twin l l' -> Forall2 twin (insert_match a l) (insert_match b l').
Proof.
  intros T F. induction F as [|x y l l' R F IH]; cbn [insert_match]; [constructor; [exact T|constructor]|].
  rewrite (graded_lt _ _ _ _ (proj2 R) (proj2 T)). destruct (nlt _ _); constructor; auto.
Qed.
Lemma sort_twin l l' : Forall2 twin l l' -> Forall2 twin (fold_right insert_match [] l) (fold_right insert_match [] l').
Proof. induction 1; cbn [fold_right]; [constructor|]. apply insert_twin; assumption. Qed.
Lemma twin_match a b : twin a b -> same_match a b.
Proof. intros [E G]. split; [exact E|]. destruct (graded_near _ _ G) as (x & I & N & _). exists x. split; [exact I|exact N]. Qed.
Lemma mapping64 keys values : Forall short keys -> Forall short values ->
  match mapping (T := f64) keys values, mapping (T := Q) keys values with
  | Ok mf, Ok mq => Forall2 same_match mf mq
  | Err x, Err y => x = y
  | _, _ => False
  end.
Proof.
  intros K V. unfold mapping.
  assert (H : (exists e, mapM (match_one (T := f64) values) keys = Err e /\ mapM (match_one (T := Q) values) keys = Err e) \/
    exists l l', mapM (match_one values) keys = Ok l /\ mapM (match_one values) keys = Ok l' /\ Forall2 twin l l').
  { induction K as [|k ks Hk K IH]; [right; exists [], []; repeat split; constructor|]. cbn [mapM].
    destruct (match_twin values k Hk V) as [(e & -> & ->)|(a & b & -> & -> & T)]; cbn [bind]; [left; exists e; split; reflexivity|].
    destruct IH as [(e & -> & ->)|(l & l' & -> & -> & F)]; cbn [bind]; [left; exists e; split; reflexivity|].
    right. exists (a :: l), (b :: l'). repeat split. constructor; assumption. }
  destruct H as [(e & -> & ->)|(l & l' & -> & -> & F)]; cbn [bind]; [reflexivity|].
  apply sort_twin in F. clear - F. induction F; constructor; [apply twin_match; assumption|assumption].
Qed.
Lemma strerr64 s t : short s -> short t -> agrees (/ IZR (2 ^ 52)) (strerr (T := f64) s t) (strerr (T := Q) s t).
Proof.
  intros S T. destruct (strerr_rate s t S T) as [(_ & _ & -> & ->)|(f & q & -> & -> & a & n & A & N & E & I)]; [reflexivity|]. cbn [agrees].
  exists (rnd (IZR a / IZR n)). split; [exact I|]. rewrite E. pose proof (frac_range a n A ltac:(lia)) as R. rewrite (Rabs_pos_eq (IZR a / IZR n)) by lra.
  change (IZR (2 ^ 52)) with 4503599627370496. destruct (Z.eq_dec a 0) as [->|Na].
  - replace (0 / IZR n) with 0 by (unfold Rdiv; ring). change 0 with (IZR 0). rewrite rnd_IZR by lia. rewrite Rminus_diag_eq, Rabs_R0 by reflexivity. lra.
  - apply rel_near. assert (1 <= IZR n <= 33554432) by (split; [apply (IZR_le 1)|apply (IZR_le _ 33554432)]; lia). assert (1 <= IZR a) by (apply (IZR_le 1); lia).
    assert (G : / 33554432 <= IZR a / IZR n) by (apply Rmult_le_reg_r with (IZR n); [lra|]; replace (IZR a / IZR n * IZR n) with (IZR a) by (field; lra); lra).
    eapply Rle_trans; [|exact G]. change (/ 33554432) with (bpow radix2 (-25)). apply bpow_le. lia.
Qed.
