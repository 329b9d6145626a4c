(** Statistics: what the plain functions compute, and its laws. *)
From Coq Require Import Reals Lra Sorted Permutation.
From Verif Require Import Num RealNum StatsModel StatsSpec StatsCache StatsCalls.
Open Scope R_scope.

(** ** Sums *)
Ltac nilt := unfold total, count; simpl; try ring; try lra.
Lemma total_cons x l : total (x :: l) = x + total l. Proof. reflexivity. Qed.
Lemma total_app a b : total (a ++ b) = total a + total b.
Proof. induction a as [|x r IH]; [nilt|]. cbn [app]. rewrite !total_cons, IH. ring. Qed.
Lemma total_perm a b : Permutation a b -> total a = total b.
Proof. induction 1; rewrite ?total_cons; lra. Qed.
Lemma total_map_ext {A} (f g : A -> R) l : (forall x, In x l -> f x = g x) -> total (map f l) = total (map g l).
Proof.
  induction l as [|x r IH]; [reflexivity|]. intros E. cbn [map]. rewrite !total_cons, E, IH; [reflexivity| |left; reflexivity].
  intros y Y. apply E. right. exact Y.
Qed.
Lemma total_map_add {A} (f g : A -> R) l : total (map (fun x => f x + g x) l) = total (map f l) + total (map g l).
Proof. induction l as [|x r IH]; [nilt|]. cbn [map]. rewrite !total_cons, IH. ring. Qed.
Lemma total_map_scale {A} c (f : A -> R) l : total (map (fun x => c * f x) l) = c * total (map f l).
Proof. induction l as [|x r IH]; [nilt|]. cbn [map]. rewrite !total_cons, IH. ring. Qed.
Lemma total_map_const {A} c (l : list A) : total (map (fun _ => c) l) = INR (length l) * c.
Proof. induction l as [|x r IH]; [nilt|]. cbn [map length]. rewrite total_cons, IH, S_INR. ring. Qed.
Lemma total_nonneg {A} (f : A -> R) l : (forall x, In x l -> 0 <= f x) -> 0 <= total (map f l).
Proof.
  induction l as [|x r IH]; [nilt|]. intros F. cbn [map]. rewrite total_cons.
  pose proof (F x (or_introl eq_refl)). assert (0 <= total (map f r)) by (apply IH; intros y Y; apply F; right; exact Y). lra.
Qed.
Lemma total_zero {A} (f : A -> R) l : (forall x, In x l -> 0 <= f x) -> total (map f l) = 0 -> forall x, In x l -> f x = 0.
Proof.
  induction l as [|a r IH]; [intros _ _ x []|]. intros F E x X. cbn [map] in E. rewrite total_cons in E.
  pose proof (F a (or_introl eq_refl)). assert (P : 0 <= total (map f r)) by (apply total_nonneg; intros y Y; apply F; right; exact Y).
  destruct X as [<-|X]; [lra|]. apply IH; [intros y Y; apply F; right; exact Y|lra|exact X].
Qed.
Lemma total_le {A} (f g : A -> R) l : (forall x, In x l -> f x <= g x) -> total (map f l) <= total (map g l).
Proof.
  induction l as [|x r IH]; [nilt|]. intros F. cbn [map]. rewrite !total_cons.
  pose proof (F x (or_introl eq_refl)). assert (total (map f r) <= total (map g r)) by (apply IH; intros y Y; apply F; right; exact Y). lra.
Qed.
Lemma map_id_total l : total (map (fun x => x) l) = total l. Proof. rewrite map_id. reflexivity. Qed.
Lemma count_pos l : l <> [] -> 0 < count l.
Proof. intros N. apply (lt_INR 0). destruct l; [contradiction|cbn; lia]. Qed.
Lemma ofN n : IZR (Z.of_nat n) = INR n. Proof. symmetry. apply INR_IZR_INZ. Qed.

(** ** Mean and variance *)
Lemma ndivE_R (x y : R) : ndivE x y = if Req_EM_T y 0 then Err ZeroDivisionError else Ok (x / y).
Proof. unfold ndivE. cbn [neq nofZ NumR ndiv]. unfold Req_bool. destruct (Req_EM_T y 0); reflexivity. Qed.
Lemma ndivE_ok x y : y <> 0 -> ndivE x y = Ok (x / y)%R.
Proof. intros N. rewrite ndivE_R. destruct (Req_EM_T y 0); [contradiction|reflexivity]. Qed.
Lemma ndivE_err x : ndivE x 0%R = Err ZeroDivisionError.
Proof. rewrite ndivE_R. destruct (Req_EM_T 0 0); [reflexivity|contradiction]. Qed.
Lemma p_avg_ok l : l <> [] -> p_avg l = Ok (mean l).
Proof. intros N. unfold p_avg. cbn [nofZ NumR]. rewrite ofN. pose proof (count_pos l N) as C. unfold count in C. rewrite ndivE_ok by lra. reflexivity. Qed.
Lemma p_avg_nil : p_avg [] = Err ZeroDivisionError. Proof. apply ndivE_err. Qed.
Lemma p_var_ok l : l <> [] -> p_var l = Ok (variance l).
Proof.
  intros N. unfold p_var. rewrite p_avg_ok by exact N. cbn [bind nofZ NumR nmul nsub]. rewrite ofN. pose proof (count_pos l N) as C. unfold count in C.
  rewrite ndivE_ok by lra. unfold variance. f_equal. f_equal. apply total_map_ext. intros x _. ring.
Qed.
Lemma p_var_nil : p_var [] = Err ZeroDivisionError. Proof. unfold p_var. rewrite p_avg_nil. reflexivity. Qed.
Lemma div_nonneg a b : 0 <= a -> 0 < b -> 0 <= a / b.
Proof. intros A B. apply Rmult_le_pos; [exact A|]. left. apply Rinv_0_lt_compat. exact B. Qed.
Lemma variance_nonneg l : l <> [] -> 0 <= variance l.
Proof.
  intros N. apply div_nonneg; [|apply count_pos; exact N]. apply total_nonneg. intros x _. apply pow2_ge_0.
Qed.
Lemma p_std_ok l : l <> [] -> p_std l = Ok (sqrt (variance l)).
Proof.
  intros N. unfold p_std. rewrite p_var_ok by exact N. cbn [bind nsqrt StatR]. destruct (Rlt_bool_spec (variance l) 0) as [C|C]; [|reflexivity].
  pose proof (variance_nonneg l N). lra.
Qed.
Lemma p_std_nil : p_std [] = Err ZeroDivisionError. Proof. unfold p_std. rewrite p_var_nil. reflexivity. Qed.
Lemma mean_total l : l <> [] -> count l * mean l = total l.
Proof. intros N. pose proof (count_pos l N). unfold mean. field. lra. Qed.
Lemma total_dev l : l <> [] -> total (map (fun x => x - mean l) l) = 0.
Proof.
  intros N. transitivity (total (map (fun x => x) l) + total (map (fun _ => - mean l) l)).
  { rewrite <- (total_map_add (fun x => x) (fun _ => - mean l)). reflexivity. }
  rewrite map_id, total_map_const. fold (count l). pose proof (mean_total l N). lra.
Qed.
Lemma variance_squares l : l <> [] -> variance l = mean (map (fun x => x ^ 2) l) - mean l ^ 2.
Proof.
  intros N. pose proof (count_pos l N) as C. unfold variance, mean at 2. unfold count at 2. rewrite map_length. fold (count l).
  assert (E : total (map (fun x => (x - mean l) ^ 2) l) = total (map (fun x => x ^ 2) l) + (- 2 * mean l) * total l + count l * (mean l ^ 2)).
  { transitivity (total (map (fun x => x ^ 2 + ((- 2 * mean l) * x + mean l ^ 2)) l)); [apply total_map_ext; intros x _; ring|].
    rewrite total_map_add, (total_map_add (fun x => - 2 * mean l * x)), (total_map_scale (- 2 * mean l) (fun x => x)), total_map_const, map_id_total.
    unfold count. ring. }
  rewrite E, <- (mean_total l N). field. lra.
Qed.
Lemma variance_zero l : l <> [] -> (variance l = 0 <-> forall x, In x l -> x = mean l).
Proof.
  intros N. pose proof (count_pos l N) as C. split.
  - intros V x X. assert (S : total (map (fun x => (x - mean l) ^ 2) l) = 0).
    { unfold variance in V. apply (Rmult_eq_reg_r (/ count l)); [|apply Rinv_neq_0_compat; lra]. unfold Rdiv in V. lra. }
    pose proof (total_zero (fun x => (x - mean l) ^ 2) l (fun x _ => pow2_ge_0 _) S x X) as E. cbn beta in E.
    apply Rmult_integral in E. destruct E as [E|E]; [lra|]. rewrite Rmult_1_r in E. lra.
  - intros F. unfold variance. rewrite (total_map_ext _ (fun _ => 0)) by (intros x X; cbn beta; rewrite <- (F x X); ring).
    rewrite total_map_const. field. lra.
Qed.

(** ** Covariance *)
Lemma covar_loop_ok n u v a : forall b c, n <> 0%Z -> (length a <= length b)%nat ->
  covar_loop n u v a b c = Ok (c + total (map (fun p => (fst p - u) * (snd p - v)) (combine a b)) / IZR n).
Proof.
  induction a as [|x r IH]; intros b c N L; [cbn; f_equal; field; apply not_0_IZR; exact N|].
  destruct b as [|y s]; [cbn in L; lia|]. cbn [covar_loop combine map]. cbn [nofZ nmul nsub nadd NumR].
  rewrite ndivE_ok by (apply not_0_IZR; exact N). cbn [bind]. rewrite IH by (cbn [length] in L; lia || assumption). f_equal. rewrite total_cons. cbn [fst snd].
  field. apply not_0_IZR. exact N.
Qed.
Lemma covar_loop_err n u v a : forall b c, n <> 0%Z -> (length b < length a)%nat -> covar_loop n u v a b c = Err IndexError.
Proof.
  induction a as [|x r IH]; intros b c N L; [cbn in L; lia|]. destruct b as [|y s]; [reflexivity|]. cbn [covar_loop].
  cbn [nofZ nmul nsub nadd NumR]. rewrite ndivE_ok by (apply not_0_IZR; exact N). cbn [bind]. apply IH; [exact N|cbn [length] in L; lia].
Qed.
Lemma len_nz (a : list R) : a <> [] -> Z.of_nat (length a) <> 0%Z. Proof. destruct a; [contradiction|cbn; lia]. Qed.
Lemma p_cov_ok a b : a <> [] -> (length a <= length b)%nat -> p_cov (a, b) = Ok (covariance a b).
Proof.
  intros N L. assert (Nb : b <> []) by (destruct a, b; cbn in L; congruence || lia). unfold p_cov. cbn [fst snd].
  rewrite !p_avg_ok by assumption. cbn [bind nofZ NumR]. rewrite covar_loop_ok by (apply len_nz || exact L; exact N).
  f_equal. rewrite ofN. unfold covariance. fold (count a). ring.
Qed.
Lemma p_cov_err a b : b <> [] -> (length b < length a)%nat -> p_cov (a, b) = Err IndexError.
Proof.
  intros Nb L. assert (Na : a <> []) by (destruct a, b; cbn in L; congruence || lia). unfold p_cov. cbn [fst snd].
  rewrite !p_avg_ok by assumption. cbn [bind nofZ NumR]. apply covar_loop_err; [apply len_nz; exact Na|exact L].
Qed.
Lemma p_cov_nil a b : a = [] \/ b = [] -> p_cov (a, b) = Err ZeroDivisionError.
Proof.
  intros [->| ->]; unfold p_cov; cbn [fst snd]; [rewrite p_avg_nil; reflexivity|]. destruct a as [|x r]; [rewrite p_avg_nil; reflexivity|].
  rewrite (p_avg_ok (x :: r)) by discriminate. cbn [bind]. rewrite p_avg_nil. reflexivity.
Qed.
Lemma cov_self l : covariance l l = variance l.
Proof.
  unfold covariance, variance. f_equal. rewrite (total_map_ext (fun x => (x - mean l) ^ 2) (fun x => (x - mean l) * (x - mean l))) by (intros; ring).
  generalize (mean l) as u. intros u. induction l as [|x r IH]; [reflexivity|]. cbn [combine map]. rewrite !total_cons, IH. reflexivity.
Qed.
Lemma total_combine_sym (f : R -> R -> R) a : forall b, total (map (fun p => f (fst p) (snd p)) (combine a b)) = total (map (fun p => f (snd p) (fst p)) (combine b a)).
Proof. induction a as [|x r IH]; intros [|y s]; try reflexivity. cbn [combine map fst snd]. rewrite !total_cons, IH. reflexivity. Qed.
Lemma cov_sym a b : length a = length b -> covariance a b = covariance b a.
Proof.
  intros L. unfold covariance, count. rewrite L. f_equal. rewrite (total_combine_sym (fun x y => (x - mean a) * (y - mean b))).
  apply total_map_ext. intros p _. ring.
Qed.
(** Cauchy-Schwarz. *)
Lemma cs_square ps (x y : R) : total (map (fun p => (fst p * y - snd p * x) ^ 2) ps) =
  total (map (fun p => fst p ^ 2) ps) * y ^ 2 + total (map (fun p => snd p ^ 2) ps) * x ^ 2 - 2 * total (map (fun p => fst p * snd p) ps) * x * y.
Proof. induction ps as [|p ps IH]; [nilt|]. cbn [map]. rewrite !total_cons, IH. ring. Qed.
Lemma cs ps : total (map (fun p => fst p * snd p) ps) ^ 2 <= total (map (fun p => fst p ^ 2) ps) * total (map (fun p => snd p ^ 2) ps).
Proof.
  induction ps as [|[x y] ps IH]; [nilt|]. cbn [map fst snd]. rewrite !total_cons. pose proof (cs_square ps x y) as S.
  pose proof (total_nonneg (fun p => (fst p * y - snd p * x) ^ 2) ps (fun p _ => pow2_ge_0 _)) as P.
  set (A := total (map (fun p => fst p ^ 2) ps)) in *. set (B := total (map (fun p => snd p ^ 2) ps)) in *.
  set (D := total (map (fun p => fst p * snd p) ps)) in *. cbn beta in *. clearbody A B D.
  assert ((x ^ 2 + A) * (y ^ 2 + B) - (x * y + D) ^ 2 = (A * B - D ^ 2) + (A * y ^ 2 + B * x ^ 2 - 2 * D * x * y)) by ring. lra.
Qed.
Lemma cs_equal ps : total (map (fun p => fst p * snd p) ps) ^ 2 = total (map (fun p => fst p ^ 2) ps) * total (map (fun p => snd p ^ 2) ps) ->
  forall p, In p ps -> total (map (fun p => fst p ^ 2) ps) * snd p = total (map (fun p => fst p * snd p) ps) * fst p.
Proof.
  intros E p P. pose proof (cs_square ps (total (map (fun p => fst p ^ 2) ps)) (total (map (fun p => fst p * snd p) ps))) as S.
  set (A := total (map (fun p => fst p ^ 2) ps)) in *. set (B := total (map (fun p => snd p ^ 2) ps)) in *.
  set (D := total (map (fun p => fst p * snd p) ps)) in *.
  assert (Z : total (map (fun p => (fst p * D - snd p * A) ^ 2) ps) = 0).
  { rewrite S. replace (A * D ^ 2 + B * A ^ 2 - 2 * D * A * D) with (A * (A * B - D ^ 2)) by ring. rewrite E. ring. }
  pose proof (total_zero (fun p => (fst p * D - snd p * A) ^ 2) ps (fun p _ => pow2_ge_0 _) Z p P) as F. cbn beta in F.
  apply Rmult_integral in F. destruct F as [F|F]; [lra|]. rewrite Rmult_1_r in F. lra.
Qed.
Definition centred (a b : list R) : list (R * R) := map (fun p => (fst p - mean a, snd p - mean b)) (combine a b).
Lemma combine_fst {A B} (a : list A) (b : list B) : length a = length b -> map fst (combine a b) = a.
Proof. revert b. induction a as [|x r IH]; intros [|y s] L; cbn in *; try discriminate; [reflexivity|]. rewrite IH by congruence. reflexivity. Qed.
Lemma combine_snd {A B} (a : list A) (b : list B) : length a = length b -> map snd (combine a b) = b.
Proof. revert b. induction a as [|x r IH]; intros [|y s] L; cbn in *; try discriminate; [reflexivity|]. rewrite IH by congruence. reflexivity. Qed.
Lemma centred_sums a b : a <> [] -> length a = length b ->
  total (map (fun p => fst p * snd p) (centred a b)) = count a * covariance a b /\
  total (map (fun p => fst p ^ 2) (centred a b)) = count a * variance a /\
  total (map (fun p => snd p ^ 2) (centred a b)) = count a * variance b.
Proof.
  intros N L. pose proof (count_pos a N) as C. assert (Cb : count b = count a) by (unfold count; rewrite L; reflexivity).
  unfold centred. rewrite !map_map. cbn [fst snd]. split; [unfold covariance; field; lra|]. unfold variance. rewrite Cb. split.
  - rewrite <- (map_map fst (fun x => (x - mean a) ^ 2)), combine_fst by exact L. field. lra.
  - rewrite <- (map_map snd (fun x => (x - mean b) ^ 2)), combine_snd by exact L. field. lra.
Qed.
Lemma cov_cs a b : a <> [] -> length a = length b -> covariance a b ^ 2 <= variance a * variance b.
Proof.
  intros N L. pose proof (count_pos a N) as C. pose proof (cs (centred a b)) as H. destruct (centred_sums a b N L) as (E1 & E2 & E3).
  rewrite E1, E2, E3 in H. assert (P : 0 < count a * count a) by nra.
  apply (Rmult_le_reg_l (count a * count a)); [exact P|]. nra.
Qed.
Lemma div_sqrt_bound c v w : 0 <= v -> 0 <= w -> v * w <> 0 -> c ^ 2 <= v * w -> Rabs (c / sqrt (v * w)) <= 1.
Proof.
  intros V W N H. assert (P : 0 < v * w) by (assert (0 <= v * w) by (apply Rmult_le_pos; assumption); lra).
  pose proof (sqrt_lt_R0 _ P) as S. unfold Rdiv. rewrite Rabs_mult, (Rabs_right (/ _)) by (left; apply Rinv_0_lt_compat; exact S).
  apply (Rmult_le_reg_r (sqrt (v * w))); [exact S|]. rewrite Rmult_assoc, Rinv_l, Rmult_1_r, Rmult_1_l by lra.
  apply sqrt_le_1 in H; [|apply pow2_ge_0|lra]. rewrite <- (sqrt_pow2 (Rabs c)) by apply Rabs_pos. rewrite pow2_abs. exact H.
Qed.
Lemma corr_bound a b : a <> [] -> length a = length b -> variance a * variance b <> 0 -> Rabs (covariance a b / sqrt (variance a * variance b)) <= 1.
Proof.
  intros N L V. assert (Nb : b <> []) by (destruct a, b; cbn in L; congruence).
  apply div_sqrt_bound; [apply variance_nonneg; exact N|apply variance_nonneg; exact Nb|exact V|apply cov_cs; assumption].
Qed.
Lemma in_centred a b p : In p (combine a b) -> In (fst p - mean a, snd p - mean b) (centred a b).
Proof. intros H. unfold centred. apply in_map_iff. exists p. split; [reflexivity|exact H]. Qed.
(** Perfect correlation. *)
Lemma corr_one a b : a <> [] -> length a = length b -> variance a * variance b <> 0 ->
  (covariance a b / sqrt (variance a * variance b) = 1 <->
   exists k q, 0 < k /\ forall p, In p (combine a b) -> snd p = k * fst p + q).
Proof.
  intros N L V. assert (Nb : b <> []) by (destruct a, b; cbn in L; congruence).
  pose proof (variance_nonneg a N) as Va. pose proof (variance_nonneg b Nb) as Vb. pose proof (count_pos a N) as C.
  assert (Pa : 0 < variance a) by nra. assert (Pb : 0 < variance b) by nra.
  assert (P : 0 < variance a * variance b) by nra. pose proof (sqrt_lt_R0 _ P) as S.
  destruct (centred_sums a b N L) as (E1 & E2 & E3). split.
  - intros H. assert (Cs : covariance a b = sqrt (variance a * variance b)).
    { apply (Rmult_eq_reg_r (/ sqrt (variance a * variance b))); [|apply Rinv_neq_0_compat; lra]. rewrite Rinv_r by lra. exact H. }
    assert (Sq : covariance a b ^ 2 = variance a * variance b) by (rewrite Cs; apply pow2_sqrt; lra).
    assert (Eq : total (map (fun p => fst p * snd p) (centred a b)) ^ 2 = total (map (fun p => fst p ^ 2) (centred a b)) * total (map (fun p => snd p ^ 2) (centred a b))).
    { rewrite E1, E2, E3. replace ((count a * covariance a b) ^ 2) with (count a ^ 2 * covariance a b ^ 2) by ring. rewrite Sq. ring. }
    exists (covariance a b / variance a), (mean b - covariance a b / variance a * mean a). split.
    { rewrite Cs. apply Rdiv_lt_0_compat; assumption. }
    intros p I. pose proof (cs_equal _ Eq _ (in_centred a b p I)) as F. cbn [fst snd] in F. rewrite E1, E2 in F.
    assert (G : variance a * (snd p - mean b) = covariance a b * (fst p - mean a)).
    { apply (Rmult_eq_reg_l (count a)); [|lra]. lra. }
    apply (Rmult_eq_reg_l (variance a)); [|lra]. field_simplify; lra.
  - intros (k & q & K & F). assert (Mb : mean b = k * mean a + q).
    { apply (Rmult_eq_reg_l (count a)); [|lra]. replace (count a * mean b) with (total b).
      2:{ rewrite <- (mean_total b Nb). unfold count. rewrite L. reflexivity. }
      rewrite <- (combine_snd a b L). rewrite (total_map_ext snd (fun p => k * fst p + q)) by exact F.
      rewrite total_map_add, (total_map_scale k fst), total_map_const, combine_fst by exact L. rewrite combine_length, <- L, Nat.min_id. fold (count a).
      rewrite Rmult_plus_distr_l. rewrite <- (mean_total a N). ring. }
    assert (Cv : covariance a b = k * variance a).
    { apply (Rmult_eq_reg_l (count a)); [|lra]. rewrite <- E1. replace (count a * (k * variance a)) with (k * (count a * variance a)) by ring. rewrite <- E2.
      rewrite <- total_map_scale. unfold centred. rewrite !map_map. apply total_map_ext. intros p I. cbn [fst snd]. rewrite (F p I), Mb. ring. }
    assert (Vv : variance b = k ^ 2 * variance a).
    { apply (Rmult_eq_reg_l (count a)); [|lra]. rewrite <- E3. replace (count a * (k ^ 2 * variance a)) with (k ^ 2 * (count a * variance a)) by ring. rewrite <- E2.
      rewrite <- total_map_scale. unfold centred. rewrite !map_map. apply total_map_ext. intros p I. cbn [fst snd]. rewrite (F p I), Mb. ring. }
    rewrite Cv, Vv. replace (variance a * (k ^ 2 * variance a)) with ((k * variance a) ^ 2) by ring. rewrite sqrt_pow2 by nra. field. split; lra.
Qed.
Lemma p_corr_ok a b : a <> [] -> (length a <= length b)%nat -> variance a * variance b <> 0 ->
  p_corr (a, b) = Ok (covariance a b / sqrt (variance a * variance b)).
Proof.
  intros N L V. assert (Nb : b <> []) by (destruct a, b; cbn in L; congruence || lia).
  unfold p_corr. rewrite p_cov_ok by assumption. cbn [bind fst snd]. rewrite !p_std_ok by assumption. cbn [bind nmul NumR].
  rewrite <- sqrt_mult by (apply variance_nonneg; assumption). apply ndivE_ok.
  intros Z. apply V. apply sqrt_eq_0; [|exact Z]. apply Rmult_le_pos; apply variance_nonneg; assumption.
Qed.
Lemma p_corr_zero a b : a <> [] -> (length a <= length b)%nat -> variance a * variance b = 0 -> p_corr (a, b) = Err ZeroDivisionError.
Proof.
  intros N L V. assert (Nb : b <> []) by (destruct a, b; cbn in L; congruence || lia).
  unfold p_corr. rewrite p_cov_ok by assumption. cbn [bind fst snd]. rewrite !p_std_ok by assumption. cbn [bind nmul NumR].
  rewrite <- sqrt_mult by (apply variance_nonneg; assumption). rewrite V, sqrt_0. apply ndivE_err.
Qed.

(** ** Gini *)
Definition spread (l : list R) : R := total (map (fun p => Rabs (fst p - snd p)) (pairs l)).
Lemma spread_cons x r : spread (x :: r) = total (map (fun y => Rabs (x - y)) r) + spread r.
Proof. unfold spread. cbn [pairs]. rewrite map_app, total_app, map_map. reflexivity. Qed.
Lemma st_abs_R (x : R) : st_abs x = Rabs x.
Proof.
  unfold st_abs. cbn [nlt nsub nofZ NumR]. destruct (Rlt_bool_spec x 0); [rewrite Rabs_left by assumption; ring|rewrite Rabs_right by lra; reflexivity].
Qed.
Lemma kak_inner (x : R) r : forall s, fold_left (fun s y => nadd s (st_abs (nsub x y))) r s = s + total (map (fun y => Rabs (x - y)) r).
Proof.
  induction r as [|y r IH]; intros s; [nilt|]. cbn [fold_left map]. rewrite IH, total_cons, st_abs_R. cbn [nadd nsub NumR]. ring.
Qed.
Lemma kak_spread l : forall s, kak_loop l s = s + spread l.
Proof. induction l as [|x r IH]; intros s; [unfold spread; nilt|]. cbn [kak_loop].
rewrite kak_inner, IH, spread_cons. ring. Qed.
Lemma spread_perm a b : Permutation a b -> spread a = spread b.
Proof.
  induction 1 as [|x a b P IH|x y l|a b c P1 IH1 P2 IH2]; [reflexivity| | |congruence].
  - rewrite !spread_cons, IH. f_equal. apply total_perm. apply Permutation_map. exact P.
  - rewrite !spread_cons. cbn [map]. rewrite !total_cons, (Rabs_minus_sym y x). ring.
Qed.
Lemma insert_desc_perm (x : R) l : Permutation (insert_desc x l) (x :: l).
Proof.
  induction l as [|y r IH]; [reflexivity|]. cbn [insert_desc]. destruct (nlt y x); [reflexivity|]. rewrite IH. apply perm_swap.
Qed.
Lemma sort_desc_gen (l : list R) : forall acc, Permutation (fold_left (fun acc x => insert_desc x acc) l acc) (l ++ acc).
Proof.
  induction l as [|x r IH]; intros acc; [reflexivity|]. cbn [fold_left]. rewrite IH, insert_desc_perm. cbn [app]. symmetry. apply Permutation_middle.
Qed.
Lemma sort_desc_perm (l : list R) : Permutation (sort_desc l) l.
Proof. unfold sort_desc. rewrite sort_desc_gen, app_nil_r. reflexivity. Qed.
Definition descending : list R -> Prop := StronglySorted (fun x y => y <= x).
Lemma insert_desc_sorted (x : R) l : descending l -> descending (insert_desc x l).
Proof.
  induction 1 as [|y r S IH F]; [repeat constructor|]. cbn [insert_desc nlt NumR]. destruct (Rlt_bool_spec y x) as [L|L].
  - constructor; [constructor; assumption|]. constructor; [lra|]. rewrite Forall_forall in *. intros z Z. specialize (F z Z). lra.
  - constructor; [exact IH|]. rewrite (Permutation_Forall (insert_desc_perm x r)) || idtac. rewrite Forall_forall in *. intros z Z.
    apply (Permutation_in _ (insert_desc_perm x r)) in Z. destruct Z as [<-|Z]; [lra|apply F; exact Z].
Qed.
Lemma sort_desc_sorted (l : list R) : descending (sort_desc l).
Proof.
  unfold sort_desc. assert (G : forall acc, descending acc -> descending (fold_left (fun acc x => insert_desc x acc) l acc)).
  { induction l as [|x r IH]; intros acc A; [exact A|]. cbn [fold_left]. apply IH. apply insert_desc_sorted. exact A. }
  apply G. constructor.
Qed.
Fixpoint weighted (i : Z) (l : list R) : R := match l with [] => 0 | x :: r => IZR i * x + weighted (i + 1) r end.
Lemma dea_weighted l : forall i s, dea_loop i l s = s + weighted i l.
Proof. induction l as [|x r IH]; intros i s; [nilt|]. cbn [dea_loop weighted]. rewrite IH. cbn [nadd nmul nofZ NumR]. ring. Qed.
Lemma weighted_shift l : forall i, weighted (i + 1) l = total l + weighted i l.
Proof. induction l as [|x r IH]; intros i; [nilt|]. cbn [weighted]. rewrite IH, total_cons, plus_IZR. ring. Qed.
Lemma spread_desc l : descending l -> spread l = (count l - 1) * total l - 2 * weighted 0 l.
Proof.
  induction 1 as [|x r S IH F]; [unfold spread; nilt|]. rewrite spread_cons, IH. cbn [weighted]. rewrite weighted_shift, total_cons.
  unfold count. cbn [length]. rewrite S_INR. rewrite Forall_forall in F.
  rewrite (total_map_ext (fun y => Rabs (x - y)) (fun y => x + (-1) * y)) by (intros y Y; rewrite Rabs_right by (specialize (F y Y); lra); ring).
  rewrite total_map_add, total_map_const, (total_map_scale (-1) (fun y => y)), map_id_total. ring.
Qed.
Lemma gini_spread l : gini l = spread l / (count l * (count l - 1) * mean l). Proof. reflexivity. Qed.
Lemma count_two l : (2 <= length l)%nat -> 0 < count l /\ 0 < count l - 1.
Proof. intros L. apply le_INR in L. unfold count. cbn [INR] in L. split; lra. Qed.
Lemma npair (l : list R) : IZR (Z.of_nat (length l) * (Z.of_nat (length l) - 1)) = count l * (count l - 1).
Proof. rewrite mult_IZR, minus_IZR, ofN. reflexivity. Qed.
Lemma two_ne (l : list R) : (2 <= length l)%nat -> l <> []. Proof. destruct l; cbn; [lia|discriminate]. Qed.
Lemma p_kak_ok l : (2 <= length l)%nat -> mean l <> 0 -> p_kak l = Ok (gini l).
Proof.
  intros L M. destruct (count_two l L) as [C D]. unfold p_kak. rewrite p_avg_ok by (apply two_ne; exact L). cbn [bind nofZ nmul NumR].
  rewrite npair. rewrite ndivE_ok by nra. cbn [bind]. rewrite ndivE_ok by lra. rewrite gini_spread, kak_spread. f_equal. field. lra.
Qed.
Lemma p_dea_ok l : (2 <= length l)%nat -> mean l <> 0 -> p_dea l = Ok (gini l).
Proof.
  intros L M. destruct (count_two l L) as [C D]. unfold p_dea. rewrite p_avg_ok by (apply two_ne; exact L). cbn [bind nofZ nmul nsub NumR].
  rewrite plus_IZR, minus_IZR, npair, ofN. fold (count l). rewrite ndivE_ok by lra. cbn [bind].
  rewrite ndivE_ok by (apply Rmult_integral_contrapositive; split; [nra|exact M]). cbn [bind]. rewrite gini_spread, dea_weighted. f_equal.
  rewrite <- (spread_perm _ _ (sort_desc_perm l)), (spread_desc _ (sort_desc_sorted l)).
  assert (Cs : count (sort_desc l) = count l) by (unfold count; rewrite (Permutation_length (sort_desc_perm l)); reflexivity).
  rewrite Cs, (total_perm _ _ (sort_desc_perm l)), <- (mean_total l) by (apply two_ne; exact L). field. lra.
Qed.
Lemma p_kak_err l : (length l < 2)%nat \/ mean l = 0 -> p_kak l = Err ZeroDivisionError.
Proof.
  intros H. destruct l as [|x [|y r]].
  - unfold p_kak. rewrite p_avg_nil. reflexivity.
  - unfold p_kak. rewrite p_avg_ok by discriminate. cbn [bind nofZ NumR]. rewrite npair. unfold count. cbn [length INR].
    replace (1 * (1 - 1)) with 0 by ring. rewrite ndivE_err. reflexivity.
  - destruct H as [H|M]; [cbn in H; lia|]. assert (L : (2 <= length (x :: y :: r))%nat) by (cbn; lia). destruct (count_two _ L) as [C D].
    unfold p_kak. rewrite p_avg_ok by discriminate. cbn [bind nofZ NumR nmul]. rewrite npair, ndivE_ok by nra. cbn [bind]. rewrite M, Rmult_0_r. apply ndivE_err.
Qed.
Lemma p_dea_err l : (length l < 2)%nat \/ mean l = 0 -> p_dea l = Err ZeroDivisionError.
Proof.
  intros H. destruct l as [|x [|y r]].
  - unfold p_dea. rewrite p_avg_nil. reflexivity.
  - unfold p_dea. rewrite p_avg_ok by discriminate. cbn [bind nofZ NumR]. cbn [length]. change (Z.of_nat 1 - 1)%Z with 0%Z. rewrite ndivE_err. reflexivity.
  - destruct H as [H|M]; [cbn in H; lia|]. assert (L : (2 <= length (x :: y :: r))%nat) by (cbn; lia). destruct (count_two _ L) as [C D].
    unfold p_dea. rewrite p_avg_ok by discriminate. cbn [bind nofZ NumR nmul]. rewrite minus_IZR, ofN. fold (count (x :: y :: r)). rewrite ndivE_ok by lra. cbn [bind].
    rewrite M, Rmult_0_r, ndivE_err. reflexivity.
Qed.

(** ** Maximum and minimum *)
Lemma fold_max r : forall x, In (fold_left nmax r x) (x :: r) /\ forall y, In y (x :: r) -> y <= fold_left nmax r x.
Proof.
  induction r as [|z r IH]; intros x; [split; [left; reflexivity|intros y [->|[]]; cbn; lra]|]. cbn [fold_left].
  destruct (IH (nmax x z)) as [I F]. assert (M : (nmax x z = x \/ nmax x z = z) /\ x <= nmax x z /\ z <= nmax x z).
  { unfold nmax. cbn [nlt NumR]. destruct (Rlt_bool_spec x z); split; [right; reflexivity|lra|left; reflexivity|lra]. }
  destruct M as (M1 & M2 & M3). split.
  - destruct I as [I|I]; [rewrite <- I; destruct M1 as [-> | ->]; [left; reflexivity|right; left; reflexivity]|right; right; exact I].
  - pose proof (F (nmax x z) (or_introl eq_refl)). intros y [->|[->|Y]]; [lra|lra|apply F; right; exact Y].
Qed.
Lemma fold_min r : forall x, In (fold_left nmin r x) (x :: r) /\ forall y, In y (x :: r) -> fold_left nmin r x <= y.
Proof.
  induction r as [|z r IH]; intros x; [split; [left; reflexivity|intros y [->|[]]; cbn; lra]|]. cbn [fold_left].
  destruct (IH (nmin x z)) as [I F]. assert (M : (nmin x z = x \/ nmin x z = z) /\ nmin x z <= x /\ nmin x z <= z).
  { unfold nmin. cbn [nlt NumR]. destruct (Rlt_bool_spec z x); split; [right; reflexivity|lra|left; reflexivity|lra]. }
  destruct M as (M1 & M2 & M3). split.
  - destruct I as [I|I]; [rewrite <- I; destruct M1 as [-> | ->]; [left; reflexivity|right; left; reflexivity]|right; right; exact I].
  - pose proof (F (nmin x z) (or_introl eq_refl)). intros y [->|[->|Y]]; [lra|lra|apply F; right; exact Y].
Qed.

(** ** All calls *)
Lemma p_call_expected c : expected c (p_call c).
Proof.
  destruct c as [[a|]|[a|]|[a|]|[a|]|[a|]|[a|]|[a|]|[[a b]|]|[[a b]|]|[a|]|[a|]|]; try reflexivity; cbn [expected p_call].
  - destruct a as [|x r]; [left; auto|right]. destruct (fold_max r x). eexists. split; [reflexivity|]. auto.
  - destruct a as [|x r]; [left; auto|right]. destruct (fold_min r x). eexists. split; [reflexivity|]. auto.
  - destruct a as [|x r]; [left; rewrite p_avg_nil; auto|right]. rewrite p_avg_ok by discriminate. split; [discriminate|reflexivity].
  - destruct a as [|x r]; [left; rewrite p_var_nil; auto|right]. rewrite p_var_ok by discriminate. split; [discriminate|reflexivity].
  - destruct a as [|x r]; [left; rewrite p_std_nil; auto|right]. rewrite p_std_ok by discriminate. split; [discriminate|reflexivity].
  - destruct a as [|x r]; [left; rewrite p_cov_nil by auto; auto|]. destruct b as [|y s]; [left; rewrite p_cov_nil by auto; auto|]. right.
    destruct (Nat.le_gt_cases (length (x :: r)) (length (y :: s))) as [L|L]; [right|left].
    + rewrite p_cov_ok by (discriminate || exact L). split; [discriminate|]. split; [exact L|reflexivity].
    + rewrite p_cov_err by (discriminate || exact L). split; [discriminate|]. split; [exact L|reflexivity].
  - assert (E0 : a = [] \/ b = [] -> p_corr (a, b) = Err ZeroDivisionError) by (intros H; unfold p_corr; rewrite p_cov_nil by exact H; reflexivity).
    destruct a as [|x r]; [left; rewrite E0 by auto; auto|]. destruct b as [|y s]; [left; rewrite E0 by auto; auto|].
    destruct (Nat.le_gt_cases (length (x :: r)) (length (y :: s))) as [L|L].
    + destruct (Req_EM_T (variance (x :: r) * variance (y :: s)) 0) as [V|V].
      * left. rewrite p_corr_zero by (discriminate || assumption). auto.
      * right. right. rewrite p_corr_ok by (discriminate || assumption). split; [discriminate|]. auto.
    + right. left. unfold p_corr. rewrite p_cov_err by (discriminate || exact L). split; [discriminate|]. auto.
  - destruct (Nat.lt_ge_cases (length a) 2) as [L|L]; [left; rewrite p_kak_err by auto; auto|].
    destruct (Req_EM_T (mean a) 0) as [M|M]; [left; rewrite p_kak_err by auto; auto|right]. rewrite p_kak_ok by assumption. auto.
  - destruct (Nat.lt_ge_cases (length a) 2) as [L|L]; [left; rewrite p_dea_err by auto; auto|].
    destruct (Req_EM_T (mean a) 0) as [M|M]; [left; rewrite p_dea_err by auto; auto|right]. rewrite p_dea_ok by assumption. auto.
Qed.
Lemma api_expected h c : exists r, answers h c r /\ expected c r.
Proof. exists (p_call c). split; [apply answers_plain|apply p_call_expected]. Qed.
Lemma answers_fun h c r : answers h c r -> r = p_call c.
Proof. intros A. pose proof (answers_plain h c) as B. unfold answers in *. congruence. Qed.

(** ** Laws, at the level of answers *)
Lemma num_inj (x y : R) : @Ok (stvalue R) (VNum x) = Ok (VNum y) -> x = y. Proof. congruence. Qed.
Lemma api_var h l v : answers h (CVar (Some l)) (Ok (VNum v)) ->
  0 <= v /\ (exists m, answers h (CAvg (Some l)) (Ok (VNum m)) /\
    answers h (CAvg (Some (map (fun x => x ^ 2) l))) (Ok (VNum (v + m ^ 2))) /\ (v = 0 <-> forall x, In x l -> x = m)) /\
  answers h (CStd (Some l)) (Ok (VNum (sqrt v))) /\ answers h (CCov (Some (l, l))) (Ok (VNum v)).
Proof.
  intros A. apply answers_fun in A. cbn [p_call] in A. destruct l as [|x r] eqn:El; [rewrite p_var_nil in A; discriminate|]. rewrite <- El in *.
  assert (N : l <> []) by (rewrite El; discriminate). clear El. rewrite p_var_ok in A by exact N. apply num_inj in A. subst v.
  split; [apply variance_nonneg; exact N|]. split.
  { exists (mean l). split; [|split; [|apply variance_zero; exact N]].
    - pose proof (answers_plain h (CAvg (Some l))) as P. cbn [p_call] in P. rewrite p_avg_ok in P by exact N. exact P.
    - pose proof (answers_plain h (CAvg (Some (map (fun x => x ^ 2) l)))) as P. cbn [p_call] in P. rewrite p_avg_ok in P by (destruct l; [contradiction|discriminate]).
      replace (variance l + mean l ^ 2) with (mean (map (fun x => x ^ 2) l)); [exact P|]. rewrite variance_squares by exact N. ring. }
  split.
  - pose proof (answers_plain h (CStd (Some l))) as P. cbn [p_call] in P. rewrite p_std_ok in P by exact N. exact P.
  - pose proof (answers_plain h (CCov (Some (l, l)))) as P. cbn [p_call] in P. rewrite p_cov_ok, cov_self in P by (exact N || lia). exact P.
Qed.
Lemma api_cov h a b c : length a = length b -> answers h (CCov (Some (a, b))) (Ok (VNum c)) ->
  answers h (CCov (Some (b, a))) (Ok (VNum c)) /\
  exists v w, answers h (CVar (Some a)) (Ok (VNum v)) /\ answers h (CVar (Some b)) (Ok (VNum w)) /\ c ^ 2 <= v * w.
Proof.
  intros L A. apply answers_fun in A. cbn [p_call] in A.
  destruct a as [|x r] eqn:Ea; [rewrite p_cov_nil in A by auto; discriminate|]. rewrite <- Ea in *. assert (N : a <> []) by (rewrite Ea; discriminate). clear Ea.
  assert (Nb : b <> []) by (destruct a, b; cbn in L; congruence). rewrite p_cov_ok in A by (exact N || lia). apply num_inj in A. subst c. split.
  - pose proof (answers_plain h (CCov (Some (b, a)))) as P. cbn [p_call] in P. rewrite p_cov_ok in P by (exact Nb || lia). rewrite cov_sym by exact L. exact P.
  - exists (variance a), (variance b). split; [|split; [|apply cov_cs; assumption]].
    + pose proof (answers_plain h (CVar (Some a))) as P. cbn [p_call] in P. rewrite p_var_ok in P by exact N. exact P.
    + pose proof (answers_plain h (CVar (Some b))) as P. cbn [p_call] in P. rewrite p_var_ok in P by exact Nb. exact P.
Qed.
Lemma api_corr h a b c : length a = length b -> answers h (CCorr (Some (a, b))) (Ok (VNum c)) ->
  -1 <= c <= 1 /\ answers h (CCorr (Some (b, a))) (Ok (VNum c)) /\
  (c = 1 <-> exists k q, 0 < k /\ forall p, In p (combine a b) -> snd p = k * fst p + q).
Proof.
  intros L A. apply answers_fun in A. cbn [p_call] in A.
  destruct a as [|x r] eqn:Ea; [unfold p_corr in A; rewrite p_cov_nil in A by auto; discriminate|]. rewrite <- Ea in *. assert (N : a <> []) by (rewrite Ea; discriminate). clear Ea.
  assert (Nb : b <> []) by (destruct a, b; cbn in L; congruence).
  destruct (Req_EM_T (variance a * variance b) 0) as [V|V]; [rewrite p_corr_zero in A by (assumption || lia); discriminate|].
  rewrite p_corr_ok in A by (assumption || lia). apply num_inj in A. subst c. split.
  { pose proof (corr_bound a b N L V) as B. unfold Rabs in B. destruct (Rcase_abs _); lra. }
  split; [|apply corr_one; assumption].
  pose proof (answers_plain h (CCorr (Some (b, a)))) as P. cbn [p_call] in P. rewrite p_corr_ok in P by (assumption || lia || (rewrite Rmult_comm; exact V)).
  rewrite cov_sym, (Rmult_comm (variance a)) by exact L. exact P.
Qed.

(** ** Gini laws *)
Lemma api_gini h l r : answers h (CKak (Some l)) r <-> answers h (CDea (Some l)) r.
Proof.
  assert (E : p_call (CKak (Some l)) = p_call (CDea (Some l))).
  { cbn [p_call]. destruct (Nat.lt_ge_cases (length l) 2) as [L|L]; [rewrite p_kak_err, p_dea_err by auto; reflexivity|].
    destruct (Req_EM_T (mean l) 0) as [M|M]; [rewrite p_kak_err, p_dea_err by auto; reflexivity|]. rewrite p_kak_ok, p_dea_ok by assumption. reflexivity. }
  pose proof (answers_plain h (CKak (Some l))) as A. pose proof (answers_plain h (CDea (Some l))) as B. unfold answers in *. rewrite A, B, E. reflexivity.
Qed.
Lemma kak_inv h l g : answers h (CKak (Some l)) (Ok (VNum g)) -> (2 <= length l)%nat /\ mean l <> 0 /\ g = gini l.
Proof.
  intros A. apply answers_fun in A. cbn [p_call] in A. destruct (Nat.lt_ge_cases (length l) 2) as [L|L]; [rewrite p_kak_err in A by auto; discriminate|].
  destruct (Req_EM_T (mean l) 0) as [M|M]; [rewrite p_kak_err in A by auto; discriminate|]. rewrite p_kak_ok in A by assumption. apply num_inj in A. auto.
Qed.
Lemma kak_intro h l : (2 <= length l)%nat -> mean l <> 0 -> answers h (CKak (Some l)) (Ok (VNum (gini l))).
Proof. intros L M. pose proof (answers_plain h (CKak (Some l))) as P. cbn [p_call] in P. rewrite p_kak_ok in P by assumption. exact P. Qed.
Lemma mean_perm a b : Permutation a b -> mean a = mean b.
Proof. intros P. unfold mean, count. rewrite (total_perm _ _ P), (Permutation_length P). reflexivity. Qed.
Lemma mean_scale k l : mean (map (Rmult k) l) = k * mean l.
Proof. unfold mean, count. rewrite map_length, (total_map_scale k (fun x => x)), map_id_total. unfold Rdiv. ring. Qed.
Lemma spread_scale k l : 0 < k -> spread (map (Rmult k) l) = k * spread l.
Proof.
  intros K. induction l as [|x r IH]; [unfold spread; nilt|]. cbn [map]. rewrite !spread_cons, IH, map_map.
  rewrite (total_map_ext (fun y => Rabs (k * x - k * y)) (fun y => k * Rabs (x - y))), total_map_scale; [ring|].
  intros y _. replace (k * x - k * y) with (k * (x - y)) by ring. rewrite Rabs_mult, (Rabs_right k) by lra. reflexivity.
Qed.
Lemma api_gini_laws h l g : answers h (CKak (Some l)) (Ok (VNum g)) ->
  (forall m, Permutation l m -> answers h (CKak (Some m)) (Ok (VNum g))) /\
  (forall k, 0 < k -> answers h (CKak (Some (map (Rmult k) l))) (Ok (VNum g))).
Proof.
  intros A. destruct (kak_inv h l g A) as (L & M & ->). destruct (count_two l L) as [C D]. split.
  - intros m P. assert (E : gini l = gini m).
    { rewrite !gini_spread, (spread_perm _ _ P), (mean_perm _ _ P). unfold count. rewrite (Permutation_length P). reflexivity. }
    rewrite E. apply kak_intro; [rewrite <- (Permutation_length P); exact L|rewrite <- (mean_perm _ _ P); exact M].
  - intros k K. assert (E : gini l = gini (map (Rmult k) l)).
    { rewrite !gini_spread, spread_scale, mean_scale by exact K. unfold count at 3 4. rewrite map_length. fold (count l). field. repeat split; lra. }
    rewrite E. apply kak_intro; [rewrite map_length; exact L|rewrite mean_scale; nra].
Qed.
Lemma pairs_in {A} (l : list A) p : In p (pairs l) -> In (fst p) l /\ In (snd p) l.
Proof.
  induction l as [|x r IH]; [intros []|]. cbn [pairs]. rewrite in_app_iff. intros [I|I].
  - apply in_map_iff in I. destruct I as (y & <- & Y). split; [left; reflexivity|right; exact Y].
  - destruct (IH I). split; right; assumption.
Qed.
Lemma pairs_sum l : total (map (fun p => fst p + snd p) (pairs l)) = (count l - 1) * total l.
Proof.
  induction l as [|x r IH]; [nilt|]. cbn [pairs]. rewrite map_app, total_app, map_map, IH. cbn [fst snd].
  rewrite total_map_add, total_map_const, map_id_total, total_cons. unfold count. cbn [length]. rewrite S_INR. ring.
Qed.
Lemma api_gini_range h l g : Forall (fun x => 0 <= x) l -> answers h (CKak (Some l)) (Ok (VNum g)) ->
  0 <= g <= 1 /\ (g = 0 <-> forall x y, In x l -> In y l -> x = y) /\ (g = 1 <-> forall p, In p (pairs l) -> fst p = 0 \/ snd p = 0).
Proof.
  intros F A. destruct (kak_inv h l g A) as (L & M & ->). destruct (count_two l L) as [C D]. rewrite Forall_forall in F.
  assert (T : 0 <= total l) by (rewrite <- map_id_total; apply total_nonneg; exact F).
  assert (Mp : 0 < mean l). { assert (0 <= mean l) by (apply div_nonneg; lra). lra. }
  rewrite gini_spread. set (Dn := count l * (count l - 1) * mean l). assert (Dp : 0 < Dn) by (unfold Dn; apply Rmult_lt_0_compat; [apply Rmult_lt_0_compat; assumption|exact Mp]).
  assert (De : Dn = (count l - 1) * total l) by (unfold Dn; rewrite <- (mean_total l (two_ne l L)); ring).
  assert (S0 : 0 <= spread l) by (apply total_nonneg; intros p _; apply Rabs_pos).
  assert (Pt : forall p, In p (pairs l) -> 0 <= fst p + snd p - Rabs (fst p - snd p)).
  { intros p I. apply pairs_in in I. destruct I as [I J]. apply F in I. apply F in J. unfold Rabs. destruct (Rcase_abs _); lra. }
  assert (Gap : total (map (fun p => fst p + snd p - Rabs (fst p - snd p)) (pairs l)) = Dn - spread l).
  { rewrite De, <- pairs_sum. unfold spread. transitivity (total (map (fun p => (fst p + snd p) + (-1) * Rabs (fst p - snd p)) (pairs l))).
    - apply total_map_ext. intros p _. ring.
    - rewrite (total_map_add (fun p => fst p + snd p)), total_map_scale. ring. }
  assert (G0 : 0 <= Dn - spread l) by (rewrite <- Gap; apply total_nonneg; exact Pt).
  split; [|split].
  - split; [apply div_nonneg; lra|]. apply (Rmult_le_reg_r Dn); [exact Dp|]. unfold Rdiv. rewrite Rmult_assoc, Rinv_l by lra. lra.
  - split.
    + intros Z. assert (Sz : spread l = 0). { apply (Rmult_eq_reg_r (/ Dn)); [|apply Rinv_neq_0_compat; lra]. unfold Rdiv in Z. lra. }
      pose proof (total_zero (fun p => Rabs (fst p - snd p)) (pairs l) (fun p _ => Rabs_pos _) Sz) as P.
      assert (Q : forall p, In p (pairs l) -> fst p = snd p). { intros p I. specialize (P p I). cbn beta in P. destruct (Req_dec (fst p - snd p) 0) as [E|E]; [lra|apply Rabs_no_R0 in E; contradiction]. }
      clear - Q. assert (H : forall (x : R) r, (forall p, In p (pairs (x :: r)) -> fst p = snd p) -> forall y, In y (x :: r) -> y = x).
      { intros x r H y [->|Y]; [reflexivity|]. symmetry. apply (H (x, y)). cbn [pairs]. apply in_or_app. left. apply in_map. exact Y. }
      destruct l as [|a r]; [intros x y []|]. intros x y X Y. rewrite (H a r Q x X), (H a r Q y Y). reflexivity.
    + intros E. assert (Sz : spread l = 0).
      { unfold spread. rewrite (total_map_ext _ (fun _ => 0)), total_map_const; [ring|]. intros p I. apply pairs_in in I. destruct I as [I J].
        rewrite (E _ _ I J), Rminus_diag_eq by reflexivity. apply Rabs_R0. }
      rewrite Sz. unfold Rdiv. ring.
  - split.
    + intros O. assert (Se : Dn - spread l = 0). { apply (Rmult_eq_compat_r Dn) in O. unfold Rdiv in O. rewrite Rmult_assoc, Rinv_l in O by lra. lra. }
      rewrite <- Gap in Se. pose proof (total_zero _ (pairs l) Pt Se) as P. intros p I. specialize (P p I). cbn beta in P.
      apply pairs_in in I. destruct I as [I J]. apply F in I. apply F in J. unfold Rabs in P. destruct (Rcase_abs _); [left|right]; lra.
    + intros P. assert (Se : spread l = Dn). 
      { assert (Z : total (map (fun p => fst p + snd p - Rabs (fst p - snd p)) (pairs l)) = 0).
        { rewrite (total_map_ext _ (fun _ => 0)), total_map_const; [ring|]. intros p I. pose proof (P p I) as Q. apply pairs_in in I. destruct I as [I J]. apply F in I. apply F in J.
          unfold Rabs. destruct (Rcase_abs _); destruct Q; lra. }
        lra. }
      rewrite Se. field. lra.
Qed.
Lemma api_failures h a b : b <> [] ->
  answers h (CAvg (Some [])) (Err ZeroDivisionError) /\ answers h (CVar (Some [])) (Err ZeroDivisionError) /\
  answers h (CStd (Some [])) (Err ZeroDivisionError) /\ answers h (CCov (Some ([], b))) (Err ZeroDivisionError) /\
  answers h (CCorr (Some ([], b))) (Err ZeroDivisionError) /\
  ((length b < length a)%nat -> answers h (CCov (Some (a, b))) (Err IndexError) /\ answers h (CCorr (Some (a, b))) (Err IndexError)).
Proof.
  intros Nb. assert (G : forall c r, p_call c = r -> answers h c r) by (intros c r <-; apply answers_plain).
  split; [apply G; cbn [p_call]; rewrite p_avg_nil; reflexivity|]. split; [apply G; cbn [p_call]; rewrite p_var_nil; reflexivity|].
  split; [apply G; cbn [p_call]; rewrite p_std_nil; reflexivity|]. split; [apply G; cbn [p_call]; rewrite p_cov_nil by auto; reflexivity|].
  split; [apply G; cbn [p_call]; unfold p_corr; rewrite p_cov_nil by auto; reflexivity|].
  intros L. split; apply G; cbn [p_call]; [|unfold p_corr]; rewrite p_cov_err by assumption; reflexivity.
Qed.
Lemma api_gini_fails h l : answers h (CKak (Some l)) (Err ZeroDivisionError) <-> (length l < 2)%nat \/ total l = 0.
Proof.
  pose proof (answers_plain h (CKak (Some l))) as P. cbn [p_call] in P. unfold answers in *. rewrite P.
  assert (M : (2 <= length l)%nat -> (mean l = 0 <-> total l = 0)).
  { intros L. destruct (count_two l L). rewrite <- (mean_total l (two_ne l L)). split; [intros ->; ring|]. intros E. apply Rmult_integral in E. destruct E; lra. }
  destruct (Nat.lt_ge_cases (length l) 2) as [L|L]; [rewrite p_kak_err by auto; split; auto|].
  destruct (Req_EM_T (mean l) 0) as [Z|Z].
  - rewrite p_kak_err by auto. split; [intros _; right; apply M; assumption|reflexivity].
  - rewrite p_kak_ok by assumption. split; [discriminate|]. intros [C|C]; [lia|]. apply M in C; [contradiction|exact L].
Qed.
Ltac calc := unfold variance, covariance, gini, mean, count, total; simpl; field.
Lemma corr_longer : exists a b c, answers [] (CCorr (Some (a, b))) (Ok (VNum c)) /\ (length a < length b)%nat /\ 1 < c.
Proof.
  exists [0; 1], [0; 1; 0; 0; 0; 0; 0; 0]. 
  assert (V : variance [0; 1] = 1 / 4) by calc.
  assert (W : variance [0; 1; 0; 0; 0; 0; 0; 0] = 7 / 64) by calc.
  assert (C : covariance [0; 1] [0; 1; 0; 0; 0; 0; 0; 0] = 1 / 4) by calc.
  assert (Nz : variance [0; 1] * variance [0; 1; 0; 0; 0; 0; 0; 0] <> 0) by (rewrite V, W; lra).
  exists ((1 / 4) / sqrt (1 / 4 * (7 / 64))). split; [|split].
  - pose proof (answers_plain [] (CCorr (Some ([0; 1], [0; 1; 0; 0; 0; 0; 0; 0])))) as P. cbn [p_call] in P.
    rewrite p_corr_ok in P by (discriminate || (cbn; lia) || exact Nz). rewrite V, W, C in P. exact P.
  - cbn. lia.
  - assert (S : 0 < sqrt (1 / 4 * (7 / 64))) by (apply sqrt_lt_R0; lra).
    assert (S1 : sqrt (1 / 4 * (7 / 64)) < 1 / 4). { rewrite <- (sqrt_pow2 (1 / 4)) at 2 by lra. apply sqrt_lt_1; lra. }
    set (q := sqrt (1 / 4 * (7 / 64))) in *. clearbody q. apply (Rmult_lt_reg_r q); [exact S|]. replace (1 / 4 / q * q) with (1 / 4) by (field; lra). lra.
Qed.
Lemma stats_case : answers [CLen (Some [1; 2; 6]); CClear] (CVar (Some [1; 2; 6])) (Ok (VNum (14 / 3))) /\
  answers [] (CCov (Some ([1; 2; 6], [0; 1; 2]))) (Ok (VNum (5 / 3))) /\
  exists c, answers [] (CCorr (Some ([1; 2; 6], [0; 1; 2]))) (Ok (VNum c)).
Proof.
  assert (V : variance [1; 2; 6] = 14 / 3) by calc. assert (W : variance [0; 1; 2] = 2 / 3) by calc.
  assert (C : covariance [1; 2; 6] [0; 1; 2] = 5 / 3) by calc. split; [|split].
  - pose proof (answers_plain [CLen (Some [1; 2; 6]); CClear] (CVar (Some [1; 2; 6]))) as P. cbn [p_call] in P. rewrite p_var_ok, V in P by discriminate. exact P.
  - pose proof (answers_plain [] (CCov (Some ([1; 2; 6], [0; 1; 2])))) as P. cbn [p_call] in P. rewrite p_cov_ok, C in P by (discriminate || (cbn; lia)). exact P.
  - pose proof (answers_plain [] (CCorr (Some ([1; 2; 6], [0; 1; 2])))) as P. cbn [p_call] in P.
    rewrite p_corr_ok in P by (discriminate || (cbn; lia) || (rewrite V, W; lra)). eexists. exact P.
Qed.
Lemma gini_negative : exists l g, answers [] (CKak (Some l)) (Ok (VNum g)) /\ 1 < g.
Proof.
  exists [-1; 2], 3. assert (M : mean [-1; 2] = 1 / 2) by calc. split; [|lra].
  pose proof (answers_plain [] (CKak (Some [-1; 2]))) as P. cbn [p_call] in P. rewrite p_kak_ok in P by ((cbn; lia) || (rewrite M; lra)).
  assert (G : gini [-1; 2] = 3). { unfold gini, mean, count, total; simpl. rewrite (Rabs_left (-1 - 2)) by lra. field. }
  rewrite G in P. exact P.
Qed.
Lemma gini_case : answers [] (CKak (Some [1; 0; 3])) (Ok (VNum (3 / 4))) /\ Forall (fun x => 0 <= x) [1; 0; 3].
Proof.
  assert (M : mean [1; 0; 3] = 4 / 3) by calc. split; [|repeat constructor; lra].
  pose proof (answers_plain [] (CKak (Some [1; 0; 3]))) as P. cbn [p_call] in P. rewrite p_kak_ok in P by ((cbn; lia) || (rewrite M; lra)).
  assert (G : gini [1; 0; 3] = 3 / 4).
  { unfold gini, mean, count, total; simpl. rewrite (Rabs_right (1 - 0)), (Rabs_left (1 - 3)), (Rabs_left (0 - 3)) by lra. field. }
  rewrite G in P. exact P.
Qed.
