(** How far the bar and the percentage are off in double arithmetic. *)
From Coq Require Import ZArith Reals Lia Lra SpecFloat List.
From Flocq Require Import Core IEEE754.BinarySingleNaN.
From Verif Require Import Py Num FloatLib StrModel StrProofs ReprProofs TqdmModel TqdmFloat GridFloat MeterFloatSpec.
Import ListNotations.
Open Scope Z_scope.

Definition part (n t c : Z) : f64 := fmul (fdiv (fofZ n) (fofZ t)) (fofZ c).
Lemma part_val n t c : 0 <= n <= t -> 0 < t <= 2 ^ 53 -> 0 < c <= 100 -> isf (part n t c) (rnd (rnd (IZR n / IZR t) * IZR c)) /\ (0 <= rnd (rnd (IZR n / IZR t) * IZR c))%R.
Proof.
  intros H Ht Hc. assert (Tp : (0 < IZR t)%R) by (apply (IZR_lt 0); lia).
  assert (B : (0 <= IZR n / IZR t <= 1)%R).
  { split; [apply Rmult_le_pos; [apply (IZR_le 0); lia|apply Rlt_le, Rinv_0_lt_compat; exact Tp]|].
    apply (Rmult_le_reg_r (IZR t)); [exact Tp|]. unfold Rdiv. rewrite Rmult_assoc, Rinv_l by lra. rewrite Rmult_1_r, Rmult_1_l. apply IZR_le. lia. }
  assert (Br : (0 <= rnd (IZR n / IZR t) <= 1)%R) by (split; [rewrite <- (rnd_IZR 0) by lia; apply rnd_le; lra|rewrite <- (rnd_IZR 1) by lia; apply rnd_le; lra]).
  assert (C0 : (0 < IZR c <= 100)%R) by (split; [apply (IZR_lt 0); lia|apply IZR_le; lia]).
  split.
  - apply isf_fmul; [|apply isf_int; lia|].
    + apply isf_fdiv; [apply isf_int; lia|apply isf_int; lia|lra|]. apply small_le. rewrite Rabs_pos_eq by lra. apply (Rle_trans _ 1); [lra|]. apply IZR_le. lia.
    + apply small_le. rewrite Rabs_pos_eq by (apply Rmult_le_pos; lra). apply (Rle_trans _ (1 * 100)); [apply Rmult_le_compat; lra|]. rewrite Rmult_1_l. apply IZR_le. lia.
  - rewrite <- (rnd_IZR 0) by lia. apply rnd_le. apply Rmult_le_pos; lra.
Qed.
Lemma part_mint n t c : 0 <= n <= t -> 0 < t <= 2 ^ 53 -> 0 < c <= 100 -> mint (part n t c) = Ok (Zfloor (rnd (rnd (IZR n / IZR t) * IZR c))).
Proof. intros H Ht Hc. destruct (part_val n t c H Ht Hc) as (I & P). apply isf_mint; assumption. Qed.
Lemma part_mono n n' t c : 0 <= n <= n' -> n' <= t -> 0 < t <= 2 ^ 53 -> 0 < c <= 100 -> forall p p', mint (part n t c) = Ok p -> mint (part n' t c) = Ok p' -> p <= p'.
Proof.
  intros H H' Ht Hc p p'. rewrite !part_mint by lia. intros E E'. injection E as <-. injection E' as <-. apply Zfloor_le, rnd_le, Rmult_le_compat_r; [apply (IZR_le 0); lia|].
  apply rnd_le. apply Rmult_le_compat_r; [apply Rlt_le, Rinv_0_lt_compat, (IZR_lt 0); lia|apply IZR_le; lia].
Qed.
(** Not a whole number of parts: the floor *)
Lemma part_inside n t c : 0 <= n <= t -> 0 < t <= 2 ^ 44 -> 0 < c <= 100 -> (c * n) mod t <> 0 -> mint (part n t c) = Ok (c * n / t).
Proof.
  intros H Ht Hc M. rewrite part_mint by lia. f_equal. assert (Tp : (0 < IZR t)%R) by (apply (IZR_lt 0); lia).
  set (q := (IZR n / IZR t)%R). assert (B : (0 <= q <= 1)%R).
  { unfold q. split; [apply Rmult_le_pos; [apply (IZR_le 0); lia|apply Rlt_le, Rinv_0_lt_compat; exact Tp]|].
    apply (Rmult_le_reg_r (IZR t)); [exact Tp|]. unfold Rdiv. rewrite Rmult_assoc, Rinv_l by lra. rewrite Rmult_1_r, Rmult_1_l. apply IZR_le. lia. }
  assert (C0 : (0 < IZR c <= 100)%R) by (split; [apply (IZR_lt 0); lia|apply IZR_le; lia]).
  pose proof (rnd_near q 1 ltac:(rewrite Rabs_pos_eq; lra)) as E1. assert (Br : (0 <= rnd q <= 1)%R) by (split; [rewrite <- (rnd_IZR 0) by lia; apply rnd_le; lra|rewrite <- (rnd_IZR 1) by lia; apply rnd_le; lra]).
  pose proof (rnd_near (rnd q * IZR c) 100 ltac:(rewrite Rabs_pos_eq by (apply Rmult_le_pos; lra); apply (Rle_trans _ (1 * 100)); [apply Rmult_le_compat; lra|lra])) as E2.
  assert (Ti : (bpow radix2 (-1000) <= bpow radix2 (-60))%R) by (apply bpow_le; lia). change (bpow radix2 (-60)) with (/ 1152921504606846976)%R in Ti.
  set (v := rnd (rnd q * IZR c)) in *.
  assert (E3 : (Rabs (v - q * IZR c) < / 17592186044416)%R).
  { replace (v - q * IZR c)%R with ((v - rnd q * IZR c) + (rnd q - q) * IZR c)%R by ring. eapply Rle_lt_trans; [apply Rabs_triang|].
    rewrite Rabs_mult, (Rabs_pos_eq (IZR c)) by lra.
    assert (Rabs (rnd q - q) * IZR c <= (1 * / 9007199254740992 + / 1152921504606846976) * 100)%R by (apply Rmult_le_compat; try apply Rabs_pos; lra). lra. }
  assert (T2 : (/ 17592186044416 <= / IZR t)%R) by (apply Rinv_le; [exact Tp|apply IZR_le; lia]).
  assert (Q : (q * IZR c * IZR t = IZR (c * n))%R) by (unfold q; rewrite mult_IZR; field; lra).
  pose proof (Z.div_mod (c * n) t ltac:(lia)) as D. pose proof (Z.mod_pos_bound (c * n) t ltac:(lia)) as MB. set (k := c * n / t) in *. set (m := (c * n) mod t) in *.
  apply Zfloor_imp. rewrite plus_IZR.
  assert (L : (IZR k + / IZR t <= q * IZR c)%R).
  { apply (Rmult_le_reg_r (IZR t)); [exact Tp|]. rewrite Q, Rmult_plus_distr_r, Rinv_l by lra. rewrite <- mult_IZR. rewrite <- (plus_IZR _ 1). apply IZR_le. lia. }
  assert (U : (q * IZR c <= IZR k + 1 - / IZR t)%R).
  { apply (Rmult_le_reg_r (IZR t)); [exact Tp|]. rewrite Q, Rmult_minus_distr_r, Rinv_l by lra. rewrite <- (plus_IZR _ 1), <- mult_IZR, <- minus_IZR. apply IZR_le. lia. }
  apply Rabs_def2 in E3. lra.
Qed.
(** A whole number of parts: as if the total were c *)
Lemma part_whole n t c : 0 <= n <= t -> 0 < t <= 2 ^ 53 -> 0 < c <= 100 -> (c * n) mod t = 0 -> 0 <= c * n / t <= c /\ mint (part n t c) = mint (part (c * n / t) c c).
Proof.
  intros H Ht Hc M. pose proof (Z.div_mod (c * n) t ltac:(lia)) as D. rewrite M, Z.add_0_r in D. set (k := c * n / t) in *.
  assert (K : 0 <= k <= c) by (split; [apply Z.div_pos; lia|unfold k; apply Z.div_le_upper_bound; nia]). split; [exact K|].
  rewrite !part_mint by lia. assert (E : (IZR n / IZR t = IZR k / IZR c)%R).
  { assert (Q : (IZR c * IZR n = IZR t * IZR k)%R) by (rewrite <- !mult_IZR; f_equal; exact D).
    assert (C0 : (0 < IZR c)%R) by (apply (IZR_lt 0); lia). assert (T0 : (0 < IZR t)%R) by (apply (IZR_lt 0); lia).
    apply Rmult_eq_reg_r with (IZR t * IZR c)%R; [|apply Rmult_integral_contrapositive_currified; lra]. field_simplify; lra. }
  rewrite E. reflexivity.
Qed.
Lemma all_upto (P : Z -> bool) n : forallb P (map Z.of_nat (seq 0 (S n))) = true -> forall k, 0 <= k <= Z.of_nat n -> P k = true.
Proof. intros H k K. rewrite forallb_forall in H. apply H. apply in_map_iff. exists (Z.to_nat k). split; [lia|]. apply in_seq. lia. Qed.
Definition res_eqb (r : res Z) (z : Z) : bool := match r with Ok a => a =? z | Err _ => false end.
Lemma res_eqb_ok r z : res_eqb r z = true -> r = Ok z.
Proof. destruct r as [a|e]; cbn; [intros H; apply Z.eqb_eq in H; congruence|discriminate]. Qed.
Definition low (k : Z) : bool := (k =? 29) || (k =? 57) || (k =? 58).
Lemma tenths n t : 0 <= n <= t -> 0 < t <= 2 ^ 44 -> mint (part n t 10) = Ok (10 * n / t).
Proof.
  intros H Ht. destruct (Z.eq_dec ((10 * n) mod t) 0) as [M|M]; [|apply part_inside; lia].
  destruct (part_whole n t 10 H ltac:(lia) ltac:(lia) M) as (K & ->). apply res_eqb_ok.
  refine (all_upto (fun k => res_eqb (mint (part k 10 10)) k) 10 _ _ K). vm_compute. reflexivity.
Qed.
Lemma hundredths n t : 0 <= n <= t -> 0 < t <= 2 ^ 44 ->
  mint (part n t 100) = Ok (if ((100 * n) mod t =? 0) && low (100 * n / t) then 100 * n / t - 1 else 100 * n / t).
Proof.
  intros H Ht. destruct (Z.eqb_spec ((100 * n) mod t) 0) as [M|M]; cbn [andb]; [|apply part_inside; lia].
  destruct (part_whole n t 100 H ltac:(lia) ltac:(lia) M) as (K & ->). apply res_eqb_ok.
  refine (all_upto (fun k => res_eqb (mint (part k 100 100)) (if low k then k - 1 else k)) 100 _ _ K). vm_compute. reflexivity.
Qed.

(** ** The text *)
Lemma text_of n t (elapsed : f64) es b p : 0 <= n <= t -> 0 < t -> format_interval elapsed = Ok es ->
  (n = 0 \/ exists ls, format_interval (fmul (fdiv elapsed (fofZ n)) (fofZ (t - n))) = Ok ls) -> 0 <= b <= 10 ->
  mint (part n t 10) = Ok b -> mint (part n t 100) = Ok p -> exists rest,
  format_meter n (Some t) elapsed = Ok (124 :: repeat 35 (Z.to_nat b) ++ repeat 45 (Z.to_nat (10 - b)) ++ [124; 32] ++ str_int n ++ 47 :: str_int t ++ 32 :: pad_left 3 32 (str_int p) ++ 37 :: rest).
Proof.
  intros H Ht E1 E2 B Eb Ep.
  assert (LL : exists ls, (if n =? 0 then Ok [63] else format_interval (nmul (ndiv elapsed (nofZ n)) (nofZ (t - n)))) = Ok ls).
  { destruct (Z.eqb_spec n 0) as [E0|N0]; [eexists; reflexivity|]. destruct E2 as [E2|E2]; [contradiction|exact E2]. }
  destruct LL as (ls & EL). eexists.
  unfold format_meter. destruct (t <? n) eqn:C; [lia|]. rewrite E1. cbn [bind]. destruct (t =? 0) eqn:C2; [lia|].
  unfold part in Eb, Ep. cbn [nmul ndiv nofZ NumF] in EL |- *. rewrite Eb. cbn [bind]. rewrite Ep. cbn [bind]. rewrite EL. cbn [bind].
  repeat (rewrite <- ?app_assoc; cbn [app]). reflexivity.
Qed.
Lemma tenth_bound n t : 0 <= n <= t -> 0 < t -> 0 <= 10 * n / t <= 10.
Proof. intros H Ht. split; [apply Z.div_pos; lia|apply Z.div_le_upper_bound; nia]. Qed.
Lemma share n t k : 0 < t -> 100 * n = k * t <-> (100 * n) mod t = 0 /\ 100 * n / t = k.
Proof.
  intros Ht. split.
  - intros E. rewrite E. rewrite Z.mod_mul, Z.div_mul by lia. auto.
  - intros (M & <-). pose proof (Z.div_mod (100 * n) t ltac:(lia)). lia.
Qed.
Lemma odd_low n t : 0 < t -> ((100 * n) mod t =? 0) && low (100 * n / t) = true <-> odd_share n t.
Proof.
  intros Ht. unfold odd_share, low. rewrite !(share n t _ Ht). rewrite Bool.andb_true_iff, !Bool.orb_true_iff, !Z.eqb_eq. tauto.
Qed.
Lemma shown n t elapsed : 0 <= n <= t -> 0 < t <= 2 ^ 44 -> timed n t elapsed -> exists s p, format_meter n (Some t) elapsed = Ok s /\ shows s n t (10 * n / t) p /\
  (odd_share n t -> p = 100 * n / t - 1) /\ (~ odd_share n t -> p = 100 * n / t).
Proof.
  intros H Ht ((es & E1) & E2). pose proof (tenth_bound n t H ltac:(lia)) as B.
  destruct (text_of n t elapsed es _ _ H ltac:(lia) E1 E2 B (tenths n t H Ht) (hundredths n t H Ht)) as (rest & E).
  eexists. eexists. split; [exact E|]. split; [split; [exact B|exists rest; reflexivity]|]. pose proof (odd_low n t ltac:(lia)) as O.
  destruct (_ && _); split; intros Q; try reflexivity; exfalso; intuition congruence.
Qed.
Lemma forward n n' t elapsed elapsed' : 0 <= n <= n' -> n' <= t -> 0 < t <= 2 ^ 53 -> timed n t elapsed -> timed n' t elapsed' -> exists s b p s' b' p',
  format_meter n (Some t) elapsed = Ok s /\ shows s n t b p /\ format_meter n' (Some t) elapsed' = Ok s' /\ shows s' n' t b' p' /\ b <= b' /\ p <= p'.
Proof.
  intros H H' Ht ((es & E1) & E2) ((es' & E1') & E2').
  destruct (bar_double n t ltac:(lia) Ht) as (b & p & Eb & Ep & Bb & _). destruct (bar_double n' t ltac:(lia) Ht) as (b' & p' & Eb' & Ep' & Bb' & _).
  destruct (text_of n t elapsed es b p ltac:(lia) ltac:(lia) E1 E2 Bb Eb Ep) as (rest & E). destruct (text_of n' t elapsed' es' b' p' ltac:(lia) ltac:(lia) E1' E2' Bb' Eb' Ep') as (rest' & E').
  do 6 eexists. split; [exact E|]. split; [split; [exact Bb|exists rest; reflexivity]|]. split; [exact E'|]. split; [split; [exact Bb'|exists rest'; reflexivity]|].
  split; [exact (part_mono n n' t 10 H H' Ht ltac:(lia) _ _ Eb Eb')|exact (part_mono n n' t 100 H H' Ht ltac:(lia) _ _ Ep Ep')].
Qed.
Lemma run (c : Z) m : forall m' x x', hd_error x <> Some c -> hd_error x' <> Some c -> repeat c m ++ x = repeat c m' ++ x' -> m = m' /\ x = x'.
Proof.
  induction m as [|m IH]; intros [|m'] x x' H H' E; cbn [repeat app] in E.
  - auto.
  - subst x. destruct H. reflexivity.
  - subst x'. destruct H'. reflexivity.
  - injection E as E. destruct (IH m' x x' H H' E). auto.
Qed.
Lemma dashes m u : hd_error (repeat 45 m ++ 124 :: u) <> Some 35.
Proof. destruct m; cbn; discriminate. Qed.
Lemma repeat_split b b' (u u' : list Z) : 0 <= b <= 10 -> 0 <= b' <= 10 ->
  repeat 35 (Z.to_nat b) ++ repeat 45 (Z.to_nat (10 - b)) ++ 124 :: u = repeat 35 (Z.to_nat b') ++ repeat 45 (Z.to_nat (10 - b')) ++ 124 :: u' -> b = b' /\ u = u'.
Proof.
  intros B B' E. apply run in E; try apply dashes. destruct E as (E & F). assert (b = b') by lia. subst b'. split; [reflexivity|]. apply app_inv_head in F. congruence.
Qed.
Lemma same_head (c : Z) a a' r r' : ~ In c a -> ~ In c a' -> a ++ c :: r = a' ++ c :: r' -> a = a'.
Proof.
  revert a'. induction a as [|x a IH]; intros [|x' a'] N N' E; cbn in E.
  - reflexivity.
  - injection E as E _. destruct N'. left. congruence.
  - injection E as E _. destruct N. left. congruence.
  - injection E as <- E. f_equal. apply IH; [intros I; apply N; right; exact I|intros I; apply N'; right; exact I|exact E].
Qed.
Lemma pad_inj i : forall j (x y : list Z), ~ In 32 x -> ~ In 32 y -> x <> [] -> y <> [] -> repeat 32 i ++ x = repeat 32 j ++ y -> x = y.
Proof.
  induction i as [|i IH]; intros [|j] x y X Y Nx Ny E; cbn [repeat app] in E.
  - exact E.
  - subst x. destruct X. left. reflexivity.
  - subst y. destruct Y. left. reflexivity.
  - injection E as E. exact (IH j x y X Y Nx Ny E).
Qed.
Lemma shows_one s n t b p b' p' : shows s n t b p -> shows s n t b' p' -> b = b' /\ p = p'.
Proof.
  intros (B & rest & ->) (B' & rest' & E). injection E as E. cbn [app] in E. apply (repeat_split _ _ _ _ B B') in E. destruct E as (-> & E). split; [reflexivity|].
  injection E as E. apply app_inv_head in E. injection E as E. apply app_inv_head in E. injection E as E.
  assert (N37 : forall q, ~ In 37 (pad_left 3 32 (str_int q))).
  { intros q I. unfold pad_left in I. apply in_app_or in I. destruct I as [I|I]; [apply repeat_spec in I; lia|]. revert I. apply str_not_in. lia. }
  apply same_head in E; auto. unfold pad_left in E. apply pad_inj in E; try (apply str_not_in; lia); try apply str_int_chars. apply str_inj, E.
Qed.
