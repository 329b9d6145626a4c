(** P files in double arithmetic: which writes end, and with which points. *)
From Coq Require Import ZArith Reals Lia Lra SpecFloat Psatz ZifyBool.
From Flocq Require Import Core IEEE754.BinarySingleNaN.
From Verif Require Import Num FloatLib BBoxModel PfModel PfProofs PfSpec PfExact PfFloat PfFloatNorm PfFloatSpec.
Open Scope Z_scope.

Lemma val_isf x : finite64 x -> isf x (val x).
Proof. intros [W F]. apply isf_valid; assumption. Qed.
Lemma isf_val x r : isf x r -> finite64 x /\ val x = r.
Proof.
  intros (b & <- & F & <-). split; [split|].
  - apply valid_binary_B2SF.
  - rewrite is_finite_SF_B2SF. exact F.
  - apply SF2R_B2SF.
Qed.
Lemma pow2 (n : nat) : bpow radix2 (Z.of_nat n) = (2 ^ n)%R.
Proof. rewrite bpow_powerRZ, <- pow_powerRZ. reflexivity. Qed.
Lemma up_nat (r : R) : exists n : nat, (r <= INR n)%R.
Proof.
  exists (Z.to_nat (Z.max 0 (Zceil r))). rewrite INR_IZR_INZ, Z2Nat.id by lia. pose proof (Zceil_ub r).
  eapply Rle_trans; [exact H|]. apply IZR_le. lia.
Qed.
Lemma le_cases x a b ra rb : wf64 x -> isf a ra -> isf b rb -> is_nan x = false ->
  ((SFleb a x = true /\ SFleb x b = true /\ finite64 x /\ (ra <= val x <= rb)%R) \/
   (x = S754_infinity true \/ finite64 x /\ (val x < ra)%R) /\ SFleb a x = false) \/
  (x = S754_infinity false \/ finite64 x /\ (rb < val x)%R) /\ SFleb x b = false.
Proof.
  intros W Ia Ib N. destruct (is_finite_SF x) eqn:F.
  - assert (Fx : finite64 x) by (split; assumption). pose proof (val_isf x Fx) as Ix.
    rewrite (isf_le _ _ _ _ Ia Ix), (isf_le _ _ _ _ Ix Ib).
    destruct (Rle_bool_spec ra (val x)) as [L|L]; [|left; right; split; [right; split; assumption|reflexivity]].
    destruct (Rle_bool_spec (val x) rb) as [U|U]; [left; left; auto|right; split; [right; split; assumption|reflexivity]].
  - destruct x as [s|s| |s m e]; try discriminate. destruct s.
    + left. right. split; [left; reflexivity|]. destruct Ia as (u & <- & Fu & _). destruct u as [s|s| |s m e E]; try discriminate; reflexivity.
    + right. split; [left; reflexivity|]. destruct Ib as (u & <- & Fu & _). destruct u as [s|s| |s m e E]; try discriminate; reflexivity.
Qed.
Lemma nan_eq x : is_nan x = true -> x = S754_nan.
Proof. destruct x; try discriminate. reflexivity. Qed.

Lemma norm_lon_ends x : wf64 x -> lon_settles x -> exists n y, (forall fuel, (n <= fuel)%nat -> norm_lon fuel x = Some y) /\
  (is_nan x = false -> finite64 y /\ (-180 <= val y <= 180)%R /\
    ((Rabs (val x) < 2 ^ 56)%R -> exists k, val y = (val x + IZR (360 * k))%R) /\ ((-180 <= val x <= 180)%R -> y = x)).
Proof.
  intros W [N|[A B]].
  { apply nan_eq in N. subst x. exists 1%nat, S754_nan. split; [|discriminate]. intros fuel L. destruct fuel; [lia|]. reflexivity. }
  assert (N : is_nan x = false) by (destruct x; try reflexivity; discriminate).
  destruct (le_cases x _ _ _ _ W (isf_mpow 62 ltac:(lia)) (isf_pow 62 ltac:(lia)) N) as [[(_ & _ & F & L)|[_ E]]|[_ E]]; [|congruence|congruence].
  pose proof (val_isf x F) as I. assert (P : (180 <= bpow radix2 62)%R) by (change (bpow radix2 62) with (IZR (2 ^ 62)); apply IZR_le; lia).
  assert (P56 : bpow radix2 56 = (2 ^ 56)%R) by (apply (pow2 56)).
  destruct (Rle_lt_dec (val x) 180) as [U|U].
  - destruct (up_nat (IZR (- (180)) - val x)) as [n Hn].
    destruct (up_ends 180 62 (or_introl (conj eq_refl eq_refl)) n x (val x) I) as (y & ry & Y1 & Y2 & Y3 & Y4 & Y5); [lra|exact Hn|].
    change (IZR (- (180))) with (-180)%R in *. 
    destruct (down_ends 0 y ry Y1) as (z & rz & Z1 & Z2 & Z3 & Z4 & Z5); [lra|cbn; lra|]. specialize (Z4 ltac:(lra)). subst z.
    exists (S n), y. split.
    + intros fuel L'. unfold norm_lon. cbn [nlt nofZ NumF]. change (-180) with (- (180)). change 360 with (2 * 180). rewrite Y3 by lia. apply Z3. lia.
    + intros _. destruct (isf_val _ _ Y1) as [Fy Ey]. rewrite Ey. split; [exact Fy|]. split; [lra|]. split; [|intros R; apply Y4; lra].
      intros B56. rewrite <- P56 in B56. apply (Y5 3 45); [reflexivity|lia|exact B56].
  - assert (Up : forall fuel, (0 < fuel)%nat -> while_add fuel (fun v => SFltb v (fofZ (-180))) (fofZ 360) x = Some x).
    { intros fuel Lf. destruct fuel; [lia|]. cbn [while_add]. assert (Ih : isf (fofZ (-180)) (-180)) by (apply isf_int; lia).
      rewrite (isf_lt _ _ _ _ I Ih). destruct (Rlt_bool_spec (val x) (-180)); [lra|reflexivity]. }
    destruct (up_nat (val x - 180)) as [n Hn].
    destruct (down_ends n x (val x) I) as (z & rz & Z1 & Z2 & Z3 & Z4 & Z5); [lra|exact Hn|].
    exists (S n), z. split.
    + intros fuel L'. unfold norm_lon. cbn [nlt nofZ NumF]. rewrite Up by lia. apply Z3. lia.
    + intros _. destruct (isf_val _ _ Z1) as [Fz Ez]. rewrite Ez. split; [exact Fz|]. split; [lra|]. rewrite <- P56. split; [exact Z5|].
      intros R. apply Z4. lra.
Qed.
Lemma inf_up fuel h : 0 < h <= 180 -> while_add fuel (fun v => SFltb v (fofZ (- h))) (fofZ (2 * h)) (S754_infinity true) = None.
Proof.
  intros Hh. assert (Ih : isf (fofZ (- h)) (IZR (- h))) by (apply isf_int; lia). assert (I2 : isf (fofZ (2 * h)) (IZR (2 * h))) by (apply isf_int; lia).
  assert (E1 : SFltb (S754_infinity true) (fofZ (- h)) = true) by (destruct Ih as (u & <- & Fu & _); destruct u; try discriminate; reflexivity).
  assert (E2 : nadd (S754_infinity true) (fofZ (2 * h)) = S754_infinity true) by (destruct I2 as (u & <- & Fu & _); destruct u; try discriminate; reflexivity).
  induction fuel as [|f IH]; [reflexivity|]. cbn [while_add]. rewrite E1, E2. exact IH.
Qed.
Lemma inf_down fuel a d : Z.abs a <= 2 ^ 53 -> Z.abs d <= 2 ^ 53 -> while_add fuel (fun v => SFltb (fofZ a) v) (fofZ d) (S754_infinity false) = None.
Proof.
  intros Ha Hd. pose proof (isf_int a Ha) as Ih. pose proof (isf_int d Hd) as I2.
  assert (E1 : SFltb (fofZ a) (S754_infinity false) = true) by (destruct Ih as (u & <- & Fu & _); destruct u; try discriminate; reflexivity).
  assert (E2 : nadd (S754_infinity false) (fofZ d) = S754_infinity false) by (destruct I2 as (u & <- & Fu & _); destruct u; try discriminate; reflexivity).
  induction fuel as [|f IH]; [reflexivity|]. cbn [while_add]. rewrite E1, E2. exact IH.
Qed.
Lemma up_id (fuel : nat) x a d : SFltb x (fofZ a) = false -> while_add fuel (fun v => SFltb v (fofZ a)) d x = match fuel with O => None | S _ => Some x end.
Proof. intros E. destruct fuel; [reflexivity|]. cbn [while_add]. rewrite E. reflexivity. Qed.

Lemma norm_lon_hangs x fuel : wf64 x -> ~ lon_settles x -> norm_lon fuel x = None.
Proof.
  intros W N. assert (Nn : is_nan x = false) by (destruct (is_nan x) eqn:E; [elim N; left; exact E|reflexivity]).
  assert (P : (180 <= bpow radix2 62)%R) by (change (bpow radix2 62) with (IZR (2 ^ 62)); apply IZR_le; lia).
  unfold norm_lon. cbn [nlt nofZ NumF]. change (-180) with (- (180)). change 360 with (2 * 180).
  destruct (le_cases x _ _ _ _ W (isf_mpow 62 ltac:(lia)) (isf_pow 62 ltac:(lia)) Nn) as [[(A & B & _)|[[->|[F L]] _]]|[[->|[F L]] _]].
  - elim N. right. split; assumption.
  - rewrite inf_up by lia. reflexivity.
  - pose proof (up_stuck 180 62 (or_introl (conj eq_refl eq_refl)) x (val x) fuel (val_isf x F) L) as E.
    match goal with |- context [while_add fuel ?c ?d x] => replace (while_add fuel c d x) with (@None f64) by (symmetry; exact E) end. reflexivity.
  - rewrite up_id by (vm_compute; reflexivity). destruct fuel; [reflexivity|]. apply inf_down; lia.
  - rewrite up_id.
    2:{ assert (Ih : isf (fofZ (- (180))) (-180)) by (apply isf_int; lia). rewrite (isf_lt _ _ _ _ (val_isf x F) Ih). destruct (Rlt_bool_spec (val x) (-180)); [lra|reflexivity]. }
    destruct fuel; [reflexivity|]. apply (down_stuck x (val x)); [apply val_isf; exact F|exact L].
Qed.

Lemma norm_lat_ends y : wf64 y -> lat_settles y -> exists n z, (forall fuel, (n <= fuel)%nat -> norm_lat fuel y = Some z) /\
  (is_nan y = false -> finite64 z /\ (-90 <= val z <= 90)%R /\
    ((Rabs (val y) < 2 ^ 55)%R -> exists k, val z = (val y + IZR (180 * k))%R) /\ ((-90 <= val y <= 90)%R -> z = y)).
Proof.
  intros W [N|[A B]].
  { apply nan_eq in N. subst y. exists 1%nat, S754_nan. split; [|discriminate]. intros fuel L. destruct fuel; [lia|]. reflexivity. }
  assert (N : is_nan y = false) by (destruct y; try reflexivity; discriminate).
  assert (I90 : isf (fofZ 90) 90) by (apply isf_int; lia).
  destruct (le_cases y _ _ _ _ W (isf_mpow 61 ltac:(lia)) I90 N) as [[(_ & _ & F & L)|[_ E]]|[_ E]]; [|congruence|congruence].
  pose proof (val_isf y F) as I. assert (P55 : bpow radix2 55 = (2 ^ 55)%R) by (apply (pow2 55)).
  destruct (up_nat (IZR (- (90)) - val y)) as [n Hn].
  destruct (up_ends 90 61 (or_intror (conj eq_refl eq_refl)) n y (val y) I) as (z & rz & Y1 & Y2 & Y3 & Y4 & Y5); [lra|exact Hn|].
  change (IZR (- (90))) with (-90)%R in *.
  exists (S n), z. split.
  - intros fuel L'. unfold norm_lat. cbn [nlt nofZ NumF]. change (-90) with (- (90)). change (fofZ 180) with (fofZ (2 * 90)) at 1. rewrite Y3 by lia.
    destruct fuel; [lia|]. cbn [while_add]. rewrite (isf_lt _ _ _ _ I90 Y1). destruct (Rlt_bool_spec 90 rz); [lra|reflexivity].
  - intros _. destruct (isf_val _ _ Y1) as [Fy Ey]. rewrite Ey. split; [exact Fy|]. split; [lra|]. split; [|intros R; apply Y4; lra].
    intros B55. rewrite <- P55 in B55. apply (Y5 2 45); [reflexivity|lia|exact B55].
Qed.
Lemma norm_lat_hangs y fuel : wf64 y -> ~ lat_settles y -> norm_lat fuel y = None.
Proof.
  intros W N. assert (Nn : is_nan y = false) by (destruct (is_nan y) eqn:E; [elim N; left; exact E|reflexivity]).
  assert (I90 : isf (fofZ 90) 90) by (apply isf_int; lia).
  unfold norm_lat. cbn [nlt nofZ NumF]. change (-90) with (- (90)). change (fofZ 180) with (fofZ (2 * 90)) at 1.
  destruct (le_cases y _ _ _ _ W (isf_mpow 61 ltac:(lia)) I90 Nn) as [[(A & B & _)|[[->|[F L]] _]]|[[->|[F L]] _]].
  - elim N. right. split; assumption.
  - rewrite inf_up by lia. reflexivity.
  - pose proof (up_stuck 90 61 (or_intror (conj eq_refl eq_refl)) y (val y) fuel (val_isf y F) L) as E.
    match goal with |- context [while_add fuel ?c ?d y] => replace (while_add fuel c d y) with (@None f64) by (symmetry; exact E) end. reflexivity.
  - rewrite up_id by (vm_compute; reflexivity). destruct fuel; [reflexivity|]. apply inf_down; lia.
  - rewrite up_id.
    2:{ assert (Ih : isf (fofZ (- (90))) (-90)) by (apply isf_int; lia). rewrite (isf_lt _ _ _ _ (val_isf y F) Ih). destruct (Rlt_bool_spec (val y) (-90)); [lra|reflexivity]. }
    destruct fuel; [reflexivity|]. apply (lat_stuck _ y (val y)); [apply val_isf; exact F|exact L].
Qed.

(** ** Whole calls *)
Definition settles (p : f64 * f64) : Prop := lon_settles (fst p) /\ lat_settles (snd p).
Lemma lon_settles_dec x : lon_settles x \/ ~ lon_settles x.
Proof.
  unfold lon_settles. destruct (is_nan x); [left; left; reflexivity|]. destruct (SFleb (fofZ (- 2 ^ 62)) x); [|right; intros [|[]]; discriminate].
  destruct (SFleb x (fofZ (2 ^ 62))); [left; right; auto|right; intros [|[]]; discriminate].
Qed.
Lemma lat_settles_dec x : lat_settles x \/ ~ lat_settles x.
Proof.
  unfold lat_settles. destruct (is_nan x); [left; left; reflexivity|]. destruct (SFleb (fofZ (- 2 ^ 61)) x); [|right; intros [|[]]; discriminate].
  destruct (SFleb x (fofZ 90)); [left; right; auto|right; intros [|[]]; discriminate].
Qed.
Lemma norm_point_ends p : wf64 (fst p) -> wf64 (snd p) -> settles p -> exists n, forall fuel, (n <= fuel)%nat -> exists q, norm_point fuel p = Some q.
Proof.
  intros W1 W2 [S1 S2]. destruct (norm_lon_ends _ W1 S1) as (n1 & x & X & _). destruct (norm_lat_ends _ W2 S2) as (n2 & y & Y & _).
  exists (n1 + n2)%nat. intros fuel L. exists (x, y). unfold norm_point. rewrite X, Y by lia. reflexivity.
Qed.
Lemma norm_point_hangs p fuel : wf64 (fst p) -> wf64 (snd p) -> ~ settles p -> norm_point fuel p = None.
Proof.
  intros W1 W2 N. unfold norm_point. destruct (lon_settles_dec (fst p)) as [S1|S1].
  - destruct (lat_settles_dec (snd p)) as [S2|S2]; [elim N; split; assumption|]. rewrite (norm_lat_hangs _ _ W2 S2). destruct (norm_lon fuel (fst p)); reflexivity.
  - rewrite (norm_lon_hangs _ _ W1 S1). reflexivity.
Qed.
Lemma write_ends64 w name (polys : list (list (f64 * f64))) :
  (forall poly p, In poly polys -> In p poly -> wf64 (fst p) /\ wf64 (snd p)) ->
  ((forall poly p, In poly polys -> In p poly -> settles p) <->
   exists n, forall fuel, (n <= fuel)%nat -> exists r, pf_write fuel w name polys = Some r).
Proof.
  intros W. split.
  - intros H. destruct (omap_total (fun fuel => omap (norm_point fuel)) polys) as (n & N).
    { intros poly Hp. apply omap_total. intros p Hq. destruct (W poly p Hp Hq). apply norm_point_ends; auto. apply (H poly); assumption. }
    exists n. intros fuel L. destruct (N fuel L) as (ps & E). unfold pf_write. rewrite E. eauto.
  - intros (n & N) poly p Hp Hq. destruct (N n (le_n n)) as (r & E). unfold pf_write in E.
    destruct (omap (omap (norm_point n)) polys) as [ps|] eqn:O; [|discriminate]. apply omap_inv in O.
    destruct (Forall2_in_l _ _ _ _ O Hp) as (part & _ & O1). apply omap_inv in O1. destruct (Forall2_in_l _ _ _ _ O1 Hq) as (q & _ & E1).
    destruct (W poly p Hp Hq) as [W1 W2]. destruct (lon_settles_dec (fst p)) as [S1|S1].
    + destruct (lat_settles_dec (snd p)) as [S2|S2]; [split; assumption|]. exfalso.
      rewrite norm_point_hangs in E1; auto; [discriminate|]. intros [_ C]. contradiction.
    + exfalso. rewrite norm_point_hangs in E1; auto; [discriminate|]. intros [C _]. contradiction.
Qed.
Lemma write_hangs64 w name (polys : list (list (f64 * f64))) poly p : In poly polys -> In p poly -> wf64 (fst p) -> wf64 (snd p) -> ~ settles p ->
  forall fuel, pf_write fuel w name polys = None.
Proof.
  intros Hp Hq W1 W2 N fuel. unfold pf_write. destruct (omap (omap (norm_point fuel)) polys) as [ps|] eqn:O; [|reflexivity]. exfalso. apply omap_inv in O.
  destruct (Forall2_in_l _ _ _ _ O Hp) as (part & _ & O1). apply omap_inv in O1. destruct (Forall2_in_l _ _ _ _ O1 Hq) as (q & _ & E1).
  rewrite norm_point_hangs in E1; auto. discriminate.
Qed.

(** ** Plain points *)
Lemma while_mono {T} `{PyNum T} cond (d : T) fuel : forall x y, while_add fuel cond d x = Some y -> forall fuel', (fuel <= fuel')%nat -> while_add fuel' cond d x = Some y.
Proof.
  induction fuel as [|f IH]; intros x y E fuel' L; [discriminate|]. destruct fuel'; [lia|]. cbn [while_add] in *.
  destruct (cond x); [apply (IH _ _ E); lia|exact E].
Qed.
Lemma norm_point_mono (p q : f64 * f64) fuel fuel' : norm_point fuel p = Some q -> (fuel <= fuel')%nat -> norm_point fuel' p = Some q.
Proof.
  unfold norm_point, norm_lon, norm_lat. intros E L.
  destruct (while_add fuel _ (nofZ 360) (fst p)) as [x|] eqn:E1; [|discriminate]. rewrite (while_mono _ _ _ _ _ E1 _ L).
  destruct (while_add fuel _ (nofZ (-360)) x) as [x'|] eqn:E2; [|discriminate]. rewrite (while_mono _ _ _ _ _ E2 _ L).
  destruct (while_add fuel (fun v => nlt v (nofZ (-90))) _ (snd p)) as [y|] eqn:E3; [|discriminate]. rewrite (while_mono _ _ _ _ _ E3 _ L).
  destruct (while_add fuel _ _ y) as [y'|] eqn:E4; [|discriminate]. rewrite (while_mono _ _ _ _ _ E4 _ L). exact E.
Qed.
Lemma norm_plain fuel p q : plain_point p -> norm_point fuel p = Some q -> normalised64 p q.
Proof.
  intros (F1 & F2 & B1 & B2) E. destruct (F1) as [W1 G1]. destruct (F2) as [W2 G2].
  assert (S : settles p).
  { split; [destruct (lon_settles_dec (fst p)) as [S|S]|destruct (lat_settles_dec (snd p)) as [S|S]]; try exact S; exfalso; rewrite norm_point_hangs in E; auto; try discriminate; intros [C1 C2]; contradiction. }
  destruct S as [S1 S2]. destruct (norm_lon_ends _ W1 S1) as (n1 & x & X & X'). destruct (norm_lat_ends _ W2 S2) as (n2 & y & Y & Y').
  assert (Eq : norm_point (fuel + n1 + n2) p = Some (x, y)) by (unfold norm_point; rewrite X, Y by lia; reflexivity).
  rewrite (norm_point_mono p q fuel (fuel + n1 + n2) E ltac:(lia)) in Eq. injection Eq as ->.
  destruct X' as (X1 & X2 & X3 & X4); [apply (isf_not_nan _ _ (val_isf _ F1))|]. destruct Y' as (Y1 & Y2 & Y3 & Y4); [apply (isf_not_nan _ _ (val_isf _ F2))|].
  unfold normalised64. cbn [fst snd]. split; [exact X1|]. split; [exact Y1|]. split; [exact X2|]. split; [exact Y2|].
  split; [apply X3; exact B1|]. split; [apply Y3; exact B2|]. intros R1 R2. rewrite (X4 R1), (Y4 R2). destruct p; reflexivity.
Qed.
