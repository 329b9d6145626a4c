(** The text of a double reads as the double. *)
From Coq Require Import ZArith Reals Lia Lra SpecFloat Psatz.
From Flocq Require Import Core IEEE754.BinarySingleNaN.
From Verif Require Import Py Num Text FloatLib StrModel StrProofs ShpFile ShpWriterModel ShpReaderModel ShpTableSpec ShpCellSpec ShpFloatText FloatTextModel FloatTextSpec FloatText FloatTextRound FloatTextOrder FloatReprModel FloatReprDigits.
Open Scope Z_scope.

(** ** Digits *)
Lemma num_val s : digits_num s = digits_val s.
Proof.
  unfold digits_num, digits_val. generalize 0. induction s as [|c s IH]; intros a; [reflexivity|]. cbn [fold_left]. rewrite IH. f_equal. ring.
Qed.
Lemma num_app a b : digits_num (a ++ b) = digits_num a * 10 ^ Z.of_nat (length b) + digits_num b.
Proof. rewrite !num_val. unfold digits_val at 1. rewrite fold_left_app. fold (digits_val a). apply digits_val_acc. Qed.
Lemma num_zeros n : digits_num (zeros n) = 0.
Proof. unfold zeros. induction (Z.to_nat n) as [|i IH]; [reflexivity|]. change (repeat 48 (S i)) with ([48] ++ repeat 48 i). rewrite num_app, IH. reflexivity. Qed.
Lemma zeros_length n : 0 <= n -> Z.of_nat (length (zeros n)) = n.
Proof. intros H. unfold zeros. rewrite repeat_length. lia. Qed.
Lemma plain_digits s : plain_digs s -> s <> [] -> digits s.
Proof.
  induction s as [|c s IH]; intros P N; [congruence|]. inversion P; subst. destruct s as [|c' s]; [apply digits_one; assumption|]. apply digits_more; [assumption|]. apply IH; [assumption|discriminate].
Qed.
Lemma plain_nu s : plain_digs s -> nu s = s.
Proof.
  induction 1 as [|c s D P IH]; [reflexivity|]. rewrite nu_cons by (unfold digit in D; lia). rewrite IH. reflexivity.
Qed.
Lemma plain_value s : plain_digs s -> digits_value s = digits_num s.
Proof. intros P. rewrite <- value_nu, plain_nu by exact P. reflexivity. Qed.
Lemma plain_count s : plain_digs s -> digit_count s = Z.of_nat (length s).
Proof. intros P. unfold digit_count. fold (nu s). rewrite plain_nu by exact P. reflexivity. Qed.
Lemma plain_zeros n : plain_digs (zeros n).
Proof. unfold zeros, plain_digs. apply Forall_forall. intros c I. apply repeat_spec in I. subst. unfold digit. lia. Qed.
Lemma plain_dec n : 0 <= n -> plain_digs (dec_nat n) /\ dec_nat n <> [] /\ digits_num (dec_nat n) = n.
Proof.
  intros N. destruct (dec_nat_spec n N) as (A & V & Ne & _). split; [exact A|]. split; [exact Ne|]. rewrite num_val. exact V.
Qed.
Lemma rstrip_split p s : exists z, s = rstrip_by p s ++ z /\ Forall (fun c => p c = true) z.
Proof.
  induction s as [|c s (z & E & F)]; [exists []; split; [reflexivity|constructor]|]. cbn [rstrip_by]. destruct (rstrip_by p s) as [|c' t] eqn:R.
  - cbn [app] in E. subst z. destruct (p c) eqn:P.
    + exists (c :: s). split; [reflexivity|constructor; assumption].
    + exists s. split; [reflexivity|exact F].
  - exists z. rewrite E at 1. split; [reflexivity|exact F].
Qed.
Lemma stripped n : 0 < n -> let s := dec_nat n in let t := rstrip_by (fun c => c =? 48) s in exists j, 0 <= j /\ plain_digs t /\ t <> [] /\
  Z.of_nat (length s) = Z.of_nat (length t) + j /\ n = digits_num t * 10 ^ j.
Proof.
  intros N s t. destruct (plain_dec n ltac:(lia)) as (P & Ne & V). destruct (rstrip_split (fun c => c =? 48) s) as (z & E & F). fold t in E. fold s in P, Ne, V.
  assert (Z0 : z = zeros (Z.of_nat (length z))).
  { unfold zeros. rewrite Nat2Z.id. clear - F. induction F as [|c z C F IH]; [reflexivity|]. apply Z.eqb_eq in C. cbn [length repeat]. rewrite <- IH, C. reflexivity. }
  exists (Z.of_nat (length z)). split; [lia|].
  assert (V' : n = digits_num t * 10 ^ Z.of_nat (length z)).
  { rewrite <- V, E at 1. rewrite num_app. rewrite Z0 at 2. rewrite num_zeros. lia. }
  split; [rewrite E in P; apply Forall_app in P; apply P|]. split; [intros T; rewrite T in V'; cbn in V'; lia|]. split; [|exact V'].
  rewrite E at 1. rewrite app_length. lia.
Qed.

(** ** Layout *)
Lemma exponent_text_is x : exponent_is (text "e" ++ exponent_text x) x.
Proof.
  right. unfold exponent_text. destruct (plain_dec (Z.abs x) ltac:(lia)) as (P & Ne & V).
  set (d := if (length (dec_nat (Z.abs x)) <? 2)%nat then 48 :: dec_nat (Z.abs x) else dec_nat (Z.abs x)).
  assert (D : digits d /\ digits_value d = Z.abs x).
  { unfold d. destruct (_ <? _)%nat.
    - assert (P1 : plain_digs (48 :: dec_nat (Z.abs x))) by (constructor; [unfold digit; lia|exact P]). split; [apply plain_digits; [exact P1|discriminate]|]. rewrite plain_value by exact P1.
      change (48 :: dec_nat (Z.abs x)) with ([48] ++ dec_nat (Z.abs x)). rewrite num_app, V. cbn. lia.
    - split; [apply plain_digits; assumption|]. rewrite plain_value by exact P. exact V. }
  destruct D as (D1 & D2). destruct (Z.ltb_spec x 0) as [L|L].
  - exists (text "-"), d. split; [right; right; reflexivity|]. split; [exact D1|]. split; [left; reflexivity|]. left. split; [reflexivity|]. lia.
  - exists (text "+"), d. split; [right; left; reflexivity|]. split; [exact D1|]. split; [left; reflexivity|]. right. split; [discriminate|]. lia.
Qed.
Lemma layout_decimal n k g (neg : bool) : 0 < n -> sign g -> (neg = true <-> g = text "-") ->
  exists n' k', decimal (g ++ layout n k) neg n' k' /\ value n' k' = value n k.
Proof.
  intros N G SG. destruct (stripped n N) as (j & J & P & Ne & L & E). unfold layout. cbv zeta. set (t := rstrip_by _ _) in *. set (pt := k + Z.of_nat (length (dec_nat n))).
  assert (X : value n k = value (digits_num t) (pt - Z.of_nat (length t))).
  { unfold value. rewrite E, mult_IZR, <- p10_IZR, Rmult_assoc, <- p10_add by exact J. do 2 f_equal. unfold pt. lia. }
  assert (DT : digits t) by (apply plain_digits; assumption).
  assert (FIX : forall m e n' j' z, g ++ m ++ e = g ++ m ++ e -> mantissa_is m n' j' -> exponent_is e z -> value n' (z - j') = value (digits_num t) (pt - Z.of_nat (length t)) ->
    exists n' k', decimal (g ++ m ++ e) neg n' k' /\ value n' k' = value n k).
  { intros m e n' j' z _ M EX V. exists n', (z - j'). split; [|rewrite V, X; reflexivity]. exists g, m, e, j', z. auto 10. }
  assert (E0 : exponent_is [] 0) by (left; auto).
  assert (D0 : digits (text "0")) by (apply digits_one; split; vm_compute; discriminate).
  assert (P0 : plain_digs (text "0")) by (repeat constructor; vm_compute; discriminate).
  destruct (_ && _) eqn:B.
  - apply andb_prop in B. destruct B as (B1 & B2). apply Z.ltb_lt in B1. apply Z.leb_le in B2. destruct (Z.leb_spec pt 0) as [C|C].
    + set (b := zeros (- pt) ++ t). assert (PB : plain_digs b) by (apply Forall_app; split; [apply plain_zeros|exact P]).
      rewrite <- (app_nil_r (text "0." ++ b)). apply (FIX _ _ (digits_num t) (- pt + Z.of_nat (length t)) 0); [reflexivity| |exact E0|f_equal; lia].
      right; right; right. exists (text "0"), b. split; [exact D0|]. split; [apply plain_digits; [exact PB|unfold b; intros Z0; apply app_eq_nil in Z0; tauto]|].
      split; [reflexivity|]. split.
      * rewrite plain_value by (apply Forall_app; split; assumption). rewrite num_app. unfold b. rewrite num_app, num_zeros. change (digits_num (text "0")) with 0. lia.
      * rewrite plain_count by exact PB. unfold b. rewrite app_length, Nat2Z.inj_add, zeros_length by lia. reflexivity.
    + destruct (Z.ltb_spec pt (Z.of_nat (length t))) as [C'|C'].
      * set (a := firstn (Z.to_nat pt) t). set (b := skipn (Z.to_nat pt) t). assert (AB : a ++ b = t) by apply firstn_skipn.
        assert (LA : length a = Z.to_nat pt) by (unfold a; rewrite firstn_length; lia).
        assert (LB : length b = (length t - Z.to_nat pt)%nat) by (unfold b; apply skipn_length).
        assert (PA : plain_digs a /\ plain_digs b) by (apply Forall_app; rewrite AB; exact P). destruct PA as (PA & PB).
        rewrite <- (app_nil_r (a ++ text "." ++ b)). apply (FIX _ _ (digits_num t) (Z.of_nat (length t) - pt) 0); [reflexivity| |exact E0|f_equal; lia].
        right; right; right. exists a, b. split; [apply plain_digits; [exact PA|intros Z0; rewrite Z0 in LA; cbn in LA; lia]|].
        split; [apply plain_digits; [exact PB|intros Z0; rewrite Z0 in LB; cbn in LB; lia]|]. split; [reflexivity|]. split.
        -- rewrite AB, plain_value by exact P. reflexivity.
        -- rewrite plain_count by exact PB. lia.
      * set (a := t ++ zeros (pt - Z.of_nat (length t))). assert (PA : plain_digs a) by (apply Forall_app; split; [exact P|apply plain_zeros]).
        rewrite <- (app_nil_r (a ++ text ".0")).
        apply (FIX _ _ (digits_num t * 10 ^ (pt - Z.of_nat (length t)) * 10) 1 0); [reflexivity| |exact E0|].
        -- right; right; right. exists a, (text "0"). split; [apply plain_digits; [exact PA|unfold a; destruct t; [congruence|discriminate]]|]. split; [exact D0|]. split; [reflexivity|]. split; [|reflexivity].
           rewrite plain_value by (apply Forall_app; split; assumption). rewrite num_app. unfold a. rewrite num_app, num_zeros, zeros_length by lia. change (digits_num (text "0")) with 0.
           change (Z.of_nat (length (text "0"))) with 1. rewrite Z.pow_1_r. lia.
        -- unfold value. rewrite !mult_IZR, <- p10_IZR by lia. replace (0 - 1) with (-1) by lia. replace (powerRZ 10 (-1)) with (/ 10)%R by (rewrite p10_neg by lia; reflexivity). field.
  - clear B. destruct t as [|c f] eqn:T; [congruence|]. cbn [firstn skipn]. inversion P; subst.
    rewrite <- T in *. destruct f as [|c' f].
    + rewrite app_nil_r. apply (FIX _ _ (digits_num t) 0 (pt - 1)); [reflexivity| |apply exponent_text_is|rewrite T; cbn [length]; f_equal; lia].
      left. rewrite <- T. split; [exact DT|]. split; [rewrite plain_value by exact P; reflexivity|reflexivity].
    + apply (FIX _ _ (digits_num t) (Z.of_nat (length t) - 1) (pt - 1)); [reflexivity| |apply exponent_text_is|f_equal; lia].
      right; right; right. exists [c], (c' :: f). assert (P1 : plain_digs [c]) by (constructor; [assumption|constructor]). split; [apply plain_digits; [exact P1|discriminate]|].
      split; [apply plain_digits; [assumption|discriminate]|]. split; [reflexivity|]. split.
      * cbn [app]. rewrite <- T. rewrite plain_value by exact P; reflexivity.
      * rewrite plain_count by assumption. rewrite T. cbn [length]. lia.
Qed.

(** ** Signs *)
Lemma round_flip s m e l s' m' e' : SpecFloat.binary_round_aux 53 1024 s m e l = S754_finite s' m' e' <-> s = s' /\ SpecFloat.binary_round_aux 53 1024 false m e l = S754_finite false m' e'.
Proof.
  unfold SpecFloat.binary_round_aux. destruct (shr_fexp 53 1024 m e l) as [mrs1 e1]. destruct (shr_fexp 53 1024 _ e1 loc_Exact) as [mrs2 e2].
  destruct (shr_m mrs2) as [|p|p]; [split; [discriminate|intros (_ & H); discriminate H]| |split; [discriminate|intros (_ & H); discriminate H]].
  destruct (e2 <=? 1024 - 53); [|split; [discriminate|intros (_ & H); discriminate H]]. split; [intros [= -> -> ->]; auto|intros (-> & [= -> ->]); reflexivity].
Qed.
Lemma ratio_flip s p q s' m' e' : ratio64 s p q = S754_finite s' m' e' <-> s = s' /\ ratio64 false p q = S754_finite false m' e'.
Proof. unfold ratio64. destruct (SFdiv_core_binary _ _ _ _ _ _) as [[m e] l]. apply round_flip. Qed.
Lemma decimal_flip s n k s' m' e' : decimal64 s n k = S754_finite s' m' e' <-> s = s' /\ decimal64 false n k = S754_finite false m' e'.
Proof.
  unfold decimal64. destruct n as [|p|p]; [split; [discriminate|intros (_ & H); discriminate H]| |split; [discriminate|intros (_ & H); discriminate H]].
  destruct k; apply ratio_flip.
Qed.

(** ** The text of a double *)
Definition minus (s : bool) : list Z := if s then text "-" else [].
Lemma minus_is s : sign (minus s) /\ (s = true <-> minus s = text "-").
Proof. destruct s; cbn; (split; [|split; intros H; try reflexivity; discriminate H]); unfold sign; auto. Qed.
Lemma valid_sign s m e : valid_binary 53 1024 (S754_finite s m e) = true -> valid_binary 53 1024 (S754_finite false m e) = true.
Proof. intros H. exact H. Qed.
Lemma repr_decimal s m e : valid_binary 53 1024 (S754_finite s m e) = true ->
  exists n k, decimal (repr64 (S754_finite s m e)) s n k /\ rnd (value n k) = (IZR (Zpos m) * bpow radix2 e)%R /\ 0 < n /\
  exists j n' k', 1 <= j <= 17 /\ 0 < n' < 10 ^ j /\ value n' k' = value n k /\
  forall n0 k0, 0 < n0 -> rnd (value n0 k0) = (IZR (Zpos m) * bpow radix2 e)%R -> 10 ^ (j - 1) <= n0 /\
    (n0 < 10 ^ j -> (Rabs (value n k - IZR (Zpos m) * bpow radix2 e) <= Rabs (value n0 k0 - IZR (Zpos m) * bpow radix2 e))%R).
Proof.
  intros V. pose proof (digits_spec m e (valid_sign _ _ _ V)) as S. unfold repr64. destruct (shortest 17 m e 1 _) as [n k]. destruct S as (N & R1 & j & n' & k' & J & A & B & C).
  destruct (minus_is s) as (M1 & M2). destruct (layout_decimal n k (minus s) s N M1 M2) as (n1 & k1 & D & E). exists n1, k1. rewrite E.
  split; [exact D|]. split; [exact R1|]. split; [|exists j, n', k'; auto].
  apply lt_IZR. apply (Rmult_lt_reg_r (powerRZ 10 k1)); [apply p10|]. rewrite Rmult_0_l. fold (value n1 k1). rewrite E. unfold value. apply Rmult_lt_0_compat; [apply IZR_lt, N|apply p10].
Qed.
Lemma repr_back d : valid_binary 53 1024 d = true -> float64 (repr64 d) = Ok d.
Proof.
  destruct d as [s|s| |s m e]; intros V.
  - destruct s; vm_compute; reflexivity.
  - destruct s; vm_compute; reflexivity.
  - vm_compute. reflexivity.
  - destruct (repr_decimal s m e V) as (n & k & D & R1 & N & _). rewrite (float_decimal _ _ _ _ D). f_equal. apply decimal_flip. split; [reflexivity|].
    apply (good_iff m e (valid_sign _ _ _ V) n k N). exact R1.
Qed.
