From Coq Require Import ZifyBool ZifyNat Znumtheory.
From Verif Require Import Py BufferModel BufferSpec.
Open Scope Z_scope.

(** ** Bit arithmetic *)
Lemma land_pred_pow2 x k : 0 <= k -> Z.land x (2 ^ k - 1) = x mod 2 ^ k.
Proof.
  intros Hk. replace (2 ^ k - 1) with (Z.ones k).
  - apply Z.land_ones. exact Hk.
  - unfold Z.ones. rewrite Z.shiftl_mul_pow2 by lia. lia.
Qed.

Lemma lxor_pow2 s k : 0 <= k -> 0 <= s < 2 * 2 ^ k ->
  Z.lxor s (2 ^ k) = (s + 2 ^ k) mod (2 * 2 ^ k).
Proof.
  intros Hk Hs. assert (Hp : 0 < 2 ^ k) by (apply Z.pow_pos_nonneg; lia).
  assert (L : forall t, 0 <= t < 2 ^ k -> Z.lxor t (2 ^ k) = t + 2 ^ k).
  { intros t Ht. symmetry. apply Z.add_nocarry_lxor.
    apply Z.bits_inj'. intros i Hi. rewrite Z.land_spec, Z.bits_0.
    destruct (Z.eq_dec i k) as [->|N].
    - replace (Z.testbit t k) with false; [reflexivity|]. symmetry.
      apply (Z.testbit_false t k); [lia|]. rewrite Z.div_small by lia. reflexivity.
    - rewrite (Z.pow2_bits_false k i) by lia. apply andb_false_r. }
  destruct (Z_lt_le_dec s (2 ^ k)) as [Hlt|Hge].
  - rewrite L by lia. rewrite Z.mod_small by lia. reflexivity.
  - assert (E : s = Z.lxor (s - 2 ^ k) (2 ^ k)) by (rewrite L by lia; lia).
    rewrite E at 1. rewrite Z.lxor_assoc, Z.lxor_nilpotent, Z.lxor_0_r.
    replace (s + 2 ^ k) with ((s - 2 ^ k) + 1 * (2 * 2 ^ k)) by lia.
    rewrite Z.mod_add by lia. rewrite Z.mod_small by lia. reflexivity.
Qed.

Lemma accept_iff n :
  Z.land n (n - 1) = 0 <-> n = 0 \/ exists k, 0 <= k /\ n = 2 ^ k.
Proof.
  split.
  - intros H. destruct (Z.lt_trichotomy n 0) as [Hn|[Hn|Hn]].
    + assert (Z.land n (n - 1) < 0) by (apply Z.land_neg; lia). lia.
    + left; assumption.
    + right. exists (Z.log2 n). split; [apply Z.log2_nonneg|].
      destruct (Z.log2_spec n Hn) as [L1 L2].
      rewrite Z.pow_succ_r in L2 by apply Z.log2_nonneg.
      set (k := Z.log2 n) in *.
      assert (Hk : 0 <= k) by apply Z.log2_nonneg.
      destruct (Z.eq_dec n (2 ^ k)) as [E|N]; [exact E|exfalso].
      assert (B : Z.testbit (Z.land n (n - 1)) k = true).
      { rewrite Z.land_spec.
        assert (D : forall m, 2 ^ k <= m < 2 * 2 ^ k -> Z.testbit m k = true).
        { intros m Hm. apply Z.testbit_true; [exact Hk|].
          replace (m / 2 ^ k) with 1; [reflexivity|].
          apply Z.div_unique with (m - 2 ^ k); lia. }
        rewrite !D by lia. reflexivity. }
      rewrite H, Z.bits_0 in B. discriminate.
  - intros [->|(k & Hk & ->)]; [reflexivity|].
    rewrite land_pred_pow2 by assumption. apply Z.mod_same.
    assert (0 < 2 ^ k) by (apply Z.pow_pos_nonneg; lia). lia.
Qed.

Lemma new_iff {A} n :
  (exists b : buffer A, buf_new n = Ok b) <-> n = 0 \/ exists k, 0 <= k /\ n = 2 ^ k.
Proof.
  rewrite <- accept_iff. unfold buf_new.
  destruct (Z.eqb_spec (Z.land n (n - 1)) 0) as [E|N]; cbn; split; intros H;
    try assumption; try (eexists; reflexivity); try contradiction.
  destruct H; discriminate.
Qed.

Lemma new_err {A} n :
  ~ (n = 0 \/ exists k, 0 <= k /\ n = 2 ^ k) -> @buf_new A n = Err AssertionError.
Proof.
  rewrite <- accept_iff. unfold buf_new. intros N.
  destruct (Z.eqb_spec (Z.land n (n - 1)) 0); [contradiction|reflexivity].
Qed.

(** ** Representation invariant *)
Definition brep {A} (n : Z) (b : buffer A) (q : list A) : Prop :=
  b_n b = n /\ Z.of_nat (length (b_buf b)) = n /\ b_m1 b = n - 1 /\ b_m2 b = 2 * n - 1 /\
  0 <= b_s b < 2 * n /\ b_e b = (b_s b + Z.of_nat (length q)) mod (2 * n) /\
  Z.of_nat (length q) <= n /\
  (forall i a, nth_error q i = Some a ->
     nth_error (b_buf b) (Z.to_nat ((b_s b + Z.of_nat i) mod n)) = Some (Some a)).

Lemma mod_eq_small x y m : 0 < m -> 0 <= y < m ->
  (x + y) mod m = x mod m -> y = 0.
Proof.
  intros Hm Hy E.
  assert (D : (x + y - x) mod m = 0).
  { rewrite Zminus_mod, E, Z.sub_diag. apply Z.mod_0_l. lia. }
  replace (x + y - x) with y in D by lia. rewrite Z.mod_small in D; lia.
Qed.

Lemma nth_error_snoc {B} (q : list B) a : nth_error (q ++ [a]) (length q) = Some a.
Proof. rewrite nth_error_app2 by lia. rewrite Nat.sub_diag. reflexivity. Qed.

Lemma nth_error_removelast {B} (q : list B) i a :
  nth_error (removelast q) i = Some a -> nth_error q i = Some a.
Proof.
  revert i; induction q as [|x r IH]; intros i H; [destruct i; discriminate|].
  destruct r as [|y r'].
  - destruct i; discriminate.
  - change (removelast (x :: y :: r')) with (x :: removelast (y :: r')) in H.
    destruct i; [exact H|]. cbn in *. apply IH. exact H.
Qed.

Lemma removelast_length {B} (q : list B) : length (removelast q) = (length q - 1)%nat.
Proof.
  induction q as [|x r IH]; [reflexivity|]. destruct r as [|y r']; [reflexivity|].
  change (removelast (x :: y :: r')) with (x :: removelast (y :: r')).
  cbn [length] in *. rewrite IH. lia.
Qed.

Lemma newest_some {B} (q : list B) : q <> [] -> exists a, newest q = Some a.
Proof.
  intros Hq. unfold newest. destruct (nth_error q (length q - 1)) eqn:E; [eauto|].
  apply nth_error_None in E. destruct q; [congruence|]. cbn in E. lia.
Qed.

Lemma nth_error_skip {B} (q : list B) i a :
  nth_error q i = Some a -> skipn i q = a :: skipn (S i) q.
Proof.
  revert i; induction q as [|x r IH]; intros [|i] H; try discriminate.
  - inversion H. reflexivity.
  - cbn in *. apply IH. exact H.
Qed.

Section Rep.
  Context {A : Type}.
  Variables k n : Z.
  Hypothesis Hk : 0 <= k.
  Hypothesis En : n = 2 ^ k.
  Lemma n_pos : 0 < n.
  Proof. rewrite En. apply Z.pow_pos_nonneg; lia. Qed.

  Lemma m2_mod x : Z.land x (2 * n - 1) = x mod (2 * n).
  Proof.
    rewrite En. rewrite <- Z.pow_succ_r by exact Hk. apply land_pred_pow2. lia.
  Qed.
  Lemma m1_mod x : Z.land x (n - 1) = x mod n.
  Proof. rewrite En. apply land_pred_pow2. exact Hk. Qed.
  Lemma mod2n_mod x : (x mod (2 * n)) mod n = x mod n.
  Proof.
    pose proof n_pos. symmetry. apply Znumtheory.Zmod_div_mod; try lia. exists 2. lia.
  Qed.

  Lemma rep_new b : @buf_new A n = Ok b -> brep n b [].
  Proof.
    pose proof n_pos as Hn. unfold buf_new.
    destruct (Z.land n (n - 1) =? 0); cbn [py_assert bind]; [|discriminate].
    rewrite Z.shiftl_mul_pow2 by lia. change (2 ^ 1) with 2.
    intros E. inversion E; subst b; clear E. unfold brep; cbn [b_n b_buf b_s b_e b_m1 b_m2 length Z.of_nat].
    rewrite repeat_length.
    rewrite Z.mod_small by lia. repeat split; try lia.
    intros i a H. destruct i; discriminate.
  Qed.


  Lemma rep_isempty (b : buffer A) q : brep n b q ->
    b_isempty b = match q with [] => true | _ => false end.
  Proof.
    pose proof n_pos as Hn.
    intros (E1 & E2 & E3 & E4 & Hs & E5 & Hl & _). unfold b_isempty.
    rewrite E5. destruct q as [|a r]; cbn [length] in *.
    - rewrite Z.add_0_r, Z.mod_small by lia. apply Z.eqb_refl.
    - apply Z.eqb_neq. intros C.
      rewrite <- (Z.mod_small (b_s b) (2 * n)) in C at 2 by lia.
      apply mod_eq_small in C; lia.
  Qed.

  Lemma rep_isfull (b : buffer A) q : brep n b q -> b_isfull b = (Z.of_nat (length q) =? n).
  Proof.
    pose proof n_pos as Hn.
    intros (E1 & E2 & E3 & E4 & Hs & E5 & Hl & _). unfold b_isfull.
    rewrite E1, E5.
    replace (Z.lxor (b_s b) n) with ((b_s b + n) mod (2 * n))
      by (symmetry; rewrite En; apply lxor_pow2; [assumption|rewrite <- En; assumption]).
    destruct (Z.eqb_spec (Z.of_nat (length q)) n) as [E|N].
    - rewrite E. apply Z.eqb_refl.
    - apply Z.eqb_neq. intros C.
      set (L := Z.of_nat (length q)) in *.
      assert (C' : ((b_s b + L) + (n - L)) mod (2 * n) = (b_s b + L) mod (2 * n)).
      { replace (b_s b + L + (n - L)) with (b_s b + n) by lia. symmetry; exact C. }
      apply mod_eq_small in C'; lia.
  Qed.


  Lemma rep_push (b : buffer A) q a : brep n b q -> Z.of_nat (length q) < n ->
    exists b', b_push b a = Ok b' /\ brep n b' (q ++ [a]).
  Proof.
    pose proof n_pos as Hn. intros R Hlt.
    assert (F := rep_isfull b q R).
    destruct R as (E1 & E2 & E3 & E4 & Hs & E5 & Hl & HE).
    unfold b_push. rewrite F.
    replace (Z.of_nat (length q) =? n) with false by lia. cbn [negb py_assert bind].
    rewrite E3, m1_mod, E5, mod2n_mod.
    set (L := Z.of_nat (length q)) in *.
    pose proof (Z.mod_pos_bound (b_s b + L) n Hn) as Hb.
    rewrite py_set_nonneg by lia. cbn [bind]. eexists; split; [reflexivity|].
    unfold brep, b_inc, b_with_e, b_with_buf; cbn.
    rewrite set_nth_length, E4, m2_mod, E5, Zplus_mod_idemp_l.
    rewrite app_length; cbn [length]. rewrite Nat2Z.inj_add. fold L.
    repeat split; try lia.
    { f_equal. lia. }
    intros i v Hi.
    destruct (Nat.eq_dec i (length q)) as [->|Ni].
    - rewrite nth_error_snoc in Hi. inversion Hi; subst v. fold L.
      apply nth_error_set_nth_same. lia.
    - assert (Hi' : (i < length q)%nat).
      { assert (nth_error (q ++ [a]) i <> None) by congruence.
        apply nth_error_Some in H. rewrite app_length in H. cbn in H. lia. }
      rewrite nth_error_app1 in Hi by exact Hi'.
      rewrite nth_error_set_nth_other; [apply HE; exact Hi|].
      pose proof (Z.mod_pos_bound (b_s b + Z.of_nat i) n Hn).
      intros C. apply Z2Nat.inj in C; try lia.
      replace (b_s b + L) with ((b_s b + Z.of_nat i) + (L - Z.of_nat i)) in C by lia.
      apply mod_eq_small in C; lia.
  Qed.


  Lemma dec_pos (b : buffer A) q : brep n b q -> q <> [] ->
    b_dec b (b_e b) = (b_s b + Z.of_nat (length q - 1)) mod (2 * n).
  Proof.
    pose proof n_pos as Hn.
    intros (E1 & E2 & E3 & E4 & Hs & E5 & Hl & HE) Hq.
    unfold b_dec. rewrite E4, m2_mod, E5, Zminus_mod_idemp_l. f_equal.
    destruct q; [congruence|]. cbn [length]. lia.
  Qed.


  Lemma slot_read (b : buffer A) q i a : brep n b q -> nth_error q i = Some a ->
    py_get (b_buf b) (((b_s b + Z.of_nat i) mod (2 * n)) mod n) = Ok (Some a).
  Proof.
    pose proof n_pos as Hn.
    intros (E1 & E2 & E3 & E4 & Hs & E5 & Hl & HE) Hi.
    rewrite mod2n_mod.
    pose proof (Z.mod_pos_bound (b_s b + Z.of_nat i) n Hn).
    destruct (py_get_nonneg (b_buf b) ((b_s b + Z.of_nat i) mod n)) as (x & G & N); [lia|].
    rewrite G. rewrite (HE i a Hi) in N. congruence.
  Qed.

  Lemma rep_peek (b : buffer A) q : brep n b q -> q <> [] -> b_peek b = Ok (newest q).
  Proof.
    intros R Hq. unfold b_peek. rewrite (rep_isempty b q R).
    destruct (newest_some q Hq) as (a & Ea).
    rewrite (dec_pos b q R Hq).
    assert (E3 : b_m1 b = n - 1) by apply R. rewrite E3, m1_mod.
    rewrite (slot_read b q (length q - 1) a R Ea). rewrite Ea.
    destruct q; [congruence|reflexivity].
  Qed.

  Lemma rep_pop (b : buffer A) q : brep n b q -> q <> [] ->
    exists b', b_pop b = Ok (newest q, b') /\ brep n b' (removelast q).
  Proof.
    pose proof n_pos as Hn.
    intros R Hq. unfold b_pop. rewrite (rep_isempty b q R).
    destruct (newest_some q Hq) as (a & Ea).
    rewrite (dec_pos b q R Hq).
    cbn [b_with_e b_e b_m1 b_buf].
    assert (E3 : b_m1 b = n - 1) by apply R. rewrite E3, m1_mod.
    rewrite (slot_read b q (length q - 1) a R Ea). rewrite Ea.
    exists (b_with_e b ((b_s b + Z.of_nat (length q - 1)) mod (2 * n))).
    split; [destruct q; [congruence|reflexivity]|].
    destruct R as (E1 & E2 & E3' & E4 & Hs & E5 & Hl & HE).
    unfold brep, b_with_e; cbn. rewrite removelast_length.
    repeat split; try lia.
    intros i v Hi. apply HE. apply nth_error_removelast. exact Hi.
  Qed.

  Lemma rep_shift (b : buffer A) a q : brep n b (a :: q) ->
    exists b', b_shift b = Ok (Some a, b') /\ brep n b' q.
  Proof.
    pose proof n_pos as Hn.
    intros R. unfold b_shift. rewrite (rep_isempty b _ R).
    assert (E3 : b_m1 b = n - 1) by apply R. rewrite E3, m1_mod.
    pose proof (slot_read b (a :: q) 0 a R eq_refl) as G.
    rewrite mod2n_mod in G. cbn [Z.of_nat] in G. rewrite Z.add_0_r in G. rewrite G.
    cbn [negb py_assert bind]. eexists; split; [reflexivity|].
    destruct R as (E1 & E2 & E3' & E4 & Hs & E5 & Hl & HE).
    unfold brep, b_with_s, b_inc; cbn. rewrite E4, m2_mod.
    cbn [length] in *.
    pose proof (Z.mod_pos_bound (b_s b + 1) (2 * n) ltac:(lia)).
    repeat split; try lia.
    - rewrite Zplus_mod_idemp_l, E5. f_equal. lia.
    - intros i v Hi. specialize (HE (S i) v Hi). rewrite <- HE. f_equal. f_equal.
      rewrite <- Zplus_mod_idemp_l. rewrite mod2n_mod, Zplus_mod_idemp_l. f_equal. lia.
  Qed.


  Lemma rep_items (b : buffer A) q i fuel : brep n b q ->
    (i <= length q)%nat -> (length q - i < fuel)%nat ->
    b_items fuel b ((b_s b + Z.of_nat i) mod (2 * n)) (b_e b) = Some (Ok (map Some (skipn i q))).
  Proof.
    pose proof n_pos as Hn.
    intros R. assert (R' := R).
    destruct R' as (E1 & E2 & E3 & E4 & Hs & E5 & Hl & HE).
    revert i. induction fuel as [|f IH]; intros i Hi Hf; [lia|].
    cbn [b_items]. rewrite E5.
    destruct (Nat.eq_dec i (length q)) as [->|Ni].
    - rewrite Z.eqb_refl, skipn_all. reflexivity.
    - destruct (nth_error q i) as [a|] eqn:Ea; [|apply nth_error_None in Ea; lia].
      replace ((b_s b + Z.of_nat i) mod (2 * n) =?
               (b_s b + Z.of_nat (length q)) mod (2 * n)) with false.
      2:{ symmetry. apply Z.eqb_neq. intros C.
          replace (b_s b + Z.of_nat (length q)) with
            ((b_s b + Z.of_nat i) + Z.of_nat (length q - i)) in C by lia.
          symmetry in C. apply mod_eq_small in C; lia. }
      rewrite E3, m1_mod, (slot_read b q i a R Ea).
      unfold b_inc. rewrite E4, m2_mod, Zplus_mod_idemp_l.
      replace (b_s b + Z.of_nat i + 1) with (b_s b + Z.of_nat (S i)) by lia.
      rewrite <- E5. rewrite IH by lia.
      rewrite (nth_error_skip q i a Ea). reflexivity.
  Qed.

  Lemma rep_str (b : buffer A) q fuel : brep n b q -> (length q < fuel)%nat ->
    b_str fuel b = Some (Ok (map Some q)).
  Proof.
    pose proof n_pos as Hn.
    intros R Hf. unfold b_str. rewrite (rep_isempty b q R).
    destruct q as [|a r] eqn:Eq; [reflexivity|]. rewrite <- Eq in *.
    assert (Hs : 0 <= b_s b < 2 * n) by apply R.
    pose proof (rep_items b q 0 fuel R ltac:(lia) ltac:(lia)) as H.
    cbn [Z.of_nat skipn] in H. rewrite Z.add_0_r, Z.mod_small in H by exact Hs. exact H.
  Qed.

  Lemma rep_step fuel (b : buffer A) q o : brep n b q -> n < Z.of_nat fuel ->
    exists b', bstep fuel b o = (fst (qstep n q o), b') /\ brep n b' (snd (qstep n q o)).
  Proof.
    intros R Hf. destruct o as [a| | | | | |]; cbn [bstep qstep].
    - destruct (Z.ltb_spec (Z.of_nat (length q)) n) as [Hlt|Hge].
      + destruct (rep_push b q a R Hlt) as (b' & E & R'). rewrite E. eauto.
      + unfold b_push. rewrite (rep_isfull b q R).
        assert (Z.of_nat (length q) <= n) by apply R.
        replace (Z.of_nat (length q) =? n) with true by lia. cbn. eauto.
    - destruct q as [|a r] eqn:Eq.
      + unfold b_pop. rewrite (rep_isempty b _ R). cbn. eauto.
      + destruct (rep_pop b (a :: r) R ltac:(discriminate)) as (b' & E & R').
        rewrite E. eauto.
    - destruct q as [|a r] eqn:Eq.
      + unfold b_peek. rewrite (rep_isempty b _ R). cbn. eauto.
      + rewrite (rep_peek b (a :: r) R ltac:(discriminate)). eauto.
    - destruct q as [|a r] eqn:Eq.
      + unfold b_shift. rewrite (rep_isempty b _ R). cbn. eauto.
      + destruct (rep_shift b a r R) as (b' & E & R'). rewrite E. eauto.
    - rewrite (rep_isempty b q R). eauto.
    - rewrite (rep_isfull b q R). eauto.
    - rewrite (rep_str b q fuel R). { eauto. }
      assert (Z.of_nat (length q) <= n) by apply R. lia.
  Qed.

  Lemma rep_run fuel l : forall (b : buffer A) q, brep n b q -> n < Z.of_nat fuel ->
    brun fuel b l = qrun n q l.
  Proof.
    induction l as [|o r IH]; intros b q R Hf; cbn [brun qrun]; [reflexivity|].
    destruct (rep_step fuel b q o R Hf) as (b' & E & R'). rewrite E.
    destruct (qstep n q o) as [v q']; cbn in *. f_equal. apply IH; assumption.
  Qed.
End Rep.

(** Capacity 0: always empty and always full. *)
Lemma run_zero {A} fuel (l : list (bop A)) b :
  @buf_new A 0 = Ok b -> brun fuel b l = qrun 0 [] l.
Proof.
  intros E. assert (Eb : b = mkbuf 0 [] 0 0 (-1) (-1)).
  { vm_compute in E. congruence. } subst b. clear E.
  induction l as [|o r IH]; cbn [brun qrun]; [reflexivity|].
  destruct o; cbn; rewrite IH; reflexivity.
Qed.

Lemma buffer_refines {A} n b (l : list (bop A)) fuel :
  buf_new n = Ok b -> n < Z.of_nat fuel -> brun fuel b l = qrun n [] l.
Proof.
  intros E Hf.
  destruct (proj1 (@new_iff A n)) as [->|(k & Hk & ->)]; [eauto|apply run_zero; exact E|].
  apply (rep_run k _ Hk eq_refl); auto. apply (rep_new k _ Hk eq_refl); assumption.
Qed.
