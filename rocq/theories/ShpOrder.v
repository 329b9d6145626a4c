(** The order of doubles on bit patterns is the order of the floats they stand for. *)
From Coq Require Import SpecFloat.
From Verif Require Import Py Num ShpFile ShpGeoModel.
Open Scope Z_scope.

Definition big : Z := 4503599627370496.
Inductive decoded (m : Z) : bool -> spec_float -> Prop :=
| dec_nan s e f : m = e * big + f -> e = 2047 -> 0 < f < big -> decoded m s S754_nan
| dec_inf s : m = 2047 * big -> decoded m s (S754_infinity s)
| dec_zero s : m = 0 -> decoded m s (S754_zero s)
| dec_sub s p : m = Zpos p -> m < big -> decoded m s (S754_finite s p (-1074))
| dec_norm s p e : m = e * big + (Zpos p - big) -> 1 <= e < 2047 -> big <= Zpos p < 2 * big -> decoded m s (S754_finite s p (e - 1075)).
Lemma decode d : is_dbl d -> decoded (dbl_mag d) (9223372036854775808 <=? d) (f64_of_bits d).
Proof.
  intros D. unfold f64_of_bits. set (m := dbl_mag d). set (s := _ <=? d).
  assert (MB : 0 <= m < 2048 * big) by (change (2048 * big) with 9223372036854775808; apply Z.mod_pos_bound; reflexivity).
  assert (EQ : m = m / big * big + m mod big) by (rewrite Z.mul_comm; apply Z.div_mod; discriminate).
  assert (FB : 0 <= m mod big < big) by (apply Z.mod_pos_bound; reflexivity).
  change 4503599627370496 with big. set (e := m / big) in *. set (f := m mod big) in *. clearbody e f. unfold big in *.
  destruct (Z.eqb_spec e 2047) as [E|E].
  - destruct (Z.eqb_spec f 0) as [F|F]; [apply dec_inf; unfold big; lia|eapply dec_nan; unfold big; eauto; lia].
  - destruct (Z.eqb_spec e 0) as [E0|E0].
    + destruct f as [|p|p]; [apply dec_zero; lia|apply dec_sub; unfold big; lia|lia].
    + destruct (4503599627370496 + f) as [|p|p] eqn:P; [lia| |lia]. apply dec_norm; unfold big; lia.
Qed.
Lemma pos_cmp p q : Pos.compare_cont Eq p q = (Zpos p ?= Zpos q).
Proof. reflexivity. Qed.
Ltac cmp := repeat match goal with |- context[?a ?= ?b] => destruct (Z.compare_spec a b) end.
Ltac fin := unfold big in *; first [reflexivity | lia | match goal with |- false = (?a <? ?b) => symmetry; apply Z.ltb_ge; lia | |- true = (?a <? ?b) => symmetry; apply Z.ltb_lt; lia end].
Theorem order_ok a b : is_dbl a -> is_dbl b -> SFltb (f64_of_bits a) (f64_of_bits b) = dbl_lt a b.
Proof.
  intros A B. pose proof (decode a A) as DA. pose proof (decode b B) as DB. unfold dbl_lt, dbl_key, dbl_nan.
  set (ma := dbl_mag a) in *. set (mb := dbl_mag b) in *.
  replace (a <? 9223372036854775808) with (negb (9223372036854775808 <=? a)) by (rewrite Z.leb_antisym; apply negb_involutive).
  replace (b <? 9223372036854775808) with (negb (9223372036854775808 <=? b)) by (rewrite Z.leb_antisym; apply negb_involutive).
  set (sa := 9223372036854775808 <=? a) in *. set (sb := 9223372036854775808 <=? b) in *.
  assert (NA : 0 <= ma) by (apply Z.mod_pos_bound; reflexivity). assert (NB : 0 <= mb) by (apply Z.mod_pos_bound; reflexivity).
  clearbody ma mb sa sb. clear A B. change 9218868437227405312 with (2047 * big).
  assert (K : forall m s x, decoded m s x -> (x = S754_nan /\ (2047 * big <? m) = true) \/ (2047 * big <? m) = false).
  { intros m s x D. destruct D; [left; split; [reflexivity|apply Z.ltb_lt; unfold big in *; lia]| | | |]; right; apply Z.ltb_ge; unfold big in *; lia. }
  destruct (K _ _ _ DA) as [[-> ->]|KA]; [reflexivity|].
  destruct (K _ _ _ DB) as [[-> ->]|KB]; [rewrite KA; destruct (f64_of_bits a) as [?|[]| |[]]; reflexivity|]. rewrite KA, KB. cbn [negb andb].
  apply Z.ltb_ge in KA, KB.
  destruct DA as [s e f M1 M2 M3|s M|s M|s p M ML|s p e M ME MP]; [exfalso; unfold big in *; lia| | | |];
  destruct DB as [s' e' f' M1' M2' M3'|s' M'|s' M'|s' q M' ML'|s' q e' M' ME' MP']; try (exfalso; unfold big in *; lia);
  destruct s, s'; unfold SFltb; cbn [SFcompare negb]; rewrite ?pos_cmp; cmp; cbn [CompOpp]; try fin; try (exfalso; fin).
Qed.
Ltac fine := unfold big in *; first [reflexivity | lia | match goal with |- false = (?a =? ?b) => symmetry; apply Z.eqb_neq; lia | |- true = (?a =? ?b) => symmetry; apply Z.eqb_eq; lia end].
Theorem equal_ok a b : is_dbl a -> is_dbl b -> SFeqb (f64_of_bits a) (f64_of_bits b) = dbl_eq a b.
Proof.
  intros A B. pose proof (decode a A) as DA. pose proof (decode b B) as DB. unfold dbl_eq, dbl_key, dbl_nan.
  set (ma := dbl_mag a) in *. set (mb := dbl_mag b) in *.
  replace (a <? 9223372036854775808) with (negb (9223372036854775808 <=? a)) by (rewrite Z.leb_antisym; apply negb_involutive).
  replace (b <? 9223372036854775808) with (negb (9223372036854775808 <=? b)) by (rewrite Z.leb_antisym; apply negb_involutive).
  set (sa := 9223372036854775808 <=? a) in *. set (sb := 9223372036854775808 <=? b) in *.
  assert (NA : 0 <= ma) by (apply Z.mod_pos_bound; reflexivity). assert (NB : 0 <= mb) by (apply Z.mod_pos_bound; reflexivity).
  clearbody ma mb sa sb. clear A B. change 9218868437227405312 with (2047 * big).
  assert (K : forall m s x, decoded m s x -> (x = S754_nan /\ (2047 * big <? m) = true) \/ (2047 * big <? m) = false).
  { intros m s x D. destruct D; [left; split; [reflexivity|apply Z.ltb_lt; unfold big in *; lia]| | | |]; right; apply Z.ltb_ge; unfold big in *; lia. }
  destruct (K _ _ _ DA) as [[-> ->]|KA]; [reflexivity|].
  destruct (K _ _ _ DB) as [[-> ->]|KB]; [rewrite KA; destruct (f64_of_bits a) as [?|[]| |[]]; reflexivity|]. rewrite KA, KB. cbn [negb andb].
  apply Z.ltb_ge in KA, KB.
  destruct DA as [s e f M1 M2 M3|s M|s M|s p M ML|s p e M ME MP]; [exfalso; unfold big in *; lia| | | |];
  destruct DB as [s' e' f' M1' M2' M3'|s' M'|s' M'|s' q M' ML'|s' q e' M' ME' MP']; try (exfalso; unfold big in *; lia);
  destruct s, s'; unfold SFeqb; cbn [SFcompare negb]; rewrite ?pos_cmp; cmp; cbn [CompOpp]; try fine; try (exfalso; fin).
Qed.
Lemma order_both a b : is_dbl a -> is_dbl b ->
  SFltb (f64_of_bits a) (f64_of_bits b) = dbl_lt a b /\ SFeqb (f64_of_bits a) (f64_of_bits b) = dbl_eq a b.
Proof. split; [apply order_ok|apply equal_ok]; assumption. Qed.
