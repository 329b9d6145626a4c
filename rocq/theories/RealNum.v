(** The reals as a number system: exact arithmetic with decidable comparison
    (classically, as in the standard library). *)
From Coq Require Import Reals.
From Verif Require Import Num.

Definition Rlt_bool (x y : R) : bool := if Rlt_dec x y then true else false.
Definition Rle_bool (x y : R) : bool := if Rle_dec x y then true else false.
Definition Req_bool (x y : R) : bool := if Req_EM_T x y then true else false.

#[export] Instance NumR : PyNum R := {
  nofZ := IZR;
  nadd := Rplus; nsub := Rminus; nmul := Rmult; ndiv := Rdiv;
  nlt := Rlt_bool; nle := Rle_bool; neq := Req_bool
}.

Lemma Rlt_bool_spec x y : reflect (x < y)%R (Rlt_bool x y).
Proof. unfold Rlt_bool. destruct (Rlt_dec x y); constructor; assumption. Qed.
Lemma Rle_bool_spec x y : reflect (x <= y)%R (Rle_bool x y).
Proof. unfold Rle_bool. destruct (Rle_dec x y); constructor; assumption. Qed.
Lemma Req_bool_spec x y : reflect (x = y) (Req_bool x y).
Proof. unfold Req_bool. destruct (Req_EM_T x y); constructor; assumption. Qed.
