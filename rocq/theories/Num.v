(** Number systems.

    Numeric code is written once over [PyNum] (a bare record of operations,
    no laws) and instantiated with exact rationals and with IEEE-754 doubles
    as specified by the standard library's [SpecFloat] (round to nearest
    even, 53 bits, emax 1024). *)
From Coq Require Export QArith Qround Qabs.
From Coq Require Import SpecFloat.
From Verif Require Export Py.
Open Scope Z_scope.

Class PyNum (T : Type) : Type := {
  nofZ : Z -> T;
  nadd : T -> T -> T;
  nsub : T -> T -> T;
  nmul : T -> T -> T;
  ndiv : T -> T -> T;      (** quotient by a non-zero divisor *)
  nlt : T -> T -> bool;
  nle : T -> T -> bool;
  neq : T -> T -> bool
}.

(** [x / y]: raises on a zero divisor, for int and float alike. *)
Definition ndivE {T} `{PyNum T} (x y : T) : res T :=
  if neq y (nofZ 0) then Err ZeroDivisionError else Ok (ndiv x y).

(** [min(a, b)]: the first unless the second is smaller. *)
Definition nmin {T} `{PyNum T} (a b : T) : T := if nlt b a then b else a.
(** [max(a, b)]: the first unless the second is greater. *)
Definition nmax {T} `{PyNum T} (a b : T) : T := if nlt a b then b else a.

Definition Qlt_bool (x y : Q) : bool := negb (Qle_bool y x).

#[export] Instance NumQ : PyNum Q := {
  nofZ := inject_Z;
  nadd := Qplus; nsub := Qminus; nmul := Qmult; ndiv := Qdiv;
  nlt := Qlt_bool; nle := Qle_bool; neq := Qeq_bool
}.

(** Binary64. *)
Definition f64 : Type := spec_float.
Definition fadd : f64 -> f64 -> f64 := SFadd 53 1024.
Definition fsub : f64 -> f64 -> f64 := SFsub 53 1024.
Definition fmul : f64 -> f64 -> f64 := SFmul 53 1024.
Definition fdiv : f64 -> f64 -> f64 := SFdiv 53 1024.
Definition fofZ (z : Z) : f64 := binary_normalize 53 1024 z 0 false.
(** The double nearest to m * 2^e. *)
Definition f_of (m e : Z) : f64 := binary_normalize 53 1024 m e false.
Definition is_nan (x : f64) : bool := match x with S754_nan => true | _ => false end.

#[export] Instance NumF : PyNum f64 := {
  nofZ := fofZ;
  nadd := fadd; nsub := fsub; nmul := fmul; ndiv := fdiv;
  nlt := SFltb; nle := SFleb; neq := SFeqb
}.

(** [int(x)] for a finite double: truncation towards zero. *)
Definition f_trunc (x : f64) : Z :=
  match x with
  | S754_finite s m e =>
      let a := if 0 <=? e then Zpos m * 2 ^ e else Zpos m / 2 ^ (- e) in
      if s then - a else a
  | _ => 0
  end.

(** [round(x)] for a finite double: nearest integer, ties to even. *)
Definition f_round (x : f64) : Z :=
  match x with
  | S754_finite s m e =>
      let a :=
        if 0 <=? e then Zpos m * 2 ^ e
        else let d := 2 ^ (- e) in
             let q := Zpos m / d in
             let r := Zpos m mod d in
             if 2 * r <? d then q
             else if d <? 2 * r then q + 1
             else if Z.even q then q else q + 1 in
      if s then - a else a
  | _ => 0
  end.

(** [math.floor] and [math.ceil] of a finite double. *)
Definition f_floor (x : f64) : Z :=
  match x with
  | S754_finite s m e =>
      let v := if s then Zneg m else Zpos m in
      if 0 <=? e then v * 2 ^ e else v / 2 ^ (- e)
  | _ => 0
  end.
Definition f_ceil (x : f64) : Z :=
  match x with
  | S754_finite s m e =>
      let v := if s then Zneg m else Zpos m in
      if 0 <=? e then v * 2 ^ e else - ((- v) / 2 ^ (- e))
  | _ => 0
  end.

(** [int(q)] on an exact number: truncation towards zero. *)
Definition q_trunc (q : Q) : Z := Z.quot (Qnum q) (Zpos (Qden q)).

(** [round(q)] on an exact number: nearest integer, ties to even
    (Python's built-in [round]). *)
Definition q_round (q : Q) : Z :=
  let f := Qfloor q in
  let r := (q - inject_Z f)%Q in
  if Qlt_bool r (1 # 2) then f
  else if Qlt_bool (1 # 2) r then f + 1
  else if Z.even f then f else f + 1.

(** ** Order lemmas on Q *)
Lemma Qle_bool_false x y : Qle_bool x y = false <-> (y < x)%Q.
Proof.
  split; intros H.
  - apply Qnot_le_lt. intros C. apply Qle_bool_iff in C. congruence.
  - destruct (Qle_bool x y) eqn:E; [|reflexivity].
    apply Qle_bool_iff in E. exfalso. apply (Qlt_not_le _ _ H E).
Qed.
Lemma Qlt_bool_true x y : Qlt_bool x y = true <-> (x < y)%Q.
Proof. unfold Qlt_bool. rewrite negb_true_iff. apply Qle_bool_false. Qed.
Lemma Qlt_bool_false x y : Qlt_bool x y = false <-> (y <= x)%Q.
Proof. unfold Qlt_bool. rewrite negb_false_iff. apply Qle_bool_iff. Qed.
Lemma Qeq_bool_true x y : Qeq_bool x y = true <-> (x == y)%Q.
Proof. apply Qeq_bool_iff. Qed.
Lemma Qeq_bool_false x y : Qeq_bool x y = false <-> ~ (x == y)%Q.
Proof.
  rewrite <- Qeq_bool_iff. destruct (Qeq_bool x y); split; intros H; congruence.
Qed.

(** Turn boolean comparisons on Q in hypotheses into propositions. *)
Ltac qbool :=
  repeat match goal with
  | H : Qle_bool _ _ = true |- _ => apply Qle_bool_iff in H
  | H : Qle_bool _ _ = false |- _ => apply Qle_bool_false in H
  | H : Qlt_bool _ _ = true |- _ => apply Qlt_bool_true in H
  | H : Qlt_bool _ _ = false |- _ => apply Qlt_bool_false in H
  | H : Qeq_bool _ _ = true |- _ => apply Qeq_bool_true in H
  | H : Qeq_bool _ _ = false |- _ => apply Qeq_bool_false in H
  | H : (_ && _)%bool = true |- _ => apply andb_prop in H; destruct H
  | H : (_ || _)%bool = false |- _ => apply orb_false_elim in H; destruct H
  end.
Ltac qdestr :=
  match goal with
  | |- context [Qle_bool ?a ?b] => destruct (Qle_bool a b) eqn:?
  | |- context [Qlt_bool ?a ?b] => destruct (Qlt_bool a b) eqn:?
  | |- context [Qeq_bool ?a ?b] => destruct (Qeq_bool a b) eqn:?
  | H : context [Qle_bool ?a ?b] |- _ =>
      lazymatch type of H with Qle_bool _ _ = _ => fail | _ => destruct (Qle_bool a b) eqn:? end
  | H : context [Qlt_bool ?a ?b] |- _ =>
      lazymatch type of H with Qlt_bool _ _ = _ => fail | _ => destruct (Qlt_bool a b) eqn:? end
  | H : context [Qeq_bool ?a ?b] |- _ =>
      lazymatch type of H with Qeq_bool _ _ = _ => fail | _ => destruct (Qeq_bool a b) eqn:? end
  end.

(** ** Order lemmas on doubles (NaN excluded) *)
Lemma SFltb_trans_le x y z :
  is_nan x = false -> is_nan y = false -> is_nan z = false ->
  SFleb x y = true -> SFleb y z = true -> SFleb x z = true.
Proof.
  unfold SFleb.
  destruct x as [sx|sx| |sx mx ex], y as [sy|sy| |sy my ey], z as [sz|sz| |sz mz ez];
    try discriminate; try destruct sx; try destruct sy; try destruct sz;
    cbn; try discriminate; try reflexivity; intros _ _ _.
  all: repeat match goal with
       | |- context [Z.compare ?a ?b] => destruct (Z.compare_spec a b)
       end; subst; cbn; try discriminate; try reflexivity; try lia.
  all: repeat match goal with
       | |- context [Pos.compare_cont Eq ?a ?b] =>
           change (Pos.compare_cont Eq a b) with (Pos.compare a b)
       end.
  all: repeat match goal with
       | |- context [Pos.compare ?a ?b] => destruct (Pos.compare_spec a b)
       end; subst; cbn; try discriminate; try reflexivity; try lia.
Qed.

Lemma SFltb_false_leb x y :
  is_nan x = false -> is_nan y = false -> SFltb x y = false -> SFleb y x = true.
Proof.
  unfold SFltb, SFleb.
  destruct x as [sx|sx| |sx mx ex], y as [sy|sy| |sy my ey];
    try discriminate; try destruct sx; try destruct sy;
    cbn; try discriminate; try reflexivity; intros _ _.
  all: rewrite (Z.compare_antisym ex ey); destruct (Z.compare_spec ex ey); cbn;
       try discriminate; try reflexivity.
  all: repeat match goal with
       | |- context [Pos.compare_cont Eq ?a ?b] =>
           change (Pos.compare_cont Eq a b) with (Pos.compare a b)
       end; rewrite (Pos.compare_antisym mx my); destruct (Pos.compare_spec mx my); cbn;
       try discriminate; try reflexivity.
Qed.

Lemma SFltb_leb x y : SFltb x y = true -> SFleb x y = true.
Proof.
  unfold SFltb, SFleb. destruct (SFcompare x y) as [[| |]|]; congruence.
Qed.

Lemma SFleb_refl x : is_nan x = false -> SFleb x x = true.
Proof.
  unfold SFleb.
  destruct x as [s|s| |s m e]; try discriminate; try destruct s; cbn; try reflexivity;
    intros _; rewrite Z.compare_refl; cbn;
    change (Pos.compare_cont Eq m m) with (Pos.compare m m);
    rewrite Pos.compare_refl; reflexivity.
Qed.
