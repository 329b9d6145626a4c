(** Property C124: gradients in double arithmetic. *)
From Coq Require Import ZArith Reals QArith Qreals Lia Lra SpecFloat.
From Flocq Require Import Core IEEE754.BinarySingleNaN.
From Verif Require Import Num FloatLib RasterModel RasterAA GradientModel GradientSpec GradientProofs GradientFloatSpec GradientFloat.
Open Scope Q_scope.

(** The colour read is the one interpolated exactly, up to 2^-38 per
    component, and exactly the colour of a stop where there is one. *)
Theorem C124_get : forall points exact x X, Forall2 stop_holds points exact -> holds x X -> moderate exact -> exact <> [] ->
  0 <= X \/ (exists q, In q exact /\ fst q <= X) -> X <= 1 \/ (exists q, In q exact /\ X <= fst q) ->
  exists g c C, gradient_new points = Ok g /\ gradient_get g x = Ok c /\ shows_at exact X C /\
    Forall2 (within (/ IZR (2 ^ 38))%R) c C /\ ((exists q, In q exact /\ fst q == X) -> Forall2 holds c C).
Proof.
  intros points exact x X H Hx M N B0 B1. destruct (get_float points exact x X H Hx M N B0 B1) as (g & c & C & En & Eg & S & Sh & Ex & _).
  exists g, c, C. auto.
Qed.
(** The text: each digit is that of the exact component, up to a
    thousand-millionth of a digit. *)
Theorem C124_hex : forall points exact x X, Forall2 stop_holds points exact -> holds x X -> moderate exact -> exact <> [] -> 0 <= X <= 1 ->
  (forall q, In q exact -> Forall (fun v => 0 <= v <= 1) (snd q)) ->
  exists g C chars, gradient_new points = Ok g /\ shows_at exact X C /\ gradient_hex g x = Ok (35%Z :: chars) /\
    Forall2 (fun q ch => exists d, is_hex_digit ch d /\ (IZR d - / 1000000000 <= 15 * Q2R q < IZR d + 1 + / 1000000000)%R) C chars.
Proof. exact hex_float. Qed.
Theorem C124_beyond : forall points exact x X, Forall2 stop_holds points exact -> holds x X -> exact <> [] -> 1 < X ->
  (forall q, In q exact -> fst q < X) -> exists g, gradient_new points = Ok g /\ gradient_get g x = Err IndexError.
Proof. exact beyond_float. Qed.
(** Every finite double has a rational value. *)
Theorem C124_values : forall v, valid_binary 53 1024 v = true -> is_finite_SF v = true -> exists q, holds v q.
Proof. exact holds_exists. Qed.

(** Two stops given in the wrong order, read between them. *)
Definition ex_exact : list (Q * list Q) := [(3 # 4, [1; 0]); (1 # 4, [1 # 2; 1])].
Definition ex_points : list (f64 * list f64) := [(f_of 3 (-2), [fofZ 1; fofZ 0]); (f_of 1 (-2), [f_of 1 (-1); fofZ 1])].
Lemma ex_holds m e q : valid_binary 53 1024 (f_of m e) = true -> is_finite_SF (f_of m e) = true -> SF2R radix2 (f_of m e) = Q2R q -> holds (f_of m e) q.
Proof. intros V F E. unfold holds. rewrite <- E. apply isf_valid; assumption. Qed.
Ltac val := first [apply (holds_int 1); lia | apply (holds_int 0); lia | apply ex_holds; [reflexivity|reflexivity|]; vm_compute f_of; unfold SF2R; rewrite F2R_div by lia; unfold Q2R; cbn; lra].
Example C124_case : Forall2 stop_holds ex_points ex_exact /\ holds (f_of 5 (-3)) (5 # 8) /\ moderate ex_exact /\ ex_exact <> [] /\ 0 <= 5 # 8 <= 1 /\
  (forall q, In q ex_exact -> Forall (fun v => 0 <= v <= 1) (snd q)) /\
  (exists g, gradient_new ex_points = Ok g /\ length g = 4%nat /\ gradient_hex g (f_of 5 (-3)) = Ok [35; 100; 51]%Z).
Proof.
  repeat split; try discriminate.
  - repeat constructor; cbn [fst snd]; val.
  - val.
  - destruct H as [<-|[<-|[]]]; discriminate.
  - destruct H as [<-|[<-|[]]]; discriminate.
  - destruct H as [<-|[<-|[]]]; repeat constructor; discriminate.
  - intros q [<-|[<-|[]]]; repeat constructor; discriminate.
  - eexists. split; [vm_compute; reflexivity|]. split; reflexivity.
Qed.
Example C124_beyond_case : holds (fofZ 2) 2 /\ forall q, In q ex_exact -> fst q < 2.
Proof. split; [apply (holds_int 2); lia|]. intros q [<-|[<-|[]]]; reflexivity. Qed.

Print Assumptions C124_get.
Print Assumptions C124_hex.
Print Assumptions C124_beyond.
Print Assumptions C124_values.
