(** Property C125: real fields of grid files in double arithmetic. *)
From Coq Require Import ZArith Reals Lia Lra List SpecFloat.
From Flocq Require Import Core IEEE754.BinarySingleNaN.
From Verif Require Import Num FloatLib RasterAA VlvModel GridModel GridFloatSpec GridFloat.
Open Scope R_scope.

(** What is stored and read back is within half a step, plus 2^-45 of the
    larger bound. *)
Theorem C125_close : forall mn mx MN MX M size nl x X data, real_field mn mx MN MX M -> field_width size -> isf x X ->
  fvarF_encode mn mx size nl x = Ok data ->
  length data = size /\ exists y Y, fvarF_decode mn mx size nl data = Ok y /\ isf y Y /\
    Rabs (Y - X) <= (MX - MN) / IZR (field_steps size nl) / 2 + M / IZR (2 ^ 45).
Proof. intros mn mx MN MX M size nl x X data (A & B & C & D & E & F) W I H. exact (closeF mn mx MN MX M size nl A B D E F C W x X data I H). Qed.
(** Which values can be stored. *)
Theorem C125_encodable : forall mn mx MN MX M size nl x X, real_field mn mx MN MX M -> field_width size -> isf x X ->
  (~ MN <= X <= MX -> fvarF_encode mn mx size nl x = Err AssertionError) /\
  (MN <= X <= MX -> (exists data, fvarF_encode mn mx size nl x = Ok data) \/
     (fvarF_encode mn mx size nl x = Err StructError /\ nl = false /\
      MX - X <= (MX - MN) / IZR (field_steps size nl) / 2 + (MX - MN) / IZR (2 ^ 48))).
Proof.
  intros mn mx MN MX M size nl x X (A & B & C & D & E & F) W I. split; [exact (encF_out mn mx MN MX size nl A B x X I)|].
  exact (encodableF mn mx MN MX M size nl A B D E F C W x X I).
Qed.
Theorem C125_maximum_refused : forall mn mx MN MX M size x, real_field mn mx MN MX M -> field_width size -> isf x MX ->
  fvarF_encode mn mx size false x = Err StructError.
Proof. intros mn mx MN MX M size x (A & B & C & D & E & F) W I. exact (maximumF mn mx MN MX M size x A B D E F C W I). Qed.
(** Stored codes do not drift, unless the step is less than 2^-40 of the larger
    bound or the code is the number of steps. *)
Theorem C125_stable : forall mn mx MN MX M size nl data, real_field mn mx MN MX M -> field_width size ->
  Forall is_byte data -> length data = size -> (be_value data < field_steps size nl)%Z ->
  M / IZR (2 ^ 40) <= (MX - MN) / IZR (field_steps size nl) ->
  exists y Y, fvarF_decode mn mx size nl data = Ok y /\ isf y Y /\ MN <= Y <= MX /\ fvarF_encode mn mx size nl y = Ok data.
Proof.
  intros mn mx MN MX M size nl data (A & B & C & D & E & F) W Fb L Lt St.
  apply (stableF mn mx MN MX M size nl A B D E F C W data Fb L Lt).
  pose proof (spanR size nl W) as HS. change (spanZ size nl) with (field_steps size nl) in *. set (S := IZR (field_steps size nl)) in *.
  apply (Rmult_le_compat_r S) in St; [|lra]. replace ((MX - MN) / S * S) with (MX - MN) in St by (field; lra).
  change (IZR (2 ^ 40)) with 1099511627776 in St. lra.
Qed.
(** Whatever is stored can be read, within 2^-46 of the larger bound; the last
    code of a nullable field can come out above its maximum, and then cannot be
    stored again. *)
Theorem C125_readable : forall mn mx MN MX M size nl data, real_field mn mx MN MX M -> field_width size ->
  Forall is_byte data -> length data = size -> exists y Y, fvarF_decode mn mx size nl data = Ok y /\ isf y Y /\ MN <= Y /\
    Rabs (Y - (MN + IZR (be_value data) * ((MX - MN) / IZR (field_steps size nl)))) <= M / IZR (2 ^ 46).
Proof.
  intros mn mx MN MX M size nl data (A & B & C & D & E & F) W Fb L.
  destruct (decF mn mx MN MX M size nl A B D E F C W data Fb L) as (y & Y & H & IY & EY & LY & _). exists y, Y. split; [exact H|]. split; [exact IY|]. split; [exact LY|].
  change (field_steps size nl) with (spanZ size nl). replace (IZR (be_value data) * ((MX - MN) / IZR (spanZ size nl))) with (IZR (be_value data) / IZR (spanZ size nl) * (MX - MN)) by (unfold Rdiv; ring). exact EY.
Qed.
Theorem C125_top_refuted : exists mn mx y, SFltb mn mx = true /\ fvarF_decode mn mx 1 true [255%Z] = Ok y /\ SFltb mx y = true /\
  fvarF_encode mn mx 1 true y = Err AssertionError.
Proof.
  exists (fdiv (fofZ 3) (fofZ 10)), (fdiv (fofZ 9) (fofZ 10)), (f_of 4053239664633447 (-52)). repeat split; vm_compute; reflexivity.
Qed.

(** Degrees in two bytes. *)
Example C125_case : real_field (fofZ (-180)) (fofZ 180) (-180) 180 180 /\ field_width 2 /\ 180 / IZR (2 ^ 40) <= (180 - -180) / IZR (field_steps 2 false) /\
  isf (f_of 45 (-1)) (45 / 2) /\ fvarF_encode (fofZ (-180)) (fofZ 180) 2 false (f_of 45 (-1)) = Ok [144; 0]%Z.
Proof.
  split; [|split; [right; left; reflexivity|split; [change (field_steps 2 false) with 65536%Z; change (2 ^ 40)%Z with 1099511627776%Z; lra|split; [|vm_compute; reflexivity]]]].
  - assert (1 <= bpow radix2 100) by (apply (bpow_le radix2 0 100); lia). assert (bpow radix2 10 <= bpow radix2 100) by (apply bpow_le; lia). change (bpow radix2 10) with 1024 in *.
    assert (bpow radix2 (-100) <= 1) by (apply (bpow_le radix2 (-100) 0); lia).
    repeat split; [apply (isf_int (-180)); lia|apply (isf_int 180); lia|lra|rewrite Rabs_left; lra|rewrite Rabs_pos_eq; lra|lra].
  - pose proof (isf_valid (f_of 45 (-1)) eq_refl eq_refl) as I. replace (45 / 2) with (SF2R radix2 (f_of 45 (-1))); [exact I|].
    vm_compute f_of. unfold SF2R. rewrite F2R_div by lia. cbn. lra.
Qed.

Print Assumptions C125_close.
Print Assumptions C125_encodable.
Print Assumptions C125_maximum_refused.
Print Assumptions C125_stable.
Print Assumptions C125_readable.
Print Assumptions C125_top_refuted.
