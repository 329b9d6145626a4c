(** C144: frames saved again. *)
From Coq Require Import ZArith Reals SpecFloat Lra Lia.
From Flocq Require Import Core IEEE754.BinarySingleNaN.
From Verif Require Import Py Num Text BBoxModel NumTextModel NumTextSpec JsonModel JsonSpec Json FrameFloatModel FrameFloatSpec FrameAgain.
Open Scope Z_scope.

(** The frame loaded from a file differs from the saved one at most in its
    centre; saved again it gives the very same file, *)
Theorem C144_again : forall cls lon lat r b, simple cls -> angle lon -> angle lat -> a_number r -> corners a_number b ->
  exists g, load64 (save64 (new64 cls lon lat r b)) = Some g /\ save64 g = save64 (new64 cls lon lat r b) /\ f_type g = cls /\ f_r g = r /\ f_box g = b.
Proof. exact saved_again. Qed.
(** since degrees turned into radians and back are a fixed point. *)
Theorem C144_stable : forall x, angle x -> degrees64 (radians64 (degrees64 (radians64 x))) = degrees64 (radians64 x).
Proof. exact stable. Qed.
(** The centre in the file is the given one but for one part in 2^52; *)
Theorem C144_close : forall x, angle x -> (Rabs (SF2R radix2 (degrees64 (radians64 x)) - SF2R radix2 x) <= bpow radix2 (-52) * Rabs (SF2R radix2 x))%R.
Proof. exact close. Qed.
(** it is not always the given one: 60 degrees west become 59.99999999999999. *)
Theorem C144_centre_refuted : exists x, angle x /\ degrees64 (radians64 x) <> x.
Proof. exact moved. Qed.

Definition west : f64 := S754_finite true 8444249301319680 (-47).
Definition a_box : bbox number := mkbb (Int (-10)) (Int (-20)) (Int 30) (Int 40).
Example C144_case : simple (text "Mercator") /\ angle west /\ angle (S754_zero false) /\
  save64 (new64 (text "Mercator") west (S754_zero false) (Int 6371000) a_box) = text "{
    ""projection"": {
        ""type"": ""Mercator"",
        ""center"": [
            -59.99999999999999,
            0.0
        ],
        ""orientation"": 0.0,
        ""model"": {
            ""type"": ""sphere"",
            ""r"": 6371000
        }
    },
    ""bounding"": {
        ""x0"": -10,
        ""y0"": -20,
        ""x1"": 30,
        ""y1"": 40
    }
}
".
Proof.
  split; [apply simple_text; reflexivity|]. split; [exact angle_west|]. split; [split; [reflexivity|left; exists false; reflexivity]|vm_compute; reflexivity].
Qed.

Print Assumptions C144_again.
Print Assumptions C144_stable.
Print Assumptions C144_close.
Print Assumptions C144_centre_refuted.
