(** C143: frame files as text. *)
From Coq Require Import ZArith SpecFloat.
From Verif Require Import Py Num Text BBoxModel FloatTextModel FloatReprModel NumTextModel NumTextSpec JsonModel JsonSpec Json.
Open Scope Z_scope.

(** Every setting of a saved frame is read back from the file under its key, *)
Theorem C143_frame : forall f, good_settings f -> has_settings (load_text (frame_file f)) f.
Proof. exact frame_back. Qed.
(** and no document holds two frames, *)
Theorem C143_one_frame : forall d f g, has_settings d f -> has_settings d g -> f = g.
Proof. exact fields_one. Qed.
(** so that different frames have different files. *)
Theorem C143_apart : forall f g, good_settings f -> good_settings g -> frame_file f = frame_file g -> f = g.
Proof. exact frame_apart. Qed.
(** The same holds of documents of any depth. *)
Theorem C143_document : forall d, writable d -> load_text (dump 0 d ++ [10]) = Some d.
Proof. exact load_dump. Qed.
Theorem C143_document_apart : forall d d', writable d -> writable d' -> dump 0 d = dump 0 d' -> d = d'.
Proof. exact dump_apart. Qed.

Definition a_frame : settings := mkset (text "AzimuthalEqualArea") (Float (S754_finite true 6403555720167424 (-47)), Int 0) (Sphere (Int 6371000))
  (mkbb (Float (S754_finite false 7205759403792794 (-56))) (Float (S754_infinity true)) (Int 100) (Float (S754_finite false 5000000000000000 1))).
Example C143_frame_case : good_settings a_frame /\ frame_file a_frame = text "{
    ""projection"": {
        ""type"": ""AzimuthalEqualArea"",
        ""center"": [
            -45.5,
            0
        ],
        ""orientation"": 0.0,
        ""model"": {
            ""type"": ""sphere"",
            ""r"": 6371000
        }
    },
    ""bounding"": {
        ""x0"": 0.1,
        ""y0"": -Infinity,
        ""x1"": 100,
        ""y1"": 1e+16
    }
}
".
Proof. split; [|vm_compute; reflexivity]. repeat split; try (vm_compute; reflexivity). apply simple_text. reflexivity. Qed.
Example C143_document_case : let d := DArr [DArr []; DObj [(text "k", DArr [DNum (Int (-3)); DNum (Float S754_nan)])]; DObj []] in
  writable d /\ dump 0 d = text "[
    [],
    {
        ""k"": [
            -3,
            NaN
        ]
    },
    {}
]".
Proof.
  split; [|vm_compute; reflexivity]. apply w_arr. repeat constructor. cbn [map snd]. repeat constructor. all: try exact I; try (cbn; lia); try discriminate.
Qed.

Print Assumptions C143_frame.
Print Assumptions C143_one_frame.
Print Assumptions C143_apart.
Print Assumptions C143_document.
Print Assumptions C143_document_apart.
