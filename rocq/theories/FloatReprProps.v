(** C140: floats survive the attribute table. *)
From Coq Require Import ZArith Reals SpecFloat Lia.
From Flocq Require Import Core IEEE754.BinarySingleNaN.
From Verif Require Import Py Num Text FloatLib ShpFile ShpWriterModel ShpReaderModel ShpSpec ShpPrograms ShpTableSpec ShpTablePrograms ShpTable ShpTableProps
  FloatTextModel FloatTextSpec FloatReprModel FloatReprText FloatReprTable.
Open Scope Z_scope.

(** The text of a double reads as the double; so do no two have the same text. *)
Theorem C140_back : forall d, valid_binary 53 1024 d = true -> float64 (repr64 d) = Ok d.
Proof. exact repr_back. Qed.
Theorem C140_apart : forall d d', valid_binary 53 1024 d = true -> valid_binary 53 1024 d' = true -> repr64 d = repr64 d' -> d = d'.
Proof. exact repr_inj. Qed.
Theorem C140_valid : forall s d, float64 s = Ok d -> valid_binary 53 1024 d = true.
Proof. exact float_valid. Qed.
(** No text with fewer digits reads as the double, and none with as many is
    nearer to it. *)
Theorem C140_shortest : forall s m e r, let d := S754_finite s m e in valid_binary 53 1024 d = true -> isf d r ->
  exists j n k, 1 <= j <= 17 /\ 0 < n < 10 ^ j /\ stands_for (repr64 d) (dec_value s n k) /\
  forall t neg n0 k0, decimal t neg n0 k0 -> float64 t = Ok d -> 10 ^ (j - 1) <= n0 /\
    (n0 < 10 ^ j -> (Rabs (dec_value s n k - r) <= Rabs (dec_value neg n0 k0 - r))%R).
Proof. exact repr_shortest. Qed.
Theorem C140_length : forall d, valid_binary 53 1024 d = true -> (length (repr64 d) <= 24)%nat.
Proof. exact repr_length. Qed.
(** str(float(t)): the same float, and the same text when done again *)
Theorem C140_same : forall t, float_text t -> float_text (float_str t) /\ float64 (float_str t) = float64 t.
Proof. intros t F. split; [exact (str_text t F)|exact (str_same t F)]. Qed.
Theorem C140_again : forall t, float_text t -> float_str (float_str t) = float_str t.
Proof. exact str_again. Qed.
(** A column with decimals stores every float whose text fits, so with 24
    characters every float; *)
Theorem C140_fits : forall f n t, fd_type f = text "N" /\ fd_dec f <> 0 -> float_text t -> Z.of_nat (length (float_str t)) <= n \/ 24 <= n ->
  storable float_str f n (CFloat t).
Proof. intros f n t D F L. apply cell_storable; [exact D|exact F|]. pose proof (str_length t F). lia. Qed.
(** and it comes back as it was. *)
Theorem C140_table : forall today given steps fs ns rows w, plausible today -> table_program given steps fs ns rows w -> Forall (row_storable float_str fs ns) rows ->
  exists table w1 r0, saveDbf float_str today new_file w = (w1, Ok tt) /\ Reader None None (Some (fdata (w_dbf w1))) = (r0, Ok tt) /\
    (rows <> [] -> forall r, used_by of_table (length rows) (length rows) r0 r -> exists r', records r = (r', Ok table)) /\
    forall i j row f t, nth_error rows i = Some row -> nth_error fs j = Some f -> fd_type f = text "N" /\ fd_dec f <> 0 ->
      nth_error row j = Some (CFloat t) -> float_text t ->
      exists cs s, nth_error table i = Some cs /\ nth_error cs j = Some (CFloat s) /\ float64 s = float64 t.
Proof. exact table_floats. Qed.
Definition area : field := mkField (text "AREA") (text "N") (FInt 24) 3.
Definition areas : list step := [Column area; Row (RecList [CFloat (text "1186.9e-1")]); Row (RecList [CFloat (text "-1_00000000000000000000")])].
Example C140_case_table : table_program None areas [area] [24] [[CFloat (text "1186.9e-1")]; [CFloat (text "-1_00000000000000000000")]] (written_by None areas) /\
  Forall (row_storable float_str [area] [24]) [[CFloat (text "1186.9e-1")]; [CFloat (text "-1_00000000000000000000")]].
Proof.
  split; [table_tac|]. repeat (first [apply Forall_nil|apply Forall_cons]); (split; [reflexivity|]); (apply Forall_cons; [|apply Forall_nil]);
    (apply C140_fits; [split; [reflexivity|discriminate]|apply ShpFloatText.float_ok_iff; vm_compute; reflexivity|right; cbn; lia]).
Qed.
Theorem C140_case : float_str (text "1186.9e-1") = text "118.69" /\ float_str (text "-1_00000000000000000000") = text "-1e+20" /\
  float_str (text "0.1000000000000000055511151231257827") = text "0.1" /\ float_str (text "3e-324") = text "5e-324" /\ float_str (text "100") = text "100.0" /\
  float_str (text "2.5e-4") = text "0.00025" /\ float_str (text "0.3e16") = text "3000000000000000.0" /\ float_str (text "NaN") = text "nan".
Proof. vm_compute. repeat split. Qed.

Print Assumptions C140_back.
Print Assumptions C140_apart.
Print Assumptions C140_valid.
Print Assumptions C140_shortest.
Print Assumptions C140_length.
Print Assumptions C140_same.
Print Assumptions C140_again.
Print Assumptions C140_fits.
Print Assumptions C140_table.
Print Assumptions C140_case.
