(** Properties C32-C33: variable-length integers and NUL-terminated names
    (coral/pf.py, coral/rg.py). *)
From Verif Require Import Py VlvModel VlvProofs.
Open Scope Z_scope.

(** ** C32 *)
Theorem C32_base128_terminates v : exists l, base128_loop (base128_fuel v) v [] = Some l.
Proof. exact (base128_terminates v). Qed.
Theorem C32_vlv_round_trip v : 0 <= v -> exists bs, writevlv v = Ok bs /\ Forall is_byte bs /\
  forall rest, readvlv (bs ++ rest) = Ok (v, rest).
Proof. exact (api_round v). Qed.
Theorem C32_vlv_negative v : v < 0 -> writevlv v = Err ValueError.
Proof. exact (writevlv_neg v). Qed.
Theorem C32_svlv_round_trip v : exists bs, writesvlv v = Ok bs /\ Forall is_byte bs /\
  forall rest, readsvlv (bs ++ rest) = Ok (v, rest).
Proof. exact (api_sround v). Qed.
Theorem C32_vlv_prefix_free v w bs cs rest rest' :
  writevlv v = Ok bs -> writevlv w = Ok cs -> bs ++ rest = cs ++ rest' ->
  v = w /\ rest = rest'.
Proof. exact (api_prefix v w bs cs rest rest'). Qed.
Theorem C32_vlv_minimal v bs s :
  writevlv v = Ok bs -> Forall is_byte s -> readvlv s = Ok (v, []) ->
  (length bs <= length s)%nat.
Proof. exact (api_minimal v bs s). Qed.
Theorem C32_vlv_no_padding v bs : writevlv v = Ok bs -> exists b r, bs = b :: r /\ b <> 128.
Proof. exact (api_canonical v bs). Qed.
Theorem C32_vlv_truncated v p q :
  writevlv v = Ok (p ++ q) -> q <> [] -> readvlv p = Err TypeError.
Proof. exact (api_truncated v p q). Qed.
Theorem C32_svlv_truncated v p q :
  writesvlv v = Ok (p ++ q) -> q <> [] -> readsvlv p = Err TypeError.
Proof. exact (api_struncated v p q). Qed.
Example C32_case : writevlv 300 = Ok [130; 44] /\ writevlv 0 = Ok [0] /\
  writesvlv (-16384) = Ok [255; 129; 128; 0] /\ readvlv [130; 44; 7] = Ok (300, [7]) /\
  readsvlv [255; 129; 128; 0; 9] = Ok (-16384, [9]).
Proof. vm_compute. auto. Qed.
(** Decoding is not injective: padded encodings and other sign bytes are
    accepted too. *)
Theorem C32_read_padded_refuted : exists s t, s <> t /\
  readvlv s = Ok (5, []) /\ readvlv t = Ok (5, []).
Proof. exists [5], [128; 5]. vm_compute. repeat split; discriminate. Qed.

(** ** C33 *)
Theorem C33_ascii_round_trip name fuel :
  ascii_name name -> (length name < fuel)%nat ->
  exists bs, writeascii name = Ok bs /\
    forall rest, readascii fuel (bs ++ rest) = Some (Ok (name, rest)).
Proof.
  exact (fun H Hf => ex_intro _ (name ++ [0])
    (conj (writeascii_ok name (Forall_impl _ (fun c => @proj2 _ _) H))
          (fun rest => readascii_ok name fuel rest H Hf))).
Qed.
Theorem C33_non_ascii name : (exists c, In c name /\ 128 <= c) -> writeascii name = Err UnicodeError.
Proof. exact (writeascii_err name). Qed.
(** No terminator: the reader never returns, however long it runs. *)
Theorem C33_no_terminator_hangs s : ~ In 0 s -> forall fuel, readascii fuel s = None.
Proof. exact (fun H fuel => readascii_nonterm s fuel H). Qed.
(** A name containing NUL is cut there and its rest stays in the stream. *)
Theorem C33_embedded_nul a b fuel rest :
  ascii_name a -> (length a < fuel)%nat ->
  readascii fuel (((a ++ 0 :: b) ++ [0]) ++ rest) = Some (Ok (a, b ++ 0 :: rest)).
Proof. exact (readascii_nul a b fuel rest). Qed.
Example C33_case : ascii_name [66; 82] /\ writeascii [66; 82] = Ok [66; 82; 0] /\
  readascii 3 [66; 82; 0; 200] = Some (Ok ([66; 82], [200])) /\
  writeascii [233] = Err UnicodeError.
Proof. repeat split; repeat constructor. Qed.

Print Assumptions C32_base128_terminates.
Print Assumptions C32_vlv_round_trip.
Print Assumptions C32_vlv_negative.
Print Assumptions C32_svlv_round_trip.
Print Assumptions C32_vlv_prefix_free.
Print Assumptions C32_vlv_minimal.
Print Assumptions C32_vlv_no_padding.
Print Assumptions C32_vlv_truncated.
Print Assumptions C32_svlv_truncated.
Print Assumptions C32_read_padded_refuted.
Print Assumptions C33_ascii_round_trip.
Print Assumptions C33_non_ascii.
Print Assumptions C33_no_terminator_hangs.
Print Assumptions C33_embedded_nul.
