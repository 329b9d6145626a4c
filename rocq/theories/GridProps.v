(** Properties C26-C31: fields and rows of grids (coral/grid.py). *)
From Coq Require Import SpecFloat.
From Verif Require Import Num VlvModel GridModel GridSpec GridProofs.
Open Scope Z_scope.

(** ** C26 *)
Theorem C26_width name mn mx nl :
  (mx <= mn -> ivar_new name mn mx nl = Err AssertionError) /\
  (mn < mx -> (forall s, In s widths -> 256 ^ s < codes_needed mn mx nl) ->
   ivar_new name mn mx nl = Err ValueError) /\
  (mn < mx -> (exists s, In s widths /\ codes_needed mn mx nl <= 256 ^ s) ->
   exists f, ivar_new name mn mx nl = Ok f /\
     i_name f = name /\ i_min f = mn /\ i_max f = mx /\ i_nullable f = nl /\
     In (i_size f) widths /\ codes_needed mn mx nl <= 256 ^ i_size f /\
     (forall s, In s widths -> codes_needed mn mx nl <= 256 ^ s -> i_size f <= s)).
Proof. exact (api_ivar_new name mn mx nl). Qed.
Theorem C26_round_trip name mn mx nl f x : ivar_new name mn mx nl = Ok f -> mn <= x <= mx ->
  exists i, ivar_index f (Some x) = Ok i /\ 0 <= i < 256 ^ i_size f /\
    ivar_value f i = Ok (Some x).
Proof. exact (api_ivar_round name mn mx nl f x). Qed.
(** The code of null is one past what the chosen width can store. *)
Theorem C26_null_round_trip name mn mx f : ivar_new name mn mx true = Ok f ->
  exists i, ivar_index f None = Ok i /\ ivar_value f i = Ok None /\ i = 256 ^ i_size f.
Proof. exact (api_ivar_null name mn mx f). Qed.
Theorem C26_out_of_range name mn mx nl f : ivar_new name mn mx nl = Ok f ->
  (forall x, ~ (mn <= x <= mx) -> ivar_index f (Some x) = Err AssertionError) /\
  (nl = false -> ivar_index f None = Err AssertionError).
Proof. exact (api_ivar_reject name mn mx nl f). Qed.
Example C26_case :
  ivar_new [] (-100) 155 false = Ok (mkivar [] (-100) 155 1 256 false None) /\
  ivar_new [] (-100) 155 true = Ok (mkivar [] (-100) 155 2 65535 true None) /\
  ivar_new [] 0 (2 ^ 64) false = Err ValueError /\
  ivar_index (mkivar [] (-100) 155 2 65535 true None) (Some (-7)) = Ok 93 /\
  ivar_value (mkivar [] (-100) 155 2 65535 true None) 93 = Ok (Some (-7)).
Proof. vm_compute. auto. Qed.

(** ** C27 *)
Theorem C27_ivar_encode name mn mx nl f v : ivar_new name mn mx nl = Ok f ->
  ivar_encode f v = Err AttributeError.
Proof. exact (ivar_no_encode name mn mx nl f v). Qed.
Theorem C27_ivar_decode name mn mx nl f data : ivar_new name mn mx nl = Ok f ->
  ivar_decode f data = Err AttributeError.
Proof. exact (ivar_no_decode name mn mx nl f data). Qed.
Theorem C27_row_with_ivar name mn mx nl fs f gs vs : ivar_new name mn mx nl = Ok f -> (length fs < length vs)%nat ->
  (exists e, row_encode (fs ++ FI f :: gs) vs = Err e) /\
  ((forall g v, In (g, v) (combine fs vs) -> exists d, field_encode g v = Ok d) ->
   row_encode (fs ++ FI f :: gs) vs = Err AttributeError).
Proof. exact (row_ivar name mn mx nl fs f gs vs). Qed.
Example C27_case :
  row_encode [FS (mksvar [] 2 false); FI (mkivar [] 0 9 1 256 false None)] [VStr [65]; VInt 5]
  = Err AttributeError.
Proof. vm_compute. reflexivity. Qed.

(** ** C28 *)
Theorem C28_new name mn mx size nl :
  ((mn < mx)%Q -> In size widths -> exists f, fvar_new name mn mx size nl = Ok f) /\
  (~ ((mn < mx)%Q /\ In size widths) -> fvar_new name mn mx size nl = Err AssertionError).
Proof. exact (api_fvar_new name mn mx size nl). Qed.
Theorem C28_error_bound name mn mx size nl f x data :
  fvar_new name mn mx size nl = Ok f -> fvar_encode f (Some x) = Ok data ->
  exists y, fvar_decode f data = Ok (Some y) /\ (Qabs (y - x) <= half_step mn mx size nl)%Q.
Proof. exact (api_fvar_close name mn mx size nl f x data). Qed.
Theorem C28_encodable name mn mx size nl f x :
  fvar_new name mn mx size nl = Ok f ->
  (~ (mn <= x <= mx)%Q -> fvar_encode f (Some x) = Err AssertionError) /\
  ((mn <= x <= mx)%Q -> nl = true \/ (x < mx - half_step mn mx size nl)%Q ->
   exists data, fvar_encode f (Some x) = Ok data) /\
  ((mn <= x <= mx)%Q -> nl = false -> (mx - half_step mn mx size nl <= x)%Q ->
   fvar_encode f (Some x) = Err StructError).
Proof. exact (api_fvar_cases name mn mx size nl f x). Qed.
Theorem C28_maximum_refused name mn mx size f :
  fvar_new name mn mx size false = Ok f -> fvar_encode f (Some mx) = Err StructError.
Proof. exact (fun H => encode_max name mn mx size false f H eq_refl). Qed.
Theorem C28_null_refused name mn mx size nl f :
  fvar_new name mn mx size nl = Ok f ->
  fvar_encode f None = Err (if nl then StructError else AssertionError).
Proof.
  exact (match nl return fvar_new name mn mx size nl = Ok f ->
           fvar_encode f None = Err (if nl then StructError else AssertionError) with
         | true => fun H => encode_null name mn mx size true f H eq_refl
         | false => fun H => encode_null_err name mn mx size false f H eq_refl
         end).
Qed.
Definition C28_field : fvar := mkfvar [] 0 359 1 (359 - 0) 256 false.
Example C28_case :
  fvar_new [] 0 359 1 false = Ok C28_field /\
  fvar_encode C28_field (Some 300%Q) = Ok [214] /\
  fvar_decode C28_field [214] = Ok (Some (0 + 214 * (359 - 0) / 256)%Q) /\
  fvar_encode C28_field (Some (3589 # 10)%Q) = Err StructError /\
  fvar_encode C28_field (Some 358%Q) = Ok [255] /\
  fvar_encode C28_field (Some 360%Q) = Err AssertionError.
Proof. vm_compute. repeat split; reflexivity. Qed.

(** ** C29 *)
Theorem C29_codes_stable name mn mx size nl f data :
  fvar_new name mn mx size nl = Ok f ->
  Forall is_byte data -> length data = Z.to_nat size ->
  exists y, fvar_decode f data = Ok (Some y) /\ (mn <= y <= mx)%Q /\
    fvar_encode f (Some y) = Ok data.
Proof. exact (fun H => recode name mn mx size nl f H data). Qed.
Theorem C29_wrong_length name mn mx size nl f data :
  fvar_new name mn mx size nl = Ok f -> length data <> Z.to_nat size ->
  fvar_decode f data = Err StructError.
Proof. exact (fun H => decode_bad_length name mn mx size nl f H data). Qed.
Theorem C29_never_null name mn mx size nl f data o :
  fvar_new name mn mx size nl = Ok f -> Forall is_byte data ->
  fvar_decode f data = Ok o -> o <> None.
Proof. exact (api_fvar_decode_total name mn mx size nl f data o). Qed.
Example C29_case :
  (y <- fvar_decode C28_field [77] ;; fvar_encode C28_field y) = Ok [77].
Proof. vm_compute. reflexivity. Qed.
(** In double arithmetic an eight-byte field does drift. *)
Theorem C29_double_drift_refuted : exists mn mx data y data',
  SFltb mn mx = true /\ length data = 8%nat /\
  fvarF_decode mn mx 8 false data = Ok y /\
  fvarF_encode mn mx 8 false y = Ok data' /\ data' <> data.
Proof.
  exists (fofZ 0), (fofZ 1), [0; 32; 0; 0; 0; 0; 0; 1],
    (f_of (2 ^ 53) (-64)), [0; 32; 0; 0; 0; 0; 0; 0].
  repeat split; try (vm_compute; reflexivity). vm_compute. discriminate.
Qed.

(** ** C30 *)
Theorem C30_round_trip f s : Forall scalar s -> (utf8_size s <= s_size f)%nat ->
  (0 < s_size f)%nat -> ~ ends_in_nul s ->
  exists data, svar_encode f (Some s) = Ok data /\ length data = s_size f /\
    svar_decode f data = Ok (Some s).
Proof. exact (api_svar_round f s). Qed.
Theorem C30_trailing_nuls_lost f s n : Forall scalar s -> (utf8_size s + n <= s_size f)%nat ->
  (0 < s_size f)%nat -> ~ ends_in_nul s ->
  exists data, svar_encode f (Some (s ++ repeat 0 n)) = Ok data /\
    svar_decode f data = Ok (Some s).
Proof. exact (api_svar_nul f s n). Qed.
Theorem C30_null f : s_nullable f = true ->
  exists data, svar_encode f None = Ok data /\ svar_decode f data = Ok None.
Proof. exact (svar_null f). Qed.
Theorem C30_null_refused f : s_nullable f = false -> svar_encode f None = Err AssertionError.
Proof. exact (svar_null_err f). Qed.
Theorem C30_string_never_null f s data : (0 < s_size f)%nat ->
  svar_encode f (Some s) = Ok data -> exists t, svar_decode f data = Ok (Some t).
Proof. exact (api_svar_not_null f s data). Qed.
Theorem C30_size_zero f : s_size f = 0%nat -> svar_encode f (Some []) = Ok [] /\
  svar_decode f [] = if s_nullable f then Ok None else Err AssertionError.
Proof. exact (svar_zero f). Qed.
Theorem C30_oversize f s : Forall scalar s -> (s_size f < utf8_size s)%nat ->
  svar_encode f (Some s) = Err AssertionError.
Proof. exact (api_svar_big f s). Qed.
Theorem C30_surrogate f s : (exists c, In c s /\ ~ scalar c) ->
  svar_encode f (Some s) = Err UnicodeError.
Proof. exact (api_svar_surrogate f s). Qed.
(** Any cell that can be read is re-saved unchanged. *)
Theorem C30_resave f data o : Forall is_byte data -> length data = s_size f ->
  svar_decode f data = Ok o -> svar_encode f o = Ok data.
Proof. exact (svar_recode f data o). Qed.
(** "São Gonçalo" in 16 bytes. *)
Example C30_case :
  let s := [83; 227; 111; 32; 71; 111; 110; 231; 97; 108; 111] in
  let f := mksvar [] 16 true in
  utf8_size s = 13%nat /\
  svar_encode f (Some s) =
    Ok [83; 195; 163; 111; 32; 71; 111; 110; 195; 167; 97; 108; 111; 0; 0; 0] /\
  svar_decode f [83; 195; 163; 111; 32; 71; 111; 110; 195; 167; 97; 108; 111; 0; 0; 0] = Ok (Some s) /\
  svar_encode (mksvar [] 12 true) (Some s) = Err AssertionError.
Proof. vm_compute. auto. Qed.

(** ** C31 *)
Theorem C31_round_trip fs vs data : Forall built fs -> (length fs <= length vs)%nat -> row_encode fs vs = Ok data ->
  Z.of_nat (length data) = row_size fs /\
  row_decode fs data =
  mapM (fun fv => d <- field_encode (fst fv) (snd fv) ;; field_decode (fst fv) d) (combine fs vs).
Proof. exact (row_round fs vs data). Qed.
(** With enough values a row fails only if one of its columns does. *)
Theorem C31_encode_columns fs vs : Forall built fs -> (length fs <= length vs)%nat ->
  row_encode fs vs =
  rmap (@concat Z) (mapM (fun fv => field_encode (fst fv) (snd fv)) (combine fs vs)).
Proof. exact (row_encode_enough fs vs). Qed.
Theorem C31_column_size f v data : built f -> field_encode f v = Ok data ->
  Z.of_nat (length data) = field_size f.
Proof. exact (field_encode_length f v data). Qed.
Theorem C31_too_few fs gs vs : Forall built fs -> length vs = length fs -> 0 < row_size gs ->
  row_encode (fs ++ gs) vs =
  match mapM (fun fv => field_encode (fst fv) (snd fv)) (combine fs vs) with
  | Ok _ => Err AssertionError
  | Err e => Err e
  end.
Proof. exact (row_few fs gs vs). Qed.
Theorem C31_extra_ignored fs vs ws : length vs = length fs ->
  row_encode fs (vs ++ ws) = row_encode fs vs.
Proof. exact (row_extra fs vs ws). Qed.
Example C31_built : Forall built [FS (mksvar [] 3 false); FF C28_field; FI (mkivar [] 0 9 1 256 false None)].
Proof.
  repeat constructor.
  - exists [], 0%Q, 359%Q, 1, false. vm_compute. reflexivity.
  - exists [], 0, 9, false. vm_compute. reflexivity.
Qed.
Example C31_case :
  let fs := [FS (mksvar [] 3 false); FF C28_field; FS (mksvar [] 2 true)] in
  row_encode fs [VStr [233]; VReal 300; VNone] = Ok [195; 169; 0; 214; 255; 255] /\
  row_decode fs [195; 169; 0; 214; 255; 255] =
    Ok [VStr [233]; VReal (0 + 214 * (359 - 0) / 256); VNone] /\
  row_encode fs [VStr [233]; VReal 300] = Err AssertionError.
Proof. vm_compute. auto. Qed.

Print Assumptions C26_width.
Print Assumptions C26_round_trip.
Print Assumptions C26_null_round_trip.
Print Assumptions C26_out_of_range.
Print Assumptions C27_ivar_encode.
Print Assumptions C27_ivar_decode.
Print Assumptions C27_row_with_ivar.
Print Assumptions C28_new.
Print Assumptions C28_error_bound.
Print Assumptions C28_encodable.
Print Assumptions C28_maximum_refused.
Print Assumptions C28_null_refused.
Print Assumptions C29_codes_stable.
Print Assumptions C29_wrong_length.
Print Assumptions C29_never_null.
Print Assumptions C29_double_drift_refuted.
Print Assumptions C30_round_trip.
Print Assumptions C30_trailing_nuls_lost.
Print Assumptions C30_null.
Print Assumptions C30_null_refused.
Print Assumptions C30_string_never_null.
Print Assumptions C30_size_zero.
Print Assumptions C30_oversize.
Print Assumptions C30_surrogate.
Print Assumptions C30_resave.
Print Assumptions C31_round_trip.
Print Assumptions C31_encode_columns.
Print Assumptions C31_column_size.
Print Assumptions C31_too_few.
Print Assumptions C31_extra_ignored.
