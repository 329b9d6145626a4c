(** RangeGrid: theorems. *)
From Coq Require Import QArith.
From Verif Require Import Py GridModel StrModel RgModel RgSpec RgProofs.
Open Scope Z_scope.

(** C39 *)
Theorem C39_round_trip : forall fuel fs h rest, plain_row fuel fs -> rg_header fs = Ok h ->
  exists cols, h = [82; 71; 1; Z.of_nat (length fs); 0; 0; 0; 0] ++ cols /\
  rg_read_columns fuel (length fs) (cols ++ rest) = Some (Ok (fs, rest)).
Proof. exact api_header. Qed.
Theorem C39_accepted : forall fs, Forall constructed fs -> Forall (fun f => plain_name (field_name f)) fs ->
  ((exists h, rg_header fs = Ok h) <-> (length fs < 256)%nat /\ Forall int_bounds fs).
Proof. exact header_iff. Qed.
Definition lon : field := FF (mkfvar [108; 111; 110] (inject_Z (-180)) (inject_Z 180) 2 (inject_Z 180 - inject_Z (-180))%Q 65535 true).
Definition tag : field := FS (mksvar [116] 1 false).
Example C39_case : plain_row 9 [lon; tag] /\ Forall int_bounds [lon; tag] /\
  rg_header [lon; tag] = Ok [82; 71; 1; 2; 0; 0; 0; 0; 108; 111; 110; 0; 1; 1; 2; 255; 129; 52; 0; 129; 52; 116; 0; 2; 0; 1].
Proof.
  split; [|split; [|vm_compute; reflexivity]].
  - constructor; [|constructor; [|constructor]].
    + split; [exists [108; 111; 110], (inject_Z (-180)), (inject_Z 180), 2, true; reflexivity|].
      split; [repeat constructor|cbn; repeat constructor].
    + split; [exact I|]. split; [repeat constructor|cbn; repeat constructor].
  - constructor; [|constructor; [exact I|constructor]]. split; eexists; reflexivity.
Qed.

(** C40 *)
Theorem C40_round_trip : forall index, Forall (fun e => clean_id (eid_text (fst e)) /\ snd e <> []) index ->
  rg_readindex (rg_writeindex index) = Ok (map (fun e => (eid_text (fst e), snd e)) index).
Proof. exact api_index. Qed.
Theorem C40_first_bad : forall index1 id_ lens index2,
  Forall (fun e => clean_id (eid_text (fst e)) /\ snd e <> []) index1 ->
  ~ In 10 (eid_text id_) -> ~ In 13 (eid_text id_) -> In 32 (eid_text id_) \/ lens = [] ->
  rg_readindex (rg_writeindex (index1 ++ (id_, lens) :: index2)) = Err ValueError.
Proof. exact api_index_bad. Qed.
Example C40_case :
  rg_readindex (rg_writeindex [(EInt (-12), [3; 0]); (EStr [97], [7])]) = Ok [([45; 49; 50], [3; 0]); ([97], [7])] /\
  Forall (fun e => clean_id (eid_text (fst e)) /\ snd e <> []) [(EInt (-12), [3; 0]); (EStr [97], [7])] /\
  rg_readindex (rg_writeindex [(EStr [97], [7]); (EInt 5, [])]) = Err ValueError /\
  rg_readindex (rg_writeindex [(EStr [97; 32; 98], [7])]) = Err ValueError.
Proof.
  split; [vm_compute; reflexivity|]. split; [|split; vm_compute; reflexivity].
  repeat (constructor; [split; [repeat split; vm_compute; intuition discriminate|discriminate]|]). constructor.
Qed.

(** C41 *)
Theorem C41_never_opens : forall names_ok fuel rg md rd, rg_open false names_ok fuel rg md <> Some (Ok rd).
Proof. exact open_false. Qed.
Theorem C41_open : forall fuel fs w0 l w rg md coll names_ok,
  plain_row fuel fs -> storable l -> rg_new fs = Ok w0 ->
  rg_write_all w0 l = Some w -> rg_close w = Ok (rg, md) ->
  (coll = false -> rg_open coll names_ok fuel rg md = Some (Err NameError)) /\
  (coll = true -> names_ok (map field_name fs) = false -> rg_open coll names_ok fuel rg md = Some (Err ValueError)) /\
  (coll = true -> names_ok (map field_name fs) = true -> exists rd, rg_open coll names_ok fuel rg md = Some (Ok rd)).
Proof. exact api_open. Qed.
Theorem C41_close : forall fs w0 l w, rg_new fs = Ok w0 -> rg_write_all w0 l = Some w ->
  ((exists files, rg_close w = Ok files) <-> nrows l < 2 ^ 32).
Proof. exact api_close. Qed.
(** [recoded]: the rows as GRow's encode and decode, value by value (C31),
    return them. *)
Theorem C41_read_if_imported : forall fuel fs w0 l w rg md names_ok rd,
  plain_row fuel fs -> storable l -> rg_new fs = Ok w0 ->
  rg_write_all w0 l = Some w -> rg_close w = Ok (rg, md) ->
  rg_open true names_ok fuel rg md = Some (Ok rd) ->
  rr_row rd = fs /\
  (forall i id_ segs e, nth_error l i = Some (id_, segs) -> first_with (ids_from 0 l) e i ->
    rmap fst (rg_read rd (Some e)) = recoded fs segs /\
    (forall s rd', rg_read rd (Some e) = Ok (s, rd') ->
      rg_read_n (length l - S i) rd' = mapM (recoded fs) (map snd (skipn (S i) l)))) /\
  (forall e, (forall e', In e' (ids_from 0 l) -> eid_text e' <> eid_text e) -> rg_read rd (Some e) = Err KeyError) /\
  rg_read_n (length l) rd = mapM (recoded fs) (map snd l) /\
  rg_read_n (S (length l)) rd = (_ <- mapM (recoded fs) (map snd l) ;; Err IndexError).
Proof. exact api_read. Qed.
Definition hist : list (option eid * list (list (list val))) :=
  [(None, [[[VStr [97]]; [VStr [98]]]; [[VStr [99]]]]); (Some (EStr [120]), [[[VStr [100]]]])].
Definition files_of (fs : row) (l : list (option eid * list (list (list val)))) : res (list Z * list Z) :=
  w0 <- rg_new fs ;; match rg_write_all w0 l with None => Err TypeError | Some w => rg_close w end.
Example C41_case : storable hist /\
  files_of [tag] hist = Ok ([82; 71; 1; 1; 4; 0; 0; 0; 116; 0; 2; 0; 1; 97; 98; 99; 100],
    [50; 10; 48; 32; 50; 10; 50; 32; 49; 10; 120; 32; 49; 10; 49; 10]) /\
  (exists rd, rg_open true (fun _ => true) 9 [82; 71; 1; 1; 4; 0; 0; 0; 116; 0; 2; 0; 1; 97; 98; 99; 100]
    [50; 10; 48; 32; 50; 10; 50; 32; 49; 10; 120; 32; 49; 10; 49; 10] = Some (Ok rd) /\
    rmap fst (rg_read rd (Some (EStr [120]))) = Ok [[[VStr [100]]]] /\
    rmap fst (rg_read rd (Some (EStr [48]))) = Ok [[[VStr [97]]; [VStr [98]]]; [[VStr [99]]]]) /\
  first_with (ids_from 0 hist) (EStr [120]) 1.
Proof.
  split; [split; repeat constructor; try discriminate; vm_compute; intuition discriminate|].
  split; [vm_compute; reflexivity|]. split; [eexists; split; [vm_compute; reflexivity|split; vm_compute; reflexivity]|].
  split; [eexists; split; [reflexivity|reflexivity]|]. intros [|j] e' Hj He; [|exfalso; inversion Hj as [|? H]; inversion H].
  vm_compute in He. injection He as <-. vm_compute. discriminate.
Qed.

(** C42. [pre]: the rows of the failed entity encoded before the exception. *)
Theorem C42_later_entities_shifted : forall fuel fs w0 l1 w1 bad id_ w2 e l2 w3 rg md names_ok rd,
  plain_row fuel fs -> storable (l1 ++ l2) ->
  rg_new fs = Ok w0 -> rg_write_all w0 l1 = Some w1 -> rg_write w1 bad id_ = (w2, Err e) ->
  rg_write_all w2 l2 = Some w3 -> rg_close w3 = Ok (rg, md) -> rg_open true names_ok fuel rg md = Some (Ok rd) ->
  exists pre r post, concat bad = pre ++ r :: post /\ row_encode fs r = Err e /\
  (forall i id_ segs e', nth_error l1 i = Some (id_, segs) -> first_with (ids_from 0 (l1 ++ l2)) e' i ->
    rmap fst (rg_read rd (Some e')) = recoded fs segs) /\
  (forall i id_ segs e', nth_error l2 i = Some (id_, segs) -> first_with (ids_from 0 (l1 ++ l2)) e' (length l1 + i) ->
    rmap (fun x => concat (fst x)) (rg_read rd (Some e')) =
    recoded_rows fs (firstn (length (concat segs))
      (skipn (Z.to_nat (nrows (firstn i l2))) (pre ++ concat (concat (map snd l2)))))).
Proof. exact api_stale. Qed.
Theorem C42_first_row_safe : forall w segs id_ r post e, concat segs = r :: post -> row_encode (rw_row w) r = Err e ->
  rg_write w segs id_ = (w, Err e).
Proof. exact api_first_row_fails. Qed.
(** A failed write followed by a good one: the good one's row is not what the
    reader returns. *)
Theorem C42_exception_safe_refuted : exists fs w0 bad w1 e segs w2 rg md rd,
  plain_row 9 fs /\ rg_new fs = Ok w0 /\ rg_write w0 bad None = (w1, Err e) /\ rg_write w1 segs None = (w2, Ok tt) /\
  rg_close w2 = Ok (rg, md) /\ rg_open true (fun _ => true) 9 rg md = Some (Ok rd) /\
  recoded fs segs = Ok segs /\ segs = [[[VStr [99]]]] /\
  rmap fst (rg_read rd (Some (EInt 0))) = Ok [[[VStr [97]]]].
Proof.
  do 2 eexists. exists [[[VStr [97]]; [VStr [98; 98]]]]. do 2 eexists. exists [[[VStr [99]]]]. do 4 eexists.
  split; [instantiate (1 := [tag]); repeat constructor|]. split; [vm_compute; reflexivity|].
  split; [vm_compute; reflexivity|]. split; [vm_compute; reflexivity|]. split; [vm_compute; reflexivity|].
  split; [vm_compute; reflexivity|]. split; [vm_compute; reflexivity|]. split; [reflexivity|vm_compute; reflexivity].
Qed.

Print Assumptions C39_round_trip.
Print Assumptions C39_accepted.
Print Assumptions C40_round_trip.
Print Assumptions C40_first_bad.
Print Assumptions C41_never_opens.
Print Assumptions C41_open.
Print Assumptions C41_close.
Print Assumptions C41_read_if_imported.
Print Assumptions C42_later_entities_shifted.
Print Assumptions C42_first_row_safe.
Print Assumptions C42_exception_safe_refuted.
