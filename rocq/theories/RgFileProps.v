(** C138: what the bytes of any RangeGrid file say. *)
From Coq Require Import QArith.
From Verif Require Import Py VlvModel GridModel RgModel PfFileSpec RgFileSpec RgFile.
Open Scope Z_scope.

(** As it is, rg.Reader raises NameError on exactly the files that are laid out
    as the format wants, and something else or nothing on all others. *)
Theorem C138_name_error : forall names_ok fuel rg md, Forall is_byte rg -> (length rg < fuel)%nat ->
  (rg_open false names_ok fuel rg md = Some (Err NameError) <->
   (exists ix, rg_readindex md = Ok ix) /\ exists cs data, rg_layout rg cs data /\ Forall sound cs).
Proof. exact open_name_error. Qed.
(** With the import of collections added, it returns with the columns the bytes
    state. *)
Theorem C138_opened : forall names_ok fuel rg md rd, Forall is_byte rg -> rg_open true names_ok fuel rg md = Some (Ok rd) ->
  exists cs data, rg_layout rg cs data /\ Forall sound cs /\ Forall2 stands (rr_row rd) cs /\ rr_datapos rd = Z.of_nat (length rg) - Z.of_nat (length data) /\
  rg_readindex md = Ok (rr_index rd) /\ names_ok (map c_name cs) = true.
Proof. exact open_inv. Qed.
Theorem C138_opens : forall names_ok fuel rg md cs data ix, rg_layout rg cs data -> Forall sound cs -> rg_readindex md = Ok ix -> names_ok (map c_name cs) = true ->
  (length rg < fuel)%nat -> exists rd, rg_open true names_ok fuel rg md = Some (Ok rd) /\ Forall2 stands (rr_row rd) cs /\ rr_index rd = ix.
Proof. exact open_read. Qed.
(** The bytes have one reading only. *)
Theorem C138_one : forall rg cs data cs' data', rg_layout rg cs data -> rg_layout rg cs' data' -> Forall sound cs -> Forall sound cs' ->
  data' = data /\ Forall2 like cs' cs.
Proof. exact layout_one. Qed.
Theorem C138_errors : forall coll names_ok fuel rg md e, rg_open coll names_ok fuel rg md = Some (Err e) ->
  In e [AssertionError; TypeError; StructError; UnicodeError; ValueError] \/ e = NameError /\ coll = false.
Proof. exact open_errors. Qed.
(** It ends within as many reads as there are bytes, or never: so it is with a
    column name that does not end. *)
Theorem C138_ends : forall coll names_ok rg md, Forall is_byte rg ->
  (exists y, forall fuel, (length rg < fuel)%nat -> rg_open coll names_ok fuel rg md = Some y) \/ (forall fuel, rg_open coll names_ok fuel rg md = None).
Proof. exact open_ends. Qed.
Theorem C138_never_ends : forall coll names_ok n rows s md ix, 0 < n -> length rows = 4%nat -> ~ In 0 s -> rg_readindex md = Ok ix ->
  forall fuel, rg_open coll names_ok fuel ([82; 71; 1; n] ++ rows ++ s) md = None.
Proof. exact open_stuck. Qed.
(** An integer column "a" from -5 to 300, stated with 7 bytes and read with 2,
    and a nullable string column "b" of 130 bytes; the number of rows and the
    data are anything. *)
Definition some_rg : list Z := [82; 71; 1; 2; 9; 9; 9; 9] ++ ([97; 0; 0; 0] ++ [7] ++ [255; 5] ++ [0; 130; 44]) ++ ([98; 0; 2; 1] ++ [129; 2]) ++ [77].
Example C138_case : rg_layout some_rg [col [97] 0 0 7 (-5) 300; col [98] 2 1 130 0 0] [77] /\ Forall sound [col [97] 0 0 7 (-5) 300; col [98] 2 1 130 0 0] /\
  Forall is_byte some_rg /\ rg_readindex [48] = Ok [] /\
  (exists rd, rg_open true (fun _ => true) 99 some_rg [48] = Some (Ok rd) /\ map field_size (rr_row rd) = [2; 130]) /\
  rg_open false (fun _ => true) 99 some_rg [48] = Some (Err NameError).
Proof.
  split; [|split; [|split; [|split; [reflexivity|split; [eexists; split; vm_compute; reflexivity|reflexivity]]]]].
  - exists [9; 9; 9; 9], [[97; 0; 0; 0] ++ [7] ++ [255; 5] ++ [0; 130; 44]; [98; 0; 2; 1] ++ [129; 2]]. split; [reflexivity|]. split; [reflexivity|].
    constructor; [|constructor; [|constructor]].
    + exists [7], ([255; 5] ++ [0; 130; 44]). split; [reflexivity|]. split; [constructor; [cbn; lia|constructor]|].
      split; [exists [], 7; split; [reflexivity|split; [constructor; [lia|constructor]|reflexivity]]|]. left. split; [left; reflexivity|].
      exists [255; 5], [0; 130; 44]. split; [reflexivity|]. split.
      * exists 255, 5, [5]. split; [reflexivity|]. split; [exists [], 5; split; [reflexivity|split; [constructor; [lia|constructor]|reflexivity]]|reflexivity].
      * exists 0, 300, [130; 44]. split; [reflexivity|]. split; [exists [2], 44; split; [reflexivity|split; [constructor; [lia|constructor; [lia|constructor]]|reflexivity]]|reflexivity].
    + exists [129; 2], []. split; [reflexivity|]. split; [constructor; [cbn; lia|constructor]|].
      split; [exists [1], 2; split; [reflexivity|split; [constructor; [lia|constructor; [lia|constructor]]|reflexivity]]|]. right. repeat split.
  - constructor; [|constructor; [|constructor]]; split; intros K; try discriminate K. cbn. split; [lia|]. unfold fits. cbn. lia.
  - unfold some_rg. cbn [app]. repeat (constructor; [unfold is_byte; lia|]). constructor.
Qed.

Print Assumptions C138_name_error.
Print Assumptions C138_opened.
Print Assumptions C138_opens.
Print Assumptions C138_one.
Print Assumptions C138_errors.
Print Assumptions C138_ends.
Print Assumptions C138_never_ends.
