(** What the bytes of any P file say: theorems. *)
From Coq Require Import QArith.
From Verif Require Import Py Num VlvModel PfModel PfSpec PfHostileSpec PfFileSpec PfFile.
Open Scope Z_scope.

(** ** C116 *)
(** [rd] reports the index [es] of a file whose points start after [n] bytes. *)
Definition reports {T} (rd : preader T) (size : Z) (es : list entity) (n : nat) : Prop :=
  r_names rd = map e_name es /\ r_partlens rd = map e_lens es /\ r_size rd = size /\ r_datapos rd = Z.of_nat n /\ pf_len rd = Z.of_nat (length es).
(** Whatever opens has the layout of a P file, and what the reader reports is
    what the bytes spell. *)
Theorem C116_opened {T} `{PyNum T} : forall fuel file (rd : preader T), Forall is_byte file -> pf_open fuel file = Some (Ok rd) ->
  exists es data, layout file (r_size rd) es data /\ reports rd (r_size rd) es (length file - length data).
Proof.
  intros fuel file rd B O. destruct (file_inv fuel file rd B O) as [es [data [L E]]]. exists es, data. split; [exact L|].
  destruct (file_data _ _ _ _ L) as [_ D]. rewrite E at 1. unfold reports, made, pf_len. cbn [r_names r_partlens r_size r_datapos]. rewrite map_length. repeat split. lia.
Qed.
(** Every file of the layout opens, within as many reads as it has bytes. *)
Theorem C116_opens {T} `{PyNum T} : forall file size es data, layout file size es data -> forall fuel, (length file < fuel)%nat ->
  exists rd : preader T, pf_open fuel file = Some (Ok rd) /\ reports rd size es (length file - length data).
Proof.
  intros file size es data L fuel F. exists (made file size es data). split; [apply file_read; assumption|].
  destruct (file_data _ _ _ _ L) as [_ D]. unfold reports, made, pf_len. cbn [r_names r_partlens r_size r_datapos]. rewrite map_length. repeat split. lia.
Qed.
(** The bytes have one reading only. *)
Theorem C116_one : forall file size es data size' es' data', layout file size es data -> layout file size' es' data' ->
  size' = size /\ map e_name es' = map e_name es /\ map e_lens es' = map e_lens es /\ data' = data.
Proof.
  intros file size es data size' es' data' L L'. pose proof (file_read (T := Q) _ _ _ _ _ L (Nat.lt_succ_diag_r _)) as E.
  rewrite (file_read (T := Q) _ _ _ _ _ L' (Nat.lt_succ_diag_r _)) in E. destruct (file_data _ _ _ _ L) as [D DL]. destruct (file_data _ _ _ _ L') as [D' DL'].
  injection E as E1 E2 _ E3 E4 _ _. split; [exact E2|]. split; [exact E3|]. split; [exact E4|]. rewrite D, D'. f_equal. lia.
Qed.
(** The boxes: exactly, and in double arithmetic. *)
Theorem C116_boxes : forall fuel file (rd : preader Q) size es data, layout file size es data -> pf_open fuel file = Some (Ok rd) ->
  Forall2 box_is (r_bboxes rd) es.
Proof.
  intros fuel file rd size es data L O. pose proof (PfHostile.open_mono file fuel (S (length file) + fuel) _ O ltac:(lia)) as M.
  rewrite (file_read _ _ _ _ _ L) in M by lia. injection M as <-. cbn [made r_bboxes]. clear L O.
  induction es as [|e es IH]; [constructor|]. cbn [map]. constructor; [|exact IH].
  unfold corners, dequant_box, box_is, grid_lon, grid_lat. cbn [nsub ndiv nofZ NumQ]. rewrite !(Z.mul_comm 360), !(Z.mul_comm 180). repeat split; reflexivity.
Qed.
Theorem C116_boxes64 : forall fuel file (rd : preader f64) size es data, layout file size es data -> pf_open fuel file = Some (Ok rd) ->
  r_bboxes rd = map box64 es.
Proof.
  intros fuel file rd size es data L O. pose proof (PfHostile.open_mono file fuel (S (length file) + fuel) _ O ltac:(lia)) as M.
  rewrite (file_read _ _ _ _ _ L) in M by lia. injection M as <-. reflexivity.
Qed.
(** The points of entity [idx], in exact arithmetic. *)
Theorem C116_points : forall fuel file (rd : preader Q) size es data idx parts, layout file size es data -> pf_open fuel file = Some (Ok rd) -> pf_read rd idx = Ok parts ->
  exists e, nth_error es (place (length es) idx) = Some e /\ map (fun p => Z.of_nat (length p)) parts = e_lens e /\
    forall j p, nth_error (concat parts) j = Some p -> point_is size data e (before es (place (length es) idx) + j) p.
Proof.
  intros fuel file rd size es data idx parts L O R. pose proof (PfHostile.open_mono file fuel (S (length file) + fuel) _ O ltac:(lia)) as M.
  rewrite (file_read _ _ _ _ _ L) in M by lia. injection M as <-. destruct (read_are _ _ _ _ _ _ L R) as [e [E1 [E2 E3]]].
  exists e. split; [exact E1|]. split; [exact E2|]. intros j p J. specialize (E3 j p J). cbv zeta in E3. subst p.
  unfold point_is, dequant_point, corners, dequant_box, grid_lon, grid_lat. cbn [nadd nmul nsub ndiv nofZ NumQ fst snd]. rewrite !(Z.mul_comm 360), !(Z.mul_comm 180). split; reflexivity.
Qed.
(** And in double arithmetic. *)
Theorem C116_points64 : forall fuel file (rd : preader f64) size es data idx parts, layout file size es data -> pf_open fuel file = Some (Ok rd) -> pf_read rd idx = Ok parts ->
  exists e, nth_error es (place (length es) idx) = Some e /\ map (fun p => Z.of_nat (length p)) parts = e_lens e /\
    forall j p, nth_error (concat parts) j = Some p -> p = point64 size data e (before es (place (length es) idx) + j).
Proof.
  intros fuel file rd size es data idx parts L O R. pose proof (PfHostile.open_mono file fuel (S (length file) + fuel) _ O ltac:(lia)) as M.
  rewrite (file_read _ _ _ _ _ L) in M by lia. injection M as <-. destruct (read_are _ _ _ _ _ _ L R) as [e [E1 [E2 E3]]].
  exists e. split; [exact E1|]. split; [exact E2|]. intros j p J. exact (E3 j p J).
Qed.
(** An entity can be read when the bytes of its points are there. *)
Theorem C116_enough {T} `{PyNum T} : forall fuel file (rd : preader T) size es data idx e, Forall is_byte file -> layout file size es data -> pf_open fuel file = Some (Ok rd) ->
  - Z.of_nat (length es) <= idx < Z.of_nat (length es) -> nth_error es (place (length es) idx) = Some e ->
  2 * size * (Z.of_nat (before es (place (length es) idx)) + zsum (e_lens e)) <= Z.of_nat (length data) ->
  exists parts, pf_read rd idx = Ok parts.
Proof.
  intros fuel file rd size es data idx e B L O R N D. pose proof (PfHostile.open_mono file fuel (S (length file) + fuel) _ O ltac:(lia)) as M.
  rewrite (file_read _ _ _ _ _ L) in M by lia. injection M as <-. destruct (read_enough (T := T) _ _ _ _ _ _ B L R N) as [[_ C]|[parts [E _]]]; [lia|]. exists parts. exact E.
Qed.
(** Two entities "a" and "b" with one and two parts; the number of rows and
    one length are written with a leading zero, as no Writer does. *)
Definition odd_file : list Z :=
  [80; 70; 0; 1; 128; 9; 2; 97; 0; 1; 0; 0; 1; 0; 0; 0; 1; 0; 128; 2; 98; 0; 2; 128; 0; 255; 255; 128; 0; 255; 255; 1; 1; 0; 0; 255; 0; 51; 51; 255; 255].
Definition odd_index : list entity := [ent [97] 0 256 0 256 [2]; ent [98] 32768 65535 32768 65535 [1; 1]].
Example C116_case :
  layout odd_file 1 odd_index [0; 0; 255; 0; 51; 51; 255; 255] /\
  (exists rd, pf_open (T := Q) 60 odd_file = Some (Ok rd) /\
    forall parts, pf_read rd (-1) = Ok parts -> match parts with [[p]; [q]] => (fst p == grid_lon 32768 + (180 - grid_lon 32768) / 5)%Q /\ (fst q == 180)%Q | _ => False end).
Proof.
  split.
  - exists 9, [128; 9], [2], [[97; 0; 1; 0; 0; 1; 0; 0; 0; 1; 0; 128; 2]; [98; 0; 2; 128; 0; 255; 255; 128; 0; 255; 255; 1; 1]].
    split; [cbn; auto|]. split; [reflexivity|].
    split; [exists [0], 9; split; [reflexivity|split; [repeat constructor; lia|reflexivity]]|].
    split; [exists [], 2; split; [reflexivity|split; [repeat constructor; lia|reflexivity]]|].
    constructor; [|constructor; [|constructor]].
    + exists [1], [0; 0], [1; 0], [0; 0], [1; 0], [[128; 2]]. split; [reflexivity|]. split; [repeat constructor; cbn; lia|].
      split; [exists [], 1; split; [reflexivity|split; [repeat constructor; lia|reflexivity]]|]. do 4 (split; [split; reflexivity|]).
      constructor; [|constructor]. exists [0], 2. split; [reflexivity|split; [repeat constructor; lia|reflexivity]].
    + exists [2], [128; 0], [255; 255], [128; 0], [255; 255], [[1]; [1]]. split; [reflexivity|]. split; [repeat constructor; cbn; lia|].
      split; [exists [], 2; split; [reflexivity|split; [repeat constructor; lia|reflexivity]]|]. do 4 (split; [split; reflexivity|]).
      constructor; [|constructor; [|constructor]]; (exists [], 1; split; [reflexivity|split; [repeat constructor; lia|reflexivity]]).
  - exists (made odd_file 1 odd_index [0; 0; 255; 0; 51; 51; 255; 255]). split; [vm_compute; reflexivity|]. intros parts E. vm_compute in E. injection E as <-. split; vm_compute; reflexivity.
Qed.

Print Assumptions C116_opened.
Print Assumptions C116_opens.
Print Assumptions C116_one.
Print Assumptions C116_boxes.
Print Assumptions C116_boxes64.
Print Assumptions C116_points.
Print Assumptions C116_points64.
Print Assumptions C116_enough.
