(** P files: the returned distances (C109) and shapefile conversion (C110). *)
From Coq Require Import QArith Qabs SpecFloat Reals Qreals.
From Verif Require Import Num PfModel PfProofs PfSpec PfErrModel PfErrSpec PfErr PfErrTrip GeoSpec GeoModel.
From Verif Require Import Py Text StrModel ShpFile ShpWriterModel ShpReaderModel ShpGeoModel ShpSpec ShpPrograms ShpProps ShpTableSpec ShpTablePrograms ShpTable ShpPairs ShpTableProps Sf2pfModel Sf2pf.
Open Scope Z_scope.

(** ** C109 *)
(** Exact arithmetic, real distances: [write] behaves as without them, and
    [close] returns one for each stored point, entity by entity. *)
Theorem C109_exact : forall size we0 fuel (l : list (list Z * list (list (Q * Q)))),
  dw_new (D := R) size = Ok we0 ->
  Forall (fun x => Forall (fun c => 0 < c < 128) (fst x)) l ->
  forall w, write_all fuel (fst we0) l = Some w ->
  exists errs file, dw_all real_hav fuel we0 l = Some (w, errs, Ok tt) /\ dw_close (w, errs) = Ok (file, errs) /\
  forall fuel', (forall x, In x l -> (length (fst x) < fuel')%nat) ->
  exists rd ess, pf_open fuel' file = Some (Ok rd) /\ r_names rd = map fst l /\ errs = concat ess /\ length ess = length l /\
    forall i name polys, nth_error l i = Some (name, polys) ->
      exists x0 x1 y0 y1 norm rings out es, nth_error (r_bboxes rd) i = Some (x0, x1, y0, y1) /\
        Forall2 (Forall2 normalised) polys norm /\ Forall2 ring norm rings /\ pf_read rd (Z.of_nat i) = Ok out /\ nth_error ess i = Some es /\
        Forall2 (fun a b => length a = length b) rings out /\ distances real_hav (concat rings) (concat out) es /\
        Forall (fun e => (0 <= e <= 6378137 * rad (Q2R (half_code size x0 x1) + Q2R (half_code size y0 y1)))%R) es.
Proof. exact dist_exact. Qed.
(** Doubles, whatever the distance function. *)
Theorem C109_doubles : forall D (hav : f64 -> f64 -> f64 -> f64 -> res D) size we0 fuel (l : list (list Z * list (list (f64 * f64)))) we file errs,
  dw_new size = Ok we0 -> dw_all hav fuel we0 l = Some (we, Ok tt) -> dw_close we = Ok (file, errs) ->
  Forall (fun x => Forall (fun c => 0 < c < 128) (fst x)) l -> Forall (fun x => Forall (Forall in_world64) (snd x)) l ->
  forall fuel', (forall x, In x l -> (length (fst x) < fuel')%nat) ->
  exists rd ess, pf_open fuel' file = Some (Ok rd) /\ r_names rd = map fst l /\ errs = concat ess /\ length ess = length l /\
    forall i name polys, nth_error l i = Some (name, polys) ->
      exists rings out es, Forall2 (ring_by same64) polys rings /\ pf_read rd (Z.of_nat i) = Ok out /\ nth_error ess i = Some es /\
        Forall2 (fun a b => length a = length b) rings out /\ distances hav (concat rings) (concat out) es.
Proof. exact @dist_doubles. Qed.
(** An exception of a write is one of the distance function or occurs without
    it as well. *)
Theorem C109_transparent : forall T D (N : PyNum T) (P : PyRound T) (hav : T -> T -> T -> T -> res D),
  (forall a b c d, exists e, hav a b c d = Ok e) -> forall fuel w errs name polys,
  match dw_write hav fuel (w, errs) name polys with
  | None => pf_write fuel w name polys = None
  | Some (w', errs', x) => pf_write fuel w name polys = Some (w', x) /\ exists new, errs' = errs ++ new
  end.
Proof. intros. apply dw_write_total. assumption. Qed.
Definition quad (x y d : Z) : list (Q * Q) :=
  [(inject_Z x, inject_Z y); (inject_Z (x + d), inject_Z y); (inject_Z (x + d), inject_Z (y + d)); (inject_Z x, inject_Z y)].
Definition quad64 : list (f64 * f64) := [(fofZ 10, fofZ 20); (fofZ 15, fofZ 20); (fofZ 15, fofZ 27); (fofZ 10, fofZ 20)].
Example C109_case :
  (exists we0 w, dw_new (D := R) 2 = Ok we0 /\
     write_all 5 (fst we0) [([97], [quad 10 20 5; quad 30 (-40) 7]); ([98; 99], [quad (-170) 0 1])] = Some w) /\
  (exists we0 we file, dw_new (D := f64) 4 = Ok we0 /\
     dw_all (fun a b c d => Ok (fsub a c)) 1 we0 [([97], [quad64])] = Some (we, Ok tt) /\
     dw_close we = Ok (file, snd we) /\ length (snd we) = 3%nat) /\
  Forall in_world64 quad64.
Proof.
  split; [do 2 eexists; split; [reflexivity|vm_compute; reflexivity]|].
  split; [do 3 eexists; split; [reflexivity|]; split; [vm_compute; reflexivity|]; split; [vm_compute; reflexivity|reflexivity]|].
  repeat constructor.
Qed.

(** ** C110 *)
Theorem C110_converted : forall D (hav : f64 -> f64 -> f64 -> f64 -> res D) (getname : list cell -> res (list Z))
    fr today given steps t fs ns rows w0 w1, good t -> saved_program fr today given steps t fs ns rows w0 w1 ->
  rows <> [] -> Forall (row_storable fr fs ns) rows -> exists gs table, Forall2 adds (shapes_of steps) gs /\ Forall2 (row_returned fr fs ns) rows table /\
  forall shx fuel size, shx = None \/ shx = Some (fdata (w_shx w1)) -> (length gs < fuel)%nat ->
  let result := sf2pf hav getname fuel (Some (fdata (w_shp w1))) shx (Some (fdata (w_dbf w1))) size in
  (~ In size psizes -> result = Some (Err ValueError)) /\
  forall we0, dw_new size = Ok we0 ->
  (has_parts t ->
    (forall names, Forall2 (fun c n => getname c = Ok n) table names ->
      result = match dw_all hav fuel we0 (combine names (map (map (map place)) gs)) with
               | None => None
               | Some (_, Err e) => Some (Err e)
               | Some (we, Ok _) => Some (dw_close we)
               end) /\
    (forall names c e k, nth_error table k = Some c -> (k < length gs)%nat -> getname c = Err e ->
      Forall2 (fun c n => getname c = Ok n) (firstn k table) names ->
      forall we, dw_all hav fuel we0 (combine names (map (map (map place)) gs)) = Some (we, Ok tt) -> result = Some (Err e))) /\
  (~ has_parts t -> gs <> [] -> forall c n, hd_error table = Some c -> getname c = Ok n -> result = Some (Err AttributeError)).
Proof. exact @converted. Qed.
(** From the calls of the shapefile Writer to what the P reader returns. *)
Theorem C110_read_back : forall D (hav : f64 -> f64 -> f64 -> f64 -> res D) (getname : list cell -> res (list Z))
    fr today given steps t fs ns rows w0 w1, good t -> has_parts t -> saved_program fr today given steps t fs ns rows w0 w1 ->
  rows <> [] -> Forall (row_storable fr fs ns) rows -> exists gs table, Forall2 adds (shapes_of steps) gs /\ Forall2 (row_returned fr fs ns) rows table /\
  forall names shx fuel size file errs, Forall2 (fun c n => getname c = Ok n) table names ->
  Forall (Forall (fun c => 0 < c < 128)) names -> Forall (Forall (Forall (fun v => in_world64 (place v)))) gs ->
  shx = None \/ shx = Some (fdata (w_shx w1)) -> (length gs < fuel)%nat ->
  sf2pf hav getname fuel (Some (fdata (w_shp w1))) shx (Some (fdata (w_dbf w1))) size = Some (Ok (file, errs)) ->
  forall fuel', (forall n, In n names -> (length n < fuel')%nat) ->
  exists rd ess, pf_open (T := f64) fuel' file = Some (Ok rd) /\ r_names rd = firstn (length gs) names /\ r_size rd = size /\
    errs = concat ess /\ length ess = Nat.min (length gs) (length rows) /\
    forall i g, nth_error gs i = Some g -> (i < length rows)%nat ->
      exists rings out es, Forall2 (ring_by same64) (map (map place) g) rings /\ pf_read rd (Z.of_nat i) = Ok out /\ nth_error ess i = Some es /\
        Forall2 (fun a b => length a = length b) rings out /\ distances hav (concat rings) (concat out) es.
Proof. exact @converted_read. Qed.
Definition steps2 : list step := map Column cols ++ [Shape (Poly [tri] 5); Row args1; Row args2; Shape (Poly [tri2; tri] 5)].
Definition first_cell (c : list cell) : res (list Z) :=
  match c with CStr s :: _ => Ok s | CBytes _ :: _ => Ok (text "?") | _ => Err TypeError end.
Definition east (a b c d : f64) : res f64 := Ok (fsub c a).
Lemma steps2_saved : saved_program fr today None steps2 5 cols widths [row1; row2] (written_by None steps2) (all_saved (written_by None steps2)).
Proof. constructor; [cbn; lia | table_tac | doubles_tac | type_tac | vm_compute; reflexivity]. Qed.
Example C110_case : good 5 /\ has_parts 5 /\ saved_program fr today None steps2 5 cols widths [row1; row2] (written_by None steps2) (all_saved (written_by None steps2)) /\
  Forall (row_storable fr cols widths) [row1; row2] /\
  (let w := all_saved (written_by None steps2) in exists file errs rd,
    sf2pf east first_cell 3 (Some (fdata (w_shp w))) (Some (fdata (w_shx w))) (Some (fdata (w_dbf w))) 4 = Some (Ok (file, errs)) /\
    length errs = 9%nat /\ pf_open (T := f64) 6 file = Some (Ok rd) /\ r_names rd = [text "Ulm"; text "?"]) /\
  good 1 /\ ~ has_parts 1.
Proof.
  split; [unfold good; cbn [In]; tauto|]. split; [right; left; reflexivity|]. split; [exact steps2_saved|]. split; [exact rows1_storable|].
  split; [|split; [unfold good; cbn [In]; tauto|unfold has_parts; lia]].
  cbv zeta. do 3 eexists. split; [vm_compute; reflexivity|]. split; [reflexivity|]. split; vm_compute; reflexivity.
Qed.
(** With the first of two rows deleted, the first shape is stored under the name
    of the second row. *)
Theorem C110_deleted_refuted : exists bss c1 c2 n1 n2 file errs rd out,
  Forall2 (row_stored fr cols widths) [row1; row2] bss /\ row_returned fr cols widths row1 c1 /\ row_returned fr cols widths row2 c2 /\
  first_cell c1 = Ok n1 /\ first_cell c2 = Ok n2 /\ n1 <> n2 /\
  sf2pf east first_cell 3 (Some (fdata (w_shp (all_saved (written_by None steps2))))) None (Some (marked_file today cols widths [42; 32] bss)) 4 = Some (Ok (file, errs)) /\
  pf_open (T := f64) 6 file = Some (Ok rd) /\ r_names rd = [n2] /\ pf_get rd n2 = Ok [out] /\ length out = 3%nat.
Proof.
  do 9 eexists. split.
  { repeat (first [apply Forall2_nil|apply Forall2_cons]); (split; [reflexivity|]); repeat (first [apply Forall2_nil|apply Forall2_cons]); stored_tac. }
  split; [apply C76_case|]. split; [apply C76_case|]. split; [reflexivity|]. split; [reflexivity|]. split; [discriminate|].
  split; [vm_compute; reflexivity|]. split; [vm_compute; reflexivity|]. split; [reflexivity|]. split; vm_compute; reflexivity.
Qed.

Print Assumptions C109_exact.
Print Assumptions C109_doubles.
Print Assumptions C109_transparent.
Print Assumptions C110_converted.
Print Assumptions C110_read_back.
Print Assumptions C110_deleted_refuted.
