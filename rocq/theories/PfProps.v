(** P files: C34-C38, C79. *)
From Coq Require Import QArith Qabs SpecFloat Sorted.
From Verif Require Import Num PfModel PfProofs PfSpec PfExact PfAccept PfHist PfFinal PfFloat.
Open Scope Z_scope.

(** ** C34 *)
Theorem C34_round_trip size w0 fuel (l : list (list Z * list (list (Q * Q)))) w :
  pf_new size = Ok w0 -> write_all fuel w0 l = Some w ->
  Forall (fun x => Forall (fun c => 0 < c < 128) (fst x)) l ->
  exists file, pf_close w = Ok file /\
  forall fuel', (forall x, In x l -> (length (fst x) < fuel')%nat) ->
  exists rd, pf_open fuel' file = Some (Ok rd) /\ r_names rd = map fst l /\ pf_len rd = Z.of_nat (length l) /\
    forall i name polys, nth_error l i = Some (name, polys) ->
      exists x0 x1 y0 y1 out, nth_error (r_bboxes rd) i = Some (x0, x1, y0, y1) /\
        pf_read rd (Z.of_nat i) = Ok out /\ pf_read rd (Z.of_nat i - Z.of_nat (length l)) = Ok out /\
        (~ In name (map fst (firstn i l)) -> pf_get rd name = Ok out) /\
        same_geometry (half_code size x0 x1) (half_code size y0 y1) polys out.
Proof. exact (round_trip size w0 fuel l w). Qed.
(** The same in any arithmetic (doubles included): names, numbers of parts
    and points, indices out of range, unknown names. *)
Theorem C34_shape {T} `{PyNum T} `{PyRound T} size w0 fuel (l : list (list Z * list (list (T * T)))) w file :
  pf_new size = Ok w0 -> write_all fuel w0 l = Some w -> pf_close w = Ok file ->
  Forall (fun x => Forall (fun c => 0 < c < 128) (fst x)) l ->
  forall fuel', (forall x, In x l -> (length (fst x) < fuel')%nat) ->
  exists rd, pf_open fuel' file = Some (Ok rd) /\
    r_names rd = map fst l /\ r_size rd = size /\ length (r_bboxes rd) = length l /\
    (forall i name polys, nth_error l i = Some (name, polys) ->
      exists out, pf_read (T := T) rd (Z.of_nat i) = Ok out /\
        pf_read rd (Z.of_nat i - Z.of_nat (length l)) = Ok out /\
        (~ In name (map fst (firstn i l)) -> pf_get rd name = Ok out) /\
        Forall2 (fun poly part => length part = length poly \/ S (length part) = length poly) polys out) /\
    (forall i, i < - Z.of_nat (length l) \/ Z.of_nat (length l) <= i -> pf_read rd i = Err IndexError) /\
    (forall name, ~ In name (map fst l) -> pf_get rd name = Err ValueError).
Proof. exact (shape_trip size w0 fuel l w file). Qed.
Definition sq (x y d : Z) : list (Q * Q) :=
  [(inject_Z x, inject_Z y); (inject_Z (x + d), inject_Z y); (inject_Z (x + d), inject_Z (y + d)); (inject_Z x, inject_Z y)].
Example C34_case : exists w0 w, pf_new 2 = Ok w0 /\
  write_all 5 w0 [([97], [sq 10 20 5; sq 30 (-40) 7]); ([98; 99], [sq (-170) 0 1])] = Some w.
Proof. do 2 eexists. split; [reflexivity|]. vm_compute. reflexivity. Qed.

(** ** C35 *)
Theorem C35_accepted f w name polys parts :
  reached Q w -> Forall (Forall in_world) polys -> Forall2 ring polys parts -> acceptable parts ->
  exists w' a1 a2 c1 c2, pf_write (S f) w name polys = Some (w', Ok tt) /\
    w_bboxes w' = w_bboxes w ++ [(a1, a2, c1, c2)] /\
    tight_grid grid_lon (map fst (concat parts)) a1 a2 /\ tight_grid grid_lat (map snd (concat parts)) c1 c2 /\
    0 <= a1 < a2 /\ a2 <= 65535 /\ 0 <= c1 < c2 /\ c2 <= 65535.
Proof. intros R. exact (write_accepts f w name polys parts (proj1 (reached_consistent w R))). Qed.
Theorem C35_grid_line f w name poly part :
  Forall in_world poly -> ring poly part -> part <> [] -> on_lon_line part \/ on_lat_line part ->
  exists w', pf_write (S f) w name [poly] = Some (w', Err ZeroDivisionError).
Proof. exact (write_on_line f w name poly part). Qed.
(** A first part without area is ignored by the box, and its points then
    fall outside. *)
Theorem C35_any_parts_refuted : exists w polys, reached Q w /\ Forall (Forall in_world) polys /\
  (forall f, exists w', pf_write (S f) w [97] polys = Some (w', Err StructError)) /\
  length polys = 2%nat.
Proof.
  exists (mkpw 1 [] [] [] [] 1 255), [[(100#1, 10#1); (110#1, 10#1)]%Q; sq 10 20 5].
  split; [exists 1; eexists; split; [reflexivity|constructor]|]. split.
  - unfold sq, in_world, lon_range, lat_range.
    repeat (constructor; [repeat constructor; cbn; discriminate|]). constructor.
  - split; [|reflexivity]. intros f. eexists. vm_compute. reflexivity.
Qed.
Example C35_case : exists w part, reached Q w /\ Forall in_world (sq 10 20 5) /\ ring (sq 10 20 5) part /\ acceptable [part].
Proof.
  exists (mkpw 1 [] [] [] [] 1 255), (removelast (sq 10 20 5)).
  split; [exists 1; eexists; split; [reflexivity|constructor]|].
  split; [|split].
  - repeat constructor; cbn; discriminate.
  - left. split; [|eexists; reflexivity]. do 2 eexists. split; [reflexivity|]. split; [reflexivity|]. split; reflexivity.
  - right. split; [discriminate|]. constructor; [|constructor].
    split; exists (inject_Z 10, inject_Z 20), (inject_Z 15, inject_Z 25); cbn; (split; [auto|split; [auto|discriminate]]).
Qed.
Example C35_line_case : Forall in_world [(-180, 0); (-180, 5)]%Q /\ ring [(-180, 0); (-180, 5)]%Q [(-180, 0); (-180, 5)]%Q /\
  on_lon_line [(-180, 0); (-180, 5)]%Q.
Proof.
  split; [|split].
  - repeat constructor; cbn; discriminate.
  - right. split; [|split; [discriminate|reflexivity]]. intros (p & q & A & B & C & D).
    injection A as <-. injection B as <-. discriminate D.
  - exists 0. intros p [<-|[<-|[]]]; reflexivity.
Qed.

(** ** C36 *)
Theorem C36_terminates w name (polys : list (list (Q * Q))) :
  (forall poly p, In poly polys -> In p poly -> (snd p <= 90)%Q) <->
  exists n, forall fuel, (n <= fuel)%nat -> exists r, pf_write fuel w name polys = Some r.
Proof. exact (write_terminates w name polys). Qed.
Theorem C36_hangs w name (polys : list (list (Q * Q))) poly p :
  In poly polys -> In p poly -> (90 < snd p)%Q -> forall fuel, pf_write fuel w name polys = None.
Proof. exact (write_hangs w name polys poly p). Qed.
(** What is read back for any longitude and any latitude up to 90. *)
Theorem C36_stored size w0 fuel name (polys : list (list (Q * Q))) w :
  pf_new size = Ok w0 -> pf_write fuel w0 name polys = Some (w, Ok tt) -> Forall (fun c => 0 < c < 128) name ->
  exists file, pf_close w = Ok file /\
  exists rd x0 x1 y0 y1 out, pf_open (S (length name)) file = Some (Ok rd) /\
    r_bboxes rd = [(x0, x1, y0, y1)] /\ pf_read rd 0 = Ok out /\
    Forall2 (fun poly got => exists norm part,
      Forall2 (fun p q => -180 <= fst q <= 180 /\ -90 <= snd q <= 90 /\
        (exists k, fst q == fst p + inject_Z (360 * k)) /\ (exists k, snd q == snd p + inject_Z (180 * k)))%Q poly norm /\
      ring norm part /\ Forall2 (near (half_code size x0 x1) (half_code size y0 y1)) got part) polys out.
Proof. exact (stored size w0 fuel name polys w). Qed.
Example C36_case : exists w0 w, pf_new 1 = Ok w0 /\
  pf_write 9 w0 [97] [map (fun p => (fst p + 720, snd p - 180)%Q) (sq 10 20 5)] = Some (w, Ok tt).
Proof. do 2 eexists. split; [reflexivity|]. vm_compute. reflexivity. Qed.

(** ** C37 *)
(** An entity without parts. *)
Theorem C37_no_part f w name : exists w', pf_write (T := Q) f w name [] = Some (w', Err AttributeError) /\
  w_names w' = w_names w ++ [name].
Proof. exact (write_no_part f w name). Qed.
(** A part that is a single point. *)
Theorem C37_single_point w name (polys : list (list (Q * Q))) p :
  (forall poly q, In poly polys -> In q poly -> (snd q <= 90)%Q) -> (forall poly, In poly polys -> poly <> []) ->
  In [p] polys ->
  exists n, forall fuel, (n <= fuel)%nat -> exists w',
    pf_write fuel w name polys = Some (w', Err StopIteration) /\ w_names w' = w_names w ++ [name].
Proof. exact (write_single_point w name polys p). Qed.
(** After either, close fails whatever is written in between (any arithmetic). *)
Theorem C37_close_fails {T} `{PyNum T} `{PyRound T} fuel w name (polys : list (list (T * T))) w' e w'' :
  reached T w -> pf_write fuel w name polys = Some (w', Err e) ->
  e = AttributeError \/ e = StopIteration -> later T w' w'' -> exists e', pf_close w'' = Err e'.
Proof. exact (early_failure fuel w name polys w' e w''). Qed.
(** An empty polygon raises before anything is stored. *)
Theorem C37_empty_polygon w name (polys : list (list (Q * Q))) :
  (forall poly q, In poly polys -> In q poly -> (snd q <= 90)%Q) -> In [] polys ->
  exists n, forall fuel, (n <= fuel)%nat -> pf_write fuel w name polys = Some (w, Err IndexError).
Proof. exact (write_empty_poly w name polys). Qed.
(** A write that raises while quantising, last before close: the file opens,
    lists the name, and reading that entity raises; the others are intact. *)
Theorem C37_quantisation size w0 fuel (l : list (list Z * list (list (Q * Q)))) w name (polys : list (list (Q * Q))) w' e :
  pf_new size = Ok w0 -> write_all fuel w0 l = Some w ->
  pf_write fuel w name polys = Some (w', Err e) -> e = ZeroDivisionError \/ e = StructError ->
  Forall (fun x => Forall (fun c => 0 < c < 128) (fst x)) l -> Forall (fun c => 0 < c < 128) name ->
  exists file file', pf_close w = Ok file /\ pf_close w' = Ok file' /\
  forall fuel', (forall x, In x (map fst l ++ [name]) -> (length x < fuel')%nat) ->
  exists rd rd', pf_open fuel' file = Some (Ok rd) /\ pf_open (T := Q) fuel' file' = Some (Ok rd') /\
    r_names rd' = map fst l ++ [name] /\
    (forall i, (i < length l)%nat -> pf_read rd' (Z.of_nat i) = pf_read rd (Z.of_nat i)) /\
    pf_read rd' (Z.of_nat (length l)) = Err StructError.
Proof. exact (late_failure size w0 fuel l w name polys w' e). Qed.
(** If writing goes on after such a failure, later entities come back with
    other geometry: here the first point of b is at longitude 20 and the one
    read at longitude 30. *)
Theorem C37_later_entities_refuted : exists w0 w1 w2 w3 file rd out,
  pf_new 1 = Ok w0 /\ pf_write 1 w0 [97] [[(-180, 0); (-180, 5)]%Q] = Some (w1, Err ZeroDivisionError) /\
  pf_write 1 w1 [98] [[(20, 20); (30, 20); (30, 30)]%Q] = Some (w2, Ok tt) /\
  pf_write 1 w2 [99] [[(50, 60); (57, 60); (57, 67); (50, 60)]%Q] = Some (w3, Ok tt) /\
  pf_close w3 = Ok file /\ pf_open 2 file = Some (Ok rd) /\ pf_get (T := Q) rd [98] = Ok out /\
  forall dx dy, (dx < 9)%Q -> ~ same_geometry dx dy [[(20, 20); (30, 20); (30, 30)]%Q] out.
Proof. exact later_entities. Qed.
Example C37_case : exists w0 w1, pf_new 1 = Ok w0 /\
  pf_write 1 w0 [97] [[(-180, 0); (-180, 5)]%Q] = Some (w1, Err ZeroDivisionError).
Proof. do 2 eexists. split; [reflexivity|]. vm_compute. reflexivity. Qed.

(** ** C38: double arithmetic *)
Theorem C38_upper_edge fuel w0 w name (polys : list (list (f64 * f64))) w' r x0 x1 y0 y1 poly p :
  pf_new 8 = Ok w0 -> later f64 w0 w ->
  pf_write fuel w name polys = Some (w', r) ->
  w_bboxes w' = w_bboxes w ++ [(x0, x1, y0, y1)] ->
  (0 <= x0 < 65536 /\ 0 <= x1 < 65536 /\ 0 <= y0 < 65536 /\ 0 <= y1 < 65536) ->
  In poly polys -> In p (removelast poly) -> in_world64 p ->
  fst p = edge64_lon x1 \/ snd p = edge64_lat y1 ->
  r = Err StructError \/ r = Err ZeroDivisionError.
Proof. exact (upper_edge fuel w0 w name polys w' r x0 x1 y0 y1 poly p). Qed.
Theorem C38_lon_180 f w0 w name (poly : list (f64 * f64)) p :
  pf_new 8 = Ok w0 -> later f64 w0 w ->
  Forall (fun p => wf64 (fst p) /\ wf64 (snd p) /\ in_world64 p) poly -> In p (removelast poly) ->
  fst p = fofZ 180 ->
  exists w', pf_write (S f) w name [poly] = Some (w', Err StructError) \/
             pf_write (S f) w name [poly] = Some (w', Err ZeroDivisionError).
Proof. exact (lon_180 f w0 w name poly p). Qed.
(** The same polygon is accepted with 4-byte coordinates, and raises
    struct.error with 8-byte ones. *)
Definition sq64 : list (f64 * f64) :=
  [(fofZ 10, fofZ 20); (fofZ 180, fofZ 20); (fofZ 180, fofZ 30); (fofZ 10, fofZ 20)].
Example C38_case : exists w8 w4 w8' w4', pf_new 8 = Ok w8 /\ pf_new 4 = Ok w4 /\
  pf_write 1 w8 [97] [sq64] = Some (w8', Err StructError) /\ pf_write 1 w4 [97] [sq64] = Some (w4', Ok tt) /\
  Forall (fun p => wf64 (fst p) /\ wf64 (snd p) /\ in_world64 p) sq64.
Proof.
  do 4 eexists. split; [reflexivity|]. split; [reflexivity|].
  split; [vm_compute; reflexivity|]. split; [vm_compute; reflexivity|].
  repeat constructor.
Qed.

(** ** C79 *)
Theorem C79_parts {A} (points : list A) parts : hd_error parts = Some 0 ->
  StronglySorted Z.le (parts ++ [Z.of_nat (length points)]) ->
  concat (sf_parts points parts) = points /\ length (sf_parts points parts) = length parts.
Proof. exact (sf_parts_concat points parts). Qed.
(** Part [i] runs from its offset to the next one, or to the end. *)
Theorem C79_part {A} (points : list A) parts i a b :
  nth_error parts i = Some a -> nth_error (parts ++ [Z.of_nat (length points)]) (S i) = Some b ->
  nth_error (sf_parts points parts) i = Some (py_slice points a b).
Proof. exact (sf_parts_nth points parts i a b). Qed.
Example C79_case : hd_error [0; 2; 2] = Some 0 /\ StronglySorted Z.le ([0; 2; 2] ++ [Z.of_nat (length [7; 8; 9])]) /\
  sf_parts [7; 8; 9] [0; 2; 2] = [[7; 8]; []; [9]].
Proof. split; [reflexivity|]. split; [repeat constructor; discriminate|reflexivity]. Qed.

Print Assumptions C34_round_trip.
Print Assumptions C34_shape.
Print Assumptions C35_accepted.
Print Assumptions C35_grid_line.
Print Assumptions C35_any_parts_refuted.
Print Assumptions C36_terminates.
Print Assumptions C36_hangs.
Print Assumptions C36_stored.
Print Assumptions C37_no_part.
Print Assumptions C37_single_point.
Print Assumptions C37_close_fails.
Print Assumptions C37_empty_polygon.
Print Assumptions C37_quantisation.
Print Assumptions C37_later_entities_refuted.
Print Assumptions C38_upper_edge.
Print Assumptions C38_lon_180.
Print Assumptions C79_parts.
Print Assumptions C79_part.
