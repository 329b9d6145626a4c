(** Shapefile geometry: theorems. *)
From Verif Require Import Py ShpFile ShpWriterModel ShpReaderModel ShpSpec ShpPrograms ShpRound ShpSuccess ShpOutcome ShpTwice.
Open Scope Z_scope.
Open Scope m_scope.

(** Doubles for the examples: 1.0, 2.0, 3.0, -1.0 *)
Definition d1 : dbl := 4607182418800017408.
Definition d2 : dbl := 4611686018427387904.
Definition d3 : dbl := 4613937818241073152.
Definition dm1 : dbl := 13830554455654793216.
(** A closed triangle, and an open one with a hole whose points have four
    coordinates *)
Definition tri : list (list dbl) := [[0; 0]; [d3; 0]; [0; d3]; [0; 0]].
Definition tri2 : list (list dbl) := [[dm1; 0; d1; d2]; [d2; 0; d1; dm1]; [0; d2]].
Definition calls1 : list call := [Poly [tri] 5; Poly [tri2; [[d1; d1]]] 5; Poly [[[d1; d2]; [d2; d2]; [d1; d2]]] 5].
Definition after (given : option Z) (calls : list call) : writer := fst (for_each do_call calls (Writer given)).
Definition shp_saved (w : writer) : writer := fst (saveShp new_file w).
Definition shx_saved (w : writer) : writer := fst (saveShx new_file w).
Ltac doubles_tac := repeat (first [apply Forall_nil | apply Forall_cons | exact I]); (split; [discriminate|reflexivity]).
Ltac type_tac := split; [discriminate|first [left; reflexivity | right; split; [left; reflexivity|do 2 eexists; first [left; reflexivity|right; reflexivity]]]].
Ltac saved_tac := constructor; [doubles_tac | vm_compute; reflexivity | type_tac | vm_compute; reflexivity | vm_compute; reflexivity].

(** ** C72 *)
Theorem C72_geometry_round_trip : forall given calls t w0 w1 w2, good t -> saved given calls t w0 w1 w2 ->
  exists gs ss b z m, Forall2 adds calls gs /\ Forall2 (read_back (mixed (flat_map vertices gs)) t) gs ss /\
    bounds (flat_map vertices gs) b /\ range_of (map vz (flat_map vertices gs)) z /\ range0 (map vm (flat_map vertices gs)) m /\
    forall shx, shx = None \/ shx = Some (fdata (w_shx w2)) ->
    exists r0, Reader (Some (fdata (w_shp w2))) shx None = (r0, Ok tt) /\ r_type r0 = Some t /\ r_bbox r0 = b /\ r_elevation r0 = z /\ r_measure r0 = m /\
      forall r, used (length calls) r0 r -> forall fuel, (length calls < fuel)%nat ->
        (exists r', shapes fuel r = (r', Ok (Some ss))) /\
        iterShapes fuel r = (ss, Some (Ok tt)) /\
        (forall k s, nth_error ss k = Some s -> exists r', shape_at fuel (Z.of_nat k) r = (r', Ok (Some s))) /\
        (shx <> None -> forall k s, nth_error ss k = Some s -> exists r', shape_at fuel (Z.of_nat k - Z.of_nat (length calls)) r = (r', Ok (Some s))) /\
        (forall i, (if shx then i < - Z.of_nat (length calls) else i < 0) \/ Z.of_nat (length calls) <= i ->
           exists r', shape_at fuel i r = (r', Err (if shx then IndexError else TypeError))).
Proof. exact round_trip. Qed.
Example C72_case : good 5 /\
  (let w0 := after None calls1 in let w1 := shp_saved w0 in let w2 := shx_saved w1 in
   saved None calls1 5 w0 w1 w2 /\ length (fdata (w_shp w2)) = 464%nat) /\
  (let calls := [Point d1 d2 dm1 d1; Line [tri2; [[d1; d1]]] 23; Point 0 0 0 0] in
   good 1 /\ exists w0 w1 w2, saved (Some 1) calls 1 w0 w1 w2) /\
  (let calls := [Line [tri2] 23; Poly [tri; tri2] 23] in
   good 23 /\ exists w0 w1 w2, saved None calls 23 w0 w1 w2) /\
  (let calls := [Point d1 d2 dm1 d1; Poly [tri; tri2] 5] in
   good 11 /\ good 21 /\ good 8 /\ (exists w0 w1 w2, saved (Some 11) calls 11 w0 w1 w2) /\
   (exists w0 w1 w2, saved (Some 21) calls 21 w0 w1 w2) /\ exists w0 w1 w2, saved (Some 8) calls 8 w0 w1 w2).
Proof.
  assert (G : good 5 /\ good 1 /\ good 23 /\ good 11 /\ good 21 /\ good 8) by (unfold good; cbn [In]; tauto).
  destruct G as [G5 [G1 [G23 [G11 [G21 G8]]]]].
  cbv zeta. split; [exact G5|]. split; [ split; [saved_tac|vm_compute; reflexivity]|].
  split; [split; [exact G1|do 3 eexists; saved_tac]|]. split; [split; [exact G23|do 3 eexists; saved_tac]|].
  split; [exact G11|]. split; [exact G21|]. split; [exact G8|]. split; [do 3 eexists; saved_tac|]. split; do 3 eexists; saved_tac.
Qed.

(** ** C73 *)
Theorem C73_header_length : forall given calls t w0 w1 w2, good t -> saved given calls t w0 w1 w2 ->
  let shp := fdata (w_shp w2) in let shx := fdata (w_shx w2) in
  declares shp (Z.of_nat (length shp)) /\ declares shx (Z.of_nat (length shx)) /\ length shx = (100 + 8 * length calls)%nat.
Proof. exact lengths_ok. Qed.
Example C73_case : exists w0 w1 w2, good 5 /\ saved None calls1 5 w0 w1 w2 /\
  declares (fdata (w_shp w2)) 464 /\ declares (fdata (w_shx w2)) 124.
Proof. do 3 eexists. unfold good. cbn [In]. split; [tauto|]. split; [saved_tac|]. split; vm_compute; intuition discriminate. Qed.
(** Multipoint M (type 28): the points are not written and the declared length is
    not that of the file. *)
Theorem C73_multipoint_m_refuted : exists calls w0 w1 w2, saved (Some 28) calls 28 w0 w1 w2 /\
  length (fdata (w_shp w2)) = 168%nat /\ declares (fdata (w_shp w2)) 144.
Proof. exists [Point d1 d2 0 d3]. do 3 eexists. split; [saved_tac|]. split; vm_compute; intuition discriminate. Qed.

(** ** C74 *)
Theorem C74_no_parts_first : forall given calls t gs w, good t \/ z_type t -> program given calls t gs w ->
  parts_file t -> first_single calls -> exists w', saveShp new_file w = (w', Err UnboundLocalError).
Proof.
  intros given calls t gs w [G|G] P A B;
    [apply (save_cases given calls t gs w G P)|apply (save_z_cases given calls t gs w G P)]; auto.
Qed.
Theorem C74_empty_shape : forall given calls t gs w, good t \/ z_type t -> program given calls t gs w ->
  ~ (parts_file t /\ first_single calls) -> calls = [] \/ Exists (fun g => vertices g = []) gs ->
  exists w', saveShp new_file w = (w', Err ValueError).
Proof.
  intros given calls t gs w [G|G] P A B;
    [apply (save_cases given calls t gs w G P)|apply (save_z_cases given calls t gs w G P)]; auto.
Qed.
Theorem C74_no_parts_later : forall given calls t gs w, good t -> program given calls t gs w ->
  parts_file t -> ~ first_single calls -> calls <> [] -> Forall (fun g => vertices g <> []) gs ->
  Exists (fun c => single c = true) calls -> exists w', saveShp new_file w = (w', Err AttributeError).
Proof. intros given calls t gs w G P A B C D E. apply (save_cases given calls t gs w G P); auto. Qed.
Theorem C74_z_types : forall given calls t gs w, z_type t -> program given calls t gs w ->
  ~ (parts_file t /\ first_single calls) -> calls <> [] -> Forall (fun g => vertices g <> []) gs ->
  exists w', saveShp new_file w = (w', Err AttributeError).
Proof. intros given calls t gs w G P A B C. apply (save_z_cases given calls t gs w G P); auto. Qed.
Theorem C74_untyped_point : forall x y z m calls w,
  for_each do_call (Point x y z m :: calls) (Writer None) = (w, Ok tt) ->
  Forall call_doubles (Point x y z m :: calls) -> 112 + 12 * Z.of_nat (length calls) < 4294967296 ->
  exists w', saveShp new_file w = (w', Err StructError).
Proof. exact untyped_point. Qed.
Ltac adds_tac := first [reflexivity | eexists; split; [reflexivity|right; split; [unfold ring_type; lia|reflexivity]]
  | eexists; split; [reflexivity|left; split; [unfold ring_type; lia|]];
    repeat (first [apply Forall2_nil|apply Forall2_cons]); eexists; (split; [reflexivity|]);
    first [left; split; [repeat (first [apply Forall2_nil|apply Forall2_cons]); reflexivity|reflexivity]
          | right; split; [intros X; inversion X; discriminate|reflexivity]]].
Ltac program_tac := constructor; [doubles_tac | vm_compute; reflexivity | type_tac | repeat (first [apply Forall2_nil|apply Forall2_cons; [adds_tac|]])
  | exists 8; split; [repeat constructor; cbn; lia|vm_compute; reflexivity]].
Example C74_cases :
  (exists gs w, program (Some 5) [Point d1 d2 0 0; Line [tri] 3] 5 gs w /\ parts_file 5 /\ first_single [Point d1 d2 0 0; Line [tri] 3]) /\
  (exists gs w, program (Some 1) [Point d1 d2 0 0; Null] 1 gs w /\ ~ parts_file 1 /\ Exists (fun g => vertices g = []) gs) /\
  (exists gs w, program None [Line [tri] 3; Point d1 d2 0 0] 3 gs w /\ parts_file 3 /\
     ~ first_single [Line [tri] 3; Point d1 d2 0 0] /\ Forall (fun g => vertices g <> []) gs) /\
  (exists gs w, program None [Poly [tri] 15] 15 gs w /\ z_type 15 /\ ~ first_single [Poly [tri] 15] /\ Forall (fun g => vertices g <> []) gs) /\
  (exists w, for_each do_call [Point d1 d2 0 0] (Writer None) = (w, Ok tt)).
Proof.
  split; [|split; [|split; [|split]]].
  - do 2 eexists. split; [program_tac|]. split; [cbn; tauto|eexists; split; reflexivity].
  - do 2 eexists. split; [program_tac|]. split; [cbn; lia|]. apply Exists_cons_tl, Exists_cons_hd. reflexivity.
  - do 2 eexists. split; [program_tac|]. split; [cbn; tauto|]. split; [intros [c [X Y]]; injection X as <-; discriminate|]. repeat constructor; discriminate.
  - do 2 eexists. split; [program_tac|]. split; [cbn; tauto|]. split; [intros [c [X Y]]; injection X as <-; discriminate|]. repeat constructor; discriminate.
  - eexists. reflexivity.
Qed.

(** ** C75 *)
Theorem C75_second_save : forall given calls1 calls2 t w0 w1 w2 w3 w4 w5, good t -> twice given calls1 calls2 t w0 w1 w2 w3 w4 w5 ->
  let n1 := length calls1 in let n := length (calls1 ++ calls2) in
  exists gs ss b z m, Forall2 adds (calls1 ++ calls2) gs /\ Forall2 (read_back (mixed (flat_map vertices gs)) t) gs ss /\
    bounds (flat_map vertices gs) b /\ range_of (map vz (flat_map vertices gs)) z /\ range0 (map vm (flat_map vertices gs)) m /\
    forall shx, shx = None \/ shx = Some (fdata (w_shx w5)) ->
    exists r0, Reader (Some (fdata (w_shp w5))) shx None = (r0, Ok tt) /\ r_type r0 = Some t /\ r_bbox r0 = b /\ r_elevation r0 = z /\ r_measure r0 = m /\
      forall r, used n r0 r -> forall fuel, (n < fuel)%nat ->
        (exists r', shapes fuel r = (r', Ok (Some ss))) /\
        iterShapes fuel r = (ss, Some (Ok tt)) /\
        (forall k, (k < n)%nat -> exists r' s, shape_at fuel (Z.of_nat k) r = (r', Ok (Some s)) /\
           nth_error ss (match shx with Some _ => if (k <? n1)%nat then k else (k - n1)%nat | None => k end) = Some s) /\
        (shx <> None -> forall k, (k < n)%nat -> exists r' s, shape_at fuel (Z.of_nat k - Z.of_nat n) r = (r', Ok (Some s)) /\
           nth_error ss (if (k <? n1)%nat then k else (k - n1)%nat) = Some s) /\
        (forall i, (if shx then i < - Z.of_nat n else i < 0) \/ Z.of_nat n <= i ->
           exists r', shape_at fuel i r = (r', Err (if shx then IndexError else TypeError))).
Proof. exact twice_read. Qed.
Theorem C75_unchanged : forall given calls t w0 w1 w2 w3 w4 w5, good t -> twice given calls [] t w0 w1 w2 w3 w4 w5 ->
  fdata (w_shx w5) = fdata (w_shx w2).
Proof. exact twice_same. Qed.
Ltac twice_tac := constructor; [saved_tac | doubles_tac | vm_compute; reflexivity | vm_compute; reflexivity | vm_compute; reflexivity].
Example C75_case : good 5 /\ (exists w0 w1 w2 w3 w4 w5, twice None calls1 [Poly [tri2] 5; Line [tri] 3] 5 w0 w1 w2 w3 w4 w5) /\
  exists w0 w1 w2 w3 w4 w5, twice None calls1 [] 5 w0 w1 w2 w3 w4 w5.
Proof. unfold good. cbn [In]. split; [tauto|]. split; do 6 eexists; twice_tac. Qed.

(** ** C93 *)
Theorem C93_saving_succeeds : forall given calls t gs w, good t -> program given calls t gs w ->
  ((exists w1 w2, saveShp new_file w = (w1, Ok tt) /\ saveShx new_file w1 = (w2, Ok tt)) <->
   calls <> [] /\ Forall (fun g => vertices g <> []) gs /\ (parts_file t -> Forall (fun c => single c = false) calls)).
Proof. exact save_iff. Qed.
Theorem C93_adding : forall c w,
  (exists parts t, call_parts c = Some (parts, t) /\ ring_type t /\ Exists (fun p => p = []) parts /\
     do_call c w = (w, Err IndexError)) \/
  ((forall parts t, call_parts c = Some (parts, t) -> ring_type t -> ~ Exists (fun p => p = []) parts) /\
     exists w', do_call c w = (w', Ok tt)).
Proof. exact do_call_outcome. Qed.
Theorem C93_geometry_unique : forall calls gs gs', Forall2 adds calls gs -> Forall2 adds calls gs' -> gs = gs'.
Proof. exact adds_all_fun. Qed.
Example C93_case : (exists gs w, program None calls1 5 gs w) /\
  (exists w, do_call (Poly [tri; []] 5) (Writer None) = (w, Err IndexError)) /\
  (exists w, do_call (Line [tri; []] 3) (Writer None) = (w, Ok tt)).
Proof. split; [do 2 eexists; program_tac|]. split; eexists; vm_compute; reflexivity. Qed.

(** ** C94 *)
Theorem C94_layout : forall given calls t w0 w1 w2, good t -> saved given calls t w0 w1 w2 ->
  exists gs cs b z m, Forall2 adds calls gs /\ Forall2 (content t) gs cs /\
    bounds (flat_map vertices gs) b /\ range_of (map vz (flat_map vertices gs)) z /\ range0 (map vm (flat_map vertices gs)) m /\
    fdata (w_shp w2) = shp_file t b z m cs /\ fdata (w_shx w2) = shx_file t b z m cs.
Proof. exact layout_ok. Qed.
Example C94_case : good 21 /\ exists w0 w1 w2, saved (Some 21) [Point d1 d2 d3 dm1] 21 w0 w1 w2 /\
  fdata (w_shp w2) = shp_file 21 [d1; d2; d1; d2] [d3; d3] [dm1; 0] [le32 21 ++ doubles [d1; d2; dm1]].
Proof. unfold good. cbn [In]. split; [tauto|]. do 3 eexists. split; [saved_tac|]. vm_compute. reflexivity. Qed.

Print Assumptions C72_geometry_round_trip.
Print Assumptions C73_header_length.
Print Assumptions C73_multipoint_m_refuted.
Print Assumptions C74_no_parts_first.
Print Assumptions C74_empty_shape.
Print Assumptions C74_no_parts_later.
Print Assumptions C74_z_types.
Print Assumptions C74_untyped_point.
Print Assumptions C75_second_save.
Print Assumptions C75_unchanged.
Print Assumptions C93_saving_succeeds.
Print Assumptions C93_adding.
Print Assumptions C93_geometry_unique.
Print Assumptions C94_layout.
