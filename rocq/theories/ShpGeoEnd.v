(** The GeoJSON-like view of rings with known orientation, of shapes read from a
    file and of shapes in a Writer. *)
From Coq Require Import Reals Lra SpecFloat.
From Flocq Require Import Core.
From Verif Require Import Py Num RealNum FloatLib ShpFile ShpWriterModel ShpReaderModel ShpSpec ShpGeoModel ShpGeoSpec ShpGeo ShpGeoFloat ShpGeoView ShpWriterProofs ShpPrograms ShpCalls.
Open Scope Z_scope.

Lemma rlt_bool_iff a b : Rlt_bool a b = true <-> (a < b)%R.
Proof. destruct (Rlt_bool_spec a b); split; intros; try reflexivity; try assumption; [discriminate|lra]. Qed.
Lemma raux_lt a b : Raux.Rlt_bool a b = true <-> (a < b)%R.
Proof. destruct (Raux.Rlt_bool_spec a b); split; intros; try reflexivity; try assumption; [discriminate|lra]. Qed.
(** ** Rings of known orientation *)
Lemma cut_map {A B} (f : A -> B) parts points rings : cut_at parts points rings -> cut_at parts (map f points) (map (map f) rings).
Proof.
  intros [C [L K]]. split; [rewrite <- concat_map, C; reflexivity|]. split; [rewrite map_length; exact L|].
  intros k o E. rewrite firstn_map, <- concat_map, map_length. apply K, E.
Qed.
Lemma view_real t parts points rings : polygon_type t -> offsets (length points) parts -> length parts <> 1%nat -> cut_at parts points rings ->
  Forall closed (tl rings) ->
  exists groups, grouped (fun r => (shoelace r < 0)%R) rings groups /\
    geo_interface (Some t) (flat points) (Some parts) = Ok (Some (polygons (map (map flat) groups))).
Proof.
  intros PT OF N CU CL. unfold flat. apply view_polygons; [exact PT|rewrite map_length; exact OF|exact N|apply cut_map, CU|].
  eapply Forall_impl; [|exact CL]. intros r [p [mid ->]]. exists (shoelace (ring_from p mid) / 2)%R. split; [apply area_closed|].
  cbn [nlt nofZ NumR]. rewrite rlt_bool_iff. lra.
Qed.
Lemma area_sign r : roomy r -> exists a, signed_area (flat (map dpt r)) = Ok a /\ isf a (shoelace (map rpt r) / 2)%R /\ (nlt a (nofZ 0) = true <-> (shoelace (map rpt r) < 0)%R).
Proof.
  intros [B [p [mid [-> [B0 [BB F]]]]]]. destruct (area_double B p mid B0 BB F) as [a [E I]]. exists a. split; [exact E|]. split; [exact I|].
  pose proof (isf_lt a (fofZ 0) _ _ I (isf_int 0 ltac:(cbn; lia))) as X. cbn [nlt nofZ NumF]. rewrite X.
  rewrite raux_lt. lra.
Qed.

Lemma view_integer t parts points rings : polygon_type t -> offsets (length points) parts -> length parts <> 1%nat -> cut_at parts points rings ->
  Forall roomy (tl rings) ->
  exists groups, grouped (fun r => (shoelace (map rpt r) < 0)%R) rings groups /\
    geo_interface (Some t) (flat (map dpt points)) (Some parts) = Ok (Some (polygons (map (map (fun r => flat (map dpt r))) groups))).
Proof.
  intros PT OF N CU CL. apply view_polygons; [exact PT|unfold flat; rewrite !map_length; exact OF|exact N| |].
  - apply (cut_map dpt) in CU. apply (cut_map (fun p : f64 * f64 => [fst p; snd p])) in CU. rewrite (map_map (map dpt)) in CU. exact CU.
  - eapply Forall_impl; [|exact CL]. intros r R. destruct (area_sign r R) as [a [E [_ S]]]. exists a. auto.
Qed.

(** ** Shapes read from a file *)
Lemma starts_nth g : forall n k o, nth_error (starts_from n g) k = Some o -> o = n + Z.of_nat (length (concat (firstn k g))).
Proof.
  induction g as [|p g IH]; intros n k o E; [destruct k; discriminate|]. destruct k as [|k]; [injection E as <-; cbn; lia|].
  cbn in E. apply IH in E. cbn [firstn concat]. rewrite app_length. lia.
Qed.
Lemma starts_length g : forall n, length (starts_from n g) = length g.
Proof. induction g as [|p g IH]; intros n; [reflexivity|]. cbn. rewrite IH. reflexivity. Qed.
Lemma starts_cut g : cut_at (part_starts g) (vertices g) g.
Proof. split; [reflexivity|]. split; [symmetry; apply starts_length|]. intros k o E. apply starts_nth in E. lia. Qed.
Lemma concat_firstn_le {A} (g : list (list A)) k : (length (concat (firstn k g)) <= length (concat g))%nat.
Proof. rewrite <- (firstn_skipn k g) at 2. rewrite concat_app, app_length. lia. Qed.
Lemma starts_offsets g : g <> [] -> offsets (length (vertices g)) (part_starts g).
Proof.
  intros N. split; [destruct g; [contradiction|reflexivity]|]. split.
  - intros k a b A B. apply starts_nth in A, B. subst.
    rewrite <- (firstn_skipn k (firstn (S k) g)), firstn_firstn, concat_app, app_length. rewrite Nat.min_l by lia. lia.
  - apply Forall_forall. intros o I. apply In_nth_error in I. destruct I as [k E]. apply starts_nth in E. pose proof (concat_firstn_le g k). unfold vertices. lia.
Qed.
(** The coordinates of a vertex as floats *)
Definition fxy (v : vertex) : list f64 := map f64_of_bits (xy v).
Lemma fxy_planar r : r <> [] -> planar (map fxy r).
Proof.
  intros N. split; [apply Forall_forall; intros p I; apply in_map_iff in I; destruct I as [v [<- _]]; cbn; lia|].
  destruct r; [contradiction|]. left. reflexivity.
Qed.
Lemma area_vertices r : (2 <= length r)%nat -> exists a, signed_area (map fxy r) = Ok a.
Proof. intros L. apply area_some; [apply fxy_planar; destruct r; [cbn in L; lia|discriminate]|rewrite map_length; exact L]. Qed.
Definition clockwise (r : list vertex) : Prop := exists a, signed_area (map fxy r) = Ok a /\ SFltb a (fofZ 0) = true.
Lemma read_points g : map (map f64_of_bits) (map xy (vertices g)) = map fxy (vertices g).
Proof. apply map_map. Qed.
Definition short (r : list vertex) (e : exn) : Prop := (r = [] /\ e = ValueError) \/ (exists v, r = [v] /\ e = IndexError).
Lemma area_short r e : short r e -> signed_area (map fxy r) = Err e.
Proof. intros [[-> ->]|[v [-> ->]]]; [reflexivity|]. apply area_index_error. apply (fxy_planar [v]). discriminate. Qed.
Lemma view_vertices t g : polygon_type t -> (2 <= length g)%nat ->
  (Forall (fun r => (2 <= length r)%nat) (tl g) ->
   exists groups, grouped clockwise g groups /\ geo_interface (Some t) (map fxy (vertices g)) (Some (part_starts g)) = Ok (Some (polygons (map (map (map fxy)) groups)))) /\
  (forall first pre bad post e, g = first :: pre ++ bad :: post -> Forall (fun r => (2 <= length r)%nat) pre -> short bad e ->
   geo_interface (Some t) (map fxy (vertices g)) (Some (part_starts g)) = Err e).
Proof.
  intros PT L. assert (N : g <> []) by (destruct g; [cbn in L; lia|discriminate]).
  assert (OF : offsets (length (map fxy (vertices g))) (part_starts g)) by (rewrite map_length; apply starts_offsets, N).
  split.
  - intros FA. apply view_polygons; [exact PT|exact OF|unfold part_starts; rewrite starts_length; lia|apply cut_map, starts_cut|].
    eapply Forall_impl; [|exact FA]. intros r Lr. destruct (area_vertices r Lr) as [a E]. exists a. split; [exact E|]. split; [intros X; exists a; auto|].
    intros [b [E' X]]. rewrite E in E'. apply ok_eq in E'. subst b. exact X.
  - intros first pre bad post e -> FA SH. pose proof (cut_map fxy _ _ _ (starts_cut (first :: pre ++ bad :: post))) as CU. cbn [map] in CU. rewrite map_app in CU. cbn [map] in CU.
    eapply view_error; [exact PT|exact OF|exact CU| |apply area_short, SH].
    apply Forall_forall. intros r I. apply in_map_iff in I. destruct I as [r0 [<- I]]. rewrite Forall_forall in FA. apply area_vertices, FA, I.
Qed.
Lemma read_view ms t g s : read_back ms t g s ->
  (t = 1 \/ t = 11 \/ t = 21 -> exists v, hd_error (vertices g) = Some v /\ geo_of s = Ok (Some (GPoint (fxy v)))) /\
  (t = 8 -> geo_of s = Ok (Some (GMultiPoint (map fxy (vertices g))))) /\
  (t = 3 \/ t = 23 -> (exists part, g = [part] /\ geo_of s = Ok (Some (GLineString (map fxy part)))) \/
                     ((2 <= length g)%nat /\ geo_of s = Ok (Some (GMultiLineString (map (map fxy) g))))) /\
  (t = 5 \/ t = 25 -> (exists part, g = [part] /\ geo_of s = Ok (Some (GPolygon [map fxy part]))) \/
                     ((2 <= length g)%nat /\
                      ((Forall (fun r => (2 <= length r)%nat) (tl g) /\ exists groups, grouped clockwise g groups /\ geo_of s = Ok (Some (polygons (map (map (map fxy)) groups)))) \/
                       (exists first pre bad post e, g = first :: pre ++ bad :: post /\ Forall (fun r => (2 <= length r)%nat) pre /\ short bad e /\ geo_of s = Err e)))).
Proof.
  intros RB.
  assert (NE : forall b, bounds (vertices g) b -> g <> []).
  { intros b [x0 [y0 [x1 [y1 [_ [[I _] _]]]]]] ->. destruct I. }
  assert (ONE : forall part : list vertex, vertices [part] = part) by (intros part; unfold vertices; cbn; apply app_nil_r).
  assert (DEC : forall l : list (list vertex), Forall (fun r => (2 <= length r)%nat) l \/ exists pre bad post e, l = pre ++ bad :: post /\ Forall (fun r => (2 <= length r)%nat) pre /\ short bad e).
  { induction l as [|r l IH]; [left; constructor|]. destruct r as [|v [|w r]].
    - right. exists [], [], l, ValueError. split; [reflexivity|]. split; [constructor|]. left. auto.
    - right. exists [], [v], l, IndexError. split; [reflexivity|]. split; [constructor|]. right. exists v. auto.
    - destruct IH as [IH|[pre [bad [post [e [-> [IH SH]]]]]]]; [left; constructor; [cbn; lia|exact IH]|]. right. exists ((v :: w :: r) :: pre), bad, post, e. split; [reflexivity|]. split; [constructor; [cbn; lia|exact IH]|exact SH]. }
  assert (PL : forall tt, (tt = 3 \/ tt = 23) -> g <> [] -> (exists part, g = [part] /\ geo_interface (Some tt) (map fxy (vertices g)) (Some (part_starts g)) = Ok (Some (GLineString (map fxy part)))) \/
      ((2 <= length g)%nat /\ geo_interface (Some tt) (map fxy (vertices g)) (Some (part_starts g)) = Ok (Some (GMultiLineString (map (map fxy) g))))).
  { intros tt T N. destruct g as [|p [|q g']]; [contradiction| |].
    - left. exists p. split; [reflexivity|]. rewrite ONE. destruct T as [->| ->]; reflexivity.
    - right. split; [cbn; lia|]. set (g := p :: q :: g') in *. destruct (view_lines tt (map fxy (vertices g)) (part_starts g)) as [rings [CU E]].
      + destruct T as [->| ->]; unfold line_type; tauto.
      + rewrite map_length. apply starts_offsets, N.
      + unfold part_starts. rewrite starts_length. cbn. lia.
      + rewrite E. repeat f_equal. eapply cut_unique; [exact CU|apply cut_map, starts_cut]. }
  assert (PG : forall tt, (tt = 5 \/ tt = 25) -> g <> [] -> (exists part, g = [part] /\ geo_interface (Some tt) (map fxy (vertices g)) (Some (part_starts g)) = Ok (Some (GPolygon [map fxy part]))) \/
      ((2 <= length g)%nat /\ 
                      ((Forall (fun r => (2 <= length r)%nat) (tl g) /\ exists groups, grouped clockwise g groups /\ geo_interface (Some tt) (map fxy (vertices g)) (Some (part_starts g)) = Ok (Some (polygons (map (map (map fxy)) groups)))) \/
                       (exists first pre bad post e, g = first :: pre ++ bad :: post /\ Forall (fun r => (2 <= length r)%nat) pre /\ short bad e /\ geo_interface (Some tt) (map fxy (vertices g)) (Some (part_starts g)) = Err e)))).
  { intros tt T N. destruct g as [|p [|q g']]; [contradiction| |].
    - left. exists p. split; [reflexivity|]. rewrite ONE. destruct T as [->| ->]; reflexivity.
    - right. set (g := p :: q :: g') in *. assert (L : (2 <= length g)%nat) by (cbn; lia). split; [exact L|].
      destruct (view_vertices tt g ltac:(destruct T as [->| ->]; unfold polygon_type; tauto) L) as [V1 V2].
      destruct (DEC (tl g)) as [FA|[pre [bad [post [e [E [FA SH]]]]]]]; [left; auto|right].
      exists p, pre, bad, post, e. assert (G : g = p :: pre ++ bad :: post) by (cbn [tl g] in E; unfold g; rewrite E; reflexivity). split; [exact G|]. split; [exact FA|]. split; [exact SH|].
      apply (V2 p pre bad post e G FA SH). }
  destruct RB as [[-> [v [V ->]]]|[[-> [v [V ->]]]|[[-> [v [V ->]]]|[[-> [b [B ->]]]|[[T [b [B ->]]]|[T [b [m [B [_ ->]]]]]]]]]].
  - split; [intros _; exists v; auto|]. repeat split; intros X; exfalso; lia.
  - split; [intros _; exists v; auto|]. repeat split; intros X; exfalso; lia.
  - split; [intros _; exists v; auto|]. repeat split; intros X; exfalso; lia.
  - split; [intros X; exfalso; lia|]. split; [intros _; unfold geo_of; cbn [s_type s_points s_parts]; rewrite read_points; reflexivity|]. split; intros X; exfalso; lia.
  - split; [intros X; exfalso; lia|]. split; [intros X; exfalso; lia|]. unfold geo_of. cbn [s_type s_points s_parts]. rewrite read_points.
    split; intros X; [apply PL|apply PG]; eauto.
  - split; [intros X; exfalso; lia|]. split; [intros X; exfalso; lia|]. unfold geo_of. cbn [s_type s_points s_parts]. rewrite read_points.
    split; intros X; [apply PL|apply PG]; eauto.
Qed.

(** ** Shapes in a Writer *)
Lemma parts_count parts t g : parts_geometry parts t g -> length g = length parts.
Proof.
  intros [ps [-> [[_ F]|[_ ->]]]]; rewrite map_length; [|reflexivity]. clear - F. induction F; cbn; congruence.
Qed.
Lemma writer_view c parts t w w' : (c = Poly parts t \/ c = Line parts t) -> polygon_type t -> call_doubles c -> do_call c w = (w', Ok tt) ->
  exists s, w_shapes w' = w_shapes w ++ [s] /\ s_type s = Some t /\
    ((2 <= length parts)%nat -> geo_of s = Err ValueError) /\
    (length parts = 1%nat -> geo_of s = Ok (Some (GPolygon [map (map f64_of_bits) (s_points s)]))) /\
    (parts = [] -> geo_of s = Err UnboundLocalError).
Proof.
  intros CC PT D H. destruct (call_ok c w w' D H) as [s [g [A [R [ST [AD SP]]]]]]. exists s.
  assert (PG : parts_geometry parts t g) by (destruct CC as [->| ->]; exact A).
  assert (TY : s_type s = Some t) by (rewrite ST; destruct CC as [->| ->]; reflexivity).
  assert (PS : s_parts s = Some (part_starts g)) by (destruct CC as [->| ->]; exact SP).
  split; [apply (ad_shapes _ _ _ AD)|]. split; [exact TY|]. pose proof (parts_count _ _ _ PG) as LG. unfold geo_of. rewrite TY, PS.
  split; [|split].
  - intros L. set (pts := map (map f64_of_bits) (s_points s)).
    assert (LP : length pts = length (vertices g)) by (unfold pts; rewrite map_length, <- (rep_points _ _ R), map_length; reflexivity).
    assert (OF : offsets (length pts) (part_starts g)) by (rewrite LP; apply starts_offsets; destruct g; [cbn in LG; lia|discriminate]).
    destruct (split_ok pts (part_starts g) OF) as [rings [_ CU]].
    destruct rings as [|r0 [|r1 rings]]; try (destruct CU as [_ [LC _]]; unfold part_starts in LC; rewrite starts_length in LC; cbn in LC; lia).
    apply (view_error ValueError t pts (part_starts g) r0 [] r1 rings PT OF CU (Forall_nil _)). apply area_value_error.
    intros [_ EX]. apply Exists_exists in EX. destruct EX as [p [I E2]].
    assert (IN : In p pts). { destruct CU as [<- _]. cbn. rewrite !in_app_iff. auto. }
    unfold pts in IN. apply in_map_iff in IN. destruct IN as [q [<- IQ]]. pose proof (rep_long _ _ R) as LO. rewrite Forall_forall in LO. destruct (LO q IQ) as [L4 _]. rewrite map_length in E2. lia.
  - intros L1. destruct g as [|p [|q g]]; cbn in LG; try lia. destruct (view_one t (map (map f64_of_bits) (s_points s)) 0) as [_ V]. apply (V PT).
  - intros ->. destruct g; [|discriminate]. apply (view_no_parts t _ (or_intror PT)).
Qed.
