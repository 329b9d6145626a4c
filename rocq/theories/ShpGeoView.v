(** The GeoJSON-like view: outcomes. *)
From Coq Require Import Reals Lra SpecFloat.
From Verif Require TableProofs.
From Verif Require Import Py Num RealNum FloatLib ShpFile ShpWriterModel ShpSpec ShpGeoModel ShpGeoSpec ShpGeo ShpGeoFloat.
Open Scope Z_scope.

Section View.
Context {T : Type} `{PyNum T}.
Lemma view_point t (points : list (list T)) parts : point_type t ->
  geo_interface (Some t) points parts = match points with [] => Err IndexError | p :: _ => Ok (Some (GPoint p)) end.
Proof. intros [->|[->| ->]]; destruct points; reflexivity. Qed.
Lemma view_multipoint t (points : list (list T)) parts : multipoint_type t -> geo_interface (Some t) points parts = Ok (Some (GMultiPoint points)).
Proof. intros [->|[->| ->]]; reflexivity. Qed.
Lemma view_other t (points : list (list T)) parts : (forall z, t = Some z -> ~ (point_type z \/ multipoint_type z \/ line_type z \/ polygon_type z)) ->
  geo_interface t points parts = Ok None.
Proof.
  intros N. unfold geo_interface. destruct t as [z|]; [|reflexivity]. specialize (N z eq_refl). unfold point_type, multipoint_type, line_type, polygon_type in N.
  unfold type_in. cbn [existsb]. rewrite !orb_false_r. repeat (match goal with |- context[z =? ?k] => destruct (Z.eqb_spec z k); [exfalso; apply N; tauto|]; cbn [orb] end). reflexivity.
Qed.
Lemma view_no_parts t (points : list (list T)) : line_type t \/ polygon_type t ->
  geo_interface (Some t) points None = Err AttributeError /\ geo_interface (Some t) points (Some []) = Err UnboundLocalError.
Proof. intros [[->|[->| ->]]|[->|[->| ->]]]; split; reflexivity. Qed.
Lemma view_one t (points : list (list T)) o : 
  (line_type t -> geo_interface (Some t) points (Some [o]) = Ok (Some (GLineString points))) /\
  (polygon_type t -> geo_interface (Some t) points (Some [o]) = Ok (Some (GPolygon [points]))).
Proof. split; intros [->|[->| ->]]; reflexivity. Qed.
Lemma view_lines t (points : list (list T)) parts : line_type t -> offsets (length points) parts -> length parts <> 1%nat ->
  exists rings, cut_at parts points rings /\ geo_interface (Some t) points (Some parts) = Ok (Some (GMultiLineString rings)).
Proof.
  intros LT OF N. destruct (split_ok points parts OF) as [rings [E C]]. exists rings. split; [exact C|].
  destruct LT as [->|[->| ->]]; cbn; (destruct (Nat.eqb_spec (length parts) 1); [contradiction|]); rewrite E; reflexivity.
Qed.
Definition polygons (groups : list (list (list (list T)))) : geo T := match groups with [g] => GPolygon g | _ => GMultiPolygon groups end.
Lemma polygon_eq t (points : list (list T)) parts : polygon_type t -> length parts <> 1%nat ->
  geo_interface (Some t) points (Some parts) =
  (l <- split_parts points None parts ;; first <- py_get l 0 ;; polys <- group_rings [first] (skipn 1 l) ;; Ok (Some (polygons polys))).
Proof.
  intros PT N. destruct PT as [->|[->| ->]]; cbn [geo_interface type_in existsb Z.eqb Pos.eqb orb]; (destruct (Nat.eqb_spec (length parts) 1); [contradiction|]);
  cbn; (destruct (split_parts points None parts); cbn [bind]; [|reflexivity]; destruct (py_get a 0); cbn [bind]; [|reflexivity]; destruct (group_rings _ _) as [g|]; cbn [bind]; [|reflexivity]; destruct g as [|g [|g' gs]]; reflexivity).
Qed.
(** Offsets determine the rings. *)
Lemma concat_lengths {A} (l l' : list (list A)) : map (@length A) l = map (@length A) l' -> concat l = concat l' -> l = l'.
Proof.
  revert l'. induction l as [|x l IH]; intros [|x' l'] L C; [reflexivity|discriminate|discriminate|]. cbn in L, C. injection L as L1 L2.
  assert (x = x' /\ concat l = concat l') as [-> E].
  { clear - L1 C. revert x' L1 C. induction x as [|a x IH]; intros [|b x'] L1 C; cbn in *; try discriminate; [auto|]. injection C as -> C. injection L1 as L1. destruct (IH x' L1 C) as [-> E]. auto. }
  f_equal. apply IH; assumption.
Qed.
Lemma firstn_concat_S {A} (l : list (list A)) k x : nth_error l k = Some x -> concat (firstn (S k) l) = concat (firstn k l) ++ x.
Proof.
  revert l. induction k as [|k IH]; intros [|y l] E; try discriminate; [injection E as ->; cbn; rewrite app_nil_r; reflexivity|].
  change (firstn (S (S k)) (y :: l)) with (y :: firstn (S k) l). change (firstn (S k) (y :: l)) with (y :: firstn k l). cbn [concat]. rewrite (IH l E), app_assoc. reflexivity.
Qed.
Lemma cut_unique {A} parts (points : list A) l l' : cut_at parts points l -> cut_at parts points l' -> l = l'.
Proof.
  intros [C [L K]] [C' [L' K']]. apply concat_lengths; [|congruence].
  assert (P : forall k, (k <= length parts)%nat -> length (concat (firstn k l)) = length (concat (firstn k l'))).
  { intros k Hk. destruct (nth_error parts k) as [o|] eqn:E.
    - pose proof (K k o E). pose proof (K' k o E). lia.
    - apply nth_error_None in E. assert (k = length parts) as -> by lia. rewrite <- L at 1. rewrite <- L', !firstn_all. congruence. }
  apply TableProofs.nth_error_ext. intros k. rewrite !nth_error_map. destruct (nth_error l k) as [x|] eqn:E; destruct (nth_error l' k) as [x'|] eqn:E'; cbn.
  - assert (B : (k < length parts)%nat) by (rewrite <- L; apply nth_error_Some; congruence).
    pose proof (P (S k) B) as P1. pose proof (P k ltac:(lia)) as P0. rewrite (firstn_concat_S l k x E), (firstn_concat_S l' k x' E'), !app_length in P1. f_equal. lia.
  - apply nth_error_None in E'. assert (k < length l)%nat by (apply nth_error_Some; congruence). lia.
  - apply nth_error_None in E. assert (k < length l')%nat by (apply nth_error_Some; congruence). lia.
  - reflexivity.
Qed.
Lemma groups_map {A} (f : A -> list (list T)) (cw : A -> Prop) coords : Forall (fun r => exists a, signed_area (f r) = Ok a /\ (nlt a (nofZ 0) = true <-> cw r)) coords ->
  forall outer holes, Forall (fun h => ~ cw h) holes ->
  exists groups, group_rings (f outer :: map f holes) (map f coords) = Ok (map (map f) groups) /\ grouped cw ((outer :: holes) ++ coords) groups /\
    exists more, hd [] groups = (outer :: holes) ++ more.
Proof.
  induction 1 as [|r coords [a [A0 S]] _ IH]; intros outer holes NH; cbn [group_rings map].
  - exists [outer :: holes]. split; [reflexivity|]. rewrite app_nil_r. split; [|exists []; cbn; rewrite app_nil_r; reflexivity].
    split; [cbn; rewrite app_nil_r; reflexivity|]. split; [|split; [constructor|discriminate]]. constructor; [|constructor]. exists outer, holes. auto.
  - rewrite A0. cbn [bind]. destruct (nlt a (nofZ 0)) eqn:LT.
    + destruct (IH r [] (Forall_nil _)) as [groups [E [[C [G1 [G2 G3]]] [more M]]]]. cbn [map] in E. rewrite E. cbn [bind]. exists ((outer :: holes) :: groups).
      split; [reflexivity|]. split; [|exists []; cbn [hd]; rewrite app_nil_r; reflexivity]. split; [cbn [concat]; rewrite C; reflexivity|]. split; [constructor; [exists outer, holes; auto|exact G1]|].
      split; [|discriminate]. cbn [tl]. destruct groups as [|g groups]; [contradiction|]. constructor; [|exact G2].
      intros o h EG. cbn [hd] in M. rewrite M in EG. injection EG as <- _. apply S. reflexivity.
    + assert (NC : ~ cw r) by (intros X; apply S in X; congruence).
      destruct (IH outer (holes ++ [r])) as [groups [E [GR [more M]]]]; [apply Forall_app; auto|].
      exists groups. rewrite map_app in E. split; [exact E|]. split.
      * replace ((outer :: holes) ++ r :: coords) with ((outer :: holes ++ [r]) ++ coords) by (cbn; rewrite <- app_assoc; reflexivity). exact GR.
      * exists (r :: more). rewrite M. cbn. rewrite <- app_assoc. reflexivity.
Qed.
Lemma view_polygons {A} (f : A -> list (list T)) (cw : A -> Prop) t (points : list (list T)) parts rings : polygon_type t -> offsets (length points) parts -> length parts <> 1%nat ->
  cut_at parts points (map f rings) -> Forall (fun r => exists a, signed_area (f r) = Ok a /\ (nlt a (nofZ 0) = true <-> cw r)) (tl rings) ->
  exists groups, grouped cw rings groups /\ geo_interface (Some t) points (Some parts) = Ok (Some (polygons (map (map f) groups))).
Proof.
  intros PT OF N CU FA. destruct (split_ok points parts OF) as [l [E C]]. assert (l = map f rings) as -> by (eapply cut_unique; eassumption). clear C.
  rewrite (polygon_eq t points parts PT N), E. cbn [bind].
  destruct rings as [|first rings]; [destruct CU as [_ [L _]]; destruct parts; [destruct OF; discriminate|discriminate]|].
  cbn [map]. change (py_get (f first :: ?r) 0) with (@Ok (list (list T)) (f first)). cbn [bind skipn]. 
  destruct (groups_map f cw rings FA first [] (Forall_nil _)) as [groups [G [GR _]]]. cbn [map] in G. rewrite G. exists groups. split; [exact GR|reflexivity].
Qed.
(** The first ring after the first that has no area decides the exception. *)
Lemma group_err e coords : forall pre bad post, coords = pre ++ bad :: post -> Forall (fun r => exists a, signed_area r = Ok a) pre -> signed_area bad = Err e ->
  forall poly, group_rings poly coords = Err e.
Proof.
  induction coords as [|c coords IH]; intros pre bad post E FA B poly; [destruct pre; discriminate|].
  destruct pre as [|p pre]; cbn [app] in E; injection E as -> E; cbn [group_rings].
  - rewrite B. reflexivity.
  - inversion FA as [|? ? [a A] FA']; subst. rewrite A. cbn [bind]. destruct (nlt a (nofZ 0)); [|apply (IH pre bad post eq_refl FA' B)].
    rewrite (IH pre bad post eq_refl FA' B). reflexivity.
Qed.
Lemma view_error e t (points : list (list T)) parts first pre bad post : polygon_type t -> offsets (length points) parts ->
  cut_at parts points (first :: pre ++ bad :: post) -> Forall (fun r => exists a, signed_area r = Ok a) pre -> signed_area bad = Err e ->
  geo_interface (Some t) points (Some parts) = Err e.
Proof.
  intros PT OF CU FA B. destruct (split_ok points parts OF) as [l [E C]]. assert (l = first :: pre ++ bad :: post) as -> by (eapply cut_unique; eassumption).
  assert (N : length parts <> 1%nat). { destruct CU as [_ [L _]]. rewrite <- L. cbn. rewrite app_length. cbn. lia. }
  rewrite (polygon_eq t points parts PT N), E. cbn [bind skipn]. change (py_get (first :: ?r) 0) with (@Ok (list (list T)) first). cbn [bind].
  rewrite (group_err e _ pre bad post eq_refl FA B). reflexivity.
Qed.
End View.
Lemma grouped_unique {A} (cw : A -> Prop) rings g g' : grouped cw rings g -> grouped cw rings g' -> g = g'.
Proof.
  revert rings g'. induction g as [|x g IH]; intros rings g' [C [F [K N]]] [C' [F' [K' N']]]; [contradiction|].
  destruct g' as [|x' g']; [contradiction|]. cbn [tl] in *.
  inversion F as [|? ? [o [h [-> NH]]] F1]; subst. inversion F' as [|? ? [o' [h' [-> NH']]] F1']; subst. cbn in C'. injection C' as -> C'.
  assert (R : forall g, Forall (fun g => forall outer holes, g = outer :: holes -> cw outer) g -> Forall (fun g => exists outer holes, g = outer :: holes /\ Forall (fun h => ~ cw h) holes) g ->
     forall c l, concat g = c :: l -> cw c).
  { intros [|? gg] Q1 Q2 c l0 E; [discriminate|]. inversion Q2 as [|? ? [oo [hh [-> _]]] _]; subst. inversion Q1; subst. cbn in E. injection E as -> _. eauto. }
  assert (h' = h /\ concat g' = concat g) as [-> E].
  { clear IH F F' N N'. revert h' NH' C'. induction h as [|a h IH]; intros h' NH' C'.
    - destruct h' as [|a' h']; [auto|]. cbn in C'. exfalso. symmetry in C'. apply (R g K F1) in C'. inversion NH'; contradiction.
    - destruct h' as [|a' h']; cbn in C'; [exfalso; apply (R g' K' F1') in C'; inversion NH; contradiction|].
      injection C' as -> C'. inversion NH; inversion NH'; subst. destruct (IH ltac:(assumption) h' ltac:(assumption) C') as [-> E]. auto. }
  f_equal. destruct g as [|y g], g' as [|y' g']; [reflexivity| | |].
  - exfalso. inversion F1' as [|? ? [oo [hh [-> _]]] _]; subst. cbn in E. discriminate.
  - exfalso. inversion F1 as [|? ? [oo [hh [-> _]]] _]; subst. cbn in E. discriminate.
  - apply (IH (concat (y :: g))).
    + split; [reflexivity|]. split; [exact F1|]. split; [inversion K; assumption|discriminate].
    + split; [exact E|]. split; [exact F1'|]. split; [inversion K'; assumption|discriminate].
Qed.
