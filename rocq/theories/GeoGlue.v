(** The centroid of a region: what the order of polygons and vertices and the
    orientation change. *)
From Coq Require Import Lia Permutation.
From Verif Require Import RgProofs BBoxModel SimplifyModel GeoModel GeoSpec TrigLib GeoProofs GeoCentroid ProjProofs.
From Coq Require Import Lra.
Open Scope R_scope.

(** The only exception is ZeroDivisionError. *)
Definition zdiv {A} (r : res A) : Prop := (exists x, r = Ok x) \/ r = Err ZeroDivisionError.
Lemma zdiv_bind {A B} (r : res A) (f : A -> res B) : zdiv r -> (forall x, zdiv (f x)) -> zdiv (x <- r ;; f x).
Proof. intros [[x ->]| ->] H; [apply H|right; reflexivity]. Qed.
Lemma zdiv_ok {A} (x : A) : zdiv (Ok x).
Proof. left. eauto. Qed.
Lemma zdiv_mapM {A B} (f : A -> res B) l : (forall x, zdiv (f x)) -> zdiv (mapM f l).
Proof.
  intros H. induction l as [|x l IH]; cbn [mapM]; [apply zdiv_ok|]. apply zdiv_bind; [apply H|]. intros y. apply zdiv_bind; [exact IH|]. intros ys. apply zdiv_ok.
Qed.
Lemma zdiv_div (x y : R) : zdiv (ndivE x y).
Proof. destruct (Req_dec y 0) as [->|N]; [rewrite ndivE_zero; right; reflexivity|rewrite ndivE_R by exact N; apply zdiv_ok]. Qed.
Lemma zdiv_equalarea l0 b0 r lon lat : zdiv (equalarea_geo2rect (proj_new (Some (l0, b0)) r) lon lat).
Proof.
  unfold equalarea_geo2rect, azimuthal_cos. cbn [proj_new p_lon0 p_lat0 p_r].
  pose proof (az_bound l0 b0 lon lat) as B. set (C := sin (radians b0) * sin (radians lat) + cos (radians b0) * cos (radians lat) * cos (radians lon - radians l0)) in *.
  destruct (Req_dec (1 + C) 0) as [Z0|N]; [rewrite Z0, ndivE_zero; right; reflexivity|]. rewrite ndivE_R by exact N. cbn [bind].
  rewrite math_sqrt_ok; [apply zdiv_ok|]. apply Rlt_le, Rdiv_lt_0_compat; lra.
Qed.
Lemma zdiv_centroid l : zdiv (poly_centroid l).
Proof. rewrite centroid_eq. apply zdiv_bind; [apply zdiv_div|]. intros cx. apply zdiv_bind; [apply zdiv_div|]. intros cy. apply zdiv_ok. Qed.
(** One polygon in the plane around c0 *)
Definition project (c0 : R * R) (poly : list (R * R)) : res (list (R * R)) := mapM (fun p => equalarea_geo2rect (proj_new (Some c0) None) (fst p) (snd p)) poly.
Definition part (c0 : R * R) (poly : list (R * R)) : res ((R * R) * R) := xys <- project c0 poly ;; poly_centroid xys.
Lemma zdiv_project c0 poly : zdiv (project c0 poly).
Proof. destruct c0 as [l0 b0]. apply zdiv_mapM. intros p. apply zdiv_equalarea. Qed.
Lemma zdiv_part c0 poly : zdiv (part c0 poly).
Proof. apply zdiv_bind; [apply zdiv_project|]. intros xys. apply zdiv_centroid. Qed.
Lemma part_rotate c0 a b : part c0 (a ++ b) = part c0 (b ++ a).
Proof.
  unfold part, project. rewrite !mapM_app. fold (project c0 a). fold (project c0 b). destruct (zdiv_project c0 a) as [[x ->]| ->], (zdiv_project c0 b) as [[y ->]| ->]; cbn [bind]; try reflexivity. apply centroid_rotate.
Qed.
Lemma project_rev c0 l : project c0 (rev l) = rmap (@rev _) (project c0 l).
Proof.
  unfold project. induction l as [|p l IH]; [reflexivity|]. cbn [rev mapM]. rewrite mapM_app. cbn [mapM]. rewrite IH.
  fold (project c0 l). destruct c0 as [l0 b0]. destruct (zdiv_equalarea l0 b0 None (fst p) (snd p)) as [[x ->]| ->]; destruct (zdiv_project (l0, b0) l) as [[y ->]| ->]; reflexivity.
Qed.
Definition turned (c : (R * R) * R) : (R * R) * R := (fst c, - snd c).
Lemma part_rev c0 l : part c0 (rev l) = rmap turned (part c0 l).
Proof.
  unfold part. rewrite project_rev. destruct (project c0 l) as [xys|x]; [|reflexivity]. cbn [rmap bind]. destruct (zdiv_centroid xys) as [[[c w] E]|E]; rewrite E.
  - rewrite (centroid_rev _ _ _ E). reflexivity.
  - destruct (zdiv_centroid (rev xys)) as [[[c w] E']|E']; [|rewrite E'; reflexivity]. apply centroid_rev in E'. rewrite rev_involutive, E in E'. discriminate.
Qed.
Lemma step_parts region c0 : centroid_step region c0 = (cw <- mapM (part c0) region ;; c <- region_centroid cw ;; equalarea_rect2geo (proj_new (Some c0) None) (fst c) (snd c)).
Proof. reflexivity. Qed.
Lemma step_perm region region' c0 : Permutation region region' -> centroid_step region c0 = centroid_step region' c0.
Proof.
  intros P. rewrite !step_parts.
  assert (H : (mapM (part c0) region = Err ZeroDivisionError /\ mapM (part c0) region' = Err ZeroDivisionError) \/
    exists a b, mapM (part c0) region = Ok a /\ mapM (part c0) region' = Ok b /\ Permutation a b).
  { induction P as [|p a b P IH|p q a|a b c P1 IH1 P2 IH2]; cbn [mapM].
    - right. exists [], []. auto.
    - destruct (zdiv_part c0 p) as [[x ->]| ->]; [|left; auto]. cbn [bind]. destruct IH as [[-> ->]|(u & v & -> & -> & Q)]; [left; auto|right]. cbn [bind]. eexists _, _. split; [reflexivity|]. split; [reflexivity|]. constructor. exact Q.
    - destruct (zdiv_part c0 p) as [[x ->]| ->], (zdiv_part c0 q) as [[y ->]| ->]; cbn [bind]; try (left; auto; fail).
      destruct (zdiv_mapM (part c0) a (zdiv_part c0)) as [[z ->]| ->]; cbn [bind]; [right|left; auto]. eexists _, _. split; [reflexivity|]. split; [reflexivity|]. constructor.
    - destruct IH1 as [[E1 E2]|(u & v & E1 & E2 & Q1)], IH2 as [[E3 E4]|(u' & v' & E3 & E4 & Q2)]; try congruence; [left; auto|right].
      exists u, v'. split; [exact E1|]. split; [exact E4|]. rewrite E2 in E3. inversion E3; subst. eapply Permutation_trans; eassumption. }
  destruct H as [[-> ->]|(a & b & -> & -> & Q)]; [reflexivity|]. cbn [bind]. rewrite (region_perm a b Q). reflexivity.
Qed.
Lemma mapM_ext2 {A B} (f : A -> res B) l l' : Forall2 (fun a b => f a = f b) l l' -> mapM f l = mapM f l'.
Proof. intros F. induction F as [|a b l l' E F IH]; [reflexivity|]. cbn [mapM]. rewrite E, IH. reflexivity. Qed.
(** The same closed curve, drawn from another vertex. *)
Definition same_ring (a b : list (R * R)) : Prop := exists u v, a = u ++ v /\ b = v ++ u.
Lemma step_rings region region' c0 : Forall2 same_ring region region' -> centroid_step region c0 = centroid_step region' c0.
Proof.
  intros F. rewrite !step_parts. rewrite (mapM_ext2 (part c0) region region'); [reflexivity|]. induction F as [|a b l l' (u & v & -> & ->) F IH]; constructor; [apply part_rotate|exact IH].
Qed.
Lemma turned_region cw : region_centroid (map turned cw) = region_centroid cw.
Proof.
  rewrite !region_eq. assert (W : forall g h, (forall c, g (turned c) = - h c) -> wsum g (map turned cw) = - wsum h cw).
  { intros g h E. induction cw as [|c cw IH]; [rewrite !wsum_nil; lra|]. cbn [map]. rewrite !wsum_cons, IH, E. lra. }
  rewrite (W (fun c => fst (fst c) * snd c) (fun c => fst (fst c) * snd c)) by (intros c; cbn; ring).
  rewrite (W (fun c => snd (fst c) * snd c) (fun c => snd (fst c) * snd c)) by (intros c; cbn; ring).
  rewrite (W snd snd) by reflexivity. set (S := wsum snd cw). destruct (Req_dec S 0) as [Z0|N].
  - replace (- S) with 0 by lra. rewrite Z0, !ndivE_zero. reflexivity.
  - rewrite !ndivE_R by lra. cbn [bind]. do 2 f_equal; field; exact N.
Qed.
Lemma step_rev region c0 : centroid_step (map (@rev _) region) c0 = centroid_step region c0.
Proof.
  rewrite !step_parts. assert (E : mapM (part c0) (map (@rev _) region) = rmap (map turned) (mapM (part c0) region)).
  { induction region as [|p region IH]; [reflexivity|]. cbn [map mapM]. rewrite part_rev. destruct (part c0 p); [|reflexivity]. cbn [rmap bind]. rewrite IH. destruct (mapM (part c0) region); reflexivity. }
  rewrite E. destruct (mapM (part c0) region) as [cw|]; [|reflexivity]. cbn [rmap bind]. rewrite turned_region. reflexivity.
Qed.
Lemma loop_ext fuel region region' eps c : (forall c0, centroid_step region c0 = centroid_step region' c0) -> centroid_loop fuel region eps c = centroid_loop fuel region' eps c.
Proof. intros E. revert c. induction fuel as [|n IH]; intros c; [reflexivity|]. cbn [centroid_loop]. rewrite E. destruct (centroid_step region' c); [|reflexivity]. rewrite IH. reflexivity. Qed.
(** From the same box: same answer. *)
Lemma geocentroid_ext fuel region region' b eps : Permutation region region' \/ Forall2 same_ring region region' \/ region' = map (@rev _) region ->
  geocentroid fuel region (Some b) eps = geocentroid fuel region' (Some b) eps.
Proof.
  intros H. unfold geocentroid. apply loop_ext. intros c0. destruct H as [P|[F| ->]]; [apply step_perm, P|apply step_rings, F|symmetry; apply step_rev].
Qed.
(** What is returned *)
Lemma geocentroid_exit fuel region bb eps c : geocentroid fuel region bb (Some eps) = Some (Ok c) -> exists c' xys cw m,
  mapM (mapM (fun p => equalarea_geo2rect (proj_new (Some c') None) (fst p) (snd p))) region = Ok xys /\ mapM poly_centroid xys = Ok cw /\
  fst m * rsum (map snd cw) = rsum (map (fun c => fst (fst c) * snd c) cw) /\ snd m * rsum (map snd cw) = rsum (map (fun c => snd (fst c) * snd c) cw) /\
  equalarea_rect2geo (proj_new (Some c') None) (fst m) (snd m) = Ok c /\ Rabs (fst c - fst c') <= eps /\ Rabs (snd c - snd c') <= eps.
Proof.
  unfold geocentroid. intros E. assert (L : exists c0, centroid_loop fuel region eps c0 = Some (Ok c)).
  { destruct bb as [b|]; [eauto|]. destruct (foldM _ _ _) as [[b|]|]; [eauto|discriminate|discriminate]. }
  clear E. destruct L as (c0 & L). apply loop_exit in L. destruct L as (c' & S & X & Y). exists c'. rewrite step_parts in S.
  assert (H : forall l, mapM (part c') l = (xys <- mapM (project c') l ;; mapM poly_centroid xys)).
  { induction l as [|p l IH]; [reflexivity|]. cbn [mapM]. unfold part at 1. destruct (zdiv_project c' p) as [[x ->]| ->]; [|reflexivity]. cbn [bind]. rewrite IH.
    destruct (zdiv_mapM (project c') l (zdiv_project c')) as [[y ->]| ->]; cbn [bind mapM]; [reflexivity|]. destruct (zdiv_centroid x) as [[z ->]| ->]; reflexivity. }
  rewrite H in S. change (mapM (project c') region) with (mapM (mapM (fun p => equalarea_geo2rect (proj_new (Some c') None) (fst p) (snd p))) region) in S.
  destruct (mapM (mapM _) region) as [xys|]; [|discriminate]. cbn [bind] in S. destruct (mapM poly_centroid xys) as [cw|] eqn:Ew; [|discriminate]. cbn [bind] in S.
  destruct (Req_dec (rsum (map snd cw)) 0) as [Z0|N]; [rewrite region_zero in S by exact Z0; discriminate|].
  destruct (region_mean cw N) as (m & Em & M1 & M2). rewrite Em in S. cbn [bind] in S. exists xys, cw, m. auto 10.
Qed.
(** An octant of the sphere, seen from one of its corners *)
Lemma octant_centroid : exists c, geocentroid 1 [[(0, 0); (90, 0); (0, 90)]] (Some (mkbb (-1) (-1) 1 1)) (Some 180) = Some (Ok c).
Proof.
  set (r := default_radius). pose proof default_radius_pos as Pr. fold r in Pr. set (q := sqrt 2). assert (Pq : 0 < q) by (apply sqrt_lt_R0; lra). assert (Qq : q * q = 2) by (apply sqrt_sqrt; lra).
  assert (R0 : radians 0 = 0) by (unfold radians; ring). assert (R9 : radians 90 = PI / 2) by apply rad_90.
  set (pr := proj_new (Some (0, 0)) None). assert (E1 : p_lon0 pr = 0) by exact R0. assert (E2 : p_lat0 pr = 0) by exact R0. assert (E3 : p_r pr = r) by reflexivity.
  assert (S : exists c, centroid_step [[(0, 0); (90, 0); (0, 90)]] (0, 0) = Ok c /\ Rabs (fst c - 0) <= 180 /\ Rabs (snd c - 0) <= 180).
  { unfold centroid_step. fold pr. cbn [mapM fst snd]. unfold equalarea_geo2rect, azimuthal_cos, azimuthal_xy. rewrite E1, E2, E3, R0, R9, !Rminus_0_r, sin_0, cos_0, sin_PI2, cos_PI2.
    rewrite !ndivE_R by lra. cbn [bind]. rewrite !math_sqrt_ok by lra. cbn [bind]. replace (2 / (1 + (0 * 0 + 1 * 1 * 1))) with 1 by field. replace (2 / (1 + (0 * 0 + 1 * 1 * 0))) with 2 by field. replace (2 / (1 + (0 * 1 + 1 * 0 * 1))) with 2 by field.
    fold q. rewrite sqrt_1.
    set (l := [_; _; _]). assert (A : area2 l = 2 * (r * r)). { unfold l, area2, cross. cbn. replace (2 * (r * r)) with (q * q * (r * r)) by (rewrite Qq; ring). ring. }
    assert (Na : area2 l <> 0) by (rewrite A; nra). pose proof (centroid_triangle _ _ _ Na) as T. fold l in T. rewrite T. cbn [bind]. rewrite A. cbn [fst snd].
    destruct (region_mean [(((r * 1 * (1 * 0) + r * q * (1 * 1) + r * q * (0 * 0)) / 3, (r * 1 * (1 * 0 - 0 * 1 * 1) + r * q * (1 * 0 - 0 * 1 * 0) + r * q * (1 * 1 - 0 * 0 * 1)) / 3), 2 * (r * r))]) as ([mx my] & M & M1 & M2); [cbn; nra|].
    rewrite M. cbn [bind fst snd] in *. cbn in M1, M2.
    assert (X : mx = r * q / 3). { apply (Rmult_eq_reg_r (2 * (r * r) + 0)); [|nra]. rewrite M1. field. } assert (Y : my = r * q / 3). { apply (Rmult_eq_reg_r (2 * (r * r) + 0)); [|nra]. rewrite M2. field. }
    subst mx my. clear M M1 M2 T Na A. clearbody l. unfold equalarea_rect2geo. rewrite math_sqrt_ok by nra. cbn [bind].
    replace (r * q / 3 * (r * q / 3) + r * q / 3 * (r * q / 3)) with (2 * r / 3 * (2 * r / 3)) by (replace (r * q / 3 * (r * q / 3)) with (q * q * (r * r) / 9) by field; rewrite Qq; field).
    rewrite sqrt_square by lra. rewrite E3, ndivE_R by lra. cbn [bind]. replace (2 * r / 3 / (2 * r)) with (1 / 3) by (field; lra). rewrite math_asin_ok by lra. cbn [bind].
    set (z := asin (1 / 3)). assert (Sz : sin z = 1 / 3) by (apply sin_asin; lra).
    unfold azimuthal_inverse. rewrite E1, E2, cos_0, sin_0. pose proof PI_RGT_0 as PP.
    destruct (Req_bool_spec 0 (PI / 2)); [lra|]. destruct (Req_bool_spec 0 (- PI / 2)); [lra|].
    assert (C2 : cos (2 * z) = 7 / 9) by (rewrite cos_2a_sin, Sz; lra). pose proof (SIN_bound (2 * z)) as SB. set (s := sin (2 * z)) in *. rewrite C2.
    replace (2 * r / 3 * 1 * (7 / 9) - r * q / 3 * 0 * s) with (14 * r / 27) by field. rewrite !ndivE_R by lra. cbn [bind].
    replace (7 / 9 * 0 + r * q / 3 * s * 1 / (2 * r / 3)) with (q * s / 2) by (field; lra).
    assert (Bq : q < 2) by nra. rewrite math_asin_ok by nra. cbn [bind]. eexists. split; [reflexivity|]. cbn [fst snd]. rewrite !Rminus_0_r.
    assert (Dg : forall x, - PI <= x <= PI -> Rabs (degrees x) <= 180).
    { intros x Bx. unfold degrees. assert (K : PI * (180 / PI) = 180) by (field; lra). assert (Pk : 0 < 180 / PI) by (apply Rdiv_lt_0_compat; lra). set (k := 180 / PI) in *. apply Rabs_le. split; nra. }
    split; apply Dg; [match goal with |- context [atan ?t] => pose proof (atan_bound t) end; lra|]. pose proof (asin_bound (q * s / 2)). lra. }
  destruct S as (c & S & X & Y). exists c. unfold geocentroid, bb_center. cbn [bx0 bx1 by0 by1 centroid_loop].
  match goal with |- context [centroid_step _ ?c0] => replace c0 with (0, 0) by (cbn; f_equal; lra) end. rewrite S. cbn [fst snd].
  destruct (Rle_bool_spec (Rabs (fst c - 0)) 180); [|lra]. destruct (Rle_bool_spec (Rabs (snd c - 0)) 180); [|lra]. reflexivity.
Qed.
Lemma centroid_flat l : area2 l = 0 <-> poly_centroid l = Err ZeroDivisionError.
Proof.
  split; [apply centroid_zero|]. intros E. destruct (Req_dec (area2 l) 0) as [Z0|N]; [exact Z0|]. rewrite centroid_val in E by exact N. discriminate.
Qed.
