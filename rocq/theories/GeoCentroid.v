(** Planar centroids, the centroid loop and the default radius. *)
From Coq Require Import Lia Permutation.
From Verif Require Import BBoxModel GeoModel GeoSpec TrigLib GeoProofs.
Open Scope R_scope.

(** * Sums over the edges of a polygon *)
Definition edge : Type := (R * R) * (R * R).
(** The edges of the path from p through r to q *)
Fixpoint chain (p : R * R) (r : list (R * R)) (q : R * R) : list edge :=
  match r with [] => [(p, q)] | x :: r' => (p, x) :: chain x r' q end.
Lemma chain_combine p r q : combine (p :: r) (r ++ [q]) = chain p r q.
Proof. revert p. induction r as [|x r IH]; intros p; [reflexivity|]. cbn [chain]. rewrite <- IH. reflexivity. Qed.
Lemma closed_chain p r : closed_edges (p :: r) = chain p r p.
Proof. apply chain_combine. Qed.
Lemma chain_app p r1 x r2 q : chain p (r1 ++ x :: r2) q = chain p r1 x ++ chain x r2 q.
Proof. revert p. induction r1 as [|y r1 IH]; intros p; [reflexivity|]. cbn [app chain]. rewrite IH. reflexivity. Qed.
Definition swap (e : edge) : edge := (snd e, fst e).
Lemma chain_rev p r q : chain q (rev r) p = rev (map swap (chain p r q)).
Proof.
  revert p. induction r as [|x r IH]; intros p; [reflexivity|]. cbn [rev chain map]. rewrite chain_app, IH. cbn [chain]. reflexivity.
Qed.
Definition esum (g : edge -> R) (l : list edge) : R := rsum (map g l).
Lemma esum_nil g : esum g [] = 0.
Proof. reflexivity. Qed.
Lemma esum_cons g e a : esum g (e :: a) = g e + esum g a.
Proof. reflexivity. Qed.
Lemma esum_app g a b : esum g (a ++ b) = esum g a + esum g b.
Proof. induction a as [|e a IH]; [rewrite esum_nil; cbn [app]; lra|]. cbn [app]. rewrite !esum_cons, IH. lra. Qed.
Lemma esum_rev g a : esum g (rev a) = esum g a.
Proof. induction a as [|e a IH]; [reflexivity|]. cbn [rev]. rewrite esum_app, !esum_cons, esum_nil, IH. lra. Qed.
Lemma esum_map g f a : esum g (map f a) = esum (fun e => g (f e)) a.
Proof. unfold esum. rewrite map_map. reflexivity. Qed.
Lemma esum_ext g h a : (forall e, g e = h e) -> esum g a = esum h a.
Proof. intros E. unfold esum. rewrite (map_ext g h E). reflexivity. Qed.
Lemma esum_plus g h a : esum (fun e => g e + h e) a = esum g a + esum h a.
Proof. induction a as [|e a IH]; [rewrite !esum_nil; lra|]. rewrite !esum_cons, IH. lra. Qed.
Lemma esum_scal k g a : esum (fun e => k * g e) a = k * esum g a.
Proof. induction a as [|e a IH]; [rewrite !esum_nil; lra|]. rewrite !esum_cons, IH. lra. Qed.
Lemma esum_opp g a : esum (fun e => - g e) a = - esum g a.
Proof. induction a as [|e a IH]; [rewrite !esum_nil; lra|]. rewrite !esum_cons, IH. lra. Qed.
Lemma esum_telescope (h : R * R -> R) p r q : esum (fun e => h (snd e) - h (fst e)) (chain p r q) = h q - h p.
Proof.
  revert p. induction r as [|x r IH]; intros p; cbn [chain]; rewrite esum_cons; cbn [fst snd]; [rewrite esum_nil; lra|]. rewrite IH. lra.
Qed.
Lemma closed_telescope h l : esum (fun e => h (snd e) - h (fst e)) (closed_edges l) = 0.
Proof. destruct l as [|p r]; [reflexivity|]. rewrite closed_chain, esum_telescope. lra. Qed.

(** Whatever is added up over the edges does not depend on the first vertex. *)
Lemma closed_rotate g a b : esum g (closed_edges (a ++ b)) = esum g (closed_edges (b ++ a)).
Proof.
  destruct a as [|p a]; [rewrite app_nil_r; reflexivity|]. destruct b as [|q b]; [rewrite app_nil_r; reflexivity|].
  cbn [app]. rewrite !closed_chain, !chain_app, !esum_app. lra.
Qed.
Lemma closed_rev g l : esum g (closed_edges (rev l)) = esum (fun e => g (swap e)) (closed_edges l).
Proof.
  destruct l as [|p r]; [reflexivity|]. cbn [rev]. rewrite closed_rotate. cbn [app]. rewrite !closed_chain, chain_rev, esum_rev, esum_map. reflexivity.
Qed.
Lemma closed_map g f l : esum g (closed_edges (map f l)) = esum (fun e => g (f (fst e), f (snd e))) (closed_edges l).
Proof.
  destruct l as [|p r]; [reflexivity|]. cbn [map]. rewrite !closed_chain.
  assert (C : forall a b, chain (f a) (map f r) (f b) = map (fun e => (f (fst e), f (snd e))) (chain a r b)).
  { induction r as [|x r IH]; intros a b; [reflexivity|]. cbn [map chain fst snd]. rewrite IH. reflexivity. }
  rewrite C, esum_map. reflexivity.
Qed.
Lemma closed_cut g p a q b : (forall e, g (swap e) = - g e) ->
  esum g (closed_edges (p :: a ++ q :: b)) = esum g (closed_edges (p :: a ++ [q])) + esum g (closed_edges (q :: b ++ [p])).
Proof.
  intros O. rewrite !closed_chain, !chain_app, !esum_app. cbn [chain]. rewrite !esum_cons, !esum_nil. change (q, p) with (swap (p, q)). rewrite O. lra.
Qed.

(** * The centroid of a polygon *)
Definition ecross (e : edge) : R := cross (fst e) (snd e).
Definition mx (e : edge) : R := (fst (fst e) + fst (snd e)) * ecross e.
Definition my (e : edge) : R := (snd (fst e) + snd (snd e)) * ecross e.
Lemma area2_esum l : area2 l = esum ecross (closed_edges l).
Proof. reflexivity. Qed.
Lemma edge_fold l cx cy sa : fold_left edge_step l (cx, cy, sa) = (cx + esum mx l, cy + esum my l, sa + esum ecross l).
Proof.
  revert cx cy sa. induction l as [|[[x0 y0] [x1 y1]] l IH]; intros cx cy sa.
  - rewrite !esum_nil. cbn [fold_left]. rewrite !Rplus_0_r. reflexivity.
  - cbn [fold_left]. unfold edge_step at 2. rewrite IH, !esum_cons. unfold mx, my, ecross, cross. cbn [fst snd].
    f_equal; [f_equal|]; lra.
Qed.
Lemma edges_of (l : list (R * R)) : combine l (skipn 1 l ++ firstn 1 l) = closed_edges l.
Proof. destruct l as [|p r]; reflexivity. Qed.
Lemma centroid_eq l : poly_centroid l =
  (cx <- ndivE (esum mx (closed_edges l)) (3 * area2 l) ;; cy <- ndivE (esum my (closed_edges l)) (3 * area2 l) ;; Ok ((cx, cy), area2 l)).
Proof. unfold poly_centroid. rewrite edges_of, edge_fold, !Rplus_0_l. reflexivity. Qed.
Lemma centroid_val l : area2 l <> 0 -> poly_centroid l = Ok ((esum mx (closed_edges l) / (3 * area2 l), esum my (closed_edges l) / (3 * area2 l)), area2 l).
Proof. intros N. rewrite centroid_eq, !ndivE_R by lra. reflexivity. Qed.
Lemma centroid_zero l : area2 l = 0 -> poly_centroid l = Err ZeroDivisionError.
Proof. intros E. rewrite centroid_eq, E, Rmult_0_r, ndivE_zero. reflexivity. Qed.
Lemma centroid_inv l c w : poly_centroid l = Ok (c, w) -> w = area2 l /\ area2 l <> 0 /\
  fst c * (3 * w) = esum mx (closed_edges l) /\ snd c * (3 * w) = esum my (closed_edges l).
Proof.
  destruct (Req_dec (area2 l) 0) as [Z0|N]; [rewrite centroid_zero by exact Z0; discriminate|]. rewrite centroid_val by exact N. intros E. inversion E; subst.
  split; [reflexivity|]. split; [exact N|]. cbn [fst snd]. split; field; exact N.
Qed.
Lemma centroid_make l c w : w = area2 l -> w <> 0 -> fst c * (3 * w) = esum mx (closed_edges l) -> snd c * (3 * w) = esum my (closed_edges l) ->
  poly_centroid l = Ok (c, w).
Proof.
  intros -> N X Y. rewrite centroid_val by exact N. destruct c as [cx cy]. cbn [fst snd] in *. rewrite <- X, <- Y. do 2 f_equal. f_equal; field; exact N.
Qed.
Lemma odd_cross e : ecross (swap e) = - ecross e.
Proof. destruct e as [[a b] [c d]]. unfold ecross, cross, swap. cbn. ring. Qed.
Lemma odd_mx e : mx (swap e) = - mx e.
Proof. unfold mx. rewrite odd_cross. destruct e as [[a b] [c d]]. unfold swap. cbn [fst snd]. ring. Qed.
Lemma odd_my e : my (swap e) = - my e.
Proof. unfold my. rewrite odd_cross. destruct e as [[a b] [c d]]. unfold swap. cbn [fst snd]. ring. Qed.

Lemma centroid_rotate a b : poly_centroid (a ++ b) = poly_centroid (b ++ a).
Proof. rewrite !centroid_eq, !area2_esum, !(closed_rotate _ a b). reflexivity. Qed.
Lemma centroid_rev l c w : poly_centroid l = Ok (c, w) -> poly_centroid (rev l) = Ok (c, - w).
Proof.
  intros E. apply centroid_inv in E. destruct E as (W & N & X & Y). subst w. apply centroid_make.
  - rewrite !area2_esum, closed_rev, (esum_ext _ _ _ odd_cross), esum_opp. reflexivity.
  - lra.
  - rewrite closed_rev, (esum_ext _ _ _ odd_mx), esum_opp. lra.
  - rewrite closed_rev, (esum_ext _ _ _ odd_my), esum_opp. lra.
Qed.
Lemma shift_area d l : area2 (map (shift d) l) = area2 l.
Proof.
  rewrite !area2_esum, closed_map.
  rewrite (esum_ext _ (fun e => ecross e + ((fst d * snd (snd e) - snd d * fst (snd e)) - (fst d * snd (fst e) - snd d * fst (fst e))))).
  - rewrite esum_plus, (closed_telescope (fun p => fst d * snd p - snd d * fst p)). lra.
  - intros [[x0 y0] [x1 y1]]. destruct d as [dx dy]. unfold ecross, cross, shift. cbn [fst snd]. ring.
Qed.
Lemma shift_mx d l : esum mx (closed_edges (map (shift d) l)) = esum mx (closed_edges l) + 3 * fst d * area2 l.
Proof.
  rewrite closed_map.
  rewrite (esum_ext _ (fun e => mx e + (3 * fst d * ecross e +
    ((fst d * fst (snd e) * snd (snd e) - snd d * fst (snd e) * fst (snd e) + 2 * fst d * (fst d * snd (snd e) - snd d * fst (snd e))) -
     (fst d * fst (fst e) * snd (fst e) - snd d * fst (fst e) * fst (fst e) + 2 * fst d * (fst d * snd (fst e) - snd d * fst (fst e))))))).
  - rewrite !esum_plus, (closed_telescope (fun p => fst d * fst p * snd p - snd d * fst p * fst p + 2 * fst d * (fst d * snd p - snd d * fst p))), esum_scal, area2_esum. lra.
  - intros [[x0 y0] [x1 y1]]. destruct d as [dx dy]. unfold mx, ecross, cross, shift. cbn [fst snd]. ring.
Qed.
Lemma shift_my d l : esum my (closed_edges (map (shift d) l)) = esum my (closed_edges l) + 3 * snd d * area2 l.
Proof.
  rewrite closed_map.
  rewrite (esum_ext _ (fun e => my e + (3 * snd d * ecross e +
    ((fst d * snd (snd e) * snd (snd e) - snd d * fst (snd e) * snd (snd e) + 2 * snd d * (fst d * snd (snd e) - snd d * fst (snd e))) -
     (fst d * snd (fst e) * snd (fst e) - snd d * fst (fst e) * snd (fst e) + 2 * snd d * (fst d * snd (fst e) - snd d * fst (fst e))))))).
  - rewrite !esum_plus, (closed_telescope (fun p => fst d * snd p * snd p - snd d * fst p * snd p + 2 * snd d * (fst d * snd p - snd d * fst p))), esum_scal, area2_esum. lra.
  - intros [[x0 y0] [x1 y1]]. destruct d as [dx dy]. unfold my, ecross, cross, shift. cbn [fst snd]. ring.
Qed.
Lemma centroid_shift d l c w : poly_centroid l = Ok (c, w) -> poly_centroid (map (shift d) l) = Ok (shift d c, w).
Proof.
  intros E. apply centroid_inv in E. destruct E as (W & N & X & Y). subst w. apply centroid_make.
  - symmetry. apply shift_area.
  - exact N.
  - rewrite shift_mx, <- X. unfold shift. cbn [fst]. ring.
  - rewrite shift_my, <- Y. unfold shift. cbn [snd]. ring.
Qed.
Lemma centroid_triangle p q r : area2 [p; q; r] <> 0 ->
  poly_centroid [p; q; r] = Ok (((fst p + fst q + fst r) / 3, (snd p + snd q + snd r) / 3), area2 [p; q; r]).
Proof.
  intros N. apply centroid_make; [reflexivity|exact N| |];
    unfold area2, esum; cbn [closed_edges app combine map rsum fold_right]; unfold mx, my, ecross, cross; destruct p, q, r; cbn [fst snd]; field.
Qed.
(** Cutting a polygon along a chord: the whole is the weighted mean of the two parts. *)
Lemma centroid_cut p a q b c1 w1 c2 w2 : poly_centroid (p :: a ++ [q]) = Ok (c1, w1) -> poly_centroid (q :: b ++ [p]) = Ok (c2, w2) -> w1 + w2 <> 0 ->
  poly_centroid (p :: a ++ q :: b) = Ok (((fst c1 * w1 + fst c2 * w2) / (w1 + w2), (snd c1 * w1 + snd c2 * w2) / (w1 + w2)), w1 + w2).
Proof.
  intros E1 E2 N. apply centroid_inv in E1, E2. destruct E1 as (W1 & _ & X1 & Y1), E2 as (W2 & _ & X2 & Y2).
  apply centroid_make; cbn [fst snd].
  - rewrite W1, W2, !area2_esum. symmetry. apply closed_cut, odd_cross.
  - exact N.
  - rewrite (closed_cut mx _ _ _ _ odd_mx), <- X1, <- X2. field. exact N.
  - rewrite (closed_cut my _ _ _ _ odd_my), <- Y1, <- Y2. field. exact N.
Qed.

(** * The centroid of several polygons *)
Definition wsum (g : (R * R) * R -> R) (l : list ((R * R) * R)) : R := rsum (map g l).
Lemma wsum_nil g : wsum g [] = 0.
Proof. reflexivity. Qed.
Lemma wsum_cons g e a : wsum g (e :: a) = g e + wsum g a.
Proof. reflexivity. Qed.
Lemma weigh_fold l cx cy sw : fold_left weigh_step l (cx, cy, sw) =
  (cx + wsum (fun c => fst (fst c) * snd c) l, cy + wsum (fun c => snd (fst c) * snd c) l, sw + wsum snd l).
Proof.
  revert cx cy sw. induction l as [|[[x y] w] l IH]; intros cx cy sw.
  - rewrite !wsum_nil. cbn [fold_left]. rewrite !Rplus_0_r. reflexivity.
  - cbn [fold_left]. unfold weigh_step at 2. rewrite IH, !wsum_cons. cbn [fst snd]. f_equal; [f_equal|]; lra.
Qed.
Lemma region_eq cw : region_centroid cw =
  (cx <- ndivE (wsum (fun c => fst (fst c) * snd c) cw) (wsum snd cw) ;; cy <- ndivE (wsum (fun c => snd (fst c) * snd c) cw) (wsum snd cw) ;; Ok (cx, cy)).
Proof. unfold region_centroid. rewrite weigh_fold, !Rplus_0_l. reflexivity. Qed.
Lemma region_mean cw : rsum (map snd cw) <> 0 -> exists c, region_centroid cw = Ok c /\
  fst c * rsum (map snd cw) = rsum (map (fun c => fst (fst c) * snd c) cw) /\ snd c * rsum (map snd cw) = rsum (map (fun c => snd (fst c) * snd c) cw).
Proof.
  intros N. rewrite region_eq, !ndivE_R by exact N. eexists. split; [reflexivity|]. cbn [fst snd]. unfold wsum. split; field; exact N.
Qed.
Lemma region_zero cw : rsum (map snd cw) = 0 -> region_centroid cw = Err ZeroDivisionError.
Proof. intros E. rewrite region_eq. unfold wsum. rewrite E, ndivE_zero. reflexivity. Qed.
Lemma wsum_perm g a b : Permutation a b -> wsum g a = wsum g b.
Proof. induction 1; rewrite ?wsum_cons; lra. Qed.
Lemma region_perm a b : Permutation a b -> region_centroid a = region_centroid b.
Proof. intros P. rewrite !region_eq, !(wsum_perm _ a b P). reflexivity. Qed.
Lemma region_parts p a q b c1 w1 c2 w2 c w : poly_centroid (p :: a ++ [q]) = Ok (c1, w1) -> poly_centroid (q :: b ++ [p]) = Ok (c2, w2) ->
  poly_centroid (p :: a ++ q :: b) = Ok (c, w) -> region_centroid [(c1, w1); (c2, w2)] = Ok c.
Proof.
  intros E1 E2 E. assert (W : w = w1 + w2 /\ w <> 0).
  { apply centroid_inv in E, E1, E2. destruct E as (W & N & _), E1 as (W1 & _), E2 as (W2 & _). rewrite W, W1, W2, !area2_esum in *.
    rewrite (closed_cut ecross _ _ _ _ odd_cross) in *. split; [reflexivity|exact N]. }
  destruct W as [W N]. rewrite (centroid_cut p a q b c1 w1 c2 w2 E1 E2) in E by lra. inversion E; subst.
  rewrite region_eq. rewrite !wsum_cons, !wsum_nil. cbn [fst snd]. rewrite !ndivE_R by lra. cbn [bind]. do 2 f_equal; field; lra.
Qed.

(** * The loop *)
Lemma loop_exit fuel region eps c0 c : centroid_loop fuel region eps c0 = Some (Ok c) ->
  exists c', centroid_step region c' = Ok c /\ Rabs (fst c - fst c') <= eps /\ Rabs (snd c - snd c') <= eps.
Proof.
  revert c0. induction fuel as [|n IH]; intros c0 E; [discriminate|]. cbn [centroid_loop] in E. destruct (centroid_step region c0) as [c1|x] eqn:S; [|discriminate].
  destruct (Rle_bool_spec (Rabs (fst c1 - fst c0)) eps) as [A|A]; cbn [andb] in E.
  - destruct (Rle_bool_spec (Rabs (snd c1 - snd c0)) eps) as [B|B]; [|apply (IH _ E)]. inversion E; subst. exists c0. auto.
  - apply (IH _ E).
Qed.

(** A rectangle of meridians and parallels across the equator *)
Definition equator_box (l w h : R) : list (R * R) := [(l - w, - h); (l + w, - h); (l + w, h); (l - w, h)].
Lemma grow_R x0 y0 x1 y1 x y : x0 <= x1 -> y0 <= y1 -> bb_grow (mkbb x0 y0 x1 y1) (x, y) = mkbb (Rmin x0 x) (Rmin y0 y) (Rmax x1 x) (Rmax y1 y).
Proof.
  intros A B. unfold bb_grow. cbn [bx0 by0 bx1 by1 nlt NumR].
  assert (X : (if Rlt_bool x x0 then (x, x1) else if Rlt_bool x1 x then (x0, x) else (x0, x1)) = (Rmin x0 x, Rmax x1 x)).
  { destruct (Rlt_bool_spec x x0); [rewrite Rmin_right, Rmax_left by lra; reflexivity|]. destruct (Rlt_bool_spec x1 x); rewrite Rmin_left by lra; [rewrite Rmax_right by lra|rewrite Rmax_left by lra]; reflexivity. }
  assert (Y : (if Rlt_bool y y0 then (y, y1) else if Rlt_bool y1 y then (y0, y) else (y0, y1)) = (Rmin y0 y, Rmax y1 y)).
  { destruct (Rlt_bool_spec y y0); [rewrite Rmin_right, Rmax_left by lra; reflexivity|]. destruct (Rlt_bool_spec y1 y); rewrite Rmin_left by lra; [rewrite Rmax_right by lra|rewrite Rmax_left by lra]; reflexivity. }
  rewrite X, Y. reflexivity.
Qed.
Lemma equator_bbox l w h : 0 < w -> 0 < h -> bb_of_points (equator_box l w h) = Ok (mkbb (l - w) (- h) (l + w) h).
Proof.
  intros W H. unfold equator_box, bb_of_points, bb_corners. cbn [fold_left fst snd].
  rewrite grow_R by lra. rewrite (Rmin_left (l - w)), (Rmin_left (- h) (- h)), (Rmax_right (l - w)), (Rmax_left (- h) (- h)) by lra.
  rewrite grow_R by lra. rewrite (Rmin_left (l - w)), (Rmin_left (- h) h), (Rmax_left (l + w)), (Rmax_right (- h) h) by lra.
  rewrite grow_R by lra. rewrite (Rmin_left (l - w)), (Rmin_left (- h) h), (Rmax_left (l + w)), (Rmax_left h h) by lra. reflexivity.
Qed.
Lemma default_radius_pos : 0 < default_radius.
Proof. unfold default_radius, WGS84, wgs84_f. cbn [el_a el_b]. lra. Qed.
Lemma box_step l w h : 0 < w < 90 -> 0 < h < 90 -> centroid_step [equator_box l w h] (l, 0) = Err ZeroDivisionError.
Proof.
  intros W H. unfold centroid_step.
  set (pr := proj_new (Some (l, 0)) None).
  assert (P0 : p_lat0 pr = 0) by (cbn; unfold radians; ring). assert (P1 : p_lon0 pr = radians l) by reflexivity.
  assert (PR : 0 < p_r pr) by apply default_radius_pos.
  pose proof (cos_pos_strict h ltac:(lra)) as CH. pose proof (cos_pos_strict w ltac:(lra)) as CW.
  set (q := 2 / (1 + cos (radians h) * cos (radians w))). assert (Pq : 0 < q) by (apply Rdiv_lt_0_compat; nra).
  set (X := p_r pr * sqrt q * (cos (radians h) * sin (radians w))). set (Y := p_r pr * sqrt q * sin (radians h)).
  assert (SH : 0 < sin (radians h)) by (apply sin_gt_0; pose proof PI_RGT_0; unfold radians; nra).
  assert (SW : 0 < sin (radians w)) by (apply sin_gt_0; pose proof PI_RGT_0; unfold radians; nra).
  assert (Sq : 0 < sqrt q) by (apply sqrt_lt_R0; exact Pq).
  assert (PX : 0 < X) by (apply Rmult_lt_0_compat; apply Rmult_lt_0_compat; assumption).
  assert (PY : 0 < Y) by (apply Rmult_lt_0_compat; [apply Rmult_lt_0_compat; assumption|assumption]).
  assert (G : forall sx sy : R, sx * sx = 1 -> sy * sy = 1 -> cos (radians (sx * w)) = cos (radians w) -> sin (radians (sx * w)) = sx * sin (radians w) ->
    cos (radians (sy * h)) = cos (radians h) -> sin (radians (sy * h)) = sy * sin (radians h) ->
    equalarea_geo2rect pr (l + sx * w) (sy * h) = Ok (sx * X, sy * Y)).
  { intros sx sy Qx Qy C1 S1 C2 S2. unfold equalarea_geo2rect, azimuthal_cos, azimuthal_xy. rewrite P0, P1.
    replace (radians (l + sx * w) - radians l) with (radians (sx * w)) by (unfold radians; ring). rewrite C1, S1, C2, S2, cos_0, sin_0.
    replace (1 + (0 * (sy * sin (radians h)) + 1 * cos (radians h) * cos (radians w))) with (1 + cos (radians h) * cos (radians w)) by ring.
    rewrite ndivE_R by nra. cbn [bind]. fold q. rewrite math_sqrt_ok by lra. cbn [bind]. unfold X, Y. f_equal. f_equal; ring. }
  assert (M : forall s x, s = 1 \/ s = -1 -> s * s = 1 /\ cos (radians (s * x)) = cos (radians x) /\ sin (radians (s * x)) = s * sin (radians x)).
  { intros s x [-> | ->].
    - replace (1 * x) with x by ring. split; [ring|]. split; [reflexivity|ring].
    - replace (radians (-1 * x)) with (- radians x) by (unfold radians; ring). rewrite cos_neg, sin_neg. split; [ring|]. split; [reflexivity|ring]. }
  assert (G' : forall sx sy lon lat, (sx = 1 \/ sx = -1) -> (sy = 1 \/ sy = -1) -> lon = l + sx * w -> lat = sy * h -> equalarea_geo2rect pr lon lat = Ok (sx * X, sy * Y)).
  { intros sx sy lon lat Hx Hy -> ->. destruct (M sx w Hx) as (A & B & C), (M sy h Hy) as (D & E & F). apply G; assumption. }
  clear G M. clearbody X Y. clearbody pr. unfold equator_box. cbn [mapM bind fst snd].
  rewrite (G' (-1) (-1)) by (first [lra|auto]). cbn [bind]. rewrite (G' 1 (-1)) by (first [lra|auto]). cbn [bind].
  rewrite (G' 1 1) by (first [lra|auto]). cbn [bind]. rewrite (G' (-1) 1) by (first [lra|auto]). cbn [bind].
  assert (A : area2 [(-1 * X, -1 * Y); (1 * X, -1 * Y); (1 * X, 1 * Y); (-1 * X, 1 * Y)] = 8 * X * Y).
  { unfold area2. cbn [closed_edges app combine map rsum fold_right]. unfold cross. cbn [fst snd]. ring. }
  rewrite (centroid_make _ (0, 0) (8 * X * Y)); cycle 1.
  - symmetry. exact A.
  - nra.
  - unfold esum. cbn [closed_edges app combine map rsum fold_right]. unfold mx, ecross, cross. cbn [fst snd]. ring.
  - unfold esum. cbn [closed_edges app combine map rsum fold_right]. unfold my, ecross, cross. cbn [fst snd]. ring.
  - cbn [bind]. rewrite region_eq, !wsum_cons, !wsum_nil. cbn [fst snd]. rewrite !ndivE_R by nra. cbn [bind fst snd].
    replace ((0 * (8 * X * Y) + 0) / (8 * X * Y + 0)) with 0 by (field; nra).
    unfold equalarea_rect2geo. rewrite math_sqrt_ok by lra. cbn [bind]. replace (0 * 0 + 0 * 0) with 0 by ring. rewrite sqrt_0.
    rewrite ndivE_R by lra. cbn [bind]. replace (0 / (2 * p_r pr)) with 0 by (field; lra). rewrite math_asin_ok by lra. cbn [bind].
    unfold azimuthal_inverse. rewrite P0. pose proof PI_RGT_0. destruct (Req_bool_spec 0 (PI / 2)); [lra|]. destruct (Req_bool_spec 0 (- PI / 2)); [lra|].
    match goal with |- context [ndivE ?a ?b] => replace b with 0 by ring end. rewrite ndivE_zero. reflexivity.
Qed.
Lemma box_centroid fuel l w h eps : 0 < w < 90 -> 0 < h < 90 -> geocentroid (S fuel) [equator_box l w h] None eps = Some (Err ZeroDivisionError).
Proof.
  intros W H. unfold geocentroid. cbn [foldM]. rewrite equator_bbox by lra. cbn [bind or_none].
  unfold or_none, bb_bool, bb_area. cbn [bx0 bx1 by0 by1]. change (Num.neq ?a ?b) with (Req_bool a b).
  match goal with |- context [Req_bool ?a ?b] => destruct (Req_bool_spec a b) as [Z0|_] end.
  - exfalso. change (nmul (nsub (l + w) (l - w)) (nsub h (- h))) with ((l + w - (l - w)) * (h - - h)) in Z0. change (nofZ 0 : R) with 0 in Z0. nra.
  - cbn [negb]. unfold bb_center. cbn [bx0 bx1 by0 by1 ndiv nadd nofZ NumR]. replace ((l - w + (l + w)) / 2) with l by field. replace ((- h + h) / 2) with 0 by field.
    cbn [centroid_loop]. rewrite box_step by assumption. reflexivity.
Qed.
Lemma geocentroid_empty fuel eps : geocentroid fuel [] None eps = Some (Err AttributeError).
Proof. reflexivity. Qed.

(** * Distances with the default radius *)
Lemma wgs84_ok : 0 < el_b WGS84 <= el_a WGS84.
Proof. unfold WGS84, wgs84_f. cbn [el_a el_b]. lra. Qed.
Lemma haversine_default lon1 lat1 lon2 lat2 : exists r t, radiusat ((lat1 + lat2) / 2) None = Ok r /\ el_b WGS84 <= r <= el_a WGS84 /\
  haversine lon1 lat1 lon2 lat2 None = Ok (r * t) /\ central_angle lon1 lat1 lon2 lat2 t.
Proof.
  destruct (radiusat_bounds ((lat1 + lat2) / 2) WGS84 wgs84_ok) as (r & E & B). destruct (haversine_angle lon1 lat1 lon2 lat2 r) as (t & H & A).
  exists r, t. split; [exact E|]. split; [exact B|]. split; [|exact A]. rewrite <- H. unfold haversine, radius_or at 1. change (radiusat ((lat1 + lat2) / 2) None) with (radiusat ((lat1 + lat2) / 2) (Some WGS84)). rewrite E. reflexivity.
Qed.

(** * The sense of bearings *)
Lemma atan2_neg y x : y < 0 -> - PI < atan2 y x < 0.
Proof.
  intros N. pose proof PI_RGT_0 as P. destruct (atan2_bound y x) as [L U]. split; [exact L|].
  destruct (polar x y) as [_ S]. assert (Q : 0 <= sqrt (x * x + y * y)) by apply sqrt_pos.
  destruct (Rlt_or_le (atan2 y x) 0) as [|G]; [assumption|]. exfalso. assert (0 <= sin (atan2 y x)) by (apply sin_ge_0; lra). nra.
Qed.
Lemma atan2_pos y x : 0 < y -> 0 < atan2 y x < PI.
Proof.
  intros N. pose proof PI_RGT_0 as P. destruct (atan2_bound y x) as [L U]. destruct (polar x y) as [_ S]. assert (Q : 0 <= sqrt (x * x + y * y)) by apply sqrt_pos. split.
  - destruct (Rle_or_lt (atan2 y x) 0) as [G|]; [|assumption]. exfalso. assert (sin (atan2 y x) <= 0). { rewrite <- (Ropp_involutive (atan2 y x)), sin_neg. assert (0 <= sin (- atan2 y x)) by (apply sin_ge_0; lra). lra. } nra.
  - destruct U as [U|U]; [exact U|]. rewrite U, sin_PI in S. nra.
Qed.
Lemma deg_scale c a b : a * PI / 180 < c < b * PI / 180 -> a < degrees c < b.
Proof. intros H. pose proof PI_RGT_0. unfold degrees. assert (c * (180 / PI) * PI = c * 180) by (field; lra). split; nra. Qed.
Lemma bearing_east lon1 lat1 lon2 lat2 : 0 < lon2 - lon1 < 180 -> -90 < lat2 < 90 -> -180 < bearing lon1 lat1 lon2 lat2 < 0.
Proof.
  intros L B. unfold bearing. apply deg_scale. pose proof (cos_pos_strict lat2 B) as C. pose proof PI_RGT_0 as P.
  assert (S : sin (radians (lon1 - lon2)) < 0) by (apply sin_lt_0_var; unfold radians; nra).
  match goal with |- _ < atan2 ?y ?x < _ => pose proof (atan2_neg y x ltac:(nra)) end. lra.
Qed.
Lemma bearing_west lon1 lat1 lon2 lat2 : 0 < lon1 - lon2 < 180 -> -90 < lat2 < 90 -> 0 < bearing lon1 lat1 lon2 lat2 < 180.
Proof.
  intros L B. unfold bearing. apply deg_scale. pose proof (cos_pos_strict lat2 B) as C. pose proof PI_RGT_0 as P.
  assert (S : 0 < sin (radians (lon1 - lon2))) by (apply sin_gt_0; unfold radians; nra).
  match goal with |- _ < atan2 ?y ?x < _ => pose proof (atan2_pos y x ltac:(nra)) end. lra.
Qed.
Lemma bearing_meridian lon lat1 lat2 : valid_lat lat1 -> valid_lat lat2 ->
  (lat1 < lat2 -> bearing lon lat1 lon lat2 = 0) /\ (lat2 < lat1 -> lat1 - lat2 < 180 -> bearing lon lat1 lon lat2 = 180).
Proof.
  intros V1 V2. pose proof PI_RGT_0 as P. unfold bearing. replace (radians (lon - lon)) with 0 by (unfold radians; ring). rewrite sin_0, cos_0.
  assert (X : cos (radians lat1) * sin (radians lat2) - sin (radians lat1) * cos (radians lat2) * 1 = sin (radians (lat2 - lat1))) by (rewrite rad_minus, sin_minus; ring). rewrite X.
  unfold valid_lat in *. split.
  - intros L. destruct (Req_dec (lat2 - lat1) 180) as [E|N].
    + replace (radians (lat2 - lat1)) with PI by (rewrite E; unfold radians; field). rewrite sin_PI. unfold atan2.
      destruct (Rlt_bool_spec 0 0); [lra|]. replace (0 * cos (radians lat2)) with 0 by ring. destruct (Rlt_bool_spec 0 0); [lra|]. unfold degrees. ring.
    + assert (S : 0 < sin (radians (lat2 - lat1))) by (apply sin_gt_0; unfold radians; nra). unfold atan2. destruct (Rlt_bool_spec 0 (sin (radians (lat2 - lat1)))); [|lra].
      replace (0 * cos (radians lat2) / sin (radians (lat2 - lat1))) with 0 by (field; lra). rewrite atan_0. unfold degrees. ring.
  - intros L N. assert (S : sin (radians (lat2 - lat1)) < 0) by (apply sin_lt_0_var; unfold radians; nra). unfold atan2. destruct (Rlt_bool_spec 0 (sin (radians (lat2 - lat1)))); [lra|].
    destruct (Rlt_bool_spec (sin (radians (lat2 - lat1))) 0); [|lra]. destruct (Rle_bool_spec 0 (0 * cos (radians lat2))); [|lra].
    replace (0 * cos (radians lat2) / sin (radians (lat2 - lat1))) with 0 by (field; lra). rewrite atan_0. unfold degrees. field. lra.
Qed.

(** * With the default radius the two functions use two radii. *)
Lemma radiusat_less lat e : 0 < el_b e < el_a e -> 0 < lat < 90 -> exists r, radiusat lat (Some e) = Ok r /\ 0 < r < el_a e.
Proof.
  intros E B. destruct (radiusat_bounds lat e ltac:(lra)) as (r & Er & Br). exists r. split; [exact Er|]. split; [lra|].
  destruct Br as [Lo [Hi|Hi]]; [exact Hi|exfalso]. subst r. unfold radiusat in Er. set (a := el_a e) in *. set (b := el_b e) in *. set (f := radians lat) in *.
  assert (S : 0 < sin f) by (apply sin_gt_0; pose proof PI_RGT_0; unfold f, radians; nra).
  assert (C : 0 < cos f) by (apply cos_pos_strict; lra).
  set (D := sin f * sin f) in *. assert (PD : 0 < D) by (unfold D; nra). assert (Den : 0 < a * a * cos f * cos f + b * b * sin f * sin f).
  { assert (0 < a * a) by nra. assert (0 < cos f * cos f) by nra. assert (0 < b * b) by nra. replace (b * b * sin f * sin f) with (b * b * D) by (unfold D; ring). nra. }
  rewrite ndivE_R in Er by lra. cbn [bind] in Er.
  set (q := (a * a * (a * a * cos f * cos f) + b * b * (b * b * sin f * sin f)) / (a * a * cos f * cos f + b * b * sin f * sin f)) in *.
  assert (Q : q * (a * a * cos f * cos f + b * b * sin f * sin f) = a * a * (a * a * cos f * cos f) + b * b * (b * b * sin f * sin f)) by (unfold q; field; lra).
  assert (P0 : 0 <= q). { unfold q. apply Rmult_le_pos; [|left; apply Rinv_0_lt_compat; exact Den]. assert (0 <= a * a) by nra. assert (0 <= b * b) by nra.
    assert (0 <= cos f * cos f) by nra. replace (a * a * (a * a * cos f * cos f)) with ((a * a) * (a * a) * (cos f * cos f)) by ring. replace (b * b * (b * b * sin f * sin f)) with ((b * b) * (b * b) * D) by (unfold D; ring).
    apply Rplus_le_le_0_compat; apply Rmult_le_pos; try nra. }
  rewrite math_sqrt_ok in Er by exact P0. injection Er as Er.
  assert (Qa : q = a * a) by (rewrite <- Er; symmetry; apply sqrt_sqrt; exact P0). rewrite Qa in Q.
  assert (Z0 : b * b * D * (a * a - b * b) = 0) by (unfold D; lra). assert (0 < b * b * D) by (apply Rmult_lt_0_compat; nra). assert (0 < a * a - b * b) by nra. nra.
Qed.
Lemma default_short lon lat : 0 < lat < 90 -> exists d lon' lat', haversine lon 0 lon lat None = Ok d /\
  destination lon 0 (bearing lon 0 lon lat) d None = Ok (lon', lat') /\ lat' < lat.
Proof.
  intros B. pose proof PI_RGT_0 as P.
  destruct (radiusat_less ((0 + lat) / 2) WGS84) as (r & Er & Br); [unfold WGS84, wgs84_f; cbn; lra|lra|].
  set (a := el_a WGS84) in *. assert (Pa : 0 < a) by lra.
  assert (H : haversine lon 0 lon lat None = Ok (r * radians lat)).
  { destruct (haversine_angle lon 0 lon lat r) as (t & Et & At). assert (E : t = radians lat).
    { apply (angle_unique lon 0 lon lat); [exact At|]. split; [unfold radians; nra|]. rewrite dot_formula.
      replace (radians (lon - lon)) with 0 by (unfold radians; ring). replace (radians 0) with 0 by (unfold radians; ring). rewrite sin_0, !cos_0. ring. }
    subst t. rewrite <- Et. unfold haversine, radius_or at 1. change (radiusat ((0 + lat) / 2) None) with (radiusat ((0 + lat) / 2) (Some WGS84)). rewrite Er. reflexivity. }
  destruct (bearing_meridian lon 0 lat) as [Eb _]; [unfold valid_lat; lra|unfold valid_lat; lra|]. rewrite Eb by lra.
  exists (r * radians lat). unfold destination, radius_or. change (radiusat 0 None) with (radiusat 0 (Some WGS84)).
  rewrite radiusat_equator by apply wgs84_ok. fold a. cbn [bind]. rewrite ndivE_R by lra. cbn [bind]. replace (radians 0) with 0 by (unfold radians; ring). rewrite cos_0, sin_0.
  set (d := r * radians lat / a). assert (Bd : 0 < d < radians lat).
  { assert (Ed : d * a = r * radians lat) by (unfold d; field; lra). assert (0 < radians lat) by (unfold radians; nra). split; nra. }
  assert (Rl : radians lat < PI / 2) by (unfold radians; nra).
  replace (0 * cos d + 1 * sin d * 1) with (sin d) by ring. rewrite math_asin_ok by apply SIN_bound. cbn [bind]. rewrite asin_sin by lra.
  eexists _, _. split; [exact H|]. split; [reflexivity|]. rewrite <- (deg_rad lat). unfold degrees. apply Rmult_lt_compat_r; [apply Rdiv_lt_0_compat; lra|]. lra.
Qed.
