(** The centroid of a polygon lies in its convex hull. *)
From Coq Require Import Lra Lia Permutation.
From Verif Require Import BBoxModel GeoModel GeoSpec TrigLib GeoProofs GeoCentroid GeoGlue GeoConvexSpec.
Open Scope R_scope.

Lemma area_round o l : area2 l = esum (fun e => turn o (fst e) (snd e)) (closed_edges l).
Proof.
  rewrite <- (shift_area (- fst o, - snd o) l), area2_esum, closed_map. apply esum_ext. intros [[x0 y0] [x1 y1]].
  unfold ecross, cross, turn, shift. cbn [fst snd]. ring.
Qed.
Lemma moment_round o l c w : poly_centroid l = Ok (c, w) ->
  3 * w * (fst c - fst o) = esum (fun e => (fst (fst e) + fst (snd e) - 2 * fst o) * turn o (fst e) (snd e)) (closed_edges l) /\
  3 * w * (snd c - snd o) = esum (fun e => (snd (fst e) + snd (snd e) - 2 * snd o) * turn o (fst e) (snd e)) (closed_edges l).
Proof.
  intros E. apply (centroid_shift (- fst o, - snd o)) in E. apply centroid_inv in E. destruct E as (_ & _ & X & Y). rewrite closed_map in X, Y.
  unfold shift in X, Y. cbn [fst snd] in X, Y. split.
  - replace (3 * w * (fst c - fst o)) with ((fst c + - fst o) * (3 * w)) by ring. rewrite X. apply esum_ext. intros [[x0 y0] [x1 y1]].
    unfold mx, ecross, cross, turn. cbn [fst snd]. ring.
  - replace (3 * w * (snd c - snd o)) with ((snd c + - snd o) * (3 * w)) by ring. rewrite Y. apply esum_ext. intros [[x0 y0] [x1 y1]].
    unfold my, ecross, cross, turn. cbn [fst snd]. ring.
Qed.
Lemma esum_nonneg g l : Forall (fun e => 0 <= g e) l -> 0 <= esum g l.
Proof. induction 1 as [|e l H _ IH]; [rewrite esum_nil; lra|]. rewrite esum_cons. lra. Qed.
Lemma closed_in {A} (e : A * A) l : In e (closed_edges l) -> In (fst e) l /\ In (snd e) l.
Proof.
  destruct l as [|p r]; [intros []|]. cbn [closed_edges]. intros H. destruct e as [x y]. cbn [fst snd]. split.
  - exact (in_combine_l _ _ _ _ H).
  - apply in_combine_r in H. apply in_app_or in H. destruct H as [H|[H|[]]]; [right; exact H|left; exact H].
Qed.
Lemma inside_left o l c w a b k : round_left o l -> poly_centroid l = Ok (c, w) -> side a b k o -> Forall (side a b k) l -> side a b k c.
Proof.
  intros S E O F. destruct (moment_round o l c w E) as (X & Y). apply centroid_inv in E. destruct E as (W & N & _ & _).
  rewrite (area_round o l) in W, N. unfold side in *.
  assert (P : 0 <= esum (fun e => turn o (fst e) (snd e)) (closed_edges l)) by (apply esum_nonneg; exact S).
  assert (M : 0 <= esum (fun e => (3 * k - (a * (fst o + fst (fst e) + fst (snd e)) + b * (snd o + snd (fst e) + snd (snd e)))) * turn o (fst e) (snd e)) (closed_edges l)).
  { apply esum_nonneg. apply Forall_forall. intros e I. pose proof (closed_in e l I) as (I1 & I2). unfold round_left in S. rewrite Forall_forall in S, F.
    pose proof (F _ I1) as F1. pose proof (F _ I2) as F2. apply Rmult_le_pos; [lra|exact (S e I)]. }
  rewrite (esum_ext _ (fun e => (3 * (k - a * fst o - b * snd o)) * turn o (fst e) (snd e) + (- a) * ((fst (fst e) + fst (snd e) - 2 * fst o) * turn o (fst e) (snd e))
    + (- b) * ((snd (fst e) + snd (snd e) - 2 * snd o) * turn o (fst e) (snd e)))) in M.
  2: { intros e. ring. }
  rewrite !esum_plus, !esum_scal, <- X, <- Y, <- W in M. rewrite <- W in P, N. assert (0 < w) by lra.
  apply Rmult_le_reg_l with (3 * w); [lra|]. lra.
Qed.
Lemma inside_right o l c w a b k : round_right o l -> poly_centroid l = Ok (c, w) -> side a b k o -> Forall (side a b k) l -> side a b k c.
Proof.
  intros S E O F. destruct (moment_round o l c w E) as (X & Y). apply centroid_inv in E. destruct E as (W & N & _ & _).
  rewrite (area_round o l) in W, N. unfold side in *.
  assert (P : 0 <= esum (fun e => - turn o (fst e) (snd e)) (closed_edges l)).
  { apply esum_nonneg. eapply Forall_impl; [|exact S]. intros e T. cbn beta in *. lra. }
  assert (M : 0 <= esum (fun e => (3 * k - (a * (fst o + fst (fst e) + fst (snd e)) + b * (snd o + snd (fst e) + snd (snd e)))) * - turn o (fst e) (snd e)) (closed_edges l)).
  { apply esum_nonneg. apply Forall_forall. intros e I. pose proof (closed_in e l I) as (I1 & I2). unfold round_right in S. rewrite Forall_forall in S, F.
    pose proof (F _ I1) as F1. pose proof (F _ I2) as F2. pose proof (S e I) as T. cbn beta in T. apply Rmult_le_pos; [lra|lra]. }
  rewrite (esum_ext _ (fun e => (-3 * (k - a * fst o - b * snd o)) * turn o (fst e) (snd e) + a * ((fst (fst e) + fst (snd e) - 2 * fst o) * turn o (fst e) (snd e))
    + b * ((snd (fst e) + snd (snd e) - 2 * snd o) * turn o (fst e) (snd e)))) in M.
  2: { intros e. ring. }
  rewrite !esum_plus, !esum_scal, <- X, <- Y, <- W in M. rewrite esum_opp, <- W in P. rewrite <- W in N. assert (0 < - w) by lra.
  apply Rmult_le_reg_l with (3 * - w); [lra|]. lra.
Qed.
Lemma centroid_inside o l c w a b k : round_left o l \/ round_right o l -> poly_centroid l = Ok (c, w) -> side a b k o -> Forall (side a b k) l -> side a b k c.
Proof. intros [S|S]; [apply inside_left|apply inside_right]; exact S. Qed.
Lemma centroid_sign o l c w : poly_centroid l = Ok (c, w) -> (round_left o l -> 0 < w) /\ (round_right o l -> w < 0).
Proof.
  intros E. apply centroid_inv in E. destruct E as (W & N & _ & _). rewrite (area_round o l) in W, N. split; intros S.
  - assert (P : 0 <= esum (fun e => turn o (fst e) (snd e)) (closed_edges l)) by (apply esum_nonneg; exact S). lra.
  - assert (P : 0 <= esum (fun e => - turn o (fst e) (snd e)) (closed_edges l)).
    { apply esum_nonneg. eapply Forall_impl; [|exact S]. intros e T. cbn beta in *. lra. }
    rewrite esum_opp in P. lra.
Qed.
Lemma centroid_box o l c w : round_left o l \/ round_right o l -> poly_centroid l = Ok (c, w) -> In o l -> forall x0 y0 x1 y1,
  (forall p, In p l -> x0 <= fst p <= x1 /\ y0 <= snd p <= y1) -> x0 <= fst c <= x1 /\ y0 <= snd c <= y1.
Proof.
  intros S E I x0 y0 x1 y1 B.
  assert (H : forall a b k, (forall p, In p l -> side a b k p) -> side a b k c).
  { intros a b k F. apply (centroid_inside o l c w); [exact S|exact E|exact (F o I)|apply Forall_forall; exact F]. }
  pose proof (H 1 0 x1) as H1. pose proof (H (-1) 0 (- x0)) as H2. pose proof (H 0 1 y1) as H3. pose proof (H 0 (-1) (- y0)) as H4. unfold side in *.
  assert (A1 : 1 * fst c + 0 * snd c <= x1) by (apply H1; intros p Ip; specialize (B p Ip); lra).
  assert (A2 : -1 * fst c + 0 * snd c <= - x0) by (apply H2; intros p Ip; specialize (B p Ip); lra).
  assert (A3 : 0 * fst c + 1 * snd c <= y1) by (apply H3; intros p Ip; specialize (B p Ip); lra).
  assert (A4 : 0 * fst c + -1 * snd c <= - y0) by (apply H4; intros p Ip; specialize (B p Ip); lra).
  lra.
Qed.

(** * Linear maps *)
Lemma linear_area a b c d l : area2 (map (linear a b c d) l) = (a * d - b * c) * area2 l.
Proof.
  rewrite !area2_esum, closed_map, <- esum_scal. apply esum_ext. intros [[x0 y0] [x1 y1]]. unfold ecross, cross, linear. cbn [fst snd]. ring.
Qed.
Lemma centroid_linear a b c d l m w : a * d - b * c <> 0 -> poly_centroid l = Ok (m, w) ->
  poly_centroid (map (linear a b c d) l) = Ok (linear a b c d m, (a * d - b * c) * w).
Proof.
  intros D E. apply centroid_inv in E. destruct E as (W & N & X & Y). subst w. apply centroid_make.
  - symmetry. apply linear_area.
  - apply Rmult_integral_contrapositive_currified; assumption.
  - rewrite closed_map, (esum_ext _ (fun e => (a * d - b * c) * (a * mx e + b * my e))).
    + rewrite esum_scal, esum_plus, !esum_scal, <- X, <- Y. unfold linear. cbn [fst snd]. ring.
    + intros [[x0 y0] [x1 y1]]. unfold mx, my, ecross, cross, linear. cbn [fst snd]. ring.
  - rewrite closed_map, (esum_ext _ (fun e => (a * d - b * c) * (c * mx e + d * my e))).
    + rewrite esum_scal, esum_plus, !esum_scal, <- X, <- Y. unfold linear. cbn [fst snd]. ring.
    + intros [[x0 y0] [x1 y1]]. unfold mx, my, ecross, cross, linear. cbn [fst snd]. ring.
Qed.

(** * Several polygons *)
Lemma rsum_le (f g : (R * R) * R -> R) l : Forall (fun c => f c <= g c) l -> rsum (map f l) <= rsum (map g l).
Proof. unfold rsum. induction 1 as [|c l H _ IH]; cbn [map fold_right]; lra. Qed.
Lemma mean_inside cw m a b k : Forall (fun c => 0 < snd c) cw -> cw <> [] ->
  fst m * rsum (map snd cw) = rsum (map (fun c => fst (fst c) * snd c) cw) -> snd m * rsum (map snd cw) = rsum (map (fun c => snd (fst c) * snd c) cw) -> Forall (fun c => side a b k (fst c)) cw -> side a b k m.
Proof.
  intros P Ne X Y F. assert (N : 0 < rsum (map snd cw)).
  { destruct P as [|x l Hx Hl]; [congruence|]. assert (0 <= rsum (map snd l)).
    { clear -Hl. unfold rsum. induction Hl; cbn [map fold_right]; lra. }
    unfold rsum in *. cbn [map fold_right]. lra. }
  unfold side in *.
  assert (S : rsum (map (fun c => a * (fst (fst c) * snd c) + b * (snd (fst c) * snd c)) cw) <= rsum (map (fun c => k * snd c) cw)).
  { apply rsum_le. rewrite Forall_forall in *. intros c I. pose proof (F c I). pose proof (P c I). cbn beta in *.
    replace (a * (fst (fst c) * snd c) + b * (snd (fst c) * snd c)) with ((a * fst (fst c) + b * snd (fst c)) * snd c) by ring. apply Rmult_le_compat_r; lra. }
  assert (S1 : forall l, rsum (map (fun c => a * (fst (fst c) * snd c) + b * (snd (fst c) * snd c)) l) =
    a * rsum (map (fun c : (R * R) * R => fst (fst c) * snd c) l) + b * rsum (map (fun c : (R * R) * R => snd (fst c) * snd c) l)).
  { induction l as [|c l IH]; unfold rsum in *; cbn [map fold_right]; [ring|]. rewrite IH. ring. }
  assert (S2 : forall l, rsum (map (fun c : (R * R) * R => k * snd c) l) = k * rsum (map snd l)).
  { induction l as [|c l IH]; unfold rsum in *; cbn [map fold_right]; [ring|]. rewrite IH. ring. }
  rewrite S1, S2, <- X, <- Y in S. apply Rmult_le_reg_r with (rsum (map snd cw)); lra.
Qed.
Lemma region_inside cw m a b k : Forall (fun c => 0 < snd c) cw -> cw <> [] -> region_centroid cw = Ok m -> Forall (fun c => side a b k (fst c)) cw -> side a b k m.
Proof.
  intros P Ne E F. assert (N : rsum (map snd cw) <> 0).
  { intros Z0. rewrite region_zero in E by exact Z0. discriminate. }
  destruct (region_mean cw N) as (m' & Em & X & Y). rewrite Em in E. injection E as E. subst m'. exact (mean_inside cw m a b k P Ne X Y F).
Qed.
(** * What geocentroid returns *)
Lemma mapM_all {A B} (f : A -> res B) l r : mapM f l = Ok r -> Forall2 (fun x y => f x = Ok y) l r.
Proof.
  revert r. induction l as [|x l IH]; intros r E; cbn [mapM] in E; [injection E as <-; constructor|].
  destruct (f x) as [y|] eqn:Ey; [|discriminate]. cbn [bind] in E. destruct (mapM f l) as [ys|]; [|discriminate]. cbn [bind] in E. injection E as <-.
  constructor; [exact Ey|]. apply IH. reflexivity.
Qed.
Lemma geocentroid_inside fuel region bb eps c : region <> [] -> geocentroid fuel region bb (Some eps) = Some (Ok c) -> exists c' xys m,
  mapM (mapM (fun p => equalarea_geo2rect (proj_new (Some c') None) (fst p) (snd p))) region = Ok xys /\
  equalarea_rect2geo (proj_new (Some c') None) (fst m) (snd m) = Ok c /\ Rabs (fst c - fst c') <= eps /\ Rabs (snd c - snd c') <= eps /\
  (Forall fan_left xys -> forall a b k, Forall (Forall (side a b k)) xys -> side a b k m).
Proof.
  intros Ne E. apply geocentroid_exit in E. destruct E as (c' & xys & cw & m & E1 & E2 & X & Y & R0 & A & B). exists c', xys, m.
  split; [exact E1|]. split; [exact R0|]. split; [exact A|]. split; [exact B|]. intros L a b k F.
  apply mapM_all in E1, E2. assert (N2 : cw <> []).
  { intros ->. inversion E2; subst. inversion E1; subst. congruence. }
  clear E1. apply (mean_inside cw); [| exact N2|exact X|exact Y|]; clear -E2 L F.
  - induction E2 as [|x [c w] l r H _ IH]; [constructor|]. inversion L as [|? ? (o & I & S) L']; inversion F; subst. constructor; [|apply IH; assumption].
    exact (proj1 (centroid_sign o x c w H) S).
  - induction E2 as [|x [c w] l r H _ IH]; [constructor|]. inversion L as [|? ? (o & I & S) L']; inversion F as [|? ? F1 F2]; subst. constructor; [|apply IH; assumption].
    cbn [fst]. apply (centroid_inside o x c w); [left; exact S|exact H| |exact F1]. rewrite Forall_forall in F1. exact (F1 o I).
Qed.
(** * Outlines that cross themselves *)
Lemma bow_tie : poly_centroid [(0, 0); (1, 1); (1, 0); (0, 3 / 2)] = Ok ((-1 / 3, 5 / 6), 1 / 2).
Proof.
  apply centroid_make; [| |unfold esum|unfold esum]; unfold area2; cbn [closed_edges app combine map rsum fold_right fst snd]; unfold mx, my, ecross, cross; cbn [fst snd]; lra.
Qed.
