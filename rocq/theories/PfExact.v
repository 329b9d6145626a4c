(** P files in exact arithmetic. *)
From Coq Require Import ZifyBool ZifyNat Lqa Qfield Psatz.
From Verif Require Import Num RoundProofs BBoxModel BBoxSpec BBoxProofs VlvModel VlvProofs PfModel PfProofs PfSpec.
Open Scope Z_scope.

(** ** Normalisation *)
Lemma while_inv fuel cond d : forall x y : Q, while_add fuel cond d x = Some y ->
  cond y = false /\ exists k, (y == x + inject_Z k * d)%Q /\ 0 <= k /\
    ((k = 0 /\ y = x) \/ (cond x = true /\ exists z, cond z = true /\ y = (z + d)%Q)).
Proof.
  induction fuel as [|f IH]; intros x y H; cbn [while_add] in H; [discriminate|].
  destruct (cond x) eqn:C.
  - destruct (IH _ _ H) as (A & k & E & P & D). split; [exact A|]. exists (k + 1). split; [|split; [lia|]].
    + rewrite E. cbn [nadd NumQ]. rewrite inject_Z_plus. change (inject_Z 1) with 1%Q. ring.
    + right. split; [reflexivity|]. destruct D as [[-> ->]|[_ D]]; [|exact D].
      exists x. auto.
  - injection H as <-. split; [exact C|]. exists 0. split; [|auto with zarith].
    change (inject_Z 0) with 0%Q. ring.
Qed.
Lemma while_fuel fuel cond d : forall (x y : Q) fuel', while_add fuel cond d x = Some y ->
  (fuel <= fuel')%nat -> while_add fuel' cond d x = Some y.
Proof.
  induction fuel as [|f IH]; intros x y fuel' H L; cbn [while_add] in H; [discriminate|].
  destruct fuel' as [|f']; [lia|]. cbn [while_add]. destruct (cond x); [|exact H].
  apply IH; [exact H|lia].
Qed.
(** A loop that raises x by d > 0 until it reaches a. *)
Lemma while_up a d (n : nat) : forall x : Q, (0 < d)%Q -> (a - x <= inject_Z (Z.of_nat n) * d)%Q ->
  exists y, while_add (S n) (fun v => Qlt_bool v a) d x = Some y.
Proof.
  induction n as [|n IH]; intros x D H.
  - cbn [while_add]. destruct (Qlt_bool x a) eqn:E; [|eauto]. qbool. change (inject_Z (Z.of_nat 0)) with 0%Q in H. lra.
  - cbn [while_add] in *. destruct (Qlt_bool x a) eqn:E; [|eauto].
    apply (IH (x + d)%Q D). rewrite Nat2Z.inj_succ in H. unfold Z.succ in H. rewrite inject_Z_plus in H.
    change (inject_Z 1) with 1%Q in H. lra.
Qed.
Lemma while_down a d (n : nat) : forall x : Q, (d < 0)%Q -> (x - a <= inject_Z (Z.of_nat n) * - d)%Q ->
  exists y, while_add (S n) (fun v => Qlt_bool a v) d x = Some y.
Proof.
  induction n as [|n IH]; intros x D H.
  - cbn [while_add]. destruct (Qlt_bool a x) eqn:E; [|eauto]. qbool. change (inject_Z (Z.of_nat 0)) with 0%Q in H. lra.
  - cbn [while_add] in *. destruct (Qlt_bool a x) eqn:E; [|eauto].
    apply (IH (x + d)%Q D). rewrite Nat2Z.inj_succ in H. unfold Z.succ in H. rewrite inject_Z_plus in H.
    change (inject_Z 1) with 1%Q in H. lra.
Qed.
Lemma archimedes (q d : Q) : (0 < d)%Q -> exists n : nat, (q <= inject_Z (Z.of_nat n) * d)%Q.
Proof.
  intros D. exists (Z.to_nat (Qceiling (q / d))).
  pose proof (Qle_ceiling (q / d)) as C.
  assert (E : (q == q / d * d)%Q) by (field; lra).
  apply (Qle_trans _ (q / d * d)); [rewrite <- E; apply Qle_refl|].
  apply Qmult_le_compat_r; [|lra]. apply (Qle_trans _ _ _ C).
  rewrite <- Zle_Qle. lia.
Qed.
Lemma norm_lon_inv fuel (x y : Q) : norm_lon fuel x = Some y ->
  lon_range y /\ (exists k, y == x + inject_Z (360 * k))%Q /\ (lon_range x -> y = x).
Proof.
  unfold norm_lon, lon_range. cbn [nlt nofZ NumQ].
  destruct (while_add fuel (fun v => Qlt_bool v (inject_Z (-180))) (inject_Z 360) x) as [z|] eqn:E1; [|discriminate].
  intros E2. destruct (while_inv _ _ _ _ _ E1) as (A1 & k1 & K1 & P1 & D1).
  destruct (while_inv _ _ _ _ _ E2) as (A2 & k2 & K2 & P2 & D2).
  qbool. change (inject_Z (-180)) with (-180)%Q in *. change (inject_Z 180) with 180%Q in *.
  change (inject_Z 360) with 360%Q in *. change (inject_Z (-360)) with (-360)%Q in *.
  split; [|split].
  - split; [|exact A2]. destruct D2 as [[_ ->]|(_ & v & Cv & ->)]; [exact A1|]. qbool. lra.
  - exists (k1 - k2). rewrite K2, K1. rewrite inject_Z_mult. unfold Z.sub. rewrite inject_Z_plus, inject_Z_opp.
    change (inject_Z 360) with 360%Q. ring.
  - intros [L U]. assert (Ez : z = x).
    { destruct D1 as [[_ ->]|(C & _)]; [reflexivity|]. qbool. lra. }
    subst z. destruct D2 as [[_ ->]|(C & _)]; [reflexivity|]. qbool. lra.
Qed.
Lemma norm_lat_inv fuel (x y : Q) : norm_lat fuel x = Some y ->
  (x <= 90)%Q /\ lat_range y /\ (exists k, y == x + inject_Z (180 * k))%Q /\ (lat_range x -> y = x).
Proof.
  unfold norm_lat, lat_range. cbn [nlt nofZ NumQ].
  destruct (while_add fuel (fun v => Qlt_bool v (inject_Z (-90))) (inject_Z 180) x) as [z|] eqn:E1; [|discriminate].
  intros E2. destruct (while_inv _ _ _ _ _ E1) as (A1 & k1 & K1 & P1 & D1).
  destruct (while_inv _ _ _ _ _ E2) as (A2 & k2 & K2 & P2 & D2).
  qbool. change (inject_Z (-90)) with (-90)%Q in *. change (inject_Z 90) with 90%Q in *.
  change (inject_Z 180) with 180%Q in *.
  assert (Ez : y = z).
  { destruct D2 as [[_ ->]|(C & v & Cv & ->)]; [reflexivity|]. qbool. lra. }
  subst y. split; [|split; [|split]].
  - destruct D1 as [[_ ->]|(C & _)]; [exact A2|]. qbool. lra.
  - split; [exact A1|exact A2].
  - exists k1. rewrite K1, inject_Z_mult. change (inject_Z 180) with 180%Q. ring.
  - intros [L U]. destruct D1 as [[_ ->]|(C & _)]; [reflexivity|]. qbool. lra.
Qed.
(** The loop for latitudes above 90 never ends. *)
Lemma lat_diverges fuel (x : Q) : (90 < x)%Q -> norm_lat fuel x = None.
Proof.
  intros H. destruct (norm_lat fuel x) as [y|] eqn:E; [|reflexivity].
  apply norm_lat_inv in E. lra.
Qed.
Lemma norm_lon_total (x : Q) : exists n, forall fuel, (n <= fuel)%nat -> exists y, norm_lon fuel x = Some y.
Proof.
  destruct (archimedes (-180 - x) 360 ltac:(lra)) as (n1 & N1).
  destruct (while_up (inject_Z (-180)) (inject_Z 360) n1 x) as (z & Z); [reflexivity|exact N1|].
  destruct (archimedes (z - 180) 360 ltac:(lra)) as (n2 & N2).
  destruct (while_down (inject_Z 180) (inject_Z (-360)) n2 z) as (y & Y); [reflexivity| |].
  { change (- inject_Z (-360))%Q with 360%Q. exact N2. }
  exists (S n1 + S n2)%nat. intros fuel L. exists y. unfold norm_lon. cbn [nlt nofZ NumQ].
  rewrite (while_fuel _ _ _ _ _ fuel Z) by lia. apply (while_fuel _ _ _ _ _ fuel Y). lia.
Qed.
Lemma norm_lat_total (x : Q) : (x <= 90)%Q ->
  exists n, forall fuel, (n <= fuel)%nat -> exists y, norm_lat fuel x = Some y.
Proof.
  intros H. destruct (archimedes (-90 - x) 180 ltac:(lra)) as (n1 & N1).
  destruct (while_up (inject_Z (-90)) (inject_Z 180) n1 x) as (z & Z); [reflexivity|exact N1|].
  exists (S n1). intros fuel L. exists z. unfold norm_lat. cbn [nlt nofZ NumQ].
  rewrite (while_fuel _ _ _ _ _ fuel Z) by lia. destruct fuel as [|f]; [lia|]. cbn [while_add].
  destruct (while_inv _ _ _ _ _ Z) as (A & k & K & P & D). qbool.
  replace (Qlt_bool (inject_Z 90) z) with false; [reflexivity|]. symmetry. apply Qlt_bool_false.
  change (inject_Z (-90)) with (-90)%Q in *. change (inject_Z 90) with 90%Q. change (inject_Z 180) with 180%Q in *.
  destruct D as [[_ ->]|(_ & v & Cv & ->)]; [exact H|]. qbool. lra.
Qed.
Lemma norm_point_inv fuel (p q : Q * Q) : norm_point fuel p = Some q -> normalised p q /\ (snd p <= 90)%Q.
Proof.
  unfold norm_point. destruct (norm_lon fuel (fst p)) as [x|] eqn:E1; [|discriminate].
  destruct (norm_lat fuel (snd p)) as [y|] eqn:E2; [|discriminate]. intros E. injection E as <-.
  apply norm_lon_inv in E1. apply norm_lat_inv in E2. destruct E1 as (A1 & B1 & C1), E2 as (L & A2 & B2 & C2).
  split; [|exact L]. unfold normalised. cbn. repeat split; auto; try apply A1; try apply A2.
  intros H1 H2. rewrite C1, C2 by assumption. destruct p; reflexivity.
Qed.
Lemma norm_point_total (p : Q * Q) : (snd p <= 90)%Q ->
  exists n, forall fuel, (n <= fuel)%nat -> exists q, norm_point fuel p = Some q.
Proof.
  intros H. destruct (norm_lon_total (fst p)) as (n1 & N1). destruct (norm_lat_total (snd p) H) as (n2 & N2).
  exists (n1 + n2)%nat. intros fuel L. destruct (N1 fuel ltac:(lia)) as (x & X). destruct (N2 fuel ltac:(lia)) as (y & Y).
  exists (x, y). unfold norm_point. rewrite X, Y. reflexivity.
Qed.
Lemma omap_total {A B} (f : nat -> A -> option B) l :
  (forall x, In x l -> exists n, forall fuel, (n <= fuel)%nat -> exists y, f fuel x = Some y) ->
  exists n, forall fuel, (n <= fuel)%nat -> exists ys, omap (f fuel) l = Some ys.
Proof.
  induction l as [|x l IH]; intros H; [exists 0%nat; cbn; eauto|].
  destruct (H x (or_introl eq_refl)) as (n1 & N1). destruct (IH (fun y Hy => H y (or_intror Hy))) as (n2 & N2).
  exists (n1 + n2)%nat. intros fuel L. destruct (N1 fuel ltac:(lia)) as (y & Y). destruct (N2 fuel ltac:(lia)) as (ys & Ys).
  exists (y :: ys). cbn [omap]. rewrite Y, Ys. reflexivity.
Qed.
Lemma write_terminates w name (polys : list (list (Q * Q))) :
  (forall poly p, In poly polys -> In p poly -> (snd p <= 90)%Q) <->
  exists n, forall fuel, (n <= fuel)%nat -> exists r, pf_write fuel w name polys = Some r.
Proof.
  split.
  - intros H. destruct (omap_total (fun fuel => omap (norm_point fuel)) polys) as (n & N).
    { intros poly Hp. apply omap_total. intros p Hq. apply norm_point_total. apply (H poly p); assumption. }
    exists n. intros fuel L. destruct (N fuel L) as (ys & Y). unfold pf_write. rewrite Y. eauto.
  - intros (n & N) poly p Hp Hq. destruct (N n (le_n n)) as (r & R). unfold pf_write in R.
    destruct (omap (omap (norm_point n)) polys) as [ps|] eqn:E; [|discriminate].
    apply omap_inv in E. apply In_nth_error in Hp. destruct Hp as (i & Hi).
    destruct (Forall2_nth_l _ _ _ _ _ E Hi) as (part & _ & E2). apply omap_inv in E2.
    apply In_nth_error in Hq. destruct Hq as (j & Hj).
    destruct (Forall2_nth_l _ _ _ _ _ E2 Hj) as (q & _ & E3). apply norm_point_inv in E3. apply E3.
Qed.
Lemma write_hangs w name (polys : list (list (Q * Q))) poly p :
  In poly polys -> In p poly -> (90 < snd p)%Q -> forall fuel, pf_write fuel w name polys = None.
Proof.
  intros Hp Hq L fuel. unfold pf_write.
  destruct (omap (omap (norm_point fuel)) polys) as [ps|] eqn:E; [|reflexivity]. exfalso.
  apply omap_inv in E. apply In_nth_error in Hp. destruct Hp as (i & Hi).
  destruct (Forall2_nth_l _ _ _ _ _ E Hi) as (part & _ & E2). apply omap_inv in E2.
  apply In_nth_error in Hq. destruct Hq as (j & Hj).
  destruct (Forall2_nth_l _ _ _ _ _ E2 Hj) as (q & _ & E3). apply norm_point_inv in E3. lra.
Qed.

(** ** Rings *)
Lemma last_nth {A} (l : list A) d : l <> [] -> nth_error l (length l - 1) = Some (last l d).
Proof.
  intros H. rewrite (app_removelast_last d H) at 1 2. rewrite app_length. cbn [length].
  replace (length (removelast l) + 1 - 1)%nat with (length (removelast l)) by lia.
  rewrite nth_error_app2 by lia. rewrite Nat.sub_diag. reflexivity.
Qed.
Lemma Ok_inj {A} (a b : A) : Ok a = Ok b -> a = b.
Proof. congruence. Qed.
Lemma drop_closing_inv part0 (part : list (Q * Q)) : drop_closing part0 = Ok part -> ring part0 part.
Proof.
  unfold drop_closing. destruct part0 as [|p r]; [discriminate|]. intros E. apply Ok_inj in E.
  assert (L : nth_error (p :: r) (length (p :: r) - 1) = Some (last (p :: r) p)) by (apply last_nth; discriminate).
  destruct (point_eqb p (last (p :: r) p)) eqn:C.
  - left. split.
    + exists p, (last (p :: r) p). split; [reflexivity|]. split; [exact L|].
      unfold point_eqb in C. apply andb_prop in C. destruct C as [C1 C2]. cbn in C1, C2.
      split; apply Qeq_bool_true; assumption.
    + exists (last (p :: r) p). rewrite <- E. apply app_removelast_last. discriminate.
  - right. split; [|split; [discriminate|auto]].
    intros (p' & q & H1 & H2 & H3 & H4). cbn [hd_error] in H1. injection H1 as <-.
    rewrite L in H2. remember (last (p :: r) p) as z eqn:Ez. injection H2 as <-. unfold point_eqb in C. cbn [neq NumQ] in C.
    apply Qeq_bool_true in H3, H4. rewrite H3, H4 in C. discriminate.
Qed.
Lemma ring_drop part0 (part : list (Q * Q)) : ring part0 part -> drop_closing part0 = Ok part.
Proof.
  intros H. destruct part0 as [|p r].
  - destruct H as [[(p & q & H & _) _]|(_ & H & _)]; [discriminate|congruence].
  - destruct (drop_closing (p :: r)) as [part'|] eqn:E; [|discriminate]. f_equal.
    apply drop_closing_inv in E. destruct H as [[C (q & Hq)]|(C & _ & ->)], E as [[C' (q' & Hq')]|(C' & _ & ->)];
      try contradiction; [|reflexivity].
    rewrite Hq in Hq'. apply app_inj_tail in Hq'. destruct Hq'. congruence.
Qed.
Lemma ring_in poly part p : ring poly part -> In p part -> In p poly.
Proof.
  intros [[_ (q & ->)]|(_ & _ & ->)] H; [|exact H]. apply in_app_iff. left. exact H.
Qed.

(** ** The accumulated box *)
Definition world (b : bbox Q) : Prop :=
  lon_range (bx0 b) /\ lon_range (bx1 b) /\ lat_range (by0 b) /\ lat_range (by1 b) /\
  (bx0 b <= bx1 b)%Q /\ (by0 b <= by1 b)%Q.
Definition wpt (p : Q * Q) : Prop := lon_range (fst p) /\ lat_range (snd p).

Lemma of_points_world (ps : list (Q * Q)) b : Forall wpt ps -> bb_of_points ps = Ok b -> world b.
Proof.
  intros F E. assert (N : ps <> []) by (intros ->; discriminate).
  destruct (of_points_tight_Q ps N) as (b' & E' & A & (y1 & I1) & (y2 & I2) & (x1 & I3) & (x2 & I4)).
  rewrite E in E'. injection E' as <-. rewrite Forall_forall in F.
  pose proof (F _ I1) as W1. pose proof (F _ I2) as W2. pose proof (F _ I3) as W3. pose proof (F _ I4) as W4.
  unfold world, wpt in *. cbn in *. repeat split; try apply W1; try apply W2; try apply W3; try apply W4.
  - apply (A _ _ I2).
  - apply (A _ _ I4).
Qed.
Lemma or_world a b : world a -> world b -> world (bb_or a b).
Proof.
  intros A B. unfold bb_or. destruct (negb (bb_bool a)); [exact B|]. destruct (negb (bb_bool b)); [exact A|].
  unfold world, lon_range, lat_range, nmin, nmax in *. cbn [bx0 bx1 by0 by1 nlt NumQ].
  destruct (Qlt_bool (bx0 b) (bx0 a)) eqn:E1; destruct (Qlt_bool (by0 b) (by0 a)) eqn:E2;
    destruct (Qlt_bool (bx1 a) (bx1 b)) eqn:E3; destruct (Qlt_bool (by1 a) (by1 b)) eqn:E4; qbool; lra.
Qed.
Lemma steps_world parts : forall o o', Forall (Forall wpt) parts ->
  (forall a, o = Some a -> world a) -> foldM bb_step parts o = Ok o' -> forall b, o' = Some b -> world b.
Proof.
  induction parts as [|p parts IH]; intros o o' F W E; cbn [foldM] in E;
    [injection E as <-; exact W|].
  apply bind_ok in E. destruct E as (o1 & E1 & E). inversion F as [|? ? F1 F2]; subst.
  apply (IH o1 o' F2); [|exact E]. intros a ->. unfold bb_step in E1. apply bind_ok in E1.
  destruct E1 as (c & Ec & E1). injection E1 as <-. pose proof (of_points_world _ _ F1 Ec) as Wc.
  destruct o as [a0|]; [|exact Wc]. apply or_world; auto.
Qed.

(** Grid coordinates. *)
Lemma floor_range q n : (0 <= q)%Q -> (q <= inject_Z n)%Q -> 0 <= Qfloor q <= n.
Proof.
  intros A B. split.
  - change 0 with (Qfloor (inject_Z 0)). apply Qfloor_resp_le. exact A.
  - rewrite <- (Qfloor_Z n). apply Qfloor_resp_le. exact B.
Qed.
Lemma ceil_range q n : (0 <= q)%Q -> (q <= inject_Z n)%Q -> 0 <= Qceiling q <= n.
Proof.
  intros A B. split.
  - change 0 with (Qceiling (inject_Z 0)). apply Qceiling_resp_le. exact A.
  - rewrite <- (Qceiling_Z n). apply Qceiling_resp_le. exact B.
Qed.
Lemma scale_range v off span : (0 < span)%Q -> (0 <= v + off <= span)%Q ->
  (0 <= (v + off) * inject_Z 65535 / span <= inject_Z 65535)%Q.
Proof.
  intros P [A B]. change (inject_Z 65535) with 65535%Q. split.
  - apply Qle_shift_div_l; [exact P|]. lra.
  - apply Qle_shift_div_r; [exact P|]. lra.
Qed.
Lemma world_box_ok b : world b -> box_ok (quant_box b).
Proof.
  intros (A & B & C & D & _). unfold lon_range, lat_range in *. unfold quant_box, box_ok.
  cbn [nfloor nceil RoundQ ndiv nmul nadd nofZ NumQ]. change UMAX2 with 65535.
  change (inject_Z 180) with 180%Q. change (inject_Z 360) with 360%Q. change (inject_Z 90) with 90%Q.
  pose proof (scale_range (bx0 b) 180 360 ltac:(lra) ltac:(lra)) as [S1 S1'].
  pose proof (scale_range (bx1 b) 180 360 ltac:(lra) ltac:(lra)) as [S2 S2'].
  pose proof (scale_range (by0 b) 90 180 ltac:(lra) ltac:(lra)) as [S3 S3'].
  pose proof (scale_range (by1 b) 90 180 ltac:(lra) ltac:(lra)) as [S4 S4'].
  pose proof (floor_range _ _ S1 S1'). pose proof (ceil_range _ _ S2 S2').
  pose proof (floor_range _ _ S3 S3'). pose proof (ceil_range _ _ S4 S4'). lia.
Qed.

(** ** What an accepted entity looks like *)
Lemma norm_parts fuel (polys : list (list (Q * Q))) parts0 :
  omap (omap (norm_point fuel)) polys = Some parts0 ->
  Forall2 (Forall2 normalised) polys parts0 /\ Forall (Forall wpt) parts0.
Proof.
  intros E. apply omap_inv in E. induction E as [|poly part polys parts0 E _ [IH1 IH2]];
    [split; constructor|]. apply omap_inv in E.
  assert (K : Forall2 normalised poly part /\ Forall wpt part).
  { induction E as [|p q poly part E _ [I1 I2]]; [split; constructor|].
    apply norm_point_inv in E. destruct E as [E _]. split; constructor; auto. destruct E as (A & B & _). split; assumption. }
  destruct K. split; constructor; auto.
Qed.
Lemma ring_world poly part : Forall wpt poly -> ring poly part -> Forall wpt part.
Proof.
  intros F R. rewrite Forall_forall in *. intros p Hp. apply F. apply (ring_in poly part); assumption.
Qed.
Lemma rings_world parts0 (parts : list (list (Q * Q))) : Forall (Forall wpt) parts0 ->
  Forall2 (fun a b => ring a b) parts0 parts -> Forall (Forall wpt) parts.
Proof.
  intros F R. induction R as [|a b l m R _ IH]; [constructor|]. inversion F; subst. constructor; auto.
  apply (ring_world a); assumption.
Qed.
Lemma mapM_rings parts0 (parts : list (list (Q * Q))) :
  mapM drop_closing parts0 = Ok parts <-> Forall2 (fun a b => ring a b) parts0 parts.
Proof.
  split; intros H.
  - apply mapM_inv in H. induction H; constructor; auto. apply drop_closing_inv; assumption.
  - apply mapM_Forall2. induction H; constructor; auto. apply ring_drop; assumption.
Qed.

Lemma quant_coord_near umax a b x u : (0 < inject_Z umax)%Q -> quant_coord umax a b x = Ok u ->
  (Qabs (a + inject_Z u * (b - a) / inject_Z umax - x) <= Qabs (b - a) / (2 * inject_Z umax))%Q.
Proof.
  intros P H. unfold quant_coord, ndivE in H. cbn [neq ndiv nmul nsub nofZ NumQ nround RoundQ] in H.
  destruct (Qeq_bool (b - a) (inject_Z 0)) eqn:E; [discriminate|]. cbn [bind] in H. injection H as <-.
  apply Qeq_bool_false in E. change (inject_Z 0) with 0%Q in E.
  set (c := ((x - a) * inject_Z umax / (b - a))%Q). pose proof (q_round_half c) as R.
  setoid_replace (a + inject_Z (q_round c) * (b - a) / inject_Z umax - x)%Q
    with (- ((b - a) / inject_Z umax * (c - inject_Z (q_round c))))%Q
    by (unfold c; field; split; lra).
  rewrite Qabs_opp, Qabs_Qmult.
  setoid_replace (Qabs (b - a) / (2 * inject_Z umax))%Q with (Qabs ((b - a) / inject_Z umax) * (1#2))%Q.
  - rewrite (Qmult_comm (Qabs ((b - a) / inject_Z umax))), (Qmult_comm (Qabs ((b - a) / inject_Z umax)) (1#2)).
    apply Qmult_le_compat_r; [exact R|]. apply Qabs_nonneg.
  - unfold Qdiv. rewrite Qabs_Qmult. rewrite (Qabs_pos (/ inject_Z umax)).
    + field. lra.
    + apply Qlt_le_weak, Qinv_lt_0_compat. exact P.
Qed.

Lemma umax_pos n size umax : getfmt size = Ok (n, umax) -> (0 < inject_Z umax)%Q /\ umax = max_code size.
Proof.
  intros G. destruct (getfmt_inv _ _ _ G) as (_ & E & W). split; [|exact E].
  change 0%Q with (inject_Z 0). rewrite <- Zlt_Qlt. subst umax.
  destruct W as [->|[->|[->| ->]]]; reflexivity.
Qed.

Lemma written_geometry fuel n size umax name polys e : getfmt size = Ok (n, umax) ->
  written fuel umax name polys e ->
  box_ok (e_box e) /\ e_name e = name /\
  (let '(x0, x1, y0, y1) := @dequant_box Q _ (e_box e) in
   same_geometry (half_code size x0 x1) (half_code size y0 y1) polys
     (map (map (dequant_point umax (dequant_box (e_box e)))) (e_parts e))).
Proof.
  intros G (Hn & parts0 & parts & bb & E0 & E1 & E2 & Eb & F).
  destruct (umax_pos _ _ _ G) as (Up & Um).
  destruct (norm_parts _ _ _ E0) as (N & W). apply mapM_rings in E1.
  pose proof (rings_world _ _ W E1) as W'.
  assert (Wb : world bb) by (apply (steps_world parts None (Some bb) W'); [discriminate|exact E2|reflexivity]).
  split; [rewrite Eb; apply world_box_ok; exact Wb|]. split; [exact Hn|].
  destruct (@dequant_box Q _ (e_box e)) as [[[x0 x1] y0] y1] eqn:D. unfold same_geometry.
  clear - N E1 F Up Um. revert parts0 parts N E1 F. generalize (e_parts e) as qs. induction polys as [|poly polys IH]; intros qs parts0 parts N E1 F.
  - inversion N; subst. inversion E1; subst. inversion F; subst. constructor.
  - inversion N as [|? q ? parts0' N1 N2]; subst. inversion E1 as [|? r ? parts' R1 R2]; subst.
    inversion F as [|? us ? uss F1 F2]; subst. cbn [map]. constructor; [|apply (IH uss parts0' parts'); assumption].
    exists q, r. split; [exact N1|]. split; [exact R1|].
    clear - F1 Up. induction F1 as [|p u r us Q _ IH]; [constructor|]. cbn [map]. constructor; [|exact IH].
    unfold quantised in Q. destruct Q as [Q1 Q2]. unfold near, half_code, dequant_point.
    cbn [fst snd nadd ndiv nmul nofZ nsub NumQ]. rewrite inject_Z_mult. change (inject_Z 2) with 2%Q.
    split; apply quant_coord_near; assumption.
Qed.
