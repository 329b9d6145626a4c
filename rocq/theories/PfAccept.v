(** P files in exact arithmetic: which entities are accepted. *)
From Coq Require Import ZifyBool ZifyNat Lqa Qfield Psatz.
From Verif Require Import Num RoundProofs BBoxModel BBoxSpec BBoxProofs VlvModel VlvProofs PfModel PfProofs PfSpec PfExact.
Open Scope Z_scope.

(** [b] is the hull of [ps]. *)
Definition hull (ps : list (Q * Q)) (b : bbox Q) : Prop :=
  (forall x y, In (x, y) ps -> (bx0 b <= x /\ x <= bx1 b /\ by0 b <= y /\ y <= by1 b)%Q) /\
  (exists y, In (bx0 b, y) ps) /\ (exists y, In (bx1 b, y) ps) /\
  (exists x, In (x, by0 b) ps) /\ (exists x, In (x, by1 b) ps).
Lemma hull_of_points ps : ps <> [] -> exists b, bb_of_points ps = Ok b /\ hull ps b.
Proof. intros N. destruct (of_points_tight_Q ps N) as (b & E & A). exists b. split; [exact E|exact A]. Qed.
Lemma hull_wf ps b : hull ps b -> wf b.
Proof.
  intros (A & (y & I1) & _ & (x & I2) & _). pose proof (A _ _ I1). pose proof (A _ _ I2). split; lra.
Qed.
Lemma spread_proper ps b : hull ps b -> (spread ps <-> proper b).
Proof.
  intros (A & (y0 & I0) & (y1 & I1) & (x0 & J0) & (x1 & J1)). split.
  - intros [((a, b') & (c, d) & P & Q & N) ((a', b'') & (c', d') & P' & Q' & N')]. cbn in N, N'.
    pose proof (A _ _ P). pose proof (A _ _ Q). pose proof (A _ _ P'). pose proof (A _ _ Q').
    split; apply Qnot_le_lt; intros L; [apply N|apply N']; lra.
  - intros [P Q]. split.
    + exists (bx0 b, y0), (bx1 b, y1). cbn. repeat split; auto. lra.
    + exists (x0, by0 b), (x1, by1 b). cbn. repeat split; auto. lra.
Qed.
Lemma hull_or ps qs a b : hull ps a -> hull qs b -> proper a -> proper b ->
  hull (ps ++ qs) (bb_or a b) /\ proper (bb_or a b).
Proof.
  intros Ha Hb Pa Pb. unfold bb_or.
  assert (Ea : bb_bool a = true) by (apply bool_proper; [apply (hull_wf ps)|]; assumption).
  assert (Eb : bb_bool b = true) by (apply bool_proper; [apply (hull_wf qs)|]; assumption).
  rewrite Ea, Eb. cbn [negb]. destruct Pa as [Pa1 Pa2], Pb as [Pb1 Pb2].
  destruct Ha as (A & (y0 & I0) & (y1 & I1) & (x0 & J0) & (x1 & J1)).
  destruct Hb as (B & (y0' & I0') & (y1' & I1') & (x0' & J0') & (x1' & J1')).
  unfold hull, proper, nmin, nmax. cbn [bx0 bx1 by0 by1 nlt NumQ].
  assert (U : forall x y, In (x, y) (ps ++ qs) ->
    ((bx0 a <= x <= bx1 a /\ by0 a <= y <= by1 a) \/ (bx0 b <= x <= bx1 b /\ by0 b <= y <= by1 b))%Q).
  { intros x y Hi. apply in_app_iff in Hi. destruct Hi as [Hi|Hi]; [left; apply A in Hi|right; apply B in Hi]; lra. }
  split; [split; [|repeat split]|].
  - intros x y Hi. specialize (U x y Hi).
    destruct (Qlt_bool (bx0 b) (bx0 a)) eqn:E1; destruct (Qlt_bool (by0 b) (by0 a)) eqn:E2;
    destruct (Qlt_bool (bx1 a) (bx1 b)) eqn:E3; destruct (Qlt_bool (by1 a) (by1 b)) eqn:E4; qbool; lra.
  - destruct (Qlt_bool (bx0 b) (bx0 a)); [exists y0'|exists y0]; apply in_app_iff; auto.
  - destruct (Qlt_bool (bx1 a) (bx1 b)); [exists y1'|exists y1]; apply in_app_iff; auto.
  - destruct (Qlt_bool (by0 b) (by0 a)); [exists x0'|exists x0]; apply in_app_iff; auto.
  - destruct (Qlt_bool (by1 a) (by1 b)); [exists x1'|exists x1]; apply in_app_iff; auto.
  - destruct (Qlt_bool (bx0 b) (bx0 a)) eqn:E1; destruct (Qlt_bool (by0 b) (by0 a)) eqn:E2;
    destruct (Qlt_bool (bx1 a) (bx1 b)) eqn:E3; destruct (Qlt_bool (by1 a) (by1 b)) eqn:E4; qbool; lra.
Qed.
Lemma spread_nonempty ps : spread ps -> ps <> [].
Proof. intros [(p & _ & H & _) _] ->. exact H. Qed.
Lemma bb_step_ok o (p : list (Q * Q)) c : bb_of_points p = Ok c ->
  bb_step o p = Ok (Some match o with None => c | Some a => bb_or a c end).
Proof. intros E. unfold bb_step. rewrite E. reflexivity. Qed.
Lemma fold_hull parts : forall ps a, hull ps a -> proper a -> Forall spread parts ->
  exists b, foldM bb_step parts (Some a) = Ok (Some b) /\ hull (ps ++ concat parts) b /\ proper b.
Proof.
  induction parts as [|p parts IH]; intros ps a Ha Pa F; cbn [foldM concat].
  - exists a. rewrite app_nil_r. auto.
  - inversion F as [|? ? Sp F']; subst. destruct (hull_of_points p (spread_nonempty p Sp)) as (c & Ec & Hc).
    rewrite (bb_step_ok _ _ _ Ec). cbn [bind].
    destruct (hull_or ps p a c Ha Hc Pa ltac:(apply (spread_proper p); assumption)) as (Ho & Po).
    destruct (IH (ps ++ p) (bb_or a c) Ho Po F') as (b & E & Hb & Pb). exists b.
    rewrite app_assoc. auto.
Qed.
Lemma acceptable_box parts : (exists part, parts = [part] /\ part <> []) \/ (parts <> [] /\ Forall spread parts) ->
  exists b, foldM bb_step parts None = Ok (Some b) /\ hull (concat parts) b /\
    (Forall spread parts -> proper b).
Proof.
  intros [(part & -> & N)|(N & F)].
  - cbn [foldM concat]. destruct (hull_of_points part N) as (c & Ec & Hc). unfold bb_step. rewrite Ec. cbn [bind].
    exists c. rewrite app_nil_r. split; [reflexivity|]. split; [exact Hc|]. intros F. inversion F; subst.
    apply (spread_proper part); assumption.
  - destruct parts as [|p parts]; [congruence|]. inversion F as [|? ? Sp F']; subst.
    destruct (hull_of_points p (spread_nonempty p Sp)) as (c & Ec & Hc). cbn [foldM].
    rewrite (bb_step_ok _ _ _ Ec). cbn [bind].
    destruct (fold_hull parts p c Hc ltac:(apply (spread_proper p); assumption) F') as (b & E & Hb & Pb).
    exists b. auto.
Qed.

(** ** The rounded box *)
Lemma grid_floor v off span : (0 < span)%Q ->
  let k := Qfloor ((v + off) * inject_Z 65535 / span)%Q in
  (inject_Z k * span / 65535 - off <= v)%Q /\ (v < inject_Z (k + 1) * span / 65535 - off)%Q.
Proof.
  intros P k. change (inject_Z 65535) with 65535%Q in k.
  pose proof (Qfloor_le ((v + off) * 65535 / span)%Q) as L. pose proof (Qlt_floor ((v + off) * 65535 / span)%Q) as U.
  fold k in L, U.
  assert (E : (v == (v + off) * 65535 / span * span / 65535 - off)%Q) by (field; lra).
  set (c := ((v + off) * 65535 / span)%Q) in *.
  assert (P' : (0 < span / 65535)%Q) by (apply Qlt_shift_div_l; lra).
  split.
  - assert (M := Qmult_le_compat_r _ _ (span / 65535) L ltac:(lra)).
    setoid_replace (inject_Z k * span / 65535)%Q with (inject_Z k * (span / 65535))%Q by field.
    setoid_replace (c * span / 65535)%Q with (c * (span / 65535))%Q in E by field. lra.
  - assert (M := Qmult_lt_compat_r _ _ (span / 65535) P' U).
    setoid_replace (inject_Z (k + 1) * span / 65535)%Q with (inject_Z (k + 1) * (span / 65535))%Q by field.
    setoid_replace (c * span / 65535)%Q with (c * (span / 65535))%Q in E by field. lra.
Qed.
Lemma grid_ceil v off span : (0 < span)%Q ->
  let k := Qceiling ((v + off) * inject_Z 65535 / span)%Q in
  (v <= inject_Z k * span / 65535 - off)%Q /\ (inject_Z (k - 1) * span / 65535 - off < v)%Q.
Proof.
  intros P k. change (inject_Z 65535) with 65535%Q in k.
  pose proof (Qle_ceiling ((v + off) * 65535 / span)%Q) as L. pose proof (Qceiling_lt ((v + off) * 65535 / span)%Q) as U.
  fold k in L, U.
  assert (E : (v == (v + off) * 65535 / span * span / 65535 - off)%Q) by (field; lra).
  set (c := ((v + off) * 65535 / span)%Q) in *.
  assert (P' : (0 < span / 65535)%Q) by (apply Qlt_shift_div_l; lra).
  split.
  - assert (M := Qmult_le_compat_r _ _ (span / 65535) L ltac:(lra)).
    setoid_replace (inject_Z k * span / 65535)%Q with (inject_Z k * (span / 65535))%Q by field.
    setoid_replace (c * span / 65535)%Q with (c * (span / 65535))%Q in E by field. lra.
  - assert (M := Qmult_lt_compat_r _ _ (span / 65535) P' U).
    setoid_replace (inject_Z (k - 1) * span / 65535)%Q with (inject_Z (k - 1) * (span / 65535))%Q by field.
    setoid_replace (c * span / 65535)%Q with (c * (span / 65535))%Q in E by field. lra.
Qed.
Lemma grid_lon_eq k : (grid_lon k == inject_Z k * 360 / 65535 - 180)%Q.
Proof. unfold grid_lon. rewrite inject_Z_mult. change (inject_Z 360) with 360%Q. field. Qed.
Lemma grid_lat_eq k : (grid_lat k == inject_Z k * 180 / 65535 - 90)%Q.
Proof. unfold grid_lat. rewrite inject_Z_mult. change (inject_Z 180) with 180%Q. field. Qed.
Lemma hull_tight ps b a1 a2 c1 c2 : hull ps b -> quant_box b = (a1, a2, c1, c2) ->
  tight_grid grid_lon (map fst ps) a1 a2 /\ tight_grid grid_lat (map snd ps) c1 c2.
Proof.
  intros (A & (y0 & I0) & (y1 & I1) & (x0 & J0) & (x1 & J1)) E. unfold quant_box in E.
  cbn [nfloor nceil RoundQ ndiv nmul nadd nofZ NumQ] in E. change UMAX2 with 65535 in E.
  change (inject_Z 180) with 180%Q in E. change (inject_Z 360) with 360%Q in E. change (inject_Z 90) with 90%Q in E.
  assert (E1 : a1 = Qfloor ((bx0 b + 180) * inject_Z 65535 / 360)) by congruence.
  assert (E2 : a2 = Qceiling ((bx1 b + 180) * inject_Z 65535 / 360)) by congruence.
  assert (E3 : c1 = Qfloor ((by0 b + 90) * inject_Z 65535 / 180)) by congruence.
  assert (E4 : c2 = Qceiling ((by1 b + 90) * inject_Z 65535 / 180)) by congruence.
  clear E.
  assert (G1 : (grid_lon a1 <= bx0 b)%Q /\ (bx0 b < grid_lon (a1 + 1))%Q)
    by (rewrite !grid_lon_eq, E1; apply (grid_floor (bx0 b) 180 360); reflexivity).
  assert (G2 : (bx1 b <= grid_lon a2)%Q /\ (grid_lon (a2 - 1) < bx1 b)%Q)
    by (rewrite !grid_lon_eq, E2; apply (grid_ceil (bx1 b) 180 360); reflexivity).
  assert (G3 : (grid_lat c1 <= by0 b)%Q /\ (by0 b < grid_lat (c1 + 1))%Q)
    by (rewrite !grid_lat_eq, E3; apply (grid_floor (by0 b) 90 180); reflexivity).
  assert (G4 : (by1 b <= grid_lat c2)%Q /\ (grid_lat (c2 - 1) < by1 b)%Q)
    by (rewrite !grid_lat_eq, E4; apply (grid_ceil (by1 b) 90 180); reflexivity).
  clear E1 E2 E3 E4.
  assert (X : forall x y, In (x, y) ps -> (grid_lon a1 <= x <= grid_lon a2 /\ grid_lat c1 <= y <= grid_lat c2)%Q)
    by (intros x y Hi; apply A in Hi; lra).
  unfold tight_grid. split; (split; [|split]).
  - intros v Hv. apply in_map_iff in Hv. destruct Hv as ([x y] & <- & Hi). apply (X x y Hi).
  - exists (bx0 b). split; [apply in_map_iff; exists (bx0 b, y0); auto|]. apply G1.
  - exists (bx1 b). split; [apply in_map_iff; exists (bx1 b, y1); auto|]. apply G2.
  - intros v Hv. apply in_map_iff in Hv. destruct Hv as ([x y] & <- & Hi). apply (X x y Hi).
  - exists (by0 b). split; [apply in_map_iff; exists (x0, by0 b); auto|]. apply G3.
  - exists (by1 b). split; [apply in_map_iff; exists (x1, by1 b); auto|]. apply G4.
Qed.

Lemma dequant_grid a1 a2 c1 c2 : exists X0 X1 Y0 Y1, @dequant_box Q _ (a1, a2, c1, c2) = (X0, X1, Y0, Y1) /\
  (X0 == grid_lon a1 /\ X1 == grid_lon a2 /\ Y0 == grid_lat c1 /\ Y1 == grid_lat c2)%Q.
Proof.
  do 4 eexists. split; [reflexivity|]. unfold grid_lon, grid_lat. cbn [nsub ndiv nofZ NumQ].
  rewrite !(Z.mul_comm 360), !(Z.mul_comm 180). repeat split; reflexivity.
Qed.
Lemma grid_lon_lt a b : (grid_lon a < grid_lon b)%Q <-> a < b.
Proof.
  rewrite !grid_lon_eq. rewrite Zlt_Qlt.
  setoid_replace (inject_Z a * 360 / 65535)%Q with (inject_Z a * (360 / 65535))%Q by field.
  setoid_replace (inject_Z b * 360 / 65535)%Q with (inject_Z b * (360 / 65535))%Q by field.
  split; intros H; [|apply (Qmult_lt_r _ _ (360 / 65535)) in H; [lra|reflexivity]].
  apply (Qmult_lt_r _ _ (360 / 65535)); [reflexivity|lra].
Qed.
Lemma grid_lat_lt a b : (grid_lat a < grid_lat b)%Q <-> a < b.
Proof.
  rewrite !grid_lat_eq. rewrite Zlt_Qlt.
  setoid_replace (inject_Z a * 180 / 65535)%Q with (inject_Z a * (180 / 65535))%Q by field.
  setoid_replace (inject_Z b * 180 / 65535)%Q with (inject_Z b * (180 / 65535))%Q by field.
  split; intros H; [|apply (Qmult_lt_r _ _ (180 / 65535)) in H; [lra|reflexivity]].
  apply (Qmult_lt_r _ _ (180 / 65535)); [reflexivity|lra].
Qed.
Section Line.
  Variable g : Z -> Q.
  Hypothesis Glt : forall a b, (g a < g b)%Q <-> a < b.
  Lemma g_le a b : (g a <= g b)%Q <-> a <= b.
  Proof.
    split; intros L.
    - destruct (Z_le_gt_dec a b) as [|C]; [assumption|]. assert (K : (g b < g a)%Q) by (apply Glt; lia). lra.
    - apply Qnot_lt_le. intros C. apply (proj1 (Glt _ _)) in C. lia.
  Qed.
  Lemma tight_line vs a b : vs <> [] -> tight_grid g vs a b -> b <= a ->
    exists k, forall v, In v vs -> (v == g k)%Q.
  Proof.
    intros N (A & _ & _) L. exists a. intros v Hv. pose proof (A v Hv) as [P Q].
    assert (K : (g b <= g a)%Q) by (apply g_le; lia). lra.
  Qed.
  Lemma line_tight vs a b k : tight_grid g vs a b -> (forall v, In v vs -> (v == g k)%Q) -> a = k /\ b = k.
  Proof.
    intros (A & (v & Hv & Lv) & (v' & Hv' & Lv')) E.
    pose proof (A v Hv) as [P Q]. pose proof (E v Hv) as Ev. pose proof (E v' Hv') as Ev'.
    rewrite Ev in P, Q, Lv. rewrite Ev' in Lv'. apply (proj1 (g_le _ _)) in P, Q. apply (proj1 (Glt _ _)) in Lv, Lv'. lia.
  Qed.
End Line.

Lemma quant_coord_ok umax a b x : 0 <= umax -> (a < b)%Q -> (a <= x <= b)%Q ->
  exists u, quant_coord umax a b x = Ok u /\ 0 <= u <= umax.
Proof.
  intros U L [P R]. unfold quant_coord, ndivE. cbn [neq ndiv nmul nsub nofZ NumQ nround RoundQ].
  change (inject_Z 0) with 0%Q.
  destruct (Qeq_bool (b - a) 0) eqn:E; [apply Qeq_bool_true in E; lra|]. cbn [bind].
  eexists. split; [reflexivity|]. apply q_round_range. change (inject_Z 0) with 0%Q.
  assert (U' : (0 <= inject_Z umax)%Q) by (change 0%Q with (inject_Z 0); rewrite <- Zle_Qle; lia).
  split.
  - apply Qle_shift_div_l; [lra|]. nra.
  - apply Qle_shift_div_r; [lra|]. nra.
Qed.
Lemma quant_coord_zero umax a b (x : Q) : (a == b)%Q -> quant_coord umax a b x = Err ZeroDivisionError.
Proof.
  intros E. unfold quant_coord, ndivE. cbn [neq nsub nofZ NumQ]. change (inject_Z 0) with 0%Q.
  replace (Qeq_bool (b - a) 0) with true; [reflexivity|]. symmetry. apply Qeq_bool_true. lra.
Qed.
Lemma quant_coord_cases umax a b (x : Q) :
  (exists u, quant_coord umax a b x = Ok u) \/ quant_coord umax a b x = Err ZeroDivisionError.
Proof.
  unfold quant_coord, ndivE. destruct (neq (nsub b a) (nofZ 0)); cbn [bind]; eauto.
Qed.
Lemma getfmt_code n size umax : getfmt size = Ok (n, umax) -> 0 <= umax /\ umax < 256 ^ Z.of_nat n.
Proof.
  intros G. destruct (getfmt_inv _ _ _ G) as (E & -> & W). rewrite <- E.
  destruct W as [->|[->|[->| ->]]]; cbn; lia.
Qed.
Lemma quant_points_accept n umax X0 X1 Y0 Y1 ps : 0 <= umax < 256 ^ Z.of_nat n -> (X0 < X1)%Q -> (Y0 < Y1)%Q ->
  (forall x y, In (x, y) ps -> (X0 <= x <= X1 /\ Y0 <= y <= Y1)%Q) ->
  exists ds, quant_points n umax (X0, X1, Y0, Y1) ps = (ds, Ok tt).
Proof.
  intros U Lx Ly. induction ps as [|[x y] ps IH]; intros A; [exists []; reflexivity|].
  destruct IH as (ds & E); [intros; apply A; right; assumption|].
  destruct (A x y (or_introl eq_refl)) as [Ax Ay]. cbn [quant_points].
  unfold quant_point. cbn [fst snd].
  destruct (quant_coord_ok umax X0 X1 x ltac:(lia) Lx Ax) as (u & -> & Hu).
  destruct (quant_coord_ok umax Y0 Y1 y ltac:(lia) Ly Ay) as (v & -> & Hv). cbn [bind].
  unfold pack2. rewrite !pack_be_ok by lia. cbn [bind]. rewrite E. eauto.
Qed.

Lemma norm_point_id f (p : Q * Q) : in_world p -> norm_point (S f) p = Some p.
Proof.
  intros [[A B] [C D]]. unfold norm_point, norm_lon, norm_lat. cbn [while_add nlt nofZ NumQ].
  assert (K : forall a b, (a <= b)%Q -> Qlt_bool b a = false) by (intros; apply Qlt_bool_false; assumption).
  rewrite (K (inject_Z (-180)) (fst p)) by exact A. rewrite (K (fst p) (inject_Z 180)) by exact B.
  rewrite (K (inject_Z (-90)) (snd p)) by exact C. rewrite (K (snd p) (inject_Z 90)) by exact D.
  destruct p; reflexivity.
Qed.
Lemma norm_world f (polys : list (list (Q * Q))) : Forall (Forall in_world) polys ->
  omap (omap (norm_point (S f))) polys = Some polys.
Proof.
  intros F. apply omap_Forall2. induction F as [|poly polys Fp _ IH]; constructor; [|exact IH].
  apply omap_Forall2. induction Fp as [|p poly Hp _ IH']; constructor; [|exact IH'].
  apply norm_point_id. exact Hp.
Qed.
Lemma map_nonempty {A B} (f : A -> B) l : l <> [] -> map f l <> [].
Proof. destruct l; [congruence|discriminate]. Qed.

(** The state of a writer after any calls. *)
Definition consistent (w : pwriter) : Prop := getfmt (w_size w) = Ok (w_n w, w_umax w).

Lemma write_accepts f w name polys parts :
  consistent w -> Forall (Forall in_world) polys -> Forall2 ring polys parts -> acceptable parts ->
  exists w' a1 a2 c1 c2, pf_write (S f) w name polys = Some (w', Ok tt) /\
    w_bboxes w' = w_bboxes w ++ [(a1, a2, c1, c2)] /\
    tight_grid grid_lon (map fst (concat parts)) a1 a2 /\ tight_grid grid_lat (map snd (concat parts)) c1 c2 /\
    0 <= a1 < a2 /\ a2 <= 65535 /\ 0 <= c1 < c2 /\ c2 <= 65535.
Proof.
  intros G W R A. unfold pf_write. rewrite (norm_world f polys W).
  rewrite (proj2 (mapM_rings polys parts) R).
  assert (Wp : Forall (Forall wpt) parts) by (apply (rings_world polys); assumption).
  assert (A' : (exists part, parts = [part] /\ part <> []) \/ (parts <> [] /\ Forall spread parts)).
  { destruct A as [(part & E & N & _)|A]; [left; eauto|right; exact A]. }
  destruct (acceptable_box parts A') as (b & Eb & Hb & Pb). rewrite Eb.
  assert (Ne : concat parts <> []).
  { destruct A' as [(part & -> & N)|(N & F)]; [cbn; rewrite app_nil_r; exact N|].
    destruct parts as [|p parts]; [congruence|]. inversion F as [|? ? Sp _]; subst.
    apply spread_nonempty in Sp. cbn. destruct p; [congruence|discriminate]. }
  assert (Wb : world b) by (apply (steps_world parts None (Some b) Wp); [discriminate|exact Eb|reflexivity]).
  pose proof (world_box_ok b Wb) as Bo.
  destruct (quant_box b) as [[[a1 a2] c1] c2] eqn:Q.
  destruct (hull_tight _ _ _ _ _ _ Hb Q) as (T1 & T2).
  assert (L1 : a1 < a2).
  { destruct (Z_lt_ge_dec a1 a2) as [|C]; [assumption|]. exfalso.
    destruct A as [(part & E & N & N1 & N2)|(N & F)].
    - subst parts. cbn in T1. rewrite app_nil_r in T1. apply N1.
      destruct (tight_line grid_lon grid_lon_lt _ a1 a2 (map_nonempty fst part N) T1 ltac:(lia)) as (k & Hk).
      exists k. intros p Hp. apply Hk. apply in_map. exact Hp.
    - destruct (Pb F) as [P1 _]. destruct Hb as (_ & (y0 & I0) & (y1 & I1) & _). destruct T1 as (T & _).
      pose proof (T _ (in_map fst _ _ I0)) as K0. pose proof (T _ (in_map fst _ _ I1)) as K1. cbn [fst] in K0, K1.
      assert (K : (grid_lon a1 < grid_lon a2)%Q) by lra. apply (proj1 (grid_lon_lt _ _)) in K. lia. }
  assert (L2 : c1 < c2).
  { destruct (Z_lt_ge_dec c1 c2) as [|C]; [assumption|]. exfalso.
    destruct A as [(part & E & N & N1 & N2)|(N & F)].
    - subst parts. cbn in T2. rewrite app_nil_r in T2. apply N2.
      destruct (tight_line grid_lat grid_lat_lt _ c1 c2 (map_nonempty snd part N) T2 ltac:(lia)) as (k & Hk).
      exists k. intros p Hp. apply Hk. apply in_map. exact Hp.
    - destruct (Pb F) as [_ P1]. destruct Hb as (_ & _ & _ & (y0 & I0) & (y1 & I1)). destruct T2 as (T & _).
      pose proof (T _ (in_map snd _ _ I0)) as K0. pose proof (T _ (in_map snd _ _ I1)) as K1. cbn [snd] in K0, K1.
      assert (K : (grid_lat c1 < grid_lat c2)%Q) by lra. apply (proj1 (grid_lat_lt _ _)) in K. lia. }
  destruct (dequant_grid a1 a2 c1 c2) as (X0 & X1 & Y0 & Y1 & D & D1 & D2 & D3 & D4).
  cbn [w_n w_umax w_add_bbox w_add_partlen w_add_name]. rewrite D.
  destruct (quant_points_accept (w_n w) (w_umax w) X0 X1 Y0 Y1 (concat parts)) as (ds & Eds).
  - pose proof (getfmt_code _ _ _ G). lia.
  - rewrite D1, D2. apply grid_lon_lt. exact L1.
  - rewrite D3, D4. apply grid_lat_lt. exact L2.
  - intros x y Hi. destruct T1 as (T1 & _), T2 as (T2 & _).
    pose proof (T1 _ (in_map fst _ _ Hi)) as K1. pose proof (T2 _ (in_map snd _ _ Hi)) as K2. cbn [fst snd] in K1, K2.
    rewrite D1, D2, D3, D4. auto.
  - rewrite Eds. do 5 eexists. split; [reflexivity|]. cbn [w_add_data w_bboxes w_add_bbox w_add_partlen w_add_name].
    split; [reflexivity|]. split; [exact T1|]. split; [exact T2|]. destruct Bo as (B1 & B2 & B3 & B4). lia.
Qed.

Lemma write_on_line f w name poly part :
  Forall in_world poly -> ring poly part -> part <> [] -> on_lon_line part \/ on_lat_line part ->
  exists w', pf_write (S f) w name [poly] = Some (w', Err ZeroDivisionError).
Proof.
  intros W R N L. unfold pf_write.
  rewrite (norm_world f [poly]) by (constructor; [exact W|constructor]).
  rewrite (proj2 (mapM_rings [poly] [part])) by (constructor; [exact R|constructor]).
  destruct (acceptable_box [part]) as (b & Eb & Hb & _); [left; eauto|]. rewrite Eb.
  cbn [concat] in *. rewrite app_nil_r in *.
  destruct (quant_box b) as [[[a1 a2] c1] c2] eqn:Q.
  destruct (hull_tight _ _ _ _ _ _ Hb Q) as (T1 & T2).
  destruct (dequant_grid a1 a2 c1 c2) as (X0 & X1 & Y0 & Y1 & D & D1 & D2 & D3 & D4).
  cbn [w_n w_umax w_add_bbox w_add_partlen w_add_name]. rewrite D.
  destruct part as [|p part]; [congruence|]. cbn [quant_points].
  assert (E : quant_point (w_n w) (w_umax w) (X0, X1, Y0, Y1) p = Err ZeroDivisionError).
  { unfold quant_point. destruct L as [(k & Hk)|(k & Hk)].
    - destruct (line_tight grid_lon grid_lon_lt _ a1 a2 k T1) as (-> & ->).
      { intros v Hv. apply in_map_iff in Hv. destruct Hv as (q & <- & Hq). apply Hk. exact Hq. }
      rewrite quant_coord_zero by (rewrite D1, D2; reflexivity). reflexivity.
    - destruct (line_tight grid_lat grid_lat_lt _ c1 c2 k T2) as (-> & ->).
      { intros v Hv. apply in_map_iff in Hv. destruct Hv as (q & <- & Hq). apply Hk. exact Hq. }
      rewrite (quant_coord_zero _ Y0 Y1) by (rewrite D3, D4; reflexivity).
      destruct (quant_coord_cases (w_umax w) X0 X1 (fst p)) as [(u & ->)| ->]; reflexivity. }
  rewrite E. eexists. reflexivity.
Qed.
