(** P files in double arithmetic: 8-byte coordinates. *)
From Coq Require Import ZArith Reals Lia Lra SpecFloat Psatz ZifyBool.
From Flocq Require Import Core IEEE754.BinarySingleNaN.
From Verif Require Import Num FloatLib BBoxModel BBoxProofs VlvModel VlvProofs PfModel PfProofs PfSpec PfAccept PfHist.
Open Scope Z_scope.

Lemma umax8 : isf (fofZ (2 ^ 64 - 1)) (bpow radix2 64).
Proof.
  assert (E : fofZ (2 ^ 64 - 1) = S754_finite false 4503599627370496 12) by (vm_compute; reflexivity).
  rewrite E. assert (V : (bpow radix2 64 = SF2R radix2 (S754_finite false 4503599627370496 12))%R).
  { unfold SF2R. rewrite F2R_mul by lia. change (bpow radix2 64) with (IZR (2 ^ 64)). reflexivity. }
  rewrite V. apply isf_valid; reflexivity.
Qed.
Lemma format_scale r e : 0 <= e -> generic_format radix2 fexp64 r -> generic_format radix2 fexp64 (r * bpow radix2 e).
Proof.
  intros He F. apply (FLT_format_generic radix2 (-1074) 53) in F.
  destruct F as [[m k] Hr Hm Hk]. cbn in Hm, Hk. apply (generic_format_FLT radix2 (-1074) 53).
  exists (Float radix2 m (k + e)); cbn; [|exact Hm|lia].
  rewrite Hr. unfold F2R. cbn. rewrite bpow_plus. ring.
Qed.
Lemma quant_edge (a b : f64) ra rb : isf a ra -> isf b rb ->
  (Rabs ra <= IZR (2 ^ 30))%R -> (Rabs rb <= IZR (2 ^ 30))%R ->
  quant_coord (2 ^ 64 - 1) a b b = Err ZeroDivisionError \/ quant_coord (2 ^ 64 - 1) a b b = Ok (2 ^ 64).
Proof.
  intros Ha Hb Ba Bb. unfold quant_coord, ndivE. cbn [neq nsub nmul nofZ NumF nround RoundF ndiv].
  assert (Bd : (Rabs (rb - ra) <= IZR (2 ^ 31))%R).
  { change (2 ^ 31) with (2 ^ 30 + 2 ^ 30). rewrite plus_IZR. unfold Rminus.
    eapply Rle_trans; [apply Rabs_triang|]. rewrite Rabs_Ropp. lra. }
  assert (Hd : isf (fsub b a) (rnd (rb - ra))).
  { apply isf_fsub; [exact Hb|exact Ha|]. apply (small_bpow _ 31); [lia|exact Bd]. }
  assert (Bd' : (Rabs (rnd (rb - ra)) <= bpow radix2 31)%R) by (apply rnd_abs_le; [lia|exact Bd]).
  set (rd := rnd (rb - ra)) in *.
  assert (H0 : isf (fofZ 0) 0%R) by (apply (isf_int 0); lia).
  rewrite (isf_eq _ _ _ _ Hd H0). destruct (Req_bool_spec rd 0) as [E|N]; [left; reflexivity|right].
  cbn [bind]. assert (F : generic_format radix2 fexp64 rd) by (apply (isf_format _ _ Hd)).
  assert (Em : rnd (rd * bpow radix2 64) = (rd * bpow radix2 64)%R).
  { apply round_generic; [apply valid_rnd_N|]. apply format_scale; [lia|exact F]. }
  assert (Hm : isf (fmul (fsub b a) (fofZ (2 ^ 64 - 1))) (rd * bpow radix2 64)%R).
  { rewrite <- Em. apply isf_fmul; [exact Hd|exact umax8|]. apply (small_bpow _ 95); [lia|].
    rewrite Rabs_mult, (Rabs_pos_eq (bpow radix2 64)) by apply bpow_ge_0.
    change 95 with (31 + 64). rewrite bpow_plus. apply Rmult_le_compat_r; [apply bpow_ge_0|exact Bd']. }
  assert (Eq : (rd * bpow radix2 64 / rd = bpow radix2 64)%R) by (field; exact N).
  assert (Hq : isf (fdiv (fmul (fsub b a) (fofZ (2 ^ 64 - 1))) (fsub b a)) (bpow radix2 64)).
  { rewrite <- (rnd_bpow 64) by lia. rewrite <- Eq. apply isf_fdiv; [exact Hm|exact Hd|exact N|].
    rewrite Eq. apply (small_bpow _ 64); [lia|]. rewrite Rabs_pos_eq by apply bpow_ge_0. lra. }
  assert (P : (bpow radix2 64 <> 0)%R) by (apply Rgt_not_eq, bpow_gt_0).
  rewrite (isf_inj _ (fofZ (2 ^ 64 - 1)) _ Hq umax8 P). f_equal. 
Qed.

(** Grid edges as doubles. *)
Lemma edge_isf k off span : 0 <= k <= 65535 -> 0 <= off <= 180 -> 0 <= span <= 360 ->
  exists r, isf (fsub (fdiv (fofZ (k * span)) (fofZ UMAX2)) (fofZ off)) r /\ (Rabs r <= IZR (2 ^ 30))%R.
Proof.
  intros Hk Ho Hs. assert (Ks : 0 <= k * span <= 65535 * 360) by nia.
  assert (I1 : isf (fofZ (k * span)) (IZR (k * span))) by (apply isf_int; lia).
  assert (I2 : isf (fofZ UMAX2) (IZR 65535)) by (apply (isf_int 65535); lia).
  assert (I3 : isf (fofZ off) (IZR off)) by (apply isf_int; lia).
  assert (B1 : (0 <= IZR (k * span) <= IZR (65535 * 360))%R) by (split; apply IZR_le; lia).
  assert (Bq : (Rabs (IZR (k * span) / IZR 65535) <= bpow radix2 28)%R).
  { rewrite Rabs_pos_eq.
    - apply (Rle_trans _ (IZR (65535 * 360) / IZR 65535)).
      + apply Rmult_le_compat_r; [lra|]. apply B1.
      + change (bpow radix2 28) with (IZR (2 ^ 28)). cbn. lra.
    - apply Rmult_le_pos; [apply B1|]. lra. }
  assert (I4 : isf (fdiv (fofZ (k * span)) (fofZ UMAX2)) (rnd (IZR (k * span) / IZR 65535))).
  { apply isf_fdiv; [exact I1|exact I2|apply IZR_neq; lia|]. apply (small_bpow _ 28); [lia|exact Bq]. }
  assert (B4 : (Rabs (rnd (IZR (k * span) / IZR 65535)) <= bpow radix2 28)%R) by (apply rnd_abs_le; [lia|exact Bq]).
  assert (Bs : (Rabs (rnd (IZR (k * span) / IZR 65535) - IZR off) <= bpow radix2 30)%R).
  { unfold Rminus. eapply Rle_trans; [apply Rabs_triang|]. rewrite Rabs_Ropp, (Rabs_pos_eq (IZR off)) by (apply IZR_le; lia).
    assert (IZR off <= IZR 180)%R by (apply IZR_le; lia).
    change (bpow radix2 28) with (IZR (2 ^ 28)) in *. change (bpow radix2 30) with (IZR (2 ^ 30)). cbn in *. lra. }
  exists (rnd (rnd (IZR (k * span) / IZR 65535) - IZR off)). split.
  - apply isf_fsub; [exact I4|exact I3|]. apply (small_bpow _ 30); [lia|exact Bs].
  - change (IZR (2 ^ 30)) with (bpow radix2 30). apply rnd_abs_le; [lia|exact Bs].
Qed.

Lemma quant_coord_err {T} `{PyNum T} `{PyRound T} umax (a b x : T) e :
  quant_coord umax a b x = Err e -> e = ZeroDivisionError.
Proof. unfold quant_coord, ndivE. destruct (neq (nsub b a) (nofZ 0)); cbn; congruence. Qed.
Lemma quant_point_err {T} `{PyNum T} `{PyRound T} n umax (box : T * T * T * T) p e :
  quant_point n umax box p = Err e -> e = ZeroDivisionError \/ e = StructError.
Proof.
  destruct box as [[[x0 x1] y0] y1]. unfold quant_point.
  destruct (quant_coord umax x0 x1 (fst p)) as [u|e1] eqn:E1; cbn [bind].
  2:{ intros E. injection E as <-. left. apply quant_coord_err in E1. exact E1. }
  destruct (quant_coord umax y0 y1 (snd p)) as [v|e2] eqn:E2; cbn [bind].
  2:{ intros E. injection E as <-. left. apply quant_coord_err in E2. exact E2. }
  unfold pack2, pack_be. destruct (_ && _); cbn [bind]; [|intros E; injection E as <-; auto].
  destruct (_ && _); cbn [bind]; [discriminate|intros E; injection E as <-; auto].
Qed.
Lemma quant_points_fail {T} `{PyNum T} `{PyRound T} n umax (box : T * T * T * T) ps p :
  In p ps -> (forall d, quant_point n umax box p <> Ok d) ->
  exists ds e, quant_points n umax box ps = (ds, Err e) /\ (e = ZeroDivisionError \/ e = StructError).
Proof.
  induction ps as [|q ps IH]; intros I N; [destruct I|]. cbn [quant_points].
  destruct (quant_point n umax box q) as [d|e] eqn:E.
  - destruct I as [->|I]; [exfalso; apply (N d); exact E|].
    destruct (IH I N) as (ds & e & -> & He). exists (d :: ds), e. auto.
  - exists [], e. split; [reflexivity|]. apply (quant_point_err _ _ _ _ _ E).
Qed.

(** A longitude (or latitude) on the upper edge of the stored box. *)
Lemma edge_lon_fails x0 x1 y0 y1 (p : f64 * f64) : 0 <= x0 <= 65535 -> 0 <= x1 <= 65535 ->
  fst p = fsub (fdiv (fofZ (x1 * 360)) (fofZ UMAX2)) (fofZ 180) ->
  forall d, quant_point 8 (2 ^ 64 - 1) (dequant_box (x0, x1, y0, y1)) p <> Ok d.
Proof.
  intros H0 H1 E d. unfold dequant_box, quant_point. cbn [nsub ndiv nofZ NumF].
  destruct (edge_isf x0 180 360 H0 ltac:(lia) ltac:(lia)) as (r0 & I0 & B0).
  destruct (edge_isf x1 180 360 H1 ltac:(lia) ltac:(lia)) as (r1 & I1 & B1).
  rewrite E. destruct (quant_edge _ _ _ _ I0 I1 B0 B1) as [-> | ->]; cbn [bind]; [discriminate|].
  destruct (quant_coord _ _ _ (snd p)); cbn [bind]; [|discriminate].
  unfold pack2, pack_be. replace ((0 <=? 2 ^ 64) && (2 ^ 64 <? 256 ^ Z.of_nat 8)) with false by reflexivity.
  discriminate.
Qed.
Lemma edge_lat_fails x0 x1 y0 y1 (p : f64 * f64) : 0 <= y0 <= 65535 -> 0 <= y1 <= 65535 ->
  snd p = fsub (fdiv (fofZ (y1 * 180)) (fofZ UMAX2)) (fofZ 90) ->
  forall d, quant_point 8 (2 ^ 64 - 1) (dequant_box (x0, x1, y0, y1)) p <> Ok d.
Proof.
  intros H0 H1 E d. unfold dequant_box, quant_point. cbn [nsub ndiv nofZ NumF].
  destruct (edge_isf y0 90 180 H0 ltac:(lia) ltac:(lia)) as (r0 & I0 & B0).
  destruct (edge_isf y1 90 180 H1 ltac:(lia) ltac:(lia)) as (r1 & I1 & B1).
  destruct (quant_coord _ _ _ (fst p)) as [u|]; cbn [bind]; [|discriminate].
  rewrite E. destruct (quant_edge _ _ _ _ I0 I1 B0 B1) as [-> | ->]; cbn [bind]; [discriminate|].
  unfold pack2, pack_be. destruct (_ && _); cbn [bind]; [|discriminate].
  replace ((0 <=? 2 ^ 64) && (2 ^ 64 <? 256 ^ Z.of_nat 8)) with false by reflexivity.
  discriminate.
Qed.

Lemma le_not_lt x y : SFleb y x = true -> SFltb x y = false.
Proof.
  unfold SFleb, SFltb.
  destruct x as [sx|sx| |sx mx ex], y as [sy|sy| |sy my ey];
    try discriminate; try destruct sx; try destruct sy;
    cbn; try discriminate; try reflexivity.
  all: rewrite (Z.compare_antisym ex ey); destruct (Z.compare_spec ex ey); cbn;
       try discriminate; try reflexivity.
  all: repeat match goal with
       | |- context [Pos.compare_cont Eq ?a ?b] =>
           change (Pos.compare_cont Eq a b) with (Pos.compare a b)
       end; rewrite (Pos.compare_antisym mx my); destruct (Pos.compare_spec mx my); cbn;
       try discriminate; try reflexivity.
Qed.
Lemma norm_point_id64 f (p : f64 * f64) : in_world64 p -> norm_point (S f) p = Some p.
Proof.
  intros (A & B & C & D). unfold norm_point, norm_lon, norm_lat. cbn [while_add nlt nofZ NumF].
  rewrite (le_not_lt _ _ A), (le_not_lt _ _ B), (le_not_lt _ _ C), (le_not_lt _ _ D).
  destruct p; reflexivity.
Qed.
Lemma Forall2_in_l {A B} (R : A -> B -> Prop) l m x : Forall2 R l m -> In x l -> exists y, In y m /\ R x y.
Proof.
  intros F I. apply In_nth_error in I. destruct I as (i & Hi).
  destruct (Forall2_nth_l _ _ _ _ _ F Hi) as (y & Hy & Ry). exists y. split; [|exact Ry].
  apply (nth_error_In _ i). exact Hy.
Qed.
Lemma removelast_incl {A} (l : list A) x : In x (removelast l) -> In x l.
Proof.
  intros I. destruct l as [|a l]; [destruct I|].
  rewrite (app_removelast_last a (l := a :: l)) by discriminate. apply in_app_iff. left. exact I.
Qed.
(** Points other than the last reach the ring unchanged. *)
Lemma inner_point fuel (polys : list (list (f64 * f64))) parts0 parts poly p :
  omap (omap (norm_point fuel)) polys = Some parts0 -> mapM drop_closing parts0 = Ok parts ->
  In poly polys -> In p (removelast poly) -> in_world64 p -> In p (concat parts).
Proof.
  intros E0 E1 Ip Iq W. apply omap_inv in E0. apply mapM_inv in E1.
  destruct (Forall2_in_l _ _ _ _ E0 Ip) as (part0 & I0 & N0).
  destruct (Forall2_in_l _ _ _ _ E1 I0) as (part & I1 & N1).
  apply in_concat. exists part. split; [exact I1|]. apply omap_inv in N0.
  assert (R : In p (removelast part0)).
  { assert (P : poly <> []) by (intros ->; destruct Iq).
    destruct (exists_last P) as (l & a & ->). rewrite removelast_app in Iq by discriminate. cbn in Iq.
    rewrite app_nil_r in Iq. apply Forall2_app_inv_l in N0. destruct N0 as (m1 & m2 & M1 & M2 & ->).
    inversion M2 as [|? b ? ? Hb M3]; subst. inversion M3; subst.
    rewrite removelast_app by discriminate. cbn. rewrite app_nil_r.
    destruct (Forall2_in_l _ _ _ _ M1 Iq) as (q & Hq & Eq). destruct fuel as [|f]; [discriminate|].
    rewrite (norm_point_id64 f p W) in Eq. injection Eq as <-. exact Hq. }
  unfold drop_closing in N1. destruct part0 as [|a r]; [discriminate|].
  destruct (point_eqb a (last (a :: r) a)); apply PfExact.Ok_inj in N1; rewrite <- N1; [exact R|].
  apply removelast_incl. exact R.
Qed.

Lemma app_one_inj {A} (l : list A) a b : l ++ [a] = l ++ [b] -> a = b.
Proof. intros E. apply app_inv_head in E. congruence. Qed.
Lemma write_edge fuel w name (polys : list (list (f64 * f64))) w' r x0 x1 y0 y1 poly p :
  consistent w -> w_size w = 8 -> pf_write fuel w name polys = Some (w', r) ->
  w_bboxes w' = w_bboxes w ++ [(x0, x1, y0, y1)] -> box_ok (x0, x1, y0, y1) ->
  In poly polys -> In p (removelast poly) -> in_world64 p ->
  fst p = edge64_lon x1 \/ snd p = edge64_lat y1 ->
  r = Err StructError \/ r = Err ZeroDivisionError.
Proof.
  intros G S E B (B0 & B1 & B2 & B3) Ip Iq W Ed. unfold pf_write in E.
  destruct (omap (omap (norm_point fuel)) polys) as [parts0|] eqn:E0; [|discriminate].
  destruct (mapM drop_closing parts0) as [parts|e] eqn:E1.
  2:{ injection E as <- _. apply (f_equal (@length _)) in B. rewrite app_length in B. cbn in B. lia. }
  destruct (foldM bb_step parts None) as [[bb|]|e] eqn:E2.
  2:{ injection E as <- _. apply (f_equal (@length _)) in B. cbn in B. rewrite app_length in B. cbn in B. lia. }
  2:{ injection E as <- _. apply (f_equal (@length _)) in B. cbn in B. rewrite app_length in B. cbn in B. lia. }
  unfold consistent in G. rewrite S in G.
  assert (Gn : w_n w = 8%nat /\ w_umax w = 2 ^ 64 - 1) by (cbn in G; inversion G; auto).
  destruct Gn as [Gn Gu]. cbn [w_n w_umax w_add_bbox w_add_partlen w_add_name] in E. rewrite Gn, Gu in E.
  destruct (quant_points 8 (2 ^ 64 - 1) (dequant_box (quant_box bb)) (concat parts)) as [ds x] eqn:Q.
  injection E as <- <-. cbn [w_add_data w_bboxes w_add_bbox w_add_partlen w_add_name] in B.
  apply app_one_inj in B. rewrite B in Q.
  pose proof (inner_point _ _ _ _ _ _ E0 E1 Ip Iq W) as Ic.
  assert (F : forall d, quant_point 8 (2 ^ 64 - 1) (dequant_box (x0, x1, y0, y1)) p <> Ok d).
  { destruct Ed as [Ed|Ed]; [apply edge_lon_fails|apply edge_lat_fails]; try lia; exact Ed. }
  destruct (quant_points_fail 8 (2 ^ 64 - 1) (dequant_box (x0, x1, y0, y1)) _ p Ic F) as (ds' & e & Q' & He).
  rewrite Q in Q'. injection Q' as _ ->. destruct He as [-> | ->]; auto.
Qed.

(** ** An entity of one polygon reaching longitude 180 *)
Lemma rnd_between a b r : Z.abs a <= 2 ^ 53 -> Z.abs b <= 2 ^ 53 ->
  (IZR a <= r <= IZR b)%R -> (IZR a <= rnd r <= IZR b)%R.
Proof.
  intros Ha Hb [L U]. rewrite <- (rnd_IZR a Ha), <- (rnd_IZR b Hb). split; apply rnd_le; assumption.
Qed.
Lemma Rabs_0_le r b : (0 <= r <= b)%R -> (Rabs r <= b)%R.
Proof. intros H. rewrite Rabs_pos_eq; lra. Qed.
Lemma grid_isf (x : f64) r h : h = 90 \/ h = 180 -> isf x r -> (IZR (- h) <= r <= IZR h)%R ->
  exists q, isf (fdiv (fmul (fadd x (fofZ h)) (fofZ UMAX2)) (fofZ (2 * h))) q /\ (0 <= q <= 65535)%R.
Proof.
  intros Hh Hx B. assert (Ih : isf (fofZ h) (IZR h)) by (apply isf_int; lia).
  assert (I2 : isf (fofZ (2 * h)) (IZR (2 * h))) by (apply isf_int; lia).
  assert (Iu : isf (fofZ UMAX2) (IZR 65535)) by (apply (isf_int 65535); lia).
  assert (P : (0 < IZR (2 * h))%R) by (apply IZR_lt; lia). rewrite opp_IZR in B.
  assert (B1 : (IZR 0 <= r + IZR h <= IZR (2 * h))%R) by (rewrite mult_IZR in *; cbn; lra).
  assert (A1 : isf (fadd x (fofZ h)) (rnd (r + IZR h))).
  { apply isf_fadd; auto. apply small_le. eapply Rle_trans; [apply Rabs_0_le; exact B1|]. apply IZR_le; lia. }
  apply rnd_between in B1; [|lia|lia]. set (s := rnd (r + IZR h)) in *.
  assert (B2 : (IZR 0 <= s * IZR 65535 <= IZR (2 * h * 65535))%R) by (rewrite (mult_IZR (2 * h)); cbn in *; lra).
  assert (A2 : isf (fmul (fadd x (fofZ h)) (fofZ UMAX2)) (rnd (s * IZR 65535))).
  { apply isf_fmul; auto. apply small_le. eapply Rle_trans; [apply Rabs_0_le; exact B2|]. apply IZR_le; lia. }
  apply rnd_between in B2; [|lia|lia]. set (t := rnd (s * IZR 65535)) in *.
  assert (B3 : (IZR 0 <= t / IZR (2 * h) <= IZR 65535)%R).
  { rewrite (mult_IZR (2 * h)) in B2. split.
    - apply Rmult_le_pos; [apply B2|]. apply Rlt_le, Rinv_0_lt_compat. exact P.
    - apply Rmult_le_reg_r with (IZR (2 * h)); [exact P|]. unfold Rdiv. rewrite Rmult_assoc, Rinv_l by lra. lra. }
  exists (rnd (t / IZR (2 * h))). split; [|apply rnd_between in B3; [exact B3|lia|lia]].
  apply isf_fdiv; auto; [lra|]. apply small_le. eapply Rle_trans; [apply Rabs_0_le; exact B3|]. apply IZR_le; lia.
Qed.
Lemma code_range (x : f64) r h : h = 90 \/ h = 180 -> isf x r -> (IZR (- h) <= r <= IZR h)%R ->
  0 <= f_floor (fdiv (fmul (fadd x (fofZ h)) (fofZ UMAX2)) (fofZ (2 * h))) < 65536 /\
  0 <= f_ceil (fdiv (fmul (fadd x (fofZ h)) (fofZ UMAX2)) (fofZ (2 * h))) < 65536.
Proof.
  intros Hh Hx B. destruct (grid_isf x r h Hh Hx B) as (q & Hq & L & U).
  rewrite (isf_floor _ _ Hq), (isf_ceil _ _ Hq).
  assert (F0 : 0 <= Zfloor q) by (apply Zfloor_lub; exact L).
  assert (C1 : Zceil q <= 65535) by (apply Zceil_glb; exact U).
  assert (FC : Zfloor q <= Zceil q).
  { apply le_IZR. pose proof (Zfloor_lb q). pose proof (Zceil_ub q). lra. }
  lia.
Qed.
Lemma wf_le_isf (x : f64) a b : Z.abs a <= 2 ^ 53 -> Z.abs b <= 2 ^ 53 -> wf64 x ->
  SFleb (fofZ a) x = true -> SFleb x (fofZ b) = true -> exists r, isf x r /\ (IZR a <= r <= IZR b)%R.
Proof.
  intros Ha Hb V L U. pose proof (isf_int a Ha) as Ia. pose proof (isf_int b Hb) as Ib.
  assert (F : is_finite_SF x = true).
  { destruct Ia as (u & Eu & Fu & _), Ib as (v & Ev & Fv & _). rewrite <- Eu in L. rewrite <- Ev in U.
    destruct x as [s|s| |s m e]; try reflexivity; [|discriminate U].
    destruct s; [destruct u; try discriminate|destruct v; try discriminate];
      try (destruct s; discriminate). }
  pose proof (isf_valid x V F) as I. exists (SF2R radix2 x). split; [exact I|].
  rewrite (isf_le _ _ _ _ Ia I) in L. rewrite (isf_le _ _ _ _ I Ib) in U.
  split; [destruct (Rle_bool_spec (IZR a) (SF2R radix2 x))|destruct (Rle_bool_spec (SF2R radix2 x) (IZR b))];
    auto; discriminate.
Qed.

Definition good64 (p : f64 * f64) : Prop := wf64 (fst p) /\ wf64 (snd p) /\ in_world64 p.
Lemma good_isf p : good64 p ->
  (exists r, isf (fst p) r /\ (IZR (- (180)) <= r <= IZR 180)%R) /\
  (exists r, isf (snd p) r /\ (IZR (- (90)) <= r <= IZR 90)%R).
Proof.
  intros (V & W & A & B & C & D). split; [apply (wf_le_isf _ (-180) 180)|apply (wf_le_isf _ (-90) 90)]; auto; lia.
Qed.
Lemma isf_not_nan x r : isf x r -> is_nan x = false.
Proof. intros (b & <- & F & _). destruct b; try discriminate; reflexivity. Qed.
Lemma norm_good f poly : Forall good64 poly -> omap (norm_point (S f)) poly = Some poly.
Proof.
  induction 1 as [|p poly (_ & _ & W) _ IH]; [reflexivity|]. cbn [omap].
  rewrite norm_point_id64 by exact W. rewrite IH. reflexivity.
Qed.
Lemma drop_closing_incl (poly part : list (f64 * f64)) : drop_closing poly = Ok part ->
  incl part poly /\ incl (removelast poly) part.
Proof.
  unfold drop_closing. destruct poly as [|a r]; [discriminate|]. intros E.
  destruct (point_eqb a (last (a :: r) a)); apply PfExact.Ok_inj in E; rewrite <- E.
  - split; [|apply incl_refl]. intros x. apply removelast_incl.
  - split; [apply incl_refl|]. intros x. apply removelast_incl.
Qed.
Lemma write_180 f w name (poly : list (f64 * f64)) p :
  consistent w -> w_size w = 8 -> Forall good64 poly -> In p (removelast poly) ->
  fst p = fofZ 180 ->
  exists w', pf_write (S f) w name [poly] = Some (w', Err StructError) \/
             pf_write (S f) w name [poly] = Some (w', Err ZeroDivisionError).
Proof.
  intros G S F I P.
  destruct (drop_closing poly) as [part|e] eqn:D.
  2:{ unfold drop_closing in D. destruct poly; [destruct I|]. discriminate. }
  destruct (drop_closing_incl _ _ D) as [I1 I2].
  assert (Fp : Forall good64 part).
  { rewrite Forall_forall in *. intros q Hq. apply F, I1, Hq. }
  assert (Ne : part <> []) by (intros ->; apply (I2 p) in I; destruct I).
  destruct (of_points_tight_F part Ne) as (b & Eb & C & (y0 & T0) & (y1 & T1) & (x0 & T2) & (x1 & T3)).
  { intros x y Hq. rewrite Forall_forall in Fp. destruct (good_isf _ (Fp _ Hq)) as ((r & R & _) & (r' & R' & _)).
    split; eapply isf_not_nan; eassumption. }
  rewrite Forall_forall in Fp.
  destruct (proj1 (good_isf _ (Fp _ T0))) as (r0 & R0 & B0).
  destruct (proj1 (good_isf _ (Fp _ T1))) as (r1 & R1 & B1).
  destruct (proj2 (good_isf _ (Fp _ T2))) as (r2 & R2 & B2).
  destruct (proj2 (good_isf _ (Fp _ T3))) as (r3 & R3 & B3). cbn [fst snd] in *.
  assert (E1 : bx1 b = fofZ 180).
  { assert (I180 : isf (fofZ 180) (IZR 180)) by (apply isf_int; lia).
    destruct p as [px py]. cbn [fst] in P. subst px. destruct (C _ _ (I2 _ I)) as (_ & L & _).
    rewrite (isf_le _ _ _ _ I180 R1) in L. destruct (Rle_bool_spec (IZR 180) r1) as [L'|]; [|discriminate].
    assert (r1 = IZR 180) by lra. subst r1. apply (isf_inj _ _ (IZR 180)); auto. }
  set (zb := quant_box b).
  assert (Hw : exists ds x, pf_write (Datatypes.S f) w name [poly] =
    Some (w_add_data (w_add_bbox (w_add_partlen (w_add_name w name) [Z.of_nat (length part)]) zb) ds, x)).
  { unfold pf_write. cbn [omap]. rewrite norm_good by exact F. cbn [mapM]. rewrite D. cbn [bind foldM].
    unfold bb_step. rewrite Eb. cbn [bind]. fold zb.
    destruct (quant_points _ _ _ _) as [ds x]. exists ds, x. reflexivity. }
  destruct Hw as (ds & x & Hw).
  assert (Bz : exists c0 c2 c3, zb = (c0, 65535, c2, c3) /\ box_ok (c0, 65535, c2, c3)).
  { unfold zb, quant_box. cbn [nfloor nceil ndiv nmul nadd nofZ NumF RoundF]. rewrite E1.
    do 3 eexists. split; [reflexivity|]. unfold box_ok.
    pose proof (code_range _ _ 180 (or_intror eq_refl) R0 B0) as K0.
    pose proof (code_range _ _ 90 (or_introl eq_refl) R2 B2) as K2.
    pose proof (code_range _ _ 90 (or_introl eq_refl) R3 B3) as K3.
    change (2 * 180) with 360 in K0. change (2 * 90) with 180 in K2, K3.
    split; [apply K0|]. split; [lia|]. split; [apply K2|apply K3]. }
  destruct Bz as (c0 & c2 & c3 & Ez & Bz). rewrite Ez in *.
  eexists. rewrite Hw.
  destruct (write_edge _ _ _ _ _ _ c0 65535 c2 c3 poly p G S Hw) as [-> | ->]; auto.
  - left. reflexivity.
  - rewrite Forall_forall in F. apply F, removelast_incl, I.
Qed.

Lemma new8 w0 w : pf_new 8 = Ok w0 -> later f64 w0 w -> consistent w /\ w_size w = 8.
Proof.
  intros N L. split; [apply (reached_consistent (T := f64)); exists 8, w0; auto|].
  apply later_deficit in L. destruct L as [(-> & _) _]. apply pf_new_winv in N. apply N.
Qed.
Lemma upper_edge fuel w0 w name (polys : list (list (f64 * f64))) w' r x0 x1 y0 y1 poly p :
  pf_new 8 = Ok w0 -> later f64 w0 w ->
  pf_write fuel w name polys = Some (w', r) ->
  w_bboxes w' = w_bboxes w ++ [(x0, x1, y0, y1)] ->
  (0 <= x0 < 65536 /\ 0 <= x1 < 65536 /\ 0 <= y0 < 65536 /\ 0 <= y1 < 65536) ->
  In poly polys -> In p (removelast poly) -> in_world64 p ->
  fst p = edge64_lon x1 \/ snd p = edge64_lat y1 ->
  r = Err StructError \/ r = Err ZeroDivisionError.
Proof.
  intros N L W B Bo. destruct (new8 _ _ N L) as [C S]. exact (write_edge fuel w name polys w' r x0 x1 y0 y1 poly p C S W B Bo).
Qed.
Lemma lon_180 f w0 w name (poly : list (f64 * f64)) p :
  pf_new 8 = Ok w0 -> later f64 w0 w ->
  Forall (fun p => wf64 (fst p) /\ wf64 (snd p) /\ in_world64 p) poly -> In p (removelast poly) ->
  fst p = fofZ 180 ->
  exists w', pf_write (S f) w name [poly] = Some (w', Err StructError) \/
             pf_write (S f) w name [poly] = Some (w', Err ZeroDivisionError).
Proof. intros N L. destruct (new8 _ _ N L) as [C S]. exact (write_180 f w name poly p C S). Qed.
