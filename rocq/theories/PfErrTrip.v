(** The distances of a P file against what its reader returns. *)
From Coq Require Import ZifyBool ZifyNat SpecFloat Reals Qreals Lra QArith Qabs.
From Verif Require Import Num BBoxModel VlvModel VlvProofs PfModel PfProofs PfSpec PfExact PfAccept PfHist PfFinal PfFloat PfErrModel PfErrSpec PfErr.
From Verif Require Import RealNum GeoModel GeoSpec TrigLib GeoProofs GeoCentroid ProjModel.
Open Scope Z_scope.

Section G.
  Context {T D : Type} `{PyNum T} `{PyRound T}.
  Variable hav : T -> T -> T -> T -> res D.

  (** Collecting distances that never raise changes nothing else. *)
  Lemma dist_points_quant (tot : forall a b c d, exists e, hav a b c d = Ok e) n umax (box : T * T * T * T) ps :
    let '(ds, _, x) := dist_points hav n umax box ps in quant_points n umax box ps = (ds, x).
  Proof.
    induction ps as [|p ps IH]; [reflexivity|]. cbn [dist_points quant_points].
    unfold dist_point, quant_point. destruct box as [[[x0 x1] y0] y1].
    destruct (quant_coord umax x0 x1 (fst p)) as [a|e]; [|reflexivity]. cbn [bind].
    destruct (quant_coord umax y0 y1 (snd p)) as [b|e]; [|reflexivity]. cbn [bind].
    destruct (pack2 n a b) as [d|e]; [|reflexivity]. cbn [bind].
    match goal with |- context [hav ?a1 ?a2 ?a3 ?a4] => destruct (tot a1 a2 a3 a4) as [e ->] end. cbn [bind].
    destruct (dist_points hav n umax (x0, x1, y0, y1) ps) as [[ds es] x]. rewrite IH. reflexivity.
  Qed.
  Lemma dw_write_total (tot : forall a b c d, exists e, hav a b c d = Ok e) fuel w errs name polys :
    match dw_write hav fuel (w, errs) name polys with
    | None => pf_write fuel w name polys = None
    | Some (w', errs', x) => pf_write fuel w name polys = Some (w', x) /\ exists new, errs' = errs ++ new
    end.
  Proof.
    unfold dw_write, pf_write. destruct (omap (omap (norm_point fuel)) polys) as [parts0|]; [|reflexivity].
    destruct (mapM drop_closing parts0) as [parts|e]; [|split; [reflexivity|exists []; rewrite app_nil_r; reflexivity]].
    destruct (foldM bb_step parts None) as [[bb|]|e]; [|split; [reflexivity|exists []; rewrite app_nil_r; reflexivity]..].
    cbn [w_n w_umax w_add_bbox w_add_partlen w_add_name].
    pose proof (dist_points_quant tot (w_n w) (w_umax w) (dequant_box (quant_box bb)) (concat parts)) as K.
    destruct (dist_points hav (w_n w) (w_umax w) (dequant_box (quant_box bb)) (concat parts)) as [[ds es] x].
    rewrite K. split; [reflexivity|eauto].
  Qed.
  Lemma dw_all_total (tot : forall a b c d, exists e, hav a b c d = Ok e) fuel l : forall w errs w',
    write_all fuel w l = Some w' -> exists errs', dw_all hav fuel (w, errs) l = Some (w', errs', Ok tt).
  Proof.
    induction l as [|[name polys] l IH]; intros w errs w' E; cbn [write_all dw_all] in *.
    - injection E as <-. eauto.
    - pose proof (dw_write_total tot fuel w errs name polys) as K. destruct (dw_write hav fuel (w, errs) name polys) as [[[w1 e1] x]|].
      + destruct K as [K _]. rewrite K in E. destruct x as [[]|]; [|discriminate]. apply IH, E.
      + rewrite K in E. discriminate.
  Qed.

  (** The distances are those between the normalised rings and what is read. *)
  Lemma dist_trip size we0 fuel (l : list (list Z * list (list (T * T)))) we file errs :
    dw_new size = Ok we0 -> dw_all hav fuel we0 l = Some (we, Ok tt) -> dw_close we = Ok (file, errs) ->
    Forall (fun x => Forall (fun c => 0 < c < 128) (fst x)) l ->
    forall fuel', (forall x, In x l -> (length (fst x) < fuel')%nat) ->
    exists rd ess, pf_open fuel' file = Some (Ok rd) /\ r_names rd = map fst l /\ errs = concat ess /\ length ess = length l /\
      exists w0 w, pf_new size = Ok w0 /\ write_all fuel w0 l = Some w /\ pf_close w = Ok file /\
      forall i name polys, nth_error l i = Some (name, polys) ->
        exists e es, nth_error ess i = Some es /\ nth_error (r_bboxes rd) i = Some (dequant_box (e_box e)) /\
          dwritten hav fuel (w_umax w0) name polys e es /\
          pf_read (T := T) rd (Z.of_nat i) = Ok (map (map (dequant_point (w_umax w0) (dequant_box (e_box e)))) (e_parts e)).
  Proof.
    intros N W C A fuel' L. unfold dw_new in N. apply bind_ok in N. destruct N as (w0 & N & E). injection E as <-.
    destruct we as [w errs0]. unfold dw_close in C. apply bind_ok in C. destruct C as (f & C & E). injection E as -> ->. cbn [fst] in C.
    destruct (dw_all_ok hav _ _ _ _ _ _ W) as [W' K]. assert (N' := N). apply pf_new_winv in N. destruct N as [I0 S0].
    destruct (K [] I0) as (es & news & E & I & F & Ln). cbn [app] in E, I. subst errs.
    destruct (write_all_winv _ _ _ _ _ I0 W') as (S1 & N1 & U1 & _).
    assert (Le : length es = length l) by (apply Forall2_length in F; rewrite combine_length in F; lia).
    assert (Ent : forall i e, nth_error es i = Some e -> exists name polys en, nth_error l i = Some (name, polys) /\ nth_error news i = Some en /\ dwritten hav fuel (w_umax w0) name polys e en).
    { intros i e He. assert (Li : (i < length news)%nat) by (rewrite <- Ln; apply nth_error_Some; congruence).
      destruct (nth_error news i) as [en|] eqn:Hn; [|apply nth_error_None in Hn; lia].
      assert (Hc : nth_error (combine es news) i = Some (e, en)).
      { clear - He Hn. revert es news He Hn. induction i as [|i IH]; intros [|a es] [|b news] He Hn; try discriminate; cbn in *; [congruence|apply IH; assumption]. }
      destruct (Forall2_nth_r _ _ _ _ _ F Hc) as ([name polys] & Hx & Wr). cbn [fst snd] in Wr. exists name, polys, en. auto. }
    assert (Nm : map e_name es = map fst l).
    { clear - F Ln. revert es news F Ln. induction l as [|x l IH]; intros [|e es] [|n news] F Ln; cbn in *; try reflexivity; try discriminate; inversion F as [|? ? ? ? (E & _) F']; subst.
      f_equal; [exact E|apply (IH es news F'); lia]. }
    assert (Op : pf_open fuel' file = Some (Ok (reader_of (T := T) w es file))).
    { apply (open_ok w es _ fuel' file (winv_d _ _ I) C). rewrite Forall_forall. intros e He.
      apply In_nth_error in He. destruct He as (i & Hi). destruct (Ent i e Hi) as (name & polys & en & Hx & _ & (E & _)).
      rewrite E. rewrite Forall_forall in A. split; [apply (A (name, polys))|apply (L (name, polys))]; apply (nth_error_In _ i); exact Hx. }
    exists (reader_of w es file), news. split; [exact Op|]. split; [exact Nm|]. split; [reflexivity|]. split; [lia|].
    exists w0, w. split; [exact N'|]. split; [exact W'|]. split; [exact C|].
    intros i name polys Hi. assert (Li : (i < length es)%nat) by (rewrite Le; apply nth_error_Some; congruence).
    destruct (nth_error es i) as [e|] eqn:He; [|apply nth_error_None in He; lia].
    destruct (Ent i e He) as (name' & polys' & en & Hx & Hn & Wr). rewrite Hi in Hx. injection Hx as <- <-.
    exists e, en. split; [exact Hn|]. split; [cbn [r_bboxes reader_of]; rewrite nth_error_map, He; reflexivity|]. split; [exact Wr|].
    rewrite <- U1. exact (proj1 (read_ok (T := T) w es file i e I C He)).
  Qed.
End G.

(** ** Doubles *)
Lemma drop_closing_ring (poly part : list (f64 * f64)) : drop_closing poly = Ok part -> ring_by same64 poly part.
Proof.
  unfold drop_closing. destruct poly as [|a r]; [discriminate|]. intros E. unfold ring_by, closes_by.
  assert (HL : nth_error (a :: r) (length (a :: r) - 1) = Some (last (a :: r) a)) by (apply last_nth; discriminate).
  destruct (point_eqb a (last (a :: r) a)) eqn:P; apply PfExact.Ok_inj in E; subst part; unfold point_eqb in P.
  - left. apply andb_prop in P. split; [exists a, (last (a :: r) a); split; [reflexivity|]; split; [exact HL|exact P]|].
    exists (last (a :: r) a). apply app_removelast_last. discriminate.
  - right. split; [|split; [discriminate|reflexivity]]. intros (p & q & Hp & Hq & S1 & S2). injection Hp as <-. assert (EQ : q = last (a :: r) a) by congruence. rewrite EQ in S1, S2.
    change (SFeqb (fst a) (fst (last (a :: r) a)) && SFeqb (snd a) (snd (last (a :: r) a)) = false)%bool in P. rewrite S1, S2 in P. discriminate.
Qed.
Lemma combine_map_lens {A B C} (f : B -> C) (pss : list (list A)) uss (R : A -> B -> Prop) : Forall2 (Forall2 R) pss uss ->
  Forall2 (fun a b => length a = length b) pss (map (map f) uss).
Proof. induction 1 as [|p u pss uss E _ IH]; [constructor|]. cbn. constructor; [rewrite map_length; apply (Forall2_length _ _ _ E)|exact IH]. Qed.

Lemma dist_doubles {D} (hav : f64 -> f64 -> f64 -> f64 -> res D) size we0 fuel (l : list (list Z * list (list (f64 * f64)))) we file errs :
  dw_new size = Ok we0 -> dw_all hav fuel we0 l = Some (we, Ok tt) -> dw_close we = Ok (file, errs) ->
  Forall (fun x => Forall (fun c => 0 < c < 128) (fst x)) l -> Forall (fun x => Forall (Forall in_world64) (snd x)) l ->
  forall fuel', (forall x, In x l -> (length (fst x) < fuel')%nat) ->
  exists rd ess, pf_open fuel' file = Some (Ok rd) /\ r_names rd = map fst l /\ errs = concat ess /\ length ess = length l /\
    forall i name polys, nth_error l i = Some (name, polys) ->
      exists rings out es, Forall2 (ring_by same64) polys rings /\ pf_read rd (Z.of_nat i) = Ok out /\ nth_error ess i = Some es /\
        Forall2 (fun a b => length a = length b) rings out /\ distances hav (concat rings) (concat out) es.
Proof.
  intros N W C A IW fuel' L. destruct (dist_trip hav size we0 fuel l we file errs N W C A fuel' L) as (rd & ess & Op & Nm & Ec & Le & w0 & w & _ & _ & _ & K).
  exists rd, ess. split; [exact Op|]. split; [exact Nm|]. split; [exact Ec|]. split; [exact Le|].
  intros i name polys Hi. destruct (K i name polys Hi) as (e & es & Hes & _ & (_ & parts0 & parts & bb & E0 & E1 & E2 & Eb & F & Di) & Rd).
  assert (P0 : parts0 = polys).
  { rewrite Forall_forall in IW. pose proof (IW _ (nth_error_In _ _ Hi)) as X. cbn [snd] in X.
    clear - E0 X. apply omap_inv in E0. induction E0 as [|poly q polys qs E _ IH]; [reflexivity|]. inversion X as [|? ? X1 X2]; subst.
    f_equal; [|apply IH, X2]. clear - E X1. apply omap_inv in E. induction E as [|p q poly part E _ IH]; [reflexivity|]. inversion X1 as [|? ? X2 X3]; subst.
    f_equal; [|apply IH, X3]. destruct fuel as [|f]; [discriminate|]. rewrite (norm_point_id64 f p X2) in E. congruence. }
  subst parts0. eexists parts, _, es. split.
  { apply mapM_inv in E1. clear - E1. induction E1; constructor; auto. apply drop_closing_ring. assumption. }
  split; [exact Rd|]. split; [exact Hes|]. split; [apply (combine_map_lens _ _ _ _ F)|]. rewrite <- concat_map. exact Di.
Qed.

(** ** Exact arithmetic *)
Open Scope R_scope.
Lemma angle_same_lat lon1 lon2 lat t : central_angle lon1 lat lon2 lat t -> t <= rad (Rabs (lon1 - lon2)).
Proof.
  intros [B Co]. destruct (Rle_dec t (rad (Rabs (lon1 - lon2)))) as [L|L]; [exact L|exfalso]. apply Rnot_le_lt in L.
  rewrite dot_formula in Co.
  assert (Z : cos (radians (lon2 - lon1)) = cos (rad (Rabs (lon1 - lon2)))).
  { unfold radians, rad, Rabs. destruct (Rcase_abs (lon1 - lon2)); [f_equal; field|]. rewrite <- cos_neg. f_equal. field. }
  rewrite Z in Co. assert (N : 0 <= rad (Rabs (lon1 - lon2))) by (unfold rad; pose proof (Rabs_pos (lon1 - lon2)); pose proof PI_RGT_0; nra).
  assert (X : cos t < cos (rad (Rabs (lon1 - lon2)))) by (apply cos_decreasing_1; lra).
  pose proof (COS_bound (rad (Rabs (lon1 - lon2)))). pose proof (sin2_cos2 (radians lat)) as S. unfold Rsqr in S. nra.
Qed.
Lemma angle_same_lon lon lat1 lat2 t : central_angle lon lat1 lon lat2 t -> t <= rad (Rabs (lat1 - lat2)).
Proof.
  intros [B Co]. destruct (Rle_dec t (rad (Rabs (lat1 - lat2)))) as [L|L]; [exact L|exfalso]. apply Rnot_le_lt in L.
  rewrite dot_formula in Co. replace (radians (lon - lon)) with 0 in Co by (unfold radians; field). rewrite cos_0 in Co.
  assert (Z : cos (radians lat1 - radians lat2) = cos (rad (Rabs (lat1 - lat2)))).
  { unfold radians, rad, Rabs. destruct (Rcase_abs (lat1 - lat2)); [rewrite <- cos_neg; f_equal; field|f_equal; field]. }
  rewrite cos_minus in Z.
  assert (N : 0 <= rad (Rabs (lat1 - lat2))) by (unfold rad; pose proof (Rabs_pos (lat1 - lat2)); pose proof PI_RGT_0; nra).
  assert (X : cos t < cos (rad (Rabs (lat1 - lat2)))) by (apply cos_decreasing_1; lra). lra.
Qed.
Lemma angle_bound lon1 lat1 lon2 lat2 t : central_angle lon1 lat1 lon2 lat2 t -> t <= rad (Rabs (lon1 - lon2) + Rabs (lat1 - lat2)).
Proof.
  intros A. destruct (haversine_angle lon1 lat1 lon2 lat1 1) as (a & _ & Aa), (haversine_angle lon2 lat1 lon2 lat2 1) as (b & _ & Ab).
  pose proof (angle_triangle _ _ _ _ _ _ a b t Aa Ab A). pose proof (angle_same_lat _ _ _ _ Aa). pose proof (angle_same_lon _ _ _ _ Ab).
  unfold rad in *. lra.
Qed.
(** coord.haversine on exact coordinates *)
Definition real_hav (a b c d : Q) : res R := haversine (Q2R a) (Q2R b) (Q2R c) (Q2R d) None.
Lemma real_hav_total a b c d : exists e, real_hav a b c d = Ok e.
Proof. unfold real_hav. destruct (haversine_default (Q2R a) (Q2R b) (Q2R c) (Q2R d)) as (r & t & _ & _ & E & _). eauto. Qed.
Lemma real_hav_near dx dy p q e : near dx dy p q -> real_hav (fst p) (snd p) (fst q) (snd q) = Ok e ->
  0 <= e <= 6378137 * rad (Q2R dx + Q2R dy).
Proof.
  intros [X Y] E. unfold real_hav in E.
  destruct (haversine_default (Q2R (fst p)) (Q2R (snd p)) (Q2R (fst q)) (Q2R (snd q))) as (r & t & _ & B & E' & A).
  rewrite E in E'. injection E' as ->. pose proof (angle_bound _ _ _ _ _ A) as U. destruct A as [[T0 _] _].
  assert (AB : forall a b c, (Qabs (a - b) <= c)%Q -> Rabs (Q2R a - Q2R b) <= Q2R c).
  { intros a b c K. apply Qreals.Qle_Rle in K. rewrite <- Q2R_minus. revert K. apply Qabs_case; intros S K.
    - apply Qreals.Qle_Rle in S. rewrite RMicromega.Q2R_0 in S. rewrite Rabs_pos_eq; assumption.
    - apply Qreals.Qle_Rle in S. rewrite RMicromega.Q2R_0 in S. rewrite Q2R_opp in K. rewrite Rabs_left1; assumption. }
  apply AB in X, Y. cbn [el_a WGS84] in B. assert (0 < el_b WGS84) by (destruct wgs84_ok; assumption).
  assert (V : t <= rad (Q2R dx + Q2R dy)) by (unfold rad in *; pose proof PI_RGT_0; nra). split; [nra|]. nra.
Qed.

Open Scope Z_scope.
Lemma dist_exact size we0 fuel (l : list (list Z * list (list (Q * Q)))) :
  dw_new (D := R) size = Ok we0 ->
  Forall (fun x => Forall (fun c => 0 < c < 128) (fst x)) l ->
  forall w, write_all fuel (fst we0) l = Some w ->
  exists errs file, dw_all real_hav fuel we0 l = Some (w, errs, Ok tt) /\ dw_close (w, errs) = Ok (file, errs) /\
  forall fuel', (forall x, In x l -> (length (fst x) < fuel')%nat) ->
  exists rd ess, pf_open fuel' file = Some (Ok rd) /\ r_names rd = map fst l /\ errs = concat ess /\ length ess = length l /\
    forall i name polys, nth_error l i = Some (name, polys) ->
      exists x0 x1 y0 y1 norm rings out es, nth_error (r_bboxes rd) i = Some (x0, x1, y0, y1) /\
        Forall2 (Forall2 normalised) polys norm /\ Forall2 ring norm rings /\ pf_read rd (Z.of_nat i) = Ok out /\ nth_error ess i = Some es /\
        Forall2 (fun a b => length a = length b) rings out /\ distances real_hav (concat rings) (concat out) es /\
        Forall (fun e => (0 <= e <= 6378137 * rad (Q2R (half_code size x0 x1) + Q2R (half_code size y0 y1)))%R) es.
Proof.
  intros N A w W. assert (N' := N). unfold dw_new in N. apply bind_ok in N. destruct N as (w0 & N & E). injection E as <-. cbn [fst] in W.
  destruct (dw_all_total real_hav real_hav_total fuel l w0 [] w W) as [errs DA].
  destruct (round_trip size w0 fuel l w N W A) as (file & C & _).
  exists errs, file. split; [exact DA|]. assert (DC : dw_close (w, errs) = Ok (file, errs)) by (unfold dw_close; cbn [fst snd]; rewrite C; reflexivity).
  split; [exact DC|]. intros fuel' L.
  destruct (dist_trip real_hav size (w0, []) fuel l (w, errs) file errs N' DA DC A fuel' L) as (rd & ess & Op & Nm & Ec & Le & w0' & w' & N2 & _ & _ & K).
  assert (w0' = w0) as -> by (rewrite N2 in N; injection N as ->; reflexivity).
  exists rd, ess. split; [exact Op|]. split; [exact Nm|]. split; [exact Ec|]. split; [exact Le|].
  intros i name polys Hi. destruct (K i name polys Hi) as (e & es & Hes & Hb & (_ & parts0 & parts & bb & E0 & E1 & E2 & Eb & F & Di) & Rd).
  destruct (@dequant_box Q _ (e_box e)) as [[[x0 x1] y0] y1] eqn:Db. apply norm_parts in E0. destruct E0 as [E0 _].
  exists x0, x1, y0, y1, parts0, parts, (map (map (dequant_point (w_umax w0) (x0, x1, y0, y1))) (e_parts e)), es. split; [exact Hb|]. split; [exact E0|].
  split; [apply mapM_rings, E1|]. split; [exact Rd|]. split; [exact Hes|]. split; [apply (combine_map_lens _ _ _ _ F)|]. rewrite <- concat_map. split; [exact Di|].
  assert (G : getfmt size = Ok (w_n w0, w_umax w0)) by (destruct (pf_new_winv _ _ N) as [(G & _) S0]; rewrite <- S0; exact G).
  destruct (umax_pos _ _ _ G) as (Up & Um).
  assert (FC : Forall2 (quantised (w_umax w0) (x0, x1, y0, y1)) (concat parts) (concat (e_parts e))) by (clear - F; induction F; cbn; [constructor|apply Forall2_app; assumption]).
  destruct Di as [Di _]. revert es Hes Di. clear - FC Up Um. intros es _ Di. revert es Di.
  induction FC as [|p u ps us Q _ IH]; intros es Di; cbn [map combine] in Di; inversion Di as [|? e' ? es' D1 D2]; subst; constructor; [|apply IH, D2].
  refine (real_hav_near _ _ p (dequant_point (w_umax w0) (x0, x1, y0, y1) u) _ _ D1). destruct Q as [Q1 Q2]. unfold near, half_code, dequant_point.
  cbn [fst snd nadd ndiv nmul nofZ nsub NumQ]. rewrite <- Um, inject_Z_mult. change (inject_Z 2) with 2%Q.
  split; rewrite Qabs_Qminus; apply quant_coord_near; assumption.
Qed.
