(** P writers after calls that raised. *)
From Coq Require Import ZifyBool ZifyNat.
From Verif Require Import Num BBoxModel VlvModel VlvProofs PfModel PfProofs PfSpec PfExact PfAccept.
Open Scope Z_scope.

Lemma skipn_skipn {A} (x y : nat) : forall l : list A, skipn x (skipn y l) = skipn (y + x) l.
Proof.
  induction y as [|y IH]; intros l; [reflexivity|]. destruct l; [destruct x; reflexivity|]. cbn. apply IH.
Qed.
Section Hist.
  Context {T : Type} `{PyNum T} `{PyRound T}.

  (** [w'] is [w] after further write calls, returning or raising. *)
  Inductive later : pwriter -> pwriter -> Prop :=
  | later_refl w : later w w
  | later_write fuel w name (polys : list (list (T * T))) w1 r w2 :
      pf_write fuel w name polys = Some (w1, r) -> later w1 w2 -> later w w2.
  (** [w] is a new writer after any write calls. *)
  Definition reached (w : pwriter) : Prop := exists size w0, pf_new size = Ok w0 /\ later w0 w.

  Lemma write_deficit fuel w name (polys : list (list (T * T))) w' r :
    pf_write fuel w name polys = Some (w', r) ->
    (w_size w' = w_size w /\ w_n w' = w_n w /\ w_umax w' = w_umax w) /\
    Z.of_nat (length (w_names w)) - Z.of_nat (length (w_bboxes w)) <=
    Z.of_nat (length (w_names w')) - Z.of_nat (length (w_bboxes w')).
  Proof.
    unfold pf_write. destruct (omap (omap (norm_point fuel)) polys) as [parts0|]; [|discriminate].
    destruct (mapM drop_closing parts0) as [parts|e]; intros E.
    2:{ injection E as <- <-. split; [auto|lia]. }
    destruct (foldM bb_step parts None) as [[bb|]|e].
    - destruct (quant_points _ _ _ _) as [ds x] in E. injection E as <- <-. cbn. split; [auto|].
      rewrite !app_length. cbn. lia.
    - injection E as <- <-. cbn. split; [auto|]. rewrite app_length. cbn. lia.
    - injection E as <- <-. cbn. split; [auto|]. rewrite app_length. cbn. lia.
  Qed.
  Lemma later_deficit w w' : later w w' ->
    (w_size w' = w_size w /\ w_n w' = w_n w /\ w_umax w' = w_umax w) /\
    Z.of_nat (length (w_names w)) - Z.of_nat (length (w_bboxes w)) <=
    Z.of_nat (length (w_names w')) - Z.of_nat (length (w_bboxes w')).
  Proof.
    induction 1 as [w|fuel w name polys w1 r w2 W _ [(I1 & I2 & I3) I4]]; [split; [auto|lia]|].
    apply write_deficit in W. destruct W as [(W1 & W2 & W3) W4]. split; [|lia].
    rewrite I1, I2, I3. auto.
  Qed.
  Lemma reached_consistent w : reached w ->
    consistent w /\ Z.of_nat (length (w_bboxes w)) <= Z.of_nat (length (w_names w)).
  Proof.
    intros (size & w0 & N & L). apply pf_new_winv in N. destruct N as [(G & N1 & _ & N3 & _) _].
    apply later_deficit in L. destruct L as [(L1 & L2 & L3) L4]. unfold consistent. rewrite L1, L2, L3.
    split; [exact G|]. rewrite N1, N3 in L4. cbn in L4. lia.
  Qed.
  Lemma deficit_close w : Z.of_nat (length (w_bboxes w)) < Z.of_nat (length (w_names w)) ->
    exists e, pf_close w = Err e.
  Proof.
    intros L. destruct (pf_close w) as [f|e] eqn:E; [exfalso|eauto].
    unfold pf_close in E. apply bind_ok in E. destruct E as (s & _ & E).
    apply bind_ok in E. destruct E as (a & _ & E). apply bind_ok in E. destruct E as (b & _ & E).
    apply bind_ok in E. destruct E as (idx & M & _). apply mapM_inv in M.
    destruct (Forall2_nth_l _ _ _ (length (w_bboxes w)) (length (w_bboxes w)) M) as (y & _ & Y).
    { rewrite (nth_error_nth' _ 0%nat) by (rewrite seq_length; lia). rewrite seq_nth by lia. f_equal. }
    unfold pf_index_entry in Y.
    apply bind_ok in Y. destruct Y as (? & _ & Y). apply bind_ok in Y. destruct Y as (? & _ & Y).
    apply bind_ok in Y. destruct Y as (? & _ & Y). apply bind_ok in Y. destruct Y as (? & _ & Y).
    apply bind_ok in Y. destruct Y as (bx & Y & _).
    rewrite py_get_out in Y by lia. discriminate.
  Qed.

  (** A write that raises while quantising. *)
  Lemma quant_points_short n umax box (ps : list (T * T)) : forall ds e,
    quant_points n umax box ps = (ds, Err e) ->
    (length (concat ds) < length ps * (n + n) \/ n = 0)%nat.
  Proof.
    induction ps as [|p ps IH]; intros ds e E; cbn [quant_points] in E; [discriminate|].
    destruct (quant_point n umax box p) as [d|e'] eqn:Q.
    - destruct (quant_points n umax box ps) as [ds' x] eqn:Qs. injection E as <- ->.
      apply quant_point_inv in Q. destruct Q as (u & _ & -> & _).
      specialize (IH ds' e eq_refl). cbn [concat]. rewrite app_length, pt_bytes_length. cbn [length]. lia.
    - injection E as <- _. cbn. lia.
  Qed.
  Definition shell (name : list Z) (zb : zbox) (parts : list (list (T * T))) : ent :=
    mkent name zb (map (map (fun _ => (0, 0))) parts).
  Lemma shell_lens name zb parts : lens (shell name zb parts) = map (fun p => Z.of_nat (length p)) parts.
  Proof.
    unfold lens, shell. cbn. rewrite map_map. apply map_ext. intros p. rewrite map_length. reflexivity.
  Qed.
  Lemma lens_total (parts : list (list (T * T))) :
    zsum (map (fun p => Z.of_nat (length p)) parts) = Z.of_nat (length (concat parts)).
  Proof.
    induction parts as [|p parts IH]; [reflexivity|]. cbn [map concat]. rewrite zsum_cons, IH, app_length. lia.
  Qed.
  Lemma bb_step_err o (p : list (T * T)) e : bb_step o p = Err e -> e = StopIteration.
  Proof. unfold bb_step. destruct p as [|q p]; cbn; congruence. Qed.
  Lemma bb_steps_err (parts : list (list (T * T))) : forall o e, foldM bb_step parts o = Err e -> e = StopIteration.
  Proof.
    induction parts as [|p parts IH]; intros o e E; cbn [foldM] in E; [discriminate|].
    destruct (bb_step o p) as [o'|e'] eqn:S; cbn [bind] in E; [apply (IH o'); exact E|].
    injection E as <-. apply (bb_step_err o p). exact S.
  Qed.
  Lemma drop_err (parts0 : list (list (T * T))) e : mapM drop_closing parts0 = Err e ->
    e = IndexError /\ In [] parts0.
  Proof.
    induction parts0 as [|p parts0 IH]; cbn [mapM]; [discriminate|].
    destruct p as [|a p]; cbn [drop_closing bind]; [intros E; injection E as <-; split; [reflexivity|left; reflexivity]|].
    destruct (mapM drop_closing parts0) as [l|e']; cbn [bind]; [discriminate|].
    intros E. injection E as <-. destruct (IH eq_refl) as [-> I]. split; [reflexivity|right; exact I].
  Qed.

  Lemma failed_quant fuel w es name (polys : list (list (T * T))) w' e :
    winv w es -> pf_write fuel w name polys = Some (w', Err e) -> e = ZeroDivisionError \/ e = StructError ->
    exists parts0 parts bb rest, omap (omap (norm_point fuel)) polys = Some parts0 /\
      mapM drop_closing parts0 = Ok parts /\ foldM bb_step parts None = Ok (Some bb) /\
      w_n w' = w_n w /\
      winvd w' (es ++ [shell name (quant_box bb) parts]) (flat_map (ent_data (w_n w)) es ++ rest) /\
      (length rest < length (concat parts) * (w_n w + w_n w))%nat.
  Proof.
    intros (G & N & L & B & D & C) E He. unfold pf_write in E.
    destruct (omap (omap (norm_point fuel)) polys) as [parts0|] eqn:E0; [|discriminate].
    destruct (mapM drop_closing parts0) as [parts|e'] eqn:E1.
    2:{ injection E as _ ->. apply drop_err in E1. destruct E1 as [-> _]. destruct He; discriminate. }
    destruct (foldM bb_step parts None) as [[bb|]|e'] eqn:E2.
    2:{ injection E as _ <-. destruct He; discriminate. }
    2:{ injection E as _ ->. apply bb_steps_err in E2. subst e. destruct He; discriminate. }
    cbn [w_n w_umax w_add_bbox w_add_partlen w_add_name] in E.
    destruct (quant_points (w_n w) (w_umax w) (dequant_box (quant_box bb)) (concat parts)) as [ds x] eqn:Q.
    injection E as <- ->. exists parts0, parts, bb, (concat ds).
    split; [reflexivity|]. split; [exact E1|]. split; [exact E2|]. split; [reflexivity|]. split.
    - unfold winvd. cbn [w_n w_umax w_add_data w_add_bbox w_add_partlen w_add_name w_size w_names w_partlens w_bboxes w_buffers].
      rewrite N, L, B, concat_app, D, !map_app. cbn [map]. rewrite shell_lens. auto.
    - apply quant_points_short in Q. destruct Q as [Q|Q]; [exact Q|].
      destruct (getfmt_inv _ _ _ G) as (Gs & _ & Gw). lia.
  Qed.

  Lemma read_points_any (rd : preader T) n box k : forall s,
    r_size rd = Z.of_nat n -> r_n rd = n ->
    ((k * (n + n) <= length s)%nat -> exists ps, read_points rd box k s = Ok (ps, skipn (k * (n + n)) s)) /\
    ((length s < k * (n + n))%nat -> read_points rd box k s = Err StructError).
  Proof.
    induction k as [|k IH]; intros s Rs Rn.
    - cbn. split; [intros _; exists []; reflexivity|lia].
    - cbn [read_points]. unfold f_read.
      replace (Z.to_nat (r_size rd * 2)) with (n + n)%nat by lia.
      destruct (IH (skipn (n + n) s) Rs Rn) as [I1 I2].
      rewrite skipn_length in I1, I2. unfold unpack2. rewrite Rn, firstn_length. split; intros L.
      + replace (Z.of_nat (Nat.min (n + n) (length s)) =? 2 * Z.of_nat n) with true by lia. cbn [bind].
        destruct I1 as (ps & ->); [lia|]. cbn [bind]. eexists. f_equal. f_equal.
        rewrite skipn_skipn. reflexivity.
      + destruct (Nat.le_gt_cases (n + n) (length s)) as [Le|Gt].
        * replace (Z.of_nat (Nat.min (n + n) (length s)) =? 2 * Z.of_nat n) with true by lia. cbn [bind].
          rewrite I2 by lia. reflexivity.
        * replace (Z.of_nat (Nat.min (n + n) (length s)) =? 2 * Z.of_nat n) with false by lia. reflexivity.
  Qed.
  Lemma read_parts_short (rd : preader T) n box ls : forall s,
    r_size rd = Z.of_nat n -> r_n rd = n -> Forall (fun z => 0 <= z) ls ->
    Z.of_nat (length s) < zsum ls * (2 * Z.of_nat n) -> read_parts rd box ls s = Err StructError.
  Proof.
    induction ls as [|l ls IH]; intros s Rs Rn F L; [unfold zsum in L; cbn in L; lia|].
    inversion F as [|? ? Hl F']; subst. rewrite zsum_cons in L. cbn [read_parts].
    destruct (read_points_any rd _ box (Z.to_nat l) s Rs eq_refl) as [P1 P2].
    destruct (Nat.le_gt_cases (Z.to_nat l * (r_n rd + r_n rd)) (length s)) as [Le|Gt].
    - destruct (P1 Le) as (ps & ->). cbn [bind]. rewrite IH; auto. rewrite skipn_length. nia.
    - rewrite P2 by exact Gt. reflexivity.
  Qed.
  Lemma read_last_short w es0 e rest file : let es := es0 ++ [e] in
    winvd w es (flat_map (ent_data (w_n w)) es0 ++ rest) -> pf_close w = Ok file ->
    Z.of_nat (length rest) < zsum (lens e) * (2 * Z.of_nat (w_n w)) ->
    pf_read (reader_of w es file) (Z.of_nat (length es0)) = Err StructError.
  Proof.
    intros es I E L. destruct (close_inv w es _ file I E) as (K & Hf).
    destruct I as (G & _). destruct (getfmt_inv _ _ _ G) as (Gs & _ & Gw).
    unfold pf_read, reader_of. cbn [r_bboxes r_partlens r_datapos r_size r_file].
    assert (Hi : nth_error es (length es0) = Some e)
      by (unfold es; rewrite nth_error_app2 by lia; rewrite Nat.sub_diag; reflexivity).
    rewrite (py_get_nth _ _ (dequant_box (e_box e))) by (rewrite nth_error_map, Hi; reflexivity). cbn [bind].
    rewrite slice_prefix by (rewrite map_length; unfold es; rewrite app_length; lia).
    rewrite (py_get_nth _ _ (lens e)) by (rewrite nth_error_map, Hi; reflexivity). cbn [bind].
    replace (firstn (length es0) (map lens es)) with (map lens es0)
      by (unfold es; rewrite map_app; symmetry; apply firstn_exact; apply map_length).
    rewrite Gs, <- data_length.
    match goal with |- read_parts ?rd ?b ?l ?s = _ =>
      replace s with rest; [apply (read_parts_short rd (w_n w)); auto; apply lens_nonneg|] end.
    rewrite Hf.
    replace (Z.to_nat (Z.of_nat (length (head w es ++ flat_map ser_ent es)) +
          Z.of_nat (length (flat_map (ent_data (w_n w)) es0))))
      with (length ((head w es ++ flat_map ser_ent es) ++ flat_map (ent_data (w_n w)) es0))
      by (rewrite (app_length (head w es ++ flat_map ser_ent es)); lia).
    symmetry.
    match goal with |- skipn _ ?l = ?r =>
      replace l with (((head w es ++ flat_map ser_ent es) ++ flat_map (ent_data (w_n w)) es0) ++ r)
        by (rewrite <- !app_assoc; reflexivity) end.
    apply skipn_exact. reflexivity.
  Qed.
End Hist.
Arguments later T {_ _} _ _.
Arguments reached T {_ _} _.
