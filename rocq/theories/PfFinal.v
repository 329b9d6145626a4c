(** P files: whole histories, and sf2pf's part splitting. *)
From Coq Require Import QArith Qabs Lia Lqa ZifyBool Sorted.
From Verif Require Import Num BBoxModel BBoxProofs VlvModel VlvProofs PfModel PfProofs PfSpec PfExact PfAccept PfHist.
Open Scope Z_scope.

Lemma ascii_iff s : Forall (fun c => 0 < c < 128) s -> forallb (fun c => c <? 128) s = true.
Proof.
  intros F. apply forallb_forall. rewrite Forall_forall in F. intros c Hc. specialize (F c Hc). lia.
Qed.
Lemma Forall2_nth_r {A B} (R : A -> B -> Prop) l m i y : Forall2 R l m -> nth_error m i = Some y ->
  exists x, nth_error l i = Some x /\ R x y.
Proof.
  intros H. revert i; induction H as [|a b l m H _ IH]; intros [|i] Hi; cbn in *; try discriminate.
  - injection Hi as <-. eauto.
  - apply IH. exact Hi.
Qed.
Lemma py_get_range {A} (l : list A) i : i < - Z.of_nat (length l) \/ Z.of_nat (length l) <= i ->
  py_get l i = Err IndexError.
Proof.
  intros H. unfold py_get. destruct (i <? 0) eqn:S;
    match goal with |- context [if ?c then _ else _] => replace c with false by lia end; reflexivity.
Qed.

Section G.
  Context {T : Type} `{PyNum T} `{PyRound T}.
  (** Whatever the arithmetic: names and numbers of parts and points. *)
  Lemma shape_trip size w0 fuel (l : list (list Z * list (list (T * T)))) w file :
    pf_new size = Ok w0 -> write_all fuel w0 l = Some w -> pf_close w = Ok file ->
    Forall (fun x => Forall (fun c => 0 < c < 128) (fst x)) l ->
    forall fuel', (forall x, In x l -> (length (fst x) < fuel')%nat) ->
    exists rd, pf_open fuel' file = Some (Ok rd) /\
      r_names rd = map fst l /\ r_size rd = size /\ length (r_bboxes rd) = length l /\
      (forall i name polys, nth_error l i = Some (name, polys) ->
        exists out, pf_read (T := T) rd (Z.of_nat i) = Ok out /\
          pf_read rd (Z.of_nat i - Z.of_nat (length l)) = Ok out /\
          (~ In name (map fst (firstn i l)) -> pf_get rd name = Ok out) /\
          Forall2 (fun poly part => length part = length poly \/ S (length part) = length poly) polys out) /\
      (forall i, i < - Z.of_nat (length l) \/ Z.of_nat (length l) <= i -> pf_read rd i = Err IndexError) /\
      (forall name, ~ In name (map fst l) -> pf_get rd name = Err ValueError).
  Proof.
    intros N W C A fuel' L. apply pf_new_winv in N. destruct N as [I0 S0].
    destruct (write_all_winv _ _ _ _ _ I0 W) as (S1 & N1 & U1 & es & I & F). cbn [app] in I.
    assert (Nm : map e_name es = map fst l).
    { clear - F. induction F as [|x e l es (E & _) _ IH]; [reflexivity|]. cbn. rewrite E, IH. reflexivity. }
    assert (Le : length es = length l) by (symmetry; apply (Forall2_length _ _ _ F)).
    exists (reader_of w es file).
    assert (Op : pf_open fuel' file = Some (Ok (reader_of (T := T) w es file))).
    { apply (open_ok w es _ fuel' file (winv_d _ _ I) C). rewrite Forall_forall. intros e He.
      apply In_nth_error in He. destruct He as (i & Hi). destruct (Forall2_nth_r _ _ _ _ _ F Hi) as (x & Hx & (E & _)).
      rewrite E. rewrite Forall_forall in A. split; [apply A|apply L]; apply (nth_error_In _ i); exact Hx. }
    split; [exact Op|]. split; [exact Nm|]. split; [cbn; congruence|].
    split; [cbn; rewrite map_length; exact Le|].
    assert (Get : forall i name, nth_error (map fst l) i = Some name -> ~ In name (firstn i (map fst l)) ->
      pf_get (reader_of (T := T) w es file) name = pf_read (reader_of w es file) (Z.of_nat i)).
    { intros i name Hi Nf. unfold pf_get. cbn [r_names reader_of]. rewrite Nm.
      rewrite (proj2 (proj1 (index_of_spec name (map fst l) 0) (Z.of_nat i))); [reflexivity|].
      exists i. split; [lia|]. split; assumption. }
    split; [|split].
    - intros i name polys Hi. destruct (Forall2_nth_l _ _ _ _ _ F Hi) as (e & He & (En & parts0 & parts & bb & E0 & E1 & E2 & Eb & Fq)).
      destruct (read_ok (T := T) w es file i e I C He) as (R1 & R2). rewrite Le in R2.
      eexists. split; [exact R1|]. split; [exact R2|]. split.
      + intros Nf. rewrite <- R1. apply Get; [rewrite nth_error_map, Hi; reflexivity|]. rewrite firstn_map. exact Nf.
      + apply omap_inv in E0. apply mapM_inv in E1. cbn [snd] in *. clear - E0 E1 Fq.
        revert parts Fq E1. generalize (e_parts e). intros us.
        assert (K : forall uss parts, Forall2 (Forall2 (quantised (w_umax w0) (dequant_box (e_box e)))) parts uss ->
          Forall2 (fun x y => drop_closing x = Ok y) parts0 parts ->
          Forall2 (fun poly part => length part = length poly \/ S (length part) = length poly) polys
            (map (map (dequant_point (w_umax w) (dequant_box (e_box e)))) uss)).
        { induction E0 as [|poly p0 polys parts0 P0 _ IH]; intros uss parts Fq E1;
            inversion E1 as [|? part ? parts' D1 D2]; subst; inversion Fq as [|? u ? uss' Q1 Q2]; subst; cbn [map];
            constructor; [|apply (IH uss' parts'); assumption].
          rewrite map_length. apply Forall2_length in Q1. rewrite <- Q1. apply omap_inv in P0.
          apply Forall2_length in P0. rewrite P0. unfold drop_closing in D1. destruct p0 as [|a r]; [discriminate|].
          destruct (point_eqb a (last (a :: r) a)); apply Ok_inj in D1; rewrite <- D1; [right|left; reflexivity].
          pose proof (app_removelast_last a (l := a :: r)) as X.
          rewrite X at 2 by discriminate. rewrite app_length. cbn [length]. lia. }
        intros parts. apply K.
    - intros i Hi. unfold pf_read. cbn [r_bboxes reader_of]. rewrite py_get_range; [reflexivity|].
      rewrite map_length, Le. exact Hi.
    - intros name Nf. unfold pf_get. cbn [r_names reader_of]. rewrite Nm.
      rewrite (proj2 (proj2 (index_of_spec name (map fst l) 0)) Nf). reflexivity.
  Qed.

  (** A write that raises before its box is stored spoils the file. *)
  Lemma early_failure fuel w name (polys : list (list (T * T))) w' e w'' :
    reached T w -> pf_write fuel w name polys = Some (w', Err e) ->
    e = AttributeError \/ e = StopIteration -> later T w' w'' -> exists e', pf_close w'' = Err e'.
  Proof.
    intros R E He L. apply deficit_close. apply reached_consistent in R. destruct R as [_ R].
    apply later_deficit in L. destruct L as [_ L].
    assert (D : Z.of_nat (length (w_bboxes w')) < Z.of_nat (length (w_names w'))); [|lia].
    unfold pf_write in E.
    destruct (omap (omap (norm_point fuel)) polys) as [parts0|]; [|discriminate].
    destruct (mapM drop_closing parts0) as [parts|e'] eqn:E1.
    2:{ injection E as _ ->. apply drop_err in E1. destruct E1 as [-> _]. destruct He; discriminate. }
    destruct (foldM bb_step parts None) as [[bb|]|e'].
    - destruct (quant_points _ _ _ _) as [ds x] eqn:Q. injection E as _ ->. exfalso. clear - Q He. revert ds Q.
      generalize (w_n (w_add_bbox (w_add_partlen (w_add_name w name) (map (fun p => Z.of_nat (length p)) parts)) (quant_box bb))).
      generalize (w_umax (w_add_bbox (w_add_partlen (w_add_name w name) (map (fun p => Z.of_nat (length p)) parts)) (quant_box bb))).
      intros u n. generalize (concat parts). intros ps. induction ps as [|p ps IH]; intros ds Q; cbn [quant_points] in Q; [discriminate|].
      destruct (quant_point n u (dequant_box (quant_box bb)) p) as [d|e2] eqn:Qp.
      + destruct (quant_points n u (dequant_box (quant_box bb)) ps) as [ds' x]. injection Q as _ ->. eapply IH. reflexivity.
      + injection Q as _ ->. unfold quant_point in Qp. destruct (dequant_box (quant_box bb)) as [[[? ?] ?] ?].
        unfold quant_coord, ndivE, pack2, pack_be in Qp.
        repeat match type of Qp with
        | context [if ?c then _ else _] => destruct c; cbn [bind] in Qp
        end; try (injection Qp as <-; destruct He; discriminate); discriminate.
    - injection E as <- _. cbn. rewrite app_length. cbn. lia.
    - injection E as <- _. cbn. rewrite app_length. cbn. lia.
  Qed.
End G.

(** ** Exact arithmetic *)
Lemma round_trip size w0 fuel (l : list (list Z * list (list (Q * Q)))) w :
  pf_new size = Ok w0 -> write_all fuel w0 l = Some w ->
  Forall (fun x => Forall (fun c => 0 < c < 128) (fst x)) l ->
  exists file, pf_close w = Ok file /\
  forall fuel', (forall x, In x l -> (length (fst x) < fuel')%nat) ->
  exists rd, pf_open fuel' file = Some (Ok rd) /\ r_names rd = map fst l /\ pf_len rd = Z.of_nat (length l) /\
    forall i name polys, nth_error l i = Some (name, polys) ->
      exists x0 x1 y0 y1 out, nth_error (r_bboxes rd) i = Some (x0, x1, y0, y1) /\
        pf_read rd (Z.of_nat i) = Ok out /\ pf_read rd (Z.of_nat i - Z.of_nat (length l)) = Ok out /\
        (~ In name (map fst (firstn i l)) -> pf_get rd name = Ok out) /\
        same_geometry (half_code size x0 x1) (half_code size y0 y1) polys out.
Proof.
  intros N W A. assert (N' := N). apply pf_new_winv in N. destruct N as [I0 S0].
  destruct (write_all_winv _ _ _ _ _ I0 W) as (S1 & N1 & U1 & es & I & F). cbn [app] in I.
  assert (G : getfmt size = Ok (w_n w0, w_umax w0)) by (rewrite <- S0; apply I0).
  assert (C : pf_close w = Ok (head w es ++ flat_map ser_ent es ++ flat_map (ent_data (w_n w)) es)).
  { apply close_ok; [apply winv_d; exact I|]. rewrite Forall_forall. intros e He. apply In_nth_error in He.
    destruct He as (i & Hi). destruct (Forall2_nth_r _ _ _ _ _ F Hi) as (x & Hx & Wr).
    destruct (written_geometry _ _ _ _ _ _ _ G Wr) as (B & E & _). split; [exact B|]. rewrite E.
    apply ascii_iff. rewrite Forall_forall in A. apply A, (nth_error_In _ i), Hx. }
  eexists. split; [exact C|]. intros fuel' L.
  assert (Le : length es = length l) by (symmetry; apply (Forall2_length _ _ _ F)).
  assert (Nm : map e_name es = map fst l).
  { clear - F. induction F as [|x e l es (E & _) _ IH]; [reflexivity|]. cbn. rewrite E, IH. reflexivity. }
  set (file := head w es ++ flat_map ser_ent es ++ flat_map (ent_data (w_n w)) es) in *.
  destruct (shape_trip size w0 fuel l w file N' W C A fuel' L) as (rd & Op & R1 & R2 & R3 & R4 & _).
  assert (Op' : pf_open fuel' file = Some (Ok (reader_of (T := Q) w es file))).
  { apply (open_ok w es _ fuel' file (winv_d _ _ I) C). rewrite Forall_forall. intros e He.
    apply In_nth_error in He. destruct He as (i & Hi). destruct (Forall2_nth_r _ _ _ _ _ F Hi) as (x & Hx & (E & _)).
    rewrite E. rewrite Forall_forall in A. split; [apply A|apply L]; apply (nth_error_In _ i); exact Hx. }
  rewrite Op' in Op. injection Op as <-. eexists. split; [exact Op'|].
  split; [exact R1|]. split; [unfold pf_len; rewrite R1, map_length; reflexivity|].
  intros i name polys Hi. destruct (R4 i name polys Hi) as (out & O1 & O2 & O3 & _).
  destruct (Forall2_nth_l _ _ _ _ _ F Hi) as (e & He & Wr). cbn [fst snd] in Wr.
  destruct (written_geometry _ _ _ _ _ _ _ G Wr) as (B & E & Sg).
  destruct (@dequant_box Q _ (e_box e)) as [[[x0 x1] y0] y1] eqn:Db.
  exists x0, x1, y0, y1, out.
  split; [cbn [r_bboxes reader_of]; rewrite nth_error_map, He; cbn; rewrite <- Db; reflexivity|].
  split; [exact O1|]. split; [exact O2|]. split; [exact O3|].
  destruct (read_ok (T := Q) w es file i e I C He) as (K & _). rewrite O1 in K. apply Ok_inj in K.
  rewrite K, U1, Db. exact Sg.
Qed.

Lemma stored size w0 fuel name (polys : list (list (Q * Q))) w :
  pf_new size = Ok w0 -> pf_write fuel w0 name polys = Some (w, Ok tt) -> Forall (fun c => 0 < c < 128) name ->
  exists file, pf_close w = Ok file /\
  exists rd x0 x1 y0 y1 out, pf_open (S (length name)) file = Some (Ok rd) /\
    r_bboxes rd = [(x0, x1, y0, y1)] /\ pf_read rd 0 = Ok out /\
    Forall2 (fun poly got => exists norm part,
      Forall2 (fun p q => -180 <= fst q <= 180 /\ -90 <= snd q <= 90 /\
        (exists k, fst q == fst p + inject_Z (360 * k)) /\ (exists k, snd q == snd p + inject_Z (180 * k)))%Q poly norm /\
      ring norm part /\ Forall2 (near (half_code size x0 x1) (half_code size y0 y1)) got part) polys out.
Proof.
  intros N W A. assert (W' : write_all fuel w0 [(name, polys)] = Some w) by (cbn; rewrite W; reflexivity).
  assert (A' : Forall (fun x : list Z * list (list (Q * Q)) => Forall (fun c => 0 < c < 128) (fst x)) [(name, polys)])
    by (constructor; [exact A|constructor]).
  destruct (round_trip size w0 fuel _ w N W' A') as (file & C & K). exists file. split; [exact C|].
  assert (L : forall x, In x [(name, polys)] -> (length (fst x) < S (length name))%nat)
    by (intros x [<-|[]]; cbn; lia).
  destruct (K _ L) as (rd & Op & _ & _ & K').
  destruct (shape_trip size w0 fuel _ w file N W' C A' _ L) as (rd' & Op' & _ & _ & Lb & _).
  rewrite Op in Op'. injection Op' as <-.
  destruct (K' 0%nat name polys eq_refl) as (x0 & x1 & y0 & y1 & out & B & R & _ & _ & Sg).
  exists rd, x0, x1, y0, y1, out. split; [exact Op|]. split.
  { cbn in Lb. destruct (r_bboxes rd) as [|b [|b' r]]; try discriminate. cbn in B. congruence. }
  split; [exact R|]. unfold same_geometry in Sg. clear - Sg.
  induction Sg as [|poly got polys out (norm & part & F & Rg & Nr) _ IH]; constructor; [|exact IH].
  exists norm, part. split; [|split; assumption]. clear - F.
  induction F as [|p q poly norm (A & B & C & D & _) _ IH]; constructor; auto.
Qed.
Lemma norm_total (polys : list (list (Q * Q))) :
  (forall poly p, In poly polys -> In p poly -> (snd p <= 90)%Q) ->
  exists n, forall fuel, (n <= fuel)%nat -> exists parts0, omap (omap (norm_point fuel)) polys = Some parts0.
Proof.
  intros H. apply (omap_total (fun fuel => omap (norm_point fuel)) polys).
  intros poly Hp. apply omap_total. intros p Hq. apply norm_point_total. apply (H poly p); assumption.
Qed.
Lemma omap_nil {A B} (f : A -> option B) l : omap f l = Some [] <-> l = [].
Proof.
  split; [|intros ->; reflexivity]. destruct l as [|x l]; [reflexivity|]. cbn.
  destruct (f x); [|discriminate]. destruct (omap f l); discriminate.
Qed.

Lemma write_no_part f w name : exists w', pf_write (T := Q) f w name [] = Some (w', Err AttributeError) /\
  w_names w' = w_names w ++ [name].
Proof. eexists. split; reflexivity. Qed.

Lemma steps_nil (parts : list (list (Q * Q))) : In [] parts -> forall o, foldM bb_step parts o = Err StopIteration.
Proof.
  induction parts as [|p parts IH]; [intros []|]. intros [->|I] o; cbn [foldM].
  - reflexivity.
  - destruct (bb_step o p) as [o'|e] eqn:E; cbn [bind]; [apply IH; exact I|].
    f_equal. apply (bb_step_err o p). exact E.
Qed.
Lemma write_single_point w name (polys : list (list (Q * Q))) p :
  (forall poly q, In poly polys -> In q poly -> (snd q <= 90)%Q) -> (forall poly, In poly polys -> poly <> []) ->
  In [p] polys ->
  exists n, forall fuel, (n <= fuel)%nat -> exists w',
    pf_write fuel w name polys = Some (w', Err StopIteration) /\ w_names w' = w_names w ++ [name].
Proof.
  intros L Ne I. destruct (norm_total polys L) as (n & N). exists n. intros fuel Lf.
  destruct (N fuel Lf) as (parts0 & E0). unfold pf_write. rewrite E0. apply omap_inv in E0.
  destruct (mapM drop_closing parts0) as [parts|e] eqn:E1.
  - apply In_nth_error in I. destruct I as (i & Hi).
    destruct (Forall2_nth_l _ _ _ _ _ E0 Hi) as (part0 & H0 & K0). apply mapM_inv in E1.
    destruct (Forall2_nth_l _ _ _ _ _ E1 H0) as (part & H1 & K1).
    cbn [omap] in K0. destruct (norm_point fuel p) as [q|]; [|discriminate]. injection K0 as <-.
    unfold drop_closing, point_eqb in K1. cbn [last removelast fst snd neq NumQ] in K1.
    rewrite !(proj2 (Qeq_bool_iff _ _) (Qeq_refl _)) in K1. cbn [andb] in K1. apply Ok_inj in K1. subst part.
    rewrite (steps_nil parts); [|apply (nth_error_In _ i); exact H1]. eexists. split; reflexivity.
  - exfalso. apply drop_err in E1. destruct E1 as [_ E1]. apply In_nth_error in E1. destruct E1 as (i & Hi).
    destruct (Forall2_nth_r _ _ _ _ _ E0 Hi) as (poly & Hp & K). apply omap_nil in K.
    apply (Ne poly); [apply (nth_error_In _ i); exact Hp|exact K].
Qed.
Lemma mapM_drop_nil (parts0 : list (list (Q * Q))) : In [] parts0 -> mapM drop_closing parts0 = Err IndexError.
Proof.
  induction parts0 as [|p parts0 IH]; [intros []|]. intros [->|I]; cbn [mapM]; [reflexivity|].
  destruct p as [|a p]; [reflexivity|]. cbn [drop_closing bind]. rewrite IH by exact I. reflexivity.
Qed.
Lemma write_empty_poly w name (polys : list (list (Q * Q))) :
  (forall poly q, In poly polys -> In q poly -> (snd q <= 90)%Q) -> In [] polys ->
  exists n, forall fuel, (n <= fuel)%nat -> pf_write fuel w name polys = Some (w, Err IndexError).
Proof.
  intros L I. destruct (norm_total polys L) as (n & N). exists n. intros fuel Lf.
  destruct (N fuel Lf) as (parts0 & E0). unfold pf_write. rewrite E0. apply omap_inv in E0.
  rewrite mapM_drop_nil; [reflexivity|]. apply In_nth_error in I. destruct I as (i & Hi).
  destruct (Forall2_nth_l _ _ _ _ _ E0 Hi) as (part0 & H0 & K0). injection K0 as <-. apply (nth_error_In _ i). exact H0.
Qed.

(** A write that raises while quantising, as the last call before close. *)
Lemma late_failure size w0 fuel (l : list (list Z * list (list (Q * Q)))) w name (polys : list (list (Q * Q))) w' e :
  pf_new size = Ok w0 -> write_all fuel w0 l = Some w ->
  pf_write fuel w name polys = Some (w', Err e) -> e = ZeroDivisionError \/ e = StructError ->
  Forall (fun x => Forall (fun c => 0 < c < 128) (fst x)) l -> Forall (fun c => 0 < c < 128) name ->
  exists file file', pf_close w = Ok file /\ pf_close w' = Ok file' /\
  forall fuel', (forall x, In x (map fst l ++ [name]) -> (length x < fuel')%nat) ->
  exists rd rd', pf_open fuel' file = Some (Ok rd) /\ pf_open (T := Q) fuel' file' = Some (Ok rd') /\
    r_names rd' = map fst l ++ [name] /\
    (forall i, (i < length l)%nat -> pf_read rd' (Z.of_nat i) = pf_read rd (Z.of_nat i)) /\
    pf_read rd' (Z.of_nat (length l)) = Err StructError.
Proof.
  intros N W E He A An.
  destruct (round_trip size w0 fuel l w N W A) as (file & C & RT).
  apply pf_new_winv in N. destruct N as [I0 S0].
  destruct (write_all_winv _ _ _ _ _ I0 W) as (S1 & N1 & U1 & es & I & F). cbn [app] in I.
  assert (G : getfmt size = Ok (w_n w0, w_umax w0)) by (rewrite <- S0; apply I0).
  destruct (failed_quant fuel w es name polys w' e I E He) as (parts0 & parts & bb & rest & E0 & E1 & E2 & Nn & I' & Sh).
  set (en := shell name (quant_box bb) parts) in *.
  assert (Ge : forall e0, In e0 es -> box_ok (e_box e0) /\ Forall (fun c => 0 < c < 128) (e_name e0) /\ In (e_name e0) (map fst l)).
  { intros e0 He0. apply In_nth_error in He0.
    destruct He0 as (i & Hi). destruct (Forall2_nth_r _ _ _ _ _ F Hi) as (x & Hx & Wr).
    destruct (written_geometry _ _ _ _ _ _ _ G Wr) as (B & En & _). split; [exact B|]. rewrite En.
    rewrite Forall_forall in A. apply nth_error_In in Hx. split; [apply A; exact Hx|apply in_map; exact Hx]. }
  assert (Ben : box_ok (e_box en)).
  { cbn. apply world_box_ok. destruct (norm_parts _ _ _ E0) as (Nw & Ww). apply mapM_rings in E1.
    pose proof (rings_world _ _ Ww E1) as W'.
    apply (steps_world parts None (Some bb) W'); [discriminate|exact E2|reflexivity]. }
  assert (C' : pf_close w' = Ok (head w' (es ++ [en]) ++ flat_map ser_ent (es ++ [en]) ++
            flat_map (ent_data (w_n w)) es ++ rest)).
  { apply close_ok; [exact I'|]. apply Forall_app. split.
    - rewrite Forall_forall. intros e0 H0. destruct (Ge e0 H0) as (B & K & _). split; [exact B|]. apply ascii_iff. exact K.
    - constructor; [|constructor]. split; [exact Ben|]. apply ascii_iff. exact An. }
  eexists. eexists. split; [exact C|]. split; [exact C'|]. intros fuel' L.
  set (file' := _ ++ _ ++ _) in *.
  assert (Op : pf_open fuel' file = Some (Ok (reader_of (T := Q) w es file))).
  { apply (open_ok w es _ fuel' file (winv_d _ _ I) C). rewrite Forall_forall. intros e0 H0.
    destruct (Ge e0 H0) as (_ & K & J). split; [exact K|]. apply L, in_app_iff. left. exact J. }
  assert (Op' : pf_open fuel' file' = Some (Ok (reader_of (T := Q) w' (es ++ [en]) file'))).
  { apply (open_ok w' (es ++ [en]) _ fuel' file' I' C'). apply Forall_app. split.
    - rewrite Forall_forall. intros e0 H0.
      destruct (Ge e0 H0) as (_ & K & J). split; [exact K|]. apply L, in_app_iff. left. exact J.
    - constructor; [|constructor]. split; [exact An|]. apply L, in_app_iff. right. left. reflexivity. }
  assert (Le : length es = length l) by (symmetry; apply (Forall2_length _ _ _ F)).
  assert (Uw : w_umax w' = w_umax w) by (apply write_deficit in E; apply E).
  eexists. eexists. split; [exact Op|]. split; [exact Op'|]. split.
  { cbn [r_names reader_of]. rewrite map_app. f_equal.
    clear - F. induction F as [|x e0 l es (En & _) _ IH]; [reflexivity|]. cbn. rewrite En, IH. reflexivity. }
  assert (I'' := I'). rewrite <- Nn in I''. split.
  - intros i Hi. destruct (nth_error es i) as [e0|] eqn:H0; [|apply nth_error_None in H0; lia].
    destruct (read_ok (T := Q) w es file i e0 I C H0) as (K & _). rewrite K.
    destruct (read_ok_d (T := Q) w' es [en] rest file' i e0 I'' C' H0) as (K' & _).
    { rewrite Nn. destruct I as (_ & _ & _ & _ & _ & Cd). rewrite Forall_forall in Cd. apply Cd, (nth_error_In _ i), H0. }
    rewrite K', Uw. reflexivity.
  - rewrite <- Le. apply (read_last_short (T := Q) w' es en rest file' I'' C').
    unfold en. rewrite shell_lens, lens_total, Nn. nia.
Qed.

(** ** sf2pf *)
Lemma slice_nat {A} (l : list A) a b : (a <= b <= length l)%nat ->
  py_slice l (Z.of_nat a) (Z.of_nat b) = firstn (b - a) (skipn a l).
Proof.
  intros H. unfold py_slice, slice_clamp.
  replace (Z.of_nat a <? 0) with false by lia. replace (Z.of_nat b <? 0) with false by lia.
  rewrite !Z.min_l by lia. destruct (Z.ltb_spec (Z.of_nat a) (Z.of_nat b)).
  - rewrite Nat2Z.id. f_equal. lia.
  - replace (b - a)%nat with 0%nat by lia. reflexivity.
Qed.
Lemma split_from {A} (l : list A) rest : forall a, 0 <= a -> StronglySorted Z.le (a :: rest) ->
  last (a :: rest) 0 = Z.of_nat (length l) ->
  concat (map (fun ab => py_slice l (fst ab) (snd ab)) (combine (removelast (a :: rest)) rest)) =
  skipn (Z.to_nat a) l.
Proof.
  induction rest as [|b rest IH]; intros a Ha S E.
  - cbn in *. subst a. rewrite Nat2Z.id, skipn_all. reflexivity.
  - inversion S as [|? ? S1 S2]; subst. inversion S2 as [|? ? Hab S3]; subst.
    change (removelast (a :: b :: rest)) with (a :: removelast (b :: rest)).
    cbn [combine map concat fst snd]. rewrite IH; [|lia|exact S1|exact E].
    assert (Hb : b <= Z.of_nat (length l)).
    { rewrite <- E. change (last (a :: b :: rest) 0) with (last (b :: rest) 0).
      destruct rest as [|c rest]; [cbn; lia|]. inversion S1 as [|? ? _ S4]; subst. rewrite Forall_forall in S4.
      change (last (b :: c :: rest) 0) with (last (c :: rest) 0).
      apply S4. destruct (exists_last (l := c :: rest)) as (u & v & Huv); [discriminate|].
      rewrite Huv, last_last. apply in_app_iff. right. left. reflexivity. }
    replace a with (Z.of_nat (Z.to_nat a)) at 1 by lia. replace b with (Z.of_nat (Z.to_nat b)) at 1 by lia.
    rewrite slice_nat by lia.
    replace (Z.to_nat b) with (Z.to_nat a + (Z.to_nat b - Z.to_nat a))%nat at 2 by lia.
    rewrite <- skipn_skipn. apply firstn_skipn.
Qed.
Lemma sf_parts_concat {A} (points : list A) parts : hd_error parts = Some 0 ->
  StronglySorted Z.le (parts ++ [Z.of_nat (length points)]) ->
  concat (sf_parts points parts) = points /\ length (sf_parts points parts) = length parts.
Proof.
  intros H0 S. destruct parts as [|z parts]; [discriminate|]. injection H0 as ->.
  unfold sf_parts. cbn [app tl]. split.
  - rewrite (split_from points (parts ++ [Z.of_nat (length points)]) 0); [reflexivity|lia|exact S|].
    rewrite app_comm_cons, last_last. reflexivity.
  - rewrite map_length, combine_length. rewrite app_comm_cons, removelast_last, app_length. cbn [length]. lia.
Qed.
Lemma sf_parts_nth {A} (points : list A) parts i a b : 
  nth_error parts i = Some a -> nth_error (parts ++ [Z.of_nat (length points)]) (S i) = Some b ->
  nth_error (sf_parts points parts) i = Some (py_slice points a b).
Proof.
  intros Ha Hb. unfold sf_parts. rewrite removelast_last, nth_error_map.
  assert (C : forall (l m : list Z), nth_error l i = Some a -> nth_error m i = Some b ->
     nth_error (combine l m) i = Some (a, b)).
  { clear. induction i as [|i IH]; intros [|x l] [|y m]; cbn; try discriminate; [congruence|apply IH]. }
  rewrite (C parts (tl (parts ++ [Z.of_nat (length points)])) Ha); [reflexivity|].
  destruct parts as [|z parts]; [destruct i; discriminate|]. exact Hb.
Qed.

(** ** A witness *)
Lemma far_geometry dx dy (p : Q * Q) poly got :
  in_world p -> (exists q rest, got = q :: rest /\ fst p + 9 <= fst q)%Q ->
  (dx < 9)%Q -> ~ same_geometry dx dy [p :: poly] [got].
Proof.
  intros (W1 & W2) (q & rest & -> & Q40) D S. inversion S as [|? ? ? ? (norm & part & F & R & N) _]; subst.
  inversion N as [|? p0 ? part' (Nq & _) _]; subst.
  inversion F as [|? p1 ? norm' (_ & _ & _ & _ & Id) _]; subst. specialize (Id W1 W2). subst p1.
  assert (p0 = p) by (destruct R as [(_ & z & E)|(_ & _ & E)]; cbn in E; congruence). subst p0.
  apply Qabs_Qle_condition in Nq. lra.
Qed.
Lemma later_entities : exists w0 w1 w2 w3 file rd out,
  pf_new 1 = Ok w0 /\ pf_write 1 w0 [97] [[(-180, 0); (-180, 5)]%Q] = Some (w1, Err ZeroDivisionError) /\
  pf_write 1 w1 [98] [[(20, 20); (30, 20); (30, 30)]%Q] = Some (w2, Ok tt) /\
  pf_write 1 w2 [99] [[(50, 60); (57, 60); (57, 67); (50, 60)]%Q] = Some (w3, Ok tt) /\
  pf_close w3 = Ok file /\ pf_open 2 file = Some (Ok rd) /\ pf_get (T := Q) rd [98] = Ok out /\
  forall dx dy, (dx < 9)%Q -> ~ same_geometry dx dy [[(20, 20); (30, 20); (30, 30)]%Q] out.
Proof.
  do 7 eexists. split; [vm_compute; reflexivity|]. split; [vm_compute; reflexivity|].
  split; [vm_compute; reflexivity|]. split; [vm_compute; reflexivity|]. split; [vm_compute; reflexivity|].
  split; [vm_compute; reflexivity|]. split; [vm_compute; reflexivity|].
  intros dx dy D. apply far_geometry; [|do 2 eexists; split; [reflexivity|]|exact D].
  - repeat split; discriminate.
  - cbn [fst]. intros X. vm_compute in X. discriminate.
Qed.
