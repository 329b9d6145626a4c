(** Proofs about shapefile.Editor: items that cannot be saved. *)
From Verif Require Import Py ShpFile ShpWriterModel ShpReaderModel ShpSpec ShpPrograms ShpTablePrograms ShpWriterProofs ShpSave ShpSuccess ShpEditorModel ShpEditorSpec ShpEditor ShpEditPoint.
Open Scope Z_scope.
Open Scope m_scope.

Section Fold.
  Variable pick : option dbl -> option dbl -> bool -> option dbl.
  Variable lt : option dbl -> option dbl -> res bool.
  Hypothesis lt_none : forall a b c, lt a b = Ok c -> a <> None /\ b <> None.
  Hypothesis pick_ok : forall a b c, pick a b c = a \/ pick a b c = b.
  Lemma fold_none r : forall a v, foldM (fun a b => c <- lt a b ;; Ok (pick a b c))%res r a = Ok v ->
    (r = [] /\ v = a) \/ (a <> None /\ Forall (fun x => x <> None) r /\ v <> None).
  Proof.
    induction r as [|b r IH]; intros a v H; [left; injection H as <-; split; reflexivity|]. right. cbn [foldM] in H.
    destruct (lt a b) as [c|] eqn:L; [|discriminate]. cbn [bind] in H. destruct (lt_none a b c L) as [NA NB].
    destruct (IH _ _ H) as [[-> ->]|[N1 [N2 N3]]].
    - split; [exact NA|]. split; [constructor; [exact NB|constructor]|]. destruct (pick_ok a b c) as [-> | ->]; assumption.
    - split; [exact NA|]. split; [constructor; assumption|exact N3].
  Qed.
End Fold.
Lemma opt_lt_none a b c : opt_lt a b = Ok c -> a <> None /\ b <> None.
Proof. destruct a, b; try discriminate. intros _. split; discriminate. Qed.
Lemma opt_min_none l v : opt_min l = Ok v -> In None l -> l = [None] /\ v = None.
Proof.
  destruct l as [|x r]; [discriminate|]. cbn [opt_min]. intros H I.
  destruct (fold_none (fun a b c => if c : bool then b else a) (fun a b => opt_lt b a)) with (r := r) (a := x) (v := v) as [[-> ->]|[N1 [N2 _]]]; [| |exact H| |].
  - intros a b c L. destruct (opt_lt_none _ _ _ L). split; assumption.
  - intros a b []; [right|left]; reflexivity.
  - destruct I as [->|[]]. split; reflexivity.
  - exfalso. destruct I as [->|I]; [contradiction|]. rewrite Forall_forall in N2. exact (N2 None I eq_refl).
Qed.
Lemma opt_min_err r x : In None (x :: r) -> r <> [] -> opt_min (x :: r) = Err TypeError.
Proof.
  intros I N. destruct (opt_min (x :: r)) as [v|e] eqn:E.
  - destruct (opt_min_none _ _ E I) as [K _]. injection K as _ K. contradiction.
  - cbn [opt_min] in E. clear I N. revert x e E. induction r as [|b r IH]; intros x e E; [discriminate|]. cbn [foldM] in E.
    destruct x as [x|], b as [b|]; cbn [opt_lt bind] in E; try (injection E as <-; reflexivity). apply (IH _ _ E).
Qed.

(** The points of the items *)
Lemma points_err l v : In (EList v) l -> mapM elem_points l = Err AttributeError.
Proof.
  induction l as [|x l IH]; intros H; [destruct H|]. cbn [mapM]. destruct (elem_points x) as [p|e] eqn:E.
  - destruct H as [->|H]; [discriminate|]. cbn [bind]. rewrite (IH H). reflexivity.
  - destruct x; try discriminate. injection E as <-. reflexivity.
Qed.
Lemma points_in l ps t x y z m k v : mapM elem_points l = Ok ps -> In (EPoint t x y z m) l -> nth_error [Some x; Some y; z; m] k = Some v -> In v (flat_map (opt_coords k) ps).
Proof.
  revert ps. induction l as [|a l IH]; intros ps H I N; [destruct I|]. cbn [mapM] in H. destruct (elem_points a) as [p|] eqn:E; [|discriminate]. cbn [bind] in H.
  destruct (mapM elem_points l) as [qs|]; [|discriminate]. injection H as <-. cbn [flat_map]. apply in_or_app. destruct I as [->|I].
  - left. injection E as <-. cbn [opt_coords]. rewrite N. left. reflexivity.
  - right. exact (IH qs eq_refl I N).
Qed.
Lemma not_plain l : plain l = None -> exists x, In x l /\ ((exists v, x = EList v) \/ exists t a b z m, x = EPoint t a b z m /\ (z = None \/ m = None)).
Proof.
  induction l as [|x l IH]; [discriminate|]. cbn [plain]. intros H.
  assert (R : plain l = None -> exists y, In y (x :: l) /\ ((exists v, y = EList v) \/ exists t a b z m, y = EPoint t a b z m /\ (z = None \/ m = None))).
  { intros N. destruct (IH N) as [y [I P]]. exists y. split; [right; exact I|exact P]. }
  destruct x as [s|t a b z m|v].
  - destruct (plain l); [discriminate|exact (R eq_refl)].
  - assert (D : z = None \/ m = None -> exists y, In y (EPoint t a b z m :: l) /\ ((exists v, y = EList v) \/ exists t a b z m, y = EPoint t a b z m /\ (z = None \/ m = None))).
    { intros D. exists (EPoint t a b z m). split; [left; reflexivity|]. right. exists t, a, b, z, m. split; [reflexivity|exact D]. }
    destruct z as [z|]; [|apply D; left; reflexivity]. destruct m as [m|]; [|apply D; right; reflexivity].
    destruct (plain l); [discriminate|exact (R eq_refl)].
  - exists (EList v). split; [left; reflexivity|]. left. eexists. reflexivity.
Qed.
Lemma header_never t l shx f f' : plain l = None -> items_header t l shx f = (f', Ok tt) -> False.
Proof.
  intros N H. unfold items_header in H.
  destruct (mbind_ok _ _ _ _ _ H) as [f1 [? [_ H1]]]. destruct (mbind_ok _ _ _ _ _ H1) as [f2 [? [_ H2]]].
  destruct (mbind_ok _ _ _ _ _ H2) as [f3 [? [_ H3]]]. destruct (mbind_ok _ _ _ _ _ H3) as [f4 [? [_ H4]]].
  destruct (mbind_ok _ _ _ _ _ H4) as [f5 [? [_ H5]]]. destruct (mbind_ok _ _ _ _ _ H5) as [f6 [z [HZ H6]]].
  destruct (mbind_ok _ _ _ _ _ H6) as [f7 [m [HM H7]]]. clear H H1 H2 H3 H4 H5 H6.
  apply pair_inv in HZ as [_ HZ]. apply pair_inv in HM as [_ HM].
  destruct (not_plain l N) as [it [I [[v ->]|[ty [a [b [vz [vm [-> D]]]]]]]]].
  - unfold items_zbox in HZ. rewrite (points_err l v I) in HZ. discriminate.
  - unfold items_zbox in HZ. unfold items_mbox in HM. destruct (mapM elem_points l) as [ps|] eqn:PS; [|discriminate]. cbn [bind] in HZ, HM.
    destruct D as [-> | ->].
    + pose proof (points_in l ps ty a b None vm 2 None PS I eq_refl) as IN.
      assert (NZ : (match flat_map (opt_coords 2) ps with [] => [Some dbl_zero] | _ => flat_map (opt_coords 2) ps end) = flat_map (opt_coords 2) ps).
      { destruct (flat_map (opt_coords 2) ps); [destruct IN|reflexivity]. }
      rewrite NZ in HZ. destruct (opt_min (flat_map (opt_coords 2) ps)) as [lo|] eqn:LO; [|discriminate]. cbn [bind] in HZ.
      destruct (opt_min_none _ _ LO IN) as [_ ->]. destruct (opt_max (flat_map (opt_coords 2) ps)) as [hi|]; [|discriminate]. injection HZ as <-.
      unfold f_put, mbind, lift, pack_opts in H7. cbn in H7. discriminate.
    + pose proof (points_in l ps ty a b vz None 3 None PS I eq_refl) as IN.
      rewrite opt_min_err in HM; [discriminate|right; exact IN|]. intros E. rewrite E in IN. destruct IN.
Qed.
Lemma zoom_snd {S T A} g p (m : M T A) (s : S) : snd (zoom g p m s) = snd (m (g s)).
Proof. unfold zoom. destruct (m (g s)). reflexivity. Qed.
Lemma unit_res (r : res unit) : r = Ok tt \/ exists x, r = Err x.
Proof. destruct r as [[]|x]; [left; reflexivity|right; eexists; reflexivity]. Qed.
Lemma save_never e target : plain (e_items e) = None -> (exists x, snd (e_saveShp target e) = Err x) /\ (exists x, snd (e_saveShx target e) = Err x).
Proof.
  intros N. split.
  - destruct (unit_res (snd (e_saveShp target e))) as [E|E]; [|exact E]. exfalso.
    unfold e_saveShp, mbind at 1, get in E. rewrite N in E.
    destruct ((items_type ;;; _) e) as [e' r] eqn:R in E. cbn [snd] in E. subst r.
    destruct (mbind_ok _ _ _ _ _ R) as [e1 [? [T R1]]].
    assert (I1 : e_items e1 = e_items e).
    { unfold items_type, mbind, get, lift, modify in T. destruct (w_type (e_w e)) as [[|p|p]|]; try (injection T as <- _; reflexivity);
        destruct (py_get (e_items e) 0) as [v|]; try discriminate; destruct (elem_type v); try discriminate; injection T as <- _; reflexivity. }
    unfold mbind, modify in R1. pose proof (f_equal snd R1) as R2. cbn [snd] in R2. rewrite zoom_snd in R2. unfold on_shp in R2. rewrite zoom_snd in R2.
    match type of R2 with snd (items_header ?t ?l ?s ?f) = _ => destruct (items_header t l s f) as [f' r] eqn:H; cbn [snd] in R2; subst r; apply (header_never t l s f f'); [|exact H] end.
    cbn [e_items e_set_w]. rewrite I1. exact N.
  - destruct (unit_res (snd (e_saveShx target e))) as [E|E]; [|exact E]. exfalso.
    unfold e_saveShx, mbind at 1, get in E. rewrite N in E.
    destruct ((items_type ;;; _) e) as [e' r] eqn:R in E. cbn [snd] in E. subst r.
    destruct (mbind_ok _ _ _ _ _ R) as [e1 [? [T R1]]].
    assert (I1 : e_items e1 = e_items e).
    { unfold items_type, mbind, get, lift, modify in T. destruct (w_type (e_w e)) as [[|p|p]|]; try (injection T as <- _; reflexivity);
        destruct (py_get (e_items e) 0) as [v|]; try discriminate; destruct (elem_type v); try discriminate; injection T as <- _; reflexivity. }
    unfold mbind, modify in R1. pose proof (f_equal snd R1) as R2. cbn [snd] in R2. rewrite zoom_snd in R2. unfold on_shx in R2. rewrite zoom_snd in R2.
    match type of R2 with snd (items_header ?t ?l ?s ?f) = _ => destruct (items_header t l s f) as [f' r] eqn:H; cbn [snd] in R2; subst r; apply (header_never t l s f f'); [|exact H] end.
    cbn [e_items e_set_w]. rewrite I1. exact N.
Qed.

(** ** A layer of points added by point() *)
Lemma bind_snd {S A B} (m : M S A) (k : A -> M S B) s s1 a : m s = (s1, Ok a) -> snd (mbind m k s) = snd (k a s1).
Proof. intros H. unfold mbind. rewrite H. reflexivity. Qed.
Lemma put_some r bs f : r = Ok bs -> exists f', f_put r f = (f', Ok tt).
Proof. intros ->. eexists. reflexivity. Qed.
Definition one_size (t : Z) : Z := if t =? 1 then 28 else if t =? 11 then 44 else 36.
Lemma sizes_points t l : t = 1 \/ t = 11 \/ t = 21 -> Forall added_point l -> forall n np nq, exists nq', foldM (elem_size (Some t)) l (n, np, nq) = Ok (n + one_size t * Z.of_nat (length l), np, nq').
Proof.
  intros T F. induction F as [|x l A F IH]; intros n np nq.
  - cbn. rewrite Z.mul_0_r, Z.add_0_r. eexists. reflexivity.
  - cbn [foldM]. assert (E : elem_size (Some t) (n, np, nq) x = Ok (n + one_size t, np, Some 1)).
    { destruct x as [|ty a b z m|]; try contradiction. destruct T as [-> | [-> | ->]]; cbn; do 3 f_equal; lia. }
    rewrite E. cbn [bind]. destruct (IH (n + one_size t) np (Some 1)) as [q E2]. exists q. rewrite E2. cbn [length]. do 3 f_equal. lia.
Qed.
Lemma opt_min_some l : opt_min (map Some l) = rmap Some (dbl_min l).
Proof.
  destruct l as [|x l]; [reflexivity|]. cbn [map opt_min dbl_min rmap]. revert x. induction l as [|b l IH]; intros x; [reflexivity|].
  cbn [map foldM opt_lt bind fold_left]. destruct (dbl_lt b x); rewrite IH; reflexivity.
Qed.
Lemma opt_max_some l : opt_max (map Some l) = rmap Some (dbl_max l).
Proof.
  destruct l as [|x l]; [reflexivity|]. cbn [map opt_max dbl_max rmap]. revert x. induction l as [|b l IH]; intros x; [reflexivity|].
  cbn [map foldM opt_lt bind fold_left]. destruct (dbl_lt x b); rewrite IH; reflexivity.
Qed.
Definition ex (x : elem) : dbl := match x with EPoint _ a _ _ _ => a | _ => 0 end.
Definition ey (x : elem) : dbl := match x with EPoint _ _ b _ _ => b | _ => 0 end.
Definition ez (x : elem) : option dbl := match x with EPoint _ _ _ z _ => z | _ => None end.
Definition em (x : elem) : option dbl := match x with EPoint _ _ _ _ m => m | _ => None end.
Lemma box_points l : Forall added_point l -> l <> [] -> exists b, items_box l = Ok (map Some b).
Proof.
  intros F N. assert (C : mapM (fun x => p <- elem_points x ;; elem_columns p)%res l = Ok (map (fun x => ([Some (ex x)], [Some (ey x)])) l)).
  { induction F as [|x l A F IH]; [reflexivity|]. cbn [mapM map]. destruct x as [|ty a b z m|]; try contradiction. cbn [elem_points bind elem_columns].
    change (forallb _ [[Some a; Some b; z; m]]) with true. cbn [bind map nth ex ey]. destruct l; [reflexivity|]. rewrite IH by discriminate. reflexivity. }
  unfold items_box. rewrite C. cbn [bind].
  assert (FX : flat_map fst (map (fun x => ([Some (ex x)], [Some (ey x)])) l) = map Some (map ex l)).
  { clear. induction l as [|x l IH]; [reflexivity|]. cbn. rewrite IH. reflexivity. }
  assert (FY : flat_map snd (map (fun x => ([Some (ex x)], [Some (ey x)])) l) = map Some (map ey l)).
  { clear. induction l as [|x l IH]; [reflexivity|]. cbn. rewrite IH. reflexivity. }
  rewrite FX, FY, !opt_min_some, !opt_max_some.
  destruct (dbl_min_ok (map ex l)) as [x0 E0]; [destruct l; [contradiction|discriminate]|]. destruct (dbl_min_ok (map ey l)) as [y0 E1]; [destruct l; [contradiction|discriminate]|].
  destruct (dbl_max_ok (map ex l)) as [x1 E2]; [destruct l; [contradiction|discriminate]|]. destruct (dbl_max_ok (map ey l)) as [y1 E3]; [destruct l; [contradiction|discriminate]|].
  rewrite E0, E1, E2, E3. exists [x0; y0; x1; y1]. reflexivity.
Qed.
Lemma points_points l : Forall added_point l -> mapM elem_points l = Ok (map (fun x => [[Some (ex x); Some (ey x); ez x; em x]]) l).
Proof. intros F. induction F as [|x l A F IH]; [reflexivity|]. cbn [mapM map]. destruct x as [|ty a b z m|]; try contradiction. cbn [elem_points bind]. rewrite IH. reflexivity. Qed.
Lemma flat_coord k g l : (forall x : elem, nth_error [Some (ex x); Some (ey x); ez x; em x] k = Some (g x)) ->
  flat_map (opt_coords k) (map (fun x => [[Some (ex x); Some (ey x); ez x; em x]]) l) = map g l.
Proof. intros H. induction l as [|x l IH]; [reflexivity|]. cbn [map flat_map]. rewrite IH. cbn [opt_coords]. rewrite H. reflexivity. Qed.
Lemma pack_opts_some b : exists bs, pack_opts (map Some b) = Ok bs.
Proof. exists (pack_ds b). unfold pack_opts. replace (mapM _ (map Some b)) with (@Ok (list dbl) b); [reflexivity|]. induction b as [|x b IH]; [reflexivity|]. cbn [map mapM bind]. rewrite <- IH. reflexivity. Qed.
Lemma missing_cases l : Forall added_point l -> Exists missing_z l \/ Exists missing_m l -> In None (map ez l) \/ In None (map em l).
Proof.
  intros F [H|H]; [left|right]; apply Exists_exists in H as [x [I M]]; apply in_map_iff; exists x; (split; [|exact I]); destruct x as [|ty a b [|] [|]|]; cbn in *; try contradiction; reflexivity.
Qed.
Lemma points_save_err e target t : w_type (e_w e) = Some t -> t = 1 \/ t = 11 \/ t = 21 -> Forall added_point (e_items e) ->
  Z.of_nat (length (e_items e)) < 16777216 -> Exists missing_z (e_items e) \/ Exists missing_m (e_items e) ->
  snd (e_saveShp target e) = Err (match e_items e with [EPoint _ _ _ None (Some _)] => ShapefileException | _ => TypeError end).
Proof.
  intros T G F L M. assert (NP : plain (e_items e) = None).
  { destruct (missing_cases _ F M) as [I|I]; apply in_map_iff in I as [x [E I]]; apply in_split in I as [p [q EI]]; rewrite EI in F |- *; rewrite plain_app;
      (destruct (plain p); [|reflexivity]); apply Forall_app in F as [_ F]; inversion F; subst; (destruct x as [|ty a b [|] [|]|]; try contradiction; cbn in E; try discriminate; reflexivity). }
  assert (NE : e_items e <> []) by (intros E; rewrite E in NP; discriminate).
  unfold e_saveShp, mbind at 1, get. rewrite NP.
  assert (IT : items_type e = (e, Ok tt)).
  { unfold items_type, mbind, get. rewrite T. destruct G as [-> | [-> | ->]]; reflexivity. }
  rewrite (bind_snd _ _ _ _ _ IT). unfold mbind at 1, modify. unfold mbind at 1. cbn [e_items e_set_w e_w]. rewrite zoom_snd. unfold on_shp. rewrite zoom_snd.
  cbn [e_w e_set_w]. replace (w_type (w_set_shp target (e_w e))) with (Some t) by (symmetry; exact T). change (w_shp (w_set_shp target (e_w e))) with target.
  set (l := e_items e) in *. unfold items_header.
  erewrite bind_snd by reflexivity. destruct (put_some (pack_many pack_bi [9994; 0; 0; 0; 0; 0]) _ (mkFile (fdata target) 0) eq_refl) as [f1 P1].
  erewrite bind_snd by exact P1. destruct (sizes_points t l G F 100 None None) as [q SZ].
  assert (OS : 0 <= one_size t <= 44) by (destruct G as [-> | [-> | ->]]; cbv; split; discriminate).
  assert (B : i32 ((100 + one_size t * Z.of_nat (length l)) / 2)).
  { unfold i32. split; [|apply Z.div_lt_upper_bound; nia]. pose proof (Z.div_pos (100 + one_size t * Z.of_nat (length l)) 2). nia. }
  destruct (put_some (pack_bi ((100 + one_size t * Z.of_nat (length l)) / 2)) _ f1 (pack_bi_32 _ B)) as [f2 P2].
  assert (S2 : (st <~ lift (foldM (elem_size (Some t)) l (100, None, None)) ;; f_put (pack_bi (fst (fst st) / 2))) f1 = (f2, Ok tt)).
  { unfold mbind, lift. rewrite SZ. exact P2. }
  erewrite bind_snd by exact S2.
  assert (TB : exists bs, pack_many pack_li_opt [Some 1000; Some t] = Ok bs) by (destruct G as [-> | [-> | ->]]; eexists; reflexivity).
  destruct TB as [bs TB]. destruct (put_some _ _ f2 TB) as [f3 P3]. erewrite bind_snd by exact P3.
  destruct (box_points l F NE) as [b BX]. destruct (pack_opts_some b) as [bb PB]. destruct (put_some _ _ f3 PB) as [f4 P4].
  assert (S4 : (if type_is (Some t) 0 then f_write (pack_ds [dbl_zero; dbl_zero; dbl_zero; dbl_zero]) else b <~ lift (items_box l) ;; f_put (pack_opts b)) f3 = (f4, Ok tt)).
  { replace (type_is (Some t) 0) with false by (destruct G as [-> | [-> | ->]]; reflexivity). unfold mbind, lift. rewrite BX. exact P4. }
  erewrite bind_snd by exact S4.
  assert (ZB : items_zbox l = (a <- opt_min (map ez l) ;; b <- opt_max (map ez l) ;; Ok [a; b])%res).
  { unfold items_zbox. rewrite (points_points l F). cbn [bind]. rewrite (flat_coord 2 ez) by reflexivity. destruct l; [contradiction|reflexivity]. }
  assert (MB : items_mbox l = (a <- opt_min (Some dbl_zero :: map em l) ;; b <- opt_max (Some dbl_zero :: map em l) ;; Ok [a; b])%res).
  { unfold items_mbox. rewrite (points_points l F). cbn [bind]. rewrite (flat_coord 3 em) by reflexivity. reflexivity. }
  unfold mbind at 1, lift. rewrite ZB.
  assert (ONE : (exists x, l = [x]) \/ (2 <= length l)%nat).
  { destruct l as [|x [|y r]]; [contradiction|left; eexists; reflexivity|right; cbn; lia]. }
  assert (EM : In None (map em l) -> items_mbox l = Err TypeError).
  { intros I. rewrite MB, opt_min_err; [reflexivity|right; exact I|]. intros E. rewrite E in I. destruct I. }
  assert (ZOK : (exists a b, opt_min (map ez l) = Ok a /\ opt_max (map ez l) = Ok b) \/ opt_min (map ez l) = Err TypeError).
  { destruct (in_dec (fun a b : option dbl => ltac:(decide equality; apply Z.eq_dec)) None (map ez l)) as [I|NI].
    - destruct ONE as [[x ->]|TWO].
      + left. exists (ez x), (ez x). split; reflexivity.
      + right. destruct l as [|x [|y r]]; try (cbn in TWO; lia). cbn [map] in I |- *. apply opt_min_err; [exact I|discriminate].
    - assert (S : exists zs, map ez l = map Some zs).
      { clear -NI. induction l as [|x l IH]; [exists []; reflexivity|]. destruct IH as [zs E]; [intros K; apply NI; right; exact K|].
        destruct (ez x) as [z|] eqn:EZ; [|exfalso; apply NI; left; exact EZ]. exists (z :: zs). cbn [map]. rewrite EZ, E. reflexivity. }
      destruct S as [zs ES]. left. rewrite ES, opt_min_some, opt_max_some.
      assert (zs <> []) by (intros ->; destruct l; [contradiction|discriminate]).
      destruct (dbl_min_ok zs H) as [a EA]. destruct (dbl_max_ok zs H) as [c EC]. rewrite EA, EC. eexists _, _. split; reflexivity. }
  destruct ZOK as [[a [c [EA EC]]]|EZ].
  - rewrite EA, EC. cbn [bind]. unfold mbind at 1.
    destruct (in_dec (fun a b : option dbl => ltac:(decide equality; apply Z.eq_dec)) None (map em l)) as [I|NI].
    + rewrite (EM I). cbn [snd]. destruct l as [|[|ty x y [z|] [m|]|] [|]]; try reflexivity. exfalso. destruct I as [I|[]]. discriminate.
    + destruct (missing_cases l F M) as [I|I]; [|contradiction].
      destruct (opt_min_none _ _ EA I) as [E1 ->].
      destruct l as [|x [|y r]]; try discriminate. injection E1 as E1. destruct x as [|ty xx yy zz mm|]; try (inversion F; contradiction). cbn [ez] in E1. subst zz.
      destruct mm as [m|]; [|exfalso; apply NI; left; reflexivity]. rewrite MB. cbn [map em]. rewrite (opt_min_some [dbl_zero; m] : opt_min [Some dbl_zero; Some m] = _), (opt_max_some [dbl_zero; m] : opt_max [Some dbl_zero; Some m] = _).
      cbn [dbl_min dbl_max rmap bind]. reflexivity.
  - rewrite EZ. cbn [bind snd]. destruct ONE as [[x E]|TWO].
    + exfalso. rewrite E in EZ. discriminate.
    + destruct l as [|x [|y r]]; try (cbn in TWO; lia). destruct x as [|ty xx yy [|] [|]|]; reflexivity.
Qed.
(** What a failed save leaves *)
Lemma save_type e target : plain (e_items e) = None ->
  let t := match w_type (e_w e) with None | Some 0 => first_type (e_items e) (w_type (e_w e)) | u => u end in
  (let e1 := fst (e_saveShp target e) in e_items e1 = e_items e /\ w_type (e_w e1) = t /\ w_records (e_w e1) = w_records (e_w e) /\ w_fields (e_w e1) = w_fields (e_w e)) /\
  (let e1 := fst (e_saveShx target e) in e_items e1 = e_items e /\ w_type (e_w e1) = t /\ w_records (e_w e1) = w_records (e_w e) /\ w_fields (e_w e1) = w_fields (e_w e)).
Proof.
  intros N t. assert (T : exists r, items_type e = (e_set_w (w_set_type t (e_w e)) e, r)).
  { unfold items_type, mbind, get, lift, modify, t. destruct e as [au it w]. destruct w as [wt ws wf wr wo wl a b c d]. cbn [e_w e_items w_type] in *.
    destruct it as [|v it]; [discriminate|]. destruct wt as [[|p|p]|]; try (eexists; reflexivity);
    change (py_get (v :: it) 0) with (@Ok elem v); destruct v; eexists; reflexivity. }
  destruct T as [r T]. assert (W : forall e1, (exists f g, e1 = e_set_w (w_set_shx g (w_set_shp f (w_set_type t (e_w e)))) e) ->
    e_items e1 = e_items e /\ w_type (e_w e1) = t /\ w_records (e_w e1) = w_records (e_w e) /\ w_fields (e_w e1) = w_fields (e_w e)).
  { intros e1 [f [g ->]]. destruct e as [au it w]; destruct w; repeat split. }
  cbv zeta. split; apply W; clear W.
  - unfold e_saveShp, mbind at 1, get at 1. rewrite N. unfold mbind at 1. rewrite T. destruct r as [u|x]; [|exists (w_shp (e_w e)), (w_shx (e_w e)); destruct e as [au it w]; destruct w; reflexivity].
    unfold mbind, modify, get, zoom, on_shp, zoom. cbn [fst snd]. match goal with |- context [items_header ?a ?b ?c ?f] => destruct (items_header a b c f) as [f' r'] end.
    exists f', (w_shx (e_w e)). destruct e as [au it w]; destruct w; reflexivity.
  - unfold e_saveShx, mbind at 1, get at 1. rewrite N. unfold mbind at 1. rewrite T. destruct r as [u|x]; [|exists (w_shp (e_w e)), (w_shx (e_w e)); destruct e as [au it w]; destruct w; reflexivity].
    unfold mbind, modify, get, zoom, on_shx, zoom. cbn [fst snd]. match goal with |- context [items_header ?a ?b ?c ?f] => destruct (items_header a b c f) as [f' r'] end.
    exists (w_shp (e_w e)), f'. destruct e as [au it w]; destruct w; reflexivity.
Qed.
