(** A saved drawing paints what was asked for. *)
From Verif Require Import Num BBoxModel StrModel Text VectorModel PsSpec PsProofs VectorSpec PsText PsImage PsHead.
Open Scope Z_scope.

Section VP.
  Context {T : Type} `{PyNum T}.
  Variable metric : list Z -> T -> list Z -> T * T.
  Variable advance : list Z -> T -> list Z -> T * T.
  Hypothesis X : exact_eq T.
  Notation runs := (runs metric advance).
  Notation line := (list (ch T)) (only parsing).

  Lemma neq_true (a b : T) : neq a b = true -> a = b.
  Proof. apply X. Qed.
  Lemma neq_refl (a : T) : neq a a = true.
  Proof. apply X. reflexivity. Qed.
  Lemma nums_eqb_eq (a b : list T) : nums_eqb a b = true <-> a = b.
  Proof.
    revert b. induction a as [|x a IH]; intros [|y b]; cbn [nums_eqb]; try (split; [discriminate|discriminate]); [split; reflexivity|].
    rewrite andb_true_iff, IH. split.
    - intros [Q ->]. apply neq_true in Q. subst. reflexivity.
    - intros Q. injection Q as <- <-. split; [apply neq_refl|reflexivity].
  Qed.

  (** The whole run takes place with fixed definitions, coordinates and
      conditions I (inks) and P (paths). *)
  Variables (D : list (list Z * list (token T))) (deps : list (list Z)).
  Hypothesis E : env D deps.
  Variable ctm0 : (T * T) * (T * T).
  Variables (I P : Prop) (fam : bool).

  Definition in_fam (i : ink T) : Prop := if fam then exists v, i = IGray v else exists r g b, i = ITuple [r; g; b].
  Definition ink_inv (s : cstate T) (g : gstate T) : Prop :=
    if fam then rgb (g_ink g) = (cs_gray s, cs_gray s, cs_gray s)
    else exists r gr b, cs_color s = [r; gr; b] /\ rgb (g_ink g) = (r, gr, b).
  Definition same_but_ink (g g' : gstate T) : Prop := g' = set_ink g (g_ink g').
  Definition same_rest (s s' : cstate T) : Prop := cs_width s' = cs_width s /\ cs_dash s' = cs_dash s.
  (** What calls leave alone *)
  Definition same_canvas (c c' : canvas T) : Prop := cv_bg c' = cv_bg c /\ cv_bbox c' = cv_bbox c /\ cv_deps c' = cv_deps c.

  Lemma same_ink_refl g : same_but_ink g g.
  Proof. unfold same_but_ink. destruct g; reflexivity. Qed.
  Lemma same_ink_set g i : same_but_ink g (set_ink g i).
  Proof. unfold same_but_ink. destruct g; reflexivity. Qed.

  (** g1 is where the cached ink c describes; g the actual state: they agree
      unless a fill in between was undone. *)
  Definition ink_cached (s : cstate T) (i : ink T) : Prop :=
    match i with IGray v => cs_gray s = v | ITuple l => cs_color s = l | IOther => False end.
  Lemma setink_step c i c' : setink c i = (c', Ok tt) ->
    exists ls k, cv_lines c' = cv_lines c ++ ls /\ same_canvas c c' /\ same_rest (cv_state c) (cv_state c') /\ ink_of i = Some k /\
      (in_fam i -> ink_cached (cv_state c') i) /\
      forall stk g sv ev, exists g', runs ls (mkps stk D g sv ev None) (mkps stk D g' sv ev None) /\ same_but_ink g g' /\
        (in_fam i -> ink_inv (cv_state c) g \/ ~ ink_cached (cv_state c) i -> ink_inv (cv_state c') g' /\ rgb (g_ink g') = rgb k).
  Proof.
    intros Q. destruct i as [v|l|]; cbn [setink] in Q.
    - injection Q as <-. unfold setgray. destruct (neq (cs_gray (cv_state c)) v) eqn:F.
      + apply neq_true in F. exists [], (PGray v). rewrite app_nil_r. split; [reflexivity|]. split; [repeat split|]. split; [split; reflexivity|]. split; [reflexivity|].
        split; [intros _; exact F|]. intros stk g sv ev. exists g. split; [apply runs_nil|]. split; [apply same_ink_refl|]. intros Fm [IV|NC]; [|destruct (NC F)].
        split; [exact IV|]. unfold ink_inv in IV. unfold in_fam in Fm. destruct fam; [rewrite IV, F; reflexivity|]. destruct Fm as (? & ? & ? & ?). discriminate.
      + exists [[N v] ++ tx " v"], (PGray v). split; [reflexivity|]. split; [repeat split|]. split; [split; reflexivity|]. split; [reflexivity|]. split; [intros _; reflexivity|].
        intros stk g sv ev. eexists. split; [eapply run_v; exact E|]. split; [apply same_ink_set|]. intros Fm _. split; [|reflexivity].
        unfold ink_inv, in_fam in *. destruct fam; [reflexivity|]. destruct Fm as (? & ? & ? & ?). discriminate.
    - destruct l as [|r [|gr [|b [|]]]]; try discriminate. injection Q as <-. unfold setcolor. destruct (nums_eqb (cs_color (cv_state c)) [r; gr; b]) eqn:F.
      + apply nums_eqb_eq in F. exists [], (PRGB r gr b). rewrite app_nil_r. split; [reflexivity|]. split; [repeat split|]. split; [split; reflexivity|]. split; [reflexivity|].
        split; [intros _; exact F|]. intros stk g sv ev. exists g. split; [apply runs_nil|]. split; [apply same_ink_refl|]. intros Fm [IV|NC]; [|destruct (NC F)].
        split; [exact IV|]. unfold ink_inv in IV. unfold in_fam in Fm. destruct fam; [destruct Fm; discriminate|]. destruct IV as (? & ? & ? & Q & ->). rewrite F in Q. injection Q as <- <- <-. reflexivity.
      + eexists [_], (PRGB r gr b). split; [reflexivity|]. split; [repeat split|]. split; [split; reflexivity|]. split; [reflexivity|]. split; [intros _; reflexivity|].
        intros stk g sv ev. eexists. split; [eapply run_rgb; exact E|]. split; [apply same_ink_set|]. intros Fm _. split; [|reflexivity].
        unfold ink_inv, in_fam in *. destruct fam; [destruct Fm; discriminate|]. exists r, gr, b. split; reflexivity.
    - discriminate.
  Qed.

  (** ** Events and orders *)
  Definition text_ok (e : event T) (w : what T) : Prop :=
    match w with WText p s f z a => exists l, e_path e = l ++ [PMove (text_pos metric p s z f a)] | _ => True end.
  Definition rel (e : event T) (o : order T) : Prop :=
    kind_of e (o_what o) /\ e_width e = o_width o /\ e_dash e = o_dash o /\ placed ctm0 e (o_what o) /\ text_ok e (o_what o) /\
    (I -> rgb (e_ink e) = rgb (o_ink o)) /\ (P -> path_of e (o_what o)).
  (** The interpreter is where the requests q say. *)
  Definition agree (q : want T) (g : gstate T) : Prop := g_width g = q_width q /\ g_dash g = q_dash q /\ g_ctm g = ctm0.
  Definition in_sync (c : canvas T) (q : want T) (g : gstate T) : Prop := ink_inv (cv_state c) g /\ rgb (g_ink g) = rgb (q_ink q).

  Definition opt_fam (i : option (ink T)) : Prop := match i with Some i => in_fam i | None => True end.
  Definition unpainted (f s : option (ink T)) : bool := match f, s with None, None => true | _, _ => false end.
  Lemma want_width (q : want T) i : q_width (want_ink q i) = q_width q.
  Proof. unfold want_ink. destruct i as [i|]; [|reflexivity]. destruct (ink_of i); reflexivity. Qed.
  Lemma want_dash (q : want T) i : q_dash (want_ink q i) = q_dash q.
  Proof. unfold want_ink. destruct i as [i|]; [|reflexivity]. destruct (ink_of i); reflexivity. Qed.
  Lemma agree_ink q g g' : agree q g -> same_but_ink g g' -> agree q g'.
  Proof. unfold agree, same_but_ink. intros A ->. exact A. Qed.
  Lemma agree_want q i g : agree q g -> agree (want_ink q i) g.
  Proof. unfold agree. rewrite want_width, want_dash. auto. Qed.
  Lemma agree_newpath q g : agree q g -> agree q (newpath g).
  Proof. auto. Qed.

  Lemma rel_shape (k : kind T) q i g path (w := match k with EFill => WFill path | _ => WStroke path end) : (k = EFill \/ k = EStroke) ->
    agree q g -> (I -> rgb (g_ink g) = rgb (q_ink (want_ink q i))) -> (P -> g_path g = path) -> rel (ev_of k g) (order_of (want_ink q i) w).
  Proof.
    intros K (A1 & A2 & A3) Hi Hp. unfold rel, order_of. cbn [o_what o_width o_dash o_ink]. rewrite want_width, want_dash.
    destruct K as [-> | ->]; subst w; cbn [kind_of placed text_ok path_of ev_of e_kind e_width e_dash e_ctm e_path e_ink]; auto 10.
  Qed.

  Lemma paint_step c f s c' : paint c f s = (c', Ok tt) ->
    exists ls, cv_lines c' = cv_lines c ++ ls /\ same_canvas c c' /\ same_rest (cv_state c) (cv_state c') /\
      forall q path stk g sv ev, agree q g -> (P -> g_path g = path) ->
        (I -> in_sync c q g /\ opt_fam f /\ opt_fam s /\ (forall a b, f = Some a -> s = Some b -> a <> b)) ->
        exists g' evs, runs ls (mkps stk D g sv ev None) (mkps stk D g' sv (ev ++ evs) None) /\
          Forall2 rel evs (shape q path f s) /\ agree q g' /\
          (I -> in_sync c' (want_ink (want_ink q f) s) g') /\
          (if unpainted f s then g' = g else g_path g' = [] /\ g_point g' = None).
  Proof.
    unfold paint. intros Q. destruct f as [f|], s as [s|].
    - (* filled and stroked *)
      set (c1 := emit c (tx "gs")) in Q. destruct (setink c1 f) as [c2 [[]|e]] eqn:S1; [|discriminate]. cbv iota beta in Q.
      destruct (setink (emit (emit c2 (tx "f")) (tx "gr")) s) as [c3 [[]|e]] eqn:S2; [|discriminate]. injection Q as <-.
      destruct (setink_step _ _ _ S1) as (l1 & k1 & L1 & C1 & R1 & K1 & Ca1 & X1). destruct (setink_step _ _ _ S2) as (l2 & k2 & L2 & C2 & R2 & K2 & Ca2 & X2).
      exists ([tx "gs"] ++ l1 ++ [tx "f"] ++ [tx "gr"] ++ l2 ++ [tx "s"]). split.
      { cbn [cv_lines emit]. rewrite L2. cbn [cv_lines emit]. rewrite L1. subst c1. cbn [cv_lines emit]. rewrite <- !app_assoc. reflexivity. }
      split. { unfold same_canvas in *. subst c1. cbn [cv_bg cv_bbox cv_deps emit] in *. destruct C1 as (B1 & B2 & B3), C2 as (B4 & B5 & B6). repeat split; congruence. }
      split. { unfold same_rest in *. subst c1. cbn [cv_state emit] in *. destruct R1 as (B1 & B2), R2 as (B3 & B4). split; congruence. }
      intros q path stk g sv ev A Hp Hi.
      destruct (X1 stk g (g :: sv) ev) as (g1 & Ru1 & Sm1 & In1). destruct (X2 stk g sv (ev ++ [ev_of EFill g1])) as (g2 & Ru2 & Sm2 & In2).
      exists (newpath g2), [ev_of EFill g1; ev_of EStroke g2].
      split. { eapply runs_app; [eapply run_gs; exact E|]. eapply runs_app; [exact Ru1|]. eapply runs_app; [eapply run_f; exact E|]. eapply runs_app; [eapply run_gr; exact E|].
        eapply runs_app; [exact Ru2|]. change [ev_of EFill g1; ev_of EStroke g2] with ([ev_of EFill g1] ++ [ev_of EStroke g2]). rewrite app_assoc. eapply run_s; exact E. }
      assert (J1 : I -> ink_inv (cv_state c2) g1 /\ rgb (g_ink g1) = rgb k1).
      { intros Hh. destruct (Hi Hh) as ((IV & _) & F1 & _). apply In1; [exact F1|]. left. exact IV. }
      assert (J2 : I -> ink_inv (cv_state c3) g2 /\ rgb (g_ink g2) = rgb k2).
      { intros Hh. destruct (Hi Hh) as (_ & F1 & F2 & Ne). apply In2; [exact F2|]. right. cbn [cv_state emit]. intros Cq. apply (Ne f s eq_refl eq_refl).
        pose proof (Ca1 F1) as Cf. cbn [opt_fam] in F1, F2. unfold in_fam in F1, F2. destruct fam.
        - destruct F1 as [v1 ->], F2 as [v2 ->]. cbn [ink_cached] in Cf, Cq. congruence.
        - destruct F1 as (? & ? & ? & ->), F2 as (? & ? & ? & ->). cbn [ink_cached] in Cf, Cq. congruence. }
      split; [|split; [|split]].
      + cbn [shape app]. constructor; [|constructor; [|constructor]].
        * apply (rel_shape EFill); [left; reflexivity|eapply agree_ink; eassumption| |intros Hh; rewrite Sm1; apply Hp, Hh].
          intros Hh. unfold want_ink. rewrite K1. cbn [q_ink]. apply (J1 Hh).
        * apply (rel_shape EStroke); [right; reflexivity|eapply agree_ink; eassumption| |intros Hh; rewrite Sm2; apply Hp, Hh].
          intros Hh. unfold want_ink. rewrite K2. cbn [q_ink]. apply (J2 Hh).
      + apply agree_newpath. eapply agree_ink; eassumption.
      + intros Hh. destruct (J2 Hh) as [V1 V2]. split; [exact V1|]. cbn [newpath set_path g_ink]. unfold want_ink at 1. rewrite K2. exact V2.
      + cbn [unpainted]. split; reflexivity.
    - destruct (setink c f) as [c2 [[]|e]] eqn:S1; [|discriminate]. cbv iota beta in Q. injection Q as <-.
      destruct (setink_step _ _ _ S1) as (l1 & k1 & L1 & C1 & R1 & K1 & Ca1 & X1).
      exists (l1 ++ [tx "f"]). split; [cbn [cv_lines emit]; rewrite L1, <- app_assoc; reflexivity|]. split; [exact C1|]. split; [exact R1|].
      intros q path stk g sv ev A Hp Hi. destruct (X1 stk g sv ev) as (g1 & Ru1 & Sm1 & In1). exists (newpath g1), [ev_of EFill g1].
      split; [eapply runs_app; [exact Ru1|]; eapply run_f; exact E|].
      assert (J1 : I -> ink_inv (cv_state c2) g1 /\ rgb (g_ink g1) = rgb k1).
      { intros Hh. destruct (Hi Hh) as ((IV & _) & F1 & _). apply In1; [exact F1|]. left. exact IV. }
      split; [|split; [|split]].
      + cbn [shape app]. constructor; [|constructor]. apply (rel_shape EFill); [left; reflexivity|eapply agree_ink; eassumption| |intros Hh; rewrite Sm1; apply Hp, Hh].
        intros Hh. unfold want_ink. rewrite K1. cbn [q_ink]. apply (J1 Hh).
      + apply agree_newpath. eapply agree_ink; eassumption.
      + intros Hh. destruct (J1 Hh) as [V1 V2]. split; [exact V1|]. cbn [newpath set_path g_ink want_ink]. rewrite K1. exact V2.
      + cbn [unpainted]. split; reflexivity.
    - cbv iota beta in Q. destruct (setink c s) as [c2 [[]|e]] eqn:S1; [|discriminate]. cbv iota beta in Q. injection Q as <-.
      destruct (setink_step _ _ _ S1) as (l1 & k1 & L1 & C1 & R1 & K1 & Ca1 & X1).
      exists (l1 ++ [tx "s"]). split; [cbn [cv_lines emit]; rewrite L1, <- app_assoc; reflexivity|]. split; [exact C1|]. split; [exact R1|].
      intros q path stk g sv ev A Hp Hi. destruct (X1 stk g sv ev) as (g1 & Ru1 & Sm1 & In1). exists (newpath g1), [ev_of EStroke g1].
      split; [eapply runs_app; [exact Ru1|]; eapply run_s; exact E|].
      assert (J1 : I -> ink_inv (cv_state c2) g1 /\ rgb (g_ink g1) = rgb k1).
      { intros Hh. destruct (Hi Hh) as ((IV & _) & _ & F1 & _). apply In1; [exact F1|]. left. exact IV. }
      split; [|split; [|split]].
      + cbn [shape app]. constructor; [|constructor]. apply (rel_shape EStroke); [right; reflexivity|eapply agree_ink; eassumption| |intros Hh; rewrite Sm1; apply Hp, Hh].
        intros Hh. unfold want_ink. rewrite K1. cbn [q_ink]. apply (J1 Hh).
      + apply agree_newpath. eapply agree_ink; eassumption.
      + intros Hh. destruct (J1 Hh) as [V1 V2]. split; [exact V1|]. cbn [newpath set_path g_ink want_ink]. rewrite K1. exact V2.
      + cbn [unpainted]. split; reflexivity.
    - injection Q as <-. exists []. rewrite app_nil_r. split; [reflexivity|]. split; [repeat split|]. split; [split; reflexivity|].
      intros q path stk g sv ev A Hp Hi. exists g, []. rewrite app_nil_r. split; [apply runs_nil|]. split; [constructor|]. split; [exact A|].
      split; [intros Hh; apply (Hi Hh)|reflexivity].
  Qed.

  (** ** Building paths *)
  Definition with_path (g : gstate T) (l : list (pelt T)) (p : option (T * T)) (s : T * T) : gstate T := set_path g l p s.
  Lemma fold_emit {B} (f : B -> line) (r : list B) (c : canvas T) : 
    fold_left (fun c q => emit c (f q)) r c = mkcv (cv_bg c) (cv_lines c ++ map f r) (cv_bbox c) (cv_state c) (cv_deps c).
  Proof.
    revert c. induction r as [|q r IH]; intros c; cbn [fold_left map]; [rewrite app_nil_r; destruct c; reflexivity|]. rewrite IH. cbn [emit cv_bg cv_lines cv_bbox cv_state cv_deps].
    rewrite <- app_assoc. reflexivity.
  Qed.
  Lemma run_lines r : forall stk g sv ev q0, g_point g = Some q0 ->
    exists p, runs (map (fun q => point_line q " l") r) (mkps stk D g sv ev None) (mkps stk D (set_path g (g_path g ++ map PLine r) (Some p) (g_start g)) sv ev None).
  Proof.
    induction r as [|p r IH]; intros stk g sv ev q0 G; cbn [map].
    - exists q0. rewrite app_nil_r, <- G. destruct g. apply runs_nil.
    - destruct (IH stk (lineto g p) sv ev p eq_refl) as (pl & R). exists pl. change (point_line p " l" :: map (fun q => point_line q " l") r) with ([@point_line T p " l"] ++ map (fun q => point_line q " l") r).
      eapply runs_app; [eapply run_l; [exact E|exact G]|]. cbn [lineto set_path g_path g_start] in R. rewrite <- app_assoc in R. exact R.
  Qed.
  Lemma run_polyline p r stk g sv ev : exists pl, runs ([tx "np"] ++ [point_line p " m"] ++ map (fun q => point_line q " l") r) (mkps stk D g sv ev None)
    (mkps stk D (set_path g (line_path (p :: r)) (Some pl) p) sv ev None).
  Proof.
    destruct (run_lines r stk (moveto (newpath g) p) sv ev p eq_refl) as (pl & R). exists pl.
    eapply runs_app; [eapply run_np; exact E|]. eapply runs_app; [eapply run_m; exact E|]. exact R.
  Qed.
  Lemma run_polygon p r stk g sv ev : exists pl, runs ([tx "np"] ++ [point_line p " m"] ++ map (fun q => point_line q " l") r ++ [tx "cp"]) (mkps stk D g sv ev None)
    (mkps stk D (set_path g (line_path (p :: r) ++ [PClose]) (Some pl) p) sv ev None).
  Proof.
    destruct (run_polyline p r stk g sv ev) as (pl & R). exists p. rewrite !app_assoc in R. rewrite !app_assoc. eapply runs_app; [exact R|].
    exact (run_cp metric advance D deps E stk (set_path g (line_path (p :: r)) (Some pl) p) sv ev pl eq_refl).
  Qed.
  Definition arcto_line (radius : T) (ab : (T * T) * (T * T)) : line :=
    [N (fst (fst ab))] ++ sp ++ [N (snd (fst ab))] ++ sp ++ [N (fst (snd ab))] ++ sp ++ [N (snd (snd ab))] ++ sp ++ [N radius] ++ tx " arcto".
  Lemma run_arcs radius r : forall stk g sv ev q0, g_point g = Some q0 ->
    exists stk' p, runs (map (arcto_line radius) r) (mkps stk D g sv ev None)
      (mkps stk' D (set_path g (g_path g ++ map (fun ab => PArcto (fst ab) (snd ab) radius) r) (Some p) (g_start g)) sv ev None).
  Proof.
    induction r as [|[[x1 y1] [x2 y2]] r IH]; intros stk g sv ev q0 G; cbn [map].
    - exists stk, q0. rewrite app_nil_r, <- G. destruct g. apply runs_nil.
    - destruct (IH (ONum y2 :: ONum x2 :: ONum y1 :: ONum x1 :: stk) (set_path g (g_path g ++ [PArcto (x1, y1) (x2, y2) radius]) (Some (x2, y2)) (g_start g)) sv ev (x2, y2) eq_refl) as (stk' & pl & R).
      exists stk', pl. change (arcto_line radius (x1, y1, (x2, y2)) :: map (arcto_line radius) r) with ([arcto_line radius (x1, y1, (x2, y2))] ++ map (arcto_line radius) r).
      eapply runs_app; [eapply run_arcto; [exact E|exact G]|]. cbn [set_path g_path g_start] in R. rewrite <- app_assoc in R. exact R.
  Qed.

  (** ** One call *)
  Definition next_used (used : list nat) (o : op T) : list nat := match o with OSetdash d _ => d :: used | _ => used end.
  Definition next_pend (pend : bool) (o : op T) : bool :=
    match o with
    | OCircle _ _ f s | OPolygon (_ :: _) f s | ORounded _ _ f s => unpainted f s
    | OPolyline (_ :: _) _ => false
    | OText _ _ _ _ _ => true
    | _ => pend
    end.
  Record inv (used : list nat) (pend : bool) (h : heap T) (c : canvas T) (q : want T) (g : gstate T) : Prop := {
    inv_agree : agree q g;
    inv_width : cs_width (cv_state c) = g_width g;
    inv_dash : (h (fst (cs_dash (cv_state c))), snd (cs_dash (cv_state c))) = g_dash g;
    inv_used : In (fst (cs_dash (cv_state c))) used;
    inv_ink : I -> in_sync c q g;
    inv_path : P -> pend = false -> g_path g = [] /\ g_point g = None
  }.
  Definition op_cond (used : list nat) (pend : bool) (o : op T) : Prop :=
    good_op o /\ (I -> (forall i, In i (inks_of o) -> in_fam i) /\ two_inks o) /\
    (P -> match o with OCircle _ _ _ _ => pend = false | _ => True end) /\
    match o with OMutate d _ => ~ In d used | _ => True end.

  (** A shape: a path and how it is painted *)
  Lemma shape_step used pend h c q c1 c2 c' pre path f s (b : bbox T) :
    paint c1 f s = (c2, Ok tt) -> c' = grow c2 b ->
    cv_lines c1 = cv_lines c ++ pre -> cv_state c1 = cv_state c ->
    (I -> opt_fam f /\ opt_fam s /\ (forall a b, f = Some a -> s = Some b -> a <> b)) ->
    (forall stk g sv ev, (P -> pend = false -> g_path g = [] /\ g_point g = None) ->
       exists stk1 l p sp1, runs pre (mkps stk D g sv ev None) (mkps stk1 D (set_path g l p sp1) sv ev None) /\ (P -> l = path)) ->
    exists ls, cv_lines c' = cv_lines c ++ ls /\ forall stk g sv ev, inv used pend h c q g ->
      exists stk' g' evs, runs ls (mkps stk D g sv ev None) (mkps stk' D g' sv (ev ++ evs) None) /\ Forall2 rel evs (shape q path f s) /\
        inv used (unpainted f s) h c' (want_ink (want_ink q f) s) g'.
  Proof.
    intros Pt -> L1 S1 Fi Pre. destruct (paint_step _ _ _ _ Pt) as (l2 & L2 & Sc & Sr & X2).
    exists (pre ++ l2). split; [cbn [grow cv_lines]; rewrite L2, L1, app_assoc; reflexivity|].
    intros stk g sv ev V. destruct (Pre stk g sv ev (inv_path _ _ _ _ _ _ V)) as (stk1 & l & p & sp1 & R1 & Hl).
    set (g1 := set_path g l p sp1) in *.
    assert (A1 : agree q g1) by exact (inv_agree _ _ _ _ _ _ V).
    destruct (X2 q path stk1 g1 sv ev A1) as (g2 & evs & R2 & F2 & A2 & Sy & Un); [exact Hl| |].
    { intros Hh. split; [|apply (Fi Hh)]. unfold in_sync, ink_inv. rewrite S1. exact (inv_ink _ _ _ _ _ _ V Hh). }
    exists stk1, g2, evs. split; [eapply runs_app; eassumption|]. split; [exact F2|].
    destruct Sr as [Sr1 Sr2]. destruct A2 as (B1 & B2 & B3). constructor.
    - apply agree_want, agree_want. split; [exact B1|]. split; assumption.
    - cbn [grow cv_state]. rewrite Sr1, S1, (inv_width _ _ _ _ _ _ V), B1. apply (inv_agree _ _ _ _ _ _ V).
    - cbn [grow cv_state]. rewrite Sr2, S1, (inv_dash _ _ _ _ _ _ V), B2. apply (inv_agree _ _ _ _ _ _ V).
    - cbn [grow cv_state]. rewrite Sr2, S1. apply (inv_used _ _ _ _ _ _ V).
    - exact Sy.
    - intros _ U. rewrite U in Un. exact Un.
  Qed.

  Lemma opt_in i l : (forall j, In j (match i with Some i => [i] | None => [] end ++ l) -> in_fam j) -> opt_fam i /\ (forall j, In j l -> in_fam j).
  Proof. intros Q. split; [destruct i as [i|]; [apply Q; left; reflexivity|exact Logic.I]|]. intros j J. apply Q. apply in_or_app. right. exact J. Qed.
  Lemma shape_cond f s o : (I -> (forall i, In i (inks_of o) -> in_fam i) /\ two_inks o) ->
    inks_of o = match f with Some i => [i] | None => [] end ++ match s with Some i => [i] | None => [] end ->
    (two_inks o -> forall a b, f = Some a -> s = Some b -> a <> b) ->
    I -> opt_fam f /\ opt_fam s /\ (forall a b, f = Some a -> s = Some b -> a <> b).
  Proof.
    intros Ci Q Tw Hh. destruct (Ci Hh) as [Fm Ti]. rewrite Q in Fm. destruct (opt_in f _ Fm) as [F1 Fm2].
    split; [exact F1|]. split; [|exact (Tw Ti)]. destruct s as [s|]; [apply Fm2; left; reflexivity|exact Logic.I].
  Qed.
  Lemma inv_same used pend h c c' q g : inv used pend h c q g -> cv_state c' = cv_state c -> inv used pend h c' q g.
  Proof.
    intros [V1 V2 V3 V4 V5 V6] S. constructor; try rewrite S; try assumption. intros Hh. unfold in_sync, ink_inv. rewrite S. exact (V5 Hh).
  Qed.

  Lemma image_step used pend h c q data w p z col c' : addimage c data w p z col = (c', Ok tt) -> good_op (OImage data w p z col) ->
    exists ls, cv_lines c' = cv_lines c ++ ls /\ forall stk g sv ev, inv used pend h c q g ->
      exists stk' g' evs, runs ls (mkps stk D g sv ev None) (mkps stk' D g' sv (ev ++ evs) None) /\ Forall2 rel evs (fst (asks h q (OImage data w p z col))) /\
        inv used pend h c' q g'.
  Proof.
    intros Q [B W]. unfold addimage in Q. set (cw := if col then 3 * w else w) in *. destruct (Z.eqb_spec cw 0) as [Z0|Z0]; [discriminate|].
    assert (Hcw : 0 < cw) by (subst cw; destruct col; lia). set (ht := Z.of_nat (length data) / cw) in *.
    assert (Hht : 0 <= ht) by (apply Z.div_pos; lia).
    set (ls := [tx "gs"] ++ (match p with Some (x, y) => [[N x] ++ sp ++ [N y] ++ tx " translate"] | None => [] end) ++
      [[N (nmul (nofZ w) z)] ++ sp ++ [N (nmul (nofZ ht) z)] ++ tx " scale"] ++
      [[N (nofZ w)] ++ sp ++ [N (nofZ ht)] ++ tx " 8 [" ++ [N (nofZ w)] ++ tx " 0 0 " ++ [N (nofZ (- ht))] ++ tx " 0 " ++ [N (nofZ ht)] ++ tx "]"] ++
      ([tx "{<"] ++ image_rows (Z.to_nat ht) cw data 0 ++ [tx ">}"]) ++ [if col then tx "false 3 colorimage" else tx "image"] ++ [tx "gr"] : list line).
    exists ls. split.
    { assert (Fe : forall rows (c0 : canvas T), cv_lines (fold_left emit rows c0) = cv_lines c0 ++ rows).
      { clear. induction rows as [|r rows IH]; intros c0; cbn [fold_left]; [rewrite app_nil_r; reflexivity|]. rewrite IH. cbn [emit cv_lines]. rewrite <- app_assoc. reflexivity. }
      destruct p as [[x y]|]; injection Q as <-; cbn [grow cv_lines emit]; rewrite Fe; cbn [emit cv_lines]; unfold ls; rewrite <- !app_assoc; cbn [app]; reflexivity. }
    assert (St : cv_state c' = cv_state c).
    { assert (Fe : forall rows (c0 : canvas T), cv_state (fold_left emit rows c0) = cv_state c0).
      { clear. induction rows as [|r rows IH]; intros c0; cbn [fold_left]; [reflexivity|]. rewrite IH. reflexivity. }
      destruct p as [[x y]|]; injection Q as <-; cbn [grow cv_state emit]; rewrite Fe; reflexivity. }
    intros stk g sv ev V.
    set (gt := match p with Some (x, y) => set_ctm g (fst (g_ctm g), (nadd (nmul (fst (fst (g_ctm g))) x) (fst (snd (g_ctm g))), nadd (nmul (snd (fst (g_ctm g))) y) (snd (snd (g_ctm g))))) | None => g end).
    set (gz := set_ctm gt ((nmul (fst (fst (g_ctm gt))) (nmul (nofZ w) z), nmul (snd (fst (g_ctm gt))) (nmul (nofZ ht) z)), snd (g_ctm gt))).
    set (e := ev_of (EImage col (nofZ w) (nofZ ht) (nofZ 8) [nofZ w; nofZ 0; nofZ 0; nofZ (- ht); nofZ 0; nofZ ht] (firstn (Z.to_nat (cw * ht)) data)) gz).
    exists stk, g, [e]. split; [|split].
    - unfold ls. eapply runs_app; [eapply run_gs; exact E|]. eapply (runs_app _ _ _ _ _ (mkps stk D gt (g :: sv) ev None)).
      { unfold gt. destruct p as [[x y]|]; [eapply run_translate; exact E|apply runs_nil]. }
      eapply runs_app; [eapply run_scale; exact E|]. eapply runs_app; [apply run_dims|]. 
      eapply runs_app.
      { pose proof (fun stk0 => run_data metric advance D stk0 gz (g :: sv) ev data (Z.to_nat cw) (Z.to_nat ht) B) as RD. rewrite Z2Nat.id in RD by lia.
        replace (Z.to_nat ht * Z.to_nat cw)%nat with (Z.to_nat (cw * ht)) in RD by (rewrite Z2Nat.inj_mul by lia; lia). apply RD. }
      fold gz. eapply (runs_app _ _ _ _ _ (mkps stk D gz (g :: sv) (ev ++ [e]) None)); [|eapply run_gr; exact E].
      unfold e. destruct col; [eapply run_colorimage; exact E|eapply run_image; exact E].
    - cbn [asks fst]. fold cw ht. constructor; [|constructor]. destruct (inv_agree _ _ _ _ _ _ V) as (A1 & A2 & A3).
      unfold rel, order_of, e. cbn [o_what o_width o_dash o_ink kind_of ev_of e_kind e_width e_dash e_ctm e_ink text_ok path_of placed].
      split; [reflexivity|]. split; [unfold gz, gt; destruct p as [[x y]|]; exact A1|]. split; [unfold gz, gt; destruct p as [[x y]|]; exact A2|].
      split. { rewrite <- A3. unfold gz, gt. destruct p as [[x y]|]; cbn [set_ctm g_ctm fst snd]; destruct (g_ctm g) as [[sx sy] [tx0 ty0]]; reflexivity. }
      split; [exact Logic.I|]. split; [|auto]. intros Hh. destruct (inv_ink _ _ _ _ _ _ V Hh) as [_ R]. rewrite <- R. unfold gz, gt. destruct p as [[x y]|]; reflexivity.
    - eapply inv_same; eassumption.
  Qed.

  Lemma has_in k s : has k s = true -> forall k', has k (set_add k' s) = true.
  Proof. intros Q k'. unfold set_add. destruct (existsb _ s); [exact Q|]. unfold has. rewrite existsb_app. unfold has in Q. rewrite Q. reflexivity. Qed.
  Lemma has_add k s : has k (set_add k s) = true.
  Proof.
    unfold set_add. destruct (existsb (zlist_eqb k) s) eqn:Q; [exact Q|]. unfold has. rewrite existsb_app. cbn [existsb]. rewrite zlist_eqb_refl. apply orb_true_r.
  Qed.
  Lemma anchor_deps anchor s : existsb (zlist_eqb anchor) ANCHORS = true ->
    fold_left (fun s k => set_add k s) (DEPS_get (115 :: anchor)) (set_add (115 :: anchor) s) = set_add (text "sz") (set_add (115 :: anchor) s).
  Proof.
    intros A. apply existsb_exists in A. destruct A as (a & In_ & Q). apply zlist_eqb_eq in Q. subst a. unfold ANCHORS in In_.
    repeat (destruct In_ as [<-|In_]; [reflexivity|]). destruct In_.
  Qed.

  Lemma step used pend h c o q h' c' : perform h c o = (h', (c', Ok tt)) -> op_cond used pend o ->
    (forall k, has k (cv_deps c') = true -> has k deps = true) ->
    h' = after_op h o /\
    exists ls, cv_lines c' = cv_lines c ++ ls /\ forall stk g sv ev, inv used pend h c q g ->
      exists stk' g' evs, runs ls (mkps stk D g sv ev None) (mkps stk' D g' sv (ev ++ evs) None) /\ Forall2 rel evs (fst (asks h q o)) /\
        inv (next_used used o) (next_pend pend o) h' c' (snd (asks h q o)) g'.
  Proof.
    intros Q (Go & Ci & Cp & Cm) Hd.
    assert (nothing : forall c0, cv_state c0 = cv_state c -> cv_lines c0 = cv_lines c -> forall stk g sv ev, inv used pend h c q g -> exists stk' g' evs, runs [] (mkps stk D g sv ev None) (mkps stk' D g' sv (ev ++ evs) None) /\
      Forall2 rel evs [] /\ inv used pend h c0 q g').
    { intros c0 Ec El stk g sv ev V. exists stk, g, []. rewrite app_nil_r. split; [apply runs_nil|]. split; [constructor|eapply inv_same; eassumption]. }
    destruct o as [v|r gr b|i|w|d off|ce r f s|l s|l f s|l r f s|p s z fo an|da w p z col| |d l]; cbn [perform] in Q.
    - (* setgray *)
      injection Q as <- <-. split; [reflexivity|]. destruct (setink_step c (IGray v) (setgray c v) eq_refl) as (ls & k & L & Sc & [Sr1 Sr2] & K & Ca & X1).
      injection K as <-. exists ls. split; [exact L|]. intros stk g sv ev V. destruct (X1 stk g sv ev) as (g' & R & Sm & Ii). exists stk, g', []. rewrite app_nil_r.
      split; [exact R|]. split; [constructor|]. destruct V as [V1 V2 V3 V4 V5 V6]. cbn [asks snd next_used next_pend]. constructor; rewrite ?Sr1, ?Sr2; try assumption; try (rewrite Sm; assumption).
      intros Hh. destruct (Ci Hh) as [Fm _]. destruct (V5 Hh) as [IV _]. apply Ii; [apply Fm; left; reflexivity|left; exact IV].
    - injection Q as <- <-. split; [reflexivity|]. destruct (setink_step c (ITuple [r; gr; b]) (setcolor c r gr b) eq_refl) as (ls & k & L & Sc & [Sr1 Sr2] & K & Ca & X1).
      injection K as <-. exists ls. split; [exact L|]. intros stk g sv ev V. destruct (X1 stk g sv ev) as (g' & R & Sm & Ii). exists stk, g', []. rewrite app_nil_r.
      split; [exact R|]. split; [constructor|]. destruct V as [V1 V2 V3 V4 V5 V6]. cbn [asks snd next_used next_pend]. constructor; rewrite ?Sr1, ?Sr2; try assumption; try (rewrite Sm; assumption).
      intros Hh. destruct (Ci Hh) as [Fm _]. destruct (V5 Hh) as [IV _]. apply Ii; [apply Fm; left; reflexivity|left; exact IV].
    - injection Q as <- Q. split; [reflexivity|]. destruct (setink_step c i c' Q) as (ls & k & L & Sc & [Sr1 Sr2] & K & Ca & X1).
      exists ls. split; [exact L|]. intros stk g sv ev V. destruct (X1 stk g sv ev) as (g' & R & Sm & Ii). exists stk, g', []. rewrite app_nil_r.
      split; [exact R|]. split; [constructor|]. destruct V as [V1 V2 V3 V4 V5 V6]. cbn [asks snd next_used next_pend]. constructor; rewrite ?Sr1, ?Sr2; try assumption; try (rewrite Sm; assumption).
      + apply agree_want. exact (agree_ink q g g' V1 Sm).
      + intros Hh. destruct (Ci Hh) as [Fm _]. destruct (V5 Hh) as [IV _]. unfold in_sync, want_ink. rewrite K. apply Ii; [apply Fm; left; reflexivity|left; exact IV].
    - (* setwidth *)
      injection Q as <- <-. split; [reflexivity|]. unfold setwidth. destruct (neq (cs_width (cv_state c)) w) eqn:F.
      + apply neq_true in F. exists []. rewrite app_nil_r. split; [reflexivity|]. intros stk g sv ev V. destruct (nothing c eq_refl eq_refl stk g sv ev V) as (stk' & g' & evs & R & F2 & V').
        exists stk', g', evs. split; [exact R|]. split; [exact F2|]. destruct V' as [V1 V2 V3 V4 V5 V6]. cbn [asks snd next_used next_pend]. constructor; try assumption.
        destruct V1 as (A1 & A2 & A3). split; [cbn [q_width]; congruence|]. split; assumption.
      + exists [[N w] ++ tx " w"]. split; [reflexivity|]. intros stk g sv ev V. exists stk, (set_width g w), []. rewrite app_nil_r. split; [eapply run_w; exact E|]. split; [constructor|].
        destruct V as [V1 V2 V3 V4 V5 V6]. destruct V1 as (A1 & A2 & A3). constructor; cbn [asks snd next_used next_pend with_state emit cv_state cs_width cs_dash set_width g_width g_dash g_path g_point]; try assumption.
        * split; [reflexivity|]. split; assumption.
        * reflexivity.
    - (* setdash *)
      injection Q as <- <-. split; [reflexivity|]. unfold setdash. destruct (nums_eqb (h (fst (cs_dash (cv_state c)))) (h d) && neq (snd (cs_dash (cv_state c))) off) eqn:F.
      + apply andb_prop in F. destruct F as [F1 F2]. apply nums_eqb_eq in F1. apply neq_true in F2.
        exists []. rewrite app_nil_r. split; [reflexivity|]. intros stk g sv ev V. exists stk, g, []. rewrite app_nil_r. split; [apply runs_nil|]. split; [constructor|].
        destruct V as [V1 V2 V3 V4 V5 V6]. destruct V1 as (A1 & A2 & A3). constructor; cbn [asks snd next_used next_pend q_dash q_width]; try assumption; [|right; exact V4].
        split; [exact A1|]. split; [|exact A3]. cbn [q_dash]. congruence.
      + eexists [_]. split; [reflexivity|]. intros stk g sv ev V. exists stk, (set_dash g (h d, off)), []. rewrite app_nil_r. split; [eapply run_dash; exact E|]. split; [constructor|].
        destruct V as [V1 V2 V3 V4 V5 V6]. destruct V1 as (A1 & A2 & A3). constructor; cbn [asks snd next_used next_pend with_state emit cv_state cs_width cs_dash set_dash g_width g_dash g_path g_point fst snd]; try assumption.
        * split; [exact A1|]. split; [reflexivity|exact A3].
        * reflexivity.
        * left. reflexivity.
    - (* addcircle *)
      destruct ce as [x y]. injection Q as <- Q. split; [reflexivity|]. unfold addcircle, and_then in Q. cbv zeta in Q.
      set (c1 := emit c _) in Q. destruct (paint c1 f s) as [c2 [[]|e]] eqn:Pt; [|discriminate]. injection Q as <-.
      eapply (shape_step used pend h c q c1 c2 _ [[N x] ++ sp ++ [N y] ++ sp ++ [N r] ++ tx " 0 360 arc cp"]); [exact Pt|reflexivity|reflexivity|reflexivity| |].
      + eapply shape_cond; [exact Ci|reflexivity|]. intros Tw a b -> ->. exact Tw.
      + intros stk g sv ev Em. unfold circle. exists stk.
        assert (Cf : circle_path g x y r = set_path g (g_path (circle_path g x y r)) (g_point (circle_path g x y r)) (g_start (circle_path g x y r))).
        { unfold circle_path, arc_start. destruct (g_point g); reflexivity. }
        do 3 eexists. split.
        * rewrite <- Cf. eapply run_arc. exact E.
        * intros Hh. destruct (Em Hh (Cp Hh)) as [Pe Po]. unfold circle_path, arc_start. rewrite Po. cbn [moveto set_path g_path g_start app]. rewrite Pe. reflexivity.
    - (* addpolyline *)
      destruct l as [|p r]; injection Q as <- Q.
      + subst c'. split; [reflexivity|]. exists []. rewrite app_nil_r. split; [reflexivity|]. apply nothing; reflexivity.
      + split; [reflexivity|]. cbn [addpolyline] in Q. rewrite fold_emit in Q. cbn [emit cv_bg cv_lines cv_bbox cv_state cv_deps] in Q.
        set (c1 := mkcv _ _ _ _ _) in Q. 
        assert (G : exists l1 c2, cv_lines c2 = cv_lines c1 ++ l1 /\ cv_state c' = cv_state c2 /\ cv_lines c' = cv_lines c2 ++ [tx "s"] /\ same_rest (cv_state c1) (cv_state c2) /\
          forall stk g sv ev, exists g', runs l1 (mkps stk D g sv ev None) (mkps stk D g' sv ev None) /\ same_but_ink g g' /\
            (I -> in_sync c1 q g -> in_sync c2 (want_ink q s) g')).
        { destruct s as [s|].
          - destruct (setink c1 s) as [c2 [[]|e]] eqn:S1; [|discriminate]. cbn [and_then] in Q. injection Q as <-.
            destruct (setink_step _ _ _ S1) as (ls & k & L & Sc & Sr & K & Ca & X1). exists ls, c2. split; [exact L|]. split; [reflexivity|]. split; [reflexivity|]. split; [exact Sr|].
            intros stk g sv ev. destruct (X1 stk g sv ev) as (g' & R & Sm & Ii). exists g'. split; [exact R|]. split; [exact Sm|]. intros Hh [IV _]. unfold in_sync, want_ink. rewrite K.
            apply Ii; [|left; exact IV]. apply (Ci Hh). left. reflexivity.
          - cbn [and_then] in Q. injection Q as <-. exists [], c1. rewrite app_nil_r. repeat (split; [reflexivity|]). split; [split; reflexivity|].
            intros stk g sv ev. exists g. split; [apply runs_nil|]. split; [apply same_ink_refl|]. auto. }
        destruct G as (l1 & c2 & L2 & S2 & L3 & [Sr1 Sr2] & X1).
        exists ((([tx "np"] ++ [point_line p " m"]) ++ map (fun q => point_line q " l") r) ++ l1 ++ [tx "s"]).
        split; [rewrite L3, L2; subst c1; cbn [cv_lines]; rewrite <- !app_assoc; reflexivity|].
        intros stk g sv ev V. destruct (run_polyline p r stk g sv ev) as (pl & R1). rewrite app_assoc in R1.
        set (g1 := set_path g (line_path (p :: r)) (Some pl) p) in *. destruct (X1 stk g1 sv ev) as (g2 & R2 & Sm & Sy).
        assert (Sy' : I -> in_sync c2 (want_ink q s) g2) by (intros Hh; apply (Sy Hh); exact (inv_ink _ _ _ _ _ _ V Hh)).
        exists stk, (newpath g2), [ev_of EStroke g2]. split; [eapply runs_app; [exact R1|]; eapply runs_app; [exact R2|]; eapply run_s; exact E|].
        assert (A1 : agree q g2) by (eapply agree_ink; [|exact Sm]; exact (inv_agree _ _ _ _ _ _ V)).
        split.
        * cbn [asks fst]. constructor; [|constructor]. apply (rel_shape EStroke); [right; reflexivity|exact A1|intros Hh; apply (Sy' Hh)|]. intros _. rewrite Sm. reflexivity.
        * cbn [asks snd next_used next_pend]. destruct A1 as (B1 & B2 & B3). destruct V as [V1 V2 V3 V4 V5 V6]. subst c1. cbn [cv_state] in Sr1, Sr2. constructor.
          -- apply agree_want. split; [exact B1|]. split; assumption.
          -- rewrite S2, Sr1, V2. rewrite Sm. reflexivity.
          -- rewrite S2, Sr2, V3. rewrite Sm. reflexivity.
          -- rewrite S2, Sr2. exact V4.
          -- intros Hh. unfold in_sync, ink_inv. rewrite S2. exact (Sy' Hh).
          -- intros _ _. split; reflexivity.
    - (* addpolygon *)
      destruct l as [|p r]; injection Q as <- Q.
      + subst c'. split; [reflexivity|]. exists []. rewrite app_nil_r. split; [reflexivity|]. apply nothing; reflexivity.
      + split; [reflexivity|]. cbn [addpolygon] in Q. rewrite fold_emit in Q. unfold and_then in Q. set (c1 := emit (mkcv _ _ _ _ _) _) in Q.
        destruct (paint c1 f s) as [c2 [[]|e]] eqn:Pt; [|discriminate]. injection Q as <-.
        eapply (shape_step used pend h c q c1 c2 _ ([tx "np"] ++ [point_line p " m"] ++ map (fun q => point_line q " l") r ++ [tx "cp"])); [exact Pt|reflexivity| |reflexivity| |].
        * subst c1. cbn [emit cv_lines]. rewrite <- !app_assoc. reflexivity.
        * eapply shape_cond; [exact Ci|reflexivity|]. intros Tw a b -> ->. exact Tw.
        * intros stk g sv ev Em. destruct (run_polygon p r stk g sv ev) as (pl & R). exists stk. do 3 eexists. split; [exact R|reflexivity].
    - (* addroundedpolygon *)
      injection Q as <- Q. split; [reflexivity|]. unfold addroundedpolygon in Q. destruct l as [|[x1 y1] [|[x2 y2] rest]]; try discriminate.
      set (mid := (ndiv (nadd x1 x2) (nofZ 2), ndiv (nadd y1 y2) (nofZ 2))) in Q.
      assert (Fa : forall l c0, fold_left (fun (c : canvas T) ab => let '((x1, y1), (x2, y2)) := ab in emit c ([N x1] ++ sp ++ [N y1] ++ sp ++ [N x2] ++ sp ++ [N y2] ++ sp ++ [N r] ++ tx " arcto")) l c0
        = fold_left (fun c ab => emit c (arcto_line r ab)) l c0).
      { clear. induction l as [|[[x1 y1] [x2 y2]] l IH]; intros c0; [reflexivity|]. cbn [fold_left]. rewrite IH. reflexivity. }
      rewrite Fa, fold_emit in Q. unfold and_then in Q. cbn [tl firstn app] in Q.
      change (tl (((x2, y2) :: rest) ++ [(x1, y1)]) ++ [mid]) with ((rest ++ [(x1, y1)]) ++ [mid]) in Q. rewrite <- app_assoc in Q. cbn [app] in Q.
      set (arcs := combine ((x2, y2) :: rest ++ [(x1, y1)]) (rest ++ [(x1, y1); mid])) in Q.
      set (c1 := emit (mkcv _ _ _ _ _) _) in Q. destruct (paint c1 f s) as [c2 [[]|e]] eqn:Pt; [|discriminate].
      destruct (bb_of_points ((x1, y1) :: (x2, y2) :: rest)) as [b|e]; [|discriminate]. injection Q as <-.
      eapply (shape_step used pend h c q c1 c2 _ ([tx "np"] ++ [point_line mid " m"] ++ map (arcto_line r) arcs ++ [tx "cp"])); [exact Pt|reflexivity| |reflexivity| |].
      + subst c1. cbn [emit cv_lines]. rewrite <- !app_assoc. reflexivity.
      + eapply shape_cond; [exact Ci|reflexivity|]. intros Tw a b0 -> ->. exact Tw.
      + intros stk g sv ev Em. destruct (run_arcs r arcs stk (moveto (newpath g) mid) sv ev mid eq_refl) as (stk' & pl & R). exists stk'. do 3 eexists. split.
        * eapply runs_app; [eapply run_np; exact E|]. eapply runs_app; [eapply run_m; exact E|]. eapply runs_app; [exact R|].
          set (gp := set_path (moveto (newpath g) mid) _ (Some pl) _).
          exact (run_cp metric advance D deps E stk' gp sv ev pl eq_refl).
        * intros _. reflexivity.
    - (* addtext *)
      injection Q as <- Q. split; [reflexivity|]. unfold addtext in Q. destruct (existsb (zlist_eqb an) ANCHORS) eqn:A; [|discriminate]. destruct p as [x y]. injection Q as <-.
      eexists [_]. split; [reflexivity|]. intros stk g sv ev V. cbn [cv_deps emit] in Hd. rewrite anchor_deps in Hd by exact A.
      destruct Go as [Gs Gf]. exists stk. do 2 eexists. split.
      + eapply (run_text metric advance X D deps E stk g sv ev (x, y)); [exact Gs|exact Gf|exact A|apply Hd, has_in, has_add|apply Hd, has_add].
      + destruct V as [V1 V2 V3 V4 V5 V6]. destruct V1 as (A1 & A2 & A3). split.
        * cbn [asks fst]. constructor; [|constructor]. unfold rel, order_of. cbn [o_what o_width o_dash o_ink kind_of ev_of e_kind e_width e_dash e_ctm e_ink e_path text_ok path_of placed].
          split; [reflexivity|]. split; [exact A1|]. split; [exact A2|]. split; [exact A3|]. split; [eexists; reflexivity|]. split; [|auto]. intros Hh. apply (V5 Hh).
        * cbn [asks snd next_used next_pend]. unfold shown, text_g. cbn [moveto set_path g_point]. destruct (text_pos _ _ _ _ _ _) as [tx0 ty0]. destruct (advance fo z s) as [dx dy].
          constructor; cbn [cv_state emit moveto set_path set_font g_width g_dash]; try assumption.
          -- split; [exact A1|]. split; assumption.
          -- intros _ F. discriminate.
    - (* addimage *)
      injection Q as <- Q. split; [reflexivity|]. cbn [asks snd next_used next_pend]. exact (image_step used pend h c q da w p z col c' Q Go).
    - injection Q as <- <-. split; [reflexivity|]. exists []. rewrite app_nil_r. split; [reflexivity|]. apply nothing; reflexivity.
    - (* the caller changes a list *)
      injection Q as <- <-. split; [reflexivity|]. exists []. rewrite app_nil_r. split; [reflexivity|]. intros stk g sv ev V. exists stk, g, []. rewrite app_nil_r. split; [apply runs_nil|].
      split; [constructor|]. destruct V as [V1 V2 V3 V4 V5 V6]. cbn [asks snd next_used next_pend]. constructor; try assumption. unfold heap_set.
      destruct (Nat.eqb_spec (fst (cs_dash (cv_state c))) d) as [<-|_]; [destruct (Cm V4)|exact V3].
  Qed.

  (** ** Histories *)
  Lemma history_cons h c o r x : history h c (o :: r) = Some x -> exists h1 c1, perform h c o = (h1, (c1, Ok tt)) /\ history h1 c1 r = Some x.
  Proof. cbn [history]. destruct (perform h c o) as [h1 [c1 [[]|e]]]; [|discriminate]. intros Q. exists h1, c1. auto. Qed.
  Lemma setink_deps c i c' : setink c i = (c', Ok tt) -> cv_deps c' = cv_deps c.
  Proof. intros Q. destruct (setink_step c i c' Q) as (ls & k & _ & (_ & _ & Sd) & _). exact Sd. Qed.
  Lemma paint_deps c f s c' : paint c f s = (c', Ok tt) -> cv_deps c' = cv_deps c.
  Proof. intros Q. destruct (paint_step _ _ _ _ Q) as (ls & _ & (_ & _ & Sd) & _). exact Sd. Qed.
  Lemma perform_deps h c o h' c' : perform h c o = (h', (c', Ok tt)) -> forall k, has k (cv_deps c) = true -> has k (cv_deps c') = true.
  Proof.
    intros Q k K. destruct o as [v|r gr b|i|w|d off|[x y] r f s|l s|l f s|l r f s|p s z fo an|da w p z col| |d l]; cbn [perform] in Q.
    - injection Q as <- <-. unfold setgray. destruct (neq _ _); exact K.
    - injection Q as <- <-. unfold setcolor. destruct (nums_eqb _ _); exact K.
    - injection Q as <- Q. rewrite (setink_deps _ _ _ Q). exact K.
    - injection Q as <- <-. unfold setwidth. destruct (neq _ _); exact K.
    - injection Q as <- <-. unfold setdash. destruct (_ && _); exact K.
    - injection Q as <- Q. unfold addcircle, and_then in Q. destruct (paint _ f s) as [c2 [[]|e]] eqn:Pt; [|discriminate]. injection Q as <-. cbn [grow cv_deps]. rewrite (paint_deps _ _ _ _ Pt). exact K.
    - destruct l as [|p r]; injection Q as <- Q; [subst c'; exact K|]. cbn [addpolyline] in Q. rewrite fold_emit in Q. destruct s as [s|].
      + destruct (setink _ s) as [c2 [[]|e]] eqn:S1; [|discriminate]. cbn [and_then] in Q. injection Q as <-. cbn [grow emit cv_deps]. rewrite (setink_deps _ _ _ S1). exact K.
      + cbn [and_then] in Q. injection Q as <-. exact K.
    - destruct l as [|p r]; injection Q as <- Q; [subst c'; exact K|]. cbn [addpolygon] in Q. rewrite fold_emit in Q. unfold and_then in Q.
      destruct (paint _ f s) as [c2 [[]|e]] eqn:Pt; [|discriminate]. injection Q as <-. cbn [grow cv_deps]. rewrite (paint_deps _ _ _ _ Pt). exact K.
    - injection Q as <- Q. unfold addroundedpolygon in Q. destruct l as [|[x1 y1] [|[x2 y2] rest]]; try discriminate. cbv zeta in Q. unfold and_then in Q.
      destruct (paint _ f s) as [c2 [[]|e]] eqn:Pt; [|discriminate]. destruct (bb_of_points _) as [b|e]; [|discriminate]. injection Q as <-. cbn [grow cv_deps]. rewrite (paint_deps _ _ _ _ Pt).
      match goal with |- context [fold_left ?f ?l ?c0] => assert (Fd : cv_deps (fold_left f l c0) = cv_deps c0) end.
      { match goal with |- cv_deps (fold_left ?f ?l ?c0) = _ => generalize c0; generalize l end. clear.
        induction l as [|[[u1 v1] [u2 v2]] l IH]; intros c3; [reflexivity|]. cbn [fold_left]. rewrite IH. reflexivity. }
      cbn [emit cv_deps] in Fd |- *. rewrite Fd. exact K.
    - injection Q as <- Q. unfold addtext in Q. destruct (existsb (zlist_eqb an) ANCHORS) eqn:A; [|discriminate]. destruct p as [x y]. injection Q as <-. cbn [cv_deps emit].
      rewrite anchor_deps by exact A. apply has_in, has_in. exact K.
    - injection Q as <- Q. unfold addimage in Q. destruct (_ =? 0); [discriminate|].
      assert (Fe : forall rows (c0 : canvas T), cv_deps (fold_left emit rows c0) = cv_deps c0).
      { clear. induction rows as [|r rows IH]; intros c0; cbn [fold_left]; [reflexivity|]. rewrite IH. reflexivity. }
      destruct p as [[x y]|]; injection Q as <-; cbn [grow cv_deps emit]; rewrite Fe; exact K.
    - injection Q as <- <-. exact K.
    - injection Q as <- <-. exact K.
  Qed.
  Lemma history_deps l : forall h c hf cf, history h c l = Some (hf, cf) -> forall k, has k (cv_deps c) = true -> has k (cv_deps cf) = true.
  Proof.
    induction l as [|o r IH]; intros h c hf cf Q k K; [injection Q as <- <-; exact K|].
    destruct (history_cons _ _ _ _ _ Q) as (h1 & c1 & P1 & Q1). exact (IH _ _ _ _ Q1 k (perform_deps _ _ _ _ _ P1 k K)).
  Qed.
  Lemma setink_bg c i c' : setink c i = (c', Ok tt) -> cv_bg c' = cv_bg c.
  Proof. intros Q. destruct (setink_step c i c' Q) as (ls & k & _ & (Sd & _ & _) & _). exact Sd. Qed.
  Lemma paint_bg c f s c' : paint c f s = (c', Ok tt) -> cv_bg c' = cv_bg c.
  Proof. intros Q. destruct (paint_step _ _ _ _ Q) as (ls & _ & (Sd & _ & _) & _). exact Sd. Qed.
  Lemma perform_bg h c o h' c' : perform h c o = (h', (c', Ok tt)) -> cv_bg c' = cv_bg c.
  Proof.
    intros Q. destruct o as [v|r gr b|i|w|d off|[x y] r f s|l s|l f s|l r f s|p s z fo an|da w p z col| |d l]; cbn [perform] in Q.
    - injection Q as <- <-. unfold setgray. destruct (neq _ _); reflexivity.
    - injection Q as <- <-. unfold setcolor. destruct (nums_eqb _ _); reflexivity.
    - injection Q as <- Q. rewrite (setink_bg _ _ _ Q). reflexivity.
    - injection Q as <- <-. unfold setwidth. destruct (neq _ _); reflexivity.
    - injection Q as <- <-. unfold setdash. destruct (_ && _); reflexivity.
    - injection Q as <- Q. unfold addcircle, and_then in Q. destruct (paint _ f s) as [c2 [[]|e]] eqn:Pt; [|discriminate]. injection Q as <-. cbn [grow cv_bg]. rewrite (paint_bg _ _ _ _ Pt). reflexivity.
    - destruct l as [|p r]; injection Q as <- Q; [subst c'; reflexivity|]. cbn [addpolyline] in Q. rewrite fold_emit in Q. destruct s as [s|].
      + destruct (setink _ s) as [c2 [[]|e]] eqn:S1; [|discriminate]. cbn [and_then] in Q. injection Q as <-. cbn [grow emit cv_bg]. rewrite (setink_bg _ _ _ S1). reflexivity.
      + cbn [and_then] in Q. injection Q as <-. reflexivity.
    - destruct l as [|p r]; injection Q as <- Q; [subst c'; reflexivity|]. cbn [addpolygon] in Q. rewrite fold_emit in Q. unfold and_then in Q.
      destruct (paint _ f s) as [c2 [[]|e]] eqn:Pt; [|discriminate]. injection Q as <-. cbn [grow cv_bg]. rewrite (paint_bg _ _ _ _ Pt). reflexivity.
    - injection Q as <- Q. unfold addroundedpolygon in Q. destruct l as [|[x1 y1] [|[x2 y2] rest]]; try discriminate. cbv zeta in Q. unfold and_then in Q.
      destruct (paint _ f s) as [c2 [[]|e]] eqn:Pt; [|discriminate]. destruct (bb_of_points _) as [b|e]; [|discriminate]. injection Q as <-. cbn [grow cv_bg]. rewrite (paint_bg _ _ _ _ Pt).
      match goal with |- context [fold_left ?f ?l ?c0] => assert (Fd : cv_bg (fold_left f l c0) = cv_bg c0) end.
      { match goal with |- cv_bg (fold_left ?f ?l ?c0) = _ => generalize c0; generalize l end. clear.
        induction l as [|[[u1 v1] [u2 v2]] l IH]; intros c3; [reflexivity|]. cbn [fold_left]. rewrite IH. reflexivity. }
      cbn [emit cv_bg] in Fd |- *. rewrite Fd. reflexivity.
    - injection Q as <- Q. unfold addtext in Q. destruct (existsb (zlist_eqb an) ANCHORS) eqn:A; [|discriminate]. destruct p as [x y]. injection Q as <-. cbn [cv_bg emit]. reflexivity.
    - injection Q as <- Q. unfold addimage in Q. destruct (_ =? 0); [discriminate|].
      assert (Fe : forall rows (c0 : canvas T), cv_bg (fold_left emit rows c0) = cv_bg c0).
      { clear. induction rows as [|r rows IH]; intros c0; cbn [fold_left]; [reflexivity|]. rewrite IH. reflexivity. }
      destruct p as [[x y]|]; injection Q as <-; cbn [grow cv_bg emit]; rewrite Fe; reflexivity.
    - injection Q as <- <-. reflexivity.
    - injection Q as <- <-. reflexivity.
  Qed.
  Lemma history_bg l : forall h c hf cf, history h c l = Some (hf, cf) -> cv_bg cf = cv_bg c.
  Proof.
    induction l as [|o r IH]; intros h c hf cf Q; [injection Q as <- <-; reflexivity|].
    destruct (history_cons _ _ _ _ _ Q) as (h1 & c1 & P1 & Q1). rewrite (IH _ _ _ _ Q1). exact (perform_bg _ _ _ _ _ P1).
  Qed.
  Lemma kept_tl used o r : lists_kept used (o :: r) -> lists_kept (next_used used o) r /\ match o with OMutate d _ => ~ In d used | _ => True end.
  Proof. destruct o; cbn [lists_kept next_used]; tauto. Qed.
  Lemma apart_tl pend o r : circles_apart pend (o :: r) -> circles_apart (next_pend pend o) r /\ match o with OCircle _ _ _ _ => pend = false | _ => True end.
  Proof.
    destruct o as [v|? gr b|i|w|d off|ce ? f s|l s|l f s|l ? f s|p s z fo an|da w p z col| |d l]; cbn [circles_apart next_pend unpainted]; try tauto; destruct l; tauto.
  Qed.
  Lemma run_history l : forall used pend h c q hf cf, history h c l = Some (hf, cf) -> Forall good_op l -> lists_kept used l ->
    (I -> (forall o i, In o l -> In i (inks_of o) -> in_fam i) /\ Forall two_inks l) -> (P -> circles_apart pend l) ->
    (forall k, has k (cv_deps cf) = true -> has k deps = true) ->
    exists ls, cv_lines cf = cv_lines c ++ ls /\ forall stk g sv ev, inv used pend h c q g ->
      exists stk' g' evs, runs ls (mkps stk D g sv ev None) (mkps stk' D g' sv (ev ++ evs) None) /\ Forall2 rel evs (orders h q l).
  Proof.
    induction l as [|o r IH]; intros used pend h c q hf cf Q Fg Kp Ci Cp Hd.
    - injection Q as <- <-. exists []. rewrite app_nil_r. split; [reflexivity|]. intros stk g sv ev _. exists stk, g, []. rewrite app_nil_r. split; [apply runs_nil|constructor].
    - destruct (history_cons _ _ _ _ _ Q) as (h1 & c1 & P1 & Q1). destruct (kept_tl _ _ _ Kp) as [Kp1 Km]. inversion Fg as [|? ? G1 G2]; subst.
      assert (Oc : op_cond used pend o).
      { split; [exact G1|]. split; [|split; [intros Hh; apply (apart_tl _ _ _ (Cp Hh))|exact Km]].
        intros Hh. destruct (Ci Hh) as [Ca Cb]. split; [intros i Hi0; apply (Ca o i (or_introl eq_refl) Hi0)|inversion Cb; assumption]. }
      destruct (step used pend h c o q h1 c1 P1 Oc) as (-> & l1 & L1 & X1).
      { intros k K. apply Hd. exact (history_deps _ _ _ _ _ Q1 k K). }
      destruct (IH (next_used used o) (next_pend pend o) (after_op h o) c1 (snd (asks h q o)) hf cf Q1 G2 Kp1) as (l2 & L2 & X2); [| |exact Hd|].
      { intros Hh. destruct (Ci Hh) as [Ca Cb]. split; [intros o' i Ho Hi0; apply (Ca o' i (or_intror Ho) Hi0)|inversion Cb; assumption]. }
      { intros Hh. apply (apart_tl _ _ _ (Cp Hh)). }
      exists (l1 ++ l2). split; [rewrite L2, L1, app_assoc; reflexivity|]. intros stk g sv ev V.
      destruct (X1 stk g sv ev V) as (stk1 & g1 & e1 & R1 & F1 & V1). destruct (X2 stk1 g1 sv (ev ++ e1) V1) as (stk2 & g2 & e2 & R2 & F2).
      exists stk2, g2, (e1 ++ e2). rewrite app_assoc. split; [eapply runs_app; eassumption|]. cbn [orders]. apply Forall2_app; assumption.
  Qed.
End VP.
