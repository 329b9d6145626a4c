(** Proofs about frames. *)
From Coq Require Import Reals Lra Lia.
From Verif Require Import Num RealNum BBoxModel BufferModel SimplifyModel VlvModel PfModel StrModel StrProofs Text ProjModel TrigLib FrameModel FrameSpec.
Open Scope Z_scope.

(** ** Save and load *)
Lemma proj_new_back p : proj_new (Some (degrees (p_lon0 p), degrees (p_lat0 p))) (Some (p_r p)) = p.
Proof. unfold proj_new. rewrite !TrigLib.rad_deg. destruct p; reflexivity. Qed.
Lemma getattr_class c : getattr_proj (class_name c) = Ok (ASphere c).
Proof. destruct c; reflexivity. Qed.

Lemma bbox_eta {T} (b : bbox T) : mkbb (bx0 b) (by0 b) (bx1 b) (by1 b) = b.
Proof. destruct b; reflexivity. Qed.
Lemma save_load_sphere c p b : exists j, frame_save (mkframe (PSphere c p) b) = Ok j /\ frame_load j = Ok (mkframe (PSphere c p) b).
Proof.
  assert (G : exists j, frame_save (mkframe (PSphere c p) b) = Ok j /\
    frame_load j = Ok (mkframe (PSphere c (proj_new (Some (degrees (p_lon0 p), degrees (p_lat0 p))) (Some (p_r p)))) (mkbb (bx0 b) (by0 b) (bx1 b) (by1 b))))
    by (destruct c; eexists; split; reflexivity).
  rewrite proj_new_back, bbox_eta in G. exact G.
Qed.
Lemma save_load_ellipsoid m p b : exists j, frame_save (mkframe (PEllipsoid m p) b) = Ok j /\ frame_load j = Err NameError.
Proof. destruct m; eexists; split; reflexivity. Qed.
Lemma save_conic k b : frame_save (mkframe (PConic k) b) = Err AttributeError.
Proof. reflexivity. Qed.
Lemma saved_document c lon lat r b : exists j, frame_save (mkframe (PSphere c (proj_new (Some (lon, lat)) (Some r))) b) = Ok j /\
  at_path j [text "projection"; text "type"] = Some (JStr (class_name c)) /\
  at_path j [text "projection"; text "center"] = Some (JArr [JNum lon; JNum lat]) /\
  at_path j [text "projection"; text "orientation"] = Some (JNum 0%R) /\
  at_path j [text "projection"; text "model"; text "type"] = Some (JStr (text "sphere")) /\
  at_path j [text "projection"; text "model"; text "r"] = Some (JNum r) /\
  at_path j [text "bounding"; text "x0"] = Some (JNum (bx0 b)) /\ at_path j [text "bounding"; text "y0"] = Some (JNum (by0 b)) /\
  at_path j [text "bounding"; text "x1"] = Some (JNum (bx1 b)) /\ at_path j [text "bounding"; text "y1"] = Some (JNum (by1 b)).
Proof.
  eexists. split; [reflexivity|]. split; [reflexivity|]. split.
  - transitivity (Some (JArr [JNum (degrees (radians lon)); JNum (degrees (radians lat))])); [reflexivity|]. rewrite !TrigLib.deg_rad. reflexivity.
  - repeat (split; [reflexivity|]). reflexivity.
Qed.
Lemma saved_ellipsoid m p b : exists j, frame_save (mkframe (PEllipsoid m p) b) = Ok j /\
  at_path j [text "projection"; text "type"] = Some (JStr (text (if m then "EMercator" else "EProj"))) /\
  at_path j [text "projection"; text "center"] = Some (JArr [JNum (degrees (e_lon0 p)); JNum (degrees (e_lat0 p))]) /\
  at_path j [text "projection"; text "orientation"] = Some (JNum 0%R) /\
  at_path j [text "bounding"; text "x0"] = Some (JNum (bx0 b)) /\ at_path j [text "bounding"; text "y0"] = Some (JNum (by0 b)) /\
  at_path j [text "bounding"; text "x1"] = Some (JNum (bx1 b)) /\ at_path j [text "bounding"; text "y1"] = Some (JNum (by1 b)) /\
  at_path j [text "projection"; text "model"; text "type"] = Some (JStr (text "ellipsoid")) /\
  at_path j [text "projection"; text "model"; text "a"] = Some (JNum (el_a (e_ell p))) /\
  at_path j [text "projection"; text "model"; text "b"] = Some (JNum (el_b (e_ell p))) /\
  at_path j [text "projection"; text "model"; text "e"] = Some (JNum (el_e (e_ell p))) /\
  at_path j [text "projection"; text "model"; text "f"] = Some (JNum (el_f (e_ell p))).
Proof. eexists. split; [reflexivity|]. split; [destruct m; reflexivity|]. repeat (split; [reflexivity|]). reflexivity. Qed.

(** ** Lines *)
Lemma rstrip_clean name : match rev name with [] => True | c :: _ => is_space c = false end -> rstrip_by is_space name = name.
Proof.
  intros H. destruct (rev name) as [|c r] eqn:E.
  - apply (f_equal (@rev Z)) in E. rewrite rev_involutive in E. subst. reflexivity.
  - assert (N : name = rev r ++ [c]) by (apply (f_equal (@rev Z)) in E; rewrite rev_involutive in E; exact E). rewrite N. generalize (rev r). clear E N r name.
    intros l. induction l as [|x l IH]; cbn [app rstrip_by].
    + rewrite H. reflexivity.
    + rewrite IH. destruct l; reflexivity.
Qed.
Lemma file_lines_ok l : forall n : nat, Forall (fun w => ~ In 10%Z w) l -> (length (concat (map (fun w => w ++ [10%Z]) l)) <= n)%nat ->
  file_lines n (concat (map (fun w => w ++ [10%Z]) l)) = map (fun w => w ++ [10%Z]) l.
Proof.
  induction l as [|w l IH]; intros n F L.
  - destruct n; reflexivity.
  - inversion F as [|? ? F1 F2]; subst. cbn [map concat]. cbn [map concat] in L. rewrite <- app_assoc in *. cbn [app] in *.
    destruct n as [|n]; [rewrite app_length in L; cbn in L; lia|]. cbn [file_lines].
    destruct (w ++ 10%Z :: concat (map (fun w0 => w0 ++ [10%Z]) l)) eqn:E; [destruct w; discriminate|]. rewrite <- E in *.
    rewrite readline_ok by exact F1. f_equal. apply IH; [exact F2|]. rewrite app_length in L. cbn in L. lia.
Qed.
Lemma loadnames_ok l : Forall clean l -> loadnames (concat (map (fun w => w ++ [10%Z]) l)) = l.
Proof.
  intros F. unfold loadnames. rewrite univ_id.
  - rewrite file_lines_ok; [| |lia].
    + rewrite map_map. rewrite <- (map_id l) at 2. apply map_ext_in. intros w I. rewrite Forall_forall in F. destruct (F w I) as (_ & _ & C).
      rewrite rstrip_app by (constructor; [reflexivity|constructor]). apply rstrip_clean. exact C.
    + eapply Forall_impl; [|exact F]. intros w (C & _). exact C.
  - intros I. apply in_concat in I. destruct I as (x & I1 & I2). apply in_map_iff in I1. destruct I1 as (w & <- & I1).
    rewrite Forall_forall in F. destruct (F w I1) as (_ & C & _). apply in_app_iff in I2. destruct I2 as [I2|[I2|[]]]; [exact (C I2)|discriminate].
Qed.

(** ** Boxes over the reals *)
Open Scope R_scope.
Lemma grow_tight b xys q : tight b xys -> tight (bb_grow b q) (xys ++ [q]).
Proof.
  intros (A & (q1 & I1 & E1) & (q2 & I2 & E2) & (q3 & I3 & E3) & (q4 & I4 & E4)). destruct q as [x y]. unfold bb_grow. cbn [nlt NumR].
  assert (M : In (x, y) (xys ++ [(x, y)])) by (apply in_app_iff; right; left; reflexivity).
  assert (L : forall z, In z xys -> In z (xys ++ [(x, y)])) by (intros; apply in_app_iff; left; assumption).
  assert (B := A q1 I1). assert (B3 := A q3 I3).
  assert (W : bx0 b <= bx1 b /\ by0 b <= by1 b) by (destruct (A q1 I1), (A q3 I3); lra).
  assert (P : forall x0 x1 y0 y1, x0 <= bx0 b -> bx1 b <= x1 -> y0 <= by0 b -> by1 b <= y1 -> x0 <= x <= x1 -> y0 <= y <= y1 ->
    forall q, In q (xys ++ [(x, y)]) -> x0 <= fst q <= x1 /\ y0 <= snd q <= y1).
  { intros x0 x1 y0 y1 ? ? ? ? ? ? q I. apply in_app_iff in I. destruct I as [I|[<-|[]]]; [destruct (A q I); lra|cbn; lra]. }
  destruct (Rlt_bool_spec x (bx0 b)) as [X0|X0]; [|destruct (Rlt_bool_spec (bx1 b) x) as [X1|X1]];
  (destruct (Rlt_bool_spec y (by0 b)) as [Y0|Y0]; [|destruct (Rlt_bool_spec (by1 b) y) as [Y1|Y1]]);
  (split; [cbn [bx0 by0 bx1 by1]; apply P; lra|]); cbn [bx0 by0 bx1 by1];
  repeat split; first [exists (x, y); split; [exact M|reflexivity] | exists q1; split; [apply L; exact I1|exact E1] | exists q2; split; [apply L; exact I2|exact E2] |
    exists q3; split; [apply L; exact I3|exact E3] | exists q4; split; [apply L; exact I4|exact E4]].
Qed.
Lemma points_tight xys b : bb_of_points xys = Ok b -> tight b xys.
Proof.
  destruct xys as [|p r]; [discriminate|]. cbn [bb_of_points]. intros E. injection E as <-.
  assert (G : forall r pre b, tight b pre -> tight (fold_left bb_grow r b) (pre ++ r)).
  { clear. induction r as [|q r IH]; intros pre b T; [rewrite app_nil_r; exact T|]. cbn [fold_left].
    change (q :: r) with ([q] ++ r). rewrite app_assoc. apply IH. apply grow_tight. exact T. }
  apply (G r [p]). split.
  - intros q [<-|[]]. cbn. lra.
  - repeat split; exists p; (split; [left; reflexivity|reflexivity]).
Qed.
Lemma tight_unique a b xys : tight a xys -> tight b xys -> a = b.
Proof.
  intros (A & (p1 & I1 & E1) & (p2 & I2 & E2) & (p3 & I3 & E3) & (p4 & I4 & E4)) (B & (q1 & J1 & F1) & (q2 & J2 & F2) & (q3 & J3 & F3) & (q4 & J4 & F4)).
  rewrite <- (bbox_eta a), <- (bbox_eta b).
  assert (X1 := A _ J1). assert (X2 := A _ J2). assert (X3 := A _ J3). assert (X4 := A _ J4).
  assert (Y1 := B _ I1). assert (Y2 := B _ I2). assert (Y3 := B _ I3). assert (Y4 := B _ I4).
  f_equal; lra.
Qed.
Lemma collide_overlap a b : bb_collide a b = true <-> overlap a b.
Proof.
  unfold bb_collide, overlap. cbn [nle nlt NumR].
  repeat match goal with
  | |- context [Rle_bool ?x ?y] => destruct (Rle_bool_spec x y)
  | |- context [Rlt_bool ?x ?y] => destruct (Rlt_bool_spec x y)
  end; cbn; split; intros H; try discriminate; try reflexivity; try lra.
Qed.

(** ** Fuel *)
Lemma eckert_loop_fun n m s t a b : eckert_loop n s t = Some a -> eckert_loop m s t = Some b -> a = b.
Proof.
  revert m t. induction n as [|n IH]; intros [|m] t Ha Hb; try discriminate. cbn [eckert_loop] in *.
  destruct (ndivE _ _) as [d|e]; [|congruence]. destruct (Rlt_bool _ _); [|congruence]. eapply IH; eassumption.
Qed.
Lemma geo2rect_fun n m p lon lat a b : geo2rect n p lon lat = Some a -> geo2rect m p lon lat = Some b -> a = b.
Proof.
  destruct p as [c p|[] p|k]; [destruct c| | |]; cbn [geo2rect]; try congruence.
  unfold eckert_geo2rect. destruct (eckert_loop n _ _) as [x|] eqn:E1; [|discriminate]. destruct (eckert_loop m _ _) as [y|] eqn:E2; [|discriminate].
  rewrite (eckert_loop_fun _ _ _ _ _ _ E1 E2). congruence.
Qed.
Lemma project_sound n p points xys : project n p points = Some (Ok xys) -> projects p points xys.
Proof.
  revert xys. induction points as [|[lon lat] r IH]; intros xys E; cbn [project] in E.
  - injection E as <-. constructor.
  - destruct (geo2rect n p lon lat) as [[xy|e]|] eqn:G; try discriminate. destruct (project n p r) as [[l|e]|]; try discriminate. cbn in E. injection E as <-.
    constructor; [exists n; exact G|]. apply IH. reflexivity.
Qed.
Lemma projects_fun p points a b : projects p points a -> projects p points b -> a = b.
Proof.
  intros H. revert b. induction H as [|g xy l l' [n Hn] _ IH]; intros b H'; inversion H' as [|? xy' ? ? [m Hm] H2]; subst; [reflexivity|].
  f_equal; [|apply IH; exact H2]. pose proof (geo2rect_fun _ _ _ _ _ _ _ Hn Hm) as E. congruence.
Qed.
Lemma any_collides_ok n f parts v : any_collides n f parts = Some (Ok v) -> (v = true <-> visible f parts).
Proof.
  revert v. induction parts as [|poly r IH]; intros v E; cbn [any_collides] in E.
  - injection E as <-. split; [discriminate|]. intros (p & _ & _ & [] & _).
  - destruct (project n (fr_proj f) poly) as [[xys|e]|] eqn:P; try discriminate. destruct (bb_of_points xys) as [bb|e] eqn:B; try discriminate.
    apply project_sound in P. assert (T := points_tight _ _ B).
    destruct (bb_collide (fr_box f) bb) eqn:C.
    + injection E as <-. split; [|reflexivity]. intros _. apply collide_overlap in C. exists poly, xys, bb. split; [left; reflexivity|]. split; [exact P|]. split; assumption.
    + rewrite (IH v E). split; intros (p & x & b & I & H1 & H2 & H3).
      * exists p, x, b. split; [right; exact I|]. auto.
      * destruct I as [<-|I]; [|exists p, x, b; auto]. exfalso. rewrite (projects_fun _ _ _ _ H1 P) in H2. rewrite (tight_unique _ _ _ H2 T) in H3. apply collide_overlap in H3. congruence.
Qed.
Close Scope R_scope.
Lemma cache_lines_ok n f rd names l : cache_lines n f rd names = Some (Ok l) ->
  exists sel, selects (fun name => exists parts, pf_get rd name = Ok parts /\ visible f parts) names sel /\ l = map (fun w => w ++ [10]) sel.
Proof.
  revert l. induction names as [|name r IH]; intros l E; cbn [cache_lines] in E.
  - injection E as <-. exists []. split; [constructor|reflexivity].
  - destruct (pf_get rd name) as [parts|e] eqn:G; [|discriminate]. destruct (any_collides n f parts) as [[b|e]|] eqn:A; try discriminate.
    destruct (cache_lines n f rd r) as [[l'|e]|]; try discriminate. cbn in E. injection E as <-.
    destruct (IH l' eq_refl) as (sel & S1 & ->). apply any_collides_ok in A. destruct b.
    + exists (name :: sel). split; [|reflexivity]. constructor; [|exact S1]. exists parts. split; [exact G|]. apply A. reflexivity.
    + exists sel. split; [|reflexivity]. constructor; [|exact S1]. intros (parts' & G' & V). rewrite G in G'. injection G' as <-. apply A in V. discriminate.
Qed.
Lemma selects_clean P (names sel : list (list Z)) : selects P names sel -> Forall clean names -> Forall clean sel.
Proof. induction 1; intros F; inversion F; subst; auto. Qed.
Lemma selects_forall {A} (P : A -> Prop) names sel : selects P names sel -> forall x, In x sel <-> In x names /\ P x.
Proof.
  induction 1; intros y; cbn; [tauto|rewrite IHselects|rewrite IHselects]; intuition (subst; auto; try contradiction).
Qed.
Lemma cache_ok n f rd content k : cachenames n f rd = Some (Ok (content, k)) -> Forall clean (r_names rd) ->
  exists sel, loadnames content = sel /\ selects (fun name => exists parts, pf_get rd name = Ok parts /\ visible f parts) (r_names rd) sel /\ k = Z.of_nat (length sel).
Proof.
  unfold cachenames. destruct (cache_lines n f rd (r_names rd)) as [[l|e]|] eqn:E; try discriminate. cbn [rmap]. intros H F. injection H as <- <-.
  destruct (cache_lines_ok _ _ _ _ _ E) as (sel & S1 & ->). exists sel. split; [|split; [exact S1|rewrite map_length; reflexivity]].
  apply loadnames_ok. eapply selects_clean; eassumption.
Qed.
Lemma cache_member n f rd content k name : cachenames n f rd = Some (Ok (content, k)) -> Forall clean (r_names rd) ->
  (In name (loadnames content) <-> In name (r_names rd) /\ exists parts, pf_get rd name = Ok parts /\ visible f parts).
Proof. intros C F. destruct (cache_ok _ _ _ _ _ C F) as (sel & -> & S & _). exact (selects_forall _ _ _ S name). Qed.
