(** The box of an animation, in exact arithmetic. *)
From Coq Require Import Reals Lra.
From Verif Require Import Num RealNum BBoxModel StrModel Text VectorModel PsSpec VectorSpec VectorSpecR VectorPage VectorApi ExportModel ExportSpec ExportProofs.
Open Scope R_scope.

Lemma empty_bool : bb_bool (@bb_empty R _) = false.
Proof. unfold bb_bool, bb_area. cbn [bb_empty bx0 bx1 by0 by1 Num.neq NumR nmul nsub nofZ]. destruct (Req_bool_spec ((0 - 0) * (0 - 0)) 0) as [E|E]; [reflexivity|]. lra. Qed.
Lemma touches_in l m b : (forall o, In o l -> In o m) -> touches l b -> touches m b.
Proof. intros S [(o1 & p1 & A1 & B1) [(o2 & p2 & A2 & B2) [(o3 & p3 & A3 & B3) (o4 & p4 & A4 & B4)]]]. repeat split; eauto 8. Qed.
Lemma boxed_union l m b b' : boxed l b -> boxed m b' -> boxed (l ++ m) (bb_or b b').
Proof.
  intros B B'. unfold bb_or. destruct B as [[-> N]|((P1 & P2) & Cv & To)].
  - rewrite empty_bool. cbn [negb]. destruct B' as [[-> N']|(P' & Cv' & To')].
    + left. split; [reflexivity|]. intros o p I. apply in_app_or in I. destruct I; auto.
    + right. split; [exact P'|]. split; [|apply (touches_in m); [intros o I; apply in_or_app; right; exact I|exact To']].
      intros o p I D. apply in_app_or in I. destruct I as [I|I]; [destruct (N _ _ I D)|eauto].
  - rewrite (proper_bool b P1 P2). cbn [negb]. destruct B' as [[-> N']|((P1' & P2') & Cv' & To')].
    + rewrite empty_bool. cbn [negb]. right. split; [split; assumption|]. split; [|apply (touches_in l); [intros o I; apply in_or_app; left; exact I|exact To]].
      intros o p I D. apply in_app_or in I. destruct I as [I|I]; [eauto|destruct (N' _ _ I D)].
    + rewrite (proper_bool b' P1' P2'). cbn [negb]. right. unfold nmin, nmax. cbn [nlt NumR bx0 bx1 by0 by1].
      assert (Mi : forall u v : R, (if Rlt_bool v u then v else u) <= u /\ (if Rlt_bool v u then v else u) <= v) by (intros u v; destruct (Rlt_bool_spec v u); lra).
      assert (Ma : forall u v : R, u <= (if Rlt_bool u v then v else u) /\ v <= (if Rlt_bool u v then v else u)) by (intros u v; destruct (Rlt_bool_spec u v); lra).
      pose proof (Mi (bx0 b) (bx0 b')). pose proof (Mi (by0 b) (by0 b')). pose proof (Ma (bx1 b) (bx1 b')). pose proof (Ma (by1 b) (by1 b')).
      split; [split; lra|]. split.
      * intros o p I D. unfold covers. cbn [bx0 bx1 by0 by1]. apply in_app_or in I. destruct I as [I|I]; [pose proof (Cv o p I D) as K|pose proof (Cv' o p I D) as K]; unfold covers in K; lra.
      * destruct (touches_in l (l ++ m) b ltac:(intros o I; apply in_or_app; left; exact I) To) as [A1 [A2 [A3 A4]]].
        destruct (touches_in m (l ++ m) b' ltac:(intros o I; apply in_or_app; right; exact I) To') as [B1 [B2 [B3 B4]]].
        unfold touches. cbn [bx0 bx1 by0 by1].
        split; [destruct (Rlt_bool_spec (bx0 b') (bx0 b)); assumption|]. split; [destruct (Rlt_bool_spec (bx1 b) (bx1 b')); assumption|].
        split; [destruct (Rlt_bool_spec (by0 b') (by0 b)); assumption|destruct (Rlt_bool_spec (by1 b) (by1 b')); assumption].
Qed.
Lemma boxed_fold frames lists : Forall2 (fun c l => boxed l (cv_bbox c)) frames lists -> forall l b, boxed l b ->
  boxed (l ++ concat lists) (fold_left (fun a b => bb_or a b) (map cv_bbox frames) b).
Proof.
  induction 1 as [|c m frames lists B _ IH]; intros l b Bl; [rewrite app_nil_r; exact Bl|]. cbn [map fold_left concat]. rewrite app_assoc. apply IH. apply boxed_union; assumption.
Qed.
Lemma shows_boxed c l : shows c l -> boxed l (cv_bbox c) /\ good_bg (cv_bg c).
Proof.
  intros (bg & h0 & ops & h & G & Hi & So & ->). split.
  - eapply history_boxed; [exact Hi|exact So|]. left. split; [unfold canvas_new; destruct bg as [[|l|]|]; reflexivity|]. intros o p [].
  - rewrite (hist_bg _ _ _ _ _ Hi). exact G.
Qed.
Lemma animation_box frames lists : Forall2 shows frames lists -> (exists o p, In o (concat lists) /\ drawn o p) ->
  exists u, (forall o p, In o (concat lists) -> drawn o p -> covers u p) /\ touches (concat lists) u /\ bx0 u < bx1 u /\ by0 u < by1 u /\
    let w := bx1 u - bx0 u in let h := by1 u - by0 u in
    box_of frames = mkbb (bx0 u - w / 40) (by0 u - h / 40) (bx1 u + w / 40) (by1 u + h / 40).
Proof.
  intros F (o & p & I & D). assert (F2 : Forall2 (fun c l => boxed l (cv_bbox c)) frames lists).
  { clear I D. induction F as [|c l frames lists S _ IH]; constructor; [apply shows_boxed, S|exact IH]. }
  pose proof (boxed_fold frames lists F2 [] bb_empty) as B. cbn [app] in B. destruct B as [[_ N]|((P1 & P2) & Cv & To)]; [left; split; [reflexivity|intros ? ? []]|destruct (N _ _ I D)|].
  eexists. split; [exact Cv|]. split; [exact To|]. split; [exact P1|]. split; [exact P2|]. cbv zeta. unfold box_of. set (u := fold_left _ _ _) in *.
  unfold bb_scale, bb_center, bb_width, bb_height. cbn [ndiv nmul nadd nsub nofZ NumR]. f_equal; field.
Qed.
Lemma shows_save frames lists size margin : Forall2 shows frames lists -> (exists o p, In o (concat lists) /\ drawn o p) \/ size = None ->
  Forall (fun c => exists v, save (set_bbox (box_of frames) c) size margin = Ok v) frames.
Proof.
  intros F H. assert (W : size = None \/ Rmax (bb_width (box_of frames)) (bb_height (box_of frames)) <> 0).
  { destruct H as [H|H]; [right|left; exact H]. destruct (animation_box frames lists F H) as [u [_ [_ [P1 [P2 E]]]]]. rewrite E. unfold bb_width, bb_height. cbn [bx0 bx1 by0 by1 nsub NumR].
    match goal with |- Rmax ?a ?b <> 0 => pose proof (Rmax_l a b) end. lra. }
  revert W. generalize (box_of frames) as b. clear H. intros b W. induction F as [|c l frames lists S _ IH]; constructor; [|exact IH].
  pose proof (save_result (set_bbox b c) size margin (proj2 (shows_boxed c l S))) as K. destruct size as [sz|]; [|exact K].
  destruct W as [W|W]; [discriminate|]. apply K. exact W.
Qed.
Lemma nothing_drawn shell folder gif frames lists delay device size margin (s : sys R) : Forall2 shows frames lists -> frames <> [] ->
  (forall o p, In o (concat lists) -> ~ drawn o p) ->
  exists s1 frames1, animation shell folder gif frames delay device (Some size) margin s = (s1, frames1, Raised ZeroDivisionError) /\ s_ran s1 = s_ran s.
Proof.
  intros F NE N. assert (F2 : Forall2 (fun c l => boxed l (cv_bbox c)) frames lists).
  { clear NE N. induction F as [|c l frames lists S _ IH]; constructor; [apply shows_boxed, S|exact IH]. }
  pose proof (boxed_fold frames lists F2 [] bb_empty) as B. cbn [app] in B. destruct B as [[E _]|(_ & _ & (o & p & I & D & _) & _)]; [left; split; [reflexivity|intros ? ? []]| |destruct (N _ _ I D)].
  unfold animation. change (bb_scale _ _) with (box_of frames).
  assert (Q : Rmax (bb_width (box_of frames)) (bb_height (box_of frames)) = 0).
  { unfold box_of. rewrite E. unfold bb_width, bb_height, bb_scale, bb_center, bb_empty, bb_width, bb_height. cbn [bx0 bx1 by0 by1 nadd nsub nmul ndiv nofZ NumR].
    match goal with |- Rmax ?a ?b = 0 => replace a with 0 by field; replace b with 0 by field end. apply Rmax_left. lra. }
  generalize dependent (box_of frames). intros b Q. destruct F as [|c l frames lists S _]; [congruence|]. cbn [shoot].
  pose proof (save_result (set_bbox b c) (Some size) margin (proj2 (shows_boxed c l S))) as [K _]. unfold canvas_export. rewrite (K Q). do 2 eexists. split; reflexivity.
Qed.
