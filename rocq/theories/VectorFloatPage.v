(** The page of drawings with double coordinates. *)
From Coq Require Import ZArith Reals Lia Lra List SpecFloat Bool.
From Flocq Require Import Core IEEE754.BinarySingleNaN.
From Verif Require Import Num RealNum FloatLib GridFloat BBoxModel StrModel Text VectorModel BBoxFloatSpec BBoxFloat VectorSpecR FrameSpec FrameProofs VectorPage VectorApi VectorFloatSpec VectorFloat.
From Verif Require BBoxScale.
Import ListNotations.
Open Scope R_scope.

Section Bg.
  Context {T : Type} `{PyNum T}.
  Lemma setink_bg c i c' : setink c i = (c', Ok tt) -> cv_bg c' = cv_bg c.
  Proof.
    destruct i as [v|[|r [|gr [|b [|]]]]|]; cbn [setink]; intros Q; try discriminate; injection Q as <-.
    - unfold setgray. destruct (Num.neq _ _); reflexivity.
    - unfold setcolor. destruct (nums_eqb _ _); reflexivity.
  Qed.
  Lemma paint_bg c f s c' : paint c f s = (c', Ok tt) -> cv_bg c' = cv_bg c.
  Proof.
    unfold paint. intros Q. destruct f as [f|], s as [s|].
    - destruct (setink _ f) as [c2 [[]|e]] eqn:S1; [|discriminate]. cbv iota beta in Q. destruct (setink _ s) as [c3 [[]|e]] eqn:S2; [|discriminate]. injection Q as <-.
      cbn [emit cv_bg]. rewrite (setink_bg _ _ _ S2). cbn [emit cv_bg]. rewrite (setink_bg _ _ _ S1). reflexivity.
    - destruct (setink _ f) as [c2 [[]|e]] eqn:S1; [|discriminate]. injection Q as <-. cbn [emit cv_bg]. rewrite (setink_bg _ _ _ S1). reflexivity.
    - cbv iota beta in Q. destruct (setink _ s) as [c2 [[]|e]] eqn:S1; [|discriminate]. injection Q as <-. cbn [emit cv_bg]. rewrite (setink_bg _ _ _ S1). reflexivity.
    - injection Q as <-. reflexivity.
  Qed.
  Lemma emits_bg {A} (f : A -> list (ch T)) l : forall c : canvas T, cv_bg (fold_left (fun c q => emit c (f q)) l c) = cv_bg c.
  Proof. induction l as [|x l IH]; intros c; cbn [fold_left]; [reflexivity|]. rewrite IH. reflexivity. Qed.
  Lemma perform_bg h c o h' c' : perform h c o = (h', (c', Ok tt)) -> cv_bg c' = cv_bg c.
  Proof.
    intros Q. destruct o as [v|r gr b|i|w|d off|[x y] r f s|l s|l f s|l r f s|p s z fo an|da w p z col| |d l]; cbn [perform] in Q.
    - injection Q as <- <-. unfold setgray. destruct (Num.neq _ _); reflexivity.
    - injection Q as <- <-. unfold setcolor. destruct (nums_eqb _ _); reflexivity.
    - injection Q as <- Q. apply (setink_bg _ _ _ Q).
    - injection Q as <- <-. unfold setwidth. destruct (Num.neq _ _); reflexivity.
    - injection Q as <- <-. unfold setdash. destruct (_ && _); reflexivity.
    - injection Q as <- Q. unfold addcircle, and_then in Q. destruct (paint _ f s) as [c2 [[]|e]] eqn:Pt; [|discriminate]. injection Q as <-. cbn [grow cv_bg]. rewrite (paint_bg _ _ _ _ Pt). reflexivity.
    - destruct l as [|p r]; injection Q as <- Q; [subst c'; reflexivity|]. cbn [addpolyline] in Q. destruct s as [s|].
      + destruct (setink _ s) as [c2 [[]|e]] eqn:S1; [|discriminate]. cbn [and_then] in Q. injection Q as <-. cbn [grow emit cv_bg]. rewrite (setink_bg _ _ _ S1), emits_bg. reflexivity.
      + cbn [and_then] in Q. injection Q as <-. cbn [grow emit cv_bg]. rewrite emits_bg. reflexivity.
    - destruct l as [|p r]; injection Q as <- Q; [subst c'; reflexivity|]. cbn [addpolygon] in Q. unfold and_then in Q.
      destruct (paint _ f s) as [c2 [[]|e]] eqn:Pt; [|discriminate]. injection Q as <-. cbn [grow cv_bg]. rewrite (paint_bg _ _ _ _ Pt). cbn [emit cv_bg]. rewrite emits_bg. reflexivity.
    - injection Q as <- Q. unfold addroundedpolygon in Q. destruct l as [|[x1 y1] [|[x2 y2] rest]]; try discriminate. cbv zeta in Q. unfold and_then in Q.
      destruct (paint _ f s) as [c2 [[]|e]] eqn:Pt; [|discriminate]. destruct (bb_of_points _) as [b|e] eqn:B; [|discriminate]. injection Q as <-. cbn [grow cv_bg]. rewrite (paint_bg _ _ _ _ Pt).
      match goal with |- context [fold_left ?f ?l ?c0] => assert (Fd : cv_bg (fold_left f l c0) = cv_bg c0) end.
      { match goal with |- cv_bg (fold_left ?f ?l ?c0) = _ => generalize c0; generalize l end. clear.
        induction l as [|[[u1 v1] [u2 v2]] l IH]; intros c3; [reflexivity|]. cbn [fold_left]. rewrite IH. reflexivity. }
      cbn [emit cv_bg] in Fd |- *. rewrite Fd. reflexivity.
    - injection Q as <- Q. unfold addtext in Q. destruct (existsb (zlist_eqb an) ANCHORS) eqn:A; [|discriminate]. destruct p as [x y]. injection Q as <-. reflexivity.
    - injection Q as <- Q. unfold addimage in Q. destruct (_ =? 0)%Z; [discriminate|].
      assert (Fe : forall rows (c0 : canvas T), cv_bg (fold_left emit rows c0) = cv_bg c0).
      { clear. induction rows as [|r rows IH]; intros c0; cbn [fold_left]; [reflexivity|]. rewrite IH. reflexivity. }
      destruct p as [[x y]|]; injection Q as <-; cbn [grow cv_bg emit]; rewrite Fe; reflexivity.
    - injection Q as <- <-. reflexivity.
    - injection Q as <- <-. reflexivity.
  Qed.
  Lemma history_bg l : forall h c hf cf, history h c l = Some (hf, cf) -> cv_bg cf = cv_bg c.
  Proof.
    induction l as [|o r IH]; intros h c hf cf Q; [injection Q as <- <-; reflexivity|]. cbn [history] in Q.
    destruct (perform h c o) as [h1 [c1 [[]|e]]] eqn:P; [|discriminate]. rewrite (IH _ _ _ _ Q). exact (perform_bg _ _ _ _ _ P).
  Qed.
End Bg.
(** ** What save writes *)
Definition page_scale (b : bbox f64) (s m : f64) : res f64 := ndivE (nsub s m) (nmax (bb_width b) (bb_height b)).
Lemma cut_page {A} (f : list A -> list A) (a d b p q e : list (list A)) w : flat_map f p = w ->
  exists pre post, flat_map f ((a ++ d ++ b ++ p ++ q) ++ e) = pre ++ w ++ post.
Proof.
  intros <-. exists (flat_map f (a ++ d ++ b)), (flat_map f (q ++ e)). rewrite !flat_map_app, <- !app_assoc. reflexivity.
Qed.
Lemma page_text h k cx cy : flat_map (fun l : list (ch f64) => l ++ [C 10])
  [[N h] ++ sp ++ [N h] ++ tx " translate"; [N k] ++ sp ++ [N k] ++ tx " scale"; [N cx] ++ sp ++ [N cy] ++ tx " translate"] = page_lines h k cx cy.
Proof. reflexivity. Qed.
Lemma save_page (c : canvas f64) s m : good_bg (cv_bg c) ->
  match page_scale (cv_bbox c) s m with
  | Ok k => exists pre post, save c (Some s) m = Ok (pre ++ page_lines (ndiv s (nofZ 2)) k (nsub (nofZ 0) (fst (bb_center (cv_bbox c)))) (nsub (nofZ 0) (snd (bb_center (cv_bbox c)))) ++ post)
  | Err e => save c (Some s) m = Err e
  end.
Proof.
  intros G. unfold save, save_header, page_scale. set (ks := filter _ KEYS).
  assert (Ik : incl ks KEYS) by (intros k I; apply filter_In in I; apply I).
  rewrite (mapM_defs ks Ik). cbn [bind]. set (sc := ndivE _ _). clearbody sc. unfold bb_center. cbn [fst snd].
  set (cx := nsub (nofZ 0) (ndiv (nadd (bx0 _) _) _)). set (cy := nsub (nofZ 0) (ndiv (nadd (by0 _) _) _)). set (h := ndiv s (nofZ 2)). clearbody cx cy h.
  set (defs := map _ ks). clearbody defs. set (h4 := [tx "%!PS-Adobe-3.0 EPSF-3.0"; _; _; _]). clearbody h4.
  set (bg := match cv_bg c with Some _ => _ | None => _ end).
  assert (B : exists bl, bg = Ok bl) by (unfold bg; destruct (cv_bg c) as [[v|[|r [|gr [|b l]]]|]|]; try contradiction; cbn [bind]; eexists; reflexivity).
  destruct B as (bl & ->). cbn [bind]. destruct sc as [k|e]; cbn [bind]; [|reflexivity].
  destruct (cut_page (fun l : list (ch f64) => l ++ [C 10]) h4 defs bl _ [[]] (cv_lines c) _ (page_text h k cx cy)) as (pre & post & E). exists pre, post. f_equal. exact E.
Qed.
(** ** How good the numbers are *)
Lemma ndivE_nz x y v : isf y v -> v <> 0 -> @ndivE f64 _ x y = Ok (fdiv x y).
Proof.
  intros I N. unfold ndivE. change (@Num.neq f64 NumF) with SFeqb. change (@nofZ f64 NumF 0) with (fofZ 0).
  rewrite (isf_eq _ _ v 0 I (isf_int 0 ltac:(lia))). destruct (Raux.Req_bool_spec v 0); [contradiction|reflexivity].
Qed.
Lemma mul_rel v : bpow radix2 (-910) <= v -> Rabs (rnd v - v) <= v * (uu * (1 + / 100)).
Proof.
  intros L. pose proof (bpow_gt_0 radix2 (-910)). destruct (rnd_rel v) as (e & d & E & D & ->). replace (v * (1 + e) + d - v) with (v * e + d) by ring. eapply Rle_trans; [apply Rabs_triang|].
  assert (Rabs (v * e) <= v * uu) by (rewrite Rabs_mult, (Rabs_pos_eq v) by lra; apply Rmult_le_compat_l; lra).
  assert (bpow radix2 (-1000) <= v * (uu * / 100)).
  { apply Rle_trans with (bpow radix2 (-910) * bpow radix2 (-60)); [rewrite <- bpow_plus; apply bpow_le; lia|].
    apply Rmult_le_compat; try apply bpow_ge_0; [exact L|]. change (bpow radix2 (-60)) with (/ 1152921504606846976). lra. }
  lra.
Qed.
Lemma page_side lo hi x0 x1 : isf x0 lo -> isf x1 hi -> side lo hi -> lo < hi ->
  exists c, isf (nsub (nofZ 0) (ndiv (nadd x0 x1) (nofZ 2))) c /\ Rabs ((lo + hi) / 2 + c) <= slack lo hi * (5 / 8).
Proof.
  intros I0 I1 S L. pose proof S as (A & B & C). destruct C as [C|C]; [lra|].
  assert (M1 : Rabs (lo + hi) <= bpow radix2 501).
  { change 501%Z with (500 + 1)%Z. rewrite bpow_plus, pow500. change (bpow radix2 1) with 2. apply Rabs_le_inv in A. apply Rabs_le_inv in B. apply Rabs_le. lra. }
  assert (J1 : isf (nadd x0 x1) (rnd (lo + hi))) by (apply isf_fadd; [assumption|assumption|apply (BBoxScale.small_at _ 501); [lia|exact M1]]).
  assert (M2 : Rabs (rnd (lo + hi)) <= bpow radix2 501) by (apply rnd_abs_le; [lia|exact M1]).
  assert (M3 : Rabs (rnd (lo + hi) / 2) <= bpow radix2 501) by (apply Rabs_le_inv in M2; pose proof (bpow_gt_0 radix2 501); apply Rabs_le; lra).
  assert (J2 : isf (ndiv (nadd x0 x1) (nofZ 2)) (rnd (rnd (lo + hi) / 2))).
  { apply isf_fdiv; [exact J1|apply (isf_int 2); lia|lra|apply (BBoxScale.small_at _ 501); [lia|exact M3]]. }
  set (c := rnd (rnd (lo + hi) / 2)) in *.
  assert (M4 : Rabs c <= bpow radix2 501) by (apply rnd_abs_le; [lia|exact M3]).
  assert (J3 : isf (nsub (nofZ 0) (ndiv (nadd x0 x1) (nofZ 2))) (rnd (0 - c))).
  { apply isf_fsub; [apply (isf_int 0); lia|exact J2|apply (BBoxScale.small_at _ 501); [lia|rewrite Rminus_0_l, Rabs_Ropp; exact M4]]. }
  assert (E3 : rnd (0 - c) = - c) by (rewrite Rminus_0_l; apply round_generic; [apply valid_rnd_N|]; apply generic_format_opp; exact (isf_format _ _ J2)).
  rewrite E3 in J3. exists (- c). split; [exact J3|].
  pose proof (rel_add lo hi (fm_isf _ _ I0) (fm_isf _ _ I1)) as E1. set (t := rnd (lo + hi)) in *.
  pose proof (rnd_near (t / 2) _ (Rle_refl _)) as E2. fold c in E2.
  destruct (slack_max lo hi) as (S0 & S1 & S2).
  assert (AB : Rabs (lo + hi) <= slack lo hi * 4503599627370496) by (eapply Rle_trans; [apply Rabs_triang|]; lra).
  assert (AT : Rabs (t / 2) <= slack lo hi * 2251799813685249).
  { assert (AT' : Rabs t <= slack lo hi * 4503599627370498).
    { replace t with ((t - (lo + hi)) + (lo + hi)) by ring. eapply Rle_trans; [apply Rabs_triang|]. lra. }
    unfold Rdiv. rewrite Rabs_mult, (Rabs_pos_eq (/ 2)) by lra. lra. }
  assert (W : hi - lo <= slack lo hi * 4503599627370496).
  { pose proof (Rle_abs hi). pose proof (Rle_abs (- lo)). rewrite Rabs_Ropp in *. lra. }
  assert (TN : bpow radix2 (-1000) <= slack lo hi * / 1000).
  { apply Rle_trans with (bpow radix2 (-500) * bpow radix2 (-100)); [rewrite <- bpow_plus; apply bpow_le; lia|].
    assert (Z1 : bpow radix2 (-500) <= slack lo hi * 4503599627370496) by (rewrite pow_500; lra).
    assert (Z2 : bpow radix2 (-100) <= / 4503599627370496 * / 1000) by (apply Rle_trans with (bpow radix2 (-62)); [apply bpow_le; lia|change (bpow radix2 (-62)) with (/ 4611686018427387904); lra]).
    apply Rle_trans with (slack lo hi * 4503599627370496 * (/ 4503599627370496 * / 1000)); [apply Rmult_le_compat; try apply bpow_ge_0; assumption|lra]. }
  apply Rabs_le_inv in E1. apply Rabs_le_inv in E2. apply Rabs_le. split; lra.
Qed.
Lemma page_half s S m : isf s S -> page_ok S m -> exists h, isf (ndiv s (nofZ 2)) h /\ Rabs (h - S / 2) <= S * uu.
Proof.
  intros I (M0 & L & U). destruct pow_chain as (P1 & P2 & P3).
  assert (M1 : Rabs (S / 2) <= bpow radix2 400) by (rewrite pow400; apply Rabs_le; lra).
  exists (rnd (S / 2)). split; [apply isf_fdiv; [exact I|apply (isf_int 2); lia|lra|apply (BBoxScale.small_at _ 400); [lia|exact M1]]|].
  assert (Lo : bpow radix2 (-910) <= S / 2).
  { apply Rle_trans with (bpow radix2 (-401)); [apply bpow_le; lia|]. change (-401)%Z with (-400 + -1)%Z. rewrite bpow_plus, pow_400. change (bpow radix2 (-1)) with (/ 2). lra. }
  pose proof (mul_rel _ Lo). lra.
Qed.
Lemma longer_pos b : BBoxFloatSpec.solid b -> 0 < longer b /\ bx1 b - bx0 b <= longer b /\ by1 b - by0 b <= longer b.
Proof. intros [A B]. unfold longer. pose proof (Rmax_l (bx1 b - bx0 b) (by1 b - by0 b)). pose proof (Rmax_r (bx1 b - bx0 b) (by1 b - by0 b)). lra. Qed.
Lemma page_scale_ok b r s m S M : doubles b r -> ordinary r -> BBoxFloatSpec.solid r -> isf s S -> isf m M -> page_ok S M ->
  exists k K, page_scale b s m = Ok k /\ isf k K /\ Rabs (K - (S - M) / longer r) <= (S - M) / longer r * / 2251799813685248.
Proof.
  intros (X0 & Y0 & X1 & Y1) (SX & SY) Sd Is Im (M0 & L & U). destruct pow_chain as (P1 & P2 & P3). destruct (longer_pos r Sd) as (LP & LX & LY). destruct Sd as [Sx Sy].
  assert (Jx : isf (bb_width b) (rnd (bx1 r - bx0 r))) by (apply isf_fsub; [assumption|assumption|apply (BBoxScale.small_at _ 501); [lia|apply side_small; exact SX]]).
  assert (Jy : isf (bb_height b) (rnd (by1 r - by0 r))) by (apply isf_fsub; [assumption|assumption|apply (BBoxScale.small_at _ 501); [lia|apply side_small; exact SY]]).
  pose proof (max_isf _ _ _ _ Jx Jy) as Jm.
  assert (EM : Rmax (rnd (bx1 r - bx0 r)) (rnd (by1 r - by0 r)) = rnd (longer r)).
  { unfold longer, Rmax. destruct (Rle_dec (bx1 r - bx0 r) (by1 r - by0 r)) as [A|A]; destruct (Rle_dec (rnd (bx1 r - bx0 r)) (rnd (by1 r - by0 r))) as [B|B]; try reflexivity.
    - apply rnd_le in A. lra.
    - assert (C : by1 r - by0 r <= bx1 r - bx0 r) by lra. apply rnd_le in C. lra. }
  rewrite EM in Jm.
  assert (El : Rabs (rnd (longer r) - longer r) <= longer r * uu).
  { assert (G : Rabs (rnd (longer r) - longer r) <= Rabs (longer r) * uu).
    { unfold longer, Rmax. destruct (Rle_dec _ _); apply rel_sub; eapply fm_isf; eassumption. }
    rewrite (Rabs_pos_eq (longer r)) in G by lra. exact G. }
  assert (Lb : bpow radix2 (-500) <= longer r <= bpow radix2 501).
  { split.
    - rewrite pow_500. destruct SX as (_ & _ & [E|E]); lra.
    - unfold longer. pose proof (side_small _ _ SX) as A. pose proof (side_small _ _ SY) as B. apply Rabs_le_inv in A. apply Rabs_le_inv in B. apply Rmax_lub; lra. }
  assert (Lr : bpow radix2 (-500) <= rnd (longer r) <= bpow radix2 501).
  { split; [apply rnd_ge; [lia|apply Lb]|]. rewrite <- (rnd_bpow 501) by lia. apply rnd_le. apply Lb. }
  pose proof (rel_sub S M (fm_isf _ _ Is) (fm_isf _ _ Im)) as Ed.
  assert (Bd : Rabs (S - M) <= bpow radix2 400) by (rewrite pow400; apply Rabs_le; lra).
  rewrite (Rabs_pos_eq (S - M)) in Ed by lra.
  assert (Jd : isf (nsub s m) (rnd (S - M))) by (apply isf_fsub; [assumption|assumption|apply (BBoxScale.small_at _ 400); [lia|exact Bd]]).
  assert (Dr : bpow radix2 (-400) <= rnd (S - M) <= bpow radix2 400).
  { split; [apply rnd_ge; [lia|rewrite pow_400; lra]|]. rewrite <- (rnd_bpow 400) by lia. apply rnd_le. apply Rabs_le_inv in Bd. lra. }
  set (D := S - M) in *. set (D' := rnd D) in *. set (W := longer r) in *. set (W' := rnd W) in *.
  pose proof (bpow_gt_0 radix2 (-500)) as Z5. pose proof (bpow_gt_0 radix2 (-400)) as Z4.
  assert (W0 : 0 < W') by lra.
  assert (Ql : bpow radix2 (-910) <= D' / W').
  { apply Rle_trans with (bpow radix2 (-400) * bpow radix2 (-501)); [rewrite <- bpow_plus; apply bpow_le; lia|].
    unfold Rdiv. apply Rmult_le_compat; try apply bpow_ge_0; [apply Dr|]. replace (bpow radix2 (-501)) with (/ bpow radix2 501) by (rewrite <- bpow_opp; reflexivity). apply Rinv_le; [exact W0|apply Lr]. }
  assert (Qu : D' / W' <= bpow radix2 900).
  { apply Rle_trans with (bpow radix2 400 * bpow radix2 500); [|rewrite <- bpow_plus; apply bpow_le; lia].
    unfold Rdiv. apply Rmult_le_compat; [lra|left; apply Rinv_0_lt_compat; exact W0|apply Dr|]. replace (bpow radix2 500) with (/ bpow radix2 (-500)) by (rewrite <- bpow_opp; reflexivity). apply Rinv_le; [exact Z5|apply Lr]. }
  pose proof (bpow_gt_0 radix2 (-910)) as Z9.
  unfold page_scale. rewrite (ndivE_nz _ _ W' Jm ltac:(lra)). exists (fdiv (nsub s m) (nmax (bb_width b) (bb_height b))), (rnd (D' / W')).
  split; [reflexivity|]. split; [apply isf_fdiv; [exact Jd|exact Jm|lra|apply (BBoxScale.small_at _ 900); [lia|rewrite Rabs_pos_eq; lra]]|].
  pose proof (mul_rel _ Ql) as Eq.
  (* D' / W' against D / W *)
  assert (DP : 0 < D) by (unfold D; lra). assert (QP : 0 < D / W) by (apply Rdiv_lt_0_compat; assumption).
  apply Rabs_le_inv in Ed. apply Rabs_le_inv in El.
  assert (H1 : D' / W' <= D / W * (1 + 5 / 2 * uu)).
  { apply Rmult_le_reg_r with W'; [exact W0|]. replace (D' / W' * W') with D' by (field; lra).
    apply Rle_trans with (D / W * (1 + 5 / 2 * uu) * (W * (1 - uu))); [|apply Rmult_le_compat_l; [apply Rmult_le_pos; lra|lra]].
    replace (D / W * (1 + 5 / 2 * uu) * (W * (1 - uu))) with (D * ((1 + 5 / 2 * uu) * (1 - uu))) by (field; lra). lra. }
  assert (H2 : D / W * (1 - 5 / 2 * uu) <= D' / W').
  { apply Rmult_le_reg_r with W'; [exact W0|]. replace (D' / W' * W') with D' by (field; lra).
    apply Rle_trans with (D / W * (1 - 5 / 2 * uu) * (W * (1 + uu))); [apply Rmult_le_compat_l; [apply Rmult_le_pos; lra|lra]|].
    replace (D / W * (1 - 5 / 2 * uu) * (W * (1 + uu))) with (D * ((1 - 5 / 2 * uu) * (1 + uu))) by (field; lra). lra. }
  set (q := D / W) in *. set (q' := D' / W') in *. apply Rabs_le_inv in Eq. apply Rabs_le. lra.
Qed.
(** ** Where things land *)
Definition is_page (b : bbox R) (S M : R) (h k cx cy : R) : Prop :=
  Rabs (h - S / 2) <= S * uu /\ Rabs (k - (S - M) / longer b) <= (S - M) / longer b * / 2251799813685248 /\
  Rabs ((bx0 b + bx1 b) / 2 + cx) <= slack (bx0 b) (bx1 b) * (5 / 8) /\ Rabs ((by0 b + by1 b) / 2 + cy) <= slack (by0 b) (by1 b) * (5 / 8).
(** One direction *)
Lemma land lo hi w D S h k c v t z : 0 < w -> 0 <= D <= S -> hi - lo <= w -> lo <= hi -> 0 <= z ->
  Rabs (h - S / 2) <= S * uu -> Rabs (k - D / w) <= D / w * / 2251799813685248 -> Rabs ((lo + hi) / 2 + c) <= z * (5 / 8) ->
  0 <= t <= 1 -> Rabs (v - (lo + hi) / 2) <= t * ((hi - lo) / 2 + z) ->
  Rabs (h + k * (v + c) - S / 2) <= t * (D / 2) + (S / 2251799813685248 + 2 * (D / w) * z).
Proof.
  intros W [D0 DS] HW LH Z0 Eh Ek Ec [T0 T1] Ev.
  assert (Q0 : 0 <= D / w) by (apply Rmult_le_pos; [exact D0|left; apply Rinv_0_lt_compat; exact W]).
  assert (QW : D / w * w = D) by (field; lra). set (q := D / w) in *.
  assert (K0 : Rabs k <= q * (1 + / 2251799813685248)) by (apply Rabs_le_inv in Ek; apply Rabs_le; lra).
  assert (V : Rabs (v + c) <= t * (w / 2) + z * (13 / 8)).
  { replace (v + c) with ((v - (lo + hi) / 2) + ((lo + hi) / 2 + c)) by ring. eapply Rle_trans; [apply Rabs_triang|].
    assert (t * ((hi - lo) / 2 + z) <= t * (w / 2) + z).
    { rewrite Rmult_plus_distr_l. apply Rplus_le_compat; [apply Rmult_le_compat_l; lra|]. rewrite <- (Rmult_1_l z) at 2. apply Rmult_le_compat_r; lra. }
    lra. }
  replace (h + k * (v + c) - S / 2) with ((h - S / 2) + k * (v + c)) by ring. eapply Rle_trans; [apply Rabs_triang|]. rewrite (Rabs_mult k).
  assert (KV : Rabs k * Rabs (v + c) <= q * (1 + / 2251799813685248) * (t * (w / 2) + z * (13 / 8))) by (apply Rmult_le_compat; try apply Rabs_pos; assumption).
  assert (E : q * (1 + / 2251799813685248) * (t * (w / 2) + z * (13 / 8)) = t * (D / 2) + t * D * (/ 2 * / 2251799813685248) + q * z * ((1 + / 2251799813685248) * (13 / 8))).
  { rewrite <- QW. field. }
  rewrite E in KV. assert (TD : t * D <= S) by (apply Rle_trans with (1 * D); [apply Rmult_le_compat_r; lra|lra]).
  assert (QZ : 0 <= q * z) by (apply Rmult_le_pos; assumption). lra.
Qed.
Lemma page_land b S M h k cx cy p t : BBoxFloatSpec.solid b -> page_ok S M -> is_page b S M h k cx cy -> 0 <= t <= 1 ->
  Rabs (fst p - (bx0 b + bx1 b) / 2) <= t * ((bx1 b - bx0 b) / 2 + slack (bx0 b) (bx1 b)) ->
  Rabs (snd p - (by0 b + by1 b) / 2) <= t * ((by1 b - by0 b) / 2 + slack (by0 b) (by1 b)) ->
  Rabs (fst (on_page h k cx cy p) - S / 2) <= t * ((S - M) / 2) + page_slack b S M /\
  Rabs (snd (on_page h k cx cy p) - S / 2) <= t * ((S - M) / 2) + page_slack b S M.
Proof.
  intros Sd (M0 & L & U) (Eh & Ek & Ex & Ey) T Vx Vy. destruct (longer_pos b Sd) as (LP & LX & LY). destruct Sd as [Sx Sy]. destruct pow_chain as (_ & _ & P3).
  destruct (slack_max (bx0 b) (bx1 b)) as (ZX & _). destruct (slack_max (by0 b) (by1 b)) as (ZY & _).
  assert (Q0 : 0 <= (S - M) / longer b) by (apply Rmult_le_pos; [lra|left; apply Rinv_0_lt_compat; exact LP]).
  unfold on_page, page_slack. cbn [fst snd]. rewrite pow51. set (z := Rmax (slack (bx0 b) (bx1 b)) (slack (by0 b) (by1 b))).
  assert (X : slack (bx0 b) (bx1 b) <= z) by apply Rmax_l. assert (Y : slack (by0 b) (by1 b) <= z) by apply Rmax_r.
  assert (WN : forall a, a <= z -> 2 * ((S - M) / longer b) * a <= 2 * ((S - M) / longer b) * z) by (intros a A; apply Rmult_le_compat_l; lra).
  pose proof (WN _ X) as W1. pose proof (WN _ Y) as W2.
  pose proof (land (bx0 b) (bx1 b) (longer b) (S - M) S h k cx (fst p) t _ LP ltac:(lra) LX ltac:(lra) ZX Eh Ek Ex T Vx) as A.
  pose proof (land (by0 b) (by1 b) (longer b) (S - M) S h k cy (snd p) t _ LP ltac:(lra) LY ltac:(lra) ZY Eh Ek Ey T Vy) as B.
  split; [eapply Rle_trans; [exact A|]|eapply Rle_trans; [exact B|]]; lra.
Qed.
(** ** The calls *)
Section Api.
  Variables (bg : option (ink f64)) (h0 : heap f64) (ops : list (op f64)) (OPS : list (op R)) (h : heap f64) (c : canvas f64).
  Hypothesis Hi : history h0 (canvas_new bg) ops = Some (h, c).
  Hypothesis G : Forall2 geo ops OPS.
  Hypothesis Pl : Forall plain OPS.
  Lemma api_boxed : boxed (since [] OPS) (cv_bbox c).
  Proof.
    apply (boxed_history ops OPS h0 (canvas_new bg) h c [] Hi G Pl). left. split; [unfold canvas_new; destruct bg as [[|l|]|]; reflexivity|intros o p []].
  Qed.
  Lemma api_bg : good_bg bg -> good_bg (cv_bg c).
  Proof. intros B. rewrite (history_bg _ _ _ _ _ Hi). exact B. Qed.
  Lemma api_box_F :
    ((forall o p, In o (since [] OPS) -> ~ drawn o p) -> cv_bbox c = bb_empty) /\
    ((exists o p, In o (since [] OPS) /\ drawn o p) -> exists b, doubles (cv_bbox c) b /\ bx0 b < bx1 b /\ by0 b < by1 b /\
       (forall o p, In o (since [] OPS) -> drawn o p -> coversF b p) /\ touchesF (since [] OPS) b).
  Proof.
    destruct api_boxed as [[E N]|(r & D & O & S & Cv & T)]; split.
    - intros _. exact E.
    - intros (o & p & I & Dr). elim (N o p I Dr).
    - intros N. destruct T as ((o & p & I & Dr & _) & _). elim (N o p I Dr).
    - intros _. exists r. destruct S. auto.
  Qed.
  Lemma api_page_F s m S M : good_bg bg -> isf s S -> isf m M -> page_ok S M ->
    ((forall o p, In o (since [] OPS) -> ~ drawn o p) -> save c (Some s) m = Err ZeroDivisionError) /\
    ((exists o p, In o (since [] OPS) /\ drawn o p) ->
       exists b file pre post h' k cx cy H K X Y, doubles (cv_bbox c) b /\ save c (Some s) m = Ok file /\ file = pre ++ page_lines h' k cx cy ++ post /\
         isf h' H /\ isf k K /\ isf cx X /\ isf cy Y /\ 0 < K /\
         Rabs (K - (S - M) / longer b) <= (S - M) / longer b / 2 ^ 51 /\
         (let q := on_page H K X Y ((bx0 b + bx1 b) / 2, (by0 b + by1 b) / 2) in Rabs (fst q - S / 2) <= page_slack b S M /\ Rabs (snd q - S / 2) <= page_slack b S M) /\
         (forall o p, In o (since [] OPS) -> drawn o p ->
            let q := on_page H K X Y p in
            M / 2 - page_slack b S M <= fst q <= S - M / 2 + page_slack b S M /\ M / 2 - page_slack b S M <= snd q <= S - M / 2 + page_slack b S M)).
  Proof.
    intros Gb Is Im Po. pose proof (save_page c s m (api_bg Gb)) as Sv. destruct api_boxed as [[E N]|(r & D & O & Sd & Cv & T)]; split.
    - intros _. rewrite E in Sv.
      assert (Z : page_scale bb_empty s m = Err ZeroDivisionError) by reflexivity. rewrite Z in Sv. exact Sv.
    - intros (o & p & I & Dr). elim (N o p I Dr).
    - intros N. destruct T as ((o & p & I & Dr & _) & _). elim (N o p I Dr).
    - intros _. destruct (page_scale_ok _ r s m S M D O Sd Is Im Po) as (k & K & Ek & Ik & Bk). rewrite Ek in Sv. destruct Sv as (pre & post & Sv).
      destruct (page_half s S M Is Po) as (H & Ih & Bh). pose proof D as (D0 & D1 & D2 & D3). pose proof O as (O1 & O2). pose proof Sd as (S1 & S2).
      destruct (page_side _ _ _ _ D0 D2 O1 S1) as (X & Ix & Bx). destruct (page_side _ _ _ _ D1 D3 O2 S2) as (Y & Iy & By).
      exists r. do 3 eexists. do 4 eexists. exists H, K, X, Y. split; [exact D|]. split; [exact Sv|]. split; [reflexivity|]. split; [exact Ih|]. split; [exact Ik|]. split; [exact Ix|]. split; [exact Iy|].
      assert (IP : is_page r S M H K X Y) by (split; [exact Bh|split; [exact Bk|split; assumption]]).
      destruct (longer_pos r Sd) as (LP & LX & LY). destruct pow_chain as (_ & _ & P3).
      assert (Q0 : 0 < (S - M) / longer r) by (apply Rdiv_lt_0_compat; [destruct Po as (? & ? & ?); lra|exact LP]).
      destruct (slack_max (bx0 r) (bx1 r)) as (ZX & _). destruct (slack_max (by0 r) (by1 r)) as (ZY & _).
      split; [apply Rabs_le_inv in Bk; lra|]. split; [rewrite pow51; exact Bk|]. split.
      + pose proof (page_land r S M H K X Y ((bx0 r + bx1 r) / 2, (by0 r + by1 r) / 2) 0 Sd Po IP ltac:(lra)) as A. cbn [fst snd] in A. cbv zeta.
        rewrite !Rmult_0_l, Rplus_0_l in A. apply A; (replace (_ - _) with 0 by ring; rewrite Rabs_R0; lra).
      + intros o p I Dr. cbv zeta. destruct (Cv o p I Dr) as [C1 C2].
        pose proof (page_land r S M H K X Y p 1 Sd Po IP ltac:(lra) ltac:(apply Rabs_le; lra) ltac:(apply Rabs_le; lra)) as [A B].
        rewrite Rmult_1_l in A, B. apply Rabs_le_inv in A. apply Rabs_le_inv in B. lra.
  Qed.
End Api.
