(** The canvas box and the page, in exact arithmetic. *)
From Coq Require Import Reals Lra Psatz.
From Verif Require Import Num RealNum BBoxModel StrModel Text VectorModel PsSpec PsProofs VectorSpec VectorSpecR PsText PsImage PsHead VectorProofs VectorSave FrameSpec FrameProofs.
Open Scope R_scope.

Lemma exact_R : exact_eq R.
Proof.
  split.
  - intros a b. cbn [Num.neq NumR]. destruct (Req_bool_spec a b); split; try discriminate; auto.
  - intros a b E. apply eq_IZR. exact E.
Qed.

Section Box.
  Context {T : Type} `{PyNum T}.
  Definition obox (o : op T) : option (bbox T) :=
    match o with
    | OCircle (x, y) r _ _ => Some (bb_corners (nsub x r, nsub y r) (nadd x r, nadd y r))
    | OPolyline (p :: r) _ | OPolygon (p :: r) _ _ | ORounded (p :: r) _ _ _ => Some (fold_left bb_grow r (bb_corners p p))
    | OImage data w pos z col =>
        let '(x, y) := match pos with Some q => q | None => (nofZ 0, nofZ 0) end in
        Some (bb_corners (x, y) (nadd (nmul (nofZ w) z) x, nadd (nmul (nofZ (Z.of_nat (length data) / (if col then 3 * w else w))) z) y))
    | _ => None
    end.
  Lemma setink_box c i c' : setink c i = (c', Ok tt) -> cv_bbox c' = cv_bbox c.
  Proof.
    destruct i as [v|[|r [|gr [|b [|]]]]|]; cbn [setink]; intros Q; try discriminate; injection Q as <-.
    - unfold setgray. destruct (Num.neq _ _); reflexivity.
    - unfold setcolor. destruct (nums_eqb _ _); reflexivity.
  Qed.
  Lemma paint_box c f s c' : paint c f s = (c', Ok tt) -> cv_bbox c' = cv_bbox c.
  Proof.
    unfold paint. intros Q. destruct f as [f|], s as [s|].
    - destruct (setink _ f) as [c2 [[]|e]] eqn:S1; [|discriminate]. cbv iota beta in Q. destruct (setink _ s) as [c3 [[]|e]] eqn:S2; [|discriminate]. injection Q as <-.
      cbn [emit cv_bbox]. rewrite (setink_box _ _ _ S2). cbn [emit cv_bbox]. rewrite (setink_box _ _ _ S1). reflexivity.
    - destruct (setink _ f) as [c2 [[]|e]] eqn:S1; [|discriminate]. injection Q as <-. cbn [emit cv_bbox]. rewrite (setink_box _ _ _ S1). reflexivity.
    - cbv iota beta in Q. destruct (setink _ s) as [c2 [[]|e]] eqn:S1; [|discriminate]. injection Q as <-. cbn [emit cv_bbox]. rewrite (setink_box _ _ _ S1). reflexivity.
    - injection Q as <-. reflexivity.
  Qed.
  Lemma perform_box h c o h' c' : perform h c o = (h', (c', Ok tt)) ->
    cv_bbox c' = match o with OReset => bb_empty | _ => match obox o with Some b => bb_or (cv_bbox c) b | None => cv_bbox c end end.
  Proof.
    intros Q. destruct o as [v|r gr b|i|w|d off|[x y] r f s|l s|l f s|l r f s|p s z fo an|da w p z col| |d l]; cbn [perform] in Q; cbn [obox].
    - injection Q as <- <-. unfold setgray. destruct (Num.neq _ _); reflexivity.
    - injection Q as <- <-. unfold setcolor. destruct (nums_eqb _ _); reflexivity.
    - injection Q as <- Q. apply (setink_box _ _ _ Q).
    - injection Q as <- <-. unfold setwidth. destruct (Num.neq _ _); reflexivity.
    - injection Q as <- <-. unfold setdash. destruct (_ && _); reflexivity.
    - injection Q as <- Q. unfold addcircle, and_then in Q. destruct (paint _ f s) as [c2 [[]|e]] eqn:Pt; [|discriminate]. injection Q as <-. cbn [grow cv_bbox]. rewrite (paint_box _ _ _ _ Pt). reflexivity.
    - destruct l as [|p r]; injection Q as <- Q; [subst c'; reflexivity|]. cbn [addpolyline] in Q. rewrite fold_emit in Q. destruct s as [s|].
      + destruct (setink _ s) as [c2 [[]|e]] eqn:S1; [|discriminate]. cbn [and_then] in Q. injection Q as <-. cbn [grow emit cv_bbox]. rewrite (setink_box _ _ _ S1). reflexivity.
      + cbn [and_then] in Q. injection Q as <-. reflexivity.
    - destruct l as [|p r]; injection Q as <- Q; [subst c'; reflexivity|]. cbn [addpolygon] in Q. rewrite fold_emit in Q. unfold and_then in Q.
      destruct (paint _ f s) as [c2 [[]|e]] eqn:Pt; [|discriminate]. injection Q as <-. cbn [grow cv_bbox]. rewrite (paint_box _ _ _ _ Pt). reflexivity.
    - injection Q as <- Q. unfold addroundedpolygon in Q. destruct l as [|[x1 y1] [|[x2 y2] rest]]; try discriminate. cbv zeta in Q. unfold and_then in Q.
      destruct (paint _ f s) as [c2 [[]|e]] eqn:Pt; [|discriminate]. destruct (bb_of_points _) as [b|e] eqn:B; [|discriminate]. cbn [bb_of_points] in B. 
      apply (f_equal (fun r => match r with Ok v => v | Err _ => bb_empty end)) in B. cbv beta iota in B. rewrite B. injection Q as <-. cbn [grow cv_bbox]. rewrite (paint_box _ _ _ _ Pt).
      match goal with |- context [fold_left ?f ?l ?c0] => assert (Fd : cv_bbox (fold_left f l c0) = cv_bbox c0) end.
      { match goal with |- cv_bbox (fold_left ?f ?l ?c0) = _ => generalize c0; generalize l end. clear.
        induction l as [|[[u1 v1] [u2 v2]] l IH]; intros c3; [reflexivity|]. cbn [fold_left]. rewrite IH. reflexivity. }
      cbn [emit cv_bbox] in Fd |- *. rewrite Fd. reflexivity.
    - injection Q as <- Q. unfold addtext in Q. destruct (existsb (zlist_eqb an) ANCHORS) eqn:A; [|discriminate]. destruct p as [x y]. injection Q as <-. reflexivity.
    - injection Q as <- Q. unfold addimage in Q. destruct (_ =? 0)%Z; [discriminate|].
      assert (Fe : forall rows (c0 : canvas T), cv_bbox (fold_left emit rows c0) = cv_bbox c0).
      { clear. induction rows as [|r rows IH]; intros c0; cbn [fold_left]; [reflexivity|]. rewrite IH. reflexivity. }
      destruct p as [[x y]|]; injection Q as <-; cbn [grow cv_bbox emit]; rewrite Fe; reflexivity.
    - injection Q as <- <-. reflexivity.
    - injection Q as <- <-. reflexivity.
  Qed.
End Box.

Lemma pow_sq_le e r : 0 <= r -> e ^ 2 <= r ^ 2 -> Rabs e <= r.
Proof. intros Hr Q. rewrite <- (Rabs_pos_eq r Hr). apply Rsqr_le_abs_0. unfold Rsqr. lra. Qed.
Lemma Rabs_def2_le e r : Rabs e <= r -> - r <= e <= r.
Proof. unfold Rabs. destruct (Rcase_abs e); lra. Qed.
Lemma seg_between a b p lo hi t : lo <= a <= hi -> lo <= b <= hi -> 0 <= t <= 1 -> p = a + t * (b - a) -> lo <= p <= hi.
Proof. intros A B [T1 T2] ->. split; nra. Qed.
Lemma poly_box l b : tight b l -> ((exists u v, In u l /\ In v l /\ fst u < fst v) /\ (exists u v, In u l /\ In v l /\ snd u < snd v)) ->
  (bx0 b < bx1 b /\ by0 b < by1 b) /\ (forall p, (exists u v, In u l /\ In v l /\ segment u v p) -> covers b p).
Proof.
  intros (Cv & _) ((u & v & Iu & Iv & Luv) & (u' & v' & Iu' & Iv' & Luv')). split.
  - pose proof (Cv _ Iu). pose proof (Cv _ Iv). pose proof (Cv _ Iu'). pose proof (Cv _ Iv'). lra.
  - intros p (a & c & Ia & Ic & t & Ht & Ex & Ey). destruct (Cv _ Ia) as [A1 A2]. destruct (Cv _ Ic) as [C1 C2]. split; [eapply seg_between with (a := fst a); eassumption|eapply seg_between with (a := snd a); eassumption].
Qed.
Lemma poly_touches o l b : (forall p, drawn o p <-> exists u v, In u l /\ In v l /\ segment u v p) -> tight b l -> touches [o] b.
Proof.
  intros Dr (_ & (p1 & I1 & E1) & (p2 & I2 & E2) & (p3 & I3 & E3) & (p4 & I4 & E4)).
  assert (Se : forall p, In p l -> drawn o p). { intros p I. apply Dr. exists p, p. split; [exact I|]. split; [exact I|]. exists 0. lra. }
  split; [|split; [|split]]; [exists o, p1|exists o, p2|exists o, p3|exists o, p4]; (split; [left; reflexivity|]); split; auto.
Qed.
Lemma obox_ok o b : solid o -> obox o = Some b -> (bx0 b < bx1 b /\ by0 b < by1 b) /\ (forall p, drawn o p -> covers b p) /\ touches [o] b.
Proof.
  assert (Po : forall l (p : R * R) r, l = p :: r -> forall o, (forall q, drawn o q <-> exists u v, In u l /\ In v l /\ segment u v q) ->
    l = [] \/ ((exists a b, In a l /\ In b l /\ fst a < fst b) /\ (exists a b, In a l /\ In b l /\ snd a < snd b)) ->
    (bx0 (fold_left bb_grow r (bb_corners p p)) < bx1 (fold_left bb_grow r (bb_corners p p)) /\ by0 (fold_left bb_grow r (bb_corners p p)) < by1 (fold_left bb_grow r (bb_corners p p))) /\
    (forall q, drawn o q -> covers (fold_left bb_grow r (bb_corners p p)) q) /\ touches [o] (fold_left bb_grow r (bb_corners p p))).
  { intros l p r -> o' Dr [Q|So]; [discriminate|]. assert (T : tight (fold_left bb_grow r (bb_corners p p)) (p :: r)) by (apply points_tight; reflexivity).
    destruct (poly_box _ _ T So) as [Pr Cv]. split; [exact Pr|]. split; [intros q Dq; apply Cv, Dr, Dq|]. eapply poly_touches; eassumption. }
  intros So Q. destruct o as [v|r gr bl|i|w|d off|[x y] r f s|l s|l f s|l r f s|p s z fo an|da w p z col| |d l]; cbn [obox] in Q; try discriminate.
  - injection Q as <-. cbn [solid] in So. cbn [bb_corners fst snd bx0 bx1 by0 by1 nsub nadd NumR]. split; [lra|]. split.
    + intros [u v]. cbn [drawn fst snd]. intros Dd. unfold covers. cbn [bb_corners fst snd bx0 bx1 by0 by1]. assert (G : forall e f' : R, e ^ 2 + f' ^ 2 <= r ^ 2 -> - r <= e <= r) by (intros e f' Hq; apply Rabs_def2_le, pow_sq_le; [lra|pose proof (pow2_ge_0 f'); lra]). pose proof (G _ _ Dd). rewrite Rplus_comm in Dd. pose proof (G _ _ Dd). lra.
    + unfold touches. cbn [bb_corners fst snd bx0 bx1 by0 by1].
      split; [|split; [|split]]; [exists (OCircle (x, y) r f s), (x - r, y)|exists (OCircle (x, y) r f s), (x + r, y)|exists (OCircle (x, y) r f s), (x, y - r)|exists (OCircle (x, y) r f s), (x, y + r)];
        (split; [left; reflexivity|]); cbn [drawn fst snd]; (split; [nra|reflexivity]).
  - destruct l as [|p r]; [discriminate|]. injection Q as <-. apply (Po (p :: r) p r eq_refl); [reflexivity|exact So].
  - destruct l as [|p r]; [discriminate|]. injection Q as <-. apply (Po (p :: r) p r eq_refl); [reflexivity|exact So].
  - destruct l as [|p r']; [discriminate|]. injection Q as <-. apply (Po (p :: r') p r' eq_refl); [reflexivity|exact So].
  - cbn [solid drawn] in *. fold (img_height da w col) in Q. change (nofZ 0) with 0 in Q. destruct (match p with Some q => q | None => (0, 0) end) as [x y] eqn:Px. injection Q as <-.
    cbn [bb_corners fst snd bx0 bx1 by0 by1 nadd nmul nofZ NumR]. split; [lra|]. split.
    + intros q Dd. unfold covers. cbn [bb_corners fst snd bx0 bx1 by0 by1]. lra.
    + set (sw := IZR w * z) in *. set (sh := IZR (img_height da w col) * z) in *.
      assert (Dr : forall u v, x <= u <= x + sw -> y <= v <= y + sh -> drawn (OImage da w p z col) (u, v)).
      { intros u v Hu Hv. cbn [drawn]. rewrite Px. cbn [fst snd]. split; assumption. }
      unfold touches. cbn [bb_corners fst snd bx0 bx1 by0 by1].
      split; [|split; [|split]]; [exists (OImage da w p z col), (x, y)|exists (OImage da w p z col), (sw + x, y)|exists (OImage da w p z col), (x, y)|exists (OImage da w p z col), (x, sh + y)];
        (split; [left; reflexivity|]); (split; [apply Dr; lra|reflexivity]).
Qed.
Lemma obox_none o : obox o = None -> forall p, ~ drawn o p.
Proof.
  intros Q p Dd. destruct o as [v|r gr b|i|w|d off|[x y] r f s|l s|l f s|l r f s|q s z fo an|da w q z col| |d l]; cbn [obox drawn] in *; try discriminate; try contradiction.
  - destruct l; [|discriminate]. destruct Dd as (a & _ & [] & _).
  - destruct l; [|discriminate]. destruct Dd as (a & _ & [] & _).
  - destruct l; [|discriminate]. destruct Dd as (a & _ & [] & _).
  - destruct q as [[? ?]|]; discriminate.
Qed.

Definition boxed (acc : list (op R)) (b : bbox R) : Prop :=
  (b = bb_empty /\ (forall o p, In o acc -> ~ drawn o p)) \/
  ((bx0 b < bx1 b /\ by0 b < by1 b) /\ (forall o p, In o acc -> drawn o p -> covers b p) /\ touches acc b).
Lemma proper_bool b : bx0 b < bx1 b -> by0 b < by1 b -> bb_bool b = true.
Proof.
  intros A B. unfold bb_bool, bb_area. cbn [Num.neq NumR nmul nsub nofZ]. destruct (Req_bool_spec ((bx1 b - bx0 b) * (by1 b - by0 b)) 0) as [E|E]; [|reflexivity].
  assert (0 < (bx1 b - bx0 b) * (by1 b - by0 b)) by (apply Rmult_lt_0_compat; lra). lra.
Qed.
Lemma touches_mono acc acc' b : incl acc acc' -> touches acc b -> touches acc' b.
Proof.
  intros I (A & B & C & D). split; [|split; [|split]].
  - destruct A as (o & p & H1 & H2). exists o, p. auto.
  - destruct B as (o & p & H1 & H2). exists o, p. auto.
  - destruct C as (o & p & H1 & H2). exists o, p. auto.
  - destruct D as (o & p & H1 & H2). exists o, p. auto.
Qed.
Lemma boxed_none acc b o : boxed acc b -> (forall p, ~ drawn o p) -> boxed (acc ++ [o]) b.
Proof.
  intros [[-> N]|(Pr & Cv & To)] Nd.
  - left. split; [reflexivity|]. intros o' p I. apply in_app_or in I. destruct I as [I|[<-|[]]]; auto.
  - right. split; [exact Pr|]. split.
    + intros o' p I D. apply in_app_or in I. destruct I as [I|[<-|[]]]; [apply (Cv _ _ I D)|]. destruct (Nd _ D).
    + eapply touches_mono; [|exact To]. intros x I. apply in_or_app. left. exact I.
Qed.
Lemma boxed_or acc b o b' : boxed acc b -> (bx0 b' < bx1 b' /\ by0 b' < by1 b') -> (forall p, drawn o p -> covers b' p) -> touches [o] b' -> boxed (acc ++ [o]) (bb_or b b').
Proof.
  intros B [P1 P2] Cv To. right. unfold bb_or. rewrite (proper_bool b' P1 P2). cbn [negb]. destruct B as [[-> N]|((Q1 & Q2) & Cv0 & To0)].
  - assert (E : bb_bool (@bb_empty R _) = false). { unfold bb_bool, bb_area. cbn [bb_empty bx0 bx1 by0 by1 Num.neq NumR nmul nsub nofZ]. destruct (Req_bool_spec ((0 - 0) * (0 - 0)) 0) as [E|E]; [reflexivity|]. lra. }
    rewrite E. cbn [negb]. split; [split; assumption|]. split.
    + intros o' p I D. apply in_app_or in I. destruct I as [I|[<-|[]]]; [destruct (N _ _ I D)|auto].
    + eapply touches_mono; [|exact To]. intros x I. apply in_or_app. right. exact I.
  - rewrite (proper_bool b Q1 Q2). cbn [negb]. unfold nmin, nmax. cbn [nlt NumR bx0 bx1 by0 by1].
    assert (Mi : forall u v : R, (if Rlt_bool v u then v else u) <= u /\ (if Rlt_bool v u then v else u) <= v) by (intros u v; destruct (Rlt_bool_spec v u); lra).
    assert (Ma : forall u v : R, u <= (if Rlt_bool u v then v else u) /\ v <= (if Rlt_bool u v then v else u)) by (intros u v; destruct (Rlt_bool_spec u v); lra).
    pose proof (Mi (bx0 b) (bx0 b')). pose proof (Mi (by0 b) (by0 b')). pose proof (Ma (bx1 b) (bx1 b')). pose proof (Ma (by1 b) (by1 b')).
    split; [cbn; lra|]. split.
    + intros o' p I D. apply in_app_or in I. unfold covers. cbn [bx0 bx1 by0 by1]. destruct I as [I|[<-|[]]]; [pose proof (Cv0 _ _ I D) as K|pose proof (Cv _ D) as K]; destruct K as [K1 K2]; lra.
    + assert (I1 : incl acc (acc ++ [o])) by (intros x I; apply in_or_app; left; exact I). assert (I2 : incl [o] (acc ++ [o])) by (intros x I; apply in_or_app; right; exact I).
      pose proof (touches_mono _ _ _ I1 To0) as (A1 & A2 & A3 & A4). pose proof (touches_mono _ _ _ I2 To) as (B1 & B2 & B3 & B4).
      split; [|split; [|split]]; cbn [bx0 bx1 by0 by1].
      * destruct (Rlt_bool (bx0 b') (bx0 b)); assumption.
      * destruct (Rlt_bool (bx1 b) (bx1 b')); assumption.
      * destruct (Rlt_bool (by0 b') (by0 b)); assumption.
      * destruct (Rlt_bool (by1 b) (by1 b')); assumption.
Qed.
Lemma since_cons acc o r : since acc (o :: r) = since (match o with OReset => [] | _ => acc ++ [o] end) r.
Proof. destruct o; reflexivity. Qed.
Lemma history_boxed l : forall acc h c hf cf, history h c l = Some (hf, cf) -> Forall solid l -> boxed acc (cv_bbox c) -> boxed (since acc l) (cv_bbox cf).
Proof.
  induction l as [|o r IH]; intros acc h c hf cf Q So B; [injection Q as <- <-; exact B|].
  destruct (history_cons _ _ _ _ _ Q) as (h1 & c1 & P1 & Q1). inversion So as [|? ? S1 S2]; subst. rewrite since_cons. apply (IH _ _ _ _ _ Q1 S2).
  rewrite (perform_box _ _ _ _ _ P1). assert (G : o <> OReset -> boxed (acc ++ [o]) match obox o with Some b => bb_or (cv_bbox c) b | None => cv_bbox c end).
  { intros _. destruct (obox o) as [b|] eqn:Ob; [|apply boxed_none; [exact B|apply obox_none; exact Ob]]. destruct (obox_ok _ _ S1 Ob) as (Pr & Cv & To). apply boxed_or; assumption. }
  destruct o; try (apply G; discriminate). left. split; [reflexivity|]. intros o p [].
Qed.
