From Coq Require Import SpecFloat Lqa.
From Verif Require Import Num BBoxModel BBoxSpec.
Open Scope Z_scope.

(** ** C01: generic argument over any ordered carrier *)
Section Tight.
  Context {T : Type} `{PyNum T}.
  Variable good : T -> Prop.
  Hypothesis le_refl : forall x, good x -> nle x x = true.
  Hypothesis le_trans : forall x y z, good x -> good y -> good z ->
    nle x y = true -> nle y z = true -> nle x z = true.
  Hypothesis lt_le : forall x y, nlt x y = true -> nle x y = true.
  Hypothesis nlt_le : forall x y, good x -> good y -> nlt x y = false -> nle y x = true.

  Definition covers (b : bbox T) (p : T * T) : Prop :=
    nle (bx0 b) (fst p) = true /\ nle (fst p) (bx1 b) = true /\
    nle (by0 b) (snd p) = true /\ nle (snd p) (by1 b) = true.
  Definition touched (pts : list (T * T)) (b : bbox T) : Prop :=
    (exists p, In p pts /\ fst p = bx0 b) /\ (exists p, In p pts /\ fst p = bx1 b) /\
    (exists p, In p pts /\ snd p = by0 b) /\ (exists p, In p pts /\ snd p = by1 b).
  Definition goodp (p : T * T) : Prop := good (fst p) /\ good (snd p).
  Definition goodb (b : bbox T) : Prop :=
    good (bx0 b) /\ good (bx1 b) /\ good (by0 b) /\ good (by1 b).

  Lemma grow_ok b p :
    goodb b -> goodp p -> nle (bx0 b) (bx1 b) = true -> nle (by0 b) (by1 b) = true ->
    goodb (bb_grow b p) /\ covers (bb_grow b p) p /\
    nle (bx0 (bb_grow b p)) (bx0 b) = true /\ nle (bx1 b) (bx1 (bb_grow b p)) = true /\
    nle (by0 (bb_grow b p)) (by0 b) = true /\ nle (by1 b) (by1 (bb_grow b p)) = true /\
    nle (bx0 (bb_grow b p)) (bx1 (bb_grow b p)) = true /\
    nle (by0 (bb_grow b p)) (by1 (bb_grow b p)) = true.
  Proof.
    destruct b as [x0 y0 x1 y1], p as [x y].
    unfold goodb, goodp, covers, bb_grow; cbn.
    intros (G1 & G2 & G3 & G4) (Gx & Gy) Lx Ly.
    destruct (nlt x x0) eqn:E1; [|destruct (nlt x1 x) eqn:E2];
    (destruct (nlt y y0) eqn:E3; [|destruct (nlt y1 y) eqn:E4]); cbn;
    repeat split; auto;
    try (apply nlt_le; assumption); try (apply lt_le; assumption);
    try (apply (le_trans _ x0); auto; fail);
    try (apply (le_trans _ x1); auto; fail);
    try (apply (le_trans _ y0); auto; fail);
    try (apply (le_trans _ y1); auto; fail).
  Qed.

  Lemma grow_touched b p pts :
    touched pts b -> In p pts -> touched pts (bb_grow b p).
  Proof.
    destruct b as [x0 y0 x1 y1], p as [x y]. unfold touched, bb_grow; cbn.
    intros (Ha & Hb & Hc & Hd) Hin.
    destruct (nlt x x0); [|destruct (nlt x1 x)];
    (destruct (nlt y y0); [|destruct (nlt y1 y)]); cbn;
    repeat split; auto; exists (x, y); auto.
  Qed.

  Lemma fold_grow pts all b :
    goodb b -> Forall goodp pts -> nle (bx0 b) (bx1 b) = true -> nle (by0 b) (by1 b) = true ->
    touched all b -> incl pts all ->
    let r := fold_left bb_grow pts b in
    goodb r /\ touched all r /\ (forall p, In p pts -> covers r p) /\
    nle (bx0 r) (bx0 b) = true /\ nle (bx1 b) (bx1 r) = true /\
    nle (by0 r) (by0 b) = true /\ nle (by1 b) (by1 r) = true.
  Proof.
    revert b; induction pts as [|p r IH]; intros b Gb Gp Lx Ly Ht Hi; cbn [fold_left].
    - destruct Gb as (G1 & G2 & G3 & G4).
      split; [repeat split; assumption|]. split; [exact Ht|].
      split; [intros p []|]. repeat split; auto.
    - inversion Gp as [|? ? Gp1 Gp2]; subst.
      destruct (grow_ok b p Gb Gp1 Lx Ly) as (G' & C & M1 & M2 & M3 & M4 & L1 & L2).
      destruct (IH (bb_grow b p)) as (Gr & Tr & Cr & N1 & N2 & N3 & N4); auto.
      { apply grow_touched; auto. apply Hi. left; reflexivity. }
      { intros q Hq. apply Hi. right; assumption. }
      set (rr := fold_left bb_grow r (bb_grow b p)) in *.
      destruct Gb as (G1 & G2 & G3 & G4).
      destruct G' as (G1' & G2' & G3' & G4').
      destruct Gr as (G1'' & G2'' & G3'' & G4'').
      destruct Gp1 as (Px & Py).
      destruct C as (C1 & C2 & C3 & C4).
      split; [repeat split; assumption|]. split; [exact Tr|]. split; [|repeat split].
      + intros q [E|Hq]; [subst q|apply Cr; assumption].
        repeat split.
        * apply (le_trans _ (bx0 (bb_grow b p))); auto.
        * apply (le_trans _ (bx1 (bb_grow b p))); auto.
        * apply (le_trans _ (by0 (bb_grow b p))); auto.
        * apply (le_trans _ (by1 (bb_grow b p))); auto.
      + apply (le_trans _ (bx0 (bb_grow b p))); auto.
      + apply (le_trans _ (bx1 (bb_grow b p))); auto.
      + apply (le_trans _ (by0 (bb_grow b p))); auto.
      + apply (le_trans _ (by1 (bb_grow b p))); auto.
  Qed.

  Lemma of_points_tight pts :
    pts <> [] -> Forall goodp pts ->
    exists b, bb_of_points pts = Ok b /\ touched pts b /\ (forall p, In p pts -> covers b p).
  Proof.
    destruct pts as [|p r]; [congruence|]. intros _ G.
    inversion G as [|? ? G1 G2]; subst. destruct G1 as (Gx & Gy).
    cbn [bb_of_points]. eexists. split; [reflexivity|].
    destruct (fold_grow r (p :: r) (bb_corners p p)) as (Gr & Tr & Cr & N1 & N2 & N3 & N4);
      cbn; auto.
    - repeat split; assumption.
    - repeat split; exists p; cbn; auto.
    - intros q Hq. right; assumption.
    - split; [exact Tr|]. destruct Gr as (R1 & R2 & R3 & R4).
      intros q [E|Hq]; [subst q|apply Cr; assumption].
      repeat split; auto.
  Qed.
End Tight.

Lemma of_points_tight_Q (pts : list (Q * Q)) :
  pts <> [] ->
  exists b, bb_of_points pts = Ok b /\
    (forall x y, In (x, y) pts -> (bx0 b <= x /\ x <= bx1 b /\ by0 b <= y /\ y <= by1 b)%Q) /\
    (exists y, In (bx0 b, y) pts) /\ (exists y, In (bx1 b, y) pts) /\
    (exists x, In (x, by0 b) pts) /\ (exists x, In (x, by1 b) pts).
Proof.
  intros Hne.
  destruct (of_points_tight (T:=Q) (fun _ => True)) with (pts := pts) as (b & E & T & C); auto.
  - intros x _. apply Qle_bool_iff. apply Qle_refl.
  - intros x y z _ _ _ H1 H2. apply Qle_bool_iff in H1, H2. apply Qle_bool_iff. lra.
  - intros x y H1. apply Qlt_bool_true in H1. apply Qle_bool_iff. lra.
  - intros x y _ _ H1. apply Qlt_bool_false in H1. apply Qle_bool_iff. lra.
  - apply Forall_forall. intros p _. split; exact I.
  - exists b. split; [exact E|]. split.
    + intros x y Hin. destruct (C _ Hin) as (C1 & C2 & C3 & C4). cbn in *.
      apply Qle_bool_iff in C1, C2, C3, C4. auto.
    + destruct T as ((p1 & I1 & E1) & (p2 & I2 & E2) & (p3 & I3 & E3) & (p4 & I4 & E4)).
      destruct p1, p2, p3, p4; cbn in *; subst. repeat split; eexists; eassumption.
Qed.

Lemma of_points_tight_F (pts : list (f64 * f64)) :
  pts <> [] ->
  (forall x y, In (x, y) pts -> is_nan x = false /\ is_nan y = false) ->
  exists b, bb_of_points pts = Ok b /\
    (forall x y, In (x, y) pts ->
       SFleb (bx0 b) x = true /\ SFleb x (bx1 b) = true /\
       SFleb (by0 b) y = true /\ SFleb y (by1 b) = true) /\
    (exists y, In (bx0 b, y) pts) /\ (exists y, In (bx1 b, y) pts) /\
    (exists x, In (x, by0 b) pts) /\ (exists x, In (x, by1 b) pts).
Proof.
  intros Hne Hn.
  destruct (of_points_tight (T:=f64) (fun x => is_nan x = false)) with (pts := pts)
    as (b & E & T & C); auto.
  - intros x Hx. apply SFleb_refl. exact Hx.
  - intros x y z. apply SFltb_trans_le.
  - intros x y. apply SFltb_leb.
  - intros x y. apply SFltb_false_leb.
  - apply Forall_forall. intros [x y] Hp. apply Hn in Hp. exact Hp.
  - exists b. split; [exact E|]. split.
    + intros x y Hin. destruct (C _ Hin) as (C1 & C2 & C3 & C4). auto.
    + destruct T as ((p1 & I1 & E1) & (p2 & I2 & E2) & (p3 & I3 & E3) & (p4 & I4 & E4)).
      destruct p1, p2, p3, p4; cbn in *; subst. repeat split; eexists; eassumption.
Qed.

(** ** Boxes over Q *)
Ltac unbb :=
  unfold bb_or, bb_and, bb_bool, bb_area, bb_has_point, bb_has_bbox, bb_collide,
    bb_empty, bb_translate, bb_scale, bb_center, bb_width, bb_height, nmin, nmax in *;
  cbn [nofZ nadd nsub nmul ndiv nlt nle neq NumQ bx0 by0 bx1 by1 fst snd] in *.
Ltac unbb2 :=
  unfold bb_or, bb_and, bb_has_point, bb_has_bbox, bb_collide,
    bb_empty, bb_translate, bb_scale, bb_center, bb_width, bb_height, nmin, nmax in *;
  cbn [nofZ nadd nsub nmul ndiv nlt nle neq NumQ bx0 by0 bx1 by1 fst snd] in *.


Lemma has_point_inbox (b : bbox Q) x y :
  bb_has_point b (x, y) = true <-> inbox b x y.
Proof.
  unfold inbox, bb_has_point; cbn.
  rewrite !andb_true_iff, !Qle_bool_iff, !Qlt_bool_true. tauto.
Qed.

Lemma bool_false_inbox (b : bbox Q) x y : bb_bool b = false -> ~ inbox b x y.
Proof.
  unfold bb_bool, bb_area, inbox; cbn. rewrite negb_false_iff, Qeq_bool_true.
  intros E [[H1 H2] [H3 H4]].
  apply Qmult_integral in E. destruct E; lra.
Qed.

Lemma and_spec (a b : bbox Q) x y :
  inbox (bb_and a b) x y <-> inbox a x y /\ inbox b x y.
Proof.
  unfold bb_and.
  destruct (bb_bool a) eqn:Ea; [|cbn; split; [unfold inbox; cbn; lra|
    intros [H _]; exfalso; exact (bool_false_inbox _ _ _ Ea H)]].
  destruct (bb_bool b) eqn:Eb; [|cbn; split; [unfold inbox; cbn; lra|
    intros [_ H]; exfalso; exact (bool_false_inbox _ _ _ Eb H)]].
  unfold inbox; cbn. unfold nmin, nmax; cbn.
  repeat (qdestr; cbn); qbool; split; lra.
Qed.

Lemma and_empty (a b : bbox Q) :
  (forall x y, ~ (inbox a x y /\ inbox b x y)) -> bb_and a b = bb_empty.
Proof.
  intros H. unfold bb_and.
  destruct (bb_bool a) eqn:Ea; [|reflexivity].
  destruct (bb_bool b) eqn:Eb; [|reflexivity].
  cbn [negb orb].
  match goal with |- (if ?c then _ else _) = _ => destruct c eqn:E end; [reflexivity|].
  exfalso. apply orb_false_elim in E. destruct E as [E1 E2].
  apply (H (nmax (bx0 a) (bx0 b)) (nmax (by0 a) (by0 b))).
  apply and_spec. unfold bb_and. rewrite Ea, Eb. cbn [negb orb].
  rewrite E1, E2. cbn [orb]. unfold inbox; cbn [bx0 by0 bx1 by1].
  cbn in E1, E2. qbool. split; split; auto; lra.
Qed.


Lemma bool_proper (b : bbox Q) : wf b -> (bb_bool b = true <-> proper b).
Proof.
  unfold wf, proper, bb_bool, bb_area; cbn. intros [H1 H2].
  change (inject_Z 0) with 0%Q.
  rewrite negb_true_iff, Qeq_bool_false. split.
  - intros H. split.
    + apply Qnot_le_lt. intros C. apply H.
      assert (E : (bx1 b - bx0 b == 0)%Q) by lra. rewrite E. ring.
    + apply Qnot_le_lt. intros C. apply H.
      assert (E : (by1 b - by0 b == 0)%Q) by lra. rewrite E. ring.
  - intros [P1 P2] E. apply Qmult_integral in E. lra.
Qed.

Lemma bool_not_proper (b : bbox Q) : wf b -> (bb_bool b = false <-> ~ proper b).
Proof.
  intros W. rewrite <- (bool_proper b W). destruct (bb_bool b); split; congruence.
Qed.

Lemma proper_wf b : proper b -> wf b.
Proof. unfold proper, wf. lra. Qed.

Lemma or_degenerate_left (a b : bbox Q) : wf a -> ~ proper a -> bb_or a b = b.
Proof.
  intros W N. apply (bool_not_proper a W) in N. unfold bb_or. rewrite N. reflexivity.
Qed.
Lemma or_degenerate_right (a b : bbox Q) : proper a -> wf b -> ~ proper b -> bb_or a b = a.
Proof.
  intros P W N. apply (bool_not_proper b W) in N.
  assert (Pa := proj2 (bool_proper a (proper_wf _ P)) P).
  unfold bb_or. rewrite Pa, N. reflexivity.
Qed.
Lemma or_proper_eq (a b : bbox Q) : proper a -> proper b ->
  bb_or a b = mkbb (nmin (bx0 a) (bx0 b)) (nmin (by0 a) (by0 b))
              (nmax (bx1 a) (bx1 b)) (nmax (by1 a) (by1 b)).
Proof.
  intros Pa Pb.
  assert (Ea := proj2 (bool_proper a (proper_wf _ Pa)) Pa).
  assert (Eb := proj2 (bool_proper b (proper_wf _ Pb)) Pb).
  unfold bb_or. rewrite Ea, Eb. reflexivity.
Qed.

Lemma or_proper_lub (a b : bbox Q) : proper a -> proper b ->
  proper (bb_or a b) /\ subbox a (bb_or a b) /\ subbox b (bb_or a b) /\
  (forall c, subbox a c -> subbox b c -> subbox (bb_or a b) c).
Proof.
  intros Pa Pb. rewrite or_proper_eq by assumption.
  destruct a as [ax0 ay0 ax1 ay1], b as [bx0' by0' bx1' by1'].
  unfold proper, subbox, nmin, nmax in *; cbn in *.
  repeat qdestr; qbool; repeat split; try lra;
    intros c H1 H2; lra.
Qed.

Lemma subbox_antisym a b : subbox a b -> subbox b a -> beqv a b.
Proof. unfold subbox, beqv. lra. Qed.
Lemma subbox_refl a : subbox a a.
Proof. unfold subbox. lra. Qed.
Lemma subbox_trans a b c : subbox a b -> subbox b c -> subbox a c.
Proof. unfold subbox. lra. Qed.

Lemma or_comm (a b : bbox Q) : proper a -> proper b -> beqv (bb_or a b) (bb_or b a).
Proof.
  intros Pa Pb.
  destruct (or_proper_lub a b Pa Pb) as (_ & A1 & A2 & A3).
  destruct (or_proper_lub b a Pb Pa) as (_ & B1 & B2 & B3).
  apply subbox_antisym; auto.
Qed.

Lemma or_idem (a : bbox Q) : wf a -> beqv (bb_or a a) a.
Proof.
  intros W. destruct (bb_bool a) eqn:E.
  - apply (bool_proper a W) in E.
    destruct (or_proper_lub a a E E) as (_ & A1 & A2 & A3).
    apply subbox_antisym; auto. apply A3; apply subbox_refl.
  - unfold bb_or. rewrite E. cbn. unfold beqv. lra.
Qed.

Lemma wf_or a b : wf a -> wf b -> wf (bb_or a b).
Proof.
  intros Wa Wb. destruct (bb_bool a) eqn:Ea; [|unfold bb_or; rewrite Ea; exact Wb].
  destruct (bb_bool b) eqn:Eb; [|unfold bb_or; rewrite Ea, Eb; exact Wa].
  apply (bool_proper a Wa) in Ea. apply (bool_proper b Wb) in Eb.
  apply proper_wf. apply or_proper_lub; assumption.
Qed.

Lemma or_assoc (a b c : bbox Q) : wf a -> wf b -> wf c ->
  beqv (bb_or (bb_or a b) c) (bb_or a (bb_or b c)).
Proof.
  intros Wa Wb Wc.
  destruct (bb_bool a) eqn:Ea.
  2:{ replace (bb_or a b) with b by (unfold bb_or; rewrite Ea; reflexivity).
      replace (bb_or a (bb_or b c)) with (bb_or b c)
        by (unfold bb_or at 2; rewrite Ea; reflexivity). unfold beqv; lra. }
  destruct (bb_bool b) eqn:Eb.
  2:{ replace (bb_or a b) with a by (unfold bb_or; rewrite Ea, Eb; reflexivity).
      replace (bb_or b c) with c by (unfold bb_or; rewrite Eb; reflexivity).
      unfold beqv; lra. }
  destruct (bb_bool c) eqn:Ec.
  2:{ apply (bool_proper a Wa) in Ea. apply (bool_proper b Wb) in Eb.
      apply (bool_not_proper c Wc) in Ec.
      rewrite (or_degenerate_right b c) by assumption.
      rewrite (or_degenerate_right (bb_or a b) c); auto; [unfold beqv; lra|].
      apply or_proper_lub; assumption. }
  apply (bool_proper a Wa) in Ea. apply (bool_proper b Wb) in Eb.
  apply (bool_proper c Wc) in Ec.
  destruct (or_proper_lub a b Ea Eb) as (P1 & A1 & A2 & A3).
  destruct (or_proper_lub b c Eb Ec) as (P2 & B1 & B2 & B3).
  destruct (or_proper_lub (bb_or a b) c P1 Ec) as (_ & C1 & C2 & C3).
  destruct (or_proper_lub a (bb_or b c) Ea P2) as (_ & D1 & D2 & D3).
  apply subbox_antisym.
  - apply C3; [apply A3; [exact D1|]|]; apply (subbox_trans _ (bb_or b c)); assumption.
  - apply D3; [|apply B3; [|exact C2]]; apply (subbox_trans _ (bb_or a b)); assumption.
Qed.

(** Folding | over a list, as Canvas and animation do. *)
Lemma fold_or_covers (l : list (bbox Q)) (acc : bbox Q) :
  wf acc -> (forall b, In b l -> wf b) ->
  wf (fold_left bb_or l acc) /\
  (proper acc -> proper (fold_left bb_or l acc) /\ subbox acc (fold_left bb_or l acc)) /\
  (forall b, In b l -> proper b ->
     proper (fold_left bb_or l acc) /\ subbox b (fold_left bb_or l acc)).
Proof.
  revert acc; induction l as [|c r IH]; intros acc Wacc Wl; cbn [fold_left].
  - split; [assumption|]. split; [intros P; split; [assumption|apply subbox_refl]|].
    intros b [].
  - assert (Wc : wf c) by (apply Wl; left; reflexivity).
    destruct (IH (bb_or acc c)) as (W & A & B).
    { apply wf_or; auto. }
    { intros b Hb. apply Wl. right; assumption. }
    split; [assumption|]. split.
    + intros P. destruct (bb_bool c) eqn:Ec.
      * apply (bool_proper c Wc) in Ec.
        destruct (or_proper_lub acc c P Ec) as (P1 & A1 & _ & _).
        destruct (A P1) as (P2 & A2). split; [exact P2|]. eapply subbox_trans; eauto.
      * apply (bool_not_proper c Wc) in Ec.
        rewrite (or_degenerate_right acc c) in * by assumption. apply A; assumption.
    + intros b [E|Hb] Pb; [subst c|apply B; assumption].
      destruct (bb_bool acc) eqn:Ea.
      * apply (bool_proper acc Wacc) in Ea.
        destruct (or_proper_lub acc b Ea Pb) as (P1 & _ & A1 & _).
        destruct (A P1) as (P2 & A2). split; [exact P2|]. eapply subbox_trans; eauto.
      * apply (bool_not_proper acc Wacc) in Ea.
        rewrite (or_degenerate_left acc b) in * by assumption. apply A; assumption.
Qed.

(** ** collide *)
Lemma collide_spec (a b : bbox Q) : proper a -> proper b ->
  (bb_collide a b = true <-> exists x y, inbox a x y /\ inbox b x y).
Proof.
  intros Pa Pb. unfold bb_collide, inbox, proper in *; cbn in *.
  rewrite andb_true_iff, !orb_true_iff, !andb_true_iff, !Qle_bool_iff, !Qlt_bool_true.
  split.
  - intros [[Hx|Hx] [Hy|Hy]].
    + exists (bx0 b), (by0 b). lra.
    + exists (bx0 b), (by0 a). lra.
    + exists (bx0 a), (by0 b). lra.
    + exists (bx0 a), (by0 a). lra.
  - intros (x & y & H1 & H2). split.
    + destruct (Qlt_le_dec (bx0 b) (bx0 a)); [right|left]; lra.
    + destruct (Qlt_le_dec (by0 b) (by0 a)); [right|left]; lra.
Qed.

Lemma collide_and (a b : bbox Q) : proper a -> proper b ->
  (bb_collide a b = true <-> bb_bool (bb_and a b) = true).
Proof.
  intros Pa Pb. rewrite (collide_spec a b Pa Pb). split.
  - intros (x & y & H). apply and_spec in H.
    destruct (bb_bool (bb_and a b)) eqn:E; [reflexivity|].
    exfalso. exact (bool_false_inbox _ _ _ E H).
  - intros H. unfold bb_and in *.
    assert (Ea := proj2 (bool_proper a (proper_wf _ Pa)) Pa).
    assert (Eb := proj2 (bool_proper b (proper_wf _ Pb)) Pb).
    rewrite Ea, Eb in H. cbn [negb orb] in H.
    match type of H with bb_bool (if ?c then _ else _) = true => destruct c eqn:E end.
    + unfold bb_bool, bb_area in H. cbn in H. discriminate.
    + exists (nmax (bx0 a) (bx0 b)), (nmax (by0 a) (by0 b)).
      apply and_spec. unfold bb_and. rewrite Ea, Eb. cbn [negb orb]. rewrite E.
      unfold inbox; cbn [bx0 by0 bx1 by1]. apply orb_false_elim in E. destruct E as [E1 E2].
      cbn in E1, E2. qbool. split; split; auto; lra.
Qed.

Lemma collide_sym (a b : bbox Q) : bb_collide a b = bb_collide b a.
Proof.
  unfold bb_collide. f_equal; apply orb_comm.
Qed.

Lemma collide_point (a : bbox Q) x y : proper a ->
  (bb_collide a (mkbb x y x y) = true <-> inbox a x y).
Proof.
  intros Pa. unfold bb_collide, inbox, proper in *; cbn in *.
  rewrite andb_true_iff, !orb_true_iff, !andb_true_iff, !Qle_bool_iff, !Qlt_bool_true.
  split; [|lra]. intros [[H|H] [H'|H']]; lra.
Qed.

(** ** has_bbox *)
Lemma has_bbox_iff (a b : bbox Q) :
  bb_has_bbox a b = true <->
  inbox a (bx0 b) (by0 b) /\ inbox a (bx1 b) (by1 b).
Proof.
  unfold bb_has_bbox. rewrite andb_true_iff, !has_point_inbox. tauto.
Qed.

Lemma has_bbox_points (a b : bbox Q) x y :
  bb_has_bbox a b = true -> inbox b x y -> inbox a x y.
Proof. rewrite has_bbox_iff. unfold inbox. lra. Qed.

Lemma has_bbox_trans (a b c : bbox Q) :
  bb_has_bbox a b = true -> bb_has_bbox b c = true -> bb_has_bbox a c = true.
Proof. rewrite !has_bbox_iff. unfold inbox. lra. Qed.

Lemma has_bbox_upper (a b : bbox Q) :
  (bx1 b == bx1 a \/ by1 b == by1 a)%Q -> bb_has_bbox a b = false.
Proof.
  intros H. destruct (bb_has_bbox a b) eqn:E; [|reflexivity].
  apply has_bbox_iff in E. unfold inbox in E. exfalso. lra.
Qed.

Lemma has_bbox_exact (a b : bbox Q) : wf b ->
  (bb_has_bbox a b = true <->
   (bx0 a <= bx0 b /\ bx1 b < bx1 a /\ by0 a <= by0 b /\ by1 b < by1 a)%Q).
Proof. intros W. rewrite has_bbox_iff. unfold inbox, wf in *. split; lra. Qed.

(** ** translate / scale *)
Lemma Qhalf x : (x / inject_Z 2 == x * (1 # 2))%Q.
Proof. unfold Qdiv. reflexivity. Qed.

Ltac bbring := unfold beqv; cbn; rewrite ?Qhalf; repeat split; ring.

Lemma translate_translate b dx dy ex ey :
  beqv (bb_translate (bb_translate b dx dy) ex ey) (bb_translate b (dx + ex) (dy + ey))%Q.
Proof. bbring. Qed.
Lemma add_sub b p : beqv (bb_sub (bb_add b p) p) b.
Proof. destruct p. bbring. Qed.
Lemma translate_dims b dx dy :
  (bb_width (bb_translate b dx dy) == bb_width b /\
   bb_height (bb_translate b dx dy) == bb_height b /\
   bb_area (bb_translate b dx dy) == bb_area b)%Q.
Proof. cbn. repeat split; ring. Qed.
Lemma translate_point b dx dy x y :
  bb_has_point (bb_translate b dx dy) (x + dx, y + dy)%Q = bb_has_point b (x, y).
Proof.
  apply eq_true_iff_eq. rewrite !has_point_inbox. unfold inbox; cbn. split; lra.
Qed.

Lemma scale_center b f :
  (fst (bb_center (bb_scale b f)) == fst (bb_center b) /\
   snd (bb_center (bb_scale b f)) == snd (bb_center b))%Q.
Proof. cbn. rewrite ?Qhalf. split; ring. Qed.
Lemma scale_dims b f :
  (bb_width (bb_scale b f) == f * bb_width b /\
   bb_height (bb_scale b f) == f * bb_height b /\
   bb_area (bb_scale b f) == f * f * bb_area b)%Q.
Proof. cbn. rewrite ?Qhalf. repeat split; ring. Qed.
Lemma scale_scale b f g :
  beqv (bb_scale (bb_scale b f) g) (bb_scale b (f * g))%Q.
Proof. bbring. Qed.
Lemma scale_one b : beqv (bb_scale b 1%Q) b.
Proof. bbring. Qed.
Lemma scale_translate b f dx dy :
  beqv (bb_scale (bb_translate b dx dy) f) (bb_translate (bb_scale b f) dx dy).
Proof. bbring. Qed.
Lemma mul_div b f : ~ (f == 0)%Q ->
  exists c, bb_truediv (bb_mul b f) f = Ok c /\ beqv c b.
Proof.
  intros N. unfold bb_truediv, ndivE. cbn.
  replace (Qeq_bool f (inject_Z 0)) with false
    by (symmetry; apply Qeq_bool_false; exact N).
  cbn. eexists. split; [reflexivity|]. unfold beqv; cbn. rewrite ?Qhalf.
  repeat split; unfold inject_Z; field; exact N.
Qed.
Lemma div_zero (b : bbox Q) f : (f == 0)%Q -> bb_truediv b f = Err ZeroDivisionError.
Proof.
  intros E. unfold bb_truediv, ndivE; cbn.
  replace (Qeq_bool f (inject_Z 0)) with true
    by (symmetry; apply Qeq_bool_true; exact E). reflexivity.
Qed.
Lemma scale_contains b f x y :
  wf b -> (1 <= f)%Q -> inbox b x y -> inbox (bb_scale b f) x y.
Proof.
  unfold inbox, wf; cbn. rewrite ?Qhalf.
  intros [W1 W2] Hf [[H1 H2] [H3 H4]].
  split; split; nra.
Qed.

(** ** hash equality *)
Lemma eq_of_same comb (a b : bbox Z) :
  a = b -> bb_eq py_hash_int comb a b = true.
Proof. intros ->. unfold bb_eq. apply Z.eqb_refl. Qed.

Lemma eq_hash_collision comb (a b : bbox Z) :
  py_hash_int (bx0 a) = py_hash_int (bx0 b) -> py_hash_int (by0 a) = py_hash_int (by0 b) ->
  py_hash_int (bx1 a) = py_hash_int (bx1 b) -> py_hash_int (by1 a) = py_hash_int (by1 b) ->
  bb_eq py_hash_int comb a b = true.
Proof.
  intros E1 E2 E3 E4. unfold bb_eq, bb_hash. rewrite E1, E2, E3, E4. apply Z.eqb_refl.
Qed.

Lemma hash_m1_m2 : py_hash_int (-1) = py_hash_int (-2).
Proof. reflexivity. Qed.

Lemma hash_period z k : 0 <= z -> 0 <= k ->
  py_hash_int (z + k * (2 ^ 61 - 1)) = py_hash_int z.
Proof.
  intros Hz Hk. unfold py_hash_int.
  rewrite Z.rem_add; [reflexivity|lia|nia].
Qed.

(** ** ordering *)
Lemma lt_irrefl (a : bbox Q) : bb_lt a a = false.
Proof. unfold bb_lt; cbn. apply Qlt_bool_false. apply Qle_refl. Qed.
Lemma lt_trans (a b c : bbox Q) : bb_lt a b = true -> bb_lt b c = true -> bb_lt a c = true.
Proof. unfold bb_lt; cbn. rewrite !Qlt_bool_true. lra. Qed.
Lemma incomparable_trans (a b c : bbox Q) :
  bb_lt a b = false -> bb_lt b a = false -> bb_lt b c = false -> bb_lt c b = false ->
  bb_lt a c = false /\ bb_lt c a = false.
Proof. unfold bb_lt; cbn. rewrite !Qlt_bool_false. lra. Qed.
Lemma same_area_gt h comb (a b : bbox Q) :
  (bb_area a == bb_area b)%Q -> bb_eq h comb a b = false ->
  bb_gt h comb a b = true /\ bb_gt h comb b a = true /\
  bb_ge a b = true /\ bb_ge b a = true /\
  bb_le h comb a b = false /\ bb_le h comb b a = false.
Proof.
  intros E N.
  assert (N' : bb_eq h comb b a = false).
  { unfold bb_eq in *. rewrite Z.eqb_sym. exact N. }
  assert (L1 : bb_lt a b = false) by (apply Qlt_bool_false; cbn in *; lra).
  assert (L2 : bb_lt b a = false) by (apply Qlt_bool_false; cbn in *; lra).
  unfold bb_gt, bb_ge, bb_le. rewrite L1, L2, N, N'. repeat split.
Qed.

Lemma eq_sym_box h comb (a b : bbox Q) : bb_eq h comb b a = bb_eq h comb a b.
Proof. unfold bb_eq. apply Z.eqb_sym. Qed.
Lemma derived_order h comb (a b : bbox Q) :
  bb_eq h comb a b = false -> (bb_area a < bb_area b)%Q ->
  bb_le h comb a b = true /\ bb_le h comb b a = false /\ bb_gt h comb a b = false /\ bb_gt h comb b a = true /\
  bb_ge a b = false /\ bb_ge b a = true.
Proof.
  intros N L. assert (L1 : bb_lt a b = true) by (apply Qlt_bool_true; exact L).
  assert (L2 : bb_lt b a = false) by (apply Qlt_bool_false; apply Qlt_le_weak; exact L).
  unfold bb_gt, bb_ge, bb_le. rewrite (eq_sym_box h comb a b), L1, L2, N. repeat split.
Qed.
Lemma derived_equal h comb (a b : bbox Q) :
  bb_eq h comb a b = true -> (bb_area a == bb_area b)%Q ->
  bb_le h comb a b = true /\ bb_le h comb b a = true /\ bb_gt h comb a b = false /\ bb_gt h comb b a = false /\
  bb_ge a b = true /\ bb_ge b a = true.
Proof.
  intros N L. assert (L1 : bb_lt a b = false) by (apply Qlt_bool_false; rewrite L; apply Qle_refl).
  assert (L2 : bb_lt b a = false) by (apply Qlt_bool_false; rewrite L; apply Qle_refl).
  unfold bb_gt, bb_ge, bb_le. rewrite (eq_sym_box h comb a b), L1, L2, N. repeat split.
Qed.
Lemma lt_area (a b : bbox Q) :
  bb_lt a b = true <->
  ((bx1 a - bx0 a) * (by1 a - by0 a) < (bx1 b - bx0 b) * (by1 b - by0 b))%Q.
Proof. unfold bb_lt, bb_area; cbn. apply Qlt_bool_true. Qed.

Lemma measures (b : bbox Q) :
  bb_width b = (bx1 b - bx0 b)%Q /\ bb_height b = (by1 b - by0 b)%Q /\
  (bb_area b == bb_width b * bb_height b)%Q /\
  (2 * fst (bb_center b) == bx0 b + bx1 b)%Q /\
  (2 * snd (bb_center b) == by0 b + by1 b)%Q.
Proof.
  unfold bb_width, bb_height, bb_area, bb_center; cbn. rewrite !Qhalf.
  repeat split; ring.
Qed.
