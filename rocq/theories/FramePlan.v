(** Frame.point and Frame.planify. *)
From Coq Require Import Reals Lra Lia.
From Verif Require Import Num RealNum BBoxModel BufferModel SimplifyModel SimplifySpec SimplifyProofs ClosedProofs ProjModel TrigLib ProjProofs FrameModel FrameSpec FrameProofs.
Open Scope Z_scope.

Lemma int_part_bounds x : (IZR (Int_part x) <= x < IZR (Int_part x) + 1)%R.
Proof. destruct (base_Int_part x). lra. Qed.
Lemma int_part_unique x k : (IZR k <= x < IZR k + 1)%R -> Int_part x = k.
Proof.
  intros H. pose proof (int_part_bounds x). assert (IZR (Int_part x) < IZR (k + 1))%R by (rewrite plus_IZR; lra). assert (IZR k < IZR (Int_part x + 1))%R by (rewrite plus_IZR; lra).
  apply lt_IZR in H1, H2. lia.
Qed.
Lemma nearestR_rounds x : roundsR x (nearestR x).
Proof.
  unfold roundsR, nearestR. cbv zeta. destruct (Rlt_bool_spec x 0) as [N|N].
  - destruct (Rlt_bool_spec (x + - (1 / 2)) 0) as [_|?]; [|lra]. rewrite opp_IZR. pose proof (int_part_bounds (- (x + - (1 / 2)))). split; intros; lra.
  - destruct (Rlt_bool_spec (x + 1 / 2) 0) as [?|_]; [lra|]. pose proof (int_part_bounds (x + 1 / 2)). split; intros; lra.
Qed.
Lemma roundsR_unique x p q : roundsR x p -> roundsR x q -> p = q.
Proof.
  intros (A & B) (C & D). destruct (Rlt_dec x 0) as [N|N].
  - specialize (B N). specialize (D N). assert (IZR p < IZR (q + 1))%R by (rewrite plus_IZR; lra). assert (IZR q < IZR (p + 1))%R by (rewrite plus_IZR; lra). apply lt_IZR in H, H0. lia.
  - assert (0 <= x)%R as P by lra. specialize (A P). specialize (C P). assert (IZR p < IZR (q + 1))%R by (rewrite plus_IZR; lra). assert (IZR q < IZR (p + 1))%R by (rewrite plus_IZR; lra). apply lt_IZR in H, H0. lia.
Qed.
Lemma snappedR_map m xys s : snappedR m xys s -> map (fun '(x, y) => (nearestR (x / m), nearestR (y / m)))%R xys = s.
Proof.
  induction 1 as [|[x y] [i j] xys s [A B] _ IH]; [reflexivity|]. cbn [map]. rewrite IH. cbn [fst snd] in *.
  rewrite (roundsR_unique _ _ _ (nearestR_rounds _) A), (roundsR_unique _ _ _ (nearestR_rounds _) B). reflexivity.
Qed.
Lemma snappedR_ex m xys : exists s, snappedR m xys s.
Proof.
  induction xys as [|[x y] xys (s & IH)]; [exists []; constructor|]. exists ((nearestR (x / m), nearestR (y / m)) :: s). constructor; [|exact IH].
  split; apply nearestR_rounds.
Qed.

(** Fuel *)
Lemma eckert_loop_mono n m s t a : eckert_loop n s t = Some a -> (n <= m)%nat -> eckert_loop m s t = Some a.
Proof.
  revert m t. induction n as [|n IH]; intros [|m] t H L; try discriminate; [lia|]. cbn [eckert_loop] in *.
  destruct (ndivE _ _) as [d|e]; [|exact H]. destruct (Rlt_bool _ _); [|exact H]. apply IH; [exact H|lia].
Qed.
Lemma geo2rect_mono n m p lon lat a : geo2rect n p lon lat = Some a -> (n <= m)%nat -> geo2rect m p lon lat = Some a.
Proof.
  destruct p as [c p|[] p|k]; [destruct c| | |]; cbn [geo2rect]; try (intros E _; exact E).
  unfold eckert_geo2rect. intros E L. destruct (eckert_loop n _ _) as [x|] eqn:E1; [|discriminate]. rewrite (eckert_loop_mono _ _ _ _ _ E1 L). exact E.
Qed.
Lemma project_total p points xys : projects p points xys -> exists N, forall n, (N <= n)%nat -> project n p points = Some (Ok xys).
Proof.
  induction 1 as [|[lon lat] xy points xys [n0 H0] _ (N & IH)]; [exists 0%nat; reflexivity|].
  exists (max n0 N). intros n L. cbn [project]. cbn [fst snd] in H0. rewrite (geo2rect_mono _ n _ _ _ _ H0) by lia. rewrite IH by lia. reflexivity.
Qed.

Lemma F2_length {A B} (P : A -> B -> Prop) l m : Forall2 P l m -> length l = length m.
Proof. induction 1; cbn; congruence. Qed.
Lemma flush_mono n m b x : flush n b = Some x -> (n <= m)%nat -> flush m b = Some x.
Proof.
  revert m b x. induction n as [|n IH]; intros [|m] b x H L; try discriminate; [lia|]. cbn [flush] in *.
  destruct (b_isempty b); [exact H|]. destruct (b_shift b) as [[o b']|e]; [|exact H].
  destruct (flush n b') as [[l y]|] eqn:E; [|discriminate]. rewrite (IH m _ _ E) by lia. exact H.
Qed.
Lemma meet_mono n m b1 b2 p q x : closed_meet n b1 b2 p q = Some x -> (n <= m)%nat -> closed_meet m b1 b2 p q = Some x.
Proof.
  revert m b1 b2 p q x. induction n as [|n IH]; intros [|m] b1 b2 p q x H L; try discriminate; [lia|]. cbn [closed_meet] in *.
  destruct (b_isempty b1 || b_isempty b2); [exact H|]. destruct (b_pop b1) as [[[p'|] b1']|e]; [| |exact H]; (destruct (b_shift b2) as [[[q'|] b2']|e2]; try exact H).
  destruct (negb (pt_eqb p' q')); [exact H|]. apply IH; [exact H|lia].
Qed.
Lemma open_mono n m s k x : open_no_slit n s k = Some x -> (n <= m)%nat -> open_no_slit m s k = Some x.
Proof.
  unfold open_no_slit. destruct (buf_new k) as [b|e]; [|auto]. destruct s as [|p [|q s]]; auto. destruct (open_loop b p q s) as [o [[b' q']|e]]; [|auto].
  intros H L. destruct (flush n b') as [y|] eqn:E; [|discriminate]. rewrite (flush_mono _ _ _ _ E L). exact H.
Qed.
Lemma closed_mono n m s k x : closed_no_slit n s k = Some x -> (n <= m)%nat -> closed_no_slit m s k = Some x.
Proof.
  unfold closed_no_slit. destruct (buf_new k) as [b|e]; [|auto]. destruct s as [|p [|q s]]; auto. destruct (closed_loop b b p q None s) as [o [[[[[b1 b2] p'] q'] ro]|e]]; [|auto].
  intros H L. destruct (closed_meet n b1 b2 p' q') as [y|] eqn:E; [|discriminate]. rewrite (meet_mono _ _ _ _ _ _ _ E L). destruct y as [[[[b1' b2'] p''] q'']|e]; [|exact H].
  destruct (flush n b1') as [[l1 r1]|] eqn:E1; [|discriminate]. rewrite (flush_mono _ _ _ _ E1 L). destruct r1; [|exact H].
  destruct (flush n b2') as [[l2 r2]|] eqn:E2; [|discriminate]. rewrite (flush_mono _ _ _ _ E2 L). exact H.
Qed.
Lemma eight_pow : 8 = 2 ^ 3. Proof. reflexivity. Qed.
Lemma project_cons n p points xys : project n p points = Some (Ok xys) -> length xys = length points.
Proof.
  revert xys. induction points as [|[lon lat] r IH]; intros xys E; cbn [project] in E; [injection E as <-; reflexivity|].
  destruct (geo2rect n p lon lat) as [[xy|e]|]; try discriminate. destruct (project n p r) as [[l|e]|]; try discriminate. cbn in E. injection E as <-. cbn. f_equal. apply IH. reflexivity.
Qed.
Lemma planify_run n f scale points xys s closed : project n (fr_proj f) points = Some (Ok xys) -> (scale <> 0)%R -> snappedR scale xys s ->
  frame_planify n f scale points closed = if closed then closed_no_slit n s 8 else open_no_slit n s 8.
Proof.
  intros P N S. unfold frame_planify. rewrite P. destruct xys as [|xy r]; [inversion S; subst; reflexivity|].
  destruct (Req_bool_spec scale 0); [contradiction|]. rewrite (snappedR_map _ _ _ S). reflexivity.
Qed.
Lemma planify_closed f scale points xys s : projects (fr_proj f) points xys -> (scale <> 0)%R -> snappedR scale xys s -> (3 <= length points)%nat ->
  exists N out, (forall n, (N <= n)%nat -> frame_planify n f scale points true = Some (out, Ok tt)) /\
    (forall v, In v out -> In v s) /\ hd_error out = hd_error s /\ (forall d, last out d = last s d).
Proof.
  intros P N0 S L. destruct (project_total _ _ _ P) as (N & H).
  assert (Ls : (3 <= length s)%nat). { apply F2_length in P. apply F2_length in S. lia. }
  destruct (closed_vertices s 8 3 9 ltac:(lia) eight_pow ltac:(lia) Ls) as (out & E & R1 & R2 & R3).
  exists (max N 9), out. split; [|auto]. intros n Ln. rewrite (planify_run n f scale points xys s true (H n ltac:(lia)) N0 S).
  destruct (closed_vertices s 8 3 n ltac:(lia) eight_pow ltac:(lia) Ls) as (out' & E' & _). rewrite E'.
  f_equal. f_equal. pose proof (closed_mono 9 n s 8 _ E ltac:(lia)) as M. congruence.
Qed.
Lemma planify_open f scale points xys s : projects (fr_proj f) points xys -> (scale <> 0)%R -> snappedR scale xys s -> (2 <= length points)%nat ->
  exists N a mid z, (forall n, (N <= n)%nat -> frame_planify n f scale points false = Some (a :: mid ++ [z], Ok tt)) /\
    hd_error s = Some a /\ last s a = z /\ cancels (SimplifySpec.turns (dedup s)) mid.
Proof.
  intros P N0 S L. destruct (project_total _ _ _ P) as (N & H).
  assert (Ls : (2 <= length s)%nat). { apply F2_length in P. apply F2_length in S. lia. }
  destruct (open_spec s 8 3 9 ltac:(lia) eight_pow ltac:(lia) Ls) as (a & mid & z & E & R1 & R2 & R3 & _).
  exists (max N 9), a, mid, z. split; [|auto]. intros n Ln. rewrite (planify_run n f scale points xys s false (H n ltac:(lia)) N0 S).
  exact (open_mono 9 n s 8 _ E ltac:(lia)).
Qed.
Lemma planify_zero n f points xys closed : project n (fr_proj f) points = Some (Ok xys) -> points <> [] -> frame_planify n f 0 points closed = Some ([], Err ZeroDivisionError).
Proof.
  intros P N. unfold frame_planify. rewrite P. apply project_cons in P. destruct xys as [|xy r]; [destruct points; [congruence|discriminate]|].
  destruct (Req_bool_spec 0 0); [reflexivity|lra].
Qed.
Lemma point_cell f scale lon lat x y : (exists n, geo2rect n (fr_proj f) lon lat = Some (Ok (x, y))) -> (0 < scale)%R ->
  exists N i j, (forall n, (N <= n)%nat -> frame_point n f scale (lon, lat) = Some (Ok (IZR i, IZR j))) /\ cell scale x i /\ cell scale y j.
Proof.
  intros (N & G) P. exists N, (Int_part (x / scale)), (Int_part (y / scale)). split.
  - intros n L. unfold frame_point. cbn [fst snd]. rewrite (geo2rect_mono _ n _ _ _ _ G L). cbn [bind]. unfold floordiv. rewrite !ndivE_R by lra. reflexivity.
  - assert (C : forall v, cell scale v (Int_part (v / scale))).
    { intros v. unfold cell. pose proof (int_part_bounds (v / scale)) as B. set (k := IZR (Int_part (v / scale))) in *.
      assert (E : v = (v / scale * scale)%R) by (field; lra). split; [rewrite E at 1; apply Rmult_le_compat_r; lra|rewrite E at 1; apply Rmult_lt_compat_r; lra]. }
    auto.
Qed.
Lemma point_zero n f lon lat xy : geo2rect n (fr_proj f) lon lat = Some (Ok xy) -> frame_point n f 0 (lon, lat) = Some (Err ZeroDivisionError).
Proof. intros G. unfold frame_point. cbn [fst snd]. rewrite G. destruct xy. cbn [bind]. unfold floordiv. rewrite ndivE_zero. reflexivity. Qed.
Lemma base_raises n p b scale pt points closed : (exists q, p = PSphere CProjBase q) \/ (exists q, p = PEllipsoid false q) ->
  frame_point n (mkframe p b) scale pt = Some (Err AttributeError) /\
  (points <> [] -> frame_planify n (mkframe p b) scale points closed = Some ([], Err AttributeError)).
Proof.
  intros H. assert (G : forall lon lat, geo2rect n p lon lat = Some (Err AttributeError)) by (intros; destruct H as [(q & ->)|(q & ->)]; reflexivity).
  split; [unfold frame_point; cbn [fr_proj]; rewrite G; reflexivity|]. intros N. destruct points as [|[lon lat] r]; [congruence|].
  unfold frame_planify. cbn [fr_proj project]. rewrite G. reflexivity.
Qed.
