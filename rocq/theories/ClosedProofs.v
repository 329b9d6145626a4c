From Coq Require Import ZifyBool ZifyNat.
From Verif Require Import Num BufferModel BufferSpec BufferProofs SimplifyModel SimplifySpec
  SimplifyProofs.
Open Scope Z_scope.

Definition tri : Type := (list pt * list pt * list pt)%type.

Definition qcorner2 (cap : Z) (st : tri) (q : pt) : tri :=
  let '(o, q2, q1) := st in
  if slot_eqb q (newest q1) then (o, q2, removelast q1)
  else if Z.of_nat (length q1) =? cap
       then match q1 with
            | [] => (o, q2, [q])
            | t :: r => if Z.of_nat (length q2) =? cap then (o ++ [t], q2, r ++ [q])
                        else (o, q2 ++ [t], r ++ [q])
            end
       else (o, q2, q1 ++ [q]).

Lemma qcorner2_emit cap o q2 q1 q :
  qcorner2 cap (o, q2, q1) q =
  (let '(o', q2', q1') := qcorner2 cap ([], q2, q1) q in (o ++ o', q2', q1')).
Proof.
  unfold qcorner2. destruct (slot_eqb q (newest q1)); cbn; [rewrite app_nil_r; reflexivity|].
  destruct (Z.of_nat (length q1) =? cap); cbn; [|rewrite app_nil_r; reflexivity].
  destruct q1; cbn; [rewrite app_nil_r; reflexivity|].
  destruct (Z.of_nat (length q2) =? cap); cbn; rewrite ?app_nil_r; reflexivity.
Qed.

Lemma fold2_emit cap c : forall o q2 q1,
  fold_left (qcorner2 cap) c (o, q2, q1) =
  (let '(o', q2', q1') := fold_left (qcorner2 cap) c ([], q2, q1) in (o ++ o', q2', q1')).
Proof.
  induction c as [|x c IH]; intros o q2 q1; cbn [fold_left].
  - rewrite app_nil_r. reflexivity.
  - rewrite qcorner2_emit.
    destruct (qcorner2 cap ([], q2, q1) x) as [[o1 q21] q11].
    rewrite (IH (o ++ o1)), (IH o1).
    destruct (fold_left (qcorner2 cap) c ([], q21, q11)) as [[o3 q23] q13].
    rewrite app_assoc. reflexivity.
Qed.

Lemma prev_step p q r s d : r <> q ->
  last (p :: removelast (dedup (q :: r :: s))) d = last (q :: removelast (dedup (r :: s))) q.
Proof.
  intros N. rewrite dedup_neq by congruence. destruct (dedup_cons r s) as (t & Et). rewrite Et.
  change (removelast (q :: r :: t)) with (q :: removelast (r :: t)).
  change (last (p :: q :: removelast (r :: t)) d) with (last (q :: removelast (r :: t)) d).
  apply last_default.
Qed.
Lemma prev_first p q s :
  last (p :: removelast (dedup (q :: s))) p = last (removelast (dedup (p :: q :: s))) p.
Proof.
  destruct (same p q) as [->|N].
  - rewrite dedup_eq. destruct (dedup_cons q s) as (t & Et). rewrite Et.
    destruct t as [|b t]; [reflexivity|].
    change (removelast (q :: b :: t)) with (q :: removelast (b :: t)). reflexivity.
  - rewrite dedup_neq by exact N. destruct (dedup_cons q s) as (t & Et). rewrite Et.
    change (removelast (p :: q :: t)) with (p :: removelast (q :: t)). reflexivity.
Qed.
Lemma prev_in p l : In (last (removelast (dedup (p :: l))) p) (p :: l).
Proof.
  destruct (removelast (dedup (p :: l))) as [|a t] eqn:E; [left; reflexivity|].
  apply (dedup_in (p :: l)).
  assert (H : In (last (a :: t) p) (a :: t)).
  { clear E. revert a; induction t as [|b t IH]; intros a; [left; reflexivity|right; apply IH]. }
  revert H. generalize (last (a :: t) p). intros y H. rewrite <- E in H.
  apply In_nth_error in H. destruct H as (i & H). apply nth_error_removelast in H.
  apply nth_error_In in H. exact H.
Qed.

Section Cap2.
  Variables k n : Z.
  Hypothesis Hk : 0 <= k.
  Hypothesis En : n = 2 ^ k.

  Lemma closed_corner_rep (b1 b2 : buffer pt) q1 q2 q : brep n b1 q1 -> brep n b2 q2 ->
    exists b1' b2', closed_corner b1 b2 q =
      (fst (fst (qcorner2 n ([], q2, q1) q)), Ok (b1', b2')) /\
      brep n b1' (snd (qcorner2 n ([], q2, q1) q)) /\
      brep n b2' (snd (fst (qcorner2 n ([], q2, q1) q))).
  Proof.
    pose proof (n_pos k n Hk En) as Hn. intros R1 R2.
    unfold closed_corner. rewrite (rep_isempty k n Hk En b1 q1 R1).
    destruct q1 as [|t r] eqn:Eql.
    - cbn [negb andb]. rewrite (rep_isfull k n Hk En b1 _ R1). cbn [length].
      replace (Z.of_nat 0 =? n) with false by lia.
      destruct (rep_push k n Hk En b1 [] q R1) as (b' & Eb & R'); [cbn; lia|].
      rewrite Eb. exists b', b2. unfold qcorner2. cbn [newest length slot_eqb nth_error].
      replace (Z.of_nat 0 =? n) with false by lia. cbn. auto.
    - rewrite <- Eql in *. assert (Hne : q1 <> []) by (rewrite Eql; discriminate).
      cbn [negb andb]. rewrite (rep_peek k n Hk En b1 q1 R1 Hne).
      unfold qcorner2. destruct (slot_eqb q (newest q1)) eqn:Es.
      + destruct (rep_pop k n Hk En b1 q1 R1 Hne) as (b' & Eb & R').
        rewrite Eb. cbn. eauto.
      + rewrite (rep_isfull k n Hk En b1 q1 R1).
        destruct (Z.eqb_spec (Z.of_nat (length q1)) n) as [Ef|Nf].
        * rewrite Eql in R1. destruct (rep_shift k n Hk En b1 t r R1) as (b' & Eb & R').
          rewrite Eb. rewrite Eql. rewrite Eql in Ef. cbn [length] in Ef.
          destruct (rep_push k n Hk En b' r q R') as (b'' & Eb' & R''); [lia|].
          rewrite (rep_isfull k n Hk En b2 q2 R2).
          assert (Z.of_nat (length q2) <= n) by apply R2.
          destruct (Z.eqb_spec (Z.of_nat (length q2)) n) as [Ef2|Nf2].
          -- rewrite Eb'. cbn. eauto.
          -- destruct (rep_push k n Hk En b2 q2 t R2) as (b2' & Eb2 & R2'); [lia|].
             rewrite Eb2. cbn [bind]. rewrite Eb'. cbn. eauto.
        * assert (Z.of_nat (length q1) <= n) by apply R1.
          destruct (rep_push k n Hk En b1 q1 q R1) as (b' & Eb & R'); [lia|].
          rewrite Eb. cbn. eauto.
  Qed.

  Lemma closed_loop_rep s : forall (b1 b2 : buffer pt) q1 q2 p q ro,
    brep n b1 q1 -> brep n b2 q2 ->
    let '(o, q2', q1') := fold_left (qcorner2 n) (cloop p q s) ([], q2, q1) in
    exists b1' b2' p',
      closed_loop b1 b2 p q ro s =
        (o, Ok (b1', b2', p', last (q :: s) q,
                match s with [] => ro | _ => Some (last (q :: s) q) end)) /\
      brep n b1' q1' /\ brep n b2' q2' /\ p' = last (p :: removelast (dedup (q :: s))) p.
  Proof.
    induction s as [|r s IH]; intros b1 b2 q1 q2 p q ro R1 R2.
    - cbn. exists b1, b2, p. auto.
    - cbn [closed_loop cloop].
      change (last (q :: r :: s) q) with (last (r :: s) q).
      destruct (pt_eqb r q) eqn:E.
      { apply pt_eqb_eq in E. subst r.
        specialize (IH b1 b2 q1 q2 p q (Some q) R1 R2).
        destruct (fold_left (qcorner2 n) (cloop p q s) ([], q2, q1)) as [[o q2'] q1'].
        destruct IH as (b1' & b2' & p' & E & R1' & R2' & I). exists b1', b2', p'.
        rewrite E. split; [|split; [assumption|split; [assumption|rewrite dedup_eq; exact I]]].
        destruct s; reflexivity. }
      apply pt_eqb_neq in E. rewrite (last_default r s q r).
      destruct (collinear p q r).
      { specialize (IH b1 b2 q1 q2 q r (Some r) R1 R2).
        destruct (fold_left (qcorner2 n) (cloop q r s) ([], q2, q1)) as [[o q2'] q1'].
        destruct IH as (b1' & b2' & p' & E' & R1' & R2' & I). exists b1', b2', p'.
        rewrite E'. split; [|split; [assumption|split; [assumption|rewrite prev_step by exact E; exact I]]].
        destruct s; reflexivity. }
      destruct (closed_corner_rep b1 b2 q1 q2 q R1 R2) as (b1' & b2' & Eb & R1' & R2').
      rewrite Eb. cbn [fold_left].
      destruct (qcorner2 n ([], q2, q1) q) as [[o1 q21] q11]. cbn [fst snd] in *.
      rewrite (fold2_emit n _ o1).
      specialize (IH b1' b2' q11 q21 q r (Some r) R1' R2').
      destruct (fold_left (qcorner2 n) (cloop q r s) ([], q21, q11)) as [[o q2'] q1'].
      destruct IH as (b1'' & b2'' & p' & E' & R1'' & R2'' & I). exists b1'', b2'', p'.
      rewrite E'. split; [|split; [assumption|split; [assumption|rewrite prev_step by exact E; exact I]]].
      destruct s; reflexivity.
  Qed.

  Lemma in_newest (q : list pt) x : newest q = Some x -> In x q.
  Proof. unfold newest. intros H. apply nth_error_In in H. exact H. Qed.
  Lemma in_removelast (q : list pt) x : In x (removelast q) -> In x q.
  Proof.
    intros H. apply In_nth_error in H. destruct H as (i & H).
    apply nth_error_removelast in H. apply nth_error_In in H. exact H.
  Qed.

  Ltac cj := repeat match goal with |- _ /\ _ => split end.

  Lemma meet_rep fuel : forall (b1 b2 : buffer pt) q1 q2 p q,
    brep n b1 q1 -> brep n b2 q2 -> (length q1 < fuel)%nat ->
    exists b1' b2' p' q' q1' q2',
      closed_meet fuel b1 b2 p q = Some (Ok (b1', b2', p', q')) /\
      brep n b1' q1' /\ brep n b2' q2' /\
      (length q1' <= length q1)%nat /\ (length q2' <= length q2)%nat /\
      incl q1' q1 /\ incl q2' q2 /\ (p' = p \/ In p' q1) /\ (q' = q \/ In q' q2) /\
      (q2 = [] -> q1' = q1 /\ q2' = [] /\ p' = p /\ q' = q) /\
      (forall x y r, newest q1 = Some x -> q2 = y :: r -> x <> y ->
         q1' = removelast q1 /\ q2' = r /\ p' = x /\ q' = y).
  Proof.
    induction fuel as [|f IH]; intros b1 b2 q1 q2 p q R1 R2 Hf; [lia|].
    cbn [closed_meet].
    rewrite (rep_isempty k n Hk En b1 q1 R1), (rep_isempty k n Hk En b2 q2 R2).
    destruct q1 as [|a1 r1] eqn:E1; [|destruct q2 as [|a2 r2] eqn:E2].
    - exists b1, b2, p, q, [], q2. cbn. cj; auto using incl_refl; try (intros; discriminate).
    - exists b1, b2, p, q, (a1 :: r1), []. cbn.
      cj; auto using incl_refl; try (intros; discriminate).
    - rewrite <- E1 in *. cbn [orb].
      assert (Hne : q1 <> []) by (rewrite E1; discriminate).
      destruct (rep_pop k n Hk En b1 q1 R1 Hne) as (b1' & Eb1 & R1').
      destruct (rep_shift k n Hk En b2 a2 r2 R2) as (b2' & Eb2 & R2').
      rewrite Eb1, Eb2. destruct (newest_some q1 Hne) as (x & Ex). rewrite Ex.
      assert (Ix : In x q1) by (apply in_newest; exact Ex).
      assert (L : (length (removelast q1) <= length q1)%nat) by (rewrite removelast_length; lia).
      assert (I1 : incl (removelast q1) q1) by (intros z; apply in_removelast).
      destruct (pt_eqb x a2) eqn:Ee; cbn [negb].
      + apply pt_eqb_eq in Ee. subst a2.
        destruct (IH b1' b2' (removelast q1) r2 x x R1' R2') as
          (c1 & c2 & p' & q' & q1' & q2' & H & C1 & C2 & L1 & L2 & I1' & I2' & P' & Q' & _ & _).
        { rewrite removelast_length. rewrite E1 in *. cbn in *. lia. }
        exists c1, c2, p', q', q1', q2'. cbn [length]. cj; auto; try lia.
        * intros z Hz. apply I1. apply I1'. exact Hz.
        * intros z Hz. right. apply I2'. exact Hz.
        * right. destruct P' as [->|P']; [exact Ix|apply I1; exact P'].
        * right. destruct Q' as [->|Q']; [left; reflexivity|right; exact Q'].
        * discriminate.
        * intros x' y r Hx Hy Hn'. inversion Hy; inversion Hx; subst. congruence.
      + exists b1', b2', x, a2, (removelast q1), r2. cbn [length].
        cj; auto; try lia; try discriminate.
        * intros z Hz. right. exact Hz.
        * right. left. reflexivity.
        * intros x' y r Hx Hy Hn'. inversion Hy; inversion Hx; subst. auto.
  Qed.

  Lemma corner2_incl (P : pt -> Prop) c : forall o q2 q1,
    Forall P o -> Forall P q2 -> Forall P q1 -> Forall P c ->
    let '(o', q2', q1') := fold_left (qcorner2 n) c (o, q2, q1) in
    Forall P o' /\ Forall P q2' /\ Forall P q1'.
  Proof.
    induction c as [|x c IH]; intros o q2 q1 Ho H2 H1 Hc; cbn [fold_left]; [auto|].
    pose proof (Forall_inv Hc) as Hx. pose proof (Forall_inv_tail Hc) as Hc'.
    unfold qcorner2 at 2. destruct (slot_eqb x (newest q1)).
    - apply IH; auto. apply Forall_forall. intros z Hz. apply in_removelast in Hz.
      rewrite Forall_forall in H1. auto.
    - destruct (Z.of_nat (length q1) =? n).
      + destruct q1 as [|t r]; [apply IH; auto|].
        pose proof (Forall_inv H1) as Ht. pose proof (Forall_inv_tail H1) as Hr.
        destruct (Z.of_nat (length q2) =? n); apply IH; auto; apply Forall_app; auto.
      + apply IH; auto. apply Forall_app; auto.
  Qed.

  (** Everything about the run except the two middle phases. *)
  Lemma closed_run fuel p q x s : n < Z.of_nat fuel ->
    let '(o, q2, q1) :=
      fold_left (qcorner2 n) (turns (dedup (p :: q :: x :: s))) ([], [], []) in
    exists p1 p' q' q1' q2',
      closed_no_slit fuel (p :: q :: x :: s) n =
        Some (p :: o ++ q1' ++ [p'; q'] ++ q2' ++ [last (x :: s) x], Ok tt) /\
      p1 = last (removelast (dedup (p :: q :: x :: s))) p /\
      incl q1' q1 /\ incl q2' q2 /\ (p' = p1 \/ In p' q1) /\
      (q' = last (x :: s) x \/ In q' q2) /\
      (q2 = [] -> q1' = q1 /\ q2' = [] /\ p' = p1 /\ q' = last (x :: s) x) /\
      (forall a y r, newest q1 = Some a -> q2 = y :: r -> a <> y ->
         q1' = removelast q1 /\ q2' = r /\ p' = a /\ q' = y).
  Proof.
    intros Hf. unfold closed_no_slit.
    destruct (proj2 (@new_iff pt n)) as (b & Eb); [right; eauto|].
    rewrite Eb. assert (R0 := rep_new k n Hk En b Eb).
    rewrite <- turns_dedup, <- cloop_turns.
    pose proof (closed_loop_rep (x :: s) b b [] [] p q None R0 R0) as L.
    destruct (fold_left (qcorner2 n) (cloop p q (x :: s)) ([], [], [])) as [[o q2] q1].
    destruct L as (b1 & b2 & p1 & E & R1 & R2 & I). rewrite E.
    change (last (q :: x :: s) q) with (last (x :: s) q). rewrite (last_default x s q x).
    assert (L1 : Z.of_nat (length q1) <= n) by apply R1.
    assert (L2 : Z.of_nat (length q2) <= n) by apply R2.
    destruct (meet_rep fuel b1 b2 q1 q2 p1 (last (x :: s) x) R1 R2 ltac:(lia)) as
      (c1 & c2 & p' & q' & q1' & q2' & H & C1 & C2 & K1 & K2 & I1 & I2 & P' & Q' & G1 & G2).
    rewrite H.
    rewrite (flush_rep k n Hk En fuel c1 q1' C1) by lia.
    rewrite (flush_rep k n Hk En fuel c2 q2' C2) by lia.
    exists p1, p', q', q1', q2'. cj; auto. rewrite I. apply prev_first.
  Qed.

  (** At most n turning points: nothing leaves the first buffer. *)
  Lemma feed2_few c : forall q1, no_adjacent q1 ->
    (length q1 + length c <= Z.to_nat n)%nat ->
    exists q1', fold_left (qcorner2 n) c ([], [], q1) = ([], [], q1') /\
      no_adjacent q1' /\ cancels (q1 ++ c) q1'.
  Proof.
    induction c as [|q c IH]; intros q1 Ha Hl; cbn [fold_left length] in *.
    - exists q1. rewrite app_nil_r. cj; auto. constructor.
    - unfold qcorner2 at 2. destruct (slot_eqb q (newest q1)) eqn:E.
      + destruct (IH (removelast q1)) as (q1' & F & A & C).
        { apply no_adjacent_removelast. exact Ha. }
        { rewrite removelast_length. lia. }
        exists q1'. cj; auto.
        destruct (newest q1) as [y|] eqn:En'; [|discriminate]. cbn in E.
        apply pt_eqb_eq in E. subst y. rewrite (newest_inv q1 q En').
        rewrite <- app_assoc. cbn. constructor. exact C.
      + replace (Z.of_nat (length q1) =? n) with false by lia.
        destruct (IH (q1 ++ [q])) as (q1' & F & A & C).
        { apply no_adjacent_snoc; [exact Ha|]. intros D. rewrite D in E. cbn in E.
          rewrite pt_eqb_refl in E. discriminate. }
        { rewrite app_length. cbn. lia. }
        exists q1'. rewrite <- app_assoc in C. auto.
  Qed.

  (** Distinct turning points, n < number <= 2n: the first buffer keeps the
      last n, the second the first ones. *)
  Lemma feed2_many c : forall q2 q1,
    NoDup (q2 ++ q1 ++ c) -> (length q1 <= Z.to_nat n)%nat ->
    (q2 <> [] -> length q1 = Z.to_nat n) ->
    (length q2 + length q1 + length c <= 2 * Z.to_nat n)%nat ->
    exists q1' q2', fold_left (qcorner2 n) c ([], q2, q1) = ([], q2', q1') /\
      q2' ++ q1' = q2 ++ q1 ++ c /\
      (length q1' = Nat.min (Z.to_nat n) (length q2 + length q1 + length c))%nat.
  Proof.
    pose proof (n_pos k n Hk En) as Hn.
    induction c as [|q c IH]; intros q2 q1 Hd Hl H2 Ht; cbn [fold_left length] in *.
    - exists q1, q2. rewrite app_nil_r. repeat split.
      destruct q2 as [|y r]; [cbn in *; lia|]. rewrite H2 by discriminate. cbn. lia.
    - assert (E : slot_eqb q (newest q1) = false).
      { destruct (newest q1) as [x|] eqn:Ex; [|reflexivity]. cbn. apply pt_eqb_neq.
        intros ->. apply in_newest in Ex. apply NoDup_remove_2 with (l := q2 ++ q1) (l' := c) (a := x).
        - rewrite <- app_assoc. exact Hd.
        - rewrite !in_app_iff. tauto. }
      unfold qcorner2 at 2. rewrite E.
      destruct (Z.eqb_spec (Z.of_nat (length q1)) n) as [Ef|Nf].
      + destruct q1 as [|t r]; [cbn in *; lia|]. cbn [length] in *.
        replace (Z.of_nat (length q2) =? n) with false by lia.
        destruct (IH (q2 ++ [t]) (r ++ [q])) as (q1' & q2' & F & A & L).
        * rewrite <- !app_assoc. exact Hd.
        * rewrite app_length. cbn. lia.
        * intros _. rewrite app_length. cbn. lia.
        * rewrite !app_length. cbn. lia.
        * exists q1', q2'. split; [exact F|]. split.
          -- rewrite A. rewrite <- !app_assoc. reflexivity.
          -- rewrite L. rewrite !app_length. cbn. lia.
      + assert (q2 = []) by (destruct q2; [reflexivity|]; specialize (H2 ltac:(discriminate)); lia).
        subst q2. cbn [length app] in *.
        destruct (IH [] (q1 ++ [q])) as (q1' & q2' & F & A & L).
        * cbn. rewrite <- !app_assoc. exact Hd.
        * rewrite app_length. cbn. lia.
        * congruence.
        * cbn. rewrite !app_length. cbn. lia.
        * exists q1', q2'. split; [exact F|]. split.
          -- rewrite A. cbn. rewrite <- !app_assoc. reflexivity.
          -- rewrite L. cbn. rewrite !app_length. cbn. lia.
  Qed.
End Cap2.

Lemma turns_in l x : In x (turns l) -> In x l.
Proof.
  induction l as [|a l IH]; [tauto|]. destruct l as [|b [|c l]]; try (cbn; tauto).
  rewrite turns_cons. destruct (cross a b c =? 0); intros H.
  - right. apply IH. exact H.
  - destruct H as [->|H]; [right; left; reflexivity|right; apply IH; exact H].
Qed.

Lemma last_cons_in {A} (x : A) s d : In (last (x :: s) d) (x :: s).
Proof.
  revert x; induction s as [|y s IH]; intros x; [left; reflexivity|].
  right. apply IH.
Qed.

Lemma last_app_single {A} (l : list A) x d : last (l ++ [x]) d = x.
Proof. apply last_last. Qed.

Lemma closed_vertices s n k fuel :
  0 <= k -> n = 2 ^ k -> n < Z.of_nat fuel -> (3 <= length s)%nat ->
  exists out, closed_no_slit fuel s n = Some (out, Ok tt) /\
    (forall v, In v out -> In v s) /\
    hd_error out = hd_error s /\ (forall d, last out d = last s d).
Proof.
  intros Hk En Hf Hs. destruct s as [|p [|q [|x s]]]; cbn in Hs; try lia.
  pose proof (closed_run k n Hk En fuel p q x s Hf) as C.
  pose proof (corner2_incl n (fun v => In v (p :: q :: x :: s))
    (turns (dedup (p :: q :: x :: s))) [] [] []) as F.
  destruct (fold_left (qcorner2 n) (turns (dedup (p :: q :: x :: s))) ([], [], []))
    as [[o q2] q1].
  destruct F as (Fo & F2 & F1); auto.
  { apply Forall_forall. intros v Hv. apply turns_in in Hv.
    apply (dedup_in (p :: q :: x :: s)). exact Hv. }
  destruct C as (p1 & p' & q' & q1' & q2' & E & P1 & I1 & I2 & P' & Q' & _ & _).
  rewrite Forall_forall in Fo, F1, F2.
  eexists; split; [exact E|]. split; [|split].
  - intros v Hv. cbn [In] in Hv. rewrite !in_app_iff in Hv. cbn [In] in Hv.
    assert (HL : In (last (x :: s) x) (p :: q :: x :: s))
      by (right; right; apply last_cons_in).
    assert (HP : In p1 (p :: q :: x :: s)).
    { rewrite P1. apply prev_in. }
    assert (HP' : In p' (p :: q :: x :: s)).
    { destruct P' as [->|P']; [exact HP|auto]. }
    assert (HQ' : In q' (p :: q :: x :: s)).
    { destruct Q' as [->|Q']; [exact HL|auto]. }
    destruct Hv as [<-|[Hv|[Hv|[[<-|[<-|[]]]|[Hv|[<-|[]]]]]]]; auto.
    left; reflexivity.
  - reflexivity.
  - intros d. change (p :: q :: x :: s) with ([p; q] ++ x :: s).
    replace (p :: o ++ q1' ++ [p'; q'] ++ q2' ++ [last (x :: s) x]) with
      ((p :: o ++ q1' ++ [p'; q'] ++ q2') ++ [last (x :: s) x])
      by (cbn; rewrite <- !app_assoc; cbn; rewrite <- ?app_assoc; reflexivity).
    rewrite last_app_single. change (last ([p; q] ++ x :: s) d) with (last (x :: s) d).
    apply last_default.
Qed.

Lemma closed_few s n k fuel :
  0 <= k -> n = 2 ^ k -> n < Z.of_nat fuel -> (3 <= length s)%nat ->
  Z.of_nat (length (turns (dedup s))) <= n ->
  exists a mid p z, closed_no_slit fuel s n = Some (a :: mid ++ [p; z; z], Ok tt) /\
    hd_error s = Some a /\ p = last (removelast (dedup s)) a /\ z = last s a /\
    cancels (turns (dedup s)) mid /\ no_adjacent mid.
Proof.
  intros Hk En Hf Hs Hc. destruct s as [|p [|q [|x s]]]; cbn in Hs; try lia.
  pose proof (closed_run k n Hk En fuel p q x s Hf) as C.
  destruct (feed2_few k n Hk En (turns (dedup (p :: q :: x :: s))) []) as (q1 & F & Na & Ca).
  { intros [|] ? ? ?; discriminate. }
  { cbn [length Nat.add]. lia. }
  rewrite F in C. destruct C as (p1 & p' & q' & q1' & q2' & E & P1 & _ & _ & _ & _ & G & _).
  destruct (G eq_refl) as (-> & -> & -> & ->).
  exists p, q1, p1, (last (x :: s) x). split; [rewrite E; reflexivity|].
  split; [reflexivity|]. split; [exact P1|].
  split; [|split; [exact Ca|exact Na]].
  change (last (p :: q :: x :: s) p) with (last (x :: s) p). apply last_default.
Qed.

Lemma closed_rotated s n k fuel :
  0 <= k -> n = 2 ^ k -> n < Z.of_nat fuel -> (3 <= length s)%nat ->
  let c := turns (dedup s) in
  let j := (length c - Z.to_nat n)%nat in
  NoDup c -> (Z.to_nat n < length c <= 2 * Z.to_nat n)%nat ->
  exists a, hd_error s = Some a /\
    closed_no_slit fuel s n = Some (a :: skipn j c ++ firstn j c ++ [last s a], Ok tt).
Proof.
  intros Hk En Hf Hs c j Hd Hl. subst c. destruct s as [|p [|q [|x s]]]; cbn in Hs; try lia.
  pose proof (n_pos k n Hk En) as Hn.
  pose proof (closed_run k n Hk En fuel p q x s Hf) as C.
  set (c := turns (dedup (p :: q :: x :: s))) in *.
  destruct (feed2_many k n Hk En c [] []) as (q1 & q2 & F & A & L).
  { exact Hd. } { cbn; lia. } { congruence. } { cbn [length Nat.add]. lia. }
  rewrite F in C. destruct C as (p1 & p' & q' & q1' & q2' & E & _ & _ & _ & _ & _ & _ & G).
  cbn [app length Nat.add] in A, L.
  exists p. split; [reflexivity|].
  assert (L1 : length q1 = Z.to_nat n) by lia.
  assert (L2 : length q2 = j).
  { apply (f_equal (@length _)) in A. rewrite app_length in A. unfold j. lia. }
  destruct (newest_some q1) as (a & Ea); [intros ->; cbn in *; lia|].
  destruct q2 as [|y r] eqn:E2; [cbn in *; lia|].
  assert (Na : a <> y).
  { intros ->. apply in_newest in Ea. rewrite <- A in Hd. inversion Hd; subst.
    apply H1. apply in_app_iff. right. exact Ea. }
  destruct (G a y r Ea eq_refl Na) as (-> & -> & -> & ->).
  rewrite E. rewrite <- E2 in *.
  assert (S1 : skipn j c = q1) by (rewrite <- A, <- L2, skipn_app, skipn_all, Nat.sub_diag; reflexivity).
  assert (S2 : firstn j c = q2)
    by (rewrite <- A, <- L2, firstn_app, firstn_all, Nat.sub_diag; cbn; apply app_nil_r).
  rewrite S1, S2. rewrite E2. rewrite (newest_inv q1 a Ea) at 2.
  change (last (p :: q :: x :: s) p) with (last (x :: s) p).
  rewrite (last_default x s p x). cbn [app]. f_equal. f_equal. f_equal.
  rewrite <- app_assoc. reflexivity.
Qed.

Lemma closed_two p q n k fuel :
  0 <= k -> n = 2 ^ k -> (0 < fuel)%nat ->
  closed_no_slit fuel [p; q] n = Some ([p; p; q], Err UnboundLocalError).
Proof.
  intros Hk En Hf. unfold closed_no_slit.
  destruct (proj2 (@new_iff pt n)) as (b & Eb); [right; eauto|]. rewrite Eb.
  assert (R0 := rep_new k n Hk En b Eb). cbn [closed_loop].
  destruct fuel as [|f]; [lia|]. cbn [closed_meet].
  rewrite (rep_isempty k n Hk En b [] R0). cbn [orb flush].
  rewrite (rep_isempty k n Hk En b [] R0). reflexivity.
Qed.
Lemma closed_short s n fuel : (exists b, @buf_new pt n = Ok b) -> (length s < 2)%nat ->
  closed_no_slit fuel s n = Some (s, Err StopIteration).
Proof.
  intros (b & E) Hs. unfold closed_no_slit. rewrite E.
  destruct s as [|p [|q s]]; [reflexivity|reflexivity|cbn in Hs; lia].
Qed.
