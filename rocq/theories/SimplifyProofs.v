From Coq Require Import ZifyBool ZifyNat Lqa SpecFloat.
From Verif Require Import Num BufferModel BufferSpec BufferProofs SimplifyModel SimplifySpec.
Open Scope Z_scope.

Lemma pt_eqb_eq a b : pt_eqb a b = true <-> a = b.
Proof.
  destruct a as [ax ay], b as [bx by_]. unfold pt_eqb; cbn.
  rewrite andb_true_iff, !Z.eqb_eq. split; [intros [-> ->]|intros E; inversion E]; auto.
Qed.
Lemma pt_eqb_neq a b : pt_eqb a b = false <-> a <> b.
Proof. rewrite <- pt_eqb_eq. destruct (pt_eqb a b); split; congruence. Qed.
Lemma pt_eqb_refl a : pt_eqb a a = true.
Proof. apply pt_eqb_eq. reflexivity. Qed.

Lemma collinear_cross a b c : collinear a b c = true <-> cross a b c = 0.
Proof.
  destruct a, b, c. unfold collinear, cross; cbn. rewrite Z.eqb_eq. lia.
Qed.
Lemma collinear_cross_b a b c : collinear a b c = (cross a b c =? 0).
Proof.
  apply eq_true_iff_eq. rewrite Z.eqb_eq. apply collinear_cross.
Qed.

(** ** subseq, cancels *)
Lemma subseq_refl {A} (l : list A) : subseq l l.
Proof. induction l; constructor; assumption. Qed.
Lemma subseq_trans {A} (l m n : list A) : subseq l m -> subseq m n -> subseq l n.
Proof.
  intros H1 H2; revert l H1. induction H2 as [n|x m n H2 IH|x m n H2 IH]; intros l H1.
  - inversion H1; subst. constructor.
  - inversion H1; subst; constructor; auto.
  - constructor; auto.
Qed.
Lemma subseq_app {A} (a b c d : list A) : subseq a b -> subseq c d -> subseq (a ++ c) (b ++ d).
Proof.
  intros H1 H2. induction H1; cbn.
  - induction l; cbn; [exact H2|constructor; assumption].
  - constructor; assumption.
  - constructor; assumption.
Qed.
Lemma subseq_in {A} (l m : list A) x : subseq l m -> In x l -> In x m.
Proof.
  induction 1; cbn; intros H'; [contradiction| |]; intuition.
Qed.
Lemma cancels_subseq {A} (l m : list A) : cancels l m -> subseq m l.
Proof.
  induction 1 as [l|a x b m H IH]; [apply subseq_refl|].
  eapply subseq_trans; [exact IH|]. apply subseq_app; [apply subseq_refl|].
  constructor. constructor. apply subseq_refl.
Qed.
Lemma cancels_trans {A} (l m n : list A) : cancels l m -> cancels m n -> cancels l n.
Proof. induction 1; intros H2; [exact H2|]. constructor. auto. Qed.
Lemma cancels_app {A} (l m d : list A) : cancels l m -> cancels (l ++ d) (m ++ d).
Proof.
  induction 1 as [l|a x b m H IH]; [constructor|].
  rewrite <- app_assoc in IH |- *. cbn. constructor. exact IH.
Qed.
Lemma cancels_length {A} (l m : list A) : cancels l m -> (length m <= length l)%nat.
Proof.
  induction 1 as [l|a x b m H IH]; [lia|]. rewrite app_length in *; cbn; lia.
Qed.

Lemma newest_snoc {A} (l : list A) x : newest (l ++ [x]) = Some x.
Proof.
  unfold newest. rewrite app_length; cbn. rewrite nth_error_app2 by lia.
  replace (length l + 1 - 1 - length l)%nat with 0%nat by lia. reflexivity.
Qed.
Lemma newest_inv {A} (l : list A) x : newest l = Some x -> l = removelast l ++ [x].
Proof.
  intros H. destruct l as [|y r] using rev_ind; [discriminate|].
  rewrite newest_snoc in H. inversion H; subst. rewrite removelast_last. reflexivity.
Qed.

(** ** dedup and turns *)
Lemma dedup_cons q s : exists t, dedup (q :: s) = q :: t.
Proof.
  revert q; induction s as [|r s IH]; intros q; [exists []; reflexivity|].
  cbn [dedup]. destruct (same q r) as [->|N]; [apply IH|]. eexists; reflexivity.
Qed.
Lemma dedup_eq q s : dedup (q :: q :: s) = dedup (q :: s).
Proof. cbn [dedup]. destruct (same q q); [reflexivity|congruence]. Qed.
Lemma dedup_neq q r s : q <> r -> dedup (q :: r :: s) = q :: dedup (r :: s).
Proof. intros N. cbn [dedup]. destruct (same q r); [congruence|reflexivity]. Qed.
Lemma dedup_in l x : In x (dedup l) <-> In x l.
Proof.
  induction l as [|a r IH]; [tauto|]. destruct r as [|b r]; [tauto|].
  destruct (same a b) as [->|N].
  - rewrite dedup_eq, IH. cbn. tauto.
  - rewrite dedup_neq by exact N. cbn [In] in *. rewrite IH. tauto.
Qed.
Lemma dedup_last l d : last (dedup l) d = last l d.
Proof.
  induction l as [|a r IH]; [reflexivity|]. destruct r as [|b r]; [reflexivity|].
  destruct (same a b) as [->|N].
  - rewrite dedup_eq, IH. reflexivity.
  - rewrite dedup_neq by exact N. destruct (dedup_cons b r) as (t & E).
    rewrite E in *. change (last (a :: b :: t) d) with (last (b :: t) d). rewrite IH.
    reflexivity.
Qed.

Lemma turns_cons a b c t :
  turns (a :: b :: c :: t) =
  if cross a b c =? 0 then turns (b :: c :: t) else b :: turns (b :: c :: t).
Proof. reflexivity. Qed.

Fixpoint cloop (p q : pt) (s : list pt) : list pt :=
  match s with
  | [] => []
  | r :: s' => if pt_eqb r q then cloop p q s'
               else if collinear p q r then cloop q r s' else q :: cloop q r s'
  end.

Lemma cloop_turns p q s : cloop p q s = turns (p :: dedup (q :: s)).
Proof.
  revert p q; induction s as [|r s IH]; intros p q; [reflexivity|].
  cbn [cloop]. destruct (pt_eqb r q) eqn:E.
  - apply pt_eqb_eq in E. subst r. rewrite dedup_eq. apply IH.
  - apply pt_eqb_neq in E. rewrite dedup_neq by congruence.
    rewrite !IH. destruct (dedup_cons r s) as (t & Et). rewrite Et.
    rewrite turns_cons, collinear_cross_b. reflexivity.
Qed.
Lemma turns_dedup p q s : turns (p :: dedup (q :: s)) = turns (dedup (p :: q :: s)).
Proof.
  destruct (same p q) as [->|N].
  - rewrite dedup_eq. destruct (dedup_cons q s) as (t & Et). rewrite Et.
    cbn [turns]. destruct t as [|c t]; [reflexivity|].
    replace (cross q q c) with 0 by (unfold cross; lia). reflexivity.
  - rewrite dedup_neq by exact N. reflexivity.
Qed.
Lemma cloop_subseq p q s : subseq (cloop p q s ++ [last (q :: s) q]) (q :: s).
Proof.
  assert (G : forall d, subseq (cloop p q s ++ [last (q :: s) d]) (q :: s)); [|apply G].
  revert p q; induction s as [|r s IH]; intros p q d; [cbn; apply subseq_refl|].
  change (last (q :: r :: s) d) with (last (r :: s) d).
  cbn [cloop]. destruct (pt_eqb r q) eqn:E.
  - apply pt_eqb_eq in E. subst r. constructor. apply IH.
  - destruct (collinear p q r); [constructor; apply IH|].
    cbn. constructor. apply IH.
Qed.

(** ** One corner fed to a queue *)
Definition qcorner (cap : Z) (st : list pt * list pt) (q : pt) : list pt * list pt :=
  let '(o, ql) := st in
  if slot_eqb q (newest ql) then (o, removelast ql)
  else if Z.of_nat (length ql) =? cap
       then match ql with [] => (o, [q]) | t :: r => (o ++ [t], r ++ [q]) end
       else (o, ql ++ [q]).

Lemma qcorner_emit cap o ql q :
  qcorner cap (o, ql) q =
  (o ++ fst (qcorner cap ([], ql) q), snd (qcorner cap ([], ql) q)).
Proof.
  unfold qcorner. destruct (slot_eqb q (newest ql)); cbn; [rewrite app_nil_r; reflexivity|].
  destruct (Z.of_nat (length ql) =? cap); cbn; [|rewrite app_nil_r; reflexivity].
  destruct ql; cbn; [rewrite app_nil_r|]; reflexivity.
Qed.

Lemma no_adjacent_snoc {A} (l : list A) x :
  no_adjacent l -> newest l <> Some x -> no_adjacent (l ++ [x]).
Proof.
  intros H N a y b E.
  destruct b as [|z b] using rev_ind.
  - assert (E' : l ++ [x] = (a ++ [y]) ++ [y]) by (rewrite <- app_assoc; exact E).
    apply app_inj_tail in E'. destruct E' as [-> ->]. apply N. apply newest_snoc.
  - clear IHb.
    assert (E' : l ++ [x] = (a ++ y :: y :: b) ++ [z]) by (rewrite <- app_assoc; exact E).
    apply app_inj_tail in E'. destruct E' as [El _]. exact (H _ _ _ El).
Qed.

Lemma no_adjacent_removelast {A} (l : list A) : no_adjacent l -> no_adjacent (removelast l).
Proof.
  intros H a x b E. destruct l as [|y r] using rev_ind.
  - cbn in E. destruct a; discriminate.
  - rewrite removelast_last in E. subst. apply (H a x (b ++ [y])).
    rewrite <- app_assoc. reflexivity.
Qed.

Section Cap.
  Variables k n : Z.
  Hypothesis Hk : 0 <= k.
  Hypothesis En : n = 2 ^ k.

  Lemma open_corner_rep (b : buffer pt) ql q : brep n b ql ->
    exists b', open_corner b q = (fst (qcorner n ([], ql) q), Ok b') /\
               brep n b' (snd (qcorner n ([], ql) q)).
  Proof.
    pose proof (n_pos k n Hk En) as Hn. intros R.
    unfold open_corner. rewrite (rep_isempty k n Hk En b ql R).
    destruct ql as [|t r] eqn:Eql.
    - cbn [negb andb]. rewrite (rep_isfull k n Hk En b _ R). cbn [length].
      replace (Z.of_nat 0 =? n) with false by lia.
      destruct (rep_push k n Hk En b [] q R) as (b' & Eb & R'); [cbn; lia|].
      rewrite Eb. exists b'. unfold qcorner. cbn [newest length slot_eqb nth_error].
      replace (Z.of_nat 0 =? n) with false by lia. split; [reflexivity|exact R'].
    - rewrite <- Eql in *. assert (Hne : ql <> []) by (rewrite Eql; discriminate).
      cbn [negb andb]. rewrite (rep_peek k n Hk En b ql R Hne).
      unfold qcorner. destruct (slot_eqb q (newest ql)) eqn:Es.
      + destruct (rep_pop k n Hk En b ql R Hne) as (b' & Eb & R').
        rewrite Eb. cbn. eauto.
      + rewrite (rep_isfull k n Hk En b ql R).
        destruct (Z.eqb_spec (Z.of_nat (length ql)) n) as [Ef|Nf].
        * rewrite Eql in R. destruct (rep_shift k n Hk En b t r R) as (b' & Eb & R').
          rewrite Eb. rewrite Eql. rewrite Eql in Ef. cbn [length] in Ef.
          destruct (rep_push k n Hk En b' r q R') as (b'' & Eb' & R''); [lia|].
          rewrite Eb'. cbn. eauto.
        * assert (Z.of_nat (length ql) <= n) by apply R.
          destruct (rep_push k n Hk En b ql q R) as (b' & Eb & R'); [lia|].
          rewrite Eb. cbn. eauto.
  Qed.

  Lemma open_loop_rep s : forall (b : buffer pt) ql p q, brep n b ql ->
    exists b', open_loop b p q s =
      (fst (fold_left (qcorner n) (cloop p q s) ([], ql)), Ok (b', last (q :: s) q)) /\
      brep n b' (snd (fold_left (qcorner n) (cloop p q s) ([], ql))).
  Proof.
    assert (F : forall c o ql, fold_left (qcorner n) c (o, ql) =
      (o ++ fst (fold_left (qcorner n) c ([], ql)), snd (fold_left (qcorner n) c ([], ql)))).
    { induction c as [|x c IH]; intros o ql; cbn [fold_left].
      - cbn. rewrite app_nil_r. reflexivity.
      - rewrite qcorner_emit.
        destruct (qcorner n ([], ql) x) as [o1 ql1]. cbn [fst snd].
        rewrite (IH (o ++ o1)), (IH o1). cbn [fst snd]. rewrite app_assoc. reflexivity. }
    assert (L : forall (x : pt) l d d', last (x :: l) d = last (x :: l) d').
    { intros x l; revert x; induction l as [|y l IH]; intros x d d'; [reflexivity|].
      change (last (y :: l) d = last (y :: l) d'). apply IH. }
    induction s as [|r s IH]; intros b ql p q R; cbn [open_loop cloop].
    - exists b. split; [reflexivity|exact R].
    - change (last (q :: r :: s) q) with (last (r :: s) q).
      destruct (pt_eqb r q) eqn:E.
      { apply pt_eqb_eq in E. subst r. apply IH. exact R. }
      destruct (collinear p q r).
      { rewrite (L r s q r). apply IH. exact R. }
      destruct (open_corner_rep b ql q R) as (b' & Eb & R'). rewrite Eb.
      destruct (IH b' _ q r R') as (b'' & Eb' & R''). rewrite Eb'.
      exists b''. cbn [fold_left].
      destruct (qcorner n ([], ql) q) as [o1 ql1]. cbn [fst snd] in *.
      rewrite (F _ o1). cbn [fst snd]. rewrite (L r s q r). split; [reflexivity|exact R''].
  Qed.

  Lemma flush_rep fuel : forall (b : buffer pt) ql, brep n b ql ->
    (length ql < fuel)%nat -> flush fuel b = Some (ql, Ok tt).
  Proof.
    induction fuel as [|f IH]; intros b ql R Hf; [lia|].
    cbn [flush]. rewrite (rep_isempty k n Hk En b ql R).
    destruct ql as [|t r]; [reflexivity|].
    destruct (rep_shift k n Hk En b t r R) as (b' & Eb & R'). rewrite Eb.
    rewrite (IH b' r R') by (cbn in Hf; lia). reflexivity.
  Qed.

  Lemma open_run fuel p q s : n < Z.of_nat fuel ->
    open_no_slit fuel (p :: q :: s) n =
    (let '(o, ql) := fold_left (qcorner n) (turns (dedup (p :: q :: s))) ([], []) in
     Some (p :: o ++ ql ++ [last (p :: q :: s) p], Ok tt)).
  Proof.
    intros Hf. unfold open_no_slit.
    destruct (proj2 (@new_iff pt n)) as (b & Eb); [right; eauto|].
    rewrite Eb.
    destruct (open_loop_rep s b [] p q (rep_new k n Hk En b Eb)) as (b' & E & R).
    rewrite E. rewrite <- turns_dedup, <- cloop_turns.
    destruct (fold_left (qcorner n) (cloop p q s) ([], [])) as [o ql] eqn:Ef. cbn [fst snd] in *.
    assert (Z.of_nat (length ql) <= n) by apply R.
    rewrite (flush_rep fuel b' ql R) by lia.
    change (last (p :: q :: s) p) with (last (q :: s) p).
    replace (last (q :: s) p) with (last (q :: s) q); [reflexivity|].
    clear. revert q; induction s as [|r s IH]; intros q; [reflexivity|].
    change (last (r :: s) q = last (r :: s) p). destruct s; [reflexivity|].
    change (last (p0 :: s) q = last (p0 :: s) p). 
    clear IH. revert p0; induction s as [|x s IH]; intros y; [reflexivity|]. apply IH.
  Qed.

  (** The queue machine on the turning points cancels adjacent equal pairs. *)
  Lemma qcorner_word o ql q : (length ql <= Z.to_nat n)%nat ->
    let '(o', ql') := qcorner n (o, ql) q in
    cancels ((o ++ ql) ++ [q]) (o' ++ ql') /\ (length ql' <= Z.to_nat n)%nat.
  Proof.
    pose proof (n_pos k n Hk En) as Hn.
    intros Hl. unfold qcorner. destruct (slot_eqb q (newest ql)) eqn:E.
    - destruct (newest ql) as [x|] eqn:En'; [|discriminate]. cbn in E.
      apply pt_eqb_eq in E. subst x.
      rewrite removelast_length. split; [|lia].
      rewrite (newest_inv ql q En') at 1. rewrite <- !app_assoc.
      cbn. rewrite app_assoc. rewrite <- (app_nil_r (o ++ removelast ql)) at 2.
      constructor. rewrite app_nil_r. constructor.
    - destruct (Z.eqb_spec (Z.of_nat (length ql)) n) as [Ef|Nf].
      + destruct ql as [|t r]; [cbn in *; lia|].
        rewrite <- !app_assoc. cbn. split; [constructor|].
        rewrite app_length. cbn in *. lia.
      + rewrite app_assoc. split; [constructor|]. rewrite app_length. cbn. lia.
  Qed.

  Lemma feed_cancels c : forall w o ql, cancels w (o ++ ql) -> (length ql <= Z.to_nat n)%nat ->
    let '(o', ql') := fold_left (qcorner n) c (o, ql) in
    cancels (w ++ c) (o' ++ ql') /\ (length ql' <= Z.to_nat n)%nat.
  Proof.
    induction c as [|q c IH]; intros w o ql H Hl; cbn [fold_left].
    - rewrite app_nil_r. auto.
    - pose proof (qcorner_word o ql q Hl) as Q.
      destruct (qcorner n (o, ql) q) as [o1 ql1]. destruct Q as [Q1 Q2].
      replace (w ++ q :: c) with ((w ++ [q]) ++ c) by (rewrite <- app_assoc; reflexivity).
      apply IH; [|exact Q2]. eapply cancels_trans; [|exact Q1]. apply cancels_app. exact H.
  Qed.


  Lemma feed_reduced c : forall ql, no_adjacent ql ->
    (length ql + length c <= Z.to_nat n)%nat ->
    exists ql', fold_left (qcorner n) c ([], ql) = ([], ql') /\ no_adjacent ql'.
  Proof.
    induction c as [|q c IH]; intros ql H Hl; cbn [fold_left length] in *; [eauto|].
    unfold qcorner at 2. destruct (slot_eqb q (newest ql)) eqn:E.
    - apply IH; [apply no_adjacent_removelast; exact H|]. rewrite removelast_length. lia.
    - replace (Z.of_nat (length ql) =? n) with false by lia.
      apply IH; [|rewrite app_length; cbn; lia].
      apply no_adjacent_snoc; [exact H|]. intros C. rewrite C in E. cbn in E.
      rewrite pt_eqb_refl in E. discriminate.
  Qed.

  (** Without adjacent equal corners nothing is ever popped. *)
  Lemma feed_plain c : forall o ql, (length ql <= Z.to_nat n)%nat ->
    no_adjacent (match newest ql with Some x => x :: c | None => c end) ->
    let '(o', ql') := fold_left (qcorner n) c (o, ql) in
    o' ++ ql' = o ++ ql ++ c /\
    (length ql' = Nat.min (Z.to_nat n) (length ql + length c))%nat.
  Proof.
    pose proof (n_pos k n Hk En) as Hn.
    induction c as [|q c IH]; intros o ql Hl H; cbn [fold_left].
    - rewrite app_nil_r. split; [reflexivity|]. cbn; lia.
    - assert (E : slot_eqb q (newest ql) = false).
      { destruct (newest ql) as [x|]; [|reflexivity]. cbn. apply pt_eqb_neq. intros ->.
        exact (H [] x c eq_refl). }
      assert (H' : no_adjacent (q :: c)).
      { destruct (newest ql) as [x|]; [|exact H].
        intros a y b Ec. apply (H (x :: a) y b). cbn. rewrite Ec. reflexivity. }
      unfold qcorner at 2. rewrite E.
      destruct (Z.eqb_spec (Z.of_nat (length ql)) n) as [Ef|Nf].
      + destruct ql as [|t r]; [cbn in *; lia|].
        specialize (IH (o ++ [t]) (r ++ [q])). rewrite newest_snoc in IH.
        rewrite app_length in IH. cbn [length] in *.
        specialize (IH ltac:(lia) H').
        destruct (fold_left (qcorner n) c (o ++ [t], r ++ [q])) as [o' ql'].
        destruct IH as [I1 I2]. split; [|lia].
        rewrite I1. rewrite <- !app_assoc. reflexivity.
      + specialize (IH o (ql ++ [q])). rewrite newest_snoc in IH.
        rewrite app_length in IH. cbn [length] in *.
        specialize (IH ltac:(lia) H').
        destruct (fold_left (qcorner n) c (o, ql ++ [q])) as [o' ql'].
        destruct IH as [I1 I2]. split; [|lia].
        rewrite I1. rewrite <- !app_assoc. reflexivity.
  Qed.
End Cap.

(** ** C11 *)
Lemma last_default {A} (x : A) l d d' : last (x :: l) d = last (x :: l) d'.
Proof.
  revert x; induction l as [|y l IH]; intros x; [reflexivity|].
  change (last (y :: l) d = last (y :: l) d'). apply IH.
Qed.

Lemma open_spec s n k fuel :
  0 <= k -> n = 2 ^ k -> n < Z.of_nat fuel -> (2 <= length s)%nat ->
  exists a mid z, open_no_slit fuel s n = Some (a :: mid ++ [z], Ok tt) /\
    hd_error s = Some a /\ last s a = z /\
    cancels (turns (dedup s)) mid /\ subseq (a :: mid ++ [z]) s /\
    (Z.of_nat (length (turns (dedup s))) <= n -> no_adjacent mid).
Proof.
  intros Hk En Hf Hs. destruct s as [|p [|q s]]; cbn in Hs; try lia.
  rewrite (open_run k n Hk En fuel p q s Hf).
  set (c := turns (dedup (p :: q :: s))).
  pose proof (feed_cancels k n Hk En c [] [] [] (ca_done []) ltac:(cbn; lia)) as F.
  assert (Hr : Z.of_nat (length c) <= n ->
    exists ql', fold_left (qcorner n) c ([], []) = ([], ql') /\ no_adjacent ql').
  { intros Hc. apply (feed_reduced k n Hk En); [intros [|] ? ? ?; discriminate|cbn [length Nat.add]; lia]. }
  destruct (fold_left (qcorner n) c ([], [])) as [o ql]. destruct F as [F _]. cbn in F.
  exists p, (o ++ ql), (last (p :: q :: s) p).
  rewrite <- app_assoc.
  split; [reflexivity|]. split; [reflexivity|]. split; [reflexivity|].
  split; [exact F|]. split.
  - rewrite app_assoc. constructor.
    eapply subseq_trans; [|apply (cloop_subseq p q s)].
    change (last (p :: q :: s) p) with (last (q :: s) p).
    rewrite (last_default q s p q).
    apply subseq_app; [|apply subseq_refl]. apply cancels_subseq.
    rewrite cloop_turns, turns_dedup. exact F.
  - intros Hc. destruct (Hr Hc) as (ql' & E & Na). inversion E; subst. exact Na.
Qed.

Lemma open_short s n fuel : (exists b, @buf_new pt n = Ok b) -> (length s < 2)%nat ->
  open_no_slit fuel s n = Some (s, Err StopIteration).
Proof.
  intros (b & E) Hs. unfold open_no_slit. rewrite E.
  destruct s as [|p [|q s]]; [reflexivity|reflexivity|cbn in Hs; lia].
Qed.

Lemma open_zero fuel p q s : (0 < fuel)%nat ->
  open_no_slit fuel (p :: q :: s) 0 =
  match turns (dedup (p :: q :: s)) with
  | [] => Some ([p; last (p :: q :: s) p], Ok tt)
  | _ => Some ([p], Err AssertionError)
  end.
Proof.
  intros Hf. rewrite <- turns_dedup, <- cloop_turns. unfold open_no_slit.
  change (@buf_new pt 0) with (@Ok (buffer pt) (mkbuf 0 [] 0 0 (-1) (-1))). cbn beta iota.
  change (last (p :: q :: s) p) with (last (q :: s) p). rewrite (last_default q s p q).
  assert (G : open_loop (mkbuf 0 [] 0 0 (-1) (-1)) p q s =
    match cloop p q s with
    | [] => ([], Ok (mkbuf 0 [] 0 0 (-1) (-1), last (q :: s) q))
    | _ => ([], Err AssertionError) end).
  { revert p q. induction s as [|r s IH]; intros p q; [reflexivity|].
    cbn [open_loop cloop]. change (last (q :: r :: s) q) with (last (r :: s) q).
    destruct (pt_eqb r q) eqn:E.
    - apply pt_eqb_eq in E. subst r. apply IH.
    - destruct (collinear p q r); [|reflexivity].
      rewrite (last_default r s q r). apply IH. }
  rewrite G. destruct (cloop p q s); [|reflexivity].
  destruct fuel; [lia|]. reflexivity.
Qed.

(** ** C12 *)
Definition Zq (z : Z) : Q := inject_Z z.

Definition inv (c p q : pt) : Prop :=
  exists S : Q, (0 <= S < 1)%Q /\
    (inject_Z (fst p) == inject_Z (fst c) + S * (inject_Z (fst q) - inject_Z (fst c)))%Q /\
    (inject_Z (snd p) == inject_Z (snd c) + S * (inject_Z (snd q) - inject_Z (snd c)))%Q.

Lemma inject_sub a b : (inject_Z (a - b) == inject_Z a - inject_Z b)%Q.
Proof. unfold Z.sub. rewrite inject_Z_plus, inject_Z_opp. reflexivity. Qed.

Lemma seg_minus a b x :
  on_segment a b x <->
  exists t : Q, (0 <= t <= 1)%Q /\
    (inject_Z (fst x) == inject_Z (fst a) + t * (inject_Z (fst b) - inject_Z (fst a)))%Q /\
    (inject_Z (snd x) == inject_Z (snd a) + t * (inject_Z (snd b) - inject_Z (snd a)))%Q.
Proof.
  unfold on_segment.
  split; intros (t & H & E1 & E2); exists t; (split; [exact H|]);
    rewrite ?inject_sub in *; auto.
Qed.

Lemma seg_left a b : on_segment a b a.
Proof. apply seg_minus. exists 0%Q. split; [lra|]. split; ring. Qed.
Lemma seg_right a b : on_segment a b b.
Proof. apply seg_minus. exists 1%Q. split; [lra|]. split; ring. Qed.

Lemma inv_step c p q r :
  inv c p q -> p <> q -> cross p q r = 0 -> dot p q q r > 0 ->
  inv c q r /\ (forall x, on_segment c q x -> on_segment c r x).
Proof.
  destruct c as [cx cy], p as [px py], q as [qx qy], r as [rx ry].
  unfold inv, cross, dot; cbn [fst snd].
  intros (S & HS & E1 & E2) Npq Hc Hd.
  set (ax := qx - px) in *. set (ay := qy - py) in *.
  set (bx := rx - qx) in *. set (by_ := ry - qy) in *.
  assert (Hc' : ax * by_ = ay * bx) by (unfold ax, ay, bx, by_ in *; nia).
  assert (Hdb : ax * bx + ay * by_ > 0) by (unfold ax, ay, bx, by_ in *; nia).
  set (N := ax * ax + ay * ay). set (D := ax * bx + ay * by_) in *.
  assert (HN : 0 < N).
  { unfold N. assert (ax <> 0 \/ ay <> 0).
    { destruct (Z.eq_dec ax 0); [|auto]. right. intros C. apply Npq. f_equal; lia. }
    nia. }
  assert (B1 : N * bx = D * ax)
    by (pose proof (f_equal (Z.mul ay) Hc'); clearbody ax ay bx by_; unfold N, D; lia).
  assert (B2 : N * by_ = D * ay)
    by (pose proof (f_equal (Z.mul ax) Hc'); clearbody ax ay bx by_; unfold N, D; lia).
  (* over Q *)
  set (qN := inject_Z N). set (qD := inject_Z D).
  assert (PN : (0 < qN)%Q) by (unfold qN; change 0%Q with (inject_Z 0); rewrite <- Zlt_Qlt; exact HN).
  assert (PD : (0 < qD)%Q) by (unfold qD; change 0%Q with (inject_Z 0); rewrite <- Zlt_Qlt; lia).
  assert (Q1 : (qN * (inject_Z rx - inject_Z qx) == qD * (inject_Z qx - inject_Z px))%Q).
  { unfold qN, qD. rewrite <- !inject_sub, <- !inject_Z_mult. fold ax bx. rewrite B1. reflexivity. }
  assert (Q2 : (qN * (inject_Z ry - inject_Z qy) == qD * (inject_Z qy - inject_Z py))%Q).
  { unfold qN, qD. rewrite <- !inject_sub, <- !inject_Z_mult. fold ay by_. rewrite B2. reflexivity. }
  clearbody qN qD. clear - HS E1 E2 PN PD Q1 Q2.
  (* q - c = T (r - c), T = N / (N + D (1 - S)) *)
  set (W := (qN + qD * (1 - S))%Q).
  assert (PW : (0 < W)%Q) by (unfold W; nra).
  assert (NW : ~ (W == 0)%Q) by lra.
  assert (R1 : (W * (inject_Z qx - inject_Z cx) == qN * (inject_Z rx - inject_Z cx))%Q).
  { unfold W. transitivity (qN * (inject_Z qx - inject_Z cx) +
      qD * (inject_Z qx - (inject_Z cx + S * (inject_Z qx - inject_Z cx))))%Q; [ring|].
    rewrite <- E1. rewrite <- Q1. ring. }
  assert (R2 : (W * (inject_Z qy - inject_Z cy) == qN * (inject_Z ry - inject_Z cy))%Q).
  { unfold W. transitivity (qN * (inject_Z qy - inject_Z cy) +
      qD * (inject_Z qy - (inject_Z cy + S * (inject_Z qy - inject_Z cy))))%Q; [ring|].
    rewrite <- E2. rewrite <- Q2. ring. }
  set (T := (qN / W)%Q).
  assert (TW : (T * W == qN)%Q) by (unfold T; field; exact NW).
  assert (HT : (0 <= T < 1)%Q).
  { split.
    - unfold T. apply Qle_shift_div_l; [exact PW|lra].
    - unfold T. apply Qlt_shift_div_r; [exact PW|]. unfold W. nra. }
  assert (T1 : (inject_Z qx == inject_Z cx + T * (inject_Z rx - inject_Z cx))%Q).
  { apply (Qmult_inj_l _ _ W); [exact NW|].
    transitivity (W * (inject_Z qx - inject_Z cx) + W * inject_Z cx)%Q; [ring|].
    rewrite R1. rewrite <- TW. ring. }
  assert (T2 : (inject_Z qy == inject_Z cy + T * (inject_Z ry - inject_Z cy))%Q).
  { apply (Qmult_inj_l _ _ W); [exact NW|].
    transitivity (W * (inject_Z qy - inject_Z cy) + W * inject_Z cy)%Q; [ring|].
    rewrite R2. rewrite <- TW. ring. }
  split.
  - exists T. auto.
  - intros x Hx. apply seg_minus in Hx. apply seg_minus. cbn [fst snd] in *.
    destruct Hx as (t & Ht & X1 & X2). exists (t * T)%Q. split; [nra|].
    split; [rewrite X1|rewrite X2].
    + transitivity (inject_Z cx + t * (inject_Z qx - inject_Z cx))%Q; [reflexivity|].
      rewrite T1 at 1. ring.
    + transitivity (inject_Z cy + t * (inject_Z qy - inject_Z cy))%Q; [reflexivity|].
      rewrite T2 at 1. ring.
Qed.

Definition forward (d : list pt) : Prop :=
  forall u p q r v, d = u ++ p :: q :: r :: v -> cross p q r = 0 -> dot p q q r > 0.
Definition steps_differ (d : list pt) : Prop :=
  forall u p q v, d = u ++ p :: q :: v -> p <> q.

Lemma polyline_cons a l x : on_polyline l x -> on_polyline (a :: l) x.
Proof.
  intros (u & p & q & v & E & H). exists (a :: u), p, q, v. rewrite E. auto.
Qed.

Lemma forward_tail a d : forward (a :: d) -> forward d.
Proof. intros H u p q r v E. apply (H (a :: u) p q r v). rewrite E. reflexivity. Qed.
Lemma differ_tail a d : steps_differ (a :: d) -> steps_differ d.
Proof. intros H u p q v E. apply (H (a :: u) p q v). rewrite E. reflexivity. Qed.

Lemma path_covered rest : forall c p q,
  inv c p q -> forward (p :: q :: rest) -> steps_differ (p :: q :: rest) ->
  forall x, on_segment c q x \/ In x rest ->
  on_polyline (c :: turns (p :: q :: rest) ++ [last (q :: rest) q]) x.
Proof.
  induction rest as [|r rest IH]; intros c p q Hi Hf Hd x Hx.
  - cbn. destruct Hx as [Hx|[]]. exists [], c, q, []. auto.
  - change (last (q :: r :: rest) q) with (last (r :: rest) q).
    rewrite (last_default r rest q r).
    rewrite turns_cons.
    assert (Npq : p <> q) by (apply (Hd [] p q (r :: rest)); reflexivity).
    destruct (Z.eqb_spec (cross p q r) 0) as [E|N].
    + destruct (inv_step c p q r Hi Npq E) as (Hi' & Hs).
      { apply (Hf [] p q r rest); [reflexivity|exact E]. }
      apply (IH c q r Hi'); [apply (forward_tail p); exact Hf|apply (differ_tail p); exact Hd|].
      destruct Hx as [Hx|[->|Hx]]; [left; auto|left; apply seg_right|right; exact Hx].
    + destruct Hx as [Hx|Hx].
      { exists [], c, q, (turns (q :: r :: rest) ++ [last (r :: rest) r]). auto. }
      cbn [app]. apply polyline_cons.
      apply (IH q q r).
      * exists 0%Q. split; [lra|]. split; ring.
      * apply (forward_tail p); exact Hf.
      * apply (differ_tail p); exact Hd.
      * destruct Hx as [->|Hx]; [left; apply seg_right|right; exact Hx].
Qed.

Lemma dedup_differ l : steps_differ (dedup l).
Proof.
  induction l as [|a r IH]; [intros [|] ? ? ? E; discriminate|].
  destruct r as [|b r]; [intros [|? [|]] ? ? ? E; discriminate|].
  destruct (same a b) as [->|N]; [rewrite dedup_eq; exact IH|].
  rewrite dedup_neq by exact N. intros u p q v E.
  destruct u as [|x u].
  - cbn [app] in E. destruct (dedup_cons b r) as (t & Et). rewrite Et in E.
    injection E as E1 E2 E3. subst. exact N.
  - cbn [app] in E. injection E as E1 E2. apply (IH u p q v). exact E2.
Qed.

Lemma open_covers s n k fuel :
  0 <= k -> n = 2 ^ k -> n < Z.of_nat fuel -> (2 <= length s)%nat ->
  forward (dedup s) -> no_adjacent (turns (dedup s)) ->
  exists out, open_no_slit fuel s n = Some (out, Ok tt) /\
    (forall x, In x s -> on_polyline out x).
Proof.
  intros Hk En Hf Hs Hfw Hna. destruct s as [|p [|q s]]; cbn in Hs; try lia.
  rewrite (open_run k n Hk En fuel p q s Hf).
  pose proof (feed_plain k n Hk En (turns (dedup (p :: q :: s))) [] [] ltac:(cbn; lia) Hna) as F.
  destruct (fold_left (qcorner n) (turns (dedup (p :: q :: s))) ([], [])) as [o ql].
  destruct F as [F _]. eexists; split; [reflexivity|].
  rewrite app_assoc, F. cbn [app].
  change (last (p :: q :: s) p) with (last (q :: s) p). rewrite (last_default q s p q).
  intros x Hx.
  set (d := dedup (p :: q :: s)) in *.
  assert (Hd : steps_differ d) by apply dedup_differ.
  assert (Hxd : In x d) by (apply dedup_in; exact Hx).
  assert (Hl : last d p = last (q :: s) q).
  { unfold d. rewrite dedup_last. change (last (p :: q :: s) p) with (last (q :: s) p).
    apply last_default. }
  destruct (dedup_cons p (q :: s)) as (t & Et). fold d in Et.
  rewrite <- Hl. clear Hl F. rewrite Et in *. clearbody d. clear Et Hx.
  destruct t as [|r t].
  - cbn in *. destruct Hxd as [->|[]]. exists [], x, x, []. split; [reflexivity|apply seg_left].
  - change (last (p :: r :: t) p) with (last (r :: t) p). rewrite (last_default r t p r).
    apply (path_covered t p p r); auto.
    + exists 0%Q. split; [lra|]. split; ring.
    + destruct Hxd as [->|[->|Hx]]; [left; apply seg_left|left; apply seg_right|right; exact Hx].
Qed.
