(** Lemmas on gradients (exact rationals). *)
From Coq Require Import Lqa Permutation Sorted ZifyBool.
From Verif Require Import Num RasterModel GradientModel GradientSpec.
Open Scope Q_scope.

Lemma qlt_spec a b : reflect (a < b) (nlt a b).
Proof.
  cbn. unfold Qlt_bool. destruct (Qle_bool b a) eqn:E; constructor.
  - apply Qle_bool_iff in E. lra.
  - apply Qnot_le_lt. intros L. apply Qle_bool_iff in L. congruence.
Qed.
Lemma qeq_spec a b : reflect (a == b) (neq a b).
Proof. cbn. destruct (Qeq_bool a b) eqn:E; constructor; [apply Qeq_bool_iff, E|]. intros L. apply Qeq_bool_iff in L. congruence. Qed.
Notation stopQ := (Q * list Q)%type.
Definition ascending (l : list stopQ) : Prop := StronglySorted (fun a b => fst a <= fst b) l.

(** ** Sorting *)
Lemma insert_perm (p : stopQ) l : Permutation (p :: l) (insert_stop p l).
Proof.
  induction l as [|q l IH]; cbn; [reflexivity|]. destruct (Qlt_bool (fst q) (fst p)); [|reflexivity].
  rewrite perm_swap. constructor. exact IH.
Qed.
Lemma sort_perm (l : list stopQ) : Permutation l (sort_stops l).
Proof.
  induction l as [|p l IH]; [reflexivity|]. change (sort_stops (p :: l)) with (insert_stop p (sort_stops l)).
  rewrite <- insert_perm. constructor. exact IH.
Qed.
Lemma insert_asc (p : stopQ) l : ascending l -> ascending (insert_stop p l).
Proof.
  induction 1 as [|q l S IH F]; cbn; [repeat constructor|]. destruct (qlt_spec (fst q) (fst p)) as [L|L].
  - change (Qlt_bool (fst q) (fst p)) with (nlt (fst q) (fst p)). destruct (qlt_spec (fst q) (fst p)); [|contradiction].
    constructor; [exact IH|]. rewrite Forall_forall in *. intros x I.
    apply (Permutation_in _ (Permutation_sym (insert_perm p l))) in I. destruct I as [<-|I]; [lra|apply F, I].
  - change (Qlt_bool (fst q) (fst p)) with (nlt (fst q) (fst p)). destruct (qlt_spec (fst q) (fst p)); [contradiction|].
    constructor; [constructor; assumption|]. constructor; [lra|]. eapply Forall_impl; [|exact F]. cbn. intros a H. lra.
Qed.
Lemma sort_asc (l : list stopQ) : ascending (sort_stops l).
Proof. induction l as [|p l IH]; [constructor|]. exact (insert_asc p _ IH). Qed.
(** The sort is stable. *)
Definition at_pos (p : Q) (q : stopQ) : bool := Qeq_bool (fst q) p.
Lemma insert_stable p (q : stopQ) l : filter (at_pos p) (insert_stop q l) = filter (at_pos p) (q :: l).
Proof.
  induction l as [|r l IH]; cbn [insert_stop]; [reflexivity|]. destruct (qlt_spec (fst r) (fst q)) as [L|L]; [|reflexivity].
  cbn [filter] in *. rewrite IH. unfold at_pos.
  destruct (Qeq_bool (fst r) p) eqn:E1, (Qeq_bool (fst q) p) eqn:E2; try reflexivity.
  apply Qeq_bool_iff in E1. apply Qeq_bool_iff in E2. lra.
Qed.
Lemma sort_stable p (l : list stopQ) : filter (at_pos p) (sort_stops l) = filter (at_pos p) l.
Proof.
  induction l as [|q l IH]; [reflexivity|]. change (sort_stops (q :: l)) with (insert_stop q (sort_stops l)).
  rewrite insert_stable. cbn [filter]. rewrite IH. reflexivity.
Qed.
Lemma filter_none {A} (f : A -> bool) l : Forall (fun x => f x = false) l -> filter f l = [].
Proof. induction 1 as [|x l H _ IH]; [reflexivity|]. cbn. rewrite H. exact IH. Qed.
Lemma filter_first {A} (f : A -> bool) y u l : filter f l = y :: u -> exists before after, l = before ++ y :: after /\ f y = true /\ Forall (fun x => f x = false) before.
Proof.
  induction l as [|x l IH]; cbn; [discriminate|]. destruct (f x) eqn:E.
  - intros H. injection H as -> _. exists [], l. split; [reflexivity|]. split; [exact E|constructor].
  - intros H. destruct (IH H) as (b & a & -> & Fy & Fb). exists (x :: b), a. split; [reflexivity|]. split; [exact Fy|]. constructor; assumption.
Qed.
Lemma filter_last {A} (f : A -> bool) y u l : filter f l = u ++ [y] -> exists before after, l = before ++ y :: after /\ f y = true /\ Forall (fun x => f x = false) after.
Proof.
  revert u; induction l as [|x l IH]; intros u; cbn; [destruct u; discriminate|]. destruct (f x) eqn:E.
  - destruct u as [|z u]; cbn; intros H.
    + injection H as -> H. exists [], l. split; [reflexivity|]. split; [exact E|]. apply Forall_forall. intros q I.
      destruct (f q) eqn:Eq; [|reflexivity]. exfalso. assert (J : In q (filter f l)) by (apply filter_In; auto). rewrite H in J. exact J.
    + injection H as -> H. destruct (IH _ H) as (b & a & -> & Fy & Fa). exists (z :: b), a. auto.
  - intros H. destruct (IH _ H) as (b & a & -> & Fy & Fa). exists (x :: b), a. auto.
Qed.
Lemma at_pos_false p q : at_pos p q = false <-> ~ fst q == p.
Proof. unfold at_pos. destruct (Qeq_bool (fst q) p) eqn:E; split; intros; try congruence; [apply Qeq_bool_iff in E; contradiction|]. intros H'. apply Qeq_bool_iff in H'. congruence. Qed.
Lemma at_pos_true p q : at_pos p q = true <-> fst q == p.
Proof. apply Qeq_bool_iff. Qed.
Lemma sort_first_at points a p c b : sort_stops points = a ++ (p, c) :: b -> (forall q, In q a -> ~ fst q == p) -> first_at points p c.
Proof.
  intros E N. pose proof (sort_stable p points) as S. rewrite E, filter_app, (filter_none _ a) in S.
  - cbn [app filter] in S. unfold at_pos at 1 in S. cbn [fst] in S. rewrite (proj2 (Qeq_bool_iff p p) (Qeq_refl p)) in S.
    symmetry in S. apply filter_first in S. destruct S as (b' & a' & -> & T & F). exists b', p, a'. split; [reflexivity|]. split; [reflexivity|].
    eapply Forall_impl; [|exact F]. intros q. apply at_pos_false.
  - apply Forall_forall. intros q I. apply at_pos_false, N, I.
Qed.
Lemma sort_last_at points a p c b : sort_stops points = a ++ (p, c) :: b -> (forall q, In q b -> ~ fst q == p) -> last_at points p c.
Proof.
  intros E N. pose proof (sort_stable p points) as S. rewrite E, filter_app in S. cbn [filter] in S.
  unfold at_pos at 2 in S. cbn [fst] in S. rewrite (proj2 (Qeq_bool_iff p p) (Qeq_refl p)) in S. rewrite (filter_none _ b) in S.
  - symmetry in S. apply filter_last in S. destruct S as (b' & a' & -> & T & F). exists b', p, a'. split; [reflexivity|]. split; [reflexivity|].
    eapply Forall_impl; [|exact F]. intros q. apply at_pos_false.
  - apply Forall_forall. intros q I. apply at_pos_false, N, I.
Qed.
Lemma first_at_compat points p p' c : p == p' -> first_at points p c -> first_at points p' c.
Proof.
  intros E (b & q & a & H & Q & F). exists b, q, a. split; [exact H|]. split; [rewrite Q; exact E|].
  eapply Forall_impl; [|exact F]. cbn. intros x N M. apply N. rewrite M, E. reflexivity.
Qed.

(** ** Bisection *)
Lemma py_get_app {A} (a : list A) x b : py_get (a ++ x :: b) (Z.of_nat (length a)) = Ok x.
Proof.
  destruct (py_get_nonneg (a ++ x :: b) (Z.of_nat (length a))) as (y & E1 & E2); [rewrite app_length; cbn [length]; lia|].
  rewrite Nat2Z.id, nth_error_app2, Nat.sub_diag in E2 by lia. cbn in E2. congruence.
Qed.
Lemma bisect_ok (L R : list Q) x : Forall (fun v => v < x) L -> Forall (fun v => x <= v) R ->
  bisect_left (L ++ R) x = Ok (Z.of_nat (length L)).
Proof.
  intros FL FR. unfold bisect_left.
  assert (G : forall fuel lo hi, (0 <= lo <= Z.of_nat (length L))%Z -> (Z.of_nat (length L) <= hi <= Z.of_nat (length (L ++ R)))%Z ->
    (hi - lo <= Z.of_nat fuel)%Z -> bisect_loop fuel (L ++ R) x lo hi = Ok (Z.of_nat (length L))).
  { induction fuel as [|f IH]; intros lo hi B1 B2 B3; cbn [bisect_loop].
    - f_equal. lia.
    - destruct (Z.ltb_spec lo hi) as [B|B]; [|f_equal; lia].
      set (mid := ((lo + hi) / 2)%Z).
      assert (Bm : (lo <= mid < hi)%Z).
      { subst mid. split; [apply Z.div_le_lower_bound; lia|apply Z.div_lt_upper_bound; lia]. }
      clearbody mid. destruct (py_get_nonneg (L ++ R) mid) as (v & Ev & En); [lia|]. rewrite Ev. cbn [bind].
      destruct (Z.lt_ge_cases mid (Z.of_nat (length L))) as [C|C].
      + rewrite nth_error_app1 in En by lia. apply nth_error_In in En. rewrite Forall_forall in FL. specialize (FL v En).
        destruct (qlt_spec v x); [|lra]. apply IH; lia.
      + rewrite nth_error_app2 in En by lia. apply nth_error_In in En. rewrite Forall_forall in FR. specialize (FR v En).
        destruct (qlt_spec v x); [lra|]. apply IH; lia. }
  apply G; rewrite ?app_length; lia.
Qed.
Lemma bisect_stops (L R : list stopQ) x : Forall (fun s => fst s < x) L -> Forall (fun s => x <= fst s) R ->
  bisect_left (map fst (L ++ R)) x = Ok (Z.of_nat (length L)).
Proof.
  intros FL FR. rewrite map_app, bisect_ok; [rewrite map_length; reflexivity| |]; rewrite Forall_map; assumption.
Qed.

Definition mix (pa : Q) (ca : list Q) (pb : Q) (cb : list Q) (x : Q) : list Q :=
  map (fun q => fst q * ((pb - x) / (pb - pa)) + snd q * ((x - pa) / (pb - pa))) (combine ca cb).
Lemma mix_spec pa ca pb cb x : ~ pb == pa -> interpolates pa ca pb cb x (mix pa ca pb cb x).
Proof.
  intros N. split; [unfold mix; rewrite map_length, combine_length; reflexivity|].
  intros i a b v Ea Eb Ev. unfold mix in Ev. rewrite nth_error_map in Ev.
  assert (Ec : nth_error (combine ca cb) i = Some (a, b)).
  { clear - Ea Eb. revert cb i Ea Eb. induction ca as [|y ca IH]; intros [|z cb] [|i] Ea Eb; cbn in *; try discriminate; [congruence|]. apply IH; assumption. }
  rewrite Ec in Ev. cbn in Ev. injection Ev as <-. field. intros H. apply N. lra.
Qed.
Lemma mix_between pa ca pb cb x : pa < x -> x < pb -> forall i a b v, nth_error ca i = Some a -> nth_error cb i = Some b ->
  nth_error (mix pa ca pb cb x) i = Some v -> (a <= v <= b) \/ (b <= v <= a).
Proof.
  intros L1 L2 i a b v Ea Eb Ev. assert (N : ~ pb == pa) by lra.
  pose proof (proj2 (mix_spec pa ca pb cb x N) i a b v Ea Eb Ev) as E.
  set (f := (x - pa) / (pb - pa)) in *.
  assert (F : 0 < f /\ f < 1).
  { subst f. split; [apply Qlt_shift_div_l; lra|apply Qlt_shift_div_r; lra]. }
  clearbody f. destruct F as [F1 F2]. destruct (Qlt_le_dec a b); [left|right]; split; nra.
Qed.
Lemma mix_same p q c x : ~ q == p -> same_colour (mix p c q c x) c.
Proof.
  intros N. unfold mix, same_colour. induction c as [|a c IH]; cbn; constructor; [|exact IH]. field. intros H. apply N. lra.
Qed.

Lemma same_refl c : same_colour c c.
Proof. unfold same_colour. induction c; constructor; [reflexivity|assumption]. Qed.

Lemma get_at L p c R x : Forall (fun s => fst s < x) L -> Forall (fun s => x <= fst s) R -> p == x ->
  gradient_get (L ++ (p, c) :: R) x = Ok c.
Proof.
  intros FL FR E. unfold gradient_get. rewrite (bisect_stops L ((p, c) :: R) x FL) by (constructor; [cbn; lra|exact FR]). cbn [bind].
  rewrite !map_app. cbn [map fst snd].
  replace (Z.of_nat (length L)) with (Z.of_nat (length (map fst L))) by (rewrite map_length; reflexivity).
  rewrite py_get_app. cbn [bind]. destruct (qeq_spec p x); [|contradiction].
  replace (Z.of_nat (length (map fst L))) with (Z.of_nat (length (map snd L))) by (rewrite !map_length; reflexivity).
  rewrite py_get_app. reflexivity.
Qed.
Lemma get_between L pa ca pb cb R x : Forall (fun s => fst s < x) L -> pa < x -> x < pb -> Forall (fun s => x <= fst s) R ->
  gradient_get (L ++ (pa, ca) :: (pb, cb) :: R) x = Ok (mix pa ca pb cb x).
Proof.
  intros FL La Lb FR. unfold gradient_get.
  replace (L ++ (pa, ca) :: (pb, cb) :: R) with ((L ++ [(pa, ca)]) ++ (pb, cb) :: R) by (rewrite <- app_assoc; reflexivity).
  rewrite bisect_stops; [|apply Forall_app; split; [exact FL|constructor; [exact La|constructor]]|constructor; [cbn; lra|exact FR]].
  cbn [bind]. rewrite (map_app fst (L ++ _)), (map_app snd (L ++ _)). cbn [map fst snd].
  replace (Z.of_nat (length (L ++ [(pa, ca)]))) with (Z.of_nat (length (map fst (L ++ [(pa, ca)])))) by (rewrite map_length; reflexivity).
  rewrite py_get_app. cbn [bind]. destruct (qeq_spec pb x); [lra|].
  replace (Z.of_nat (length (map fst (L ++ [(pa, ca)]))) - 1)%Z with (Z.of_nat (length (map fst L))) by (rewrite !map_length, app_length; cbn [length]; lia).
  assert (Ef : map fst (L ++ [(pa, ca)]) ++ pb :: map fst R = map fst L ++ pa :: pb :: map fst R) by (rewrite map_app, <- app_assoc; reflexivity).
  assert (Es : map snd (L ++ [(pa, ca)]) ++ cb :: map snd R = map snd L ++ ca :: cb :: map snd R) by (rewrite map_app, <- app_assoc; reflexivity).
  rewrite Ef at 1. rewrite py_get_app. cbn [bind]. unfold ndivE. cbn [nsub NumQ].
  destruct (qeq_spec (pb - pa) (nofZ 0)) as [Z|Z]; [cbn in Z; change (inject_Z 0) with 0 in Z; lra|]. cbn [bind].
  replace (Z.of_nat (length (map fst L))) with (Z.of_nat (length (map snd L))) by (rewrite !map_length; reflexivity).
  rewrite Es at 1. rewrite py_get_app. cbn [bind].
  replace (Z.of_nat (length (map fst (L ++ [(pa, ca)])))) with (Z.of_nat (length (map snd (L ++ [(pa, ca)])))) by (rewrite !map_length; reflexivity).
  rewrite py_get_app. reflexivity.
Qed.
Lemma get_beyond (g : list stopQ) x : Forall (fun s => fst s < x) g -> gradient_get g x = Err IndexError.
Proof.
  intros F. unfold gradient_get. pose proof (bisect_stops g [] x F (Forall_nil _)) as E. rewrite app_nil_r in E.
  cbv zeta. rewrite E. cbn [bind].
  assert (G : py_get (map fst g) (Z.of_nat (length g)) = Err IndexError).
  { unfold py_get. rewrite map_length, (proj2 (Z.ltb_ge (Z.of_nat (length g)) 0)) by lia. rewrite Z.ltb_irrefl, andb_false_r. reflexivity. }
  rewrite G. reflexivity.
Qed.
Lemma py_get_zero {A} (x : A) l : py_get (x :: l) 0 = Ok x.
Proof. unfold py_get. cbn [length]. replace (0 <? Z.of_nat (S (length l)))%Z with true by lia. reflexivity. Qed.
Lemma py_get_last {A} (l : list A) x : py_get (l ++ [x]) (-1) = Ok x.
Proof.
  unfold py_get. rewrite app_length. cbn [length]. replace (-1 <? 0)%Z with true by reflexivity.
  replace (-1 + Z.of_nat (length l + 1))%Z with (Z.of_nat (length l)) by lia.
  replace ((0 <=? Z.of_nat (length l)) && (Z.of_nat (length l) <? Z.of_nat (length l + 1)))%Z%bool with true by lia.
  rewrite Nat2Z.id, nth_error_app2, Nat.sub_diag by lia. reflexivity.
Qed.
Lemma get_before p c m pz cz x : x < p -> ~ p == pz -> Forall (fun s => x <= fst s) (m ++ [(pz, cz)]) ->
  gradient_get ((p, c) :: m ++ [(pz, cz)]) x = Ok (mix pz cz p c x).
Proof.
  intros L N F. unfold gradient_get. assert (E : bisect_left (map fst ((p, c) :: m ++ [(pz, cz)])) x = Ok 0%Z).
  { apply (bisect_stops [] ((p, c) :: m ++ [(pz, cz)]) x (Forall_nil _)). constructor; [cbn; lra|exact F]. }
  cbv zeta. rewrite E.
  cbn [bind]. change (0 - 1)%Z with (-1)%Z.
  cbn [map fst snd]. rewrite py_get_zero. cbn [bind]. destruct (qeq_spec p x); [lra|].
  change (p :: map fst (m ++ [(pz, cz)])) with ([p] ++ map fst (m ++ [(pz, cz)])). change (c :: map snd (m ++ [(pz, cz)])) with ([c] ++ map snd (m ++ [(pz, cz)])).
  rewrite !map_app. cbn [map fst snd]. rewrite !app_assoc. rewrite !py_get_last. cbn [bind].
  rewrite <- !app_assoc. cbn [app]. rewrite !py_get_zero. cbn [bind]. unfold ndivE. cbn [nsub NumQ].
  destruct (qeq_spec (p - pz) (nofZ 0)) as [Z|Z]; [cbn in Z; change (inject_Z 0) with 0 in Z; lra|]. cbn [bind]. reflexivity.
Qed.

(** ** Construction *)
Lemma asc_app_inv (a b : list stopQ) : ascending (a ++ b) -> ascending a /\ ascending b /\ forall p q, In p a -> In q b -> fst p <= fst q.
Proof.
  induction a as [|x a IH]; intros S; [split; [constructor|]; split; [exact S|intros ? ? []]|].
  inversion S as [|? ? S' F]; subst. destruct (IH S') as (A & B & C). apply Forall_app in F. destruct F as [Fa Fb].
  split; [constructor; assumption|]. split; [exact B|]. intros p q [<-|I] J; [rewrite Forall_forall in Fb; apply Fb, J|apply C; assumption].
Qed.
(** The sorted stops, with one more at each end where needed. *)
Lemma new_shape points : points <> [] -> exists p0 c0 rest pz cz front,
  sort_stops points = (p0, c0) :: rest /\ sort_stops points = front ++ [(pz, cz)] /\
  gradient_new points = Ok ((if nlt 0 p0 then [(0, c0)] else []) ++ sort_stops points ++ (if nlt pz 1 then [(1, cz)] else [])).
Proof.
  intros N. assert (Ns : sort_stops points <> []).
  { intros E. apply N. apply Permutation_nil. rewrite (sort_perm points), E. reflexivity. }
  destruct (sort_stops points) as [|[p0 c0] rest] eqn:E; [congruence|].
  destruct (@exists_last _ ((p0, c0) :: rest) Ns) as (front & [pz cz] & El).
  exists p0, c0, rest, pz, cz, front. split; [reflexivity|]. split; [exact El|].
  unfold gradient_new. cbv zeta.
  assert (G0 : py_get (sort_stops points) 0 = Ok (p0, c0)) by (rewrite E; apply py_get_zero). rewrite G0. cbn [bind fst snd]. change (nofZ 0) with 0. change (nofZ 1) with 1.
  rewrite El in E. rewrite El, E. destruct (nlt 0 p0).
  - change ((0, c0) :: front ++ [(pz, cz)]) with (((0, c0) :: front) ++ [(pz, cz)]). rewrite py_get_last. cbn [bind fst snd app].
    destruct (nlt pz 1); [reflexivity|]. rewrite app_nil_r. reflexivity.
  - rewrite py_get_last. cbn [bind fst snd app]. destruct (nlt pz 1); [reflexivity|]. rewrite app_nil_r. reflexivity.
Qed.
Lemma asc_split (l : list stopQ) x : ascending l -> exists L R, l = L ++ R /\ Forall (fun s => fst s < x) L /\ Forall (fun s => x <= fst s) R.
Proof.
  induction 1 as [|p l S IH F]; [exists [], []; auto|]. destruct (Qlt_le_dec (fst p) x) as [B|B].
  - destruct IH as (L & R & -> & FL & FR). exists (p :: L), R. split; [reflexivity|]. split; [constructor; assumption|exact FR].
  - exists [], (p :: l). split; [reflexivity|]. split; [constructor|]. constructor; [exact B|]. eapply Forall_impl; [|exact F]. cbn. intros q H. lra.
Qed.

Lemma api_get points x : points <> [] ->
  0 <= x \/ (exists q, In q points /\ fst q <= x) -> x <= 1 \/ (exists q, In q points /\ x <= fst q) ->
  exists g c, gradient_new points = Ok g /\ gradient_get g x = Ok c /\ shows_at points x c.
Proof.
  intros N B0 B1. destruct (new_shape points N) as (p0 & c0 & rest & pz & cz & front & E0 & Ez & En).
  pose proof (sort_asc points) as A. destruct (asc_split _ x A) as (L & R & ES & FL & FR).
  assert (Mem : forall q, In q points <-> In q (sort_stops points)).
  { intros q. split; apply Permutation_in; [apply sort_perm|apply Permutation_sym, sort_perm]. }
  set (pre := if nlt 0 p0 then [(0, c0)] else []) in *. set (post := if nlt pz 1 then [(1, cz)] else []) in *.
  eexists. destruct R as [|[pb cb] R'].
  - (* every stop is below *)
    rewrite app_nil_r in ES.
    assert (Az : pz < x). { rewrite <- ES, Ez in FL. apply Forall_app in FL. destruct FL as [_ FL]. inversion FL; subst. assumption. }
    assert (Np : Forall (fun s => fst s < x) pre).
    { subst pre. destruct (qlt_spec 0 p0) as [P|P]; [|constructor]. constructor; [|constructor]. cbn.
      rewrite <- ES, E0 in FL. inversion FL; subst. cbn in *. lra. }
    assert (Sp : Forall (fun q => ~ fst q == x) points /\ (forall q, In q points -> fst q < x)).
    { split; [apply Forall_forall|]; intros q I; apply Mem in I; rewrite ES in I; rewrite Forall_forall in FL; specialize (FL q I); cbn in FL; lra. }
    assert (X1 : x <= 1). { destruct B1 as [B1|(q & I & B1)]; [exact B1|]. pose proof (proj2 Sp q I). lra. }
    assert (Ep : post = [(1, cz)]). { subst post. destruct (qlt_spec pz 1); [reflexivity|lra]. }
    assert (NB : nearest_below points x pz).
    { split; [exists cz; apply Mem; rewrite Ez; apply in_or_app; right; left; reflexivity|]. split; [exact Az|].
      intros q I _. apply Mem in I. rewrite Ez in I, A. destruct (asc_app_inv _ _ A) as (_ & _ & C). apply in_app_or in I.
      destruct I as [I|[<-|[]]]; [exact (C q (pz, cz) I (or_introl eq_refl))|cbn; lra]. }
    assert (LA : last_at points pz cz). { apply (sort_last_at points front pz cz []); [exact Ez|intros q []]. }
    destruct (Qlt_le_dec x 1) as [C|C].
    + eexists. split; [exact En|]. split.
      * rewrite Ep, Ez. rewrite <- app_assoc. cbn [app]. rewrite app_assoc. apply get_between; [|exact Az|exact C|constructor].
        rewrite <- ES, Ez in FL. apply Forall_app in FL. apply Forall_app. split; [exact Np|exact (proj1 FL)].
      * right. split; [apply Sp|]. right; right. exists pz, cz. split; [apply Sp|]. split; [exact NB|]. split; [exact LA|]. apply mix_same. lra.
    + exists cz. split; [exact En|]. split.
      * rewrite Ep. rewrite app_assoc. apply get_at; [|constructor|lra]. rewrite ES. apply Forall_app. split; assumption.
      * right. split; [apply Sp|]. right; right. exists pz, cz. split; [apply Sp|]. split; [exact NB|]. split; [exact LA|].
        apply same_refl.
  - inversion FR as [|? ? Hb FR']; subst. cbn in Hb.
    assert (Fpost : Forall (fun s => x <= fst s) post).
    { subst post. destruct (qlt_spec pz 1) as [P|P]; [|constructor]. constructor; [|constructor]. cbn.
      assert (pb <= pz); [|lra]. assert (I : In (pb, cb) (sort_stops points)) by (rewrite ES; apply in_or_app; right; left; reflexivity).
      rewrite Ez in I, A. destruct (asc_app_inv _ _ A) as (_ & _ & H). apply in_app_or in I.
      destruct I as [I|[E|[]]]; [exact (H (pb, cb) (pz, cz) I (or_introl eq_refl))|]. injection E as -> _. lra. }
    assert (Ab : forall q, In q R' -> pb <= fst q).
    { intros q I. rewrite ES in A. destruct (asc_app_inv _ _ A) as (_ & A' & _). inversion A' as [|? ? _ F]; subst. rewrite Forall_forall in F. exact (F q I). }
    assert (FA : first_at points pb cb).
    { apply (sort_first_at points L pb cb R' ES). intros q I H. rewrite Forall_forall in FL. specialize (FL q I). cbn in FL. lra. }
    destruct (Qlt_le_dec x pb) as [C|C].
    + assert (Sp : Forall (fun q => ~ fst q == x) points).
      { apply Forall_forall. intros q I. apply Mem in I. rewrite ES in I. apply in_app_or in I. destruct I as [I|[<-|I]].
        - rewrite Forall_forall in FL. specialize (FL q I). cbn in FL. lra.
        - cbn. lra.
        - specialize (Ab q I). lra. }
      assert (NA : nearest_above points x pb).
      { split; [exists cb; apply Mem; rewrite ES; apply in_or_app; right; left; reflexivity|]. split; [exact C|].
        intros q I B. apply Mem in I. rewrite ES in I. apply in_app_or in I. destruct I as [I|[<-|I]].
        - rewrite Forall_forall in FL. specialize (FL q I). cbn in FL. lra.
        - cbn. lra.
        - apply Ab, I. }
      destruct L as [|l0 L0] using rev_ind.
      * (* every stop is above *)
        cbn [app] in ES. rewrite E0 in ES. injection ES as -> -> ->.
        assert (Up : forall q, In q points -> x < fst q).
        { intros q I. apply Mem in I. rewrite E0 in I. destruct I as [<-|I]; [exact C|]. specialize (Ab q I). lra. }
        assert (X0 : 0 <= x). { destruct B0 as [B0|(q & I & B0)]; [exact B0|]. pose proof (Up q I). lra. }
        assert (Ep : pre = [(0, cb)]). { subst pre. destruct (qlt_spec 0 pb); [reflexivity|lra]. }
        destruct (Qlt_le_dec 0 x) as [D|D].
        -- eexists. split; [exact En|]. split.
           ++ rewrite Ep, E0. cbn [app]. apply (get_between []); [constructor|exact D|exact C|]. apply Forall_app. split; [exact FR'|exact Fpost].
           ++ right. split; [exact Sp|]. right; left. exists pb, cb. split; [exact Up|]. split; [exact NA|]. split; [exact FA|]. apply mix_same. lra.
        -- exists cb. split; [exact En|]. split.
           ++ rewrite Ep, E0. cbn [app]. apply (get_at []); [constructor| |lra]. constructor; [cbn; lra|]. apply Forall_app. split; [exact FR'|exact Fpost].
           ++ right. split; [exact Sp|]. right; left. exists pb, cb. split; [exact Up|]. split; [exact NA|]. split; [exact FA|]. apply same_refl.
      * (* between two stops *)
        clear IHL0. destruct l0 as [pa ca]. apply Forall_app in FL. destruct FL as [FL Fa]. inversion Fa as [|? ? Ha _]; subst. cbn in Ha.
        rewrite <- app_assoc in ES. cbn [app] in ES.
        assert (Np : Forall (fun s => fst s < x) pre).
        { subst pre. destruct (qlt_spec 0 p0) as [P|P]; [|constructor]. constructor; [|constructor]. cbn.
          assert (p0 <= pa); [|lra]. rewrite E0 in ES, A. destruct L0 as [|l1 L0]; cbn in ES; inversion ES; subst; [lra|].
          inversion A as [|? ? _ F]; subst. rewrite Forall_forall in F. apply (F (pa, ca)). apply in_or_app. right. left. reflexivity. }
        assert (Aa : forall q, In q L0 -> fst q <= pa).
        { intros q I. rewrite ES in A. destruct (asc_app_inv _ _ A) as (_ & _ & H). exact (H q (pa, ca) I (or_introl eq_refl)). }
        eexists. split; [exact En|]. split.
        -- rewrite ES, <- app_assoc. cbn [app]. rewrite app_assoc. apply get_between; [|exact Ha|exact C|].
           ++ apply Forall_app. split; assumption.
           ++ apply Forall_app. split; assumption.
        -- right. split; [exact Sp|]. left. exists pa, ca, pb, cb. split; [|split; [|split; [exact NA|split; [exact FA|split]]]].
           ++ split; [exists ca; apply Mem; rewrite ES; apply in_or_app; right; left; reflexivity|]. split; [exact Ha|].
              intros q I B. apply Mem in I. rewrite ES in I. apply in_app_or in I. destruct I as [I|[<-|[<-|I]]].
              ** apply Aa, I.
              ** cbn. lra.
              ** cbn in B. lra.
              ** specialize (Ab q I). lra.
           ++ apply (sort_last_at points L0 pa ca _ ES). intros q [<-|I]; [cbn; lra|]. specialize (Ab q I). lra.
           ++ apply mix_spec. lra.
           ++ apply mix_between; assumption.
    + (* at a stop *)
      exists cb. split; [exact En|].
      assert (Np : Forall (fun s => fst s < x) pre).
      { subst pre. destruct (qlt_spec 0 p0) as [P|P]; [|constructor]. constructor; [|constructor]. cbn.
        assert (p0 <= pb); [|lra]. rewrite E0 in ES, A. destruct L as [|l1 L]; cbn in ES; inversion ES; subst; [lra|].
        inversion A as [|? ? _ F]; subst. rewrite Forall_forall in F. apply (F (pb, cb)). apply in_or_app. right. left. reflexivity. }
      split.
      * rewrite ES, <- app_assoc. cbn [app]. rewrite app_assoc. apply get_at; [apply Forall_app; split; assumption| |lra].
        apply Forall_app. split; assumption.
      * left. apply (first_at_compat points pb x cb); [lra|exact FA].
Qed.

(** ** Other positions *)
Lemma new_mem points g q : points <> [] -> gradient_new points = Ok g -> In q g ->
  (exists q', In q' points /\ snd q' = snd q) /\ (In q points \/ fst q == 0 \/ fst q == 1).
Proof.
  intros N E I. destruct (new_shape points N) as (p0 & c0 & rest & pz & cz & front & E0 & Ez & En). rewrite En in E. injection E as <-.
  assert (M : forall s, In s (sort_stops points) -> In s points) by (intros s; apply Permutation_in, Permutation_sym, sort_perm).
  apply in_app_or in I. destruct I as [I|I]; [|apply in_app_or in I; destruct I as [I|I]].
  - destruct (Qlt_bool 0 p0); [|contradiction]. destruct I as [<-|[]]. split; [|right; left; reflexivity].
    exists (p0, c0). split; [apply M; rewrite E0; left; reflexivity|reflexivity].
  - split; [exists q; split; [apply M, I|reflexivity]|left; apply M, I].
  - destruct (Qlt_bool pz 1); [|contradiction]. destruct I as [<-|[]]. split; [|right; right; reflexivity].
    exists (pz, cz). split; [apply M; rewrite Ez; apply in_or_app; right; left; reflexivity|reflexivity].
Qed.
Lemma api_beyond points x : points <> [] -> 1 < x -> (forall q, In q points -> fst q < x) ->
  exists g, gradient_new points = Ok g /\ gradient_get g x = Err IndexError.
Proof.
  intros N B F. destruct (new_shape points N) as (p0 & c0 & rest & pz & cz & front & E0 & Ez & En). eexists. split; [exact En|].
  apply get_beyond. apply Forall_forall. intros q I. destruct (new_mem points _ q N En I) as [_ [J|[J|J]]]; [apply F, J|lra|lra].
Qed.
(** Below the first stop the last one is used. *)
Lemma api_before points x : points <> [] -> x < 0 -> (forall q, In q points -> x < fst q) ->
  exists g pa ca pb cb c, gradient_new points = Ok g /\ gradient_get g x = Ok c /\ interpolates pa ca pb cb x c /\
    pb <= 0 /\ 1 <= pa /\ (forall q, In q points -> pb <= fst q <= pa) /\
    (exists p, (forall q, In q points -> p <= fst q) /\ first_at points p cb) /\ (exists p, (forall q, In q points -> fst q <= p) /\ last_at points p ca).
Proof.
  intros N B F. destruct (new_shape points N) as (p0 & c0 & rest & pz & cz & front & E0 & Ez & En).
  pose proof (sort_asc points) as A.
  assert (M : forall s, In s points <-> In s (sort_stops points)).
  { intros q. split; apply Permutation_in; [apply sort_perm|apply Permutation_sym, sort_perm]. }
  assert (Lo : forall q, In q points -> p0 <= fst q).
  { intros q I. apply M in I. rewrite E0 in I, A. inversion A as [|? ? _ F0]; subst. destruct I as [<-|I]; [cbn; lra|]. rewrite Forall_forall in F0. exact (F0 q I). }
  assert (Hi : forall q, In q points -> fst q <= pz).
  { intros q I. apply M in I. rewrite Ez in I, A. destruct (asc_app_inv _ _ A) as (_ & _ & H). apply in_app_or in I.
    destruct I as [I|[<-|[]]]; [exact (H q (pz, cz) I (or_introl eq_refl))|cbn; lra]. }
  assert (F1 : first_at points p0 c0) by (apply (sort_first_at points [] p0 c0 rest E0); intros q []).
  assert (F2 : last_at points pz cz) by (apply (sort_last_at points front pz cz [] Ez); intros q []).
  assert (O : p0 <= pz). { apply (Lo (pz, cz)). apply M. rewrite Ez. apply in_or_app. right. left. reflexivity. }
  (* the two ends *)
  set (a := if nlt 0 p0 then 0 else p0). set (z := if nlt pz 1 then 1 else pz).
  assert (Ba : a <= 0 /\ a <= p0) by (subst a; destruct (qlt_spec 0 p0); lra).
  assert (Bz : 1 <= z /\ pz <= z) by (subst z; destruct (qlt_spec pz 1); lra).
  assert (Xa : x < a). { subst a. destruct (nlt 0 p0); [exact B|]. apply (F (p0, c0)). apply M. rewrite E0. left. reflexivity. }
  assert (Sh : exists m, (if nlt 0 p0 then [(0, c0)] else []) ++ sort_stops points ++ (if nlt pz 1 then [(1, cz)] else []) = (a, c0) :: m ++ [(z, cz)]).
  { subst a z. destruct (qlt_spec 0 p0) as [P|P], (qlt_spec pz 1) as [P'|P'].
    - exists (sort_stops points). reflexivity.
    - exists front. rewrite app_nil_r, Ez. reflexivity.
    - exists rest. rewrite E0. reflexivity.
    - rewrite app_nil_r. cbn [app]. destruct front as [|f front].
      + rewrite E0 in Ez. exfalso. cbn in Ez. inversion Ez; subst. lra.
      + exists front. rewrite Ez. cbn. f_equal. rewrite E0 in Ez. cbn in Ez. congruence. }
  destruct Sh as [m Sh]. rewrite Sh in En. eexists _, z, cz, a, c0, _. split; [exact En|].
  assert (Fa : forall q, In q ((a, c0) :: m ++ [(z, cz)]) -> x <= fst q).
  { intros q I. destruct (new_mem points _ q N En I) as [_ [J|[J|J]]]; [specialize (F q J); lra|lra|lra]. }
  split; [apply get_before; [exact Xa|lra|]; apply Forall_forall; intros q I; apply Fa; right; exact I|].
  split; [apply mix_spec; lra|]. split; [lra|]. split; [lra|]. split; [intros q I; specialize (Lo q I); specialize (Hi q I); lra|].
  split; [exists p0; split; [exact Lo|exact F1]|exists pz; split; [exact Hi|exact F2]].
Qed.
(** *** Order of the stops *)
Lemma asc_unique (a : list stopQ) : forall b, ascending a -> ascending b -> Permutation a b ->
  (forall p q, In p a -> In q a -> fst p == fst q -> p = q) -> a = b.
Proof.
  induction a as [|x a IH]; intros b Sa Sb P D; [apply Permutation_nil in P; auto|].
  destruct b as [|y b]; [apply Permutation_sym, Permutation_nil in P; discriminate|].
  inversion Sa as [|? ? Sa' Fa]; inversion Sb as [|? ? Sb' Fb]; subst.
  assert (E : x = y).
  { apply D; [left; reflexivity|apply (Permutation_in _ (Permutation_sym P)); left; reflexivity|].
    assert (I : In x (y :: b)) by (apply (Permutation_in _ P); left; reflexivity).
    assert (J : In y (x :: a)) by (apply (Permutation_in _ (Permutation_sym P)); left; reflexivity).
    rewrite Forall_forall in Fa, Fb. destruct I as [->|I]; [reflexivity|]. destruct J as [->|J]; [reflexivity|].
    specialize (Fa y J). specialize (Fb x I). cbn in *. lra. }
  subst y. f_equal. apply IH; [assumption|assumption|exact (Permutation_cons_inv P)|].
  intros p q I J. apply D; right; assumption.
Qed.
Lemma api_order points points' : Permutation points points' -> (forall p q, In p points -> In q points -> fst p == fst q -> p = q) ->
  gradient_new points = gradient_new points'.
Proof.
  intros P D. unfold gradient_new. assert (E : sort_stops points = sort_stops points'); [|rewrite E; reflexivity].
  assert (M : forall s, In s (sort_stops points) -> In s points) by (intros s; apply Permutation_in, Permutation_sym, sort_perm).
  apply asc_unique; [apply sort_asc|apply sort_asc| |].
  - rewrite <- (sort_perm points), <- (sort_perm points'). exact P.
  - intros p q I J. apply D; apply M; assumption.
Qed.
(** *** Range of the components *)
Lemma same_range lo hi c d : same_colour c d -> Forall (fun v => lo <= v <= hi) d -> Forall (fun v => lo <= v <= hi) c.
Proof.
  unfold same_colour. induction 1 as [|a b c d E H IH]; intros F; [constructor|]. inversion F; subst. constructor; [lra|auto].
Qed.
Lemma shows_range points x c lo hi : shows_at points x c -> (forall q, In q points -> Forall (fun v => lo <= v <= hi) (snd q)) ->
  Forall (fun v => lo <= v <= hi) c.
Proof.
  intros S F.
  assert (Ff : forall p c, first_at points p c -> Forall (fun v => lo <= v <= hi) c).
  { intros p c' (b & p' & a & -> & _). apply (F (p', c')). apply in_or_app. right. left. reflexivity. }
  assert (Fl : forall p c, last_at points p c -> Forall (fun v => lo <= v <= hi) c).
  { intros p c' (b & p' & a & -> & _). apply (F (p', c')). apply in_or_app. right. left. reflexivity. }
  destruct S as [S|[_ [(pa & ca & pb & cb & _ & La & _ & Fb & [Ln _] & Bt)|[(p & c0 & _ & _ & H & E)|(p & c0 & _ & _ & H & E)]]]].
  - eapply Ff; eassumption.
  - apply Fl in La. apply Ff in Fb. apply Forall_forall. intros v I. apply In_nth_error in I. destruct I as [i Ei].
    assert (B : (i < length c)%nat) by (apply nth_error_Some; congruence). rewrite Ln in B.
    destruct (nth_error ca i) as [a|] eqn:Ea; [|apply nth_error_None in Ea; lia].
    destruct (nth_error cb i) as [b|] eqn:Eb; [|apply nth_error_None in Eb; lia].
    specialize (Bt i a b v Ea Eb Ei). apply nth_error_In in Ea, Eb. rewrite Forall_forall in La, Fb. specialize (La a Ea). specialize (Fb b Eb). cbn in *. lra.
  - eapply same_range; [exact E|]. eapply Ff; eassumption.
  - eapply same_range; [exact E|]. eapply Fl; eassumption.
Qed.
Lemma top_small fuel n : (0 <= n < 16)%Z -> top_digit fuel n = n.
Proof. intros B. destruct fuel as [|f]; [reflexivity|]. cbn. replace (n <? 16)%Z with true by lia. reflexivity. Qed.
Lemma trunc15 v : 0 <= v <= 1 -> q_trunc (v * 15) = Qfloor (15 * v) /\ (0 <= Qfloor (15 * v) <= 15)%Z.
Proof.
  intros B. assert (E : Qfloor (15 * v) = Qfloor (v * 15)) by (apply Qfloor_comp; ring).
  assert (B1 : (0 <= Qfloor (15 * v))%Z). { apply (Qfloor_resp_le 0 (15 * v)). lra. }
  assert (B2 : (Qfloor (15 * v) <= 15)%Z). { apply (Qfloor_resp_le (15 * v) 15). lra. }
  split; [|lia]. rewrite E. unfold q_trunc. destruct (v * 15) as [n d] eqn:Ev. cbn.
  assert (Np : (0 <= n)%Z). { assert (0 <= v * 15) by lra. rewrite Ev in H. unfold Qle in H. cbn in H. lia. }
  apply Z.quot_div_nonneg; lia.
Qed.
Lemma api_hex points x : points <> [] -> 0 <= x <= 1 -> (forall q, In q points -> Forall (fun v => 0 <= v <= 1) (snd q)) ->
  exists g c chars, gradient_new points = Ok g /\ gradient_get g x = Ok c /\ shows_at points x c /\ gradient_hex g x = Ok (35%Z :: chars) /\
    Forall2 (fun v ch => is_hex_digit ch (Qfloor (15 * v))) c chars.
Proof.
  intros N B F. destruct (api_get points x N) as (g & c & En & Eg & S); [left; apply B|left; apply B|].
  exists g, c. eexists. split; [exact En|]. split; [exact Eg|]. split; [exact S|].
  unfold gradient_hex. rewrite Eg. cbn [bind]. split; [reflexivity|].
  pose proof (shows_range points x c 0 1 S F) as R. clear - R. induction R as [|v c B R IH]; cbn [map]; constructor; [|exact IH].
  destruct (trunc15 v B) as [E B']. cbn [nmul nofZ NumQ nint IntQ]. change (inject_Z 15) with 15. rewrite E.
  unfold hex2. replace (Qfloor (15 * v) <? 0)%Z with false by lia. rewrite top_small by lia.
  unfold is_hex_digit, hex_char. destruct (Z.ltb_spec (Qfloor (15 * v)) 10); lia.
Qed.
Lemma new_empty : gradient_new (T := Q) [] = Err IndexError.
Proof. reflexivity. Qed.
