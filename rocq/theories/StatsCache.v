(** The bounded cache. *)
From Coq Require Import Reals.
From Verif Require Import Num RealNum StatsModel StatsSpec.
Open Scope Z_scope.

  Lemma removelast_firstn {A} (l : list A) m : (m < length l)%nat -> removelast (firstn (S m) l) = firstn m l.
  Proof.
    revert m. induction l as [|x r IH]; intros m L; [cbn in L; lia|]. destruct m as [|m]; [reflexivity|].
    change (firstn (S (S m)) (x :: r)) with (x :: firstn (S m) r). destruct r as [|y r]; [cbn in L; lia|].
    change (firstn (S m) (x :: y :: r)) with (x :: firstn m (y :: r)). rewrite <- (IH m) by (cbn [length] in *; lia).
    destruct (firstn (S m) (y :: r)) eqn:E; [discriminate|]. reflexivity.
  Qed.

Section One.
  Context {K V : Type} (keq : K -> K -> bool) (keq_spec : forall a b, reflect (a = b) (keq a b)).
  Lemma keq_refl k : keq k k = true. Proof. destruct (keq_spec k k); congruence. Qed.
  Lemma keq_ne a b : a <> b -> keq a b = false. Proof. destruct (keq_spec a b); congruence. Qed.

  Lemma find_some k (l : list (K * V)) e : lru_find keq k l = Some e -> fst e = k /\ In e l.
  Proof.
    induction l as [|x r IH]; [discriminate|]. cbn [lru_find]. destruct (keq_spec k (fst x)) as [E|E].
    - intros F. injection F as <-. split; [auto|left; reflexivity].
    - intros F. destruct (IH F). split; [assumption|right; assumption].
  Qed.
  Lemma find_none k (l : list (K * V)) : lru_find keq k l = None <-> ~ In k (map fst l).
  Proof.
    induction l as [|x r IH]; [split; [intros _ []|reflexivity]|]. cbn [lru_find map In]. destruct (keq_spec k (fst x)) as [E|E].
    - split; [discriminate|]. intros C. exfalso. apply C. left. auto.
    - rewrite IH. split; [intros C [D|D]; [congruence|contradiction]|intros C D; apply C; right; exact D].
  Qed.
  Lemma remove_length k (l : list (K * V)) : In k (map fst l) -> length l = S (length (lru_remove keq k l)).
  Proof.
    induction l as [|x r IH]; [intros []|]. cbn [lru_remove map In length]. destruct (keq_spec k (fst x)) as [E|E]; [reflexivity|].
    intros [D|D]; [congruence|]. cbn [length]. rewrite <- (IH D). reflexivity.
  Qed.
  Lemma remove_incl k (l : list (K * V)) e : In e (lru_remove keq k l) -> In e l.
  Proof.
    induction l as [|x r IH]; [intros []|]. cbn [lru_remove]. destruct (keq k (fst x)); [right; assumption|].
    intros [D|D]; [left; exact D|right; auto].
  Qed.
  Lemma removelast_incl {A} (l : list A) e : In e (removelast l) -> In e l.
  Proof.
    induction l as [|x [|y r] IH]; [intros []|intros []|]. cbn [removelast]. intros [D|D]; [left; exact D|right; apply IH; exact D].
  Qed.
  Lemma removelast_length {A} (l : list A) : length (removelast l) = (length l - 1)%nat.
  Proof.
    induction l as [|x [|y r] IH]; [reflexivity|reflexivity|]. change (removelast (x :: y :: r)) with (x :: removelast (y :: r)).
    cbn [length] in *. rewrite IH. lia.
  Qed.

  (** Every stored value is right and the bound is kept. *)
  Definition coherent (p : K -> res V) (max : nat) (c : lru K V) : Prop :=
    (forall e, In e (l_entries c) -> p (fst e) = Ok (snd e)) /\ (length (l_entries c) <= max)%nat.
  Lemma coherent_empty p max : coherent p max lru_empty.
  Proof. split; [intros e []|apply Nat.le_0_l]. Qed.
  Lemma coherent_miss p max c : coherent p max c -> coherent p max (lru_miss c).
  Proof. intros H. exact H. Qed.
  Lemma coherent_hit p max c k e : coherent p max c -> lru_lookup keq k c = Some e -> coherent p max (lru_hit keq e c) /\ p k = Ok (snd e).
  Proof.
    intros [A B] F. apply find_some in F. destruct F as [<- I]. split; [|apply A; exact I]. split.
    - intros x [<-|X]; [apply A; exact I|]. apply A. apply remove_incl in X. exact X.
    - cbn [lru_hit l_entries length]. rewrite <- remove_length; [exact B|]. apply in_map. exact I.
  Qed.
  Lemma coherent_store p max c k v : (0 < max)%nat -> coherent p max c -> p k = Ok v -> coherent p max (lru_store max k v c).
  Proof.
    intros M [A B] F. unfold lru_store. destruct (Nat.leb_spec max (length (l_entries c))); (split; [intros x [<-|X]; [exact F|]|]); cbn [l_entries] in *.
    - apply A. apply removelast_incl. exact X.
    - cbn [length]. rewrite removelast_length. lia.
    - apply A. exact X.
    - cbn [length]. lia.
  Qed.

  (** ** One cached function: exactly the most recent results are kept *)
  Context (max : nat) (max_pos : (0 < max)%nat) (f : K -> res V).
  Definition value (k : K) : list (K * V) := match f k with Ok v => [(k, v)] | Err _ => [] end.
  Definition ideal (h : list (option K)) : list K := firstn max (distinct keq (returned f h)).
  Lemma returned_snoc h k : returned f (h ++ [Some k]) = match f k with Ok _ => [k] | Err _ => [] end ++ returned f h.
  Proof. unfold returned. rewrite rev_app_distr. reflexivity. Qed.
  Lemma returned_none h : returned f (h ++ [None]) = returned f h.
  Proof. unfold returned. rewrite rev_app_distr. reflexivity. Qed.
  Lemma distinct_in l : forall k, In k (distinct keq l) <-> In k l.
  Proof.
    induction l as [|x r IH]; intros k; [reflexivity|]. cbn [distinct In]. rewrite filter_In, IH. destruct (keq_spec x k) as [E|E].
    - split; [auto|]. intros _. left. exact E.
    - split; [intros [C|[C _]]; auto|]. intros [C|C]; [contradiction|]. right. split; [exact C|reflexivity].
  Qed.
  Lemma filter_all {A} (P : A -> bool) l : (forall x, In x l -> P x = true) -> filter P l = l.
  Proof.
    induction l as [|x r IH]; [reflexivity|]. intros F. cbn [filter]. rewrite (F x) by (left; reflexivity). rewrite IH; [reflexivity|].
    intros y Y. apply F. right. exact Y.
  Qed.
  Lemma NoDup_filter {A} (P : A -> bool) l : NoDup l -> NoDup (filter P l).
  Proof.
    induction 1 as [|x r N D IH]; [constructor|]. cbn [filter]. destruct (P x); [|exact IH]. constructor; [|exact IH].
    rewrite filter_In. tauto.
  Qed.
  Lemma distinct_nodup l : NoDup (distinct keq l).
  Proof.
    induction l as [|x r IH]; [constructor|]. cbn [distinct]. constructor; [|apply NoDup_filter; exact IH].
    rewrite filter_In. intros [_ C]. rewrite keq_refl in C. discriminate.
  Qed.
  (** Moving a key to the front. *)
  Fixpoint drop (k : K) (l : list K) : list K :=
    match l with [] => [] | x :: r => if keq k x then r else x :: drop k r end.
  Lemma drop_absent k l : ~ In k l -> drop k l = l.
  Proof.
    induction l as [|x r IH]; [reflexivity|]. intros N. cbn [drop]. rewrite (keq_ne k x) by (intros ->; apply N; left; reflexivity).
    rewrite IH; [reflexivity|]. intros C. apply N. right. exact C.
  Qed.
  Lemma drop_filter k l : NoDup l -> drop k l = filter (fun y => negb (keq k y)) l.
  Proof.
    induction 1 as [|x r N D IH]; [reflexivity|]. cbn [drop filter]. destruct (keq_spec k x) as [->|E].
    - cbn [negb]. symmetry. apply filter_all. intros y Y. rewrite keq_ne; [reflexivity|]. congruence.
    - cbn [negb]. rewrite IH. reflexivity.
  Qed.
  Lemma firstn_drop_in k l : forall m, NoDup l -> In k (firstn m l) -> firstn m (k :: drop k l) = k :: drop k (firstn m l).
  Proof.
    assert (G : forall m l, NoDup l -> In k (firstn (S m) l) -> firstn m (drop k l) = drop k (firstn (S m) l)).
    { intros m l0. revert m. induction l0 as [|x r IH]; intros m D I; [destruct I|]. cbn [drop].
      change (firstn (S m) (x :: r)) with (x :: firstn m r) in *. cbn [drop]. destruct (keq_spec k x) as [->|E]; [reflexivity|].
      destruct I as [I|I]; [congruence|]. destruct m as [|m]; [destruct I|]. cbn [firstn]. inversion D; subst. rewrite (IH m); [reflexivity|assumption|assumption]. }
    intros m D I. destruct m as [|m]; [destruct I|]. cbn [firstn]. rewrite G by assumption. reflexivity.
  Qed.
  Lemma remove_map k (l : list (K * V)) : map fst (lru_remove keq k l) = drop k (map fst l).
  Proof. induction l as [|x r IH]; [reflexivity|]. cbn [lru_remove map drop]. destruct (keq k (fst x)); [reflexivity|]. cbn [map]. rewrite IH. reflexivity. Qed.
  Lemma removelast_map {A B} (g : A -> B) l : map g (removelast l) = removelast (map g l).
  Proof. induction l as [|x [|y r] IH]; [reflexivity|reflexivity|]. change (removelast (x :: y :: r)) with (x :: removelast (y :: r)).
    change (map g (x :: y :: r)) with (g x :: g y :: map g r). cbn [map]. rewrite IH. reflexivity. Qed.

  Definition step := lru_step keq max f.
  Definition ran (h : list (option K)) := lru_run keq max f h.
  Lemma ran_snoc h k : ran (h ++ [k]) = fst (step k (ran h)).
  Proof. unfold ran, lru_run. rewrite fold_left_app. reflexivity. Qed.
  Lemma ran_spec h : map fst (l_entries (ran h)) = ideal h /\ coherent f max (ran h) /\ l_hits (ran h) + l_misses (ran h) = hashable h.
  Proof.
    induction h as [|k h IH] using rev_ind.
    { split; [unfold ideal; cbn; rewrite firstn_nil; reflexivity|]. split; [apply coherent_empty|reflexivity]. }
    destruct IH as (I & C & N). rewrite ran_snoc. unfold step, lru_step, memo. destruct k as [k|]; cycle 1.
    { cbn [fst]. unfold ideal. rewrite returned_none. split; [exact I|]. split; [exact C|]. rewrite N. unfold hashable.
      rewrite filter_app, app_length. cbn. lia. }
    assert (Nh : hashable (h ++ [Some k]) = hashable h + 1) by (unfold hashable; rewrite filter_app, app_length; cbn; lia).
    destruct (lru_lookup keq k (ran h)) as [e|] eqn:F.
    - cbn [fst]. pose proof (coherent_hit _ _ _ _ _ C F) as [C' P]. split; [|split; [exact C'|cbn [lru_hit l_hits l_misses]; lia]].
      unfold ideal. rewrite returned_snoc, P. cbn [app distinct]. rewrite <- drop_filter by apply distinct_nodup.
      apply find_some in F. destruct F as [<- F]. cbn [lru_hit l_entries map]. rewrite remove_map, I. unfold ideal. rewrite firstn_drop_in; [reflexivity|apply distinct_nodup|].
      fold (ideal h). rewrite <- I. apply in_map. exact F.
    - unfold lru_lookup in F. apply find_none in F. unfold mret. destruct (f k) as [v|e] eqn:P; cbn [fst].
      + split; [|split; [apply coherent_store; assumption|cbn [lru_store lru_miss l_hits l_misses]; lia]].
        unfold ideal. rewrite returned_snoc, P. cbn [app distinct]. rewrite <- drop_filter by apply distinct_nodup.
        unfold lru_store. cbn [l_entries lru_miss map fst]. destruct max as [|m] eqn:M; [lia|]. cbn [firstn]. f_equal.
        assert (Hd : firstn m (drop k (distinct keq (returned f h))) = firstn m (distinct keq (returned f h))).
        { rewrite I in F. unfold ideal in F. rewrite M in F. clear - F keq_spec. revert m F. induction (distinct keq (returned f h)) as [|x r IH]; intros m F; [reflexivity|].
          cbn [drop]. cbn [firstn In] in F. rewrite (keq_ne k x) by (intros ->; apply F; left; reflexivity). destruct m as [|m]; [reflexivity|].
          cbn [firstn]. rewrite IH; [reflexivity|]. intros D. apply F. right. exact D. }
        rewrite Hd. clear Hd. assert (L : length (l_entries (ran h)) = length (ideal h)) by (rewrite <- I; symmetry; apply map_length).
        destruct (Nat.leb_spec (S m) (length (l_entries (ran h)))) as [B|B].
        * rewrite removelast_map, I. unfold ideal. rewrite M. apply removelast_firstn. rewrite L in B. unfold ideal in B. rewrite M, firstn_length in B. lia.
        * rewrite I. unfold ideal in *. rewrite M in *. rewrite L, firstn_length in B. rewrite !firstn_all2 by lia. reflexivity.
      + split; [|split; [apply coherent_miss; exact C|cbn [lru_miss l_hits l_misses]; lia]].
        unfold ideal. rewrite returned_snoc, P. exact I.
  Qed.
  Lemma step_result h k : snd (step (Some k) (ran h)) = f k /\ snd (step None (ran h)) = Err TypeError.
  Proof.
    split; [|reflexivity]. destruct (ran_spec h) as (_ & C & _). unfold step, lru_step, memo. destruct (lru_lookup keq k (ran h)) as [e|] eqn:F.
    - cbn [snd]. symmetry. apply (coherent_hit _ _ _ _ _ C F).
    - unfold mret. destruct (f k); reflexivity.
  Qed.
  Lemma hit_iff h k : l_misses (fst (step (Some k) (ran h))) = l_misses (ran h) <-> In k (ideal h).
  Proof.
    destruct (ran_spec h) as (I & _ & _). rewrite <- I. unfold step, lru_step, memo. destruct (lru_lookup keq k (ran h)) as [e|] eqn:F.
    - apply find_some in F. destruct F as [<- F]. cbn [fst lru_hit l_misses]. split; [intros _; apply in_map; exact F|reflexivity].
    - apply find_none in F. unfold mret. destruct (f k); cbn [fst lru_store lru_miss l_misses]; (split; [lia|contradiction]).
  Qed.
End One.

Lemma api_lru {K V} (keq : K -> K -> bool) (max : nat) (f : K -> res V) (h : list (option K)) :
  (forall a b, reflect (a = b) (keq a b)) -> (0 < max)%nat ->
  let c := lru_run keq max f h in
  map fst (l_entries c) = firstn max (distinct keq (returned f h)) /\
  (length (l_entries c) <= max)%nat /\ l_hits c + l_misses c = hashable h /\
  (forall k, snd (lru_step keq max f (Some k) c) = f k) /\ snd (lru_step keq max f None c) = Err TypeError /\
  (forall k, l_misses (fst (lru_step keq max f (Some k) c)) = l_misses c <-> In k (firstn max (distinct keq (returned f h)))).
Proof.
  intros K0 M. cbv zeta. destruct (ran_spec keq K0 max M f h) as (A & [_ B] & C). split; [exact A|]. split; [exact B|]. split; [exact C|].
  split; [intros k; apply (step_result keq K0 max M f h k)|]. split; [reflexivity|]. intros k. apply (hit_iff keq K0 max M f h k).
Qed.
