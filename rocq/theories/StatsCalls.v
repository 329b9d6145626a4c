(** The cached module: every call returns what the plain functions return. *)
From Coq Require Import Reals Lra.
From Verif Require Import Num RealNum StatsModel StatsSpec StatsCache.
Open Scope Z_scope.

Lemma tup_eqb_spec (a b : list R) : reflect (a = b) (tup_eqb a b).
Proof.
  revert b. induction a as [|x r IH]; intros [|y s]; cbn [tup_eqb]; try (constructor; congruence).
  change (neq x y) with (Req_bool x y). destruct (Req_bool_spec x y) as [->|N]; cbn [andb]; [|constructor; congruence].
  destruct (IH s) as [->|N]; constructor; congruence.
Qed.
Lemma tup2_eqb_spec (a b : list R * list R) : reflect (a = b) (tup2_eqb a b).
Proof.
  destruct a as [a a'], b as [b b']. unfold tup2_eqb. cbn [fst snd]. destruct (tup_eqb_spec a b) as [->|N]; cbn [andb]; [|constructor; congruence].
  destruct (tup_eqb_spec a' b') as [->|N]; constructor; congruence.
Qed.

(** ** The plain functions *)
Definition p_sum (l : list R) : res R := Ok (total l).
Definition p_len (l : list R) : res Z := Ok (Z.of_nat (length l)).
Definition p_avg (l : list R) : res R := ndivE (total l) (nofZ (Z.of_nat (length l))).
Definition p_var (l : list R) : res R :=
  u <- p_avg l ;; ndivE (total (map (fun x => nmul (nsub x u) (nsub x u)) l)) (nofZ (Z.of_nat (length l))).
Definition p_std (l : list R) : res R := v <- p_var l ;; nsqrt v.
Definition p_cov (p : list R * list R) : res R :=
  u1 <- p_avg (fst p) ;; u2 <- p_avg (snd p) ;; covar_loop (Z.of_nat (length (fst p))) u1 u2 (fst p) (snd p) (nofZ 0).
Definition p_corr (p : list R * list R) : res R :=
  c <- p_cov p ;; d1 <- p_std (fst p) ;; d2 <- p_std (snd p) ;; ndivE c (nmul d1 d2).
Definition p_kak (l : list R) : res R :=
  u <- p_avg l ;; let n := Z.of_nat (length l) in
  us <- ndivE (nmul (nofZ 2) (kak_loop l (nofZ 0))) (nofZ (n * (n - 1))) ;; ndivE us (nmul (nofZ 2) u).
Definition p_dea (l : list R) : res R :=
  u <- p_avg l ;; let n := Z.of_nat (length l) in let s := dea_loop 0 (sort_desc l) (total l) in
  a <- ndivE (nofZ (n + 1)) (nofZ (n - 1)) ;;
  b <- ndivE (nmul (nofZ 2) s) (nmul (nofZ (n * (n - 1))) u) ;; Ok (nsub a b).

Definition sum_ok (st : stats R) : Prop :=
  (forall e, In e (l_entries (s_sum st)) -> total (sumkey_values (fst e)) = snd e) /\
  (length (l_entries (s_sum st)) <= 128)%nat /\
  (forall i l v, In (SGen i l, v) (l_entries (s_sum st)) -> (i < s_gen st)).
Record good (st : stats R) : Prop := mkgood {
  gd_max : coherent py_max 128 (s_max st); gd_min : coherent py_min 128 (s_min st);
  gd_sum : sum_ok st; gd_len : coherent p_len 128 (s_len st);
  gd_avg : coherent p_avg 128 (s_avg st); gd_var : coherent p_var 64 (s_var st); gd_std : coherent p_std 64 (s_std st);
  gd_cov : coherent p_cov 32 (s_cov st); gd_corr : coherent p_corr 16 (s_corr st);
  gd_kak : coherent p_kak 16 (s_kak st); gd_dea : coherent p_dea 16 (s_dea st) }.
Lemma good0 : good stats0.
Proof. split; try apply coherent_empty. split; [intros e []|]. split; [cbn; lia|intros i l v []]. Qed.

Definition gives {A} (m : stats R -> stats R * res A) (r : res A) : Prop :=
  forall st, good st -> good (fst (m st)) /\ snd (m st) = r.
Lemma gives_ret {A} (r : res A) : gives (mret r) r.
Proof. intros st G. split; [exact G|reflexivity]. Qed.
Lemma gives_bind {A B} (m : stats R -> stats R * res A) (f : A -> stats R -> stats R * res B) r s :
  gives m r -> (forall a, r = Ok a -> gives (f a) (s a)) -> gives (mbind m f) (bind r s).
Proof.
  intros M F st G. unfold mbind. destruct (M st G) as [G' E]. destruct (m st) as [st' r']. cbn [fst snd] in *. subst r'.
  destruct r as [a|e]; cbn [bind]; [apply F; [reflexivity|exact G']|split; [exact G'|reflexivity]].
Qed.
Lemma gives_memo {K V} (keq : K -> K -> bool) (get : stats R -> lru K V) put max f p :
  (forall a b, reflect (a = b) (keq a b)) -> (0 < max)%nat ->
  (forall st, good st -> coherent p max (get st)) ->
  (forall c st, good st -> coherent p max c -> good (put c st)) ->
  (forall k, gives (f k) (p k)) ->
  forall k, gives (memo keq get put max f (Some k)) (p k).
Proof.
  intros KE M GC PC F k st G. unfold memo. destruct (lru_lookup keq k (get st)) as [e|] eqn:L.
  - destruct (coherent_hit keq KE p max (get st) k e (GC st G) L) as [C P]. split; [apply PC; assumption|rewrite P; reflexivity].
  - destruct (F k (put (lru_miss (get st)) st)) as [G' E].
    { apply PC; [exact G|]. apply coherent_miss. apply GC. exact G. }
    destruct (f k (put (lru_miss (get st)) st)) as [st' r]. cbn [fst snd] in *. subst r. destruct (p k) as [v|e] eqn:P.
    + split; [|reflexivity]. apply PC; [exact G'|]. apply coherent_store; [exact M|apply GC; exact G'|exact P].
    + split; [exact G'|reflexivity].
Qed.
Ltac memo_tac E G C :=
  apply gives_memo; [exact E|lia|intros st G0; apply G0|intros c st [] C0; split; assumption|].
Lemma max_gives l : gives (st_max (Some l)) (py_max l).
Proof. unfold st_max. revert l. memo_tac tup_eqb_spec G C. intros l. apply gives_ret. Qed.
Lemma min_gives l : gives (st_min (Some l)) (py_min l).
Proof. unfold st_min. revert l. memo_tac tup_eqb_spec G C. intros l. apply gives_ret. Qed.
Lemma len_gives l : gives (st_len (Some l)) (p_len l).
Proof. unfold st_len. revert l. memo_tac tup_eqb_spec G C. intros l. apply gives_ret. Qed.

(** Tuples in the sum cache. *)
Lemma sum_find l (es : list (sumkey R * R)) e : lru_find sumkey_eqb (STup l) es = Some e -> In e es /\ fst e = STup l.
Proof.
  induction es as [|[k v] r IH]; [discriminate|]. cbn [lru_find fst]. destruct k as [m|i m]; cbn [sumkey_eqb].
  - destruct (tup_eqb_spec l m) as [<-|N].
    + intros F. injection F as <-. split; [left; reflexivity|reflexivity].
    + intros F. destruct (IH F). split; [right; assumption|assumption].
  - intros F. destruct (IH F). split; [right; assumption|assumption].
Qed.
Lemma sumkey_refl (k : sumkey R) : sumkey_eqb k k = true.
Proof. destruct k as [l|i l]; cbn [sumkey_eqb]; [destruct (tup_eqb_spec l l); congruence|apply Z.eqb_refl]. Qed.
Lemma sum_remove_length k (es : list (sumkey R * R)) : In k (map fst es) -> (length (lru_remove sumkey_eqb k es) < length es)%nat.
Proof.
  induction es as [|x r IH]; [intros []|]. cbn [lru_remove map In length]. destruct (sumkey_eqb k (fst x)) eqn:E; [lia|].
  intros [D|D]; [rewrite D, sumkey_refl in E; discriminate|]. cbn [length]. pose proof (IH D). lia.
Qed.
Lemma sum_put c st : good st -> (forall e, In e (l_entries c) -> total (sumkey_values (fst e)) = snd e) ->
  (length (l_entries c) <= 128)%nat -> (forall i l v, In (SGen i l, v) (l_entries c) -> (i < s_gen st)) -> good (put_sum c st).
Proof. intros [] A B C. split; try assumption. split; [exact A|]. split; [exact B|exact C]. Qed.
Lemma sum_store st k : good st -> (forall i l, k = SGen i l -> (i < s_gen st)) ->
  good (put_sum (lru_store 128 k (total (sumkey_values k)) (lru_miss (s_sum st))) (put_sum (lru_miss (s_sum st)) st)).
Proof.
  intros G I. pose proof (gd_sum st G) as (A & B & C). unfold lru_store. cbn [lru_miss l_entries l_hits l_misses].
  set (es := if Nat.leb 128 (length (l_entries (s_sum st))) then removelast (l_entries (s_sum st)) else l_entries (s_sum st)).
  assert (Sub : forall e, In e es -> In e (l_entries (s_sum st))).
  { intros e. unfold es. destruct (Nat.leb 128 _); [apply removelast_incl|auto]. }
  assert (Len : (S (length es) <= 128)%nat).
  { unfold es. destruct (Nat.leb_spec 128 (length (l_entries (s_sum st)))); [rewrite removelast_length|]; lia. }
  change (put_sum ?c (put_sum ?d st)) with (put_sum c st). apply sum_put; [exact G| | |]; cbn [l_entries].
  - intros e [<-|E]; [reflexivity|]. apply A. apply Sub. exact E.
  - exact Len.
  - intros i l v [E|E]; [|eapply C; apply Sub; exact E]. apply pair_equal_spec in E. destruct E as [E _]. eapply I. exact E.
Qed.
Lemma sum_gives l : gives (st_sum (Some (STup l))) (p_sum l).
Proof.
  intros st G. unfold st_sum, memo. destruct (lru_lookup sumkey_eqb (STup l) (s_sum st)) as [e|] eqn:L.
  - apply sum_find in L. destruct L as [I E]. pose proof (gd_sum st G) as (A & B & C). cbn [fst snd]. split.
    + apply sum_put; [exact G| | |]; cbn [lru_hit l_entries].
      * intros x [<-|X]; [apply A; exact I|]. apply A. eapply remove_incl. exact X.
      * cbn [length]. pose proof (sum_remove_length (fst e) _ (in_map fst _ _ I)). lia.
      * intros i m v [X|X]; [rewrite X in E; discriminate|]. apply remove_incl in X. eapply C. exact X.
    + unfold p_sum. rewrite <- (A e I), E. reflexivity.
  - unfold mret. cbn [fst snd]. split; [|reflexivity]. apply (sum_store st (STup l) G). intros i m X. discriminate.
Qed.
(** A generator is never found. *)
Lemma gen_fresh i l (es : list (sumkey R * R)) : (forall j m v, In (SGen j m, v) es -> j < i) -> lru_find sumkey_eqb (SGen i l) es = None.
Proof.
  induction es as [|[k v] r IH]; intros F; [reflexivity|]. cbn [lru_find fst]. destruct k as [m|j m]; cbn [sumkey_eqb].
  - apply IH. intros j m' v' X. eapply F. right. exact X.
  - pose proof (F j m v (or_introl eq_refl)). rewrite (proj2 (Z.eqb_neq i j)) by lia. apply IH. intros j' m' v' X. eapply F. right. exact X.
Qed.
Lemma gen_gives {B} l (f : R -> stats R -> stats R * res B) r : gives (f (total l)) r ->
  gives (mbind (new_gen l) (fun g => mbind (st_sum (Some g)) f)) r.
Proof.
  intros F st G.
  pose (st' := mkstats (s_max st) (s_min st) (s_sum st) (s_len st) (s_avg st) (s_var st) (s_std st) (s_cov st) (s_corr st) (s_kak st) (s_dea st) (s_gen st + 1)).
  assert (G' : good st').
  { destruct G as [? ? (A & B0 & C)]. split; try assumption. split; [exact A|]. split; [exact B0|]. intros i m v X. cbn [s_gen st']. specialize (C i m v X). lia. }
  assert (L : lru_lookup sumkey_eqb (SGen (s_gen st) l) (s_sum st') = None).
  { apply gen_fresh. apply G. }
  assert (E : mbind (new_gen l) (fun g => mbind (st_sum (Some g)) f) st =
    f (total l) (put_sum (lru_store 128 (SGen (s_gen st) l) (total l) (lru_miss (s_sum st'))) (put_sum (lru_miss (s_sum st')) st'))).
  { change (mbind (st_sum (Some (SGen (s_gen st) l))) f st' =
      f (total l) (put_sum (lru_store 128 (SGen (s_gen st) l) (total l) (lru_miss (s_sum st'))) (put_sum (lru_miss (s_sum st')) st'))).
    unfold mbind, st_sum, memo. rewrite L. reflexivity. }
  rewrite E. apply F. apply (sum_store st' (SGen (s_gen st) l) G').
  intros i m X. injection X as <- _. cbn [s_gen st']. lia.
Qed.

Lemma avg_gives l : gives (st_avg (Some l)) (p_avg l).
Proof.
  unfold st_avg. revert l. memo_tac tup_eqb_spec G C. intros l.
  apply (gives_bind _ _ (p_sum l) (fun s => n <- p_len l ;; ndivE s (nofZ n))); [apply sum_gives|]. intros s _.
  apply gives_bind; [apply len_gives|]. intros n _. apply gives_ret.
Qed.
Lemma var_gives l : gives (st_var (Some l)) (p_var l).
Proof.
  unfold st_var. revert l. memo_tac tup_eqb_spec G C. intros l. apply gives_bind; [apply avg_gives|]. intros u _.
  apply gen_gives. apply (gives_bind _ _ (p_len l) (fun n => ndivE (total (map (fun x => nmul (nsub x u) (nsub x u)) l)) (nofZ n))); [apply len_gives|].
  intros n _. apply gives_ret.
Qed.
Lemma std_gives l : gives (st_std (Some l)) (p_std l).
Proof.
  unfold st_std. revert l. memo_tac tup_eqb_spec G C. intros l. apply gives_bind; [apply var_gives|]. intros v _. apply gives_ret.
Qed.
Lemma cov_gives p : gives (st_covar (Some p)) (p_cov p).
Proof.
  unfold st_covar. revert p. memo_tac tup2_eqb_spec G C. intros [a b].
  apply (gives_bind _ _ (p_len a) (fun n => u1 <- p_avg a ;; u2 <- p_avg b ;; covar_loop n u1 u2 a b (nofZ 0))); [apply len_gives|]. intros n _.
  apply gives_bind; [apply avg_gives|]. intros u1 _. apply gives_bind; [apply avg_gives|]. intros u2 _. apply gives_ret.
Qed.
Lemma corr_gives p : gives (st_corr (Some p)) (p_corr p).
Proof.
  unfold st_corr. revert p. memo_tac tup2_eqb_spec G C. intros [a b]. apply gives_bind; [apply cov_gives|]. intros c _.
  apply gives_bind; [apply std_gives|]. intros d _. apply gives_bind; [apply std_gives|]. intros d' _. apply gives_ret.
Qed.
Lemma kak_gives l : gives (st_kakwani (Some l)) (p_kak l).
Proof.
  unfold st_kakwani. revert l. memo_tac tup_eqb_spec G C. intros l.
  apply (gives_bind _ _ (p_len l) (fun n => u <- p_avg l ;; us <- ndivE (nmul (nofZ 2) (kak_loop l (nofZ 0))) (nofZ (n * (n - 1))) ;; ndivE us (nmul (nofZ 2) u)));
    [apply len_gives|]. intros n _. apply gives_bind; [apply avg_gives|]. intros u _. apply gives_bind; [apply gives_ret|]. intros us _. apply gives_ret.
Qed.
Lemma dea_gives l : gives (st_deaton (Some l)) (p_dea l).
Proof.
  unfold st_deaton. revert l. memo_tac tup_eqb_spec G C. intros l.
  apply (gives_bind _ _ (p_len l) (fun n => u <- p_avg l ;; s <- p_sum l ;; a <- ndivE (nofZ (n + 1)) (nofZ (n - 1)) ;;
    b <- ndivE (nmul (nofZ 2) (dea_loop 0 (sort_desc l) s)) (nmul (nofZ (n * (n - 1))) u) ;; Ok (nsub a b))); [apply len_gives|]. intros n _.
  apply gives_bind; [apply avg_gives|]. intros u _. apply gives_bind; [apply sum_gives|]. intros s _.
  apply gives_bind; [apply gives_ret|]. intros a _. apply gives_bind; [apply gives_ret|]. intros b _. apply gives_ret.
Qed.

(** What a call returns by the plain functions. *)
Definition p_call (c : stcall R) : res (stvalue R) :=
  match c with
  | CMax None | CMin None | CSum None | CLen None | CAvg None | CVar None | CStd None | CKak None | CDea None => Err TypeError
  | CCov None | CCorr None => Err TypeError
  | CMax (Some l) => rmap VNum (py_max l) | CMin (Some l) => rmap VNum (py_min l)
  | CSum (Some l) => rmap VNum (p_sum l) | CLen (Some l) => rmap VInt (p_len l)
  | CAvg (Some l) => rmap VNum (p_avg l) | CVar (Some l) => rmap VNum (p_var l) | CStd (Some l) => rmap VNum (p_std l)
  | CCov (Some p) => rmap VNum (p_cov p) | CCorr (Some p) => rmap VNum (p_corr p)
  | CKak (Some l) => rmap VNum (p_kak l) | CDea (Some l) => rmap VNum (p_dea l)
  | CClear => Ok VNone
  end.
Lemma call_gives c : gives (st_call c) (p_call c).
Proof.
  intros st G. destruct c as [[a|]|[a|]|[a|]|[a|]|[a|]|[a|]|[a|]|[a|]|[a|]|[a|]|[a|]|]; cbn [st_call p_call vnum option_map fst snd];
    try (split; [exact G|reflexivity]).
  - destruct (max_gives a st G) as [G' E]. split; [exact G'|rewrite E; reflexivity].
  - destruct (min_gives a st G) as [G' E]. split; [exact G'|rewrite E; reflexivity].
  - destruct (sum_gives a st G) as [G' E]. split; [exact G'|rewrite E; reflexivity].
  - destruct (len_gives a st G) as [G' E]. split; [exact G'|rewrite E; reflexivity].
  - destruct (avg_gives a st G) as [G' E]. split; [exact G'|rewrite E; reflexivity].
  - destruct (var_gives a st G) as [G' E]. split; [exact G'|rewrite E; reflexivity].
  - destruct (std_gives a st G) as [G' E]. split; [exact G'|rewrite E; reflexivity].
  - destruct (cov_gives a st G) as [G' E]. split; [exact G'|rewrite E; reflexivity].
  - destruct (corr_gives a st G) as [G' E]. split; [exact G'|rewrite E; reflexivity].
  - destruct (kak_gives a st G) as [G' E]. split; [exact G'|rewrite E; reflexivity].
  - destruct (dea_gives a st G) as [G' E]. split; [exact G'|rewrite E; reflexivity].
  - split; [|reflexivity]. destruct G. split; try apply coherent_empty; try assumption. split; [intros e []|]. split; [cbn; lia|intros i l v []].
Qed.
Lemma run_snoc h c : st_run (h ++ [c]) = fst (st_call c (st_run h)).
Proof. unfold st_run. rewrite fold_left_app. reflexivity. Qed.
Lemma run_good h : good (st_run h).
Proof.
  induction h as [|c h IH] using rev_ind; [exact good0|]. rewrite run_snoc. apply call_gives. exact IH.
Qed.
Lemma answers_plain h c : answers h c (p_call c).
Proof. apply call_gives. apply run_good. Qed.

(** ** Sizes and counters *)
Lemma run_sizes h : let st := st_run h in
  (length (l_entries (s_max st)) <= 128 /\ length (l_entries (s_min st)) <= 128 /\ length (l_entries (s_sum st)) <= 128 /\
   length (l_entries (s_len st)) <= 128 /\ length (l_entries (s_avg st)) <= 128 /\ length (l_entries (s_var st)) <= 64 /\
   length (l_entries (s_std st)) <= 64 /\ length (l_entries (s_cov st)) <= 32 /\ length (l_entries (s_corr st)) <= 16 /\
   length (l_entries (s_kak st)) <= 16 /\ length (l_entries (s_dea st)) <= 16)%nat.
Proof.
  cbv zeta. destruct (run_good h) as [? ? (_ & ? & _)]. repeat match goal with H : coherent _ _ _ |- _ => destruct H as [_ ?] end. auto 20.
Qed.

(** A call that leaves part [g] of the state alone. *)
Definition keeps {A B} (g : stats R -> B) (m : stats R -> stats R * res A) : Prop := forall st, g (fst (m st)) = g st.
Lemma keeps_ret {A B} (g : stats R -> B) (r : res A) : keeps g (mret r). Proof. intros st. reflexivity. Qed.
Lemma keeps_bind {A B C} (g : stats R -> C) (m : stats R -> stats R * res A) (f : A -> stats R -> stats R * res B) :
  keeps g m -> (forall a, keeps g (f a)) -> keeps g (mbind m f).
Proof.
  intros M F st. unfold mbind. specialize (M st). destruct (m st) as [st' [a|e]]; cbn [fst] in *; [rewrite F|]; exact M.
Qed.
Lemma keeps_memo {K V C} (g : stats R -> C) keq (get : stats R -> lru K V) put max f :
  (forall c st, g (put c st) = g st) -> (forall k, keeps g (f k)) -> forall k, keeps g (memo keq get put max f k).
Proof.
  intros P F [k|] st; [|reflexivity]. unfold memo. destruct (lru_lookup keq k (get st)); cbn [fst]; [apply P|].
  specialize (F k (put (lru_miss (get st)) st)). destruct (f k (put (lru_miss (get st)) st)) as [st' [v|e]]; cbn [fst] in *; rewrite ?P in *; exact F.
Qed.
Lemma keeps_gen {C} (g : stats R -> C) l : (forall st i, g (mkstats (s_max st) (s_min st) (s_sum st) (s_len st) (s_avg st) (s_var st) (s_std st) (s_cov st) (s_corr st) (s_kak st) (s_dea st) i) = g st) -> keeps g (new_gen l).
Proof. intros P st. unfold new_gen. cbn [fst]. apply P. Qed.
Ltac keep := repeat (first [ intros ? ?; reflexivity | intros ?; match goal with |- keeps _ _ => idtac end | match goal with |- keeps _ (let '(_, _) := ?p in _) => destruct p end
  | apply keeps_ret | apply keeps_gen | apply keeps_bind | apply keeps_memo | progress unfold st_max, st_min, st_sum, st_len, st_avg, st_var, st_std, st_covar, st_corr, st_kakwani, st_deaton ]).
Definition tally {K V} (c : lru K V) : Z := l_hits c + l_misses c.
(** A call to a cached function counts once on its own cache. *)
Lemma memo_tally {K V} keq (get : stats R -> lru K V) put max f k st :
  (forall c st, get (put c st) = c) -> (forall k, keeps get (f k)) ->
  tally (get (fst (memo keq get put max f (Some k) st))) = tally (get st) + 1.
Proof.
  intros P F. unfold memo. destruct (lru_lookup keq k (get st)); cbn [fst]; [rewrite P; unfold tally; cbn [lru_hit l_hits l_misses]; lia|].
  specialize (F k (put (lru_miss (get st)) st)). rewrite P in F.
  destruct (f k (put (lru_miss (get st)) st)) as [st' [v|e]]; cbn [fst] in *; rewrite ?P, F; unfold tally; cbn [lru_store lru_miss l_hits l_misses]; lia.
Qed.
Lemma keeps_vnum {C} (g : stats R -> C) m st : keeps g m -> g (fst (vnum (m st))) = g st.
Proof. intros K. unfold vnum. cbn [fst]. apply K. Qed.
Ltac other := cbn [st_call]; try (apply keeps_vnum); match goal with |- keeps _ _ => keep | |- _ => idtac end.
Lemma since_snoc p h c : forall n, calls_since p (h ++ [c]) n =
  match c with CClear => 0 | _ => if p c then calls_since p h n + 1 else calls_since p h n end.
Proof.
  induction h as [|d h IH]; intros n; [destruct c; reflexivity|]. destruct d; cbn [app calls_since]; apply IH.
Qed.
Lemma ever_snoc p h c : calls_ever p (h ++ [c]) = calls_ever p h + (if p c then 1 else 0).
Proof. unfold calls_ever. rewrite filter_app, app_length. cbn [filter]. destruct (p c); cbn [length]; lia. Qed.

Lemma tally_max h : tally (s_max (st_run h)) = calls_ever to_max h.
Proof.
  induction h as [|c h IH] using rev_ind; [reflexivity|]. rewrite run_snoc, ever_snoc, <- IH.
  destruct c as [[a|]|a|a|a|a|a|a|a|a|a|a|]; cbn [to_max]; rewrite ?Z.add_0_r; try (f_equal; solve [other]).
  - cbn [st_call vnum fst]. unfold st_max. rewrite memo_tally; [reflexivity|reflexivity|]. intros k. keep.
  - cbn [st_call fst]. f_equal. assert (K : keeps s_max (st_len a)) by keep. apply K.
Qed.
Lemma tally_min h : tally (s_min (st_run h)) = calls_ever to_min h.
Proof.
  induction h as [|c h IH] using rev_ind; [reflexivity|]. rewrite run_snoc, ever_snoc, <- IH.
  destruct c as [a|[a|]|a|a|a|a|a|a|a|a|a|]; cbn [to_min]; rewrite ?Z.add_0_r; try (f_equal; solve [other]).
  - cbn [st_call vnum fst]. unfold st_min. rewrite memo_tally; [reflexivity|reflexivity|]. intros k. keep.
  - cbn [st_call fst]. f_equal. assert (K : keeps s_min (st_len a)) by keep. apply K.
Qed.
Lemma tally_corr h : tally (s_corr (st_run h)) = calls_since to_corr h 0.
Proof.
  induction h as [|c h IH] using rev_ind; [reflexivity|]. rewrite run_snoc, since_snoc, <- IH.
  destruct c as [a|a|a|a|a|a|a|a|[a|]|a|a|]; cbn [to_corr]; try (f_equal; solve [other]).
  - cbn [st_call fst]. f_equal. assert (K : keeps s_corr (st_len a)) by keep. apply K.
  - cbn [st_call vnum fst]. unfold st_corr. rewrite memo_tally; [reflexivity|reflexivity|]. intros [x y]. keep.
  - reflexivity.
Qed.
Lemma tally_kak h : tally (s_kak (st_run h)) = calls_since to_kak h 0.
Proof.
  induction h as [|c h IH] using rev_ind; [reflexivity|]. rewrite run_snoc, since_snoc, <- IH.
  destruct c as [a|a|a|a|a|a|a|a|a|[a|]|a|]; cbn [to_kak]; try (f_equal; solve [other]).
  - cbn [st_call fst]. f_equal. assert (K : keeps s_kak (st_len a)) by keep. apply K.
  - cbn [st_call vnum fst]. unfold st_kakwani. rewrite memo_tally; [reflexivity|reflexivity|]. intros x. keep.
  - reflexivity.
Qed.
Lemma tally_dea h : tally (s_dea (st_run h)) = calls_since to_dea h 0.
Proof.
  induction h as [|c h IH] using rev_ind; [reflexivity|]. rewrite run_snoc, since_snoc, <- IH.
  destruct c as [a|a|a|a|a|a|a|a|a|a|[a|]|]; cbn [to_dea]; try (f_equal; solve [other]).
  - cbn [st_call fst]. f_equal. assert (K : keeps s_dea (st_len a)) by keep. apply K.
  - cbn [st_call vnum fst]. unfold st_deaton. rewrite memo_tally; [reflexivity|reflexivity|]. intros x. keep.
  - reflexivity.
Qed.

(** ** cache_clear and cache_info *)
Lemma info_max a st : st_info (fst (st_call (CMax a) st)) = st_info (T := R) st.
Proof. assert (K : keeps st_info (st_max a)) by keep. apply K. Qed.
Lemma info_min a st : st_info (fst (st_call (CMin a) st)) = st_info (T := R) st.
Proof. assert (K : keeps st_info (st_min a)) by keep. apply K. Qed.
Lemma clear_effect h : let st := st_run h in let st' := fst (st_call CClear st) in
  s_max st' = s_max st /\ s_min st' = s_min st /\ st_info st' = (0, 0, 592, 0).
Proof. split; [reflexivity|]. split; reflexivity. Qed.
