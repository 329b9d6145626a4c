(** Names: the Jaro similarity. *)
From Coq Require Import Lia ZifyBool Lqa Qfield.
From Verif Require Import Num NamesModel NamesSpec NamesProofs NamesMatch.
Open Scope Z_scope.

(** * find *)
Lemma find_spec s c k i0 i1 : 0 <= k ->
  let f := find_from s c k i0 i1 in
  (f = -1 /\ forall j : nat, (j < length s)%nat -> i0 <= k + Z.of_nat j < i1 -> nth j s 0 <> c) \/
  (exists j : nat, f = k + Z.of_nat j /\ (j < length s)%nat /\ i0 <= f < i1 /\ nth j s 0 = c /\
     forall j' : nat, (j' < j)%nat -> i0 <= k + Z.of_nat j' -> nth j' s 0 <> c).
Proof.
  revert k. induction s as [|x s IH]; intros k P; cbn [find_from].
  - left. split; [reflexivity|]. intros j L. cbn in L. lia.
  - destruct ((i0 <=? k) && (k <? i1) && (x =? c)) eqn:E.
    + apply andb_prop in E. destruct E as [E Ec]. apply andb_prop in E. destruct E as [E0 E1].
      right. exists 0%nat. cbn [nth length]. split; [lia|]. split; [lia|]. split; [lia|]. split; [lia|]. intros j' L. lia.
    + assert (Nc : i0 <= k < i1 -> x <> c).
      { intros B ->. rewrite Z.eqb_refl in E. destruct (Z.leb_spec i0 k), (Z.ltb_spec k i1); cbn in E; try discriminate; lia. }
      destruct (IH (k + 1)) as [[F N]|(j & F & L & B & Nj & M)]; [lia| |].
      * left. split; [exact F|]. intros [|j] Lj Bj; cbn [nth length] in *; [apply Nc; lia|apply N; lia].
      * right. exists (S j). cbn [length nth]. split; [lia|]. split; [lia|]. split; [lia|]. split; [exact Nj|].
        intros [|j'] Lj Bj; cbn [nth]; [apply Nc; lia|apply M; lia].
Qed.
Lemma str_find_spec s t w i : length s = length t -> 0 <= i < Z.of_nat (length s) ->
  let f := str_find t (nth (Z.to_nat i) s 0) (Z.max 0 (i - w)) (Z.min (Z.of_nat (length s)) (i + w + 1)) in
  (f = -1 /\ forall j, ~ found s t w i j) \/ (0 <= f /\ found s t w i f).
Proof.
  intros L B f. unfold f, str_find.
  destruct (find_spec t (nth (Z.to_nat i) s 0) 0 (Z.max 0 (i - w)) (Z.min (Z.of_nat (length s)) (i + w + 1))) as [[E N]|(j & E & Lj & Bj & Nj & M)]; [lia| |].
  - left. split; [exact E|]. intros j (_ & Bj & W & Nj & _). apply (N (Z.to_nat j)); [lia|lia|exact Nj].
  - right. rewrite E. split; [lia|]. rewrite E in Bj. split; [exact B|]. split; [lia|]. split; [lia|].
    replace (Z.to_nat (0 + Z.of_nat j)) with j by lia. split; [exact Nj|]. intros j' Bj' W. apply M; lia.
Qed.

(** * The matches *)
Definition tally (ms : list (option (option Z))) : Z * list Z := (Z.of_nat (length (somes ms)), somes (somes ms)).
Lemma somes_app {A} (l1 l2 : list (option A)) : somes (l1 ++ l2) = somes l1 ++ somes l2.
Proof. apply flat_map_app. Qed.
Definition entry (s t : list Z) (w : Z) (i : nat) (o : option (option Z)) : Prop :=
  match o with
  | Some None => same_place s t (Z.of_nat i)
  | Some (Some j) => ~ same_place s t (Z.of_nat i) /\ found s t w (Z.of_nat i) j
  | None => ~ same_place s t (Z.of_nat i) /\ forall j, ~ found s t w (Z.of_nat i) j
  end.
Lemma get_in s i : 0 <= i < Z.of_nat (length s) -> py_get s i = Ok (nth (Z.to_nat i) s 0).
Proof. intros B. destruct (py_get_nonneg s i B) as (x & E & N). rewrite E. f_equal. symmetry. apply nth_error_nth with (d := 0) in N. exact N. Qed.
Lemma jaro_loop s t w n : length s = length t -> (n <= length s)%nat ->
  exists ms, length ms = n /\ foldM (jaro_step s t (Z.of_nat (length s)) w) (zrange n) (0, []) = Ok (tally ms) /\
    forall i o, nth_error ms i = Some o -> entry s t w i o.
Proof.
  intros L. induction n as [|n IH]; intros Ln.
  - exists []. split; [reflexivity|]. split; [reflexivity|]. intros [|i] o E; discriminate.
  - destruct IH as (ms & Lm & E & M); [lia|]. rewrite zrange_snoc, foldM_app, E. cbn [bind foldM].
    assert (X : exists o, jaro_step s t (Z.of_nat (length s)) w (tally ms) (Z.of_nat n) = Ok (tally (ms ++ [o])) /\ entry s t w n o).
    { unfold jaro_step, tally. rewrite (get_in s), (get_in t) by lia. cbn [bind].
      destruct (Z.eqb_spec (nth (Z.to_nat (Z.of_nat n)) s 0) (nth (Z.to_nat (Z.of_nat n)) t 0)) as [Eq|Ne].
      - exists (Some None). split; [|split; [lia|exact Eq]]. rewrite !somes_app. cbn [somes flat_map app]. rewrite app_length, app_nil_r. cbn [length]. do 2 f_equal. lia.
      - assert (NS : ~ same_place s t (Z.of_nat n)) by (intros [_ X]; contradiction).
        destruct (str_find_spec s t w (Z.of_nat n) L) as [[F N]|[P F]]; [lia| |].
        + rewrite F. cbn [Z.leb Z.compare]. exists None. split; [|split; assumption]. rewrite somes_app. cbn [somes flat_map]. rewrite app_nil_r. reflexivity.
        + apply Z.leb_le in P. rewrite P. eexists (Some (Some _)). split; [|split; [exact NS|exact F]].
          rewrite !somes_app. cbn [somes flat_map app]. rewrite app_length. cbn [length]. do 2 f_equal. lia. }
    destruct X as (o & E' & Eo). rewrite E'. cbn [bind]. exists (ms ++ [o]). split; [rewrite app_length; cbn; lia|]. split; [reflexivity|].
    intros i x Ei. destruct (Nat.lt_ge_cases i (length ms)) as [Li|Li].
    + rewrite nth_error_app1 in Ei by exact Li. apply M, Ei.
    + rewrite nth_error_app2 in Ei by exact Li. destruct (i - length ms)%nat eqn:Ed; [|destruct n0; discriminate]. injection Ei as <-.
      replace i with n by lia. exact Eo.
Qed.

(** * Late elements *)
Lemma swaps_late l : forall seen t x, 0 <= x -> Forall (fun f => 0 <= f) l -> (forall f, 0 <= f -> (f <? x) = existsb (fun y => f <? y) seen) ->
  fst (fold_left swaps_step l (t, x)) = t + Z.of_nat (late seen l).
Proof.
  induction l as [|f l IH]; intros seen t x P F X; cbn [fold_left late fst]; [lia|]. inversion F as [|? ? Pf Fl]; subst.
  cbn [swaps_step]. rewrite <- (X f Pf). destruct (Z.ltb_spec f x) as [L|L].
  - rewrite (IH (f :: seen)); [lia|exact P|exact Fl|]. intros g Pg. cbn [existsb]. rewrite <- X by exact Pg. lia.
  - rewrite (IH (f :: seen)); [lia|exact Pf|exact Fl|]. intros g Pg. cbn [existsb]. rewrite <- X by exact Pg. lia.
Qed.
Lemma late_le seen l : (late seen l <= length l)%nat.
Proof. revert seen. induction l as [|x l IH]; intros seen; cbn [late length]; [lia|]. specialize (IH (x :: seen)). destruct (existsb _ seen); lia. Qed.
Lemma somes_le {A} (l : list (option A)) : (length (somes l) <= length l)%nat.
Proof. unfold somes. induction l as [|[x|] l IH]; cbn [flat_map app length]; lia. Qed.
Lemma somes_in {A} (l : list (option A)) x : In x (somes l) <-> In (Some x) l.
Proof.
  induction l as [|[y|] l IH]; [split; intros []|cbn|cbn].
  - rewrite IH. split; intros [E|E]; auto; [left; congruence|injection E as ->; auto].
  - rewrite IH. split; [auto|]. intros [E|E]; [discriminate|exact E].
Qed.

(** * The value *)
Definition score (l1 l2 m t : nat) : Q :=
  ((inject_Z (Z.of_nat m) / inject_Z (Z.of_nat l1) + inject_Z (Z.of_nat m) / inject_Z (Z.of_nat l2) +
    inject_Z (Z.of_nat m - Z.of_nat t) / inject_Z (Z.of_nat m)) / 3)%Q.
Lemma padded_length n s : (length s <= n)%nat -> length (padded n s) = n.
Proof. intros L. unfold padded. rewrite app_length, repeat_length. lia. Qed.
Lemma pad_same s : padded (length s) s = s.
Proof. unfold padded. rewrite Nat.sub_diag. apply app_nil_r. Qed.
Lemma jaro_value s1 s2 : let n := Nat.max (length s1) (length s2) in
  exists ms, matches (padded n s1) (padded n s2) (Z.of_nat n / 2 - 1) ms /\
    let m := length (somes ms) in
    let t := late [] (somes (somes ms)) in
    match m with
    | O => jaro s1 s2 = Ok 0%Q
    | S _ => if ((length s1 =? 0) || (length s2 =? 0))%nat then jaro (T := Q) s1 s2 = Err ZeroDivisionError
             else jaro s1 s2 = Ok (score (length s1) (length s2) m t)
    end.
Proof.
  intros n. set (w := Z.of_nat n / 2 - 1).
  assert (L1 : length (padded n s1) = n) by (apply padded_length; unfold n; lia).
  assert (L2 : length (padded n s2) = n) by (apply padded_length; unfold n; lia).
  destruct (jaro_loop (padded n s1) (padded n s2) w n) as (ms & Lm & E & M); [lia|lia|]. exists ms. split.
  { split; [lia|]. intros i. destruct (nth_error ms i) as [o|] eqn:Ei; [|exact I]. apply M in Ei. unfold entry in Ei. destruct o as [[j|]|]; exact Ei. }
  intros m t. unfold jaro.
  assert (Sh : (if Z.of_nat (length s1) <? Z.of_nat (length s2) then (s1 ++ repeat 42 (Z.to_nat (Z.of_nat (length s2) - Z.of_nat (length s1))), s2, Z.of_nat (length s2))
      else if Z.of_nat (length s2) <? Z.of_nat (length s1) then (s1, s2 ++ repeat 42 (Z.to_nat (Z.of_nat (length s1) - Z.of_nat (length s2))), Z.of_nat (length s1))
      else (s1, s2, Z.of_nat (length s1))) = (padded n s1, padded n s2, Z.of_nat n)).
  { unfold padded, n. destruct (Z.ltb_spec (Z.of_nat (length s1)) (Z.of_nat (length s2))) as [C|C].
    - f_equal; [f_equal|lia].
      + do 2 f_equal. lia.
      + replace (Nat.max (length s1) (length s2) - length s2)%nat with 0%nat by lia. symmetry. apply app_nil_r.
    - destruct (Z.ltb_spec (Z.of_nat (length s2)) (Z.of_nat (length s1))) as [C'|C'].
      + f_equal; [f_equal|lia].
        * replace (Nat.max (length s1) (length s2) - length s1)%nat with 0%nat by lia. symmetry. apply app_nil_r.
        * do 2 f_equal. lia.
      + f_equal; [f_equal|lia].
        * replace (Nat.max (length s1) (length s2) - length s1)%nat with 0%nat by lia. symmetry. apply app_nil_r.
        * replace (Nat.max (length s1) (length s2) - length s2)%nat with 0%nat by lia. symmetry. apply app_nil_r. }
  rewrite Sh, Nat2Z.id. rewrite L1 in E. fold w. rewrite E. unfold tally. cbn [bind].
  fold m. destruct m as [|m'] eqn:Em; [reflexivity|].
  replace (Z.of_nat (S m') =? 0) with false by lia.
  assert (Et : fst (fold_left swaps_step (somes (somes ms)) (0, 0)) = Z.of_nat t).
  { rewrite (swaps_late _ []); [unfold t; lia|lia| |intros f Pf; cbn [existsb]; lia].
    apply Forall_forall. intros f I. apply (proj1 (somes_in (somes ms) f)), (proj1 (somes_in ms (Some f))), In_nth_error in I. destruct I as (i & I). apply M in I. cbn in I. destruct I as [_ (_ & B & _)]. lia. }
  destruct (fold_left swaps_step (somes (somes ms)) (0, 0)) as [t' x'] eqn:Ef. cbn [fst] in Et. subst t'. cbn [nofZ NumQ].
  destruct (length s1) as [|l1] eqn:El1; [reflexivity|]. cbn [Nat.eqb orb].
  rewrite ndivE_Q by (unfold Qeq; cbn; lia). cbn [bind].
  destruct (length s2) as [|l2] eqn:El2; [reflexivity|].
  rewrite !ndivE_Q by (unfold Qeq; cbn; lia). cbn [bind Nat.eqb]. rewrite ndivE_Q by (unfold Qeq; cbn; lia). cbn [nadd NumQ].
  unfold score. reflexivity.
Qed.

(** * Bounds *)
Lemma ratio_bounds a b : (0 < b)%nat -> (0 <= inject_Z (Z.of_nat a) / inject_Z (Z.of_nat b))%Q /\
  ((a <= b)%nat -> (inject_Z (Z.of_nat a) / inject_Z (Z.of_nat b) <= 1)%Q).
Proof.
  intros P. assert (Pb : (0 < inject_Z (Z.of_nat b))%Q) by (rewrite <- (Zlt_Qlt 0); lia). split.
  - apply Qle_shift_div_l; [exact Pb|]. rewrite Qmult_0_l. rewrite <- (Zle_Qle 0). lia.
  - intros L. apply Qle_shift_div_r; [exact Pb|]. rewrite Qmult_1_l, <- Zle_Qle. lia.
Qed.
Lemma score_nonneg l1 l2 m t : (0 < l1)%nat -> (0 < l2)%nat -> (0 < m)%nat -> (t <= m)%nat -> (0 <= score l1 l2 m t)%Q.
Proof.
  intros P1 P2 Pm L. unfold score. replace (Z.of_nat m - Z.of_nat t) with (Z.of_nat (m - t)) by lia.
  destruct (ratio_bounds m l1 P1) as [A _], (ratio_bounds m l2 P2) as [B _], (ratio_bounds (m - t) m Pm) as [C _].
  apply Qle_shift_div_l; [reflexivity|]. lra.
Qed.
Lemma score_le l1 l2 m t : (0 < l1)%nat -> (0 < l2)%nat -> (0 < m)%nat -> (t <= m)%nat -> (m <= l1)%nat -> (m <= l2)%nat -> (score l1 l2 m t <= 1)%Q.
Proof.
  intros P1 P2 Pm L M1 M2. unfold score. replace (Z.of_nat m - Z.of_nat t) with (Z.of_nat (m - t)) by lia.
  destruct (ratio_bounds m l1 P1) as [_ A], (ratio_bounds m l2 P2) as [_ B], (ratio_bounds (m - t) m Pm) as [_ C].
  specialize (A M1). specialize (B M2). assert (L' : (m - t <= m)%nat) by lia. specialize (C L'). apply Qle_shift_div_r; [reflexivity|]. lra.
Qed.
Lemma jaro_nonneg s1 s2 : s1 <> [] -> s2 <> [] -> exists j : Q, jaro s1 s2 = Ok j /\ (0 <= j)%Q.
Proof.
  intros N1 N2. destruct (jaro_value s1 s2) as (ms & _ & V). cbv zeta in V. destruct (length (somes ms)) as [|m'] eqn:Em.
  - exists 0%Q. split; [exact V|apply Qle_refl].
  - destruct s1 as [|a s1]; [congruence|]. destruct s2 as [|b s2]; [congruence|]. cbn [length Nat.eqb orb] in V. eexists. split; [exact V|].
    apply score_nonneg; [lia|lia|lia|]. rewrite <- Em. eapply Nat.le_trans; [apply late_le|apply somes_le].
Qed.
Lemma pad_tail n s i : (length s <= i < n)%nat -> nth i (padded n s) 0 = 42.
Proof.
  intros B. unfold padded. rewrite app_nth2 by lia. apply (repeat_spec (n - length s)). apply nth_In. rewrite repeat_length. lia.
Qed.
Lemma somes_bound {A} (l : list (option A)) k : (forall i, (k <= i)%nat -> nth_error l i <> None -> nth_error l i = Some None) -> (length (somes l) <= k)%nat.
Proof.
  revert k. induction l as [|o l IH]; intros k H; [cbn; lia|]. destruct k as [|k].
  - assert (H0 : o = None) by (specialize (H 0%nat (Nat.le_refl _)); cbn in H; assert (X : Some o <> None) by discriminate; specialize (H X); congruence). subst o.
    change (length (somes l) <= 0)%nat. apply IH. intros i Li Ni. apply (H (S i)); [lia|exact Ni].
  - assert (X : (length (somes l) <= k)%nat) by (apply IH; intros i Li Ni; apply (H (S i)); [lia|exact Ni]). destruct o; unfold somes in *; cbn [flat_map app length]; lia.
Qed.
Lemma jaro_le s1 s2 : s1 <> [] -> (length s1 = length s2 \/ ((length s1 < length s2)%nat /\ ~ In 42 s2)) ->
  exists j : Q, jaro s1 s2 = Ok j /\ (0 <= j <= 1)%Q.
Proof.
  intros N1 C. destruct (jaro_value s1 s2) as (ms & [Lm M] & V). cbv zeta in V. set (n := Nat.max (length s1) (length s2)) in *.
  destruct (length (somes ms)) as [|m'] eqn:Em; [exists 0%Q; split; [exact V|split; [apply Qle_refl|discriminate]]|].
  rewrite padded_length in Lm by (unfold n; lia).
  assert (P1 : (0 < length s1)%nat) by (destruct s1; [congruence|cbn; lia]). assert (P2 : (0 < length s2)%nat) by lia.
  replace (length s1 =? 0)%nat with false in V by (destruct (length s1); [lia|reflexivity]).
  replace (length s2 =? 0)%nat with false in V by (destruct (length s2); [lia|reflexivity]). cbn [orb] in V.
  assert (T : (late [] (somes (somes ms)) <= S m')%nat) by (rewrite <- Em; eapply Nat.le_trans; [apply late_le|apply somes_le]).
  eexists. split; [exact V|]. split; [apply score_nonneg; [exact P1|exact P2|lia|exact T]|].
  assert (B : (S m' <= length s1)%nat).
  { rewrite <- Em. destruct C as [C|[C NS]]; [eapply Nat.le_trans; [apply somes_le|]; rewrite Lm; unfold n; lia|].
    apply somes_bound. intros i Li Ni. specialize (M i). destruct (nth_error ms i) as [o|] eqn:Ei; [|congruence]. f_equal.
    assert (Bi : (i < n)%nat) by (rewrite <- Lm; apply nth_error_Some; congruence).
    assert (P : nth i (padded n s1) 0 = 42) by (apply pad_tail; lia).
    assert (E2 : padded n s2 = s2) by (replace n with (length s2) by (unfold n; lia); apply pad_same). rewrite E2 in M.
    destruct o as [[j|]|]; [| |reflexivity]; exfalso; apply NS.
    - destruct M as [_ (_ & Bj & _ & Ej & _)]. rewrite Nat2Z.id, P in Ej. rewrite <- Ej. apply nth_In. lia.
    - destruct M as [_ Ej]. rewrite Nat2Z.id, P in Ej. rewrite Ej. apply nth_In. unfold n in Bi. lia. }
  apply score_le; [exact P1|exact P2|lia|exact T|exact B|lia].
Qed.
Lemma jaro_self s : s <> [] -> exists j : Q, jaro s s = Ok j /\ (j == 1)%Q.
Proof.
  intros N. destruct (jaro_value s s) as (ms & [Lm M] & V). cbv zeta in V. rewrite Nat.max_id in *. rewrite pad_same in *.
  assert (A : ms = repeat (Some None) (length s)).
  { apply nth_ext with (d := None) (d' := None); [rewrite repeat_length; exact Lm|]. intros i Li. specialize (M i).
    rewrite (nth_error_nth' ms None Li) in M. rewrite Lm in Li.
    assert (SP : same_place s s (Z.of_nat i)) by (split; [lia|reflexivity]).
    transitivity (Some (@None Z)); [|symmetry; apply (repeat_spec (length s)), nth_In; rewrite repeat_length; exact Li].
    destruct (nth i ms None) as [[j|]|]; [tauto|reflexivity|tauto]. }
  assert (S1 : forall k, somes (repeat (Some (@None Z)) k) = repeat None k) by (unfold somes; induction k as [|k IH]; cbn [repeat flat_map app]; [reflexivity|f_equal; exact IH]).
  assert (S2 : forall k, somes (repeat (@None Z) k) = []) by (unfold somes; induction k as [|k IH]; cbn [repeat flat_map app]; [reflexivity|exact IH]).
  rewrite A, S1, S2, repeat_length in V. cbn [late] in V. destruct s as [|c s]; [congruence|]. cbn [length] in V. cbn [Nat.eqb orb] in V.
  eexists. split; [exact V|]. unfold score. rewrite Z.sub_0_r. cbn [length]. field. unfold Qeq. cbn. lia.
Qed.

(** * Winkler *)
Lemma common_prefix s t k : common (combine (firstn k s) (firstn k t)) = Z.of_nat (Nat.min k (prefix_length s t)).
Proof.
  revert s t. induction k as [|k IH]; intros s t; [reflexivity|]. destruct s as [|a s], t as [|b t]; try reflexivity.
  cbn [firstn combine common prefix_length]. destruct (a =? b); [|reflexivity]. rewrite IH. lia.
Qed.
Lemma prefix_le s t : (prefix_length s t <= length s)%nat /\ (prefix_length s t <= length t)%nat.
Proof. revert t. induction s as [|a s IH]; intros [|b t]; cbn; try lia. destruct (a =? b); [|lia]. specialize (IH t). lia. Qed.
Lemma winkler_value s1 s2 (j : Q) : jaro s1 s2 = Ok j ->
  exists v : Q, jaro_winkler s1 s2 = Ok v /\ (v == j + inject_Z (Z.of_nat (Nat.min 4 (prefix_length s1 s2))) * (1 # 10) * (1 - j))%Q.
Proof.
  intros E. unfold jaro_winkler. rewrite E. cbn [bind]. eexists. split; [reflexivity|].
  set (k := Z.min (Z.min (Z.of_nat (length s1)) (Z.of_nat (length s2))) 4).
  assert (P : forall s : str, k <= Z.of_nat (length s) -> py_slice s 0 k = firstn (Z.to_nat k) s).
  { intros s L. unfold py_slice, slice_clamp. assert (0 <= k) by lia. replace (0 <? 0) with false by lia. replace (k <? 0) with false by lia.
    rewrite !Z.min_l by lia. change (Z.to_nat 0) with 0%nat. cbn [skipn]. rewrite Z.sub_0_r. destruct (Z.ltb_spec 0 k) as [_|C]; [reflexivity|]. replace k with 0 by lia. reflexivity. }
  rewrite !P by lia. rewrite common_prefix. destruct (prefix_le s1 s2) as [A B].
  replace (Nat.min (Z.to_nat k) (prefix_length s1 s2)) with (Nat.min 4 (prefix_length s1 s2)) by lia.
  cbn [nadd nmul nofZ ndiv nsub NumQ]. change (inject_Z 1 / inject_Z 10)%Q with (1 # 10). reflexivity.
Qed.
Lemma winkler_bounds s1 s2 (j : Q) : jaro s1 s2 = Ok j -> (j <= 1)%Q -> exists v : Q, jaro_winkler s1 s2 = Ok v /\ (j <= v <= 1)%Q.
Proof.
  intros E B. destruct (winkler_value s1 s2 j E) as (v & Ev & V). exists v. split; [exact Ev|]. rewrite V.
  set (l := Nat.min 4 (prefix_length s1 s2)). assert (L : (0 <= inject_Z (Z.of_nat l) <= 4)%Q).
  { split; [rewrite <- (Zle_Qle 0); lia|rewrite <- (Zle_Qle _ 4); unfold l; lia]. }
  clearbody l. split; nra.
Qed.
