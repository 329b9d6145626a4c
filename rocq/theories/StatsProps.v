(** Statistics: theorems. *)
From Coq Require Import Reals Lra Permutation.
From Verif Require Import Num RealNum StatsModel StatsSpec StatsCache StatsCalls StatsReal.
Open Scope Z_scope.

(** C49 *)
(** One function under functools.lru_cache: it keeps exactly the results of
    the [max] most recently used arguments. *)
Theorem C49_lru : forall (K V : Type) (keq : K -> K -> bool) (max : nat) (f : K -> res V) (h : list (option K)),
  (forall a b, reflect (a = b) (keq a b)) -> (0 < max)%nat ->
  let c := lru_run keq max f h in
  map fst (l_entries c) = firstn max (distinct keq (returned f h)) /\
  (length (l_entries c) <= max)%nat /\ l_hits c + l_misses c = hashable h /\
  (forall k, snd (lru_step keq max f (Some k) c) = f k) /\ snd (lru_step keq max f None c) = Err TypeError /\
  (forall k, l_misses (fst (lru_step keq max f (Some k) c)) = l_misses c <-> In k (firstn max (distinct keq (returned f h)))).
Proof. exact @api_lru. Qed.
(** The whole module, whatever was called before. *)
Theorem C49_transparent : forall h c, exists r, answers h c r /\ expected c r.
Proof. exact api_expected. Qed.
Theorem C49_bounded : forall h, let st := st_run h in
  (length (l_entries (s_max st)) <= 128 /\ length (l_entries (s_min st)) <= 128 /\ length (l_entries (s_sum st)) <= 128 /\
   length (l_entries (s_len st)) <= 128 /\ length (l_entries (s_avg st)) <= 128 /\ length (l_entries (s_var st)) <= 64 /\
   length (l_entries (s_std st)) <= 64 /\ length (l_entries (s_cov st)) <= 32 /\ length (l_entries (s_corr st)) <= 16 /\
   length (l_entries (s_kak st)) <= 16 /\ length (l_entries (s_dea st)) <= 16)%nat.
Proof. exact run_sizes. Qed.
(** Counters of the functions no other function calls; max and min are never reset. *)
Theorem C49_counters : forall h, let st := st_run h in
  l_hits (s_corr st) + l_misses (s_corr st) = calls_since to_corr h 0 /\
  l_hits (s_kak st) + l_misses (s_kak st) = calls_since to_kak h 0 /\
  l_hits (s_dea st) + l_misses (s_dea st) = calls_since to_dea h 0 /\
  l_hits (s_max st) + l_misses (s_max st) = calls_ever to_max h /\
  l_hits (s_min st) + l_misses (s_min st) = calls_ever to_min h.
Proof. exact (fun h => conj (tally_corr h) (conj (tally_kak h) (conj (tally_dea h) (conj (tally_max h) (tally_min h))))). Qed.
Theorem C49_clear : forall h, let st := st_run h in let st' := fst (st_call CClear st) in
  s_max st' = s_max st /\ s_min st' = s_min st /\ st_info st' = (0, 0, 592, 0).
Proof. exact clear_effect. Qed.
Theorem C49_info_ignores : forall a st,
  st_info (fst (st_call (CMax a) st)) = st_info (T := R) st /\ st_info (fst (st_call (CMin a) st)) = st_info (T := R) st.
Proof. exact (fun a st => conj (info_max a st) (info_min a st)). Qed.
(** [Z.eqb_spec] is the first hypothesis. *)
Example C49_case :
  let f := fun k => if k =? 0 then Err ValueError else Ok (k * k) in
  let c := lru_run Z.eqb 2 f [Some 1; Some 2; Some 1; Some 3; Some 0; None] in
  l_entries c = [(3, 9); (1, 1)] /\ l_hits c = 1 /\ l_misses c = 4 /\ returned f [Some 1; Some 2; Some 1; Some 3; Some 0; None] = [3; 1; 2; 1].
Proof. vm_compute. auto. Qed.
Example C49_case_used := C49_lru Z Z Z.eqb 2 (fun k => Ok (k * k)) [Some 1; None] Z.eqb_spec (le_S 1 1 (le_n 1)).

Open Scope R_scope.
(** C50 *)
Theorem C50_var : forall h l v, answers h (CVar (Some l)) (Ok (VNum v)) ->
  0 <= v /\ (exists m, answers h (CAvg (Some l)) (Ok (VNum m)) /\
    answers h (CAvg (Some (map (fun x => x ^ 2) l))) (Ok (VNum (v + m ^ 2))) /\ (v = 0 <-> forall x, In x l -> x = m)) /\
  answers h (CStd (Some l)) (Ok (VNum (sqrt v))) /\ answers h (CCov (Some (l, l))) (Ok (VNum v)).
Proof. exact api_var. Qed.
Theorem C50_covar : forall h a b c, length a = length b -> answers h (CCov (Some (a, b))) (Ok (VNum c)) ->
  answers h (CCov (Some (b, a))) (Ok (VNum c)) /\
  exists v w, answers h (CVar (Some a)) (Ok (VNum v)) /\ answers h (CVar (Some b)) (Ok (VNum w)) /\ c ^ 2 <= v * w.
Proof. exact api_cov. Qed.
Theorem C50_corr : forall h a b c, length a = length b -> answers h (CCorr (Some (a, b))) (Ok (VNum c)) ->
  -1 <= c <= 1 /\ answers h (CCorr (Some (b, a))) (Ok (VNum c)) /\
  (c = 1 <-> exists k q, 0 < k /\ forall p, In p (combine a b) -> snd p = k * fst p + q).
Proof. exact api_corr. Qed.
Theorem C50_failures : forall h a b, b <> [] ->
  answers h (CAvg (Some [])) (Err ZeroDivisionError) /\ answers h (CVar (Some [])) (Err ZeroDivisionError) /\
  answers h (CStd (Some [])) (Err ZeroDivisionError) /\ answers h (CCov (Some ([], b))) (Err ZeroDivisionError) /\
  answers h (CCorr (Some ([], b))) (Err ZeroDivisionError) /\
  ((length b < length a)%nat -> answers h (CCov (Some (a, b))) (Err IndexError) /\ answers h (CCorr (Some (a, b))) (Err IndexError)).
Proof. exact api_failures. Qed.
(** With a longer second argument the value is no correlation. *)
Theorem C50_longer_second_refuted : exists a b c, answers [] (CCorr (Some (a, b))) (Ok (VNum c)) /\ (length a < length b)%nat /\ 1 < c.
Proof. exact corr_longer. Qed.
Example C50_case : answers [CLen (Some [1; 2; 6]); CClear] (CVar (Some [1; 2; 6])) (Ok (VNum (14 / 3))) /\
  answers [] (CCov (Some ([1; 2; 6], [0; 1; 2]))) (Ok (VNum (5 / 3))) /\
  exists c, answers [] (CCorr (Some ([1; 2; 6], [0; 1; 2]))) (Ok (VNum c)).
Proof. exact stats_case. Qed.

(** C51 *)
Theorem C51_agree : forall h l r, answers h (CKak (Some l)) r <-> answers h (CDea (Some l)) r.
Proof. exact api_gini. Qed.
Theorem C51_invariant : forall h l g, answers h (CKak (Some l)) (Ok (VNum g)) ->
  (forall m, Permutation l m -> answers h (CKak (Some m)) (Ok (VNum g))) /\
  (forall k, 0 < k -> answers h (CKak (Some (map (Rmult k) l))) (Ok (VNum g))).
Proof. exact api_gini_laws. Qed.
Theorem C51_range : forall h l g, Forall (fun x => 0 <= x) l -> answers h (CKak (Some l)) (Ok (VNum g)) ->
  0 <= g <= 1 /\ (g = 0 <-> forall x y, In x l -> In y l -> x = y) /\ (g = 1 <-> forall p, In p (pairs l) -> fst p = 0 \/ snd p = 0).
Proof. exact api_gini_range. Qed.
Theorem C51_failures : forall h l, answers h (CKak (Some l)) (Err ZeroDivisionError) <-> (length l < 2)%nat \/ total l = 0.
Proof. exact api_gini_fails. Qed.
(** With negative members the value can leave [0, 1]. *)
Theorem C51_negative_refuted : exists l g, answers [] (CKak (Some l)) (Ok (VNum g)) /\ 1 < g.
Proof. exact gini_negative. Qed.
Example C51_case : answers [] (CKak (Some [1; 0; 3])) (Ok (VNum (3 / 4))) /\ Forall (fun x => 0 <= x) [1; 0; 3].
Proof. exact gini_case. Qed.

Print Assumptions C49_lru.
Print Assumptions C49_transparent.
Print Assumptions C49_bounded.
Print Assumptions C49_counters.
Print Assumptions C49_clear.
Print Assumptions C49_info_ignores.
Print Assumptions C50_var.
Print Assumptions C50_covar.
Print Assumptions C50_corr.
Print Assumptions C50_failures.
Print Assumptions C50_longer_second_refuted.
Print Assumptions C51_agree.
Print Assumptions C51_invariant.
Print Assumptions C51_range.
Print Assumptions C51_failures.
Print Assumptions C51_negative_refuted.
