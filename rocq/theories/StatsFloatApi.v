(** Statistics of doubles: the calls. *)
From Coq Require Import ZArith Reals Lia Lra List SpecFloat.
From Flocq Require Import Core IEEE754.BinarySingleNaN.
From Verif Require Import Num FloatLib RasterAA GridFloat StatsModel StatsSpec StatsReal StatsFloatModel StatsFloatSpec StatsFloatLib StatsFloatCalls StatsFloat.
Import ListNotations.
Open Scope R_scope.

Lemma nearest_rnd v : nearest_to v (rnd v).
Proof.
  intros y w I. assert (N : Rnd_N_pt (generic_format radix2 fexp64) v (rnd v)).
  { apply round_N_pt. apply fexp_correct. reflexivity. }
  destruct N as [_ N]. apply N. eapply isf_format. exact I.
Qed.
Lemma sum_tame L : tame L -> small (total L).
Proof. intros T. apply (small_total L 100); [lia|apply T|apply T]. Qed.
Section Call.
  Variables (h : list (stcall f64)).
  Hypothesis H : Forall tame_call h.
  Let G := run_goodF h H.
  Lemma answer_num {A} (m : stats f64 -> stats f64 * res A) P E : givesF m P E -> out P E (snd (m (st_run h))).
  Proof. intros M. apply M. exact G. Qed.
  Lemma vnum_out (m : stats f64 -> stats f64 * res f64) P E c : st_call c (st_run h) = vnum (m (st_run h)) -> givesF m P E ->
    (exists x, answersF h c (Ok (VNum x)) /\ P x) \/ (exists e, answersF h c (Err e) /\ E e).
  Proof.
    intros C M. pose proof (answer_num m P E M) as O. unfold answersF. rewrite C. unfold vnum. cbn [fst snd].
    destruct (snd (m (st_run h))) as [x|e]; cbn [rmap out] in *; [left; exists x|right; exists e]; split; auto.
  Qed.
  Lemma api_sum l L : reads l L -> tame L -> answersR h (CSum (Some l)) (rnd (total L)).
  Proof.
    intros F T. destruct (vnum_out _ _ _ (CSum (Some l)) eq_refl (sum_givesF l L F (sum_tame L T))) as [(x & A & B)|(e & _ & [])].
    exists x. split; [exact A|exact B].
  Qed.
  Lemma api_len l L : reads l L -> tame L -> answersF h (CLen (Some l)) (Ok (VInt (Z.of_nat (length L)))).
  Proof.
    intros F T. pose proof (answer_num _ _ _ (len_givesF l L F T)) as O. unfold answersF. cbn [st_call fst snd].
    destruct (snd (st_len (Some l) (st_run h))) as [n|e]; cbn [out rmap] in *; [rewrite O; reflexivity|contradiction].
  Qed.
  Lemma api_max l L : reads l L -> tame L -> L = [] /\ answersF h (CMax (Some l)) (Err ValueError) \/
    exists v, answersR h (CMax (Some l)) v /\ In v L /\ forall y, In y L -> y <= v.
  Proof.
    intros F T. destruct (vnum_out _ _ _ (CMax (Some l)) eq_refl (max_givesF l L F T)) as [(x & A & v & B & C)|(e & A & -> & ->)]; [right|left; auto].
    exists v. split; [exists x; auto|exact C].
  Qed.
  Lemma api_min l L : reads l L -> tame L -> L = [] /\ answersF h (CMin (Some l)) (Err ValueError) \/
    exists v, answersR h (CMin (Some l)) v /\ In v L /\ forall y, In y L -> v <= y.
  Proof.
    intros F T. destruct (vnum_out _ _ _ (CMin (Some l)) eq_refl (min_givesF l L F T)) as [(x & A & v & B & C)|(e & A & -> & ->)]; [right|left; auto].
    exists v. split; [exists x; auto|exact C].
  Qed.
  Lemma api_avgF l L : reads l L -> tame L -> L <> [] -> answersR h (CAvg (Some l)) (avgR L).
  Proof.
    intros F T N. destruct (vnum_out _ _ _ (CAvg (Some l)) eq_refl (avg_givesF l L F T)) as [(x & A & _ & B)|(e & _ & Q & _)]; [|contradiction]. exists x. auto.
  Qed.
  Lemma api_varF l L : reads l L -> tame L -> L <> [] -> answersR h (CVar (Some l)) (varR L).
  Proof.
    intros F T N. destruct (vnum_out _ _ _ (CVar (Some l)) eq_refl (var_givesF l L F T)) as [(x & A & _ & B)|(e & _ & Q & _)]; [|contradiction]. exists x. auto.
  Qed.
  Lemma api_stdF l L : reads l L -> tame L -> L <> [] -> answersR h (CStd (Some l)) (stdR L).
  Proof.
    intros F T N. destruct (vnum_out _ _ _ (CStd (Some l)) eq_refl (std_givesF l L F T)) as [(x & A & _ & B)|(e & _ & Q & _)]; [|contradiction]. exists x. auto.
  Qed.
  Lemma api_empty : answersF h (CAvg (Some [])) (Err ZeroDivisionError) /\ answersF h (CVar (Some [])) (Err ZeroDivisionError) /\ answersF h (CStd (Some [])) (Err ZeroDivisionError).
  Proof.
    assert (F : reads [] []) by constructor. assert (T : tame []) by (split; [constructor|cbn; lia]). split; [|split].
    - destruct (vnum_out _ _ _ (CAvg (Some [])) eq_refl (avg_givesF [] [] F T)) as [(x & _ & Q & _)|(e & A & _ & ->)]; [contradiction|exact A].
    - destruct (vnum_out _ _ _ (CVar (Some [])) eq_refl (var_givesF [] [] F T)) as [(x & _ & Q & _)|(e & A & _ & ->)]; [contradiction|exact A].
    - destruct (vnum_out _ _ _ (CStd (Some [])) eq_refl (std_givesF [] [] F T)) as [(x & _ & Q & _)|(e & A & _ & ->)]; [contradiction|exact A].
  Qed.
  Lemma api_covF a b A B : reads a A -> reads b B -> tame A -> tame B -> A <> [] -> (length A <= length B)%nat ->
    answersR h (CCov (Some (a, b))) (covR A B).
  Proof.
    intros FA FB TA TB N L.
    destruct (vnum_out _ _ _ (CCov (Some (a, b))) eq_refl (cov_givesF (a, b) (A, B) (conj FA FB) (conj TA TB))) as [(x & R' & _ & _ & V)|(e & _ & Q)]; [exists x; auto|].
    exfalso. unfold E_cov in Q. cbn [fst snd] in Q. destruct Q as [[[Q|Q] _]|(_ & Q & _)]; [contradiction| |lia]. subst B. destruct A; [contradiction|cbn in L; lia].
  Qed.
  Lemma api_failF a b A B : reads a A -> reads b B -> tame A -> tame B ->
    (A = [] \/ B = [] -> answersF h (CCov (Some (a, b))) (Err ZeroDivisionError) /\ answersF h (CCorr (Some (a, b))) (Err ZeroDivisionError)) /\
    (B <> [] -> (length B < length A)%nat -> answersF h (CCov (Some (a, b))) (Err IndexError) /\ answersF h (CCorr (Some (a, b))) (Err IndexError)).
  Proof.
    intros FA FB TA TB.
    pose proof (vnum_out _ _ _ (CCov (Some (a, b))) eq_refl (cov_givesF (a, b) (A, B) (conj FA FB) (conj TA TB))) as HC.
    pose proof (vnum_out _ _ _ (CCorr (Some (a, b))) eq_refl (corr_givesF (a, b) (A, B) (conj FA FB) (conj TA TB))) as HR.
    unfold P_cov, P_corr, E_corr, E_cov in HC, HR. cbn [fst snd] in HC, HR.
    assert (LN : (length A <= length B)%nat -> A <> [] -> B <> []) by (intros L N ->; destruct A; [contradiction|cbn in L; lia]).
    assert (L0 : A = [] -> (length B < length A)%nat -> False) by (intros ->; cbn; lia).
    split.
    - intros Q. split.
      + destruct HC as [(x & _ & N & L & _)|(e & AN & [[_ ->]|(NB & L & _)])]; [exfalso; destruct Q; auto; apply (LN L N); assumption|exact AN|exfalso; destruct Q; auto].
      + destruct HR as [(x & _ & N & L & _)|(e & AN & [[[_ ->]|(NB & L & _)]|(_ & _ & _ & ->)])];
          [exfalso; destruct Q; auto; apply (LN L N); assumption|exact AN|exfalso; destruct Q; auto|exact AN].
    - intros NB LT. assert (NA : A <> []) by (intros ->; cbn in LT; lia). split.
      + destruct HC as [(x & _ & N & L & _)|(e & AN & [[[?|?] ->]|(_ & L & ->)])]; [lia|contradiction|contradiction|exact AN].
      + destruct HR as [(x & _ & N & L & _)|(e & AN & [[[[?|?] ->]|(_ & L & ->)]|(L & _)])]; [lia|contradiction|contradiction|exact AN|lia].
  Qed.
  Lemma api_corrF a b A B : reads a A -> reads b B -> tame A -> tame B -> A <> [] -> (length A <= length B)%nat ->
    bpow radix2 (-500) <= varR A -> bpow radix2 (-500) <= varR B -> answersR h (CCorr (Some (a, b))) (corrR A B).
  Proof.
    intros FA FB TA TB N L VA VB. assert (NB : B <> []) by (intros ->; destruct A; [contradiction|cbn in L; lia]).
    destruct (vnum_out _ _ _ (CCorr (Some (a, b))) eq_refl (corr_givesF (a, b) (A, B) (conj FA FB) (conj TA TB))) as [(x & R' & _ & _ & _ & V)|(e & _ & Q)].
    - exists x. split; [exact R'|]. apply V; assumption.
    - exfalso. unfold E_corr, E_cov in Q. cbn [fst snd] in Q. destruct Q as [[[[Q|Q] _]|(_ & Q & _)]|(_ & _ & Q & _)]; [contradiction|contradiction|lia|].
      pose proof (prod_low A B N NB VA VB). pose proof (bpow_gt_0 radix2 (-500)). lra.
  Qed.
End Call.
Lemma answersR_fun h c v w : answersR h c v -> answersR h c w -> v = w.
Proof.
  intros (x & A & I) (y & B & J). unfold answersF in *. rewrite A in B. injection B as <-. eapply isf_fun; eassumption.
Qed.
Lemma reads_fun l L L' : reads l L -> reads l L' -> L = L'.
Proof.
  intros F. revert L'. induction F as [|x X l L I _ IH]; intros L' F'; inversion F'; subst; [reflexivity|]. f_equal; [eapply isf_fun; eassumption|auto].
Qed.
Lemma none_num h c v : (forall x, snd (st_call c (st_run h)) <> Ok (VNum x)) -> answersR h c v -> False.
Proof. intros N (x & A & _). exact (N x A). Qed.
Lemma same_answers h h' c v w : Forall tame_call h -> Forall tame_call h' -> tame_call c ->
  match c with CCorr _ | CKak _ | CDea _ => False | _ => True end -> answersR h c v -> answersR h' c w -> v = w.
Proof.
  intros H H' T K A B.
  destruct c as [[l|]|[l|]|[l|]|[l|]|[l|]|[l|]|[l|]|[[a b]|]|o|o|o|]; try contradiction;
    try (exfalso; revert A; apply none_num; intros x; discriminate); cbn [tame_call] in T.
  - destruct T as (L & F & T). destruct (api_max h H l L F T) as [[_ Q]|(m & A1 & I1 & B1)]; [destruct A as (x & A & _); unfold answersF in *; congruence|].
    destruct (api_max h' H' l L F T) as [[_ Q]|(m' & A2 & I2 & B2)]; [destruct B as (x & B & _); unfold answersF in *; congruence|].
    rewrite (answersR_fun _ _ _ _ A A1), (answersR_fun _ _ _ _ B A2). apply Rle_antisym; auto.
  - destruct T as (L & F & T). destruct (api_min h H l L F T) as [[_ Q]|(m & A1 & I1 & B1)]; [destruct A as (x & A & _); unfold answersF in *; congruence|].
    destruct (api_min h' H' l L F T) as [[_ Q]|(m' & A2 & I2 & B2)]; [destruct B as (x & B & _); unfold answersF in *; congruence|].
    rewrite (answersR_fun _ _ _ _ A A1), (answersR_fun _ _ _ _ B A2). apply Rle_antisym; auto.
  - destruct T as (L & F & T). rewrite (answersR_fun _ _ _ _ A (api_sum h H l L F T)). rewrite (answersR_fun _ _ _ _ B (api_sum h' H' l L F T)). reflexivity.
  - destruct T as (L & F & T). exfalso. pose proof (api_len h H l L F T) as Q. destruct A as (x & A & _). unfold answersF in *. congruence.
  - destruct T as (L & F & T). assert (D : L = [] \/ L <> []) by (destruct L; [left; reflexivity|right; discriminate]). destruct D as [->|N].
    + exfalso. inversion F; subst. pose proof (api_empty h H) as (Q & _). destruct A as (x & A & _). unfold answersF in *. congruence.
    + rewrite (answersR_fun _ _ _ _ A (api_avgF h H l L F T N)). rewrite (answersR_fun _ _ _ _ B (api_avgF h' H' l L F T N)). reflexivity.
  - destruct T as (L & F & T). assert (D : L = [] \/ L <> []) by (destruct L; [left; reflexivity|right; discriminate]). destruct D as [->|N].
    + exfalso. inversion F; subst. pose proof (api_empty h H) as (_ & Q & _). destruct A as (x & A & _). unfold answersF in *. congruence.
    + rewrite (answersR_fun _ _ _ _ A (api_varF h H l L F T N)). rewrite (answersR_fun _ _ _ _ B (api_varF h' H' l L F T N)). reflexivity.
  - destruct T as (L & F & T). assert (D : L = [] \/ L <> []) by (destruct L; [left; reflexivity|right; discriminate]). destruct D as [->|N].
    + exfalso. inversion F; subst. pose proof (api_empty h H) as (_ & _ & Q). destruct A as (x & A & _). unfold answersF in *. congruence.
    + rewrite (answersR_fun _ _ _ _ A (api_stdF h H l L F T N)). rewrite (answersR_fun _ _ _ _ B (api_stdF h' H' l L F T N)). reflexivity.
  - destruct T as [(L & F & T) (M & F2 & T2)]. pose proof (api_failF h H a b L M F F2 T T2) as [Q1 Q2].
    assert (D : L = [] \/ L <> []) by (destruct L; [left; reflexivity|right; discriminate]).
    assert (D2 : M = [] \/ M <> []) by (destruct M; [left; reflexivity|right; discriminate]).
    destruct D as [E|N]; [exfalso; destruct (Q1 (or_introl E)) as [Q _]; destruct A as (x & A & _); unfold answersF in *; congruence|].
    destruct D2 as [E|N2]; [exfalso; destruct (Q1 (or_intror E)) as [Q _]; destruct A as (x & A & _); unfold answersF in *; congruence|].
    destruct (le_lt_dec (length L) (length M)) as [Le|Lt]; [|exfalso; destruct (Q2 N2 Lt) as [Q _]; destruct A as (x & A & _); unfold answersF in *; congruence].
    rewrite (answersR_fun _ _ _ _ A (api_covF h H a b L M F F2 T T2 N Le)). rewrite (answersR_fun _ _ _ _ B (api_covF h' H' a b L M F F2 T T2 N Le)). reflexivity.
Qed.
Lemma tame_ints zs : Forall (fun z => (Z.abs z <= 2 ^ 53)%Z) zs -> (Z.of_nat (length zs) <= 2 ^ 20)%Z -> tame_arg (map nofZ zs).
Proof.
  intros F N. exists (map IZR zs). split; [|split; [|rewrite map_length; exact N]].
  - clear N. induction F; cbn [map]; constructor; [apply isf_int; assumption|assumption].
  - clear N. induction F as [|z zs B _ IH]; cbn [map]; constructor; [|exact IH]. rewrite <- abs_IZR. apply Rle_trans with (bpow radix2 53); [|apply bpow_le; lia].
    change (bpow radix2 53) with (IZR (2 ^ 53)). apply IZR_le. exact B.
Qed.
Lemma stats_cases : tame_arg (tenths 3) /\ tame_arg [nofZ 1; nofZ 2; nofZ 6].
Proof.
  split.
  - exists (repeat (SF2R radix2 (S754_finite false 7205759403792794 (-56))) 3). assert (I : isf (S754_finite false 7205759403792794 (-56)) (SF2R radix2 (S754_finite false 7205759403792794 (-56)))) by (apply isf_valid; reflexivity).
    assert (B : Rabs (SF2R radix2 (S754_finite false 7205759403792794 (-56))) <= bpow radix2 100).
    { apply Rle_trans with (bpow radix2 0); [|apply bpow_le; lia]. unfold SF2R. rewrite F2R_div by lia. rewrite Rabs_pos_eq; cbn -[IZR]; lra. }
    split; [constructor; [exact I|]; constructor; [exact I|]; constructor; [exact I|]; constructor|]. split; [constructor; [exact B|]; constructor; [exact B|]; constructor; [exact B|]; constructor|cbn; lia].
  - apply (tame_ints [1; 2; 6]%Z); [repeat constructor; cbn; lia|cbn; lia].
Qed.
Lemma zero_sign : exists h c, Forall tame_call h /\ tame_call c /\ snd (st_call c (st_run h)) <> snd (st_call c stats0).
Proof.
  assert (Z0 : isf (S754_zero false) 0) by (apply (isf_int 0); cbn; lia).
  assert (Z1 : isf (S754_zero true) 0) by (apply (isf_valid (S754_zero true)); reflexivity).
  assert (B : tame [0]) by (split; [constructor; [rewrite Rabs_R0; apply bpow_ge_0|constructor]|cbn; lia]).
  exists [CMax (Some [S754_zero false])], (CMax (Some [S754_zero true])). split; [|split].
  - constructor; [|constructor]. exists [0]. split; [constructor; [exact Z0|constructor]|exact B].
  - exists [0]. split; [constructor; [exact Z1|constructor]|exact B].
  - vm_compute. discriminate.
Qed.
Lemma stats_corr : exists v r, answersR [CVar (Some [nofZ 1; nofZ 2; nofZ 6])] (CVar (Some [nofZ 1; nofZ 2; nofZ 6])) v /\ bpow radix2 (-500) <= v /\
  answersF [CVar (Some [nofZ 1; nofZ 2; nofZ 6])] (CCorr (Some ([nofZ 1; nofZ 2; nofZ 6], [nofZ 1; nofZ 2; nofZ 6]))) (Ok (VNum r)).
Proof.
  pose (x := match snd (st_call (CVar (Some [nofZ 1; nofZ 2; nofZ 6])) (st_run [CVar (Some [nofZ 1; nofZ 2; nofZ 6])])) with Ok (VNum x) => x | _ => nofZ 0 end : f64).
  exists (SF2R radix2 x). eexists. split; [exists x; split; [vm_compute; reflexivity|apply isf_valid; vm_compute; reflexivity]|]. split; [|unfold answersF; vm_compute; reflexivity].
  let y := eval vm_compute in x in change x with y. apply Rle_trans with (bpow radix2 0); [apply bpow_le; lia|]. unfold SF2R. rewrite F2R_div by lia. cbn -[IZR]. lra.
Qed.
Definition num_of (r : res (stvalue f64)) : f64 := match r with Ok (VNum x) => x | _ => S754_nan end.
Lemma constant_case : exists m v r, answersF [] (CAvg (Some (tenths 3))) (Ok (VNum m)) /\ SFltb (hd m (tenths 3)) m = true /\
  answersF [] (CVar (Some (tenths 3))) (Ok (VNum v)) /\ SFltb (nofZ 0) v = true /\ answersF [] (CCorr (Some (tenths 3, tenths 3))) (Ok (VNum r)).
Proof.
  exists (num_of (snd (st_call (CAvg (Some (tenths 3))) stats0))), (num_of (snd (st_call (CVar (Some (tenths 3))) stats0))),
    (num_of (snd (st_call (CCorr (Some (tenths 3, tenths 3))) stats0))). unfold answersF.
  split; [vm_compute; reflexivity|]. split; [vm_compute; reflexivity|]. split; [vm_compute; reflexivity|]. split; vm_compute; reflexivity.
Qed.
