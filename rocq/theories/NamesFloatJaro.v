(** The Jaro similarities with doubles. *)
From Coq Require Import ZArith QArith Reals Qreals Lia Lra Psatz List ZifyBool SpecFloat.
From Flocq Require Import Core IEEE754.BinarySingleNaN.
From Verif Require Import Py Num FloatLib RasterAA GridFloat NearestFloat NamesModel NamesSpec NamesProofs NamesMatch NamesJaro NamesFloatSpec NamesFloat ScanFloat.
Import ListNotations.
Open Scope Z_scope.

Definition mean {T} `{PyNum T} (m t l1 l2 : Z) : res T :=
  if m =? 0 then Ok (nofZ 0)
  else a <- ndivE (nofZ m) (nofZ l1) ;; b <- ndivE (nofZ m) (nofZ l2) ;; c <- ndivE (nofZ (m - t)) (nofZ m) ;; ndivE (nadd (nadd a b) c) (nofZ 3).
Lemma jaro_shape s1 s2 : exists m t, 0 <= t <= m /\ m <= Z.max (Z.of_nat (length s1)) (Z.of_nat (length s2)) /\
  ((length s1 = length s2 \/ ((length s1 < length s2)%nat /\ ~ In 42 s2)) -> m <= Z.of_nat (length s1)) /\
  forall T (N : PyNum T), jaro (T := T) s1 s2 = mean m t (Z.of_nat (length s1)) (Z.of_nat (length s2)).
Proof.
  set (n := Nat.max (length s1) (length s2)). set (w := Z.of_nat n / 2 - 1).
  assert (L1 : length (padded n s1) = n) by (apply padded_length; unfold n; lia).
  assert (L2 : length (padded n s2) = n) by (apply padded_length; unfold n; lia).
  destruct (jaro_loop (padded n s1) (padded n s2) w n) as (ms & Lm & E & M); [lia|lia|].
  set (m := length (somes ms)). set (t := late [] (somes (somes ms))). exists (Z.of_nat m), (Z.of_nat t).
  assert (T : (t <= m)%nat) by (unfold t, m; eapply Nat.le_trans; [apply late_le|apply somes_le]).
  assert (Mn : (m <= n)%nat) by (rewrite <- Lm; apply somes_le).
  split; [lia|]. split; [unfold n in Mn; lia|]. split.
  { intros C. apply Nat2Z.inj_le. destruct C as [C|[C NS]]; [unfold n in Mn; lia|].
    unfold m. apply somes_bound. intros i Li Ni. specialize (M i). destruct (nth_error ms i) as [o|] eqn:Ei; [|congruence]. specialize (M o eq_refl). f_equal.
    assert (Bi : (i < n)%nat) by (rewrite <- Lm; apply nth_error_Some; congruence).
    assert (P : nth i (padded n s1) 0 = 42) by (apply pad_tail; lia).
    assert (E2 : padded n s2 = s2) by (replace n with (length s2) by (unfold n; lia); apply pad_same). rewrite E2 in M. unfold entry in M.
    destruct o as [[j|]|]; [| |reflexivity]; exfalso; apply NS.
    - destruct M as [_ (_ & Bj & _ & Ej & _)]. rewrite Nat2Z.id, P in Ej. rewrite <- Ej. apply nth_In. lia.
    - destruct M as [_ Ej]. rewrite Nat2Z.id, P in Ej. rewrite Ej. apply nth_In. unfold n in Bi. lia. }
  intros T0 N0. unfold jaro.
  assert (Sh : (if Z.of_nat (length s1) <? Z.of_nat (length s2) then (s1 ++ repeat 42 (Z.to_nat (Z.of_nat (length s2) - Z.of_nat (length s1))), s2, Z.of_nat (length s2))
      else if Z.of_nat (length s2) <? Z.of_nat (length s1) then (s1, s2 ++ repeat 42 (Z.to_nat (Z.of_nat (length s1) - Z.of_nat (length s2))), Z.of_nat (length s1))
      else (s1, s2, Z.of_nat (length s1))) = (padded n s1, padded n s2, Z.of_nat n)).
  { unfold padded, n. destruct (Z.ltb_spec (Z.of_nat (length s1)) (Z.of_nat (length s2))) as [C|C].
    - f_equal; [f_equal|lia].
      + do 2 f_equal. lia.
      + replace (Nat.max (length s1) (length s2) - length s2)%nat with 0%nat by lia. symmetry. apply app_nil_r.
    - destruct (Z.ltb_spec (Z.of_nat (length s2)) (Z.of_nat (length s1))) as [C'|C'].
      + f_equal; [f_equal|lia].
        * replace (Nat.max (length s1) (length s2) - length s1)%nat with 0%nat by lia. symmetry. apply app_nil_r.
        * do 2 f_equal. lia.
      + f_equal; [f_equal|lia].
        * replace (Nat.max (length s1) (length s2) - length s1)%nat with 0%nat by lia. symmetry. apply app_nil_r.
        * replace (Nat.max (length s1) (length s2) - length s2)%nat with 0%nat by lia. symmetry. apply app_nil_r. }
  rewrite Sh, Nat2Z.id. rewrite L1 in E. fold w. rewrite E. unfold tally. cbn [bind]. fold m. unfold mean.
  destruct (Z.of_nat m =? 0); [reflexivity|].
  assert (Et : fst (fold_left swaps_step (somes (somes ms)) (0, 0)) = Z.of_nat t).
  { rewrite (swaps_late _ []); [unfold t; lia|lia| |intros f Pf; cbn [existsb]; lia].
    apply Forall_forall. intros f I. apply (proj1 (somes_in (somes ms) f)), (proj1 (somes_in ms (Some f))), In_nth_error in I. destruct I as (i & I). apply M in I. cbn in I. destruct I as [_ (_ & B & _)]. lia. }
  destruct (fold_left swaps_step (somes (somes ms)) (0, 0)) as [t' x'] eqn:Ef. cbn [fst] in Et. subst t'. reflexivity.
Qed.
Open Scope R_scope.
Lemma rel0 r : r = 0 \/ bpow radix2 (-100) <= r -> Rabs (rnd r - r) <= r * / 4503599627370496.
Proof.
  intros [-> | H]; [|apply rel_near, H]. replace (rnd 0) with 0 by (symmetry; apply (rnd_IZR 0); lia). rewrite Rminus_diag_eq, Rabs_R0 by reflexivity. lra.
Qed.
Lemma rnd_int z : (Z.abs z <= 2 ^ 53)%Z -> rnd (IZR z) = IZR z.
Proof. apply rnd_IZR. Qed.
Section Mean.
  Variables (m t l1 l2 : Z).
  Hypotheses (Ht : (0 <= t <= m)%Z) (Hm : (1 <= m <= 2 ^ 24)%Z) (H1 : (1 <= l1 <= 2 ^ 24)%Z) (H2 : (1 <= l2 <= 2 ^ 24)%Z).
  Let a := IZR m / IZR l1. Let b := IZR m / IZR l2. Let c := IZR (m - t) / IZR m.
  Lemma frac_lo x y : (1 <= x)%Z -> (1 <= y <= 2 ^ 24)%Z -> / 16777216 <= IZR x / IZR y <= IZR x.
  Proof.
    intros X Y. assert (1 <= IZR x) by (apply (IZR_le 1); lia). assert (1 <= IZR y <= 16777216) by (split; [apply (IZR_le 1)|apply (IZR_le _ 16777216)]; lia).
    split; (apply Rmult_le_reg_r with (IZR y); [lra|]); replace (IZR x / IZR y * IZR y) with (IZR x) by (field; lra); nra.
  Qed.
  Lemma mean_ok : exists f x, mean (T := f64) m t l1 l2 = Ok f /\ isf f x /\ Rabs (x - (a + b + c) / 3) <= (a + b + c) / 3 * / 562949953421312 /\
    0 <= x /\ ((m <= l1)%Z -> (m <= l2)%Z -> x <= 1) /\ (m = l1 -> m = l2 -> t = 0%Z -> x = 1).
  Proof.
    pose proof (frac_lo m l1 ltac:(lia) H1) as A. pose proof (frac_lo m l2 ltac:(lia) H2) as B. fold a in A. fold b in B.
    assert (Bm : 1 <= IZR m <= 16777216) by (split; [apply (IZR_le 1)|apply (IZR_le _ 16777216)]; lia).
    assert (C : (c = 0 \/ / 16777216 <= c) /\ 0 <= c <= 1).
    { unfold c. assert (0 <= IZR (m - t) <= IZR m) by (split; [apply (IZR_le 0)|apply IZR_le]; lia). split.
      - destruct (Z.eq_dec (m - t) 0) as [->|N]; [left; unfold Rdiv; ring|right; apply frac_lo; lia].
      - split; (apply Rmult_le_reg_r with (IZR m); [lra|]); replace (IZR (m - t) / IZR m * IZR m) with (IZR (m - t)) by (field; lra); lra. }
    destruct C as [C0 C1].
    assert (T100 : bpow radix2 (-100) <= / 67108864) by (change (/ 67108864) with (bpow radix2 (-26)); apply bpow_le; lia).
    pose proof (rel0 a ltac:(right; lra)) as EA. pose proof (rel0 b ltac:(right; lra)) as EB. pose proof (rel0 c ltac:(destruct C0; [left|right]; lra)) as EC.
    apply Rabs_le_inv in EA, EB, EC.
    pose proof (rel0 (rnd a + rnd b) ltac:(right; lra)) as ES. apply Rabs_le_inv in ES.
    pose proof (rel0 (rnd (rnd a + rnd b) + rnd c) ltac:(right; lra)) as ET. apply Rabs_le_inv in ET.
    set (s := rnd (rnd a + rnd b)) in *. set (v := rnd (s + rnd c)) in *.
    pose proof (rel0 (v / 3) ltac:(right; lra)) as EV. apply Rabs_le_inv in EV.
    assert (Im : isf (fofZ m) (IZR m)) by (apply isf_int; lia). assert (I1 : isf (fofZ l1) (IZR l1)) by (apply isf_int; lia). assert (I2 : isf (fofZ l2) (IZR l2)) by (apply isf_int; lia).
    assert (It : isf (fofZ (m - t)) (IZR (m - t))) by (apply isf_int; lia). assert (I3 : isf (fofZ 3) 3) by (apply (isf_int 3); lia).
    assert (P1 : 1 <= IZR l1) by (apply (IZR_le 1); lia). assert (P2 : 1 <= IZR l2) by (apply (IZR_le 1); lia).
    assert (IA : isf (fdiv (fofZ m) (fofZ l1)) (rnd a)) by (apply isf_fdiv; [exact Im|exact I1|lra|apply small100; fold a; rewrite Rabs_pos_eq; lra]).
    assert (IB : isf (fdiv (fofZ m) (fofZ l2)) (rnd b)) by (apply isf_fdiv; [exact Im|exact I2|lra|apply small100; fold b; rewrite Rabs_pos_eq; lra]).
    assert (IC : isf (fdiv (fofZ (m - t)) (fofZ m)) (rnd c)) by (apply isf_fdiv; [exact It|exact Im|lra|apply small100; fold c; rewrite Rabs_pos_eq; lra]).
    assert (IS : isf (fadd (fdiv (fofZ m) (fofZ l1)) (fdiv (fofZ m) (fofZ l2))) s) by (apply isf_fadd; [exact IA|exact IB|apply small100; rewrite Rabs_pos_eq; lra]).
    assert (IV : isf (fadd (fadd (fdiv (fofZ m) (fofZ l1)) (fdiv (fofZ m) (fofZ l2))) (fdiv (fofZ (m - t)) (fofZ m))) v)
      by (apply isf_fadd; [exact IS|exact IC|apply small100; rewrite Rabs_pos_eq; lra]).
    eexists _, (rnd (v / 3)). split; [|split; [|split; [|split; [|split]]]].
    - unfold mean. replace (m =? 0)%Z with false by lia. cbn [nofZ NumF].
      rewrite (ndivE_F _ _ _ I1) by lra. cbn [bind]. rewrite (ndivE_F _ _ _ I2) by lra. cbn [bind]. rewrite (ndivE_F _ _ _ Im) by lra. cbn [bind nadd NumF].
      apply (ndivE_F _ _ _ I3). lra.
    - apply isf_fdiv; [exact IV|exact I3|lra|apply small100; rewrite Rabs_pos_eq; lra].
    - apply Rabs_le. lra.
    - lra.
    - intros M1 M2. apply IZR_le in M1, M2.
      assert (A1 : a <= 1) by (apply Rmult_le_reg_r with (IZR l1); [lra|]; unfold a; replace (IZR m / IZR l1 * IZR l1) with (IZR m) by (field; lra); lra).
      assert (B1 : b <= 1) by (apply Rmult_le_reg_r with (IZR l2); [lra|]; unfold b; replace (IZR m / IZR l2 * IZR l2) with (IZR m) by (field; lra); lra).
      apply rnd_le in A1. apply rnd_le in B1. destruct C1 as [_ C1]. apply rnd_le in C1. rewrite (rnd_int 1) in A1, B1, C1 by lia.
      assert (S1 : s <= 2) by (rewrite <- (rnd_int 2) by lia; apply rnd_le; lra). assert (V1 : v <= 3) by (rewrite <- (rnd_int 3) by lia; apply rnd_le; lra).
      rewrite <- (rnd_int 1) by lia. apply rnd_le. lra.
    - intros E1 E2 E3. assert (A1 : a = 1) by (unfold a; rewrite <- E1; field; lra). assert (B1 : b = 1) by (unfold b; rewrite <- E2; field; lra).
      assert (C2 : c = 1) by (unfold c; rewrite E3, Z.sub_0_r; field; lra). unfold v, s. rewrite A1, B1, C2, (rnd_int 1) by lia.
      replace (1 + 1) with 2 by ring. rewrite (rnd_int 2) by lia. replace (2 + 1) with 3 by ring. rewrite (rnd_int 3) by lia. replace (3 / 3) with 1 by field. apply (rnd_int 1). lia.
  Qed.
  Lemma mean_exact : exists q, mean (T := Q) m t l1 l2 = Ok q /\ Q2R q = (a + b + c) / 3.
  Proof.
    assert (Z0 : forall z, (1 <= z)%Z -> ~ (inject_Z z == 0)%Q) by (intros z Hz C; unfold Qeq in C; cbn in C; lia).
    eexists. split.
    - unfold mean. replace (m =? 0)%Z with false by lia. cbn [nofZ NumQ]. rewrite (ndivE_Q _ (inject_Z l1)) by (apply Z0; lia). cbn [bind].
      rewrite (ndivE_Q _ (inject_Z l2)) by (apply Z0; lia). cbn [bind]. rewrite (ndivE_Q _ (inject_Z m)) by (apply Z0; lia). cbn [bind nadd NumQ].
      apply ndivE_Q. apply Z0. lia.
    - rewrite Q2R_div by (apply Z0; lia). rewrite !Q2R_plus, !div_R, inj_R by lia. reflexivity.
  Qed.
End Mean.
Lemma mean_zero m t l1 l2 : (m <> 0)%Z -> (l1 = 0 \/ l2 = 0)%Z -> (0 <= l1 <= 2 ^ 24)%Z -> mean (T := f64) m t l1 l2 = Err ZeroDivisionError /\ mean (T := Q) m t l1 l2 = Err ZeroDivisionError.
Proof.
  intros M Z0 B. unfold mean. replace (m =? 0)%Z with false by lia. cbn [nofZ NumF NumQ]. destruct (Z.eq_dec l1 0) as [->|N]; [split; reflexivity|].
  destruct Z0 as [Z0| ->]; [lia|]. split.
  - assert (1 <= IZR l1) by (apply (IZR_le 1); lia). rewrite (ndivE_F _ _ (IZR l1)) by (try (apply isf_int; lia); lra). reflexivity.
  - rewrite (ndivE_Q _ (inject_Z l1)) by (intros C; unfold Qeq in C; cbn in C; lia). reflexivity.
Qed.
Lemma jaro64 s1 s2 : short s1 -> short s2 -> agrees (/ IZR (2 ^ 49)) (jaro (T := f64) s1 s2) (jaro (T := Q) s1 s2).
Proof.
  intros S1 S2. destruct (jaro_shape s1 s2) as (m & t & T & M & _ & E). rewrite !E. unfold short in *.
  destruct (Z.eq_dec m 0) as [->|N].
  - cbn [mean Z.eqb agrees nofZ NumF NumQ]. exists 0. split; [apply (isf_int 0); lia|]. rewrite inj_R, Rminus_diag_eq, Rabs_R0 by reflexivity. lra.
  - destruct (Z.eq_dec (Z.of_nat (length s1)) 0) as [Z1|Z1]; [destruct (mean_zero m t (Z.of_nat (length s1)) (Z.of_nat (length s2)) N) as [-> ->]; [lia|lia|reflexivity]|].
    destruct (Z.eq_dec (Z.of_nat (length s2)) 0) as [Z2|Z2]; [destruct (mean_zero m t (Z.of_nat (length s1)) (Z.of_nat (length s2)) N) as [-> ->]; [lia|lia|reflexivity]|].
    destruct (mean_ok m t (Z.of_nat (length s1)) (Z.of_nat (length s2)) T ltac:(lia) ltac:(lia) ltac:(lia)) as (f & x & -> & I & D & _).
    destruct (mean_exact m t (Z.of_nat (length s1)) (Z.of_nat (length s2)) ltac:(lia) ltac:(lia) ltac:(lia)) as (q & -> & Eq). cbn [agrees].
    exists x. split; [exact I|]. rewrite Eq. pose proof (Rle_abs ((IZR m / IZR (Z.of_nat (length s1)) + IZR m / IZR (Z.of_nat (length s2)) + IZR (m - t) / IZR m) / 3)) as H.
    change (IZR (2 ^ 49)) with 562949953421312. lra.
Qed.
Lemma jaro64_range s1 s2 : short s1 -> short s2 -> s1 <> [] -> (length s1 = length s2 \/ ((length s1 < length s2)%nat /\ ~ In 42%Z s2)) ->
  exists f x, jaro s1 s2 = Ok f /\ isf f x /\ 0 <= x <= 1.
Proof.
  intros S1 S2 N C. destruct (jaro_shape s1 s2) as (m & t & T & M & B & E). rewrite !E. unfold short in *. specialize (B C).
  assert (L1 : (1 <= Z.of_nat (length s1))%Z) by (destruct s1; [congruence|cbn [length]; lia]).
  destruct (Z.eq_dec m 0) as [->|Nm].
  - exists (fofZ 0), 0. split; [reflexivity|]. split; [apply (isf_int 0); lia|lra].
  - destruct (mean_ok m t (Z.of_nat (length s1)) (Z.of_nat (length s2)) T ltac:(lia) ltac:(lia) ltac:(lia)) as (f & x & -> & I & _ & P & U & _).
    exists f, x. split; [reflexivity|]. split; [exact I|]. split; [exact P|apply U; lia].
Qed.
Lemma jaro64_self s : short s -> s <> [] -> exists f, jaro s s = Ok f /\ isf f 1.
Proof.
  intros S1 N. destruct (jaro_self s N) as (j & Ej & J). destruct (jaro_shape s s) as (m & t & T & M & _ & E). rewrite !E in *. unfold short in *.
  assert (L1 : (1 <= Z.of_nat (length s))%Z) by (destruct s; [congruence|cbn [length]; lia]).
  destruct (Z.eq_dec m 0) as [->|Nm]; [injection Ej as <-; discriminate J|].
  destruct (mean_exact m t (Z.of_nat (length s)) (Z.of_nat (length s)) ltac:(lia) ltac:(lia) ltac:(lia)) as (q & Eq & V). rewrite Ej in Eq. injection Eq as <-.
  apply Qeq_eqR in J. rewrite V in J. change (Q2R 1) with (1 * / 1) in J.
  assert (ML : 1 <= IZR m <= IZR (Z.of_nat (length s))) by (split; [apply (IZR_le 1)|apply IZR_le]; lia).
  set (l := IZR (Z.of_nat (length s))) in *. set (a := IZR m / l) in *. assert (Ha : a * l = IZR m) by (unfold a; field; lra). assert (A1 : a <= 1) by (apply Rmult_le_reg_r with l; lra).
  set (c := IZR (m - t) / IZR m) in *. assert (Hc : c * IZR m = IZR m - IZR t) by (unfold c; rewrite minus_IZR; field; lra).
  assert (T0 : 0 <= IZR t) by (apply (IZR_le 0); lia). assert (C1 : c <= 1) by (apply Rmult_le_reg_r with (IZR m); lra).
  assert (a = 1) by lra. assert (c = 1) by lra.
  assert (Em : IZR m = l) by (rewrite <- Ha, H; ring). assert (Et : IZR t = 0) by (rewrite H0 in Hc; lra). apply eq_IZR in Em. apply (eq_IZR t 0) in Et.
  destruct (mean_ok m t (Z.of_nat (length s)) (Z.of_nat (length s)) T ltac:(lia) ltac:(lia) ltac:(lia)) as (f & x & F & I & _ & _ & _ & U).
  exists f. split; [exact F|]. rewrite <- U; assumption.
Qed.
(** ** Winkler *)
Lemma below_one j : generic_format radix2 fexp64 j -> 0 <= j <= 1 -> j = 1 \/ / 9007199254740992 <= 1 - j.
Proof.
  intros F B. destruct (Rlt_le_dec j (/ 2)) as [L|L]; [right; lra|]. destruct (Req_dec j 1) as [E|E]; [left; exact E|right].
  assert (Bd : bpow radix2 (0 - 1) <= j < bpow radix2 0) by (change (bpow radix2 (0 - 1)) with (/ 2); change (bpow radix2 0) with 1; lra).
  destruct (fmt_at j 0 F Bd ltac:(lia)) as (_ & n & En). change (bpow radix2 (0 - 53)) with (/ 9007199254740992) in En.
  assert (IZR n < 9007199254740992) by lra. apply lt_IZR in H. assert (IZR n <= 9007199254740991) by (apply IZR_le; lia). lra.
Qed.
Lemma tenth : isf (fdiv (fofZ 1) (fofZ 10)) (rnd (1 / 10)).
Proof. apply isf_fdiv; [apply (isf_int 1); lia|apply (isf_int 10); lia|lra|apply small100; rewrite Rabs_pos_eq; lra]. Qed.
Lemma rnd_zero : rnd 0 = 0.
Proof. apply (rnd_int 0). lia. Qed.
Lemma winkler_step L f j : (0 <= L <= 4)%Z -> isf f j -> 0 <= j <= 1 ->
  exists w, isf (fadd f (fmul (fmul (fofZ L) (fdiv (fofZ 1) (fofZ 10))) (fsub (fofZ 1) f))) w /\ j <= w <= 1 /\
    Rabs (w - (j + IZR L / 10 * (1 - j))) <= / 1125899906842624.
Proof.
  intros HL I B. assert (BL : 0 <= IZR L <= 4) by (split; [apply (IZR_le 0)|apply (IZR_le _ 4)]; lia).
  assert (T100 : bpow radix2 (-100) <= / 1180591620717411303424) by (change (/ 1180591620717411303424) with (bpow radix2 (-70)); apply bpow_le; lia).
  pose proof (rel0 (1 / 10) ltac:(right; lra)) as ET. apply Rabs_le_inv in ET. set (d := rnd (1 / 10)) in *.
  assert (EL : (IZR L = 0 \/ 1 <= IZR L)) by (destruct (Z.eq_dec L 0) as [->|N]; [left; reflexivity|right; apply (IZR_le 1); lia]).
  pose proof (rel0 (IZR L * d) ltac:(destruct EL as [-> |?]; [left; ring|right; nra])) as EK. apply Rabs_le_inv in EK. set (k := rnd (IZR L * d)) in *.
  assert (K0 : k = 0 \/ / 16 <= k).
  { destruct EL as [EL|EL]; [left; unfold k; rewrite EL, Rmult_0_l; apply rnd_zero|right]. assert (/ 11 <= IZR L * d) by nra. lra. }
  assert (KD : 0 <= IZR L * d <= IZR L * (1 / 10) * (1 + / 4503599627370496) /\ IZR L * (1 / 10) * (1 - / 4503599627370496) <= IZR L * d) by nra.
  assert (K1 : 0 <= k <= 41 / 100) by lra.
  assert (KA : Rabs (k - IZR L / 10) <= / 2251799813685248) by (apply Rabs_le; lra). apply Rabs_le_inv in KA.
  pose proof (below_one j (isf_format _ _ I) B) as G.
  pose proof (rel0 (1 - j) ltac:(destruct G as [-> |?]; [left; ring|right; lra])) as EG. apply Rabs_le_inv in EG. set (g := rnd (1 - j)) in *.
  assert (G0 : g = 0 \/ / 18014398509481984 <= g).
  { destruct G as [G|G]; [left; unfold g; rewrite G; replace (1 - 1) with 0 by ring; apply rnd_zero|right; lra]. }
  assert (KG : k * g = 0 \/ / 288230376151711744 <= k * g).
  { destruct K0 as [-> |K0]; [left; ring|]. destruct G0 as [-> |G0]; [left; ring|right]. replace (/ 288230376151711744) with (/ 16 * / 18014398509481984) by field. apply Rmult_le_compat; lra. }
  pose proof (rel0 (k * g) ltac:(destruct KG; [left; assumption|right; lra])) as EP. apply Rabs_le_inv in EP. set (p := rnd (k * g)) in *.
  assert (G1 : 0 <= g <= (1 - j) * (1 + / 4503599627370496)) by lra.
  assert (PG : 0 <= k * g <= 41 / 100 * ((1 - j) * (1 + / 4503599627370496))) by (split; [apply Rmult_le_pos; lra|apply Rmult_le_compat; lra]).
  assert (P1 : 0 <= p <= 1 - j) by lra.
  exists (rnd (j + p)).
  assert (IL : isf (fofZ L) (IZR L)) by (apply isf_int; lia).
  assert (IK : isf (fmul (fofZ L) (fdiv (fofZ 1) (fofZ 10))) k) by (apply isf_fmul; [exact IL|exact tenth|apply small100; fold d; rewrite Rabs_pos_eq; lra]).
  assert (IG : isf (fsub (fofZ 1) f) g) by (apply isf_fsub; [apply (isf_int 1); lia|exact I|apply small100; rewrite Rabs_pos_eq; lra]).
  assert (IP : isf (fmul (fmul (fofZ L) (fdiv (fofZ 1) (fofZ 10))) (fsub (fofZ 1) f)) p) by (apply isf_fmul; [exact IK|exact IG|apply small100; rewrite Rabs_pos_eq; lra]).
  split; [apply isf_fadd; [exact I|exact IP|apply small100; rewrite Rabs_pos_eq; lra]|]. split.
  - split; [rewrite <- (rnd_id _ _ I) at 1; apply rnd_le; lra|rewrite <- (rnd_int 1) by lia; apply rnd_le; lra].
  - pose proof (near1 (j + p) ltac:(rewrite Rabs_pos_eq; lra)) as EW. apply Rabs_le_inv in EW.
    assert (Q1 : Rabs (k * g - IZR L / 10 * (1 - j)) <= / 2251799813685248 + / 4503599627370496).
    { replace (k * g - IZR L / 10 * (1 - j)) with ((k - IZR L / 10) * (1 - j) + k * (g - (1 - j))) by ring.
      eapply Rle_trans; [apply Rabs_triang|]. rewrite !Rabs_mult, (Rabs_pos_eq (1 - j)), (Rabs_pos_eq k) by lra.
      assert (X1 : Rabs (k - IZR L / 10) <= / 2251799813685248) by (apply Rabs_le; lra). assert (X2 : Rabs (g - (1 - j)) <= / 4503599627370496) by (apply Rabs_le; nra).
      pose proof (Rabs_pos (k - IZR L / 10)). pose proof (Rabs_pos (g - (1 - j))). nra. }
    apply Rabs_le_inv in Q1. apply Rabs_le. lra.
Qed.
Lemma winkler_L s1 s2 : let prelen := Z.min (Z.min (Z.of_nat (length s1)) (Z.of_nat (length s2))) 4 in
  (0 <= common (combine (py_slice s1 0 prelen) (py_slice s2 0 prelen)) <= 4)%Z.
Proof.
  intros k. assert (P : forall s : str, (k <= Z.of_nat (length s))%Z -> py_slice s 0 k = firstn (Z.to_nat k) s).
  { intros s L. unfold py_slice, slice_clamp. assert (0 <= k)%Z by lia. replace (0 <? 0)%Z with false by lia. replace (k <? 0)%Z with false by lia.
    rewrite !Z.min_l by lia. change (Z.to_nat 0) with 0%nat. cbn [skipn]. rewrite Z.sub_0_r. destruct (Z.ltb_spec 0 k) as [_|C]; [reflexivity|]. replace k with 0%Z by lia. reflexivity. }
  rewrite !P by lia. rewrite common_prefix. lia.
Qed.
Lemma winkler64 s1 s2 : short s1 -> short s2 -> s1 <> [] -> (length s1 = length s2 \/ ((length s1 < length s2)%nat /\ ~ In 42%Z s2)) ->
  exists f j w v q, jaro s1 s2 = Ok f /\ isf f j /\ jaro_winkler s1 s2 = Ok w /\ isf w v /\ j <= v <= 1 /\
    jaro_winkler s1 s2 = Ok q /\ Rabs (v - Q2R q) <= / IZR (2 ^ 48).
Proof.
  intros S1 S2 N C. destruct (jaro64_range s1 s2 S1 S2 N C) as (f & j & E & I & B). destruct (jaro_le s1 s2 N C) as (qj & Eq & [Q0 Q1]).
  pose proof (jaro64 s1 s2 S1 S2) as A. rewrite E, Eq in A. cbn [agrees] in A. destruct A as (x & Ix & D). rewrite <- (isf_fun _ _ _ I Ix) in D. clear x Ix.
  apply Qle_Rle in Q0, Q1. replace (Q2R 0) with 0 in Q0 by (unfold Q2R; cbn; lra). replace (Q2R 1) with 1 in Q1 by (unfold Q2R; cbn; lra).
  rewrite (Rabs_pos_eq (Q2R qj)) in D by lra. apply Rabs_le_inv in D. change (IZR (2 ^ 49)) with 562949953421312 in D.
  unfold jaro_winkler. rewrite E, Eq. cbn [bind]. pose proof (winkler_L s1 s2) as HL. cbv zeta in HL. set (L := common _) in *.
  destruct (winkler_step L f j HL I B) as (v & Iv & Bv & Dv). assert (BL : 0 <= IZR L <= 4) by (split; [apply (IZR_le 0)|apply (IZR_le _ 4)]; lia).
  exists f, j. eexists _, v, _. split; [reflexivity|]. split; [exact I|]. split; [reflexivity|]. split; [exact Iv|]. split; [exact Bv|]. split; [reflexivity|].
  cbn [nadd nmul nsub ndiv nofZ NumQ]. rewrite Q2R_plus, !Q2R_mult, Q2R_minus, !inj_R. replace (Q2R (inject_Z 1 / inject_Z 10)) with (1 / 10) by (unfold Q2R; cbn; lra).
  apply Rabs_le_inv in Dv. apply Rabs_le. change (IZR (2 ^ 48)) with 281474976710656.
  replace (v - (Q2R qj + IZR L * (1 / 10) * (1 - Q2R qj))) with ((v - (j + IZR L / 10 * (1 - j))) + (j - Q2R qj) * (1 - IZR L / 10)) by field.
  assert (H : Rabs ((j - Q2R qj) * (1 - IZR L / 10)) <= / 562949953421312).
  { rewrite Rabs_mult, (Rabs_pos_eq (1 - IZR L / 10)) by lra. assert (Rabs (j - Q2R qj) <= / 562949953421312) by (apply Rabs_le; lra). pose proof (Rabs_pos (j - Q2R qj)). nra. }
  apply Rabs_le_inv in H. lra.
Qed.
