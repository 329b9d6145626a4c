(** Directions for any arithmetic, rows off the canvas, anti-aliased lines, saved files. *)
From Coq Require Import Lia Lqa ZifyBool Sorted Permutation.
From Verif Require Import Num PfModel PfProofs RgProofs RoundProofs RasterModel RasterSpec RasterLine RasterCanvas RasterFill RasterScan RasterApi.
Open Scope Z_scope.

(** ** Scan conversion, any arithmetic *)
Section Any.
  Context {T : Type} `{PyNum T} `{PyRound T}.
  Lemma push_dirs m h : Permutation (map snd (heappush m h)) (snd m :: map snd h).
  Proof. rewrite (Permutation_map snd (push_perm m h)). reflexivity. Qed.
  Lemma scan_edge_any height e scans : below height (fst e) -> below height (snd e) -> Z.of_nat (length scans) = height ->
    exists s', scan_edge e scans = (s', Ok tt) /\ length s' = length scans /\
      forall r, 0 <= r -> Permutation (map snd (row s' r)) (map snd (crossing r e) ++ map snd (row scans r)).
  Proof.
    destruct e as [[x0 y0] [x1 y1]]. unfold below. cbn [fst snd]. intros [A1 A2] [B1 B2] L. unfold scan_edge.
    destruct (Z.eqb_spec y0 y1) as [->|N].
    - exists scans. split; [reflexivity|]. split; [reflexivity|]. intros r Pr. rewrite crossing_none by reflexivity. reflexivity.
    - assert (G : forall a0 b0 a1 b1 down, 0 <= b0 -> b0 < b1 <= height ->
        exists s', (if a0 =? a1 then scan_vertical (Z.to_nat (b1 - b0)) b0 a0 down scans
          else scan_rows (Z.to_nat (b1 - b0)) b0 (nofZ a0) (ndiv (nofZ (if a0 <? a1 then 1 else -1)) (nabs (ndiv (nofZ (b1 - b0)) (nofZ (a1 - a0))))) down scans) = (s', Ok tt) /\
        length s' = length scans /\
        forall r, 0 <= r -> Permutation (map snd (row s' r)) ((if (b0 <=? r) && (r <? b1) then [down] else []) ++ map snd (row scans r))).
      { intros a0 b0 a1 b1 down P Y. destruct (a0 =? a1).
        - destruct (scan_vertical_in (Z.to_nat (b1 - b0)) b0 a0 down scans ltac:(lia) ltac:(lia)) as (s' & E & L' & R').
          exists s'. split; [exact E|]. split; [exact L'|]. intros r Pr. rewrite (R' r Pr). rewrite Z2Nat.id by lia.
          replace (b0 + (b1 - b0)) with b1 by lia. destruct ((b0 <=? r) && (r <? b1)); [|reflexivity]. apply push_dirs.
        - match goal with |- context [scan_rows ?n ?y ?x ?st ?d ?s] =>
            destruct (scan_rows_in n y x st d s ltac:(lia) ltac:(lia)) as (s' & E & L' & R') end.
          exists s'. split; [exact E|]. split; [exact L'|]. intros r Pr. rewrite (R' r Pr). rewrite Z2Nat.id by lia.
          replace (b0 + (b1 - b0)) with b1 by lia. destruct ((b0 <=? r) && (r <? b1)); [|reflexivity]. apply push_dirs. }
      destruct (Z.ltb_spec y0 y1) as [C|C].
      + destruct (G x0 y0 x1 y1 true A1 ltac:(lia)) as (s' & E & L' & R'). exists s'. split; [exact E|]. split; [exact L'|].
        intros r Pr. rewrite (R' r Pr). unfold crossing, crosses. destruct ((y0 <=? r) && (r <? y1)) eqn:K; [reflexivity|].
        replace ((y1 <=? r) && (r <? y0)) with false by lia. reflexivity.
      + destruct (G x1 y1 x0 y0 false B1 ltac:(lia)) as (s' & E & L' & R'). exists s'. split; [exact E|]. split; [exact L'|].
        intros r Pr. rewrite (R' r Pr). unfold crossing, crosses. replace ((y0 <=? r) && (r <? y1)) with false by lia.
        destruct ((y1 <=? r) && (r <? y0)) eqn:K; reflexivity.
  Qed.
  Lemma scan_edges_any height es scans : Forall (fun e => below height (fst e) /\ below height (snd e)) es ->
    Z.of_nat (length scans) = height ->
    exists s', scan_edges es scans = (s', Ok tt) /\ length s' = length scans /\
      forall r, 0 <= r -> Permutation (map snd (row s' r)) (map snd (concat (map (crossing r) es)) ++ map snd (row scans r)).
  Proof.
    intros F. revert scans. induction F as [|e es [B1 B2] F IH]; intros scans L.
    - exists scans. split; [reflexivity|]. split; reflexivity.
    - destruct (scan_edge_any height e scans B1 B2 L) as (s1 & E1 & L1 & R1). cbn [scan_edges]. rewrite E1.
      destruct (IH s1 ltac:(lia)) as (s' & E' & L' & R'). exists s'. split; [exact E'|]. split; [lia|].
      intros r Pr. rewrite (R' r Pr), (R1 r Pr). cbn [map concat]. rewrite map_app, !app_assoc.
      apply Permutation_app_tail. apply Permutation_app_comm.
  Qed.
  Lemma scan_any height points : 0 <= height -> Forall (below height) points ->
    exists s', scanpolygon height points None = (s', Ok tt) /\ Z.of_nat (length s') = height /\
      forall y, 0 <= y -> Permutation (map snd (row s' y)) (map snd (row_marks points y)).
  Proof.
    intros P F. unfold scanpolygon. rewrite edges_sides. pose proof (sides_forall _ _ F) as FS.
    destruct (scan_edges_any height (sides points) (repeat [] (Z.to_nat height)) FS ltac:(rewrite repeat_length; lia)) as (s' & E & L & R).
    exists s'. split; [exact E|]. rewrite repeat_length in L. split; [lia|]. intros y Py. rewrite (R y Py), row_empty, app_nil_r. reflexivity.
  Qed.

  (** ** Rows off the canvas *)
  Lemma push_row_out scans y m : Z.of_nat (length scans) <= y -> push_row scans y m = Err IndexError.
  Proof. intros L. unfold push_row. rewrite py_get_out by lia. reflexivity. Qed.
  Lemma scan_rows_out n y (x step : T) down scans : 0 <= y -> Z.of_nat (length scans) < y + Z.of_nat n -> (0 < n)%nat ->
    exists s', scan_rows n y x step down scans = (s', Err IndexError).
  Proof.
    revert y x scans. induction n as [|n IH]; intros y x scans P L N; [lia|]. cbn [scan_rows].
    destruct (Z.lt_ge_cases y (Z.of_nat (length scans))) as [C|C].
    - destruct (push_row_in scans y (nround x, down) ltac:(lia)) as (s1 & -> & L1 & _). apply IH; lia.
    - rewrite push_row_out by exact C. eauto.
  Qed.
  Lemma scan_vertical_out n y x down scans : 0 <= y -> Z.of_nat (length scans) < y + Z.of_nat n -> (0 < n)%nat ->
    exists s', scan_vertical n y x down scans = (s', Err IndexError).
  Proof.
    revert y scans. induction n as [|n IH]; intros y scans P L N; [lia|]. cbn [scan_vertical].
    destruct (Z.lt_ge_cases y (Z.of_nat (length scans))) as [C|C].
    - destruct (push_row_in scans y (x, down) ltac:(lia)) as (s1 & -> & L1 & _). apply IH; lia.
    - rewrite push_row_out by exact C. eauto.
  Qed.
  Lemma scan_edge_out height e scans : 0 <= snd (fst e) -> 0 <= snd (snd e) -> Z.of_nat (length scans) = height ->
    too_low height e -> exists s', scan_edge e scans = (s', Err IndexError).
  Proof.
    destruct e as [[x0 y0] [x1 y1]]. unfold too_low. cbn [fst snd]. intros A B L [N M]. unfold scan_edge.
    replace (y0 =? y1) with false by lia. destruct (Z.ltb_spec y0 y1) as [C|C].
    - destruct (x0 =? x1); [apply scan_vertical_out; lia|apply scan_rows_out; lia].
    - destruct (x1 =? x0); [apply scan_vertical_out; lia|apply scan_rows_out; lia].
  Qed.
  Lemma scan_edges_out height es : Forall (fun e => 0 <= snd (fst e) /\ 0 <= snd (snd e)) es -> Exists (too_low height) es ->
    forall scans, Z.of_nat (length scans) = height -> exists s', scan_edges es scans = (s', Err IndexError).
  Proof.
    induction 1 as [|e es [A B] F IH]; intros X scans L; [inversion X|]. cbn [scan_edges].
    destruct (Z.eq_dec (snd (fst e)) (snd (snd e))) as [E|N].
    - assert (X' : Exists (too_low height) es).
      { inversion X as [? ? [C _]|]; subst; [contradiction|assumption]. }
      destruct e as [[x0 y0] [x1 y1]]. cbn [fst snd] in E. unfold scan_edge. rewrite E, Z.eqb_refl. apply IH; assumption.
    - destruct (Z.lt_ge_cases height (Z.max (snd (fst e)) (snd (snd e)))) as [C|C].
      + destruct (scan_edge_out height e scans A B L (conj N C)) as (s' & ->). eauto.
      + assert (X' : Exists (too_low height) es).
        { inversion X as [? ? [_ C']|]; subst; [lia|assumption]. }
        destruct (scan_edge_any height e scans ltac:(unfold below; lia) ltac:(unfold below; lia) L) as (s1 & -> & L1 & _). apply IH; [exact X'|lia].
  Qed.
  Lemma scan_out height points : 0 <= height -> Forall (fun p => 0 <= snd p) points -> Exists (too_low height) (sides points) ->
    exists s', scanpolygon height points None = (s', Err IndexError).
  Proof.
    intros P F X. unfold scanpolygon. rewrite edges_sides. pose proof (sides_forall _ _ F) as FS.
    apply (scan_edges_out height); [exact FS|exact X|]. rewrite repeat_length. lia.
  Qed.
End Any.

(** ** Anti-aliased lines, exact arithmetic *)
Lemma frac_range q : (0 <= q)%Q -> (0 <= fpart q < 1)%Q /\ (inject_Z (nint q) + fpart q == q)%Q.
Proof.
  intros P. unfold fpart. cbn [nint nsub nofZ IntQ NumQ]. rewrite q_trunc_floor by exact P.
  pose proof (Qfloor_le q). pose proof (Qlt_floor q) as L. rewrite inject_Z_plus in L. change (inject_Z 1) with 1%Q in L.
  split; [lra|ring].
Qed.
Lemma wu_inner_spec (g : Q) n : forall a iy, (forall k, 0 <= k < Z.of_nat n -> (0 <= iy + inject_Z k * g)%Q) ->
  exists pairs : list (Z * Z * Q * Q),
    wu_inner false g (zfromto a (a + Z.of_nat n)) iy = concat (map (fun '(x, y, a1, a2) => [((x, y), a1); ((x, y + 1), a2)]) pairs) /\
    map (fun '(x, _, _, _) => x) pairs = zfromto a (a + Z.of_nat n) /\
    Forall (fun '(x, y, a1, a2) => (0 <= a2 < 1)%Q /\ (a1 == 1 - a2)%Q /\ (inject_Z y + a2 == iy + inject_Z (x - a) * g)%Q) pairs.
Proof.
  induction n as [|n IH]; intros a iy P.
  - exists []. rewrite zfromto_nil by lia. repeat split; constructor.
  - rewrite zfromto_cons by lia. destruct (IH (a + 1) (iy + g)%Q) as (pairs & E & M & F).
    { intros k K. specialize (P (k + 1) ltac:(lia)). rewrite inject_Z_plus in P. change (inject_Z 1) with 1%Q in P.
      setoid_replace (iy + g + inject_Z k * g)%Q with (iy + (inject_Z k + 1) * g)%Q by ring. exact P. }
    replace (a + Z.of_nat (S n)) with (a + 1 + Z.of_nat n) by lia.
    exists ((a, nint iy, rfpart iy, fpart iy) :: pairs). cbn [wu_inner map concat wu_pair]. cbn [nadd NumQ]. rewrite E, M.
    split; [reflexivity|]. split; [reflexivity|]. constructor.
    + assert (P0 : (0 <= iy)%Q). { specialize (P 0 ltac:(lia)). change (inject_Z 0) with 0%Q in P. lra. }
      destruct (frac_range iy P0) as [R S]. split; [exact R|]. split; [unfold rfpart; cbn [nsub nofZ NumQ]; change (inject_Z 1) with 1%Q; ring|].
      rewrite S, Z.sub_diag. change (inject_Z 0) with 0%Q. ring.
    + eapply Forall_impl; [|exact F]. intros [[[x y] a1] a2] (A & B & C). split; [exact A|]. split; [exact B|]. rewrite C.
      replace (x - a) with (x - (a + 1) + 1) by lia. rewrite inject_Z_plus. change (inject_Z 1) with 1%Q. ring.
Qed.
Lemma q_trunc_neg q : (q <= 0)%Q -> q_trunc q = - Qfloor (- q).
Proof.
  intros P. destruct q as [n d]. unfold q_trunc, Qfloor, Qopp. cbn [Qnum Qden]. unfold Qle in P. cbn in P.
  rewrite <- (Z.opp_involutive n) at 1. rewrite Z.quot_opp_l by lia. f_equal. apply Z.quot_div_nonneg; lia.
Qed.
Lemma nearest_half (x : Q) : (inject_Z (nearestT x) - (1 # 2) <= x <= inject_Z (nearestT x) + (1 # 2))%Q.
Proof.
  unfold nearestT. cbn [nint nneg nsub nadd IntQ NumQ]. unfold half. cbn [ndiv nofZ NumQ]. change (inject_Z 1 / inject_Z 2)%Q with (1 # 2).
  destruct (Qlt_bool x 0) eqn:S.
  - apply Qlt_bool_true in S. rewrite q_trunc_neg by lra.
    pose proof (Qfloor_le (- (x - (1 # 2)))) as L1. pose proof (Qlt_floor (- (x - (1 # 2)))) as L2.
    rewrite inject_Z_plus in L2. change (inject_Z 1) with 1%Q in L2. rewrite inject_Z_opp. lra.
  - apply Qlt_bool_false in S. rewrite q_trunc_floor by lra.
    pose proof (Qfloor_le (x + (1 # 2))) as L1. pose proof (Qlt_floor (x + (1 # 2))) as L2.
    rewrite inject_Z_plus in L2. change (inject_Z 1) with 1%Q in L2. lra.
Qed.
Lemma wabs_abs (q : Q) : (wabs q == Qabs.Qabs q)%Q.
Proof.
  unfold wabs. cbn [nneg nsub nofZ IntQ NumQ]. change (inject_Z 0) with 0%Q. destruct (Qlt_bool q 0) eqn:S.
  - apply Qlt_bool_true in S. rewrite Qabs.Qabs_neg by lra. ring.
  - apply Qlt_bool_false in S. rewrite Qabs.Qabs_pos by exact S. reflexivity.
Qed.
(** The columns strictly between the ends of a flat line. *)
Lemma aaline_flat (x0 y0 x1 y1 : Q) : (x0 < x1)%Q -> (Qabs.Qabs (y1 - y0) <= x1 - x0)%Q -> (0 <= y0)%Q -> (0 <= y1)%Q ->
  exists n1 n2 e1 e2 pairs, aaline (x0, y0) (x1, y1) =
    Ok (e1 ++ e2 ++ concat (map (fun '(x, y, a1, a2) => [((x, y), a1); ((x, y + 1), a2)]) pairs)) /\
    (Qabs.Qabs (inject_Z n1 - x0) <= 1 # 2)%Q /\ (Qabs.Qabs (inject_Z n2 - x1) <= 1 # 2)%Q /\
    map (fun pa => fst (fst pa)) e1 = [n1; n1] /\ map (fun pa => fst (fst pa)) e2 = [n2; n2] /\
    map (fun '(x, _, _, _) => x) pairs = zfromto (n1 + 1) n2 /\
    Forall (fun '(x, y, a1, a2) => (0 <= a2 < 1)%Q /\ (a1 == 1 - a2)%Q /\
      (inject_Z y + a2 == y0 + (y1 - y0) / (x1 - x0) * (inject_Z x - x0))%Q) pairs.
Proof.
  intros X Y P0 P1. unfold aaline. cbn [nlt nsub NumQ].
  assert (St : Qlt_bool (wabs (x1 - x0)%Q) (wabs (y1 - y0)%Q) = false).
  { apply Qlt_bool_false. rewrite !wabs_abs. rewrite (Qabs.Qabs_pos (x1 - x0)) by lra. exact Y. }
  rewrite St. assert (Sw : Qlt_bool x1 x0 = false) by (apply Qlt_bool_false; lra). rewrite Sw.
  unfold ndivE. cbn [neq nofZ ndiv NumQ]. assert (Nz : Qeq_bool (x1 - x0) (inject_Z 0) = false).
  { destruct (Qeq_bool (x1 - x0) (inject_Z 0)) eqn:E; [|reflexivity]. apply Qeq_bool_iff in E. change (inject_Z 0) with 0%Q in E. lra. }
  rewrite Nz. cbn [bind]. unfold wu_end. set (g := ((y1 - y0) / (x1 - x0))%Q). set (n1 := nearestT x0). set (n2 := nearestT x1).
  cbn [nadd nmul nsub nofZ NumQ]. set (ye := (y0 + g * (inject_Z n1 - x0))%Q).
  pose proof (nearest_half x0) as H0. pose proof (nearest_half x1) as H1. fold n1 in H0. fold n2 in H1.
  assert (N12 : n1 <= n2).
  { assert (inject_Z n1 < inject_Z (n2 + 1) + 1)%Q by (rewrite inject_Z_plus; change (inject_Z 1) with 1%Q; lra).
    (* nearest is monotone *)
    unfold n1, n2, nearestT. cbn [nint nneg nsub nadd IntQ NumQ]. unfold half. cbn [ndiv nofZ NumQ]. change (inject_Z 1 / inject_Z 2)%Q with (1 # 2).
    destruct (Qlt_bool x0 0) eqn:S0, (Qlt_bool x1 0) eqn:S1; repeat match goal with H : Qlt_bool _ _ = true |- _ => apply Qlt_bool_true in H | H : Qlt_bool _ _ = false |- _ => apply Qlt_bool_false in H end.
    - rewrite !q_trunc_neg by lra. assert (Qfloor (- (x1 - (1 # 2))) <= Qfloor (- (x0 - (1 # 2)))) by (apply Qfloor_resp_le; lra). lia.
    - rewrite q_trunc_neg, q_trunc_floor by lra. assert (0 <= Qfloor (- (x0 - (1 # 2)))) by (apply (Qfloor_resp_le 0); lra).
      assert (0 <= Qfloor (x1 + (1 # 2))) by (apply (Qfloor_resp_le 0); lra). lia.
    - lra.
    - rewrite !q_trunc_floor by lra. apply Qfloor_resp_le. lra. }
  destruct (Z.le_gt_cases n2 (n1 + 1)) as [Sh|Lg].
  - rewrite (zfromto_nil (n1 + 1) n2) by exact Sh. cbn [wu_inner].
    eexists n1, n2, _, _, []. split; [reflexivity|]. split; [apply Qabs.Qabs_Qle_condition; lra|]. split; [apply Qabs.Qabs_Qle_condition; lra|].
    split; [reflexivity|]. split; [reflexivity|]. split; [rewrite zfromto_nil by exact Sh; reflexivity|constructor].
  - destruct (wu_inner_spec g (Z.to_nat (n2 - (n1 + 1))) (n1 + 1) (ye + g)%Q) as (pairs & E & M & F).
    { intros k K. rewrite Z2Nat.id in K by lia. unfold ye.
      assert (Kq : (inject_Z n1 + inject_Z k + 1 <= inject_Z n2 - 1)%Q).
      { assert (Hz : (inject_Z (n1 + k + 2) <= inject_Z n2)%Q) by (rewrite <- Zle_Qle; lia).
        rewrite !inject_Z_plus in Hz. change (inject_Z 2) with 2%Q in Hz. lra. }
      assert (K0 : (0 <= inject_Z k)%Q) by (rewrite <- (Zle_Qle 0); lia).
      set (t := (inject_Z n1 + inject_Z k + 1 - x0)%Q).
      setoid_replace (y0 + g * (inject_Z n1 - x0) + g + inject_Z k * g)%Q with (y0 + g * t)%Q by (unfold t; ring).
      assert (T0 : (0 <= t)%Q) by (unfold t; lra). assert (T1 : (t <= x1 - x0)%Q) by (unfold t; lra).
      setoid_replace (y0 + g * t)%Q with ((y0 * (x1 - x0 - t) + y1 * t) / (x1 - x0))%Q by (unfold g; field; lra).
      apply Qle_shift_div_l; [lra|]. nra. }
    rewrite Z2Nat.id in E, M by lia. replace (n1 + 1 + (n2 - (n1 + 1))) with n2 in E, M by lia. rewrite E.
    eexists n1, n2, _, _, pairs. split; [reflexivity|]. split; [apply Qabs.Qabs_Qle_condition; lra|]. split; [apply Qabs.Qabs_Qle_condition; lra|].
    split; [reflexivity|]. split; [reflexivity|]. split; [exact M|]. eapply Forall_impl; [|exact F].
    intros [[[x y] a1] a2] (A & B & C). split; [exact A|]. split; [exact B|]. rewrite C. unfold ye. fold g.
    replace x with (x - (n1 + 1) + n1 + 1) at 2 by lia. rewrite !inject_Z_plus. change (inject_Z 1) with 1%Q. ring.
Qed.
Lemma wu_inner_flip (g : Q) xs : forall iy, wu_inner true g xs iy = map flip (wu_inner false g xs iy).
Proof. induction xs as [|x xs IH]; intros iy; [reflexivity|]. cbn [wu_inner]. rewrite IH. reflexivity. Qed.
Lemma aaline_steep (x0 y0 x1 y1 : Q) : (Qabs.Qabs (x1 - x0) < Qabs.Qabs (y1 - y0))%Q ->
  aaline (x0, y0) (x1, y1) = rmap (map flip) (aaline (y0, x0) (y1, x1)).
Proof.
  intros S. unfold aaline. cbn [nlt nsub NumQ].
  assert (S1 : Qlt_bool (wabs (x1 - x0)%Q) (wabs (y1 - y0)%Q) = true) by (apply Qlt_bool_true; rewrite !wabs_abs; exact S).
  assert (S2 : Qlt_bool (wabs (y1 - y0)%Q) (wabs (x1 - x0)%Q) = false) by (apply Qlt_bool_false; rewrite !wabs_abs; lra).
  rewrite S1, S2. destruct (Qlt_bool y1 y0); cbv beta iota.
  - destruct (ndivE _ _) as [g|e]; [|reflexivity]. cbn [bind rmap]. unfold wu_end. cbv beta iota zeta. rewrite wu_inner_flip. cbn [rmap]. rewrite !map_app. reflexivity.
  - destruct (ndivE _ _) as [g|e]; [|reflexivity]. cbn [bind rmap]. unfold wu_end. cbv beta iota zeta. rewrite wu_inner_flip. cbn [rmap]. rewrite !map_app. reflexivity.
Qed.
Lemma aaline_reverse (a b : Q * Q) : ~ (fst a == fst b)%Q -> ~ (snd a == snd b)%Q -> aaline a b = aaline b a.
Proof.
  destruct a as [x0 y0], b as [x1 y1]. cbn [fst snd]. intros X Y. unfold aaline. cbn [nlt nsub NumQ].
  assert (St : Qlt_bool (wabs (x1 - x0)%Q) (wabs (y1 - y0)%Q) = Qlt_bool (wabs (x0 - x1)%Q) (wabs (y0 - y1)%Q)).
  { assert (E : (Qabs.Qabs (x1 - x0) == Qabs.Qabs (x0 - x1))%Q) by (rewrite <- Qabs.Qabs_opp; apply Qabs.Qabs_wd; ring).
    assert (E' : (Qabs.Qabs (y1 - y0) == Qabs.Qabs (y0 - y1))%Q) by (rewrite <- Qabs.Qabs_opp; apply Qabs.Qabs_wd; ring).
    destruct (Qlt_bool (wabs (x0 - x1)%Q) _) eqn:C.
    - apply Qlt_bool_true in C. apply Qlt_bool_true. rewrite !wabs_abs in *. lra.
    - apply Qlt_bool_false in C. apply Qlt_bool_false. rewrite !wabs_abs in *. lra. }
  rewrite St. assert (Sw : forall p q : Q, ~ (p == q)%Q -> Qlt_bool p q = negb (Qlt_bool q p)).
  { intros p q N. destruct (Qlt_bool q p) eqn:C; cbn [negb].
    - apply Qlt_bool_true in C. apply Qlt_bool_false. lra.
    - apply Qlt_bool_false in C. apply Qlt_bool_true. destruct (Qle_lt_or_eq _ _ C) as [L|L]; [exact L|contradiction]. }
  destruct (Qlt_bool (wabs (x0 - x1)%Q) _).
  - rewrite (Sw y1 y0) by (intros C; apply Y; symmetry; exact C). destruct (Qlt_bool y0 y1); reflexivity.
  - rewrite (Sw x1 x0) by (intros C; apply X; symmetry; exact C). destruct (Qlt_bool x0 x1); reflexivity.
Qed.
Lemma aaline_error (a b : Q * Q) e : aaline a b = Err e <-> e = ZeroDivisionError /\ (fst a == fst b)%Q /\ (snd a == snd b)%Q.
Proof.
  destruct a as [x0 y0], b as [x1 y1]. cbn [fst snd]. unfold aaline. cbn [nlt nsub NumQ].
  assert (Ab : forall q, (Qabs.Qabs q == 0)%Q -> (q == 0)%Q).
  { intros q. apply Qabs.Qabs_case; intros; lra. }
  assert (An : forall q, (0 <= Qabs.Qabs q)%Q) by apply Qabs.Qabs_nonneg.
  assert (D : forall p q : Q, ndivE p q = if Qeq_bool q 0 then Err ZeroDivisionError else Ok (p / q)%Q) by reflexivity.
  destruct (Qlt_bool (wabs (x1 - x0)%Q) (wabs (y1 - y0)%Q)) eqn:S.
  - apply Qlt_bool_true in S. rewrite !wabs_abs in S.
    assert (Ny : ~ (y1 - y0 == 0)%Q). { intros C. rewrite C in S. pose proof (An (x1 - x0)%Q). change (Qabs.Qabs 0) with 0%Q in S. lra. }
    split; [|intros (_ & _ & C); exfalso; apply Ny; lra].
    destruct (Qlt_bool y1 y0); rewrite D; destruct (Qeq_bool _ 0) eqn:Z; try discriminate; intros _; apply Qeq_bool_iff in Z; exfalso; apply Ny; lra.
  - apply Qlt_bool_false in S. rewrite !wabs_abs in S. split.
    + intros E. assert (Z : (x1 - x0 == 0)%Q /\ e = ZeroDivisionError).
      { destruct (Qlt_bool x1 x0); rewrite D in E; destruct (Qeq_bool _ 0) eqn:Z; try discriminate; injection E as <-; apply Qeq_bool_iff in Z; split; lra || reflexivity. }
      destruct Z as [Z ->]. split; [reflexivity|]. split; [lra|]. rewrite Z in S. change (Qabs.Qabs 0) with 0%Q in S.
      assert (H : (Qabs.Qabs (y1 - y0) == 0)%Q) by (pose proof (An (y1 - y0)%Q); lra). pose proof (Ab _ H). lra.
    + intros (-> & X & Y). destruct (Qlt_bool x1 x0); rewrite D; rewrite (proj2 (Qeq_bool_iff _ 0)) by lra; reflexivity.
Qed.
(** The ends of a line: total alpha. *)
Lemma wu_end_total (g x y : Q) n yend px : (0 <= x)%Q -> (0 <= y)%Q -> (g * (inject_Z (nearestT x) - x) >= - y)%Q ->
  wu_end false g x y = (n, yend, px) ->
  exists yp a1 a2, px = [((n, yp), a1); ((n, yp + 1), a2)] /\ (0 <= a1 <= 1)%Q /\ (0 <= a2 <= 1)%Q /\
    (a1 + a2 == inject_Z n + (1 # 2) - x)%Q.
Proof.
  intros X Y G E. unfold wu_end in E. cbn [nadd nmul nsub nofZ NumQ] in E. apply pair_equal_spec in E. destruct E as [E <-]. apply pair_equal_spec in E. destruct E as [<- <-]. cbn [wu_pair].
  set (ye := (y + g * (inject_Z (nearestT x) - x))%Q). assert (P : (0 <= ye)%Q) by (unfold ye; lra).
  destruct (frac_range ye P) as [R S].
  assert (N : nearestT x = Qfloor (x + (1 # 2))).
  { unfold nearestT. cbn [nint nneg nsub nadd IntQ NumQ]. rewrite (proj2 (Qlt_bool_false x 0)) by exact X.
    unfold half. cbn [ndiv nofZ NumQ]. change (inject_Z 1 / inject_Z 2)%Q with (1 # 2). apply q_trunc_floor. lra. }
  assert (H : (@half Q _ = 1 # 2)%Q) by reflexivity. rewrite H.
  destruct (frac_range (x + (1 # 2))) as [R' S']; [lra|]. cbn [nint IntQ] in S'. rewrite q_trunc_floor in S' by lra. rewrite <- N in S'.
  unfold rfpart in *. cbn [nsub nofZ NumQ] in *. change (inject_Z 1) with 1%Q in *.
  set (f := fpart ye) in *. set (f' := fpart (x + (1 # 2))%Q) in *. clearbody f f'.
  eexists _, _, _. split; [reflexivity|]. split; [split; nra|]. split; [split; nra|].
  setoid_replace ((1 - f) * (1 - f') + f * (1 - f'))%Q with (1 - f')%Q by ring. lra.
Qed.
(** A plain int colour cannot be used with anti-aliasing. *)
Lemma g_aaline_int (a b : Q * Q) c v px : aaline a b = Ok px -> g_aaline c a b (GInt v) = Err TypeError.
Proof.
  intros E. unfold g_aaline. rewrite E. cbn [bind]. assert (N : px <> []).
  { unfold aaline in E. destruct a as [x0 y0], b as [x1 y1]. cbn [nlt nsub NumQ] in E.
    destruct (Qlt_bool _ _); destruct (Qlt_bool _ _); destruct (ndivE _ _); try discriminate; cbn [bind] in E; unfold wu_end in E; injection E as <-; discriminate. }
  destruct px as [|p px]; [contradiction|]. reflexivity.
Qed.
Lemma wu_end_weights (g x y : Q) n yend px : (0 <= x)%Q -> (-1 <= g <= 1)%Q -> (1 <= y)%Q ->
  wu_end false g x y = (n, yend, px) ->
  exists yp a1 a2, px = [((n, yp), a1); ((n, yp + 1), a2)] /\ (0 <= a1)%Q /\ (0 <= a2)%Q /\
    (a1 + a2 == inject_Z n + (1 # 2) - x)%Q /\ (inject_Z yp <= y + g * (inject_Z n - x) < inject_Z yp + 1)%Q /\
    (a2 == (a1 + a2) * (y + g * (inject_Z n - x) - inject_Z yp))%Q.
Proof.
  intros X G Y E. unfold wu_end in E. cbn [nadd nmul nsub nofZ NumQ] in E. apply pair_equal_spec in E. destruct E as [E <-]. apply pair_equal_spec in E. destruct E as [<- <-]. cbn [wu_pair].
  pose proof (nearest_half x) as Hn.
  set (ye := (y + g * (inject_Z (nearestT x) - x))%Q). assert (P : (0 <= ye)%Q) by (unfold ye; nra).
  destruct (frac_range ye P) as [R S].
  assert (N : nearestT x = Qfloor (x + (1 # 2))).
  { unfold nearestT. cbn [nint nneg nsub nadd IntQ NumQ]. rewrite (proj2 (Qlt_bool_false x 0)) by exact X.
    unfold half. cbn [ndiv nofZ NumQ]. change (inject_Z 1 / inject_Z 2)%Q with (1 # 2). apply q_trunc_floor. lra. }
  assert (H : (@half Q _ = 1 # 2)%Q) by reflexivity. rewrite H.
  destruct (frac_range (x + (1 # 2))) as [R' S']; [lra|]. cbn [nint IntQ] in S'. rewrite q_trunc_floor in S' by lra. rewrite <- N in S'.
  unfold rfpart in *. cbn [nsub nofZ NumQ] in *. change (inject_Z 1) with 1%Q in *.
  set (f := fpart ye) in *. set (f' := fpart (x + (1 # 2))%Q) in *. clearbody f f' ye.
  eexists _, _, _. split; [reflexivity|]. split; [nra|]. split; [nra|].
  split; [setoid_replace ((1 - f) * (1 - f') + f * (1 - f'))%Q with (1 - f')%Q by ring; lra|].
  split; [lra|]. setoid_replace (ye - inject_Z (nint ye))%Q with f by lra. ring.
Qed.
(** The first four writes of a flat line are its two ends. *)
Lemma aaline_ends (x0 y0 x1 y1 : Q) : (0 <= x0 < x1)%Q -> (Qabs.Qabs (y1 - y0) <= x1 - x0)%Q -> (1 <= y0)%Q -> (1 <= y1)%Q ->
  exists n1 n2 p1 p2 a1 a2 b1 b2 rest, aaline (x0, y0) (x1, y1) =
    Ok (((n1, p1), a1) :: ((n1, p1 + 1), a2) :: ((n2, p2), b1) :: ((n2, p2 + 1), b2) :: rest) /\
    (0 <= a1)%Q /\ (0 <= a2)%Q /\ (0 <= b1)%Q /\ (0 <= b2)%Q /\
    (a1 + a2 == inject_Z n1 + (1 # 2) - x0)%Q /\ (b1 + b2 == inject_Z n2 + (1 # 2) - x1)%Q /\
    (let t := y0 + (y1 - y0) / (x1 - x0) * (inject_Z n1 - x0) in inject_Z p1 <= t < inject_Z p1 + 1 /\ a2 == (a1 + a2) * (t - inject_Z p1))%Q /\
    (let t := y1 + (y1 - y0) / (x1 - x0) * (inject_Z n2 - x1) in inject_Z p2 <= t < inject_Z p2 + 1 /\ b2 == (b1 + b2) * (t - inject_Z p2))%Q.
Proof.
  intros [X0 X] Y P0 P1. unfold aaline. cbn [nlt nsub NumQ].
  assert (St : Qlt_bool (wabs (x1 - x0)%Q) (wabs (y1 - y0)%Q) = false).
  { apply Qlt_bool_false. rewrite !wabs_abs. rewrite (Qabs.Qabs_pos (x1 - x0)) by lra. exact Y. }
  rewrite St. assert (Sw : Qlt_bool x1 x0 = false) by (apply Qlt_bool_false; lra). rewrite Sw.
  unfold ndivE. cbn [neq nofZ ndiv NumQ]. assert (Nz : Qeq_bool (x1 - x0) (inject_Z 0) = false).
  { destruct (Qeq_bool (x1 - x0) (inject_Z 0)) eqn:E; [|reflexivity]. apply Qeq_bool_iff in E. change (inject_Z 0) with 0%Q in E. lra. }
  rewrite Nz. cbn [bind]. set (g := ((y1 - y0) / (x1 - x0))%Q).
  assert (G : (-1 <= g <= 1)%Q).
  { apply Qabs.Qabs_Qle_condition in Y. unfold g. split; [apply Qle_shift_div_l; lra|apply Qle_shift_div_r; lra]. }
  destruct (wu_end false g x0 y0) as [[n1 ye1] px1] eqn:E1. destruct (wu_end false g x1 y1) as [[n2 ye2] px2] eqn:E2.
  destruct (wu_end_weights g x0 y0 n1 ye1 px1 X0 G P0 E1) as (p1 & a1 & a2 & -> & A & B & C & D & F).
  assert (X1 : (0 <= x1)%Q) by lra.
  destruct (wu_end_weights g x1 y1 n2 ye2 px2 X1 G P1 E2) as (p2 & b1 & b2 & -> & A' & B' & C' & D' & F').
  eexists n1, n2, p1, p2, a1, a2, b1, b2, _. split; [reflexivity|]. cbv zeta. fold g. auto 12.
Qed.
