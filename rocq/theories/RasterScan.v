(** Scan conversion: the marks of every row. *)
From Coq Require Import Lia Lqa ZifyBool Sorted Permutation.
From Verif Require Import Num PfModel PfProofs RgProofs RoundProofs RasterModel RasterSpec RasterLine RasterCanvas RasterFill.
Open Scope Z_scope.

Lemma edges_sides {A} (l : list A) : edges l = sides l.
Proof.
  unfold edges, sides. destruct l as [|a r]; [reflexivity|]. cbn [tl firstn].
  assert (G : forall (l : list A) x z, combine (x :: l) (l ++ [z]) = joined (x :: l ++ [z])).
  { induction l as [|y l IH]; intros x z; [reflexivity|]. cbn [app combine joined]. f_equal. apply (IH y z). }
  apply G.
Qed.

(** ** Rows *)
Lemma nth_set_nth {A} (d x : A) i j l : (i < length l)%nat -> nth j (set_nth i x l) d = if Nat.eqb i j then x else nth j l d.
Proof.
  revert i j. induction l as [|y l IH]; intros i j L; cbn in L; [lia|]. destruct i, j; cbn; try reflexivity. apply IH. lia.
Qed.
Lemma push_row_in scans y m : 0 <= y < Z.of_nat (length scans) ->
  exists s', push_row scans y m = Ok s' /\ length s' = length scans /\
    forall r, 0 <= r -> row s' r = if r =? y then heappush m (row scans y) else row scans r.
Proof.
  intros R. unfold push_row. destruct (py_get_in scans y R) as (h & N & ->). cbn [bind]. rewrite py_set_in by exact R.
  eexists. split; [reflexivity|]. split; [apply set_nth_length|]. intros r Pr. unfold row. rewrite nth_set_nth by lia.
  rewrite (nth_error_nth scans (Z.to_nat y) [] N).
  destruct (Z.eqb_spec r y) as [->|Ne]; [rewrite Nat.eqb_refl; reflexivity|].
  replace (Nat.eqb (Z.to_nat y) (Z.to_nat r)) with false by lia. reflexivity.
Qed.
Section Rows.
  Context {T : Type} `{PyNum T} `{PyRound T}.
  Lemma scan_rows_in n y (x step : T) down scans : 0 <= y -> y + Z.of_nat n <= Z.of_nat (length scans) ->
    exists s', scan_rows n y x step down scans = (s', Ok tt) /\ length s' = length scans /\
      forall r, 0 <= r -> row s' r =
        if (y <=? r) && (r <? y + Z.of_nat n)
        then heappush (nround (Nat.iter (Z.to_nat (r - y)) (fun x => nadd x step) x), down) (row scans r) else row scans r.
  Proof.
    revert y x scans. induction n as [|n IH]; intros y x scans P L; cbn [scan_rows].
    - exists scans. split; [reflexivity|]. split; [reflexivity|]. intros r Pr.
      replace ((y <=? r) && (r <? y + Z.of_nat 0)) with false by lia. reflexivity.
    - destruct (push_row_in scans y (nround x, down) ltac:(lia)) as (s1 & -> & L1 & R1).
      destruct (IH (y + 1) (nadd x step) s1 ltac:(lia) ltac:(lia)) as (s' & E & L' & R'). exists s'. split; [exact E|]. split; [lia|].
      intros r Pr. rewrite (R' r Pr), (R1 r Pr). destruct (Z.eqb_spec r y) as [->|Ne].
      + replace ((y + 1 <=? y) && (y <? y + 1 + Z.of_nat n)) with false by lia.
        replace ((y <=? y) && (y <? y + Z.of_nat (S n))) with true by lia. rewrite Z.sub_diag. reflexivity.
      + destruct ((y + 1 <=? r) && (r <? y + 1 + Z.of_nat n)) eqn:C.
        * replace ((y <=? r) && (r <? y + Z.of_nat (S n))) with true by lia. do 3 f_equal.
          replace (Z.to_nat (r - y)) with (S (Z.to_nat (r - (y + 1)))) by lia.
          generalize (Z.to_nat (r - (y + 1))). intros k. clear. induction k as [|k IHk]; [reflexivity|].
          change (nadd (Nat.iter k (fun x => nadd x step) (nadd x step)) step = nadd (Nat.iter (S k) (fun x => nadd x step) x) step).
          rewrite IHk. reflexivity.
        * replace ((y <=? r) && (r <? y + Z.of_nat (S n))) with false by lia. reflexivity.
  Qed.
  Lemma scan_vertical_in n y x down scans : 0 <= y -> y + Z.of_nat n <= Z.of_nat (length scans) ->
    exists s', scan_vertical n y x down scans = (s', Ok tt) /\ length s' = length scans /\
      forall r, 0 <= r -> row s' r =
        if (y <=? r) && (r <? y + Z.of_nat n) then heappush (x, down) (row scans r) else row scans r.
  Proof.
    revert y scans. induction n as [|n IH]; intros y scans P L; cbn [scan_vertical].
    - exists scans. split; [reflexivity|]. split; [reflexivity|]. intros r Pr.
      replace ((y <=? r) && (r <? y + Z.of_nat 0)) with false by lia. reflexivity.
    - destruct (push_row_in scans y (x, down) ltac:(lia)) as (s1 & -> & L1 & R1).
      destruct (IH (y + 1) s1 ltac:(lia) ltac:(lia)) as (s' & E & L' & R'). exists s'. split; [exact E|]. split; [lia|].
      intros r Pr. rewrite (R' r Pr), (R1 r Pr). destruct (Z.eqb_spec r y) as [->|Ne].
      + replace ((y + 1 <=? y) && (y <? y + 1 + Z.of_nat n)) with false by lia.
        replace ((y <=? y) && (y <? y + Z.of_nat (S n))) with true by lia. reflexivity.
      + destruct ((y + 1 <=? r) && (r <? y + 1 + Z.of_nat n)) eqn:C.
        * replace ((y <=? r) && (r <? y + Z.of_nat (S n))) with true by lia. reflexivity.
        * replace ((y <=? r) && (r <? y + Z.of_nat (S n))) with false by lia. reflexivity.
  Qed.
End Rows.

(** ** One edge, exact arithmetic *)
Definition push_all (ms h : list mark) : list mark := fold_left (fun h m => heappush m h) ms h.
Lemma iter_add k (x step : Q) : (Nat.iter k (fun x => nadd x step) x == x + inject_Z (Z.of_nat k) * step)%Q.
Proof.
  induction k as [|k IH]; [cbn; ring|]. cbn [Nat.iter nat_rect]. unfold Nat.iter in IH. cbn [nadd NumQ] in *. rewrite IH.
  rewrite Nat2Z.inj_succ. unfold Z.succ. rewrite inject_Z_plus. ring.
Qed.
Lemma meets_swap p q y : snd p <> snd q -> (meets (p, q) y == meets (q, p) y)%Q.
Proof.
  destruct p as [x0 y0], q as [x1 y1]. cbn [snd meets]. intros N.
  unfold Z.sub. rewrite !inject_Z_plus, !inject_Z_opp. field.
  split; intros C.
  - apply N. apply inject_Z_injective. lra.
  - apply N. apply inject_Z_injective. lra.
Qed.
Lemma step_value (x0 y0 x1 y1 : Z) : y0 < y1 -> x0 <> x1 ->
  ((inject_Z (if (x0 <? x1)%Z then 1 else -1)) / nabs (inject_Z (y1 - y0) / inject_Z (x1 - x0)) ==
   inject_Z (x1 - x0) / inject_Z (y1 - y0))%Q.
Proof.
  intros Y X. assert (Yq : (0 < inject_Z (y1 - y0))%Q) by (rewrite <- (Zlt_Qlt 0); lia).
  unfold nabs. cbn [nlt nsub nofZ NumQ].
  destruct (Z.ltb_spec x0 x1) as [C|C].
  - assert (Xq : (0 < inject_Z (x1 - x0))%Q) by (rewrite <- (Zlt_Qlt 0); lia).
    assert (Pq : (0 <= inject_Z (y1 - y0) / inject_Z (x1 - x0))%Q) by (apply Qle_shift_div_l; lra).
    rewrite (proj2 (Qlt_bool_false _ _)) by exact Pq.
    change (inject_Z 1) with 1%Q. field. split; lra.
  - assert (Xq : (inject_Z (x1 - x0) < 0)%Q) by (rewrite <- (Zlt_Qlt _ 0); lia).
    assert (Pq : (inject_Z (y1 - y0) / inject_Z (x1 - x0) < 0)%Q).
    { setoid_replace (inject_Z (y1 - y0) / inject_Z (x1 - x0))%Q with (- (inject_Z (y1 - y0) / (- inject_Z (x1 - x0))))%Q by (field; lra).
      assert (0 < inject_Z (y1 - y0) / (- inject_Z (x1 - x0)))%Q by (apply Qlt_shift_div_l; lra). lra. }
    rewrite (proj2 (Qlt_bool_true _ _)) by exact Pq.
    change (inject_Z (-1)) with (-1)%Q. change (inject_Z 0) with 0%Q. field. split; lra.
Qed.
Lemma q_round_inject z : q_round (inject_Z z) = z.
Proof. apply q_round_Z. Qed.
(** Downward edges. *)
Lemma scan_down height x0 y0 x1 y1 down scans : 0 <= y0 -> y0 < y1 <= height -> Z.of_nat (length scans) = height ->
  exists s', (if x0 =? x1 then scan_vertical (Z.to_nat (y1 - y0)) y0 x0 down scans
     else scan_rows (Z.to_nat (y1 - y0)) y0 (nofZ x0 : Q)
            (ndiv (nofZ (if x0 <? x1 then 1 else -1)) (nabs (ndiv (nofZ (y1 - y0)) (nofZ (x1 - x0))))) down scans) = (s', Ok tt) /\
    length s' = length scans /\
    forall r, 0 <= r -> row s' r =
      if (y0 <=? r) && (r <? y1) then heappush (q_round (meets ((x0, y0), (x1, y1)) r), down) (row scans r) else row scans r.
Proof.
  intros P Y L. destruct (Z.eqb_spec x0 x1) as [->|N].
  - destruct (scan_vertical_in (Z.to_nat (y1 - y0)) y0 x1 down scans ltac:(lia) ltac:(lia)) as (s' & E & L' & R').
    exists s'. split; [exact E|]. split; [exact L'|]. intros r Pr. rewrite (R' r Pr). rewrite Z2Nat.id by lia.
    replace (y0 + (y1 - y0)) with y1 by lia. destruct ((y0 <=? r) && (r <? y1)); [|reflexivity]. do 2 f_equal.
    rewrite <- (q_round_inject x1) at 1. apply q_round_comp. cbn [meets]. rewrite Z.sub_diag. change (inject_Z 0) with 0%Q.
    assert (Yq : (0 < inject_Z (y1 - y0))%Q) by (rewrite <- (Zlt_Qlt 0); lia). field. lra.
  - match goal with |- context [scan_rows ?n ?y ?x ?st ?d ?s] =>
      destruct (scan_rows_in n y x st d s ltac:(lia) ltac:(lia)) as (s' & E & L' & R') end.
    exists s'. split; [exact E|]. split; [exact L'|]. intros r Pr. rewrite (R' r Pr). rewrite Z2Nat.id by lia.
    replace (y0 + (y1 - y0)) with y1 by lia. destruct ((y0 <=? r) && (r <? y1)) eqn:C; [|reflexivity]. do 2 f_equal.
    cbn [nround RoundQ]. apply q_round_comp. rewrite iter_add, Z2Nat.id by lia. cbn [meets ndiv nofZ NumQ].
    rewrite step_value by lia. assert (Yq : (0 < inject_Z (y1 - y0))%Q) by (rewrite <- (Zlt_Qlt 0); lia). field. lra.
Qed.
Lemma scan_edge_in height e scans : below height (fst e) -> below height (snd e) -> Z.of_nat (length scans) = height ->
  exists s', scan_edge (T := Q) e scans = (s', Ok tt) /\ length s' = length scans /\
    forall r, 0 <= r -> row s' r = push_all (crossing r e) (row scans r).
Proof.
  destruct e as [[x0 y0] [x1 y1]]. unfold below. cbn [fst snd]. intros [A1 A2] [B1 B2] L. unfold scan_edge.
  destruct (Z.eqb_spec y0 y1) as [->|N].
  - exists scans. split; [reflexivity|]. split; [reflexivity|]. intros r Pr. unfold crossing, crosses.
    replace ((y1 <=? r) && (r <? y1)) with false by lia. reflexivity.
  - destruct (Z.ltb_spec y0 y1) as [C|C].
    + destruct (scan_down height x0 y0 x1 y1 true scans A1 ltac:(lia) L) as (s' & E & L' & R').
      exists s'. split; [exact E|]. split; [exact L'|]. intros r Pr. rewrite (R' r Pr). unfold crossing, crosses.
      destruct ((y0 <=? r) && (r <? y1)) eqn:K; [reflexivity|]. replace ((y1 <=? r) && (r <? y0)) with false by lia. reflexivity.
    + destruct (scan_down height x1 y1 x0 y0 false scans B1 ltac:(lia) L) as (s' & E & L' & R').
      exists s'. split; [exact E|]. split; [exact L'|]. intros r Pr. rewrite (R' r Pr). unfold crossing, crosses.
      replace ((y0 <=? r) && (r <? y1)) with false by lia. destruct ((y1 <=? r) && (r <? y0)) eqn:K; [|reflexivity].
      cbn [push_all fold_left]. do 2 f_equal. apply q_round_comp. apply meets_swap. cbn. lia.
Qed.
Lemma push_all_app a b h : push_all (a ++ b) h = push_all b (push_all a h).
Proof. apply fold_left_app. Qed.
Lemma scan_edges_in height es scans : Forall (fun e => below height (fst e) /\ below height (snd e)) es ->
  Z.of_nat (length scans) = height ->
  exists s', scan_edges (T := Q) es scans = (s', Ok tt) /\ length s' = length scans /\
    forall r, 0 <= r -> row s' r = push_all (concat (map (crossing r) es)) (row scans r).
Proof.
  intros F. revert scans. induction F as [|e es [B1 B2] F IH]; intros scans L.
  - exists scans. split; [reflexivity|]. split; reflexivity.
  - destruct (scan_edge_in height e scans B1 B2 L) as (s1 & E1 & L1 & R1). cbn [scan_edges]. rewrite E1.
    destruct (IH s1 ltac:(lia)) as (s' & E' & L' & R'). exists s'. split; [exact E'|]. split; [lia|].
    intros r Pr. rewrite (R' r Pr), (R1 r Pr). cbn [map concat]. rewrite push_all_app. reflexivity.
Qed.
Lemma push_all_perm ms h : Permutation (push_all ms h) (ms ++ h).
Proof.
  revert h. induction ms as [|m ms IH]; intros h; [reflexivity|]. cbn [push_all fold_left]. fold (push_all ms (heappush m h)).
  rewrite IH, push_perm. cbn [app]. symmetry. apply Permutation_middle.
Qed.
Lemma push_all_sorted ms h : sorted h -> sorted (push_all ms h).
Proof. revert h. induction ms as [|m ms IH]; intros h S; [exact S|]. apply IH, push_sorted, S. Qed.
Lemma joined_forall {A} (P : A -> Prop) l : Forall P l -> Forall (fun e => P (fst e) /\ P (snd e)) (joined l).
Proof.
  induction 1 as [|a l Pa F IH]; [constructor|]. destruct l as [|b l]; [constructor|]. cbn [joined]. constructor; [|exact IH].
  cbn. split; [exact Pa|exact (Forall_inv F)].
Qed.
Lemma sides_forall {A} (P : A -> Prop) l : Forall P l -> Forall (fun e => P (fst e) /\ P (snd e)) (sides l).
Proof.
  intros F. unfold sides. destruct l as [|a r]; [constructor|]. apply joined_forall. apply Forall_app.
  split; [exact F|]. constructor; [exact (Forall_inv F)|constructor].
Qed.
Lemma row_empty n r : row (repeat [] n) r = [].
Proof. unfold row. destruct (nth_in_or_default (Z.to_nat r) (repeat ([] : list mark) n) []) as [I|E]; [apply repeat_spec in I; exact I|exact E]. Qed.
Lemma scan_rows_ok height points scans0 : 0 <= height -> Forall (below height) points ->
  match scans0 with None => True | Some s => Z.of_nat (length s) = height end ->
  exists s', scanpolygon (T := Q) height points scans0 = (s', Ok tt) /\ Z.of_nat (length s') = height /\
    forall y, 0 <= y ->
      Permutation (row s' y) (row_marks points y ++ match scans0 with None => [] | Some s => row s y end) /\
      (match scans0 with None => True | Some s => sorted (row s y) end -> sorted (row s' y)).
Proof.
  intros P F L. unfold scanpolygon. rewrite edges_sides. pose proof (sides_forall _ _ F) as FS.
  set (s0 := match scans0 with None => repeat [] (Z.to_nat height) | Some s => s end).
  assert (L0 : Z.of_nat (length s0) = height).
  { unfold s0. destruct scans0; [exact L|]. rewrite repeat_length, Z2Nat.id by exact P. reflexivity. }
  destruct (scan_edges_in height (sides points) s0 FS L0) as (s' & E & L' & R'). exists s'. split; [exact E|]. split; [lia|].
  intros y Py. rewrite (R' y Py). fold (row_marks points y). split.
  - rewrite push_all_perm. unfold s0. destruct scans0; [reflexivity|]. rewrite row_empty. reflexivity.
  - intros S. apply push_all_sorted. unfold s0. destruct scans0; [exact S|]. rewrite row_empty. constructor.
Qed.

(** ** Balance: as many downward marks as upward ones *)
Definition tally (d : bool) (l : list mark) : Z := Z.of_nat (length (filter (fun m => Bool.eqb (snd m) d) l)).
Lemma tally_app d a b : tally d (a ++ b) = tally d a + tally d b.
Proof. unfold tally. rewrite filter_app, app_length. apply Nat2Z.inj_add. Qed.
Lemma crossing_tally y p q : tally true (crossing y (p, q)) - tally false (crossing y (p, q)) =
  (if y <? snd q then 1 else 0) - (if y <? snd p then 1 else 0).
Proof.
  destruct p as [x0 y0], q as [x1 y1]. unfold crossing, crosses. cbn [snd].
  destruct ((y0 <=? y) && (y <? y1)) eqn:A; [|destruct ((y1 <=? y) && (y <? y0)) eqn:B]; unfold tally; cbn [filter snd Bool.eqb length];
    destruct (y <? y1) eqn:C, (y <? y0) eqn:D; lia.
Qed.
Lemma joined_tally y (l : list (Z * Z)) a z : tally true (concat (map (crossing y) (joined (a :: l ++ [z])))) -
  tally false (concat (map (crossing y) (joined (a :: l ++ [z])))) = (if y <? snd z then 1 else 0) - (if y <? snd a then 1 else 0).
Proof.
  revert a. induction l as [|b l IH]; intros a.
  - cbn [app joined map concat]. rewrite app_nil_r. apply crossing_tally.
  - change (joined (a :: (b :: l) ++ [z])) with ((a, b) :: joined (b :: l ++ [z])). cbn [map concat].
    rewrite !tally_app. specialize (IH b). pose proof (crossing_tally y a b) as C. lia.
Qed.
Lemma row_balance points y : tally true (row_marks points y) = tally false (row_marks points y).
Proof.
  unfold row_marks, sides. destruct points as [|a r]; [reflexivity|]. pose proof (joined_tally y r a a) as J. change ((a :: r) ++ [a]) with (a :: r ++ [a]).
  rewrite Z.sub_diag in J. apply Zminus_eq. exact J.
Qed.
Lemma tally_perm d a b : Permutation a b -> tally d a = tally d b.
Proof. intros P. unfold tally. f_equal. induction P; cbn; repeat match goal with |- context [if ?c then _ else _] => destruct c end; cbn; lia. Qed.
