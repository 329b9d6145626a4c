(** Raster statements in their final form. *)
From Coq Require Import Lia Lqa ZifyBool Sorted Permutation.
From Verif Require Import Num PfModel StrModel PfProofs RgProofs RoundProofs RasterModel RasterSpec RasterLine RasterCanvas RasterFill RasterScan RasterApi RasterMore.
Open Scope Z_scope.

Lemma api_bw_new w h bg : 0 <= w -> 0 <= h -> is_byte bg -> exists c, bw_new w h bg = Ok c /\ bw_ok w h c /\
  forall p, in_canvas w h p -> bw_get c p = Ok (Z.testbit bg (7 - fst p mod 8)).
Proof.
  intros W H B. destruct (bw_new_ok w h bg W H B) as (c & E & K & G). exists c. split; [exact E|]. split; [exact K|].
  intros p I. rewrite (bw_get_bit w h c p K I), (G p I). reflexivity.
Qed.
Lemma api_bw_background w h : 0 <= w -> 0 <= h ->
  (exists c, bw_new w h 0 = Ok c /\ forall p, in_canvas w h p -> bw_get c p = Ok false) /\
  (exists c, bw_new w h 255 = Ok c /\ forall p, in_canvas w h p -> bw_get c p = Ok true) /\
  (exists c, bw_new w h 1 = Ok c /\ forall p, in_canvas w h p -> bw_get c p = Ok (fst p mod 8 =? 7)).
Proof.
  intros W H. assert (B0 : is_byte 0) by (unfold is_byte; lia). assert (B1 : is_byte 1) by (unfold is_byte; lia).
  assert (B2 : is_byte 255) by (unfold is_byte; lia).
  destruct (api_bw_new w h 0 W H B0) as (c0 & E0 & _ & G0). destruct (api_bw_new w h 1 W H B1) as (c1 & E1 & _ & G1).
  destruct (api_bw_new w h 255 W H B2) as (c2 & E2 & _ & G2).
  assert (M : forall x, {k | 0 <= k < 8 /\ x mod 8 = k}).
  { intros x. exists (x mod 8). split; [apply Z.mod_pos_bound; lia|reflexivity]. }
  split; [exists c0; split; [exact E0|]; intros p I; rewrite (G0 p I), Z.bits_0; reflexivity|].
  split; [exists c2|exists c1]; (split; [assumption|]); intros p I; rewrite ?(G2 p I), ?(G1 p I); destruct (M (fst p)) as (k & K & ->);
    assert (D : k = 0 \/ k = 1 \/ k = 2 \/ k = 3 \/ k = 4 \/ k = 5 \/ k = 6 \/ k = 7) by lia;
    destruct D as [->|[->|[->|[->|[->|[->|[->| ->]]]]]]]; reflexivity.
Qed.
Lemma api_g_blend w h c p fg bg (a : Q) : g_ok w h c -> in_canvas w h p -> g_get c p = Ok bg -> is_byte fg -> (0 <= a <= 1)%Q ->
  exists c' v, g_set c p (GTup [fg] (Some a)) = Ok c' /\ g_ok w h c' /\ g_get c' p = Ok v /\
    (forall q, in_canvas w h q -> q <> p -> g_get c' q = g_get c q) /\
    Z.min bg fg <= v <= Z.max bg fg /\
    (inject_Z v - (1 # 2) <= inject_Z bg * (1 - a) + inject_Z fg * a < inject_Z v + (1 # 2))%Q.
Proof.
  intros K I G B A. destruct (g_get_in w h c p K I) as (b0 & G0 & Bb & _). rewrite G in G0. injection G0 as <-.
  assert (Bt : Z.min bg fg <= blend bg fg a <= Z.max bg fg) by (apply blend_between; [apply Bb|apply B|exact A]).
  assert (By : is_byte (blend bg fg a)) by (unfold is_byte in *; lia).
  destruct (g_get_blend w h c p fg a bg K I G By) as (c' & S & K' & G' & O). exists c', (blend bg fg a).
  split; [exact S|]. split; [exact K'|]. split; [exact G'|]. split; [exact O|]. split; [exact Bt|].
  apply blendQ; [apply Bb|apply B|exact A].
Qed.
Lemma api_c_blend w h c p r g b r0 g0 b0 (a : Q) : c_ok w h c -> in_canvas w h p -> c_get c p = Ok (r0, g0, b0) ->
  is_byte r -> is_byte g -> is_byte b -> (0 <= a <= 1)%Q ->
  exists c' r1 g1 b1, c_set c p ([r; g; b], Some a) = Ok c' /\ c_ok w h c' /\ c_get c' p = Ok (r1, g1, b1) /\
    (forall q, in_canvas w h q -> q <> p -> c_get c' q = c_get c q) /\
    Z.min r0 r <= r1 <= Z.max r0 r /\ Z.min g0 g <= g1 <= Z.max g0 g /\ Z.min b0 b <= b1 <= Z.max b0 b /\
    (inject_Z r1 - (1 # 2) <= inject_Z r0 * (1 - a) + inject_Z r * a < inject_Z r1 + (1 # 2))%Q /\
    (inject_Z g1 - (1 # 2) <= inject_Z g0 * (1 - a) + inject_Z g * a < inject_Z g1 + (1 # 2))%Q /\
    (inject_Z b1 - (1 # 2) <= inject_Z b0 * (1 - a) + inject_Z b * a < inject_Z b1 + (1 # 2))%Q.
Proof.
  intros K I G Br Bg Bb A. destruct (c_get_ok w h c p K I) as (r' & g' & b' & G' & _ & B1 & B2 & B3). rewrite G in G'. injection G' as <- <- <-.
  assert (Bt : forall x y, is_byte x -> is_byte y -> Z.min x y <= blend x y a <= Z.max x y /\ is_byte (blend x y a)).
  { intros x y Bx By. assert (Bw : Z.min x y <= blend x y a <= Z.max x y) by (apply blend_between; [apply Bx|apply By|exact A]).
    split; [exact Bw|]. unfold is_byte in *. lia. }
  destruct (Bt r0 r B1 Br) as [X1 Y1], (Bt g0 g B2 Bg) as [X2 Y2], (Bt b0 b B3 Bb) as [X3 Y3].
  destruct (c_set_three w h c p ([r; g; b], Some a) (r0, g0, b0) (blend r0 r a) (blend g0 g a) (blend b0 b a) K I G eq_refl Y1 Y2 Y3) as (c' & S & K' & Gc & O).
  exists c', (blend r0 r a), (blend g0 g a), (blend b0 b a). split; [exact S|]. split; [exact K'|]. split; [exact Gc|]. split; [exact O|].
  split; [exact X1|]. split; [exact X2|]. split; [exact X3|].
  split; [apply blendQ; [apply B1|apply Br|exact A]|]. split; [apply blendQ; [apply B2|apply Bg|exact A]|]. apply blendQ; [apply B3|apply Bb|exact A].
Qed.
Lemma api_blend_ends w h c p fg bg : g_ok w h c -> in_canvas w h p -> g_get c p = Ok bg -> is_byte fg ->
  (exists c', g_set c p (GTup [fg] (Some 0%Q)) = Ok c' /\ g_get c' p = Ok bg) /\
  (exists c', g_set c p (GTup [fg] (Some 1%Q)) = Ok c' /\ g_get c' p = Ok fg).
Proof.
  intros K I G B. destruct (g_get_in w h c p K I) as (b0 & G0 & Bb & _). rewrite G in G0. injection G0 as <-.
  destruct (blend_ends bg fg ltac:(apply Bb) ltac:(apply B)) as [E0 E1]. split.
  - destruct (g_get_blend w h c p fg 0%Q bg K I G) as (c' & S & _ & G' & _); [rewrite E0; exact Bb|]. rewrite E0 in G'. eauto.
  - destruct (g_get_blend w h c p fg 1%Q bg K I G) as (c' & S & _ & G' & _); [rewrite E1; exact B|]. rewrite E1 in G'. eauto.
Qed.

(** ** Lines *)
Lemma api_line a b : exists fuel px, line fuel a b = Some px /\
  nth_error px 0 = Some a /\ nth_error px (length px - 1) = Some b /\
  Z.of_nat (length px) = Z.max (Z.abs (fst b - fst a)) (Z.abs (snd b - snd a)) + 1.
Proof.
  exists (Z.to_nat (Z.abs (fst b - fst a) + Z.abs (snd b - snd a) + 1)), (ideal a b).
  split; [apply line_ideal; lia|]. split; [apply ideal_first|]. split; [apply ideal_last|apply ideal_length].
Qed.
Lemma line_det f1 f2 a b p1 p2 : line f1 a b = Some p1 -> line f2 a b = Some p2 -> p1 = p2.
Proof.
  assert (M : forall f1 f2 x0 y0 x1 y1 dx dy sx sy err p, (f1 <= f2)%nat -> line_loop f1 x0 y0 x1 y1 dx dy sx sy err = Some p ->
    line_loop f2 x0 y0 x1 y1 dx dy sx sy err = Some p).
  { clear. induction f1 as [|f1 IH]; intros f2 x0 y0 x1 y1 dx dy sx sy err p L; [discriminate|].
    destruct f2 as [|f2]; [lia|]. cbn [line_loop]. destruct ((x0 =? x1) && (y0 =? y1)); [auto|].
    destruct (- dy <? 2 * err); destruct (_ && _); auto; destruct (2 * err <? dx);
      match goal with |- option_map _ ?u = _ -> _ => destruct u as [q|] eqn:E; [|discriminate] end; apply (IH f2) in E; try lia; rewrite E; auto. }
  destruct a as [x0 y0], b as [x1 y1]. unfold line. intros E1 E2. destruct (Nat.le_ge_cases f1 f2) as [L|L].
  - apply (M _ f2 _ _ _ _ _ _ _ _ _ _ L) in E1. congruence.
  - apply (M _ f1 _ _ _ _ _ _ _ _ _ _ L) in E2. congruence.
Qed.
Lemma line_is_ideal fuel a b px : line fuel a b = Some px -> px = ideal a b.
Proof.
  intros E. eapply line_det; [exact E|]. apply (line_ideal a b (Z.to_nat (Z.abs (fst b - fst a) + Z.abs (snd b - snd a) + 1))); lia.
Qed.
Lemma api_line_pixel fuel a b px k p : line fuel a b = Some px -> nth_error px k = Some p ->
  let dx := Z.abs (fst b - fst a) in let dy := Z.abs (snd b - snd a) in
  let u := Z.abs (fst p - fst a) in let v := Z.abs (snd p - snd a) in
  Z.min (fst a) (fst b) <= fst p <= Z.max (fst a) (fst b) /\
  Z.min (snd a) (snd b) <= snd p <= Z.max (snd a) (snd b) /\
  (dy <= dx -> u = Z.of_nat k /\ (0 < dx -> - dx <= 2 * (v * dx - u * dy) < dx)) /\
  (dx < dy -> v = Z.of_nat k /\ - dy <= 2 * (u * dy - v * dx) < dy).
Proof.
  intros E N. apply line_is_ideal in E. subst px. pose proof (ideal_nth a b k p N) as H. cbv zeta in *.
  destruct H as (P1 & P2 & U & V & R1 & R2).
  pose proof (dir_abs (fst a) (fst b)) as D1. pose proof (dir_abs (snd a) (snd b)) as D2.
  pose proof (dir_cases (fst a) (fst b)) as S1. pose proof (dir_cases (snd a) (snd b)) as S2.
  split; [|split; [|split; [exact R1|exact R2]]].
  - destruct S1 as [S1|S1]; rewrite S1 in P1, D1; lia.
  - destruct S2 as [S2|S2]; rewrite S2 in P2, D2; lia.
Qed.
Lemma api_line_neighbours fuel a b px k p q : line fuel a b = Some px -> nth_error px k = Some p -> nth_error px (S k) = Some q ->
  p <> q /\ Z.abs (fst p - fst q) <= 1 /\ Z.abs (snd p - snd q) <= 1.
Proof.
  intros E Np Nq. apply line_is_ideal in E. subst px.
  pose proof (ideal_nth a b k p Np) as Hp. pose proof (ideal_nth a b (S k) q Nq) as Hq. cbv zeta in *.
  set (dx := Z.abs (fst b - fst a)) in *. set (dy := Z.abs (snd b - snd a)) in *. assert (0 <= dx) by lia. assert (0 <= dy) by lia.
  destruct Hp as (P1 & P2 & U & V & R1 & R2), Hq as (P1' & P2' & U' & V' & R1' & R2').
  pose proof (dir_cases (fst a) (fst b)) as S1. pose proof (dir_cases (snd a) (snd b)) as S2.
  set (u := Z.abs (fst p - fst a)) in *. set (v := Z.abs (snd p - snd a)) in *.
  set (u' := Z.abs (fst q - fst a)) in *. set (v' := Z.abs (snd q - snd a)) in *.
  assert (D : Z.abs (u - u') <= 1 /\ Z.abs (v - v') <= 1 /\ (u <> u' \/ v <> v')).
  { destruct (Z.le_gt_cases dy dx) as [C|C].
    - destruct (R1 C) as [E1 F1]. destruct (R1' C) as [E1' F1']. assert (0 < dx) by lia. specialize (F1 H1). specialize (F1' H1).
      rewrite Nat2Z.inj_succ in E1'. assert (E2 : u' = u + 1) by lia. rewrite E2 in *. clear - F1 F1' C H0 H1.
      assert (-1 <= v - v' <= 1) by nia. lia.
    - destruct (R2 C) as [E1 F1]. destruct (R2' C) as [E1' F1']. rewrite Nat2Z.inj_succ in E1'. assert (E2 : v' = v + 1) by lia. rewrite E2 in *. clear - F1 F1' C H H0.
      assert (-1 <= u - u' <= 1) by nia. lia. }
  destruct D as (Du & Dv & Dn). split.
  - intros ->. unfold u, u', v, v' in Dn. lia.
  - clearbody u u' v v'. rewrite P1, P2, P1', P2'. clear - Du Dv S1 S2. destruct S1 as [-> | ->], S2 as [-> | ->]; lia.
Qed.
(** Drawn on a canvas. *)
Lemma api_line_gray w h c a b v : g_ok w h c -> in_canvas w h a -> in_canvas w h b -> is_byte v ->
  exists fuel px c', line fuel a b = Some px /\ paint (g_set (T := Q)) px (GInt v) c = Ok c' /\ g_ok w h c' /\
    forall q, in_canvas w h q -> (In q px -> g_get c' q = Ok v) /\ (~ In q px -> g_get c' q = g_get c q).
Proof.
  intros K Ia Ib B. destruct (api_line a b) as (fuel & px & E & _). exists fuel, px.
  assert (F : Forall (in_canvas w h) px).
  { apply Forall_forall. intros p I. apply In_nth_error in I. destruct I as (k & N). pose proof (api_line_pixel fuel a b px k p E N) as H.
    cbv zeta in H. unfold in_canvas in *. lia. }
  destruct (paint_ok (g_set (T := Q)) g_get (g_ok w h) (in_canvas w h) (GInt v) v) with (ps := px) (c := c) as (c' & P & K' & G).
  - intros c0 p K0 Ip. apply (g_get_set w h c0 p v K0 Ip B).
  - exact K.
  - exact F.
  - exists c'. auto.
Qed.

(** ** Scanning *)
Lemma api_scan height points : 0 <= height -> Forall (fun p => 0 <= snd p <= height) points ->
  exists s', scanpolygon (T := Q) height points None = (s', Ok tt) /\ Z.of_nat (length s') = height /\
    forall y, 0 <= y -> Permutation (row s' y) (row_marks points y) /\ sorted (row s' y).
Proof.
  intros P F. destruct (scan_rows_ok height points None P F I) as (s' & E & L & R). exists s'. split; [exact E|]. split; [exact L|].
  intros y Py. destruct (R y Py) as [Pm S]. rewrite app_nil_r in Pm. auto.
Qed.
Lemma api_scan_more height points s : 0 <= height -> Forall (fun p => 0 <= snd p <= height) points -> Z.of_nat (length s) = height ->
  exists s', scanpolygon (T := Q) height points (Some s) = (s', Ok tt) /\ Z.of_nat (length s') = height /\
    forall y, 0 <= y -> Permutation (row s' y) (row_marks points y ++ row s y) /\ (sorted (row s y) -> sorted (row s' y)).
Proof. intros P F L. apply (scan_rows_ok height points (Some s) P F L). Qed.
Lemma api_balance {T} `{PyNum T} `{PyRound T} height points : 0 <= height -> Forall (fun p => 0 <= snd p <= height) points ->
  exists s', scanpolygon (T := T) height points None = (s', Ok tt) /\
    forall y, 0 <= y -> length (filter snd (row s' y)) = length (filter (fun m => negb (snd m)) (row s' y)).
Proof.
  intros P F. destruct (scan_any (T := T) height points P F) as (s' & E & _ & R). exists s'. split; [exact E|]. intros y Py.
  pose proof (R y Py) as Pm. pose proof (row_balance points y) as B.
  assert (G : forall (f : bool -> bool) (l l' : list mark), Permutation (map snd l) (map snd l') -> length (filter (fun m => f (snd m)) l) = length (filter (fun m => f (snd m)) l')).
  { clear. intros f l l' P. assert (E : forall l : list mark, length (filter (fun m => f (snd m)) l) = length (filter f (map snd l))).
    { induction l0 as [|m l0 IH]; [reflexivity|]. cbn. destruct (f (snd m)); cbn; lia. }
    rewrite !E. revert P. generalize (map snd l) (map snd l'). induction 1; cbn; repeat match goal with |- context [if ?c then _ else _] => destruct c end; cbn; lia. }
  rewrite (G negb _ _ Pm). etransitivity; [exact (G (fun b => b) _ _ Pm)|]. unfold tally in B. apply Nat2Z.inj in B.
  transitivity (length (filter (fun m => Bool.eqb (snd m) true) (row_marks points y))).
  - f_equal. apply filter_ext. intros [? []]; reflexivity.
  - rewrite B. f_equal; try (apply filter_ext; intros [? []]; reflexivity).
Qed.

(** ** Filling *)
Lemma api_fill_gray w h c points v : g_ok w h c -> 0 <= h -> is_byte v ->
  Forall (fun p => 0 <= fst p /\ 0 <= snd p <= h) points ->
  exists c', filled (g_set (T := Q)) w h points (GInt v) c = Ok c' /\ g_ok w h c' /\
    forall q, in_canvas w h q -> (painted w (row_marks points (snd q)) (fst q) -> g_get c' q = Ok v) /\
                                (~ painted w (row_marks points (snd q)) (fst q) -> g_get c' q = g_get c q).
Proof.
  intros K P B F. apply filled_ok; [|exact K|exact P|exact F]. intros c0 p K0 Ip. apply (g_get_set w h c0 p v K0 Ip B).
Qed.
Lemma api_fill_bw w h c points v : bw_ok w h c -> 0 <= h ->
  Forall (fun p => 0 <= fst p /\ 0 <= snd p <= h) points ->
  exists c', filled bw_set w h points v c = Ok c' /\ bw_ok w h c' /\
    forall q, in_canvas w h q -> (painted w (row_marks points (snd q)) (fst q) -> bw_get c' q = Ok v) /\
                                (~ painted w (row_marks points (snd q)) (fst q) -> bw_get c' q = bw_get c q).
Proof.
  intros K P F. apply filled_ok; [|exact K|exact P|exact F]. intros c0 p K0 Ip. apply (bw_get_set w h c0 p v K0 Ip).
Qed.
Lemma api_fill_color w h c points r g b : c_ok w h c -> 0 <= h -> is_byte r -> is_byte g -> is_byte b ->
  Forall (fun p => 0 <= fst p /\ 0 <= snd p <= h) points ->
  exists c', filled (c_set (T := Q)) w h points ([r; g; b], None) c = Ok c' /\ c_ok w h c' /\
    forall q, in_canvas w h q -> (painted w (row_marks points (snd q)) (fst q) -> c_get c' q = Ok (r, g, b)) /\
                                (~ painted w (row_marks points (snd q)) (fst q) -> c_get c' q = c_get c q).
Proof.
  intros K P Br Bg Bb F. apply filled_ok; [|exact K|exact P|exact F]. intros c0 p K0 Ip. apply (c_get_set w h c0 p r g b K0 Ip Br Bg Bb).
Qed.
Lemma meets_vertical x y0 y1 y : y0 <> y1 -> q_round (meets ((x, y0), (x, y1)) y) = x.
Proof.
  intros N. rewrite <- (q_round_Z x) at 3. apply q_round_comp. cbn [meets]. rewrite Z.sub_diag. change (inject_Z 0) with 0%Q.
  assert (C : ~ (inject_Z (y1 - y0) == 0)%Q). { intros C. change 0%Q with (inject_Z 0) in C. apply (proj1 (inject_Z_injective _ _)) in C. lia. }
  field. exact C.
Qed.
Lemma rect_marks x0 x1 y0 y1 y : y0 < y1 ->
  row_marks [(x0, y1); (x0, y0); (x1, y0); (x1, y1)] y = (if (y0 <=? y) && (y <? y1) then [(x0, false); (x1, true)] else []) /\
  row_marks [(x0, y0); (x0, y1); (x1, y1); (x1, y0)] y = (if (y0 <=? y) && (y <? y1) then [(x0, true); (x1, false)] else []).
Proof.
  intros L. unfold row_marks. split.
  - change (sides [(x0, y1); (x0, y0); (x1, y0); (x1, y1)]) with [((x0, y1), (x0, y0)); ((x0, y0), (x1, y0)); ((x1, y0), (x1, y1)); ((x1, y1), (x0, y1))].
    cbn [map concat]. rewrite (crossing_none y (x0, y0) (x1, y0)), (crossing_none y (x1, y1) (x0, y1)) by reflexivity. cbn [app].
    destruct ((y0 <=? y) && (y <? y1)) eqn:C.
    + rewrite crossing_up, crossing_down by (cbn; lia). rewrite !meets_vertical by lia. reflexivity.
    + rewrite !crossing_none by (cbn [snd]; lia). reflexivity.
  - change (sides [(x0, y0); (x0, y1); (x1, y1); (x1, y0)]) with [((x0, y0), (x0, y1)); ((x0, y1), (x1, y1)); ((x1, y1), (x1, y0)); ((x1, y0), (x0, y0))].
    cbn [map concat]. rewrite (crossing_none y (x0, y1) (x1, y1)), (crossing_none y (x1, y0) (x0, y0)) by reflexivity. cbn [app].
    destruct ((y0 <=? y) && (y <? y1)) eqn:C.
    + rewrite crossing_down, (crossing_up y (x1, y1)) by (cbn; lia). rewrite !meets_vertical by lia. reflexivity.
    + rewrite !crossing_none by (cbn [snd]; lia). reflexivity.
Qed.
Lemma api_rectangle w h c x0 y0 x1 y1 v : g_ok w h c -> is_byte v -> 0 <= x0 < x1 -> 0 <= y0 < y1 -> y1 <= h ->
  (exists c', filled (g_set (T := Q)) w h [(x0, y1); (x0, y0); (x1, y0); (x1, y1)] (GInt v) c = Ok c' /\
    forall x y, in_canvas w h (x, y) -> g_get c' (x, y) =
      if (x1 <? w) && ((x0 <=? x) && (x <? x1) && ((y0 <=? y) && (y <? y1))) then Ok v else g_get c (x, y)) /\
  (exists c', filled (g_set (T := Q)) w h [(x0, y0); (x0, y1); (x1, y1); (x1, y0)] (GInt v) c = Ok c' /\
    forall x y, in_canvas w h (x, y) -> g_get c' (x, y) =
      if (x0 <? w) && ((x <? x0) && ((y0 <=? y) && (y <? y1))) then Ok v else g_get c (x, y)).
Proof.
  intros K B X Y H. assert (Hh : 0 <= h) by lia. split.
  - destruct (api_fill_gray w h c [(x0, y1); (x0, y0); (x1, y0); (x1, y1)] v K Hh B) as (c' & E & _ & G).
    { repeat (apply Forall_cons; [cbn; lia|]). apply Forall_nil. }
    exists c'. split; [exact E|]. intros x y I. destruct (G (x, y) I) as [G1 G2]. cbn [fst snd] in G1, G2.
    rewrite (proj1 (rect_marks x0 x1 y0 y1 y ltac:(lia))) in G1, G2.
    destruct ((y0 <=? y) && (y <? y1)) eqn:C.
    + rewrite painted_span in G1, G2 by lia. destruct ((x1 <? w) && ((x0 <=? x) && (x <? x1) && true)) eqn:D; [apply G1; lia|apply G2; lia].
    + rewrite andb_false_r, andb_false_r. apply G2, painted_nil.
  - destruct (api_fill_gray w h c [(x0, y0); (x0, y1); (x1, y1); (x1, y0)] v K Hh B) as (c' & E & _ & G).
    { repeat (apply Forall_cons; [cbn; lia|]). apply Forall_nil. }
    exists c'. split; [exact E|]. intros x y I. destruct (G (x, y) I) as [G1 G2]. cbn [fst snd] in G1, G2.
    rewrite (proj2 (rect_marks x0 x1 y0 y1 y ltac:(lia))) in G1, G2. unfold in_canvas in I. cbn [fst snd] in I.
    destruct ((y0 <=? y) && (y <? y1)) eqn:C.
    + rewrite painted_outside in G1, G2 by lia. destruct ((x0 <? w) && ((x <? x0) && true)) eqn:D; [apply G1; lia|apply G2; lia].
    + rewrite andb_false_r, andb_false_r. apply G2, painted_nil.
Qed.
(** A clockwise triangle inside the canvas: on every row, from the rounded
    left crossing up to the rounded right crossing. *)
Lemma api_triangle w h c p1 p2 p3 v : g_ok w h c -> is_byte v -> 0 <= h ->
  Forall (fun p => 0 <= fst p < w /\ 0 <= snd p <= h) [p1; p2; p3] -> 0 <= turn p1 p2 p3 ->
  exists c', filled (g_set (T := Q)) w h [p1; p2; p3] (GInt v) c = Ok c' /\
    forall y, 0 <= y < h ->
      (snd p1 <= y /\ snd p2 <= y /\ snd p3 <= y \/ y < snd p1 /\ y < snd p2 /\ y < snd p3) /\
        (forall x, 0 <= x < w -> g_get c' (x, y) = g_get c (x, y)) \/
      exists u d, In u (sides [p1; p2; p3]) /\ In d (sides [p1; p2; p3]) /\ crosses false y u = true /\ crosses true y d = true /\
        (meets u y <= meets d y)%Q /\
        forall x, 0 <= x < w -> g_get c' (x, y) =
          if (q_round (meets u y) <=? x) && (x <? q_round (meets d y)) then Ok v else g_get c (x, y).
Proof.
  intros K B H F T. destruct (api_fill_gray w h c [p1; p2; p3] v K H B) as (c' & E & _ & G).
  { eapply Forall_impl; [|exact F]. cbn. intros. lia. }
  exists c'. split; [exact E|]. intros y Y. destruct (triangle_row p1 p2 p3 y T) as [[R O]|(u & d & Iu & Id & Cu & Cd & M & R)].
  - left. split; [exact O|]. intros x X. destruct (G (x, y)) as [_ G2]; [split; assumption|]. apply G2. cbn [fst snd]. rewrite R. apply painted_nil.
  - right. exists u, d. split; [exact Iu|]. split; [exact Id|]. split; [exact Cu|]. split; [exact Cd|]. split; [exact M|].
    intros x X. destruct (G (x, y)) as [G1 G2]; [split; assumption|]. cbn [fst snd] in G1, G2.
    pose proof (painted_perm w _ _ x R) as Pp. pose proof (q_round_mono _ _ M) as Mr. rewrite (painted_span w _ _ x Mr) in Pp.
    assert (W : q_round (meets d y) < w).
    { assert (I : In (q_round (meets d y), true) (row_marks [p1; p2; p3] y)) by (apply (Permutation_in _ (Permutation_sym R)); right; left; reflexivity).
      assert (F' : Forall (fun p : Z * Z => 0 <= fst p <= w - 1) [p1; p2; p3]) by (eapply Forall_impl; [|exact F]; cbn; intros; lia).
      pose proof (row_marks_range _ _ 0 (w - 1) _ F' I) as Rg. cbn [fst] in Rg. lia. }
    destruct ((q_round (meets u y) <=? x) && (x <? q_round (meets d y))) eqn:C; [apply G1, Pp; lia|apply G2; intros Q; apply Pp in Q; lia].
Qed.

(** ** Saved files *)
Lemma after_header {A} (h : list A) data i x : nth_error data i = Some x -> nth_error (h ++ data) (length h + i) = Some x.
Proof. intros N. rewrite nth_error_app2 by lia. replace (length h + i - length h)%nat with i by lia. exact N. Qed.
Lemma api_g_save w h c : g_ok w h c ->
  exists head, g_save c = head ++ g_data c /\ head = [80; 53; 10] ++ str_int w ++ [32] ++ str_int h ++ [10; 50; 53; 53; 10] /\
    Z.of_nat (length (g_save c)) = Z.of_nat (length head) + w * h /\
    forall x y, in_canvas w h (x, y) -> exists v, g_get c (x, y) = Ok v /\
      nth_error (g_save c) (length head + Z.to_nat (y * w + x)) = Some v.
Proof.
  intros K. pose proof K as (Hw & Hh & L & B). exists ([80; 53; 10] ++ str_int w ++ [32] ++ str_int h ++ [10; 50; 53; 53; 10]).
  assert (E : g_save c = ([80; 53; 10] ++ str_int w ++ [32] ++ str_int h ++ [10; 50; 53; 53; 10]) ++ g_data c).
  { unfold g_save, size_line. rewrite Hw, Hh. rewrite <- !app_assoc. reflexivity. }
  split; [exact E|]. split; [reflexivity|]. split; [rewrite E, app_length; lia|].
  intros x y I. destruct (g_get_in w h c (x, y) K I) as (v & G & _ & N). exists v. split; [exact G|]. rewrite E. apply after_header. exact N.
Qed.
Lemma nth_firstn3 {A} (l : list A) k a b c : firstn 3 (skipn k l) = [a; b; c] ->
  nth_error l k = Some a /\ nth_error l (k + 1) = Some b /\ nth_error l (k + 2) = Some c.
Proof.
  intros E. assert (S : forall j, nth_error l (k + j) = nth_error (skipn k l) j).
  { clear. revert l. induction k as [|k IH]; intros l j; [reflexivity|]. destruct l; [destruct j; reflexivity|]. apply IH. }
  rewrite <- (Nat.add_0_r k) at 1. rewrite !S. destruct (skipn k l) as [|a' [|b' [|c' r]]]; cbn in E; try discriminate.
  injection E as <- <- <-. auto.
Qed.
Lemma api_c_save w h c : c_ok w h c ->
  exists head, c_save c = head ++ c_data c /\ head = [80; 54; 10] ++ str_int w ++ [32] ++ str_int h ++ [10; 50; 53; 53; 10] /\
    Z.of_nat (length (c_save c)) = Z.of_nat (length head) + 3 * (w * h) /\
    forall x y, in_canvas w h (x, y) -> exists r g b, c_get c (x, y) = Ok (r, g, b) /\
      let i := (length head + 3 * Z.to_nat (y * w + x))%nat in
      nth_error (c_save c) i = Some r /\ nth_error (c_save c) (i + 1) = Some g /\ nth_error (c_save c) (i + 2) = Some b.
Proof.
  intros K. pose proof K as (Hw & Hh & L & B). exists ([80; 54; 10] ++ str_int w ++ [32] ++ str_int h ++ [10; 50; 53; 53; 10]).
  assert (E : c_save c = ([80; 54; 10] ++ str_int w ++ [32] ++ str_int h ++ [10; 50; 53; 53; 10]) ++ c_data c).
  { unfold c_save, size_line. rewrite Hw, Hh. rewrite <- !app_assoc. reflexivity. }
  split; [exact E|]. split; [reflexivity|]. split; [rewrite E, app_length; lia|].
  intros x y I. destruct (c_get_ok w h c (x, y) K I) as (r & g & b & G & N & _). exists r, g, b. split; [exact G|]. rewrite E.
  apply nth_firstn3 in N. destruct N as (N1 & N2 & N3). cbv zeta. rewrite <- !Nat.add_assoc.
  split; [apply after_header; exact N1|]. split; [apply after_header; exact N2|apply after_header; exact N3].
Qed.
Lemma api_bw_save w h c : bw_ok w h c ->
  exists head, bw_save c = head ++ bw_data c /\ head = [80; 52; 10] ++ str_int w ++ [32] ++ str_int h ++ [10] /\
    Z.of_nat (length (bw_save c)) = Z.of_nat (length head) + (w + 7) / 8 * h /\
    forall x y, in_canvas w h (x, y) -> exists b, nth_error (bw_save c) (length head + Z.to_nat (y * ((w + 7) / 8) + x / 8)) = Some b /\
      bw_get c (x, y) = Ok (Z.testbit b (7 - x mod 8)).
Proof.
  intros K. pose proof K as (Hw & Hh & Rw & L & B). exists ([80; 52; 10] ++ str_int w ++ [32] ++ str_int h ++ [10]).
  assert (E : bw_save c = ([80; 52; 10] ++ str_int w ++ [32] ++ str_int h ++ [10]) ++ bw_data c).
  { unfold bw_save, size_line. rewrite Hw, Hh. rewrite <- !app_assoc. reflexivity. }
  split; [exact E|]. split; [reflexivity|]. split; [rewrite E, app_length; lia|].
  intros x y I. pose proof (bw_index_range w h (x, y) _ I L) as R.
  assert (D : bw_index w (x, y) / 8 = y * ((w + 7) / 8) + x / 8 /\ bw_index w (x, y) mod 8 = x mod 8).
  { unfold bw_index. cbn [fst snd]. replace (y * (8 * ((w + 7) / 8)) + x) with (x + y * ((w + 7) / 8) * 8) by ring.
    rewrite Z.div_add, Z.mod_add by lia. split; [ring|reflexivity]. }
  destruct D as [D1 D2]. destruct (py_get_in (bw_data c) _ R) as (b & N & _). exists b. rewrite E. split.
  - rewrite <- D1. apply after_header. exact N.
  - rewrite (bw_get_bit w h c (x, y) K I). unfold bit. rewrite (nth_of_error _ _ _ 0 N), D2. reflexivity.
Qed.
Lemma line_loop_more f : forall f' x0 y0 x1 y1 dx dy sx sy err px, (f <= f')%nat ->
  line_loop f x0 y0 x1 y1 dx dy sx sy err = Some px -> line_loop f' x0 y0 x1 y1 dx dy sx sy err = Some px.
Proof.
  induction f as [|f IH]; intros f' x0 y0 x1 y1 dx dy sx sy err px L E; [discriminate|].
  destruct f' as [|f']; [lia|]. cbn [line_loop] in *. destruct ((x0 =? x1) && (y0 =? y1)); [exact E|].
  cbv zeta in *. destruct (((if - dy <? 2 * err then x0 + sx else x0) =? x1) && (y0 =? y1)); [exact E|].
  match type of E with option_map _ ?t = _ => destruct t as [l|] eqn:T; [|discriminate] end.
  rewrite (IH f' _ _ _ _ _ _ _ _ _ l ltac:(lia) T). exact E.
Qed.
Lemma line_more f f' a b px : (f <= f')%nat -> line f a b = Some px -> line f' a b = Some px.
Proof. destruct a, b. unfold line. apply line_loop_more. Qed.
Lemma line_agree f f' a b p q : line f a b = Some p -> line f' a b = Some q -> p = q.
Proof.
  intros E E'. apply (line_more f (Nat.max f f')) in E; [|lia]. apply (line_more f' (Nat.max f f')) in E'; [|lia]. congruence.
Qed.
Lemma api_stroke points : exists fuel px, strokepolygon fuel points = Some px /\
  forall q, In q px <-> exists a b f l, In (a, b) (sides points) /\ line f a b = Some l /\ In q l.
Proof.
  unfold strokepolygon. rewrite edges_sides. generalize (sides points) as es. induction es as [|[a b] es IH].
  { exists O, []. split; [reflexivity|]. intros q. split; [intros []|intros (a & b & f & l & [] & _)]. }
  destruct IH as (f & px & E & I). destruct (api_line a b) as (f1 & l & El & _).
  destruct (omap _ es) as [ls|] eqn:O; [|discriminate]. cbn [option_map] in E. injection E as <-.
  exists (Nat.max f f1), (l ++ concat ls). split.
  - cbn [omap fst snd]. rewrite (line_more f1 (Nat.max f f1) _ _ l ltac:(lia) El).
    assert (O' : omap (fun e => line (Nat.max f f1) (fst e) (snd e)) es = Some ls).
    { clear I. revert ls O. induction es as [|e es IH]; intros ls O; [exact O|]. cbn [omap] in *.
      destruct (line f (fst e) (snd e)) as [le|] eqn:L; [|discriminate]. rewrite (line_more f (Nat.max f f1) _ _ le ltac:(lia) L).
      destruct (omap _ es) as [r|]; [|discriminate]. rewrite (IH r eq_refl). exact O. }
    rewrite O'. reflexivity.
  - intros q. rewrite in_app_iff, I. split.
    + intros [H|(a' & b' & f' & l' & S & L & H)].
      * exists a, b, f1, l. split; [left; reflexivity|]. auto.
      * exists a', b', f', l'. split; [right; exact S|]. auto.
    + intros (a' & b' & f' & l' & [S|S] & L & H).
      * injection S as <- <-. left. rewrite (line_agree f1 f' a b l l' El L). exact H.
      * right. exists a', b', f', l'. auto.
Qed.
