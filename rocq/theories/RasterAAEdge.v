(** Anti-aliased lines along the last row. *)
From Coq Require Import ZArith Reals Lia Lra SpecFloat.
From Flocq Require Import Core IEEE754.BinarySingleNaN.
From Verif Require Import Num FloatLib SimplifyModel PfFinal RasterModel RasterAAModel RasterSpec RasterCanvas RasterApi RasterScan RasterAASpec RasterAA RasterAALine RasterAACore RasterAAWhole RasterAACanvas.
Open Scope R_scope.

(** A horizontal line between whole points starts with two pixels of its left end. *)
Lemma horizontal s e y x0 x1 : (0 <= y < 2 ^ 20)%Z -> (0 <= x0 < x1)%Z -> (x1 < 2 ^ 20)%Z -> at2 s (IZR x0, IZR y) -> at2 e (IZR x1, IZR y) ->
  exists a1 a2 rest, aaline s e = Ok (((x0, y), a1) :: ((x0, y + 1)%Z, a2) :: rest) /\ weight a1 /\ weight a2.
Proof.
  destruct s as [sx sy], e as [ex ey]. intros Y X X1 [I0 J0] [I1 J1]. cbn [fst snd] in *.
  assert (BY : 0 <= IZR y <= 1048576) by (split; apply IZR_le; lia). assert (B0 : 0 <= IZR x0 <= 1048576) by (split; apply IZR_le; lia).
  assert (B1 : 0 <= IZR x1 <= 1048576) by (split; apply IZR_le; lia). assert (Lt : IZR x0 < IZR x1) by (apply IZR_lt; lia).
  assert (Z0 : rnd (IZR y - IZR y) = 0) by (rewrite Rminus_diag_eq by reflexivity; apply (rnd_IZR 0); lia).
  assert (Pd : 0 <= rnd (IZR x1 - IZR x0)) by (apply rnd_pos; lra).
  assert (St : nlt (wabs (nsub ex sx)) (wabs (nsub ey sy)) = false).
  { cbn [nlt NumF]. rewrite (isf_lt _ _ (Rabs (rnd (IZR x1 - IZR x0))) (Rabs (rnd (IZR y - IZR y)))); [|apply isf_wabs; apply diff_double; assumption ..].
    apply Rlt_bool_false. rewrite Z0, Rabs_R0. apply Rabs_pos. }
  unfold aaline. rewrite St, (oriented false sx sy ex ey _ _ I0 I1 B0 B1). rewrite Req_bool_false by lra. rewrite Rlt_bool_false by lra.
  destruct (slope sx sy ex ey _ _ _ _ I0 J0 I1 J1 Lt) as (G & Ig & Bg & _); [apply Rabs_le; lra ..|rewrite Z0, Rabs_R0; exact Pd|].
  set (g := fdiv (fsub ey sy) (fsub ex sx)) in *.
  destruct (end_double false g sx sy G _ _ Ig I0 J0 Bg B0 BY) as (V & a1 & a2 & A1 & A2 & W & _ & _ & Wh & _ & Ia1 & Ia2 & Ba1 & Ba2); [left; exists x0; reflexivity|].
  destruct (nearest_double sx _ I0 B0) as (_ & _ & _ & _ & _ & Nw). specialize (Nw ltac:(exists x0; reflexivity)). apply eq_IZR in Nw.
  specialize (Wh ltac:(exists x0; reflexivity)). rewrite Wh, Ztrunc_IZR, Nw in W.
  unfold wu_all. rewrite W. destruct (wu_end false g ex ey) as [[n2 v2] p2]. exists a1, a2. eexists. split; [reflexivity|].
  split; [exists A1|exists A2]; (split; [assumption|lra]).
Qed.
Lemma g_last_row w h c s e x0 x1 fg : fair w h -> (0 <= x0 < x1)%Z -> (x1 < w)%Z -> (0 < h)%Z -> g_ok w h c -> is_byte fg ->
  at2 s (IZR x0, IZR (h - 1)) -> at2 e (IZR x1, IZR (h - 1)) -> g_aaline c s e (GTup [fg] None) = Err IndexError.
Proof.
  intros [Fw Fh] X X1 H K B As Ae. destruct (horizontal s e (h - 1) x0 x1) as (a1 & a2 & rest & E & W1 & W2); try assumption; try lia.
  unfold g_aaline. rewrite E. cbn [bind foldM fst snd add_alpha].
  destruct (g_pixel w h c (x0, h - 1)%Z fg a1 K) as (c1 & E1 & K1 & _); [split; cbn; lia|exact B|exact W1|]. rewrite E1. cbn [bind].
  destruct K1 as (Hw & _ & Ln & _). unfold g_set. cbn [fst snd unpack_pair bind]. rewrite Hw.
  rewrite (py_get_range (g_data c1) ((h - 1 + 1) * w + x0)) by (right; rewrite Ln; nia). reflexivity.
Qed.
Lemma slice_past {A} (l : list A) i k : (Z.of_nat (length l) <= i)%Z -> (0 <= k)%Z -> py_slice l i (i + k) = [].
Proof.
  intros L K. unfold py_slice, slice_clamp. destruct (_ <? _)%Z eqn:E; [|reflexivity]. apply Z.ltb_lt in E. exfalso. revert E.
  repeat match goal with |- context [(?a <? ?b)%Z] => destruct (Z.ltb_spec a b) end; lia.
Qed.
Lemma c_last_row w h c s e x0 x1 r g b : fair w h -> (0 <= x0 < x1)%Z -> (x1 < w)%Z -> (0 < h)%Z -> c_ok w h c -> is_byte r -> is_byte g -> is_byte b ->
  at2 s (IZR x0, IZR (h - 1)) -> at2 e (IZR x1, IZR (h - 1)) -> c_aaline c s e [r; g; b] = Err ValueError.
Proof.
  intros [Fw Fh] X X1 H K Br Bg Bb As Ae. destruct (horizontal s e (h - 1) x0 x1) as (a1 & a2 & rest & E & W1 & W2); try assumption; try lia.
  unfold c_aaline. rewrite E. cbn [bind foldM fst snd].
  destruct (c_pixel w h c (x0, h - 1)%Z r g b a1 K) as (c1 & E1 & K1 & _); [split; cbn; lia|assumption ..|]. rewrite E1. cbn [bind].
  destruct K1 as (Hw & _ & Ln & _). unfold c_set. cbn [fst snd length Nat.eqb]. rewrite Hw.
  rewrite (slice_past (c_data c1)) by (rewrite ?Ln; nia). reflexivity.
Qed.

(** Outlines of polygons. *)
Lemma sides_good w h points : Forall (good_point w h) points -> Forall (side_at w h) (edges points).
Proof. intros F. rewrite edges_sides. apply sides_forall. exact F. Qed.
Lemma api_g_stroke w h c points fg : fair w h -> is_byte fg -> g_ok w h c -> Forall (good_point w h) points ->
  Forall (fun e => ~ same_point (fst e) (snd e)) (sides points) ->
  exists c', g_stroke c points (GTup [fg] None) = Ok c' /\ g_ok w h c' /\ inked (g_get c) (g_get c') (g_between fg) (near_outline points) w h.
Proof.
  intros Fa B K F D. pose proof (sides_good w h points F) as S. rewrite edges_sides in S. unfold g_stroke. rewrite edges_sides. exact (g_sides w h fg _ Fa B S D c K).
Qed.
Lemma api_c_stroke w h c points r g b : fair w h -> is_byte r -> is_byte g -> is_byte b -> c_ok w h c -> Forall (good_point w h) points ->
  Forall (fun e => ~ same_point (fst e) (snd e)) (sides points) ->
  exists c', c_stroke c points [r; g; b] = Ok c' /\ c_ok w h c' /\ inked (c_get c) (c_get c') (c_between (r, g, b)) (near_outline points) w h.
Proof.
  intros Fa Br Bg Bb K F D. pose proof (sides_good w h points F) as S. rewrite edges_sides in S. unfold c_stroke. rewrite edges_sides. exact (c_sides w h r g b _ Fa Br Bg Bb S D c K).
Qed.
Lemma api_stroke_repeat w h c c2 points fg r g b : fair w h -> is_byte fg -> is_byte r -> is_byte g -> is_byte b -> g_ok w h c -> c_ok w h c2 -> Forall (good_point w h) points ->
  Exists (fun e => same_point (fst e) (snd e)) (sides points) ->
  g_stroke c points (GTup [fg] None) = Err ZeroDivisionError /\ c_stroke c2 points [r; g; b] = Err ZeroDivisionError.
Proof.
  intros Fa B Br Bg Bb K K2 F D. pose proof (sides_good w h points F) as S. rewrite edges_sides in S. unfold g_stroke, c_stroke. rewrite edges_sides.
  split; [exact (g_sides_dot w h fg _ Fa B S D c K)|exact (c_sides_dot w h r g b _ Fa Br Bg Bb S D c2 K2)].
Qed.
(** Polygons whose last point repeats the first, as rings of a shapefile do. *)
Lemma joined_last {A} (l : list A) a b : In (a, b) (joined (l ++ [a; b])).
Proof. induction l as [|x l IH]; [left; reflexivity|]. cbn [app]. destruct (l ++ [a; b]) eqn:E; [destruct l; discriminate|]. right. exact IH. Qed.
Lemma api_stroke_closed w h c c2 p mid fg r g b : fair w h -> is_byte fg -> is_byte r -> is_byte g -> is_byte b -> g_ok w h c -> c_ok w h c2 ->
  Forall (good_point w h) (p :: mid ++ [p]) ->
  g_stroke c (p :: mid ++ [p]) (GTup [fg] None) = Err ZeroDivisionError /\ c_stroke c2 (p :: mid ++ [p]) [r; g; b] = Err ZeroDivisionError.
Proof.
  intros Fa B Br Bg Bb K K2 F. apply (api_stroke_repeat w h); try assumption. apply Exists_exists. exists (p, p). split.
  - unfold sides. change (p :: mid ++ [p]) with ((p :: mid) ++ [p]). rewrite <- app_assoc. apply (joined_last (p :: mid) p p).
  - inversion F as [|? ? (P & A & _) _]; subst. exists P. auto.
Qed.
(** The exactness of a flat line. *)
Lemma api_aaline_flat w h s e P Q : fair w h -> fits w h P -> fits w h Q -> at2 s P -> at2 e Q -> fst P < fst Q -> Rabs (snd Q - snd P) <= fst Q - fst P ->
  exists n1 n2 e1 e2 pairs, aaline s e =
    Ok (e1 ++ e2 ++ concat (map (fun '(x, y, a1, a2) => [((x, y), a1); ((x, y + 1)%Z, a2)]) pairs)) /\
    Rabs (IZR n1 - fst P) <= / 2 + / 8589934592 /\ Rabs (IZR n2 - fst Q) <= / 2 + / 8589934592 /\
    map (fun pa => fst (fst pa)) e1 = [n1; n1] /\ map (fun pa => fst (fst pa)) e2 = [n2; n2] /\
    map (fun '(x, _, _, _) => x) pairs = zfromto (n1 + 1) n2 /\
    Forall (fun '(x, y, a1, a2) => exists A1 A2, isf a1 A1 /\ isf a2 A2 /\ - / 1024 <= A2 < 1 /\
      Rabs (A1 + A2 - 1) <= / 9007199254740992 /\ Rabs (IZR y + A2 - on_line P Q (IZR x)) <= / 1024) pairs.
Proof.
  intros Fa FP FQ As Ae L S. destruct (aaline_double w h s e P Q Fa FP FQ As Ae) as [_ H]. destruct H as (px & E & C); [intros ->; lra|].
  assert (Fl : flat P Q).
  { unfold flat. rewrite (Rabs_pos_eq (rnd (fst Q - fst P))) by (apply rnd_pos; lra). apply Rabs_le_inv in S. apply Rabs_le. rewrite <- rnd_opp.
    split; apply rnd_le; lra. }
  destruct C as [(_ & _ & C)|[(_ & L' & _)|[(N & _)|(N & _)]]]; [|lra|contradiction|contradiction].
  destruct C as (n1 & n2 & r1 & r2 & a1 & a2 & b1 & b2 & pairs & -> & N1 & N2 & _ & _ & _ & _ & _ & _ & _ & _ & M & _ & _ & D & _).
  exists n1, n2, (wu_pair false n1 r1 a1 a2), (wu_pair false n2 r2 b1 b2), pairs. split; [rewrite E; reflexivity|]. split; [exact N1|]. split; [exact N2|].
  split; [reflexivity|]. split; [reflexivity|]. split; [exact M|]. eapply Forall_impl; [|exact D].
  intros [[[x y] c1] c2] (A1 & A2 & I1 & I2 & C2 & _ & Sm & Er & _). exists A1, A2. auto 6.
Qed.
Lemma api_last_row w h c c2 s e x0 x1 fg r g b : fair w h -> (0 <= x0 < x1)%Z -> (x1 < w)%Z -> (0 < h)%Z ->
  g_ok w h c -> c_ok w h c2 -> is_byte fg -> is_byte r -> is_byte g -> is_byte b ->
  at2 s (IZR x0, IZR (h - 1)) -> at2 e (IZR x1, IZR (h - 1)) ->
  g_aaline c s e (GTup [fg] None) = Err IndexError /\ c_aaline c2 s e [r; g; b] = Err ValueError.
Proof.
  intros Fa X X1 H K K2 B Br Bg Bb As Ae. split; [apply (g_last_row w h c s e x0 x1); assumption|apply (c_last_row w h c2 s e x0 x1); assumption].
Qed.
Lemma api_g_blend_double w h c p fg bg (a : f64) A : g_ok w h c -> in_canvas w h p -> g_get c p = Ok bg -> is_byte fg ->
  isf a A -> - / 1024 <= A <= 1 + / 1024 ->
  exists c' v, g_set c p (GTup [fg] (Some a)) = Ok c' /\ g_ok w h c' /\ g_get c' p = Ok v /\
    (forall q, in_canvas w h q -> q <> p -> g_get c' q = g_get c q) /\
    (Z.min bg fg <= v <= Z.max bg fg)%Z /\
    Rabs (IZR v - (IZR bg * (1 - A) + IZR fg * A)) <= / 2 + / IZR (2 ^ 42).
Proof.
  intros K I G B Ia Ba. destruct (g_get_in w h c p K I) as (b0 & G0 & Bb & _). rewrite G in G0. injection G0 as <-.
  destruct (blend_double bg fg a A) as [Bt Er]; [unfold is_byte in *; lia|unfold is_byte in *; lia|exact Ia|exact Ba|].
  destruct (g_get_blend w h c p fg a bg K I G) as (c' & S & K' & G' & O); [unfold is_byte in *; lia|].
  exists c', (blend bg fg a). auto 7.
Qed.
(** Literals of the examples. *)
Lemma isf_9_2 : isf (f_of 9 (-1)) (9 / 2).
Proof.
  pose proof (isf_valid (f_of 9 (-1)) eq_refl eq_refl) as I. replace (9 / 2) with (SF2R radix2 (f_of 9 (-1))); [exact I|].
  change (f_of 9 (-1)) with (S754_finite false 5066549580791808 (-50)). unfold SF2R. rewrite F2R_div by lia. change (IZR 5066549580791808 / IZR 1125899906842624 = 9 / 2). lra.
Qed.
Lemma isf_1_4 : isf (f_of 1 (-2)) (/ 4).
Proof.
  pose proof (isf_valid (f_of 1 (-2)) eq_refl eq_refl) as I. replace (/ 4) with (SF2R radix2 (f_of 1 (-2))); [exact I|].
  change (f_of 1 (-2)) with (S754_finite false 4503599627370496 (-54)). unfold SF2R. rewrite F2R_div by lia. change (IZR 4503599627370496 / IZR 18014398509481984 = / 4). lra.
Qed.
Lemma case_good a b : (1 <= a <= 6)%Z -> (1 <= b <= 5)%Z -> good_point 10 8 (fofZ a, fofZ b).
Proof.
  intros A B. exists (IZR a, IZR b). split; [split; apply isf_int; lia|]. right. cbn [fst snd]. repeat split; apply IZR_le; lia.
Qed.
Lemma case_apart a b c d : (1 <= a <= 6)%Z -> (1 <= b <= 6)%Z -> (1 <= c <= 6)%Z -> (1 <= d <= 6)%Z -> (a, b) <> (c, d) ->
    ~ same_point (fofZ a, fofZ b) (fofZ c, fofZ d).
Proof.
  intros A B C D N (P & [I1 J1] & [I2 J2]). apply N. cbn [fst snd] in *.
  assert (E1 : IZR a = IZR c) by (rewrite (isf_fun _ _ _ (isf_int a ltac:(lia)) I1); symmetry; exact (isf_fun _ _ _ (isf_int c ltac:(lia)) I2)).
  assert (E2 : IZR b = IZR d) by (rewrite (isf_fun _ _ _ (isf_int b ltac:(lia)) J1); symmetry; exact (isf_fun _ _ _ (isf_int d ltac:(lia)) J2)).
  apply eq_IZR in E1. apply eq_IZR in E2. congruence.
Qed.
