(** Anti-aliased lines on the canvases, in double arithmetic. *)
From Coq Require Import ZArith Reals Lia Lra SpecFloat.
From Flocq Require Import Core IEEE754.BinarySingleNaN.
From Verif Require Import Num FloatLib SimplifyModel RasterModel RasterAAModel RasterSpec RasterCanvas RasterApi RasterAASpec RasterAA RasterAALine RasterAACore RasterAAWhole.
Open Scope R_scope.

Definition fine (w h : Z) (near : Z * Z -> Prop) (pa : (Z * Z) * f64) : Prop :=
  in_canvas w h (fst pa) /\ near (fst pa) /\ weight (snd pa).
Lemma unit_is_weight a : unit_weight a -> weight a.
Proof. intros (A & I & B). exists A. split; [exact I|lra]. Qed.
Lemma pair_fine (steep : bool) w h (near : Z * Z -> Prop) n r a1 a2 : (0 <= n <= w - 2)%Z -> (0 <= r <= h - 2)%Z -> weight a1 -> weight a2 ->
  near (if steep then (r, n) else (n, r)) -> near (if steep then (r + 1, n)%Z else (n, r + 1)%Z) ->
  Forall (fine (if steep then h else w) (if steep then w else h) near) (wu_pair steep n r a1 a2).
Proof.
  intros N R W1 W2 N1 N2. unfold wu_pair. destruct steep; repeat constructor; cbn [fst snd] in *; try lia; assumption.
Qed.
Lemma line_fine steep w h P Q px : fst P < fst Q -> line_of steep w h P Q px ->
  Forall (fine (if steep then h else w) (if steep then w else h)
    (fun q => if steep then beside P Q (IZR (snd q)) (IZR (fst q)) else beside P Q (IZR (fst q)) (IZR (snd q)))) px.
Proof.
  intros Lt (n1 & n2 & r1 & r2 & a1 & a2 & b1 & b2 & pairs & -> & N1 & N2 & Z1 & Z2 & R1 & R2 & U1 & U2 & U3 & U4 & _ & L1 & L2 & D & B).
  apply Rabs_le_inv in N1. apply Rabs_le_inv in N2.
  assert (K : forall n r d, (n1 <= n <= n2)%Z \/ n = n1 \/ n = n2 -> Rabs (IZR r + d - on_line P Q (IZR n)) <= 1 + / 1024 -> (d = 0 \/ d = 1) ->
    beside P Q (IZR n) (IZR r + d)).
  { intros n r d Hn Hr Hd. split; [lra|]. split; [exact Hr|]. rewrite Rmin_left, Rmax_right by lra.
    destruct Hn as [[A C]|[->| ->]]; [apply IZR_le in A; apply IZR_le in C; lra| |]; lra. }
  assert (K2 : forall n r, (n1 <= n <= n2)%Z \/ n = n1 \/ n = n2 -> IZR r - / 1024 <= on_line P Q (IZR n) <= IZR r + 1 + / 1024 ->
    beside P Q (IZR n) (IZR r) /\ beside P Q (IZR n) (IZR (r + 1))).
  { intros n r Hn Hr. split; [rewrite <- (Rplus_0_r (IZR r))|rewrite plus_IZR]; apply K; try assumption; try (apply Rabs_le; lra); auto. }
  apply Forall_app. split; [|apply Forall_app; split].
  - destruct (K2 n1 r1 ltac:(auto) L1). apply pair_fine; try assumption; try (apply unit_is_weight; assumption); destruct steep; assumption.
  - destruct (K2 n2 r2 ltac:(auto) L2). apply pair_fine; try assumption; try (apply unit_is_weight; assumption); destruct steep; assumption.
  - induction pairs as [|[[[x y] c1] c2] r IH]; [constructor|]. inversion D as [|? ? Dq Dr]; subst. inversion B as [|? ? Bxy Br]; subst. cbn beta iota in Bxy. destruct Bxy as [Bx By].
    cbn [map concat]. apply Forall_app. split; [|apply IH; assumption].
    destruct Dq as (A1 & A2 & I1 & I2 & C2 & C1 & _ & E & _ & Uy). apply Rabs_le_inv in E.
    destruct (K2 x y ltac:(left; lia) ltac:(lra)) as [Q1 Q2].
    apply pair_fine; try (exists A1; split; [assumption|lra]); try (exists A2; split; [assumption|lra]); try assumption; try lia; destruct steep; assumption.
Qed.
Lemma beside_sym P Q x y : beside P Q x y -> beside Q P x y.
Proof.
  intros (N & D & B). split; [congruence|]. split; [|rewrite Rmin_comm, Rmax_comm; exact B].
  replace (on_line Q P x) with (on_line P Q x); [exact D|]. unfold on_line. field. split; lra.
Qed.
Lemma Forall_fine w h (n1 n2 : Z * Z -> Prop) px : (forall q, n1 q -> n2 q) -> Forall (fine w h n1) px -> Forall (fine w h n2) px.
Proof. intros I. apply Forall_impl. intros pa (A & B & C). split; [exact A|]. split; [apply I; exact B|exact C]. Qed.
Lemma aaline_fine w h s e P Q : fair w h -> fits w h P -> fits w h Q -> at2 s P -> at2 e Q -> P <> Q ->
  exists px, aaline s e = Ok px /\ Forall (fine w h (near_line P Q)) px.
Proof.
  intros Fa FP FQ As Ae N. destruct (aaline_double w h s e P Q Fa FP FQ As Ae) as [_ H]. destruct (H N) as (px & E & C). exists px. split; [exact E|].
  destruct C as [(_ & L & C)|[(_ & L & C)|[(_ & L & C)|(_ & L & C)]]].
  - apply (line_fine false) in C; [|exact L]. revert C. apply Forall_fine. intros q B. left. exact B.
  - apply (line_fine false) in C; [|exact L]. revert C. apply Forall_fine. intros q B. left. apply beside_sym. exact B.
  - apply (line_fine true) in C; [|exact L]. revert C. apply Forall_fine. intros q B. right. exact B.
  - apply (line_fine true) in C; [|exact L]. revert C. apply Forall_fine. intros q B. right. apply beside_sym. exact B.
Qed.

(** Painting with one ink. *)
Lemma inked_refl {V} (get : Z * Z -> res V) (between : V -> V -> Prop) near w h : (forall v, between v v) -> inked get get between near w h.
Proof. intros R q v _ G. exists v. split; [exact G|]. split; [apply R|]. congruence. Qed.
Lemma inked_trans {V} (g1 g2 g3 : Z * Z -> res V) (between : V -> V -> Prop) near w h : (forall a b c, between a b -> between b c -> between a c) ->
  (forall a b : V, {a = b} + {a <> b}) ->
  inked g1 g2 between near w h -> inked g2 g3 between near w h -> inked g1 g3 between near w h.
Proof.
  intros T D A B q v I G. destruct (A q v I G) as (v2 & G2 & B2 & N2). destruct (B q v2 I G2) as (v3 & G3 & B3 & N3).
  exists v3. split; [exact G3|]. split; [exact (T _ _ _ B2 B3)|]. intros C. destruct (D v2 v) as [->|E]; [apply N3; exact C|apply N2; exact E].
Qed.
Lemma inked_weaken {V} (g1 g2 : Z * Z -> res V) (between : V -> V -> Prop) (n1 n2 : Z * Z -> Prop) w h : (forall q, n1 q -> n2 q) ->
  inked g1 g2 between n1 w h -> inked g1 g2 between n2 w h.
Proof. intros S A q v I G. destruct (A q v I G) as (v2 & G2 & B2 & N2). exists v2. auto. Qed.
Lemma g_between_refl k v : g_between k v v.
Proof. unfold g_between. lia. Qed.
Lemma g_between_trans k a b c : g_between k a b -> g_between k b c -> g_between k a c.
Proof. unfold g_between. lia. Qed.
Lemma c_between_refl k v : c_between k v v.
Proof. destruct k as [[? ?] ?], v as [[? ?] ?]. cbn. auto using g_between_refl. Qed.
Lemma c_between_trans k a b c : c_between k a b -> c_between k b c -> c_between k a c.
Proof.
  destruct k as [[k1 k2] k3], a as [[a1 a2] a3], b as [[b1 b2] b3], c as [[c1 c2] c3]. cbn.
  intros (A1 & A2 & A3) (B1 & B2 & B3). split; [eapply g_between_trans; eassumption|]. split; eapply g_between_trans; eassumption.
Qed.
Definition zzz_dec (a b : Z * Z * Z) : {a = b} + {a <> b}.
Proof. decide equality; [apply Z.eq_dec|]. decide equality; apply Z.eq_dec. Defined.
Definition zz_dec (a b : Z * Z) : {a = b} + {a <> b}.
Proof. decide equality; apply Z.eq_dec. Defined.

(** One pixel. *)
Lemma g_pixel w h c p fg a : g_ok w h c -> in_canvas w h p -> is_byte fg -> weight a ->
  exists c', g_set c p (GTup [fg] (Some a)) = Ok c' /\ g_ok w h c' /\ inked (g_get c) (g_get c') (g_between fg) (fun q => q = p) w h.
Proof.
  intros K I B (A & Ia & Ba). destruct (g_get_in w h c p K I) as (bg & G & Bb & _).
  destruct (blend_double bg fg a A) as [Bt _]; [unfold is_byte in *; lia|unfold is_byte in *; lia|exact Ia|exact Ba|].
  destruct (g_get_blend w h c p fg a bg K I G) as (c' & S & K' & G' & O); [unfold is_byte in *; lia|].
  exists c'. split; [exact S|]. split; [exact K'|]. intros q v Iq Gq. destruct (zz_dec q p) as [->|N].
  - exists (blend bg fg a). split; [exact G'|]. rewrite G in Gq. injection Gq as <-. split; [exact Bt|reflexivity].
  - exists v. split; [rewrite O; assumption|]. split; [apply g_between_refl|congruence].
Qed.
Lemma c_pixel w h c p r g b a : c_ok w h c -> in_canvas w h p -> is_byte r -> is_byte g -> is_byte b -> weight a ->
  exists c', c_set c p ([r; g; b], Some a) = Ok c' /\ c_ok w h c' /\ inked (c_get c) (c_get c') (c_between (r, g, b)) (fun q => q = p) w h.
Proof.
  intros K I Br Bg Bb (A & Ia & Ba). destruct (c_get_ok w h c p K I) as (r0 & g0 & b0 & G & _ & X1 & X2 & X3).
  assert (Bt : forall x y, is_byte x -> is_byte y -> g_between y x (blend x y a) /\ is_byte (blend x y a)).
  { intros x y Bx By. destruct (blend_double x y a A) as [Bt _]; [unfold is_byte in *; lia|unfold is_byte in *; lia|exact Ia|exact Ba|].
    split; [exact Bt|]. unfold is_byte in *. lia. }
  destruct (Bt r0 r X1 Br) as [T1 Y1], (Bt g0 g X2 Bg) as [T2 Y2], (Bt b0 b X3 Bb) as [T3 Y3].
  destruct (c_set_three w h c p ([r; g; b], Some a) (r0, g0, b0) (blend r0 r a) (blend g0 g a) (blend b0 b a) K I G eq_refl Y1 Y2 Y3) as (c' & S & K' & Gc & O).
  exists c'. split; [exact S|]. split; [exact K'|]. intros q v Iq Gq. destruct (zz_dec q p) as [->|N].
  - exists (blend r0 r a, blend g0 g a, blend b0 b a). split; [exact Gc|]. rewrite G in Gq. injection Gq as <-. split; [cbn; auto|reflexivity].
  - exists v. split; [rewrite O; assumption|]. split; [apply c_between_refl|congruence].
Qed.
Lemma g_line w h near fg px : is_byte fg -> Forall (fine w h near) px -> forall c, g_ok w h c ->
  exists c', foldM (fun c pa => v <- add_alpha (GTup [fg] None) (snd pa) ;; g_set c (fst pa) v) px c = Ok c' /\ g_ok w h c' /\
  inked (g_get c) (g_get c') (g_between fg) near w h.
Proof.
  intros B F. induction F as [|[p a] px (I & Nr & W) F IH]; intros c K.
  - exists c. split; [reflexivity|]. split; [exact K|]. apply inked_refl. apply g_between_refl.
  - cbn [fst snd] in *. destruct (g_pixel w h c p fg a K I B W) as (c1 & E1 & K1 & N1). destruct (IH c1 K1) as (c2 & E2 & K2 & N2).
    exists c2. cbn [foldM add_alpha bind fst snd]. rewrite E1. cbn [bind]. split; [exact E2|]. split; [exact K2|].
    eapply inked_trans; [apply g_between_trans|exact Z.eq_dec| |exact N2]. eapply inked_weaken; [|exact N1]. intros q ->. exact Nr.
Qed.
Lemma c_line w h near r g b px : is_byte r -> is_byte g -> is_byte b -> Forall (fine w h near) px -> forall c, c_ok w h c ->
  exists c', foldM (fun c pa => c_set c (fst pa) ([r; g; b], Some (snd pa))) px c = Ok c' /\ c_ok w h c' /\
  inked (c_get c) (c_get c') (c_between (r, g, b)) near w h.
Proof.
  intros Br Bg Bb F. induction F as [|[p a] px (I & Nr & W) F IH]; intros c K.
  - exists c. split; [reflexivity|]. split; [exact K|]. apply inked_refl. apply c_between_refl.
  - cbn [fst snd] in *. destruct (c_pixel w h c p r g b a K I Br Bg Bb W) as (c1 & E1 & K1 & N1). destruct (IH c1 K1) as (c2 & E2 & K2 & N2).
    exists c2. cbn [foldM fst snd]. rewrite E1. cbn [bind]. split; [exact E2|]. split; [exact K2|].
    eapply inked_trans; [apply c_between_trans|exact zzz_dec| |exact N2]. eapply inked_weaken; [|exact N1]. intros q ->. exact Nr.
Qed.
Lemma api_g_aaline w h c s e P Q fg : fair w h -> fits w h P -> fits w h Q -> at2 s P -> at2 e Q -> g_ok w h c -> is_byte fg -> P <> Q ->
  exists c', g_aaline c s e (GTup [fg] None) = Ok c' /\ g_ok w h c' /\ inked (g_get c) (g_get c') (g_between fg) (near_line P Q) w h.
Proof.
  intros Fa FP FQ As Ae K B N. destruct (aaline_fine w h s e P Q Fa FP FQ As Ae N) as (px & E & F). unfold g_aaline. rewrite E. cbn [bind].
  apply g_line; assumption.
Qed.
Lemma api_c_aaline w h c s e P Q r g b : fair w h -> fits w h P -> fits w h Q -> at2 s P -> at2 e Q -> c_ok w h c -> is_byte r -> is_byte g -> is_byte b -> P <> Q ->
  exists c', c_aaline c s e [r; g; b] = Ok c' /\ c_ok w h c' /\ inked (c_get c) (c_get c') (c_between (r, g, b)) (near_line P Q) w h.
Proof.
  intros Fa FP FQ As Ae K Br Bg Bb N. destruct (aaline_fine w h s e P Q Fa FP FQ As Ae N) as (px & E & F). unfold c_aaline. rewrite E. cbn [bind].
  apply c_line; assumption.
Qed.
Lemma api_aaline_dot w h c c2 s e P color col : fair w h -> fits w h P -> at2 s P -> at2 e P ->
  g_aaline c s e color = Err ZeroDivisionError /\ c_aaline c2 s e col = Err ZeroDivisionError.
Proof.
  intros Fa F As Ae. destruct (aaline_double w h s e P P Fa F F As Ae) as [D _]. unfold g_aaline, c_aaline. rewrite (D eq_refl). auto.
Qed.

(** Outlines. *)
Lemma classic_eq (P Q : R * R) : {P = Q} + {P <> Q}.
Proof. decide equality; apply Req_EM_T. Qed.
Definition side_at (w h : Z) (e : (f64 * f64) * (f64 * f64)) : Prop := good_point w h (fst e) /\ good_point w h (snd e).
Definition near_side (es : list ((f64 * f64) * (f64 * f64))) (q : Z * Z) : Prop :=
  exists e P Q, In e es /\ at2 (fst e) P /\ at2 (snd e) Q /\ near_line P Q q.
Lemma at2_fun p P Q : at2 p P -> at2 p Q -> P = Q.
Proof.
  intros [A B] [C D]. rewrite (surjective_pairing P), (surjective_pairing Q). f_equal; eapply isf_fun; eassumption.
Qed.
Lemma g_sides w h fg es : fair w h -> is_byte fg -> Forall (side_at w h) es -> Forall (fun e => ~ same_point (fst e) (snd e)) es -> forall c, g_ok w h c ->
  exists c', foldM (fun c e => g_aaline c (fst e) (snd e) (GTup [fg] None)) es c = Ok c' /\ g_ok w h c' /\
  inked (g_get c) (g_get c') (g_between fg) (near_side es) w h.
Proof.
  intros Fa B F. induction F as [|[s e] es [(P & As & FP) (Q & Ae & FQ)] F IH]; intros D c K.
  - exists c. split; [reflexivity|]. split; [exact K|]. apply inked_refl. apply g_between_refl.
  - cbn [fst snd] in *. inversion D as [|? ? D0 D1]; subst. cbn [fst snd] in D0.
    assert (N : P <> Q) by (intros ->; apply D0; exists Q; auto).
    destruct (api_g_aaline w h c s e P Q fg Fa FP FQ As Ae K B N) as (c1 & E1 & K1 & N1). destruct (IH D1 c1 K1) as (c2 & E2 & K2 & N2).
    exists c2. cbn [foldM fst snd]. rewrite E1. cbn [bind]. split; [exact E2|]. split; [exact K2|].
    eapply inked_trans; [apply g_between_trans|exact Z.eq_dec| |].
    + eapply inked_weaken; [|exact N1]. intros q H. exists (s, e), P, Q. cbn. auto.
    + eapply inked_weaken; [|exact N2]. intros q (x & P' & Q' & I & H). exists x, P', Q'. split; [right; exact I|exact H].
Qed.
Lemma c_sides w h r g b es : fair w h -> is_byte r -> is_byte g -> is_byte b -> Forall (side_at w h) es -> Forall (fun e => ~ same_point (fst e) (snd e)) es -> forall c, c_ok w h c ->
  exists c', foldM (fun c e => c_aaline c (fst e) (snd e) [r; g; b]) es c = Ok c' /\ c_ok w h c' /\
  inked (c_get c) (c_get c') (c_between (r, g, b)) (near_side es) w h.
Proof.
  intros Fa Br Bg Bb F. induction F as [|[s e] es [(P & As & FP) (Q & Ae & FQ)] F IH]; intros D c K.
  - exists c. split; [reflexivity|]. split; [exact K|]. apply inked_refl. apply c_between_refl.
  - cbn [fst snd] in *. inversion D as [|? ? D0 D1]; subst. cbn [fst snd] in D0.
    assert (N : P <> Q) by (intros ->; apply D0; exists Q; auto).
    destruct (api_c_aaline w h c s e P Q r g b Fa FP FQ As Ae K Br Bg Bb N) as (c1 & E1 & K1 & N1). destruct (IH D1 c1 K1) as (c2 & E2 & K2 & N2).
    exists c2. cbn [foldM fst snd]. rewrite E1. cbn [bind]. split; [exact E2|]. split; [exact K2|].
    eapply inked_trans; [apply c_between_trans|exact zzz_dec| |].
    + eapply inked_weaken; [|exact N1]. intros q H. exists (s, e), P, Q. cbn. auto.
    + eapply inked_weaken; [|exact N2]. intros q (x & P' & Q' & I & H). exists x, P', Q'. split; [right; exact I|exact H].
Qed.
Lemma g_sides_dot w h fg es : fair w h -> is_byte fg -> Forall (side_at w h) es -> Exists (fun e => same_point (fst e) (snd e)) es -> forall c, g_ok w h c ->
  foldM (fun c e => g_aaline c (fst e) (snd e) (GTup [fg] None)) es c = Err ZeroDivisionError.
Proof.
  intros Fa B F. induction F as [|[s e] es [(P & As & FP) (Q & Ae & FQ)] F IH]; intros D c K; [inversion D|].
  cbn [fst snd foldM] in *. destruct (classic_eq P Q) as [->|N].
  - rewrite (proj1 (api_aaline_dot w h c (mkc 0 0 []) s e Q (GTup [fg] None) [] Fa FQ As Ae)). reflexivity.
  - destruct (api_g_aaline w h c s e P Q fg Fa FP FQ As Ae K B N) as (c1 & E1 & K1 & N1). rewrite E1. cbn [bind]. apply IH; [|exact K1].
    inversion D as [? ? (P' & A1 & A2)|? ? D1]; subst; [|exact D1]. cbn [fst snd] in *. exfalso. apply N.
    rewrite (at2_fun s P P' As A1), (at2_fun e Q P' Ae A2). reflexivity.
Qed.
Lemma c_sides_dot w h r g b es : fair w h -> is_byte r -> is_byte g -> is_byte b -> Forall (side_at w h) es -> Exists (fun e => same_point (fst e) (snd e)) es -> forall c, c_ok w h c ->
  foldM (fun c e => c_aaline c (fst e) (snd e) [r; g; b]) es c = Err ZeroDivisionError.
Proof.
  intros Fa Br Bg Bb F. induction F as [|[s e] es [(P & As & FP) (Q & Ae & FQ)] F IH]; intros D c K; [inversion D|].
  cbn [fst snd foldM] in *. destruct (classic_eq P Q) as [->|N].
  - rewrite (proj2 (api_aaline_dot w h (mkg 0 0 []) c s e Q (GInt 0) [r; g; b] Fa FQ As Ae)). reflexivity.
  - destruct (api_c_aaline w h c s e P Q r g b Fa FP FQ As Ae K Br Bg Bb N) as (c1 & E1 & K1 & N1). rewrite E1. cbn [bind]. apply IH; [|exact K1].
    inversion D as [? ? (P' & A1 & A2)|? ? D1]; subst; [|exact D1]. cbn [fst snd] in *. exfalso. apply N.
    rewrite (at2_fun s P P' As A1), (at2_fun e Q P' Ae A2). reflexivity.
Qed.
