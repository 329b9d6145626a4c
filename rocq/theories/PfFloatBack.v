(** P files in double arithmetic: files written and read back. *)
From Coq Require Import ZArith Reals Lia Lra SpecFloat Psatz ZifyBool.
From Flocq Require Import Core IEEE754.BinarySingleNaN.
From Verif Require Import Num FloatLib BBoxModel BBoxProofs VlvModel VlvProofs PfModel PfProofs PfSpec PfExact PfHist PfFinal PfFloat PfFloatNorm PfFloatSpec PfFloatEnds PfFloatTrip.
Open Scope Z_scope.

(** ** Rings *)
Lemma eqb_same p q : finite64 (fst p) -> finite64 (snd p) -> finite64 (fst q) -> finite64 (snd q) -> (point_eqb p q = true <-> same_point64 p q).
Proof.
  intros A B C D. unfold point_eqb, same_point64. cbn [neq NumF]. rewrite (isf_eq _ _ _ _ (val_isf _ A) (val_isf _ C)), (isf_eq _ _ _ _ (val_isf _ B) (val_isf _ D)).
  rewrite andb_true_iff. split; intros [H1 H2]; (split; [|]).
  - destruct (Req_bool_spec (val (fst p)) (val (fst q))); [assumption|discriminate].
  - destruct (Req_bool_spec (val (snd p)) (val (snd q))); [assumption|discriminate].
  - destruct (Req_bool_spec (val (fst p)) (val (fst q))); [reflexivity|contradiction].
  - destruct (Req_bool_spec (val (snd p)) (val (snd q))); [reflexivity|contradiction].
Qed.
Lemma drop_ring64 part0 part : Forall in_worldR part0 -> drop_closing part0 = Ok part -> ring64 part0 part.
Proof.
  intros W. unfold drop_closing. destruct part0 as [|p r]; [discriminate|]. intros E. apply Ok_inj in E.
  assert (L : nth_error (p :: r) (length (p :: r) - 1) = Some (last (p :: r) p)) by (apply last_nth; discriminate).
  rewrite Forall_forall in W. destruct (W p (or_introl eq_refl)) as (F1 & F2 & _).
  destruct (W (last (p :: r) p)) as (G1 & G2 & _); [apply (nth_error_In _ _ L)|].
  pose proof (eqb_same p (last (p :: r) p) F1 F2 G1 G2) as Q. destruct (point_eqb p (last (p :: r) p)).
  - left. split; [exists p, (last (p :: r) p); split; [reflexivity|]; split; [exact L|apply Q; reflexivity]|].
    exists (last (p :: r) p). subst part. apply app_removelast_last. discriminate.
  - right. split; [|split; [discriminate|symmetry; exact E]]. intros (a & b & A & B & C). injection A as <-. rewrite L in B. injection B as <-.
    apply Q in C. discriminate.
Qed.
Lemma ring64_in poly part p : ring64 poly part -> In p part -> In p poly.
Proof. intros [[_ (q & ->)]|(_ & _ & ->)] H; [|exact H]. apply in_app_iff. left. exact H. Qed.
Lemma normalised_world p q : normalised64 p q -> in_worldR q.
Proof. intros (A & B & C & D & _). unfold in_worldR. auto. Qed.

(** ** The accumulated box *)
Definition lonF (x : f64) : Prop := exists r, isf x r /\ (IZR (- (180)) <= r <= IZR 180)%R.
Definition latF (x : f64) : Prop := exists r, isf x r /\ (IZR (- (90)) <= r <= IZR 90)%R.
Definition worldF (b : bbox f64) : Prop := lonF (bx0 b) /\ lonF (bx1 b) /\ latF (by0 b) /\ latF (by1 b).
Lemma world_lon p : in_worldR p -> lonF (fst p) /\ latF (snd p).
Proof.
  intros (A & B & C & D). split; [exists (val (fst p)); split; [apply val_isf; exact A|exact C]|exists (val (snd p)); split; [apply val_isf; exact B|exact D]].
Qed.
Lemma of_points_worldF ps b : Forall in_worldR ps -> bb_of_points ps = Ok b -> worldF b.
Proof.
  intros F E. assert (N : ps <> []) by (intros ->; discriminate). rewrite Forall_forall in F.
  destruct (of_points_tight_F ps N) as (b' & E' & _ & (y1 & I1) & (y2 & I2) & (x1 & I3) & (x2 & I4)).
  { intros x y H. destruct (F _ H) as (A & B & _). split; eapply isf_not_nan; apply val_isf; assumption. }
  rewrite E in E'. injection E' as <-. split; [apply (world_lon _ (F _ I1))|]. split; [apply (world_lon _ (F _ I2))|].
  split; [apply (world_lon _ (F _ I3))|apply (world_lon _ (F _ I4))].
Qed.
Lemma or_worldF a b : worldF a -> worldF b -> worldF (bb_or a b).
Proof.
  intros A B. unfold bb_or. destruct (negb (bb_bool a)); [exact B|]. destruct (negb (bb_bool b)); [exact A|].
  destruct A as (A1 & A2 & A3 & A4), B as (B1 & B2 & B3 & B4). unfold worldF, nmin, nmax. cbn [bx0 bx1 by0 by1].
  split; [destruct (nlt _ _); assumption|]. split; [destruct (nlt _ _); assumption|]. split; destruct (nlt _ _); assumption.
Qed.
Lemma steps_worldF parts : forall o o', Forall (Forall in_worldR) parts ->
  (forall a, o = Some a -> worldF a) -> foldM bb_step parts o = Ok o' -> forall b, o' = Some b -> worldF b.
Proof.
  induction parts as [|p parts IH]; intros o o' F W E; cbn [foldM] in E; [injection E as <-; exact W|].
  apply bind_ok in E. destruct E as (o1 & E1 & E). inversion F as [|? ? F1 F2]; subst. apply (IH o1 o' F2); [|exact E].
  unfold bb_step in E1. apply bind_ok in E1. destruct E1 as (b & Eb & E1). injection E1 as <-. pose proof (of_points_worldF _ _ F1 Eb) as Wb.
  intros a Ha. injection Ha as <-. destruct o as [c|]; [|exact Wb]. apply or_worldF; [apply W; reflexivity|exact Wb].
Qed.
Lemma worldF_box_ok b : worldF b -> box_ok (quant_box b).
Proof.
  intros ((r0 & R0 & B0) & (r1 & R1 & B1) & (r2 & R2 & B2) & (r3 & R3 & B3)). unfold quant_box, box_ok. cbn [nfloor nceil ndiv nmul nadd nofZ NumF RoundF].
  pose proof (code_range _ _ 180 (or_intror eq_refl) R0 B0) as K0. pose proof (code_range _ _ 180 (or_intror eq_refl) R1 B1) as K1.
  pose proof (code_range _ _ 90 (or_introl eq_refl) R2 B2) as K2. pose proof (code_range _ _ 90 (or_introl eq_refl) R3 B3) as K3.
  change (2 * 180) with 360 in *. change (2 * 90) with 180 in *.
  split; [apply K0|]. split; [apply K1|]. split; [apply K2|apply K3].
Qed.

(** ** One point *)
Lemma edges_apart h k0 k1 : h = 90 \/ h = 180 -> 0 <= k0 <= 65535 -> 0 <= k1 <= 65535 ->
  (edgeR h k0 = edgeR h k1 \/ / 1024 <= Rabs (edgeR h k1 - edgeR h k0))%R.
Proof.
  intros Hh H0 H1. destruct (Z.lt_trichotomy k0 k1) as [L|[->|L]].
  - right. pose proof (edge_apart h k0 k1 Hh H0 H1 L) as A. assert (/ 1024 <= IZR h / 65536)%R by (destruct Hh as [-> | ->]; lra). rewrite Rabs_pos_eq; lra.
  - left. reflexivity.
  - right. pose proof (edge_apart h k1 k0 Hh H1 H0 L) as A. assert (/ 1024 <= IZR h / 65536)%R by (destruct Hh as [-> | ->]; lra). rewrite Rabs_left; lra.
Qed.
Definition edge64 (h k : Z) : f64 := fsub (fdiv (fofZ (k * (2 * h))) (fofZ UMAX2)) (fofZ h).
Lemma side_trip h n U k0 k1 x u : h = 90 \/ h = 180 -> n = 1 \/ n = 2 \/ n = 4 -> U = 256 ^ n - 1 -> 0 <= k0 <= 65535 -> 0 <= k1 <= 65535 ->
  finite64 x -> (IZR (- h) <= val x <= IZR h)%R -> quant_coord U (edge64 h k0) (edge64 h k1) x = Ok u -> 0 <= u <= U ->
  finite64 (fadd (edge64 h k0) (fdiv (fmul (fofZ u) (fsub (edge64 h k1) (edge64 h k0))) (fofZ U))) /\
  (Rabs (val (fadd (edge64 h k0) (fdiv (fmul (fofZ u) (fsub (edge64 h k1) (edge64 h k0))) (fofZ U))) - val x) <=
   Rabs (val (edge64 h k1) - val (edge64 h k0)) / IZR (2 * U) + / 2 ^ 40)%R.
Proof.
  intros Hh Hn HU H0 H1 Fx Bx Q Hu. destruct (edge_val h k0 Hh H0) as (I0 & B0 & _). destruct (edge_val h k1 Hh H1) as (I1 & B1 & _).
  assert (P : (IZR h <= 180)%R) by (apply IZR_le; lia). rewrite opp_IZR in *.
  destruct (coord_trip n U (edge64 h k0) (edge64 h k1) x (edgeR h k0) (edgeR h k1) (val x) u Hn HU I0 I1 (val_isf x Fx)) as (r' & Ir & Br); auto;
    try (apply Rabs_le; lra); [apply edges_apart; assumption|].
  destruct (isf_val _ _ Ir) as [F E]. destruct (isf_val _ _ I0) as [_ E0]. destruct (isf_val _ _ I1) as [_ E1]. unfold edge64 in *. rewrite E, E0, E1, p40. split; assumption.
Qed.
Lemma written_geometry64 fuel n size umax name polys e : getfmt size = Ok (n, umax) -> size <> 8 ->
  Forall (Forall plain_point) polys -> Forall (code_ok n) (concat (e_parts e)) ->
  written fuel umax name polys e ->
  box_ok (e_box e) /\ e_name e = name /\
  (let '(x0, x1, y0, y1) := @dequant_box f64 _ (e_box e) in
   same_geometry64 (half_code64 size x0 x1) (half_code64 size y0 y1) polys
     (map (map (dequant_point umax (dequant_box (e_box e)))) (e_parts e))).
Proof.
  intros G S8 Pl Co (Hn & parts0 & parts & bb & E0 & E1 & E2 & Eb & F).
  destruct (getfmt_inv _ _ _ G) as (Gn & Gu & Gs). assert (Gs' : size = 1 \/ size = 2 \/ size = 4) by lia.
  assert (N : Forall2 (Forall2 normalised64) polys parts0).
  { apply omap_inv in E0. clear - E0 Pl. induction E0 as [|poly part polys parts0 E _ IH]; [constructor|]. inversion Pl as [|? ? P1 P2]; subst. constructor; [|apply IH; assumption].
    apply omap_inv in E. clear - E P1. induction E as [|p q l m E _ IH]; [constructor|]. inversion P1; subst. constructor; [apply (norm_plain fuel); assumption|apply IH; assumption]. }
  assert (W : Forall (Forall in_worldR) parts0).
  { clear - N. induction N as [|a b l m N _ IH]; constructor; [|exact IH]. clear - N. induction N as [|p q l m N _ IH]; constructor; [apply (normalised_world p); exact N|exact IH]. }
  assert (R : Forall2 ring64 parts0 parts).
  { apply mapM_inv in E1. clear - E1 W. induction E1 as [|a b l m E _ IH]; [constructor|]. inversion W; subst. constructor; [apply drop_ring64; assumption|apply IH; assumption]. }
  assert (W' : Forall (Forall in_worldR) parts).
  { clear - W R. induction R as [|a b l m R _ IH]; [constructor|]. inversion W as [|? ? W1 W2]; subst. constructor; [|apply IH; exact W2].
    rewrite Forall_forall in *. intros p Hp. apply W1. apply (ring64_in a b); assumption. }
  assert (Wb : worldF bb) by (apply (steps_worldF parts None (Some bb) W'); [discriminate|exact E2|reflexivity]).
  pose proof (worldF_box_ok bb Wb) as Bo. rewrite <- Eb in Bo.
  split; [exact Bo|]. split; [exact Hn|].
  destruct (e_box e) as [[[k0 k1] k2] k3]. cbn [dequant_box nsub ndiv nofZ NumF] in *. destruct Bo as (B0 & B1 & B2 & B3).
  change 360 with (2 * 180) in *. change (?a * 180) with (a * (2 * 90)) in *. fold (edge64 180 k0) (edge64 180 k1) (edge64 90 k2) (edge64 90 k3) in *.
  unfold same_geometry64.
  clear - N R F Co Gs' Gu Gn B0 B1 B2 B3 W'. revert parts0 parts N R F W' Co. generalize (e_parts e) as qs. induction polys as [|poly polys IH]; intros qs parts0 parts N R F W' Co.
  - inversion N; subst. inversion R; subst. inversion F; subst. constructor.
  - inversion N as [|? q ? parts0' N1 N2]; subst. inversion R as [|? r ? parts' R1 R2]; subst.
    inversion F as [|? us ? uss F1 F2]; subst. cbn [map concat] in *. apply Forall_app in Co. destruct Co as [Co1 Co2]. inversion W' as [|? ? W1 W2]; subst.
    constructor; [|apply (IH uss parts0' parts'); assumption].
    exists q, r. split; [exact N1|]. split; [exact R1|].
    clear - F1 Co1 W1 Gs' B0 B1 B2 B3. induction F1 as [|p u r us Q _ IH]; [constructor|]. inversion Co1 as [|? ? C1 C2]; subst. inversion W1 as [|? ? V1 V2]; subst.
    cbn [map]. constructor; [|apply IH; assumption]. destruct Q as [Q1 Q2], C1 as [C1 C1'], V1 as (Fa & Fb & Va & Vb).
    unfold near64, half_code64, dequant_point, max_code. cbn [fst snd nadd ndiv nmul nofZ nsub NumF].
    destruct (side_trip 180 (Z.of_nat n) _ k0 k1 (fst p) (fst u) (or_intror eq_refl) Gs' eq_refl) as [A1 A2]; try lia; try assumption.
    destruct (side_trip 90 (Z.of_nat n) _ k2 k3 (snd p) (snd u) (or_introl eq_refl) Gs' eq_refl) as [A3 A4]; try lia; try assumption.
    split; [exact A1|]. split; [exact A3|]. split; [exact A2|exact A4].
Qed.

Lemma round_trip64 size w0 fuel (l : list (list Z * list (list (f64 * f64)))) w :
  pf_new size = Ok w0 -> size <> 8 -> write_all fuel w0 l = Some w ->
  Forall (fun x => Forall (fun c => 0 < c < 128) (fst x)) l -> Forall (fun x => Forall (Forall plain_point) (snd x)) l ->
  exists file, pf_close w = Ok file /\
  forall fuel', (forall x, In x l -> (length (fst x) < fuel')%nat) ->
  exists rd, pf_open fuel' file = Some (Ok rd) /\ r_names rd = map fst l /\ pf_len rd = Z.of_nat (length l) /\
    forall i name polys, nth_error l i = Some (name, polys) ->
      exists x0 x1 y0 y1 out, nth_error (r_bboxes rd) i = Some (x0, x1, y0, y1) /\
        pf_read rd (Z.of_nat i) = Ok out /\ pf_read rd (Z.of_nat i - Z.of_nat (length l)) = Ok out /\
        (~ In name (map fst (firstn i l)) -> pf_get rd name = Ok out) /\
        same_geometry64 (half_code64 size x0 x1) (half_code64 size y0 y1) polys out.
Proof.
  intros N S8 W A Pl. assert (N' := N). apply pf_new_winv in N. destruct N as [I0 S0].
  destruct (write_all_winv _ _ _ _ _ I0 W) as (S1 & N1 & U1 & es & I & F). cbn [app] in I.
  assert (G : getfmt size = Ok (w_n w0, w_umax w0)) by (rewrite <- S0; apply I0).
  assert (Geo : forall i x e, nth_error l i = Some x -> nth_error es i = Some e -> written fuel (w_umax w0) (fst x) (snd x) e ->
    box_ok (e_box e) /\ e_name e = fst x /\
    (let '(x0, x1, y0, y1) := @dequant_box f64 _ (e_box e) in
     same_geometry64 (half_code64 size x0 x1) (half_code64 size y0 y1) (snd x) (map (map (dequant_point (w_umax w0) (dequant_box (e_box e)))) (e_parts e)))).
  { intros i x e Hx He Wr. apply (written_geometry64 fuel (w_n w0) size (w_umax w0) (fst x) (snd x) e G S8); [| |exact Wr].
    - rewrite Forall_forall in Pl. apply Pl, (nth_error_In _ i), Hx.
    - destruct I as (_ & _ & _ & _ & _ & C). rewrite Forall_forall in C. rewrite <- N1. apply C, (nth_error_In _ i), He. }
  assert (C : pf_close w = Ok (head w es ++ flat_map ser_ent es ++ flat_map (ent_data (w_n w)) es)).
  { apply close_ok; [apply winv_d; exact I|]. rewrite Forall_forall. intros e He. apply In_nth_error in He.
    destruct He as (i & Hi). destruct (Forall2_nth_r _ _ _ _ _ F Hi) as (x & Hx & Wr).
    destruct (Geo i x e Hx Hi Wr) as (B & E & _). split; [exact B|]. rewrite E.
    apply ascii_iff. rewrite Forall_forall in A. apply A, (nth_error_In _ i), Hx. }
  eexists. split; [exact C|]. intros fuel' L.
  assert (Le : length es = length l) by (symmetry; apply (PfProofs.Forall2_length _ _ _ F)).
  set (file := head w es ++ flat_map ser_ent es ++ flat_map (ent_data (w_n w)) es) in *.
  destruct (shape_trip size w0 fuel l w file N' W C A fuel' L) as (rd & Op & R1 & R2 & R3 & R4 & _).
  assert (Op' : pf_open fuel' file = Some (Ok (reader_of (T := f64) w es file))).
  { apply (open_ok w es _ fuel' file (winv_d _ _ I) C). rewrite Forall_forall. intros e He.
    apply In_nth_error in He. destruct He as (i & Hi). destruct (Forall2_nth_r _ _ _ _ _ F Hi) as (x & Hx & (E & _)).
    rewrite E. rewrite Forall_forall in A. split; [apply A|apply L]; apply (nth_error_In _ i); exact Hx. }
  rewrite Op' in Op. injection Op as <-. eexists. split; [exact Op'|].
  split; [exact R1|]. split; [unfold pf_len; rewrite R1, map_length; reflexivity|].
  intros i name polys Hi. destruct (R4 i name polys Hi) as (out & O1 & O2 & O3 & _).
  destruct (Forall2_nth_l _ _ _ _ _ F Hi) as (e & He & Wr).
  destruct (Geo i (name, polys) e Hi He Wr) as (B & E & Sg). cbn [fst snd] in Sg.
  destruct (@dequant_box f64 _ (e_box e)) as [[[x0 x1] y0] y1] eqn:Db.
  exists x0, x1, y0, y1, out.
  split; [cbn [r_bboxes reader_of]; rewrite nth_error_map, He; cbn; rewrite <- Db; reflexivity|].
  split; [exact O1|]. split; [exact O2|]. split; [exact O3|].
  destruct (read_ok (T := f64) w es file i e I C He) as (K & _). rewrite O1 in K. apply Ok_inj in K.
  rewrite K, U1, Db. exact Sg.
Qed.
