(** Gradients in double arithmetic follow the exact ones. *)
From Coq Require Import ZArith Reals QArith Qreals Lia Lra Sorted SpecFloat Permutation List.
From Flocq Require Import Core IEEE754.BinarySingleNaN.
From Verif Require Import Num FloatLib PfFloatNorm RasterModel RasterAA RasterAALine GradientModel GradientSpec GradientProofs GradientFloatSpec.
Open Scope R_scope.

Notation stopF := (f64 * list f64)%type.
Lemma len2 {A B} (P : A -> B -> Prop) l L : Forall2 P l L -> length l = length L.
Proof. induction 1; cbn; congruence. Qed.
Lemma q_lt x y a b : holds x a -> holds y b -> nlt x y = nlt a b.
Proof.
  intros I J. cbn [nlt NumF]. rewrite (isf_lt x y _ _ I J). destruct (qlt_spec a b) as [L|L].
  - apply Rlt_bool_true. apply Qlt_Rlt. exact L.
  - apply Rlt_bool_false. apply Qle_Rle. apply Qnot_lt_le. exact L.
Qed.
Lemma q_eq x y a b : holds x a -> holds y b -> neq x y = neq a b.
Proof.
  intros I J. cbn [neq NumF]. rewrite (isf_eq x y _ _ I J). destruct (qeq_spec a b) as [L|L].
  - apply Req_bool_true. apply Qeq_eqR. exact L.
  - apply Req_bool_false. intros H. apply L. apply eqR_Qeq. exact H.
Qed.
Lemma holds_int z : (Z.abs z <= 2 ^ 53)%Z -> holds (nofZ z) (nofZ z).
Proof.
  intros B. unfold holds. cbn [nofZ NumF NumQ]. replace (Q2R (inject_Z z)) with (IZR z); [apply isf_int; exact B|].
  unfold Q2R, inject_Z. cbn. lra.
Qed.

(** ** Construction *)
Lemma insert_sim p P l L : stop_holds p P -> Forall2 stop_holds l L -> Forall2 stop_holds (insert_stop p l) (insert_stop P L).
Proof.
  intros Hp H. induction H as [|q Q l L Hq H IH]; cbn [insert_stop]; [repeat constructor; apply Hp|].
  rewrite (q_lt _ _ _ _ (proj1 Hq) (proj1 Hp)). destruct (nlt (fst Q) (fst P)); repeat constructor; auto; apply Hp || apply Hq.
Qed.
Lemma sort_sim l L : Forall2 stop_holds l L -> Forall2 stop_holds (sort_stops l) (sort_stops L).
Proof.
  induction 1 as [|q Q l L Hq H IH]; [constructor|]. change (Forall2 stop_holds (insert_stop q (sort_stops l)) (insert_stop Q (sort_stops L))).
  apply insert_sim; assumption.
Qed.
Lemma get_sim {A B} (P : A -> B -> Prop) l L i : Forall2 P l L ->
  match py_get l i, py_get L i with Ok a, Ok b => P a b | Err e, Err e' => e = e' | _, _ => False end.
Proof.
  intros H. unfold py_get. rewrite (len2 _ _ _ H). set (j := if (i <? 0)%Z then _ else _).
  destruct ((0 <=? j) && (j <? Z.of_nat (length L)))%Z%bool; [|reflexivity]. generalize (Z.to_nat j). clear - H.
  induction H as [|a b l L Hab H IH]; intros [|n]; cbn; [reflexivity|reflexivity|exact Hab|apply IH].
Qed.
Lemma get_sim_ok {A B} (P : A -> B -> Prop) l L i b : Forall2 P l L -> py_get L i = Ok b -> exists a, py_get l i = Ok a /\ P a b.
Proof. intros H E. pose proof (get_sim P l L i H) as G. rewrite E in G. destruct (py_get l i) as [a|e]; [eauto|contradiction]. Qed.
Lemma new_sim points pointsQ gQ : Forall2 stop_holds points pointsQ -> gradient_new pointsQ = Ok gQ ->
  exists g, gradient_new points = Ok g /\ Forall2 stop_holds g gQ.
Proof.
  intros H E. apply sort_sim in H. unfold gradient_new in *. cbv zeta in *.
  destruct (py_get (sort_stops pointsQ) 0) as [F|] eqn:E0; [|discriminate]. cbn [bind] in E.
  destruct (get_sim_ok _ _ _ _ _ H E0) as (f & -> & Hf). cbn [bind].
  rewrite (q_lt _ _ _ _ (holds_int 0 ltac:(lia)) (proj1 Hf)).
  set (mQ := if nlt (nofZ 0) (fst F) then (nofZ 0, snd F) :: sort_stops pointsQ else sort_stops pointsQ) in *.
  set (m := if nlt (nofZ 0) (fst F) then (nofZ 0, snd f) :: sort_stops points else sort_stops points).
  assert (Hm : Forall2 stop_holds m mQ).
  { subst m mQ. destruct (nlt (nofZ 0) (fst F)); [|exact H]. constructor; [|exact H]. split; [apply holds_int; lia|apply Hf]. }
  clearbody m mQ. destruct (py_get mQ (-1)) as [Z|] eqn:E1; [|discriminate]. cbn [bind] in E.
  destruct (get_sim_ok _ _ _ _ _ Hm E1) as (z & -> & Hz). cbn [bind].
  rewrite (q_lt _ _ _ _ (proj1 Hz) (holds_int 1 ltac:(lia))). destruct (nlt (fst Z) (nofZ 1)); injection E as <-; eexists; (split; [reflexivity|]).
  - apply Forall2_app; [exact Hm|]. constructor; [|constructor]. split; [apply holds_int; lia|apply Hz].
  - exact Hm.
Qed.
Lemma bisect_sim l L x X : Forall2 holds l L -> holds x X -> bisect_left l x = bisect_left L X.
Proof.
  intros H Hx. unfold bisect_left. rewrite (len2 _ _ _ H). generalize (length L) at 1 3. intros n. generalize 0%Z (Z.of_nat (length L)).
  induction n as [|n IH]; intros lo hi; cbn [bisect_loop]; [reflexivity|]. destruct (lo <? hi)%Z; [|reflexivity].
  pose proof (get_sim holds l L ((lo + hi) / 2)%Z H) as G.
  destruct (py_get l _) as [v|e], (py_get L _) as [V|e']; try contradiction; cbn [bind]; [|congruence].
  rewrite (q_lt v x V X G Hx). destruct (nlt V X); apply IH.
Qed.
Lemma fst_sim l L : Forall2 stop_holds l L -> Forall2 holds (map fst l) (map fst L).
Proof. induction 1 as [|a b l L H _ IH]; cbn; constructor; [apply H|exact IH]. Qed.
Lemma snd_sim l L : Forall2 stop_holds l L -> Forall2 (Forall2 holds) (map snd l) (map snd L).
Proof. induction 1 as [|a b l L H _ IH]; cbn; constructor; [apply H|exact IH]. Qed.

(** ** The stored stops *)
Lemma new_asc points g : gradient_new points = Ok g -> ascending g /\
  (forall q, In q points -> In q g) /\
  (forall t, In t g -> exists q, In q points /\ snd t = snd q /\ (fst t = fst q \/ fst t = 0%Q \/ fst t = 1%Q)).
Proof.
  intros E. assert (N : points <> []) by (intros ->; discriminate).
  destruct (new_shape points N) as (p0 & c0 & rest & pz & cz & front & E0 & Ez & En). rewrite E in En. apply (f_equal (fun r => match r with Ok v => v | Err _ => [] end)) in En. cbv beta iota in En. subst g.
  pose proof (sort_asc points) as A.
  assert (M : forall q, In q (sort_stops points) -> In q points) by (intros q; apply Permutation_in, Permutation_sym, sort_perm).
  assert (M' : forall q, In q points -> In q (sort_stops points)) by (intros q; apply Permutation_in, sort_perm).
  assert (I0 : In (p0, c0) points) by (apply M; rewrite E0; left; reflexivity).
  assert (Iz : In (pz, cz) points) by (apply M; rewrite Ez; apply in_or_app; right; left; reflexivity).
  assert (Lo : forall q, In q (sort_stops points) -> (p0 <= fst q)%Q).
  { intros q I. rewrite E0 in I, A. inversion A as [|? ? _ F]; subst. destruct I as [<-|I]; [cbn; apply Qle_refl|]. rewrite Forall_forall in F. exact (F q I). }
  assert (Hi : forall q, In q (sort_stops points) -> (fst q <= pz)%Q).
  { intros q I. rewrite Ez in I, A. destruct (asc_app_inv _ _ A) as (_ & _ & C). apply in_app_or in I.
    destruct I as [I|[<-|[]]]; [exact (C q (pz, cz) I (or_introl eq_refl))|cbn; apply Qle_refl]. }
  split; [|split].
  - assert (G : forall a b : list stopQ, ascending a -> ascending b -> (forall p q, In p a -> In q b -> (fst p <= fst q)%Q) -> ascending (a ++ b)).
    { induction a as [|x a IH]; intros b Sa Sb C; [exact Sb|]. inversion Sa as [|? ? S F]; subst. cbn. constructor.
      - apply IH; [exact S|exact Sb|]. intros p q I J. apply C; [right; exact I|exact J].
      - apply Forall_app. split; [exact F|]. apply Forall_forall. intros q J. apply C; [left; reflexivity|exact J]. }
    assert (One : forall s : stopQ, ascending [s]) by (intros s; repeat constructor).
    assert (Sp : ascending (sort_stops points ++ (if nlt pz 1%Q then [(1%Q, cz)] else []))).
    { apply G; [exact A|destruct (nlt pz 1%Q); [apply One|constructor]|]. intros p q I J. destruct (qlt_spec pz 1) as [L|L]; [|destruct J].
      destruct J as [<-|[]]. cbn. apply Qlt_le_weak. eapply Qle_lt_trans; [apply Hi; exact I|exact L]. }
    destruct (qlt_spec 0 p0) as [L|L]; [|exact Sp]. apply G; [apply One|exact Sp|]. intros p q [<-|[]] J. cbn. apply in_app_or in J. destruct J as [J|J].
    + apply Qlt_le_weak. eapply Qlt_le_trans; [exact L|apply Lo; exact J].
    + destruct (nlt pz 1%Q); [|destruct J]. destruct J as [<-|[]]. cbn. discriminate.
  - intros q I. apply in_or_app. right. apply in_or_app. left. apply M', I.
  - intros t I. apply in_app_or in I. destruct I as [I|I].
    + destruct (nlt 0%Q p0); [|destruct I]. destruct I as [<-|[]]. exists (p0, c0). auto.
    + apply in_app_or in I. destruct I as [I|I]; [exists t; auto|]. destruct (nlt pz 1%Q); [|destruct I]. destruct I as [<-|[]]. exists (pz, cz). auto.
Qed.
Lemma new_head points g x : gradient_new points = Ok g -> (0 <= x)%Q \/ (exists q, In q points /\ (fst q <= x)%Q) -> exists t, In t g /\ (fst t <= x)%Q.
Proof.
  intros E B. destruct (new_asc points g E) as (_ & I & _). destruct B as [B|(q & J & B)]; [|exists q; auto].
  assert (N : points <> []) by (intros ->; discriminate).
  destruct (new_shape points N) as (p0 & c0 & rest & pz & cz & front & E0 & Ez & En). rewrite E in En. apply (f_equal (fun r => match r with Ok v => v | Err _ => [] end)) in En. cbv beta iota in En. subst g.
  destruct (qlt_spec 0 p0) as [L|L].
  - exists (0%Q, c0). split; [left; reflexivity|exact B].
  - exists (p0, c0). split; [cbn [app]; rewrite E0; left; reflexivity|]. cbn. apply Qnot_lt_le in L. eapply Qle_trans; [exact L|exact B].
Qed.

(** ** Interpolation *)
Lemma near11 r : Rabs r < 2048 -> Rabs (rnd r - r) <= / 8796093022208.
Proof. intros B. rewrite <- (b_val 8796093022208 43) by (reflexivity || lia). apply (near r 11); [lia|]. rewrite (p_val 2048 11) by (reflexivity || lia). exact B. Qed.
Lemma near12 r : Rabs r < 4096 -> Rabs (rnd r - r) <= / 4398046511104.
Proof. intros B. rewrite <- (b_val 4398046511104 42) by (reflexivity || lia). apply (near r 12); [lia|]. rewrite (p_val 4096 12) by (reflexivity || lia). exact B. Qed.

(** The two weights. *)
Lemma weights pa pb x PA PB X : isf pa PA -> isf pb PB -> isf x X -> PA < X < PB -> Rabs PA <= 2097152 -> Rabs PB <= 2097152 ->
  exists A B, isf (fdiv (fsub pb x) (fsub pb pa)) A /\ isf (fdiv (fsub x pa) (fsub pb pa)) B /\ 0 <= A <= 1 /\ 0 <= B <= 1 /\
    Rabs (A - (PB - X) / (PB - PA)) <= / 1125899906842624 /\ Rabs (B - (X - PA) / (PB - PA)) <= / 1125899906842624 /\
    SFeqb (fsub pb pa) (fofZ 0) = false.
Proof.
  intros Ia Ib Ix L Ba Bb. pose proof Ba as Ba'. pose proof Bb as Bb'. apply Rabs_le_inv in Ba'. apply Rabs_le_inv in Bb'.
  assert (Bx : Rabs X <= 2097152) by (apply Rabs_le; lra).
  pose proof (sub_nonneg pa pb PA PB Ia Ib ltac:(lra)) as P0. pose proof (sub_nonneg x pb X PB Ix Ib ltac:(lra)) as P1. pose proof (sub_nonneg pa x PA X Ia Ix ltac:(lra)) as P2.
  assert (M1 : rnd (PB - X) <= rnd (PB - PA)) by (apply rnd_le; lra).
  assert (M2 : rnd (X - PA) <= rnd (PB - PA)) by (apply rnd_le; lra).
  destruct (slope pa x pb pb PA X PB PB Ia Ix Ib Ib ltac:(lra) Ba Bb Bx Bb) as (A & IA & NA & EA & _); [rewrite Rabs_pos_eq; lra|].
  destruct (slope pa pa pb x PA PA PB X Ia Ia Ib Ix ltac:(lra) Ba Bb Ba Bx) as (B & IB & NB & EB & _); [rewrite Rabs_pos_eq; lra|].
  assert (Id : isf (fsub pb pa) (rnd (PB - PA))) by (apply isf_fsub; [exact Ib|exact Ia|]; apply small22; apply Rabs_le; lra).
  assert (G : forall u y Y R', isf u Y -> isf y R' -> 0 < Y -> 0 < R' -> Y <= R' -> forall C, isf (fdiv u y) C -> 0 <= C <= 1).
  { intros u y Y R' Iu Iy PY PR LY C IC. assert (0 <= Y / R' <= 1).
    { split; [left; apply Rdiv_lt_0_compat; assumption|]. apply (Rmult_le_reg_r R'); [exact PR|]. unfold Rdiv. rewrite Rmult_assoc, Rinv_l by lra. lra. }
    assert (IC' : isf (fdiv u y) (rnd (Y / R'))) by (apply isf_fdiv; [exact Iu|exact Iy|lra|]; apply small22; apply Rabs_le; lra).
    rewrite (isf_fun _ _ _ IC IC'). apply (rnd_in _ 0 1); try lia. lra. }
  exists A, B. split; [exact IA|]. split; [exact IB|].
  assert (I1 : isf (fsub pb x) (rnd (PB - X))) by (apply isf_fsub; [exact Ib|exact Ix|]; apply small22; apply Rabs_le; lra).
  assert (I2 : isf (fsub x pa) (rnd (X - PA))) by (apply isf_fsub; [exact Ix|exact Ia|]; apply small22; apply Rabs_le; lra).
  split; [exact (G _ _ _ _ I1 Id P1 P0 M1 A IA)|]. split; [exact (G _ _ _ _ I2 Id P2 P0 M2 B IB)|]. split; [exact EA|]. split; [exact EB|].
  rewrite (isf_eq _ _ _ _ Id (isf_int 0 ltac:(lia))). apply Req_bool_false. lra.
Qed.

(** One component. *)
Lemma mul_err a f A F t : isf a A -> isf f F -> Rabs A <= 1024 -> 0 <= F <= 1 -> Rabs (F - t) <= / 1125899906842624 ->
  isf (fmul a f) (rnd (A * F)) /\ Rabs (rnd (A * F) - A * t) <= / 1099511627776 + / 8796093022208 /\ Rabs (rnd (A * F)) <= 1024 /\ (0 <= A -> 0 <= rnd (A * F)).
Proof.
  intros IA IF BA BF E. assert (P : Rabs (A * F) <= 1024).
  { rewrite Rabs_mult, (Rabs_pos_eq F) by lra. pose proof (Rabs_pos A). nra. }
  split; [apply isf_fmul; [exact IA|exact IF|]; apply small22; lra|].
  assert (N : Rabs (rnd (A * F) - A * F) <= / 8796093022208) by (apply near11; lra).
  assert (M : Rabs (A * F - A * t) <= / 1099511627776).
  { replace (A * F - A * t) with (A * (F - t)) by ring. rewrite Rabs_mult.
    apply Rle_trans with (1024 * / 1125899906842624); [|lra]. apply Rmult_le_compat; try apply Rabs_pos; assumption. }
  split; [apply Rabs_le_inv in N; apply Rabs_le_inv in M; apply Rabs_le; lra|]. split.
  - apply Rabs_le_inv in P. pose proof (rnd_in (A * F) (-1024) 1024 ltac:(lia) ltac:(lia) P). apply Rabs_le. lra.
  - intros PA. pose proof (rnd_in (A * F) 0 1024 ltac:(lia) ltac:(lia)) as Q. apply Q. apply Rabs_le_inv in P. split; [|lra]. apply Rmult_le_pos; lra.
Qed.
Lemma component a b fa fb A B FA FB ta tb : isf a A -> isf b B -> isf fa FA -> isf fb FB -> Rabs A <= 1024 -> Rabs B <= 1024 -> 0 <= FA <= 1 -> 0 <= FB <= 1 ->
  Rabs (FA - ta) <= / 1125899906842624 -> Rabs (FB - tb) <= / 1125899906842624 ->
  exists r, isf (fadd (fmul a fa) (fmul b fb)) r /\ Rabs (r - (A * ta + B * tb)) <= / 274877906944 /\ (0 <= A -> 0 <= B -> 0 <= r).
Proof.
  intros IA IB JA JB BA BB NA NB EA EB.
  destruct (mul_err a fa A FA ta IA JA BA NA EA) as (I1 & E1 & B1 & P1). destruct (mul_err b fb B FB tb IB JB BB NB EB) as (I2 & E2 & B2 & P2).
  set (u := rnd (A * FA)) in *. set (v := rnd (B * FB)) in *. apply Rabs_le_inv in B1, B2, E1, E2.
  exists (rnd (u + v)). split; [apply isf_fadd; [exact I1|exact I2|]; apply small22; apply Rabs_le; lra|].
  assert (N : Rabs (rnd (u + v) - (u + v)) <= / 4398046511104) by (apply near12; apply Rabs_lt; lra). apply Rabs_le_inv in N.
  split; [apply Rabs_le; lra|]. intros QA QB. apply (rnd_in (u + v) 0 2048); try lia. specialize (P1 QA). specialize (P2 QB). lra.
Qed.

Lemma q_int z : Q2R (inject_Z z) = IZR z.
Proof. unfold Q2R, inject_Z. cbn. lra. Qed.
Lemma q_abs v z : (- inject_Z z <= v <= inject_Z z)%Q -> Rabs (Q2R v) <= IZR z.
Proof. intros [A B]. apply Qle_Rle in A. apply Qle_Rle in B. rewrite Q2R_opp, q_int in A. rewrite q_int in B. apply Rabs_le. lra. Qed.
Definition fair_stop (t : stopQ) : Prop := Rabs (Q2R (fst t)) <= 2097152 /\ Forall (fun v => Rabs (Q2R v) <= 1024) (snd t).
Lemma moderate_fair points g : moderate points -> gradient_new points = Ok g -> Forall fair_stop g.
Proof.
  intros M E. destruct (new_asc points g E) as (_ & _ & H). apply Forall_forall. intros t I. destruct (H t I) as (q & J & Ec & Ep).
  destruct (M q J) as [Mp Mc]. split.
  - destruct Ep as [-> | [-> | ->]].
    + apply (q_abs _ 1000000) in Mp. lra.
    + change 0%Q with (inject_Z 0). rewrite q_int. rewrite Rabs_R0. lra.
    + change 1%Q with (inject_Z 1). rewrite q_int. rewrite Rabs_R1. lra.
  - rewrite Ec. eapply Forall_impl; [|exact Mc]. intros v B. exact (q_abs v 1024 B).
Qed.

(** What reading gives, from the shape of the stored stops. *)
Lemma read_at l p c r L P C R x X : Forall2 stop_holds l L -> stop_holds (p, c) (P, C) -> Forall2 stop_holds r R -> holds x X ->
  Forall (fun s => (fst s < X)%Q) L -> Forall (fun s => (X <= fst s)%Q) R -> (P == X)%Q ->
  gradient_get (l ++ (p, c) :: r) x = Ok c.
Proof.
  intros Hl Hp Hr Hx FL FR E. unfold gradient_get. cbv zeta.
  assert (H : Forall2 stop_holds (l ++ (p, c) :: r) (L ++ (P, C) :: R)) by (apply Forall2_app; [exact Hl|constructor; assumption]).
  rewrite (bisect_sim _ _ x X (fst_sim _ _ H) Hx).
  rewrite (bisect_stops L ((P, C) :: R) X FL) by (constructor; [cbn; rewrite E; apply Qle_refl|exact FR]). cbn [bind].
  rewrite <- (len2 _ _ _ Hl). rewrite !map_app. cbn [map fst snd].
  replace (Z.of_nat (length l)) with (Z.of_nat (length (map fst l))) by (rewrite map_length; reflexivity).
  rewrite py_get_app. cbn [bind]. rewrite (q_eq p x P X (proj1 Hp) Hx). destruct (qeq_spec P X); [|contradiction].
  replace (Z.of_nat (length (map fst l))) with (Z.of_nat (length (map snd l))) by (rewrite !map_length; reflexivity).
  rewrite py_get_app. reflexivity.
Qed.
Lemma read_between l pa ca pb cb r L PA CA PB CB R x X : Forall2 stop_holds l L -> stop_holds (pa, ca) (PA, CA) -> stop_holds (pb, cb) (PB, CB) -> Forall2 stop_holds r R -> holds x X ->
  Forall (fun s => (fst s < X)%Q) L -> (PA < X)%Q -> (X < PB)%Q -> Forall (fun s => (X <= fst s)%Q) R ->
  fair_stop (PA, CA) -> fair_stop (PB, CB) ->
  exists fa fb A B, gradient_get (l ++ (pa, ca) :: (pb, cb) :: r) x = Ok (map (fun q => nadd (nmul (fst q) fa) (nmul (snd q) fb)) (combine ca cb)) /\
    isf fa A /\ isf fb B /\ 0 <= A <= 1 /\ 0 <= B <= 1 /\
    Rabs (A - Q2R ((PB - X) / (PB - PA))) <= / 1125899906842624 /\ Rabs (B - Q2R ((X - PA) / (PB - PA))) <= / 1125899906842624.
Proof.
  intros Hl Ha Hb Hr Hx FL La Lb FR Fa Fb.
  assert (La' := Qlt_Rlt _ _ La). assert (Lb' := Qlt_Rlt _ _ Lb).
  destruct (weights pa pb x _ _ _ (proj1 Ha) (proj1 Hb) Hx (conj La' Lb') (proj1 Fa) (proj1 Fb)) as (A & B & IA & IB & BA & BB & EA & EB & NZ).
  exists (fdiv (fsub pb x) (fsub pb pa)), (fdiv (fsub x pa) (fsub pb pa)), A, B. split.
  - unfold gradient_get. cbv zeta.
    assert (H : Forall2 stop_holds (l ++ (pa, ca) :: (pb, cb) :: r) (L ++ (PA, CA) :: (PB, CB) :: R)) by (apply Forall2_app; [exact Hl|repeat constructor; assumption || apply Ha || apply Hb]).
    rewrite (bisect_sim _ _ x X (fst_sim _ _ H) Hx).
    replace (L ++ (PA, CA) :: (PB, CB) :: R) with ((L ++ [(PA, CA)]) ++ (PB, CB) :: R) by (rewrite <- app_assoc; reflexivity).
    rewrite bisect_stops; [|apply Forall_app; split; [exact FL|constructor; [exact La|constructor]]|constructor; [cbn; apply Qlt_le_weak; exact Lb|exact FR]].
    replace (l ++ (pa, ca) :: (pb, cb) :: r) with ((l ++ [(pa, ca)]) ++ (pb, cb) :: r) by (rewrite <- app_assoc; reflexivity).
    cbn [bind]. rewrite app_length, <- (len2 _ _ _ Hl). cbn [length].
    rewrite (map_app fst (l ++ _)), (map_app snd (l ++ _)). cbn [map fst snd].
    replace (Z.of_nat (length l + 1)) with (Z.of_nat (length (map fst (l ++ [(pa, ca)])))) by (rewrite map_length, app_length; reflexivity).
    rewrite py_get_app. cbn [bind]. rewrite (q_eq pb x PB X (proj1 Hb) Hx). destruct (qeq_spec PB X) as [Q|_]; [exfalso; rewrite Q in Lb; exact (Qlt_irrefl _ Lb)|].
    replace (Z.of_nat (length (map fst (l ++ [(pa, ca)]))) - 1)%Z with (Z.of_nat (length (map fst l))) by (rewrite !map_length, app_length; cbn [length]; lia).
    assert (Ef : map fst (l ++ [(pa, ca)]) ++ pb :: map fst r = map fst l ++ pa :: pb :: map fst r) by (rewrite map_app, <- app_assoc; reflexivity).
    assert (Es : map snd (l ++ [(pa, ca)]) ++ cb :: map snd r = map snd l ++ ca :: cb :: map snd r) by (rewrite map_app, <- app_assoc; reflexivity).
    rewrite Ef at 1. rewrite py_get_app. cbn [bind]. unfold ndivE. change (neq (nsub pb pa) (nofZ 0)) with (SFeqb (fsub pb pa) (fofZ 0)). rewrite NZ. cbn [bind].
    replace (Z.of_nat (length (map fst l))) with (Z.of_nat (length (map snd l))) by (rewrite !map_length; reflexivity).
    rewrite Es at 1. rewrite py_get_app. cbn [bind].
    replace (Z.of_nat (length (map fst (l ++ [(pa, ca)])))) with (Z.of_nat (length (map snd (l ++ [(pa, ca)])))) by (rewrite !map_length; reflexivity).
    rewrite py_get_app. reflexivity.
  - assert (Nz : ~ (PB - PA == 0)%Q).
    { intros Q. apply Qeq_eqR in Q. rewrite Q2R_minus, RMicromega.Q2R_0 in Q. cbn in La', Lb'. lra. }
    rewrite !Q2R_div, !Q2R_minus by exact Nz. auto 10.
Qed.
Definition shown (d : R) (c : list f64) (C : list Q) : Prop := Forall2 (within d) c C.
Lemma exact_shown d c C : 0 <= d -> Forall2 holds c C -> shown d c C.
Proof.
  intros P. induction 1 as [|v q c C H _ IH]; constructor; [|exact IH]. exists (Q2R q). split; [exact H|]. rewrite Rminus_diag_eq, Rabs_R0 by reflexivity. exact P.
Qed.
Definition nonneg (v : f64) : Prop := exists r, isf v r /\ 0 <= r.
Lemma mix_shown ca cb CA CB fa fb A B ta tb : Forall2 holds ca CA -> Forall2 holds cb CB -> isf fa A -> isf fb B -> 0 <= A <= 1 -> 0 <= B <= 1 ->
  Forall (fun v => Rabs (Q2R v) <= 1024) CA -> Forall (fun v => Rabs (Q2R v) <= 1024) CB ->
  Rabs (A - Q2R ta) <= / 1125899906842624 -> Rabs (B - Q2R tb) <= / 1125899906842624 ->
  let c := map (fun q => nadd (nmul (fst q) fa) (nmul (snd q) fb)) (combine ca cb) in
  shown (/ 274877906944) c (map (fun q => fst q * ta + snd q * tb)%Q (combine CA CB)) /\
  (Forall (fun v => (0 <= v)%Q) CA -> Forall (fun v => (0 <= v)%Q) CB -> Forall nonneg c).
Proof.
  intros Ha Hb IA IB BA BB NA NB EA EB c. subst c. revert cb CB Hb NB. induction Ha as [|a qa ca CA H Ha IH]; intros cb CB Hb NB; [split; [constructor|intros; constructor]|].
  destruct Hb as [|b qb cb CB J Hb]; [split; [constructor|intros; constructor]|]. cbn [combine map fst snd].
  inversion NA as [|? ? na NA']; subst. inversion NB as [|? ? nb NB']; subst. destruct (IH NA' cb CB Hb NB') as [I1 I2].
  destruct (component a b fa fb _ _ A B _ _ H J IA IB na nb BA BB EA EB) as (r & Ir & Er & Pr). split.
  - constructor; [|exact I1]. exists r. split; [exact Ir|]. rewrite Q2R_plus, !Q2R_mult. exact Er.
  - intros P1 P2. inversion P1 as [|? ? p1 P1']; subst. inversion P2 as [|? ? p2 P2']; subst. constructor; [|apply I2; assumption].
    exists r. split; [exact Ir|]. apply Qle_Rle in p1. apply Qle_Rle in p2. rewrite RMicromega.Q2R_0 in p1, p2. apply Pr; assumption.
Qed.

Lemma in_nonneg (points g : list stopQ) : gradient_new points = Ok g -> (forall q, In q points -> Forall (fun v => (0 <= v)%Q) (snd q)) ->
  forall t, In t g -> Forall (fun v => (0 <= v)%Q) (snd t).
Proof. intros E H t I. destruct (new_asc points g E) as (_ & _ & G). destruct (G t I) as (q & J & -> & _). apply H, J. Qed.
Lemma holds_nonneg c C : Forall2 holds c C -> Forall (fun v => (0 <= v)%Q) C -> Forall nonneg c.
Proof.
  induction 1 as [|v q c C H _ IH]; intros F; [constructor|]. inversion F as [|? ? p F']; subst. constructor; [|apply IH; exact F'].
  exists (Q2R q). split; [exact H|]. apply Qle_Rle in p. rewrite RMicromega.Q2R_0 in p. exact p.
Qed.

Lemma get_float points pointsQ x X : Forall2 stop_holds points pointsQ -> holds x X -> moderate pointsQ -> pointsQ <> [] ->
  (0 <= X)%Q \/ (exists q, In q pointsQ /\ (fst q <= X)%Q) -> (X <= 1)%Q \/ (exists q, In q pointsQ /\ (X <= fst q)%Q) ->
  exists g c C, gradient_new points = Ok g /\ gradient_get g x = Ok c /\ shows_at pointsQ X C /\ shown (/ 274877906944) c C /\
    ((exists q, In q pointsQ /\ (fst q == X)%Q) -> Forall2 holds c C) /\
    ((forall q, In q pointsQ -> Forall (fun v => (0 <= v)%Q) (snd q)) -> Forall nonneg c).
Proof.
  intros H Hx M N B0 B1. destruct (api_get pointsQ X N B0 B1) as (G & C & En & Eg & S).
  destruct (new_sim points pointsQ G H En) as (g & Eg' & Hg). destruct (new_asc pointsQ G En) as (A & Sub & _).
  pose proof (moderate_fair pointsQ G M En) as Fair. pose proof (in_nonneg pointsQ G En) as Pos.
  destruct (new_head pointsQ G X En B0) as (th & Ih & Lh).
  destruct (asc_split G X A) as (L & R & EG & FL & FR). exists g.
  destruct R as [|[PB CB] R].
  { exfalso. rewrite app_nil_r in EG. subst L. rewrite (get_beyond G X FL) in Eg. discriminate. }
  inversion FR as [|? ? Hb FR']; subst. cbn in Hb. apply Forall2_app_inv_r in Hg. destruct Hg as (l & r0 & Hl & Hr0 & ->).
  inversion Hr0 as [|[pb cb] ? r ? Hpb Hr]; subst.
  assert (Fb : fair_stop (PB, CB)) by (rewrite Forall_forall in Fair; apply Fair; apply in_or_app; right; left; reflexivity).
  destruct (qeq_spec PB X) as [Q|Q].
  - exists cb, CB. rewrite (get_at L PB CB R X FL FR' Q) in Eg. injection Eg as <-.
    split; [exact Eg'|]. split; [exact (read_at l pb cb r L PB CB R x X Hl Hpb Hr Hx FL FR' Q)|]. split; [exact S|].
    split; [apply exact_shown; [lra|apply Hpb]|]. split; [intros _; apply Hpb|]. intros P. apply (holds_nonneg cb CB (proj2 Hpb)).
    apply (Pos P (PB, CB)). apply in_or_app. right. left. reflexivity.
  - assert (Lb : (X < PB)%Q) by (apply Qnot_le_lt; intros W; apply Q; apply Qle_antisym; assumption).
    destruct L as [|[PA CA] L] using rev_ind.
    { exfalso. cbn [app] in Ih. apply (Qlt_irrefl X). eapply Qlt_le_trans; [exact Lb|]. eapply Qle_trans; [|exact Lh].
      destruct Ih as [<-|I]; [apply Qle_refl|]. inversion A as [|? ? _ F]; subst. rewrite Forall_forall in F. exact (F th I). }
    clear IHL. apply Forall_app in FL. destruct FL as [FL Fa]. inversion Fa as [|? ? La _]; subst. cbn in La.
    apply Forall2_app_inv_r in Hl. destruct Hl as (l' & r1 & Hl & Hr1 & ->). inversion Hr1 as [|[pa ca] ? ? ? Hpa Hn]; subst. inversion Hn; subst.
    rewrite <- !app_assoc in *. cbn [app] in *.
    assert (Fpa : fair_stop (PA, CA)) by (rewrite Forall_forall in Fair; apply Fair; apply in_or_app; right; left; reflexivity).
    rewrite (get_between L PA CA PB CB R X FL La Lb FR') in Eg. injection Eg as <-.
    destruct (read_between l' pa ca pb cb r L PA CA PB CB R x X Hl Hpa Hpb Hr Hx FL La Lb FR' Fpa Fb) as (fa & fb & W & V & Er & IW & IV & BW & BV & EW & EV).
    eexists _, _. split; [exact Eg'|]. split; [exact Er|]. split; [exact S|].
    destruct (mix_shown ca cb CA CB fa fb W V _ _ (proj2 Hpa) (proj2 Hpb) IW IV BW BV (proj2 Fpa) (proj2 Fb) EW EV) as [Sh Nn].
    split; [exact Sh|]. split.
    + intros (q & I & E). exfalso. apply Sub in I. apply in_app_or in I. destruct I as [I|[<-|[<-|I]]].
      * rewrite Forall_forall in FL. specialize (FL q I). cbn in FL. rewrite E in FL. exact (Qlt_irrefl _ FL).
      * cbn in E. rewrite E in La. exact (Qlt_irrefl _ La).
      * exact (Q E).
      * destruct (asc_app_inv _ _ A) as (_ & A' & _). inversion A' as [|? ? A'' _]; subst. inversion A'' as [|? ? _ F]; subst. rewrite Forall_forall in F.
        specialize (F q I). cbn in F. rewrite E in F. apply Q. apply Qle_antisym; assumption.
    + intros P. apply Nn; [apply (Pos P (PA, CA)); apply in_or_app; right; left; reflexivity|apply (Pos P (PB, CB)); apply in_or_app; right; right; left; reflexivity].
Qed.

(** ** Digits *)
Lemma digit v q : within (/ 274877906944) v q -> nonneg v -> (0 <= q <= 1)%Q ->
  exists d, is_hex_digit (hex2 (nint (nmul v (nofZ 15)))) d /\ IZR d - / 1000000000 <= 15 * Q2R q < IZR d + 1 + / 1000000000.
Proof.
  intros (r & I & E) (r' & I' & P) [B0 B1]. rewrite <- (isf_fun _ _ _ I I') in P. clear r' I'.
  apply Qle_Rle in B0. apply Qle_Rle in B1. rewrite RMicromega.Q2R_0 in B0. rewrite RMicromega.Q2R_1 in B1. apply Rabs_le_inv in E.
  assert (J : isf (nmul v (nofZ 15)) (rnd (r * 15))).
  { apply isf_fmul; [exact I|apply isf_int; lia|]. apply small22. apply Rabs_le. lra. }
  assert (N : Rabs (rnd (r * 15) - r * 15) <= / 8796093022208) by (apply near11; apply Rabs_lt; lra). apply Rabs_le_inv in N.
  assert (P' : 0 <= rnd (r * 15)) by (apply (rnd_in (r * 15) 0 16); try lia; lra).
  set (w := rnd (r * 15)) in *. pose proof (trunc_bounds w P') as T. cbn [nint IntF]. rewrite (isf_trunc _ _ J).
  set (d := Ztrunc w) in *.
  assert (D : (0 <= d <= 15)%Z).
  { split; [apply le_IZR; cbn; destruct (Z.le_gt_cases 0 d) as [Q|Q]; [apply IZR_le in Q; exact Q|]; exfalso|].
    - assert (IZR d <= -1) by (apply (IZR_le d (-1)); lia). lra.
    - assert (d < 16)%Z; [|lia]. apply lt_IZR. lra. }
  exists d. split; [|lra]. unfold hex2. replace (d <? 0)%Z with false by lia. rewrite top_small by lia.
  unfold is_hex_digit, hex_char. destruct (Z.ltb_spec d 10); lia.
Qed.
Lemma hex_float points pointsQ x X : Forall2 stop_holds points pointsQ -> holds x X -> moderate pointsQ -> pointsQ <> [] -> (0 <= X <= 1)%Q ->
  (forall q, In q pointsQ -> Forall (fun v => (0 <= v <= 1)%Q) (snd q)) ->
  exists g C chars, gradient_new points = Ok g /\ shows_at pointsQ X C /\ gradient_hex g x = Ok (35%Z :: chars) /\
    Forall2 (fun q ch => exists d, is_hex_digit ch d /\ IZR d - / 1000000000 <= 15 * Q2R q < IZR d + 1 + / 1000000000) C chars.
Proof.
  intros H Hx M N B F. destruct (get_float points pointsQ x X H Hx M N (or_introl (proj1 B)) (or_introl (proj2 B))) as (g & c & C & En & Eg & S & Sh & _ & P).
  exists g, C. eexists. split; [exact En|]. split; [exact S|]. unfold gradient_hex. rewrite Eg. cbn [bind]. split; [reflexivity|].
  pose proof (shows_range pointsQ X C 0 1 S F) as Rg.
  assert (Pn : Forall nonneg c). { apply P. intros q I. eapply Forall_impl; [|exact (F q I)]. cbn. intros v [V _]. exact V. }
  clear - Sh Rg Pn. induction Sh as [|v q c C W Sh IH]; cbn [map]; [constructor|]. inversion Rg; subst. inversion Pn; subst. constructor; [|apply IH; assumption].
  apply digit; assumption.
Qed.
Lemma beyond_float points pointsQ x X : Forall2 stop_holds points pointsQ -> holds x X -> pointsQ <> [] -> (1 < X)%Q -> (forall q, In q pointsQ -> (fst q < X)%Q) ->
  exists g, gradient_new points = Ok g /\ gradient_get g x = Err IndexError.
Proof.
  intros H Hx N L U. destruct (new_shape pointsQ N) as (p0 & c0 & rest & pz & cz & front & _ & _ & En).
  destruct (new_sim points pointsQ _ H En) as (g & Eg & Hg). exists g. split; [exact Eg|].
  destruct (new_asc pointsQ _ En) as (_ & _ & G). set (gQ := _ ++ _) in Hg, G.
  assert (F : Forall (fun s => (fst s < X)%Q) gQ).
  { apply Forall_forall. intros t I. destruct (G t I) as (q & J & _ & [-> | [-> | ->]]); [apply U, J| |exact L].
    eapply Qlt_trans; [|exact L]. reflexivity. }
  unfold gradient_get. cbv zeta. rewrite (bisect_sim _ _ x X (fst_sim _ _ Hg) Hx).
  pose proof (bisect_stops gQ [] X F (Forall_nil _)) as E. rewrite app_nil_r in E. rewrite E. cbn [bind]. rewrite <- (len2 _ _ _ Hg).
  unfold py_get at 1. rewrite map_length, (proj2 (Z.ltb_ge (Z.of_nat (length g)) 0)) by lia. rewrite Z.ltb_irrefl, Bool.andb_false_r. reflexivity.
Qed.
Lemma holds_exists v : valid_binary 53 1024 v = true -> is_finite_SF v = true -> exists q, holds v q.
Proof.
  intros V F. pose proof (isf_valid v V F) as I. unfold holds. destruct v as [s|s| |s m e]; try discriminate.
  - exists 0%Q. rewrite RMicromega.Q2R_0. exact I.
  - unfold SF2R in I. destruct (Z.le_gt_cases 0 e) as [L|L].
    + rewrite F2R_mul in I by exact L. exists (inject_Z (cond_Zopp s (Z.pos m) * 2 ^ e)). rewrite q_int. exact I.
    + rewrite F2R_div in I by lia. exists (cond_Zopp s (Z.pos m) # Z.to_pos (2 ^ (- e))). unfold Q2R. cbn [Qnum Qden].
      rewrite Z2Pos.id; [exact I|]. apply Z.pow_pos_nonneg; lia.
Qed.
