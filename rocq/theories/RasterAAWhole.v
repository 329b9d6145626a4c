(** aaline in double arithmetic, whatever the direction of the line. *)
From Coq Require Import ZArith Reals Lia Lra SpecFloat.
From Flocq Require Import Core IEEE754.BinarySingleNaN.
From Verif Require Import Num FloatLib PfFloatNorm SimplifyModel RasterModel RasterSpec RasterAASpec RasterAA RasterAALine RasterAACore.
Open Scope R_scope.

Lemma isf_sign_neg x r : isf x r -> f_sign x = false -> 0 <= r.
Proof.
  intros (p & <- & Fp & E) S. destruct p as [s|s| |s m e H]; try discriminate; cbn in E, S; subst.
  - lra.
  - left. apply F2R_gt_0. reflexivity.
Qed.
Lemma isf_wabs x r : isf x r -> isf (wabs x) (Rabs r).
Proof.
  intros I. unfold wabs. cbn [nneg IntF]. destruct (f_sign x) eqn:S.
  - pose proof (isf_sign_pos x r I S) as L. rewrite Rabs_left1 by exact L.
    assert (E : rnd (0 - r) = - r).
    { replace (0 - r) with (- r) by ring. apply round_generic; [apply valid_rnd_N|]. apply generic_format_opp. exact (isf_format x r I). }
    rewrite <- E. apply isf_fsub; [apply (isf_int 0); lia|exact I|]. unfold small. rewrite E, Rabs_Ropp.
    destruct I as (p & _ & _ & <-). apply abs_B2R_lt_emax.
  - rewrite Rabs_pos_eq by exact (isf_sign_neg x r I S). exact I.
Qed.
Lemma sub_zero x y a b : isf x a -> isf y b -> rnd (a - b) = 0 -> a = b.
Proof.
  intros I J E. destruct (sub_rel x y a b I J) as (e & B & Q). rewrite E in Q. apply Rabs_le_inv in B.
  symmetry in Q. apply Rmult_integral in Q. destruct Q; lra.
Qed.
Definition swap {A} (p : A * A) : A * A := (snd p, fst p).
Lemma fits_swap w h P : fits w h P -> fits h w (swap P).
Proof. unfold fits, swap. cbn [fst snd]. tauto. Qed.
Lemma fair_swap w h : fair w h -> fair h w.
Proof. unfold fair. tauto. Qed.
(** The difference of two coordinates of a canvas. *)
Lemma diff_double x y a b : isf x a -> isf y b -> 0 <= a <= 1048576 -> 0 <= b <= 1048576 -> isf (nsub x y) (rnd (a - b)).
Proof. intros I J A B. apply isf_fsub; [exact I|exact J|]. apply small22. apply Rabs_le. lra. Qed.

(** After the exchanges. *)
Lemma oriented steep x0 y0 x1 y1 X0 X1 : isf x0 X0 -> isf x1 X1 -> 0 <= X0 <= 1048576 -> 0 <= X1 <= 1048576 ->
  (let '((x0, y0), (x1, y1)) := if nlt x1 x0 then ((x1, y1), (x0, y0)) else ((x0, y0), (x1, y1)) in
    gradient <- ndivE (nsub y1 y0) (nsub x1 x0) ;;
    let '(xpxl1, yend1, p1) := wu_end steep gradient x0 y0 in
    let '(xpxl2, _, p2) := wu_end steep gradient x1 y1 in
    Ok (p1 ++ p2 ++ wu_inner steep gradient (zfromto (xpxl1 + 1) xpxl2) (nadd yend1 gradient))) =
  if Req_bool X0 X1 then Err ZeroDivisionError else
  if Rlt_bool X1 X0 then Ok (wu_all steep (fdiv (fsub y0 y1) (fsub x0 x1)) x1 y1 x0 y0)
  else Ok (wu_all steep (fdiv (fsub y1 y0) (fsub x1 x0)) x0 y0 x1 y1).
Proof.
  intros I J B0 B1. cbn [nlt NumF]. rewrite (isf_lt _ _ _ _ J I).
  assert (D : forall u v y y' U V, isf u U -> isf v V -> 0 <= U <= 1048576 -> 0 <= V <= 1048576 ->
    ndivE (nsub y y') (nsub u v) = if Req_bool U V then Err ZeroDivisionError else Ok (fdiv (fsub y y') (fsub u v))).
  { intros u v y y' U V Iu Iv Bu Bv. unfold ndivE. cbn [neq NumF nofZ].
    rewrite (isf_eq _ _ _ _ (diff_double u v U V Iu Iv Bu Bv) (isf_int 0 ltac:(lia))).
    destruct (Req_bool_spec U V) as [E|E].
    - rewrite (Req_bool_true (rnd (U - V)) 0); [reflexivity|]. rewrite E, Rminus_diag_eq by reflexivity. apply (rnd_IZR 0). lia.
    - rewrite (Req_bool_false (rnd (U - V)) 0); [reflexivity|]. intros C. apply E. exact (sub_zero u v U V Iu Iv C). }
  destruct (Rlt_bool_spec X1 X0) as [L|L].
  - rewrite (D x0 x1 y0 y1 X0 X1 I J B0 B1). destruct (Req_bool_spec X0 X1) as [E|E]; [reflexivity|]. cbn [bind]. unfold wu_all.
    destruct (wu_end steep _ x1 y1) as [[n1 v1] p1]. destruct (wu_end steep _ x0 y0) as [[n2 v2] p2]. reflexivity.
  - rewrite (D x1 x0 y1 y0 X1 X0 J I B1 B0).
    assert (Sy : Req_bool X1 X0 = Req_bool X0 X1).
    { destruct (Req_bool_spec X1 X0) as [E|E], (Req_bool_spec X0 X1) as [E'|E']; try reflexivity; congruence. }
    rewrite Sy. destruct (Req_bool X0 X1); [reflexivity|]. cbn [bind]. unfold wu_all.
    destruct (wu_end steep _ x0 y0) as [[n1 v1] p1]. destruct (wu_end steep _ x1 y1) as [[n2 v2] p2]. reflexivity.
Qed.
Lemma rnd_abs_sym a b : Rabs (rnd (a - b)) = Rabs (rnd (b - a)).
Proof. replace (a - b) with (- (b - a)) by ring. rewrite rnd_opp. apply Rabs_Ropp. Qed.
Lemma rnd_pos r : 0 <= r -> 0 <= rnd r.
Proof. intros P. rewrite <- (rnd_IZR 0) by lia. apply rnd_le. exact P. Qed.

(** Flat: the line does not leave its row faster than its column, after
    rounding; steep: it does. *)
Definition flat (P Q : R * R) : Prop := Rabs (rnd (snd Q - snd P)) <= Rabs (rnd (fst Q - fst P)).
Lemma aaline_double w h s e P Q : fair w h -> fits w h P -> fits w h Q -> at2 s P -> at2 e Q ->
  (P = Q -> aaline s e = Err ZeroDivisionError) /\
  (P <> Q -> exists px, aaline s e = Ok px /\
    ((flat P Q /\ fst P < fst Q /\ line_of false w h P Q px) \/
     (flat P Q /\ fst Q < fst P /\ line_of false w h Q P px) \/
     (~ flat P Q /\ snd P < snd Q /\ line_of true h w (swap P) (swap Q) px) \/
     (~ flat P Q /\ snd Q < snd P /\ line_of true h w (swap Q) (swap P) px))).
Proof.
  destruct s as [x0 y0], e as [x1 y1]. intros Fa FP FQ [I0 J0] [I1 J1]. cbn [fst snd] in I0, J0, I1, J1.
  destruct (fits_range w h P Fa FP) as (BX0 & BY0 & _). destruct (fits_range w h Q Fa FQ) as (BX1 & BY1 & _).
  assert (St : nlt (wabs (nsub x1 x0)) (wabs (nsub y1 y0)) = Rlt_bool (Rabs (rnd (fst Q - fst P))) (Rabs (rnd (snd Q - snd P)))).
  { apply isf_lt; apply isf_wabs; apply diff_double; assumption. }
  unfold aaline. rewrite St. destruct (Rlt_bool_spec (Rabs (rnd (fst Q - fst P))) (Rabs (rnd (snd Q - snd P)))) as [S|S].
  - rewrite (oriented true y0 x0 y1 x1 (snd P) (snd Q) J0 J1 BY0 BY1).
    assert (Nq : snd P <> snd Q).
    { intros C. rewrite C, (Rminus_diag_eq (snd Q)) in S by reflexivity. rewrite (rnd_IZR 0) in S by lia. rewrite Rabs_R0 in S.
      pose proof (Rabs_pos (rnd (fst Q - fst P))). lra. }
    split; [intros ->; congruence|]. intros _. rewrite Req_bool_false by exact Nq.
    destruct (Rlt_bool_spec (snd Q) (snd P)) as [L|L]; eexists; (split; [reflexivity|]); right; right.
    + right. split; [intros F; unfold flat in F; lra|]. split; [exact L|]. apply (core true h w y1 x1 y0 x0 (swap Q) (swap P)); try assumption; try apply fits_swap; try assumption; [apply fair_swap; assumption|].
      cbn [swap fst snd]. rewrite rnd_abs_sym, <- (Rabs_pos_eq (rnd (snd P - snd Q))), (rnd_abs_sym (snd P)) by (apply rnd_pos; lra). lra.
    + left. split; [intros F; unfold flat in F; lra|]. split; [lra|]. apply (core true h w y0 x0 y1 x1 (swap P) (swap Q)); try assumption; try apply fits_swap; try assumption; [apply fair_swap; assumption|cbn [swap fst snd]; lra|].
      cbn [swap fst snd]. rewrite <- (Rabs_pos_eq (rnd (snd Q - snd P))) by (apply rnd_pos; lra). lra.
  - rewrite (oriented false x0 y0 x1 y1 (fst P) (fst Q) I0 I1 BX0 BX1).
    assert (Nq : P <> Q -> fst P <> fst Q).
    { intros D C. apply D. rewrite (surjective_pairing P), (surjective_pairing Q). f_equal; [exact C|].
      rewrite C, (Rminus_diag_eq (fst Q)) in S by reflexivity. rewrite (rnd_IZR 0), Rabs_R0 in S by lia.
      pose proof (Rabs_pos (rnd (snd Q - snd P))). symmetry. apply (sub_zero y1 y0 _ _ J1 J0). destruct (Req_dec (rnd (snd Q - snd P)) 0) as [Z|Z]; [exact Z|].
      pose proof (Rabs_pos_lt _ Z). lra. }
    split; [intros ->; rewrite Req_bool_true by reflexivity; reflexivity|]. intros D. specialize (Nq D). rewrite Req_bool_false by exact Nq.
    destruct (Rlt_bool_spec (fst Q) (fst P)) as [L|L]; eexists; (split; [reflexivity|]).
    + right; left. split; [exact S|]. split; [exact L|]. apply (core false w h x1 y1 x0 y0 Q P); try assumption.
      rewrite rnd_abs_sym, <- (Rabs_pos_eq (rnd (fst P - fst Q))), (rnd_abs_sym (fst P)) by (apply rnd_pos; lra). exact S.
    + left. split; [exact S|]. split; [lra|]. apply (core false w h x0 y0 x1 y1 P Q); try assumption; [lra|].
      rewrite <- (Rabs_pos_eq (rnd (fst Q - fst P))) by (apply rnd_pos; lra). exact S.
Qed.
