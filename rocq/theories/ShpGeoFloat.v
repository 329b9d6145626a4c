(** signed_area in doubles; the order of doubles on their bit patterns. *)
From Coq Require Import Reals Lra SpecFloat.
From Flocq Require Import Core BinarySingleNaN.
From Verif Require Import Py Num RealNum FloatLib ShpFile ShpWriterModel ShpGeoModel ShpGeoSpec ShpGeo.
Open Scope Z_scope.

(** ** Areas of rings with integer coordinates *)
Fixpoint termsZ (l : list (Z * Z)) : list Z :=
  match l with
  | a :: ((b :: c :: _) as r) => (fst b * (snd c - snd a)) :: termsZ r
  | _ => []
  end.
Definition isz (x : f64) (z : Z) : Prop := isf x (IZR z).
Lemma isz_op (op : f64 -> f64 -> f64) (f : R -> R -> R) x y a b c :
  (forall u v r s, isf u r -> isf v s -> small (f r s) -> isf (op u v) (rnd (f r s))) ->
  isz x a -> isz y b -> f (IZR a) (IZR b) = IZR c -> Z.abs c <= 2 ^ 53 -> isz (op x y) c.
Proof.
  intros O X Y E B. unfold isz. rewrite <- (rnd_IZR c B), <- E. apply O; [exact X|exact Y|]. rewrite E. apply small_le. rewrite <- abs_IZR. apply IZR_le. lia.
Qed.
Lemma terms_double B l : 0 <= B -> 2 * B * B <= 2 ^ 53 -> Forall (within B) l ->
  Forall2 (fun x z => isz x z /\ Z.abs z <= 2 * B * B) (terms (map dpt l)) (termsZ l).
Proof.
  intros B0 BB F. induction F as [|a l A F IH]; [constructor|]. destruct l as [|b [|c l]]; [constructor|constructor|].
  change (terms (map dpt (a :: b :: c :: l))) with (fmul (fofZ (fst b)) (fsub (fofZ (snd c)) (fofZ (snd a))) :: terms (map dpt (b :: c :: l))).
  change (termsZ (a :: b :: c :: l)) with (fst b * (snd c - snd a) :: termsZ (b :: c :: l)).
  constructor; [|exact IH]. inversion F as [|? ? [F1 _] F']; subst. inversion F' as [|? ? [_ F2] _]; subst. destruct A as [_ A2].
  destruct (Z.eq_dec B 0) as [B00|B1].
  { assert (fst b = 0 /\ snd c = 0 /\ snd a = 0) as [-> [-> ->]] by lia. split; [|rewrite B00; cbn; lia].
    apply (isz_op fmul Rmult _ _ 0 0); [exact isf_fmul|apply isf_int; cbn; lia| |cbn; ring|cbn; lia].
    apply (isz_op fsub Rminus _ _ 0 0); [exact isf_fsub|apply isf_int; cbn; lia|apply isf_int; cbn; lia|cbn; ring|cbn; lia]. }
  assert (SD : Z.abs (snd c - snd a) <= 2 * B) by lia.
  assert (PB : Z.abs (fst b * (snd c - snd a)) <= 2 * B * B) by (rewrite Z.abs_mul; nia).
  assert (B2 : 2 * B <= 2 ^ 53) by nia.
  split; [|exact PB]. apply (isz_op fmul Rmult _ _ (fst b) (snd c - snd a)); [exact isf_fmul|apply isf_int; lia| |rewrite <- mult_IZR; reflexivity|lia].
  apply (isz_op fsub Rminus _ _ (snd c) (snd a)); [exact isf_fsub|apply isf_int; lia|apply isf_int; lia|rewrite <- minus_IZR; reflexivity|lia].
Qed.
Lemma sum_double K l zs : 0 <= K -> Forall2 (fun x z => isz x z /\ Z.abs z <= K) l zs -> forall x0 z0, isz x0 z0 -> Z.abs z0 + Z.of_nat (length l) * K <= 2 ^ 53 ->
  isz (fold_left fadd l x0) (fold_left Z.add zs z0) /\ Z.abs (fold_left Z.add zs z0) <= Z.abs z0 + Z.of_nat (length l) * K.
Proof.
  intros K0. induction 1 as [|x z l zs [X Z1] F IH]; intros x0 z0 X0 B; cbn [fold_left length] in *; [split; [exact X0|lia]|].
  assert (A : isz (fadd x0 x) (z0 + z)).
  { apply (isz_op fadd Rplus _ _ z0 z); [exact isf_fadd|exact X0|exact X|rewrite <- plus_IZR; reflexivity|nia]. }
  destruct (IH (fadd x0 x) (z0 + z) A ltac:(nia)) as [C D]. split; [exact C|nia].
Qed.
Lemma half_exact z : Z.abs z <= 2 ^ 53 -> rnd (IZR z / 2) = (IZR z / 2)%R.
Proof.
  intros B. apply round_generic; [apply valid_rnd_N|].
  destruct (Z.eq_dec (Z.abs z) (2 ^ 53)) as [E|N].
  - assert (z = 2 * (z / 2)) as X by (assert (z = 2 ^ 53 \/ z = - 2 ^ 53) as [->| ->] by lia; reflexivity).
    rewrite X, mult_IZR. replace (2 * IZR (z / 2) / 2)%R with (IZR (z / 2)) by lra. rewrite <- (rnd_IZR (z / 2)) by (rewrite X in B; lia). apply generic_format_round; [apply fexp64_valid|apply valid_rnd_N].
  - apply (generic_format_FLT radix2 (-1074) 53). exists (Float radix2 z (-1)); cbn; [unfold F2R; cbn; lra|lia|lia].
Qed.
Lemma terms_map (l : list (Z * Z)) : sumR (terms (map rpt l)) = IZR (fold_left Z.add (termsZ l) 0).
Proof.
  assert (G : forall l z, fold_left Z.add l z = z + fold_left Z.add l 0).
  { clear. induction l as [|x l IH]; intros z; cbn [fold_left]; [lia|]. rewrite IH, (IH (0 + x)). lia. }
  induction l as [|a l IH]; [reflexivity|]. destruct l as [|b [|c l]]; [reflexivity|reflexivity|].
  change (terms (map rpt (a :: b :: c :: l))) with (Rmult (IZR (fst b)) (IZR (snd c) - IZR (snd a)) :: terms (map rpt (b :: c :: l)))%R.
  change (termsZ (a :: b :: c :: l)) with (fst b * (snd c - snd a) :: termsZ (b :: c :: l)).
  unfold sumR in *. cbn [fold_right fold_left]. rewrite IH, (G _ (0 + _)), !plus_IZR, mult_IZR, minus_IZR. lra.
Qed.
Lemma area_double B p mid : 0 <= B -> Z.of_nat (S (length mid)) * (2 * B * B) <= 2 ^ 53 -> Forall (within B) (ring_from p mid) ->
  exists v, signed_area (flat (map dpt (ring_from p mid))) = Ok v /\ isf v (shoelace (map rpt (ring_from p mid)) / 2)%R.
Proof.
  intros B0 BB F. pose proof BB as BB1. set (N := Z.of_nat (S (length mid))) in BB. assert (N1 : 1 <= N) by lia.
  assert (BB' : 2 * B * B <= 2 ^ 53) by nia.
  assert (EX : exists q r, ring_from p mid = p :: q :: r /\ length r = length mid).
  { unfold ring_from. destruct mid as [|q mid]; [exists p, []; auto|]. exists q, (mid ++ [p]). split; [reflexivity|]. rewrite app_length. cbn. lia. }
  destruct EX as [q [r [E L]]].
  assert (A : signed_area (flat (map dpt (ring_from p mid))) = Ok (fdiv (fold_left fadd (terms (map dpt (p :: q :: r ++ [q]))) (fofZ 0)) (fofZ 2))).
  { rewrite E. rewrite (area_ok _ (dpt p) (dpt q) (map dpt r)); [cbn [map app]; rewrite map_app; reflexivity|apply planar_flat; discriminate|apply pt_flat]. }
  assert (AR : signed_area (flat (map rpt (ring_from p mid))) = Ok (sumR (terms (map rpt (p :: q :: r ++ [q]))) / 2)%R).
  { rewrite E. rewrite (area_ok _ (rpt p) (rpt q) (map rpt r)); [|apply planar_flat; discriminate|apply pt_flat].
    change (fold_left nadd) with (fold_left Rplus). rewrite fold_sum. cbn [map app]. rewrite map_app. cbn [map].
    change (nofZ 0) with 0%R. change (ndiv ?a (nofZ 2)) with (a / 2)%R. f_equal. f_equal. apply Rplus_0_l. }
  assert (CL : map rpt (ring_from p mid) = ring_from (rpt p) (map rpt mid)) by (unfold ring_from; cbn [map]; rewrite map_app; reflexivity).
  rewrite CL in AR. rewrite area_closed, <- CL in AR. apply ok_eq in AR.
  rewrite A. eexists. split; [reflexivity|]. rewrite <- AR, terms_map.
  assert (F' : Forall (within B) (p :: q :: r ++ [q])).
  { rewrite E in F. inversion F as [|? ? F1 F2]; subst. inversion F2 as [|? ? F3 F4]; subst. constructor; [exact F1|]. constructor; [exact F3|]. apply Forall_app. auto. }
  pose proof (terms_double B _ B0 BB' F') as TD.
  assert (LT : length (terms (map dpt (p :: q :: r ++ [q]))) = S (length mid)).
  { rewrite <- L. clear. assert (G : forall e r a b, length (terms (map dpt (a :: b :: r ++ [e]))) = S (length r)); [|apply G]. clear. intros e r. induction r as [|c r IH]; intros a b; [reflexivity|].
    cbn [app]. change (terms (map dpt (a :: b :: c :: r ++ [e]))) with (nmul (fst (dpt b)) (nsub (snd (dpt c)) (snd (dpt a))) :: terms (map dpt (b :: c :: r ++ [e]))).
    cbn [length]. rewrite IH. reflexivity. }
  destruct (sum_double (2 * B * B) _ _ ltac:(nia) TD (fofZ 0) 0 ltac:(apply isf_int; cbn; lia) ltac:(rewrite LT; cbn [Z.abs]; lia)) as [S1 S2].
  rewrite LT in S2. cbn [Z.abs] in S2. set (s := fold_left Z.add _ 0) in *.
  rewrite <- (half_exact s) by lia. apply isf_fdiv; [exact S1|apply isf_int; cbn; lia|lra|].
  apply small_le. unfold Rdiv. rewrite Rabs_mult, <- abs_IZR, (Rabs_pos_eq (/ 2)) by lra.
  assert (IZR (Z.abs s) <= IZR (2 ^ 53))%R by (apply IZR_le; lia). assert (IZR (2 ^ 53) <= IZR (2 ^ 100))%R by (apply IZR_le; lia).
  assert (0 <= IZR (Z.abs s))%R by (apply IZR_le; lia). lra.
Qed.
