(** What the calls of a program leave in a Writer. *)
From Verif Require Import Py VlvModel ShpFile ShpWriterModel ShpReaderModel ShpLib ShpSpec ShpWriterProofs ShpSave ShpRead ShpApi ShpPrograms.
Open Scope Z_scope.
Open Scope m_scope.

Lemma point_eq_same p q : point_eq p q = true <-> same_point p q.
Proof.
  unfold same_point. revert q. induction p as [|x p IH]; intros [|y q]; cbn [point_eq]; split; intros H; try discriminate; try solve [constructor]; try solve [inversion H].
  - apply andb_true_iff in H. destruct H as [H1 H2]. constructor; [exact H1|apply IH, H2].
  - inversion H; subst. apply andb_true_iff. split; [assumption|apply IH; assumption].
Qed.
Lemma close_part_closed part part' : close_part part = Ok part' -> closed_ring part part'.
Proof.
  unfold close_part, closed_ring. destruct part as [|p r]; [discriminate|]. intros H. exists p. split; [reflexivity|].
  destruct (point_eq p (last (p :: r) p)) eqn:E; injection H as <-.
  - left. apply point_eq_same in E. auto.
  - right. split; [|reflexivity]. intros S. apply point_eq_same in S. congruence.
Qed.
Lemma vertex_pad p : vertex_of (pad_point p) = vertex_of p.
Proof.
  unfold vertex_of, pad_point. f_equal; destruct p as [|a [|b [|c [|d p]]]]; reflexivity.
Qed.
Lemma pad_long p : Forall is_dbl p -> long_point (pad_point p).
Proof.
  intros D. split.
  - unfold pad_point. rewrite app_length, repeat_length. lia.
  - unfold pad_point. apply Forall_app. split; [exact D|]. apply Forall_forall. intros x Hx. apply repeat_spec in Hx. subst. exact zero_dbl.
Qed.
Lemma collect_all ps : forall st pts,
  fold_left collect ps (st, pts) =
    (st ++ starts_from (Z.of_nat (length pts)) (map (map vertex_of) ps), pts ++ concat (map (map pad_point) ps)).
Proof.
  induction ps as [|p ps IH]; intros st pts; cbn [fold_left map starts_from concat].
  - rewrite !app_nil_r. reflexivity.
  - unfold collect at 2. rewrite IH, app_length, !map_length, <- !app_assoc. cbn [app].
    replace (Z.of_nat (length pts + length p)) with (Z.of_nat (length pts) + Z.of_nat (length p)) by lia. reflexivity.
Qed.
Definition represents_as (s : shape) (g : geometry) (t : option Z) : Prop := represents s g /\ s_type s = t.
Lemma concat_pad ps : map vertex_of (concat (map (map pad_point) ps)) = concat (map (map vertex_of) ps).
Proof.
  induction ps as [|p ps IH]; [reflexivity|]. cbn [map concat]. rewrite map_app, IH, map_map. f_equal.
  apply map_ext. apply vertex_pad.
Qed.
Lemma concat_long ps : Forall (Forall (Forall is_dbl)) ps -> Forall long_point (concat (map (map pad_point) ps)).
Proof.
  induction 1 as [|p ps D _ IH]; [constructor|]. cbn. apply Forall_app. split; [|exact IH].
  induction D; cbn; constructor; [apply pad_long|]; assumption.
Qed.
Lemma closed_doubles part part' : closed_ring part part' -> Forall (Forall is_dbl) part -> Forall (Forall is_dbl) part'.
Proof.
  intros [p [H [[_ ->]|[_ ->]]]] D; [exact D|]. apply Forall_app. split; [exact D|]. constructor; [|constructor].
  rewrite Forall_forall in D. apply D, hd_in, H.
Qed.
Lemma close_all parts ps : mapM close_part parts = Ok ps -> Forall2 closed_ring parts ps.
Proof.
  revert ps. induction parts as [|p parts IH]; intros ps H; cbn in H.
  - injection H as <-. constructor.
  - apply bind_ok in H. destruct H as [q [Q H]]. apply bind_ok in H. destruct H as [qs [Qs H]]. injection H as <-.
    constructor; [apply close_part_closed, Q|apply IH, Qs].
Qed.
Lemma ring_type_in t : type_in (Some t) [5; 15; 25; 31] = true <-> ring_type t.
Proof.
  unfold ring_type. cbn [type_in existsb]. rewrite !orb_true_iff, !Z.eqb_eq. intuition discriminate.
Qed.
(** The writer after a call *)
Record added (w w' : writer) (s : shape) : Prop := {
  ad_shapes : w_shapes w' = w_shapes w ++ [s];
  ad_type : w_type w' = w_type w;
  ad_offsets : w_offsets w' = w_offsets w;
  ad_lengths : w_lengths w' = w_lengths w;
  ad_fields : w_fields w' = w_fields w;
  ad_records : w_records w' = w_records w
}.
Lemma poly_ok parts t pt w w' : Forall (Forall (Forall is_dbl)) parts -> poly parts t pt w = (w', Ok tt) ->
  exists s g, parts_geometry parts t g /\ represents s g /\ s_type s = Some t /\ s_parts s = Some (part_starts g) /\ added w w' s.
Proof.
  intros D H. unfold poly in H. apply mbind_ok in H. destruct H as [w1 [ps [P H]]]. unfold lift in P. apply pair_inv in P. destruct P as [<- P].
  assert (G : parts_geometry parts t (map (map vertex_of) ps) /\ Forall (Forall (Forall is_dbl)) ps).
  { destruct (type_in (Some t) [5; 15; 25; 31]) eqn:T.
    - apply ring_type_in in T. apply close_all in P. split; [exists ps; split; [reflexivity|left; auto]|].
      clear H T. induction P as [|a b l l' C P IH]; [constructor|]. inversion D as [|? ? D1 D2]; subst. constructor; [|apply IH, D2].
      eapply closed_doubles; eassumption.
    - injection P as <-. split; [exists parts; split; [reflexivity|right]|exact D]. split; [|reflexivity].
      intros R. apply ring_type_in in R. congruence. }
  destruct G as [G D'].
  rewrite collect_all in H. cbn [app length] in H.
  set (g := map (map vertex_of) ps) in *. change (starts_from (Z.of_nat 0) g) with (part_starts g) in H.
  set (s := set_parts (Some (part_starts g)) (set_points (concat (map (map pad_point) ps)) (new_shape (Some t)))) in H.
  assert (R : forall x, represents (set_ptypes x s) g).
  { intros x. constructor; cbn [s set_ptypes set_parts set_points new_shape s_points s_parts s_z s_m].
    - apply concat_pad.
    - apply concat_long, D'.
    - left. reflexivity.
    - reflexivity.
    - reflexivity. }
  assert (FIN : forall x w0 w1, added w w1 (set_ptypes x s) -> w1 = w0 -> exists s0 g0,
            parts_geometry parts t g0 /\ represents s0 g0 /\ s_type s0 = Some t /\ s_parts s0 = Some (part_starts g0) /\ added w w0 s0).
  { intros x w0 w1 A <-. exists (set_ptypes x s), g. split; [exact G|]. split; [apply R|]. split; [reflexivity|]. split; [reflexivity|exact A]. }
  destruct (t =? 31).
  - destruct pt as [[|x l]|].
    + unfold mbind, ret, modify in H. apply pair_inv in H. destruct H as [H _]. eapply (FIN (Some (Some _)) _ _); [|exact H]. constructor; reflexivity.
    + unfold mbind, ret, modify in H. apply pair_inv in H. destruct H as [H _]. eapply (FIN (Some (Some _)) _ _); [|exact H]. constructor; reflexivity.
    + unfold mbind, ret, modify in H. apply pair_inv in H. destruct H as [H _]. eapply (FIN (Some None) _ _); [|exact H].
      destruct (w_default w); constructor; reflexivity.
  - unfold mbind, ret, modify in H. apply pair_inv in H. destruct H as [H _]. eapply (FIN None _ _); [|exact H]. constructor; reflexivity.
Qed.
Definition call_type (wt : option Z) (c : call) : option Z :=
  match c with Point _ _ _ _ => wt | Line _ t | Poly _ t => Some t | Null => Some 0 end.
Lemma call_ok c w w' : call_doubles c -> do_call c w = (w', Ok tt) ->
  exists s g, adds c g /\ represents s g /\ s_type s = call_type (w_type w) c /\ added w w' s /\
    (s_parts s = match c with Line _ _ | Poly _ _ => Some (part_starts g) | _ => None end).
Proof.
  destruct c as [x y z m|parts t|parts t|]; cbn [do_call call_doubles adds call_type]; intros D H.
  - unfold point, modify in H. pinv H.
    exists (set_points [[x; y; z; m]] (new_shape (w_type w))), [[V x y z m]]. split; [reflexivity|]. split.
    + constructor; cbn; try reflexivity; [|right; reflexivity]. constructor; [|constructor]. split; [cbn; lia|exact D].
    + split; [reflexivity|]. split; [constructor; reflexivity|reflexivity].
  - unfold line in H. destruct (poly_ok parts t _ w w' D H) as [s [g [A [B [C [E F]]]]]]. exists s, g. auto.
  - destruct (poly_ok parts t _ w w' D H) as [s [g [A [B [C [E F]]]]]]. exists s, g. auto.
  - unfold null, modify in H. pinv H. exists (new_shape (Some 0)), []. split; [reflexivity|]. split.
    + constructor; cbn; try reflexivity; [constructor|right; reflexivity].
    + split; [reflexivity|]. split; [constructor; reflexivity|reflexivity].
Qed.
Lemma calls_ok calls : forall w w', Forall call_doubles calls -> for_each do_call calls w = (w', Ok tt) ->
  exists ss gs, w_shapes w' = w_shapes w ++ ss /\ Forall2 adds calls gs /\ Forall2 represents ss gs /\
    Forall2 (fun s c => s_type s = call_type (w_type w) c) ss calls /\
    w_type w' = w_type w /\ w_offsets w' = w_offsets w /\ w_lengths w' = w_lengths w /\ w_fields w' = w_fields w /\ w_records w' = w_records w.
Proof.
  induction calls as [|c calls IH]; intros w w' D H.
  - cbn in H. unfold ret in H. pinv H. exists [], []. rewrite app_nil_r. repeat split; constructor.
  - cbn [for_each] in H. apply mbind_ok in H. destruct H as [w1 [u [X H]]]. destruct u.
    inversion D as [|? ? D1 D2]; subst. destruct (call_ok c w w1 D1 X) as [s [g [A [R [T [AD _]]]]]].
    destruct AD as [S1 T1 O1 L1 F1 R1].
    destruct (IH w1 w' D2 H) as [ss [gs [S2 [A2 [R2 [T2 [E1 [E2 [E3 [E4 E5]]]]]]]]]].
    exists (s :: ss), (g :: gs). rewrite S2, S1, <- app_assoc. split; [reflexivity|].
    split; [constructor; assumption|]. split; [constructor; assumption|].
    split; [constructor; [exact T|rewrite <- T1; exact T2]|]. repeat split; congruence.
Qed.
Lemma eff_type_calls given calls t w ss : file_type given calls t -> w_type w = given -> w_shapes w = ss ->
  Forall2 (fun s c => s_type s = call_type given c) ss calls -> eff_type w t.
Proof.
  intros [N [G|[G [parts [r C]]]]] T S F.
  - split; [exact N|]. left. congruence.
  - split; [exact N|]. right. split; [rewrite T; exact G|].
    rewrite S. clear S. destruct C as [-> | ->]; inversion F; subst; eexists; split; try reflexivity; assumption.
Qed.
