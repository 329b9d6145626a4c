(** The bytes written by saveShp and saveShx. *)
From Verif Require Import Py VlvModel VlvProofs ShpFile ShpLib ShpSpec ShpWriterModel ShpReaderModel ShpPrograms.
Open Scope Z_scope.
Open Scope m_scope.

(** ** Encoders *)
Lemma byte_at_be v k n : (k < n)%nat -> nth (n - 1 - k) (be_bytes n v) 0 = byte_at v (Z.of_nat k).
Proof.
  unfold byte_at. revert k. induction n as [|n IH]; intros k H; [lia|]. cbn [be_bytes].
  destruct (Nat.eq_dec k n) as [->|N].
  - replace (S n - 1 - n)%nat with 0%nat by lia. reflexivity.
  - replace (S n - 1 - k)%nat with (S (n - 1 - k)) by lia. cbn [nth]. apply IH. lia.
Qed.
Lemma byte_at_mod v k : 0 <= k < 4 -> byte_at (v mod 4294967296) k = byte_at v k.
Proof.
  intros H. unfold byte_at. change 4294967296 with (256 ^ 4).
  replace 4 with (k + (4 - k)) at 1 by lia. rewrite Z.pow_add_r by lia.
  assert (P : 0 < 256 ^ k) by (apply Z.pow_pos_nonneg; lia).
  assert (Q : 0 < 256 ^ (4 - k)) by (apply Z.pow_pos_nonneg; lia).
  rewrite Z.rem_mul_r by lia.
  rewrite (Z.mul_comm (256 ^ k)), Z.div_add by lia.
  rewrite (Z.div_small (v mod 256 ^ k)) by (apply Z.mod_pos_bound; exact P). rewrite Z.add_0_l.
  replace (256 ^ (4 - k)) with (256 * 256 ^ (3 - k)) by (rewrite <- Z.pow_succ_r by lia; f_equal; lia).
  assert (R : 0 < 256 ^ (3 - k)) by (apply Z.pow_pos_nonneg; lia).
  rewrite Z.rem_mul_r by lia. rewrite Z.mul_comm, Z.mod_add by lia. apply Z.mod_mod. lia.
Qed.
Lemma be_bytes_4 v : be_bytes 4 v = be32 v.
Proof. reflexivity. Qed.
Lemma be32_mod v : be32 (v mod 4294967296) = be32 v.
Proof. unfold be32. rewrite !byte_at_mod by lia. reflexivity. Qed.
Lemma rev_be32 v : rev (be32 v) = le32 v.
Proof. reflexivity. Qed.
Lemma pack_bi_be32 v bs : pack_bi v = Ok bs -> bs = be32 v /\ -2147483648 <= v < 2147483648.
Proof. intros H. apply pack_bi_inv in H. destruct H as [R ->]. rewrite be_bytes_4, be32_mod. auto. Qed.
Lemma pack_li_le32 v bs : pack_li v = Ok bs -> bs = le32 v /\ -2147483648 <= v < 2147483648.
Proof.
  unfold pack_li. destruct (pack_bi v) as [b|] eqn:E; [|discriminate]. cbn [rmap]. intros H. injection H as <-.
  apply pack_bi_be32 in E. destruct E as [-> R]. rewrite rev_be32. auto.
Qed.
Lemma pack_bi_32 v : -2147483648 <= v < 2147483648 -> pack_bi v = Ok (be32 v).
Proof. intros H. rewrite pack_bi_ok by exact H. rewrite be_bytes_4, be32_mod. reflexivity. Qed.
Lemma pack_li_32 v : -2147483648 <= v < 2147483648 -> pack_li v = Ok (le32 v).
Proof. intros H. unfold pack_li. rewrite pack_bi_32 by exact H. reflexivity. Qed.
Lemma dbl_bytes_le64 d : dbl_bytes d = le64 d.
Proof. reflexivity. Qed.
Lemma pack_ds_doubles l : pack_ds l = doubles l.
Proof. reflexivity. Qed.
Lemma doubles_length l : length (doubles l) = (8 * length l)%nat.
Proof. exact (pack_ds_length l). Qed.
Lemma doubles_app a b : doubles (a ++ b) = doubles a ++ doubles b.
Proof. apply flat_map_app. Qed.

(** ** Boxes *)
Lemma dbl_min_least l v : dbl_min l = Ok v -> least l v.
Proof.
  destruct l as [|x l]; [discriminate|]. cbn. intros H. injection H as <-.
  assert (G : forall (seen : list dbl) a, (In a seen /\ forall y, In y seen -> dbl_lt y a = false) ->
            least (seen ++ l) (fold_left (fun a b => if dbl_lt b a then b else a) l a)).
  { induction l as [|b l IH]; intros seen a [I H]; cbn.
    - rewrite app_nil_r. split; assumption.
    - replace (seen ++ b :: l) with ((seen ++ [b]) ++ l) by (rewrite <- app_assoc; reflexivity).
      apply IH. destruct (dbl_lt b a) eqn:E; split.
      + apply in_or_app. right. left. reflexivity.
      + intros y Hy. apply in_app_or in Hy. destruct Hy as [Hy|[<-|[]]]; [|apply dbl_lt_irrefl].
        apply (dbl_lt_shift a b y E). apply H. exact Hy.
      + apply in_or_app. left. exact I.
      + intros y Hy. apply in_app_or in Hy. destruct Hy as [Hy|[<-|[]]]; [apply H; exact Hy|exact E]. }
  apply (G [x] x). split; [left; reflexivity|]. intros y [<-|[]]. apply dbl_lt_irrefl.
Qed.
Lemma dbl_lt_shift' a b c : dbl_lt a b = true -> dbl_lt a c = false -> dbl_lt b c = false.
Proof.
  unfold dbl_lt. destruct (dbl_nan a), (dbl_nan b), (dbl_nan c); cbn; try discriminate; try reflexivity.
  intros H1 H2. apply Z.ltb_lt in H1. apply Z.ltb_ge in H2. apply Z.ltb_ge. lia.
Qed.
Lemma dbl_max_greatest l v : dbl_max l = Ok v -> greatest l v.
Proof.
  destruct l as [|x l]; [discriminate|]. cbn. intros H. injection H as <-.
  assert (G : forall (seen : list dbl) a, (In a seen /\ forall y, In y seen -> dbl_lt a y = false) ->
            greatest (seen ++ l) (fold_left (fun a b => if dbl_lt a b then b else a) l a)).
  { induction l as [|b l IH]; intros seen a [I H]; cbn.
    - rewrite app_nil_r. split; assumption.
    - replace (seen ++ b :: l) with ((seen ++ [b]) ++ l) by (rewrite <- app_assoc; reflexivity).
      apply IH. destruct (dbl_lt a b) eqn:E; split.
      + apply in_or_app. right. left. reflexivity.
      + intros y Hy. apply in_app_or in Hy. destruct Hy as [Hy|[<-|[]]]; [|apply dbl_lt_irrefl].
        apply (dbl_lt_shift' a b y E). apply H. exact Hy.
      + apply in_or_app. left. exact I.
      + intros y Hy. apply in_app_or in Hy. destruct Hy as [Hy|[<-|[]]]; [apply H; exact Hy|exact E]. }
  apply (G [x] x). split; [left; reflexivity|]. intros y [<-|[]]. apply dbl_lt_irrefl.
Qed.
Lemma dbl_min_ok l : l <> [] -> exists v, dbl_min l = Ok v.
Proof. destruct l; [congruence|]. intros _. eexists. reflexivity. Qed.
Lemma dbl_max_ok l : l <> [] -> exists v, dbl_max l = Ok v.
Proof. destruct l; [congruence|]. intros _. eexists. reflexivity. Qed.

(** ** Model shapes and geometries *)
Definition long_point (p : list dbl) : Prop := (4 <= length p)%nat /\ Forall is_dbl p.
(** [represents s g]: the shape [s], as added by the API, has geometry [g]. *)
Record represents (s : shape) (g : geometry) : Prop := {
  rep_points : map vertex_of (s_points s) = vertices g;
  rep_long : Forall long_point (s_points s);
  rep_parts : s_parts s = Some (part_starts g) \/ s_parts s = None;
  rep_z : s_z s = None;
  rep_m : s_m s = None
}.
Lemma columns_inv pts xs ys : columns pts = Ok (xs, ys) ->
  pts <> [] /\ xs = map vx (map vertex_of pts) /\ ys = map vy (map vertex_of pts).
Proof.
  unfold columns. destruct pts as [|p pts]; [discriminate|].
  destruct (forallb _ _); [|discriminate]. intros H. injection H as <- <-.
  split; [discriminate|]. cbn [map]. rewrite !map_map. split; reflexivity.
Qed.
Lemma columns_ok pts : pts <> [] -> Forall long_point pts ->
  columns pts = Ok (map vx (map vertex_of pts), map vy (map vertex_of pts)).
Proof.
  intros N L. unfold columns. destruct pts as [|p pts]; [congruence|].
  replace (forallb _ _) with true; [rewrite !map_map; reflexivity|].
  symmetry. apply forallb_forall. intros q Hq. rewrite Forall_forall in L. destruct (L q Hq) as [L1 _].
  apply Z.leb_le. lia.
Qed.
Lemma box_of_inv ss gs b : Forall2 represents ss gs -> box_of ss = Ok b ->
  bounds (flat_map vertices gs) b /\ Forall (fun g => vertices g <> []) gs.
Proof.
  intros R. unfold box_of. intros H. apply bind_ok in H. destruct H as [cs [E H]].
  assert (C : flat_map fst cs = map vx (flat_map vertices gs) /\
              flat_map snd cs = map vy (flat_map vertices gs) /\ Forall (fun g => vertices g <> []) gs).
  { clear H. revert cs E. induction R as [|s g ss gs Rs R IH]; intros cs E; cbn in E.
    - injection E as <-. cbn. auto.
    - apply bind_ok in E. destruct E as [[xs ys] [E1 E2]]. apply bind_ok in E2. destruct E2 as [ds [E2 E3]].
      injection E3 as <-. destruct (IH ds E2) as [I1 [I2 I3]].
      apply columns_inv in E1. destruct E1 as [N [-> ->]]. cbn [flat_map fst snd].
      rewrite I1, I2, !map_app, (rep_points s g Rs). repeat split.
      constructor; [|exact I3]. rewrite <- (rep_points s g Rs). destruct (s_points s); [congruence|discriminate]. }
  destruct C as [C1 [C2 C3]]. rewrite C1, C2 in H.
  apply bind_ok in H. destruct H as [x0 [X0 H]]. apply bind_ok in H. destruct H as [y0 [Y0 H]].
  apply bind_ok in H. destruct H as [x1 [X1 H]]. apply bind_ok in H. destruct H as [y1 [Y1 H]].
  injection H as <-. split; [|exact C3]. exists x0, y0, x1, y1. split; [reflexivity|].
  repeat split; first [apply dbl_min_least in X0 as [A B] | idtac];
    first [apply dbl_min_least in Y0 as [A2 B2] | idtac];
    apply dbl_max_greatest in X1 as [A3 B3]; apply dbl_max_greatest in Y1 as [A4 B4]; assumption.
Qed.
Lemma coords_at_long k pts : (k < 4)%nat -> Forall long_point pts ->
  coords_at k pts = map (fun p => nth k p 0) pts.
Proof.
  intros K H. induction H as [|p pts [L _] _ IH]; [reflexivity|]. cbn.
  destruct (nth_error p k) as [v|] eqn:E.
  - f_equal; [symmetry; apply nth_error_nth; exact E|exact IH].
  - apply nth_error_None in E. lia.
Qed.
Lemma measures ss gs : Forall2 represents ss gs ->
  flat_map (fun s => coords_at 3 (s_points s)) ss = map vm (flat_map vertices gs).
Proof.
  induction 1 as [|s g ss gs Rs R IH]; [reflexivity|]. cbn [flat_map].
  rewrite IH, map_app, <- (rep_points s g Rs), map_map, (coords_at_long 3); [reflexivity|lia|apply (rep_long s g Rs)].
Qed.
Lemma elevations ss gs : Forall2 represents ss gs ->
  flat_map (fun s => coords_at 2 (s_points s)) ss = map vz (flat_map vertices gs).
Proof.
  induction 1 as [|s g ss gs Rs R IH]; [reflexivity|]. cbn [flat_map].
  rewrite IH, map_app, <- (rep_points s g Rs), map_map, (coords_at_long 2); [reflexivity|lia|apply (rep_long s g Rs)].
Qed.
Lemma mbox_of_ok ss gs : Forall2 represents ss gs ->
  exists b, mbox_of ss = Ok b /\ range0 (map vm (flat_map vertices gs)) b.
Proof.
  intros R. unfold mbox_of. rewrite (measures ss gs R).
  destruct (dbl_min_ok (dbl_zero :: map vm (flat_map vertices gs))) as [a A]; [discriminate|].
  destruct (dbl_max_ok (dbl_zero :: map vm (flat_map vertices gs))) as [c C]; [discriminate|].
  rewrite A, C. exists [a; c]. split; [reflexivity|]. exists a, c. split; [reflexivity|].
  split; [apply dbl_min_least; exact A|apply dbl_max_greatest; exact C].
Qed.
Lemma zbox_of_ok ss gs : Forall2 represents ss gs ->
  exists b, zbox_of ss = Ok b /\ (flat_map vertices gs <> [] -> range_of (map vz (flat_map vertices gs)) b).
Proof.
  intros R. unfold zbox_of. rewrite (elevations ss gs R).
  set (l := map vz (flat_map vertices gs)).
  destruct (dbl_min_ok (match l with [] => [dbl_zero] | _ => l end)) as [a A]; [destruct l; discriminate|].
  destruct (dbl_max_ok (match l with [] => [dbl_zero] | _ => l end)) as [c C]; [destruct l; discriminate|].
  rewrite A, C. exists [a; c]. split; [reflexivity|]. intros N. exists a, c. split; [reflexivity|].
  assert (E : match l with [] => [dbl_zero] | _ => l end = l).
  { subst l. destruct (flat_map vertices gs); [congruence|reflexivity]. }
  rewrite E in A, C. split; [apply dbl_min_least; exact A|apply dbl_max_greatest; exact C].
Qed.

(** ** The bytes of one record *)
Definition put_z_w (s : shape) : wres shape :=
  match s_z s with
  | Some z =>
      let z := match z with [] => [dbl_zero] | _ => z end in
      wbind (wlift (py_get z 0)) (fun v => wbind (wwrite (dbl_bytes v)) (fun _ => wret (set_z (Some z) s)))
  | None =>
      wbind (wlift (extend_first 3 s)) (fun s' =>
      wbind (wlift (bind (first_point s') (fun p => py_get p 2))) (fun v =>
      wbind (wwrite (dbl_bytes v)) (fun _ => wret s')))
  end.
Definition put_m_w (s : shape) : wres shape :=
  match s_m s with
  | Some m =>
      let m := match m with [] => [Some dbl_zero] | _ => m end in
      wbind (wlift (py_get m 0)) (fun v =>
      match v with
      | Some d => wbind (wwrite (dbl_bytes d)) (fun _ => wret (set_m (Some m) s))
      | None => Err ShapefileException
      end)
  | None =>
      wbind (wlift (extend_first 4 s)) (fun s' =>
      wbind (wlift (bind (first_point s') (fun p => py_get p 3))) (fun v =>
      wbind (wwrite (dbl_bytes v)) (fun _ => wret s')))
  end.
Definition put_shape_w (dflt : list Z) (s : shape) : wres shape :=
  let t := s_type s in
  wbind (wput (pack_li_opt t)) (fun _ =>
  wbind (wwhen (type_in t [3; 5; 8; 13; 15; 18; 23; 25; 28; 31])
    (wbind (wlift (box_of [s])) (fun b => wwrite (pack_ds b)))) (fun _ =>
  wbind (wwhen (type_in t [3; 5; 13; 15; 23; 25; 31])
    (wbind (wlift (attr (s_parts s))) (fun p => wput (pack_li (Z.of_nat (length p)))))) (fun _ =>
  wbind (wwhen (type_in t [3; 5; 8; 13; 15; 23; 25; 31])
    (wput (pack_li (Z.of_nat (length (s_points s)))))) (fun _ =>
  wbind (wwhen (type_in t [3; 5; 13; 15; 23; 25; 31])
    (wbind (wlift (attr (s_parts s))) (fun p => weach (fun i => wput (pack_li i)) p))) (fun _ =>
  wbind (wwhen (type_is t 31)
    (wbind (wlift (attr (s_ptypes s))) (fun p =>
     weach (fun i => wput (pack_li i)) (match p with Some l => l | None => dflt end)))) (fun _ =>
  wbind (wwhen (type_in t [3; 5; 8; 13; 15; 23; 25; 31])
    (weach (fun p => wput (pack_xy p)) (s_points s))) (fun _ =>
  wbind (wwhen (type_in t [13; 15; 18; 31])
    (wbind (wlift (zbox_of [s])) (fun b => wbind (wwrite (pack_ds b)) (fun _ =>
     wbind (wlift (attr (s_z s))) (fun z => wwrite (pack_ds z)))))) (fun _ =>
  wbind (wwhen (type_in t [13; 15; 18; 23; 25; 28; 31])
    (wbind (wlift (mbox_of [s])) (fun b => wbind (wwrite (pack_ds b)) (fun _ =>
     weach (fun p => wbind (wlift (py_get p 3)) (fun v => wwrite (dbl_bytes v))) (s_points s))))) (fun _ =>
  wbind (wwhen (type_in t [1; 11; 21])
    (wbind (wlift (first_point s)) (fun p => wbind (wlift (py_get p 0)) (fun x =>
     wbind (wlift (py_get p 1)) (fun y => wwrite (pack_ds [x; y])))))) (fun _ =>
  wbind (if type_is t 11 then put_z_w s else wret s) (fun s' =>
  (if type_in t [11; 21] then put_m_w s' else wret s')))))))))))).

Lemma out_put_z s : outputs (put_z s) (put_z_w s).
Proof.
  unfold put_z, put_z_w. destruct (s_z s) as [z|].
  - apply out_bind; [apply out_lift|intros v]. apply out_bind; [apply out_write|intros _; apply out_ret].
  - apply out_bind; [apply out_lift|intros s']. apply out_bind; [apply out_lift|intros v].
    apply out_bind; [apply out_write|intros _; apply out_ret].
Qed.
Lemma out_raise {A} e : outputs (@raise file A e) (Err e).
Proof. intros f H. exists f. reflexivity. Qed.
Lemma out_put_m s : outputs (put_m s) (put_m_w s).
Proof.
  unfold put_m, put_m_w. destruct (s_m s) as [m|].
  - apply out_bind; [apply out_lift|intros [v|]]; [|apply out_raise].
    apply out_bind; [apply out_write|intros _; apply out_ret].
  - apply out_bind; [apply out_lift|intros s']. apply out_bind; [apply out_lift|intros v].
    apply out_bind; [apply out_write|intros _; apply out_ret].
Qed.
Lemma out_put_shape dflt s : outputs (put_shape dflt s) (put_shape_w dflt s).
Proof.
  unfold put_shape, put_shape_w. cbv zeta.
  repeat (first [ apply out_bind; [|intros ?] | apply out_when | apply out_put | apply out_lift | apply out_write
                | apply out_each; intros ? | apply out_ret
                | match goal with |- outputs (if ?c then _ else _) _ => destruct c end
                | apply out_put_z | apply out_put_m ]).
Qed.

(** ** Records of the plain types *)
Definition i32 (v : Z) : Prop := -2147483648 <= v < 2147483648.
(** The counts of the record are representable. *)
Definition fits (t : Z) (g : geometry) : Prop :=
  (In t [3; 5; 8; 23; 25] -> i32 (Z.of_nat (length (vertices g)))) /\
  (In t [3; 5; 23; 25] -> i32 (Z.of_nat (length g)) /\ Forall i32 (part_starts g)).
Definition has_parts (t : Z) (s : shape) (g : geometry) : Prop :=
  In t [3; 5; 23; 25] -> s_parts s = Some (part_starts g).
Lemma wbind_inv {A B} (r : wres A) (k : A -> wres B) x : wbind r k = Ok x ->
  exists bs a cs, r = Ok (bs, a) /\ k a = Ok (cs, snd x) /\ fst x = bs ++ cs.
Proof.
  unfold wbind. destruct r as [[bs a]|]; [|discriminate]. destruct (k a) as [[cs b]|] eqn:E; [|discriminate].
  intros H. injection H as <-. exists bs, a, cs. auto.
Qed.
Lemma wlift_inv {A} (r : res A) bs a : wlift r = Ok (bs, a) -> r = Ok a /\ bs = [].
Proof. destruct r; cbn; [|discriminate]. intros H. injection H as <- <-. auto. Qed.
Lemma wput_inv r bs a : wput r = Ok (bs, a) -> r = Ok bs.
Proof. destruct r; cbn; [|discriminate]. intros H. injection H as <- _. reflexivity. Qed.
Lemma wwrite_inv b bs a : wwrite b = Ok (bs, a) -> bs = b.
Proof. intros H. injection H as <- _. reflexivity. Qed.
Lemma wret_inv {A} (a : A) bs b : wret a = Ok (bs, b) -> bs = [] /\ b = a.
Proof. intros H. injection H as <- <-. auto. Qed.
Lemma weach_li l : forall bs a, weach (fun i => wput (pack_li i)) l = Ok (bs, a) ->
  bs = flat_map le32 l /\ Forall i32 l.
Proof.
  induction l as [|i l IH]; intros bs a H.
  - apply wret_inv in H. destruct H as [-> _]. split; [reflexivity|constructor].
  - cbn [weach] in H. apply wbind_inv in H. destruct H as [b1 [u [b2 [H1 [H2 H3]]]]]. cbn [fst snd] in *.
    apply wput_inv, pack_li_le32 in H1. destruct H1 as [-> R]. destruct (IH _ _ H2) as [-> F].
    rewrite H3. split; [reflexivity|]. constructor; assumption.
Qed.
Lemma weach_xy l : Forall long_point l -> forall bs a, weach (fun p => wput (pack_xy p)) l = Ok (bs, a) ->
  bs = flat_map (fun v => doubles [vx v; vy v]) (map vertex_of l).
Proof.
  induction 1 as [|p l [L _] _ IH]; intros bs a H.
  - apply wret_inv in H. destruct H as [-> _]. reflexivity.
  - cbn [weach] in H. apply wbind_inv in H. destruct H as [b1 [u [b2 [H1 [H2 H3]]]]]. cbn [fst snd] in *.
    apply wput_inv in H1. destruct p as [|x [|y p]]; [cbn in L; lia..|]. cbn in H1. injection H1 as <-.
    rewrite (IH _ _ H2) in H3. exact H3.
Qed.
Lemma py_get_long (p : list dbl) k : (k < 4)%nat -> (4 <= length p)%nat -> py_get p (Z.of_nat k) = Ok (nth k p dbl_zero).
Proof.
  intros K L. unfold py_get. destruct (Z.ltb_spec (Z.of_nat k) 0); [lia|].
  destruct (Z.leb_spec 0 (Z.of_nat k)); [|lia]. destruct (Z.ltb_spec (Z.of_nat k) (Z.of_nat (length p))); [|lia].
  cbn [andb]. rewrite Nat2Z.id. rewrite (nth_error_nth' p dbl_zero) by lia. reflexivity.
Qed.
Lemma weach_m l : Forall long_point l -> forall bs a,
  weach (fun p => wbind (wlift (py_get p 3)) (fun v => wwrite (dbl_bytes v))) l = Ok (bs, a) ->
  bs = doubles (map vm (map vertex_of l)).
Proof.
  induction 1 as [|p l [L _] _ IH]; intros bs a H.
  - apply wret_inv in H. destruct H as [-> _]. reflexivity.
  - cbn [weach] in H. apply wbind_inv in H. destruct H as [b1 [u [b2 [H1 [H2 H3]]]]]. cbn [fst snd] in *.
    change 3 with (Z.of_nat 3) in H1. rewrite py_get_long in H1 by lia. cbn in H1. injection H1 as <- _.
    rewrite (IH _ _ H2) in H3. exact H3.
Qed.
Lemma starts_length n g : length (starts_from n g) = length g.
Proof. revert n. induction g as [|p g IH]; intros n; cbn; [reflexivity|]. rewrite IH. reflexivity. Qed.
Lemma first_point_long s : Forall long_point (s_points s) -> forall p, first_point s = Ok p ->
  hd_error (s_points s) = Some p /\ long_point p.
Proof.
  unfold first_point. destruct (s_points s) as [|q l]; [discriminate|]. intros F p H. cbn in H. injection H as <-.
  split; [reflexivity|]. inversion F. assumption.
Qed.
Lemma extend_first_long n s p : (n <= 4) -> first_point s = Ok p -> long_point p -> extend_first n s = Ok s.
Proof.
  intros N E [L _]. unfold extend_first. rewrite E. cbn [bind]. destruct (Z.ltb_spec (Z.of_nat (length p)) n); [lia|reflexivity].
Qed.
Lemma wwhen_true r : wwhen true r = r. Proof. reflexivity. Qed.
Lemma wwhen_false r : wwhen false r = wret tt. Proof. reflexivity. Qed.

Lemma ok_pair {A B} (a c : A) (b d : B) : @Ok (A * B) (a, b) = Ok (c, d) -> a = c /\ b = d.
Proof. intros H. split; congruence. Qed.
Lemma wbind_wret {A B} (a : A) (k : A -> wres B) : wbind (wret a) k = k a.
Proof. cbn. destruct (k a) as [[cs b]|]; reflexivity. Qed.
Ltac winv H := let b1 := fresh "b" in let u := fresh "u" in let b2 := fresh "c" in
  let H1 := fresh "P" in let H2 := fresh "Q" in let H3 := fresh "E" in
  apply wbind_inv in H; destruct H as [b1 [u [b2 [H1 [H2 H3]]]]]; cbn [fst snd] in H2, H3.

Lemma put_shape_point dflt t s g bs s' : represents s g -> s_type s = Some t -> t = 1 \/ t = 11 \/ t = 21 ->
  put_shape_w dflt s = Ok (bs, s') ->
  s' = s /\ content t g bs /\ fits t g /\ vertices g <> [] /\ has_parts t s g.
Proof.
  intros R T D H. unfold put_shape_w in H. cbv zeta in H. rewrite T in H.
  pose proof (rep_points s g R) as RP. pose proof (rep_long s g R) as RL.
  replace (type_in (Some t) [3; 5; 8; 13; 15; 18; 23; 25; 28; 31]) with false in H by (destruct D as [->|[->| ->]]; reflexivity).
  replace (type_in (Some t) [3; 5; 13; 15; 23; 25; 31]) with false in H by (destruct D as [->|[->| ->]]; reflexivity).
  replace (type_in (Some t) [3; 5; 8; 13; 15; 23; 25; 31]) with false in H by (destruct D as [->|[->| ->]]; reflexivity).
  replace (type_is (Some t) 31) with false in H by (destruct D as [->|[->| ->]]; reflexivity).
  replace (type_in (Some t) [13; 15; 18; 31]) with false in H by (destruct D as [->|[->| ->]]; reflexivity).
  replace (type_in (Some t) [13; 15; 18; 23; 25; 28; 31]) with false in H by (destruct D as [->|[->| ->]]; reflexivity).
  replace (type_in (Some t) [1; 11; 21]) with true in H by (destruct D as [->|[->| ->]]; reflexivity).
  rewrite !wwhen_false, wwhen_true in H.
  winv H. apply wput_inv in P. cbn [pack_li_opt] in P. apply pack_li_le32 in P. destruct P as [-> _].
  rewrite !wbind_wret in Q.
  winv Q. winv P. apply wlift_inv in P0. destruct P0 as [FP ->].
  destruct (first_point_long s RL _ FP) as [HD LP].
  assert (HV : hd_error (vertices g) = Some (vertex_of u1)).
  { rewrite <- RP. destruct (s_points s); [discriminate|]. cbn in HD |- *. injection HD as ->. reflexivity. }
  destruct LP as [LP _].
  pose proof (py_get_long u1 0 ltac:(lia) LP) as G0. pose proof (py_get_long u1 1 ltac:(lia) LP) as G1.
  pose proof (py_get_long u1 2 ltac:(lia) LP) as G2. pose proof (py_get_long u1 3 ltac:(lia) LP) as G3.
  cbn [Z.of_nat Pos.of_succ_nat Pos.succ] in G0, G1, G2, G3.
  rewrite G0, G1 in Q. cbn [wlift wbind wwrite app] in Q. apply ok_pair in Q. destruct Q as [Q _].
  assert (NV : vertices g <> []) by (destruct (vertices g); [discriminate|discriminate]).
  assert (FT : fits t g) by (split; intros I; destruct D as [->|[->| ->]]; cbn in I; intuition lia).
  assert (HP : has_parts t s g) by (intros I; destruct D as [->|[->| ->]]; cbn in I; intuition lia).
  assert (LPP : long_point u1) by (rewrite Forall_forall in RL; apply RL; destruct (s_points s); [discriminate|injection HD as ->; left; reflexivity]).
  unfold put_z_w, put_m_w in Q0. rewrite (rep_z s g R) in Q0.
  destruct D as [->|[->| ->]]; cbn [type_is type_in existsb Z.eqb Pos.eqb orb] in Q0.
  - rewrite wbind_wret in Q0. apply wret_inv in Q0. destruct Q0 as [-> ->].
    split; [reflexivity|]. split; [|split; [|split]; assumption]. left. split; [reflexivity|].
    exists (vertex_of u1). split; [exact HV|]. subst. rewrite app_nil_r. reflexivity.
  - rewrite (extend_first_long 3 s u1 ltac:(lia) FP LPP) in Q0. cbn [wlift] in Q0. fold (@wret shape s) in Q0.
    rewrite wbind_wret, FP in Q0. cbn [bind] in Q0. rewrite G2 in Q0. cbn [wlift wbind wwrite wret app] in Q0.
    rewrite (rep_m s g R), (extend_first_long 4 s u1 ltac:(lia) FP LPP) in Q0. cbn [wlift wbind] in Q0.
    rewrite FP in Q0. cbn [bind] in Q0. rewrite G3 in Q0. cbn [wlift wbind wwrite wret app] in Q0.
    rewrite !app_nil_r in Q0. apply ok_pair in Q0. destruct Q0 as [Q0 Q1]. subst s'.
    split; [reflexivity|]. split; [|split; [|split]; assumption]. right. left. split; [reflexivity|].
    exists (vertex_of u1). split; [exact HV|]. subst. reflexivity.
  - rewrite wbind_wret, (rep_m s g R), (extend_first_long 4 s u1 ltac:(lia) FP LPP) in Q0. cbn [wlift wbind] in Q0.
    rewrite FP in Q0. cbn [bind] in Q0. rewrite G3 in Q0. cbn [wlift wbind wwrite wret app] in Q0.
    rewrite !app_nil_r in Q0. apply ok_pair in Q0. destruct Q0 as [Q0 Q1]. subst s'.
    split; [reflexivity|]. split; [|split; [|split]; assumption]. right. right. left. split; [reflexivity|].
    exists (vertex_of u1). split; [exact HV|]. subst. reflexivity.
Qed.

Lemma put_shape_multi dflt t s g bs s' : represents s g -> s_type s = Some t -> t = 8 ->
  put_shape_w dflt s = Ok (bs, s') ->
  s' = s /\ content t g bs /\ fits t g /\ vertices g <> [] /\ has_parts t s g.
Proof.
  intros R T D H. unfold put_shape_w in H. cbv zeta in H. rewrite T in H.
  pose proof (rep_points s g R) as RP. pose proof (rep_long s g R) as RL.
  assert (RR : Forall2 represents [s] [g]) by (constructor; [exact R|constructor]).
  assert (LN : length (s_points s) = length (vertices g)) by (rewrite <- RP, map_length; reflexivity).
  subst t. cbn [type_is type_in existsb Z.eqb Pos.eqb orb wwhen] in H.
  winv H. apply wput_inv in P. cbn [pack_li_opt] in P. apply pack_li_le32 in P. destruct P as [-> _].
  winv Q. winv P. apply wlift_inv in P0. destruct P0 as [BX ->]. apply wwrite_inv in Q. subst c1.
  destruct (box_of_inv _ _ _ RR BX) as [BB BN]. cbn [flat_map] in BB. rewrite app_nil_r in BB.
  rewrite ?wbind_wret in Q0. winv Q0. apply wput_inv, pack_li_le32 in P. destruct P as [-> I]. rewrite LN in *.
  rewrite ?wbind_wret in Q. winv Q. apply (weach_xy _ RL) in P. rewrite RP in P. subst b0.
  rewrite ?wbind_wret in Q0. apply wret_inv in Q0. destruct Q0 as [-> ->].
  split; [reflexivity|]. split; [|split].
  - right. right. right. left. split; [reflexivity|]. exists u1. split; [exact BB|]. subst. rewrite app_nil_r.
    cbn [app]. reflexivity.
  - split; [intros _; exact I|]. intros [X|[X|[X|[X|[]]]]]; lia.
  - split; [inversion BN; assumption|]. intros [X|[X|[X|[X|[]]]]]; lia.
Qed.

Lemma put_shape_poly dflt t s g bs s' : represents s g -> s_type s = Some t -> t = 3 \/ t = 5 \/ t = 23 \/ t = 25 ->
  put_shape_w dflt s = Ok (bs, s') ->
  s' = s /\ content t g bs /\ fits t g /\ vertices g <> [] /\ has_parts t s g.
Proof.
  intros R T D H. unfold put_shape_w in H. cbv zeta in H. rewrite T in H.
  pose proof (rep_points s g R) as RP. pose proof (rep_long s g R) as RL.
  assert (RR : Forall2 represents [s] [g]) by (constructor; [exact R|constructor]).
  assert (LN : length (s_points s) = length (vertices g)) by (rewrite <- RP, map_length; reflexivity).
  replace (type_in (Some t) [3; 5; 8; 13; 15; 18; 23; 25; 28; 31]) with true in H by (destruct D as [->|[->|[->| ->]]]; reflexivity).
  replace (type_in (Some t) [3; 5; 13; 15; 23; 25; 31]) with true in H by (destruct D as [->|[->|[->| ->]]]; reflexivity).
  replace (type_in (Some t) [3; 5; 8; 13; 15; 23; 25; 31]) with true in H by (destruct D as [->|[->|[->| ->]]]; reflexivity).
  replace (type_is (Some t) 31) with false in H by (destruct D as [->|[->|[->| ->]]]; reflexivity).
  replace (type_in (Some t) [13; 15; 18; 31]) with false in H by (destruct D as [->|[->|[->| ->]]]; reflexivity).
  replace (type_in (Some t) [1; 11; 21]) with false in H by (destruct D as [->|[->|[->| ->]]]; reflexivity).
  replace (type_is (Some t) 11) with false in H by (destruct D as [->|[->|[->| ->]]]; reflexivity).
  replace (type_in (Some t) [11; 21]) with false in H by (destruct D as [->|[->|[->| ->]]]; reflexivity).
  rewrite !wwhen_false, !wwhen_true in H.
  winv H. apply wput_inv in P. cbn [pack_li_opt] in P. apply pack_li_le32 in P. destruct P as [-> _].
  winv Q. winv P. apply wlift_inv in P0. destruct P0 as [BX ->]. apply wwrite_inv in Q. subst c1.
  destruct (box_of_inv _ _ _ RR BX) as [BB BN]. cbn [flat_map] in BB. rewrite app_nil_r in BB.
  winv Q0. winv P. apply wlift_inv in P0. destruct P0 as [PA ->].
  assert (PA' : s_parts s = Some (part_starts g)) by (destruct (rep_parts s g R) as [X|X]; [exact X|rewrite X in PA; discriminate]).
  rewrite PA' in PA. cbn [attr] in PA. injection PA as <-.
  apply wput_inv, pack_li_le32 in Q0. destruct Q0 as [-> I1]. unfold part_starts in I1, E3 at 1. rewrite starts_length in *.
  winv Q. apply wput_inv, pack_li_le32 in P. destruct P as [-> I2]. rewrite LN in *.
  winv Q0. winv P. apply wlift_inv in P0. destruct P0 as [PB ->]. rewrite PA' in PB. cbn [attr] in PB. injection PB as <-.
  apply weach_li in Q0. destruct Q0 as [-> I3].
  rewrite ?wbind_wret in Q. winv Q. apply (weach_xy _ RL) in P. rewrite RP in P.
  rewrite ?wbind_wret in Q0.
  assert (FT : fits t g) by (split; intros _; [exact I2|split; assumption]).
  assert (NV : vertices g <> []) by (inversion BN; assumption).
  assert (HP : has_parts t s g) by (intros _; exact PA').
  destruct D as [D|[D|D]].
  1, 2: subst t; cbn [type_in existsb Z.eqb Pos.eqb orb wwhen] in Q0; rewrite ?wbind_wret in Q0;
     rewrite ?wbind_wret in Q0; apply wret_inv in Q0; destruct Q0 as [-> ->];
     (split; [reflexivity|]); (split; [|split; [|split]; assumption]); right; right; right; right; left;
     (split; [auto|]); exists u1; (split; [exact BB|]); subst; rewrite app_nil_r; reflexivity.
  replace (type_in (Some t) [13; 15; 18; 23; 25; 28; 31]) with true in Q0 by (destruct D as [->| ->]; reflexivity).
  rewrite wwhen_true in Q0. clear RR LN BN.
  apply wbind_inv in Q0. destruct Q0 as [d1 [d2 [d3 [Y1 [Y2 Y3]]]]]. cbn [fst snd] in Y2, Y3.
  apply wret_inv in Y2. destruct Y2 as [-> ->].
  apply wbind_inv in Y1. destruct Y1 as [d4 [d5 [d6 [X1 [X2 X3]]]]]. cbn [fst snd] in X2, X3.
  apply wlift_inv in X1. destruct X1 as [MB ->].
  destruct (mbox_of_ok [s] [g]) as [mb [MB' RG]]; [constructor; [exact R|constructor]|].
  cbn [flat_map] in RG. rewrite app_nil_r in RG.
  rewrite MB' in MB. injection MB as <-.
  apply wbind_inv in X2. destruct X2 as [d7 [d8 [d9 [Z1 [Z2 Z3]]]]]. cbn [fst snd] in Z2, Z3.
  apply wwrite_inv in Z1. apply (weach_m _ RL) in Z2. rewrite RP in Z2.
  split; [reflexivity|]. split; [|split; [|split]; assumption]. right. right. right. right. right.
  split; [exact D|]. exists u1, mb. split; [exact BB|]. split; [exact RG|]. subst. rewrite !app_nil_r.
  cbn [app]. rewrite <- ?app_assoc. reflexivity.
Qed.

Lemma put_shape_good dflt t s g bs s' : represents s g -> s_type s = Some t -> good t ->
  put_shape_w dflt s = Ok (bs, s') ->
  s' = s /\ content t g bs /\ fits t g /\ vertices g <> [] /\ has_parts t s g.
Proof.
  intros R T G H. unfold good in G. cbn [In] in G.
  assert (D : (t = 1 \/ t = 11 \/ t = 21) \/ t = 8 \/ (t = 3 \/ t = 5 \/ t = 23 \/ t = 25)) by intuition.
  destruct D as [D|[D|D]].
  - exact (put_shape_point dflt t s g bs s' R T D H).
  - exact (put_shape_multi dflt t s g bs s' R T D H).
  - exact (put_shape_poly dflt t s g bs s' R T D H).
Qed.
