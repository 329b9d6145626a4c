(** Every outcome of adding and saving shapes, in terms of the calls. *)
From Verif Require Import Py VlvModel ShpFile ShpWriterModel ShpReaderModel ShpLib ShpSpec ShpWriterProofs ShpSave ShpRead ShpApi ShpCalls ShpRound ShpSuccess ShpPrograms.
Open Scope Z_scope.
Open Scope m_scope.

(** ** Adding *)
Lemma close_all_ok parts : Forall (fun p => p <> []) parts -> exists ps, mapM close_part parts = Ok ps.
Proof.
  intros F. apply mapM_ok_all. eapply Forall_impl; [|exact F]. intros [|p l] N; [congruence|]. cbn [close_part].
  destruct (point_eq p (last (p :: l) p)); eauto.
Qed.
Lemma close_all_err parts : Exists (fun p => p = []) parts -> mapM close_part parts = Err IndexError.
Proof.
  induction 1 as [p parts ->|p parts _ IH]; [reflexivity|]. cbn. destruct p as [|q l]; [reflexivity|].
  cbn [close_part]. destruct (point_eq q (last (q :: l) q)); cbn [bind]; rewrite IH; reflexivity.
Qed.
Lemma poly_run parts t pt w ps : (if type_in (Some t) [5; 15; 25; 31] then mapM close_part parts else Ok parts) = Ok ps ->
  exists w', poly parts t pt w = (w', Ok tt).
Proof.
  intros H. unfold poly. rewrite H. unfold mbind at 1, lift at 1. destruct (fold_left collect ps ([], [])) as [st pts].
  destruct (t =? 31); [destruct pt as [[|x l]|]|]; eexists; reflexivity.
Qed.
Lemma do_call_outcome c w :
  (exists parts t, call_parts c = Some (parts, t) /\ ring_type t /\ Exists (fun p => p = []) parts /\
     do_call c w = (w, Err IndexError)) \/
  ((forall parts t, call_parts c = Some (parts, t) -> ring_type t -> ~ Exists (fun p => p = []) parts) /\
     exists w', do_call c w = (w', Ok tt)).
Proof.
  assert (PP : forall parts t pt,
    (ring_type t /\ Exists (fun p => p = []) parts /\ poly parts t pt w = (w, Err IndexError)) \/
    ((ring_type t -> ~ Exists (fun p => p = []) parts) /\ exists w', poly parts t pt w = (w', Ok tt))).
  { intros parts t pt. destruct (type_in (Some t) [5; 15; 25; 31]) eqn:T.
    - assert (RT := T). apply ring_type_in in RT.
      destruct (Exists_dec (fun p : list (list dbl) => p = []) parts) as [EX|NE].
      { intros p. destruct p; [left; reflexivity|right; discriminate]. }
      + left. split; [exact RT|]. split; [exact EX|]. unfold poly. rewrite T, (close_all_err parts EX). reflexivity.
      + right. split; [intros _; exact NE|]. destruct (close_all_ok parts) as [ps P].
        { apply Forall_forall. intros p I E. apply NE. apply Exists_exists. exists p. auto. }
        apply (poly_run parts t pt w ps). rewrite T. exact P.
    - right. split; [intros RT; apply ring_type_in in RT; congruence|]. apply (poly_run parts t pt w parts). rewrite T. reflexivity. }
  destruct c as [x y z m|parts t|parts t|]; cbn [do_call call_parts].
  - right. split; [discriminate|]. eexists. reflexivity.
  - destruct (PP parts t (Some [])) as [[A [B C]]|[A B]]; [left; exists parts, t; auto|right].
    split; [intros p t0 E; injection E as <- <-; exact A|exact B].
  - destruct (PP parts t None) as [[A [B C]]|[A B]]; [left; exists parts, t; auto|right].
    split; [intros p t0 E; injection E as <- <-; exact A|exact B].
  - right. split; [discriminate|]. eexists. reflexivity.
Qed.

(** ** What is added is determined *)
Lemma closed_ring_fun p a b : closed_ring p a -> closed_ring p b -> a = b.
Proof.
  intros [x [X A]] [y [Y B]]. rewrite X in Y. injection Y as <-.
  destruct A as [[A ->]|[A ->]], B as [[B ->]|[B ->]]; try reflexivity; contradiction.
Qed.
Lemma adds_fun c g g' : adds c g -> adds c g' -> g = g'.
Proof.
  assert (PG : forall parts t, parts_geometry parts t g -> parts_geometry parts t g' -> g = g').
  { intros parts t [ps [-> A]] [qs [-> B]]. f_equal.
    destruct A as [[RT A]|[RT ->]], B as [[RT' B]|[RT' ->]]; try contradiction; [|reflexivity].
    clear - A B. revert qs B. induction A as [|p a parts ps C _ IH]; intros qs B; inversion B; subst; [reflexivity|].
    f_equal; [eapply closed_ring_fun; eassumption|apply IH; assumption]. }
  destruct c as [x y z m|parts t|parts t|]; cbn [adds]; try congruence; apply PG.
Qed.
Lemma adds_all_fun calls : forall gs gs', Forall2 adds calls gs -> Forall2 adds calls gs' -> gs = gs'.
Proof.
  induction calls as [|c calls IH]; intros gs gs' A B; inversion A; subst; inversion B; subst; [reflexivity|].
  f_equal; [eapply adds_fun; eassumption|apply IH; assumption].
Qed.

(** ** Shapes without parts *)
Lemma calls_parts calls : forall w w', Forall call_doubles calls -> for_each do_call calls w = (w', Ok tt) ->
  exists ss, w_shapes w' = w_shapes w ++ ss /\
    Forall2 (fun s c => s_parts s = None <-> single c = true) ss calls.
Proof.
  induction calls as [|c calls IH]; intros w w' D H.
  - cbn in H. unfold ret in H. pinv H. exists []. rewrite app_nil_r. split; [reflexivity|constructor].
  - cbn [for_each] in H. apply mbind_ok in H. destruct H as [w1 [u [X H]]]. destruct u.
    inversion D as [|? ? D1 D2]; subst. destruct (call_ok c w w1 D1 X) as [s [g [A [R [T [AD P]]]]]].
    destruct (IH w1 w' D2 H) as [ss [S F]]. exists (s :: ss). rewrite S, (ad_shapes _ _ _ AD), <- app_assoc. split; [reflexivity|].
    constructor; [|exact F]. destruct c; cbn [single]; rewrite P; split; congruence.
Qed.
Lemma lacks_single t ss calls : Forall2 (fun s c => s_parts s = None <-> single c = true) ss calls ->
  map (lacks_parts t) ss = map (fun c => single c && type_in (Some t) [3; 5; 13; 15; 23; 25; 31]) calls.
Proof.
  induction 1 as [|s c ss calls H _ IH]; [reflexivity|]. cbn [map]. f_equal; [|exact IH]. unfold lacks_parts.
  destruct (s_parts s) as [l|], (single c); cbn [andb]; try reflexivity.
  - discriminate (proj2 H eq_refl).
  - discriminate (proj1 H eq_refl).
Qed.
Lemma existsb_map {A} (f : A -> bool) l : existsb f l = existsb (fun x => x) (map f l).
Proof. induction l as [|x l IH]; [reflexivity|]. cbn. rewrite IH. reflexivity. Qed.
Lemma no_points_geometry ss gs : Forall2 represents ss gs ->
  (existsb no_points ss = true <-> Exists (fun g => vertices g = []) gs).
Proof.
  induction 1 as [|s g ss gs R _ IH]; cbn [existsb].
  - split; [discriminate|]. intros H. inversion H.
  - rewrite orb_true_iff, IH, Exists_cons. rewrite <- (rep_points s g R). unfold no_points.
    destruct (s_points s); cbn [map]; split; (intros [X|X]; [left|right]); try discriminate; auto.
Qed.

(** ** Saving *)
Lemma shx_step_run w0 i w o l : at_end (w_shx w) -> nth_error (w_offsets w0) i = Some o -> nth_error (w_lengths w0) i = Some l ->
  i32 (o / 2) -> i32 l -> shx_step w0 i w = (w_set_shx (append (w_shx w) (entry o l)) w, Ok tt).
Proof.
  intros E NO NL I1 I2. unfold shx_step.
  rewrite (mbind_run _ _ w w o) by (unfold lift; apply py_get_nat in NO; rewrite NO; reflexivity).
  rewrite (mbind_run _ _ w (w_set_shx (append (w_shx w) (be32 (o / 2))) w) tt).
  2:{ unfold on_shx, zoom. rewrite (pack_bi_32 _ I1). unfold f_put. rewrite (mbind_run _ _ (w_shx w) (w_shx w) (be32 (o / 2))) by reflexivity.
      rewrite (f_write_end _ _ E). reflexivity. }
  rewrite (mbind_run _ _ _ _ l) by (unfold lift; apply py_get_nat in NL; rewrite NL; reflexivity).
  unfold on_shx, zoom. rewrite (pack_bi_32 _ I2). unfold f_put. rewrite (mbind_run _ _ _ _ (be32 l)) by reflexivity.
  cbn [w_shx w_set_shx]. rewrite f_write_end by (apply append_end, E). rewrite append_app. reflexivity.
Qed.
Lemma shx_loop_run w0 n : forall i w, at_end (w_shx w) ->
  (forall k, (k < n)%nat -> exists o l, nth_error (w_offsets w0) (i + k) = Some o /\ nth_error (w_lengths w0) (i + k) = Some l /\ i32 (o / 2) /\ i32 l) ->
  exists w', for_each (shx_step w0) (seq i n) w = (w', Ok tt).
Proof.
  induction n as [|n IH]; intros i w E K.
  - exists w. reflexivity.
  - cbn [seq for_each]. destruct (K 0%nat ltac:(lia)) as [o [l [A [B [C D]]]]]. rewrite Nat.add_0_r in A, B.
    rewrite (mbind_run _ _ _ _ _ (shx_step_run w0 i w o l E A B C D)).
    apply IH; [apply append_end, E|]. intros k Hk. destruct (K (Datatypes.S k) ltac:(lia)) as [o' [l' H]].
    exists o', l'. replace (Datatypes.S i + k)%nat with (i + Datatypes.S k)%nat by lia. exact H.
Qed.
Lemma save_shx_run t w b : w_type w = Some t -> t <> 0 -> i32 t -> box_of (w_shapes w) = Ok b ->
  i32 ((100 + Z.of_nat (length (w_shapes w)) * 8) / 2) ->
  (forall k, (k < length (w_shapes w))%nat -> exists o l, nth_error (w_offsets w) k = Some o /\ nth_error (w_lengths w) k = Some l /\ i32 (o / 2) /\ i32 l) ->
  exists w', saveShx new_file w = (w', Ok tt).
Proof.
  intros T NZ I B N K. unfold saveShx.
  assert (ET : eff_type w t) by (split; [exact NZ|left; exact T]).
  rewrite (mbind_run _ _ _ _ _ (fix_type_ok w t ET)).
  assert (W0 : w_set_type (Some t) w = w) by (destruct w; cbn in T |- *; subst; reflexivity). rewrite W0.
  rewrite (mbind_run _ _ _ (w_set_shx new_file w) tt) by reflexivity.
  unfold mbind at 1, get at 1.
  pose proof (header_run (w_set_shx new_file w) true t _ T NZ I eq_refl N) as HR.
  change (w_shapes (w_set_shx new_file w)) with (w_shapes w) in HR. rewrite B in HR. destruct HR as [f HR].
  destruct (header_shape (w_set_shx new_file w) true t f T NZ HR) as [bs [-> LB]].
  rewrite (mbind_run _ _ _ (w_set_shx (whole bs) w) tt).
  2:{ unfold on_shx, zoom. change (w_shx (w_set_shx new_file w)) with new_file. rewrite HR. reflexivity. }
  unfold shx_records. rewrite (mbind_run _ _ _ (w_set_shx (mkFile bs 100) w) tt) by reflexivity.
  unfold mbind at 1, get at 1.
  apply (shx_loop_run (w_set_shx (mkFile bs 100) w) (length (w_shapes w)) 0).
  - unfold at_end. cbn [w_shx w_set_shx fdata fpos]. lia.
  - intros k Hk. exact (K k Hk).
Qed.
Lemma offsets_bound cs : forall o, 0 <= o -> Forall (fun x => 0 <= x <= o + Z.of_nat (length (all_records 1 cs))) (offsets_from o cs).
Proof.
  induction cs as [|c cs IH]; intros o O; cbn [offsets_from]; constructor.
  - lia.
  - eapply Forall_impl; [|apply (IH (o + 8 + Z.of_nat (length c))); lia]. intros x X. cbn beta in X.
    rewrite all_records_length in *. cbn [fold_right]. lia.
Qed.
Lemma save_both_run t w w1 gs : eff_type w t -> good t -> Forall2 represents (w_shapes w) gs -> modest gs ->
  w_offsets w = [] -> w_lengths w = [] -> saveShp new_file w = (w1, Ok tt) -> exists w2, saveShx new_file w1 = (w2, Ok tt).
Proof.
  intros ET G R MD O L H.
  destruct (save_shp_ok t w w1 gs ET G R H) as [cs [b [z [m [C [F [NV [B [I1 [I2 [I3 [_ W1]]]]]]]]]]]].
  assert (LS : length (w_shapes w1) = length cs).
  { rewrite W1. cbn [w_shapes]. rewrite map_length. rewrite (F2_length R). apply (F2_length C). }
  apply (save_shx_run t w1 b).
  - rewrite W1. reflexivity.
  - exact (proj1 ET).
  - exact (good_i32 t G).
  - rewrite W1. cbn [w_shapes]. apply (boxes_type (Some t)) in B. exact (proj1 B).
  - rewrite LS, <- (F2_length C). destruct MD as [P [F1 B1]].
    unfold i32. destruct gs as [|g gs]; [cbn; lia|]. assert (0 <= P) by (inversion F1; subst; lia).
    assert (0 <= (100 + Z.of_nat (length (g :: gs)) * 8) / 2 < 2147483648); [|lia].
    split; [apply Z.div_pos; lia|apply Z.div_lt_upper_bound; [lia|nia]].
  - rewrite LS. intros k Hk.
    destruct (nth_error (offsets_from 100 cs) k) as [o|] eqn:NO; [|apply nth_error_None in NO; rewrite offsets_length in NO; lia].
    destruct (nth_error cs k) as [c|] eqn:NC; [|apply nth_error_None in NC; lia].
    exists o, (words c). rewrite W1. cbn [w_offsets w_lengths]. rewrite O, L. cbn [app]. split; [exact NO|].
    split; [apply map_nth_error, NC|]. split.
    + assert (OB := offsets_bound cs 100 ltac:(lia)). rewrite Forall_forall in OB. specialize (OB o (nth_error_In _ _ NO)). cbn beta in OB.
      unfold i32 in *. assert (0 <= o / 2) by (apply Z.div_pos; lia).
      assert (o / 2 <= (100 + Z.of_nat (length (all_records 1 cs))) / 2) by (apply Z.div_le_mono; lia). lia.
    + rewrite Forall_forall in I2. apply I2. eapply nth_error_In, NC.
Qed.

Lemma program_facts given calls t gs w : program given calls t gs w ->
  eff_type w t /\ Forall2 represents (w_shapes w) gs /\ w_offsets w = [] /\ w_lengths w = [] /\
  map (lacks_parts t) (w_shapes w) = map (fun c => single c && type_in (Some t) [3; 5; 13; 15; 23; 25; 31]) calls /\
  length (w_shapes w) = length calls.
Proof.
  intros [D C T A MD].
  destruct (calls_ok calls (Writer given) w D C) as [ss [gs' [E1 [A' [R [TY [E2 [E3 [E4 _]]]]]]]]]. cbn [Writer w_shapes w_type w_offsets w_lengths app] in *.
  rewrite (adds_all_fun calls gs gs' A A') in *.
  destruct (calls_parts calls (Writer given) w D C) as [ss' [E5 P]]. cbn [Writer w_shapes app] in E5.
  split; [exact (eff_type_calls given calls t w ss T E2 E1 TY)|]. rewrite E1. split; [exact R|].
  split; [exact E3|]. split; [exact E4|]. rewrite <- E5, E1 in P. split; [exact (lacks_single t ss calls P)|].
  rewrite (F2_length P). reflexivity.
Qed.
Lemma outcome_cases given calls t gs w : program given calls t gs w ->
  let first := match w_shapes w with s :: _ => lacks_parts t s | [] => false end in
  let empty := match w_shapes w with [] => true | _ => existsb no_points (w_shapes w) end in
  (first = true <-> parts_file t /\ first_single calls) /\
  (empty = true <-> calls = [] \/ Exists (fun g => vertices g = []) gs) /\
  (existsb (lacks_parts t) (w_shapes w) = true <-> parts_file t /\ Exists (fun c => single c = true) calls).
Proof.
  intros P first empty. destruct (program_facts given calls t gs w P) as [_ [R [_ [_ [M LN]]]]].
  assert (PT : forall b, b && type_in (Some t) [3; 5; 13; 15; 23; 25; 31] = true <-> parts_file t /\ b = true).
  { intros b. rewrite andb_true_iff, has_parts_type_in. unfold parts_file, has_parts_type. tauto. }
  split; [|split].
  - unfold first, first_single. destruct (w_shapes w) as [|s ss], calls as [|c calls]; try discriminate LN.
    + split; [discriminate|]. intros [_ [c [H _]]]. discriminate.
    + cbn [map] in M. injection M as M0 _. rewrite M0, PT. cbn [hd_error]. split.
      * intros [A B]. split; [exact A|]. exists c. auto.
      * intros [A [c' [B C]]]. injection B as <-. auto.
  - unfold empty. destruct (w_shapes w) as [|s ss] eqn:S, calls as [|c calls]; try discriminate LN.
    + split; auto.
    + rewrite (no_points_geometry _ _ R). split; [auto|]. intros [H|H]; [discriminate|exact H].
  - rewrite existsb_map, M, <- existsb_map, existsb_exists, Exists_exists. split.
    + intros [c [I H]]. apply PT in H. destruct H. split; [assumption|]. exists c. auto.
    + intros [A [c [I H]]]. exists c. split; [exact I|]. apply PT. auto.
Qed.
Lemma save_cases given calls t gs w : good t -> program given calls t gs w ->
  (parts_file t /\ first_single calls -> exists w', saveShp new_file w = (w', Err UnboundLocalError)) /\
  (~ (parts_file t /\ first_single calls) -> calls = [] \/ Exists (fun g => vertices g = []) gs ->
     exists w', saveShp new_file w = (w', Err ValueError)) /\
  (~ first_single calls -> calls <> [] -> Forall (fun g => vertices g <> []) gs ->
     parts_file t -> Exists (fun c => single c = true) calls ->
     exists w', saveShp new_file w = (w', Err AttributeError)) /\
  (calls <> [] -> Forall (fun g => vertices g <> []) gs -> (parts_file t -> Forall (fun c => single c = false) calls) ->
     exists w1 w2, saveShp new_file w = (w1, Ok tt) /\ saveShx new_file w1 = (w2, Ok tt)).
Proof.
  intros G P. destruct (outcome_cases given calls t gs w P) as [C1 [C2 C3]].
  destruct (program_facts given calls t gs w P) as [ET [R [O [L _]]]].
  destruct (save_outcome w t gs ET G R (pr_modest _ _ _ _ _ P)) as [w' H]. unfold outcome in H.
  set (first := match w_shapes w with s :: _ => lacks_parts t s | [] => false end) in *.
  set (empty := match w_shapes w with [] => true | _ => existsb no_points (w_shapes w) end) in *.
  set (lack := existsb (lacks_parts t) (w_shapes w)) in *. clearbody first empty lack.
  assert (NX : Forall (fun g => vertices g <> []) gs -> ~ Exists (fun g => vertices g = []) gs).
  { intros F E. rewrite Forall_forall in F. apply Exists_exists in E. destruct E as [g [I E]]. exact (F g I E). }
  split; [|split; [|split]].
  - intros A. apply C1 in A. rewrite A in H. eauto.
  - intros A B. apply C2 in B. rewrite B in H. destruct first; [exfalso; apply A, C1; reflexivity|]. eauto.
  - intros A B C D E. destruct first; [exfalso; apply A; apply (proj1 C1); reflexivity|].
    destruct empty; [exfalso; destruct (proj1 C2 eq_refl); [contradiction|exact (NX C ltac:(assumption))]|].
    rewrite (proj2 C3) in H by auto. eauto.
  - intros A B C. destruct first.
    { exfalso. destruct (proj1 C1 eq_refl) as [D [c [X Y]]]. specialize (C D). destruct calls; [discriminate|]. injection X as ->.
      inversion C; subst. congruence. }
    destruct empty; [exfalso; destruct (proj1 C2 eq_refl); [contradiction|exact (NX B ltac:(assumption))]|].
    destruct lack.
    { exfalso. destruct (proj1 C3 eq_refl) as [D E]. specialize (C D). rewrite Forall_forall in C. apply Exists_exists in E.
      destruct E as [c [I E]]. rewrite (C c I) in E. discriminate. }
    destruct (save_both_run t w w' gs ET G R (pr_modest _ _ _ _ _ P) O L H) as [w2 H2]. eauto.
Qed.
Lemma save_z_cases given calls t gs w : z_type t -> program given calls t gs w ->
  (parts_file t /\ first_single calls -> exists w', saveShp new_file w = (w', Err UnboundLocalError)) /\
  (~ (parts_file t /\ first_single calls) -> calls = [] \/ Exists (fun g => vertices g = []) gs ->
     exists w', saveShp new_file w = (w', Err ValueError)) /\
  (~ (parts_file t /\ first_single calls) -> calls <> [] -> Forall (fun g => vertices g <> []) gs ->
     exists w', saveShp new_file w = (w', Err AttributeError)).
Proof.
  intros G P. destruct (outcome_cases given calls t gs w P) as [C1 [C2 _]].
  destruct (program_facts given calls t gs w P) as [ET [R [O [L _]]]].
  destruct (save_z_outcome w t gs ET G R (pr_modest _ _ _ _ _ P)) as [w' H].
  set (first := match w_shapes w with s :: _ => lacks_parts t s | [] => false end) in *.
  set (empty := match w_shapes w with [] => true | _ => existsb no_points (w_shapes w) end) in *. clearbody first empty.
  split; [|split].
  - intros A. apply C1 in A. rewrite A in H. eauto.
  - intros A B. apply C2 in B. rewrite B in H. destruct first; [exfalso; apply A, C1; reflexivity|]. eauto.
  - intros A B C. destruct first; [exfalso; apply A, C1; reflexivity|].
    destruct empty; [|eauto]. exfalso. destruct (proj1 C2 eq_refl) as [E|E]; [contradiction|].
    rewrite Forall_forall in C. apply Exists_exists in E. destruct E as [g [I E]]. exact (C g I E).
Qed.

(** ** A Writer without a type whose first shape is a point *)
Lemma sizes_none ss : forall n np, exists np', foldM (shape_size None) ss (n, np) = Ok (n + 12 * Z.of_nat (length ss), np').
Proof.
  induction ss as [|s ss IH]; intros n np; [exists np; cbn; rewrite Z.add_0_r; reflexivity|].
  cbn [foldM]. assert (E : exists np1, shape_size None (n, np) s = Ok (n + 12, np1)) by (eexists; reflexivity).
  destruct E as [np1 ->]. cbn [bind]. destruct (IH (n + 12) np1) as [np2 ->]. exists np2. cbn [length]. rewrite Nat2Z.inj_succ.
  f_equal. f_equal. lia.
Qed.
Lemma untyped_point x y z m calls w : for_each do_call (Point x y z m :: calls) (Writer None) = (w, Ok tt) ->
  Forall call_doubles (Point x y z m :: calls) -> 112 + 12 * Z.of_nat (length calls) < 4294967296 ->
  exists w', saveShp new_file w = (w', Err StructError).
Proof.
  intros C D B.
  destruct (calls_ok _ (Writer None) w D C) as [ss [gs [E1 [A [R [TY [E2 [E3 [E4 _]]]]]]]]]. cbn [Writer w_shapes w_type w_offsets w_lengths app] in *.
  inversion TY as [|s c ss' cs' T0 TY' X Y]. subst. cbn [call_type] in T0.
  unfold saveShp, fix_type. unfold mbind at 1 2, get at 1. rewrite E2, <- X. unfold mbind at 1, lift at 1. cbn [py_get Z.ltb Z.compare].
  change (py_get (s :: ss') 0) with (Ok s). cbv beta iota. unfold modify at 1. rewrite T0.
  rewrite (mbind_run _ _ _ (w_set_shp new_file (w_set_type None w)) tt) by reflexivity.
  unfold mbind at 1, get at 1. set (w1 := w_set_shp new_file (w_set_type None w)).
  assert (N : shp_file_length w1 = Ok ((100 + 12 * Z.of_nat (length (w_shapes w))) / 2)).
  { unfold shp_file_length, w1. cbn [w_type w_shapes w_set_shp w_set_type]. destruct (sizes_none (w_shapes w) 100 None) as [np ->]. reflexivity. }
  assert (LN : length (w_shapes w) = Datatypes.S (length calls)) by (rewrite <- X; cbn [length]; rewrite (F2_length TY'); reflexivity).
  assert (I : i32 ((100 + 12 * Z.of_nat (length (w_shapes w))) / 2)).
  { rewrite LN. unfold i32. assert (0 <= (100 + 12 * Z.of_nat (Datatypes.S (length calls))) / 2 < 2147483648); [|lia].
    split; [apply Z.div_pos; lia|apply Z.div_lt_upper_bound; lia]. }
  eexists. apply mbind_err. unfold on_shp, zoom. change (w_shp w1) with new_file.
  unfold shapefile_header. rewrite (mbind_run _ _ _ new_file tt) by reflexivity.
  rewrite (mbind_run (f_put (pack_many pack_bi [9994; 0; 0; 0; 0; 0])) _ _ _ tt) by reflexivity.
  rewrite N. change (w_type w1) with (@None Z).
  match goal with |- context [(?m ;;; _) ?f] => set (f0 := f) end.
  unfold mbind at 1 2. unfold lift at 1. cbv beta iota. unfold f_put at 1. unfold mbind at 1. rewrite (pack_bi_32 _ I). reflexivity.
Qed.

(** Success exactly *)
Lemma single_dec calls : Exists (fun c => single c = true) calls \/ Forall (fun c => single c = false) calls.
Proof.
  induction calls as [|c calls [IH|IH]]; [right; constructor|left; apply Exists_cons_tl, IH|].
  destruct (single c) eqn:E; [left; apply Exists_cons_hd, E|right; constructor; assumption].
Qed.
Lemma save_iff given calls t gs w : good t -> program given calls t gs w ->
  ((exists w1 w2, saveShp new_file w = (w1, Ok tt) /\ saveShx new_file w1 = (w2, Ok tt)) <->
   calls <> [] /\ Forall (fun g => vertices g <> []) gs /\ (parts_file t -> Forall (fun c => single c = false) calls)).
Proof.
  intros G P. destruct (save_cases given calls t gs w G P) as [C1 [C2 [C3 C4]]]. split.
  - intros [w1 [w2 [H _]]].
    assert (N1 : ~ (parts_file t /\ first_single calls)) by (intros A; destruct (C1 A) as [w' X]; rewrite H in X; congruence).
    assert (N2 : ~ (calls = [] \/ Exists (fun g => vertices g = []) gs)) by (intros A; destruct (C2 N1 A) as [w' X]; rewrite H in X; congruence).
    assert (F : Forall (fun g => vertices g <> []) gs).
    { apply Forall_forall. intros g I E. apply N2. right. apply Exists_exists. exists g. auto. }
    split; [intros ->; apply N2; auto|]. split; [exact F|]. intros PF.
    destruct (single_dec calls) as [E|E]; [|exact E]. exfalso.
    destruct (C3 ltac:(auto) ltac:(intros ->; apply N2; auto) F PF E) as [w' X]. rewrite H in X. congruence.
  - intros [A [B C]]. exact (C4 A B C).
Qed.
