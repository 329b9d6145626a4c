(** Reading back the files that Writer writes. *)
From Verif Require Import Py VlvModel ShpFile ShpWriterModel ShpReaderModel ShpLib ShpSpec ShpWriterProofs ShpSave ShpPrograms.
Open Scope Z_scope.
Open Scope m_scope.

(** ** Reading pieces *)
Lemma reads_get {A} n (u : list Z -> res A) bs a : Z.of_nat (length bs) = n -> u bs = Ok a -> reads (f_get n u) bs a.
Proof.
  intros L U. unfold f_get. rewrite <- (app_nil_r bs). eapply reads_bind; [apply reads_read; exact L|]. apply reads_lift. exact U.
Qed.
Lemma reads_get_ret {A B} n (u : list Z -> res A) bs a (g : A -> B) : Z.of_nat (length bs) = n -> u bs = Ok a ->
  reads (x <~ f_get n u ;; ret (g x)) bs (g a).
Proof. intros L U. rewrite <- (app_nil_r bs). eapply reads_bind; [apply reads_get; eassumption|apply reads_ret]. Qed.
Lemma unpack_bi_be32 v : i32 v -> unpack_bi (be32 v) = Ok v.
Proof. intros I. apply unpack_bi_pack, pack_bi_32, I. Qed.
Lemma unpack_li_le32 v : i32 v -> unpack_li (le32 v) = Ok v.
Proof. intros I. apply unpack_li_pack, pack_li_32, I. Qed.
Lemma unpack_doubles l n : Forall is_dbl l -> n = Z.of_nat (length l) -> unpack_ds n (doubles l) = Ok l.
Proof. rewrite <- pack_ds_doubles. apply unpack_ds_pack. Qed.
Lemma step {A B} (m : M file A) (k : A -> M file B) bs a f r d (res : file * res B) :
  reads m bs a -> rest f = bs ++ r -> fdata f = d ->
  (forall f', fdata f' = d -> rest f' = r -> k a f' = res) -> mbind m k f = res.
Proof.
  intros R E <- K. unfold mbind. rewrite (R f r E). apply K; [reflexivity|]. apply rest_advance. exact E.
Qed.
Lemma reads_points vs : Forall (fun v => Forall is_dbl (coords v)) vs -> forall k,
  reads (for_map (fun _ => f_get 16 (unpack_ds 2)) (seq k (length vs))) (flat_map (fun v => doubles [vx v; vy v]) vs) (map xy vs).
Proof.
  induction 1 as [|v vs D Ds IH]; intros k; [apply reads_ret|].
  cbn [length seq for_map flat_map map]. eapply reads_bind.
  - apply reads_get; [reflexivity|]. apply unpack_doubles; [|reflexivity].
    inversion D as [|a l D1 D2]; subst. inversion D2; subst. constructor; [exact D1|constructor; [assumption|constructor]].
  - rewrite <- (app_nil_r (flat_map _ vs)). eapply reads_bind; [apply IH|apply reads_ret].
Qed.
Lemma unpack_starts l n : Forall i32 l -> n = Z.of_nat (length l) -> unpack_many 4 unpack_li n (flat_map le32 l) = Ok l.
Proof.
  intros F ->. rewrite (unpack_many_flat 4 unpack_li le32 (fun x => x)); [rewrite map_id; reflexivity|..].
  - eapply Forall_impl; [|exact F]. intros x Hx. split; [reflexivity|apply unpack_li_le32, Hx].
  - reflexivity.
Qed.

(** ** One record *)
Lemma least_in l v : least l v -> In v l. Proof. intros [H _]. exact H. Qed.
Lemma greatest_in l v : greatest l v -> In v l. Proof. intros [H _]. exact H. Qed.
Lemma coord_dbl (sel : vertex -> dbl) vs : (forall v, In (sel v) (coords v)) -> Forall (fun v => Forall is_dbl (coords v)) vs ->
  Forall is_dbl (map sel vs).
Proof.
  intros S F. induction F as [|v vs D _ IH]; [constructor|]. cbn. constructor; [|exact IH].
  rewrite Forall_forall in D. apply D, S.
Qed.
Lemma vx_in v : In (vx v) (coords v). Proof. cbn. auto. Qed.
Lemma vy_in v : In (vy v) (coords v). Proof. cbn. auto. Qed.
Lemma vz_in v : In (vz v) (coords v). Proof. cbn. auto. Qed.
Lemma vm_in v : In (vm v) (coords v). Proof. cbn. auto 6. Qed.
Definition doubles_ok (vs : list vertex) : Prop := Forall (fun v => Forall is_dbl (coords v)) vs.
Lemma bounds_dbl vs b : doubles_ok vs -> bounds vs b -> length b = 4%nat /\ Forall is_dbl b.
Proof.
  intros D [x0 [y0 [x1 [y1 [-> [X0 [Y0 [X1 Y1]]]]]]]]. split; [reflexivity|].
  pose proof (coord_dbl vx vs vx_in D) as DX. pose proof (coord_dbl vy vs vy_in D) as DY.
  rewrite Forall_forall in DX, DY.
  apply least_in in X0. apply least_in in Y0. apply greatest_in in X1. apply greatest_in in Y1.
  constructor; [auto|]. constructor; [auto|]. constructor; [auto|]. constructor; [auto|constructor].
Qed.
Lemma zero_dbl : is_dbl 0. Proof. split; [lia|reflexivity]. Qed.
Lemma range0_dbl l b : Forall is_dbl l -> range0 l b -> length b = 2%nat /\ Forall is_dbl b.
Proof.
  intros D [a [c [-> [A C]]]]. split; [reflexivity|]. rewrite Forall_forall in D.
  apply least_in in A. apply greatest_in in C.
  constructor; [destruct A as [<-|A]; [exact zero_dbl|auto]|].
  constructor; [destruct C as [<-|C]; [exact zero_dbl|auto]|constructor].
Qed.
Lemma range_of_dbl l b : Forall is_dbl l -> range_of l b -> length b = 2%nat /\ Forall is_dbl b.
Proof.
  intros D [a [c [-> [A C]]]]. split; [reflexivity|]. rewrite Forall_forall in D.
  apply least_in in A. apply greatest_in in C. constructor; [auto|constructor; [auto|constructor]].
Qed.
Lemma hd_in {A} (l : list A) x : hd_error l = Some x -> In x l.
Proof. destruct l; [discriminate|]. intros H. injection H as ->. left. reflexivity. Qed.
Lemma good_i32 t : good t -> i32 t.
Proof. unfold good. cbn [In]. intros H. unfold i32. repeat (destruct H as [<-|H]; [lia|]). contradiction. Qed.
Lemma truthy_pos n : 0 < n -> truthy (Some n) = true.
Proof. intros H. cbn. destruct (Z.eqb_spec n 0); [lia|reflexivity]. Qed.
Lemma seek_to f n : 0 <= n -> f_seek n f = (mkFile (fdata f) (Z.to_nat n), Ok tt).
Proof. intros H. unfold f_seek. destruct (Z.ltb_spec n 0); [lia|reflexivity]. Qed.

Definition no_zero (m : list dbl) : Prop := existsb (dbl_eq dbl_zero) m = false.
Lemma record_length n c : length (record_bytes n c) = (8 + length c)%nat.
Proof. reflexivity. Qed.

Lemma sub_dbl v l : Forall is_dbl (coords v) -> (forall x, In x l -> In x (coords v)) -> Forall is_dbl l.
Proof. rewrite !Forall_forall. auto. Qed.
Ltac unret := match goal with |- mbind (ret ?a) ?k ?f = ?r => change (k a f = r); cbv beta end.
Ltac pick := cbn [type_in existsb Z.eqb Pos.eqb orb andb negb]; change (truthy None) with false; cbv iota.
Ltac go f0 E0 FD tac := eapply step; [tac|exact E0|exact FD|]; clear f0 E0 FD; intros f0 FD E0; pick.
Ltac skips := repeat (unret; pick).

Lemma bounds_pos vs b : bounds vs b -> 0 < Z.of_nat (length vs).
Proof. intros [x0 [_ [_ [_ [_ [[I _] _]]]]]]. destruct vs; [contradiction|cbn; lia]. Qed.
Lemma parts_pos (g : geometry) : 0 < Z.of_nat (length (vertices g)) -> 0 < Z.of_nat (length g).
Proof. destruct g; cbn; lia. Qed.
Lemma reads_points_ret (vs : list vertex) (s : shape) : doubles_ok vs ->
  reads (n <~ lift (count (Some (Z.of_nat (length vs)))) ;;
         p <~ for_map (fun _ => f_get 16 (unpack_ds 2)) (seq 0 (Z.to_nat n)) ;; ret (set_points p s))
    (flat_map (fun v => doubles [vx v; vy v]) vs) (set_points (map xy vs) s).
Proof.
  intros D. change (flat_map ?h vs) with ([] ++ flat_map h vs). eapply reads_bind; [apply reads_lift; reflexivity|].
  rewrite Nat2Z.id. rewrite <- (app_nil_r (flat_map _ vs)). eapply reads_bind; [apply reads_points; exact D|apply reads_ret].
Qed.
Lemma reads_parts_ret (g : geometry) (s : shape) : Forall i32 (part_starts g) ->
  reads (n <~ lift (count (Some (Z.of_nat (length g)))) ;;
         p <~ f_get (n * 4) (unpack_many 4 unpack_li n) ;; ret (set_parts (Some p) s))
    (flat_map le32 (part_starts g)) (set_parts (Some (part_starts g)) s).
Proof.
  intros F. change (flat_map ?h (part_starts g)) with ([] ++ flat_map h (part_starts g)). eapply reads_bind; [apply reads_lift; reflexivity|].
  assert (L : length (part_starts g) = length g) by apply starts_length.
  apply (reads_get_ret _ _ _ (part_starts g) (fun p => set_parts (Some p) s)); [rewrite flat_le32_length; lia|]. apply unpack_starts; [exact F|]. rewrite L. reflexivity.
Qed.
Lemma reads_measures_ret mb (vs : list vertex) (s : shape) : length mb = 2%nat -> Forall is_dbl mb -> doubles_ok vs ->
  reads (_ <~ f_get 16 (unpack_ds 2) ;;
         n <~ lift (count (Some (Z.of_nat (length vs)))) ;;
         m <~ f_get (n * 8) (unpack_ds n) ;; ret (set_m (Some (map measure_of m)) s))
    (doubles mb ++ doubles (map vm vs)) (set_m (Some (map measure vs)) s).
Proof.
  intros L DM D. eapply reads_bind.
  - apply reads_get; [|apply (unpack_doubles mb); [exact DM|rewrite L; reflexivity]]. rewrite doubles_length, L. reflexivity.
  - change (doubles (map vm vs)) with ([] ++ doubles (map vm vs)). eapply reads_bind; [apply reads_lift; reflexivity|].
    replace (map measure vs) with (map measure_of (map vm vs)) by apply map_map.
    apply (reads_get_ret _ _ _ (map vm vs) (fun m => set_m (Some (map measure_of m)) s)).
    + rewrite doubles_length, map_length. lia.
    + apply unpack_doubles; [apply coord_dbl; [exact vm_in|exact D]|]. rewrite map_length. reflexivity.
Qed.
Lemma get_start (k : Z -> Z -> M file shape) n c f r S : i32 n -> i32 (words c) -> 2 * words c = Z.of_nat (length c) ->
  rest f = record_bytes n c ++ r ->
  (forall here f0, rest f0 = c ++ r -> fdata f0 = fdata f ->
    (forall (s : shape) f', fdata f' = fdata f ->
       (f_seek (here + 2 * words c) ;;; ret s) f' = (advance f (length (record_bytes n c)), Ok s)) ->
    k (words c) here f0 = S) ->
  (hd <~ f_get 8 (unpack_many 4 unpack_bi 2) ;; recLength <~ lift (py_get hd 1) ;; here <~ f_tell ;; k recLength here) f = S.
Proof.
  intros In_ Iw EV E K. unfold record_bytes in E. rewrite <- !app_assoc in E. fold (words c) in E.
  rewrite (mbind_run _ _ f (advance f 8) [n; words c]).
  - change (k (words c) (Z.of_nat (fpos f + 8)) (advance f 8) = S). apply K; [|reflexivity|].
    + apply (rest_advance f (be32 n ++ be32 (words c)) (c ++ r)). rewrite E, <- app_assoc. reflexivity.
    + intros s f' Ef. rewrite (mbind_run _ _ _ _ _ (seek_to f' (Z.of_nat (fpos f + 8) + 2 * words c) ltac:(lia))).
      unfold ret, advance. rewrite Ef, record_length, EV. do 2 f_equal. lia.
  - refine (reads_get 8 (unpack_many 4 unpack_bi 2) (be32 n ++ be32 (words c)) [n; words c] eq_refl _ f (c ++ r) _).
    + pose proof (unpack_many_flat 4 unpack_bi be32 (fun x => x) [n; words c] 2) as U. cbn [flat_map map] in U. rewrite app_nil_r in U.
      apply U; [|reflexivity]. constructor; [split; [reflexivity|apply unpack_bi_be32; assumption]|].
      constructor; [split; [reflexivity|apply unpack_bi_be32; assumption]|constructor].
    + rewrite E, <- app_assoc. reflexivity.
Qed.
Ltac start C := intros n f r In_ E; unfold get_shape; eapply get_start; [exact In_|eassumption|assumption|exact E|];
  clear E; intros here f0 E0 FD FIN; cbv zeta beta; rewrite C in E0; rewrite <- !app_assoc in E0.
Lemma get_shape_ok ms m t g c : (ms <-> no_zero m) -> good t -> content t g c -> fits t g -> doubles_ok (vertices g) ->
  i32 (words c) ->
  exists s, read_back ms t g s /\ forall n f r, i32 n -> rest f = record_bytes n c ++ r ->
    get_shape m f = (advance f (length (record_bytes n c)), Ok s).
Proof.
  intros MS G C F D Iw.
  assert (EV : 2 * words c = Z.of_nat (length c)) by (eapply content_even; exact C).
  assert (IT : i32 t) by (apply good_i32, G).
  unfold content in C. cbv zeta in C. unfold read_back. cbv zeta.
  destruct C as [[-> [v [Hv C]]]|[[-> [v [Hv C]]]|[[-> [v [Hv C]]]|[[-> [b [B C]]]|[[T [b [B C]]]|[T [b [mb [B [M C]]]]]]]]]].
  - assert (Dv : Forall is_dbl (coords v)) by (unfold doubles_ok in D; rewrite Forall_forall in D; apply D, hd_in, Hv).
    eexists. split; [left; split; [reflexivity|]; exists v; split; [exact Hv|reflexivity]|].
    start C.
    go f0 E0 FD ltac:(apply reads_get; [|apply unpack_li_le32; exact IT]; reflexivity). skips.
    go f0 E0 FD ltac:(apply reads_get_ret; [|apply (unpack_doubles [vx v; vy v])]; try reflexivity; eapply (sub_dbl v); [exact Dv|intros x; cbn; tauto]).
    skips. apply FIN, FD.
  - assert (Dv : Forall is_dbl (coords v)) by (unfold doubles_ok in D; rewrite Forall_forall in D; apply D, hd_in, Hv).
    eexists. split; [right; left; split; [reflexivity|]; exists v; split; [exact Hv|reflexivity]|].
    start C.
    change (doubles [vx v; vy v; vz v; vm v]) with (doubles [vx v; vy v] ++ doubles [vz v] ++ doubles [vm v]) in E0.
    rewrite <- !app_assoc in E0.
    go f0 E0 FD ltac:(apply reads_get; [|apply unpack_li_le32; exact IT]; reflexivity). skips.
    go f0 E0 FD ltac:(apply reads_get_ret; [|apply (unpack_doubles [vx v; vy v])]; try reflexivity; eapply (sub_dbl v); [exact Dv|intros x; cbn; tauto]).
    go f0 E0 FD ltac:(apply reads_get_ret; [|apply (unpack_doubles [vz v])]; try reflexivity; eapply (sub_dbl v); [exact Dv|intros x; cbn; tauto]).
    go f0 E0 FD ltac:(apply reads_get_ret; [|apply (unpack_doubles [vm v])]; try reflexivity; eapply (sub_dbl v); [exact Dv|intros x; cbn; tauto]).
    apply FIN, FD.
  - assert (Dv : Forall is_dbl (coords v)) by (unfold doubles_ok in D; rewrite Forall_forall in D; apply D, hd_in, Hv).
    eexists. split; [right; right; left; split; [reflexivity|]; exists v; split; [exact Hv|reflexivity]|].
    start C.
    change (doubles [vx v; vy v; vm v]) with (doubles [vx v; vy v] ++ doubles [vm v]) in E0.
    rewrite <- !app_assoc in E0.
    go f0 E0 FD ltac:(apply reads_get; [|apply unpack_li_le32; exact IT]; reflexivity). skips.
    go f0 E0 FD ltac:(apply reads_get_ret; [|apply (unpack_doubles [vx v; vy v])]; try reflexivity; eapply (sub_dbl v); [exact Dv|intros x; cbn; tauto]).
    skips.
    go f0 E0 FD ltac:(apply reads_get_ret; [|apply (unpack_doubles [vm v])]; try reflexivity; eapply (sub_dbl v); [exact Dv|intros x; cbn; tauto]).
    apply FIN, FD.
  - destruct (bounds_dbl _ _ D B) as [LB DB].
    destruct F as [F1 F2]. specialize (F1 ltac:(cbn; tauto)).
    eexists. split; [do 3 right; left; split; [reflexivity|]; exists b; split; [exact B|reflexivity]|].
    start C.
    go f0 E0 FD ltac:(apply reads_get; [|apply unpack_li_le32; exact IT]; reflexivity). skips.
    go f0 E0 FD ltac:(apply reads_get_ret; [|apply (unpack_doubles b)]; [rewrite doubles_length, LB; reflexivity|exact DB|rewrite LB; reflexivity]).
    skips.
    go f0 E0 FD ltac:(apply reads_get_ret; [|apply (unpack_li_le32 _ F1)]; reflexivity).
    skips. rewrite (truthy_pos _ (bounds_pos _ _ B)).
    go f0 E0 FD ltac:(apply (reads_points_ret (vertices g)); exact D).
    skips. apply FIN, FD.
  - destruct (bounds_dbl _ _ D B) as [LB DB].
    assert (PV := bounds_pos _ _ B). assert (PG := parts_pos _ PV).
    destruct F as [F1 F2].
    specialize (F1 ltac:(destruct T as [-> | ->]; cbn; tauto)). destruct (F2 ltac:(destruct T as [-> | ->]; cbn; tauto)) as [F3 F4].
    eexists. split; [do 4 right; left; split; [exact T|]; exists b; split; [exact B|reflexivity]|].
    start C.
    go f0 E0 FD ltac:(apply reads_get; [|apply unpack_li_le32; exact IT]; reflexivity).
    destruct T as [-> | ->]; pick.
    all: go f0 E0 FD ltac:(apply reads_get_ret; [|apply (unpack_doubles b)]; [rewrite doubles_length, LB; reflexivity|exact DB|rewrite LB; reflexivity]).
    all: go f0 E0 FD ltac:(apply reads_get_ret; [|apply (unpack_li_le32 _ F3)]; reflexivity).
    all: go f0 E0 FD ltac:(apply reads_get_ret; [|apply (unpack_li_le32 _ F1)]; reflexivity).
    all: rewrite (truthy_pos _ PV), (truthy_pos _ PG).
    all: go f0 E0 FD ltac:(apply (reads_parts_ret g); exact F4).
    all: skips.
    all: go f0 E0 FD ltac:(apply (reads_points_ret (vertices g)); exact D).
    all: skips; apply FIN, FD.
  - destruct (bounds_dbl _ _ D B) as [LB DB].
    destruct (range0_dbl _ _ (coord_dbl vm _ vm_in D) M) as [LM DM].
    assert (PV := bounds_pos _ _ B). assert (PG := parts_pos _ PV).
    destruct F as [F1 F2].
    specialize (F1 ltac:(destruct T as [-> | ->]; cbn; tauto)). destruct (F2 ltac:(destruct T as [-> | ->]; cbn; tauto)) as [F3 F4].
    destruct (existsb (dbl_eq dbl_zero) m) eqn:EX.
    + eexists. split; [do 5 right; split; [exact T|]; exists b, None; split; [exact B|]; split; [|reflexivity];
        right; split; [intros X; apply MS in X; unfold no_zero in X; congruence|reflexivity]|].
      start C.
      go f0 E0 FD ltac:(apply reads_get; [|apply unpack_li_le32; exact IT]; reflexivity).
      destruct T as [-> | ->]; pick.
      all: go f0 E0 FD ltac:(apply reads_get_ret; [|apply (unpack_doubles b)]; [rewrite doubles_length, LB; reflexivity|exact DB|rewrite LB; reflexivity]).
      all: go f0 E0 FD ltac:(apply reads_get_ret; [|apply (unpack_li_le32 _ F3)]; reflexivity).
      all: go f0 E0 FD ltac:(apply reads_get_ret; [|apply (unpack_li_le32 _ F1)]; reflexivity).
      all: rewrite (truthy_pos _ PV), (truthy_pos _ PG).
      all: go f0 E0 FD ltac:(apply (reads_parts_ret g); exact F4).
      all: skips.
      all: go f0 E0 FD ltac:(apply (reads_points_ret (vertices g)); exact D).
      all: skips; rewrite EX; pick; skips; apply FIN, FD.
    + eexists. split; [do 5 right; split; [exact T|]; exists b, (Some (map measure (vertices g))); split; [exact B|]; split; [|reflexivity];
        left; split; [apply MS; exact EX|reflexivity]|].
      start C.
      go f0 E0 FD ltac:(apply reads_get; [|apply unpack_li_le32; exact IT]; reflexivity).
      destruct T as [-> | ->]; pick.
      all: go f0 E0 FD ltac:(apply reads_get_ret; [|apply (unpack_doubles b)]; [rewrite doubles_length, LB; reflexivity|exact DB|rewrite LB; reflexivity]).
      all: go f0 E0 FD ltac:(apply reads_get_ret; [|apply (unpack_li_le32 _ F3)]; reflexivity).
      all: go f0 E0 FD ltac:(apply reads_get_ret; [|apply (unpack_li_le32 _ F1)]; reflexivity).
      all: rewrite (truthy_pos _ PV), (truthy_pos _ PG).
      all: go f0 E0 FD ltac:(apply (reads_parts_ret g); exact F4).
      all: skips.
      all: go f0 E0 FD ltac:(apply (reads_points_ret (vertices g)); exact D).
      all: skips.
      all: rewrite (app_assoc (doubles mb)) in E0.
      all: rewrite EX; pick.

      all: go f0 E0 FD ltac:(apply (reads_measures_ret mb (vertices g) _ LM DM D)).
      all: skips; apply FIN, FD.
Qed.

(** ** All the records *)
Definition readable (t : Z) (g : geometry) (c : list Z) : Prop :=
  content t g c /\ fits t g /\ doubles_ok (vertices g) /\ i32 (words c).
Definition numbered (n : Z) (cs : list (list Z)) : Prop := forall k, (k < length cs)%nat -> i32 (n + Z.of_nat k).
Lemma numbered_cons n c cs : numbered n (c :: cs) -> i32 n /\ numbered (n + 1) cs.
Proof.
  intros H. split.
  - specialize (H 0%nat ltac:(cbn; lia)). replace (n + Z.of_nat 0) with n in H by lia. exact H.
  - intros k Hk. specialize (H (S k) ltac:(cbn; lia)). replace (n + 1 + Z.of_nat k) with (n + Z.of_nat (S k)) by lia. exact H.
Qed.
(** [shows m c s]: a record with content [c] is read as [s]. *)
Definition shows (m : list dbl) (c : list Z) (s : shape) : Prop :=
  forall n f r, i32 n -> rest f = record_bytes n c ++ r ->
    get_shape m f = (advance f (length (record_bytes n c)), Ok s).
Lemma all_shown ms m t gs cs : (ms <-> no_zero m) -> good t -> Forall2 (readable t) gs cs ->
  exists ss, Forall2 (read_back ms t) gs ss /\ Forall2 (shows m) cs ss.
Proof.
  intros MS G R. induction R as [|g c gs cs [C [F [D I]]] R IH]; [exists []; split; constructor|].
  destruct IH as [ss [A B]]. destruct (get_shape_ok ms m t g c MS G C F D I) as [s [X Y]].
  exists (s :: ss). split; constructor; assumption.
Qed.
Lemma position f a : (fpos f <= length (fdata f))%nat -> rest f = a -> (fpos f + length a = length (fdata f))%nat.
Proof. intros L <-. unfold rest. rewrite skipn_length. lia. Qed.
Lemma before f a b : (fpos f <= length (fdata f))%nat -> rest f = a ++ b -> a <> [] ->
  (Z.of_nat (fpos f) <? Z.of_nat (length (fdata f))) = true.
Proof.
  intros L E N. apply Z.ltb_lt. apply position in E; [|exact L]. rewrite app_length in E. destruct a; [congruence|cbn in E; lia].
Qed.
Lemma finished f : (fpos f <= length (fdata f))%nat -> rest f = [] -> (Z.of_nat (fpos f) <? Z.of_nat (length (fdata f))) = false.
Proof. intros L E. apply Z.ltb_ge. apply position in E; [|exact L]. cbn in E. lia. Qed.
Lemma record_nonempty n c : record_bytes n c <> [].
Proof. discriminate. Qed.
Lemma advance_le f bs r : (fpos f <= length (fdata f))%nat -> rest f = bs ++ r ->
  (fpos (advance f (length bs)) <= length (fdata (advance f (length bs))))%nat.
Proof. intros L E. apply position in E; [|exact L]. rewrite app_length in E. cbn. lia. Qed.

Lemma shapes_loop_ok m cs ss : Forall2 (shows m) cs ss -> forall n f fuel,
  numbered n cs -> (fpos f <= length (fdata f))%nat -> rest f = all_records n cs -> (length cs < fuel)%nat ->
    shapes_loop fuel m (Z.of_nat (length (fdata f))) f = (advance f (length (all_records n cs)), Ok (Some ss)) /\
    iter_loop fuel m (Z.of_nat (length (fdata f))) f = (ss, Some (Ok tt)) /\
    forall j k s, nth_error ss k = Some s ->
      exists f', fdata f' = fdata f /\
        find_loop fuel m (Z.of_nat (length (fdata f))) j (j + Z.of_nat k) f = (f', Ok (Some (Some s))).
Proof.
  intros R. induction R as [|c s cs ss Rs R IH]; intros n f fuel N L E FU; (destruct fuel as [|fuel]; [lia|]).
  - cbn [shapes_loop iter_loop]. unfold mbind, f_tell. rewrite (finished f L E).
    split; [unfold ret, advance; cbn; rewrite Nat.add_0_r; destruct f; reflexivity|]. split; [reflexivity|].
    intros j k s Hk. destruct k; discriminate.
  - cbn [all_records] in E. apply numbered_cons in N. destruct N as [N1 N2].
    assert (GS := Rs n f _ N1 E).
    set (f1 := advance f (length (record_bytes n c))) in *.
    destruct (IH (n + 1) f1 fuel N2) as [S1 [S2 S3]].
    + apply (advance_le f _ _ L E).
    + apply (rest_advance f _ _ E).
    + cbn in FU. lia.
    + change (fdata f1) with (fdata f) in *.
      assert (B := before f _ _ L E (record_nonempty n c)).
      split; [|split].
      * cbn [shapes_loop]. unfold mbind at 1, f_tell. rewrite B. rewrite (mbind_run _ _ _ _ _ GS), (mbind_run _ _ _ _ _ S1).
        unfold ret. cbn [option_map]. cbn [all_records]. rewrite app_length. unfold f1. rewrite advance_advance. reflexivity.
      * cbn [iter_loop]. rewrite B, GS, S2. reflexivity.
      * intros j [|k] s' Hk.
        { injection Hk as <-. exists f1. split; [reflexivity|]. cbn [find_loop]. unfold mbind at 1, f_tell. rewrite B.
          rewrite (mbind_run _ _ _ _ _ GS). replace (j + Z.of_nat 0) with j by lia. rewrite Z.eqb_refl. reflexivity. }
        destruct (S3 (j + 1) k s' Hk) as [f' [Y W]].
        exists f'. split; [exact Y|]. cbn [find_loop]. unfold mbind at 1, f_tell. rewrite B.
        rewrite (mbind_run _ _ _ _ _ GS). destruct (Z.eqb_spec j (j + Z.of_nat (Datatypes.S k))); [lia|].
        replace (j + Z.of_nat (Datatypes.S k)) with (j + 1 + Z.of_nat k) by lia. exact W.
Qed.
Lemma find_none m cs ss : Forall2 (shows m) cs ss -> forall n f fuel j i,
  numbered n cs -> (fpos f <= length (fdata f))%nat -> rest f = all_records n cs -> (length cs < fuel)%nat ->
  i < j \/ j + Z.of_nat (length cs) <= i ->
  exists f', fdata f' = fdata f /\ find_loop fuel m (Z.of_nat (length (fdata f))) j i f = (f', Ok (Some None)).
Proof.
  intros R. induction R as [|c s cs ss Rs R IH]; intros n f fuel j i N L E FU O; (destruct fuel as [|fuel]; [lia|]).
  - exists f. split; [reflexivity|]. cbn [find_loop]. unfold mbind, f_tell. rewrite (finished f L E). reflexivity.
  - cbn [all_records] in E. apply numbered_cons in N. destruct N as [N1 N2].
    assert (GS := Rs n f _ N1 E). set (f1 := advance f (length (record_bytes n c))) in *. cbn [length] in O, FU.
    destruct (IH (n + 1) f1 fuel (j + 1) i N2 (advance_le f _ _ L E) (rest_advance f _ _ E)) as [f' [D F]]; [lia|lia|].
    change (fdata f1) with (fdata f) in *. exists f'. split; [exact D|].
    assert (B := before f _ _ L E (record_nonempty n c)).
    cbn [find_loop]. unfold mbind at 1, f_tell. rewrite B. rewrite (mbind_run _ _ _ _ _ GS).
    destruct (Z.eqb_spec j i); [lia|]. exact F.
Qed.
(** The record at its offset *)
Lemma record_at_offset m cs ss : Forall2 (shows m) cs ss -> forall n d pre, numbered n cs -> d = pre ++ all_records n cs ->
  forall k s, nth_error ss k = Some s -> exists o f', nth_error (offsets_from (Z.of_nat (length pre)) cs) k = Some o /\
    Z.of_nat (length pre) <= o /\ fdata f' = d /\ get_shape m (mkFile d (Z.to_nat o)) = (f', Ok s).
Proof.
  intros R. induction R as [|c s0 cs ss Rs R IH]; intros n d pre N E k s Hk; [destruct k; discriminate|].
  apply numbered_cons in N. destruct N as [N1 N2].
  destruct k as [|k].
  - injection Hk as <-. exists (Z.of_nat (length pre)). eexists. split; [reflexivity|]. split; [lia|].
    rewrite Nat2Z.id. split; [|apply (Rs n _ (all_records (n + 1) cs) N1)]; [reflexivity|].
    unfold rest. cbn [fdata fpos]. rewrite E, skipn_app, skipn_all, Nat.sub_diag. reflexivity.
  - destruct (IH (n + 1) d (pre ++ record_bytes n c) N2) with (k := k) (s := s) as [o [f' [O [P [Q W]]]]].
    + rewrite E. cbn [all_records]. rewrite app_assoc. reflexivity.
    + exact Hk.
    + rewrite app_length, record_length in O, P.
      exists o, f'. split; [|split; [lia|split; [exact Q|exact W]]].
      cbn [offsets_from nth_error].
      replace (Z.of_nat (length pre + (8 + length c))) with (Z.of_nat (length pre) + 8 + Z.of_nat (length c)) in O by lia. exact O.
Qed.
