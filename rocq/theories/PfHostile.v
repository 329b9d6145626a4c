(** Reading arbitrary bytes as a P file: lemmas. *)
From Verif Require Import Py Num VlvModel VlvProofs PfModel PfHostileSpec.
From Verif Require PfHist PfFinal ShpEditOpen ShpEditor.
Open Scope Z_scope.
Open Scope res_scope.

(** ** Names *)
Lemma ascii_mono : forall fuel acc s y, readascii_loop fuel acc s = Some y -> forall fuel', (fuel <= fuel')%nat -> readascii_loop fuel' acc s = Some y.
Proof.
  induction fuel as [|k IH]; intros acc s y H fuel' L; [discriminate H|]. destruct fuel' as [|k']; [lia|].
  cbn [readascii_loop] in H |- *. destruct s as [|b r]; [apply IH; [exact H|lia]|]. destruct (b =? 0); [exact H|]. apply IH; [exact H|lia].
Qed.
Lemma ascii_split (s : list Z) : In 0 s -> exists p r, s = p ++ 0 :: r /\ Forall (fun c => c <> 0) p.
Proof.
  induction s as [|c s IH]; [intros []|]. intros I. destruct (Z.eq_dec c 0) as [->|N]; [exists [], s; auto|].
  destruct IH as [p [r [-> F]]]; [destruct I; [contradiction|assumption]|]. exists (c :: p), r. auto.
Qed.
(** Enough fuel: one more than the bytes left. *)
Lemma ascii_enough s fuel fuel' : (length s < fuel)%nat -> (length s < fuel')%nat -> readascii fuel s = readascii fuel' s.
Proof.
  intros L L'. destruct (in_dec Z.eq_dec 0 s) as [I|N].
  - destruct (ascii_split s I) as [p [r [-> F]]]. rewrite app_length in L, L'. cbn in L, L'. unfold readascii. rewrite !readascii_loop_ok by (exact F || lia). reflexivity.
  - rewrite !readascii_nonterm by exact N. reflexivity.
Qed.
Lemma ascii_fuel_mono s fuel fuel' y : readascii fuel s = Some y -> (fuel <= fuel')%nat -> readascii fuel' s = Some y.
Proof.
  unfold readascii. intros H L. destruct (readascii_loop fuel [] s) as [[bs r]|] eqn:E; [|discriminate H]. rewrite (ascii_mono _ _ _ _ E fuel' L). exact H.
Qed.
Lemma ascii_rest fuel s n r : readascii fuel s = Some (Ok (n, r)) -> exists p, s = p ++ 0 :: r /\ n = p.
Proof.
  unfold readascii. destruct (in_dec Z.eq_dec 0 s) as [I|N]; [|rewrite readascii_loop_nonterm by exact N; discriminate].
  destruct (ascii_split s I) as [p [q [-> F]]]. destruct (readascii_loop fuel [] (p ++ 0 :: q)) as [[bs t]|] eqn:E; [|discriminate].
  pose proof (ascii_mono _ _ _ _ E (S (fuel + length p)) ltac:(lia)) as E'. rewrite readascii_loop_ok in E' by (exact F || lia). injection E' as <- <-.
  unfold ascii_decode. destruct (forallb _ _); cbn [bind]; intros H; [injection H as <- <-; exists p; auto|discriminate H].
Qed.
Lemma ascii_fails fuel s e : readascii fuel s = Some (Err e) -> e = UnicodeError.
Proof.
  unfold readascii. destruct (readascii_loop fuel [] s) as [[bs t]|]; [|discriminate]. unfold ascii_decode. destruct (forallb _ _); cbn [bind]; intros H; congruence.
Qed.

(** ** Entries *)
Lemma vlv_fails s : forall a e, readvlv_loop a s = Err e -> e = TypeError.
Proof. induction s as [|d r IH]; intros a e; cbn [readvlv_loop]; [congruence|]. destruct (negb _); [apply IH|discriminate]. Qed.
Lemma vlv_rest s v r : Forall is_byte s -> readvlv s = Ok (v, r) -> exists p, s = p ++ r /\ 0 <= v /\ p <> [].
Proof.
  intros B H. destruct (readvlv_inv s 0 v r B H) as [ds [z [E [D [Z V]]]]]. exists (map (Z.add 128) ds ++ [z]). rewrite <- app_assoc.
  split; [exact E|]. split; [|destruct ds; discriminate].
  rewrite V, Z.mul_0_l, Z.add_0_l. clear - D Z. assert (K : forall l a, Forall digit l -> 0 <= a -> 0 <= fold_left (fun a d => a * 128 + d) l a).
  { induction l as [|x l IH]; intros a F A; cbn [fold_left]; [exact A|]. inversion F as [|? ? X Y]; subst. apply IH; [exact Y|]. unfold digit in X. lia. }
  apply K; [apply Forall_app; split; [exact D|constructor; [exact Z|constructor]]|lia].
Qed.
Lemma vlv_back v bs r : writevlv v = Ok bs -> readvlv (bs ++ r) = Ok (v, r).
Proof.
  intros W. destruct (Z.lt_ge_cases v 0) as [L|L]; [rewrite (writevlv_neg v L) in W; discriminate W|].
  destruct (api_round v ltac:(lia)) as [bs' [W' [_ R]]]. assert (bs' = bs) by congruence. subst bs'. apply R.
Qed.
Lemma Forall_suffix {A} (P : A -> Prop) p r s : Forall P s -> s = p ++ r -> Forall P r.
Proof. intros F ->. apply Forall_app in F. tauto. Qed.
Lemma h_run s : match read_h s with Ok (v, r) => exists p, s = p ++ r | Err e => e = StructError end.
Proof. unfold read_h, VlvModel.f_read, unpack_be. destruct (_ =? _); cbn [bind]; [|reflexivity]. exists (firstn 2 s). symmetry. apply firstn_skipn. Qed.
Lemma vlvs_run n : forall s, Forall is_byte s ->
  match read_vlvs n s with
  | Ok (vs, r) => (exists p, s = p ++ r) /\ length vs = n /\ Forall (fun v => 0 <= v) vs
  | Err e => e = TypeError
  end.
Proof.
  induction n as [|n IH]; intros s B; cbn [read_vlvs]; [split; [exists []; reflexivity|auto]|].
  destruct (readvlv s) as [[v r]|e] eqn:E; cbn [bind]; [|eapply vlv_fails; exact E].
  destruct (vlv_rest s v r B E) as [p [S [V _]]]. specialize (IH r (Forall_suffix _ _ _ _ B S)).
  destruct (read_vlvs n r) as [[vs q]|e]; cbn [bind]; [|exact IH]. destruct IH as [[p' S'] [L F]].
  split; [exists (p ++ p'); rewrite <- app_assoc; congruence|]. split; [cbn; lia|constructor; assumption].
Qed.

Section Pf.
  Context {T : Type} `{PyNum T}.

  Lemma entry_run s : Forall is_byte s ->
    match read_entry (T := T) s with
    | Ok (_, lens, r) => (exists p, s = p ++ r) /\ Forall (fun v => 0 <= v) lens
    | Err e => e = TypeError \/ e = StructError
    end.
  Proof.
    intros B. unfold read_entry. destruct (readvlv s) as [[n s0]|e] eqn:E; cbn [bind]; [|left; eapply vlv_fails; exact E].
    destruct (vlv_rest s n s0 B E) as [p0 [S0 [_ _]]].
    pose proof (h_run s0) as H1. destruct (read_h s0) as [[x0 s1]|e]; cbn [bind]; [|right; exact H1]. destruct H1 as [p1 S1].
    pose proof (h_run s1) as H2. destruct (read_h s1) as [[x1 s2]|e]; cbn [bind]; [|right; exact H2]. destruct H2 as [p2 S2].
    pose proof (h_run s2) as H3. destruct (read_h s2) as [[y0 s3]|e]; cbn [bind]; [|right; exact H3]. destruct H3 as [p3 S3].
    pose proof (h_run s3) as H4. destruct (read_h s3) as [[y1 s4]|e]; cbn [bind]; [|right; exact H4]. destruct H4 as [p4 S4].
    assert (S : s = (p0 ++ p1 ++ p2 ++ p3 ++ p4) ++ s4) by (rewrite <- !app_assoc; congruence).
    pose proof (vlvs_run (Z.to_nat n) s4 (Forall_suffix _ _ _ _ B S)) as V.
    destruct (read_vlvs (Z.to_nat n) s4) as [[lens r]|e]; cbn [bind]; [|left; exact V]. destruct V as [[p5 S5] [_ F]].
    split; [|exact F]. exists ((p0 ++ p1 ++ p2 ++ p3 ++ p4) ++ p5). rewrite <- app_assoc. congruence.
  Qed.
  Definition index_failure (e : exn) : Prop := e = TypeError \/ e = StructError \/ e = UnicodeError.
  Lemma index_run fuel n : forall s, Forall is_byte s ->
    match read_index (T := T) fuel n s with
    | Some (Ok (l, r)) => (exists p, s = p ++ r) /\ length l = n /\ Forall (fun x => Forall (fun v => 0 <= v) (snd x)) l
    | Some (Err e) => index_failure e
    | None => True
    end.
  Proof.
    induction n as [|n IH]; intros s B; cbn [read_index]; [split; [exists []; reflexivity|auto]|].
    destruct (readascii fuel s) as [[[name s1]|e]|] eqn:E; [|right; right; eapply ascii_fails; exact E|exact I].
    destruct (ascii_rest _ _ _ _ E) as [p [S _]].
    assert (B1 : Forall is_byte s1) by (apply (Forall_suffix _ (p ++ [0]) _ s B); rewrite <- app_assoc; exact S).
    pose proof (entry_run s1 B1) as EN. destruct (read_entry s1) as [[[box lens] s2]|e]; [|destruct EN; [left|right; left]; assumption].
    destruct EN as [[p1 S1] F]. specialize (IH s2 (Forall_suffix _ _ _ _ B1 S1)).
    destruct (read_index fuel n s2) as [[[l r]|e]|]; [|exact IH|exact I]. destruct IH as [[p2 S2] [L FL]].
    split; [exists ((p ++ [0]) ++ p1 ++ p2); rewrite <- !app_assoc; cbn [app]; congruence|]. split; [cbn; lia|constructor; [exact F|exact FL]].
  Qed.
  Lemma index_enough n : forall fuel fuel' s, Forall is_byte s -> (length s < fuel)%nat -> (length s < fuel')%nat ->
    read_index (T := T) fuel n s = read_index fuel' n s.
  Proof.
    induction n as [|n IH]; intros fuel fuel' s B L L'; cbn [read_index]; [reflexivity|].
    rewrite (ascii_enough s fuel fuel' L L'). destruct (readascii fuel' s) as [[[name s1]|e]|] eqn:E; [|reflexivity|reflexivity].
    destruct (ascii_rest _ _ _ _ E) as [p [S _]].
    assert (B1 : Forall is_byte s1) by (apply (Forall_suffix _ (p ++ [0]) _ s B); rewrite <- app_assoc; exact S).
    pose proof (entry_run s1 B1) as EN. destruct (read_entry s1) as [[[box lens] s2]|e]; [|reflexivity]. destruct EN as [[p1 S1] _].
    assert (LS : (length s2 <= length s)%nat) by (rewrite S, S1, !app_length; cbn; rewrite app_length; lia).
    rewrite (IH fuel fuel' s2) by (lia || exact (Forall_suffix _ _ _ _ B1 S1)). reflexivity.
  Qed.
  Lemma index_mono n : forall fuel fuel' s y, read_index (T := T) fuel n s = Some y -> (fuel <= fuel')%nat -> read_index fuel' n s = Some y.
  Proof.
    induction n as [|n IH]; intros fuel fuel' s y E L; cbn [read_index] in *; [exact E|].
    destruct (readascii fuel s) as [x|] eqn:A; [|discriminate E]. rewrite (ascii_fuel_mono _ _ _ _ A L).
    destruct x as [[name s1]|e]; [|exact E]. destruct (read_entry s1) as [[[box lens] s2]|e]; [|exact E].
    destruct (read_index fuel n s2) as [z|] eqn:R; [|discriminate E]. rewrite (IH _ _ _ _ R L). exact E.
  Qed.

  (** ** The header *)
  Lemma head_run file : Forall is_byte file ->
    match read_head file with
    | Ok (size, n, s) => (size = 1 \/ size = 2 \/ size = 4 \/ size = 8) /\ (exists p, file = p ++ s) /\ 0 <= n
    | Err e => e = AssertionError \/ e = TypeError
    end.
  Proof.
    intros B. unfold read_head, VlvModel.f_read, py_assert. destruct (zlist_eqb _ [80; 70]); cbn [bind]; [|left; reflexivity].
    destruct (zlist_eqb _ [0]); cbn [bind]; [|left; reflexivity].
    destruct (skipn 1 (skipn 2 file)) as [|size s] eqn:E; [right; reflexivity|].
    assert (FE : file = (firstn 2 file ++ firstn 1 (skipn 2 file) ++ [size]) ++ s).
    { rewrite <- (firstn_skipn 2 file) at 1. rewrite <- (firstn_skipn 1 (skipn 2 file)) at 1. rewrite E, <- !app_assoc. reflexivity. }
    destruct ((size =? 1) || (size =? 2) || (size =? 4) || (size =? 8)) eqn:C; cbn [bind]; [|left; reflexivity].
    destruct (readvlv s) as [[nr s1]|e] eqn:E1; cbn [bind]; [|right; eapply vlv_fails; exact E1].
    pose proof (Forall_suffix _ _ _ _ B FE) as Bs. destruct (vlv_rest s nr s1 Bs E1) as [p1 [S1 [_ _]]].
    destruct (readvlv s1) as [[ne s2]|e] eqn:E2; cbn [bind]; [|right; eapply vlv_fails; exact E2].
    destruct (vlv_rest s1 ne s2 (Forall_suffix _ _ _ _ Bs S1) E2) as [p2 [S2 [N _]]].
    split; [rewrite !orb_true_iff, !Z.eqb_eq in C; tauto|]. split; [|exact N].
    eexists. rewrite FE at 1. rewrite S1, S2. rewrite !app_assoc. reflexivity.
  Qed.
  Lemma getfmt_run size : size = 1 \/ size = 2 \/ size = 4 \/ size = 8 -> exists umax, getfmt size = Ok (Z.to_nat size, umax).
  Proof. intros [->|[->|[->| ->]]]; eexists; reflexivity. Qed.

  Definition opened (file : list Z) (rd : preader T) : Prop :=
    r_file rd = file /\ (r_size rd = 1 \/ r_size rd = 2 \/ r_size rd = 4 \/ r_size rd = 8) /\ r_n rd = Z.to_nat (r_size rd) /\
    0 <= r_datapos rd <= Z.of_nat (length file) /\
    length (r_bboxes rd) = length (r_partlens rd) /\ length (r_names rd) = length (r_partlens rd) /\
    Forall (Forall (fun v => 0 <= v)) (r_partlens rd).
  Lemma open_run fuel file : Forall is_byte file ->
    match pf_open (T := T) fuel file with
    | Some (Ok rd) => opened file rd
    | Some (Err e) => e = AssertionError \/ e = TypeError \/ e = StructError \/ e = UnicodeError
    | None => True
    end.
  Proof.
    intros B. unfold pf_open. pose proof (head_run file B) as HD. destruct (read_head file) as [[[size n] s]|e]; [|destruct HD; auto].
    destruct HD as [SZ [[p FE] N]]. pose proof (index_run fuel (Z.to_nat n) s (Forall_suffix _ _ _ _ B FE)) as IX.
    destruct (read_index fuel (Z.to_nat n) s) as [[[l r]|e]|]; [|destruct IX as [->|[->| ->]]; auto|exact I].
    destruct IX as [[q SE] [L F]]. destruct (getfmt_run size SZ) as [umax ->]. cbn [bind].
    split; [reflexivity|]. split; [exact SZ|]. split; [reflexivity|]. cbn [r_datapos r_bboxes r_partlens r_names]. rewrite !map_length.
    split; [rewrite FE, SE, !app_length; lia|]. split; [reflexivity|]. split; [reflexivity|].
    apply Forall_map. exact F.
  Qed.
  Lemma open_enough file fuel fuel' : Forall is_byte file -> (length file < fuel)%nat -> (length file < fuel')%nat ->
    pf_open (T := T) fuel file = pf_open fuel' file.
  Proof.
    intros B L L'. unfold pf_open. pose proof (head_run file B) as HD. destruct (read_head file) as [[[size n] s]|e]; [|reflexivity].
    destruct HD as [_ [[p FE] _]]. assert (LS : (length s <= length file)%nat) by (rewrite FE, app_length; lia).
    rewrite (index_enough (Z.to_nat n) fuel fuel' s) by (lia || exact (Forall_suffix _ _ _ _ B FE)). reflexivity.
  Qed.
  Lemma open_mono file fuel fuel' y : pf_open (T := T) fuel file = Some y -> (fuel <= fuel')%nat -> pf_open fuel' file = Some y.
  Proof.
    unfold pf_open. intros E L. destruct (read_head file) as [[[size n] s]|e]; [|exact E].
    destruct (read_index fuel (Z.to_nat n) s) as [z|] eqn:R; [|discriminate E]. rewrite (index_mono _ _ _ _ _ R L). exact E.
  Qed.
  Lemma open_stuck file size n s : read_head file = Ok (size, n, s) -> 0 < n -> ~ In 0 s -> forall fuel, pf_open (T := T) fuel file = None.
  Proof.
    intros E N Z fuel. unfold pf_open. rewrite E. replace (Z.to_nat n) with (S (Z.to_nat (n - 1))) by lia. cbn [read_index].
    rewrite readascii_nonterm by exact Z. reflexivity.
  Qed.

  (** ** Reading an entity *)
  Lemma points_run rd box : r_n rd = Z.to_nat (r_size rd) -> 0 < r_size rd -> forall n s,
    match read_points rd box n s with
    | Ok (ps, r) => length ps = n /\ r = skipn (n * (2 * Z.to_nat (r_size rd))) s /\ (n * (2 * Z.to_nat (r_size rd)) <= length s)%nat
    | Err e => e = StructError /\ (length s < n * (2 * Z.to_nat (r_size rd)))%nat
    end.
  Proof.
    intros RN SZ. induction n as [|n IH]; intros s; cbn [read_points]; [cbn; auto with arith|].
    unfold VlvModel.f_read, unpack2. rewrite RN. set (k := Z.to_nat (r_size rd)) in *.
    replace (Z.to_nat (r_size rd * 2)) with (2 * k)%nat by (unfold k; lia).
    rewrite firstn_length. destruct (Nat.lt_ge_cases (length s) (2 * k)) as [C|C].
    - rewrite Nat.min_r by lia. replace (_ =? _) with false by (symmetry; apply Z.eqb_neq; lia). cbn [bind]. split; [reflexivity|]. lia.
    - rewrite Nat.min_l by lia. replace (_ =? _) with true by (symmetry; apply Z.eqb_eq; lia). cbn [bind].
      specialize (IH (skipn (2 * k) s)). destruct (read_points rd box n (skipn (2 * k) s)) as [[ps r]|e]; cbn [bind].
      + rewrite skipn_length in IH. destruct IH as [I1 [I2 I3]]. split; [cbn; lia|]. split; [|lia].
        rewrite I2. rewrite PfHist.skipn_skipn. reflexivity.
      + rewrite skipn_length in IH. destruct IH as [-> I]. split; [reflexivity|]. lia.
  Qed.
  Lemma parts_run rd box : r_n rd = Z.to_nat (r_size rd) -> 0 < r_size rd -> forall lens s, Forall (fun v => 0 <= v) lens ->
    match read_parts rd box lens s with
    | Ok pss => map (fun p => Z.of_nat (length p)) pss = lens /\ zsum lens * (2 * r_size rd) <= Z.of_nat (length s)
    | Err e => e = StructError /\ Z.of_nat (length s) < zsum lens * (2 * r_size rd)
    end.
  Proof.
    intros RN SZ. induction lens as [|n lens IH]; intros s F; cbn [read_parts]; [cbn; split; [reflexivity|lia]|].
    inversion F as [|? ? N F']; subst. pose proof (points_run rd box RN SZ (Z.to_nat n) s) as P.
    assert (ZS : 0 <= zsum lens) by (clear - F'; induction F' as [|x l X _ IH]; [cbn; lia|rewrite zsum_cons; lia]).
    destruct (read_points rd box (Z.to_nat n) s) as [[ps r]|e]; cbn [bind]; rewrite zsum_cons.
    - destruct P as [P1 [P2 P3]]. specialize (IH r F').
      assert (LR : length r = (length s - Z.to_nat n * (2 * Z.to_nat (r_size rd)))%nat) by (rewrite P2, skipn_length; reflexivity).
      destruct (read_parts rd box lens r) as [pss|e]; cbn [bind].
      + destruct IH as [I1 I2]. split; [cbn [map]; f_equal; [lia|exact I1]|]. nia.
      + destruct IH as [-> I]. split; [reflexivity|]. nia.
    - destruct P as [-> P]. split; [reflexivity|]. nia.
  Qed.
  Lemma skip_length {A} n (l : list A) : 0 <= n -> Z.of_nat (length (skipn (Z.to_nat n) l)) = Z.max 0 (Z.of_nat (length l) - n).
  Proof. intros N. rewrite skipn_length. lia. Qed.
  Lemma zsum_scale k (l : list (list Z)) : zsum (map (fun x => zsum x * k * 2) l) = 2 * k * zsum (map zsum l).
  Proof. induction l as [|x l IH]; [cbn; lia|]. cbn [map]. rewrite !zsum_cons, IH. ring. Qed.
  Lemma slice_prefix {A} (l : list A) idx : - Z.of_nat (length l) <= idx < Z.of_nat (length l) ->
    py_slice l 0 idx = firstn (Z.to_nat (if idx <? 0 then Z.of_nat (length l) + idx else idx)) l.
  Proof.
    intros R. unfold py_slice, slice_clamp. change (0 <? 0) with false. cbv iota zeta.
    replace (Z.min 0 (Z.of_nat (length l))) with 0 by lia. rewrite !Z.sub_0_r. cbn [skipn].
    set (j := if idx <? 0 then Z.max _ _ else Z.min _ _). set (k := if idx <? 0 then _ else idx).
    assert (E : j = k) by (unfold j, k; destruct (idx <? 0) eqn:C; [apply Z.ltb_lt in C|apply Z.ltb_ge in C]; lia). rewrite E.
    assert (K : 0 <= k) by (unfold k; destruct (idx <? 0) eqn:C; [apply Z.ltb_lt in C|apply Z.ltb_ge in C]; lia).
    destruct (Z.ltb_spec 0 k); [reflexivity|]. replace k with 0 by lia. reflexivity.
  Qed.
  Lemma firstn_in {A} n (l : list A) x : In x (firstn n l) -> In x l.
  Proof. intros I. rewrite <- (firstn_skipn n l). apply in_or_app. left. exact I. Qed.
  Lemma read_run file rd idx : opened file rd ->
    match pf_read rd idx with
    | Ok parts => exists lens, py_get (r_partlens rd) idx = Ok lens /\ map (fun p => Z.of_nat (length p)) parts = lens /\
        (zsum lens = 0 \/ start_of rd idx + 2 * r_size rd * zsum lens <= Z.of_nat (length file))
    | Err e => (e = IndexError /\ ~ - pf_len rd <= idx < pf_len rd) \/
        (e = StructError /\ - pf_len rd <= idx < pf_len rd /\ exists lens, py_get (r_partlens rd) idx = Ok lens /\
           Z.of_nat (length file) < start_of rd idx + 2 * r_size rd * zsum lens)
    end.
  Proof.
    intros [RF [SZ [RN [DP [LB [LN FP]]]]]]. unfold pf_read, pf_len. rewrite LN.
    destruct (Z.le_gt_cases (- Z.of_nat (length (r_partlens rd))) idx) as [C1|C1].
    2:{ rewrite PfFinal.py_get_range by (rewrite LB; lia). cbn [bind]. left. split; [reflexivity|lia]. }
    destruct (Z.lt_ge_cases idx (Z.of_nat (length (r_partlens rd)))) as [C2|C2].
    2:{ rewrite PfFinal.py_get_range by (rewrite LB; lia). cbn [bind]. left. split; [reflexivity|lia]. }
    destruct (ShpEditOpen.py_get_within (r_bboxes rd) idx ltac:(rewrite LB; lia)) as [box ->].
    destruct (ShpEditOpen.py_get_within (r_partlens rd) idx ltac:(lia)) as [lens EL]. rewrite EL. cbn [bind].
    rewrite zsum_scale, slice_prefix by lia. fold (start_of rd idx). rewrite RF.
    assert (F : Forall (fun v => 0 <= v) lens) by (rewrite Forall_forall in FP; apply FP; eapply ShpEditor.py_get_In; exact EL).
    assert (ST : 0 <= start_of rd idx).
    { unfold start_of. assert (K : forall l, Forall (Forall (fun v => 0 <= v)) l -> 0 <= zsum (map zsum l)).
      { intros l FL. induction FL as [|x l X FL IH]; [cbn; lia|]. cbn [map]. rewrite zsum_cons. assert (0 <= zsum x) by (clear - X; induction X; [cbn; lia|rewrite zsum_cons; lia]). lia. }
      assert (K' := K (firstn (Z.to_nat (if idx <? 0 then Z.of_nat (length (r_partlens rd)) + idx else idx)) (r_partlens rd))).
      specialize (K' ltac:(apply Forall_forall; intros x I; rewrite Forall_forall in FP; apply FP; eapply firstn_in; exact I)).
      assert (0 < r_size rd) by lia. nia. }
    pose proof (parts_run rd box RN ltac:(lia) lens (skipn (Z.to_nat (start_of rd idx)) file) F) as P.
    rewrite skip_length in P by exact ST.
    assert (ZS : 0 <= zsum lens) by (clear - F; induction F; [cbn; lia|rewrite zsum_cons; lia]).
    destruct (read_parts rd box lens (skipn (Z.to_nat (start_of rd idx)) file)) as [pss|e].
    - destruct P as [P1 P2]. exists lens. split; [reflexivity|]. split; [exact P1|]. destruct (Z.eq_dec (zsum lens) 0) as [E|E]; [left; exact E|right].
      assert (0 < zsum lens * (2 * r_size rd)) by (apply Z.mul_pos_pos; lia). lia.
    - destruct P as [-> P]. right. split; [reflexivity|]. split; [lia|]. exists lens. split; [reflexivity|]. lia.
  Qed.
End Pf.
