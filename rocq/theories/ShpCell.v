(** What the bytes of any attribute table say: proofs. *)
From Verif Require Import Py Text StrModel StrProofs Utf8Model Utf8Proofs VlvModel VlvProofs ShpFile ShpWriterModel ShpReaderModel ShpSpec ShpTableSpec ShpHostileSpec ShpHostile ShpDbfRead ShpFloatText ShpHostileDbf ShpCellSpec.
Open Scope Z_scope.
Open Scope m_scope.

(** ** One cell *)
Lemma is_space_iff c : is_space c = true <-> unicode_blank c.
Proof. unfold is_space, unicode_blank. rewrite !orb_true_iff, !andb_true_iff, !Z.leb_le, !Z.eqb_eq. cbn [In]. intuition (subst; auto 20; lia). Qed.
Lemma trim_run (p : Z -> bool) (P : Z -> Prop) s : (forall c, p c = true <-> P c) -> trimmed P s (rstrip_by p (lstrip_by p s)).
Proof.
  intros H. destruct (both_strip p s) as [a [b [E [A [B [H1 H2]]]]]]. exists a, b. split; [exact E|].
  split; [eapply Forall_impl; [|exact A]; intros c; apply H|]. split; [eapply Forall_impl; [|exact B]; intros c; apply H|].
  split; intros c r X Y; apply H in Y; [rewrite (H1 c r X) in Y|rewrite (H2 c r X) in Y]; discriminate.
Qed.
Lemma digits_step : forall s, digits s -> forall acc, int_digits true acc s = Some (fold_left (fun acc c => if c =? 95 then acc else 10 * acc + (c - 48)) s acc) /\
  int_digits false acc s = Some (fold_left (fun acc c => if c =? 95 then acc else 10 * acc + (c - 48)) s acc).
Proof.
  induction 1 as [d D|d s D S IH|d s D S IH]; intros acc; cbn [int_digits fold_left]; rewrite (proj2 (is_digit_iff d) D);
    replace (d =? 95) with false by (symmetry; apply Z.eqb_neq; unfold digit in D; lia).
  - split; do 2 f_equal; ring.
  - rewrite !(proj1 (IH _)). split; do 2 f_equal; ring.
  - change (is_digit 95) with false. change (95 =? 95) with true. cbv iota. cbn [andb]. rewrite !(proj2 (IH _)). split; do 2 f_equal; ring.
Qed.
Lemma int_bytes_value t : (forall c r, t = c :: r -> ~ blank_byte c) -> (forall c r, t = r ++ [c] -> ~ blank_byte c) ->
  match int_bytes t with Ok z => int_value t z | Err e => e = ValueError /\ ~ int_text t end /\ forall z, int_value t z -> int_bytes t = Ok z.
Proof.
  intros H1 H2.
  assert (ST : bstrip t = t).
  { unfold bstrip. assert (L : lstrip_by byte_space t = t).
    { destruct t as [|c r]; [reflexivity|]. cbn. destruct (byte_space c) eqn:E; [|reflexivity]. apply byte_space_spec in E. exfalso. exact (H1 c r eq_refl E). }
    rewrite L. destruct (rstrip_spec byte_space t) as [b [E [B _]]].
    destruct b as [|b0 b1]; [rewrite app_nil_r in E; congruence|].
    destruct (@exists_last _ (b0 :: b1) ltac:(discriminate)) as [b' [c Eb]]. rewrite Eb in *. clear Eb.
    exfalso. apply Forall_app in B. destruct B as [_ B]. inversion B as [|? ? B1 _]; subst. apply byte_space_spec in B1.
    apply (H2 c (rstrip_by byte_space t ++ b')); [rewrite <- app_assoc; exact E|exact B1]. }
  assert (V : forall z, int_value t z -> int_bytes t = Ok z).
  { intros z [g [d [E [D G]]]]. destruct (digits_nonempty d D) as [x [r [Ex Dx]]]. pose proof (proj2 (digits_step d D 0)) as V.
    unfold int_bytes. cbv zeta. rewrite ST.
    change ((g = [45] /\ z = - digits_value d) \/ ((g = [] \/ g = [43]) /\ z = digits_value d)) in G.
    destruct G as [[-> ->]|[[->| ->] ->]]; cbn [app] in E; subst t.
    + rewrite V. reflexivity.
    + match goal with |- match ?M with Some _ => _ | None => _ end = _ => assert (EM : M = int_digits false 0 d) end.
      { rewrite Ex. unfold digit in Dx. destruct x as [|x|x]; try reflexivity. repeat (destruct x as [x|x|]; try reflexivity; try lia). }
      rewrite EM, V. reflexivity.
    + rewrite V. reflexivity. }
  split; [|exact V].
  assert (V' : int_text t -> exists z, int_value t z).
  { intros [g [d [E [G D]]]]. change (g = [] \/ g = [43] \/ g = [45]) in G. destruct G as [->|[->| ->]];
      [exists (digits_value d)|exists (digits_value d)|exists (- digits_value d)]; eexists _, d; (split; [exact E|]); auto 10. }
  destruct (int_bytes t) as [z|e] eqn:E.
  - destruct V' as [z' V']; [rewrite <- ST; apply int_bytes_ok; eauto|]. pose proof (V z' V') as E2. injection E2 as ->. exact V'.
  - split.
    + unfold int_bytes in E. cbv zeta in E. destruct (match bstrip t with [] => _ | _ => _ end); congruence.
    + intros K. destruct (V' K) as [z X]. discriminate (V z X).
Qed.
Lemma cell_run f bs : Forall is_byte bs -> cell_is f bs (read_cell f bs).
Proof.
  intros B. unfold read_cell. destruct (bstrip bs) as [|c0 l0] eqn:E0.
  { left. split; [apply bstrip_nil; exact E0|reflexivity]. }
  assert (NB : ~ blank bs) by (intros X; apply bstrip_nil in X; congruence).
  destruct (zlist_eqb (fd_type f) [78]) eqn:Ty.
  - apply zlist_eqb_eq in Ty. right. left. split; [exact NB|]. split; [exact Ty|]. cbv zeta.
    set (w := filter _ bs). set (t := bstrip w). pose proof (trim_run byte_space blank_byte w byte_space_spec) as TR. fold (bstrip w) in TR. fold t in TR.
    exists t. split; [exact TR|]. destruct TR as [_ [_ [_ [_ [_ [H1 H2]]]]]]. clearbody t. destruct t as [|c t]; [left; auto|]. right.
    destruct (Z.eqb_spec (fd_dec f) 0) as [D|D].
    + pose proof (proj1 (int_bytes_value (c :: t) H1 H2)) as V. destruct (int_bytes (c :: t)) as [z|e]; cbn [bind].
      * left. split; [discriminate|]. split; [exact D|]. exists z. auto.
      * right. left. destruct V as [-> V]. split; [discriminate|]. auto.
    + right. right. destruct (float_ok (c :: t)) eqn:EF.
      * left. split; [exact D|]. split; [apply float_ok_iff; exact EF|reflexivity].
      * right. split; [discriminate|]. split; [exact D|]. split; [|reflexivity]. intros K. apply float_ok_iff in K. congruence.
  - right. right. split; [exact NB|]. split; [intros X; rewrite X in Ty; discriminate|].
    destruct (utf8_decode bs) as [u|e] eqn:U; cbn [bind].
    + left. exists u, (strip u). split; [apply decode_inv; assumption|]. split; [apply (trim_run is_space unicode_blank u is_space_iff)|reflexivity].
    + right. rewrite (utf8_err bs e U). split; [|reflexivity]. intros u K. destruct (utf8_encode_inv u bs K) as [K2 K1].
      rewrite K2, (decode_encode u K1) in U. discriminate.
Qed.

Lemma front_fun (P : Z -> Prop) a : forall a' x x', a ++ x = a' ++ x' -> Forall P a -> Forall P a' ->
  (forall c r, x = c :: r -> ~ P c) -> (forall c r, x' = c :: r -> ~ P c) -> x = x'.
Proof.
  induction a as [|c a IH]; intros [|c' a'] x x' E A A' X X'; cbn in E.
  - exact E.
  - inversion A'; subst. exfalso. exact (X c' (a' ++ x') eq_refl ltac:(assumption)).
  - inversion A; subst. exfalso. exact (X' c (a ++ x) eq_refl ltac:(assumption)).
  - injection E as _ E. inversion A; inversion A'; subst. eapply IH; eassumption.
Qed.
Lemma trimmed_fun P s t t' : trimmed P s t -> trimmed P s t' -> t = t'.
Proof.
  intros [a [b [E [A [B [X Y]]]]]] [a' [b' [E' [A' [B' [X' Y']]]]]].
  assert (NIL : forall a b a' t' b', s = a ++ [] ++ b -> Forall P a -> Forall P b -> s = a' ++ t' ++ b' -> (forall c r, t' = c :: r -> ~ P c) -> t' = []).
  { clear. intros a b a' [|c r] b' -> A B E X; [reflexivity|]. exfalso. apply (X c r eq_refl).
    assert (W : Forall P (a ++ [] ++ b)) by (apply Forall_app; split; assumption). rewrite E in W.
    apply Forall_app in W. destruct W as [_ W]. inversion W; assumption. }
  destruct t as [|c r]; [symmetry; exact (NIL a b a' t' b' E A B E' X')|].
  destruct t' as [|c' r']; [discriminate (NIL a' b' a (c :: r) b E' A' B' E X)|].
  assert (F : (c :: r) ++ b = (c' :: r') ++ b').
  { apply (front_fun P a a'); [congruence|exact A|exact A'| |]; intros x y Q; injection Q as <- _; eauto. }
  assert (R : rev (c :: r) = rev (c' :: r')).
  { apply (front_fun P (rev b) (rev b')); [rewrite <- !rev_app_distr; congruence|apply Forall_rev, B|apply Forall_rev, B'| |];
      intros x y Q; apply (f_equal (@rev _)) in Q; rewrite rev_involutive in Q; cbn [rev] in Q; eauto. }
  apply (f_equal (@rev _)) in R. rewrite !rev_involutive in R. exact R.
Qed.
Lemma int_value_text t z : int_value t z -> int_text t.
Proof. intros [g [d [E [D G]]]]. exists g, d. split; [exact E|]. split; [|exact D]. destruct G as [[-> _]|[[->| ->] _]]; [right; right|left|right; left]; reflexivity. Qed.
Lemma cell_fun f bs x y : cell_is f bs x -> cell_is f bs y -> x = y.
Proof.
  intros [[B1 ->]|[[B1 [T1 H1]]|[B1 [T1 H1]]]] [[B2 ->]|[[B2 [T2 H2]]|[B2 [T2 H2]]]]; try contradiction; try reflexivity.
  - destruct H1 as [t [W1 H1]], H2 as [t' [W2 H2]]. pose proof (trimmed_fun _ _ _ _ W1 W2). subst t'. clear W2.
    assert (FN : ~ float_text []) by (intros X; apply float_ok_iff in X; discriminate).
    destruct W1 as [_ [_ [_ [_ [_ [C1 C2]]]]]]. pose proof (proj2 (int_bytes_value t C1 C2)) as V.
    destruct H1 as [[E1 ->]|[[N1 [D1 [z1 [V1 ->]]]]|[[N1 [D1 [V1 ->]]]|[[D1 [V1 ->]]|[N1 [D1 [V1 ->]]]]]]],
             H2 as [[E2 ->]|[[N2 [D2 [z2 [V2 ->]]]]|[[N2 [D2 [V2 ->]]]|[[D2 [V2 ->]]|[N2 [D2 [V2 ->]]]]]]];
      try contradiction; try reflexivity; subst; try contradiction.
    + apply V in V1. apply V in V2. congruence.
    + apply int_value_text in V1. contradiction.
    + apply int_value_text in V2. contradiction.
  - assert (INJ : forall u u', utf8_encode u = Ok bs -> utf8_encode u' = Ok bs -> u = u').
    { intros u u' K K'. destruct (utf8_encode_inv u bs K) as [K1 K2]. destruct (utf8_encode_inv u' bs K') as [K1' K2'].
      pose proof (decode_encode u K2) as D. pose proof (decode_encode u' K2') as D'. congruence. }
    destruct H1 as [[u [t [U1 [W1 ->]]]]|[U1 ->]], H2 as [[u' [t' [U2 [W2 ->]]]]|[U2 ->]]; try reflexivity; [|destruct (U2 u U1)|destruct (U1 u' U2)].
    pose proof (INJ _ _ U1 U2). subst u'. rewrite (trimmed_fun _ _ _ _ W1 W2). reflexivity.
Qed.

(** ** One row *)
Lemma skipn_add {A} (l : list A) : forall n m, skipn n (skipn m l) = skipn (m + n) l.
Proof. intros n m. revert l. induction m as [|m IH]; intros [|x l]; cbn; [reflexivity|reflexivity|apply skipn_nil|apply IH]. Qed.
Lemma firstn_Forall_zsum l : forall j, Forall (fun w => 0 <= w) l -> 0 <= zsum (firstn j l).
Proof.
  induction l as [|w l IH]; intros [|j] F; cbn [firstn]; try (cbn; lia).
  inversion F as [|? ? F1 F2]; subst. rewrite zsum_cons. specialize (IH j F2). lia.
Qed.
Lemma first_at (l : list Z) : forall k, (k < length l)%nat -> firstn 1 (skipn k l) = [nth k l 0].
Proof. induction l as [|x l IH]; intros [|k] K; cbn in K; try lia; [reflexivity|]. cbn [skipn nth]. apply IH. lia. Qed.
Lemma combine_at {A B} (l : list A) : forall (m : list B) j a b, nth_error l j = Some a -> nth_error m j = Some b -> nth_error (combine l m) j = Some (a, b).
Proof. induction l as [|x l IH]; intros [|y m] [|j] a b HA HB; try discriminate; cbn in *; [congruence|apply IH; assumption]. Qed.
Lemma pieces_nth ws : forall bs j, Forall (fun w => 0 <= w) ws -> nth_error (pieces ws bs) j =
  option_map (fun w => firstn (Z.to_nat w) (skipn (Z.to_nat (zsum (firstn j ws))) bs)) (nth_error ws j).
Proof.
  induction ws as [|w ws IH]; intros bs [|j] F; cbn [pieces nth_error firstn option_map]; try reflexivity.
  inversion F as [|? ? F1 F2]; subst. rewrite IH by exact F2. destruct (nth_error ws j); [|reflexivity]. cbn [option_map]. do 2 f_equal.
  rewrite skipn_add, zsum_cons. f_equal.
  assert (0 <= zsum (firstn j ws)) by (apply (firstn_Forall_zsum ws j F2)). lia.
Qed.
Lemma cells_first fs : forall vs, length vs = length fs -> Forall (fun f => fd_name f <> flag_name) fs ->
  first_failing (map (fun p => read_cell (fst p) (snd p)) (combine fs vs)) (read_cells fs vs).
Proof.
  induction fs as [|f fs IH]; intros [|v vs] L N; try discriminate; [left; exists []; auto|]. cbn [combine map fst snd read_cells].
  inversion N as [|? ? N1 N2]; subst. specialize (IH vs ltac:(cbn in L; lia) N2).
  destruct (zlist_eqb (fd_name f) flag_name) eqn:E; [apply zlist_eqb_eq in E; contradiction|].
  destruct (read_cell f v) as [c|e]; cbn [bind].
  - destruct IH as [[l [H1 H2]]|[l [e [rest [H1 H2]]]]]; rewrite H1, H2; cbn [bind].
    + left. exists (c :: l). auto.
    + right. exists (c :: l), e, rest. auto.
  - right. exists [], e, (map (fun p => read_cell (fst p) (snd p)) (combine fs vs)). auto.
Qed.
(** What read_record makes of the bytes of a row. *)
Definition row_out (fs : list field) (b : list Z) : res (option (list cell)) :=
  if Z.of_nat (length b) =? zsum (map rsize fs) then
    if zlist_eqb (firstn (Z.to_nat (rsize (hd flag_field fs))) b) [32]
    then match read_cells fs (pieces (map rsize fs) b) with Ok l => Ok (Some l) | Err e => Err e end
    else Ok None
  else Err StructError.
Lemma read_record_out r f : r_dbf r = Some f -> truthy (r_numRecords r) = true -> r_fields r <> [] -> 0 <= row_size r ->
  let b := firstn (Z.to_nat (row_size r)) (skipn (fpos f) (fdata f)) in
  read_record r = (r_set_dbf (Some (mkFile (fdata f) (fpos f + length b))) r, row_out (r_fields r) b).
Proof.
  intros H T F S. destruct r as [a b c d e g h i j k l m]. cbn in H. subst c. unfold row_size in *. cbn [r_fields r_numRecords] in *.
  set (r := mkReader _ _ _ _ _ _ _ _ _ _ _ _).
  assert (E0 : in_dbf (ret tt) r = (r, Ok tt)) by reflexivity.
  unfold read_record. unfold mbind at 1. rewrite E0. unfold mbind at 1. rewrite (record_fmt_run r T). cbn [r_fields r].
  unfold mbind at 1, in_dbf, with_file, f_read. cbn [r_dbf r].
  replace (zsum (map rsize h) <? 0) with false by (symmetry; apply Z.ltb_ge; exact S).
  set (bs := firstn _ _). unfold row_out.
  destruct (Z.of_nat (length bs) =? zsum (map rsize h)); [|reflexivity]. cbv zeta. unfold mbind at 1, lift at 1.
  destruct h as [|fd h]; [contradiction|]. cbn [map pieces]. change (py_get (?x :: ?y) 0) with (Ok x). cbn [hd].
  destruct (zlist_eqb (firstn (Z.to_nat (rsize fd)) bs) [32]); [|reflexivity].
  unfold mbind at 1, get. unfold mbind, lift. cbn [r_fields].
  destruct (read_cells _ _) as [cs|x]; reflexivity.
Qed.

(** ** Column descriptors *)
Lemma find_nul_spec s : match find_nul s with
  | Some i => exists r, s = firstn i s ++ 0 :: r /\ ~ In 0 (firstn i s)
  | None => ~ In 0 s
  end.
Proof.
  induction s as [|c s IH]; cbn [find_nul]; [intros []|]. destruct (Z.eqb_spec c 0) as [->|N].
  - exists s. cbn. auto.
  - destruct (find_nul s) as [i|]; cbn [option_map].
    + destruct IH as [r [E I]]. exists r. cbn [firstn app]. split; [congruence|]. intros [X|X]; [congruence|exact (I X)].
    + intros [X|X]; [congruence|exact (IH X)].
Qed.
Lemma decode_one c u : 0 <= c -> utf8_decode [c] = Ok u -> u = [c] /\ c < 128.
Proof.
  intros C. unfold utf8_decode. cbn [length utf8_decode_fuel]. destruct (Z.ltb_spec c 128); [cbn; intros X; injection X as <-; auto|].
  repeat match goal with |- context [if ?b then _ else _] => destruct b; try discriminate end.
Qed.
Lemma flat_length_ge (s : list Z) : (length s <= length (flat_map utf8_char s))%nat.
Proof. apply encode_length_ge. Qed.
Lemma slice_bytes n m bs : Forall is_byte bs -> Forall is_byte (firstn n (skipn m bs)).
Proof.
  rewrite !Forall_forall. intros B x X. apply B. rewrite <- (firstn_skipn m bs), in_app_iff. right.
  rewrite <- (firstn_skipn n (skipn m bs)), in_app_iff. left. exact X.
Qed.
Lemma column_run bs i f : Forall is_byte bs ->
  fd_size f = FInt (declared_width bs i) -> fd_dec f = declared_decimals bs i -> unpack_field (descriptor bs i) = Ok f ->
  column_is bs i f /\ fd_name f <> flag_name.
Proof.
  intros B S D U. unfold column_is. set (d := descriptor bs i) in *.
  assert (BD : Forall is_byte d).
  { apply slice_bytes. exact B. }
  unfold unpack_field in U. destruct (Z.eqb_spec (Z.of_nat (length d)) 32) as [L|L]; [|discriminate]. cbv zeta in U.
  rewrite (slice_from d 0 11 : py_slice d 0 11 = _), (slice_from d 11 1 : py_slice d 11 12 = _) in U. change (skipn 0 d) with d in U.
  pose proof (find_nul_spec (firstn 11 d)) as FN.
  set (nm := match find_nul (firstn 11 d) with Some _ => _ | None => _ end) in U.
  assert (NM : name_bytes bs i nm).
  { unfold name_bytes. fold d. subst nm. destruct (find_nul (firstn 11 d)) as [k|]; [left; exact FN|]. right. split; [exact FN|].
    clear - L. do 11 (destruct d as [|? d]; [cbn in L; lia|]). reflexivity. }
  assert (LN : (length nm <= 11)%nat).
  { destruct NM as [[r [E _]]|[_ ->]]; [|rewrite firstn_length; lia]. apply (f_equal (@length Z)) in E. rewrite firstn_length, app_length in E. lia. }
  assert (BN : Forall is_byte nm).
  { rewrite Forall_forall in *. intros x X. apply BD. rewrite <- (firstn_skipn 11 d), in_app_iff. destruct NM as [[r [E _]]|[_ E]].
    - left. fold d in E. rewrite E, in_app_iff. left. exact X.
    - fold d in E. rewrite E in X. left. rewrite <- (firstn_skipn 10 (firstn 11 d)), in_app_iff. left. rewrite firstn_firstn. exact X. }
  clearbody nm. destruct (utf8_decode nm) as [u|e] eqn:EU; [|discriminate]. cbn [bind] in U.
  assert (E11 : firstn 1 (skipn 11 d) = [nth 11 d 0]).
  { clear - L. do 12 (destruct d as [|? d]; [cbn in L; lia|]). reflexivity. }
  rewrite E11 in U. destruct (utf8_decode [nth 11 d 0]) as [ty|e] eqn:ET; [|discriminate]. cbn [bind] in U.
  destruct (decode_one _ _ (byte_nonneg d 11 BD) ET) as [-> T128].
  destruct (unpack_le 1 (py_slice d 16 17)) as [w1|]; [|discriminate]. destruct (unpack_le 1 (py_slice d 17 18)) as [w2|]; [|discriminate].
  cbn [bind] in U. injection U as <-. cbn [fd_size fd_dec fd_type fd_name] in *.
  pose proof (decode_inv nm u EU BN) as EN. destruct (utf8_encode_inv u nm EN) as [EN2 _].
  assert (LU : (length u <= 11)%nat) by (pose proof (flat_length_ge u); rewrite EN2 in LN; lia).
  destruct (lstrip_spec is_space u) as [a [EA [FA HA]]]. split.
  - split; [exact S|]. split; [exact D|]. split; [reflexivity|]. split; [exact T128|]. exists nm, u, a. split; [exact NM|]. split; [exact EN|].
    split; [exact EA|]. split; [eapply Forall_impl; [|exact FA]; intros c; apply is_space_iff|]. intros c r X Y. apply is_space_iff in Y. rewrite (HA c r X) in Y. discriminate.
  - intros X. apply (f_equal (@length Z)) in EA. rewrite app_length, X in EA. change (length flag_name) with 12%nat in EA. lia.
Qed.

(** ** Tables that open *)
Definition table_of (bs : list Z) (r : reader) (new : list field) : Prop :=
  r_dbf r <> None /\ option_map fdata (r_dbf r) = Some bs /\ r_numRecords r = Some (declared_rows bs) /\ r_hdr r = declared_header bs /\
  r_fields r = flag_field :: new /\ map rsize new = map (declared_width bs) (seq 0 (declared_columns bs)) /\
  Forall (fun f => fd_name f <> flag_name) new.
Lemma opened_of bs r : Forall is_byte bs -> opened_table bs r -> exists new, table_of bs r new /\ r_fields r = flag_field :: new /\
  length new = declared_columns bs /\ forall i f, nth_error new i = Some f -> column_is bs i f.
Proof.
  intros B [D [L [N [H [new [F [LN [_ FN]]]]]]]]. exists new.
  assert (C : forall i f, nth_error new i = Some f -> column_is bs i f /\ fd_name f <> flag_name).
  { intros i f X. destruct (FN i f X) as [F1 [F2 F3]]. apply column_run; assumption. }
  split; [|split; [exact F|split; [exact LN|intros i f X; apply (C i f X)]]].
  split; [rewrite D; discriminate|]. split; [rewrite D; reflexivity|]. split; [exact N|]. split; [exact H|]. split; [exact F|].
  split; [apply widths; assumption|]. rewrite Forall_forall. intros f X. apply In_nth_error in X as [i X]. apply (C i f X).
Qed.
Section Table.
Variables (bs : list Z) (new : list field).
Hypothesis Bytes : Forall is_byte bs.
Lemma rows_nonneg : 0 <= declared_rows bs.
Proof using Bytes. unfold declared_rows, byte_of; pose proof (byte_nonneg bs 4 Bytes); pose proof (byte_nonneg bs 5 Bytes); pose proof (byte_nonneg bs 6 Bytes); pose proof (byte_nonneg bs 7 Bytes); lia. Qed.
Lemma header_nonneg : 0 <= declared_header bs.
Proof using Bytes. unfold declared_header, byte_of; pose proof (byte_nonneg bs 8 Bytes); pose proof (byte_nonneg bs 9 Bytes); lia. Qed.
Lemma row_bytes_pos : 0 < row_bytes bs.
Proof using Bytes. unfold row_bytes. pose proof (zsum_widths bs (seq 0 (declared_columns bs)) Bytes). lia. Qed.
Lemma firstn_seq n : forall k s, firstn k (seq s n) = seq s (min k n).
Proof. induction n as [|n IH]; intros [|k] s; cbn; try reflexivity. rewrite IH. reflexivity. Qed.
Lemma row_start_S i : row_start bs (S i) = row_start bs i + row_bytes bs.
Proof. unfold row_start. lia. Qed.
Lemma row_start_nonneg i : 0 <= row_start bs i.
Proof using Bytes. unfold row_start. pose proof header_nonneg. pose proof row_bytes_pos. nia. Qed.
Hypothesis Widths : map rsize new = map (declared_width bs) (seq 0 (declared_columns bs)).
Hypothesis Names : Forall (fun f => fd_name f <> flag_name) new.
Lemma row_out_is i : row_is new bs i
  (row_out (flag_field :: new) (firstn (Z.to_nat (row_bytes bs)) (skipn (Z.to_nat (row_start bs i)) bs))).
Proof using Bytes Widths Names.
  pose proof row_bytes_pos as RP. pose proof (row_start_nonneg i) as RN. pose proof (row_start_S i) as RS.
  set (b := firstn _ _). unfold row_is, row_out.
  assert (SZ : map rsize (flag_field :: new) = 1 :: map (declared_width bs) (seq 0 (declared_columns bs))) by (cbn [map]; rewrite Widths; reflexivity).
  rewrite SZ. rewrite zsum_cons. change (1 + zsum _) with (row_bytes bs). cbn [hd]. change (Z.to_nat (rsize flag_field)) with 1%nat.
  assert (LB : length b = Nat.min (Z.to_nat (row_bytes bs)) (length bs - Z.to_nat (row_start bs i))) by (unfold b; rewrite firstn_length, skipn_length; reflexivity).
  destruct (Z.eqb_spec (Z.of_nat (length b)) (row_bytes bs)) as [C|C].
  2:{ left. split; [lia|reflexivity]. }
  right. assert (LE : row_start bs (S i) <= Z.of_nat (length bs)) by lia.
  assert (MK : firstn 1 b = [mark_of bs i]).
  { unfold mark_of, byte_of, b. rewrite firstn_firstn, Nat.min_l by lia.
    apply first_at. lia. }
  rewrite MK. destruct (zlist_eqb [mark_of bs i] [32]) eqn:E.
  2:{ left. split; [exact LE|]. split; [|reflexivity]. intros X. rewrite X in E. discriminate. }
  right. split; [exact LE|]. split; [apply zlist_eqb_eq in E; congruence|].
  cbn [pieces]. change (Z.to_nat 1) with 1%nat.
  set (vs := pieces (map (declared_width bs) (seq 0 (declared_columns bs))) (skipn 1 b)).
  assert (LV : length vs = length new).
  { unfold vs. rewrite pieces_length, <- Widths, map_length. reflexivity. }
  exists (map (fun p => read_cell (fst p) (snd p)) (combine new vs)), (read_cells new vs).
  split; [rewrite map_length, combine_length; lia|]. split.
  - intros j f c HF HC. rewrite nth_error_map in HC.
    assert (J : (j < declared_columns bs)%nat).
    { assert (X : (j < length new)%nat) by (apply nth_error_Some; congruence). apply (f_equal (@length Z)) in Widths. rewrite !map_length, seq_length in Widths. lia. }
    assert (V : nth_error vs j = Some (cell_bytes bs i j)).
    { unfold vs. rewrite pieces_nth.
      2:{ rewrite Forall_forall. intros w W. apply in_map_iff in W as [k [<- _]]. apply (byte_nonneg bs (32 + 32 * k + 16) Bytes). }
      rewrite nth_error_map, (nth_error_nth' (seq 0 (declared_columns bs)) 0%nat) by (rewrite seq_length; exact J). rewrite seq_nth by exact J.
      rewrite firstn_map, firstn_seq, Nat.min_l by lia. cbn [option_map Nat.add]. f_equal. unfold cell_bytes.
      assert (ZJ : 0 <= zsum (map (declared_width bs) (seq 0 j))) by (apply zsum_widths; exact Bytes).
      assert (W0 : 0 <= declared_width bs j) by apply (byte_nonneg bs (32 + 32 * j + 16) Bytes).
      assert (ZS : zsum (map (declared_width bs) (seq 0 j)) + declared_width bs j <= row_bytes bs - 1).
      { unfold row_bytes. replace (declared_columns bs) with (j + S (declared_columns bs - j - 1))%nat by lia.
        rewrite seq_app, map_app, zsum_app. cbn [seq map Nat.add]. rewrite zsum_cons. pose proof (zsum_widths bs (seq (S j) (declared_columns bs - j - 1)) Bytes). lia. }
      rewrite skipn_add. unfold b. rewrite skipn_firstn_comm, firstn_firstn, Nat.min_l by lia. rewrite skipn_add. f_equal. f_equal. lia. }
    assert (P : nth_error (combine new vs) j = Some (f, cell_bytes bs i j)).
    { apply combine_at; assumption. }
    rewrite P in HC. cbn in HC. injection HC as <-. apply cell_run.
    apply slice_bytes. exact Bytes.
  - split; [apply cells_first; assumption|]. cbn [read_cells]. change (zlist_eqb (fd_name flag_field) flag_name) with true. cbv iota. reflexivity.
Qed.
End Table.

(** ** All rows *)
(** The bytes of row [i], and what is made of them. *)
Definition raw_row (bs : list Z) (i : nat) : list Z := firstn (Z.to_nat (row_bytes bs)) (skipn (Z.to_nat (row_start bs i)) bs).
Definition out_row (bs : list Z) (new : list field) (i : nat) : res (option (list cell)) := row_out (flag_field :: new) (raw_row bs i).
Definition all_out (xs : list (res (option (list cell)))) : res (list (option (list cell))) :=
  fold_right (fun x y => match x with Ok a => match y with Ok l => Ok (a :: l) | Err e => Err e end | Err e => Err e end) (Ok []) xs.
Lemma all_out_first xs : first_failing xs (all_out xs).
Proof.
  induction xs as [|[a|e] xs IH]; cbn [all_out fold_right]; [left; exists []; auto| |right; exists [], e, xs; auto].
  fold (all_out xs). destruct IH as [[l [H1 H2]]|[l [e [rest [H1 H2]]]]]; rewrite H2; rewrite H1.
  - left. exists (a :: l). auto.
  - right. exists (a :: l), e, rest. auto.
Qed.
Section Records.
Variables (bs : list Z) (new : list field).
Hypothesis Bytes : Forall is_byte bs.
Hypothesis Rows : declared_rows bs <> 0.
Hypothesis Header : declared_header bs <> 0.
Lemma table_truthy r : table_of bs r new -> truthy (r_numRecords r) = true.
Proof. intros [_ [_ [N _]]]. rewrite N. cbn. apply negb_true_iff, Z.eqb_neq. exact Rows. Qed.
Lemma table_size r : table_of bs r new -> row_size r = row_bytes bs.
Proof. intros [_ [_ [_ [_ [F [W _]]]]]]. unfold row_size, row_bytes. rewrite F. cbn [map]. rewrite zsum_cons, W. reflexivity. Qed.
Lemma table_sought r p : table_of bs r new -> table_of bs (r_set_dbf (Some (mkFile bs p)) r) new.
Proof. intros [_ [_ T]]. split; [discriminate|]. split; [reflexivity|exact T]. Qed.
Lemma set_twice r a b : r_set_dbf a (r_set_dbf b r) = r_set_dbf a r.
Proof. reflexivity. Qed.
Lemma record_at_row r i : table_of bs r new -> r_dbf r = Some (mkFile bs (Z.to_nat (row_start bs i))) ->
  read_record r = (r_set_dbf (Some (mkFile bs (Z.to_nat (row_start bs i) + length (raw_row bs i)))) r, out_row bs new i).
Proof.
  intros T D. pose proof (table_size r T) as S. pose proof (row_bytes_pos bs Bytes) as RP.
  pose proof (read_record_out r _ D (table_truthy r T)) as R. cbn [fpos fdata] in R. rewrite S in R.
  destruct T as [_ [_ [_ [_ [F _]]]]]. rewrite F in R. exact (R ltac:(discriminate) ltac:(lia)).
Qed.
Lemma row_ok_full r i x : table_of bs r new -> out_row bs new i = Ok x -> Z.of_nat (length (raw_row bs i)) = row_bytes bs.
Proof.
  intros T. pose proof (table_size r T) as S. destruct T as [_ [_ [_ [_ [F _]]]]]. unfold row_size in S. rewrite F in S.
  unfold out_row, row_out. rewrite S. destruct (Z.eqb_spec (Z.of_nat (length (raw_row bs i))) (row_bytes bs)) as [C|C]; [intros _; exact C|discriminate].
Qed.
Lemma next_row r i x : table_of bs r new -> out_row bs new i = Ok x ->
  (Z.to_nat (row_start bs i) + length (raw_row bs i))%nat = Z.to_nat (row_start bs (S i)).
Proof.
  intros T X. pose proof (row_ok_full r i x T X). pose proof (row_start_S bs i). pose proof (row_start_nonneg bs Bytes i). lia.
Qed.
Lemma rows_out n : forall {A} (l : list A) r i, length l = n -> table_of bs r new -> r_dbf r = Some (mkFile bs (Z.to_nat (row_start bs i))) ->
  snd (for_map (fun _ => read_record) l r) = all_out (map (out_row bs new) (seq i n)).
Proof.
  induction n as [|n IH]; intros A [|y l] r i L T D; try discriminate; [reflexivity|]. cbn [for_map seq map all_out fold_right].
  unfold mbind at 1. rewrite (record_at_row r i T D). destruct (out_row bs new i) as [x|e] eqn:X; [|reflexivity].
  set (r1 := r_set_dbf _ r). unfold mbind.
  assert (T1 : table_of bs r1 new) by (apply table_sought; exact T).
  specialize (IH A l r1 (S i) ltac:(cbn in L; lia) T1 ltac:(unfold r1; rewrite (next_row r i x T X); reflexivity)).
  fold (all_out (map (out_row bs new) (seq (S i) n))). rewrite <- IH.
  destruct (for_map (fun _ => read_record) l r1) as [r2 [rows|e]]; reflexivity.
Qed.
Lemma iter_out n : forall r i, table_of bs r new -> r_dbf r = Some (mkFile bs (Z.to_nat (row_start bs i))) ->
  exists l, (map (out_row bs new) (seq i n) = map Ok l /\ iter_records n r = (present l, Ok tt)) \/
    (exists e rest, map (out_row bs new) (seq i n) = map Ok l ++ Err e :: rest /\ iter_records n r = (present l, Err e)).
Proof.
  induction n as [|n IH]; intros r i T D; [exists []; left; auto|]. cbn [iter_records seq map].
  rewrite (record_at_row r i T D). destruct (out_row bs new i) as [x|e] eqn:X.
  2:{ exists []. right. exists e, (map (out_row bs new) (seq (S i) n)). auto. }
  set (r1 := r_set_dbf _ r).
  assert (T1 : table_of bs r1 new) by (apply table_sought; exact T).
  specialize (IH r1 (S i) T1 ltac:(unfold r1; rewrite (next_row r i x T X); reflexivity)).
  assert (K : forall l, keep [x] ++ present l = present (x :: l)) by (intros l; destruct x as [[|c cs]|]; reflexivity).
  destruct IH as [l [[H1 H2]|[e [rest [H1 H2]]]]]; rewrite H2; exists (x :: l).
  - left. cbn [map]. rewrite H1, K. auto.
  - right. exists e, rest. cbn [map app]. rewrite H1, K. auto.
Qed.
Lemma row_start_0 : row_start bs 0 = declared_header bs.
Proof. unfold row_start. lia. Qed.
Lemma header_read r : table_of bs r new -> dbf_header_length r = (r, Ok (declared_header bs)).
Proof.
  intros [_ [_ [_ [H _]]]]. unfold dbf_header_length, mbind, get. rewrite H.
  replace (declared_header bs =? 0) with false by (symmetry; apply Z.eqb_neq; exact Header). reflexivity.
Qed.
Lemma seek_read r p : table_of bs r new -> 0 <= p -> in_dbf (f_seek p) r = (r_set_dbf (Some (mkFile bs (Z.to_nat p))) r, Ok tt).
Proof.
  intros [D [F _]] P. unfold in_dbf, with_file. destruct (r_dbf r) as [[d q]|]; [|contradiction]. cbn in F. injection F as ->.
  unfold f_seek. replace (p <? 0) with false by (symmetry; apply Z.ltb_ge; exact P). reflexivity.
Qed.
Lemma records_out r : table_of bs r new -> snd (records r) =
  match all_out (map (out_row bs new) (seq 0 (Z.to_nat (declared_rows bs)))) with Ok l => Ok (present l) | Err e => Err e end.
Proof.
  intros T. unfold records. unfold mbind at 1, get at 1. rewrite (table_truthy r T). cbn [negb when]. unfold mbind at 1, ret at 1. unfold mbind at 1.
  rewrite (header_read r T). unfold mbind at 1. rewrite (seek_read r _ T (header_nonneg bs Bytes)). set (r1 := r_set_dbf _ r).
  assert (T1 : table_of bs r1 new) by (apply table_sought; exact T). unfold mbind at 1, get at 1. unfold mbind at 1.
  destruct T as [_ [_ [N _]]]. change (r_numRecords r1) with (r_numRecords r). rewrite N. cbn [count]. unfold lift at 1.
  pose proof (rows_out (Z.to_nat (declared_rows bs)) (seq 0 (Z.to_nat (declared_rows bs))) r1 0 (seq_length _ _) T1) as R.
  rewrite <- R by (rewrite row_start_0; reflexivity). unfold mbind.
  destruct (for_map (fun _ => read_record) (seq 0 (Z.to_nat (declared_rows bs))) r1) as [r2 [rows|e]]; reflexivity.
Qed.
Lemma iterRecords_out r : table_of bs r new ->
  exists l, (map (out_row bs new) (seq 0 (Z.to_nat (declared_rows bs))) = map Ok l /\ iterRecords r = (present l, Ok tt)) \/
    (exists e rest, map (out_row bs new) (seq 0 (Z.to_nat (declared_rows bs))) = map Ok l ++ Err e :: rest /\ iterRecords r = (present l, Err e)).
Proof.
  intros T. set (r1 := r_set_dbf (Some (mkFile bs (Z.to_nat (declared_header bs)))) r).
  assert (T1 : table_of bs r1 new) by (apply table_sought; exact T).
  assert (E : iterRecords r = iter_records (Z.to_nat (declared_rows bs)) r1).
  { unfold iterRecords. unfold mbind at 1, get at 1. rewrite (table_truthy r T). cbn [negb when]. unfold mbind at 1, ret at 1. unfold mbind at 1.
    rewrite (header_read r T). unfold mbind at 1. rewrite (seek_read r _ T (header_nonneg bs Bytes)). fold r1. unfold mbind at 1, get at 1.
    destruct T as [_ [_ [N _]]]. change (r_numRecords r1) with (r_numRecords r). rewrite N. reflexivity. }
  rewrite E. apply iter_out; [exact T1|]. rewrite row_start_0. reflexivity.
Qed.
Lemma record_out r i k : table_of bs r new -> restrict_index (Some (declared_rows bs)) i = Ok (Z.of_nat k) ->
  exists p, record_at i r = (r_set_dbf (Some (mkFile bs p)) r, out_row bs new k).
Proof.
  intros T RI. assert (E0 : in_dbf (ret tt) r = (r, Ok tt)).
  { destruct r as [a b c d e g h j l m n o]. destruct T as [D _]. cbn in D. destruct c; [reflexivity|contradiction]. }
  unfold record_at. unfold mbind at 1. rewrite E0. unfold mbind at 1, get at 1. rewrite (table_truthy r T). cbn [negb when]. unfold mbind at 1, ret at 1.
  unfold mbind at 1, get at 1. pose proof T as [_ [_ [N _]]]. rewrite N, RI. unfold mbind at 1, lift at 1. unfold mbind at 1. rewrite (record_fmt_run r (table_truthy r T)).
  unfold mbind at 1. rewrite (seek_read r 0 T) by lia. change (Z.to_nat 0) with 0%nat. set (r1 := r_set_dbf _ r).
  assert (T1 : table_of bs r1 new) by (apply table_sought; exact T). unfold mbind at 1. rewrite (header_read r1 T1). unfold mbind at 1.
  pose proof (table_size r T) as S. unfold row_size in S. rewrite S. fold (row_start bs k).
  rewrite (seek_read r1 _ T1 (row_start_nonneg bs Bytes k)). unfold r1. rewrite set_twice. set (r2 := r_set_dbf _ r).
  rewrite (record_at_row r2 k (table_sought r _ T) eq_refl). unfold r2. rewrite set_twice. eexists. reflexivity.
Qed.
End Records.

(** ** There is one answer *)
Lemma first_fun {A} (xs : list (res A)) : forall x y, first_failing xs x -> first_failing xs y -> x = y.
Proof.
  assert (OK : forall (l l' : list A), map Ok l = map Ok l' -> l = l').
  { induction l as [|a l IH]; intros [|b l'] E; try discriminate; [reflexivity|]. cbn in E. injection E as <- E. f_equal. apply IH, E. }
  assert (NO : forall (l l' : list A) e rest, map Ok l <> map Ok l' ++ Err e :: rest).
  { induction l as [|a l IH]; intros [|b l'] e rest E; try discriminate. cbn in E. injection E as _ E. exact (IH _ _ _ E). }
  assert (ER : forall (l l' : list A) e e' rest rest', map Ok l ++ Err e :: rest = map Ok l' ++ Err e' :: rest' -> e = e').
  { induction l as [|a l IH]; intros [|b l'] e e' rest rest' E; try discriminate; cbn in E; injection E; [auto|]. intros E' _. exact (IH _ _ _ _ _ E'). }
  intros x y [[l [H1 ->]]|[l [e [rest [H1 ->]]]]] [[l' [H2 ->]]|[l' [e' [rest' [H2 ->]]]]]; rewrite H1 in H2.
  - rewrite (OK _ _ H2). reflexivity.
  - destruct (NO _ _ _ _ H2).
  - symmetry in H2. destruct (NO _ _ _ _ H2).
  - rewrite (ER _ _ _ _ _ _ H2). reflexivity.
Qed.
Lemma row_fun fs bs i x y : row_is fs bs i x -> row_is fs bs i y -> x = y.
Proof.
  intros [[L1 ->]|[[L1 [M1 ->]]|[L1 [M1 [xs [x' [N1 [C1 [F1 ->]]]]]]]]] [[L2 ->]|[[L2 [M2 ->]]|[L2 [M2 [ys [y' [N2 [C2 [F2 ->]]]]]]]]];
    try reflexivity; try lia; try contradiction.
  assert (E : xs = ys).
  { apply TableProofs.nth_error_ext. intros j. destruct (nth_error fs j) as [f|] eqn:EF.
    - assert (J : (j < length fs)%nat) by (apply nth_error_Some; congruence).
      destruct (nth_error xs j) as [c|] eqn:EX; [|apply nth_error_None in EX; lia]. destruct (nth_error ys j) as [d|] eqn:EY; [|apply nth_error_None in EY; lia].
      f_equal. exact (cell_fun _ _ _ _ (C1 j f c EF EX) (C2 j f d EF EY)).
    - apply nth_error_None in EF. rewrite !(proj2 (nth_error_None _ _)) by lia. reflexivity. }
  subst ys. rewrite (first_fun xs x' y' F1 F2). reflexivity.
Qed.
(** A Reader after any calls of record() *)
Lemma asked_of bs new is : Forall is_byte bs -> declared_rows bs <> 0 -> declared_header bs <> 0 ->
  forall r, table_of bs r new -> table_of bs (fold_left (fun r i => fst (record_at i r)) is r) new.
Proof.
  intros B N H. induction is as [|i is IH]; intros r T; [exact T|]. cbn [fold_left]. apply IH.
  pose proof (rows_nonneg bs B) as RN.
  destruct (restrict_index (Some (declared_rows bs)) i) as [k|e] eqn:E.
  - assert (K : 0 <= k).
    { unfold restrict_index in E. destruct (Z.eqb_spec (declared_rows bs) 0); [lia|]. destruct (Z.ltb_spec (declared_rows bs - 1) (Z.abs i)); [discriminate|].
      destruct (Z.ltb_spec i 0); injection E as <-; lia. }
    rewrite <- (Z2Nat.id k K) in E. destruct (record_out bs new B N H r i (Z.to_nat k) T E) as [p R]. rewrite R. apply table_sought, T.
  - assert (E0 : in_dbf (ret tt) r = (r, Ok tt)).
    { destruct r as [a b c d e' g h j l m n o]. destruct T as [D _]. cbn in D. destruct c; [reflexivity|contradiction]. }
    unfold record_at. unfold mbind at 1. rewrite E0. unfold mbind at 1, get at 1. rewrite (table_truthy bs new N r T). cbn [negb when]. unfold mbind at 1, ret at 1.
    unfold mbind at 1, get at 1. pose proof T as [_ [_ [NR _]]]. rewrite NR, E. exact T.
Qed.
