(** Pixel stores. *)
From Coq Require Import Lia Lqa ZifyBool.
From Verif Require Import Num PfProofs RgProofs RasterModel RasterSpec.
Open Scope Z_scope.

(** ** Lists *)
Lemma set_nth_length {A} i (x : A) l : length (set_nth i x l) = length l.
Proof. revert i; induction l as [|y l IH]; intros [|i]; cbn; auto. Qed.
Lemma nth_set_same {A} i (x : A) l : (i < length l)%nat -> nth_error (set_nth i x l) i = Some x.
Proof. revert i; induction l as [|y l IH]; intros [|i] H; cbn in *; try lia; [reflexivity|]. apply IH. lia. Qed.
Lemma nth_set_other {A} i j (x : A) l : i <> j -> nth_error (set_nth i x l) j = nth_error l j.
Proof.
  revert i j; induction l as [|y l IH]; intros [|i] [|j] H; cbn; try reflexivity; try lia. apply IH. lia.
Qed.
Lemma Forall_set_nth {A} (P : A -> Prop) i x l : P x -> Forall P l -> Forall P (set_nth i x l).
Proof. intros Hx F. revert i. induction F; intros [|i]; cbn; constructor; auto. Qed.
Lemma py_get_in {A} (l : list A) i : 0 <= i < Z.of_nat (length l) ->
  exists x, nth_error l (Z.to_nat i) = Some x /\ py_get l i = Ok x.
Proof.
  intros R. destruct (nth_error l (Z.to_nat i)) as [x|] eqn:E.
  - exists x. split; [reflexivity|]. unfold py_get. replace (i <? 0) with false by lia.
    replace ((0 <=? i) && (i <? Z.of_nat (length l))) with true by lia. rewrite E. reflexivity.
  - apply nth_error_None in E. lia.
Qed.
Lemma py_set_in {A} (l : list A) i x : 0 <= i < Z.of_nat (length l) -> py_set l i x = Ok (set_nth (Z.to_nat i) x l).
Proof.
  intros R. unfold py_set. replace (i <? 0) with false by lia.
  replace ((0 <=? i) && (i <? Z.of_nat (length l))) with true by lia. reflexivity.
Qed.
Lemma py_get_out {A} (l : list A) i : Z.of_nat (length l) <= i \/ i < - Z.of_nat (length l) -> py_get l i = Err IndexError.
Proof.
  intros R. unfold py_get. destruct (i <? 0) eqn:E.
  - replace ((0 <=? i + Z.of_nat (length l)) && (i + Z.of_nat (length l) <? Z.of_nat (length l))) with false by lia. reflexivity.
  - replace ((0 <=? i) && (i <? Z.of_nat (length l))) with false by lia. reflexivity.
Qed.
Lemma bytes_repeat b n : is_byte b -> mapM byte_check (repeat b n) = Ok (repeat b n).
Proof.
  intros B. induction n as [|n IH]; [reflexivity|]. cbn [repeat mapM]. unfold byte_check at 1, is_byteb.
  unfold is_byte in B. replace ((0 <=? b) && (b <? 256)) with true by lia. cbn [bind]. rewrite IH. reflexivity.
Qed.
Lemma byte_ok v : is_byte v -> byte_check v = Ok v.
Proof. unfold is_byte, byte_check, is_byteb. intros B. replace ((0 <=? v) && (v <? 256)) with true by lia. reflexivity. Qed.
Lemma byte_inv v x : byte_check v = Ok x -> is_byte v /\ x = v.
Proof.
  unfold is_byte, byte_check, is_byteb. destruct ((0 <=? v) && (v <? 256)) eqn:E; [|discriminate].
  intros H. injection H as <-. lia.
Qed.
Lemma Forall_repeat {A} (P : A -> Prop) x n : P x -> Forall P (repeat x n).
Proof. intros H. induction n; cbn; constructor; auto. Qed.

(** ** BWCanvas *)
Definition bit (data : list Z) (i : Z) : bool := Z.testbit (nth (Z.to_nat (i / 8)) data 0) (7 - i mod 8).
Lemma land_bit b k : 0 <= k -> negb (Z.land b (Z.shiftl 1 k) =? 0) = Z.testbit b k.
Proof.
  intros K. rewrite Z.shiftl_1_l. destruct (Z.testbit b k) eqn:E.
  - apply negb_true_iff, Z.eqb_neq. intros C. apply (f_equal (fun z => Z.testbit z k)) in C.
    rewrite Z.land_spec, E, Z.pow2_bits_true, Z.bits_0 in C by exact K. discriminate.
  - apply negb_false_iff, Z.eqb_eq. apply Z.bits_inj'. intros n Hn. rewrite Z.land_spec, Z.bits_0, Z.pow2_bits_eqb by exact K.
    destruct (Z.eqb_spec k n) as [->|]; [rewrite E; reflexivity|apply andb_false_r].
Qed.
Definition set_bit (b k : Z) (v : bool) : Z :=
  if v then Z.lor b (Z.shiftl 1 k) else Z.land b (Z.lnot (Z.shiftl 1 k)).
Lemma set_bit_spec b k v n : 0 <= k -> 0 <= n -> Z.testbit (set_bit b k v) n = if n =? k then v else Z.testbit b n.
Proof.
  intros K N. unfold set_bit. rewrite Z.shiftl_1_l. destruct v.
  - rewrite Z.lor_spec, Z.pow2_bits_eqb by exact K. rewrite Z.eqb_sym. destruct (n =? k); [apply orb_true_r|apply orb_false_r].
  - rewrite Z.land_spec, Z.lnot_spec, Z.pow2_bits_eqb by assumption. rewrite Z.eqb_sym.
    destruct (n =? k); [apply andb_false_r|apply andb_true_r].
Qed.
Lemma byte_bits b : is_byte b <-> 0 <= b /\ forall n, 8 <= n -> Z.testbit b n = false.
Proof.
  unfold is_byte. split.
  - intros R. split; [lia|]. intros n Hn. destruct (Z.eq_dec b 0) as [->|]; [apply Z.bits_0|]. apply Z.bits_above_log2; [lia|].
    assert (Z.log2 b < 8); [|lia]. apply Z.log2_lt_pow2; [lia|]. cbn. lia.
  - intros [P H]. split; [exact P|]. destruct (Z.eq_dec b 0) as [->|]; [lia|].
    destruct (Z.lt_ge_cases b 256) as [|G]; [assumption|]. exfalso.
    assert (8 <= Z.log2 b) by (apply Z.log2_le_pow2; [lia|cbn; lia]).
    specialize (H (Z.log2 b) H0). rewrite Z.bit_log2 in H by lia. discriminate.
Qed.
Lemma set_bit_byte b k v : is_byte b -> 0 <= k < 8 -> is_byte (set_bit b k v).
Proof.
  intros B K. apply byte_bits in B. destruct B as [P B]. apply byte_bits. split.
  - unfold set_bit. rewrite Z.shiftl_1_l. destruct v.
    + apply Z.lor_nonneg. split; [exact P|]. apply Z.pow_nonneg. lia.
    + apply Z.land_nonneg. left. exact P.
  - intros n Hn. rewrite set_bit_spec by lia. replace (n =? k) with false by lia. apply B. exact Hn.
Qed.
Definition bw_index (w : Z) (p : Z * Z) : Z := snd p * (8 * ((w + 7) / 8)) + fst p.
Lemma bw_index_range w h p n : in_canvas w h p -> n = (w + 7) / 8 * h -> 0 <= bw_index w p / 8 < n.
Proof.
  intros [X Y] ->. unfold bw_index. pose proof (Z.div_mod (w + 7) 8 ltac:(lia)) as D. pose proof (Z.mod_pos_bound (w + 7) 8 ltac:(lia)) as B.
  set (q := (w + 7) / 8) in *. split; [apply Z.div_pos; nia|]. apply Z.div_lt_upper_bound; [lia|]. nia.
Qed.
Lemma bw_index_inj w h p q : in_canvas w h p -> in_canvas w h q -> bw_index w p = bw_index w q -> p = q.
Proof.
  destruct p as [x y], q as [x' y']. unfold in_canvas, bw_index. cbn [fst snd]. intros [X Y] [X' Y'] E.
  pose proof (Z.div_mod (w + 7) 8 ltac:(lia)) as D. pose proof (Z.mod_pos_bound (w + 7) 8 ltac:(lia)) as B.
  set (k := (w + 7) / 8) in *. assert (y = y') by nia. subst y'. f_equal. lia.
Qed.
Lemma nth_of_error {A} (l : list A) i x d : nth_error l i = Some x -> nth i l d = x.
Proof. revert i; induction l as [|y l IH]; intros [|i] H; cbn in *; try discriminate; [congruence|]. apply IH, H. Qed.
Lemma bw_get_bit w h c p : bw_ok w h c -> in_canvas w h p -> bw_get c p = Ok (bit (bw_data c) (bw_index w p)).
Proof.
  intros (_ & _ & Rw & L & _) I. unfold bw_get. rewrite Rw. fold (bw_index w p).
  pose proof (bw_index_range w h p _ I L) as R. destruct (py_get_in (bw_data c) _ R) as (b & N & G). rewrite G. cbn [bind].
  pose proof (Z.mod_pos_bound (bw_index w p) 8 ltac:(lia)). rewrite land_bit by lia. unfold bit. rewrite (nth_of_error _ _ _ 0 N). reflexivity.
Qed.
Lemma bw_set_ok w h c p v : bw_ok w h c -> in_canvas w h p -> exists c', bw_set c p v = Ok c' /\ bw_ok w h c' /\
  forall i, 0 <= i -> bit (bw_data c') i = if i =? bw_index w p then v else bit (bw_data c) i.
Proof.
  intros (Hw & Hh & Rw & L & B) I. unfold bw_set. rewrite Rw. fold (bw_index w p).
  pose proof (bw_index_range w h p _ I L) as R. destruct (py_get_in (bw_data c) _ R) as (b & N & G). rewrite G. cbn [bind].
  rewrite py_set_in by exact R. cbn [bind]. eexists. split; [reflexivity|].
  set (j := bw_index w p) in *. pose proof (Z.mod_pos_bound j 8 ltac:(lia)) as M.
  change (if v then Z.lor b (Z.shiftl 1 (7 - j mod 8)) else Z.land b (Z.lnot (Z.shiftl 1 (7 - j mod 8)))) with (set_bit b (7 - j mod 8) v).
  assert (Bb : is_byte b). { rewrite Forall_forall in B. apply B. eapply nth_error_In. exact N. }
  split.
  - repeat split; cbn; auto.
    + rewrite set_nth_length. exact L.
    + apply Forall_set_nth; [|exact B]. apply set_bit_byte; [exact Bb|lia].
  - intros i Hi. cbn [bw_data]. unfold bit. pose proof (Z.mod_pos_bound i 8 ltac:(lia)) as Mi.
    destruct (Z.eq_dec (i / 8) (j / 8)) as [E|E].
    + rewrite E. rewrite (nth_of_error _ _ _ 0 (nth_set_same (Z.to_nat (j / 8)) _ (bw_data c) ltac:(lia))).
      rewrite (nth_of_error _ _ _ 0 N). rewrite set_bit_spec by lia.
      pose proof (Z.div_mod i 8 ltac:(lia)). pose proof (Z.div_mod j 8 ltac:(lia)).
      destruct (Z.eqb_spec (7 - i mod 8) (7 - j mod 8)), (Z.eqb_spec i j); try reflexivity; lia.
    + destruct (Z.eqb_spec i j) as [->|Nij]; [congruence|].
      assert (Hn : forall k, Z.to_nat (j / 8) <> k -> nth k (set_nth (Z.to_nat (j / 8)) (set_bit b (7 - j mod 8) v) (bw_data c)) 0 = nth k (bw_data c) 0).
      { intros k Hk. destruct (nth_error (bw_data c) k) as [x|] eqn:Ek.
        - rewrite (nth_of_error _ _ _ 0 Ek). apply nth_of_error. rewrite nth_set_other by exact Hk. exact Ek.
        - apply nth_error_None in Ek. rewrite !nth_overflow by (rewrite ?set_nth_length; exact Ek). reflexivity. }
      rewrite Hn; [reflexivity|]. assert (0 <= i / 8) by (apply Z.div_pos; lia). lia.
Qed.
Lemma bw_new_ok w h bg : 0 <= w -> 0 <= h -> is_byte bg -> exists c, bw_new w h bg = Ok c /\ bw_ok w h c /\
  forall p, in_canvas w h p -> bit (bw_data c) (bw_index w p) = Z.testbit bg (7 - fst p mod 8).
Proof.
  intros W H B. unfold bw_new. rewrite bytes_repeat by exact B. cbn [bind]. eexists. split; [reflexivity|].
  assert (E : - (- w / 8) = (w + 7) / 8).
  { pose proof (Z.div_mod (- w) 8 ltac:(lia)). pose proof (Z.mod_pos_bound (- w) 8 ltac:(lia)).
    pose proof (Z.div_mod (w + 7) 8 ltac:(lia)). pose proof (Z.mod_pos_bound (w + 7) 8 ltac:(lia)). lia. }
  rewrite E. assert (0 <= (w + 7) / 8) by (apply Z.div_pos; lia).
  assert (L : Z.of_nat (length (repeat bg (Z.to_nat ((w + 7) / 8 * h)))) = (w + 7) / 8 * h).
  { rewrite repeat_length. rewrite Z2Nat.id by nia. reflexivity. }
  split.
  - repeat split; cbn; [lia|exact L|]. apply Forall_repeat. exact B.
  - intros p I. cbn [bw_data]. unfold bit. pose proof (bw_index_range w h p _ I eq_refl) as R.
    rewrite (nth_of_error _ _ bg 0).
    + f_equal. f_equal. unfold bw_index. replace (snd p * (8 * ((w + 7) / 8)) + fst p) with (fst p + snd p * ((w + 7) / 8) * 8) by ring.
      apply Z.mod_add. lia.
    + apply nth_error_repeat. lia.
Qed.

(** ** GrayCanvas *)
Definition g_index (w : Z) (p : Z * Z) : Z := snd p * w + fst p.
Lemma g_index_range w h p : in_canvas w h p -> 0 <= g_index w p < w * h.
Proof. intros [X Y]. unfold g_index. nia. Qed.
Lemma g_index_inj w h p q : in_canvas w h p -> in_canvas w h q -> g_index w p = g_index w q -> p = q.
Proof.
  destruct p as [x y], q as [x' y']. unfold in_canvas, g_index. cbn [fst snd]. intros [X Y] [X' Y'] E.
  assert (y = y') by nia. subst y'. f_equal. lia.
Qed.
Lemma g_get_in w h c p : g_ok w h c -> in_canvas w h p ->
  exists v, g_get c p = Ok v /\ is_byte v /\ nth_error (g_data c) (Z.to_nat (g_index w p)) = Some v.
Proof.
  intros (Hw & _ & L & B) I. pose proof (g_index_range w h p I) as R. rewrite <- L in R.
  destruct (py_get_in (g_data c) _ R) as (v & N & G). exists v. unfold g_get. rewrite Hw. fold (g_index w p).
  split; [exact G|]. split; [|exact N]. rewrite Forall_forall in B. apply B. eapply nth_error_In. exact N.
Qed.
Section G.
  Context {T : Type} `{PyNum T} `{PyInt T}.
  (** The value stored. *)
  Definition g_value (bg : Z) (value : gcolor T) : res Z :=
    match value with
    | GInt v => Ok v
    | GTup l a => '(fg, a) <- unpack_pair l a ;; Ok (blend bg fg a)
    end.
  Lemma g_set_cases w h c p value bg : g_ok w h c -> in_canvas w h p -> g_get c p = Ok bg ->
    match (v <- g_value bg value ;; byte_check v) with
    | Err e => g_set c p value = Err e
    | Ok v => exists c', g_set c p value = Ok c' /\ g_ok w h c' /\ g_get c' p = Ok v /\
        forall q, in_canvas w h q -> q <> p -> g_get c' q = g_get c q
    end.
  Proof.
    intros K I G. pose proof K as (Hw & Hh & L & B). pose proof (g_index_range w h p I) as R. rewrite <- L in R.
    unfold g_set, g_value. unfold g_get in G. rewrite Hw in *. fold (g_index w p) in *.
    assert (E : (match value with
         | GInt v => Ok v
         | GTup l a => '(fg, a) <- unpack_pair l a ;; bg <- py_get (g_data c) (g_index w p) ;; Ok (blend bg fg a)
         end) = match value with
    | GInt v => Ok v
    | GTup l a => '(fg, a) <- unpack_pair l a ;; Ok (blend bg fg a)
    end).
    { destruct value as [v|l a]; [reflexivity|]. destruct (unpack_pair l a) as [[fg al]|]; [|reflexivity]. cbn [bind]. rewrite G. reflexivity. }
    rewrite E. clear E.
    match goal with |- context [bind ?m (fun v => byte_check v)] => set (vv := m) in * end. destruct vv as [v|e]; cbn [bind]; [|reflexivity].
    rewrite G. cbn [bind]. destruct (byte_check v) as [v'|e] eqn:Bv; cbn [bind]; [|reflexivity].
    apply byte_inv in Bv. destruct Bv as [Bv ->]. rewrite py_set_in by exact R. cbn [bind]. eexists. split; [reflexivity|].
    split; [|split].
    - repeat split; cbn; auto; [rewrite set_nth_length; exact L|]. apply Forall_set_nth; assumption.
    - unfold g_get. cbn [g_width g_data]. fold (g_index w p).
      rewrite <- (Z2Nat.id (g_index w p)) at 2 by lia. apply py_get_nth. apply nth_set_same. lia.
    - intros q Iq Nq. unfold g_get. cbn [g_width g_data]. rewrite Hw. fold (g_index w q).
      pose proof (g_index_range w h q Iq) as Rq. rewrite <- L in Rq.
      destruct (py_get_in (g_data c) _ Rq) as (x & Nx & Gx). rewrite Gx.
      rewrite <- (Z2Nat.id (g_index w q)) by lia. apply py_get_nth. rewrite nth_set_other; [exact Nx|].
      intros C. apply Nq. apply (g_index_inj w h); [exact Iq|exact I|]. lia.
  Qed.
End G.
Lemma g_new_ok w h bg : 0 <= w -> 0 <= h -> is_byte bg -> exists c, g_new w h bg = Ok c /\ g_ok w h c /\
  forall p, in_canvas w h p -> g_get c p = Ok bg.
Proof.
  intros W H B. unfold g_new. rewrite bytes_repeat by exact B. cbn [bind]. eexists. split; [reflexivity|].
  assert (K : g_ok w h (mkg w h (repeat bg (Z.to_nat (w * h))))).
  { repeat split; cbn; [rewrite repeat_length, Z2Nat.id by nia; reflexivity|]. apply Forall_repeat. exact B. }
  split; [exact K|]. intros p I. destruct (g_get_in _ _ _ p K I) as (v & G & _ & N). rewrite G.
  cbn [g_data] in N. apply nth_error_In in N. apply repeat_spec in N. congruence.
Qed.

(** ** ColorCanvas *)
Lemma slice_mid3 {A} (l : list A) i : 0 <= i -> i + 3 <= Z.of_nat (length l) ->
  py_slice l i (i + 3) = firstn 3 (skipn (Z.to_nat i) l).
Proof.
  intros P L. unfold py_slice, slice_clamp. replace (i <? 0) with false by lia. replace (i + 3 <? 0) with false by lia.
  rewrite !Z.min_l by lia. replace (i <? i + 3) with true by lia. f_equal. lia.
Qed.
Lemma assign_mid3 {A} (l : list A) i new : 0 <= i -> i + 3 <= Z.of_nat (length l) ->
  slice_assign l i (i + 3) new = firstn (Z.to_nat i) l ++ new ++ skipn (Z.to_nat i + 3) l.
Proof.
  intros P L. unfold slice_assign, slice_clamp. replace (i <? 0) with false by lia. replace (i + 3 <? 0) with false by lia.
  rewrite !Z.min_l by lia. rewrite Z.max_r by lia. do 3 f_equal. lia.
Qed.
Lemma assign_end {A} (l : list A) i new : Z.of_nat (length l) <= i -> slice_assign l i (i + 3) new = l ++ new.
Proof.
  intros P. unfold slice_assign, slice_clamp. replace (i <? 0) with false by lia. replace (i + 3 <? 0) with false by lia.
  rewrite !Z.min_r by lia. rewrite Z.max_id, Nat2Z.id, firstn_all, skipn_all, app_nil_r. reflexivity.
Qed.
Lemma firstn_skipn_three {A} (l : list A) k : (k + 3 <= length l)%nat -> exists a b c,
  firstn 3 (skipn k l) = [a; b; c] /\ l = firstn k l ++ [a; b; c] ++ skipn (k + 3) l.
Proof.
  intros L. assert (L3 : length (firstn 3 (skipn k l)) = 3%nat) by (rewrite firstn_length, skipn_length; lia).
  destruct (firstn 3 (skipn k l)) as [|a [|b [|c [|d t]]]] eqn:E; try discriminate. exists a, b, c. split; [reflexivity|].
  rewrite <- E. rewrite <- PfHist.skipn_skipn. rewrite firstn_skipn, firstn_skipn. reflexivity.
Qed.
Lemma other_slot {A} (l new : list A) k k' : length new = 3%nat -> (3 * k + 3 <= length l)%nat -> (3 * k' + 3 <= length l)%nat -> k <> k' ->
  firstn 3 (skipn (3 * k') (firstn (3 * k) l ++ new ++ skipn (3 * k + 3) l)) = firstn 3 (skipn (3 * k') l).
Proof.
  intros Ln L L' N. destruct (Nat.lt_trichotomy k' k) as [C|[C|C]]; [|congruence|].
  - rewrite !skipn_app, !firstn_app, !skipn_length, !firstn_length. replace (3 - (Nat.min (3 * k) (length l) - 3 * k'))%nat with 0%nat by lia.
    rewrite app_nil_r. rewrite skipn_firstn_comm, firstn_firstn. f_equal. lia.
  - rewrite skipn_app, firstn_length. replace (Nat.min (3 * k) (length l)) with (3 * k)%nat by lia.
    rewrite skipn_all2 by (rewrite firstn_length; lia). cbn [app]. rewrite skipn_app, Ln.
    rewrite skipn_all2 by lia. cbn [app]. rewrite PfHist.skipn_skipn. f_equal. f_equal. lia.
Qed.
Definition slot (w : Z) (p : Z * Z) : nat := Z.to_nat (g_index w p).
Lemma c_index w p : snd p * w + fst p = g_index w p. Proof. reflexivity. Qed.
Lemma c_get_in w h c p : c_ok w h c -> in_canvas w h p ->
  c_get c p = match firstn 3 (skipn (3 * slot w p) (c_data c)) with [r; g; b] => Ok (r, g, b) | _ => Err ValueError end.
Proof.
  intros (Hw & _ & L & _) I. pose proof (g_index_range w h p I) as R. unfold c_get. rewrite Hw, c_index.
  rewrite slice_mid3 by lia. unfold slot. replace (Z.to_nat (3 * g_index w p)) with (3 * Z.to_nat (g_index w p))%nat by lia. reflexivity.
Qed.
Lemma c_get_ok w h c p : c_ok w h c -> in_canvas w h p -> exists r g b, c_get c p = Ok (r, g, b) /\
  firstn 3 (skipn (3 * slot w p) (c_data c)) = [r; g; b] /\ is_byte r /\ is_byte g /\ is_byte b.
Proof.
  intros K I. rewrite (c_get_in w h c p K I). destruct K as (_ & _ & L & B). pose proof (g_index_range w h p I) as R.
  destruct (firstn_skipn_three (c_data c) (3 * slot w p) ltac:(unfold slot; lia)) as (r & g & b & E & E2). rewrite E.
  exists r, g, b. split; [reflexivity|]. split; [reflexivity|]. rewrite E2 in B. apply Forall_app in B. destruct B as [_ B].
  inversion B as [|? ? B1 B']; inversion B' as [|? ? B2 B'']; inversion B''; subst. auto.
Qed.
Section CC.
  Context {T : Type} `{PyNum T} `{PyInt T}.
  (** The colour stored over [bg]. *)
  Definition c_value (bg : Z * Z * Z) (value : list Z * option T) : res (list Z) :=
    let '(r0, g0, b0) := bg in
    match value with
    | ([r; g; b; a], None) => Ok [blend r0 r (nofZ a); blend g0 g (nofZ a); blend b0 b (nofZ a)]
    | (l, None) => Ok l
    | ([r; g; b], Some a) => Ok [blend r0 r a; blend g0 g a; blend b0 b a]
    | (_, Some a) => Err TypeError
    end.
  Lemma c_set_cases w h c p value bg : c_ok w h c -> in_canvas w h p -> c_get c p = Ok bg ->
    match (v <- c_value bg value ;; mapM byte_check v) with
    | Err e => c_set c p value = Err e
    | Ok v => exists c', c_set c p value = Ok c' /\ c_width c' = w /\ c_height c' = h /\
        c_data c' = firstn (3 * slot w p) (c_data c) ++ v ++ skipn (3 * slot w p + 3) (c_data c)
    end.
  Proof.
    intros K I G. pose proof (c_get_ok w h c p K I) as (r0 & g0 & b0 & G' & S & _). rewrite G in G'. injection G' as ->.
    pose proof K as (Hw & Hh & L & B). pose proof (g_index_range w h p I) as R. unfold c_set. rewrite Hw, c_index.
    rewrite slice_mid3 by lia. replace (Z.to_nat (3 * g_index w p)) with (3 * slot w p)%nat by (unfold slot; lia). rewrite S.
    assert (E : (match value with
             | ([r; g; b; a], None) => c_blend [r0; g0; b0] [r; g; b] (nofZ a)
             | (l, None) => Ok l
             | (l, Some a) => if Nat.eqb (length l) 3 then c_blend [r0; g0; b0] l a else Err TypeError
             end) = c_value (r0, g0, b0) value).
    { unfold c_value. destruct value as [[|x1 [|x2 [|x3 [|x4 [|x5 l]]]]] [a|]]; reflexivity. }
    rewrite E. destruct (c_value _ value) as [v|e]; cbn [bind]; [|reflexivity].
    destruct (mapM byte_check v) as [v'|e]; cbn [bind]; [|reflexivity]. eexists. split; [reflexivity|].
    cbn. split; [reflexivity|]. split; [exact Hh|].
    rewrite assign_mid3 by lia. replace (Z.to_nat (3 * g_index w p)) with (3 * slot w p)%nat by (unfold slot; lia). reflexivity.
  Qed.
  Lemma mapM_bytes v v' : mapM byte_check v = Ok v' -> v' = v /\ Forall is_byte v.
  Proof.
    revert v'. induction v as [|x v IH]; intros v'; cbn [mapM]; intros E; [injection E as <-; auto|].
    apply bind_ok in E. destruct E as (y & Ey & E). apply byte_inv in Ey. destruct Ey as [By ->].
    apply bind_ok in E. destruct E as (ys & Es & E). injection E as <-. destruct (IH _ Es) as [-> F]. auto.
  Qed.
  Lemma c_set_three w h c p value bg r g b : c_ok w h c -> in_canvas w h p -> c_get c p = Ok bg ->
    c_value bg value = Ok [r; g; b] -> is_byte r -> is_byte g -> is_byte b ->
    exists c', c_set c p value = Ok c' /\ c_ok w h c' /\ c_get c' p = Ok (r, g, b) /\
      forall q, in_canvas w h q -> q <> p -> c_get c' q = c_get c q.
  Proof.
    intros K I G V Br Bg Bb. pose proof (c_set_cases w h c p value bg K I G) as C. rewrite V in C. cbn [bind mapM] in C.
    rewrite !byte_ok in C by assumption. cbn [bind] in C. destruct C as (c' & S & Hw & Hh & D). exists c'. split; [exact S|].
    pose proof K as (Hw0 & Hh0 & L & B). pose proof (g_index_range w h p I) as R.
    assert (Lk : (3 * slot w p + 3 <= length (c_data c))%nat) by (unfold slot; lia).
    destruct (firstn_skipn_three (c_data c) (3 * slot w p) Lk) as (r0 & g0 & b0 & _ & E0).
    assert (K' : c_ok w h c').
    { split; [exact Hw|]. split; [exact Hh|]. rewrite D. split.
      - rewrite <- L. f_equal. rewrite !app_length, firstn_length, skipn_length. cbn [length]. lia.
      - rewrite E0 in B. apply Forall_app in B. destruct B as [B1 B2]. apply Forall_app. split; [exact B1|].
        apply Forall_app in B2. destruct B2 as [_ B2]. apply Forall_app. split; [do 3 (apply Forall_cons; [assumption|]); apply Forall_nil|exact B2]. }
    split; [exact K'|]. split.
    - rewrite (c_get_in w h c' p K' I), D. rewrite skipn_exact by (rewrite firstn_length; lia). reflexivity.
    - intros q Iq Nq. rewrite (c_get_in w h c' q K' Iq), (c_get_in w h c q K Iq), D.
      pose proof (g_index_range w h q Iq) as Rq.
      rewrite other_slot; [reflexivity|reflexivity|exact Lk|unfold slot; lia|].
      intros C. apply Nq. symmetry. apply (g_index_inj w h); [exact I|exact Iq|]. unfold slot in C. lia.
  Qed.
  Lemma c_set_out w h c p r g b : c_ok w h c -> w * h <= snd p * w + fst p -> is_byte r -> is_byte g -> is_byte b ->
    exists c', c_set c p ([r; g; b], None (A := T)) = Ok c' /\ c_data c' = c_data c ++ [r; g; b] /\
      (forall q, in_canvas w h q -> c_get c' q = c_get c q).
  Proof.
    intros K O Br Bg Bb. pose proof K as (Hw & Hh & L & B). unfold c_set. cbn [bind mapM]. rewrite !byte_ok by assumption. cbn [bind].
    eexists. split; [reflexivity|]. cbn [c_data]. rewrite Hw, assign_end by lia. split; [reflexivity|].
    intros q Iq. rewrite (c_get_in w h c q K Iq). unfold c_get. cbn [c_width c_data]. rewrite c_index.
    pose proof (g_index_range w h q Iq) as Rq. rewrite slice_mid3 by (rewrite ?app_length; lia).
    replace (Z.to_nat (3 * g_index w q)) with (3 * slot w q)%nat by (unfold slot; lia).
    rewrite skipn_app, firstn_app. replace (3 - length (skipn (3 * slot w q) (c_data c)))%nat with 0%nat; [|rewrite skipn_length; unfold slot; lia].
    cbn [firstn]. rewrite app_nil_r. reflexivity.
  Qed.
End CC.
Lemma concat_repeat_bytes r g b n : is_byte r -> is_byte g -> is_byte b ->
  mapM byte_check (concat (repeat [r; g; b] n)) = Ok (concat (repeat [r; g; b] n)).
Proof.
  intros R G B. induction n as [|n IH]; [reflexivity|]. cbn [repeat concat app mapM].
  rewrite !byte_ok by assumption. cbn [bind]. rewrite IH. reflexivity.
Qed.
Lemma concat_repeat_slot {A} (x : list A) n k : length x = 3%nat -> (k < n)%nat -> firstn 3 (skipn (3 * k) (concat (repeat x n))) = x.
Proof.
  intros L K. revert k K. induction n as [|n IH]; intros k K; [lia|]. cbn [repeat concat]. destruct k as [|k].
  - cbn [Nat.mul skipn]. apply firstn_exact. exact L.
  - replace (3 * S k)%nat with (3 + 3 * k)%nat by lia. rewrite <- PfHist.skipn_skipn, skipn_exact by exact L. apply IH. lia.
Qed.
Lemma c_new_ok w h r g b : 0 <= w -> 0 <= h -> is_byte r -> is_byte g -> is_byte b ->
  exists c, c_new w h [r; g; b] = Ok c /\ c_ok w h c /\ forall p, in_canvas w h p -> c_get c p = Ok (r, g, b).
Proof.
  intros W H R G B. unfold c_new. rewrite concat_repeat_bytes by assumption. cbn [bind]. eexists. split; [reflexivity|].
  assert (K : c_ok w h (mkc w h (concat (repeat [r; g; b] (Z.to_nat (w * h)))))).
  { repeat split; cbn.
    - assert (E : forall n, Z.of_nat (length (concat (repeat [r; g; b] n))) = 3 * Z.of_nat n).
      { induction n as [|n IH]; [reflexivity|]. cbn [repeat concat]. rewrite app_length. cbn [length]. lia. }
      rewrite E, Z2Nat.id by nia. reflexivity.
    - induction (Z.to_nat (w * h)) as [|n IH]; cbn; [constructor|]. repeat (constructor; [assumption|]). exact IH. }
  split; [exact K|]. intros p I. rewrite (c_get_in _ _ _ p K I). cbn [c_data].
  pose proof (g_index_range w h p I). rewrite concat_repeat_slot; [reflexivity|reflexivity|]. unfold slot. lia.
Qed.

(** ** Blending *)
Lemma q_trunc_floor q : (0 <= q)%Q -> q_trunc q = Qfloor q.
Proof.
  destruct q as [n d]. unfold Qle, q_trunc. cbn [Qnum Qden]. intros P. unfold Qfloor. apply Z.quot_div_nonneg; lia.
Qed.
Lemma blendQ bg fg (a : Q) : 0 <= bg -> 0 <= fg -> (0 <= a <= 1)%Q ->
  let mix := (inject_Z bg * (1 - a) + inject_Z fg * a)%Q in
  (inject_Z (blend bg fg a) - (1 # 2) <= mix /\ mix < inject_Z (blend bg fg a) + (1 # 2))%Q.
Proof.
  intros B F [A1 A2] mix. unfold blend. cbn [nadd nmul nsub nofZ nint IntQ NumQ].
  assert (P : (0 <= mix)%Q).
  { unfold mix. assert (0 <= inject_Z bg)%Q by (rewrite <- (Zle_Qle 0); exact B). assert (0 <= inject_Z fg)%Q by (rewrite <- (Zle_Qle 0); exact F). nra. }
  unfold half. cbn [ndiv nofZ NumQ]. change (inject_Z 1 / inject_Z 2)%Q with (1 # 2).
  assert (Em : (inject_Z bg * (inject_Z 1 - a) + inject_Z fg * a + (1 # 2))%Q = (mix + (1 # 2))%Q) by reflexivity.
  rewrite Em. clear Em. clearbody mix. rewrite q_trunc_floor by lra.
  pose proof (Qfloor_le (mix + (1 # 2))) as L1. pose proof (Qlt_floor (mix + (1 # 2))) as L2.
  rewrite inject_Z_plus in L2. change (inject_Z 1) with 1%Q in L2. split; lra.
Qed.
Lemma blend_between bg fg (a : Q) : 0 <= bg -> 0 <= fg -> (0 <= a <= 1)%Q ->
  Z.min bg fg <= blend bg fg a <= Z.max bg fg.
Proof.
  intros B F A. pose proof (blendQ bg fg a B F A) as [L1 L2]. cbv zeta in *.
  set (v := blend bg fg a) in *. clearbody v.
  destruct (Z.le_ge_cases bg fg) as [C|C].
  - rewrite Z.min_l, Z.max_r by exact C. assert (Cq : (inject_Z bg <= inject_Z fg)%Q) by (rewrite <- Zle_Qle; exact C).
    split; apply Z.lt_succ_r; rewrite Zlt_Qlt; unfold Z.succ; rewrite inject_Z_plus; change (inject_Z 1) with 1%Q; nra.
  - rewrite Z.min_r, Z.max_l by exact C. assert (Cq : (inject_Z fg <= inject_Z bg)%Q) by (rewrite <- Zle_Qle; exact C).
    split; apply Z.lt_succ_r; rewrite Zlt_Qlt; unfold Z.succ; rewrite inject_Z_plus; change (inject_Z 1) with 1%Q; nra.
Qed.
Lemma blend_ends bg fg : 0 <= bg -> 0 <= fg -> blend bg fg 0%Q = bg /\ blend bg fg 1%Q = fg.
Proof.
  intros B F. split.
  - pose proof (blendQ bg fg 0 B F ltac:(lra)) as [L1 L2]. cbv zeta in *. set (v := blend bg fg 0%Q) in *. clearbody v.
    assert (v <= bg /\ bg <= v); [|lia]. split; apply Z.lt_succ_r; rewrite Zlt_Qlt; unfold Z.succ; rewrite inject_Z_plus; change (inject_Z 1) with 1%Q; lra.
  - pose proof (blendQ bg fg 1 B F ltac:(lra)) as [L1 L2]. cbv zeta in *. set (v := blend bg fg 1%Q) in *. clearbody v.
    assert (v <= fg /\ fg <= v); [|lia]. split; apply Z.lt_succ_r; rewrite Zlt_Qlt; unfold Z.succ; rewrite inject_Z_plus; change (inject_Z 1) with 1%Q; lra.
Qed.
