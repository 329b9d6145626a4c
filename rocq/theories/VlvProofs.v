From Coq Require Import ZifyBool ZifyNat.
From Verif Require Import Py VlvModel.
Open Scope Z_scope.

(** ** base 256 *)
Lemma be_bytes_length n v : length (be_bytes n v) = n.
Proof. induction n; cbn; auto. Qed.
Lemma be_bytes_byte n v : Forall is_byte (be_bytes n v).
Proof.
  induction n as [|n IH]; constructor; [|exact IH].
  unfold is_byte. apply Z.mod_pos_bound. lia.
Qed.
Lemma be_value_acc bs a : fold_left (fun a b => a * 256 + b) bs a =
  a * 256 ^ Z.of_nat (length bs) + be_value bs.
Proof.
  unfold be_value. revert a; induction bs as [|b bs IH]; intros a; cbn [fold_left length].
  - cbn. lia.
  - rewrite IH, (IH (0 * 256 + b)), Nat2Z.inj_succ, Z.pow_succ_r by lia. ring.
Qed.
Lemma be_value_cons b bs : be_value (b :: bs) = b * 256 ^ Z.of_nat (length bs) + be_value bs.
Proof. unfold be_value at 1. cbn [fold_left]. rewrite be_value_acc. reflexivity. Qed.
Lemma be_value_app a b : be_value (a ++ b) = be_value a * 256 ^ Z.of_nat (length b) + be_value b.
Proof. unfold be_value at 1. rewrite fold_left_app. apply be_value_acc. Qed.

Lemma be_value_bytes n v : be_value (be_bytes n v) = v mod 256 ^ Z.of_nat n.
Proof.
  induction n as [|n IH].
  - cbn. rewrite Z.mod_1_r. reflexivity.
  - cbn [be_bytes]. rewrite be_value_cons, be_bytes_length, IH.
    rewrite Nat2Z.inj_succ, Z.pow_succ_r by lia.
    set (p := 256 ^ Z.of_nat n). assert (0 < p) by (apply Z.pow_pos_nonneg; lia).
    rewrite (Z.mul_comm 256 p), Z.rem_mul_r by lia. lia.
Qed.
Lemma be_value_range bs : Forall is_byte bs -> 0 <= be_value bs < 256 ^ Z.of_nat (length bs).
Proof.
  induction 1 as [|b bs Hb H IH]; [cbn; lia|].
  rewrite be_value_cons. cbn [length]. rewrite Nat2Z.inj_succ, Z.pow_succ_r by lia.
  unfold is_byte in Hb. nia.
Qed.
Lemma be_bytes_small n v w : v mod 256 ^ Z.of_nat n = w mod 256 ^ Z.of_nat n -> be_bytes n v = be_bytes n w.
Proof.
  induction n as [|n IH]; [reflexivity|]. intros H. cbn [be_bytes].
  rewrite Nat2Z.inj_succ, Z.pow_succ_r in H by lia.
  set (p := 256 ^ Z.of_nat n) in *. assert (0 < p) by (apply Z.pow_pos_nonneg; lia).
  rewrite (Z.mul_comm 256 p), !Z.rem_mul_r in H by lia.
  pose proof (Z.mod_pos_bound v p ltac:(lia)). pose proof (Z.mod_pos_bound w p ltac:(lia)).
  assert (E1 : v / p mod 256 = w / p mod 256) by nia.
  f_equal; [exact E1|]. apply IH. fold p. nia.
Qed.
Lemma be_bytes_value bs : Forall is_byte bs -> be_bytes (length bs) (be_value bs) = bs.
Proof.
  induction 1 as [|b bs Hb H IH]; [reflexivity|]. cbn [length be_bytes].
  rewrite be_value_cons. pose proof (be_value_range bs H) as R. unfold is_byte in Hb.
  set (p := 256 ^ Z.of_nat (length bs)) in *.
  f_equal.
  - rewrite Z.div_add_l by lia. rewrite (Z.div_small (be_value bs)) by lia.
    rewrite Z.add_0_r. apply Z.mod_small. lia.
  - transitivity (be_bytes (length bs) (be_value bs)); [|exact IH]. apply be_bytes_small. fold p.
    rewrite Z.add_comm, Z.mod_add by lia. reflexivity.
Qed.

Lemma pack_be_ok n v : 0 <= v < 256 ^ Z.of_nat n -> pack_be n v = Ok (be_bytes n v).
Proof.
  intros H. unfold pack_be. replace ((0 <=? v) && (v <? 256 ^ Z.of_nat n)) with true by lia.
  reflexivity.
Qed.
Lemma pack_be_err n v : ~ (0 <= v < 256 ^ Z.of_nat n) -> pack_be n v = Err StructError.
Proof.
  intros H. unfold pack_be. replace ((0 <=? v) && (v <? 256 ^ Z.of_nat n)) with false by lia.
  reflexivity.
Qed.
Lemma pack_be_inv n v bs : pack_be n v = Ok bs -> 0 <= v < 256 ^ Z.of_nat n /\ bs = be_bytes n v.
Proof.
  unfold pack_be. destruct ((0 <=? v) && (v <? 256 ^ Z.of_nat n)) eqn:E; [|discriminate].
  intros H. inversion H. split; [lia|reflexivity].
Qed.
Lemma unpack_be_bytes n v : 0 <= v < 256 ^ Z.of_nat n -> unpack_be n (be_bytes n v) = Ok v.
Proof.
  intros H. unfold unpack_be. rewrite be_bytes_length, Z.eqb_refl, be_value_bytes.
  rewrite Z.mod_small by lia. reflexivity.
Qed.
Lemma unpack_pack_be n v bs : pack_be n v = Ok bs -> unpack_be n bs = Ok v.
Proof. intros H. apply pack_be_inv in H. destruct H as [H ->]. apply unpack_be_bytes, H. Qed.
Lemma pack_be_length n v bs : pack_be n v = Ok bs -> length bs = n.
Proof. intros H. apply pack_be_inv in H. destruct H as [_ ->]. apply be_bytes_length. Qed.
Lemma pack_le_length n v bs : pack_le n v = Ok bs -> length bs = n.
Proof.
  unfold pack_le. destruct (pack_be n v) eqn:E; [|discriminate]. intros H. inversion H.
  rewrite rev_length. apply (pack_be_length n v). exact E.
Qed.
Lemma unpack_pack_le n v bs : pack_le n v = Ok bs -> unpack_le n bs = Ok v.
Proof.
  unfold pack_le, unpack_le. destruct (pack_be n v) eqn:E; [|discriminate].
  intros H. inversion H. rewrite rev_involutive. apply unpack_pack_be. exact E.
Qed.
Lemma unpack_pack_any n bs : Forall is_byte bs -> length bs = n ->
  exists v, unpack_be n bs = Ok v /\ 0 <= v < 256 ^ Z.of_nat n /\ pack_be n v = Ok bs.
Proof.
  intros Hb <-. exists (be_value bs). unfold unpack_be. rewrite Z.eqb_refl.
  pose proof (be_value_range bs Hb) as R. split; [reflexivity|]. split; [exact R|].
  rewrite pack_be_ok by exact R. rewrite be_bytes_value by exact Hb. reflexivity.
Qed.

(** ** base 128 *)
(** Value of a digit list, most significant first. *)
Definition val128 (l : list Z) : Z := fold_left (fun a b => a * 128 + b) l 0.
Lemma val128_acc l a : fold_left (fun a b => a * 128 + b) l a =
  a * 128 ^ Z.of_nat (length l) + val128 l.
Proof.
  unfold val128. revert a; induction l as [|b bs IH]; intros a; cbn [fold_left length].
  - cbn. lia.
  - rewrite IH, (IH (0 * 128 + b)), Nat2Z.inj_succ, Z.pow_succ_r by lia. ring.
Qed.
Lemma val128_cons b l : val128 (b :: l) = b * 128 ^ Z.of_nat (length l) + val128 l.
Proof. unfold val128 at 1. cbn [fold_left]. rewrite val128_acc. reflexivity. Qed.
Lemma val128_snoc l b : val128 (l ++ [b]) = val128 l * 128 + b.
Proof. unfold val128 at 1. rewrite fold_left_app. reflexivity. Qed.

Definition digit (d : Z) : Prop := 0 <= d < 128.

Lemma shiftr7 v : Z.shiftr v 7 = v / 128.
Proof. rewrite Z.shiftr_div_pow2 by lia. reflexivity. Qed.
Lemma shiftl7 v : Z.shiftl v 7 = v * 128.
Proof. rewrite Z.shiftl_mul_pow2 by lia. reflexivity. Qed.

Lemma base128_loop_spec fuel : forall v ds, 0 <= v < 2 ^ Z.of_nat (7 * S fuel) ->
  Forall digit ds ->
  exists l, base128_loop fuel v ds = Some (l ++ ds) /\ Forall digit l /\ val128 l = v /\ l <> [] /\
    ((1 < length l)%nat -> hd 0 l <> 0).
Proof.
  induction fuel as [|f IH]; intros v ds Hv Hd; cbn [base128_loop].
  - change (2 ^ Z.of_nat (7 * 1)) with 128 in Hv.
    replace (128 <=? v) with false by lia. exists [v]. cbn. repeat split.
    + repeat constructor; lia.
    + discriminate.
    + lia.
  - destruct (Z.leb_spec 128 v) as [L|L].
    + rewrite shiftr7.
      destruct (IH (v / 128) (v mod 128 :: ds)) as (l & E & Dl & Vl & Nl & Hl).
      { split; [apply Z.div_pos; lia|]. apply Z.div_lt_upper_bound; [lia|].
        replace (Z.of_nat (7 * S (S f))) with (7 + Z.of_nat (7 * S f)) in Hv by lia.
        rewrite Z.pow_add_r in Hv by lia. change (2 ^ 7) with 128 in Hv. lia. }
      { constructor; [|exact Hd]. unfold digit. apply Z.mod_pos_bound. lia. }
      exists (l ++ [v mod 128]). rewrite E, <- app_assoc. repeat split.
      * apply Forall_app. split; [exact Dl|]. repeat constructor; apply Z.mod_pos_bound; lia.
      * rewrite val128_snoc, Vl. pose proof (Z.div_mod v 128). lia.
      * destruct l; discriminate.
      * intros _. destruct l as [|a l]; [congruence|]. cbn [app hd].
        destruct l as [|b l].
        -- cbn in Vl. pose proof (Z.div_mod v 128). pose proof (Z.mod_pos_bound v 128). lia.
        -- apply Hl. cbn. lia.
    + exists [v]. cbn. repeat split.
      * repeat constructor; lia.
      * discriminate.
      * lia.
Qed.

Lemma base128_fuel_ok v : 0 <= v -> v < 2 ^ Z.of_nat (7 * S (base128_fuel v)).
Proof.
  intros H. unfold base128_fuel. destruct (Z.eq_dec v 0) as [->|N].
  - reflexivity.
  - pose proof (Z.log2_spec v ltac:(lia)) as L.
    eapply Z.lt_le_trans; [apply L|]. apply Z.pow_le_mono_r; [lia|].
    pose proof (Z.log2_nonneg v). lia.
Qed.

Lemma base128_terminates v : exists l, base128_loop (base128_fuel v) v [] = Some l.
Proof.
  destruct (Z_lt_le_dec v 0) as [N|N].
  - exists [v]. unfold base128_fuel. cbn [base128_loop].
    replace (128 <=? v) with false by lia. reflexivity.
  - destruct (base128_loop_spec (base128_fuel v) v []) as (l & E & _).
    + split; [exact N|apply base128_fuel_ok; exact N].
    + constructor.
    + eauto.
Qed.

Lemma base128_spec v : 0 <= v ->
  Forall digit (base128 v) /\ val128 (base128 v) = v /\ base128 v <> [] /\
  ((1 < length (base128 v))%nat -> hd 0 (base128 v) <> 0).
Proof.
  intros H. unfold base128.
  destruct (base128_loop_spec (base128_fuel v) v []) as (l & E & D & V & N & Z0).
  - split; [exact H|apply base128_fuel_ok; exact H].
  - constructor.
  - rewrite E, app_nil_r. auto.
Qed.

Lemma snoc_inv {A} (l : list A) d : l <> [] -> l = removelast l ++ [last l d].
Proof. apply app_removelast_last. Qed.

Lemma lor128 d : digit d -> Z.lor d 128 = d + 128.
Proof.
  intros H. unfold digit in H. symmetry. rewrite <- Z.lxor_lor; [rewrite Z.add_nocarry_lxor; [reflexivity|]|];
  (apply Z.bits_inj'; intros i Hi; rewrite Z.land_spec, Z.bits_0;
   change 128 with (2 ^ 7); rewrite Z.pow2_bits_eqb by lia;
   destruct (Z.eqb_spec 7 i) as [<-|]; [|apply andb_false_r];
   rewrite andb_true_r; apply (Z.bits_above_log2 d 7); [lia|];
   destruct (Z.eq_dec d 0) as [->|]; [reflexivity|apply Z.log2_lt_pow2; cbn; lia]).
Qed.
Lemma land128 d : is_byte d -> (Z.land d 128 =? 0) = (d <? 128).
Proof.
  intros H. unfold is_byte in H.
  assert (E : Z.land d 128 = if d <? 128 then 0 else 128).
  { destruct (Z.ltb_spec d 128) as [L|L].
    - apply Z.bits_inj'; intros i Hi. rewrite Z.land_spec, Z.bits_0.
      change 128 with (2 ^ 7); rewrite Z.pow2_bits_eqb by lia.
      destruct (Z.eqb_spec 7 i) as [<-|]; [|apply andb_false_r].
      rewrite andb_true_r; apply (Z.bits_above_log2 d 7); [lia|].
      destruct (Z.eq_dec d 0) as [->|]; [reflexivity|apply Z.log2_lt_pow2; cbn; lia].
    - assert (E : d = Z.lor (d - 128) 128) by (rewrite lor128; [lia|unfold digit; lia]).
      rewrite E, Z.land_lor_distr_l, Z.land_diag.
      assert (E2 : Z.land (d - 128) 128 = 0).
      { apply Z.bits_inj'; intros i Hi. rewrite Z.land_spec, Z.bits_0.
        change 128 with (2 ^ 7) at 2; rewrite Z.pow2_bits_eqb by lia.
        destruct (Z.eqb_spec 7 i) as [<-|]; [|apply andb_false_r].
        rewrite andb_true_r; apply (Z.bits_above_log2 (d - 128) 7); [lia|].
        destruct (Z.eq_dec (d - 128) 0) as [->|]; [reflexivity|apply Z.log2_lt_pow2; cbn; lia]. }
      rewrite E2. reflexivity. }
  rewrite E. destruct (d <? 128); reflexivity.
Qed.
Lemma land127 d : Z.land d 127 = d mod 128.
Proof. change 127 with (Z.ones 7). rewrite Z.land_ones by lia. reflexivity. Qed.

Lemma one_byte_ok d : is_byte d -> one_byte d = Ok [d].
Proof. unfold is_byte, one_byte, is_byteb. intros H. replace ((0 <=? d) && (d <? 256)) with true by lia. reflexivity. Qed.

Lemma concat_single {A B} (f : A -> B) l : concat (map (fun x => [f x]) l) = map f l.
Proof. induction l; cbn; congruence. Qed.

(** What is written: every digit but the last with the high bit set. *)
Definition vlv (v : Z) : list Z := map (Z.add 128) (removelast (base128 v)) ++ [last (base128 v) 0].

Lemma in_removelast' {A} (q : list A) x : In x (removelast q) -> In x q.
Proof.
  induction q as [|a q IH]; [tauto|]. destruct q as [|b q]; [cbn; tauto|].
  intros [->|H]; [left; reflexivity|right; apply IH; exact H].
Qed.
Lemma last_in {A} (l : list A) d : l <> [] -> In (last l d) l.
Proof.
  intros H. rewrite (app_removelast_last d H) at 2. apply in_app_iff. right. left. reflexivity.
Qed.

Lemma writevlv_ok v : 0 <= v -> writevlv v = Ok (vlv v).
Proof.
  intros H. destruct (base128_spec v H) as (D & V & N & _).
  rewrite Forall_forall in D. unfold writevlv, vlv.
  rewrite (mapM_map_ok _ (fun d => [128 + d])).
  - cbn [bind]. rewrite one_byte_ok.
    + cbn [bind]. rewrite concat_single. reflexivity.
    + specialize (D _ (last_in _ 0 N)). unfold digit, is_byte in *. lia.
  - intros d Hd. apply in_removelast' in Hd. specialize (D d Hd). rewrite lor128 by exact D.
    rewrite one_byte_ok; [f_equal; f_equal; lia|]. unfold digit, is_byte in *. lia.
Qed.
Lemma writevlv_neg v : v < 0 -> writevlv v = Err ValueError.
Proof.
  intros H. unfold writevlv, base128, base128_fuel. cbn [base128_loop].
  replace (128 <=? v) with false by lia. cbn [removelast mapM bind last].
  unfold one_byte, is_byteb. replace ((0 <=? v) && (v <? 256)) with false by lia. reflexivity.
Qed.

Lemma vlv_bytes v : 0 <= v -> Forall is_byte (vlv v).
Proof.
  intros H. destruct (base128_spec v H) as (D & _ & N & _). rewrite Forall_forall in D.
  unfold vlv. apply Forall_app. split.
  - apply Forall_forall. intros x Hx. apply in_map_iff in Hx. destruct Hx as (d & <- & Hd).
    apply in_removelast' in Hd. specialize (D d Hd). unfold digit, is_byte in *. lia.
  - repeat constructor; specialize (D _ (last_in _ 0 N)); unfold digit in *; lia.
Qed.

Lemma readvlv_loop_digits ds : forall a z r, Forall digit ds -> digit z ->
  readvlv_loop a (map (Z.add 128) ds ++ z :: r) =
  Ok (a * 128 ^ Z.of_nat (S (length ds)) + val128 (ds ++ [z]), r).
Proof.
  induction ds as [|d ds IH]; intros a z r Hd Hz; cbn [map app readvlv_loop length].
  - rewrite land128 by (unfold digit, is_byte in *; lia). unfold digit in Hz.
    replace (z <? 128) with true by lia. cbn [negb]. rewrite shiftl7. reflexivity.
  - inversion Hd as [|? ? H1 H2]; subst.
    rewrite land128 by (unfold digit, is_byte in *; lia).
    replace (128 + d <? 128) with false by (unfold digit in *; lia). cbn [negb].
    rewrite IH by assumption. rewrite shiftl7, land127.
    replace ((128 + d) mod 128) with d.
    2:{ replace (128 + d) with (d + 1 * 128) by lia. rewrite Z.mod_add by lia.
        rewrite Z.mod_small; [reflexivity|exact H1]. }
    cbn [app]. rewrite val128_cons. rewrite app_length. cbn [length].
    replace (length ds + 1)%nat with (S (length ds)) by lia.
    rewrite (Nat2Z.inj_succ (S (length ds))), Z.pow_succ_r by lia. f_equal. f_equal. ring.
Qed.

Lemma readvlv_vlv v r : 0 <= v -> readvlv (vlv v ++ r) = Ok (v, r).
Proof.
  intros H. destruct (base128_spec v H) as (D & V & N & _).
  unfold readvlv, vlv. rewrite <- app_assoc. cbn [app].
  rewrite readvlv_loop_digits.
  - rewrite <- (app_removelast_last 0 N). rewrite V. f_equal.
  - rewrite Forall_forall in *. intros d Hd. apply D. apply in_removelast'. exact Hd.
  - rewrite Forall_forall in D. apply D, last_in, N.
Qed.

(** Reading stops at the first byte below 128. *)
Lemma readvlv_inv s : forall a v r, Forall is_byte s -> readvlv_loop a s = Ok (v, r) ->
  exists ds z, s = map (Z.add 128) ds ++ z :: r /\ Forall digit ds /\ digit z /\
    v = a * 128 ^ Z.of_nat (S (length ds)) + val128 (ds ++ [z]).
Proof.
  induction s as [|d s IH]; intros a v r Hb H; cbn [readvlv_loop] in H; [discriminate|].
  inversion Hb as [|? ? H1 H2]; subst. rewrite land128 in H by exact H1.
  destruct (Z.ltb_spec d 128) as [L|L]; cbn [negb] in H.
  - rewrite shiftl7 in H. injection H as <- <-. exists [], d. cbn [map app length]. unfold val128, is_byte, digit in *. cbn [fold_left app]. change (128 ^ Z.of_nat 1) with 128.
    repeat split; auto; lia.
  - destruct (IH _ _ _ H2 H) as (ds & z & -> & D & Dz & ->).
    exists ((d - 128) :: ds), z. cbn [map app]. repeat split.
    + f_equal. lia.
    + constructor; [unfold digit, is_byte in *; lia|exact D].
    + apply Dz.
    + apply Dz.
    + rewrite shiftl7, land127. cbn [length]. rewrite val128_cons, app_length. cbn [length].
      replace (length ds + 1)%nat with (S (length ds)) by lia.
      rewrite (Nat2Z.inj_succ (S (length ds))), Z.pow_succ_r by lia.
      replace (d mod 128) with (d - 128).
      2:{ symmetry. unfold is_byte in *. replace d with ((d - 128) + 1 * 128) at 1 by lia.
          rewrite Z.mod_add by lia. apply Z.mod_small. lia. }
      ring.
Qed.

Lemma val128_range l : Forall digit l -> 0 <= val128 l < 128 ^ Z.of_nat (length l).
Proof.
  induction 1 as [|d l Hd H IH]; [cbn; lia|].
  rewrite val128_cons. cbn [length]. rewrite Nat2Z.inj_succ, Z.pow_succ_r by lia.
  unfold digit in Hd. nia.
Qed.

Lemma vlv_length v : length (vlv v) = S (length (removelast (base128 v))).
Proof. unfold vlv. rewrite app_length, map_length. cbn. lia. Qed.
Lemma vlv_length' v : 0 <= v -> length (vlv v) = length (base128 v).
Proof.
  intros H. destruct (base128_spec v H) as (_ & _ & N & _).
  rewrite vlv_length. rewrite (app_removelast_last 0 N) at 2. rewrite app_length. cbn. lia.
Qed.

Lemma vlv_lower v : 0 <= v -> (1 < length (vlv v))%nat -> 128 ^ Z.of_nat (length (vlv v) - 1) <= v.
Proof.
  intros H L. rewrite vlv_length' in * by exact H.
  destruct (base128_spec v H) as (D & V & N & Z0). specialize (Z0 L).
  rewrite <- V at 2. destruct (base128 v) as [|d l]; [congruence|].
  rewrite val128_cons. cbn [hd length] in *. inversion D as [|? ? D1 D2]; subst.
  pose proof (val128_range l D2). replace (S (length l) - 1)%nat with (length l) by lia.
  unfold digit in D1. nia.
Qed.

(** No shorter byte string reads back as v. *)
Lemma vlv_minimal v s : Forall is_byte s -> readvlv s = Ok (v, []) ->
  (length (vlv v) <= length s)%nat.
Proof.
  intros Hb H. destruct (readvlv_inv s 0 v [] Hb H) as (ds & z & -> & D & Dz & E).
  assert (R : 0 <= v < 128 ^ Z.of_nat (S (length ds))).
  { rewrite E. assert (Dd : Forall digit (ds ++ [z])) by (apply Forall_app; auto).
    pose proof (val128_range _ Dd) as R. rewrite app_length in R. cbn [length] in R.
    replace (length ds + 1)%nat with (S (length ds)) in R by lia. lia. }
  rewrite app_length, map_length. cbn [length].
  destruct (le_lt_dec (length (vlv v)) 1) as [L|L]; [lia|].
  pose proof (vlv_lower v ltac:(lia) L) as Lo.
  destruct (le_lt_dec (length (vlv v)) (length ds + 1)) as [K|K]; [exact K|exfalso].
  assert (128 ^ Z.of_nat (S (length ds)) <= 128 ^ Z.of_nat (length (vlv v) - 1))
    by (apply Z.pow_le_mono_r; lia). lia.
Qed.

(** Truncation. *)
Lemma readvlv_high p : forall a, Forall (fun d => is_byte d /\ 128 <= d) p ->
  readvlv_loop a p = Err TypeError.
Proof.
  induction p as [|d p IH]; intros a H; [reflexivity|]. cbn [readvlv_loop].
  inversion H as [|? ? H1 H2]; subst. rewrite land128 by apply H1.
  replace (d <? 128) with false by lia. cbn [negb]. apply IH. exact H2.
Qed.
Lemma readvlv_truncated v p q : 0 <= v -> vlv v = p ++ q -> q <> [] -> readvlv p = Err TypeError.
Proof.
  intros H E Hq. apply readvlv_high. destruct (base128_spec v H) as (D & _ & N & _).
  rewrite Forall_forall in D. unfold vlv in E.
  destruct q as [|x q] using rev_ind; [congruence|]. rewrite app_assoc in E.
  apply app_inj_tail in E. destruct E as [E _]. apply Forall_forall. intros d Hd.
  assert (I : In d (map (Z.add 128) (removelast (base128 v)))).
  { rewrite E. apply in_app_iff. auto. }
  apply in_map_iff in I. destruct I as (d' & <- & I). apply in_removelast' in I.
  specialize (D d' I). unfold digit, is_byte in *. lia.
Qed.

Lemma vlv_prefix_free v w r r' : 0 <= v -> 0 <= w -> vlv v ++ r = vlv w ++ r' -> v = w /\ r = r'.
Proof.
  intros Hv Hw E. pose proof (readvlv_vlv v r Hv) as A. rewrite E in A.
  rewrite (readvlv_vlv w r' Hw) in A. inversion A. auto.
Qed.

(** Canonical form: no leading 0x80. *)
Lemma vlv_no_padding v : 0 <= v -> hd 0 (vlv v) <> 128.
Proof.
  intros H. destruct (base128_spec v H) as (D & V & N & Z0). unfold vlv.
  destruct (base128 v) as [|d l]; [congruence|]. inversion D as [|? ? D1 D2]; subst.
  destruct l as [|e l].
  - cbn. unfold digit in D1. lia.
  - change (removelast (d :: e :: l)) with (d :: removelast (e :: l)). cbn [map app hd] in *.
    specialize (Z0 ltac:(cbn; lia)). unfold digit in D1. lia.
Qed.

(** Signed. *)
Definition svlv (v : Z) : list Z := (if v <? 0 then 255 else 0) :: vlv (Z.abs v).
Lemma writesvlv_ok v : writesvlv v = Ok (svlv v).
Proof. unfold writesvlv. rewrite writevlv_ok by lia. reflexivity. Qed.
Lemma readsvlv_svlv v r : readsvlv (svlv v ++ r) = Ok (v, r).
Proof.
  unfold svlv, readsvlv. cbn [app]. rewrite readvlv_vlv by lia. cbn [bind].
  destruct (Z.ltb_spec v 0); cbn; f_equal; f_equal; lia.
Qed.
Lemma svlv_bytes v : Forall is_byte (svlv v).
Proof.
  unfold svlv. constructor; [destruct (v <? 0); unfold is_byte; lia|apply vlv_bytes; lia].
Qed.

(** ** names *)
Definition ascii_name (s : list Z) : Prop := Forall (fun c => 0 < c < 128) s.

Lemma ascii_encode_ok s : Forall (fun c => c < 128) s -> ascii_encode s = Ok s.
Proof.
  intros H. unfold ascii_encode. replace (forallb (fun c => c <? 128) s) with true; [reflexivity|].
  symmetry. apply forallb_forall. rewrite Forall_forall in H. intros c Hc. specialize (H c Hc). lia.
Qed.
Lemma ascii_encode_err s : (exists c, In c s /\ 128 <= c) -> ascii_encode s = Err UnicodeError.
Proof.
  intros (c & Hc & L). unfold ascii_encode.
  destruct (forallb (fun c => c <? 128) s) eqn:E; [|reflexivity].
  rewrite forallb_forall in E. specialize (E c Hc). lia.
Qed.
Lemma ascii_encode_inv s e : ascii_encode s = Ok e -> e = s /\ Forall (fun c => c < 128) s.
Proof.
  unfold ascii_encode. destruct (forallb (fun c => c <? 128) s) eqn:E; [|discriminate].
  intros H. injection H as <-. split; [reflexivity|]. rewrite Forall_forall. rewrite forallb_forall in E.
  intros c Hc. specialize (E c Hc). lia.
Qed.
Lemma writeascii_ok s : Forall (fun c => c < 128) s -> writeascii s = Ok (s ++ [0]).
Proof. intros H. unfold writeascii. rewrite ascii_encode_ok by exact H. reflexivity. Qed.
Lemma writeascii_err s : (exists c, In c s /\ 128 <= c) -> writeascii s = Err UnicodeError.
Proof. intros H. unfold writeascii. rewrite ascii_encode_err by exact H. reflexivity. Qed.

Lemma readascii_loop_ok s : forall fuel acc r, Forall (fun c => c <> 0) s ->
  (length s < fuel)%nat -> readascii_loop fuel acc (s ++ 0 :: r) = Some (acc ++ s, r).
Proof.
  induction s as [|c s IH]; intros fuel acc r H Hf; (destruct fuel as [|f]; [cbn in Hf; lia|]).
  - cbn. rewrite app_nil_r. reflexivity.
  - cbn [app readascii_loop]. inversion H as [|? ? H1 H2]; subst.
    replace (c =? 0) with false by lia. rewrite IH by (cbn in *; auto; lia).
    rewrite <- app_assoc. reflexivity.
Qed.
Lemma readascii_ok s fuel r : ascii_name s -> (length s < fuel)%nat ->
  readascii fuel ((s ++ [0]) ++ r) = Some (Ok (s, r)).
Proof.
  intros H Hf. unfold readascii. rewrite <- app_assoc. cbn [app].
  rewrite readascii_loop_ok.
  - cbn [app]. unfold ascii_decode.
    replace (forallb (fun c => c <? 128) s) with true; [reflexivity|].
    symmetry. apply forallb_forall. unfold ascii_name in H. rewrite Forall_forall in H.
    intros c Hc. specialize (H c Hc). lia.
  - unfold ascii_name in H. rewrite Forall_forall in *. intros c Hc. specialize (H c Hc). lia.
  - exact Hf.
Qed.
Lemma readascii_loop_nonterm s : forall fuel acc, ~ In 0 s -> readascii_loop fuel acc s = None.
Proof.
  induction s as [|c s IH]; intros fuel acc H.
  - revert acc; induction fuel as [|f IHf]; intros acc; [reflexivity|]. cbn [readascii_loop].
    apply IHf.
  - destruct fuel as [|f]; [reflexivity|]. cbn [readascii_loop].
    destruct (Z.eqb_spec c 0) as [->|N]; [exfalso; apply H; left; reflexivity|].
    apply IH. intros I. apply H. right. exact I.
Qed.
Lemma readascii_nonterm s fuel : ~ In 0 s -> readascii fuel s = None.
Proof. intros H. unfold readascii. rewrite readascii_loop_nonterm by exact H. reflexivity. Qed.

(** A name containing NUL is cut there. *)
Lemma readascii_nul a b fuel r : ascii_name a -> (length a < fuel)%nat ->
  readascii fuel (((a ++ 0 :: b) ++ [0]) ++ r) = Some (Ok (a, b ++ 0 :: r)).
Proof.
  intros H Hf. rewrite <- !app_assoc. cbn [app]. rewrite <- ?app_assoc. cbn [app].
  replace (a ++ 0 :: b ++ 0 :: r) with ((a ++ [0]) ++ b ++ 0 :: r)
    by (rewrite <- app_assoc; reflexivity).
  apply readascii_ok; assumption.
Qed.

(** ** In terms of the API only *)
Lemma api_round v : 0 <= v -> exists bs, writevlv v = Ok bs /\ Forall is_byte bs /\
  forall r, readvlv (bs ++ r) = Ok (v, r).
Proof.
  intros H. exists (vlv v). rewrite writevlv_ok by exact H.
  split; [reflexivity|]. split; [apply vlv_bytes; exact H|].
  intros r. apply readvlv_vlv. exact H.
Qed.
Lemma writevlv_inv v bs : writevlv v = Ok bs -> 0 <= v /\ bs = vlv v.
Proof.
  intros H. destruct (Z_lt_le_dec v 0) as [N|N]; [rewrite writevlv_neg in H by exact N; discriminate|].
  rewrite writevlv_ok in H by exact N. inversion H. auto.
Qed.
Lemma api_prefix v w bs cs r r' : writevlv v = Ok bs -> writevlv w = Ok cs ->
  bs ++ r = cs ++ r' -> v = w /\ r = r'.
Proof.
  intros Hv Hw E. apply writevlv_inv in Hv, Hw. destruct Hv as [Hv ->], Hw as [Hw ->].
  apply vlv_prefix_free; assumption.
Qed.
Lemma api_minimal v bs s : writevlv v = Ok bs -> Forall is_byte s -> readvlv s = Ok (v, []) ->
  (length bs <= length s)%nat.
Proof.
  intros Hv Hb Hr. apply writevlv_inv in Hv. destruct Hv as [Hv ->]. apply vlv_minimal; assumption.
Qed.
Lemma api_canonical v bs : writevlv v = Ok bs -> exists b r, bs = b :: r /\ b <> 128.
Proof.
  intros Hv. apply writevlv_inv in Hv. destruct Hv as [Hv ->].
  pose proof (vlv_no_padding v Hv) as P. pose proof (vlv_length v) as L.
  destruct (vlv v) as [|b r]; [discriminate|]. exists b, r. auto.
Qed.
Lemma api_truncated v p q : writevlv v = Ok (p ++ q) -> q <> [] -> readvlv p = Err TypeError.
Proof.
  intros Hv Hq. apply writevlv_inv in Hv. destruct Hv as [Hv E].
  apply (readvlv_truncated v p q Hv); congruence.
Qed.
Lemma api_sround v : exists bs, writesvlv v = Ok bs /\ Forall is_byte bs /\
  forall r, readsvlv (bs ++ r) = Ok (v, r).
Proof.
  exists (svlv v). rewrite writesvlv_ok. split; [reflexivity|]. split; [apply svlv_bytes|].
  intros r. apply readsvlv_svlv.
Qed.
Lemma api_struncated v p q : writesvlv v = Ok (p ++ q) -> q <> [] -> readsvlv p = Err TypeError.
Proof.
  rewrite writesvlv_ok. intros H Hq. injection H as E. unfold svlv in E.
  destruct p as [|g p]; [reflexivity|]. cbn [app] in E. injection E as E1 E2.
  cbn [readsvlv]. rewrite (readvlv_truncated (Z.abs v) p q ltac:(lia) E2 Hq). reflexivity.
Qed.
(** The reader accepts any non-zero sign byte. *)
Lemma readsvlv_sign g v bs r : writevlv v = Ok bs -> g <> 0 ->
  readsvlv (g :: bs ++ r) = Ok (- v, r).
Proof.
  intros Hv Hg. apply writevlv_inv in Hv. destruct Hv as [Hv ->]. cbn [readsvlv].
  rewrite readvlv_vlv by exact Hv. cbn [bind]. replace (g =? 0) with false by lia. reflexivity.
Qed.
(** Reading terminates on every input, never looks past the first low byte and
    ignores the rest. *)
Lemma readvlv_frame s : forall a v r t, readvlv_loop a s = Ok (v, r) ->
  readvlv_loop a (s ++ t) = Ok (v, r ++ t).
Proof.
  induction s as [|d s IH]; intros a v r t H; cbn [readvlv_loop app] in *; [discriminate|].
  destruct (negb (Z.land d 128 =? 0)); [apply IH; exact H|]. inversion H. reflexivity.
Qed.
