(** Lemmas about Python text. *)
From Coq Require Import Lia ZifyBool.
From Verif Require Import Py StrModel.
Open Scope Z_scope.

Definition digits_val (l : list Z) : Z := fold_left (fun a c => a * 10 + (c - 48)) l 0.
Definition all_digits (l : list Z) : Prop := Forall (fun c => 48 <= c <= 57) l.

Lemma digits_val_acc l a : fold_left (fun a c => a * 10 + (c - 48)) l a =
  a * 10 ^ Z.of_nat (length l) + digits_val l.
Proof.
  unfold digits_val. revert a; induction l as [|b bs IH]; intros a; cbn [fold_left length].
  - cbn. lia.
  - rewrite IH, (IH (0 * 10 + (b - 48))). rewrite Nat2Z.inj_succ, Z.pow_succ_r by lia. lia.
Qed.
Lemma digits_val_cons c l : digits_val (c :: l) = (c - 48) * 10 ^ Z.of_nat (length l) + digits_val l.
Proof. unfold digits_val at 1. cbn [fold_left]. rewrite digits_val_acc. lia. Qed.

Lemma dec_loop_spec fuel : forall v acc, 0 <= v < 10 * 2 ^ Z.of_nat fuel ->
  exists l, dec_loop fuel v acc = l ++ acc /\ all_digits l /\ digits_val l = v /\ l <> [] /\
    ((1 < length l)%nat -> hd 0 l <> 48).
Proof.
  induction fuel as [|f IH]; intros v acc H; cbn [dec_loop].
  - exists [48 + v]. cbn in H. split; [reflexivity|]. split; [repeat constructor; lia|].
    split; [unfold digits_val; cbn; lia|]. split; [discriminate|]. cbn. lia.
  - destruct (Z.leb_spec 10 v) as [L|L].
    + assert (B : 0 <= v / 10 < 10 * 2 ^ Z.of_nat f).
      { split; [apply Z.div_pos; lia|]. apply Z.div_lt_upper_bound; [lia|].
        rewrite Nat2Z.inj_succ, Z.pow_succ_r in H by lia. lia. }
      assert (M : 0 <= v mod 10 < 10) by (apply Z.mod_pos_bound; lia).
      destruct (IH (v / 10) (48 + v mod 10 :: acc) B) as (l & E & A & V & N & Hd).
      exists (l ++ [48 + v mod 10]). rewrite E, <- app_assoc. split; [reflexivity|].
      split; [apply Forall_app; split; [exact A|repeat constructor; lia]|].
      split; [|split; [destruct l; discriminate|]].
      * unfold digits_val. rewrite fold_left_app. cbn. fold (digits_val l). rewrite V.
        pose proof (Z.div_mod v 10). lia.
      * intros _. destruct l as [|d [|d' l]]; [congruence| |cbn in *; apply Hd; lia].
        cbn. unfold digits_val in V. cbn in V. intros ->.
        assert (v / 10 >= 1) by (pose proof (Z.div_le_lower_bound v 10 1); lia). lia.
    + exists [48 + v]. split; [reflexivity|]. split; [repeat constructor; lia|].
      split; [unfold digits_val; cbn; lia|]. split; [discriminate|]. cbn. lia.
Qed.
Lemma dec_nat_spec v : 0 <= v -> all_digits (dec_nat v) /\ digits_val (dec_nat v) = v /\ dec_nat v <> [] /\
  ((1 < length (dec_nat v))%nat -> hd 0 (dec_nat v) <> 48).
Proof.
  intros H. unfold dec_nat.
  destruct (dec_loop_spec (Z.to_nat (Z.log2 v)) v []) as (l & E & A & V & N & Hd).
  - split; [exact H|]. rewrite Z2Nat.id by apply Z.log2_nonneg.
    destruct (Z.eq_dec v 0) as [->|Nz]; [reflexivity|].
    pose proof (Z.log2_spec v ltac:(lia)) as L. rewrite Z.pow_succ_r in L by apply Z.log2_nonneg. lia.
  - rewrite E, app_nil_r. auto.
Qed.

Lemma int_digits_val l : forall after acc, all_digits l -> l <> [] \/ after = true ->
  int_digits after acc l = Some (fold_left (fun a c => a * 10 + (c - 48)) l acc).
Proof.
  induction l as [|c l IH]; intros after acc A N; cbn [int_digits fold_left].
  - destruct N as [N| ->]; [congruence|reflexivity].
  - inversion A as [|? ? Hc A']; subst. unfold is_digit.
    replace ((48 <=? c) && (c <=? 57)) with true by lia. apply IH; auto.
Qed.
Lemma rstrip_none p l : Forall (fun c => p c = false) l -> rstrip_by p l = l.
Proof.
  induction 1 as [|c l H _ IH]; [reflexivity|]. cbn. rewrite IH. destruct l; [|reflexivity]. rewrite H. reflexivity.
Qed.
Lemma rstrip_app p l s : Forall (fun c => p c = true) s -> rstrip_by p (l ++ s) = rstrip_by p l.
Proof.
  intros F. assert (E : rstrip_by p s = []).
  { induction F as [|c s H _ IH]; [reflexivity|]. cbn. rewrite IH, H. reflexivity. }
  induction l as [|c l IH]; [exact E|]. cbn. rewrite IH. reflexivity.
Qed.
Lemma lstrip_none p l : (match l with [] => True | c :: _ => p c = false end) -> lstrip_by p l = l.
Proof. destruct l as [|c l]; [reflexivity|]. intros H. cbn. rewrite H. reflexivity. Qed.
Lemma digit_not_space c : 48 <= c <= 57 -> is_space c = false.
Proof. intros H. unfold is_space. lia. Qed.
Lemma str_int_chars z : Forall (fun c => c = 45 \/ 48 <= c <= 57) (str_int z) /\ str_int z <> [].
Proof.
  unfold str_int. destruct (Z.ltb_spec z 0) as [N|N].
  - destruct (dec_nat_spec (- z) ltac:(lia)) as (A & _ & _ & _). split; [|discriminate].
    constructor; [left; reflexivity|]. eapply Forall_impl; [|exact A]. cbn. lia.
  - destruct (dec_nat_spec z N) as (A & _ & Ne & _). split; [|exact Ne].
    eapply Forall_impl; [|exact A]. cbn. lia.
Qed.
Lemma str_int_nospace z : Forall (fun c => is_space c = false) (str_int z).
Proof.
  eapply Forall_impl; [|apply str_int_chars]. intros c [->|H]; [reflexivity|]. apply digit_not_space. exact H.
Qed.
Lemma strip_str_int z s : Forall (fun c => is_space c = true) s -> strip (str_int z ++ s) = str_int z.
Proof.
  intros F. unfold strip. rewrite lstrip_none.
  - rewrite rstrip_app by exact F. apply rstrip_none, str_int_nospace.
  - pose proof (str_int_nospace z) as A. pose proof (proj2 (str_int_chars z)) as N.
    destruct (str_int z) as [|c l]; [congruence|]. inversion A; auto.
Qed.
(** int(str(z) followed by white space) = z *)
Lemma py_int_str z s : Forall (fun c => is_space c = true) s -> py_int (str_int z ++ s) = Ok z.
Proof.
  intros F. unfold py_int. rewrite strip_str_int by exact F. unfold str_int.
  destruct (Z.ltb_spec z 0) as [N|N].
  - destruct (dec_nat_spec (- z) ltac:(lia)) as (A & V & Ne & _).
    rewrite int_digits_val by auto. fold (digits_val (dec_nat (- z))). rewrite V. cbn. f_equal. lia.
  - destruct (dec_nat_spec z N) as (A & V & Ne & _).
    assert (E : int_digits false 0 (dec_nat z) = Some z).
    { rewrite int_digits_val by auto. fold (digits_val (dec_nat z)). rewrite V. reflexivity. }
    destruct (dec_nat z) as [|c l]; [congruence|]. inversion A as [|? ? Hc _]; subst.
    assert (c <> 43 /\ c <> 45) as [C1 C2] by lia.
    assert (G : (match c :: l with 43 :: t => int_digits false 0 t
       | 45 :: t => option_map Z.opp (int_digits false 0 t) | t => int_digits false 0 t end) = int_digits false 0 (c :: l)).
    { destruct c as [|p|p]; try reflexivity.
      repeat (destruct p as [p|p|]; try reflexivity; try congruence). }
    rewrite G, E. reflexivity.
Qed.

Lemma split_on_none c w : ~ In c w -> split_on c w = [w].
Proof.
  induction w as [|x w IH]; intros N; [reflexivity|]. cbn in *.
  destruct (Z.eqb_spec x c) as [->|]; [tauto|]. rewrite IH by tauto. reflexivity.
Qed.
Lemma split_on_cons c w s : ~ In c w -> split_on c (w ++ c :: s) = w :: split_on c s.
Proof.
  induction w as [|x w IH]; intros N; cbn [app split_on].
  - rewrite Z.eqb_refl. reflexivity.
  - cbn in N. destruct (Z.eqb_spec x c) as [->|]; [tauto|]. rewrite IH by tauto. reflexivity.
Qed.
Lemma split_join c l : l <> [] -> Forall (fun w => ~ In c w) l -> split_on c (join c l) = l.
Proof.
  intros N F. induction F as [|w l Hw F IH]; [congruence|]. cbn [join]. destruct l as [|w' l].
  - apply split_on_none. exact Hw.
  - rewrite split_on_cons by exact Hw. rewrite IH by discriminate. reflexivity.
Qed.
Lemma split_on_count c s : length (split_on c s) = S (count_occ Z.eq_dec s c).
Proof.
  induction s as [|x s IH]; [reflexivity|]. cbn [split_on count_occ].
  destruct (Z.eqb_spec x c) as [->|N].
  - destruct (Z.eq_dec c c); [|congruence]. cbn. rewrite IH. reflexivity.
  - destruct (Z.eq_dec x c); [congruence|]. destruct (split_on c s); cbn in *; congruence.
Qed.
Lemma join_snoc c l w s : join c (l ++ [w]) ++ s = join c (l ++ [w ++ s]).
Proof.
  induction l as [|x l IH]; [reflexivity|]. cbn [app join].
  destruct (l ++ [w]) as [|y m] eqn:E; [destruct l; discriminate|].
  destruct (l ++ [w ++ s]) as [|y' m'] eqn:E'; [destruct l; discriminate|].
  rewrite <- app_assoc. cbn [app]. rewrite IH. reflexivity.
Qed.

Lemma univ_id s : ~ In 13 s -> univ_newlines s = s.
Proof.
  induction s as [|c s IH]; intros N; [reflexivity|]. cbn in N.
  assert (E : univ_newlines (c :: s) = c :: univ_newlines s).
  { destruct c as [|p|p]; try reflexivity. repeat (destruct p as [p|p|]; try reflexivity). tauto. }
  rewrite E, IH by tauto. reflexivity.
Qed.
Lemma readline_ok w s : ~ In 10 w -> readline (w ++ 10 :: s) = (w ++ [10], s).
Proof.
  induction w as [|c w IH]; intros N; [reflexivity|]. cbn in *.
  destruct (Z.eqb_spec c 10) as [->|]; [tauto|]. rewrite IH by tauto. reflexivity.
Qed.
