From Coq Require Import ZifyBool ZifyNat Lqa Qfield.
From Verif Require Import Num VlvModel VlvProofs Utf8Model Utf8Proofs RoundProofs GridModel GridSpec.
Open Scope Z_scope.

(** ** IVar *)

Lemma ivar_new_cases name mn mx nl :
  (mx <= mn -> ivar_new name mn mx nl = Err AssertionError) /\
  (mn < mx -> mx - mn + 1 + b2z nl > 256 ^ 8 -> ivar_new name mn mx nl = Err ValueError) /\
  (mn < mx -> mx - mn + 1 + b2z nl <= 256 ^ 8 ->
   exists f, ivar_new name mn mx nl = Ok f /\
     i_name f = name /\ i_min f = mn /\ i_max f = mx /\ i_nullable f = nl /\
     In (i_size f) widths /\ mx - mn + 1 + b2z nl <= 256 ^ i_size f /\
     (forall s, In s widths -> mx - mn + 1 + b2z nl <= 256 ^ s -> i_size f <= s) /\
     i_span f = 256 ^ i_size f - b2z nl).
Proof.
  unfold ivar_new, size_span, widths.
  assert (B : 0 <= b2z nl <= 1) by (destruct nl; cbn; lia).
  change (256 ^ 1) with 256. change (256 ^ 2) with 65536. change (256 ^ 4) with 4294967296.
  change (256 ^ 8) with 18446744073709551616.
  split; [|split].
  - intros H. replace (mn <? mx) with false by lia. reflexivity.
  - intros H K. replace (mn <? mx) with true by lia. cbn [negb].
    repeat match goal with |- context [if ?b then _ else _] => replace b with false by lia end.
    reflexivity.
  - intros H K. replace (mn <? mx) with true by lia. cbn [negb].
    repeat match goal with
    | |- context [if ?a <? ?b then _ else _] => destruct (Z.ltb_spec a b)
    end; [| | | |lia]; cbn [bind]; eexists; (split; [reflexivity|]); cbn;
      (repeat split; [tauto|lia|]);
      intros s [<-|[<-|[<-|[<-|[]]]]]; cbn; lia.
Qed.

Definition ivar_ok (f : ivar) : Prop :=
  exists name mn mx nl, ivar_new name mn mx nl = Ok f.

Lemma ivar_ok_inv f : ivar_ok f ->
  i_min f < i_max f /\ i_span f = 256 ^ i_size f - b2z (i_nullable f) /\
  i_max f - i_min f + 1 + b2z (i_nullable f) <= 256 ^ i_size f.
Proof.
  intros (name & mn & mx & nl & H).
  destruct (ivar_new_cases name mn mx nl) as (A & B & C).
  destruct (Z_lt_le_dec mn mx) as [L|L]; [|rewrite A in H by lia; discriminate].
  destruct (Z_le_gt_dec (mx - mn + 1 + b2z nl) (256 ^ 8)) as [K|K];
    [|rewrite B in H by lia; discriminate].
  destruct (C L K) as (f' & E & _ & E1 & E2 & E3 & _ & E4 & _ & E5).
  rewrite H in E. injection E as <-. rewrite E1, E2, E3, E5. auto.
Qed.

Lemma ivar_round f x : ivar_ok f -> i_min f <= x <= i_max f ->
  exists i, ivar_index f (Some x) = Ok i /\ 0 <= i < 256 ^ i_size f - b2z (i_nullable f) /\
    ivar_value f i = Ok (Some x).
Proof.
  intros H R. destruct (ivar_ok_inv f H) as (A & B & C).
  exists (x - i_min f). unfold ivar_index, ivar_value.
  replace ((i_min f <=? x) && (x <=? i_max f)) with true by lia.
  assert (0 <= b2z (i_nullable f)) by (destruct (i_nullable f); cbn; lia).
  split; [reflexivity|]. split; [lia|].
  replace (x - i_min f =? i_span f + 1) with false by lia.
  replace ((0 <=? x - i_min f) && (x - i_min f <=? i_span f)) with true by lia.
  f_equal. f_equal. lia.
Qed.
Lemma ivar_round_null f : ivar_ok f -> i_nullable f = true ->
  ivar_index f None = Ok (256 ^ i_size f) /\ ivar_value f (256 ^ i_size f) = Ok None.
Proof.
  intros H N. destruct (ivar_ok_inv f H) as (A & B & C). rewrite N in *. cbn [b2z] in *.
  unfold ivar_index, ivar_value. rewrite N. split; [f_equal; lia|].
  replace (256 ^ i_size f =? i_span f + 1) with true by lia. reflexivity.
Qed.
Lemma ivar_reject f x : ~ (i_min f <= x <= i_max f) -> ivar_index f (Some x) = Err AssertionError.
Proof.
  intros R. unfold ivar_index. replace ((i_min f <=? x) && (x <=? i_max f)) with false by lia.
  reflexivity.
Qed.
Lemma ivar_reject_null f : i_nullable f = false -> ivar_index f None = Err AssertionError.
Proof. intros N. unfold ivar_index. rewrite N. reflexivity. Qed.

(** ** FVar *)
Lemma fvar_new_inv name mn mx size nl f : fvar_new name mn mx size nl = Ok f ->
  (mn < mx)%Q /\ In size widths /\
  f = mkfvar name mn mx (Z.to_nat size) (mx - mn)%Q (256 ^ size - b2z nl) nl.
Proof.
  unfold fvar_new, size_span, widths.
  destruct (Qlt_bool mn mx) eqn:E1; cbn [negb]; [|discriminate].
  destruct ((size =? 1) || (size =? 2) || (size =? 4) || (size =? 8)) eqn:E2; cbn [negb];
    [|discriminate].
  intros H. injection H as <-. qbool. split; [exact E1|]. split; [cbn; lia|reflexivity].
Qed.
Lemma fvar_new_ok name mn mx size nl : (mn < mx)%Q -> In size widths ->
  exists f, fvar_new name mn mx size nl = Ok f.
Proof.
  intros H S. unfold fvar_new, widths in *. apply Qlt_bool_true in H. rewrite H. cbn [negb].
  replace ((size =? 1) || (size =? 2) || (size =? 4) || (size =? 8)) with true.
  - cbn. eauto.
  - cbn in S. lia.
Qed.
Lemma fvar_new_err name mn mx size nl : ~ ((mn < mx)%Q /\ In size widths) ->
  fvar_new name mn mx size nl = Err AssertionError.
Proof.
  intros H. destruct (fvar_new name mn mx size nl) as [f|e] eqn:E.
  - apply fvar_new_inv in E. tauto.
  - unfold fvar_new in E. destruct (negb (Qlt_bool mn mx)); [congruence|].
    destruct (negb _); congruence.
Qed.

Section FVar.
  Variables (name : list Z) (mn mx : Q) (size : Z) (nl : bool) (f : fvar).
  Hypothesis New : fvar_new name mn mx size nl = Ok f.
  Let span : Z := 256 ^ size - b2z nl.

  Lemma fv_facts : (mn < mx)%Q /\ 0 < size /\ 256 <= 256 ^ size /\ Z.even (256 ^ size) = true /\
    f = mkfvar name mn mx (Z.to_nat size) (mx - mn)%Q span nl /\ Z.of_nat (Z.to_nat size) = size.
  Proof.
    destruct (fvar_new_inv _ _ _ _ _ _ New) as (A & B & C). fold span in C.
    split; [exact A|]. unfold widths in B. cbn in B.
    destruct B as [<-|[<-|[<-|[<-|[]]]]]; repeat split; try exact C; try reflexivity; cbn; lia.
  Qed.
  Lemma span_pos : 0 < span.
  Proof. pose proof fv_facts as (_ & _ & P & _). unfold span. destruct nl; cbn; lia. Qed.
  Lemma span_posQ : (0 < inject_Z span)%Q.
  Proof. change 0%Q with (inject_Z 0). rewrite <- Zlt_Qlt. apply span_pos. Qed.

  Definition code (x : Q) : Q := ((x - mn) * inject_Z span / (mx - mn))%Q.

  Lemma code_range x : (mn <= x <= mx)%Q -> (0 <= code x <= inject_Z span)%Q.
  Proof.
    intros [A B]. pose proof fv_facts as (L & _). pose proof span_posQ as S. unfold code.
    assert (D : (0 < mx - mn)%Q) by lra. split.
    - apply Qle_shift_div_l; [exact D|]. ring_simplify.
      assert (0 <= (x - mn) * inject_Z span)%Q by (apply Qmult_le_0_compat; lra). lra.
    - apply Qle_shift_div_r; [exact D|]. nra.
  Qed.

  Lemma index_ok x : (mn <= x <= mx)%Q ->
    fvar_index f (Some x) = Ok (q_round (code x)) /\ 0 <= q_round (code x) <= span.
  Proof.
    intros R. pose proof fv_facts as (L & _ & _ & _ & E & _). rewrite E. unfold fvar_index. cbn.
    replace (Qle_bool mn x && Qle_bool x mx) with true.
    2:{ symmetry. apply andb_true_intro. split; apply Qle_bool_iff; apply R. }
    assert (B : 0 <= q_round (code x) <= span).
    { apply q_round_range. change (inject_Z 0) with 0%Q. apply code_range. exact R. }
    split; [|exact B]. fold (code x). f_equal. lia.
  Qed.
  Lemma index_err x : ~ (mn <= x <= mx)%Q -> fvar_encode f (Some x) = Err AssertionError.
  Proof.
    intros R. pose proof fv_facts as (L & _ & _ & _ & E & _). rewrite E.
    unfold fvar_encode, fvar_index. cbn.
    destruct (Qle_bool mn x && Qle_bool x mx) eqn:B; [|reflexivity].
    qbool. exfalso. apply R. auto.
  Qed.

  Lemma encode_cases x : (mn <= x <= mx)%Q ->
    fvar_encode f (Some x) =
    if q_round (code x) <? 256 ^ size then Ok (be_bytes (Z.to_nat size) (q_round (code x)))
    else Err StructError.
  Proof.
    intros R. pose proof fv_facts as (L & _ & _ & _ & E & Es).
    destruct (index_ok x R) as (I & B). unfold fvar_encode. rewrite I. cbn [bind].
    rewrite E. cbn [f_size]. unfold pack_be. rewrite Es.
    replace (0 <=? q_round (code x)) with true by lia. reflexivity.
  Qed.

  Lemma decode_code i : 0 <= i -> i < 256 ^ size ->
    fvar_decode f (be_bytes (Z.to_nat size) i) =
    Ok (Some (mn + inject_Z i * (mx - mn) / inject_Z span)%Q).
  Proof.
    intros A B. pose proof fv_facts as (L & _ & _ & _ & E & Es).
    unfold fvar_decode. rewrite E. cbn [f_size]. rewrite unpack_be_bytes by (rewrite Es; lia).
    cbn [bind]. unfold fvar_value. cbn.
    assert (i <= span) by (unfold span; destruct nl; cbn; lia).
    replace (i =? span + 1) with false by lia.
    replace ((0 <=? i) && (i <=? span)) with true by lia. reflexivity.
  Qed.

  (** The step of the grid. *)
  Definition step : Q := ((mx - mn) / inject_Z span)%Q.

  Lemma decode_encode_close x data : fvar_encode f (Some x) = Ok data ->
    exists y, fvar_decode f data = Ok (Some y) /\ (Qabs (y - x) <= step / 2)%Q.
  Proof.
    intros H. pose proof fv_facts as (L & _). pose proof span_posQ as S.
    destruct (Qlt_le_dec x mn) as [N1|N1]; [rewrite index_err in H; [discriminate|lra]|].
    destruct (Qlt_le_dec mx x) as [N2|N2]; [rewrite index_err in H; [discriminate|lra]|].
    assert (R : (mn <= x <= mx)%Q) by lra.
    rewrite encode_cases in H by exact R.
    destruct (Z.ltb_spec (q_round (code x)) (256 ^ size)) as [K|K]; [|discriminate].
    injection H as <-. destruct (index_ok x R) as (_ & B).
    eexists; split; [apply decode_code; lia|].
    pose proof (q_round_half (code x)) as Q.
    setoid_replace (mn + inject_Z (q_round (code x)) * (mx - mn) / inject_Z span - x)%Q
      with (- (step * (code x - inject_Z (q_round (code x)))))%Q
      by (unfold step, code; field; split; lra).
    rewrite Qabs_opp, Qabs_Qmult.
    assert (P : (0 < step)%Q) by (unfold step; apply Qlt_shift_div_l; lra).
    rewrite (Qabs_pos step) by lra.
    setoid_replace (step / 2)%Q with (step * (1#2))%Q by field.
    rewrite (Qmult_comm step), (Qmult_comm step). apply Qmult_le_compat_r; [exact Q|lra].
  Qed.

  (** Which values are refused. *)
  Lemma encode_total_nullable x : nl = true -> (mn <= x <= mx)%Q ->
    exists data, fvar_encode f (Some x) = Ok data.
  Proof.
    intros N R. rewrite encode_cases by exact R. destruct (index_ok x R) as (_ & B).
    unfold span in B. rewrite N in B. cbn [b2z] in B.
    replace (q_round (code x) <? 256 ^ size) with true by lia. eauto.
  Qed.
  Lemma code_ge x : nl = false -> (mn <= x <= mx)%Q ->
    ((mx - step / 2 <= x)%Q <-> (inject_Z span - (1#2) <= code x)%Q).
  Proof.
    intros N R. pose proof fv_facts as (L & _). pose proof span_posQ as S.
    assert (P : (0 < step)%Q) by (unfold step; apply Qlt_shift_div_l; lra).
    assert (Ex : (mx - step / 2 - x == - step * (code x - (inject_Z span - (1#2))))%Q)
      by (unfold step, code; field; split; lra).
    split; intros H; nra.
  Qed.
  Lemma encode_refused x : nl = false -> (mn <= x <= mx)%Q ->
    ((mx - step / 2 <= x)%Q <-> fvar_encode f (Some x) = Err StructError) /\
    ((x < mx - step / 2)%Q <-> exists data, fvar_encode f (Some x) = Ok data).
  Proof.
    intros N R. pose proof fv_facts as (L & _ & _ & Ev & _).
    destruct (index_ok x R) as (_ & B).
    assert (Sp : span = 256 ^ size) by (unfold span; rewrite N; cbn; lia).
    pose proof (code_ge x N R) as G. pose proof (q_round_bounds (code x)) as QB.
    pose proof (code_range x R) as CR.
    destruct (Qlt_le_dec x (mx - step / 2)) as [C|C].
    - assert (C' : (code x < inject_Z span - (1#2))%Q).
      { apply Qnot_le_lt. rewrite <- G. lra. }
      assert (K : q_round (code x) < span).
      { destruct (Z.eq_dec (q_round (code x)) span) as [E|E]; [|lia].
        rewrite E in QB. lra. }
      assert (W : exists data, fvar_encode f (Some x) = Ok data).
      { rewrite encode_cases by exact R.
        replace (q_round (code x) <? 256 ^ size) with true by lia. eauto. }
      split; split; intros H; try lra; auto.
      destruct W as (d & W). congruence.
    - assert (C' : (inject_Z span - (1#2) <= code x)%Q) by (apply G; exact C).
      assert (K : q_round (code x) = span).
      { destruct (Qlt_le_dec (inject_Z span - (1#2)) (code x)) as [D|D].
        - apply q_round_near; lra.
        - rewrite (q_round_tie (code x) (span - 1)).
          + rewrite Sp. replace (Z.even (256 ^ size - 1)) with false.
            * lia.
            * rewrite Z.even_sub, Ev. reflexivity.
          + unfold Z.sub. rewrite inject_Z_plus. change (inject_Z (- (1))) with (-1 # 1)%Q. lra. }
      assert (W : fvar_encode f (Some x) = Err StructError).
      { rewrite encode_cases by exact R. rewrite K, Sp, Z.ltb_irrefl. reflexivity. }
      split; split; intros H; try lra; auto.
      destruct H as (d & H). congruence.
  Qed.
  Lemma encode_max : nl = false -> fvar_encode f (Some mx) = Err StructError.
  Proof.
    intros N. pose proof fv_facts as (L & _). pose proof span_posQ as S.
    apply (encode_refused mx N); [lra|].
    assert (P : (0 < step)%Q) by (unfold step; apply Qlt_shift_div_l; lra).
    assert (P2 : (0 < step / 2)%Q) by (apply Qlt_shift_div_l; lra). lra.
  Qed.
  Lemma encode_null : nl = true -> fvar_encode f None = Err StructError.
  Proof.
    intros N. pose proof fv_facts as (_ & _ & _ & _ & E & Es). rewrite E.
    unfold fvar_encode, fvar_index. cbn [f_nullable f_span f_size]. rewrite N. cbn [bind].
    apply pack_be_err. rewrite Es. unfold span. rewrite N. cbn [b2z]. lia.
  Qed.
  Lemma encode_null_err : nl = false -> fvar_encode f None = Err AssertionError.
  Proof.
    intros N. pose proof fv_facts as (_ & _ & _ & _ & E & Es). rewrite E.
    unfold fvar_encode, fvar_index. cbn [f_nullable f_span f_size]. rewrite N. reflexivity.
  Qed.

  (** Stored codes are stable. *)
  Lemma recode data : Forall is_byte data -> length data = Z.to_nat size ->
    exists y, fvar_decode f data = Ok (Some y) /\ (mn <= y <= mx)%Q /\
      fvar_encode f (Some y) = Ok data.
  Proof.
    intros Hb Hl. pose proof fv_facts as (L & _ & _ & _ & E & Es). pose proof span_posQ as S.
    destruct (unpack_pack_any (Z.to_nat size) data Hb Hl) as (i & _ & Ri & Pk).
    rewrite Es in Ri. apply pack_be_inv in Pk. destruct Pk as [_ ->].
    eexists; split; [apply decode_code; lia|].
    set (y := (mn + inject_Z i * (mx - mn) / inject_Z span)%Q).
    assert (Is : i <= span) by (unfold span; destruct nl; cbn; lia).
    assert (I0 : (0 <= inject_Z i)%Q) by (change 0%Q with (inject_Z 0); rewrite <- Zle_Qle; lia).
    assert (I1 : (inject_Z i <= inject_Z span)%Q) by (rewrite <- Zle_Qle; lia).
    assert (R : (mn <= y <= mx)%Q).
    { unfold y. assert (A1 : (0 <= inject_Z i * (mx - mn) / inject_Z span)%Q).
      { apply Qle_shift_div_l; [exact S|]. nra. }
      assert (A2 : (inject_Z i * (mx - mn) / inject_Z span <= mx - mn)%Q).
      { apply Qle_shift_div_r; [exact S|]. nra. }
      lra. }
    split; [exact R|]. rewrite encode_cases by exact R.
    assert (C : q_round (code y) = i).
    { transitivity (q_round (inject_Z i)); [|apply q_round_Z]. apply q_round_comp. unfold code, y. field. split; lra. }
    rewrite C. replace (i <? 256 ^ size) with true by lia. reflexivity.
  Qed.
  Lemma decode_bad_length data : length data <> Z.to_nat size -> fvar_decode f data = Err StructError.
  Proof.
    intros H. pose proof fv_facts as (_ & _ & _ & _ & E & Es). rewrite E.
    unfold fvar_decode, unpack_be. cbn [f_size].
    replace (Z.of_nat (length data) =? Z.of_nat (Z.to_nat size)) with false by lia. reflexivity.
  Qed.
End FVar.

Lemma fvar_encode_length f v data : fvar_encode f v = Ok data -> length data = f_size f.
Proof.
  unfold fvar_encode. intros H. apply bind_ok in H. destruct H as (i & _ & H).
  apply (pack_be_length _ i). exact H.
Qed.

(** ** SVar *)
Definition scalar_text (s : list Z) : Prop := Forall (fun c => scalarb c = true) s.
(** Length of the UTF-8 form. *)
Definition utf8_len (s : list Z) : nat := length (flat_map utf8_char s).

Lemma rstrip0_zeros n : rstrip0 (repeat 0 n) = [].
Proof. induction n as [|n IH]; cbn; [reflexivity|rewrite IH; reflexivity]. Qed.
Lemma rstrip0_app s n : rstrip0 (s ++ repeat 0 n) = rstrip0 s.
Proof.
  induction s as [|c s IH]; cbn [app rstrip0]; [apply rstrip0_zeros|]. rewrite IH. reflexivity.
Qed.
Lemma rstrip0_nz s c : c <> 0 -> rstrip0 (s ++ [c]) = s ++ [c].
Proof.
  intros H. induction s as [|d s IH]; cbn [app rstrip0].
  - replace (c =? 0) with false by lia. reflexivity.
  - rewrite IH. destruct s; reflexivity.
Qed.
(** rstrip0 removes exactly the trailing NULs. *)
Lemma rstrip0_spec s : exists n, s = rstrip0 s ++ repeat 0 n /\
  (forall t, rstrip0 s <> t ++ [0]).
Proof.
  induction s as [|c s (n & E & H)].
  - exists 0%nat. split; [reflexivity|]. intros [|? t]; discriminate.
  - cbn [rstrip0]. destruct (rstrip0 s) as [|d r] eqn:R.
    + cbn [app] in E. destruct (Z.eqb_spec c 0) as [->|N].
      * exists (S n). split; [rewrite E; reflexivity|]. intros [|? t]; discriminate.
      * exists n. split; [rewrite E; reflexivity|]. intros [|? [|? t]] D; try discriminate.
        injection D as D. congruence.
    + exists n. split; [rewrite E at 1; reflexivity|]. intros [|x t] D; [discriminate|].
      injection D as _ D. apply (H t). exact D.
Qed.
Lemma rstrip0_id s : (forall t, s <> t ++ [0]) -> rstrip0 s = s.
Proof.
  intros H. destruct (rstrip0_spec s) as (n & E & _). destruct n as [|n].
  - rewrite E at 2. cbn. rewrite app_nil_r. reflexivity.
  - exfalso. apply (H (rstrip0 s ++ repeat 0 n)). rewrite E at 1.
    change (S n) with (1 + n)%nat. rewrite Nat.add_comm, repeat_app, app_assoc. reflexivity.
Qed.

Lemma zeros_chars n : flat_map utf8_char (repeat 0 n) = repeat 0 n.
Proof. induction n as [|n IH]; cbn; [reflexivity|rewrite IH; reflexivity]. Qed.
Lemma zeros_scalar n : scalar_text (repeat 0 n).
Proof. induction n; constructor; auto. Qed.

Lemma ljust_length n d : (length d <= n)%nat -> length (ljust0 n d) = n.
Proof. intros H. unfold ljust0. rewrite app_length, repeat_length. lia. Qed.

Lemma padded_decode s n : scalar_text s ->
  utf8_decode (flat_map utf8_char s ++ repeat 0 n) = Ok (s ++ repeat 0 n).
Proof.
  intros H. replace (flat_map utf8_char s ++ repeat 0 n) with (flat_map utf8_char (s ++ repeat 0 n))
    by (rewrite flat_map_app, zeros_chars; reflexivity). apply decode_encode.
  apply Forall_app. split; [exact H|apply zeros_scalar].
Qed.

Lemma svar_round f s : scalar_text s -> (utf8_len s <= s_size f)%nat -> (0 < s_size f)%nat ->
  exists data, svar_encode f (Some s) = Ok data /\ length data = s_size f /\
    data <> repeat 255 (s_size f) /\ svar_decode f data = Ok (Some (rstrip0 s)).
Proof.
  intros H L P. unfold svar_encode. rewrite utf8_encode_ok by exact H. cbn [bind].
  unfold utf8_len in L.
  replace (Z.of_nat (length (flat_map utf8_char s)) <=? Z.of_nat (s_size f)) with true by lia.
  eexists; split; [reflexivity|]. split; [apply ljust_length; exact L|].
  assert (N : ljust0 (s_size f) (flat_map utf8_char s) <> repeat 255 (s_size f)).
  { intros E. assert (F : Forall (fun b => 0 <= b < 245) (ljust0 (s_size f) (flat_map utf8_char s))).
    { unfold ljust0. apply Forall_app. split; [apply encode_bytes; exact H|].
      apply Forall_forall. intros x Hx. apply repeat_spec in Hx. lia. }
    rewrite E in F. destruct (s_size f) as [|m]; [lia|]. cbn in F.
    inversion F as [|? ? F1 _]. lia. }
  split; [exact N|]. unfold svar_decode.
  replace (zlist_eqb (ljust0 (s_size f) (flat_map utf8_char s)) (repeat 255 (s_size f))) with false
    by (symmetry; apply zlist_eqb_neq; exact N).
  unfold ljust0. rewrite padded_decode by exact H. cbn [bind]. rewrite rstrip0_app. reflexivity.
Qed.
Lemma svar_round_id f s : scalar_text s -> (utf8_len s <= s_size f)%nat -> (0 < s_size f)%nat ->
  (forall t, s <> t ++ [0]) ->
  exists data, svar_encode f (Some s) = Ok data /\ svar_decode f data = Ok (Some s).
Proof.
  intros H L P T. destruct (svar_round f s H L P) as (d & A & _ & _ & B). exists d.
  split; [exact A|]. rewrite B, rstrip0_id by exact T. reflexivity.
Qed.
Lemma svar_round_nul f s n : scalar_text (s ++ repeat 0 n) -> (utf8_len (s ++ repeat 0%Z n) <= s_size f)%nat ->
  (0 < s_size f)%nat -> (forall t, s <> t ++ [0]) ->
  exists data, svar_encode f (Some (s ++ repeat 0 n)) = Ok data /\ svar_decode f data = Ok (Some s).
Proof.
  intros H L P T. destruct (svar_round f _ H L P) as (d & A & _ & _ & B). exists d.
  split; [exact A|]. rewrite B, rstrip0_app, rstrip0_id by exact T. reflexivity.
Qed.
Lemma svar_null f : s_nullable f = true ->
  exists data, svar_encode f None = Ok data /\ svar_decode f data = Ok None.
Proof.
  intros N. exists (repeat 255 (s_size f)). unfold svar_encode, svar_decode. rewrite N.
  rewrite zlist_eqb_refl. auto.
Qed.
Lemma svar_null_err f : s_nullable f = false -> svar_encode f None = Err AssertionError.
Proof. intros N. unfold svar_encode. rewrite N. reflexivity. Qed.
Lemma svar_big f s : scalar_text s -> (s_size f < utf8_len s)%nat ->
  svar_encode f (Some s) = Err AssertionError.
Proof.
  intros H L. unfold svar_encode, utf8_len in *. rewrite utf8_encode_ok by exact H. cbn [bind].
  replace (Z.of_nat (length (flat_map utf8_char s)) <=? Z.of_nat (s_size f)) with false by lia.
  reflexivity.
Qed.
Lemma svar_surrogate f s : (exists c, In c s /\ scalarb c = false) ->
  svar_encode f (Some s) = Err UnicodeError.
Proof. intros H. unfold svar_encode. rewrite utf8_encode_err by exact H. reflexivity. Qed.
(** Size 0: the empty string comes back as null, or fails. *)
Lemma svar_zero f : s_size f = 0%nat -> svar_encode f (Some []) = Ok [] /\
  svar_decode f [] = if s_nullable f then Ok None else Err AssertionError.
Proof. intros E. unfold svar_encode, svar_decode. rewrite E. cbn. auto. Qed.

Lemma svar_encode_length f v data : svar_encode f v = Ok data -> length data = s_size f.
Proof.
  unfold svar_encode. destruct v as [s|].
  - destruct (utf8_encode s) as [d|e]; [|discriminate]. cbn [bind].
    destruct (Z.leb_spec (Z.of_nat (length d)) (Z.of_nat (s_size f))); [|discriminate].
    intros E. injection E as <-. apply ljust_length. lia.
  - destruct (s_nullable f); [|discriminate]. intros E. injection E as <-. apply repeat_length.
Qed.
(** Re-saving a cell gives the same bytes. *)
Lemma svar_recode f data o : Forall is_byte data -> length data = s_size f ->
  svar_decode f data = Ok o -> svar_encode f o = Ok data.
Proof.
  intros Hb Hl. unfold svar_decode.
  destruct (zlist_eqb data (repeat 255 (s_size f))) eqn:E.
  - apply zlist_eqb_eq in E. destruct (s_nullable f) eqn:N; [|discriminate].
    intros H. injection H as <-. unfold svar_encode. rewrite N, E. reflexivity.
  - destruct (utf8_decode data) as [s|e] eqn:D; [|discriminate]. cbn [bind].
    intros H. injection H as <-. destruct (decode_inv_fuel _ _ _ D Hb) as [Ed F].
    destruct (rstrip0_spec s) as (n & Es & _).
    assert (Fs : scalar_text (rstrip0 s)).
    { rewrite Es in F. apply Forall_app in F. apply F. }
    unfold svar_encode. rewrite utf8_encode_ok by exact Fs. cbn [bind].
    assert (Ed' : data = flat_map utf8_char (rstrip0 s) ++ repeat 0 n).
    { rewrite Ed. rewrite Es at 1. rewrite flat_map_app, zeros_chars. reflexivity. }
    assert (Ln : length data = (length (flat_map utf8_char (rstrip0 s)) + n)%nat).
    { rewrite Ed' at 1. rewrite app_length, repeat_length. reflexivity. }
    replace (Z.of_nat (length (flat_map utf8_char (rstrip0 s))) <=? Z.of_nat (s_size f)) with true by lia.
    unfold ljust0.
    replace (s_size f - length (flat_map utf8_char (rstrip0 s)))%nat with n by lia.
    rewrite <- Ed'. reflexivity.
Qed.

(** ** GRow *)
(** Fields as their constructors build them. *)
Definition built (f : field) : Prop :=
  match f with
  | FI f => exists name mn mx nl, ivar_new name mn mx nl = Ok f
  | FF f => exists name mn mx size nl, fvar_new name mn mx size nl = Ok f
  | FS _ => True
  end.
Lemma ivar_no_fmt name mn mx nl f : ivar_new name mn mx nl = Ok f -> i_fmt f = None.
Proof.
  unfold ivar_new. intros H. destruct (negb _); [discriminate|]. apply bind_ok in H.
  destruct H as (s & _ & H). injection H as <-. reflexivity.
Qed.
Lemma ivar_no_encode name mn mx nl f v : ivar_new name mn mx nl = Ok f ->
  ivar_encode f v = Err AttributeError.
Proof. intros H. unfold ivar_encode, ivar_fmt. rewrite (ivar_no_fmt _ _ _ _ _ H). reflexivity. Qed.
Lemma ivar_no_decode name mn mx nl f data : ivar_new name mn mx nl = Ok f ->
  ivar_decode f data = Err AttributeError.
Proof. intros H. unfold ivar_decode, ivar_fmt. rewrite (ivar_no_fmt _ _ _ _ _ H). reflexivity. Qed.
Lemma field_no_encode name mn mx nl f v : ivar_new name mn mx nl = Ok f ->
  field_encode (FI f) v = Err AttributeError.
Proof.
  intros H. destruct v; cbn [field_encode]; try apply (ivar_no_encode _ _ _ _ _ _ H);
    unfold ivar_fmt; rewrite (ivar_no_fmt _ _ _ _ _ H); reflexivity.
Qed.
Lemma field_encode_length f v data : built f -> field_encode f v = Ok data ->
  Z.of_nat (length data) = field_size f.
Proof.
  intros B. destruct f as [f|f|f].
  { destruct B as (name & mn & mx & nl & B). rewrite (field_no_encode _ _ _ _ _ v B). discriminate. }
  all: destruct v as [|z|x|s]; cbn [field_encode field_size]; try discriminate; intros H.
  - apply fvar_encode_length in H. lia.
  - apply fvar_encode_length in H. lia.
  - apply fvar_encode_length in H. lia.
  - apply svar_encode_length in H. lia.
  - apply svar_encode_length in H. lia.
Qed.

Lemma slice_mid {A} (p d r : list A) off n : Z.of_nat (length p) = off -> Z.of_nat (length d) = n ->
  py_slice (p ++ d ++ r) off (off + n) = d.
Proof.
  intros Hp Hd. unfold py_slice, slice_clamp. rewrite !app_length, !Nat2Z.inj_add.
  replace (off <? 0) with false by lia. replace (off + n <? 0) with false by lia.
  rewrite Z.min_l by lia. rewrite Z.min_l by lia.
  destruct (Z.ltb_spec off (off + n)) as [L|L].
  - rewrite skipn_app. rewrite skipn_all2 by lia.
    replace (Z.to_nat off - length p)%nat with 0%nat by lia. cbn [skipn app].
    rewrite firstn_app. rewrite firstn_all2 by lia.
    replace (Z.to_nat (off + n - off) - length d)%nat with 0%nat by lia. cbn. apply app_nil_r.
  - destruct d; [reflexivity|cbn in Hd; lia].
Qed.

Lemma row_decode_parts fs : forall parts p r,
  Forall2 (fun f d => Z.of_nat (length d) = field_size f) fs parts ->
  row_decode_loop fs (p ++ concat parts ++ r) (Z.of_nat (length p)) =
  mapM (fun fd => field_decode (fst fd) (snd fd)) (combine fs parts).
Proof.
  induction fs as [|f fs IH]; intros parts p r H; inversion H as [|? d ? parts' Hd H']; subst;
    [reflexivity|].
  cbn [row_decode_loop combine mapM concat fst snd].
  rewrite <- app_assoc. rewrite slice_mid by auto.
  destruct (field_decode f d) as [v|e]; cbn [bind]; [|reflexivity].
  replace (p ++ d ++ concat parts' ++ r) with ((p ++ d) ++ concat parts' ++ r)
    by (rewrite <- app_assoc; reflexivity).
  replace (Z.of_nat (length p) + field_size f) with (Z.of_nat (length (p ++ d)))
    by (rewrite app_length; lia).
  rewrite IH by exact H'. reflexivity.
Qed.

Lemma mapM_combine_decode fs : forall vs parts,
  Forall built fs -> (length fs <= length vs)%nat ->
  mapM (fun fv => field_encode (fst fv) (snd fv)) (combine fs vs) = Ok parts ->
  Forall2 (fun f d => Z.of_nat (length d) = field_size f) fs parts /\
  mapM (fun fd => field_decode (fst fd) (snd fd)) (combine fs parts) =
  mapM (fun fv => d <- field_encode (fst fv) (snd fv) ;; field_decode (fst fv) d) (combine fs vs).
Proof.
  induction fs as [|f fs IH]; intros vs parts Hc Hl H; cbn [combine mapM] in *.
  - injection H as <-. split; [constructor|reflexivity].
  - destruct vs as [|v vs]; [cbn in Hl; lia|]. cbn [combine mapM fst snd] in *.
    destruct (field_encode f v) as [d|e] eqn:E; [|discriminate]. cbn [bind] in *.
    destruct (mapM _ (combine fs vs)) as [ps|e] eqn:E2; [|discriminate]. cbn [bind] in H.
    injection H as <-. destruct (IH vs ps (Forall_inv_tail Hc) ltac:(cbn in Hl; lia) E2) as [F G].
    split; [constructor; [apply (field_encode_length f v); [exact (Forall_inv Hc)|exact E]|exact F]|].
    cbn [combine mapM fst snd]. rewrite G. reflexivity.
Qed.

Lemma concat_length_sizes fs (parts : list (list Z)) :
  Forall2 (fun f d => Z.of_nat (length d) = field_size f) fs parts ->
  Z.of_nat (length (concat parts)) = row_size fs.
Proof.
  unfold row_size. induction 1 as [|f d fs parts Hd H IH]; [reflexivity|].
  cbn [concat map]. rewrite app_length, zsum_cons, <- IH. lia.
Qed.

(** Enough values: success iff each column succeeds. *)
Lemma row_encode_enough fs vs : Forall built fs -> (length fs <= length vs)%nat ->
  row_encode fs vs = rmap (@concat Z) (mapM (fun fv => field_encode (fst fv) (snd fv)) (combine fs vs)).
Proof.
  intros Hc Hl. unfold row_encode.
  destruct (mapM (fun fv => field_encode (fst fv) (snd fv)) (combine fs vs)) as [parts|e] eqn:E;
    [|reflexivity]. cbn [bind rmap].
  destruct (mapM_combine_decode fs vs parts Hc Hl E) as [F _].
  rewrite (concat_length_sizes fs parts F), Z.eqb_refl. reflexivity.
Qed.
Lemma row_round fs vs data : Forall built fs -> (length fs <= length vs)%nat -> row_encode fs vs = Ok data ->
  Z.of_nat (length data) = row_size fs /\
  row_decode fs data =
  mapM (fun fv => d <- field_encode (fst fv) (snd fv) ;; field_decode (fst fv) d) (combine fs vs).
Proof.
  intros Hc Hl H. rewrite row_encode_enough in H by assumption.
  destruct (mapM (fun fv => field_encode (fst fv) (snd fv)) (combine fs vs)) as [parts|e] eqn:E;
    [|discriminate]. cbn [rmap] in H. injection H as <-.
  destruct (mapM_combine_decode fs vs parts Hc Hl E) as [F G]. split.
  - apply concat_length_sizes. exact F.
  - unfold row_decode. rewrite <- G. rewrite <- (row_decode_parts fs parts [] [] F).
    cbn [app length]. rewrite app_nil_r. reflexivity.
Qed.
Lemma row_extra fs vs ws : length vs = length fs -> row_encode fs (vs ++ ws) = row_encode fs vs.
Proof.
  intros Hl. unfold row_encode. replace (combine fs (vs ++ ws)) with (combine fs vs); [reflexivity|].
  revert vs Hl; induction fs as [|f fs IH]; intros [|v vs] Hl; cbn in *; try congruence; try lia.
  f_equal. apply IH. lia.
Qed.
Lemma row_size_nonneg fs : (forall f, In f fs -> 0 <= field_size f) -> 0 <= row_size fs.
Proof.
  unfold row_size. induction fs as [|f fs IH]; intros H; [cbn; lia|].
  cbn [map]. rewrite zsum_cons. pose proof (H f (or_introl eq_refl)).
  specialize (IH (fun g Hg => H g (or_intror Hg))). lia.
Qed.
Lemma combine_app_short {A B} (a c : list A) (b : list B) : length a = length b ->
  combine (a ++ c) b = combine a b.
Proof.
  revert b; induction a as [|x a IH]; intros [|y b] H; cbn in *; try discriminate.
  - destruct c; reflexivity.
  - f_equal. apply IH. lia.
Qed.
Lemma row_few fs gs vs : Forall built fs -> length vs = length fs -> 0 < row_size gs ->
  row_encode (fs ++ gs) vs =
  match mapM (fun fv => field_encode (fst fv) (snd fv)) (combine fs vs) with
  | Ok _ => Err AssertionError
  | Err e => Err e
  end.
Proof.
  intros Hc Hl Hp. unfold row_encode. rewrite combine_app_short by auto.
  destruct (mapM (fun fv => field_encode (fst fv) (snd fv)) (combine fs vs)) as [parts|e] eqn:E;
    [|reflexivity]. cbn [bind].
  destruct (mapM_combine_decode fs vs parts Hc ltac:(lia) E) as [F _].
  rewrite (concat_length_sizes fs parts F).
  unfold row_size in *. rewrite map_app, zsum_app.
  replace (zsum (map field_size fs) =? zsum (map field_size fs) + zsum (map field_size gs))
    with false by lia. reflexivity.
Qed.
(** A row with an integer column cannot be encoded once its turn comes. *)
Lemma row_ivar name mn mx nl fs f gs vs : ivar_new name mn mx nl = Ok f -> (length fs < length vs)%nat ->
  (exists e, row_encode (fs ++ FI f :: gs) vs = Err e) /\
  ((forall g v, In (g, v) (combine fs vs) -> exists d, field_encode g v = Ok d) ->
   row_encode (fs ++ FI f :: gs) vs = Err AttributeError).
Proof.
  intros New Hl. unfold row_encode.
  assert (A : (exists e, mapM (fun fv => field_encode (fst fv) (snd fv))
                 (combine (fs ++ FI f :: gs) vs) = Err e) /\
    ((forall g v, In (g, v) (combine fs vs) -> exists d, field_encode g v = Ok d) ->
     mapM (fun fv => field_encode (fst fv) (snd fv)) (combine (fs ++ FI f :: gs) vs)
       = Err AttributeError)).
  { revert vs Hl; induction fs as [|g fs IH]; intros [|v vs] Hl; cbn in Hl; try lia;
      cbn [app combine mapM fst snd].
    - rewrite (field_no_encode _ _ _ _ _ v New). cbn. eauto.
    - destruct (IH vs ltac:(lia)) as [I1 I2].
      destruct (field_encode g v) as [d|e] eqn:E; cbn [bind].
      + split.
        * destruct I1 as (e & I1). rewrite I1. cbn. eauto.
        * intros H. rewrite I2; [reflexivity|]. intros g' v' Hi. apply (H g' v').
          right. exact Hi.
      + split; [eauto|]. intros H. destruct (H g v (or_introl eq_refl)) as (d & Hd). congruence. }
  destruct A as [(e & A1) A2]. split.
  - rewrite A1. cbn. eauto.
  - intros H. rewrite (A2 H). reflexivity.
Qed.

(** ** Statements in the vocabulary of GridSpec *)
Lemma api_ivar_new name mn mx nl :
  (mx <= mn -> ivar_new name mn mx nl = Err AssertionError) /\
  (mn < mx -> (forall s, In s widths -> 256 ^ s < codes_needed mn mx nl) ->
   ivar_new name mn mx nl = Err ValueError) /\
  (mn < mx -> (exists s, In s widths /\ codes_needed mn mx nl <= 256 ^ s) ->
   exists f, ivar_new name mn mx nl = Ok f /\
     i_name f = name /\ i_min f = mn /\ i_max f = mx /\ i_nullable f = nl /\
     In (i_size f) widths /\ codes_needed mn mx nl <= 256 ^ i_size f /\
     (forall s, In s widths -> codes_needed mn mx nl <= 256 ^ s -> i_size f <= s)).
Proof.
  destruct (ivar_new_cases name mn mx nl) as (A & B & C). unfold codes_needed. fold (b2z nl).
  split; [exact A|]. split.
  - intros L H. apply B; [exact L|]. specialize (H 8 ltac:(unfold widths; cbn; tauto)). lia.
  - intros L (s & Hs & H). destruct C as (f & C); [exact L| |].
    + apply (Z.le_trans _ (256 ^ s)); [exact H|].
      unfold widths in Hs. cbn in Hs. apply Z.pow_le_mono_r; lia.
    + exists f. tauto.
Qed.
Lemma api_ivar_round name mn mx nl f x : ivar_new name mn mx nl = Ok f -> mn <= x <= mx ->
  exists i, ivar_index f (Some x) = Ok i /\ 0 <= i < 256 ^ i_size f /\
    ivar_value f i = Ok (Some x).
Proof.
  intros H R. destruct (ivar_ok_inv f) as (A & B & C); [red; eauto|].
  assert (E : i_min f = mn /\ i_max f = mx).
  { unfold ivar_new in H. destruct (negb _); [discriminate|]. apply bind_ok in H.
    destruct H as (s & _ & H). injection H as <-. auto. }
  destruct (ivar_round f x) as (i & I1 & I2 & I3); [red; eauto|lia|].
  exists i. split; [exact I1|]. split; [|exact I3].
  assert (0 <= b2z (i_nullable f)) by (destruct (i_nullable f); cbn; lia). lia.
Qed.
Lemma api_ivar_null name mn mx f : ivar_new name mn mx true = Ok f ->
  exists i, ivar_index f None = Ok i /\ ivar_value f i = Ok None /\ i = 256 ^ i_size f.
Proof.
  intros H.
  assert (E : i_nullable f = true).
  { unfold ivar_new in H. destruct (negb _); [discriminate|]. apply bind_ok in H.
    destruct H as (s & _ & H). injection H as <-. auto. }
  destruct (ivar_round_null f) as (A & B); [red; eauto|exact E|]. eauto.
Qed.
Lemma api_ivar_reject name mn mx nl f : ivar_new name mn mx nl = Ok f ->
  (forall x, ~ (mn <= x <= mx) -> ivar_index f (Some x) = Err AssertionError) /\
  (nl = false -> ivar_index f None = Err AssertionError).
Proof.
  intros H.
  assert (E : i_min f = mn /\ i_max f = mx /\ i_nullable f = nl).
  { unfold ivar_new in H. destruct (negb _); [discriminate|]. apply bind_ok in H.
    destruct H as (s & _ & H). injection H as <-. auto. }
  destruct E as (E1 & E2 & E3). split.
  - intros x R. apply ivar_reject. lia.
  - intros N. apply ivar_reject_null. congruence.
Qed.

Lemma half_step_eq name mn mx size nl f : fvar_new name mn mx size nl = Ok f ->
  (half_step mn mx size nl == step mn mx size nl / 2)%Q.
Proof.
  intros H. pose proof (span_posQ _ _ _ _ _ _ H) as S. unfold half_step, step, steps.
  fold (b2z nl). rewrite inject_Z_mult. change (inject_Z 2) with 2%Q. field. lra.
Qed.
Lemma api_fvar_close name mn mx size nl f x data :
  fvar_new name mn mx size nl = Ok f -> fvar_encode f (Some x) = Ok data ->
  exists y, fvar_decode f data = Ok (Some y) /\ (Qabs (y - x) <= half_step mn mx size nl)%Q.
Proof.
  intros H E. destruct (decode_encode_close _ _ _ _ _ _ H x data E) as (y & A & B).
  exists y. split; [exact A|]. rewrite (half_step_eq _ _ _ _ _ _ H). exact B.
Qed.
Lemma api_fvar_cases name mn mx size nl f x :
  fvar_new name mn mx size nl = Ok f ->
  (~ (mn <= x <= mx)%Q -> fvar_encode f (Some x) = Err AssertionError) /\
  ((mn <= x <= mx)%Q -> nl = true \/ (x < mx - half_step mn mx size nl)%Q ->
   exists data, fvar_encode f (Some x) = Ok data) /\
  ((mn <= x <= mx)%Q -> nl = false -> (mx - half_step mn mx size nl <= x)%Q ->
   fvar_encode f (Some x) = Err StructError).
Proof.
  intros H. split; [|split].
  - apply (index_err _ _ _ _ _ _ H).
  - intros R D. destruct nl eqn:N.
    + apply (encode_total_nullable _ _ _ _ _ _ H); auto.
    + destruct D as [D|D]; [discriminate|]. rewrite (half_step_eq _ _ _ _ _ _ H) in D.
      apply (encode_refused _ _ _ _ _ _ H x); auto.
  - intros R -> D. rewrite (half_step_eq _ _ _ _ _ _ H) in D.
    apply (encode_refused _ _ _ _ _ _ H x); auto.
Qed.
Lemma api_fvar_new name mn mx size nl :
  ((mn < mx)%Q -> In size widths -> exists f, fvar_new name mn mx size nl = Ok f) /\
  (~ ((mn < mx)%Q /\ In size widths) -> fvar_new name mn mx size nl = Err AssertionError).
Proof. split; [apply fvar_new_ok|apply fvar_new_err]. Qed.

Lemma api_fvar_decode_total name mn mx size nl f data o :
  fvar_new name mn mx size nl = Ok f -> Forall is_byte data ->
  fvar_decode f data = Ok o -> o <> None.
Proof.
  intros H Hb D. destruct (Nat.eq_dec (length data) (Z.to_nat size)) as [E|E].
  - destruct (recode _ _ _ _ _ _ H data Hb E) as (y & A & _). congruence.
  - rewrite (decode_bad_length _ _ _ _ _ _ H data E) in D. discriminate.
Qed.

Lemma utf8_char_width c : length (utf8_char c) = utf8_width c.
Proof.
  unfold utf8_char, utf8_width.
  replace (c <=? 127) with (c <? 128) by lia. replace (c <=? 2047) with (c <? 2048) by lia.
  replace (c <=? 65535) with (c <? 65536) by lia.
  destruct (c <? 128); [reflexivity|]. destruct (c <? 2048); [reflexivity|].
  destruct (c <? 65536); reflexivity.
Qed.
Lemma utf8_len_size s : utf8_len s = utf8_size s.
Proof.
  unfold utf8_len, utf8_size. induction s as [|c s IH]; [reflexivity|].
  cbn [flat_map map list_sum fold_right]. rewrite app_length, IH, utf8_char_width. reflexivity.
Qed.
Lemma scalar_iff c : scalarb c = true <-> scalar c.
Proof. rewrite scalar_range. unfold scalar. lia. Qed.
Lemma scalar_text_iff s : scalar_text s <-> Forall scalar s.
Proof.
  unfold scalar_text. rewrite !Forall_forall. split; intros H c Hc; apply scalar_iff; auto.
Qed.

Lemma api_svar_round f s : Forall scalar s -> (utf8_size s <= s_size f)%nat -> (0 < s_size f)%nat ->
  ~ ends_in_nul s ->
  exists data, svar_encode f (Some s) = Ok data /\ length data = s_size f /\
    svar_decode f data = Ok (Some s).
Proof.
  intros H L P N. rewrite <- utf8_len_size in L. apply scalar_text_iff in H.
  destruct (svar_round f s H L P) as (d & A & B & _ & C). exists d.
  split; [exact A|]. split; [exact B|]. rewrite C, rstrip0_id; [reflexivity|].
  intros t E. apply N. exists t. exact E.
Qed.
Lemma api_svar_nul f s n : Forall scalar s -> (utf8_size s + n <= s_size f)%nat -> (0 < s_size f)%nat ->
  ~ ends_in_nul s ->
  exists data, svar_encode f (Some (s ++ repeat 0 n)) = Ok data /\ svar_decode f data = Ok (Some s).
Proof.
  intros H L P N. apply svar_round_nul.
  - apply Forall_app. split; [apply scalar_text_iff; exact H|apply zeros_scalar].
  - unfold utf8_len. rewrite flat_map_app, app_length. fold (utf8_len s).
    rewrite utf8_len_size, zeros_chars, repeat_length. exact L.
  - exact P.
  - intros t E. apply N. exists t. exact E.
Qed.
Lemma api_svar_not_null f s data : (0 < s_size f)%nat -> svar_encode f (Some s) = Ok data ->
  exists t, svar_decode f data = Ok (Some t).
Proof.
  intros P E. assert (E' := E). unfold svar_encode in E'. apply bind_ok in E'.
  destruct E' as (d & U & E'). destruct (utf8_encode_inv _ _ U) as [-> F].
  destruct (Z.leb_spec (Z.of_nat (length (flat_map utf8_char s))) (Z.of_nat (s_size f))); [|discriminate].
  destruct (svar_round f s F) as (d & A & _ & _ & B); [unfold utf8_len; lia|exact P|].
  rewrite E in A. injection A as <-. eauto.
Qed.
Lemma api_svar_big f s : Forall scalar s -> (s_size f < utf8_size s)%nat ->
  svar_encode f (Some s) = Err AssertionError.
Proof.
  intros H L. apply svar_big; [apply scalar_text_iff; exact H|]. rewrite utf8_len_size. exact L.
Qed.
Lemma api_svar_surrogate f s : (exists c, In c s /\ ~ scalar c) ->
  svar_encode f (Some s) = Err UnicodeError.
Proof.
  intros (c & Hc & N). apply svar_surrogate. exists c. split; [exact Hc|].
  destruct (scalarb c) eqn:E; [|reflexivity]. apply scalar_iff in E. contradiction.
Qed.
