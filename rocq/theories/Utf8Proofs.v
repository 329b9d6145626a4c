From Coq Require Import ZifyBool ZifyNat.
From Verif Require Import Py Utf8Model.
Open Scope Z_scope.
Ltac Zify.zify_post_hook ::= Z.div_mod_to_equations.

Lemma scalar_range c : scalarb c = true <-> (0 <= c < 55296 \/ 57344 <= c < 1114112).
Proof. unfold scalarb. lia. Qed.

Ltac bif := match goal with
  | |- context [if ?b then _ else _] =>
      first [replace b with true by lia | replace b with false by lia]; cbn [negb andb orb]
  end.

Lemma decode_char f c r : scalarb c = true ->
  utf8_decode_fuel (S f) (utf8_char c ++ r) = (s <- utf8_decode_fuel f r ;; Ok (c :: s)).
Proof.
  intros H. apply scalar_range in H. unfold utf8_char, contb.
  destruct (Z.ltb_spec c 128); [|destruct (Z.ltb_spec c 2048); [|destruct (Z.ltb_spec c 65536)]];
    cbn [app utf8_decode_fuel]; unfold contb.
  - bif. reflexivity.
  - bif. bif. bif.
    replace ((192 + c / 64 - 192) * 64 + (128 + c mod 64 - 128)) with c by lia. reflexivity.
  - bif. bif. bif.
    replace ((224 + c / 4096 - 224) * 4096 + (128 + c / 64 mod 64 - 128) * 64 + (128 + c mod 64 - 128))
      with c by lia.
    replace (scalarb c) with true by (symmetry; apply scalar_range; lia).
    bif. reflexivity.
  - bif. bif. bif. bif.
    replace ((240 + c / 262144 - 240) * 262144 + (128 + c / 4096 mod 64 - 128) * 4096 +
      (128 + c / 64 mod 64 - 128) * 64 + (128 + c mod 64 - 128)) with c by lia.
    replace (scalarb c) with true by (symmetry; apply scalar_range; lia).
    bif. reflexivity.
Qed.

Lemma char_nonempty c : (1 <= length (utf8_char c))%nat.
Proof.
  unfold utf8_char. destruct (c <? 128); [|destruct (c <? 2048); [|destruct (c <? 65536)]]; cbn; lia.
Qed.
Lemma encode_length_ge s : (length s <= length (flat_map utf8_char s))%nat.
Proof.
  induction s as [|c s IH]; cbn [flat_map length]; [lia|].
  rewrite app_length. pose proof (char_nonempty c). lia.
Qed.

Lemma decode_encode_fuel s : forall f, Forall (fun c => scalarb c = true) s -> (length s <= f)%nat ->
  utf8_decode_fuel f (flat_map utf8_char s) = Ok s.
Proof.
  induction s as [|c s IH]; intros f H Hf; [destruct f; reflexivity|].
  cbn in Hf. destruct f as [|f]; [lia|]. inversion H as [|? ? H1 H2]; subst.
  cbn [flat_map]. rewrite decode_char by exact H1. rewrite IH by (assumption || lia). reflexivity.
Qed.

Lemma decode_encode s : Forall (fun c => scalarb c = true) s ->
  utf8_decode (flat_map utf8_char s) = Ok s.
Proof. intros H. apply decode_encode_fuel; [exact H|apply encode_length_ge]. Qed.

Lemma utf8_encode_ok s : Forall (fun c => scalarb c = true) s ->
  utf8_encode s = Ok (flat_map utf8_char s).
Proof.
  intros H. unfold utf8_encode. replace (forallb scalarb s) with true; [reflexivity|].
  symmetry. apply forallb_forall. rewrite Forall_forall in H. exact H.
Qed.
Lemma utf8_encode_inv s b : utf8_encode s = Ok b ->
  b = flat_map utf8_char s /\ Forall (fun c => scalarb c = true) s.
Proof.
  unfold utf8_encode. destruct (forallb scalarb s) eqn:E; [|discriminate].
  intros H. injection H as <-. split; [reflexivity|]. rewrite Forall_forall.
  apply forallb_forall. exact E.
Qed.
Lemma utf8_encode_err s : (exists c, In c s /\ scalarb c = false) -> utf8_encode s = Err UnicodeError.
Proof.
  intros (c & Hc & E). unfold utf8_encode. destruct (forallb scalarb s) eqn:F; [|reflexivity].
  rewrite forallb_forall in F. specialize (F c Hc). congruence.
Qed.

(** Encoded bytes are below 0xf5. *)
Lemma char_bytes c : scalarb c = true -> Forall (fun b => 0 <= b < 245) (utf8_char c).
Proof.
  intros H. apply scalar_range in H. unfold utf8_char.
  destruct (Z.ltb_spec c 128); [|destruct (Z.ltb_spec c 2048); [|destruct (Z.ltb_spec c 65536)]];
    repeat constructor; lia.
Qed.
Lemma encode_bytes s : Forall (fun c => scalarb c = true) s ->
  Forall (fun b => 0 <= b < 245) (flat_map utf8_char s).
Proof.
  induction 1 as [|c s H1 H2 IH]; [constructor|]. cbn. apply Forall_app.
  split; [apply char_bytes; exact H1|exact IH].
Qed.

(** Decoding is injective: what decodes is the encoding of the result. *)
Lemma decode_inv_fuel : forall f bs s, utf8_decode_fuel f bs = Ok s ->
  Forall is_byte bs -> bs = flat_map utf8_char s /\ Forall (fun c => scalarb c = true) s.
Proof.
  induction f as [|f IH]; intros bs s H Hb; cbn [utf8_decode_fuel] in H.
  - destruct bs; [|discriminate]. injection H as <-. split; [reflexivity|constructor].
  - destruct bs as [|a r]; [injection H as <-; split; [reflexivity|constructor]|].
    inversion Hb as [|? ? Ha Hr]; subst. unfold is_byte in Ha.
    destruct (Z.ltb_spec a 128) as [L|L].
    + destruct (utf8_decode_fuel f r) as [s'|e] eqn:E; [|discriminate]. injection H as <-.
      destruct (IH r s' E Hr) as [-> F].
      split; [|constructor; [apply scalar_range; lia|exact F]].
      cbn [flat_map]. unfold utf8_char at 2. replace (a <? 128) with true by lia. reflexivity.
    + destruct ((194 <=? a) && (a <? 224)) eqn:E2; [|destruct ((224 <=? a) && (a <? 240)) eqn:E3;
        [|destruct ((240 <=? a) && (a <? 245)) eqn:E4; [|discriminate]]].
      * destruct r as [|b r]; [discriminate|]. unfold contb in H.
        destruct ((128 <=? b) && (b <? 192)) eqn:Eb; [|discriminate].
        destruct (utf8_decode_fuel f r) as [s'|e] eqn:E; [|discriminate]. injection H as <-.
        inversion Hr as [|? ? Hb' Hr']; subst. destruct (IH r s' E Hr') as [-> F].
        split; [|constructor; [apply scalar_range; lia|exact F]].
        cbn [flat_map]. set (c := (a - 192) * 64 + (b - 128)). unfold utf8_char at 2.
        replace (c <? 128) with false by lia. replace (c <? 2048) with true by lia.
        cbn [app]. f_equal; [lia|]. f_equal. lia.
      * destruct r as [|b [|c r]]; try discriminate. unfold contb in H.
        set (v := (a - 224) * 4096 + (b - 128) * 64 + (c - 128)) in *.
        destruct ((128 <=? b) && (b <? 192) && ((128 <=? c) && (c <? 192)) && (2048 <=? v) && scalarb v)
          eqn:Eb; [|discriminate]. apply andb_prop in Eb. destruct Eb as [Eb Es].
        destruct (utf8_decode_fuel f r) as [s'|e] eqn:E; [|discriminate]. injection H as <-.
        inversion Hr as [|? ? Hb' Hr']; subst. inversion Hr' as [|? ? Hc' Hr'']; subst.
        destruct (IH r s' E Hr'') as [-> F].
        split; [|constructor; [exact Es|exact F]].
        cbn [flat_map]. unfold utf8_char at 2.
        replace (v <? 128) with false by lia. replace (v <? 2048) with false by lia.
        replace (v <? 65536) with true by lia.
        cbn [app]. f_equal; [lia|]. f_equal; [lia|]. f_equal. lia.
      * destruct r as [|b [|c [|d r]]]; try discriminate. unfold contb in H.
        set (v := (a - 240) * 262144 + (b - 128) * 4096 + (c - 128) * 64 + (d - 128)) in *.
        destruct ((128 <=? b) && (b <? 192) && ((128 <=? c) && (c <? 192)) &&
          ((128 <=? d) && (d <? 192)) && (65536 <=? v) && scalarb v) eqn:Eb; [|discriminate].
        apply andb_prop in Eb. destruct Eb as [Eb Es].
        destruct (utf8_decode_fuel f r) as [s'|e] eqn:E; [|discriminate]. injection H as <-.
        inversion Hr as [|? ? Hb' Hr']; subst. inversion Hr' as [|? ? Hc' Hr'']; subst.
        inversion Hr'' as [|? ? Hd' Hr3]; subst.
        destruct (IH r s' E Hr3) as [-> F].
        split; [|constructor; [exact Es|exact F]].
        cbn [flat_map]. unfold utf8_char at 2.
        replace (v <? 128) with false by lia. replace (v <? 2048) with false by lia.
        replace (v <? 65536) with false by lia.
        cbn [app]. f_equal; [lia|]. f_equal; [lia|]. f_equal; [lia|]. f_equal. lia.
Qed.
Lemma decode_inv bs s : utf8_decode bs = Ok s -> Forall is_byte bs -> utf8_encode s = Ok bs.
Proof.
  intros H Hb. destruct (decode_inv_fuel _ _ _ H Hb) as [-> F]. apply utf8_encode_ok. exact F.
Qed.
