(** Coordinates beside a canvas: proofs. *)
From Coq Require Import ZifyBool Lia Psatz.
From Verif Require Import Num PfModel StrModel RasterModel RasterSpec RasterCanvas RasterApi RasterOutSpec.
Open Scope Z_scope.
Ltac Zify.zify_post_hook ::= Z.div_mod_to_equations.

Lemma cases w h p : 0 < w -> 0 <= h -> (exists q, stands_for w h p q) \/ beside w h p.
Proof.
  intros W H. unfold beside. set (k := number w p). destruct (Z_lt_le_dec k (- (w * h))); [auto|]. destruct (Z_lt_le_dec k (w * h)); [|auto].
  left. set (j := if k <? 0 then k + w * h else k). assert (J : 0 <= j < w * h) by (unfold j; destruct (k <? 0) eqn:?; lia). exists (j mod w, j / w).
  split.
  - split; cbn [fst snd]; [apply Z.mod_pos_bound; exact W|]. split; [apply Z.div_pos; lia|]. apply Z.div_lt_upper_bound; lia.
  - assert (E : number w (j mod w, j / w) = j) by (unfold number; cbn [fst snd]; pose proof (Z.div_mod j w ltac:(lia)); lia).
    rewrite E. fold k. unfold j. destruct (k <? 0); auto.
Qed.
Lemma only_one w h p q q' : stands_for w h p q -> stands_for w h p q' -> q = q' /\ ~ beside w h p.
Proof.
  intros [I E] [I' E']. pose proof (g_index_range _ _ _ I) as R. pose proof (g_index_range _ _ _ I') as R'. unfold beside, number, g_index in *.
  split; [apply (g_index_inj w h); auto; unfold g_index; nia|nia].
Qed.
Lemma get_wrap {A} (l : list A) i j : 0 <= j < Z.of_nat (length l) -> j = i \/ j = i + Z.of_nat (length l) -> py_get l i = py_get l j /\ forall x, py_set l i x = py_set l j x.
Proof.
  intros J E. unfold py_get, py_set. replace (j <? 0) with false by lia.
  replace (if i <? 0 then i + Z.of_nat (length l) else i) with j by (destruct (i <? 0) eqn:?; lia). split; reflexivity.
Qed.
Lemma set_out {A} (l : list A) i x : i < - Z.of_nat (length l) \/ Z.of_nat (length l) <= i -> py_set l i x = Err IndexError.
Proof.
  intros H. unfold py_set. destruct ((0 <=? _) && _) eqn:E; [|reflexivity]. destruct (i <? 0) eqn:?; lia.
Qed.

(** ** GrayCanvas *)
Section G.
  Context {T : Type} `{PyNum T} `{PyInt T}.
  Lemma gray_for w h c p q : g_ok w h c -> stands_for w h p q -> g_get c p = g_get c q /\ forall v : gcolor T, g_set c p v = g_set c q v.
  Proof.
    intros (Hw & _ & L & _) [I E]. pose proof (g_index_range _ _ _ I) as R. unfold g_index in R. unfold number in E.
    destruct (get_wrap (g_data c) (snd p * w + fst p) (snd q * w + fst q)) as [E1 E2]; [lia|lia|].
    unfold g_get, g_set. rewrite Hw, E1. split; [reflexivity|]. clear E1. intros v. destruct v as [v|l a]; cbn [bind].
    - destruct (py_get _ _); [|reflexivity]. cbn [bind]. destruct (byte_check v); [|reflexivity]. cbn [bind]. rewrite E2. reflexivity.
    - destruct (unpack_pair l a) as [[fg a']|]; [|reflexivity]. cbn [bind]. destruct (py_get _ _); [|reflexivity]. cbn [bind].
      destruct (byte_check _); [|reflexivity]. cbn [bind]. rewrite E2. reflexivity.
  Qed.
  Lemma gray_beside w h c p : g_ok w h c -> beside w h p -> g_get c p = Err IndexError /\
    (forall v, g_set c p (GInt (T := T) v) = Err IndexError) /\ (forall fg (a : T), g_set c p (GTup [fg] (Some a)) = Err IndexError).
  Proof.
    intros (Hw & _ & L & _) B. unfold beside, number in B. assert (G : py_get (g_data c) (snd p * w + fst p) = Err IndexError) by (apply py_get_out; lia).
    unfold g_get, g_set. rewrite Hw, G. repeat split.
  Qed.
End G.

(** ** BWCanvas *)
Lemma padded_row w w8 : padded w w8 -> w8 = 8 * ((w + 7) / 8).
Proof. intros [A B]. lia. Qed.
Lemma bw_for w h w8 c p q : bw_ok w h c -> padded w w8 -> stands_for w8 h p q -> bw_get c p = bw_get c q /\ forall v, bw_set c p v = bw_set c q v.
Proof.
  intros (Hw & _ & Hr & L & _) P [I E]. pose proof (g_index_range _ _ _ I) as R. unfold g_index in R. unfold number in E. pose proof (padded_row _ _ P) as E8.
  rewrite E8 in E, R. set (m := (w + 7) / 8) in *. unfold bw_get, bw_set. rewrite Hr.
  assert (E3 : (snd p * (8 * m) + fst p) mod 8 = (snd q * (8 * m) + fst q) mod 8).
  { destruct E as [->|E]; [reflexivity|]. rewrite E. replace (snd p * (8 * m) + fst p + 8 * m * h) with (snd p * (8 * m) + fst p + m * h * 8) by ring. rewrite Z.mod_add by lia. reflexivity. }
  destruct (get_wrap (bw_data c) ((snd p * (8 * m) + fst p) / 8) ((snd q * (8 * m) + fst q) / 8)) as [E1 E2].
  - rewrite L. split; [apply Z.div_pos; lia|apply Z.div_lt_upper_bound; lia].
  - destruct E as [->|E]; [auto|]. right. rewrite E, L. replace (snd p * (8 * m) + fst p + 8 * m * h) with (snd p * (8 * m) + fst p + m * h * 8) by ring. rewrite Z.div_add by lia. reflexivity.
  - rewrite E1, E3. split; [reflexivity|]. clear E1. intros v. destruct (py_get _ _); [|reflexivity]. cbn [bind]. rewrite E2. reflexivity.
Qed.
Lemma bw_beside w h w8 c p : bw_ok w h c -> padded w w8 -> beside w8 h p -> bw_get c p = Err IndexError /\ forall v, bw_set c p v = Err IndexError.
Proof.
  intros (Hw & _ & Hr & L & _) P B. pose proof (padded_row _ _ P) as E8. unfold beside, number in B. rewrite E8 in B. set (m := (w + 7) / 8) in *.
  assert (G : py_get (bw_data c) ((snd p * (8 * m) + fst p) / 8) = Err IndexError).
  { apply py_get_out. rewrite L. destruct B as [B|B]; [right|left].
    - apply Z.div_lt_upper_bound; lia.
    - apply Z.div_le_lower_bound; lia. }
  unfold bw_get, bw_set. rewrite Hr, G. split; reflexivity.
Qed.
(** The padding at the end of a row is never seen. *)
Lemma bw_padding w h w8 c p v : 0 <= w -> bw_ok w h c -> padded w w8 -> w <= fst p < w8 -> 0 <= snd p < h ->
  exists c', bw_set c p v = Ok c' /\ bw_ok w h c' /\ forall q, in_canvas w h q -> bw_get c' q = bw_get c q.
Proof.
  intros W0 K P X Y. pose proof (padded_row _ _ P) as E8.
  assert (K8 : bw_ok w8 h (mkbw w8 (bw_height c) (bw_data c) (bw_row c))).
  { destruct K as (Hw & Hh & Hr & L & B). split; [reflexivity|]. split; [exact Hh|]. cbn [bw_row bw_data].
    replace ((w8 + 7) / 8) with ((w + 7) / 8) by lia. auto. }
  destruct (bw_get_set w8 h _ p v K8) as (c8 & E & K8' & G & O); [split; lia|].
  assert (Es : exists c', bw_set c p v = Ok c' /\ bw_data c8 = bw_data c' /\ bw_width c' = bw_width c /\ bw_height c' = bw_height c /\ bw_row c8 = bw_row c').
  { unfold bw_set in *. cbn [bw_width bw_height bw_data bw_row] in *. destruct (py_get _ _); [|discriminate]. cbn [bind] in *.
    destruct (py_set _ _ _); [|discriminate]. cbn [bind] in *. eexists. split; [reflexivity|]. injection E as <-. cbn. auto. }
  destruct Es as (c' & E' & D & W' & H' & R'). exists c'. split; [exact E'|]. split.
  - destruct K as (Hw & Hh & Hr & L & B). destruct K8' as (Hw' & Hh' & Hr' & L' & B'). rewrite D in *. rewrite R' in Hr'.
    split; [congruence|]. split; [congruence|]. replace ((w8 + 7) / 8) with ((w + 7) / 8) in * by lia. auto.
  - intros q [Qx Qy]. assert (Iq : in_canvas w8 h q) by (destruct P; split; lia). specialize (O q Iq ltac:(intros ->; lia)).
    unfold bw_get in *. cbn [bw_row bw_data] in *. rewrite <- D, <- R'. exact O.
Qed.

(** ** ColorCanvas *)
Section C.
  Context {T : Type} `{PyNum T} `{PyInt T}.
  Lemma colour_for w h c p q : c_ok w h c -> stands_for w h p q -> number w p <> -1 ->
    c_get c p = c_get c q /\ forall v : list Z * option T, c_set c p v = c_set c q v.
  Proof.
    intros (Hw & _ & L & _) [I E] N. pose proof (g_index_range _ _ _ I) as R. unfold g_index in R. unfold number in E, N.
    set (i := snd p * w + fst p) in *. set (j := snd q * w + fst q) in *.
    assert (C : forall d, d = 0 \/ d = 3 -> slice_clamp (3 * (w * h)) (3 * i + d) = slice_clamp (3 * (w * h)) (3 * j + d)).
    { intros d D. unfold slice_clamp. destruct (3 * i + d <? 0) eqn:A, (3 * j + d <? 0) eqn:B; lia. }
    pose proof (C 0 (or_introl eq_refl)) as C0. pose proof (C 3 (or_intror eq_refl)) as C3. rewrite !Z.add_0_r in C0.
    assert (S : py_slice (c_data c) (3 * i) (3 * i + 3) = py_slice (c_data c) (3 * j) (3 * j + 3)) by (unfold py_slice; rewrite L, C0, C3; reflexivity).
    assert (A : forall x, slice_assign (c_data c) (3 * i) (3 * i + 3) x = slice_assign (c_data c) (3 * j) (3 * j + 3) x) by (intros x; unfold slice_assign; rewrite L, C0, C3; reflexivity).
    unfold c_get, c_set. rewrite Hw. fold i j. rewrite S. split; [reflexivity|]. intros v.
    destruct (match v with ([r; g; b; a], None) => _ | _ => _ end) as [col|]; [|reflexivity]. cbn [bind]. destruct (mapM byte_check col); [|reflexivity]. cbn [bind]. rewrite A. reflexivity.
  Qed.
  Lemma colour_unread w h c p : c_ok w h c -> number w p = -1 \/ beside w h p -> c_get c p = Err ValueError /\
    forall r g b (a : T), c_set c p ([r; g; b], Some a) = Err ValueError.
  Proof.
    intros (Hw & _ & L & _) B. unfold beside, number in B. set (i := snd p * w + fst p) in *.
    assert (S : py_slice (c_data c) (3 * i) (3 * i + 3) = []).
    { unfold py_slice. rewrite L. destruct (_ <? _) eqn:E; [|reflexivity]. exfalso. unfold slice_clamp in E.
      destruct (3 * i <? 0) eqn:E1, (3 * i + 3 <? 0) eqn:E2; lia. }
    unfold c_get, c_set. rewrite Hw. fold i. rewrite S. split; [reflexivity|]. intros. reflexivity.
  Qed.
  Lemma shift_slot {A} (l new : list A) k : length new = 3%nat -> firstn 3 (skipn (3 * S k) (new ++ l)) = firstn 3 (skipn (3 * k) l).
  Proof.
    intros L. replace (3 * S k)%nat with (3 + 3 * k)%nat by lia. rewrite <- PfHist.skipn_skipn, skipn_app, L, (skipn_all2 new) by lia. reflexivity.
  Qed.
  (** Above the canvas: every pixel moves on by one. *)
  Lemma colour_above w h c p r g b : c_ok w h c -> 0 < w -> 0 < h -> number w p < - (w * h) -> is_byte r -> is_byte g -> is_byte b ->
    exists c', c_set c p ([r; g; b], None (A := T)) = Ok c' /\ c_data c' = [r; g; b] ++ c_data c /\ c_get c' (0, 0) = Ok (r, g, b) /\
      forall q q', in_canvas w h q -> in_canvas w h q' -> follows w q q' -> c_get c' q' = c_get c q.
  Proof.
    intros K W Hh B Br Bg Bb. pose proof K as (Hw & _ & L & Fb). unfold number in B. set (i := snd p * w + fst p) in *.
    unfold c_set. cbn [bind mapM]. rewrite !byte_ok by assumption. cbn [bind]. rewrite Hw. fold i.
    assert (E : slice_assign (c_data c) (3 * i) (3 * i + 3) [r; g; b] = [r; g; b] ++ c_data c).
    { unfold slice_assign, slice_clamp. rewrite L. replace (3 * i <? 0) with true by lia. replace (3 * i + 3 <? 0) with true by lia.
      rewrite !Z.max_l by lia. reflexivity. }
    rewrite E. eexists. split; [reflexivity|]. cbn [c_data]. split; [reflexivity|]. split.
    - unfold c_get. cbn [c_width c_data fst snd]. rewrite slice_mid3 by (rewrite ?app_length; cbn [length]; lia). reflexivity.
    - intros q q' I I' F. unfold follows, number in F. pose proof (g_index_range _ _ _ I) as R. pose proof (g_index_range _ _ _ I') as R'. unfold g_index in *.
      unfold c_get. cbn [c_width c_data]. rewrite Hw. rewrite !slice_mid3 by (rewrite ?app_length; cbn [length]; lia).
      replace (Z.to_nat (3 * (snd q' * w + fst q'))) with (3 * S (Z.to_nat (snd q * w + fst q)))%nat by lia.
      replace (Z.to_nat (3 * (snd q * w + fst q))) with (3 * Z.to_nat (snd q * w + fst q))%nat by lia. rewrite shift_slot by reflexivity. reflexivity.
  Qed.
  (** Number -1: the colour is put before the last pixel, which leaves the canvas. *)
  Lemma colour_last w h c p r g b : c_ok w h c -> 0 < w -> 0 < h -> number w p = -1 -> is_byte r -> is_byte g -> is_byte b ->
    exists c' last, c_set c p ([r; g; b], None (A := T)) = Ok c' /\ c_get c (w - 1, h - 1) = Ok last /\
      c_get c' (w - 1, h - 1) = Ok (r, g, b) /\ c_get c' (0, h) = Ok last /\
      (forall q, in_canvas w h q -> q <> (w - 1, h - 1) -> c_get c' q = c_get c q).
  Proof.
    intros K W Hh B Br Bg Bb. pose proof K as (Hw & _ & L & Fb). unfold number in B.
    unfold c_set. cbn [bind mapM]. rewrite !byte_ok by assumption. cbn [bind]. rewrite Hw, B.
    set (n := Z.to_nat (w * h - 1)). assert (W1 : 1 <= w * h) by nia.
    assert (Ln : length (c_data c) = (3 * n + 3)%nat) by (unfold n; lia).
    assert (E : slice_assign (c_data c) (3 * -1) (3 * -1 + 3) [r; g; b] = firstn (3 * n) (c_data c) ++ [r; g; b] ++ skipn (3 * n) (c_data c)).
    { unfold slice_assign, slice_clamp. rewrite L. change (3 * -1 <? 0) with true. change (3 * -1 + 3 <? 0) with false. cbv iota.
      rewrite Z.max_r by lia. rewrite Z.max_l by lia. replace (Z.to_nat (3 * -1 + 3 * (w * h))) with (3 * n)%nat by (unfold n; lia). reflexivity. }
    rewrite E. destruct (firstn_skipn_three (c_data c) (3 * n)) as (x & y & z & E3 & _); [lia|].
    assert (Ew : (h - 1) * w + (w - 1) = w * h - 1) by ring.
    eexists. exists (x, y, z). split; [reflexivity|]. unfold c_get. cbn [c_width c_data fst snd]. rewrite Hw, Ew.
    assert (La : length (firstn (3 * n) (c_data c)) = (3 * n)%nat) by (rewrite firstn_length; lia).
    assert (Lb : length (skipn (3 * n) (c_data c)) = 3%nat) by (rewrite skipn_length; lia).
    split; [|split; [|split]].
    - rewrite slice_mid3 by lia. replace (Z.to_nat (3 * (w * h - 1))) with (3 * n)%nat by (unfold n; lia). rewrite E3. reflexivity.
    - rewrite slice_mid3 by (rewrite ?app_length, ?La, ?Lb; cbn [length]; lia). replace (Z.to_nat (3 * (w * h - 1))) with (3 * n)%nat by (unfold n; lia).
      rewrite skipn_app, La, skipn_all2 by lia. rewrite Nat.sub_diag. reflexivity.
    - rewrite slice_mid3 by (rewrite ?app_length, ?La, ?Lb; cbn [length]; lia). replace (Z.to_nat (3 * (h * w + 0))) with (3 * n + 3)%nat by (unfold n; lia).
      rewrite skipn_app, La, skipn_all2 by lia. replace (3 * n + 3 - 3 * n)%nat with 3%nat by lia. cbn [app skipn]. rewrite E3. reflexivity.
    - intros q I Nq. pose proof (g_index_range _ _ _ I) as R. unfold g_index in R.
      assert (Nn : snd q * w + fst q <> w * h - 1).
      { intros C. apply Nq. apply (g_index_inj w h); [exact I|split; cbn [fst snd]; lia|]. unfold g_index. cbn [fst snd]. lia. }
      rewrite !slice_mid3 by (rewrite ?app_length, ?La, ?Lb; cbn [length]; lia).
      replace (Z.to_nat (3 * (snd q * w + fst q))) with (3 * Z.to_nat (snd q * w + fst q))%nat by lia. set (k := Z.to_nat (snd q * w + fst q)).
      rewrite skipn_app, firstn_app, La. rewrite skipn_length, La. replace (3 - (3 * n - 3 * k))%nat with 0%nat by (unfold n, k; lia). rewrite firstn_O, app_nil_r.
      rewrite skipn_firstn_comm, firstn_firstn. replace (Nat.min 3 (3 * n - 3 * k)) with 3%nat by (unfold n, k; lia). reflexivity.
  Qed.
End C.
