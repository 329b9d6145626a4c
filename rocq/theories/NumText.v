(** Texts of numbers, boxes and real variables. *)
From Coq Require Import ZArith Lia SpecFloat.
From Flocq Require Import IEEE754.BinarySingleNaN.
From Verif Require Import Py Num Text StrModel StrProofs BBoxModel ReprModel ReprProofs ShpTableSpec ShpCellSpec ShpFloatText ShpCell
  FloatTextModel FloatTextSpec FloatText FloatReprModel FloatReprText FloatReprTable NumTextModel NumTextSpec.
Open Scope Z_scope.

(** ** The characters of numerals *)
Definition dig (c : Z) : Prop := 48 <= c <= 57.
Lemma digits_chars s : digits s -> Forall (fun c => dig c \/ c = 95) s.
Proof. induction 1; unfold digit, dig in *; repeat (constructor; [lia|]); try assumption; constructor. Qed.
Lemma sign_chars g : sign g -> Forall (fun c => c = 43 \/ c = 45) g.
Proof. change sign with (fun g => g = [] \/ g = [43] \/ g = [45]). cbv beta. intros [->|[->| ->]]; repeat constructor; lia. Qed.
Definition ichar (c : Z) : Prop := dig c \/ c = 95 \/ c = 43 \/ c = 45.
Definition fchar (c : Z) : Prop := ichar c \/ c = 46 \/ c = 101 \/ c = 69.
Lemma fa_imp {A} (P Q : A -> Prop) l : (forall x, P x -> Q x) -> Forall P l -> Forall Q l.
Proof. intros H. apply Forall_impl, H. Qed.
Lemma int_chars t z : int_value t z -> Forall ichar t.
Proof.
  intros (g & d & -> & D & H). apply Forall_app. split.
  - apply (fa_imp (fun c => c = 43 \/ c = 45)); [unfold ichar; lia|]. apply sign_chars.
    destruct H as [[-> _]|[[->| ->] _]]; [right; right|left|right; left]; reflexivity.
  - apply (fa_imp (fun c => dig c \/ c = 95)); [unfold ichar; tauto|exact (digits_chars _ D)].
Qed.
Lemma dec_chars t neg n k : decimal t neg n k -> Forall fchar t.
Proof.
  intros (g & m & e & j & z & -> & G & _ & M & X & _).
  assert (DD : forall s, digits s -> Forall fchar s).
  { intros s D. apply (fa_imp (fun c => dig c \/ c = 95)); [unfold fchar, ichar; tauto|exact (digits_chars _ D)]. }
  assert (SS : forall s, sign s -> Forall fchar s).
  { intros s D. apply (fa_imp (fun c => c = 43 \/ c = 45)); [unfold fchar, ichar; tauto|exact (sign_chars _ D)]. }
  assert (O46 : Forall fchar (text ".")) by (constructor; [right; left; reflexivity|constructor]).
  assert (O101 : Forall fchar (text "e")) by (constructor; [right; right; left; reflexivity|constructor]).
  assert (O69 : Forall fchar (text "E")) by (constructor; [right; right; right; reflexivity|constructor]).
  repeat (apply Forall_app; split); [apply SS, G| |].
  - destruct M as [(D & _)|[(a & D & -> & _)|[(b & D & -> & _)|(a & b & D & D' & -> & _)]]]; repeat (apply Forall_app; split); auto.
  - destruct X as [(-> & _)|(g' & d & G' & D & [->| ->] & _)]; [constructor| |]; repeat (apply Forall_app; split); auto.
Qed.
Lemma numeral_chars t x : numeral t x -> Forall fchar t.
Proof.
  destruct x as [z|d]; cbn [numeral].
  - intros (V & _). apply (fa_imp ichar); [unfold fchar; tauto|exact (int_chars _ _ V)].
  - intros ((neg & n & k & D) & _). exact (dec_chars _ _ _ _ D).
Qed.
Lemma numeral_free c t x : ~ fchar c -> numeral t x -> ~ In c t.
Proof. intros N H I. apply N. pose proof (numeral_chars _ _ H) as F. rewrite Forall_forall in F. exact (F _ I). Qed.

(** ** A numeral evaluates to one number *)
Lemma digits_head d : digits d -> exists c r, d = c :: r /\ dig c.
Proof. intros []; eexists; eexists; (split; [reflexivity|]); unfold digit, dig in *; assumption. Qed.
Lemma sign_split g g' d d' : sign g -> sign g' -> digits d -> digits d' -> g ++ d = g' ++ d' -> g = g' /\ d = d'.
Proof.
  change sign with (fun g => g = [] \/ g = [43] \/ g = [45]). cbv beta. intros G G' D D' E.
  destruct (digits_head _ D) as (c & r & -> & C). destruct (digits_head _ D') as (c' & r' & -> & C'). unfold dig in *.
  destruct G as [->|[->| ->]], G' as [->|[->| ->]]; cbn [app] in E; injection E; intros; subst; auto; lia.
Qed.
Lemma int_value_one t z z' : int_value t z -> int_value t z' -> z = z'.
Proof.
  intros (g & d & -> & D & H) (g' & d' & E & D' & H').
  assert (S : sign g) by (destruct H as [[-> _]|[[->| ->] _]]; [right; right|left|right; left]; reflexivity).
  assert (S' : sign g') by (destruct H' as [[-> _]|[[->| ->] _]]; [right; right|left|right; left]; reflexivity).
  destruct (sign_split _ _ _ _ S S' D D' E) as [<- <-].
  destruct H as [[-> ->]|[H ->]], H' as [[H' ->]|[H' ->]]; try reflexivity.
  - destruct H'; discriminate.
  - subst g. destruct H; discriminate.
Qed.
Lemma numeral_one t x y : numeral t x -> numeral t y -> x = y.
Proof.
  assert (M : forall z d, numeral t (Int z) -> numeral t (Float d) -> False).
  { intros z d (V & _) (_ & I & _). pose proof (int_chars _ _ V) as F. rewrite Forall_forall in F. unfold ichar, dig in F.
    destruct I as [I|[I|I]]; apply F in I; lia. }
  destruct x as [z|d], y as [z'|d']; intros H K.
  - f_equal. exact (int_value_one _ _ _ (proj1 H) (proj1 K)).
  - destruct (M _ _ H K).
  - destruct (M _ _ K H).
  - destruct H as (_ & _ & H), K as (_ & _ & K). congruence.
Qed.

(** ** The texts that are made *)
Lemma str_int_value z : int_value (str_int z) z.
Proof.
  unfold str_int. destruct (z <? 0) eqn:L.
  - apply Z.ltb_lt in L. destruct (plain_dec (- z)) as (P & N & V); [lia|]. exists (text "-"), (dec_nat (- z)). split; [reflexivity|].
    split; [apply plain_digits; assumption|]. left. split; [reflexivity|]. rewrite plain_value by exact P. lia.
  - apply Z.ltb_ge in L. destruct (plain_dec z) as (P & N & V); [lia|]. exists [], (dec_nat z). split; [reflexivity|].
    split; [apply plain_digits; assumption|]. right. split; [left; reflexivity|]. rewrite plain_value by exact P. lia.
Qed.
Lemma layout_marks n k : In 46 (layout n k) \/ In 101 (layout n k).
Proof.
  unfold layout. cbv zeta. destruct (_ && _).
  - destruct (_ <=? 0); [left; right; left; reflexivity|]. left. destruct (_ <? _); apply in_or_app; right; [apply in_or_app; left|]; left; reflexivity.
  - right. apply in_or_app. right. left. reflexivity.
Qed.
Lemma repr_marks d : In 46 (repr64 d) \/ In 101 (repr64 d) \/ In 110 (repr64 d).
Proof.
  destruct d as [s|s| |s m e].
  - left. destruct s; cbn; tauto.
  - right; right. destruct s; cbn; tauto.
  - right; right. cbn; tauto.
  - unfold repr64. destruct (shortest _ _ _ _ _) as [n k]. destruct (layout_marks n k) as [I|I]; [left|right; left]; apply in_or_app; right; exact I.
Qed.
Lemma first_digit v : 0 < v -> exists c d, dec_nat v = c :: d /\ 49 <= c <= 57.
Proof.
  intros P. destruct (dec_nat_spec v) as (A & V & Ne & H); [lia|]. destruct (dec_nat v) as [|c d]; [congruence|]. exists c, d. split; [reflexivity|].
  inversion A; subst. destruct d as [|c' d].
  - change (digits_val [c]) with (0 * 10 + (c - 48)) in P. lia.
  - cbn in H. assert (c <> 48) by (apply H; lia). lia.
Qed.
Lemma int_numeral z : numeral (str_int z) (Int z).
Proof.
  split; [apply str_int_value|]. destruct (Z.eq_dec z 0) as [->|N]; [left; reflexivity|right]. unfold str_int. destruct (z <? 0) eqn:L.
  - apply Z.ltb_lt in L. destruct (first_digit (- z)) as (c & d & -> & C); [lia|]. exists [45], c, d. split; [reflexivity|]. split; [right; right; reflexivity|exact C].
  - apply Z.ltb_ge in L. destruct (first_digit z) as (c & d & -> & C); [lia|]. exists [], c, d. split; [reflexivity|]. split; [left; reflexivity|exact C].
Qed.
Lemma num_back x : finite_number x -> numeral (num_str x) x.
Proof.
  destruct x as [z|d]; [intros _; apply int_numeral|]. intros F. cbn [num_str].
  assert (V : valid_binary 53 1024 d = true) by (destruct d; cbn in F; auto; reflexivity).
  assert (D : exists neg n k, decimal (repr64 d) neg n k).
  { destruct d as [s|s| |s m e]; try contradiction.
    - apply FloatTextOrder.decimal_exists. exists (minus s), (text "0.0"), []. rewrite app_nil_r. split; [reflexivity|]. split; [apply minus_is|].
      split; [|left; reflexivity]. right; right; right. exists [48], [48]. repeat split; constructor; unfold digit; lia.
    - destruct (repr_decimal s m e V) as (n & k & D & _). eauto. }
  split; [exact D|]. split; [|exact (repr_back d V)].
  destruct (repr_marks d) as [I|[I|I]]; [tauto|tauto|]. destruct D as (neg & n & k & D). apply dec_chars in D. rewrite Forall_forall in D.
  apply D in I. unfold fchar, ichar, dig in I. lia.
Qed.
Lemma special_str x : a_number x -> ~ finite_number x -> num_str x = text "nan" \/ num_str x = text "inf" \/ num_str x = text "-inf".
Proof.
  destruct x as [z|[s|[|]| |s m e]]; intros A N; [destruct N; exact I|destruct N; reflexivity|right; right; reflexivity|right; left; reflexivity|left; reflexivity|destruct N; exact A].
Qed.
Lemma special_no x y : a_number x -> ~ finite_number x -> ~ numeral (num_str x) y.
Proof.
  intros A N H. apply numeral_chars in H. rewrite Forall_forall in H. assert (I : In 110 (num_str x)) by (destruct (special_str x A N) as [->|[->| ->]]; cbn; tauto).
  apply H in I. unfold fchar, ichar, dig in I. lia.
Qed.
Lemma finite_dec x : {finite_number x} + {~ finite_number x}.
Proof. destruct x as [z|[s|s| |s m e]]; cbn [finite_number valid_binary]; auto. destruct (bounded 53 1024 m e); [left; reflexivity|right; discriminate]. Qed.
Definition tchar (c : Z) : Prop := fchar c \/ c = 97 \/ c = 102 \/ c = 105 \/ c = 110.
Lemma str_chars x : a_number x -> Forall tchar (num_str x).
Proof.
  intros A. destruct (finite_dec x) as [F|F].
  - apply (fa_imp fchar); [unfold tchar; tauto|]. exact (numeral_chars _ _ (num_back x F)).
  - destruct (special_str x A F) as [->|[->| ->]]; apply Forall_forall; intros c I; cbn in I; unfold tchar, fchar, ichar, dig; lia.
Qed.
Lemma str_free c x : ~ tchar c -> a_number x -> ~ In c (num_str x).
Proof. intros N A I. apply N. pose proof (str_chars x A) as F. rewrite Forall_forall in F. exact (F _ I). Qed.
Lemma num_inj x y : a_number x -> a_number y -> num_str x = num_str y -> x = y.
Proof.
  assert (M : forall z d, str_int z <> repr64 d).
  { intros z d E. pose proof (int_chars _ _ (str_int_value z)) as F. rewrite E, Forall_forall in F. unfold ichar, dig in F.
    destruct (repr_marks d) as [I|[I|I]]; apply F in I; lia. }
  destruct x as [z|d], y as [z'|d']; cbn [num_str a_number]; intros A B E.
  - f_equal. exact (str_inj _ _ E).
  - destruct (M _ _ E).
  - destruct (M _ _ (eq_sym E)).
  - f_equal. exact (repr_inj _ _ A B E).
Qed.

(** ** Boxes *)
Lemma first_split (c : Z) a : forall a' b b', ~ In c a -> ~ In c a' -> a ++ c :: b = a' ++ c :: b' -> a = a' /\ b = b'.
Proof.
  induction a as [|x a IH]; intros [|y a'] b b' A A' E; cbn in E.
  - injection E as <-. auto.
  - injection E as <- E. exfalso. apply A'. left. reflexivity.
  - injection E as -> E. exfalso. apply A. left. reflexivity.
  - injection E as <- E. destruct (IH a' b b') as [-> ->]; auto; intros I; [apply A|apply A']; right; exact I.
Qed.
Definition box_shape (a b c d : list Z) : list Z := text "BBox((" ++ a ++ text ", " ++ b ++ text "), (" ++ c ++ text ", " ++ d ++ text "))".
Lemma shape_inj a b c d a' b' c' d' : Forall (fun t => ~ In 44 t /\ ~ In 41 t) [a; b; c; d; a'; b'; c'; d'] ->
  box_shape a b c d = box_shape a' b' c' d' -> a = a' /\ b = b' /\ c = c' /\ d = d'.
Proof.
  intros F E. repeat match goal with H : Forall _ (_ :: _) |- _ => apply Forall_cons_iff in H; destruct H as [[? ?] H] end.
  unfold box_shape in E. apply app_inv_head in E.
  apply first_split in E; [|assumption|assumption]. destruct E as [-> E]. injection E as E.
  apply first_split in E; [|assumption|assumption]. destruct E as [-> E]. injection E as E.
  apply first_split in E; [|assumption|assumption]. destruct E as [-> E]. injection E as E.
  apply first_split in E; [|assumption|assumption]. destruct E as [-> E]. auto.
Qed.
Lemma numeral_marks t x : numeral t x -> ~ In 44 t /\ ~ In 41 t.
Proof. intros H. split; apply (numeral_free _ _ x); auto; unfold fchar, ichar, dig; lia. Qed.
Lemma str_commas x : a_number x -> ~ In 44 (num_str x) /\ ~ In 41 (num_str x).
Proof. intros H. split; apply str_free; auto; unfold tchar, fchar, ichar, dig; lia. Qed.
Lemma box_means_one s b b' : box_means s b -> box_means s b' -> b = b'.
Proof.
  intros (t0 & t1 & t2 & t3 & -> & A & B & C & D) (u0 & u1 & u2 & u3 & E & A' & B' & C' & D').
  apply shape_inj in E; [|repeat (constructor; [eapply numeral_marks; eassumption|]); constructor].
  destruct E as (<- & <- & <- & <-). destruct b as [x0 y0 x1 y1], b' as [x0' y0' x1' y1']. cbn in *.
  f_equal; eapply numeral_one; eassumption.
Qed.
Lemma box_repr_back b : corners finite_number b -> box_means (box_repr b) b.
Proof. intros (A & B & C & D). do 4 eexists. split; [reflexivity|]. repeat split; apply num_back; assumption. Qed.
Lemma box_apart b b' : corners a_number b -> corners a_number b' -> box_repr b = box_repr b' -> b = b'.
Proof.
  intros (A & B & C & D) (A' & B' & C' & D') E.
  apply shape_inj in E; [|repeat (constructor; [apply str_commas; assumption|]); constructor].
  destruct E as (E0 & E1 & E2 & E3). destruct b as [x0 y0 x1 y1], b' as [x0' y0' x1' y1']. cbn in *.
  f_equal; apply num_inj; assumption.
Qed.
Lemma box_lost b b' : corners a_number b -> ~ corners finite_number b -> ~ box_means (box_repr b) b'.
Proof.
  intros (A & B & C & D) N (u0 & u1 & u2 & u3 & E & A' & B' & C' & D').
  apply shape_inj in E; [|repeat (constructor; [first [apply str_commas; assumption|eapply numeral_marks; eassumption]|]); constructor].
  destruct E as (<- & <- & <- & <-). apply N.
  assert (Q : forall x y, a_number x -> numeral (num_str x) y -> finite_number x).
  { intros x y Ax H. destruct (finite_dec x) as [F|F]; [exact F|]. destruct (special_no x y Ax F H). }
  repeat split; eapply Q; eassumption.
Qed.

(** ** Real variables *)
Lemma real_str_eq f : real_str f = text "real " ++ r_name f ++ text " in [" ++ num_str (r_min f) ++ text "; " ++ num_str (r_max f) ++ 93 :: ending (r_null f).
Proof. unfold real_str. destruct (r_null f); reflexivity. Qed.
Lemma real_str_apart f g : a_number (r_min f) -> a_number (r_max f) -> a_number (r_min g) -> a_number (r_max g) -> real_str f = real_str g ->
  r_name f = r_name g /\ r_min f = r_min g /\ r_max f = r_max g /\ r_null f = r_null g.
Proof.
  intros A B C D. rewrite !real_str_eq. intros E. apply app_inv_head in E. rewrite !app_assoc in E.
  apply ending_inj in E; [|discriminate|discriminate]. destruct E as [E ->].
  apply app_inj_tail in E as [E _].
  change (text "; ") with ([59] ++ [32]) in E. rewrite !app_assoc in E. rewrite <- !(app_assoc _ [32]) in E. cbn [app] in E.
  apply last_split in E; [|apply str_free; [unfold tchar, fchar, ichar, dig; lia|assumption]|apply str_free; [unfold tchar, fchar, ichar, dig; lia|assumption]].
  destruct E as [E M]. apply num_inj in M; [|assumption|assumption].
  apply app_inj_tail in E as [E _].
  change (text " in [") with (text " in " ++ [91]) in E. rewrite !app_assoc in E. rewrite <- !(app_assoc _ [91]) in E. cbn [app] in E.
  apply last_split in E; [|apply str_free; [unfold tchar, fchar, ichar, dig; lia|assumption]|apply str_free; [unfold tchar, fchar, ichar, dig; lia|assumption]].
  destruct E as [E L]. apply num_inj in L; [|assumption|assumption].
  apply app_inv_tail in E. auto.
Qed.
Lemma real_repr_apart f g : a_number (r_min f) -> a_number (r_max f) -> a_number (r_min g) -> a_number (r_max g) -> real_repr f = real_repr g ->
  r_min f = r_min g /\ r_max f = r_max g /\ r_size f = r_size g /\ r_null f = r_null g.
Proof.
  intros A B C D E. unfold real_repr in E. apply app_inv_head in E.
  apply first_split in E; [|apply str_commas; assumption|apply str_commas; assumption]. destruct E as [E0 E]. injection E as E.
  apply first_split in E; [|apply str_commas; assumption|apply str_commas; assumption]. destruct E as [E1 E]. injection E as E.
  apply first_split in E; [|apply str_not_in; lia|apply str_not_in; lia]. destruct E as [E2 E]. injection E as E.
  repeat split; [apply num_inj; assumption|apply num_inj; assumption|apply str_inj; assumption|].
  destruct (r_null f), (r_null g); auto; discriminate E.
Qed.
