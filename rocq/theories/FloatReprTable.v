(** Doubles as texts in attribute tables. *)
From Coq Require Import ZArith Reals Lia Lra SpecFloat Psatz.
From Flocq Require Import Core IEEE754.BinarySingleNaN.
From Verif Require Import Py Num Text FloatLib StrModel StrProofs Utf8Model ShpFile ShpWriterModel ShpReaderModel ShpSpec ShpPrograms ShpTableSpec ShpTablePrograms ShpTable ShpCellSpec ShpFloatText FloatTextModel FloatTextSpec FloatText FloatTextRound FloatTextOrder FloatReprModel FloatReprDigits FloatReprText.
Open Scope Z_scope.

(** ** What is read is well formed *)
Lemma ratio_valid s p q : valid_binary 53 1024 (ratio64 s p q) = true.
Proof.
  pose proof (Bdiv_correct_aux 53 1024 Hprec53 Hmax1024 mode_NE s p 0 false q 0) as C. cbv zeta in C. destruct C as (C & _). rewrite Bool.xorb_false_r in C.
  unfold ratio64. destruct (SFdiv_core_binary _ _ _ _ _ _) as [[mz ez] lz]. rewrite round_aux_equiv. exact C.
Qed.
Lemma decimal_valid s n k : valid_binary 53 1024 (decimal64 s n k) = true.
Proof. unfold decimal64. destruct n as [|p|p]; [reflexivity| |reflexivity]. destruct k; apply ratio_valid. Qed.
Lemma float_valid s d : float64 s = Ok d -> valid_binary 53 1024 d = true.
Proof.
  unfold float64. destruct (drop_underscores false s) as [t|]; [|discriminate]. cbv zeta. destruct (_ || _); [intros [= <-]; reflexivity|].
  destruct (zlist_eqb _ _); [intros [= <-]; reflexivity|]. destruct (span_digits _) as [i r]. destruct (match r with 46 :: r1 => _ | _ => _ end) as [f r'].
  destruct (nonempty (i ++ f) && exponent_ok r'); [|discriminate]. intros [= <-]. apply decimal_valid.
Qed.
Lemma repr_inj d d' : valid_binary 53 1024 d = true -> valid_binary 53 1024 d' = true -> repr64 d = repr64 d' -> d = d'.
Proof. intros V V' E. pose proof (repr_back d V) as A. rewrite E, (repr_back d' V') in A. congruence. Qed.
Lemma str_same t : float_text t -> float64 (float_str t) = float64 t.
Proof.
  intros F. unfold float_str. destruct (float64 t) as [d|e] eqn:E.
  - apply repr_back. eapply float_valid, E.
  - apply float_rejects in E. tauto.
Qed.
Lemma str_again t : float_text t -> float_str (float_str t) = float_str t.
Proof. intros F. unfold float_str at 1. rewrite (str_same t F). unfold float_str. destruct (float64 t) as [d|e] eqn:E; [reflexivity|]. apply float_rejects in E. tauto. Qed.
Lemma str_text t : float_text t -> float_text (float_str t).
Proof.
  intros F. apply float_ok_iff. destruct (float_ok (float_str t)) eqn:O; [reflexivity|]. apply float_fails in O. rewrite (str_same t F) in O. apply float_rejects in O. tauto.
Qed.

(** ** Shortest *)
Lemma repr_shortest s m e r : let d := S754_finite s m e in valid_binary 53 1024 d = true -> isf d r ->
  exists j n k, 1 <= j <= 17 /\ 0 < n < 10 ^ j /\ stands_for (repr64 d) (dec_value s n k) /\
  forall t neg n0 k0, decimal t neg n0 k0 -> float64 t = Ok d -> 10 ^ (j - 1) <= n0 /\
    (n0 < 10 ^ j -> (Rabs (dec_value s n k - r) <= Rabs (dec_value neg n0 k0 - r))%R).
Proof.
  intros d V I. destruct (repr_decimal s m e V) as (n & k & D & _ & N & j & n' & k' & J & A & B & C).
  assert (R0 : r = signed s (IZR (Zpos m) * bpow radix2 e)%R).
  { pose proof (isf_valid d V eq_refl) as I'. rewrite (isf_fun _ _ _ I I'). unfold d, signed. cbn [SF2R]. unfold F2R. cbn [Fnum Fexp]. destruct s; cbn [cond_Zopp Z.opp].
    - change (Zneg m) with (- Zpos m). rewrite opp_IZR. ring.
    - ring. }
  assert (DV : forall g n k, dec_value g n k = signed g (value n k)) by reflexivity.
  assert (SD : forall a b, Rabs (signed s a - signed s b) = Rabs (a - b)).
  { intros a b. unfold signed. destruct s; [replace (-1 * a - -1 * b)%R with (- (a - b))%R by ring; apply Rabs_Ropp|f_equal; ring]. }
  exists j, n', k'. split; [exact J|]. split; [exact A|]. split; [exists s, n, k; split; [exact D|rewrite !DV, B; reflexivity]|].
  intros t neg n0 k0 D0 E. rewrite (float_decimal _ _ _ _ D0) in E. injection E as E. apply decimal_flip in E. destruct E as (-> & E).
  assert (P0 : 0 < n0). { pose proof (decimal_pos _ _ _ _ D0). destruct (Z.eq_dec n0 0) as [->|]; [discriminate E|lia]. }
  apply (good_iff m e V n0 k0 P0) in E. destruct (C n0 k0 P0 E) as (C1 & C2). split; [exact C1|]. intros L. rewrite R0, !DV, !SD, B. apply C2, L.
Qed.

(** ** Length *)
Lemma num_low c s : plain_digs s -> 49 <= c -> 10 ^ Z.of_nat (length s) <= digits_num (c :: s).
Proof.
  intros P C. change (c :: s) with ([c] ++ s). rewrite num_app. pose proof (num_pos s P). unfold digits_num at 1. cbn [fold_left]. pose proof (Z.pow_pos_nonneg 10 (Z.of_nat (length s)) ltac:(lia) ltac:(lia)). nia.
Qed.
Lemma dec_len n i : 1 <= i -> 0 <= n < 10 ^ i -> Z.of_nat (length (dec_nat n)) <= i.
Proof.
  intros I N. destruct (plain_dec n ltac:(lia)) as (P & Ne & V). destruct (dec_nat_spec n ltac:(lia)) as (_ & _ & _ & H).
  destruct (Z_le_gt_dec (Z.of_nat (length (dec_nat n))) i) as [L|L]; [exact L|exfalso]. specialize (H ltac:(lia)).
  destruct (dec_nat n) as [|c s] eqn:E; [congruence|]. cbn [hd length] in *. inversion P; subst.
  assert (C : 49 <= c) by (unfold digit in *; lia). pose proof (num_low c s ltac:(assumption) C). assert (10 ^ i <= 10 ^ Z.of_nat (length s)) by (apply Z.pow_le_mono_r; lia). lia.
Qed.
Lemma find_exp_range f : forall m e K, K <= find_exp f m e K <= K + Z.of_nat f.
Proof.
  induction f as [|f IH]; intros m e K; cbn [find_exp]; [lia|]. destruct (scaled m e K) as [a b]. destruct (a <? b); [lia|]. specialize (IH m e (K + 1)). lia.
Qed.
Lemma exponent_length x : Z.abs x < 1000 -> (length (exponent_text x) <= 4)%nat.
Proof.
  intros X. unfold exponent_text. pose proof (dec_len (Z.abs x) 3 ltac:(lia) ltac:(lia)) as L. rewrite app_length. destruct (x <? 0); cbn [length text];
    destruct (Nat.ltb_spec (length (dec_nat (Z.abs x))) 2); cbn [length]; change (length (text "-")) with 1%nat; change (length (text "+")) with 1%nat; lia.
Qed.
Lemma layout_length n k : 0 < n <= 10 ^ 17 -> -400 <= k <= 400 -> (length (layout n k) <= 23)%nat.
Proof.
  intros N KB. unfold layout. cbv zeta. set (t := rstrip_by _ _). set (pt := k + Z.of_nat (length (dec_nat n))).
  assert (SL : 1 <= Z.of_nat (length (dec_nat n)) <= 18).
  { split; [destruct (plain_dec n ltac:(lia)) as (_ & Ne & _); destruct (dec_nat n); [congruence|cbn [length]; lia]|]. apply dec_len; lia. }
  assert (TL : Z.of_nat (length t) <= 17).
  { destruct (Z.eq_dec n (10 ^ 17)) as [->|X]; [vm_compute; discriminate|]. destruct (stripped n ltac:(lia)) as (j & J & _ & _ & E & _). fold t in E. pose proof (dec_len n 17 ltac:(lia) ltac:(lia)). lia. }
  pose proof (exponent_length (pt - 1) ltac:(unfold pt; lia)) as XL.
  destruct (_ && _) eqn:B.
  - apply andb_prop in B. destruct B as (B1 & B2). apply Z.ltb_lt in B1. apply Z.leb_le in B2. destruct (Z.leb_spec pt 0) as [C|C].
    + rewrite !app_length. change (length (text "0.")) with 2%nat. pose proof (zeros_length (- pt) ltac:(lia)). lia.
    + destruct (Z.ltb_spec pt (Z.of_nat (length t))) as [C'|C'].
      * rewrite !app_length, firstn_length, skipn_length. change (length (text ".")) with 1%nat. lia.
      * rewrite !app_length. change (length (text ".0")) with 2%nat. pose proof (zeros_length (pt - Z.of_nat (length t)) ltac:(lia)). lia.
  - rewrite !app_length. change (length (text "e")) with 1%nat. clearbody t. destruct t as [|c [|c' f]]; cbn [firstn skipn length] in *; [lia|lia|].
    rewrite app_length. change (length (text ".")) with 1%nat. cbn [length]. lia.
Qed.
Lemma repr_length d : valid_binary 53 1024 d = true -> (length (repr64 d) <= 24)%nat.
Proof.
  destruct d as [s|s| |s m e]; intros V; [destruct s; cbn; lia|destruct s; cbn; lia|cbn; lia|]. unfold repr64. set (K := find_exp 700 (Zpos m) e (-330)).
  pose proof (find_exp_range 700 (Zpos m) e (-330)) as KR. fold K in KR. change (Z.of_nat 700) with 700 in KR.
  pose proof (shortest_spec m e V 17 1 ltac:(lia) eq_refl ltac:(lia)) as S. fold K in S. destruct (shortest 17 m e 1 K) as [n k]. destruct S as (q & Q1 & -> & Q3 & _).
  pose proof (Z.pow_pos_nonneg 10 (q - 1) ltac:(lia) ltac:(lia)) as PP. pose proof (Z.pow_le_mono_r 10 q 17 ltac:(lia) ltac:(lia)) as PQ.
  rewrite app_length. pose proof (layout_length n (K - q) ltac:(lia) ltac:(lia)). destruct s; cbn [length]; change (length (text "-")) with 1%nat; lia.
Qed.

(** ** Cells *)
Lemma str_length t : float_text t -> (length (float_str t) <= 24)%nat.
Proof.
  intros F. unfold float_str. destruct (float64 t) as [d|e] eqn:E; [apply repr_length; eapply float_valid, E|]. apply float_rejects in E. tauto.
Qed.
Lemma digits_ascii s : digits s -> ascii s.
Proof. induction 1; repeat (constructor; [unfold digit in *; lia|]); try assumption; constructor. Qed.
Lemma sign_ascii g : sign g -> ascii g.
Proof. change sign with (fun g => g = [] \/ g = [43] \/ g = [45]). cbv beta. intros [->|[->| ->]]; repeat constructor; lia. Qed.
Lemma one_ascii c : 0 <= c < 128 -> ascii [c].
Proof. intros H. repeat constructor; lia. Qed.
Lemma ascii_app a b : ascii a -> ascii b -> ascii (a ++ b).
Proof. intros A B. apply Forall_app. split; assumption. Qed.
Lemma float_ascii s : float_text s -> ascii s.
Proof.
  intros [g [m [e [-> [G [[M X]|[S ->]]]]]]].
  - repeat apply ascii_app; [apply sign_ascii, G| |].
    + destruct M as [D|[[a [D ->]]|[[b [D ->]]|[a [b [D [D' ->]]]]]]]; repeat apply ascii_app;
        first [apply digits_ascii; assumption | apply (one_ascii 46); lia].
    + destruct X as [->|[g' [d [G' [D [->| ->]]]]]]; [constructor| |]; repeat apply ascii_app;
        first [apply digits_ascii; assumption | apply sign_ascii; assumption | apply (one_ascii 101); lia | apply (one_ascii 69); lia].
  - repeat apply ascii_app; [apply sign_ascii, G| |constructor].
    assert (W : forall w, Forall (fun l => 97 <= l <= 122) w -> Forall2 letter w m -> ascii m).
    { intros w F H. clear -F H. induction H as [|l c w u L H IH]; [constructor|]. inversion F; subst. constructor; [unfold letter in L; lia|apply IH; assumption]. }
    destruct S as [H|[H|H]]; (eapply W; [|exact H]); apply Forall_forall; intros ? KK; vm_compute in KK; lia.
Qed.
Lemma float_some s : float_text s -> s <> [].
Proof.
  intros F ->. apply float_ok_iff in F. discriminate F.
Qed.
Definition decimals (f : field) : Prop := fd_type f = text "N" /\ fd_dec f <> 0.
Lemma cell_storable f n t : decimals f -> float_text t -> Z.of_nat (length (float_str t)) <= n -> storable float_str f n (CFloat t).
Proof.
  intros (T & D) F L. pose proof (str_text t F) as FS. split; [|split].
  - eexists. exists (float_str t). split; [reflexivity|]. split; [apply float_ascii, FS|]. left. split; [left; exact T|]. split; [exact L|reflexivity].
  - intros _ Z0. contradiction.
  - intros _ _. exists (float_str t). split; [reflexivity|right; exact FS].
Qed.
Lemma cell_returned f n t c : decimals f -> float_text t -> returned float_str f n (CFloat t) c -> c = CFloat (float_str t).
Proof.
  intros (T & D) F (bs & (s & SH & _ & ST) & R). cbn in SH. subst s. pose proof (str_text t F) as FS.
  assert (NB : ~ blank bs).
  { assert (B : exists z, bs = z ++ float_str t).
    { destruct ST as [(_ & _ & ->)|[(L & _)|(NN & _)]]; [eauto| |].
      - destruct L as [L|L]; rewrite L in T; discriminate T.
      - exfalso. apply NN. left. exact T. }
    destruct B as (z & ->). intros B. apply Forall_app in B. destruct B as (_ & B). pose proof (float_clean _ FS) as C. pose proof (float_some _ FS) as N.
    destruct (float_str t) as [|x l]; [congruence|]. inversion B; subst. inversion C; subst. tauto. }
  destruct R as [(B & _)|[(_ & _ & Z0 & _)|[(_ & _ & _ & s & S1 & _ & ->)|(_ & NT & _)]]]; [contradiction|contradiction| |contradiction].
  cbn in S1. subst s. reflexivity.
Qed.
(** ** Tables *)
Lemma nth_combine {A B} (l : list A) : forall (l' : list B) i a b, nth_error l i = Some a -> nth_error l' i = Some b -> nth_error (combine l l') i = Some (a, b).
Proof.
  induction l as [|x l IH]; intros l' i a b A1 B1; [destruct i; discriminate|]. destruct l' as [|y l']; [destruct i; discriminate|].
  destruct i as [|i]; cbn in *; [congruence|]. apply IH; assumption.
Qed.
Lemma Forall2_at {A B} (P : A -> B -> Prop) l l' i a : Forall2 P l l' -> nth_error l i = Some a -> exists b, nth_error l' i = Some b /\ P a b.
Proof.
  intros F. revert i. induction F as [|x y l l' H F IH]; intros i E; [destruct i; discriminate|]. destruct i as [|i]; cbn in *; [injection E as <-; eauto|apply IH, E].
Qed.
Lemma row_floats fs ns row cs j f t : Forall2 column fs ns -> row_returned float_str fs ns row cs -> nth_error fs j = Some f -> decimals f ->
  nth_error row j = Some (CFloat t) -> float_text t -> nth_error cs j = Some (CFloat (float_str t)).
Proof.
  intros C (L & R) F D V T. destruct (Forall2_at _ _ _ _ _ C F) as (n & NS & _).
  destruct (Forall2_at _ _ _ _ _ R (nth_combine _ _ j _ _ (nth_combine fs ns j f n F NS) V)) as (c & E & RT). cbn [fst snd] in RT.
  rewrite E. f_equal. apply (cell_returned f n t c D T RT).
Qed.
Lemma table_floats today given steps fs ns rows w : plausible today -> table_program given steps fs ns rows w -> Forall (row_storable float_str fs ns) rows ->
  exists table w1 r0, saveDbf float_str today new_file w = (w1, Ok tt) /\ Reader None None (Some (fdata (w_dbf w1))) = (r0, Ok tt) /\
    (rows <> [] -> forall r, used_by of_table (length rows) (length rows) r0 r -> exists r', records r = (r', Ok table)) /\
    forall i j row f t, nth_error rows i = Some row -> nth_error fs j = Some f -> decimals f -> nth_error row j = Some (CFloat t) -> float_text t ->
      exists cs s, nth_error table i = Some cs /\ nth_error cs j = Some (CFloat s) /\ float64 s = float64 t.
Proof.
  intros Date P ST. destruct (table_round_trip float_str today given steps fs ns rows w Date P ST) as (table & w1 & r0 & R & S & O & _ & _ & U & _).
  exists table, w1, r0. split; [exact S|]. split; [exact O|]. split; [intros NE r UB; apply (U NE r UB)|].
  intros i j row f t RI FJ D V T. destruct (Forall2_at _ _ _ _ _ R RI) as (cs & E & RR). exists cs, (float_str t). split; [exact E|]. split; [|apply str_same, T].
  apply (row_floats fs ns row cs j f t (tp_sizes _ _ _ _ _ _ P) RR FJ D V T).
Qed.
