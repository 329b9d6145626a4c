(** Saving a table as a Reader gives it. *)
From Verif Require Import Py Text StrModel Utf8Model VlvModel ShpFile ShpWriterModel ShpReaderModel ShpLib ShpSpec ShpSave ShpApi ShpTableSpec ShpDbfWrite ShpDbfRead ShpTable ShpEditorSpec.
Open Scope Z_scope.

(** A cell, as it is read, that is not blank, and for a float the text that
    Python shows for it. *)

(** ** Columns *)
Lemma under_idem s : under (under s) = under s.
Proof. unfold under. rewrite map_map. apply map_ext. intros c. destruct (Z.eqb_spec c 32) as [->|N]; [reflexivity|]. apply Z.eqb_neq in N. rewrite N. reflexivity. Qed.
Lemma short_idem s : short_name (short_name s) = short_name s.
Proof.
  change (firstn 10 (under (firstn 10 (under s))) = firstn 10 (under s)). unfold under at 1. rewrite <- firstn_map.
  change (map _ (under s)) with (under (under s)). rewrite under_idem, firstn_firstn. reflexivity.
Qed.
Lemma back_idem f n : back (back f n) n = back f n.
Proof. unfold back. cbn [fd_name fd_type fd_dec]. rewrite short_idem. reflexivity. Qed.
Lemma short_printable s : printable s -> printable (short_name s).
Proof.
  intros P. change (printable (firstn 10 (under s))). apply firstn_Forall. eapply Forall_impl; [|apply under_chars, P]. cbn. intros c H. lia.
Qed.
Lemma back_column f n : column f n -> column (back f n) n.
Proof. intros [P [T [_ [N D]]]]. split; [apply short_printable, P|]. split; [exact T|]. split; [left; reflexivity|]. split; [exact N|exact D]. Qed.
Lemma back_named f n : ~ named_deletion f -> ~ named_deletion (back f n).
Proof.
  intros H [r E]. apply H. cbn [back fd_name] in E. change (firstn 10 (under (fd_name f)) = text "Deletion" ++ r) in E.
  destruct (fd_name f) as [|c1 [|c2 [|c3 [|c4 [|c5 [|c6 [|c7 [|c8 s]]]]]]]] eqn:N; try discriminate.
  exists s. rewrite N. change (text "Deletion") with [68; 101; 108; 101; 116; 105; 111; 110] in *. cbn [app under map firstn] in *.
  injection E as E1 E2 E3 E4 E5 E6 E7 E8 _.
  assert (U : forall c k, (if c =? 32 then 95 else c) = k -> k <> 95 -> c = k) by (intros c k X Y; destruct (c =? 32); congruence).
  apply U in E1, E2, E3, E4, E5, E6, E7, E8; try discriminate. congruence.
Qed.
Definition backs (fs : list field) (ns : list Z) : list field := map (fun fn => back (fst fn) (snd fn)) (combine fs ns).
Lemma backs_columns fs ns : Forall2 column fs ns -> Forall2 column (backs fs ns) ns.
Proof. unfold backs. induction 1 as [|f n fs ns H _ IH]; [constructor|]. cbn [combine map fst snd]. constructor; [apply back_column, H|exact IH]. Qed.
Lemma backs_length fs ns : Forall2 column fs ns -> length (backs fs ns) = length fs.
Proof. intros F. unfold backs. rewrite map_length, combine_length, (F2_length F). lia. Qed.
Lemma backs_idem fs ns : Forall2 column fs ns -> backs (backs fs ns) ns = backs fs ns.
Proof. unfold backs. induction 1 as [|f n fs ns _ _ IH]; [reflexivity|]. cbn [combine map fst snd]. rewrite IH, back_idem. reflexivity. Qed.
Lemma backs_flag fs ns : Forall2 column fs ns -> Forall (fun f => ~ named_deletion f) fs -> with_flag (flag_column :: backs fs ns) (backs fs ns).
Proof.
  intros C F. split.
  - right. exists flag_column. split; [exists (text "Flag"); reflexivity|reflexivity].
  - unfold backs. induction C as [|f n fs ns _ _ IH]; [constructor|]. inversion F; subst. cbn [combine map fst snd]. constructor; [apply back_named; assumption|apply IH; assumption].
Qed.

(** ** Cells *)
Section Cells.
Variable fr : list Z -> list Z.
Lemma back_stored f n v bs : stored fr f n v bs <-> stored fr (back f n) n v bs.
Proof. reflexivity. Qed.
Lemma back_returned f n v c : returned fr f n v c <-> returned fr (back f n) n v c.
Proof. reflexivity. Qed.
Lemma stripped_length s t : stripped s t -> (length t <= length s)%nat.
Proof. intros [a [b [-> _]]]. rewrite !app_length. lia. Qed.
Lemma stripped_ascii s t : stripped s t -> ascii s -> ascii t.
Proof. intros [a [b [-> _]]] A. apply Forall_app in A. destruct A as [_ A]. apply Forall_app in A. apply A. Qed.
Lemma white_spaces k : Forall white (spaces k).
Proof. apply Forall_forall. intros c I. apply repeat_spec in I. subst. left. right. reflexivity. Qed.
Lemma pad_stripped s t a b : stripped s t -> Forall white a -> Forall white b -> stripped (a ++ t ++ b) t.
Proof. intros [a0 [b0 [_ [_ [_ [X Y]]]]]] A B. exists a, b. auto. Qed.
Lemma stripped_solid s t a b : stripped s t -> t <> [] -> ~ blank (a ++ t ++ b).
Proof.
  intros [_ [_ [_ [_ [_ [X _]]]]]] N B. destruct t as [|c r]; [congruence|]. apply (X c r eq_refl).
  apply Forall_app in B. destruct B as [_ B]. inversion B; subst. left. assumption.
Qed.
Lemma upper_idem c : upper (upper c) = upper c.
Proof. unfold upper. destruct ((97 <=? c) && (c <=? 122)) eqn:E; [|rewrite E; reflexivity]. apply andb_true_iff in E. destruct E as [E1 E2]. apply Z.leb_le in E1, E2.
  destruct (Z.leb_spec 97 (c - 32)), (Z.leb_spec (c - 32) 122); cbn; lia. Qed.
Lemma fitted_short n t : (length t <= Z.to_nat n)%nat -> fitted n t = t ++ spaces (n - Z.of_nat (length t)).
Proof.
  intros L. unfold fitted, spaces. rewrite firstn_app, firstn_all2 by lia. f_equal. 
  rewrite <- (repeat_length 32 (Z.to_nat n)) at 1. 
  replace (Z.to_nat (n - Z.of_nat (length t))) with (Z.to_nat n - length t)%nat by lia. clear.
  rewrite repeat_length. generalize (Z.to_nat n - length t)%nat, (Nat.le_sub_l (Z.to_nat n) (length t)). intros k K.
  revert k K. induction (Z.to_nat n) as [|m IH]; intros [|k] K; cbn; try reflexivity; [lia|]. rewrite IH by lia. reflexivity.
Qed.
Lemma cell_again f n v c : column f n -> returned fr f n v c -> solid fr c ->
  storable fr (back f n) n c /\ returned fr (back f n) n c c.
Proof.
  intros C [bs [S R]] SO.
  assert (KN : (fd_type f = text "N" -> fd_dec f = 0 -> (exists z, c = CInt z) \/ shown fr c []) /\
    (fd_type f = text "N" -> fd_dec f <> 0 -> exists s, shown fr c s /\ (s = [] \/ float_text s))).
  { destruct R as [[_ ->]|[[NB [T [D [z [-> ->]]]]]|[[NB [T [D [s [SH [F ->]]]]]]|[NB [T [t [ST ->]]]]]]]; cbn [solid] in SO; [contradiction| | |split; congruence].
    - split; [intros _ _; left; eauto|congruence].
    - split; [congruence|]. intros _ _. exists s. split; [symmetry; exact SO|right; exact F]. }
  cut (exists bs', stored fr (back f n) n c bs' /\ returned fr (back f n) n c c). { intros [bs' [X Y]]. split; [split; [exists bs'; exact X|exact KN]|exact Y]. }
  assert (NN : 0 <= n) by (destruct C as [_ [_ [_ [N _]]]]; lia).
  destruct R as [[_ ->]|[[NB [T [D [z [-> ->]]]]]|[[NB [T [D [s [SH [F ->]]]]]]|[NB [T [t [ST ->]]]]]]]; cbn [solid] in SO.
  - contradiction.
  - exists bs. split; [exact S|]. exists bs. split; [exact S|]. right. left. split; [exact NB|]. split; [exact T|]. split; [exact D|]. exists z. auto.
  - assert (S' : stored fr (back f n) n (CFloat s) bs).
    { destruct S as [s0 [SH0 [A X]]]. rewrite (shown_fun fr v s0 s SH0 SH) in *. exists s. split; [symmetry; exact SO|]. split; [exact A|exact X]. }
    exists bs. split; [exact S'|]. exists bs. split; [exact S'|]. right. right. left. split; [exact NB|]. split; [exact T|]. split; [exact D|].
    exists s. split; [symmetry; exact SO|]. auto.
  - pose proof (stored_length fr f n v bs NN S) as LB. pose proof (stored_ascii fr f n v bs S) as AB.
    pose proof (stripped_length _ _ ST) as LT. pose proof (stripped_ascii _ _ ST AB) as AT.
    assert (FIN : forall bs', stored fr (back f n) n (CStr t) bs' -> ~ blank bs' -> stripped bs' t -> exists bs', stored fr (back f n) n (CStr t) bs' /\ returned fr (back f n) n (CStr t) (CStr t)).
    { intros bs' S' N' ST'. exists bs'. split; [exact S'|]. exists bs'. split; [exact S'|]. right. right. right. split; [exact N'|]. split; [exact T|]. exists t. auto. }
    destruct S as [s [SH [A [[NU [L E]]|[[LO [N1 [c0 [r [E1 E2]]]]]|[NU [LO E]]]]]]].
    + apply (FIN (spaces (n - Z.of_nat (length t)) ++ t)).
      * exists t. split; [reflexivity|]. split; [exact AT|]. left. split; [exact NU|]. split; [lia|reflexivity].
      * rewrite <- (app_nil_r t) at 2. exact (stripped_solid _ _ _ _ ST SO).
      * rewrite <- (app_nil_r t) at 2. apply (pad_stripped _ _ _ _ ST); [apply white_spaces|constructor].
    + assert (TB : t = bs).
      { destruct ST as [a [b [E _]]]. rewrite E2 in E. destruct t as [|x l]; [congruence|].
        apply (f_equal (@length _)) in E as E3. rewrite !app_length in E3. cbn [length] in E3.
        destruct a; [|cbn in E3; lia]. destruct l; [|cbn in E3; lia]. destruct b; [|cbn in E3; lia]. cbn in E. congruence. }
      subst t. apply (FIN bs); [|exact NB|exact ST].
      exists bs. split; [reflexivity|]. split; [exact AB|]. right. left. split; [exact LO|]. split; [exact N1|]. exists (upper c0), []. rewrite E2, upper_idem. auto.
    + apply (FIN (fitted n t)).
      * exists t. split; [reflexivity|]. split; [exact AT|]. right. right. auto.
      * rewrite fitted_short by lia. exact (stripped_solid _ _ [] _ ST SO).
      * rewrite fitted_short by lia. apply (pad_stripped _ _ [] _ ST); [constructor|apply white_spaces].
Qed.
Lemma row_again fs ns v cs : Forall2 column fs ns -> row_returned fr fs ns v cs -> Forall (solid fr) cs ->
  row_storable fr (backs fs ns) ns cs /\ row_returned fr (backs fs ns) ns cs cs.
Proof.
  intros C [L R] S.
  cut ((length cs = length (backs fs ns)) /\ Forall (fun x => storable fr (fst (fst x)) (snd (fst x)) (snd x)) (cells_of (backs fs ns) ns cs) /\
       Forall2 (fun x c => returned fr (fst (fst x)) (snd (fst x)) (snd x) c) (cells_of (backs fs ns) ns cs) cs).
  { intros [A [B D]]. split; split; assumption. }
  rewrite (backs_length fs ns C).
  unfold cells_of, backs in *. revert v cs L R S. induction C as [|f n fs ns C1 _ IH]; intros [|x v] cs L R S; cbn in L; try discriminate.
  - inversion R; subst. split; [reflexivity|]. split; constructor.
  - cbn [combine] in R. inversion R as [|? c ? cs' R1 R2]; subst. inversion S as [|? ? S1 S2]; subst. cbn [fst snd] in R1.
    destruct (cell_again f n x c C1 R1 S1) as [A B]. destruct (IH v cs' ltac:(lia) R2 S2) as [LL [A2 B2]].
    split; [cbn; lia|]. cbn [combine map fst snd]. split; constructor; assumption.
Qed.
Lemma rows_again fs ns rows table : Forall2 column fs ns -> Forall2 (row_returned fr fs ns) rows table -> Forall (Forall (solid fr)) table ->
  Forall (row_storable fr (backs fs ns) ns) table /\ Forall2 (row_returned fr (backs fs ns) ns) table table.
Proof.
  intros C R S. induction R as [|v cs rows table R1 _ IH]; [split; constructor|].
  inversion S as [|? ? S1 S2]; subst. destruct (row_again fs ns v cs C R1 S1) as [A B]. destruct (IH S2) as [A2 B2].
  split; constructor; assumption.
Qed.

(** What comes back is determined. *)
Definition whiteb (c : Z) : bool := ((9 <=? c) && (c <=? 13)) || (c =? 32) || ((28 <=? c) && (c <=? 31)).
Lemma whiteb_spec c : whiteb c = true <-> white c.
Proof. unfold whiteb, white, blank_byte. rewrite !orb_true_iff, !andb_true_iff, !Z.leb_le, Z.eqb_eq. lia. Qed.
Fixpoint dropw (s : list Z) : list Z := match s with c :: r => if whiteb c then dropw r else s | [] => [] end.
Lemma dropw_app a t : Forall white a -> (forall c r, t = c :: r -> ~ white c) -> dropw (a ++ t) = t.
Proof.
  intros A T. induction A as [|c a W _ IH]; cbn.
  - destruct t as [|c r]; [reflexivity|]. cbn. destruct (whiteb c) eqn:E; [|reflexivity]. apply whiteb_spec in E. destruct (T c r eq_refl E).
  - apply whiteb_spec in W. rewrite W. exact IH.
Qed.
Lemma stripped_fun s t t' : stripped s t -> stripped s t' -> t = t'.
Proof.
  intros [a [b [E [A [B [X Y]]]]]] [a' [b' [E' [A' [B' [X' Y']]]]]].
  assert (NIL : forall a b a' t' b', s = a ++ [] ++ b -> Forall white a -> Forall white b -> s = a' ++ t' ++ b' -> (forall c r, t' = c :: r -> ~ white c) -> t' = []).
  { clear. intros a b a' [|c r] b' -> A B E X; [reflexivity|]. exfalso. apply (X c r eq_refl).
    assert (W : Forall white (a ++ [] ++ b)) by (apply Forall_app; split; assumption). rewrite E in W.
    apply Forall_app in W. destruct W as [_ W]. inversion W; assumption. }
  destruct t as [|c r]; [symmetry; exact (NIL a b a' t' b' E A B E' X')|].
  destruct t' as [|c' r']; [discriminate (NIL a' b' a (c :: r) b E' A' B' E X)|].
  assert (D1 : dropw s = (c :: r) ++ b) by (rewrite E; apply dropw_app; [exact A|intros x y Q; injection Q as <- _; exact (X c r eq_refl)]).
  assert (D2 : dropw s = (c' :: r') ++ b') by (rewrite E'; apply dropw_app; [exact A'|intros x y Q; injection Q as <- _; exact (X' c' r' eq_refl)]).
  assert (RV : forall t b, Forall white b -> (forall c r, t = r ++ [c] -> ~ white c) -> dropw (rev (t ++ b)) = rev t).
  { clear. intros t b B Y. rewrite rev_app_distr. apply dropw_app; [apply Forall_rev, B|].
    intros c r Q. apply (f_equal (@rev _)) in Q. rewrite rev_involutive in Q. cbn in Q. exact (Y c (rev r) Q). }
  pose proof (RV _ _ B Y) as R1. pose proof (RV _ _ B' Y') as R2. rewrite <- D1 in R1. rewrite <- D2 in R2. rewrite R1 in R2.
  apply (f_equal (@rev _)) in R2. rewrite !rev_involutive in R2. exact R2.
Qed.
Lemma stored_fun f n v bs bs' : (exists x, fd_type f = [x]) -> stored fr f n v bs -> stored fr f n v bs' -> bs = bs'.
Proof.
  intros _ [s [SH [_ X]]] [s' [SH' [_ X']]]. rewrite (shown_fun fr v s' s SH' SH) in X'.
  assert (NL : numeric f -> logical f -> False).
  { unfold numeric, logical. intros [->| ->] [H|H]; discriminate H. }
  destruct X as [[A [_ ->]]|[[A [_ [c [r [Q ->]]]]]|[A [A' ->]]]], X' as [[B [_ ->]]|[[B [_ [c' [r' [Q' ->]]]]]|[B [B' ->]]]]; try tauto; try reflexivity.
  rewrite Q in Q'. injection Q' as <- _. reflexivity.
Qed.
Lemma returned_fun f n v c c' : column f n -> returned fr f n v c -> returned fr f n v c' -> c = c'.
Proof.
  intros [_ [[x [T _]] _]] [bs [S R]] [bs' [S' R']]. rewrite (stored_fun f n v bs' bs (ex_intro _ x T) S' S) in R'.
  destruct R as [[NB ->]|[[NB [Ty [D [z [V ->]]]]]|[[NB [Ty [D [s [SH [F ->]]]]]]|[NB [Ty [t [ST ->]]]]]]],
    R' as [[NB' ->]|[[NB' [Ty' [D' [z' [V' ->]]]]]|[[NB' [Ty' [D' [s' [SH' [F' ->]]]]]]|[NB' [Ty' [t' [ST' ->]]]]]]]; try contradiction; try reflexivity; try congruence.
  - rewrite (shown_fun fr v s s' SH SH'). reflexivity.
  - rewrite (stripped_fun bs t t' ST ST'). reflexivity.
Qed.
Lemma rows_fun fs ns rows table table' : Forall2 column fs ns -> Forall2 (row_returned fr fs ns) rows table -> Forall2 (row_returned fr fs ns) rows table' -> table = table'.
Proof.
  intros C R. revert table'. induction R as [|v cs rows table [L R1] _ IH]; intros table' R'; inversion R' as [|? cs' ? table2 [_ R2] R3]; subst; [reflexivity|].
  rewrite (IH _ R3). f_equal. clear IH R3 R'.
  unfold cells_of in *. revert v cs cs' L R1 R2. induction C as [|f n fs ns C1 _ IH]; intros [|x v] cs cs' L R1 R2; cbn in L; try discriminate; cbn [combine] in R1, R2.
  - inversion R1; subst. inversion R2; subst. reflexivity.
  - inversion R1 as [|? c ? l A B]; subst. inversion R2 as [|? c' ? l' A' B']; subst. cbn [fst snd] in A, A'.
    rewrite (returned_fun f n x c c' C1 A A'), (IH v l l' ltac:(lia) B B'). reflexivity.
Qed.
End Cells.
