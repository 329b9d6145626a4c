(** Reading arbitrary bytes as a shapefile: lemmas. *)
From Verif Require Import Py VlvModel VlvProofs ShpFile ShpWriterModel ShpReaderModel ShpSpec ShpWriterProofs ShpRead ShpHostileSpec.
From Verif Require PfHist.
Open Scope Z_scope.
Open Scope m_scope.

(** ** Integers and doubles of arbitrary bytes *)
Lemma unpack_bi_inv l v : Forall is_byte l -> unpack_bi l = Ok v -> int32 v /\ l = be32 v.
Proof.
  intros B. unfold unpack_bi, unpack_be. destruct (Z.of_nat (length l) =? Z.of_nat 4) eqn:L; [|discriminate].
  apply Z.eqb_eq in L. assert (L' : length l = 4%nat) by lia. cbn [rmap]. intros H. injection H as H.
  pose proof (be_value_range l B) as R. rewrite L' in R. change (256 ^ Z.of_nat 4) with 4294967296 in R.
  assert (V : v mod 4294967296 = be_value l).
  { subst v. unfold i32_of. destruct (2147483648 <=? be_value l); [|apply Z.mod_small; lia].
    replace (be_value l - 4294967296) with (be_value l + (-1) * 4294967296) by lia. rewrite Z.mod_add by lia. apply Z.mod_small. lia. }
  split.
  - subst v. unfold int32, i32_of. destruct (2147483648 <=? be_value l) eqn:C; [apply Z.leb_le in C|apply Z.leb_gt in C]; lia.
  - rewrite <- be32_mod, V, <- be_bytes_4, <- L'. symmetry. apply be_bytes_value. exact B.
Qed.
Lemma unpack_li_inv l v : Forall is_byte l -> unpack_li l = Ok v -> int32 v /\ l = le32 v.
Proof.
  intros B H. assert (H' : unpack_bi (rev l) = Ok v) by exact H.
  destruct (unpack_bi_inv (rev l) v (Forall_rev B) H') as [I E]. split; [exact I|].
  rewrite <- rev_be32, <- E, rev_involutive. reflexivity.
Qed.
Lemma unpack_d_inv l d : Forall is_byte l -> unpack_d l = Ok d -> l = le64 d.
Proof.
  intros B. unfold unpack_d, unpack_le, unpack_be. destruct (Z.of_nat (length (rev l)) =? Z.of_nat 8) eqn:L; [|discriminate].
  apply Z.eqb_eq in L. intros H. injection H as H. rewrite <- dbl_bytes_le64. unfold dbl_bytes. subst d.
  replace 8%nat with (length (rev l)) by lia. rewrite be_bytes_value by (apply Forall_rev; exact B). symmetry. apply rev_involutive.
Qed.
Lemma Forall_cut {A} (P : A -> Prop) a b (l : list A) : Forall P l -> Forall P (firstn a (skipn b l)).
Proof. intros F. apply Forall_forall. intros x H. rewrite Forall_forall in F. apply F. rewrite <- (firstn_skipn b l). apply in_or_app. right.
  rewrite <- (firstn_skipn a (skipn b l)). apply in_or_app. left. exact H. Qed.
Lemma unpack_bi_err l e : unpack_bi l = Err e -> e = StructError.
Proof. unfold unpack_bi, unpack_be. destruct (_ =? _); cbn; congruence. Qed.
Lemma unpack_li_err l e : unpack_li l = Err e -> e = StructError.
Proof. apply unpack_bi_err. Qed.
Lemma unpack_d_err l e : unpack_d l = Err e -> e = StructError.
Proof. unfold unpack_d, unpack_le, unpack_be. destruct (_ =? _); cbn; congruence. Qed.
Lemma mapM_err {A B} (f : A -> res B) (P : exn -> Prop) l e : (forall x e, f x = Err e -> P e) -> mapM f l = Err e -> P e.
Proof.
  intros F. induction l as [|x r IH]; cbn; [discriminate|]. destruct (f x) as [y|x'] eqn:E; cbn; [|intros H; injection H as <-; eauto].
  destruct (mapM f r) as [ys|x']; cbn; [discriminate|]. intros H. injection H as <-. apply IH. reflexivity.
Qed.
Lemma unpack_many_err {A} k (u : list Z -> res A) n l e : (forall x e, u x = Err e -> e = StructError) -> unpack_many k u n l = Err e -> e = StructError.
Proof. intros U. unfold unpack_many. destruct (_ && _); [|congruence]. apply (mapM_err u (fun e => e = StructError)). exact U. Qed.
Lemma unpack_ds_err n l e : unpack_ds n l = Err e -> e = StructError.
Proof. apply unpack_many_err. apply unpack_d_err. Qed.
Lemma chunks_bytes (P : Z -> Prop) k : forall n l, Forall P l -> Forall (Forall P) (chunks k n l).
Proof.
  induction n as [|n IH]; intros l F; cbn; constructor.
  - apply (Forall_cut P k 0 l F).
  - apply IH. pose proof (Forall_cut P (length l) k l F) as G. rewrite firstn_all2 in G; [exact G|]. rewrite skipn_length. lia.
Qed.
Lemma chunks_concat k : forall n l, length l = (n * k)%nat -> concat (chunks k n l) = l.
Proof.
  induction n as [|n IH]; intros l L; cbn.
  - destruct l; [reflexivity|discriminate].
  - rewrite IH; [apply firstn_skipn|]. rewrite skipn_length. cbn in L. lia.
Qed.
Lemma mapM_doubles l ds : Forall (Forall is_byte) l -> mapM unpack_d l = Ok ds -> concat l = doubles ds.
Proof.
  revert ds. induction l as [|x r IH]; intros ds F; cbn.
  - intros H. injection H as <-. reflexivity.
  - inversion F as [|? ? Fx Fr]; subst. destruct (unpack_d x) as [d|e] eqn:D; cbn; [|discriminate].
    destruct (mapM unpack_d r) as [ys|e]; cbn; [|discriminate]. intros H. injection H as <-.
    rewrite (unpack_d_inv x d Fx D), (IH ys Fr eq_refl). reflexivity.
Qed.
Lemma unpack_ds_inv n l ds : Forall is_byte l -> unpack_ds n l = Ok ds -> l = doubles ds.
Proof.
  intros B. unfold unpack_ds, unpack_many. destruct (_ && _) eqn:C; [|discriminate]. apply andb_true_iff in C. destruct C as [C1 C2].
  apply Z.leb_le in C1. apply Z.eqb_eq in C2. intros H.
  rewrite <- (mapM_doubles _ ds (chunks_bytes is_byte 8 (Z.to_nat n) l B) H). symmetry. apply chunks_concat. lia.
Qed.

(** ** Programs on a file: what they may raise and what holds after them *)
Definition runs {A} (f : file) (m : M file A) (E : exn -> Prop) (Q : file -> A -> Prop) : Prop :=
  let '(f', x) := m f in fdata f' = fdata f /\ match x with Ok a => Q f' a | Err e => E e end.
Lemma runs_bind {A B} f (m : M file A) (k : A -> M file B) E (Q : file -> A -> Prop) Q' :
  runs f m E Q -> (forall f' a, fdata f' = fdata f -> Q f' a -> runs f' (k a) E Q') -> runs f (mbind m k) E Q'.
Proof.
  unfold runs, mbind. destruct (m f) as [f1 [a|e]]; [|intros H _; exact H]. intros [D H] K. specialize (K f1 a D H).
  destruct (k a f1) as [f2 x]. destruct K as [D2 K]. split; [congruence|exact K].
Qed.
Lemma runs_ret {A} f (a : A) E (Q : file -> A -> Prop) : Q f a -> runs f (ret a) E Q.
Proof. intros H. split; [reflexivity|exact H]. Qed.
Lemma runs_any {A} f (m : M file A) E (Q : file -> A -> Prop) : runs f m E Q -> runs f m E (fun _ _ => True).
Proof. unfold runs. destruct (m f) as [f1 [a|e]]; intuition. Qed.
Lemma runs_lift {A} f (r : res A) (E : exn -> Prop) (Q : file -> A -> Prop) : (forall e, r = Err e -> E e) -> (forall a, r = Ok a -> Q f a) -> runs f (lift r) E Q.
Proof. unfold runs, lift. destruct r; intros H1 H2; split; auto. Qed.
Lemma runs_if {A} f (c : bool) (m1 m2 : M file A) E Q : (c = true -> runs f m1 E Q) -> (c = false -> runs f m2 E Q) -> runs f (if c then m1 else m2) E Q.
Proof. destruct c; intros H1 H2; [apply H1|apply H2]; reflexivity. Qed.
Lemma runs_get {A} f n (u : list Z -> res A) (E : exn -> Prop) : E StructError -> (forall l e, u l = Err e -> e = StructError) ->
  runs f (f_get n u) E (fun f' a => exists l, u l = Ok a /\ fpos f' = (fpos f + length l)%nat /\
    (0 <= n -> l = firstn (Z.to_nat n) (skipn (fpos f) (fdata f)))).
Proof.
  intros S U. unfold runs, f_get, mbind, f_read, lift.
  set (l := if n <? 0 then _ else _). destruct (u l) as [a|e] eqn:H; (split; [reflexivity|]).
  - exists l. split; [exact H|]. split; [reflexivity|]. intros N. unfold l. destruct (n <? 0) eqn:C; [apply Z.ltb_lt in C; lia|reflexivity].
  - rewrite (U l e H). exact S.
Qed.
Lemma runs_map {A B} (body : A -> M file B) l : forall f (E : exn -> Prop), (forall f x, runs f (body x) E (fun _ _ => True)) -> runs f (for_map body l) E (fun _ _ => True).
Proof.
  induction l as [|x r IH]; intros f E H; cbn [for_map]; [apply runs_ret; exact I|].
  eapply runs_bind; [apply H|]. intros f1 y _ _. eapply runs_bind; [apply IH; exact H|]. intros. apply runs_ret. exact I.
Qed.
Lemma runs_seek f n (E : exn -> Prop) : (n < 0 -> E ValueError) -> runs f (f_seek n) E (fun f' _ => Z.of_nat (fpos f') = n).
Proof.
  intros H. unfold runs, f_seek. destruct (n <? 0) eqn:C; (split; [reflexivity|]); [apply H, Z.ltb_lt, C|].
  apply Z.ltb_ge in C. cbn. lia.
Qed.

(** ** One record *)
Definition record_failure (bs : list Z) (p : nat) (e : exn) : Prop :=
  e = StructError \/ (e = TypeError /\ exists t, holds_le bs (p + 8) t /\ (t = 18 \/ t = 28)) \/
  (e = ValueError /\ exists n, holds_be bs (p + 4) n /\ Z.of_nat p + 8 + 2 * n < 0).
Definition readable (measure : list dbl) (t : Z) : Prop := t <> 18 /\ (t = 28 -> existsb (dbl_eq dbl_zero) measure = true).
Definition after_record (measure : list dbl) (bs : list Z) (p : nat) (f' : file) (s : shape) : Prop :=
  exists n t, holds_be bs (p + 4) n /\ holds_le bs (p + 8) t /\ Z.of_nat (fpos f') = Z.of_nat p + 8 + 2 * n /\ s_type s = Some t /\ readable measure t.

Lemma type_in_cases t l : type_in (Some t) l = true -> In t l.
Proof. cbn. intros H. apply existsb_exists in H. destruct H as [x [I E]]. apply Z.eqb_eq in E. subst. exact I. Qed.

Lemma get_shape_runs measure f : Forall is_byte (fdata f) ->
  runs f (get_shape measure) (record_failure (fdata f) (fpos f)) (after_record measure (fdata f) (fpos f)).
Proof.
  intros B. unfold get_shape. set (E := record_failure (fdata f) (fpos f)).
  assert (ES : E StructError) by (left; reflexivity).
  assert (MB : forall n l e, unpack_many 4 unpack_bi n l = Err e -> e = StructError) by (intros; eapply unpack_many_err; [apply unpack_bi_err|eassumption]).
  assert (ML : forall n l e, unpack_many 4 unpack_li n l = Err e -> e = StructError) by (intros; eapply unpack_many_err; [apply unpack_li_err|eassumption]).
  eapply runs_bind; [apply runs_get; [exact ES|apply MB]|].
  intros f1 hd D1 [l [U [P1 L]]]. specialize (L ltac:(lia)). change (Z.to_nat 8) with 8%nat in L.
  assert (LL : length l = 8%nat).
  { unfold unpack_many in U. destruct (_ && _) eqn:C in U; [|discriminate]. apply andb_true_iff in C. destruct C as [_ C]. apply Z.eqb_eq in C. lia. }
  assert (BL : Forall is_byte l) by (rewrite L; apply Forall_cut; exact B).
  assert (HD : exists a n, hd = [a; n] /\ unpack_bi (firstn 4 (skipn 4 l)) = Ok n).
  { unfold unpack_many in U. destruct (_ && _) in U; [|discriminate]. change (Z.to_nat 2) with 2%nat in U. cbn [chunks mapM] in U.
    destruct (unpack_bi (firstn 4 l)) as [a|e]; [|discriminate]. destruct (unpack_bi (firstn 4 (skipn 4 l))) as [n|e]; [|discriminate].
    cbn in U. injection U as <-. eauto. }
  destruct HD as [a [n [-> UN]]].
  assert (HN : holds_be (fdata f) (fpos f + 4) n).
  { destruct (unpack_bi_inv _ _ (Forall_cut is_byte 4 4 l BL) UN) as [I EQ]. split; [exact I|]. rewrite <- EQ, L.
    rewrite skipn_firstn_comm, firstn_firstn. change (Nat.min 4 (8 - 4)) with 4%nat. f_equal. rewrite PfHist.skipn_skipn. f_equal; lia. }
  eapply runs_bind; [apply runs_lift with (Q := fun f' x => f' = f1 /\ x = n); [discriminate|intros x H; cbn in H; injection H as <-; auto]|].
  intros ? ? D1' [-> ->]. clear D1'.
  eapply runs_bind with (Q := fun f' x => f' = f1 /\ x = Z.of_nat (fpos f) + 8).
  { split; [reflexivity|]. split; [reflexivity|]. lia. }
  intros ? here D1' [-> ->]. clear D1'. cbv zeta.
  eapply runs_bind; [apply runs_get; [exact ES|apply unpack_li_err]|].
  intros f2 t D2 [l2 [U2 [P2 L2]]]. specialize (L2 ltac:(lia)). change (Z.to_nat 4) with 4%nat in L2. rewrite P1, LL, D1 in L2.
  assert (HT : holds_le (fdata f) (fpos f + 8) t).
  { split; [|rewrite <- L2]; eapply unpack_li_inv; try exact U2; rewrite L2; apply Forall_cut; exact B. }
  assert (ET : t = 18 \/ t = 28 -> E TypeError) by (intros; right; left; split; [reflexivity|exists t; auto]).
  assert (EV : Z.of_nat (fpos f) + 8 + 2 * n < 0 -> E ValueError) by (intros; right; right; split; [reflexivity|exists n; auto]).
  clearbody E. clear U2 P2 L2 l2 D1 P1 D2.
  (* box *)
  eapply runs_bind with (Q := fun _ s => s_type s = Some t).
  { apply runs_if; intros _; [|apply runs_ret; reflexivity]. eapply runs_bind; [apply runs_get; [exact ES|apply unpack_ds_err]|].
    intros; apply runs_ret; reflexivity. }
  intros f3 s3 _ T3.
  eapply runs_bind with (Q := fun _ np => In t [3; 5; 13; 15; 23; 25; 31] -> np <> None).
  { apply runs_if; intros C.
    - eapply runs_bind; [apply runs_get; [exact ES|apply unpack_li_err]|]. intros; apply runs_ret; discriminate.
    - apply runs_ret. intros I. exfalso. cbn in I, C. repeat (destruct I as [<-|I]; [discriminate|]). destruct I. }
  intros f4 nParts _ NP.
  eapply runs_bind with (Q := fun _ np => (In t [3; 5; 8; 13; 15; 23; 25; 31] -> np <> None) /\ (t = 18 \/ t = 28 -> np = None)).
  { apply runs_if; intros C.
    - eapply runs_bind; [apply runs_get; [exact ES|apply unpack_li_err]|]. intros; apply runs_ret. split; [discriminate|].
      intros [->| ->]; discriminate C.
    - apply runs_ret. split; [|reflexivity]. intros I. exfalso. cbn in I, C. repeat (destruct I as [<-|I]; [discriminate|]). destruct I. }
  intros f5 nPoints _ [NQ NN].
  eapply runs_bind with (Q := fun _ s => s_type s = Some t).
  { apply runs_if; intros C; [|apply runs_ret; exact T3].
    eapply runs_bind; [apply runs_lift with (Q := fun _ _ => True); [|auto]; intros e H; destruct nParts; [discriminate|discriminate C]|].
    intros. eapply runs_bind; [apply runs_get; [exact ES|apply ML]|]. intros; apply runs_ret; exact T3. }
  intros f6 s6 _ T6.
  eapply runs_bind with (Q := fun _ s => s_type s = Some t).
  { apply runs_if; intros C; [|apply runs_ret; exact T6]. apply Z.eqb_eq in C.
    eapply runs_bind; [apply runs_lift with (Q := fun _ _ => True); [|auto]; intros e H; destruct nParts; [discriminate|exfalso; apply NP; [subst; cbn; tauto|reflexivity]]|].
    intros. eapply runs_bind; [apply runs_get; [exact ES|apply ML]|]. intros; apply runs_ret; exact T6. }
  intros f7 s7 _ T7.
  eapply runs_bind with (Q := fun _ s => s_type s = Some t).
  { apply runs_if; intros C; [|apply runs_ret; exact T7].
    eapply runs_bind; [apply runs_lift with (Q := fun _ _ => True); [|auto]; intros e H; destruct nPoints; [discriminate|discriminate C]|].
    intros. eapply runs_bind; [apply runs_map; intros; eapply runs_any; apply runs_get; [exact ES|apply unpack_ds_err]|]. intros; apply runs_ret; exact T7. }
  intros f8 s8 _ T8.
  assert (CN : In t [13; 15; 18; 23; 25; 28; 31] -> forall e, count nPoints = Err e -> E e).
  { intros C e H. destruct nPoints as [z|]; [discriminate|]. cbn in H. injection H as <-. apply ET. cbn in C, NQ.
    assert (K : In t [3; 5; 8; 13; 15; 23; 25; 31] -> False) by (intros I; exact (NQ I eq_refl)). cbn in K. clear - C K.
    repeat (destruct C as [<-|C]; [first [left; reflexivity|right; reflexivity|exfalso; apply K; tauto]|]). destruct C. }
  eapply runs_bind with (Q := fun _ s => s_type s = Some t /\ t <> 18).
  { apply runs_if; intros C; [|apply runs_ret; split; [exact T8|intros ->; discriminate C]]. apply type_in_cases in C.
    eapply runs_bind; [apply runs_get; [exact ES|apply unpack_ds_err]|]. intros.
    eapply runs_bind; [apply runs_lift with (Q := fun _ _ => t <> 18); [apply CN; cbn in *; tauto|]|].
    { intros x Hx T18. rewrite NN in Hx by auto. discriminate Hx. }
    intros. eapply runs_bind; [apply runs_get; [exact ES|apply unpack_ds_err]|]. intros; apply runs_ret; split; [exact T8|assumption]. }
  intros f9 s9 _ [T9 N18].
  eapply runs_bind with (Q := fun _ s => s_type s = Some t /\ readable measure t).
  { apply runs_if; intros C.
    2:{ apply runs_ret. split; [exact T9|]. split; [exact N18|]. intros ->. cbn in C. apply negb_false_iff in C. exact C. }
    apply andb_true_iff in C. destruct C as [C _]. apply type_in_cases in C.
    eapply runs_bind; [apply runs_get; [exact ES|apply unpack_ds_err]|]. intros.
    eapply runs_bind; [apply runs_lift with (Q := fun _ _ => t <> 28); [apply CN; exact C|]|].
    { intros x Hx T28. rewrite NN in Hx by auto. discriminate Hx. }
    intros. eapply runs_bind; [apply runs_get; [exact ES|apply unpack_ds_err]|]. intros; apply runs_ret; split; [exact T9|]. split; [exact N18|contradiction]. }
  intros f10 s10 _ [T10 RD].
  eapply runs_bind with (Q := fun _ s => s_type s = Some t).
  { apply runs_if; intros C; [|apply runs_ret; exact T10].
    eapply runs_bind; [apply runs_get; [exact ES|apply unpack_ds_err]|]. intros; apply runs_ret; exact T10. }
  intros f11 s11 _ T11.
  eapply runs_bind with (Q := fun _ s => s_type s = Some t).
  { apply runs_if; intros C; [|apply runs_ret; exact T11].
    eapply runs_bind; [apply runs_get; [exact ES|apply unpack_ds_err]|]. intros; apply runs_ret; exact T11. }
  intros f12 s12 _ T12.
  eapply runs_bind with (Q := fun _ s => s_type s = Some t).
  { apply runs_if; intros C; [|apply runs_ret; exact T12].
    eapply runs_bind; [apply runs_get; [exact ES|apply unpack_ds_err]|]. intros; apply runs_ret; exact T12. }
  intros f13 s13 _ T13.
  eapply runs_bind; [apply runs_seek; exact EV|].
  intros f14 [] _ P14. apply runs_ret. exists n, t. auto 6.
Qed.

(** ** All records *)
Definition outcome (bs : list Z) (p : nat) (x : res (option (list shape))) : Prop :=
  match x with
  | Ok None => True
  | Ok (Some ss) => exists ts, map s_type ss = map Some ts /\ records_from bs p ts
  | Err e => read_failure bs e
  end.
Lemma shapes_loop_outcome measure bs : Forall is_byte bs -> forall fuel f, fdata f = bs -> visited bs (fpos f) ->
  outcome bs (fpos f) (snd (shapes_loop fuel measure (Z.of_nat (length bs)) f)).
Proof.
  intros B. induction fuel as [|k IH]; intros f D V; [exact I|].
  cbn [shapes_loop]. unfold mbind at 1, f_tell. destruct (Z.of_nat (fpos f) <? Z.of_nat (length bs)) eqn:C.
  - apply Z.ltb_lt in C. assert (C' : (fpos f < length bs)%nat) by lia.
    pose proof (get_shape_runs measure f ltac:(rewrite D; exact B)) as G. unfold runs in G. unfold mbind at 1.
    destruct (get_shape measure f) as [f1 [s|e]]; destruct G as [D1 G]; rewrite D in G.
    + destruct G as [n [t [HN [HT [P [T _]]]]]]. rewrite D in D1.
      assert (V1 : visited bs (fpos f1)) by (eapply visited_next; eassumption).
      specialize (IH f1 D1 V1). unfold mbind. destruct (shapes_loop k measure (Z.of_nat (length bs)) f1) as [f2 [[ss|]|e]]; cbn in IH |- *; [|exact I|exact IH].
      destruct IH as [ts [M R]]. exists (t :: ts). split; [cbn; congruence|]. eapply records_one; eassumption.
    + cbn. destruct G as [->|[[-> [t [HT TT]]]|[-> [n [HN N]]]]]; [left; reflexivity|right; left|right; right]; (split; [reflexivity|]).
      * exists (fpos f), t. auto.
      * exists (fpos f), n. auto.
  - apply Z.ltb_ge in C. exists []. split; [reflexivity|]. apply records_end. lia.
Qed.
Lemma shapes_loop_ends measure bs : Forall is_byte bs -> advances bs -> forall fuel f, fdata f = bs -> visited bs (fpos f) ->
  (length bs + 2 <= fpos f + 2 * fuel)%nat -> (0 < fuel)%nat ->
  snd (shapes_loop fuel measure (Z.of_nat (length bs)) f) <> Ok None.
Proof.
  intros B A. induction fuel as [|k IH]; intros f D V L K; [lia|].
  cbn [shapes_loop]. unfold mbind at 1, f_tell. destruct (Z.of_nat (fpos f) <? Z.of_nat (length bs)) eqn:C; [|discriminate].
  apply Z.ltb_lt in C. assert (C' : (fpos f < length bs)%nat) by lia.
  pose proof (get_shape_runs measure f ltac:(rewrite D; exact B)) as G. unfold runs in G. unfold mbind at 1.
  destruct (get_shape measure f) as [f1 [s|e]]; destruct G as [D1 G]; rewrite D in G; [|discriminate].
  destruct G as [n [t [HN [HT [P [T _]]]]]]. rewrite D in D1.
  assert (V1 : visited bs (fpos f1)) by (eapply visited_next; eassumption).
  pose proof (A _ _ V C' HN) as N.
  specialize (IH f1 D1 V1 ltac:(lia) ltac:(lia)). unfold mbind.
  destruct (shapes_loop k measure (Z.of_nat (length bs)) f1) as [f2 [[ss|]|e]]; cbn in IH |- *; congruence.
Qed.
Lemma holds_be_det bs p a b : holds_be bs p a -> holds_be bs p b -> a = b.
Proof. intros [A1 A2] [B1 B2]. pose proof (unpack_bi_be32 a A1) as HA. pose proof (unpack_bi_be32 b B1) as HB. congruence. Qed.
Lemma holds_le_det bs p a b : holds_le bs p a -> holds_le bs p b -> a = b.
Proof. intros [A1 A2] [B1 B2]. pose proof (unpack_li_le32 a A1) as HA. pose proof (unpack_li_le32 b B1) as HB. congruence. Qed.
(** A list is only returned when every record could be read. *)
Lemma shapes_loop_passes measure bs : Forall is_byte bs -> forall fuel p ss, snd (shapes_loop fuel measure (Z.of_nat (length bs)) (mkFile bs 100)) = Ok (Some ss) ->
  visited bs p -> exists k ss', snd (shapes_loop k measure (Z.of_nat (length bs)) (mkFile bs p)) = Ok (Some ss').
Proof.
  intros B fuel p ss H V. induction V as [|o n q V [k [ss' IH]] L HN Q]; [eauto|].
  destruct k as [|k]; [discriminate IH|]. cbn [shapes_loop] in IH. unfold mbind at 1, f_tell in IH. cbn [fpos] in IH.
  replace (Z.of_nat o <? Z.of_nat (length bs)) with true in IH by (symmetry; apply Z.ltb_lt; lia).
  pose proof (get_shape_runs measure (mkFile bs o) B) as G. unfold runs in G. unfold mbind at 1 in IH.
  destruct (get_shape measure (mkFile bs o)) as [[d p1] [s|e]]; [|discriminate IH]. cbn [fdata fpos] in G.
  destruct G as [-> [n' [t [HN' [_ [P _]]]]]]. cbn [fpos] in P. rewrite (holds_be_det _ _ _ _ HN' HN) in P.
  assert (p1 = q) by lia. subst p1. exists k. unfold mbind in IH.
  destruct (shapes_loop k measure (Z.of_nat (length bs)) (mkFile bs q)) as [f2 [[l|]|e]]; cbn in IH |- *; [eauto|discriminate|discriminate].
Qed.
Lemma shapes_loop_readable measure bs : Forall is_byte bs -> forall fuel o t ss, snd (shapes_loop fuel measure (Z.of_nat (length bs)) (mkFile bs 100)) = Ok (Some ss) ->
  visited bs o -> (o < length bs)%nat -> holds_le bs (o + 8) t -> readable measure t.
Proof.
  intros B fuel o t ss H V L HT. destruct (shapes_loop_passes measure bs B fuel o ss H V) as [k [ss' R]].
  destruct k as [|k]; [discriminate R|]. cbn [shapes_loop] in R. unfold mbind at 1, f_tell in R. cbn [fpos] in R.
  replace (Z.of_nat o <? Z.of_nat (length bs)) with true in R by (symmetry; apply Z.ltb_lt; lia).
  pose proof (get_shape_runs measure (mkFile bs o) B) as G. unfold runs in G. unfold mbind at 1 in R.
  destruct (get_shape measure (mkFile bs o)) as [f1 [s|e]]; [|discriminate R]. cbn [fdata fpos] in G.
  destruct G as [_ [n' [t' [_ [HT' [_ [_ RD]]]]]]]. rewrite (holds_le_det _ _ _ _ HT HT'). exact RD.
Qed.
Lemma iter_loop_shapes measure len : forall fuel f,
  match snd (shapes_loop fuel measure len f) with
  | Ok None => snd (iter_loop fuel measure len f) = None
  | Ok (Some ss) => iter_loop fuel measure len f = (ss, Some (Ok tt))
  | Err e => snd (iter_loop fuel measure len f) = Some (Err e)
  end.
Proof.
  induction fuel as [|k IH]; intros f; [reflexivity|]. cbn [shapes_loop iter_loop]. unfold mbind at 1, f_tell.
  destruct (Z.of_nat (fpos f) <? len); [|reflexivity]. unfold mbind at 1.
  destruct (get_shape measure f) as [f1 [s|e]]; [|reflexivity]. specialize (IH f1). unfold mbind.
  destruct (shapes_loop k measure len f1) as [f2 [[ss|]|e]]; cbn in IH |- *; destruct (iter_loop k measure len f1) as [l e']; cbn in *; congruence.
Qed.
Lemma rewind_ok r f : r_shp r = Some f ->
  rewind r = (r_set_shp (Some (mkFile (fdata f) 100)) (r_set_shpLength (Some (Z.of_nat (length (fdata f)))) r), Ok (Z.of_nat (length (fdata f)))).
Proof. intros H. destruct r as [a b c d e g h i j k l m]. cbn in H. subst a. reflexivity. Qed.
Lemma shapes_run fuel r f : r_shp r = Some f ->
  snd (shapes fuel r) = snd (shapes_loop fuel (r_measure r) (Z.of_nat (length (fdata f))) (mkFile (fdata f) 100)).
Proof.
  intros H. unfold shapes. unfold mbind at 1. rewrite (rewind_ok r f H). unfold mbind, get, in_shp, with_file. cbn [r_set_shp r_set_shpLength r_shp r_measure].
  destruct (shapes_loop _ _ _ _) as [f' x]. reflexivity.
Qed.
Lemma iterShapes_run fuel r f : r_shp r = Some f ->
  iterShapes fuel r = iter_loop fuel (r_measure r) (Z.of_nat (length (fdata f))) (mkFile (fdata f) 100).
Proof. intros H. unfold iterShapes. rewrite (rewind_ok r f H). reflexivity. Qed.

(** ** Opening *)
Lemma step_seek {A} r f n (k : unit -> M reader A) : r_shp r = Some f -> 0 <= n ->
  mbind (in_shp (f_seek n)) k r = k tt (r_set_shp (Some (mkFile (fdata f) (Z.to_nat n))) r).
Proof. intros H N. unfold mbind, in_shp, with_file, f_seek. rewrite H. destruct (n <? 0) eqn:C; [apply Z.ltb_lt in C; lia|]. reflexivity. Qed.
Lemma step_get {A B} r f n (u : list Z -> res B) (k : B -> M reader A) : r_shp r = Some f -> 0 <= n ->
  mbind (in_shp (f_get n u)) k r =
  (let l := firstn (Z.to_nat n) (skipn (fpos f) (fdata f)) in
   match u l with
   | Ok v => k v (r_set_shp (Some (mkFile (fdata f) (fpos f + length l))) r)
   | Err e => (r_set_shp (Some (mkFile (fdata f) (fpos f + length l))) r, Err e)
   end).
Proof. intros H N. unfold mbind at 1, in_shp, with_file, f_get, f_read, mbind, lift. rewrite H. destruct (n <? 0) eqn:C; [apply Z.ltb_lt in C; lia|].
  cbv zeta. destruct (u _); reflexivity. Qed.
Lemma unpack_bi_len l : length l = 4%nat -> exists v, unpack_bi l = Ok v.
Proof. intros L. unfold unpack_bi, unpack_be. rewrite L. cbn. eauto. Qed.
Lemma unpack_bi_short l : (length l < 4)%nat -> unpack_bi l = Err StructError.
Proof. intros L. unfold unpack_bi, unpack_be. destruct (_ =? _) eqn:C; [apply Z.eqb_eq in C; lia|reflexivity]. Qed.
Lemma unpack_li_len l : length l = 4%nat -> exists v, unpack_li l = Ok v.
Proof. intros L. apply (unpack_bi_len (rev l)). rewrite rev_length. exact L. Qed.
Lemma unpack_li_short l : (length l < 4)%nat -> unpack_li l = Err StructError.
Proof. intros L. apply (unpack_bi_short (rev l)). rewrite rev_length. exact L. Qed.
Lemma mapM_chunks n : forall l, length l = (n * 8)%nat -> exists ds, mapM unpack_d (chunks 8 n l) = Ok ds.
Proof.
  induction n as [|n IH]; intros l L; cbn [chunks mapM]; [eauto|].
  destruct (IH (skipn 8 l)) as [ds E]; [rewrite skipn_length; lia|]. rewrite E.
  unfold unpack_d, unpack_le, unpack_be. rewrite rev_length, firstn_length, L.
  replace (Nat.min 8 (S n * 8)) with 8%nat by lia. cbn. eauto.
Qed.
Lemma unpack_ds_len n l : 0 <= n -> Z.of_nat (length l) = n * 8 -> exists ds, unpack_ds n l = Ok ds.
Proof.
  intros N L. unfold unpack_ds, unpack_many. rewrite L, Z.eqb_refl. replace (0 <=? n) with true by (symmetry; apply Z.leb_le; lia). cbn [andb].
  apply mapM_chunks. lia.
Qed.
Lemma unpack_ds_short n l : Z.of_nat (length l) < n * 8 -> unpack_ds n l = Err StructError.
Proof. intros L. unfold unpack_ds, unpack_many. replace (_ =? _) with false by (symmetry; apply Z.eqb_neq; change (Z.of_nat 8) with 8; lia). rewrite andb_false_r. reflexivity. Qed.
Lemma cut_length (bs : list Z) n p : (p + n <= length bs)%nat -> length (firstn n (skipn p bs)) = n.
Proof. intros L. rewrite firstn_length, skipn_length. lia. Qed.
Lemma cut_short (bs : list Z) n p : (length bs < p + n)%nat -> (0 < n)%nat -> (length (firstn n (skipn p bs)) < n)%nat.
Proof. intros L N. rewrite firstn_length, skipn_length. lia. Qed.
Lemma header_reads r bs p0 : Forall is_byte bs -> r_shp r = Some (mkFile bs p0) -> (100 <= length bs)%nat ->
  exists n t b z m, holds_be bs 24 n /\ holds_le bs 32 t /\ firstn 32 (skipn 36 bs) = doubles b /\
    firstn 16 (skipn 68 bs) = doubles z /\ firstn 16 (skipn 84 bs) = doubles m /\ unpack_ds 2 (firstn 16 (skipn 84 bs)) = Ok m /\
    shp_header r = (mkReader (Some (mkFile bs 100)) (r_shx r) (r_dbf r) (r_offsets r) (Some (n * 2)) (r_numRecords r) (r_fields r) (r_hdr r) (Some t) b z m, Ok tt).
Proof.
  intros B H L. destruct r as [a b0 c d e g h i j k l m0]. cbn in H. subst a. unfold shp_header.
  rewrite (step_seek _ (mkFile bs p0)) by (reflexivity || lia). cbn [r_set_shp fdata]. change (Z.to_nat 24) with 24%nat.
  rewrite (step_get _ (mkFile bs 24)) by (reflexivity || lia). cbn [fpos fdata]. cbv zeta. change (Z.to_nat 4) with 4%nat.
  assert (L24 : length (firstn 4 (skipn 24 bs)) = 4%nat) by (apply cut_length; lia).
  destruct (unpack_bi_len _ L24) as [n UN]. rewrite UN. unfold modify. unfold mbind at 1. cbn [r_set_shp r_set_shpLength].
  rewrite (step_seek _ (mkFile bs (24 + length (firstn 4 (skipn 24 bs))))) by (reflexivity || lia). cbn [r_set_shp fdata]. change (Z.to_nat 32) with 32%nat.
  rewrite (step_get _ (mkFile bs 32)) by (reflexivity || lia). cbn [fpos fdata]. cbv zeta. change (Z.to_nat 4) with 4%nat.
  assert (L32 : length (firstn 4 (skipn 32 bs)) = 4%nat) by (apply cut_length; lia).
  destruct (unpack_li_len _ L32) as [t UT]. rewrite UT, L32. unfold mbind at 1. cbn [r_set_shp r_set_type Nat.add].
  rewrite (step_get _ (mkFile bs 36)) by (reflexivity || lia). cbn [fpos fdata]. cbv zeta. change (Z.to_nat 32) with 32%nat.
  assert (L36 : length (firstn 32 (skipn 36 bs)) = 32%nat) by (apply cut_length; lia).
  destruct (unpack_ds_len 4 _ ltac:(lia) ltac:(rewrite L36; reflexivity)) as [b UB]. rewrite UB, L36. unfold mbind at 1. cbn [r_set_shp r_set_bbox Nat.add].
  rewrite (step_get _ (mkFile bs 68)) by (reflexivity || lia). cbn [fpos fdata]. cbv zeta. change (Z.to_nat 16) with 16%nat.
  assert (L68 : length (firstn 16 (skipn 68 bs)) = 16%nat) by (apply cut_length; lia).
  destruct (unpack_ds_len 2 _ ltac:(lia) ltac:(rewrite L68; reflexivity)) as [z UZ]. rewrite UZ, L68. unfold mbind at 1. cbn [r_set_shp r_set_elevation Nat.add].
  rewrite (step_get _ (mkFile bs 84)) by (reflexivity || lia). cbn [fpos fdata]. cbv zeta. change (Z.to_nat 16) with 16%nat.
  assert (L84 : length (firstn 16 (skipn 84 bs)) = 16%nat) by (apply cut_length; lia).
  destruct (unpack_ds_len 2 _ ltac:(lia) ltac:(rewrite L84; reflexivity)) as [m UM]. rewrite UM, L84. cbn [r_set_shp r_set_measure Nat.add].
  exists n, t, b, z, m.
  split; [eapply unpack_bi_inv; [apply Forall_cut; exact B|exact UN]|].
  split; [eapply unpack_li_inv; [apply Forall_cut; exact B|exact UT]|].
  split; [eapply unpack_ds_inv; [apply Forall_cut; exact B|exact UB]|].
  split; [eapply unpack_ds_inv; [apply Forall_cut; exact B|exact UZ]|].
  split; [eapply unpack_ds_inv; [apply Forall_cut; exact B|exact UM]|].
  split; [reflexivity|reflexivity].
Qed.
Lemma header_short r bs p0 : r_shp r = Some (mkFile bs p0) -> (length bs < 100)%nat -> snd (shp_header r) = Err StructError.
Proof.
  intros H L. destruct r as [a b0 c d e g h i j k l m0]. cbn in H. subst a. unfold shp_header.
  rewrite (step_seek _ (mkFile bs p0)) by (reflexivity || lia). cbn [r_set_shp fdata]. change (Z.to_nat 24) with 24%nat.
  rewrite (step_get _ (mkFile bs 24)) by (reflexivity || lia). cbn [fpos fdata]. cbv zeta. change (Z.to_nat 4) with 4%nat.
  destruct (Nat.lt_ge_cases (length bs) 28) as [C|C]; [rewrite unpack_bi_short by (apply cut_short; lia); reflexivity|].
  assert (L24 : length (firstn 4 (skipn 24 bs)) = 4%nat) by (apply cut_length; lia).
  destruct (unpack_bi_len _ L24) as [n UN]. rewrite UN. unfold modify. unfold mbind at 1. cbn [r_set_shp r_set_shpLength].
  rewrite (step_seek _ (mkFile bs (24 + length (firstn 4 (skipn 24 bs))))) by (reflexivity || lia). cbn [r_set_shp fdata]. change (Z.to_nat 32) with 32%nat.
  rewrite (step_get _ (mkFile bs 32)) by (reflexivity || lia). cbn [fpos fdata]. cbv zeta. change (Z.to_nat 4) with 4%nat.
  destruct (Nat.lt_ge_cases (length bs) 36) as [C1|C1]; [rewrite unpack_li_short by (apply cut_short; lia); reflexivity|].
  assert (L32 : length (firstn 4 (skipn 32 bs)) = 4%nat) by (apply cut_length; lia).
  destruct (unpack_li_len _ L32) as [t UT]. rewrite UT, L32. unfold mbind at 1. cbn [r_set_shp r_set_type Nat.add].
  rewrite (step_get _ (mkFile bs 36)) by (reflexivity || lia). cbn [fpos fdata]. cbv zeta. change (Z.to_nat 32) with 32%nat.
  destruct (Nat.lt_ge_cases (length bs) 68) as [C2|C2];
    [pose proof (cut_short bs 32 36 ltac:(lia) ltac:(lia)); rewrite unpack_ds_short by lia; reflexivity|].
  assert (L36 : length (firstn 32 (skipn 36 bs)) = 32%nat) by (apply cut_length; lia).
  destruct (unpack_ds_len 4 _ ltac:(lia) ltac:(rewrite L36; reflexivity)) as [b UB]. rewrite UB, L36. unfold mbind at 1. cbn [r_set_shp r_set_bbox Nat.add].
  rewrite (step_get _ (mkFile bs 68)) by (reflexivity || lia). cbn [fpos fdata]. cbv zeta. change (Z.to_nat 16) with 16%nat.
  destruct (Nat.lt_ge_cases (length bs) 84) as [C3|C3];
    [pose proof (cut_short bs 16 68 ltac:(lia) ltac:(lia)); rewrite unpack_ds_short by lia; reflexivity|].
  assert (L68 : length (firstn 16 (skipn 68 bs)) = 16%nat) by (apply cut_length; lia).
  destruct (unpack_ds_len 2 _ ltac:(lia) ltac:(rewrite L68; reflexivity)) as [z UZ]. rewrite UZ, L68. unfold mbind at 1. cbn [r_set_shp r_set_elevation Nat.add].
  rewrite (step_get _ (mkFile bs 84)) by (reflexivity || lia). cbn [fpos fdata]. cbv zeta. change (Z.to_nat 16) with 16%nat.
  pose proof (cut_short bs 16 84 ltac:(lia) ltac:(lia)). rewrite unpack_ds_short by lia. reflexivity.
Qed.
Lemma Reader_shp bs shx : Forall is_byte bs -> (100 <= length bs)%nat ->
  exists r t, Reader (Some bs) shx None = (r, Ok tt) /\ r_shp r = Some (mkFile bs 100) /\
    r_type r = Some t /\ holds_le bs 32 t /\ firstn 32 (skipn 36 bs) = doubles (r_bbox r) /\
    firstn 16 (skipn 68 bs) = doubles (r_elevation r) /\ firstn 16 (skipn 84 bs) = doubles (r_measure r).
Proof.
  intros B L. unfold Reader. set (r0 := mkReader _ _ _ _ _ _ _ _ _ _ _ _).
  destruct (header_reads r0 bs 0 B eq_refl L) as [n [t [b [z [m [H1 [H2 [H3 [H4 [H5 [_ H]]]]]]]]]]].
  unfold mbind. rewrite H. eexists. exists t. split; [reflexivity|]. cbn [r_shp r_type r_bbox r_elevation r_measure].
  split; [reflexivity|]. split; [reflexivity|]. split; [exact H2|]. split; [exact H3|]. split; [exact H4|exact H5].
Qed.
Lemma Reader_short bs shx : (length bs < 100)%nat -> snd (Reader (Some bs) shx None) = Err StructError.
Proof.
  intros L. unfold Reader. set (r0 := mkReader _ _ _ _ _ _ _ _ _ _ _ _).
  pose proof (header_short r0 bs 0 eq_refl L) as H. unfold mbind. destruct (shp_header r0) as [r1 [[]|e]]; [discriminate|exact H].
Qed.

(** A null record of declared length -4 at offset 100 *)
Lemma get_step {A B} f n (u : list Z -> res B) (k : B -> M file A) : 0 <= n ->
  mbind (f_get n u) k f =
  (let l := firstn (Z.to_nat n) (skipn (fpos f) (fdata f)) in
   match u l with
   | Ok v => k v (mkFile (fdata f) (fpos f + length l))
   | Err e => (mkFile (fdata f) (fpos f + length l), Err e)
   end).
Proof. intros N. unfold mbind at 1, f_get, f_read, mbind, lift. destruct (n <? 0) eqn:C; [apply Z.ltb_lt in C; lia|]. cbv zeta. destruct (u _); reflexivity. Qed.
Lemma null_again measure bs : Forall is_byte bs -> (111 < length bs)%nat -> holds_be bs 104 (-4) -> holds_le bs 108 0 ->
  exists s, get_shape measure (mkFile bs 100) = (mkFile bs 100, Ok s).
Proof.
  intros B L [_ HN] [_ HT]. unfold get_shape. rewrite get_step by lia. cbn [fpos fdata]. cbv zeta. change (Z.to_nat 8) with 8%nat.
  assert (L8 : length (firstn 8 (skipn 100 bs)) = 8%nat) by (apply cut_length; lia).
  assert (U : exists a, unpack_many 4 unpack_bi 2 (firstn 8 (skipn 100 bs)) = Ok [a; -4]).
  { unfold unpack_many. rewrite L8. change (Z.to_nat 2) with 2%nat. cbn [Z.leb Z.compare andb Z.of_nat]. change (Z.of_nat 8 =? 2 * Z.of_nat 4) with true. cbn [andb chunks mapM].
    rewrite firstn_firstn. change (Nat.min 4 8) with 4%nat.
    destruct (unpack_bi_len (firstn 4 (skipn 100 bs))) as [a Ha]; [apply cut_length; lia|]. rewrite Ha.
    rewrite skipn_firstn_comm, firstn_firstn. change (Nat.min 4 (8 - 4)) with 4%nat. rewrite PfHist.skipn_skipn. change (100 + 4)%nat with 104%nat. rewrite HN.
    exists a. reflexivity. }
  destruct U as [a ->]. rewrite L8. change (100 + 8)%nat with 108%nat. unfold mbind at 1, lift. cbn [py_get]. 
  unfold mbind at 1, f_tell. cbn [fpos].
  change (py_get [a; -4] 1) with (Ok (-4)). cbv iota beta. rewrite get_step by lia. cbn [fpos fdata]. cbv zeta. change (Z.to_nat 4) with 4%nat. rewrite HT.
  change (unpack_li (le32 0)) with (Ok 0). eexists. reflexivity.
Qed.
