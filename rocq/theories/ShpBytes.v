(** What the bytes of a .shp file say: lemmas. *)
From Verif Require Import Py VlvModel VlvProofs ShpFile ShpWriterModel ShpReaderModel ShpSpec ShpLib ShpWriterProofs ShpSave ShpRead ShpHostileSpec ShpHostile ShpBytesSpec.
Open Scope Z_scope.
Open Scope m_scope.

(** ** Bytes in place *)
Lemma stands_app bs p a b : stands bs p (a ++ b) <-> stands bs p a /\ stands bs (p + length a) b.
Proof.
  unfold stands. rewrite app_length. rewrite skipn_plus.
  set (l := skipn p bs). split.
  - intros E. assert (E1 : firstn (length a) l = a).
    { rewrite <- (Nat.min_l (length a) (length a + length b)) by lia. rewrite <- firstn_firstn, E, firstn_app, Nat.sub_diag, firstn_all. cbn. apply app_nil_r. }
    split; [exact E1|]. rewrite <- (firstn_skipn (length a) l) in E. rewrite E1 in E. rewrite firstn_app, firstn_all2 in E by lia.
    apply app_inv_head in E. replace (length a + length b - length a)%nat with (length b) in E by lia. exact E.
  - intros [E1 E2]. rewrite <- (firstn_skipn (length a) l). rewrite E1. rewrite firstn_app, firstn_all2 by lia.
    replace (length a + length b - length a)%nat with (length b) by lia. rewrite E2. reflexivity.
Qed.
Lemma stands_nil bs p : stands bs p [].
Proof. reflexivity. Qed.
Lemma stands_len bs p c : stands bs p c -> c <> [] -> (p + length c <= length bs)%nat.
Proof.
  unfold stands. intros E N. pose proof (f_equal (@length Z) E) as L. rewrite firstn_length, skipn_length in L. destruct c; [contradiction|]. cbn [length] in *. lia.
Qed.
Lemma le64_dbl d : Forall is_byte (le64 d).
Proof. unfold le64, byte_at, is_byte. repeat constructor; apply Z.mod_pos_bound; lia. Qed.

(** ** Reading forwards: what a successful read has seen *)
Lemma bind_inv {S A B} (m : M S A) (k : A -> M S B) f f2 b : mbind m k f = (f2, Ok b) -> exists f1 a, m f = (f1, Ok a) /\ k a f1 = (f2, Ok b).
Proof. unfold mbind. destruct (m f) as [f1 [a|e]]; intros H; [exists f1, a; auto|discriminate H]. Qed.
Lemma get_inv {A} n (u : list Z -> res A) bs p f1 a : f_get n u (mkFile bs p) = (f1, Ok a) -> exists l, u l = Ok a /\ f1 = mkFile bs (p + length l) /\ stands bs p l.
Proof.
  unfold f_get, ShpFile.f_read, mbind, lift. cbn [fdata fpos]. intros H. injection H as <- H. eexists. split; [exact H|]. split; [reflexivity|].
  unfold stands. destruct (n <? 0); [apply firstn_all|]. rewrite firstn_length. destruct (Nat.le_ge_cases (Z.to_nat n) (length (skipn p bs))).
  - rewrite Nat.min_l by assumption. reflexivity.
  - rewrite Nat.min_r by assumption. rewrite firstn_all. symmetry. apply firstn_all2. assumption.
Qed.
Lemma stands_bytes bs p c : Forall is_byte bs -> stands bs p c -> Forall is_byte c.
Proof. unfold stands. intros B E. rewrite <- E. apply Forall_cut. exact B. Qed.
Lemma li_inv bs p f1 v : Forall is_byte bs -> f_get 4 unpack_li (mkFile bs p) = (f1, Ok v) -> int32 v /\ stands bs p (le32 v) /\ f1 = mkFile bs (p + 4).
Proof.
  intros B H. apply get_inv in H. destruct H as [l [U [-> ST]]]. destruct (unpack_li_inv l v (stands_bytes _ _ _ B ST) U) as [I ->]. auto.
Qed.
Lemma mapM_length {A B} (f : A -> res B) l r : mapM f l = Ok r -> length r = length l.
Proof.
  revert r. induction l as [|x l IH]; intros r; cbn; [intros E; injection E as <-; reflexivity|]. destruct (f x); cbn; [|discriminate].
  destruct (mapM f l) as [ys|]; cbn; [|discriminate]. intros E. injection E as <-. cbn. f_equal. apply IH. reflexivity.
Qed.
Lemma chunks_length k n : forall l, length (chunks k n l) = n.
Proof. induction n as [|n IH]; intros l; cbn; [reflexivity|]. rewrite IH. reflexivity. Qed.
Lemma mapM_ints l vs : Forall (Forall is_byte) l -> mapM unpack_li l = Ok vs -> concat l = ints vs /\ Forall int32 vs.
Proof.
  revert vs. induction l as [|x r IH]; intros vs F; cbn; [intros E; injection E as <-; split; [reflexivity|constructor]|].
  inversion F as [|? ? F1 F2]; subst. destruct (unpack_li x) as [v|] eqn:U; cbn; [|discriminate]. destruct (mapM unpack_li r) as [ys|]; cbn; [|discriminate].
  intros E. injection E as <-. destruct (IH ys F2 eq_refl) as [-> I]. destruct (unpack_li_inv x v F1 U) as [I1 ->]. split; [reflexivity|constructor; assumption].
Qed.
Lemma unpack_d_range x v : Forall is_byte x -> unpack_d x = Ok v -> is_dbl v.
Proof.
  intros B. unfold unpack_d, unpack_le, unpack_be. destruct (Z.of_nat (length (rev x)) =? Z.of_nat 8) eqn:L; [|discriminate]. apply Z.eqb_eq in L. intros H. injection H as <-.
  pose proof (be_value_range (rev x) (Forall_rev B)) as R. rewrite L in R. exact R.
Qed.
Lemma mapM_range l vs : Forall (Forall is_byte) l -> mapM unpack_d l = Ok vs -> bits vs.
Proof.
  revert vs. induction l as [|x r IH]; intros vs F; cbn; [intros E; injection E as <-; constructor|].
  inversion F as [|? ? F1 F2]; subst. destruct (unpack_d x) as [v|] eqn:U; cbn; [|discriminate]. destruct (mapM unpack_d r) as [ys|]; cbn; [|discriminate].
  intros E. injection E as <-. constructor; [eapply unpack_d_range; eassumption|apply IH; auto].
Qed.
Lemma ds_inv bs p n k f1 vs : Forall is_byte bs -> f_get n (unpack_ds k) (mkFile bs p) = (f1, Ok vs) ->
  0 <= k /\ length vs = Z.to_nat k /\ bits vs /\ stands bs p (doubles vs) /\ f1 = mkFile bs (p + length (doubles vs)).
Proof.
  intros B H. apply get_inv in H. destruct H as [l [U [-> ST]]]. pose proof (stands_bytes _ _ _ B ST) as BL.
  pose proof (unpack_ds_inv k l vs BL U) as E. unfold unpack_ds, unpack_many in U. destruct (_ && _) eqn:C in U; [|discriminate U]. apply andb_true_iff in C. destruct C as [C1 C2].
  apply Z.leb_le in C1. pose proof (mapM_length _ _ _ U) as L. rewrite chunks_length in L. pose proof (mapM_range _ _ (chunks_bytes is_byte 8 _ _ BL) U) as R.
  subst l. auto.
Qed.
Lemma ints_inv bs p n k f1 vs : Forall is_byte bs -> f_get n (unpack_many 4 unpack_li k) (mkFile bs p) = (f1, Ok vs) ->
  0 <= k /\ length vs = Z.to_nat k /\ Forall int32 vs /\ stands bs p (ints vs) /\ f1 = mkFile bs (p + length (ints vs)).
Proof.
  intros B H. apply get_inv in H. destruct H as [l [U [-> ST]]]. pose proof (stands_bytes _ _ _ B ST) as BL.
  unfold unpack_many in U. destruct (_ && _) eqn:C in U; [|discriminate U]. apply andb_true_iff in C. destruct C as [C1 C2].
  apply Z.leb_le in C1. apply Z.eqb_eq in C2. pose proof (mapM_length _ _ _ U) as L. rewrite chunks_length in L.
  destruct (mapM_ints _ _ (chunks_bytes is_byte 4 _ _ BL) U) as [E I]. rewrite chunks_concat in E by lia. subst l. auto.
Qed.
Lemma points_inv bs : Forall is_byte bs -> forall l p f1 pts, for_map (fun _ : nat => f_get 16 (unpack_ds 2)) l (mkFile bs p) = (f1, Ok pts) ->
  length pts = length l /\ Forall pair pts /\ stands bs p (doubles (concat pts)) /\ f1 = mkFile bs (p + length (doubles (concat pts))).
Proof.
  intros B. induction l as [|x l IH]; intros p f1 pts H; cbn [for_map] in H.
  - injection H as <- <-. cbn. rewrite Nat.add_0_r. split; [reflexivity|]. split; [constructor|]. split; reflexivity.
  - apply bind_inv in H. destruct H as [f2 [q [H1 H]]]. apply (ds_inv bs p 16 2 _ _ B) in H1. destruct H1 as [_ [L [R [ST ->]]]].
    apply bind_inv in H. destruct H as [f3 [qs [H2 H]]]. injection H as <- <-. destruct (IH _ _ _ H2) as [L2 [F2 [ST2 ->]]].
    split; [cbn; lia|]. split; [constructor; [split; assumption|exact F2]|]. cbn [concat]. unfold doubles in *. rewrite flat_map_app, app_length.
    split; [apply stands_app; auto|]. rewrite Nat.add_assoc. reflexivity.
Qed.
Lemma seek_inv n bs p f1 x : f_seek n (mkFile bs p) = (f1, Ok x) -> 0 <= n /\ f1 = mkFile bs (Z.to_nat n).
Proof. unfold f_seek. destruct (Z.ltb_spec n 0); intros E; [discriminate E|]. injection E as <- _. auto. Qed.

(** ** Writing backwards: what bytes in place are read as *)
Lemma get_does {A B} n (u : list Z -> res A) (k : A -> M file B) bs p c a R : stands bs p c -> Z.of_nat (length c) = n -> u c = Ok a ->
  k a (mkFile bs (p + length c)) = R -> mbind (f_get n u) k (mkFile bs p) = R.
Proof.
  intros ST L U K. unfold f_get, ShpFile.f_read. unfold mbind at 1 2. cbn [fdata fpos]. unfold lift. destruct (n <? 0) eqn:C; [apply Z.ltb_lt in C; lia|].
  replace (Z.to_nat n) with (length c) by lia. unfold stands in ST. rewrite !ST, U. exact K.
Qed.
Lemma points_do bs : forall pts l p, length l = length pts -> Forall pair pts -> stands bs p (doubles (concat pts)) ->
  for_map (fun _ : nat => f_get 16 (unpack_ds 2)) l (mkFile bs p) = (mkFile bs (p + length (doubles (concat pts))), Ok pts).
Proof.
  induction pts as [|q pts IH]; intros [|x l] p L F ST; try discriminate L; cbn [for_map].
  - cbn. rewrite Nat.add_0_r. reflexivity.
  - cbn [concat] in ST |- *. unfold doubles in ST |- *. rewrite flat_map_app in ST |- *. rewrite app_length. apply stands_app in ST. destruct ST as [S1 S2].
    inversion F as [|? ? [Q1 Q2] F']; subst. fold (doubles q) in *. fold (doubles (concat pts)) in *.
    eapply get_does; [exact S1|rewrite doubles_length, Q1; reflexivity|apply unpack_doubles; [exact Q2|rewrite Q1; reflexivity]|].
    unfold mbind. rewrite IH; [|cbn in L; lia|exact F'|exact S2]. unfold ret. rewrite Nat.add_assoc. reflexivity.
Qed.

(** ** The steps of a record *)
Definition some_parts (parts : list Z) : option (list Z) := match parts with [] => None | _ => Some parts end.
Definition parts_step (nParts : option Z) (s : shape) : M file shape :=
  if truthy nParts
  then n <~ lift (count nParts) ;; p <~ f_get (n * 4) (unpack_many 4 unpack_li n) ;; ret (set_parts (Some p) s)
  else ret s.
Lemma parts_inv bs p n s f1 s1 : Forall is_byte bs -> int32 n -> parts_step (Some n) s (mkFile bs p) = (f1, Ok s1) -> s_parts s = None ->
  exists parts, n = Z.of_nat (length parts) /\ Forall int32 parts /\ stands bs p (ints parts) /\ f1 = mkFile bs (p + length (ints parts)) /\
    s1 = set_parts (some_parts parts) s.
Proof.
  intros B I H E. unfold parts_step in H. cbn [truthy] in H. destruct (Z.eqb_spec n 0) as [->|N]; cbn [negb] in H.
  - injection H as <- <-. exists []. cbn. rewrite Nat.add_0_r. do 4 (split; [reflexivity || constructor|]). destruct s; cbn in *; subst; reflexivity.
  - apply bind_inv in H. destruct H as [f2 [n' [H1 H]]]. injection H1 as <- <-. apply bind_inv in H. destruct H as [f3 [parts [H2 H]]]. injection H as <- <-.
    apply (ints_inv bs p _ n _ _ B) in H2. destruct H2 as [N0 [L [F [ST ->]]]]. exists parts. split; [lia|]. split; [exact F|]. split; [exact ST|]. split; [reflexivity|].
    destruct parts; [cbn in L; lia|reflexivity].
Qed.
Lemma parts_do {B} bs p parts s (k : shape -> M file B) R : Forall int32 parts -> stands bs p (ints parts) -> s_parts s = None ->
  k (set_parts (some_parts parts) s) (mkFile bs (p + length (ints parts))) = R -> mbind (parts_step (Some (Z.of_nat (length parts))) s) k (mkFile bs p) = R.
Proof.
  intros F ST E K. unfold parts_step. cbn [truthy]. destruct parts as [|a r].
  - cbn. cbn in K. rewrite Nat.add_0_r in K. rewrite <- K. unfold mbind, ret. f_equal. destruct s; cbn in *; subst; reflexivity.
  - destruct (Z.eqb_spec (Z.of_nat (length (a :: r))) 0); [cbn in *; lia|]. cbn [negb]. unfold mbind at 1. unfold mbind at 1. unfold lift at 1. cbn [count].
    match goal with |- (let '(x, y) := ?m ?f in _) = R => assert (X : m f = (mkFile bs (p + length (ints (a :: r))), Ok (set_parts (Some (a :: r)) s))) end.
    { eapply get_does; [exact ST|unfold ints; rewrite flat_le32_length; lia|apply unpack_starts; [exact F|reflexivity]|]. reflexivity. }
    rewrite X. exact K.
Qed.
Definition points_step (nPoints : option Z) (s : shape) : M file shape :=
  if truthy nPoints
  then n <~ lift (count nPoints) ;; p <~ for_map (fun _ => f_get 16 (unpack_ds 2)) (seq 0 (Z.to_nat n)) ;; ret (set_points p s)
  else ret s.
Lemma pts_inv bs p n s f1 s1 : Forall is_byte bs -> points_step (Some n) s (mkFile bs p) = (f1, Ok s1) -> s_points s = [] ->
  exists pts, length pts = Z.to_nat n /\ Forall pair pts /\ stands bs p (doubles (concat pts)) /\ f1 = mkFile bs (p + length (doubles (concat pts))) /\ s1 = set_points pts s.
Proof.
  intros B H E. unfold points_step in H. cbn [truthy] in H. destruct (Z.eqb_spec n 0) as [->|N]; cbn [negb] in H.
  - injection H as <- <-. exists []. cbn. rewrite Nat.add_0_r. do 4 (split; [reflexivity || constructor|]). destruct s; cbn in *; subst; reflexivity.
  - apply bind_inv in H. destruct H as [f2 [n' [H1 H]]]. injection H1 as <- <-. apply bind_inv in H. destruct H as [f3 [pts [H2 H]]]. injection H as <- <-.
    apply (points_inv bs B) in H2. destruct H2 as [L [F [ST ->]]]. rewrite seq_length in L. exists pts. auto.
Qed.
Lemma pts_do {B} bs p n pts s (k : shape -> M file B) R : length pts = Z.to_nat n -> Forall pair pts -> stands bs p (doubles (concat pts)) -> s_points s = [] ->
  k (set_points pts s) (mkFile bs (p + length (doubles (concat pts)))) = R -> mbind (points_step (Some n) s) k (mkFile bs p) = R.
Proof.
  intros L F ST E K. unfold points_step. cbn [truthy]. destruct (Z.eqb_spec n 0) as [->|N]; cbn [negb].
  - destruct pts; [|discriminate L]. cbn in K. rewrite Nat.add_0_r in K. rewrite <- K. unfold mbind, ret. f_equal. destruct s; cbn in *; subst; reflexivity.
  - unfold mbind at 1. unfold mbind at 1. unfold lift at 1. cbn [count]. unfold mbind at 1.
    rewrite (points_do bs pts); [|rewrite seq_length; auto|exact F|exact ST]. exact K.
Qed.
Lemma bi2_inv bs p f1 hd : Forall is_byte bs -> f_get 8 (unpack_many 4 unpack_bi 2) (mkFile bs p) = (f1, Ok hd) ->
  exists a b, hd = [a; b] /\ int32 a /\ int32 b /\ stands bs p (be32 a ++ be32 b) /\ f1 = mkFile bs (p + 8).
Proof.
  intros B H. apply get_inv in H. destruct H as [l [U [-> ST]]]. pose proof (stands_bytes _ _ _ B ST) as BL.
  unfold unpack_many in U. destruct (_ && _) eqn:C in U; [|discriminate U]. apply andb_true_iff in C. destruct C as [_ C]. apply Z.eqb_eq in C.
  assert (L : length l = 8%nat) by lia. change (Z.to_nat 2) with 2%nat in U. cbn [chunks mapM] in U.
  destruct (unpack_bi (firstn 4 l)) as [a|] eqn:U1; cbn [bind] in U; [|discriminate U]. destruct (unpack_bi (firstn 4 (skipn 4 l))) as [b|] eqn:U2; cbn [bind] in U; [|discriminate U].
  injection U as <-. apply unpack_bi_inv in U1; [|exact (Forall_cut is_byte 4 0 l BL)]. apply unpack_bi_inv in U2; [|apply Forall_cut; exact BL]. destruct U1 as [I1 E1]. destruct U2 as [I2 E2].
  exists a, b. split; [reflexivity|]. split; [exact I1|]. split; [exact I2|].
  assert (E : l = be32 a ++ be32 b). { rewrite <- E1, <- E2. rewrite (firstn_all2 (n := 4) (skipn 4 l)) by (rewrite skipn_length; lia). symmetry. apply firstn_skipn. }
  rewrite L. subst l. auto.
Qed.
