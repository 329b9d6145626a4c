(** The layout of a RangeGrid file: lemmas. *)
From Coq Require Import QArith Lia.
From Verif Require Import Py Num VlvModel VlvProofs StrModel GridModel RgModel RgSpec PfFileSpec RgFileSpec PfHostile PfFile.
Open Scope Z_scope.
Open Scope res_scope.

Lemma signed_read v bs r : signed v bs -> readsvlv (bs ++ r) = Ok (v, r).
Proof.
  intros (g & n & m & -> & N & ->). cbn [app readsvlv]. rewrite (number_read n m r N). cbn [bind]. destruct (g =? 0); reflexivity.
Qed.
Lemma signed_inv s v r : Forall is_byte s -> readsvlv s = Ok (v, r) -> exists bs, s = bs ++ r /\ signed v bs.
Proof.
  intros B H. destruct s as [|g s]; [discriminate H|]. cbn [readsvlv] in H. destruct (readvlv s) as [[n r']|] eqn:E; [|discriminate H]. cbn [bind] in H. injection H as <- <-.
  inversion B as [|? ? B1 B2]; subst. destruct (number_inv s n r' B2 E) as (m & -> & N). exists (g :: m). split; [reflexivity|]. exists g, n, m.
  split; [reflexivity|]. split; [exact N|]. destruct (g =? 0); reflexivity.
Qed.
Lemma signed_fails s e : readsvlv s = Err e -> e = TypeError.
Proof.
  destruct s as [|g s]; cbn [readsvlv]; [congruence|]. destruct (readvlv s) as [[n r]|x] eqn:E; cbn [bind]; intros H; [discriminate H|].
  injection H as <-. exact (vlv_fails s 0 x E).
Qed.
Lemma span_fits s (n : bool) d : (d <? size_span s - b2z n) = (d + b2z n <? size_span s).
Proof. destruct (Z.ltb_spec d (size_span s - b2z n)), (Z.ltb_spec (d + b2z n) (size_span s)); try reflexivity; lia. Qed.
(** IVar: the least size that fits. *)
Lemma ivar_is c : c_kind c = 0 -> sound c -> exists f, ivar_new (c_name c) (c_min c) (c_max c) (negb (c_null c =? 0)) = Ok f /\ stands (FI f) c.
Proof.
  intros K (S & _). destruct (S K) as (L & F). unfold ivar_new. replace (negb (c_min c <? c_max c)) with false by (symmetry; apply negb_false_iff, Z.ltb_lt, L).
  rewrite !span_fits. unfold fits in F. unfold size_span. unfold stands, fits.
  replace (if c_null c =? 0 then 0 else 1) with (b2z (negb (c_null c =? 0))) in * by (destruct (c_null c =? 0); reflexivity).
  set (d := c_max c - c_min c + b2z (negb (c_null c =? 0))) in *.
  change (256 ^ 8) with 18446744073709551616 in *. change (256 ^ 4) with 4294967296. change (256 ^ 2) with 65536. change (256 ^ 1) with 256.
  destruct (Z.ltb_spec d 256); [|destruct (Z.ltb_spec d 65536); [|destruct (Z.ltb_spec d 4294967296); [|destruct (Z.ltb_spec d 18446744073709551616); [|lia]]]];
    cbn [bind]; eexists; (split; [reflexivity|]); cbn [i_name i_min i_max i_nullable i_size]; (split; [exact K|]); repeat (split; [reflexivity|]);
    (split; [cbn [In]; auto|]); (split; [cbn; lia|]); intros s [<-|[<-|[<-|[<-|[]]]]] X; cbn in X; lia.
Qed.
Lemma ivar_fails c : c_kind c = 0 -> forall f, ivar_new (c_name c) (c_min c) (c_max c) (negb (c_null c =? 0)) = Ok f -> sound c.
Proof.
  intros K f E. split; [|intros K1; lia]. intros _. unfold ivar_new in E. destruct (Z.ltb_spec (c_min c) (c_max c)) as [L|L]; [|discriminate E]. cbn [negb] in E.
  split; [exact L|]. rewrite !span_fits in E. unfold size_span in E. unfold fits.
  replace (if c_null c =? 0 then 0 else 1) with (b2z (negb (c_null c =? 0))) in * by (destruct (c_null c =? 0); reflexivity).
  set (d := c_max c - c_min c + b2z (negb (c_null c =? 0))) in *.
  change (256 ^ 8) with 18446744073709551616 in *. change (256 ^ 4) with 4294967296 in E. change (256 ^ 2) with 65536 in E. change (256 ^ 1) with 256 in E.
  destruct (Z.ltb_spec d 256); [lia|]. destruct (Z.ltb_spec d 65536); [lia|]. destruct (Z.ltb_spec d 4294967296); [lia|]. destruct (Z.ltb_spec d 18446744073709551616); [assumption|discriminate E].
Qed.
Lemma Qlt_ints a b : Qlt_bool (inject_Z a) (inject_Z b) = (a <? b).
Proof.
  unfold Qlt_bool. destruct (Z.ltb_spec a b) as [H|H].
  - apply negb_true_iff. destruct (Qle_bool (inject_Z b) (inject_Z a)) eqn:E; [|reflexivity]. apply Qle_bool_iff in E. rewrite <- Zle_Qle in E. lia.
  - apply negb_false_iff, Qle_bool_iff. rewrite <- Zle_Qle. exact H.
Qed.
Lemma sizes_in s : (s =? 1) || (s =? 2) || (s =? 4) || (s =? 8) = true <-> In s [1; 2; 4; 8].
Proof.
  cbn [In]. rewrite !orb_true_iff, !Z.eqb_eq. split; [intros [[[H|H]|H]|H]; subst; auto|intros [<-|[<-|[<-|[<-|[]]]]]; auto].
Qed.
Lemma fvar_is c : c_kind c = 1 -> sound c -> exists f, fvar_new (c_name c) (inject_Z (c_min c)) (inject_Z (c_max c)) (c_size c) (negb (c_null c =? 0)) = Ok f /\ stands (FF f) c.
Proof.
  intros K (_ & S). destruct (S K) as (L & F). unfold fvar_new. rewrite Qlt_ints, (proj2 (Z.ltb_lt _ _) L). cbn [negb]. rewrite (proj2 (sizes_in _) F). cbn [negb].
  eexists. split; [reflexivity|]. unfold stands. cbn [f_name f_min f_max f_nullable f_size]. repeat (split; [assumption || reflexivity|]). rewrite Z2Nat.id; [reflexivity|].
  destruct F as [<-|[<-|[<-|[<-|[]]]]]; lia.
Qed.
Lemma fvar_fails c f : c_kind c = 1 -> fvar_new (c_name c) (inject_Z (c_min c)) (inject_Z (c_max c)) (c_size c) (negb (c_null c =? 0)) = Ok f -> sound c.
Proof.
  intros K E. split; [intros K0; lia|]. intros _. unfold fvar_new in E. rewrite Qlt_ints in E. destruct (Z.ltb_spec (c_min c) (c_max c)) as [L|L]; [|discriminate E]. cbn [negb] in E.
  split; [exact L|]. apply sizes_in. destruct (_ || _); [reflexivity|discriminate E].
Qed.
(** One column *)
Lemma column_read c bs r : column_bytes c bs -> sound c -> exists tail f, bs = c_name c ++ 0 :: tail /\ rg_read_column (c_name c) (tail ++ r) = Ok (f, r) /\ stands f c.
Proof.
  intros (z & b & -> & _ & N & B) S. exists (c_kind c :: c_null c :: z ++ b). destruct B as [[K (m & n & -> & M1 & M2)]|(K & -> & _)].
  - assert (HR : forall A (k : Z -> Z -> Z -> list Z -> res A), ('(v, s) <- readvlv ((z ++ m ++ n) ++ r) ;; '(a, s) <- readsvlv s ;; '(d, s) <- readsvlv s ;; k v a d s) = k (c_size c) (c_min c) (c_max c) r).
    { intros A k. rewrite <- !app_assoc, (number_read _ z (m ++ n ++ r) N). cbn [bind]. rewrite (signed_read _ m (n ++ r) M1). cbn [bind]. rewrite (signed_read _ n r M2). reflexivity. }
    destruct K as [K|K].
    + destruct (ivar_is c K S) as (f & E & F). exists (FI f). split; [reflexivity|]. split; [|exact F]. unfold rg_read_column. cbn [app read_ord bind]. rewrite K. cbn [Z.eqb].
      rewrite (HR _ (fun _ a d s => f <- ivar_new (c_name c) a d (negb (c_null c =? 0)) ;; Ok (FI f, s))), E. reflexivity.
    + destruct (fvar_is c K S) as (f & E & F). exists (FF f). split; [reflexivity|]. split; [|exact F]. unfold rg_read_column. cbn [app read_ord bind]. rewrite K. cbn [Z.eqb Pos.eqb].
      rewrite (HR _ (fun v a d s => f <- fvar_new (c_name c) (inject_Z a) (inject_Z d) v (negb (c_null c =? 0)) ;; Ok (FF f, s))), E. reflexivity.
  - exists (FS (mksvar (c_name c) (Z.to_nat (c_size c)) (negb (c_null c =? 0)))). split; [reflexivity|]. split.
    + unfold rg_read_column. cbn [app read_ord bind]. rewrite K, app_nil_r. cbn [Z.eqb Pos.eqb]. rewrite (number_read _ z r N). reflexivity.
    + unfold stands. cbn [s_name s_nullable s_size]. rewrite Z2Nat.id by exact (number_nonneg _ _ N). auto.
Qed.
Lemma column_inv name s f r : Forall is_byte s -> Forall (fun x => 0 < x < 128) name -> rg_read_column name s = Ok (f, r) ->
  exists c tail, c_name c = name /\ s = tail ++ r /\ column_bytes c (name ++ 0 :: tail) /\ sound c /\ stands f c.
Proof.
  intros B P E. unfold rg_read_column in E. destruct s as [|tp s]; [discriminate E|]. cbn [read_ord bind] in E. inversion B as [|? ? _ B1]; subst.
  assert (HR : forall (A : Type) s0 (k : Z -> Z -> Z -> list Z -> res A) y, Forall is_byte s0 -> ('(v, s) <- readvlv s0 ;; '(a, s) <- readsvlv s ;; '(d, s) <- readsvlv s ;; k v a d s) = Ok y ->
    exists v a d z m n t, s0 = z ++ m ++ n ++ t /\ number v z /\ signed a m /\ signed d n /\ k v a d t = Ok y).
  { intros A s0 k y B0 H. destruct (readvlv s0) as [[v s1]|] eqn:E1; [|discriminate H]. cbn [bind] in H. destruct (number_inv _ _ _ B0 E1) as (z & -> & N).
    pose proof (proj2 (proj1 (Forall_app _ _ _) B0)) as B2.
    destruct (readsvlv s1) as [[a s2]|] eqn:E2; [|discriminate H]. cbn [bind] in H. destruct (signed_inv _ _ _ B2 E2) as (m & -> & M1).
    pose proof (proj2 (proj1 (Forall_app _ _ _) B2)) as B3.
    destruct (readsvlv s2) as [[d s3]|] eqn:E3; [|discriminate H]. cbn [bind] in H. destruct (signed_inv _ _ _ B3 E3) as (n & -> & M2).
    exists v, a, d, z, m, n, s3. auto 10. }
  destruct (Z.eqb_spec tp 0) as [->|T0].
  { destruct s as [|nl s]; [discriminate E|]. cbn [read_ord bind] in E. inversion B1 as [|? ? _ B2]; subst.
    destruct (HR _ s (fun _ a d s => f <- ivar_new name a d (negb (nl =? 0)) ;; Ok (FI f, s)) _ B2 E) as (v & a & d & z & m & n & t & -> & N & M1 & M2 & K).
    destruct (ivar_new name a d (negb (nl =? 0))) as [f'|] eqn:EI; [|discriminate K]. cbn [bind] in K. injection K as <- <-.
    exists (col name 0 nl v a d), (0 :: nl :: z ++ m ++ n). split; [reflexivity|]. split; [cbn [app]; rewrite <- !app_assoc; reflexivity|].
    assert (S : sound (col name 0 nl v a d)) by exact (ivar_fails (col name 0 nl v a d) eq_refl f' EI).
    split; [|split; [exact S|]].
    - exists z, (m ++ n). split; [reflexivity|]. split; [exact P|]. split; [exact N|]. left. split; [left; reflexivity|]. exists m, n. auto.
    - destruct (ivar_is (col name 0 nl v a d) eq_refl S) as (f & E' & F). cbn [c_name c_min c_max c_null] in E'. rewrite EI in E'. injection E' as <-. exact F. }
  destruct (Z.eqb_spec tp 1) as [->|T1].
  { destruct s as [|nl s]; [discriminate E|]. cbn [read_ord bind] in E. inversion B1 as [|? ? _ B2]; subst.
    destruct (HR _ s (fun v a d s => f <- fvar_new name (inject_Z a) (inject_Z d) v (negb (nl =? 0)) ;; Ok (FF f, s)) _ B2 E) as (v & a & d & z & m & n & t & -> & N & M1 & M2 & K).
    destruct (fvar_new name (inject_Z a) (inject_Z d) v (negb (nl =? 0))) as [f'|] eqn:EI; [|discriminate K]. cbn [bind] in K. injection K as <- <-.
    exists (col name 1 nl v a d), (1 :: nl :: z ++ m ++ n). split; [reflexivity|]. split; [cbn [app]; rewrite <- !app_assoc; reflexivity|].
    assert (S : sound (col name 1 nl v a d)) by exact (fvar_fails (col name 1 nl v a d) f' eq_refl EI).
    split; [|split; [exact S|]].
    - exists z, (m ++ n). split; [reflexivity|]. split; [exact P|]. split; [exact N|]. left. split; [right; reflexivity|]. exists m, n. auto.
    - destruct (fvar_is (col name 1 nl v a d) eq_refl S) as (f & E' & F). cbn [c_name c_min c_max c_null c_size] in E'. rewrite EI in E'. injection E' as <-. exact F. }
  destruct (Z.eqb_spec tp 2) as [->|T2]; [|discriminate E].
  destruct s as [|nl s]; [discriminate E|]. cbn [read_ord bind] in E. inversion B1 as [|? ? _ B2]; subst.
  destruct (readvlv s) as [[v t]|] eqn:E1; [|discriminate E]. cbn [bind] in E. injection E as <- <-. destruct (number_inv _ _ _ B2 E1) as (z & -> & N).
  exists (col name 2 nl v 0 0), (2 :: nl :: z ++ []). split; [reflexivity|]. split; [rewrite app_nil_r; reflexivity|]. split.
  { exists z, []. split; [reflexivity|]. split; [exact P|]. split; [exact N|]. right. repeat split. }
  split; [split; intros K; discriminate K|]. unfold stands. cbn [s_name s_nullable s_size]. rewrite Z2Nat.id by exact (number_nonneg _ _ N). repeat split.
Qed.
Lemma column_errors name s e : rg_read_column name s = Err e -> e = TypeError \/ e = AssertionError \/ e = ValueError.
Proof.
  unfold rg_read_column. assert (HO : forall s e, read_ord s = Err e -> e = TypeError) by (intros [|? ?] ?; cbn; congruence).
  assert (HV : forall s e, readvlv s = Err e -> e = TypeError) by (intros s0 e0; apply (vlv_fails s0 0)).
  destruct (read_ord s) as [[tp s1]|x] eqn:E0; cbn [bind]; [|intros H; injection H as <-; left; exact (HO _ _ E0)].
  destruct (tp =? 0); [|destruct (tp =? 1); [|destruct (tp =? 2); [|intros H; injection H as <-; auto]]];
    (destruct (read_ord s1) as [[nl s2]|x] eqn:E1; cbn [bind]; [|intros H; injection H as <-; left; exact (HO _ _ E1)]);
    (destruct (readvlv s2) as [[v s3]|x] eqn:E2; cbn [bind]; [|intros H; injection H as <-; left; exact (HV _ _ E2)]); [| |discriminate];
    (destruct (readsvlv s3) as [[a s4]|x] eqn:E3; cbn [bind]; [|intros H; injection H as <-; left; exact (signed_fails _ _ E3)]);
    (destruct (readsvlv s4) as [[d s5]|x] eqn:E4; cbn [bind]; [|intros H; injection H as <-; left; exact (signed_fails _ _ E4)]).
  - unfold ivar_new. destruct (negb _); cbn [bind]; [intros H; injection H as <-; auto|].
    repeat (destruct (_ <? _); cbn [bind]; [discriminate|]). intros H; injection H as <-; auto.
  - unfold fvar_new. destruct (negb _); cbn [bind]; [intros H; injection H as <-; auto|]. destruct (negb _); cbn [bind]; [intros H; injection H as <-; auto|discriminate].
Qed.
(** The columns *)
Lemma columns_read fuel cs bs r : Forall2 column_bytes cs bs -> Forall sound cs -> (length (concat bs ++ r) < fuel)%nat ->
  exists fs, rg_read_columns fuel (length cs) (concat bs ++ r) = Some (Ok (fs, r)) /\ Forall2 stands fs cs.
Proof.
  intros F. induction F as [|c b cs bs C _ IH]; intros S L.
  - exists []. split; [reflexivity|constructor].
  - inversion S as [|? ? S1 S2]; subst. cbn [concat] in L |- *. rewrite <- app_assoc in L |- *.
    destruct (column_read c b (concat bs ++ r) C S1) as (tail & f & -> & E & St). rewrite !app_length in L. cbn [length] in L.
    destruct IH as (fs & E2 & F2); [exact S2|rewrite app_length; lia|]. exists (f :: fs). split; [|constructor; assumption].
    cbn [length rg_read_columns]. rewrite <- app_assoc. cbn [app]. rewrite name_read; [|destruct C as (z & b & _ & P & _); exact P|lia]. rewrite E, E2. reflexivity.
Qed.
Lemma columns_inv fuel n : forall s fs r, Forall is_byte s -> rg_read_columns fuel n s = Some (Ok (fs, r)) ->
  exists cs bs, length cs = n /\ s = concat bs ++ r /\ Forall2 column_bytes cs bs /\ Forall sound cs /\ Forall2 stands fs cs.
Proof.
  induction n as [|n IH]; intros s fs r B E; cbn [rg_read_columns] in E.
  - injection E as <- <-. exists [], []. repeat split; constructor.
  - destruct (readascii fuel s) as [[[name s1]|]|] eqn:E1; try discriminate E. destruct (name_inv fuel s name s1 B E1) as (-> & P).
    assert (B1 : Forall is_byte s1) by (apply Forall_app in B; destruct B as (_ & B); inversion B; assumption).
    destruct (rg_read_column name s1) as [[f s2]|] eqn:E2; [|discriminate E]. destruct (column_inv name s1 f s2 B1 P E2) as (c & tail & Nm & -> & C & S & St).
    destruct (rg_read_columns fuel n s2) as [[[fs' s3]|]|] eqn:E3; try discriminate E. injection E as <- <-.
    destruct (IH s2 fs' s3 (proj2 (proj1 (Forall_app _ _ _) B1)) E3) as (cs & bs & L & -> & F1 & F2 & F3).
    exists (c :: cs), ((name ++ 0 :: tail) :: bs). split; [cbn; lia|]. split; [cbn [concat]; rewrite <- !app_assoc; reflexivity|].
    split; [constructor; assumption|]. split; constructor; assumption.
Qed.
Lemma columns_errors fuel n : forall s e, rg_read_columns fuel n s = Some (Err e) -> e = TypeError \/ e = AssertionError \/ e = ValueError \/ e = UnicodeError.
Proof.
  induction n as [|n IH]; intros s e E; cbn [rg_read_columns] in E; [discriminate E|].
  destruct (readascii fuel s) as [[[name s1]|x]|] eqn:E1; [|injection E as <-; right; right; right; exact (ascii_fails _ _ _ E1)|discriminate E].
  destruct (rg_read_column name s1) as [[f s2]|x] eqn:E2; [|injection E as <-; destruct (column_errors _ _ _ E2) as [H|[H|H]]; auto].
  destruct (rg_read_columns fuel n s2) as [[[fs' s3]|x]|] eqn:E3; try discriminate E. injection E as <-. exact (IH _ _ E3).
Qed.
Lemma columns_mono n : forall fuel fuel' s y, rg_read_columns fuel n s = Some y -> (fuel <= fuel')%nat -> rg_read_columns fuel' n s = Some y.
Proof.
  induction n as [|n IH]; intros fuel fuel' s y E L; cbn [rg_read_columns] in *; [exact E|].
  destruct (readascii fuel s) as [[[name s1]|x]|] eqn:E1; [| |discriminate E]; rewrite (ascii_fuel_mono _ _ _ _ E1 L); [|exact E].
  destruct (rg_read_column name s1) as [[f s2]|x]; [|exact E]. destruct (rg_read_columns fuel n s2) as [z|] eqn:E3; [|discriminate E]. rewrite (IH _ _ _ _ E3 L). exact E.
Qed.
Lemma columns_enough n : forall fuel fuel' s, Forall is_byte s -> (length s < fuel)%nat -> (length s < fuel')%nat -> rg_read_columns fuel n s = rg_read_columns fuel' n s.
Proof.
  induction n as [|n IH]; intros fuel fuel' s B L L'; cbn [rg_read_columns]; [reflexivity|]. rewrite (ascii_enough s fuel fuel' L L').
  destruct (readascii fuel' s) as [[[name s1]|x]|] eqn:E1; [|reflexivity|reflexivity]. destruct (name_inv fuel' s name s1 B E1) as (-> & P).
  assert (B1 : Forall is_byte s1) by (apply Forall_app in B; destruct B as (_ & B); inversion B; assumption).
  destruct (rg_read_column name s1) as [[f s2]|x] eqn:E2; [|reflexivity]. destruct (column_inv name s1 f s2 B1 P E2) as (c & tail & Nm & -> & _).
  rewrite !app_length in *. cbn [length] in *. rewrite app_length in *. rewrite (IH fuel fuel' s2); [reflexivity| |lia|lia]. apply Forall_app in B1. tauto.
Qed.

(** * The file *)
(** The part of the constructor before the columns *)
Definition head_of (rg : list Z) : res (Z * list Z) :=
  let '(sig, s) := f_read 2 rg in
  let '(ver, s) := f_read 1 s in
  _ <- py_assert (zlist_eqb sig [82; 71]) ;; _ <- py_assert (zlist_eqb ver [1]) ;;
  '(ncols, s) <- read_ord s ;;
  let '(d, s) := f_read 4 s in
  _ <- unpack_le 4 d ;; Ok (ncols, s).
Lemma open_head coll names_ok fuel rg md : rg_open coll names_ok fuel rg md =
  match rg_readindex md with
  | Err e => Some (Err e)
  | Ok index =>
      match head_of rg with
      | Err e => Some (Err e)
      | Ok (ncols, s) =>
          match rg_read_columns fuel (Z.to_nat ncols) s with
          | None => None
          | Some (Err e) => Some (Err e)
          | Some (Ok (fs, s)) =>
              if negb coll then Some (Err NameError)
              else if negb (names_ok (map field_name fs)) then Some (Err ValueError)
              else Some (Ok (mkrr rg index fs (Z.of_nat (length rg) - Z.of_nat (length s)) (Z.of_nat (length rg) - Z.of_nat (length s)) 0))
          end
      end
  end.
Proof. reflexivity. Qed.
Lemma unpack4 d : (exists v, unpack_le 4 d = Ok v) <-> length d = 4%nat.
Proof.
  unfold unpack_le, unpack_be. rewrite rev_length. destruct (Nat.eq_dec (length d) 4) as [->|N].
  - split; [reflexivity|]. intros _. eexists. reflexivity.
  - split; [|contradiction]. intros (v & H). destruct (Z.eqb_spec (Z.of_nat (length d)) (Z.of_nat 4)); [lia|discriminate H].
Qed.
Lemma head_inv rg n s : head_of rg = Ok (n, s) -> exists rows, rg = [82; 71; 1; n] ++ rows ++ s /\ length rows = 4%nat.
Proof.
  destruct rg as [|a [|b [|v [|c rg]]]].
  - discriminate.
  - unfold head_of, f_read. cbn [firstn skipn zlist_eqb]. rewrite andb_false_r. discriminate.
  - unfold head_of, f_read. cbn [firstn skipn]. destruct (zlist_eqb [a; b] [82; 71]); cbn; intros H; discriminate H.
  - unfold head_of, f_read. cbn [firstn skipn]. destruct (zlist_eqb [a; b] [82; 71]); [|cbn; intros H; discriminate H]. destruct (zlist_eqb [v] [1]); cbn; intros H; discriminate H.
  - change (head_of (a :: b :: v :: c :: rg)) with (_ <- py_assert (zlist_eqb [a; b] [82; 71]) ;; _ <- py_assert (zlist_eqb [v] [1]) ;; _ <- unpack_le 4 (firstn 4 rg) ;; Ok (c, skipn 4 rg)).
    destruct (zlist_eqb [a; b] [82; 71]) eqn:E1; [|cbn; intros H; discriminate H]. destruct (zlist_eqb [v] [1]) eqn:E2; [|cbn; intros H; discriminate H].
    cbn [py_assert bind]. destruct (unpack_le 4 (firstn 4 rg)) as [w|] eqn:E3; [|intros H; discriminate H]. cbn [bind]. intros H. injection H as <- <-.
    exists (firstn 4 rg). cbn [zlist_eqb] in E1, E2. rewrite !andb_true_iff, !Z.eqb_eq in E1. rewrite andb_true_iff, Z.eqb_eq in E2.
    destruct E1 as (-> & -> & _), E2 as (-> & _). split; [cbn [app]; rewrite firstn_skipn; reflexivity|]. apply unpack4. eauto.
Qed.
Lemma head_read n rows s : length rows = 4%nat -> head_of ([82; 71; 1; n] ++ rows ++ s) = Ok (n, s).
Proof.
  intros L. unfold head_of, f_read. destruct rows as [|a [|b [|c [|d [|? ?]]]]]; try discriminate L. reflexivity.
Qed.
Lemma head_errors rg e : head_of rg = Err e -> e = AssertionError \/ e = TypeError \/ e = StructError.
Proof.
  unfold head_of, f_read. destruct (zlist_eqb _ _); cbn [py_assert bind]; [|intros H; injection H as <-; auto].
  destruct (zlist_eqb _ _); cbn [py_assert bind]; [|intros H; injection H as <-; auto]. destruct (skipn 1 (skipn 2 rg)) as [|c r]; cbn [read_ord bind]; [intros H; injection H as <-; auto|].
  unfold unpack_le, unpack_be. destruct (_ =? _); cbn [bind]; [discriminate|]. intros H; injection H as <-; auto.
Qed.
Lemma int_errors s e : py_int s = Err e -> e = ValueError.
Proof. unfold py_int. destruct (match strip s with [] => _ | _ => _ end); congruence. Qed.
Lemma ints_errors l e : mapM py_int l = Err e -> e = ValueError.
Proof.
  revert e. induction l as [|x l IH]; intros e; cbn [mapM]; [discriminate|]. destruct (py_int x) eqn:E; cbn [bind]; [|intros H; injection H as <-; exact (int_errors _ _ E)].
  destruct (mapM py_int l); cbn [bind]; [discriminate|]. intros H; injection H as <-. apply IH. reflexivity.
Qed.
Lemma entries_errors n : forall s e, read_entries n s = Err e -> e = ValueError.
Proof.
  induction n as [|n IH]; intros s e; cbn [read_entries]; [discriminate|]. destruct (readline s) as [l s1]. destruct (split_on 32 l) as [|a [|b [|c w]]]; try (intros H; injection H as <-; reflexivity).
  destruct (py_int b) eqn:E; cbn [bind]; [|intros H; injection H as <-; exact (int_errors _ _ E)]. destruct (readline s1) as [l' s2].
  destruct (mapM py_int (split_on 32 l')) eqn:E2; cbn [bind]; [|intros H; injection H as <-; exact (ints_errors _ _ E2)].
  destruct (read_entries n s2) eqn:E3; cbn [bind]; [discriminate|]. intros H; injection H as <-. exact (IH _ _ E3).
Qed.
Lemma index_errors md e : rg_readindex md = Err e -> e = ValueError.
Proof.
  unfold rg_readindex. destruct (readline (univ_newlines md)) as [l s]. destruct (py_int l) eqn:E; cbn [bind]; [apply entries_errors|]. intros H; injection H as <-. exact (int_errors _ _ E).
Qed.
Lemma open_errors coll names_ok fuel rg md e : rg_open coll names_ok fuel rg md = Some (Err e) ->
  In e [AssertionError; TypeError; StructError; UnicodeError; ValueError] \/ e = NameError /\ coll = false.
Proof.
  rewrite open_head. destruct (rg_readindex md) eqn:E0; [|intros H; injection H as <-; rewrite (index_errors _ _ E0); cbn; auto 10].
  destruct (head_of rg) as [[n s]|] eqn:E1; [|intros H; injection H as <-; destruct (head_errors _ _ E1) as [->|[->| ->]]; cbn; auto 10].
  destruct (rg_read_columns fuel (Z.to_nat n) s) as [[[fs s']|x]|] eqn:E2; [| |discriminate].
  - destruct coll; cbn [negb]; [|intros H; injection H as <-; auto]. destruct (negb _); [|discriminate]. intros H; injection H as <-. cbn. auto 10.
  - intros H; injection H as <-. destruct (columns_errors _ _ _ _ E2) as [->|[->|[->| ->]]]; cbn; auto 10.
Qed.
Lemma layout_read fuel rg cs data : rg_layout rg cs data -> Forall sound cs -> (length rg < fuel)%nat -> exists s fs,
  head_of rg = Ok (Z.of_nat (length cs), s) /\ rg_read_columns fuel (length cs) s = Some (Ok (fs, data)) /\ Forall2 stands fs cs.
Proof.
  intros (rows & bs & -> & L & F) S Lf. exists (concat bs ++ data). rewrite !app_length in Lf.
  destruct (columns_read fuel cs bs data F S) as (fs & E & F2); [rewrite app_length; cbn [length] in Lf; lia|]. exists fs. split; [apply head_read; exact L|]. auto.
Qed.
Lemma stands_names fs cs : Forall2 stands fs cs -> map field_name fs = map c_name cs.
Proof.
  induction 1 as [|f c fs cs S _ IH]; [reflexivity|]. cbn [map]. rewrite IH. f_equal. destruct f as [f|f|f]; cbn [stands field_name] in *; tauto.
Qed.
Lemma layout_inv fuel rg n s fs r : Forall is_byte rg -> head_of rg = Ok (n, s) -> rg_read_columns fuel (Z.to_nat n) s = Some (Ok (fs, r)) ->
  exists cs, rg_layout rg cs r /\ Forall sound cs /\ Forall2 stands fs cs.
Proof.
  intros B H E. destruct (head_inv rg n s H) as (rows & -> & L). apply Forall_app in B. destruct B as (B1 & B2). apply Forall_app in B2. destruct B2 as (_ & B2).
  destruct (columns_inv fuel (Z.to_nat n) s fs r B2 E) as (cs & bs & Ln & -> & F1 & F2 & F3). exists cs. split; [|split; assumption].
  exists rows, bs. split; [|split; assumption]. rewrite Ln, Z2Nat.id; [reflexivity|]. rewrite Forall_forall in B1. specialize (B1 n). cbn [In] in B1. unfold is_byte in B1. destruct B1; auto. 
Qed.
Lemma open_inv names_ok fuel rg md rd : Forall is_byte rg -> rg_open true names_ok fuel rg md = Some (Ok rd) ->
  exists cs data, rg_layout rg cs data /\ Forall sound cs /\ Forall2 stands (rr_row rd) cs /\ rr_datapos rd = Z.of_nat (length rg) - Z.of_nat (length data) /\
  rg_readindex md = Ok (rr_index rd) /\ names_ok (map c_name cs) = true.
Proof.
  intros B. rewrite open_head. destruct (rg_readindex md) as [ix|] eqn:E0; [|discriminate]. destruct (head_of rg) as [[n s]|] eqn:E1; [|discriminate].
  destruct (rg_read_columns fuel (Z.to_nat n) s) as [[[fs r]|x]|] eqn:E2; try discriminate. cbn [negb]. destruct (names_ok (map field_name fs)) eqn:E3; cbn [negb]; [|discriminate].
  intros H. injection H as <-. destruct (layout_inv fuel rg n s fs r B E1 E2) as (cs & L & S & F). exists cs, r. cbn [rr_row rr_datapos rr_index].
  rewrite <- (stands_names fs cs F). auto 10.
Qed.
Lemma open_read names_ok fuel rg md cs data ix : rg_layout rg cs data -> Forall sound cs -> rg_readindex md = Ok ix -> names_ok (map c_name cs) = true -> (length rg < fuel)%nat ->
  exists rd, rg_open true names_ok fuel rg md = Some (Ok rd) /\ Forall2 stands (rr_row rd) cs /\ rr_index rd = ix.
Proof.
  intros L S E N Lf. destruct (layout_read fuel rg cs data L S Lf) as (s & fs & H & R & F). rewrite open_head, E, H, Nat2Z.id, R. cbn [negb].
  rewrite (stands_names fs cs F), N. cbn [negb]. eexists. split; [reflexivity|]. cbn [rr_row rr_index]. auto.
Qed.
Lemma open_name_error names_ok fuel rg md : Forall is_byte rg -> (length rg < fuel)%nat ->
  (rg_open false names_ok fuel rg md = Some (Err NameError) <->
   (exists ix, rg_readindex md = Ok ix) /\ exists cs data, rg_layout rg cs data /\ Forall sound cs).
Proof.
  intros B Lf. rewrite open_head. split.
  - destruct (rg_readindex md) as [ix|x] eqn:E0; [|intros H; injection H as ->; discriminate (index_errors _ _ E0)]. intros H. split; [eauto|].
    destruct (head_of rg) as [[n s]|x] eqn:E1; [|injection H as ->; destruct (head_errors _ _ E1) as [H|[H|H]]; discriminate H].
    destruct (rg_read_columns fuel (Z.to_nat n) s) as [[[fs r]|x]|] eqn:E2; [| |discriminate H].
    + destruct (layout_inv fuel rg n s fs r B E1 E2) as (cs & L & S & F). eauto.
    + injection H as ->. destruct (columns_errors _ _ _ _ E2) as [H|[H|[H|H]]]; discriminate H.
  - intros ((ix & ->) & cs & data & L & S). destruct (layout_read fuel rg cs data L S Lf) as (s & fs & -> & R & F). rewrite Nat2Z.id, R. reflexivity.
Qed.
Lemma open_ends coll names_ok rg md : Forall is_byte rg ->
  (exists y, forall fuel, (length rg < fuel)%nat -> rg_open coll names_ok fuel rg md = Some y) \/ (forall fuel, rg_open coll names_ok fuel rg md = None).
Proof.
  intros B. destruct (rg_readindex md) as [ix|x] eqn:E0; [|left; exists (Err x); intros fuel _; rewrite open_head, E0; reflexivity].
  destruct (head_of rg) as [[n s]|x] eqn:E1; [|left; exists (Err x); intros fuel _; rewrite open_head, E0, E1; reflexivity].
  assert (B2 : Forall is_byte s /\ (length s <= length rg)%nat).
  { destruct (head_inv rg n s E1) as (rows & -> & L). rewrite !Forall_app in B. rewrite !app_length. split; [tauto|lia]. }
  destruct B2 as (B2 & L2). destruct (rg_read_columns (S (length rg)) (Z.to_nat n) s) as [y|] eqn:E2.
  - left. exists (match rg_open coll names_ok (S (length rg)) rg md with Some y => y | None => Err TypeError end). intros fuel Lf. rewrite !open_head, E0, E1.
    rewrite (columns_enough (Z.to_nat n) fuel (S (length rg)) s B2) by lia. rewrite E2. destruct y as [[fs r]|x]; [|reflexivity]. destruct (negb coll); [reflexivity|]. destruct (negb _); reflexivity.
  - right. intros fuel. rewrite open_head, E0, E1. destruct (rg_read_columns fuel (Z.to_nat n) s) as [y|] eqn:E3; [|reflexivity].
    pose proof (columns_mono _ _ (fuel + S (length rg)) _ _ E3 ltac:(lia)) as M. rewrite (columns_enough _ _ (S (length rg)) s B2) in M by lia. congruence.
Qed.
Lemma stands_like f c c' : stands f c -> stands f c' -> like c' c.
Proof.
  assert (N : forall a b, negb (a =? 0) = negb (b =? 0) -> (b = 0 <-> a = 0)).
  { intros a b H. destruct (Z.eqb_spec a 0), (Z.eqb_spec b 0); try discriminate H; tauto. }
  destruct f as [f|f|f]; cbn [stands]; unfold like.
  - intros (K & A1 & A2 & A3 & A4 & _) (K' & B1 & B2 & B3 & B4 & _). split; [congruence|]. split; [congruence|]. split; [intros _; split; congruence|]. split; [apply N; congruence|]. intros H. contradiction.
  - intros (K & A1 & A2 & A3 & A4 & A5) (K' & B1 & B2 & B3 & B4 & B5). split; [congruence|]. split; [congruence|].
    split; [intros _; rewrite A2 in B2; rewrite A3 in B3; injection B2 as <-; injection B3 as <-; split; reflexivity|]. split; [apply N; congruence|]. congruence.
  - intros (K & A1 & A2 & A3) (K' & B1 & B2 & B3). split; [congruence|]. split; [congruence|]. split; [intros H; contradiction|]. split; [apply N; congruence|]. congruence.
Qed.
Lemma layout_one rg cs data cs' data' : rg_layout rg cs data -> rg_layout rg cs' data' -> Forall sound cs -> Forall sound cs' ->
  data' = data /\ Forall2 like cs' cs.
Proof.
  intros L L' S S'. destruct (layout_read _ rg cs data L S (Nat.lt_succ_diag_r _)) as (s & fs & H & R & F). destruct (layout_read _ rg cs' data' L' S' (Nat.lt_succ_diag_r _)) as (s' & fs' & H' & R' & F').
  rewrite H in H'. injection H' as Hn <-. assert (Ln : length cs = length cs') by lia. rewrite <- Ln, R in R'. injection R' as <- <-. clear - F F'.
  split; [reflexivity|]. revert cs' F'. induction F as [|f c fs cs St _ IH]; intros cs' F'; inversion F' as [|? c' ? cs'' St' F'']; subst; [constructor|].
  constructor; [exact (stands_like f c c' St St')|apply IH; exact F''].
Qed.
Lemma open_stuck coll names_ok n rows s md ix : 0 < n -> length rows = 4%nat -> ~ In 0 s -> rg_readindex md = Ok ix ->
  forall fuel, rg_open coll names_ok fuel ([82; 71; 1; n] ++ rows ++ s) md = None.
Proof.
  intros P L N E fuel. rewrite open_head, E, (head_read n rows s L). destruct (Z.to_nat n) as [|k] eqn:K; [lia|]. cbn [rg_read_columns]. rewrite readascii_nonterm by exact N. reflexivity.
Qed.
