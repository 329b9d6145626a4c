(** Generic lemmas: writing at the end of a file, reading forward, struct. *)
From Verif Require Import Py VlvModel VlvProofs ShpFile.
Open Scope Z_scope.
Open Scope m_scope.

(** ** Writing at the end of a file *)
Definition at_end (f : file) : Prop := fpos f = length (fdata f).
Definition append (f : file) (bs : list Z) : file := mkFile (fdata f ++ bs) (fpos f + length bs).
Lemma append_end f bs : at_end f -> at_end (append f bs).
Proof. unfold at_end, append. cbn. intros H. rewrite app_length. lia. Qed.
Lemma append_app f bs cs : append (append f bs) cs = append f (bs ++ cs).
Proof. unfold append. cbn. rewrite app_assoc, app_length. f_equal. lia. Qed.
Lemma append_nil f : append f [] = f.
Proof. destruct f as [d p]. unfold append. cbn. rewrite app_nil_r. f_equal. lia. Qed.
Lemma f_write_end f bs : at_end f -> f_write bs f = (append f bs, Ok tt).
Proof.
  intros H. unfold f_write, append. unfold at_end in H. rewrite H.
  rewrite firstn_all, Nat.sub_diag. cbn [repeat].
  rewrite skipn_all2 by lia. rewrite !app_nil_r. reflexivity.
Qed.

(** [outputs m r]: at the end of a file, [m] appends the bytes of [r] and
    returns its value, or raises its exception. *)
Definition wres (A : Type) : Type := res (list Z * A).
Definition wbind {A B} (r : wres A) (k : A -> wres B) : wres B :=
  match r with
  | Ok (bs, a) => match k a with Ok (cs, b) => Ok (bs ++ cs, b) | Err e => Err e end
  | Err e => Err e
  end.
Definition wret {A} (a : A) : wres A := Ok ([], a).
Definition wlift {A} (r : res A) : wres A := match r with Ok a => Ok ([], a) | Err e => Err e end.
Definition wput (r : res (list Z)) : wres unit := match r with Ok bs => Ok (bs, tt) | Err e => Err e end.
Definition wwrite (bs : list Z) : wres unit := Ok (bs, tt).
Definition wwhen (c : bool) (r : wres unit) : wres unit := if c then r else wret tt.
Fixpoint weach {A} (body : A -> wres unit) (l : list A) : wres unit :=
  match l with [] => wret tt | x :: r => wbind (body x) (fun _ => weach body r) end.
Definition outputs {A} (m : M file A) (r : wres A) : Prop :=
  forall f, at_end f ->
    match r with
    | Ok (bs, a) => m f = (append f bs, Ok a)
    | Err e => exists f', m f = (f', Err e)
    end.
Lemma out_ret {A} (a : A) : outputs (ret a) (wret a).
Proof. intros f H. cbn. unfold ret. rewrite append_nil. reflexivity. Qed.
Lemma out_lift {A} (r : res A) : outputs (lift r) (wlift r).
Proof. intros f H. destruct r; cbn. { rewrite append_nil. reflexivity. } exists f. reflexivity. Qed.
Lemma out_write bs : outputs (f_write bs) (wwrite bs).
Proof. intros f H. cbn. apply f_write_end. exact H. Qed.
Lemma out_bind {A B} (m : M file A) (k : A -> M file B) r r' :
  outputs m r -> (forall a, outputs (k a) (r' a)) -> outputs (mbind m k) (wbind r r').
Proof.
  intros H1 H2 f E. specialize (H1 f E). unfold mbind. destruct r as [[bs a]|e]; cbn.
  - rewrite H1. specialize (H2 a (append f bs) (append_end f bs E)).
    destruct (r' a) as [[cs b]|e].
    + rewrite H2, append_app. reflexivity.
    + exact H2.
  - destruct H1 as [f' H1]. rewrite H1. exists f'. reflexivity.
Qed.
Lemma out_put r : outputs (f_put r) (wput r).
Proof.
  intros f H. unfold f_put, mbind, lift. destruct r as [bs|e]; cbn.
  - apply f_write_end. exact H.
  - exists f. reflexivity.
Qed.
Lemma out_when c m r : outputs m r -> outputs (when c m) (wwhen c r).
Proof. intros H. destruct c; cbn; [exact H|apply out_ret]. Qed.
Lemma out_each {A} (m : A -> M file unit) (r : A -> wres unit) l :
  (forall x, outputs (m x) (r x)) -> outputs (for_each m l) (weach r l).
Proof.
  intros H. induction l as [|x l IH]; cbn [for_each weach]; [apply out_ret|].
  apply out_bind; [apply H|intros _; exact IH].
Qed.

(** ** Reading forward *)
Definition rest (f : file) : list Z := skipn (fpos f) (fdata f).
Definition advance (f : file) (n : nat) : file := mkFile (fdata f) (fpos f + n).
Lemma skipn_plus {A} (n m : nat) (l : list A) : skipn (n + m) l = skipn m (skipn n l).
Proof. revert l. induction n as [|n IH]; intros l; cbn. { reflexivity. } destruct l; cbn; [rewrite skipn_nil; reflexivity|apply IH]. Qed.
Lemma rest_advance f bs r : rest f = bs ++ r -> rest (advance f (length bs)) = r.
Proof.
  unfold rest, advance. cbn. intros H. rewrite skipn_plus, H.
  rewrite skipn_app, skipn_all, Nat.sub_diag. reflexivity.
Qed.
Lemma advance_advance f n m : advance (advance f n) m = advance f (n + m).
Proof. unfold advance. cbn. f_equal. lia. Qed.
Definition reads {A} (m : M file A) (bs : list Z) (a : A) : Prop :=
  forall f r, rest f = bs ++ r -> m f = (advance f (length bs), Ok a).
Lemma reads_ret {A} (a : A) : reads (ret a) [] a.
Proof. intros [d p] r H. unfold ret, advance. cbn. rewrite Nat.add_0_r. reflexivity. Qed.
Lemma reads_lift {A} (a : A) (x : res A) : x = Ok a -> reads (lift x) [] a.
Proof. intros -> [d p] r H. unfold lift, advance. cbn. rewrite Nat.add_0_r. reflexivity. Qed.
Lemma reads_bind {A B} (m : M file A) (k : A -> M file B) bs cs a b :
  reads m bs a -> reads (k a) cs b -> reads (mbind m k) (bs ++ cs) b.
Proof.
  intros H1 H2 f r E. unfold mbind. rewrite (H1 f (cs ++ r)) by (rewrite app_assoc; exact E).
  rewrite (H2 _ r).
  - rewrite advance_advance, app_length. reflexivity.
  - apply rest_advance. rewrite app_assoc. exact E.
Qed.
Lemma reads_read bs n : Z.of_nat (length bs) = n -> reads (f_read n) bs bs.
Proof.
  intros L f r E. unfold f_read. fold (rest f). rewrite E.
  destruct (Z.ltb_spec n 0) as [Hn|Hn]; [lia|].
  rewrite <- L, Nat2Z.id, firstn_app, firstn_all, Nat.sub_diag, firstn_O, app_nil_r. reflexivity.
Qed.

(** ** struct *)
Lemma pack_bi_inv v bs : pack_bi v = Ok bs ->
  (-2147483648 <= v < 2147483648) /\ bs = be_bytes 4 (v mod 4294967296).
Proof.
  unfold pack_bi, i32_ok. destruct (Z.leb_spec (-2147483648) v); cbn; [|discriminate].
  destruct (Z.ltb_spec v 2147483648); [|discriminate]. intros H1. injection H1 as <-. split; [lia|reflexivity].
Qed.
Lemma pack_bi_ok v : -2147483648 <= v < 2147483648 -> pack_bi v = Ok (be_bytes 4 (v mod 4294967296)).
Proof.
  intros H. unfold pack_bi, i32_ok.
  destruct (Z.leb_spec (-2147483648) v); [|lia]. destruct (Z.ltb_spec v 2147483648); [|lia]. reflexivity.
Qed.
Lemma i32_mod v : -2147483648 <= v < 2147483648 -> i32_of (v mod 4294967296) = v.
Proof.
  intros H. unfold i32_of. destruct (Z.ltb_spec v 0) as [L|L].
  - assert (E : v mod 4294967296 = v + 4294967296).
    { symmetry. apply Z.mod_unique with (q := -1); lia. }
    rewrite E. destruct (Z.leb_spec 2147483648 (v + 4294967296)); lia.
  - rewrite Z.mod_small by lia. destruct (Z.leb_spec 2147483648 v); lia.
Qed.
Lemma unpack_bi_pack v bs : pack_bi v = Ok bs -> unpack_bi bs = Ok v.
Proof.
  intros H. apply pack_bi_inv in H. destruct H as [R ->]. unfold unpack_bi.
  rewrite unpack_be_bytes by (cbn; apply Z.mod_pos_bound; lia).
  cbn [rmap]. rewrite i32_mod by exact R. reflexivity.
Qed.
Lemma unpack_li_pack v bs : pack_li v = Ok bs -> unpack_li bs = Ok v.
Proof.
  unfold pack_li, unpack_li, unpack_le. destruct (pack_bi v) as [b|] eqn:E; [|discriminate].
  cbn [rmap]. intros H. injection H as <-. rewrite rev_involutive. apply (unpack_bi_pack v b E).
Qed.
Lemma pack_bi_length v bs : pack_bi v = Ok bs -> length bs = 4%nat.
Proof. intros H. apply pack_bi_inv in H. destruct H as [_ ->]. apply be_bytes_length. Qed.
Lemma pack_li_length v bs : pack_li v = Ok bs -> length bs = 4%nat.
Proof.
  unfold pack_li. destruct (pack_bi v) as [b|] eqn:E; [|discriminate]. cbn [rmap]. intros H. injection H as <-.
  rewrite rev_length. apply (pack_bi_length v b E).
Qed.
Lemma dbl_bytes_length d : length (dbl_bytes d) = 8%nat.
Proof. unfold dbl_bytes. rewrite rev_length. apply be_bytes_length. Qed.
Lemma pack_ds_length l : length (pack_ds l) = (8 * length l)%nat.
Proof. induction l as [|d l IH]; [reflexivity|]. cbn [pack_ds flat_map length]. rewrite app_length, dbl_bytes_length. fold (pack_ds l). rewrite IH. lia. Qed.
Lemma unpack_d_bytes d : is_dbl d -> unpack_d (dbl_bytes d) = Ok d.
Proof.
  intros H. unfold unpack_d, unpack_le, dbl_bytes. rewrite rev_involutive.
  apply unpack_be_bytes. exact H.
Qed.
Lemma unpack_many_flat {A B} (k : nat) (u : list Z -> res A) (g : B -> list Z) (v : B -> A) l n :
  Forall (fun x => length (g x) = k /\ u (g x) = Ok (v x)) l -> n = Z.of_nat (length l) ->
  unpack_many k u n (flat_map g l) = Ok (map v l).
Proof.
  intros H ->. unfold unpack_many.
  assert (L : length (flat_map g l) = (length l * k)%nat).
  { induction H as [|x l [H1 H2] _ IH]; [reflexivity|]. cbn [flat_map length]. rewrite app_length, H1, IH. lia. }
  rewrite L, Nat2Z.inj_mul, Z.eqb_refl.
  destruct (Z.leb_spec 0 (Z.of_nat (length l))); [|lia]. cbn [andb]. rewrite Nat2Z.id. clear L.
  induction H as [|x l [H1 H2] _ IH]; [reflexivity|]. cbn [length chunks flat_map mapM map].
  rewrite firstn_app, skipn_app, <- H1, firstn_all, skipn_all, Nat.sub_diag, firstn_O, app_nil_r.
  cbn [skipn app]. rewrite H2. cbn [bind]. rewrite H1. rewrite IH by lia. reflexivity.
Qed.
Lemma unpack_ds_pack l n : Forall is_dbl l -> n = Z.of_nat (length l) -> unpack_ds n (pack_ds l) = Ok l.
Proof.
  intros H E. unfold unpack_ds, pack_ds. rewrite (unpack_many_flat 8 unpack_d dbl_bytes (fun d => d)).
  - rewrite map_id. reflexivity.
  - eapply Forall_impl; [|exact H]. intros d Hd. split; [apply dbl_bytes_length|apply unpack_d_bytes; exact Hd].
  - exact E.
Qed.
Lemma pack_ds_app a b : pack_ds (a ++ b) = pack_ds a ++ pack_ds b.
Proof. apply flat_map_app. Qed.
Lemma pack_many_inv {A} (p : A -> res (list Z)) l bs : pack_many p l = Ok bs ->
  exists bss, Forall2 (fun x b => p x = Ok b) l bss /\ bs = concat bss.
Proof.
  unfold pack_many. destruct (mapM p l) as [bss|] eqn:E; [|discriminate]. cbn [rmap]. intros H. injection H as <-.
  exists bss. split; [|reflexivity]. revert bss E. induction l as [|x l IH]; intros bss E; cbn in E.
  - injection E as <-. constructor.
  - apply bind_ok in E. destruct E as [y [E1 E2]]. apply bind_ok in E2. destruct E2 as [ys [E2 E3]].
    injection E3 as <-. constructor; [exact E1|]. apply IH. exact E2.
Qed.

(** ** min and max *)
Lemma dbl_lt_trans a b c : dbl_lt a b = true -> dbl_lt b c = true -> dbl_lt a c = true.
Proof.
  unfold dbl_lt. destruct (dbl_nan a); cbn; [discriminate|]. destruct (dbl_nan b); cbn; [discriminate|].
  destruct (dbl_nan c); cbn; [discriminate|]. rewrite !Z.ltb_lt. lia.
Qed.
Lemma dbl_lt_irrefl a : dbl_lt a a = false.
Proof. unfold dbl_lt. rewrite Z.ltb_irrefl. apply andb_false_r. Qed.
(** Nothing is below the running minimum; NaN is unordered. *)
Lemma dbl_lt_shift a b c : dbl_lt b a = true -> dbl_lt c a = false -> dbl_lt c b = false.
Proof.
  unfold dbl_lt. destruct (dbl_nan a), (dbl_nan b), (dbl_nan c); cbn; try discriminate; try reflexivity.
  intros H1 H2. apply Z.ltb_lt in H1. apply Z.ltb_ge in H2. apply Z.ltb_ge. lia.
Qed.
