(** Saving an attribute table: proofs. *)
From Verif Require Import Py Text StrModel StrProofs Utf8Model Utf8Proofs VlvModel VlvProofs ShpFile ShpWriterModel ShpLib ShpSpec ShpTableSpec ShpWriterProofs ShpSave ShpRound ShpApi.
Open Scope Z_scope.
Open Scope m_scope.

(** ** Texts *)
Lemma ascii_encode s : ascii s -> utf8_encode s = Ok s.
Proof.
  intros H. rewrite utf8_encode_ok.
  - f_equal. induction H as [|c s Hc H IH]; [reflexivity|]. cbn [flat_map]. rewrite IH.
    unfold utf8_char. cbn beta in Hc. destruct (Z.ltb_spec c 128); [reflexivity|exfalso; lia].
  - eapply Forall_impl; [|exact H]. cbn beta. intros c Hc. apply scalar_range. lia.
Qed.
Lemma ascii_decode s : ascii s -> utf8_decode s = Ok s.
Proof.
  intros H. unfold utf8_decode. induction H as [|c s Hc H IH]; [reflexivity|]. cbn [length utf8_decode_fuel].
  cbn beta in Hc. destruct (Z.ltb_spec c 128); [|lia]. rewrite IH. reflexivity.
Qed.
Lemma printable_ascii s : printable s -> ascii s.
Proof. apply Forall_impl. cbn beta. intros c H. lia. Qed.
Lemma ascii_spaces n : ascii (spaces n).
Proof. apply Forall_forall. intros c H. apply repeat_spec in H. lia. Qed.
Lemma ascii_app a b : ascii a -> ascii b -> ascii (a ++ b).
Proof. intros A B. apply Forall_app. auto. Qed.
Lemma firstn_Forall {A} (P : A -> Prop) n (l : list A) : Forall P l -> Forall P (firstn n l).
Proof. intros H. revert n. induction H; intros [|n]; cbn; constructor; auto. Qed.
Lemma fitted_ascii n s : ascii s -> ascii (fitted n s).
Proof. intros H. apply firstn_Forall, ascii_app; [exact H|apply ascii_spaces]. Qed.
Lemma spaces_length n : length (spaces n) = Z.to_nat n.
Proof. apply repeat_length. Qed.
Lemma fitted_length n s : length (fitted n s) = Z.to_nat n.
Proof. unfold fitted. rewrite firstn_length, app_length, spaces_length. lia. Qed.
Lemma str_int_ascii z : ascii (str_int z).
Proof. eapply Forall_impl; [|apply (proj1 (str_int_chars z))]. cbn. intros c H. lia. Qed.
Lemma size_int_ok s n : size_is s n -> size_int s = Ok n.
Proof. intros [-> | ->]; cbn; [reflexivity|]. rewrite <- (app_nil_r (str_int n)). apply py_int_str. constructor. Qed.

Lemma py_slice_to {A} (l : list A) n : 0 <= n -> py_slice l 0 n = firstn (Z.to_nat n) l.
Proof.
  intros N. unfold py_slice, slice_clamp. destruct (Z.ltb_spec n 0); [lia|]. cbn [Z.ltb Z.compare].
  rewrite Z.min_l by lia. cbn [Z.to_nat skipn]. destruct (Z.ltb_spec 0 (Z.min n (Z.of_nat (length l)))).
  - rewrite Z.sub_0_r. destruct (Z.le_ge_cases n (Z.of_nat (length l))); [rewrite Z.min_l by lia; reflexivity|].
    rewrite Z.min_r, Nat2Z.id, !firstn_all2 by lia. reflexivity.
  - destruct (Z.eq_dec n 0) as [->|NZ]; [reflexivity|]. destruct l as [|x l]; [rewrite firstn_nil; reflexivity|]. cbn [length] in *. lia.
Qed.
Lemma F2_impl {A B} (P Q : A -> B -> Prop) l m : (forall a b, P a b -> Q a b) -> Forall2 P l m -> Forall2 Q l m.
Proof. intros W. induction 1; constructor; auto. Qed.

(** ** struct *)
Lemma pack_u1 v : 0 <= v < 256 -> pack_u 1 v = Ok [v].
Proof.
  intros H. unfold pack_u, pack_le. rewrite pack_be_ok by (cbn; lia). cbn [rmap be_bytes rev app].
  rewrite Z.div_1_r, Z.mod_small by lia. reflexivity.
Qed.
Lemma pack_u2 v : 0 <= v < 65536 -> pack_u 2 v = Ok (le16 v).
Proof. intros H. unfold pack_u, pack_le. rewrite pack_be_ok by (cbn; lia). reflexivity. Qed.
Lemma pack_u4 v : 0 <= v < 4294967296 -> pack_u 4 v = Ok (le32 v).
Proof. intros H. unfold pack_u, pack_le. rewrite pack_be_ok by (cbn; lia). reflexivity. Qed.

(** ** The description of a column *)
Definition under (s : list Z) : list Z := map (fun c => if c =? 32 then 95 else c) s.
Lemma under_chars s : printable s -> Forall (fun c => 33 <= c < 127) (under s).
Proof.
  unfold under. induction 1 as [|c s Hc H IH]; constructor; [|exact IH]. cbn beta in Hc. destruct (Z.eqb_spec c 32); lia.
Qed.
Lemma replace_none s : Forall (fun c => 33 <= c < 127) s -> replace1 32 0 s = s.
Proof.
  unfold replace1. induction 1 as [|c s Hc H IH]; [reflexivity|]. cbn [map]. rewrite IH. cbn beta in Hc.
  destruct (Z.eqb_spec c 32); [lia|reflexivity].
Qed.
Lemma firstn_pad {A} (x : A) n k (s : list A) : (n <= length s + k)%nat -> firstn n (s ++ repeat x k) = firstn n (s ++ repeat x n).
Proof.
  intros H. rewrite !firstn_app. f_equal.
  assert (E : forall m p, (m <= p)%nat -> firstn m (repeat x p) = repeat x m).
  { induction m as [|m IH]; intros [|p] L; cbn; try reflexivity; try lia. rewrite IH by lia. reflexivity. }
  rewrite !E by lia. reflexivity.
Qed.
Lemma field_ok f n : column f n -> field_bytes f = Ok (descriptor f n).
Proof.
  intros [P [[c [T C]] [S [N D]]]]. unfold field_bytes.
  rewrite (ascii_encode _ (printable_ascii _ P)). cbn [bind]. rewrite T, (ascii_encode [c]) by (constructor; [exact C|constructor]).
  cbn [bind]. rewrite (size_int_ok _ _ S). cbn [bind]. rewrite (pack_u1 n), (pack_u1 (fd_dec f)) by assumption. cbn [bind].
  f_equal. unfold descriptor. rewrite T. change (map _ (fd_name f)) with (under (fd_name f)).
  change (replace1 32 95 (fd_name f)) with (under (fd_name f)).
  assert (E : pack_s 11 (replace1 32 0 (ljust 11 (under (fd_name f)))) = firstn 11 (under (fd_name f) ++ repeat 0 11)); [|rewrite E; reflexivity].
  unfold ljust, replace1. rewrite map_app. fold (replace1 32 0 (under (fd_name f))). rewrite replace_none by (apply under_chars; exact P).
  change (Z.to_nat 11) with 11%nat. set (u := under (fd_name f)). clearbody u.
  assert (E : forall k, map (fun c => if c =? 32 then 0 else c) (repeat 32 k) = repeat 0 k).
  { induction k as [|k IH]; [reflexivity|]. cbn. rewrite IH. reflexivity. }
  rewrite E. unfold pack_s. rewrite <- app_assoc, <- repeat_app. apply firstn_pad. lia.
Qed.

(** ** A cell *)
Section Cells.
Variable fr : list Z -> list Z.
Lemma text_upper f c : (exists x, fd_type f = [x]) ->
  type_upper f c = true <-> (exists x, fd_type f = [x] /\ upper x = c).
Proof.
  intros [x T]. unfold type_upper. rewrite T. cbn [map]. change (upper1 x) with (upper x). rewrite zlist_eqb_eq. split.
  - intros H. injection H as H. exists x. auto.
  - intros [y [E H]]. injection E as E. rewrite E, H. reflexivity.
Qed.
Lemma upper_is x c : upper x = c -> 65 <= c <= 90 -> x = c \/ x = c + 32.
Proof. unfold upper. destruct (Z.leb_spec 97 x); destruct (Z.leb_spec x 122); cbn; lia. Qed.
Lemma numeric_type f : (exists x, fd_type f = [x]) -> (type_upper f 78 = true <-> numeric f).
Proof.
  intros H. rewrite text_upper by exact H. unfold numeric. change (text "N") with [78]. change (text "n") with [110]. split.
  - intros [x [E U]]. destruct (upper_is _ _ U ltac:(lia)) as [-> | ->]; [left|right]; exact E.
  - intros [E|E]; rewrite E; eexists; split; reflexivity.
Qed.
Lemma logical_type f : (exists x, fd_type f = [x]) -> (type_upper f 76 = true <-> logical f).
Proof.
  intros H. rewrite text_upper by exact H. unfold logical. change (text "L") with [76]. change (text "l") with [108]. split.
  - intros [x [E U]]. destruct (upper_is _ _ U ltac:(lia)) as [-> | ->]; [left|right]; exact E.
  - intros [E|E]; rewrite E; eexists; split; reflexivity.
Qed.
Lemma shown_str v s : shown fr v s -> str_cell fr v = s.
Proof.
  destruct v as [t|z|t|bs]; cbn; try (intros ->; reflexivity). intros [B ->].
  assert (E1 : existsb (Z.eqb 39) bs = false).
  { induction B as [|c bs Hc B IH]; [reflexivity|]. subst c. cbn. exact IH. }
  rewrite E1. cbn [andb]. change (text "b'") with [98; 39]. change (text "'") with [39]. cbn [app]. do 2 f_equal. f_equal.
  clear E1. induction B as [|c bs Hc B IH]; [reflexivity|]. subst c. cbn [flat_map]. rewrite IH. reflexivity.
Qed.
Lemma upper_ascii c : 0 <= c < 128 -> 0 <= upper c < 128.
Proof. unfold upper. destruct (Z.leb_spec 97 c); destruct (Z.leb_spec c 122); cbn; lia. Qed.
Lemma stored_length f n v bs : 0 <= n -> stored fr f n v bs -> Z.of_nat (length bs) = n.
Proof.
  intros N [s [_ [_ [[_ [L ->]]|[[_ [-> [c [r [_ ->]]]]]|[_ [_ ->]]]]]]].
  - rewrite app_length, spaces_length. lia.
  - reflexivity.
  - rewrite fitted_length. lia.
Qed.
Lemma stored_ascii f n v bs : stored fr f n v bs -> ascii bs.
Proof.
  intros [s [_ [A [[_ [L ->]]|[[_ [-> [c [r [-> ->]]]]]|[_ [_ ->]]]]]]].
  - apply ascii_app; [apply ascii_spaces|exact A].
  - constructor; [|constructor]. inversion A; subst. apply upper_ascii. assumption.
  - apply fitted_ascii, A.
Qed.
Lemma firstn_In_ {A} n (l : list A) x : In x (firstn n l) -> In x l.
Proof. intros I. rewrite <- (firstn_skipn n l). apply in_or_app. left. exact I. Qed.
Lemma cell_string_length f n s t : 0 <= n -> cell_string f n s t -> Z.of_nat (length t) = n.
Proof.
  intros N [[_ [L ->]]|[[_ [-> [c [r [_ ->]]]]]|[_ [_ ->]]]].
  - rewrite app_length, spaces_length. lia.
  - reflexivity.
  - rewrite fitted_length. lia.
Qed.
Lemma cell_string_ok f n v s t : column f n -> shown fr v s -> cell_string f n s t -> cell_text fr f v = Ok t.
Proof.
  intros [_ [[x [T _]] [S [N _]]]] SH C. unfold cell_text. rewrite (size_int_ok _ _ S). cbn [bind].
  pose proof (cell_string_length f n s t (proj1 N) C) as L.
  assert (HT : exists x, fd_type f = [x]) by (exists x; exact T).
  rewrite (shown_str v s SH).
  enough (E : (if type_upper f 78 then Ok (rjust n s) else if type_upper f 76 then c <- py_get s 0 ;; Ok [upper1 c] else Ok (ljust n (py_slice s 0 n)))%res = Ok t).
  { rewrite E. cbn [bind]. rewrite (proj2 (Z.eqb_eq _ _) L). reflexivity. }
  destruct C as [[C1 [C2 C3]]|[[C1 [C2 [c [r [C3 C4]]]]]|[C1 [C2 C3]]]].
  - rewrite (proj2 (numeric_type f HT) C1). f_equal. unfold rjust. rewrite C3. unfold spaces. do 2 f_equal. lia.
  - assert (E : type_upper f 78 = false).
    { destruct (type_upper f 78) eqn:E; [|reflexivity]. apply (numeric_type f HT) in E. destruct C1 as [C1|C1], E as [E|E]; rewrite C1 in E; discriminate. }
    rewrite E, (proj2 (logical_type f HT) C1). rewrite C3. cbn. rewrite C4. reflexivity.
  - assert (E1 : type_upper f 78 = false).
    { destruct (type_upper f 78) eqn:E; [|reflexivity]. apply (numeric_type f HT) in E. contradiction. }
    assert (E2 : type_upper f 76 = false).
    { destruct (type_upper f 76) eqn:E; [|reflexivity]. apply (logical_type f HT) in E. contradiction. }
    rewrite E1, E2. f_equal. rewrite C3. unfold ljust, fitted, spaces.
    rewrite py_slice_to by lia. set (k := Z.to_nat n). rewrite firstn_app. f_equal.
    rewrite firstn_length. assert (F : forall m p, (m <= p)%nat -> firstn m (repeat 32 p) = repeat 32 m).
    { induction m as [|m IH]; intros [|p] M; cbn; try reflexivity; try lia. rewrite IH by lia. reflexivity. }
    rewrite F by lia. f_equal. lia.
Qed.
Lemma stored_written f n v bs : stored fr f n v bs -> written fr f n v bs.
Proof.
  intros H. pose proof (stored_ascii f n v bs H) as A. destruct H as [s [SH [_ C]]]. exists s, bs. split; [exact SH|]. split; [exact C|]. apply ascii_encode, A.
Qed.
Lemma written_ok f n v bs : column f n -> written fr f n v bs -> (t <- cell_text fr f v ;; utf8_encode t)%res = Ok bs.
Proof. intros C [s [t [SH [CS E]]]]. rewrite (cell_string_ok f n v s t C SH CS). exact E. Qed.
Lemma numeric_or f : {numeric f} + {logical f} + {~ numeric f /\ ~ logical f}.
Proof.
  unfold numeric, logical. set (t := fd_type f).
  destruct (list_eq_dec Z.eq_dec t (text "N")); [left; left; auto|]. destruct (list_eq_dec Z.eq_dec t (text "n")); [left; left; auto|].
  destruct (list_eq_dec Z.eq_dec t (text "L")); [left; right; auto|]. destruct (list_eq_dec Z.eq_dec t (text "l")); [left; right; auto|].
  right. split; intros [E|E]; contradiction.
Qed.
Lemma cell_outcome f n v : column f n -> proper fr f v ->
  (exists bs, written fr f n v bs) \/ (exists e, (t <- cell_text fr f v ;; utf8_encode t)%res = Err e /\ failing fr f n v e).
Proof.
  intros C [s [SH [CP LA]]]. pose proof C as [_ [[x [T X]] [S [N _]]]].
  assert (HT : exists x, fd_type f = [x]) by (exists x; exact T).
  assert (FIN : forall t, cell_string f n s t -> Forall (fun c => 0 <= c < 1114112) t ->
    (exists bs, written fr f n v bs) \/ (exists e, (t <- cell_text fr f v ;; utf8_encode t)%res = Err e /\ failing fr f n v e)).
  { intros t CS CT. rewrite (cell_string_ok f n v s t C SH CS). cbn [bind].
    destruct (existsb (fun c => negb (scalarb c)) t) eqn:EX.
    - right. apply existsb_exists in EX. destruct EX as [c [I NS]]. apply negb_true_iff in NS. exists UnicodeError. split.
      + apply utf8_encode_err. exists c. auto.
      + right. right. split; [reflexivity|]. exists s, t, c. split; [exact SH|]. split; [exact CS|]. split; [exact I|].
        rewrite Forall_forall in CT. specialize (CT c I). destruct (Z.lt_ge_cases c 55296) as [A|A].
        { assert (scalarb c = true) by (apply scalar_range; lia). congruence. }
        destruct (Z.lt_ge_cases c 57344) as [B|B]; [lia|]. assert (scalarb c = true) by (apply scalar_range; lia). congruence.
    - left. assert (FS : Forall (fun c => scalarb c = true) t).
      { apply Forall_forall. intros c I. destruct (scalarb c) eqn:E; [reflexivity|]. exfalso. rewrite <- not_true_iff_false in EX. apply EX.
        apply existsb_exists. exists c. rewrite E. auto. }
      eexists. exists s, t. split; [exact SH|]. split; [exact CS|]. apply utf8_encode_ok, FS. }
  assert (SPC : forall k, Forall (fun c => 0 <= c < 1114112) (spaces k)).
  { intros k. apply Forall_forall. intros c I. apply repeat_spec in I. lia. }
  destruct (numeric_or f) as [[NU|LO]|[NN NL]].
  - destruct (Z.le_gt_cases (Z.of_nat (length s)) n) as [LE|GT].
    + apply (FIN (spaces (n - Z.of_nat (length s)) ++ s)); [left; auto|]. apply Forall_app. auto.
    + right. exists AssertionError. split; [|left; split; [reflexivity|]; exists s; split; [exact SH|left; split; [exact NU|lia]]].
      unfold cell_text. rewrite (size_int_ok _ _ S), (proj2 (numeric_type f HT) NU), (shown_str v s SH). cbn [bind].
      unfold rjust. replace (Z.to_nat n - length s)%nat with O by lia. cbn [repeat app]. rewrite (proj2 (Z.eqb_neq _ _)) by lia. reflexivity.
  - assert (E : type_upper f 78 = false).
    { destruct (type_upper f 78) eqn:E; [|reflexivity]. apply (numeric_type f HT) in E. destruct LO as [C1|C1], E as [E|E]; rewrite C1 in E; discriminate. }
    destruct s as [|c r].
    + right. exists IndexError. split; [|right; left; split; [reflexivity|]; split; assumption].
      unfold cell_text. rewrite (size_int_ok _ _ S), E, (proj2 (logical_type f HT) LO), (shown_str v _ SH). reflexivity.
    + destruct (Z.eq_dec n 1) as [->|N1].
      * apply (FIN [upper c]); [right; left; split; [exact LO|]; split; [reflexivity|]; exists c, r; auto|].
        constructor; [|constructor]. specialize (LA LO c r eq_refl). inversion CP; subst. pose proof (upper_ascii c ltac:(lia)). lia.
      * right. exists AssertionError. split; [|left; split; [reflexivity|]; exists (c :: r); split; [exact SH|right; split; [exact LO|split; [discriminate|exact N1]]]].
        unfold cell_text. rewrite (size_int_ok _ _ S), E, (proj2 (logical_type f HT) LO), (shown_str v _ SH). cbn [bind].
        change (py_get (c :: r) 0) with (Ok c). cbn [bind length]. rewrite (proj2 (Z.eqb_neq _ _)) by (cbn; lia). reflexivity.
  - apply (FIN (fitted n s)); [right; right; auto|]. unfold fitted. apply Forall_forall. intros c I. apply firstn_In_ in I. revert c I. apply Forall_forall. apply Forall_app. auto.
Qed.
End Cells.

(** ** Removing the deletion flag *)
Lemma starts_spec p s : starts_with p s = true <-> exists r, s = p ++ r.
Proof.
  revert s. induction p as [|x p IH]; intros s; cbn.
  - split; [exists s; reflexivity|reflexivity].
  - destruct s as [|y s]; [split; [discriminate|intros [r H]; discriminate]|].
    rewrite andb_true_iff, Z.eqb_eq, IH. split.
    + intros [-> [r ->]]. exists r. reflexivity.
    + intros [r H]. injection H as -> ->. split; [reflexivity|exists r; reflexivity].
Qed.
Lemma is_deletion_spec f : is_deletion f = true <-> named_deletion f.
Proof. apply starts_spec. Qed.
Lemma field_eqb_refl f : field_eqb f f = true.
Proof.
  unfold field_eqb. rewrite !(proj2 (zlist_eqb_eq _ _) eq_refl), Z.eqb_refl. 
  destruct (fd_size f); cbn; [rewrite Z.eqb_refl|rewrite (proj2 (zlist_eqb_eq _ _) eq_refl)]; reflexivity.
Qed.
Lemma drop_none l : Forall (fun f => ~ named_deletion f) l -> forall k i, drop_deletion k i l = l.
Proof.
  intros H. induction k as [|k IH]; intros i; [reflexivity|]. cbn [drop_deletion]. destruct (nth_error l i) as [f|] eqn:E; [|reflexivity].
  apply nth_error_In in E. rewrite Forall_forall in H. destruct (is_deletion f) eqn:D; [apply is_deletion_spec in D; destruct (H f E D)|]. apply IH.
Qed.
(** The columns of a Writer: those of the table, possibly after a deletion flag *)
Lemma drop_ok l fs : with_flag l fs -> drop_deletion (length l) 0 l = fs.
Proof.
  intros [[->|[d [D ->]]] H]; [apply drop_none, H|]. cbn [length drop_deletion nth_error].
  rewrite (proj2 (is_deletion_spec d) D). cbn [remove_first]. rewrite field_eqb_refl. apply drop_none, H.
Qed.

(** ** Saving *)
Definition winfo (w : writer) := (w_type w, w_shapes w, w_fields w, w_records w, w_offsets w, w_lengths w, w_shp w, w_shx w, w_default w).
Lemma runs_on_dbf {A} (m : M file A) w f' a (Q : writer -> A -> Prop) : m (w_dbf w) = (f', Ok a) ->
  (forall w', w_dbf w' = f' -> winfo w' = winfo w -> Q w' a) -> runs (on_dbf m) w Q.
Proof.
  intros E H. exists (w_set_dbf f' w), a. unfold on_dbf, zoom. rewrite E. split; [reflexivity|]. apply H; reflexivity.
Qed.
Lemma runs_append bs w (Q : writer -> unit -> Prop) : at_end (w_dbf w) ->
  (forall w', w_dbf w' = append (w_dbf w) bs -> winfo w' = winfo w -> Q w' tt) -> runs (on_dbf (f_write bs)) w Q.
Proof. intros E H. eapply runs_on_dbf; [apply f_write_end, E|exact H]. Qed.
Lemma runs_puts {A} (g : A -> res (list Z)) (l : list A) bss : Forall2 (fun x bs => g x = Ok bs) l bss ->
  forall w (Q : writer -> unit -> Prop), at_end (w_dbf w) ->
  (forall w', w_dbf w' = append (w_dbf w) (concat bss) -> winfo w' = winfo w -> Q w' tt) ->
  runs (for_each (fun x => on_dbf (f_put (g x))) l) w Q.
Proof.
  induction 1 as [|x bs l bss E H IH]; intros w Q AE HQ.
  - apply runs_ret. apply HQ; [|reflexivity]. symmetry. apply append_nil.
  - cbn [for_each]. apply runs_bind. eapply runs_on_dbf.
    + unfold f_put. rewrite E. unfold mbind, lift. apply f_write_end, AE.
    + intros w1 D1 I1. apply IH; [rewrite D1; apply append_end, AE|]. intros w2 D2 I2. apply HQ; [|congruence].
      rewrite D2, D1, append_app. reflexivity.
Qed.
Section Save.
Variable fr : list Z -> list Z.
Variables (today : Z * Z * Z) (fs : list field) (ns : list Z).
Hypothesis Date : plausible today.
Hypothesis Cols : Forall2 column fs ns.
Lemma sizes_ok : mapM (fun f => size_int (fd_size f)) fs = Ok ns.
Proof.
  generalize Cols. generalize ns as ns'. generalize fs as fs'. clear. intros fs' ns' C0. induction C0 as [|f n l k [_ [_ [S _]]] H IH]; [reflexivity|]. cbn [mapM]. rewrite (size_int_ok _ _ S). cbn [bind]. rewrite IH. reflexivity.
Qed.
Lemma sizes_pos : 0 <= zsum ns.
Proof.
  generalize Cols. generalize ns as ns'. generalize fs as fs'. clear. intros fs' ns' C0. induction C0 as [|f n l k [_ [_ [_ [N _]]]] H IH]; [reflexivity|]. rewrite zsum_cons. lia.
Qed.
Definition dbf_head (n : nat) : list Z :=
  let '(y, mo, d) := today in
  [3; y - 1900; mo; d] ++ le32 (Z.of_nat n) ++ le16 (33 + 32 * Z.of_nat (length fs)) ++ le16 (1 + zsum ns) ++ repeat 0 20.
Definition columns_bytes : list Z := concat (map (fun fn => descriptor (fst fn) (snd fn)) (combine fs ns)).
Lemma descriptors_ok : Forall2 (fun f bs => field_bytes f = Ok bs) fs (map (fun fn => descriptor (fst fn) (snd fn)) (combine fs ns)).
Proof. generalize Cols. generalize ns as ns'. generalize fs as fs'. clear. intros fs' ns' C0. induction C0 as [|f n l k C H IH]; [constructor|]. constructor; [apply field_ok, C|exact IH]. Qed.
Lemma header_run w : with_flag (w_fields w) fs -> w_dbf w = new_file ->
  33 + 32 * Z.of_nat (length fs) < 65536 -> 1 + zsum ns < 65536 -> Z.of_nat (length (w_records w)) < 4294967296 ->
  runs (dbf_header today) w (fun w' _ => w_fields w' = fs /\ w_records w' = w_records w /\
    (w_type w', w_shapes w', w_offsets w', w_lengths w', w_shp w', w_shx w', w_default w') =
    (w_type w, w_shapes w, w_offsets w, w_lengths w, w_shp w, w_shx w, w_default w) /\
    w_dbf w' = append new_file (dbf_head (length (w_records w)) ++ columns_bytes ++ [13])).
Proof.
  intros WF D H1 H2 H3. unfold dbf_header. destruct today as [[y mo] d] eqn:TD. cbn [plausible] in Date. 
  apply runs_bind. eapply runs_on_dbf; [rewrite D; reflexivity|]. intros w1 D1 I1.
  apply runs_bind. apply runs_modify. apply runs_bind. apply runs_get.
  assert (F1 : w_fields w1 = w_fields w) by (unfold winfo in I1; congruence).
  assert (R1 : w_records w1 = w_records w) by (unfold winfo in I1; congruence).
  rewrite F1, (drop_ok _ _ WF).
  set (w2 := w_set_fields fs w1).
  assert (D2 : w_dbf w2 = new_file) by exact D1.
  assert (F2 : w_fields w2 = fs) by reflexivity. assert (R2 : w_records w2 = w_records w) by exact R1.
  assert (I2 : (w_type w2, w_shapes w2, w_offsets w2, w_lengths w2, w_shp w2, w_shx w2, w_default w2) =
    (w_type w, w_shapes w, w_offsets w, w_lengths w, w_shp w, w_shx w, w_default w)).
  { change ((w_type w1, w_shapes w1, w_offsets w1, w_lengths w1, w_shp w1, w_shx w1, w_default w1) =
    (w_type w, w_shapes w, w_offsets w, w_lengths w, w_shp w, w_shx w, w_default w)). unfold winfo in I1. congruence. }
  clearbody w2. rewrite F2, R2.
  cbv zeta. apply runs_bind. apply (runs_lift _ ns); [exact sizes_ok|].
  apply runs_bind. apply (runs_lift _ (dbf_head (length (w_records w)))).
  { rewrite (pack_u1 3), (pack_u1 (y - 1900)), (pack_u1 mo), (pack_u1 d) by lia. cbn [bind].
    rewrite (pack_u4 (Z.of_nat (length (w_records w)))) by lia. cbn [bind].
    rewrite pack_u2 by lia. cbn [bind]. pose proof sizes_pos. rewrite (pack_u2 (zsum ns + 1)) by lia. cbn [bind].
    unfold dbf_head. rewrite TD. rewrite (Z.add_comm (zsum ns) 1), (Z.add_comm _ 33), (Z.mul_comm _ 32). reflexivity. }
  apply runs_bind. apply runs_append; [rewrite D2; reflexivity|]. intros w3 D3 I3.
  apply runs_bind. eapply (runs_puts field_bytes); [exact descriptors_ok|rewrite D3, D2; apply append_end; reflexivity|].
  intros w4 D4 I4. apply runs_append; [rewrite D4, D3, D2; apply append_end, append_end; reflexivity|].
  intros w5 D5 I5. unfold winfo in I3, I4, I5. split; [congruence|]. split; [congruence|]. split; [congruence|].
  rewrite D5, D4, D3, D2, !append_app. fold columns_bytes. rewrite ?app_assoc. reflexivity.
Qed.
Lemma rows_run w0 rows : w_fields w0 = fs -> fs <> [] -> Forall (fun f => ~ named_deletion f) fs ->
  forall vals, Forall2 (fun v bss => Forall2 (fun fv bs => (t <- cell_text fr (fst fv) (snd fv) ;; utf8_encode t)%res = Ok bs) (combine fs v) bss) vals rows ->
  forall w, at_end (w_dbf w) ->
  runs (for_each (fun r =>
    f0 <~ lift (py_get (w_fields w0) 0) ;;
    when (negb (is_deletion f0)) (on_dbf (f_write [32])) ;;;
    for_each (fun fv => on_dbf (f_put (t <- cell_text fr (fst fv) (snd fv) ;; utf8_encode t)%res))
      (combine (w_fields w0) r)) vals) w (fun w' _ => winfo w' = winfo w /\ w_dbf w' = append (w_dbf w) (flat_map row_bytes rows)).
Proof.
  intros F NE ND vals H. rewrite F.
  induction H as [|v bss vals rows H HS IH]; intros w AE.
  - apply runs_ret. split; [reflexivity|]. symmetry. apply append_nil.
  - cbn [for_each]. apply runs_bind. 
    destruct fs as [|f0 fs'] eqn:EF; [contradiction|]. rewrite <- EF in *.
    apply runs_bind. apply (runs_lift _ f0); [rewrite EF; reflexivity|].
    assert (E : is_deletion f0 = false).
    { destruct (is_deletion f0) eqn:E; [|reflexivity]. apply is_deletion_spec in E. rewrite EF in ND. inversion ND. contradiction. }
    rewrite E. cbn [negb when]. apply runs_bind. apply runs_append; [exact AE|]. intros w1 D1 I1.
    eapply (runs_puts (fun fv => (t <- cell_text fr (fst fv) (snd fv) ;; utf8_encode t)%res)).
    + exact H.
    + rewrite D1. apply append_end, AE.
    + intros w2 D2 I2. eapply runs_weaken; [apply IH; rewrite D2, D1; apply append_end, append_end, AE|].
      intros w3 [] [I3 D3]. split; [congruence|]. rewrite D3, D2, D1, !append_app. reflexivity.
Qed.
Lemma row_texts v bss : row_written fr fs ns v bss ->
  Forall2 (fun fv bs => (t <- cell_text fr (fst fv) (snd fv) ;; utf8_encode t)%res = Ok bs) (combine fs v) bss.
Proof.
  unfold row_written, cells_of. generalize Cols. generalize ns as ns'. generalize fs as fs'. clear. intros fs' ns' C0 [L H]. revert v bss L H. induction C0 as [|f n l k C HC IH]; intros v bss L H.
  - cbn in *. inversion H. constructor.
  - destruct v as [|x v]; [discriminate|]. cbn [combine] in *. inversion H as [|? bs ? bss' H1 H2]; subst. cbn [fst snd] in H1.
    constructor; [apply (written_ok fr f n); assumption|].
    apply IH; [cbn in L; lia|exact H2].
Qed.
Lemma saveDbf_run w rows : with_flag (w_fields w) fs ->
  33 + 32 * Z.of_nat (length fs) < 65536 -> 1 + zsum ns < 65536 -> Z.of_nat (length (w_records w)) < 4294967296 ->
  fs <> [] \/ w_records w = [] -> Forall2 (row_written fr fs ns) (w_records w) rows ->
  runs (saveDbf fr today new_file) w (fun w' _ => w_fields w' = fs /\ w_records w' = w_records w /\
    (w_type w', w_shapes w', w_offsets w', w_lengths w', w_shp w', w_shx w', w_default w') =
    (w_type w, w_shapes w, w_offsets w, w_lengths w, w_shp w, w_shx w, w_default w) /\
    fdata (w_dbf w') = dbf_file today fs ns rows).
Proof.
  intros WF H1 H2 H3 NE R. unfold saveDbf. apply runs_bind. apply runs_modify. apply runs_bind.
  eapply runs_weaken; [apply header_run; [exact WF|reflexivity|exact H1|exact H2|exact H3]|].
  intros w1 [] [F1 [R1 [I1 D1]]].
  change (w_records (w_set_dbf new_file w)) with (w_records w) in *.
  change (w_type (w_set_dbf new_file w), _, _, _, _, _, _) with (w_type w, w_shapes w, w_offsets w, w_lengths w, w_shp w, w_shx w, w_default w) in I1.
  unfold dbf_records. apply runs_bind. apply runs_get.
  assert (FD : forall w', w_dbf w' = append (w_dbf w1) (flat_map row_bytes rows) -> fdata (w_dbf w') = dbf_file today fs ns rows).
  { intros w' D'. rewrite D', D1, append_app. unfold append. cbn [fdata new_file app]. unfold dbf_file, dbf_start, dbf_head, columns_bytes.
    rewrite (F2_length R). destruct today as [[y mo] d]. rewrite <- !app_assoc. reflexivity. }
  destruct (w_records w) as [|r0 rs] eqn:ER.
  - inversion R; subst rows. rewrite R1. apply runs_ret. split; [exact F1|]. split; [exact R1|]. split; [exact I1|]. apply FD.
    symmetry. apply append_nil.
  - destruct NE as [NE|NE]; [|discriminate]. rewrite <- ER in *.
    eapply runs_weaken.
    + rewrite R1. apply (rows_run w1 rows F1 NE (proj2 WF)).
      * eapply F2_impl; [|exact R]. apply row_texts.
      * rewrite D1. apply append_end. reflexivity.
    + intros w2 [] [I2 D2]. unfold winfo in I2. split; [congruence|]. split; [congruence|]. split; [congruence|]. apply FD, D2.
Qed.

(** ** When saving fails *)
Lemma each_outcome {S A} (body : A -> M S unit) (P : exn -> Prop) l :
  (forall x, In x l -> forall s, (exists s', body x s = (s', Ok tt)) \/ exists s' e, body x s = (s', Err e) /\ P e) ->
  forall s, (exists s', for_each body l s = (s', Ok tt)) \/ exists s' e, for_each body l s = (s', Err e) /\ P e.
Proof.
  induction l as [|x l IH]; intros H s; [left; exists s; reflexivity|]. cbn [for_each]. unfold mbind.
  destruct (H x (or_introl eq_refl) s) as [[s1 E]|[s1 [e [E HP]]]]; rewrite E.
  - apply IH. intros y Hy. apply H. right. exact Hy.
  - right. exists s1, e. auto.
Qed.
Lemma each_inv {S A} (body : A -> M S unit) l : forall s s', for_each body l s = (s', Ok tt) -> forall x, In x l -> exists s1 s2, body x s1 = (s2, Ok tt).
Proof.
  induction l as [|y l IH]; intros s s' H x I; [contradiction|]. cbn [for_each] in H. apply mbind_ok in H. destruct H as [s1 [[] [E H]]].
  destruct I as [->|I]; [exists s, s1; exact E|]. apply (IH s1 s' H x I).
Qed.
Lemma put_outcome {A} (g : A -> res (list Z)) x w : (exists w', on_dbf (f_put (g x)) w = (w', Ok tt) /\ exists bs, g x = Ok bs) \/
  exists e, on_dbf (f_put (g x)) w = (w, Err e) /\ g x = Err e.
Proof.
  unfold on_dbf, zoom, f_put, mbind, lift. destruct (g x) as [bs|e]; [left|right].
  - destruct (f_write bs (w_dbf w)) as [f' [u|e']] eqn:E; [|unfold f_write in E; discriminate]. destruct u. eexists. split; [reflexivity|]. exists bs. reflexivity.
  - exists e. split; [|reflexivity]. destruct w. reflexivity.
Qed.
Lemma saveDbf_outcome w : with_flag (w_fields w) fs ->
  33 + 32 * Z.of_nat (length fs) < 65536 -> 1 + zsum ns < 65536 -> Z.of_nat (length (w_records w)) < 4294967296 ->
  fs <> [] -> Forall (fun v => length v = length fs /\ Forall (fun x => proper fr (fst (fst x)) (snd x)) (cells_of fs ns v)) (w_records w) ->
  (exists w' bss, saveDbf fr today new_file w = (w', Ok tt) /\ Forall2 (row_written fr fs ns) (w_records w) bss /\ fdata (w_dbf w') = dbf_file today fs ns bss) \/
  (exists w' e, saveDbf fr today new_file w = (w', Err e) /\
     Exists (fun v => Exists (fun x => failing fr (fst (fst x)) (snd (fst x)) (snd x) e) (cells_of fs ns v)) (w_records w)).
Proof.
  intros WF H1 H2 H3 NE PR.
  set (P := fun e => Exists (fun v => Exists (fun x => failing fr (fst (fst x)) (snd (fst x)) (snd x) e) (cells_of fs ns v)) (w_records w)).
  destruct (header_run (w_set_dbf new_file w) WF eq_refl H1 H2 H3) as [w1 [[] [HR [F1 [R1 _]]]]].
  change (w_records (w_set_dbf new_file w)) with (w_records w) in R1.
  assert (SD : saveDbf fr today new_file w = dbf_records fr w1).
  { unfold saveDbf. unfold mbind at 1. unfold modify at 1. rewrite (mbind_run _ _ _ _ _ HR). reflexivity. }
  set (body := fun r => f0 <~ lift (py_get fs 0) ;; when (negb (is_deletion f0)) (on_dbf (f_write [32])) ;;;
    for_each (fun fv => on_dbf (f_put (t <- cell_text fr (fst fv) (snd fv) ;; utf8_encode t)%res)) (combine fs r)).
  assert (DR : dbf_records fr w1 = for_each body (w_records w) w1).
  { unfold dbf_records. unfold mbind at 1. unfold get at 1. rewrite F1, R1. reflexivity. }
  assert (CELL : forall v, In v (w_records w) -> forall f x, In (f, x) (combine fs v) -> exists n, In (f, n, x) (cells_of fs ns v) /\ column f n /\ proper fr f x).
  { intros v Iv f x I. rewrite Forall_forall in PR. destruct (PR v Iv) as [LV PC]. revert LV PC I. unfold cells_of.
    generalize Cols. generalize ns as ns'. generalize fs as fs'. clear. intros fs' ns' C0. revert v. induction C0 as [|g n l k C _ IH]; intros v LV PC I; [contradiction|].
    destruct v as [|y v]; [discriminate|]. cbn [combine] in *. inversion PC as [|? ? P1 P2]; subst. destruct I as [E|I].
    - injection E as -> ->. exists n. split; [left; reflexivity|]. auto.
    - destruct (IH v ltac:(cbn in LV; lia) P2 I) as [n' [A B]]. exists n'. split; [right; exact A|exact B]. }
  assert (F0 : exists f0, py_get fs 0 = Ok f0 /\ is_deletion f0 = false).
  { destruct fs as [|f0 fs']; [contradiction|]. exists f0. split; [reflexivity|]. destruct (is_deletion f0) eqn:E; [|reflexivity].
    apply is_deletion_spec in E. destruct WF as [_ ND]. inversion ND. contradiction. }
  destruct F0 as [f0 [G0 ID]].
  assert (BODY : forall v s, body v s = for_each (fun fv => on_dbf (f_put (t <- cell_text fr (fst fv) (snd fv) ;; utf8_encode t)%res)) (combine fs v)
     (fst (on_dbf (f_write [32]) s))).
  { intros v s. unfold body. unfold mbind at 1. unfold lift at 1. rewrite G0, ID. cbn [negb when]. unfold mbind at 1.
    destruct (on_dbf (f_write [32]) s) as [s1 [[]|e]] eqn:E; [reflexivity|]. unfold on_dbf, zoom, f_write in E. discriminate. }
  assert (OUT : forall v, In v (w_records w) -> forall s, (exists s', body v s = (s', Ok tt)) \/ exists s' e, body v s = (s', Err e) /\ P e).
  { intros v Iv s. rewrite BODY. apply each_outcome. intros [f x] I s0. cbn [fst snd].
    destruct (CELL v Iv f x I) as [n [IC [C PX]]].
    destruct (put_outcome (fun fv => (t <- cell_text fr (fst fv) (snd fv) ;; utf8_encode t)%res) (f, x) s0) as [[w' [E _]]|[e [E GE]]]; cbn [fst snd] in E.
    - left. exists w'. exact E.
    - right. exists s0, e. split; [exact E|]. cbn [fst snd] in GE. destruct (cell_outcome fr f n x C PX) as [[bs WB]|[e' [E' CR]]].
      + rewrite (written_ok fr f n x bs C WB) in GE. discriminate.
      + rewrite GE in E'. injection E' as <-. unfold P. apply Exists_exists. exists v. split; [exact Iv|]. apply Exists_exists. exists (f, n, x). auto. }
  destruct (each_outcome body P (w_records w) OUT w1) as [[w' E]|[w' [e [E HP]]]].
  - left.
    assert (WR : exists bss, Forall2 (row_written fr fs ns) (w_records w) bss).
    { pose proof (each_inv body _ _ _ E) as INV. clear E OUT SD DR HR.
      assert (ALL : Forall (fun v => exists bs, row_written fr fs ns v bs) (w_records w)).
      { apply Forall_forall. intros v Iv. destruct (INV v Iv) as [s1 [s2 EB]]. rewrite BODY in EB.
        pose proof (each_inv _ _ _ _ EB) as INC. rewrite Forall_forall in PR. destruct (PR v Iv) as [LV PC].
        assert (AC : Forall (fun x => exists bs, written fr (fst (fst x)) (snd (fst x)) (snd x) bs) (cells_of fs ns v)).
        { apply Forall_forall. intros [[f n] x] IX. cbn [fst snd].
          assert (IC : In (f, x) (combine fs v) /\ column f n /\ proper fr f x).
          { revert IX LV PC. unfold cells_of. generalize Cols. generalize ns as ns'. generalize fs as fs'. clear. intros fs' ns' C0. revert v.
            induction C0 as [|g m l k C _ IH]; intros v IX LV PC; [contradiction|]. destruct v as [|y v]; [discriminate|]. cbn [combine] in *.
            inversion PC as [|? ? P1 P2]; subst. destruct IX as [Q|IX].
            - injection Q as -> -> ->. split; [left; reflexivity|]. auto.
            - destruct (IH v IX ltac:(cbn in LV; lia) P2) as [A B]. split; [right; exact A|exact B]. }
          destruct IC as [IC [C PX]]. destruct (INC (f, x) IC) as [s3 [s4 EP]]. cbn [fst snd] in EP.
          destruct (cell_outcome fr f n x C PX) as [WB|[e' [E' _]]]; [exact WB|]. rewrite E' in EP. unfold on_dbf, zoom, f_put, mbind, lift in EP. discriminate. }
        revert AC. unfold row_written. generalize (cells_of fs ns v). intros l AC. induction AC as [|x l [bs WB] _ [bss [_ IH]]]; [exists []; split; [exact LV|constructor]|].
        exists (bs :: bss). split; [exact LV|]. constructor; assumption. }
      clear - ALL. induction ALL as [|v l [bs R] _ [bss IH]]; [exists []; constructor|]. exists (bs :: bss). constructor; assumption. }
    destruct WR as [bss WR]. destruct (saveDbf_run w bss WF H1 H2 H3 (or_introl NE) WR) as [w2 [[] [E2 [_ [_ [_ D2]]]]]].
    exists w2, bss. auto.
  - right. exists w', e. rewrite SD, DR. auto.
Qed.
End Save.
