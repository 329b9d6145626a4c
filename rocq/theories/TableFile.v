(** Lemmas on table files and printing. *)
From Verif Require Import Py StrModel StrProofs Utf8Model Utf8Proofs TableModel TableSpec TableProofs.
Open Scope Z_scope.

(** ** Lines *)
Lemma is_break_spec c : is_break c = true <-> In c breaks.
Proof. unfold is_break, breaks. cbn. lia. Qed.
Lemma no_break c : ~ In c breaks -> is_break c = false.
Proof. intros N. destruct (is_break c) eqn:E; [|reflexivity]. apply is_break_spec in E. contradiction. Qed.
Lemma cut_line_ok w s : Forall (fun c => ~ In c breaks) w -> cut_line (w ++ 10 :: s) = (w ++ [10], s).
Proof.
  induction 1 as [|c w N _ IH]; [reflexivity|]. cbn [app cut_line]. rewrite no_break by exact N. rewrite IH. reflexivity.
Qed.
Lemma cut_line_last w : Forall (fun c => ~ In c breaks) w -> cut_line w = (w, []).
Proof. induction 1 as [|c w N _ IH]; [reflexivity|]. cbn [cut_line]. rewrite no_break by exact N. rewrite IH. reflexivity. Qed.
Lemma all_lines_ok lines : Forall (Forall (fun c => ~ In c breaks)) lines -> forall fuel, (length lines <= fuel)%nat ->
  all_lines fuel (text_of lines) = map (fun l => l ++ [10]) lines.
Proof.
  induction 1 as [|w lines N F IH]; intros fuel L.
  - destruct fuel; reflexivity.
  - cbn [length] in L. destruct fuel as [|f]; [lia|]. cbn [map].
    change (text_of (w :: lines)) with ((w ++ [10]) ++ text_of lines). rewrite <- app_assoc. cbn [app].
    cbn [all_lines]. destruct (w ++ 10 :: text_of lines) as [|x y] eqn:E; [destruct w; discriminate|]. rewrite <- E.
    rewrite cut_line_ok by exact N. rewrite IH by lia. reflexivity.
Qed.
Lemma text_length lines : (length lines <= length (text_of lines))%nat.
Proof.
  induction lines as [|l lines IH]; [cbn; lia|]. change (text_of (l :: lines)) with ((l ++ [10]) ++ text_of lines).
  rewrite !app_length. cbn. lia.
Qed.

Lemma lstrip_app p a s : Forall (fun c => p c = true) a -> lstrip_by p (a ++ s) = lstrip_by p s.
Proof. induction 1 as [|c a H _ IH]; [reflexivity|]. cbn. rewrite H. exact IH. Qed.
Lemma rstrip_last p r c : p c = false -> rstrip_by p (r ++ [c]) = r ++ [c].
Proof.
  intros H. induction r as [|x r IH]; [cbn; rewrite H; reflexivity|]. cbn. rewrite IH. destruct (r ++ [c]) eqn:E; [destruct r; discriminate|reflexivity].
Qed.
Lemma strip_solid left w right : Forall (fun c => is_space c = true) left -> Forall (fun c => is_space c = true) right ->
  solid w -> strip (left ++ w ++ right) = w.
Proof.
  intros L R [(c & r & E1 & S1) (r' & c' & E2 & S2)]. unfold strip. rewrite lstrip_app by exact L.
  rewrite lstrip_none by (rewrite E1; exact S1). rewrite rstrip_app by exact R. rewrite E2. apply rstrip_last. exact S2.
Qed.
Lemma strip_blank a : Forall (fun c => is_space c = true) a -> strip a = [].
Proof.
  intros F. unfold strip. rewrite <- (app_nil_r a), lstrip_app by exact F. reflexivity.
Qed.
Lemma split_first c a b : ~ In c a -> (match split_on c (a ++ c :: b) with w :: _ => w | [] => [] end) = a.
Proof. intros N. rewrite split_on_cons by exact N. reflexivity. Qed.
Lemma split_first_none c a : ~ In c a -> (match split_on c a with w :: _ => w | [] => [] end) = a.
Proof. intros N. rewrite split_on_none by exact N. reflexivity. Qed.
(** With the comment mark anywhere in white space. *)
Lemma split_space c a : Forall (fun c => is_space c = true) a -> strip (match split_on c a with w :: _ => w | [] => [] end) = [].
Proof.
  intros F. apply strip_blank. induction F as [|x a H F IH]; [constructor|]. cbn. destruct (x =? c); [constructor|].
  destruct (split_on c a); constructor; [exact H|constructor|exact H|exact IH].
Qed.
Lemma split_app c a b : (match split_on c (a ++ b) with w :: _ => w | [] => [] end) =
  if existsb (Z.eqb c) a then (match split_on c a with w :: _ => w | [] => [] end)
  else a ++ (match split_on c b with w :: _ => w | [] => [] end).
Proof.
  induction a as [|x a IH]; [reflexivity|]. cbn [app split_on existsb]. rewrite (Z.eqb_sym c x). destruct (x =? c); [reflexivity|]. cbn [orb].
  destruct (split_on c (a ++ b)) as [|w ws] eqn:E; cbn in IH.
  - destruct (existsb (Z.eqb c) a); destruct (split_on c a); cbn; rewrite <- ?IH; try reflexivity.
  - destruct (existsb (Z.eqb c) a); destruct (split_on c a); cbn in *; congruence.
Qed.
Lemma clean_blank comm line : blank comm line -> clean comm (line ++ [10]) = [].
Proof.
  intros (s & co & F & [-> | ->]); unfold clean.
  - apply split_space. apply Forall_app. split; [exact F|]. repeat constructor.
  - rewrite <- app_assoc. rewrite split_app. destruct (existsb (Z.eqb comm) s) eqn:E.
    + apply split_space, F.
    + cbn [app split_on]. rewrite Z.eqb_refl. rewrite app_nil_r. apply strip_blank, F.
Qed.
Lemma clean_blank_last comm line : blank comm line -> clean comm line = [].
Proof.
  intros (s & co & F & [-> | ->]); unfold clean.
  - apply split_space. exact F.
  - rewrite split_app. destruct (existsb (Z.eqb comm) s) eqn:E.
    + apply split_space, F.
    + cbn [app split_on]. rewrite Z.eqb_refl. rewrite app_nil_r. apply strip_blank, F.
Qed.
Lemma clean_content comm line w : content comm line w -> clean comm (line ++ [10]) = w.
Proof.
  intros (So & Nw & l & r & co & Fl & Fr & Nl & Nr & [-> | ->]); unfold clean.
  - assert (N : ~ In comm (l ++ w ++ r)) by (rewrite !in_app_iff; tauto). destruct (Z.eq_dec comm 10) as [->|D].
    + rewrite split_first by exact N. apply strip_solid; assumption.
    + rewrite split_first_none.
      * rewrite <- !app_assoc. apply strip_solid; [assumption| |assumption]. apply Forall_app. split; [exact Fr|repeat constructor].
      * rewrite in_app_iff. intros [I|[I|[]]]; [tauto|congruence].
  - assert (N : ~ In comm (l ++ w ++ r)) by (rewrite !in_app_iff; tauto).
    replace ((l ++ w ++ r ++ comm :: co) ++ [10]) with ((l ++ w ++ r) ++ comm :: (co ++ [10])) by (rewrite <- !app_assoc; reflexivity).
    rewrite split_first by exact N. apply strip_solid; assumption.
Qed.
Lemma solid_nonempty w : solid w -> w <> [].
Proof. intros [(c & r & -> & _) _]. discriminate. Qed.

(** ** Reading *)
Lemma header_ok comm lines ws w rest : contents comm lines (w :: ws) -> Forall file_line lines ->
  exists lines', contents comm lines' ws /\ Forall file_line lines' /\
  forall fuel, (length lines <= fuel)%nat -> header_line fuel comm (text_of lines ++ rest) = Some (w, text_of lines' ++ rest).
Proof.
  intros C. remember (w :: ws) as l eqn:El. induction C as [|line lines ws' B C IH|line w' lines ws' K C IH]; intros F; [discriminate| |].
  - inversion F as [|? ? F1 F2]; subst. destruct (IH eq_refl F2) as (lines' & C' & F' & H). exists lines'. split; [exact C'|]. split; [exact F'|].
    intros fuel L. cbn in L. destruct fuel as [|f]; [lia|]. cbn [header_line]. change (text_of (line :: lines)) with ((line ++ [10]) ++ text_of lines).
    rewrite <- !app_assoc. cbn [app]. rewrite cut_line_ok by (eapply Forall_impl; [|exact F1]; cbn; tauto).
    rewrite clean_blank by exact B. apply H. lia.
  - injection El as -> ->. inversion F as [|? ? F1 F2]; subst. exists lines. split; [exact C|]. split; [exact F2|].
    intros fuel L. cbn in L. destruct fuel as [|f]; [lia|]. cbn [header_line]. change (text_of (line :: lines)) with ((line ++ [10]) ++ text_of lines).
    rewrite <- !app_assoc. cbn [app]. rewrite cut_line_ok by (eapply Forall_impl; [|exact F1]; cbn; tauto).
    rewrite (clean_content _ _ _ K). destruct w as [|x w]; [exfalso; exact (solid_nonempty _ (proj1 K) eq_refl)|reflexivity].
Qed.
Lemma file_text lines : Forall file_line lines -> Forall (fun c => scalarb c = true) (text_of lines).
Proof.
  induction 1 as [|l lines F _ IH]; [constructor|]. change (text_of (l :: lines)) with ((l ++ [10]) ++ text_of lines).
  apply Forall_app. split; [|exact IH]. apply Forall_app. split; [|repeat constructor]. eapply Forall_impl; [|exact F]. cbn. tauto.
Qed.
Lemma mapM_get {A} (l : list A) idx vs : mapM (fun i => match nth_error l i with Some x => Ok x | None => Err IndexError end) idx = Ok vs ->
  mapM (py_get l) (map Z.of_nat idx) = Ok vs.
Proof.
  revert vs; induction idx as [|i idx IH]; intros vs; cbn; [auto|].
  destruct (nth_error l i) as [x|] eqn:E; cbn; [|discriminate].
  assert (L : (i < length l)%nat) by (apply nth_error_Some; congruence).
  destruct (py_get_nonneg l (Z.of_nat i)) as (x' & E1 & E2); [lia|]. rewrite Nat2Z.id in E2. rewrite E1. replace x' with x by congruence. cbn.
  destruct (mapM _ idx); cbn; [|discriminate]. intros H. rewrite (IH _ eq_refl). exact H.
Qed.
Lemma py_get_nat {A} (l : list A) i : py_get l (Z.of_nat i) = match nth_error l i with Some x => Ok x | None => Err IndexError end.
Proof.
  destruct (nth_error l i) as [x|] eqn:E.
  - assert (L : (i < length l)%nat) by (apply nth_error_Some; congruence).
    destruct (py_get_nonneg l (Z.of_nat i)) as (x' & E1 & E2); [lia|]. rewrite Nat2Z.id in E2. congruence.
  - apply nth_error_None in E. unfold py_get. replace (Z.of_nat i <? 0) with false by lia.
    replace (Z.of_nat i <? Z.of_nat (length l)) with false by lia. rewrite andb_false_r. reflexivity.
Qed.
(** The values at the columns of [fk] that are wanted. *)
Fixpoint pick {A} (want : str -> bool) (fk : list str) (vs : list A) : res (list A) :=
  match fk with
  | [] => Ok []
  | k :: fk' =>
      if want k then match vs with [] => Err IndexError | v :: vs' => rmap (cons v) (pick want fk' vs') end
      else pick want fk' (tl vs)
  end.
Lemma pick_indexes {A} want : forall fk (vs : list A) pre prev, length pre = length prev ->
  mapM (py_get (prev ++ vs)) (filter (fun i => match py_get (pre ++ fk) i with Ok k => want k | Err _ => false end)
     (map Z.of_nat (seq (length pre) (length fk)))) = pick want fk vs.
Proof.
  induction fk as [|k fk IH]; intros vs pre prev L; [reflexivity|]. cbn [length seq map filter pick].
  rewrite py_get_nat, nth_error_app2, Nat.sub_diag by lia. cbn [nth_error].
  replace (pre ++ k :: fk) with ((pre ++ [k]) ++ fk) by (rewrite <- app_assoc; reflexivity).
  replace (S (length pre)) with (length (pre ++ [k])) by (rewrite app_length; cbn; lia).
  destruct vs as [|v vs].
  - destruct (want k).
    + cbn [mapM]. rewrite py_get_nat, app_nil_r. rewrite (proj2 (nth_error_None prev (length pre))) by lia. reflexivity.
    + cbn [tl]. 
      (* Columns beyond the end fail in the same way. *)
      assert (G : forall fk pre, (length prev <= length pre)%nat -> mapM (py_get (prev ++ [])) (filter (fun i => match py_get (pre ++ fk) i with Ok k => want k | Err _ => false end)
         (map Z.of_nat (seq (length pre) (length fk)))) = pick want fk []).
      { clear. induction fk as [|k fk IH]; intros pre L; [reflexivity|]. cbn [length seq map filter pick].
        rewrite py_get_nat, nth_error_app2, Nat.sub_diag by lia. cbn [nth_error tl].
        replace (pre ++ k :: fk) with ((pre ++ [k]) ++ fk) by (rewrite <- app_assoc; reflexivity).
        replace (S (length pre)) with (length (pre ++ [k])) by (rewrite app_length; cbn; lia).
        destruct (want k).
        - cbn [mapM]. rewrite py_get_nat, app_nil_r. rewrite (proj2 (nth_error_None prev (length pre))) by lia. reflexivity.
        - apply IH. rewrite app_length. cbn. lia. }
      apply G. rewrite app_length. cbn. lia.
  - replace (prev ++ v :: vs) with ((prev ++ [v]) ++ vs) by (rewrite <- app_assoc; reflexivity).
    assert (L' : length (pre ++ [k]) = length (prev ++ [v])) by (rewrite !app_length; cbn; lia).
    destruct (want k).
    + cbn [mapM]. rewrite py_get_nat. rewrite nth_error_app1 by (rewrite <- L', app_length; cbn; lia).
      rewrite nth_error_app2, L, Nat.sub_diag by lia. cbn [nth_error bind]. rewrite (IH vs _ _ L'). destruct (pick want fk vs); reflexivity.
    + cbn [tl]. apply (IH vs _ _ L').
Qed.
Lemma pick_all {A} fk : forall (vs : list A), (length fk <= length vs)%nat -> pick (fun _ => true) fk vs = Ok (firstn (length fk) vs).
Proof.
  induction fk as [|k fk IH]; intros [|v vs] L; cbn in *; try lia; try reflexivity. rewrite IH by lia. reflexivity.
Qed.
Lemma pick_short {A} fk : forall (vs : list A), (length vs < length fk)%nat -> pick (fun _ => true) fk vs = Err IndexError.
Proof.
  induction fk as [|k fk IH]; intros [|v vs] L; cbn in *; try lia; try reflexivity. rewrite IH by lia. reflexivity.
Qed.
Lemma pick_ext {A} want want' fk : (forall k, In k fk -> want k = want' k) -> forall (vs : list A), pick want fk vs = pick want' fk vs.
Proof.
  induction fk as [|k fk IH]; intros H vs; cbn; [reflexivity|]. rewrite (H k) by (left; reflexivity).
  destruct (want' k); [destruct vs; [reflexivity|]|]; rewrite IH by (intros q I; apply H; right; exact I); reflexivity.
Qed.

Definition row_of (ks : list str) (want : str -> bool) (fk : list str) (vs : list str) : res (row str) :=
  x <- pick want fk vs ;; row_new ks x.
Lemma read_rows ks want fk sep comm : fk <> [] ->
  let idx := filter (fun i => match py_get fk i with Ok k => want k | Err _ => false end) (indices fk) in
  forall lines rows, contents comm lines (map (join sep) rows) -> Forall (fun vs => vs <> [] /\ Forall (fun v => ~ In sep v) vs) rows ->
  forall table, foldM (read_row ks idx sep comm) (map (fun l => l ++ [10]) lines) table =
    rmap (fun t => table ++ t) (mapM (row_of ks want fk) rows).
Proof.
  intros N idx lines rows C. remember (map (join sep) rows) as ws eqn:Ew. revert rows Ew.
  induction C as [|line lines ws B C IH|line w lines ws K C IH]; intros rows Ew F table.
  - destruct rows; [|discriminate]. cbn. rewrite app_nil_r. reflexivity.
  - cbn [map foldM]. unfold read_row at 1. rewrite clean_blank by exact B. cbn [bind]. apply IH; assumption.
  - destruct rows as [|vs rows]; [discriminate|]. cbn in Ew. injection Ew as -> Ew. inversion F as [|? ? [F1 F2] F3]; subst.
    cbn [map foldM]. unfold read_row at 1. rewrite (clean_content _ _ _ K).
    destruct (join sep vs) as [|x y] eqn:Ej; [exfalso; exact (solid_nonempty _ (proj1 K) eq_refl)|]. rewrite <- Ej.
    rewrite split_join by assumption. cbn [mapM]. unfold row_of at 1.
    assert (E : mapM (py_get vs) idx = pick want fk vs).
    { subst idx. unfold indices. exact (pick_indexes want fk vs [] [] eq_refl). }
    rewrite E. destruct (pick want fk vs) as [vals|e]; cbn [bind]; [|reflexivity].
    destruct (row_new ks vals) as [r|e]; cbn [bind]; [|reflexivity]. rewrite (IH rows eq_refl F3).
    destruct (mapM (row_of ks want fk) rows) as [t|e]; cbn; [|reflexivity]. rewrite <- app_assoc. reflexivity.
Qed.
(** What readfile makes of the contents of a file. *)
Lemma read_file lines (fk : list str) (rows : list (list str)) (keys : option (list str)) sep comm :
  Forall file_line lines -> contents comm lines (join sep fk :: map (join sep) rows) -> fk <> [] -> Forall (fun k => ~ In sep k) fk ->
  Forall (fun vs => vs <> [] /\ Forall (fun v => ~ In sep v) vs) rows ->
  let ks := match keys with None => fk | Some k => k end in
  forall fuel, (length lines <= fuel)%nat ->
    readfile fuel (flat_map utf8_char (text_of lines)) keys sep comm =
    Some (_ <- row_type ks ;; mapM (row_of ks (fun k => str_in k ks) fk) rows).
Proof.
  intros F C N Nk Nr ks fuel L. unfold readfile. rewrite decode_encode by (apply file_text, F).
  destruct (header_ok comm lines _ _ [] C F) as (lines' & C' & F' & H). rewrite !app_nil_r in H. rewrite H by exact L.
  rewrite (split_join sep fk N Nk : split_on sep (join sep fk) = fk). fold ks. f_equal. destruct (row_type ks) as [u|e]; cbn [bind]; [|reflexivity].
  rewrite all_lines_ok.
  - etransitivity; [exact (read_rows ks (fun k => str_in k ks) fk sep comm N lines' rows C' Nr [])|]. destruct (mapM _ rows); reflexivity.
  - eapply Forall_impl; [|exact F']. intros l Fl. eapply Forall_impl; [|exact Fl]. cbn. tauto.
  - apply text_length.
Qed.

Lemma api_read lines (fk : list str) (rows : list (list str)) sep comm :
  Forall file_line lines -> contents comm lines (join sep fk :: map (join sep) rows) -> fk <> [] -> Forall (fun k => ~ In sep k) fk ->
  Forall (fun vs => vs <> [] /\ Forall (fun v => ~ In sep v) vs) rows ->
  forall fuel, (length lines <= fuel)%nat ->
  let r := readfile fuel (flat_map utf8_char (text_of lines)) None sep comm in
  (names_ok fk -> Forall (fun vs => (length fk <= length vs)%nat) rows -> r = Some (Ok (map (fun vs => mkrow fk (firstn (length fk) vs)) rows))) /\
  (names_ok fk -> Exists (fun vs => (length vs < length fk)%nat) rows -> r = Some (Err IndexError)) /\
  (~ names_ok fk -> r = Some (Err ValueError)).
Proof.
  intros F C N Nk Nr fuel L r. subst r. rewrite (read_file lines fk rows None sep comm F C N Nk Nr fuel L).
  assert (W : forall vs, row_of fk (fun k => str_in k fk) fk vs =
    if (length fk <=? length vs)%nat then Ok (mkrow fk (firstn (length fk) vs)) else Err IndexError).
  { intros vs. unfold row_of. rewrite (pick_ext _ (fun _ => true)).
    - destruct (Nat.leb_spec (length fk) (length vs)) as [G|G].
      + rewrite pick_all by exact G. cbn. unfold row_new. rewrite firstn_length_le, Nat.eqb_refl by exact G. reflexivity.
      + rewrite pick_short by exact G. reflexivity.
    - intros k I. apply str_in_true, I. }
  split; [|split].
  - intros K G. rewrite row_type_ok by exact K. cbn [bind]. f_equal. apply mapM_map_ok. intros vs I. rewrite W.
    rewrite Forall_forall in G. rewrite (proj2 (Nat.leb_le _ _) (G vs I)). reflexivity.
  - intros K G. rewrite row_type_ok by exact K. cbn [bind]. f_equal. clear - G W. induction rows as [|vs rows IH]; [inversion G|].
    cbn. rewrite W. destruct (Nat.leb_spec (length fk) (length vs)) as [B|B]; [|reflexivity]. cbn.
    inversion G as [? ? H|? ? H]; subst; [lia|]. rewrite IH by exact H. reflexivity.
  - intros K. rewrite row_type_bad by exact K. reflexivity.
Qed.
(** Chosen columns: names in the order given, values in the order of the file. *)
Lemma pick_cells want fk : forall (vs : list str), (length fk <= length vs)%nat ->
  exists x, pick want fk vs = Ok x /\ Forall2 (fun k v => exists i, nth_error fk i = Some k /\ nth_error vs i = Some v) (filter want fk) x.
Proof.
  induction fk as [|k fk IH]; intros vs L; cbn; [exists []; split; [reflexivity|constructor]|].
  destruct vs as [|v vs]; cbn in L; [lia|]. cbn [tl]. destruct (IH vs) as (x & E & H); [lia|]. rewrite E.
  assert (H' : Forall2 (fun k0 v0 => exists i, nth_error (k :: fk) i = Some k0 /\ nth_error (v :: vs) i = Some v0) (filter want fk) x).
  { clear - H. induction H as [|a b l l' (i & Q) H IH]; constructor; [exists (S i); exact Q|exact IH]. }
  destruct (want k).
  - exists (v :: x). split; [reflexivity|]. constructor; [exists O; split; reflexivity|exact H'].
  - exists x. split; [reflexivity|exact H'].
Qed.
Lemma F2_len {A B} (P : A -> B -> Prop) l l' : Forall2 P l l' -> length l = length l'.
Proof. induction 1; cbn; congruence. Qed.
Lemma api_read_keys lines (fk : list str) (rows : list (list str)) (keys kept : list str) sep comm :
  Forall file_line lines -> contents comm lines (join sep fk :: map (join sep) rows) -> fk <> [] -> Forall (fun k => ~ In sep k) fk ->
  Forall (fun vs => vs <> [] /\ Forall (fun v => ~ In sep v) vs) rows ->
  names_ok keys -> NoDup fk -> Forall (fun vs => length vs = length fk) rows -> selected (fun k => In k keys) fk kept ->
  forall fuel, (length lines <= fuel)%nat ->
  let r := readfile fuel (flat_map utf8_char (text_of lines)) (Some keys) sep comm in
  (length kept = length keys -> exists t, r = Some (Ok t) /\
     Forall2 (fun vs n => r_fields n = keys /\ Forall2 (fun k v => cell (mkrow fk vs) k v) kept (r_values n)) rows t) /\
  (length kept <> length keys -> rows <> [] -> r = Some (Err TypeError)).
Proof.
  intros F C N Nk Nr K D Ln S fuel L r. subst r. rewrite (read_file lines fk rows (Some keys) sep comm F C N Nk Nr fuel L).
  rewrite row_type_ok by exact K. cbn [bind].
  assert (Ek : filter (fun k => str_in k keys) fk = kept).
  { apply (selected_fun _ _ _ S). apply filter_selected. intros k. apply str_in_true. }
  assert (W : forall (vs : list str), length vs = length fk -> exists x, pick (fun k => str_in k keys) fk vs = Ok x /\
     length x = length kept /\ Forall2 (fun k v => cell (mkrow fk vs) k v) kept x).
  { intros vs E. destruct (pick_cells (fun k => str_in k keys) fk vs) as (x & Ex & H); [lia|]. exists x. split; [exact Ex|].
    rewrite Ek in H. split; [symmetry; exact (F2_len _ _ _ H)|exact H]. }
  split.
  - intros E. clear C. induction rows as [|vs rows IH]; [exists []; split; [reflexivity|constructor]|].
    inversion Nr; inversion Ln; subst. destruct IH as (t & Et & H); [assumption..|].
    destruct (W vs ltac:(assumption)) as (x & Ex & El & Hx). injection Et as Et. cbn [mapM]. unfold row_of at 1. rewrite Ex. cbn [bind].
    unfold row_new. replace (length x =? length keys)%nat with true by (symmetry; apply Nat.eqb_eq; congruence). cbn [bind]. rewrite Et. cbn.
    eexists. split; [reflexivity|]. constructor; [|exact H]. split; [reflexivity|exact Hx].
  - intros E Nn. destruct rows as [|vs rows]; [congruence|]. inversion Ln; subst.
    destruct (W vs ltac:(assumption)) as (x & Ex & El & Hx). cbn [mapM]. unfold row_of at 1. rewrite Ex. cbn [bind].
    unfold row_new. replace (length x =? length keys)%nat with false by (symmetry; apply Nat.eqb_neq; congruence). reflexivity.
Qed.
(** No header line: the reading loop does not end. *)
Lemma header_none comm lines last : Forall file_line (lines ++ [last]) -> Forall (blank comm) (lines ++ [last]) ->
  forall fuel, header_line fuel comm (text_of lines ++ last) = None.
Proof.
  induction lines as [|l lines IH]; intros F B fuel.
  - cbn. inversion F as [|? ? F1 _]; inversion B as [|? ? B1 _]; subst.
    assert (G : forall f, header_line f comm [] = None). { induction f as [|f G]; [reflexivity|exact G]. }
    destruct fuel as [|f]; [reflexivity|]. cbn. rewrite cut_line_last by (eapply Forall_impl; [|exact F1]; cbn; tauto).
    rewrite clean_blank_last by exact B1. apply G.
  - destruct fuel as [|f]; [reflexivity|]. inversion F as [|? ? F1 F2]; inversion B as [|? ? B1 B2]; subst.
    cbn [header_line]. change (text_of (l :: lines)) with ((l ++ [10]) ++ text_of lines). rewrite <- !app_assoc. cbn [app].
    rewrite cut_line_ok by (eapply Forall_impl; [|exact F1]; cbn; tauto). rewrite clean_blank by exact B1. apply IH; assumption.
Qed.
Lemma api_no_header lines last keys sep comm : Forall file_line (lines ++ [last]) -> Forall (blank comm) (lines ++ [last]) ->
  forall fuel, readfile fuel (flat_map utf8_char (text_of lines ++ last)) keys sep comm = None.
Proof.
  intros F B fuel. unfold readfile. rewrite decode_encode.
  - rewrite header_none by assumption. reflexivity.
  - apply Forall_app in F. destruct F as [F1 F2]. apply Forall_app. split; [apply file_text, F1|].
    inversion F2 as [|? ? F3 _]; subst. eapply Forall_impl; [|exact F3]. cbn. tauto.
Qed.

(** ** Writing *)
Lemma write_rows_ok ks sep fields : NoDup fields -> incl ks fields -> forall t rows,
  uniform fields t -> Forall2 (fun r vs => Forall2 (cell r) ks vs) t rows -> Forall (fun vs => Forall (fun c => scalarb c = true) (join sep vs)) rows ->
  write_rows ks sep t = (flat_map utf8_char (text_of (map (join sep) rows)), Ok tt).
Proof.
  intros N I t rows U H. induction H as [|r vs t rows Hr H IH]; intros S; [reflexivity|].
  inversion U as [|? ? [E L] U']; subst. inversion S as [|? ? S1 S2]; subst. cbn [write_rows].
  assert (O : row_ok r) by (split; assumption).
  assert (M : mapM (dict_at (asdict r)) ks = Ok vs).
  { clear - O Hr. induction Hr as [|k v ks vs C Hr IH]; [reflexivity|]. cbn.
    rewrite (proj2 (dict_at_cell _ _ _ O) C). cbn. rewrite IH. reflexivity. }
  rewrite M. cbn [bind]. rewrite utf8_encode_ok by (apply Forall_app; split; [exact S1|repeat constructor]).
  rewrite (IH U' S2). cbn [map]. change (text_of (join sep vs :: map (join sep) rows)) with ((join sep vs ++ [10]) ++ text_of (map (join sep) rows)).
  rewrite (flat_map_app utf8_char (join sep vs ++ [10])). reflexivity.
Qed.
Lemma joined_chars sep (P : Z -> Prop) l : P sep -> Forall (Forall P) l -> Forall P (join sep l).
Proof.
  intros Hs. induction 1 as [|w l Hw F IH]; [constructor|]. cbn [join]. destruct l; [exact Hw|].
  apply Forall_app. split; [exact Hw|]. constructor; assumption.
Qed.
Lemma name_char c : letter c \/ 48 <= c <= 57 \/ c = 95 -> is_space c = false.
Proof. unfold letter, is_space. lia. Qed.
Lemma join_ends sep l w : exists s, join sep (l ++ [w]) = s ++ w.
Proof.
  induction l as [|x l [s IH]]; [exists []; reflexivity|]. cbn [app join]. destruct (l ++ [w]) eqn:E; [destruct l; discriminate|].
  rewrite IH. exists (x ++ sep :: s). rewrite <- app_assoc. reflexivity.
Qed.
Lemma names_solid sep ks : names_ok ks -> ks <> [] -> solid (join sep ks).
Proof.
  intros [F _] N. split.
  - destruct ks as [|k ks]; [congruence|]. inversion F as [|? ? [(c & r & -> & Lc & _) _] _]; subst.
    destruct ks; cbn; eexists c, _; (split; [reflexivity|]); apply name_char; left; exact Lc.
  - destruct (exists_last N) as (l & k & ->). destruct (join_ends sep l k) as [s E]. rewrite E.
    apply Forall_app in F. destruct F as [_ F]. inversion F as [|? ? [(c & r & -> & Lc & Fr) _] _]; subst.
    destruct r as [|d r] using rev_ind.
    + exists s, c. split; [reflexivity|]. apply name_char. left. exact Lc.
    + exists (s ++ c :: r), d. split; [rewrite <- app_assoc; reflexivity|]. apply name_char.
      apply Forall_app in Fr. destruct Fr as [_ Fr]. inversion Fr; subst. assumption.
Qed.
Lemma own_content comm w : solid w -> ~ In comm w -> content comm w w.
Proof.
  intros S N. split; [exact S|]. split; [exact N|]. exists [], [], []. split; [constructor|]. split; [constructor|].
  split; [intros []|]. split; [intros []|]. left. rewrite app_nil_r. reflexivity.
Qed.
Lemma own_contents comm l : Forall (fun w => solid w /\ ~ In comm w) l -> contents comm l l.
Proof. induction 1 as [|w l [S N] _ IH]; constructor; [apply own_content; assumption|exact IH]. Qed.
Lemma cell_row_values fields (r : row str) vs : NoDup fields -> r_fields r = fields -> length (r_values r) = length fields ->
  Forall2 (cell r) fields vs -> vs = r_values r.
Proof.
  intros N E L H. subst fields. apply nth_error_ext. intros i.
  assert (LL := F2_len _ _ _ H). destruct (nth_error (r_fields r) i) as [k|] eqn:Ek.
  - assert (B : (i < length (r_fields r))%nat) by (apply nth_error_Some; congruence).
    destruct (nth_error vs i) as [v|] eqn:Ev; [|apply nth_error_None in Ev; lia].
    assert (C : cell r k v).
    { clear - H Ek Ev. revert i Ek Ev. induction H as [|a b l l' C H IH]; intros [|i] Ek Ev; cbn in *; try discriminate; [congruence|]. eapply IH; eassumption. }
    destruct C as (j & Ej & Ej'). replace i with j; [congruence|].
    eapply (proj1 (NoDup_nth_error _) N); [apply nth_error_Some; congruence|congruence].
  - apply nth_error_None in Ek. rewrite (proj2 (nth_error_None _ _)) by lia. symmetry. apply nth_error_None. lia.
Qed.
Lemma restricted_values (r : row str) ks vs : row_ok r -> NoDup ks -> Forall2 (cell r) ks vs -> restricted ks r (mkrow ks vs).
Proof.
  intros O N H. split; [reflexivity|]. split; [symmetry; exact (F2_len _ _ _ H)|].
  assert (G : forall i k v, nth_error ks i = Some k -> nth_error vs i = Some v -> cell r k v).
  { clear - H. induction H as [|a b l l' C H IH]; intros [|i] k v Ek Ev; cbn in *; try discriminate; [congruence|]. eapply IH; eassumption. }
  intros k v I. split.
  - intros (i & Ek & Ev). eapply G; eassumption.
  - intros C. apply In_nth_error in I. destruct I as [i Ek]. exists i. split; [exact Ek|]. cbn.
    assert (B : (i < length ks)%nat) by (apply nth_error_Some; congruence). pose proof (F2_len _ _ _ H) as LL.
    destruct (nth_error vs i) as [w|] eqn:Ev; [|apply nth_error_None in Ev; lia]. f_equal. exact (cell_fun _ _ _ _ O (G _ _ _ Ek Ev) C).
Qed.
Lemma api_round fields t ks sep comm :
  NoDup fields -> uniform fields t -> names_ok ks -> ks <> [] -> incl ks fields ->
  scalarb sep = true -> ~ In sep breaks -> sep <> comm -> Forall (Forall (cell_char sep comm)) ks -> Forall (writable sep comm ks) t ->
  exists bytes t', writefile t (Some ks) sep = (Some bytes, Ok tt) /\ Forall2 (restricted ks) t t' /\
    forall fuel, (S (length t) <= fuel)%nat -> readfile fuel bytes None sep comm = Some (Ok t').
Proof.
  intros N U K Nk I Ss Sb Sc Ck W.
  assert (R : exists rows, Forall2 (fun r vs => Forall2 (cell r) ks vs) t rows /\
    Forall (fun vs => Forall (Forall (cell_char sep comm)) vs /\ solid (join sep vs)) rows).
  { clear U. induction W as [|r t (vs & A & B & C) W IH]; [exists []; split; constructor|]. destruct IH as (rows & H1 & H2). exists (vs :: rows). split; constructor; auto. }
  destruct R as (rows & H & G).
  assert (Lr : Forall (fun vs => length vs = length ks) rows).
  { clear - H. induction H as [|r vs t rows A H IH]; constructor; [symmetry; exact (F2_len _ _ _ A)|exact IH]. }
  assert (cc_s : forall c, cell_char sep comm c -> scalarb c = true) by (unfold cell_char; tauto).
  assert (Sj : forall l, Forall (Forall (cell_char sep comm)) l -> Forall (fun c => scalarb c = true) (join sep l)).
  { intros l F. apply joined_chars; [exact Ss|]. eapply Forall_impl; [|exact F]. intros w Fw. eapply Forall_impl; [|exact Fw]. exact cc_s. }
  assert (Fj : forall l, Forall (Forall (cell_char sep comm)) l -> file_line (join sep l)).
  { intros l F. apply joined_chars; [tauto|]. eapply Forall_impl; [|exact F]. intros w Fw. eapply Forall_impl; [|exact Fw]. unfold cell_char. cbn. tauto. }
  assert (Nj : forall l, Forall (Forall (cell_char sep comm)) l -> ~ In comm (join sep l)).
  { intros l F J. assert (Q : Forall (fun c => c <> comm) (join sep l)).
    { apply joined_chars; [exact Sc|]. eapply Forall_impl; [|exact F]. intros w Fw. eapply Forall_impl; [|exact Fw]. unfold cell_char. cbn. tauto. }
    rewrite Forall_forall in Q. exact (Q _ J eq_refl). }
  assert (Ns : forall l : list str, Forall (Forall (cell_char sep comm)) l -> Forall (fun v => ~ In sep v) l).
  { intros l F. eapply Forall_impl; [|exact F]. intros w Fw J. rewrite Forall_forall in Fw. specialize (Fw _ J). unfold cell_char in Fw. tauto. }
  exists (flat_map utf8_char (text_of (join sep ks :: map (join sep) rows))), (map (mkrow ks) rows). split; [|split].
  - unfold writefile. rewrite utf8_encode_ok by (apply Forall_app; split; [apply Sj, Ck|repeat constructor]).
    rewrite (write_rows_ok ks sep fields N I t rows U H).
    + change (text_of (join sep ks :: map (join sep) rows)) with ((join sep ks ++ [10]) ++ text_of (map (join sep) rows)).
      rewrite (flat_map_app utf8_char (join sep ks ++ [10])). reflexivity.
    + eapply Forall_impl; [|exact G]. intros vs [A _]. apply Sj, A.
  - pose proof (uniform_ok _ _ N U) as O. clear - O K H. induction H as [|r vs t rows A H IH]; [constructor|]. inversion O; subst.
    constructor; [apply restricted_values; [assumption|apply K|assumption]|apply IH; assumption].
  - intros fuel L.
    assert (E : map (mkrow ks) rows = map (fun vs => mkrow ks (firstn (length ks) vs)) rows).
    { clear - Lr. induction Lr as [|vs rows E _ IH]; [reflexivity|]. cbn. rewrite IH. f_equal. rewrite <- E, firstn_all. reflexivity. }
    rewrite E. eapply (api_read (join sep ks :: map (join sep) rows) ks rows sep comm).
    + constructor; [apply Fj, Ck|]. rewrite Forall_map. eapply Forall_impl; [|exact G]. intros vs [A _]. apply Fj, A.
    + apply own_contents. constructor; [split; [apply names_solid; assumption|apply Nj, Ck]|].
      rewrite Forall_map. eapply Forall_impl; [|exact G]. intros vs [A B]. split; [exact B|apply Nj, A].
    + exact Nk.
    + apply Ns, Ck.
    + rewrite Forall_forall in *. intros vs J. destruct (G vs J) as [A _]. split; [|apply Ns, A].
      intros ->. specialize (Lr [] J). destruct ks; [congruence|discriminate].
    + cbn. rewrite map_length, <- (F2_len _ _ _ H). exact L.
    + exact K.
    + eapply Forall_impl; [|exact Lr]. cbn. intros vs ->. constructor.
Qed.
Lemma api_same fields t sep comm :
  names_ok fields -> fields <> [] -> t <> [] -> uniform fields t ->
  scalarb sep = true -> ~ In sep breaks -> sep <> comm -> Forall (Forall (cell_char sep comm)) fields -> Forall (writable sep comm fields) t ->
  exists bytes, writefile t None sep = (Some bytes, Ok tt) /\
    forall fuel, (S (length t) <= fuel)%nat -> readfile fuel bytes None sep comm = Some (Ok t).
Proof.
  intros K Nf Nt U Ss Sb Sc Ck W.
  destruct (api_round fields t fields sep comm (proj2 K) U K Nf (incl_refl _) Ss Sb Sc Ck W) as (bytes & t' & E & R & H).
  exists bytes. split.
  - rewrite <- E. unfold writefile. destruct t as [|r t]; [congruence|]. change (py_get (r :: t) 0) with (Ok r). cbn [bind].
    inversion U as [|? ? [Er _] _]; subst. reflexivity.
  - intros fuel L. rewrite H by exact L. do 2 f_equal. symmetry. clear - R U K. induction R as [|r n t t' A R IH]; [reflexivity|].
    inversion U as [|? ? [E L] U']; subst. f_equal; [|apply IH; assumption].
    symmetry. eapply (restricted_fun (r_fields r)); [apply K|exact A|]. split; [reflexivity|]. split; [exact L|]. tauto.
Qed.
(** The table that cannot be written. *)
Lemma api_write_fail sep : writefile [] None sep = (None, Err IndexError) /\
  forall fields t ks k, NoDup fields -> uniform fields t -> t <> [] -> In k ks -> ~ In k fields ->
    Forall (fun k => Forall (fun c => scalarb c = true) k) ks -> scalarb sep = true ->
    (exists b, writefile t (Some ks) sep = (Some b, Err KeyError)).
Proof.
  split; [reflexivity|]. intros fields t ks k N U Nt I NI S Ss. destruct t as [|r t]; [congruence|].
  inversion U as [|? ? [E L] U']; subst. assert (O : row_ok r) by (split; assumption).
  unfold writefile. rewrite utf8_encode_ok by (apply Forall_app; split; [apply joined_chars; assumption|repeat constructor]).
  cbn [write_rows]. assert (M : mapM (dict_at (asdict r)) ks = Err KeyError).
  { clear - O I NI. induction ks as [|x ks IH]; [contradiction|]. cbn. destruct (in_dec (list_eq_dec Z.eq_dec) x (r_fields r)) as [J|J].
    - destruct (has_col _ _ O J) as [v ->]. cbn. rewrite IH; [reflexivity|]. destruct I as [->|I]; [contradiction|exact I].
    - rewrite dict_at_none by assumption. reflexivity. }
  rewrite M. eexists. reflexivity.
Qed.

(** ** Printing *)
Definition longer (m y : str) : str := if Nat.ltb (length m) (length y) then y else m.
Lemma longest_fold (l : list str) : forall m, let f := fold_left longer l m in
  (length m <= length f)%nat /\ Forall (fun s => (length s <= length f)%nat) l /\ (f = m \/ In f l).
Proof.
  induction l as [|y l IH]; intros m f; subst f; cbn [fold_left].
  - split; [lia|]. split; [constructor|auto].
  - destruct (IH (longer m y)) as (A1 & A2 & A3).
    assert (B : (length m <= length (longer m y))%nat /\ (length y <= length (longer m y))%nat /\ (longer m y = m \/ longer m y = y)).
    { unfold longer. destruct (Nat.ltb_spec (length m) (length y)); (split; [lia|split; [lia|auto]]). }
    destruct B as (B1 & B2 & B3). split; [lia|]. split; [constructor; [lia|exact A2]|].
    destruct A3 as [A3|A3]; [|right; right; exact A3]. rewrite A3. destruct B3 as [-> | ->]; [left; reflexivity|right; left; reflexivity].
Qed.
Lemma longest_fits l : l <> [] -> fits (length (longest l)) l.
Proof.
  destruct l as [|x l]; [congruence|]. intros _. change (longest (x :: l)) with (fold_left longer l x).
  destruct (longest_fold l x) as (A1 & A2 & A3). split; [constructor; assumption|]. apply Exists_exists.
  destruct A3 as [A3|A3]; eexists; (split; [|reflexivity]); [left; symmetry; exact A3|right; exact A3].
Qed.
Lemma ljust_length n s : (length s <= n)%nat -> length (ljust n s) = n.
Proof. intros L. unfold ljust. rewrite app_length, repeat_length. lia. Qed.
Lemma sjoin_cons sep w l : l <> [] -> sjoin sep (w :: l) = w ++ sep ++ sjoin sep l.
Proof. destruct l; [congruence|reflexivity]. Qed.
Lemma skipn_app_len {A} n (a b : list A) : length a = n -> forall m, skipn (n + m) (a ++ b) = skipn m b.
Proof.
  intros <- m. rewrite skipn_app. rewrite skipn_all2 by lia. cbn. f_equal. lia.
Qed.
Lemma line_shows_ok : forall widths cells, length cells = length widths ->
  Forall2 (fun w c => (length c <= w)%nat) widths cells ->
  line_shows widths cells (sjoin [32; 124; 32] (map (fun p => ljust (fst p) (snd p)) (combine widths cells))).
Proof.
  intros widths cells E F. split; [exact E|]. clear E. induction F as [|w0 c0 widths cells L F IH]; intros j w c Ew Ec; [destruct j; discriminate|].
  destruct j as [|j].
  - cbn in Ew, Ec. injection Ew as ->. injection Ec as ->. unfold offset. cbn [firstn fold_right Nat.mul Nat.add skipn]. cbn [combine map fst snd].
    destruct (map (fun p => ljust (fst p) (snd p)) (combine widths cells)) as [|m ms] eqn:Em.
    + exists []. cbn [sjoin]. rewrite app_nil_r. split; [reflexivity|]. left. split; [reflexivity|]. apply map_eq_nil in Em.
      inversion F; subst; [reflexivity|discriminate].
    + rewrite sjoin_cons by discriminate. exists ([32; 124; 32] ++ sjoin [32; 124; 32] (m :: ms)). split; [unfold ljust; rewrite <- app_assoc; reflexivity|].
      right. eexists. reflexivity.
  - cbn in Ew, Ec. destruct (IH j w c Ew Ec) as (rest & Er & H).
    cbn [combine map fst snd]. rewrite sjoin_cons.
    + unfold offset in *. cbn [firstn fold_right].
      replace (w0 + fold_right Nat.add 0 (firstn j widths) + 3 * S j)%nat with (w0 + (3 + (fold_right Nat.add 0 (firstn j widths) + 3 * j)))%nat by lia.
      rewrite (skipn_app_len w0) by (apply ljust_length; exact L). rewrite (skipn_app_len 3) by reflexivity.
      exists rest. split; [exact Er|]. destruct H as [[-> Hj]|H]; [left|right; exact H]. split; [reflexivity|]. destruct widths; [destruct j; discriminate|cbn in *; lia].
    + intros Q. apply map_eq_nil in Q. inversion F; subst; [destruct j; discriminate|discriminate].
Qed.
Lemma sjoin_length n l : forall sep, length sep = 3%nat -> Forall2 (fun w (s : str) => length s = w) n l -> l <> [] ->
  length (sjoin sep l) = (fold_right Nat.add 0 n + 3 * (length n - 1))%nat.
Proof.
  intros sep E F N. induction F as [|w s n l H F IH]; [congruence|]. destruct l as [|s' l].
  - inversion F; subst. cbn. lia.
  - rewrite sjoin_cons by discriminate. rewrite !app_length, IH by discriminate. inversion F; subst. cbn [fold_right length]. lia.
Qed.
Lemma mapM_F2 {A B} (f : A -> res B) l ys : mapM f l = Ok ys -> Forall2 (fun x y => f x = Ok y) l ys.
Proof.
  revert ys; induction l as [|x l IH]; intros ys; cbn.
  - intros E. injection E as <-. constructor.
  - destruct (f x) eqn:E1; cbn; [|discriminate]. destruct (mapM f l) eqn:E2; cbn; [|discriminate]. intros E. injection E as <-. constructor; auto.
Qed.
Lemma F2_mapM {A B} (f : A -> res B) l ys : Forall2 (fun x y => f x = Ok y) l ys -> mapM f l = Ok ys.
Proof. induction 1 as [|x y l ys E H IH]; [reflexivity|]. cbn. rewrite E. cbn. rewrite IH. reflexivity. Qed.
Lemma cols_exist (r : row str) ks : row_ok r -> incl ks (r_fields r) -> exists vs, Forall2 (cell r) ks vs.
Proof.
  intros O. induction ks as [|k ks IH]; intros I; [exists []; constructor|].
  destruct (cell_has _ _ O (I k (or_introl eq_refl))) as [v C]. destruct IH as [vs H]; [intros x J; apply I; right; exact J|].
  exists (v :: vs). constructor; assumption.
Qed.
(** The rule: a cross under every bar. *)
Lemma rule_chars widths : widths <> [] -> forall p c, nth_error (sjoin [45; 43; 45] (map (fun n => repeat 45 n) widths)) p = Some c ->
  (c = 43 /\ exists j, (0 < j < length widths)%nat /\ (p = offset widths j - 2)%nat) \/
  (c = 45 /\ forall j, (0 < j < length widths)%nat -> p <> (offset widths j - 2)%nat).
Proof.
  induction widths as [|w widths IH]; intros N p c; [congruence|]. cbn [map]. destruct widths as [|w' widths].
  - cbn [map sjoin]. intros E. right. split.
    + apply nth_error_In in E. apply repeat_spec in E. exact E.
    + cbn. lia.
  - rewrite sjoin_cons by discriminate. set (tail := sjoin _ _) in *. intros E.
    assert (O1 : forall j, (0 < j)%nat -> offset (w :: w' :: widths) j = (w + 3 + offset (w' :: widths) (j - 1))%nat).
    { intros [|j] L; [lia|]. unfold offset. cbn [firstn fold_right]. replace (S j - 1)%nat with j by lia. lia. }
    assert (O3 : forall j, (0 < j)%nat -> (3 <= offset (w' :: widths) j)%nat) by (intros j; unfold offset; lia).
    destruct (Nat.lt_ge_cases p w) as [L|L].
    { rewrite nth_error_app1 in E by (rewrite repeat_length; exact L). right. split.
      - apply nth_error_In in E. apply repeat_spec in E. exact E.
      - intros j B. rewrite O1 by lia. lia. }
    rewrite nth_error_app2 in E by (rewrite repeat_length; exact L). rewrite repeat_length in E.
    destruct (Nat.lt_ge_cases (p - w) 3) as [L3|L3].
    { rewrite nth_error_app1 in E by exact L3. assert (P : (p = w \/ p = w + 1 \/ p = w + 2)%nat) by lia. destruct P as [->|[->|P]].
      - rewrite Nat.sub_diag in E. injection E as <-. right. split; [reflexivity|]. intros j B. rewrite O1 by lia. lia.
      - replace (w + 1 - w)%nat with 1%nat in E by lia. injection E as <-. left. split; [reflexivity|]. exists 1%nat. cbn [length]. split; [lia|].
        rewrite O1 by lia. unfold offset. cbn. lia.
      - subst p. replace (w + 2 - w)%nat with 2%nat in E by lia. injection E as <-. right. split; [reflexivity|]. intros j B. rewrite O1 by lia.
        destruct (Nat.eq_dec j 1) as [->|]; [unfold offset; cbn; lia|]. specialize (O3 (j - 1)%nat). lia. }
    rewrite nth_error_app2 in E by exact L3. change (length [45; 43; 45]) with 3%nat in E. destruct (IH ltac:(discriminate) _ _ E) as [[-> (j & B & P)]|[-> P]].
    + left. split; [reflexivity|]. exists (S j). cbn [length] in *. split; [lia|]. rewrite O1 by lia. replace (S j - 1)%nat with j by lia.
      specialize (O3 j). lia.
    + right. split; [reflexivity|]. intros j B Q. rewrite O1 in Q by lia. destruct (Nat.eq_dec j 1) as [->|J].
      * unfold offset in Q. cbn in Q. lia.
      * apply (P (j - 1)%nat); [cbn [length] in *; lia|]. specialize (O3 (j - 1)%nat). lia.
Qed.
Lemma nth_F2 {A B} (P : A -> B -> Prop) l l' : Forall2 P l l' -> forall i x y, nth_error l i = Some x -> nth_error l' i = Some y -> P x y.
Proof.
  induction 1 as [|a b l l' C H IH]; intros [|i] x y Ex Ey; cbn in *; try discriminate; [congruence|]. eapply IH; eassumption.
Qed.
Lemma api_pprint fields t ks : NoDup fields -> uniform fields t -> incl ks fields -> ks <> [] ->
  exists widths rows head rule lines, Forall2 (fun r vs => Forall2 (cell r) ks vs) t rows /\
    pprint t (Some ks) = Ok (head :: rule :: lines) /\
    (forall j w k, nth_error widths j = Some w -> nth_error ks j = Some k ->
       exists col, Forall2 (fun vs c => nth_error vs j = Some c) rows col /\ fits w (k :: col)) /\
    line_shows widths ks head /\ Forall2 (line_shows widths) rows lines /\
    Forall (fun l => length l = (fold_right Nat.add 0 widths + 3 * (length ks - 1))%nat) (head :: rule :: lines) /\
    (forall p, nth_error rule p = Some 43 <-> exists j, (0 < j < length ks)%nat /\ (p = offset widths j - 2)%nat) /\
    Forall (fun c => c = 43 \/ c = 45) rule.
Proof.
  intros N U I Nk. pose proof (uniform_ok _ _ N U) as O.
  assert (R : exists rows, Forall2 (fun r vs => Forall2 (cell r) ks vs) t rows).
  { clear - I U O. induction O as [|r t Or O IH]; [exists []; constructor|]. inversion U as [|? ? [E L] U']; subst.
    destruct (IH U') as [rows H]. destruct (cols_exist r ks Or I) as [vs Hv]. exists (vs :: rows). constructor; assumption. }
  destruct R as [rows H].
  (* every column *)
  assert (Col : forall j k, nth_error ks j = Some k -> exists col, mapM (fun r => dict_at (asdict r) k) t = Ok col /\ Forall2 (fun vs c => nth_error vs j = Some c) rows col).
  { intros j k Ek. clear - H O Ek. induction H as [|r vs t rows A H IH]; [exists []; split; [reflexivity|constructor]|].
    inversion O as [|? ? Or O']; subst. destruct (IH O') as (col & Ec & Hc).
    assert (B : (j < length ks)%nat) by (apply nth_error_Some; congruence). pose proof (F2_len _ _ _ A) as LL.
    destruct (nth_error vs j) as [v|] eqn:Ev; [|apply nth_error_None in Ev; lia].
    exists (v :: col). cbn. rewrite (proj2 (dict_at_cell _ _ _ Or) (nth_F2 _ _ _ A _ _ _ Ek Ev)). cbn. rewrite Ec. split; [reflexivity|]. constructor; assumption. }
  assert (Wd : exists widths, mapM (column_width t) ks = Ok widths).
  { assert (G : forall k, In k ks -> exists w, column_width t k = Ok w).
    { intros k J. apply In_nth_error in J. destruct J as [j Ej]. destruct (Col j k Ej) as (col & Ec & _). unfold column_width. rewrite Ec. eexists. reflexivity. }
    clear - G. induction ks as [|k ks IH]; [exists []; reflexivity|]. destruct (G k (or_introl eq_refl)) as [w Ew].
    destruct IH as [ws Ews]; [intros x J; apply G; right; exact J|]. exists (w :: ws). cbn. rewrite Ew. cbn. rewrite Ews. reflexivity. }
  destruct Wd as [widths Ew]. pose proof (mapM_length _ _ _ Ew) as Lw.
  assert (Fw : forall j w k, nth_error widths j = Some w -> nth_error ks j = Some k ->
       exists col, Forall2 (fun vs c => nth_error vs j = Some c) rows col /\ fits w (k :: col)).
  { intros j w k Ej Ek. destruct (Col j k Ek) as (col & Ec & Hc). exists col. split; [exact Hc|].
    pose proof (nth_F2 _ _ _ (mapM_F2 _ _ _ Ew) _ _ _ Ek Ej) as Q. cbn in Q. unfold column_width in Q. rewrite Ec in Q. cbn in Q. injection Q as <-.
    destruct (longest_fits (col ++ [k])) as [A B]; [destruct col; discriminate|]. split.
    - rewrite Forall_forall in *. intros x J. apply A. apply in_or_app. cbn in *. tauto.
    - rewrite Exists_exists in *. destruct B as (x & J & B). exists x. split; [|exact B]. apply in_app_or in J. cbn in *. tauto. }
  assert (Fk : Forall2 (fun w c => (length c <= w)%nat) widths ks).
  { clear - Fw Lw. revert Fw Lw. assert (G : forall (ws : list nat) (ks : list str), length ws = length ks -> (forall j w k, nth_error ws j = Some w -> nth_error ks j = Some k -> (length k <= w)%nat) -> Forall2 (fun w c => (length c <= w)%nat) ws ks).
    { induction ws as [|w ws IH]; intros [|k ks'] L Q; cbn in L; try lia; constructor; [exact (Q O w k eq_refl eq_refl)|]. apply IH; [lia|]. intros j; exact (Q (S j)). }
    intros Fw Lw. apply G; [exact Lw|]. intros j w k E1 E2. destruct (Fw j w k E1 E2) as (col & _ & A & _). inversion A; assumption. }
  assert (Fr : Forall (fun vs => length vs = length widths /\ Forall2 (fun w c => (length c <= w)%nat) widths vs) rows).
  { apply Forall_forall. intros vs J.
    assert (Lv : length vs = length widths).
    { clear - H J Lw. induction H as [|r v t rows A H IH]; [contradiction|]. destruct J as [->|J]; [rewrite Lw; symmetry; exact (F2_len _ _ _ A)|apply IH, J]. }
    split; [exact Lv|].
    assert (G : forall (ws : list nat) (ks : list str), length ws = length ks -> (forall j w k, nth_error ws j = Some w -> nth_error ks j = Some k -> (length k <= w)%nat) -> Forall2 (fun w c => (length c <= w)%nat) ws ks).
    { clear. induction ws as [|w ws IH]; intros [|k ks'] L Q; cbn in L; try lia; constructor; [exact (Q O w k eq_refl eq_refl)|]. apply IH; [lia|]. intros j; exact (Q (S j)). }
    apply G; [symmetry; exact Lv|]. intros j w c Ej Ec. assert (B : (j < length ks)%nat) by (rewrite <- Lw; apply nth_error_Some; congruence).
    destruct (nth_error ks j) as [k|] eqn:Ek; [|apply nth_error_None in Ek; lia]. destruct (Fw j w k Ej Ek) as (col & Hc & A & _).
    inversion A as [|? ? _ A']; subst. rewrite Forall_forall in A'. apply A'.
    clear - Hc J Ec. induction Hc as [|v c' rows col E Hc IH]; [contradiction|]. destruct J as [->|J]; [left; congruence|right; apply IH, J]. }
  set (line := fun cells => sjoin [32; 124; 32] (map (fun p => ljust (fst p) (snd p)) (combine widths cells))).
  exists widths, rows, (line ks), (sjoin [45; 43; 45] (map (fun n => repeat 45 n) widths)), (map line rows).
  assert (Lx : forall cells, length cells = length widths -> Forall2 (fun w c => (length c <= w)%nat) widths cells ->
    length (line cells) = (fold_right Nat.add 0 widths + 3 * (length ks - 1))%nat).
  { intros cells E F. unfold line. rewrite (sjoin_length widths); [lia|reflexivity| |].
    - clear - F. induction F as [|w c ws cs L F IH]; constructor; [apply ljust_length, L|exact IH].
    - intros Q. apply map_eq_nil in Q. destruct widths; [destruct ks; [congruence|discriminate]|]. destruct cells; discriminate. }
  assert (Nw : widths <> []) by (intros ->; destruct ks; [congruence|discriminate]).
  split; [exact H|]. split.
  { unfold pprint. cbn [bind]. rewrite Ew. cbn [bind]. fold line.
    assert (M : mapM (fun r => vs <- mapM (dict_at (asdict r)) ks ;; Ok (line vs)) t = Ok (map line rows)).
    { clear - H O. induction H as [|r vs t rows A H IH]; [reflexivity|]. inversion O as [|? ? Or O']; subst. cbn [mapM map].
      assert (E : mapM (dict_at (asdict r)) ks = Ok vs).
      { apply F2_mapM. clear - A Or. induction A as [|k v ks vs C A IH]; constructor; [apply (dict_at_cell _ _ _ Or), C|exact IH]. }
      rewrite E. cbn [bind]. rewrite (IH O'). reflexivity. }
    transitivity (rows <- mapM (fun r => vs <- mapM (dict_at (asdict r)) ks ;; Ok (line vs)) t ;;
      Ok (line ks :: sjoin [45; 43; 45] (map (fun n => repeat 45 n) widths) :: rows)); [reflexivity|]. rewrite M. reflexivity. }
  split; [exact Fw|]. split; [apply line_shows_ok; [symmetry; exact Lw|exact Fk]|]. split.
  { clear - Fr. induction Fr as [|vs rows [A B] _ IH]; constructor; [apply line_shows_ok; assumption|exact IH]. }
  assert (Lru : length (sjoin [45; 43; 45] (map (fun n => repeat 45 n) widths)) = (fold_right Nat.add 0 widths + 3 * (length ks - 1))%nat).
  { rewrite (sjoin_length widths); [rewrite Lw; reflexivity|reflexivity| |].
    - clear. induction widths as [|w ws IH]; constructor; [apply repeat_length|exact IH].
    - intros Q. apply map_eq_nil in Q. contradiction. }
  split.
  { constructor; [apply Lx; [symmetry; exact Lw|exact Fk]|]. constructor; [exact Lru|]. rewrite Forall_map. eapply Forall_impl; [|exact Fr]. intros vs [A B]. apply Lx; assumption. }
  pose proof (rule_chars widths Nw) as RC. split.
  - intros p. split.
    + intros E. destruct (RC p 43 E) as [[_ (j & B & P)]|[Q _]]; [|discriminate]. exists j. rewrite <- Lw. auto.
    + intros (j & B & P). destruct (nth_error (sjoin [45; 43; 45] (map (fun n => repeat 45 n) widths)) p) as [c|] eqn:E.
      * destruct (RC p c E) as [[-> _]|[_ Q]]; [reflexivity|]. exfalso. apply (Q j); [lia|exact P].
      * exfalso. apply nth_error_None in E. rewrite Lru in E. subst p. unfold offset in E.
        assert (S : forall n l, (fold_right Nat.add 0 (firstn n l) <= fold_right Nat.add 0 l)%nat).
        { clear. induction n as [|n IH]; intros [|x l]; cbn; try lia. specialize (IH l). lia. }
        specialize (S j widths). lia.
  - apply Forall_forall. intros c J. apply In_nth_error in J. destruct J as [p E]. destruct (RC p c E) as [[-> _]|[-> _]]; auto.
Qed.
Lemma pprint_default fields r t : r_fields r = fields -> pprint (r :: t) None = pprint (r :: t) (Some fields) /\ pprint [] None = Err IndexError.
Proof. intros <-. split; reflexivity. Qed.
