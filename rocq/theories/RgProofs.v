(** RangeGrid: proofs. *)
From Coq Require Import QArith Lia ZifyBool.
From Verif Require Import Num VlvModel VlvProofs GridModel GridProofs StrModel StrProofs PfProofs PfHist RgModel RgSpec.
Open Scope Z_scope.

(** ** Header *)
Lemma ascii_plain s : plain_name s -> ascii_encode s = Ok s.
Proof.
  intros F. unfold ascii_encode. replace (forallb (fun c => c <? 128) s) with true; [reflexivity|].
  symmetry. apply forallb_forall. unfold plain_name in F. rewrite Forall_forall in F.
  intros c Hc. specialize (F c Hc). lia.
Qed.
Lemma b2z_cases b : negb (b2z b =? 0) = b.
Proof. destruct b; reflexivity. Qed.
Definition ser_col (f : field) : list Z :=
  field_name f ++ [0] ++
  match f with
  | FI f => 0 :: b2z (i_nullable f) :: vlv (i_size f) ++ svlv (i_min f) ++ svlv (i_max f)
  | FF f => 1 :: b2z (f_nullable f) :: vlv (Z.of_nat (f_size f)) ++ svlv (Qnum (f_min f)) ++ svlv (Qnum (f_max f))
  | FS f => 2 :: b2z (s_nullable f) :: vlv (Z.of_nat (s_size f))
  end.
Lemma bound_ok q : (exists z, q = inject_Z z) -> bound_svlv q = Ok (svlv (Qnum q)).
Proof. intros (z & ->). unfold bound_svlv. cbn. apply writesvlv_ok. Qed.
Lemma bound_inv q bs : bound_svlv q = Ok bs -> exists z, q = inject_Z z.
Proof.
  unfold bound_svlv. destruct q as [n d]. cbn. destruct d; try discriminate. intros _. exists n. reflexivity.
Qed.
Lemma ivar_size_nonneg name mn mx nl f : ivar_new name mn mx nl = Ok f -> 0 <= i_size f.
Proof.
  unfold ivar_new. intros H. destruct (negb _); [discriminate|]. apply bind_ok in H.
  destruct H as (s & S & H). injection H as <-. cbn.
  repeat match type of S with context [if ?c then _ else _] => destruct c; [injection S as <-; lia|] end.
  discriminate.
Qed.
Lemma column_ok f : constructed f -> plain_name (field_name f) -> int_bounds f -> rg_column f = Ok (ser_col f).
Proof.
  intros C P B. destruct f as [f|f|f]; unfold rg_column, ser_col; cbn [field_name] in *;
    rewrite ascii_plain by exact P; cbn [bind].
  - destruct C as (nm & mn & mx & nl & C). rewrite writevlv_ok by (eapply ivar_size_nonneg; exact C). cbn [bind].
    rewrite !writesvlv_ok. reflexivity.
  - rewrite writevlv_ok by lia. cbn [bind]. destruct B as [B1 B2]. rewrite !bound_ok by assumption. reflexivity.
  - rewrite writevlv_ok by lia. reflexivity.
Qed.
Lemma column_inv f bs : rg_column f = Ok bs -> int_bounds f /\ forallb (fun c => c <? 128) (field_name f) = true.
Proof.
  destruct f as [f|f|f]; unfold rg_column; cbn [field_name]; intros E;
    apply bind_ok in E; destruct E as (nm & En & E); unfold ascii_encode in En;
    destruct (forallb _ _) eqn:A; try discriminate; (split; [|reflexivity]); try exact I.
  apply bind_ok in E; destruct E as (sz & _ & E). apply bind_ok in E; destruct E as (a & Ea & E).
  apply bind_ok in E; destruct E as (b & Eb & E). split; eapply bound_inv; eassumption.
Qed.
Lemma ivar_new_same name mn mx nl f : ivar_new name mn mx nl = Ok f ->
  i_name f = name /\ i_min f = mn /\ i_max f = mx /\ i_nullable f = nl.
Proof.
  unfold ivar_new. intros H. destruct (negb _); [discriminate|]. apply bind_ok in H.
  destruct H as (s & _ & H). injection H as <-. auto.
Qed.
Lemma fvar_new_same name mn mx size nl f : fvar_new name mn mx size nl = Ok f ->
  f_name f = name /\ f_min f = mn /\ f_max f = mx /\ f_nullable f = nl /\ Z.of_nat (f_size f) = size.
Proof.
  unfold fvar_new. intros H. destruct (negb _); [discriminate|].
  destruct ((size =? 1) || (size =? 2) || (size =? 4) || (size =? 8)) eqn:E; [|discriminate].
  cbn in H. injection H as <-. cbn. repeat split. lia.
Qed.
Lemma read_column_ok f r : constructed f -> int_bounds f ->
  rg_read_column (field_name f) (skipn (length (field_name f ++ [0])) (ser_col f ++ r)) = Ok (f, r).
Proof.
  intros C B. unfold ser_col. rewrite app_assoc, <- app_assoc, skipn_exact by reflexivity.
  destruct f as [f|f|f]; cbn [field_name app] in *; unfold rg_read_column; cbn [read_ord bind Z.eqb Pos.eqb].
  - destruct C as (nm & mn & mx & nl & C). pose proof (ivar_size_nonneg _ _ _ _ _ C) as S.
    destruct (ivar_new_same _ _ _ _ _ C) as (-> & -> & -> & ->).
    rewrite <- !app_assoc, readvlv_vlv by exact S. cbn [bind]. rewrite readsvlv_svlv. cbn [bind].
    rewrite readsvlv_svlv. cbn [bind]. rewrite b2z_cases, C. reflexivity.
  - destruct C as (nm & mn & mx & size & nl & C). destruct B as [(a & Ba) (b & Bb)].
    destruct (fvar_new_same _ _ _ _ _ _ C) as (E1 & E2 & E3 & E4 & E5). rewrite Ba in *. rewrite Bb in *. subst mn mx.
    rewrite E1, E4, E5. cbn [Qnum inject_Z].
    rewrite <- !app_assoc, readvlv_vlv by lia. cbn [bind]. rewrite readsvlv_svlv. cbn [bind].
    rewrite readsvlv_svlv. cbn [bind]. rewrite b2z_cases, C. reflexivity.
  - rewrite readvlv_vlv by lia. cbn [bind]. rewrite b2z_cases, Nat2Z.id. destruct f; reflexivity.
Qed.
Lemma read_columns_ok fuel fs r : Forall constructed fs -> Forall int_bounds fs ->
  Forall (fun f => plain_name (field_name f) /\ (length (field_name f) < fuel)%nat) fs ->
  rg_read_columns fuel (length fs) (flat_map ser_col fs ++ r) = Some (Ok (fs, r)).
Proof.
  intros C B P. revert r. induction fs as [|f fs IH]; intros r; [reflexivity|].
  inversion C; inversion B; inversion P as [|? ? (Pn & Pl) P']; subst.
  cbn [length rg_read_columns flat_map].
  assert (E : (ser_col f ++ flat_map ser_col fs) ++ r =
    (field_name f ++ [0]) ++ skipn (length (field_name f ++ [0])) (ser_col f ++ flat_map ser_col fs ++ r)).
  { rewrite <- app_assoc. unfold ser_col at 1 3. rewrite !app_assoc, <- !app_assoc.
    rewrite (app_assoc (field_name f) [0]). rewrite skipn_exact by reflexivity.
    rewrite <- !app_assoc. reflexivity. }
  rewrite E, readascii_ok by assumption. rewrite read_column_ok by assumption.
  rewrite IH by assumption. reflexivity.
Qed.
Lemma header_ok fs : Forall constructed fs -> Forall (fun f => plain_name (field_name f)) fs -> Forall int_bounds fs ->
  (length fs < 256)%nat ->
  rg_header fs = Ok ([82; 71; 1] ++ [Z.of_nat (length fs)] ++ [0; 0; 0; 0] ++ flat_map ser_col fs).
Proof.
  intros C P B L. unfold rg_header. replace (Z.of_nat (length fs) <? 256) with true by lia. cbn [py_assert bind].
  rewrite one_byte_ok by (unfold is_byte; lia). cbn [bind]. rewrite (mapM_map_ok rg_column ser_col).
  - cbn [bind]. rewrite flat_map_concat_map. reflexivity.
  - rewrite Forall_forall in *. intros f Hf. apply column_ok; auto.
Qed.
Lemma header_iff fs : Forall constructed fs -> Forall (fun f => plain_name (field_name f)) fs ->
  ((exists h, rg_header fs = Ok h) <-> (length fs < 256)%nat /\ Forall int_bounds fs).
Proof.
  intros C P. split.
  - intros (h & E). unfold rg_header in E. destruct (Z.ltb_spec (Z.of_nat (length fs)) 256) as [L|]; [|discriminate].
    split; [lia|]. cbn [py_assert bind] in E. apply bind_ok in E. destruct E as (n & _ & E).
    apply bind_ok in E. destruct E as (cols & E & _). apply mapM_inv in E. clear - E.
    induction E as [|f bs fs bss Hf _ IH]; constructor; [|exact IH]. apply column_inv in Hf. apply Hf.
  - intros [L B]. eexists. apply header_ok; assumption.
Qed.
Lemma header_shape fs h : Forall constructed fs -> Forall (fun f => plain_name (field_name f)) fs ->
  rg_header fs = Ok h -> Forall int_bounds fs /\ (length fs < 256)%nat /\
  h = [82; 71; 1] ++ [Z.of_nat (length fs)] ++ [0; 0; 0; 0] ++ flat_map ser_col fs.
Proof.
  intros C P E. destruct (proj1 (header_iff fs C P) (ex_intro _ h E)) as [L B].
  split; [exact B|]. split; [exact L|]. rewrite (header_ok fs C P B L) in E. congruence.
Qed.

(** ** Index *)
Lemma univ_app a b : ~ In 13 a -> univ_newlines (a ++ b) = a ++ univ_newlines b.
Proof.
  induction a as [|c a IH]; intros N; [reflexivity|]. cbn [In] in N. cbn [app].
  assert (E : univ_newlines (c :: a ++ b) = c :: univ_newlines (a ++ b)).
  { destruct c as [|p|p]; try reflexivity. repeat (destruct p as [p|p|]; try reflexivity). tauto. }
  rewrite E, IH by tauto. reflexivity.
Qed.
Lemma str_int_notin z c : c <> 45 -> ~ 48 <= c <= 57 -> ~ In c (str_int z).
Proof.
  intros N1 N2 I. pose proof (proj1 (str_int_chars z)) as F. rewrite Forall_forall in F. apply F in I. lia.
Qed.
Lemma join_notin c d l : c <> d -> Forall (fun w => ~ In d w) l -> ~ In d (join c l).
Proof.
  intros N F. induction F as [|w l Hw F IH]; [intros []|]. cbn [join]. destruct l as [|w' l]; [exact Hw|].
  rewrite in_app_iff. intros [I|[I|I]]; [exact (Hw I)|congruence|exact (IH I)].
Qed.
Lemma ints_notin d l : d <> 45 -> ~ 48 <= d <= 57 -> Forall (fun w => ~ In d w) (map str_int l).
Proof. intros A B. apply Forall_map, Forall_forall. intros z _. apply str_int_notin; assumption. Qed.
Definition entry_lines (id_ : list Z) (lens : list Z) : list Z :=
  id_ ++ [32] ++ str_int (Z.of_nat (length lens)) ++ [10] ++ join 32 (map str_int lens) ++ [10].

Lemma notin_app {A} (x : A) a b : ~ In x a -> ~ In x b -> ~ In x (a ++ b).
Proof. rewrite in_app_iff. tauto. Qed.
Lemma entry_no_cr id_ lens : ~ In 13 id_ -> ~ In 13 (entry_lines id_ lens).
Proof.
  intros N. unfold entry_lines. repeat apply notin_app; try exact N; try (cbn; lia).
  - apply str_int_notin; lia.
  - apply join_notin; [lia|]. apply ints_notin; lia.
Qed.
Lemma first_line id_ lens s : ~ In 10 id_ ->
  readline (entry_lines id_ lens ++ s) =
  (id_ ++ [32] ++ str_int (Z.of_nat (length lens)) ++ [10], join 32 (map str_int lens) ++ 10 :: s).
Proof.
  intros N. unfold entry_lines.
  assert (A : ~ In 10 (id_ ++ [32] ++ str_int (Z.of_nat (length lens)))).
  { repeat apply notin_app; try exact N; [cbn; lia|apply str_int_notin; lia]. }
  pose proof (readline_ok _ (join 32 (map str_int lens) ++ 10 :: s) A) as R.
  cbn [app] in *. rewrite <- !app_assoc in *. cbn [app] in *. rewrite <- !app_assoc in *. cbn [app] in *. rewrite <- app_assoc. exact R.
Qed.
Lemma second_line lens s : readline (join 32 (map str_int lens) ++ 10 :: s) = (join 32 (map str_int lens) ++ [10], s).
Proof. apply readline_ok. apply join_notin; [lia|]. apply ints_notin; lia. Qed.
Lemma read_lens lens : lens <> [] -> mapM py_int (split_on 32 (join 32 (map str_int lens) ++ [10])) = Ok lens.
Proof.
  intros N. destruct (exists_last N) as (l & z & ->). rewrite map_app. cbn [map].
  rewrite join_snoc, split_join.
  - clear N. induction l as [|y l IH]; cbn [map app mapM].
    + rewrite py_int_str by (repeat constructor). reflexivity.
    + rewrite <- (app_nil_r (str_int y)), py_int_str by constructor. cbn [bind]. rewrite IH. reflexivity.
  - destruct (map str_int l); discriminate.
  - apply Forall_app. split; [apply ints_notin; lia|]. constructor; [|constructor].
    apply notin_app; [apply str_int_notin; lia|cbn; lia].
Qed.
Lemma read_entry_ok id_ lens n s : ~ In 32 id_ -> ~ In 10 id_ -> lens <> [] ->
  read_entries (S n) (entry_lines id_ lens ++ s) = rmap (cons (id_, lens)) (read_entries n s).
Proof.
  intros A B N. cbn [read_entries]. rewrite first_line by exact B.
  change (id_ ++ [32] ++ str_int (Z.of_nat (length lens)) ++ [10]) with (id_ ++ 32 :: (str_int (Z.of_nat (length lens)) ++ [10])).
  rewrite split_on_cons by exact A. rewrite split_on_none by (apply notin_app; [apply str_int_notin; lia|cbn; lia]).
  rewrite py_int_str by repeat constructor. cbn [bind]. rewrite second_line, read_lens by exact N. cbn [bind].
  destruct (read_entries n s); reflexivity.
Qed.
Definition good_entry (e : list Z * list Z) : Prop := clean_id (fst e) /\ snd e <> [].
Lemma read_entries_ok l : forall n s, Forall good_entry l ->
  read_entries (length l + n) (flat_map (fun e => entry_lines (fst e) (snd e)) l ++ s) =
  rmap (app l) (read_entries n s).
Proof.
  induction l as [|[id_ lens] l IH]; intros n s F.
  - cbn. destruct (read_entries n s); reflexivity.
  - inversion F as [|? ? ((A & B & _) & N) F']; subst. cbn [fst snd] in *. cbn [length plus flat_map].
    rewrite <- app_assoc. rewrite read_entry_ok by assumption. rewrite IH by exact F'.
    destruct (read_entries n s); reflexivity.
Qed.
Definition text_of (index : list (eid * list Z)) : list (list Z * list Z) := map (fun e => (eid_text (fst e), snd e)) index.
Lemma flat_lines index : flat_map index_line index =
  flat_map (fun e => entry_lines (fst e) (snd e)) (text_of index).
Proof. induction index as [|e l IH]; [reflexivity|]. cbn [flat_map text_of map]. fold (text_of l). rewrite IH. reflexivity. Qed.
Lemma no_cr l : Forall good_entry l -> ~ In 13 (flat_map (fun e => entry_lines (fst e) (snd e)) l).
Proof.
  induction 1 as [|e l ((_ & _ & A) & _) _ IH]; [intros []|]. cbn [flat_map]. apply notin_app; [|exact IH].
  apply entry_no_cr. exact A.
Qed.
Lemma readindex_count n s : rg_readindex (str_int (Z.of_nat n) ++ 10 :: s) = read_entries n (univ_newlines s).
Proof.
  unfold rg_readindex. rewrite univ_app by (apply str_int_notin; lia).
  change (univ_newlines (10 :: s)) with (10 :: univ_newlines s).
  rewrite readline_ok by (apply str_int_notin; lia). rewrite py_int_str by repeat constructor.
  cbn [bind]. rewrite Nat2Z.id. reflexivity.
Qed.
Lemma index_round index : Forall good_entry (text_of index) -> rg_readindex (rg_writeindex index) = Ok (text_of index).
Proof.
  intros F. unfold rg_writeindex. cbn [app]. rewrite readindex_count, flat_lines, univ_id by (apply no_cr; exact F).
  pose proof (read_entries_ok (text_of index) 0 [] F) as K. rewrite Nat.add_0_r, app_nil_r in K.
  unfold text_of in K at 1. rewrite map_length in K. rewrite K. cbn. rewrite app_nil_r. reflexivity.
Qed.
(** The first entry that cannot be read. *)
Lemma index_bad index1 id_ lens index2 : Forall good_entry (text_of index1) ->
  ~ In 10 (eid_text id_) -> ~ In 13 (eid_text id_) -> In 32 (eid_text id_) \/ lens = [] ->
  rg_readindex (rg_writeindex (index1 ++ (id_, lens) :: index2)) = Err ValueError.
Proof.
  intros F A B Bad. unfold rg_writeindex. cbn [app]. rewrite readindex_count, flat_map_app, flat_lines.
  rewrite univ_app by (apply no_cr; exact F). cbn [flat_map]. unfold index_line at 1. cbn [fst snd].
  fold (entry_lines (eid_text id_) lens). rewrite univ_app by (apply entry_no_cr; exact B).
  rewrite app_length. cbn [length].
  replace (length index1) with (length (text_of index1)) by apply map_length.
  rewrite read_entries_ok by exact F. cbn [read_entries]. rewrite first_line by exact A.
  destruct (in_dec Z.eq_dec 32 (eid_text id_)) as [I|I].
  - match goal with |- context [split_on 32 ?l] => pose proof (split_on_count 32 l) as K end.
    rewrite !count_occ_app in K. cbn [count_occ] in K. apply (count_occ_In Z.eq_dec) in I.
    destruct (Z.eq_dec 32 32) as [_|]; [|congruence].
    match goal with |- context [split_on 32 ?l] => destruct (split_on 32 l) as [|? [|? [|? ?]]] end; cbn in K; try lia; reflexivity.
  - destruct Bad as [I'|E]; [contradiction|]. subst lens.
    cbn [map join app length]. rewrite split_on_cons by exact I.
    rewrite split_on_none by (apply notin_app; [apply str_int_notin; lia|cbn; lia]).
    rewrite py_int_str by repeat constructor. reflexivity.
Qed.

(** ** Writing *)
Definition enc (fs : row) (r : list val) (d : list Z) : Prop := row_encode fs r = Ok d.
Definition lenz {A} (l : list A) : Z := Z.of_nat (length l).
Lemma rows_ok fs rows : forall bs n, rg_rows fs rows = (bs, Ok n) ->
  n = lenz rows /\ exists ds, Forall2 (enc fs) rows ds /\ bs = concat ds.
Proof.
  unfold lenz. induction rows as [|r rows IH]; intros bs n; cbn [rg_rows].
  - intros E. injection E as <- <-. split; [reflexivity|]. exists []. split; [constructor|reflexivity].
  - destruct (row_encode fs r) as [d|e] eqn:Er; [|discriminate].
    destruct (rg_rows fs rows) as [bs' [n'|e]]; cbn [rmap]; intros E; [|discriminate].
    injection E as <- <-. destruct (IH _ _ eq_refl) as (-> & ds & F & ->). cbn [length]. split; [lia|].
    exists (d :: ds). split; [constructor; assumption|reflexivity].
Qed.
Lemma rows_err fs rows : forall bs e, rg_rows fs rows = (bs, Err e) ->
  exists pre r post ds, rows = pre ++ r :: post /\ row_encode fs r = Err e /\ Forall2 (enc fs) pre ds /\ bs = concat ds.
Proof.
  induction rows as [|r rows IH]; intros bs e; cbn [rg_rows]; [discriminate|].
  destruct (row_encode fs r) as [d|e'] eqn:Er.
  - destruct (rg_rows fs rows) as [bs' [n'|e']]; cbn [rmap]; intros E; [discriminate|].
    injection E as <- <-. destruct (IH _ _ eq_refl) as (pre & r' & post & ds & -> & E' & F & ->).
    exists (r :: pre), r', post, (d :: ds). split; [reflexivity|]. split; [exact E'|]. split; [constructor; assumption|reflexivity].
  - intros E. injection E as <- <-. exists [], r, rows, []. split; [reflexivity|]. split; [exact Er|]. split; [constructor|reflexivity].
Qed.
Lemma segs_ok fs segs : forall bs l, rg_segs fs segs = (bs, Ok l) ->
  l = map lenz segs /\ exists ds, Forall2 (enc fs) (concat segs) ds /\ bs = concat ds.
Proof.
  induction segs as [|rows segs IH]; intros bs l; cbn [rg_segs].
  - intros E. injection E as <- <-. split; [reflexivity|]. exists []. split; [constructor|reflexivity].
  - destruct (rg_rows fs rows) as [bs1 [n|e]] eqn:Er; [|discriminate].
    destruct (rg_segs fs segs) as [bs2 [l'|e]]; cbn [rmap]; intros E; [|discriminate].
    injection E as <- <-. destruct (IH _ _ eq_refl) as (-> & ds & F & ->).
    apply rows_ok in Er. destruct Er as (-> & ds1 & F1 & ->). split; [reflexivity|].
    exists (ds1 ++ ds). split; [apply Forall2_app; assumption|]. symmetry. apply concat_app.
Qed.
Lemma segs_err fs segs : forall bs e, rg_segs fs segs = (bs, Err e) ->
  exists pre r post ds, concat segs = pre ++ r :: post /\ row_encode fs r = Err e /\ Forall2 (enc fs) pre ds /\ bs = concat ds.
Proof.
  induction segs as [|rows segs IH]; intros bs e; cbn [rg_segs]; [discriminate|].
  destruct (rg_rows fs rows) as [bs1 [n|e']] eqn:Er.
  - destruct (rg_segs fs segs) as [bs2 [l'|e']]; cbn [rmap]; intros E; [discriminate|].
    injection E as <- <-. destruct (IH _ _ eq_refl) as (pre & r' & post & ds & E1 & E2 & F & ->).
    apply rows_ok in Er. destruct Er as (-> & ds1 & F1 & ->).
    exists (rows ++ pre), r', post, (ds1 ++ ds). cbn [concat]. rewrite E1, app_assoc, concat_app. split; [reflexivity|]. split; [exact E2|].
    split; [apply Forall2_app; assumption|reflexivity].
  - intros E. injection E as <- <-. apply rows_err in Er. destruct Er as (pre & r & post & ds & -> & E2 & F & ->).
    exists pre, r, (post ++ concat segs), ds. cbn [concat]. rewrite <- app_assoc. split; [reflexivity|]. split; [exact E2|]. split; [exact F|reflexivity].
Qed.
(** The writer's file holds exactly [rows] after the header [h]. *)
Definition holds (fs : row) (h : list Z) (rows : list (list val)) (w : rgwriter) : Prop :=
  rw_row w = fs /\ exists ds, Forall2 (enc fs) rows ds /\ rw_file w = h ++ concat ds.
Definition id_at (k : Z) (id_ : option eid) : eid := match id_ with None => EInt k | Some e => e end.
Lemma write_ok fs h rows w segs id_ w' : holds fs h rows w -> rg_write w segs id_ = (w', Ok tt) ->
  holds fs h (rows ++ concat segs) w' /\
  rw_index w' = rw_index w ++ [(id_at (lenz (rw_index w)) id_, map lenz segs)].
Proof.
  intros (R & ds & F & Ef) E. unfold rg_write in E. rewrite R in E.
  destruct (rg_segs fs segs) as [bs [l|e]] eqn:Es; [|discriminate]. injection E as <-.
  apply segs_ok in Es. destruct Es as (-> & ds' & F' & ->). cbn [rw_index]. split; [|reflexivity].
  split; [reflexivity|]. exists (ds ++ ds'). cbn. rewrite Ef, concat_app, app_assoc.
  split; [apply Forall2_app; assumption|reflexivity].
Qed.
Lemma write_err fs h rows w segs id_ w' e : holds fs h rows w -> rg_write w segs id_ = (w', Err e) ->
  rw_index w' = rw_index w /\ exists pre r post, concat segs = pre ++ r :: post /\ row_encode fs r = Err e /\
  holds fs h (rows ++ pre) w'.
Proof.
  intros (R & ds & F & Ef) E. unfold rg_write in E. rewrite R in E.
  destruct (rg_segs fs segs) as [bs [l|e']] eqn:Es; [discriminate|]. injection E as <- <-.
  apply segs_err in Es. destruct Es as (pre & r & post & ds' & E1 & E2 & F' & ->). split; [reflexivity|].
  exists pre, r, post. split; [exact E1|]. split; [exact E2|]. split; [reflexivity|]. exists (ds ++ ds').
  cbn. rewrite Ef, concat_app, app_assoc. split; [apply Forall2_app; assumption|reflexivity].
Qed.
Lemma write_res w segs id_ w' u : rg_write w segs id_ = (w', Ok u) -> rg_write w segs id_ = (w', Ok tt).
Proof. destruct u. auto. Qed.
Definition rows_of (l : list (option eid * list (list (list val)))) : list (list val) := concat (concat (map snd l)).
Definition index_of_hist (k : Z) (l : list (option eid * list (list (list val)))) : list (eid * list Z) :=
  combine (ids_from k l) (map (fun e => map lenz (snd e)) l).
Lemma ids_length l : forall k, length (ids_from k l) = length l.
Proof. induction l as [|[[e|] s] l IH]; intros k; cbn; [reflexivity| |]; rewrite IH; reflexivity. Qed.
Lemma ids_cons k id_ s l : ids_from k ((id_, s) :: l) = id_at k id_ :: ids_from (k + 1) l.
Proof. destruct id_; reflexivity. Qed.
Lemma write_all_ok fs h l : forall rows w w', holds fs h rows w -> rg_write_all w l = Some w' ->
  holds fs h (rows ++ rows_of l) w' /\ rw_index w' = rw_index w ++ index_of_hist (lenz (rw_index w)) l.
Proof.
  induction l as [|[id_ segs] l IH]; intros rows w w' H E; cbn [rg_write_all] in E.
  - injection E as <-. unfold rows_of, index_of_hist. cbn. rewrite !app_nil_r. auto.
  - destruct (rg_write w segs id_) as [w1 [u|e]] eqn:Ew; [|discriminate]. apply write_res in Ew.
    destruct (write_ok _ _ _ _ _ _ _ H Ew) as (H1 & I1). destruct (IH _ _ _ H1 E) as (H2 & I2).
    unfold rows_of in *. cbn [map snd concat]. rewrite concat_app, app_assoc. split; [exact H2|].
    rewrite I2, I1, <- app_assoc. f_equal. unfold index_of_hist. rewrite ids_cons. cbn [map combine snd app]. f_equal.
    unfold lenz. rewrite app_length. cbn [length]. do 2 f_equal. lia.
Qed.
Lemma new_holds fs w : rg_new fs = Ok w -> exists h, rg_header fs = Ok h /\ holds fs h [] w /\ rw_index w = [].
Proof.
  unfold rg_new. intros E. apply bind_ok in E. destruct E as (h & Eh & E). injection E as <-.
  exists h. split; [exact Eh|]. split; [|reflexivity]. split; [reflexivity|]. exists []. split; [constructor|].
  cbn. rewrite app_nil_r. reflexivity.
Qed.

(** ** Closing *)
Lemma zsum_lenz {A} (l : list (list A)) : zsum (map lenz l) = lenz (concat l).
Proof. unfold lenz. induction l as [|a l IH]; [reflexivity|]. cbn [map concat]. rewrite zsum_cons, app_length, IH. lia. Qed.
Lemma index_rows l : forall k, zsum (map (fun e => zsum (snd e)) (index_of_hist k l)) = nrows l.
Proof.
  unfold nrows, index_of_hist. induction l as [|[id_ s] l IH]; intros k; [reflexivity|].
  rewrite ids_cons. cbn [map snd combine concat]. rewrite zsum_cons, IH, zsum_lenz.
  unfold lenz. rewrite concat_app, app_length. lia.
Qed.
Lemma nrows_app l1 l2 : nrows (l1 ++ l2) = nrows l1 + nrows l2.
Proof. unfold nrows. rewrite map_app, !concat_app, app_length. lia. Qed.
Definition head_of (fs : row) (n : Z) : list Z :=
  [82; 71; 1] ++ [Z.of_nat (length fs)] ++ rev (be_bytes 4 n) ++ flat_map ser_col fs.

Lemma close_ok fs rows w rg md : Forall constructed fs -> Forall (fun f => plain_name (field_name f)) fs ->
  forall h, rg_header fs = Ok h -> holds fs h rows w -> rg_close w = Ok (rg, md) ->
  md = rg_writeindex (rw_index w) /\ Forall int_bounds fs /\ (length fs < 256)%nat /\
  0 <= zsum (map (fun e => zsum (snd e)) (rw_index w)) < 2 ^ 32 /\
  exists n ds, 0 <= n < 2 ^ 32 /\ Forall2 (enc fs) rows ds /\ rg = head_of fs n ++ concat ds.
Proof.
  intros C P h Eh (_ & ds & F & Ef) E. destruct (header_shape _ _ C P Eh) as (B & L & Hh).
  unfold rg_close in E. apply bind_ok in E. destruct E as (data & Ed & E). injection E as <- <-.
  unfold pack_le in Ed. destruct (pack_be 4 _) as [d|] eqn:Ep; [|discriminate]. injection Ed as <-.
  apply pack_be_inv in Ep. destruct Ep as [R ->]. change (256 ^ Z.of_nat 4) with (2 ^ 32) in R.
  split; [reflexivity|]. split; [exact B|]. split; [exact L|]. split; [exact R|].
  eexists _, ds. split; [exact R|]. split; [exact F|]. rewrite Ef, Hh. unfold head_of.
  cbn [app firstn skipn]. rewrite <- app_assoc. reflexivity.
Qed.
Lemma close_iff w : (exists x, rg_close w = Ok x) <-> 0 <= zsum (map (fun e => zsum (snd e)) (rw_index w)) < 2 ^ 32.
Proof.
  unfold rg_close, pack_le. change (2 ^ 32) with (256 ^ Z.of_nat 4). split.
  - intros (x & E). destruct (pack_be 4 _) as [d|] eqn:Ep; [|discriminate]. apply pack_be_inv in Ep. apply Ep.
  - intros R. rewrite pack_be_ok by exact R. cbn. eexists. reflexivity.
Qed.

(** ** Opening *)
Lemma open_ok coll names_ok fuel fs n ds index : Forall constructed fs -> Forall int_bounds fs -> (length fs < 256)%nat ->
  Forall (fun f => plain_name (field_name f) /\ (length (field_name f) < fuel)%nat) fs ->
  0 <= n < 2 ^ 32 -> Forall good_entry (text_of index) ->
  let pos := Z.of_nat (length (head_of fs n)) in
  rg_open coll names_ok fuel (head_of fs n ++ concat ds) (rg_writeindex index) =
  Some (if negb coll then Err NameError else if negb (names_ok (map field_name fs)) then Err ValueError
        else Ok (mkrr (head_of fs n ++ concat ds) (text_of index) fs pos pos 0)).
Proof.
  intros C B L P R G pos. unfold rg_open. rewrite index_round by exact G.
  assert (E : exists t, head_of fs n ++ concat ds = 82 :: 71 :: 1 :: Z.of_nat (length fs) :: t /\
    t = rev (be_bytes 4 n) ++ flat_map ser_col fs ++ concat ds).
  { eexists. split; [unfold head_of; cbn [app]; rewrite <- app_assoc; reflexivity|reflexivity]. }
  destruct E as (t & E & Et). rewrite E. unfold f_read. set (k4 := 4%nat) in |- *.
  cbn [firstn skipn zlist_eqb Z.eqb Pos.eqb andb py_assert bind read_ord]. subst k4.
  rewrite Et, firstn_exact, skipn_exact by (rewrite rev_length; apply be_bytes_length).
  unfold unpack_le. rewrite rev_involutive, unpack_be_bytes by exact R. cbn [bind]. rewrite Nat2Z.id.
  rewrite read_columns_ok by assumption. rewrite <- Et, <- E. destruct coll, (names_ok (map field_name fs)); cbn [negb]; try reflexivity.
  rewrite app_length. do 2 f_equal. f_equal; unfold pos; lia.
Qed.
Lemma open_false names_ok fuel rg md rd : rg_open false names_ok fuel rg md <> Some (Ok rd).
Proof.
  unfold rg_open. destruct (rg_readindex md); [|discriminate]. unfold f_read.
  match goal with |- context [match ?x with Ok _ => _ | Err _ => _ end] => destruct x as [[nc s]|] end; [|discriminate].
  destruct (rg_read_columns _ _ _) as [[[? ?]|]|]; discriminate.
Qed.

(** ** Reading *)
Fixpoint cut {A} (ns : list nat) (l : list A) : list (list A) :=
  match ns with [] => [] | n :: r => firstn n l :: cut r (skipn n l) end.
Lemma cut_concat {A} (parts : list (list A)) l : cut (map (@length A) parts) (concat parts ++ l) = parts.
Proof.
  induction parts as [|p parts IH]; [reflexivity|]. cbn [map concat cut]. rewrite <- app_assoc.
  rewrite firstn_exact, skipn_exact by reflexivity. rewrite IH. reflexivity.
Qed.
Lemma concat_cut {A} ns : forall l : list A, (list_sum ns <= length l)%nat -> concat (cut ns l) = firstn (list_sum ns) l.
Proof.
  induction ns as [|n ns IH]; intros l L; [reflexivity|]. cbn [cut concat list_sum fold_right]. fold (list_sum ns).
  change (list_sum (n :: ns)) with (n + list_sum ns)%nat in *.
  rewrite IH by (rewrite skipn_length; lia). rewrite <- (firstn_skipn n l) at 3.
  rewrite firstn_app, firstn_firstn, firstn_length. replace (Nat.min (n + list_sum ns) n) with n by lia.
  f_equal. f_equal. lia.
Qed.
Lemma Forall_first {A} (P : A -> Prop) n l : Forall P l -> Forall P (firstn n l).
Proof. intros F. rewrite <- (firstn_skipn n l) in F. apply Forall_app in F. apply F. Qed.
Lemma Forall_skip {A} (P : A -> Prop) n l : Forall P l -> Forall P (skipn n l).
Proof. intros F. rewrite <- (firstn_skipn n l) in F. apply Forall_app in F. apply F. Qed.
Section Read.
  Context (fs : row).
  Let sz := Z.to_nat (row_size fs).
  Definition sized (d : list Z) : Prop := Z.of_nat (length d) = row_size fs.
  Lemma enc_sized r d : enc fs r d -> sized d.
  Proof.
    unfold enc, row_encode, sized. intros E. apply bind_ok in E. destruct E as (ps & _ & E).
    destruct (_ =? _) eqn:Q; [|discriminate]. injection E as <-. lia.
  Qed.
  Lemma encs_sized rows ds : Forall2 (enc fs) rows ds -> Forall sized ds.
  Proof. induction 1; constructor; auto. eapply enc_sized; eassumption. Qed.
  Lemma concat_sized ds : Forall sized ds -> Z.of_nat (length (concat ds)) = row_size fs * lenz ds.
  Proof. unfold lenz. induction 1 as [|d ds H _ IH]; [cbn; lia|]. cbn [concat length]. rewrite app_length. unfold sized in H. lia. Qed.
  Lemma skip_rows ds : forall o, Forall sized ds -> (o <= length ds)%nat ->
    skipn (Z.to_nat (row_size fs * Z.of_nat o)) (concat ds) = concat (skipn o ds).
  Proof.
    intros o F L. rewrite <- (firstn_skipn o ds) at 1. rewrite concat_app. apply skipn_exact.
    rewrite <- (Nat2Z.id (length _)), concat_sized by (apply Forall_first; exact F).
    unfold lenz. rewrite firstn_length. f_equal. f_equal. lia.
  Qed.
  Lemma read_rows_ok ds s : Forall sized ds ->
    rg_read_rows fs (length ds) (concat ds ++ s) = rmap (fun rs => (rs, s)) (mapM (row_decode fs) ds).
  Proof.
    induction 1 as [|d ds H _ IH]; [reflexivity|]. cbn [length rg_read_rows concat mapM]. unfold f_read.
    rewrite <- app_assoc. unfold sized in H. rewrite firstn_exact, skipn_exact by lia.
    destruct (row_decode fs d); [|reflexivity]. cbn [bind]. rewrite IH. destruct (mapM _ ds); reflexivity.
  Qed.
  Lemma read_segs_ok ns : forall ds s, Forall sized ds -> (list_sum ns <= length ds)%nat ->
    rg_read_segs fs (map Z.of_nat ns) (concat ds ++ s) =
    rmap (fun x => (x, concat (skipn (list_sum ns) ds) ++ s)) (mapM (mapM (row_decode fs)) (cut ns ds)).
  Proof.
    induction ns as [|n ns IH]; intros ds s F L; [reflexivity|]. cbn [map rg_read_segs cut mapM].
    change (list_sum (n :: ns)) with (n + list_sum ns)%nat in *. rewrite Nat2Z.id.
    rewrite <- (firstn_skipn n ds) at 1. rewrite concat_app, <- app_assoc.
    pose proof (read_rows_ok (firstn n ds) (concat (skipn n ds) ++ s) (Forall_first _ _ _ F)) as E.
    rewrite firstn_length in E. replace (Nat.min n (length ds)) with n in E by lia. rewrite E.
    destruct (mapM (row_decode fs) (firstn n ds)); [|reflexivity]. cbn [rmap bind].
    rewrite IH by (try (apply Forall_skip; exact F); rewrite skipn_length; lia).
    rewrite skipn_skipn. destruct (mapM _ (cut ns _)); reflexivity.
  Qed.
End Read.
Lemma mapM_ext_F2 {A B C} (f : A -> res C) (g : B -> res C) la lb :
  Forall2 (fun a b => f a = g b) la lb -> mapM f la = mapM g lb.
Proof. induction 1 as [|a b la lb E _ IH]; [reflexivity|]. cbn [mapM]. rewrite E, IH. reflexivity. Qed.
Lemma F2_first {A B} (R : A -> B -> Prop) n la lb : Forall2 R la lb -> Forall2 R (firstn n la) (firstn n lb).
Proof. intros F. revert n. induction F; intros [|n]; cbn; constructor; auto. Qed.
Lemma F2_skip {A B} (R : A -> B -> Prop) n la lb : Forall2 R la lb -> Forall2 R (skipn n la) (skipn n lb).
Proof. intros F. revert n. induction F; intros [|n]; cbn; try constructor; auto. Qed.
Lemma F2_cut {A B} (R : A -> B -> Prop) ns : forall la lb, Forall2 R la lb -> Forall2 (Forall2 R) (cut ns la) (cut ns lb).
Proof.
  induction ns as [|n ns IH]; intros la lb F; cbn [cut]; constructor; [apply F2_first; exact F|].
  apply IH, F2_skip. exact F.
Qed.
Lemma decode_recoded fs rows ds ns : Forall2 (enc fs) rows ds ->
  mapM (mapM (row_decode fs)) (cut ns ds) = recoded fs (cut ns rows).
Proof.
  intros F. symmetry. apply mapM_ext_F2.
  pose proof (F2_cut _ ns _ _ F) as K. induction K as [|a b la lb E _ IH]; constructor; [|exact IH].
  apply mapM_ext_F2. clear - E. induction E as [|r d rows ds E _ IH]; constructor; [|exact IH].
  unfold enc in E. rewrite E. reflexivity.
Qed.
(** A reader opened on [rows] with index [ix], before entity number [i] at
    row [o]. *)
Definition reader_at (fs : row) (n : Z) (ds : list (list Z)) (ix : list (list Z * list Z)) (i o : nat) : rgreader :=
  let h := head_of fs n in
  mkrr (h ++ concat ds) ix fs (lenz h) (lenz h + row_size fs * Z.of_nat o) (Z.of_nat i).
Lemma row_size_pos fs : Forall constructed fs -> 0 <= row_size fs.
Proof.
  intros C. apply row_size_nonneg. rewrite Forall_forall in C. intros f Hf. specialize (C f Hf).
  destruct f; cbn; try lia. destruct C as (nm & mn & mx & nl & C). eapply ivar_size_nonneg. exact C.
Qed.
Lemma read_next fs n rows ds ix i o t ns : Forall constructed fs -> Forall2 (enc fs) rows ds ->
  nth_error ix i = Some (t, map Z.of_nat ns) -> (o + list_sum ns <= length rows)%nat ->
  rg_read (reader_at fs n ds ix i o) None =
  rmap (fun s => (s, reader_at fs n ds ix (S i) (o + list_sum ns))) (recoded fs (cut ns (skipn o rows))).
Proof.
  intros C F N L. pose proof (row_size_pos fs C) as Sp. pose proof (encs_sized _ _ _ F) as Sz.
  pose proof (Forall2_length _ _ _ F) as Len.
  unfold rg_read, reader_at. cbn [rr_idx rr_pos rr_index rr_row rr_file rr_datapos bind].
  rewrite (py_get_nth _ _ _ N). cbn [bind].
  replace (Z.to_nat (lenz (head_of fs n) + row_size fs * Z.of_nat o)) with
    (length (head_of fs n) + Z.to_nat (row_size fs * Z.of_nat o))%nat by (unfold lenz; lia).
  rewrite <- skipn_skipn, skipn_exact by reflexivity. rewrite skip_rows by (assumption || lia).
  pose proof (read_segs_ok fs ns (skipn o ds) [] (Forall_skip _ _ _ Sz)) as E. rewrite !app_nil_r in E.
  rewrite E by (rewrite skipn_length; lia). rewrite (decode_recoded fs (skipn o rows)) by (apply F2_skip; exact F).
  destruct (recoded fs _) as [segs|e]; [|reflexivity]. cbn [rmap bind]. do 3 f_equal; [|lia].
  rewrite skipn_skipn, !(concat_sized fs) by (apply Forall_skip; exact Sz).
  unfold lenz. rewrite !skipn_length. nia.
Qed.
Definition offset (ix : list (list Z * list Z)) (i : nat) : Z := zsum (map (fun e => zsum (snd e)) (firstn i ix)).
Lemma find_ok size id_ ix : forall i idx off lens, nth_error ix i = Some (id_, lens) ->
  (forall j t l, (j < i)%nat -> nth_error ix j = Some (t, l) -> t <> id_) ->
  rg_find size id_ idx off ix = Ok (idx + Z.of_nat i, off + size * offset ix i).
Proof.
  unfold offset. induction ix as [|[t l] ix IH]; intros [|i] idx off lens N H; try discriminate; cbn [rg_find].
  - injection N as -> ->. rewrite zlist_eqb_refl. cbn. f_equal. f_equal; rewrite ?zsum_nil; lia.
  - cbn in N. destruct (zlist_eqb t id_) eqn:E.
    + apply zlist_eqb_eq in E. subst t. exfalso. apply (H 0%nat id_ l); [lia|reflexivity|reflexivity].
    + rewrite (IH i _ _ lens N).
      * cbn [firstn map snd]. rewrite zsum_cons. f_equal. f_equal; lia.
      * intros j t' l' Hj Hn. apply (H (S j) t' l'); [lia|exact Hn].
Qed.
Lemma find_none size id_ ix : forall idx off, (forall t l, In (t, l) ix -> t <> id_) ->
  rg_find size id_ idx off ix = Err KeyError.
Proof.
  induction ix as [|[t l] ix IH]; intros idx off H; [reflexivity|]. cbn [rg_find].
  destruct (zlist_eqb t id_) eqn:E.
  - apply zlist_eqb_eq in E. exfalso. apply (H t l); [left; reflexivity|exact E].
  - apply IH. intros t' l' I. apply (H t' l'). right. exact I.
Qed.
Lemma read_id fs n ds ix i o p k e lens : nth_error ix i = Some (eid_text e, lens) ->
  (forall j t l, (j < i)%nat -> nth_error ix j = Some (t, l) -> t <> eid_text e) ->
  offset ix i = Z.of_nat k ->
  rg_read (reader_at fs n ds ix o p) (Some e) = rg_read (reader_at fs n ds ix i k) None.
Proof.
  intros N H Hk. unfold rg_read, reader_at. cbn [rr_idx rr_pos rr_index rr_row rr_file rr_datapos].
  rewrite (find_ok _ _ _ _ _ _ _ N H). cbn [bind]. rewrite Hk, !Z.add_0_l. reflexivity.
Qed.
Notation entity := (option eid * list (list (list val)))%type.
Lemma hist_app l1 : forall k l2, index_of_hist k (l1 ++ l2) = index_of_hist k l1 ++ index_of_hist (k + lenz l1) l2.
Proof.
  unfold lenz, index_of_hist. induction l1 as [|[id_ s] l1 IH]; intros k l2; cbn [app length map].
  - cbn. f_equal. f_equal. lia.
  - rewrite !ids_cons. cbn [combine app]. f_equal. rewrite IH. replace (k + Z.of_nat (S (length l1))) with (k + 1 + Z.of_nat (length l1)) by lia. reflexivity.
Qed.
Lemma ids_app l1 : forall k l2, ids_from k (l1 ++ l2) = ids_from k l1 ++ ids_from (k + lenz l1) l2.
Proof.
  unfold lenz. induction l1 as [|[id_ s] l1 IH]; intros k l2; cbn [app length].
  - cbn. f_equal. lia.
  - rewrite !ids_cons. cbn [app]. f_equal. rewrite IH. f_equal. f_equal. lia.
Qed.
Lemma hist_length k l : length (index_of_hist k l) = length l.
Proof. unfold index_of_hist. rewrite combine_length, ids_length, map_length. lia. Qed.
Lemma hist_nth l : forall k i id_ segs, nth_error l i = Some (id_, segs) ->
  exists e, nth_error (ids_from k l) i = Some e /\ nth_error (index_of_hist k l) i = Some (e, map lenz segs).
Proof.
  unfold index_of_hist. induction l as [|[id0 s0] l IH]; intros k [|i] id_ segs N; try discriminate;
    rewrite ids_cons; cbn [map combine nth_error snd] in *.
  - injection N as -> ->. eauto.
  - apply IH with (id_ := id_). exact N.
Qed.
Lemma hist_ids l : forall k i, option_map fst (nth_error (index_of_hist k l) i) = nth_error (ids_from k l) i.
Proof.
  unfold index_of_hist. induction l as [|[id0 s0] l IH]; intros k [|i]; try reflexivity;
    rewrite ids_cons; cbn [map combine nth_error]; [reflexivity|]. apply IH.
Qed.
Lemma text_nth ix i e ls : nth_error ix i = Some (e, ls) -> nth_error (text_of ix) i = Some (eid_text e, ls).
Proof. intros N. unfold text_of. rewrite nth_error_map, N. reflexivity. Qed.
Lemma good_hist l : forall k, Forall (fun e : entity => snd e <> []) l ->
  Forall (fun e => clean_id (eid_text e)) (ids_from k l) -> Forall good_entry (text_of (index_of_hist k l)).
Proof.
  unfold index_of_hist, text_of. induction l as [|[id0 s0] l IH]; intros k F G; [constructor|].
  rewrite ids_cons in *. inversion F; inversion G; subst. cbn [map combine fst snd] in *. constructor; [|apply IH; assumption].
  split; [assumption|]. cbn. destruct s0; [congruence|discriminate].
Qed.
Lemma map_lenz {A} (l : list (list A)) : map lenz l = map Z.of_nat (map (@length A) l).
Proof. rewrite map_map. reflexivity. Qed.
Lemma list_sum_length {A} (l : list (list A)) : list_sum (map (@length A) l) = length (concat l).
Proof. induction l as [|a l IH]; [reflexivity|]. cbn [map concat]. rewrite app_length, <- IH. reflexivity. Qed.
Lemma offset_hist l k i : offset (text_of (index_of_hist k l)) i = Z.of_nat (length (rows_of (firstn i l))).
Proof.
  unfold offset. revert k i. induction l as [|[id0 s0] l IH]; intros k [|i]; try reflexivity.
  unfold index_of_hist, text_of, rows_of in *. rewrite ids_cons. cbn [map combine firstn fst snd concat].
  rewrite zsum_cons, IH, zsum_lenz, concat_app, app_length. unfold lenz. lia.
Qed.
Definition before (l : list entity) (i : nat) : nat := length (rows_of (firstn i l)).
Lemma rows_split l : forall i id_ segs, nth_error l i = Some (id_, segs) ->
  rows_of l = rows_of (firstn i l) ++ concat segs ++ rows_of (skipn (S i) l).
Proof.
  induction l as [|[id0 s0] l IH]; intros [|i] id_ segs N; try discriminate; unfold rows_of in *; cbn [firstn skipn map snd concat nth_error] in *.
  - injection N as -> ->. rewrite concat_app. reflexivity.
  - rewrite !concat_app, (IH _ _ _ N), app_assoc. reflexivity.
Qed.
Lemma before_S l i id_ segs : nth_error l i = Some (id_, segs) -> before l (S i) = (before l i + length (concat segs))%nat.
Proof.
  unfold before, rows_of. revert i. induction l as [|[id0 s0] l IH]; intros [|i] N; try discriminate; cbn [firstn map snd concat nth_error] in *.
  - injection N as -> ->. rewrite app_nil_r. cbn. reflexivity.
  - rewrite !concat_app, !app_length, (IH _ N). lia.
Qed.
(** Reading from a file of [rows] through the index of history [l]. *)
Section Through.
  Context (fs : row) (n : Z) (rows : list (list val)) (ds : list (list Z)) (l : list entity).
  Context (C : Forall constructed fs) (F : Forall2 (enc fs) rows ds) (Enough : (length (rows_of l) <= length rows)%nat).
  Let ix := text_of (index_of_hist 0 l).
  Lemma through_next i id_ segs : nth_error l i = Some (id_, segs) ->
    rg_read (reader_at fs n ds ix i (before l i)) None =
    rmap (fun s => (s, reader_at fs n ds ix (S i) (before l (S i))))
      (recoded fs (cut (map (@length _) segs) (skipn (before l i) rows))).
  Proof.
    intros N. destruct (hist_nth l 0 i id_ segs N) as (e & _ & Ne). apply text_nth in Ne. rewrite map_lenz in Ne.
    rewrite (before_S _ _ _ _ N), <- list_sum_length. apply (read_next _ _ _ _ _ _ _ _ _ C F Ne).
    rewrite list_sum_length. rewrite (rows_split _ _ _ _ N), !app_length in Enough. unfold before. lia.
  Qed.
  Lemma through_id i id_ segs e o p : nth_error l i = Some (id_, segs) ->
    (exists e', nth_error (ids_from 0 l) i = Some e' /\ eid_text e' = eid_text e) ->
    (forall j e', (j < i)%nat -> nth_error (ids_from 0 l) j = Some e' -> eid_text e' <> eid_text e) ->
    rg_read (reader_at fs n ds ix o p) (Some e) = rg_read (reader_at fs n ds ix i (before l i)) None.
  Proof.
    intros N (e' & Ne & Te) H. destruct (hist_nth l 0 i id_ segs N) as (e2 & N2 & N3).
    assert (e2 = e') by congruence. subst e2. apply text_nth in N3. rewrite Te in N3.
    apply (read_id _ _ _ _ _ _ _ _ _ _ N3).
    - intros j t ls Hj Nj. unfold ix, text_of in Nj. rewrite nth_error_map in Nj.
      pose proof (hist_ids l 0 j) as K. destruct (nth_error (index_of_hist 0 l) j) as [[ej lj]|] eqn:Ej; [|discriminate].
      cbn in K, Nj. injection Nj as <- <-. apply (H j); [exact Hj|]. congruence.
    - apply offset_hist.
  Qed.
  Lemma through_none e o p : (forall e', In e' (ids_from 0 l) -> eid_text e' <> eid_text e) ->
    rg_read (reader_at fs n ds ix o p) (Some e) = Err KeyError.
  Proof.
    intros H. unfold rg_read, reader_at. cbn [rr_index rr_row]. rewrite find_none; [reflexivity|].
    intros t ls I. unfold ix, text_of in I. apply in_map_iff in I. destruct I as ([e' ls'] & E & I). injection E as <- <-.
    apply H. cbn. apply In_nth_error in I. destruct I as (j & Nj). apply nth_error_In with (n := j).
    rewrite <- hist_ids, Nj. reflexivity.
  Qed.
  Lemma through_end : rg_read (reader_at fs n ds ix (length l) (before l (length l))) None = Err IndexError.
  Proof.
    clear C F Enough. unfold rg_read, reader_at. cbn [rr_idx rr_index bind]. unfold py_get.
    replace (length ix) with (length l) by (unfold ix, text_of; rewrite map_length, hist_length; reflexivity).
    destruct (Z.of_nat (length l) <? 0) eqn:E; [lia|]. replace (Z.of_nat (length l) <? Z.of_nat (length l)) with false by lia.
    rewrite andb_false_r. reflexivity.
  Qed.
End Through.
Lemma through_seq fs n ds l : Forall constructed fs -> Forall2 (enc fs) (rows_of l) ds ->
  forall k i, (i + k = length l)%nat ->
  rg_read_n k (reader_at fs n ds (text_of (index_of_hist 0 l)) i (before l i)) =
  mapM (recoded fs) (map snd (skipn i l)) /\
  rg_read_n (S k) (reader_at fs n ds (text_of (index_of_hist 0 l)) i (before l i)) =
  (_ <- mapM (recoded fs) (map snd (skipn i l)) ;; Err IndexError).
Proof.
  intros C F. induction k as [|k IH]; intros i L.
  - assert (i = length l) by lia. subst i. rewrite skipn_all. split; [reflexivity|].
    cbn [rg_read_n]. rewrite through_end. reflexivity.
  - destruct (nth_error l i) as [[id_ segs]|] eqn:N; [|apply nth_error_None in N; lia].
    destruct (IH (S i) ltac:(lia)) as [IH1 IH2].
    assert (Es : skipn i l = (id_, segs) :: skipn (S i) l).
    { clear - N. revert l N. induction i as [|i IH]; intros [|x l] N; try discriminate; cbn in *; [congruence|]. apply IH, N. }
    assert (E : cut (map (length (A:=list val)) segs) (skipn (before l i) (rows_of l)) = segs).
    { rewrite (rows_split _ _ _ _ N). unfold before. rewrite skipn_exact by reflexivity. apply cut_concat. }
    pose proof (through_next fs n _ ds l C F (Nat.le_refl _) i id_ segs N) as T. rewrite E in T.
    rewrite Es. cbn [map snd mapM]. split.
    + cbn [rg_read_n]. rewrite T. destruct (recoded fs segs); [|reflexivity]. cbn [rmap bind]. rewrite IH1. reflexivity.
    + change (rg_read_n (S (S k)) ?x) with ('(s, rd) <- rg_read x None ;; rest <- rg_read_n (S k) rd ;; Ok (s :: rest)).
      rewrite T. destruct (recoded fs segs); [|reflexivity]. cbn [rmap bind]. rewrite IH2.
      destruct (mapM (recoded fs) _); reflexivity.
Qed.

(** ** Statements over the API *)
Lemma plain_row_parts fuel fs : plain_row fuel fs -> Forall constructed fs /\
  Forall (fun f => plain_name (field_name f)) fs /\
  Forall (fun f => plain_name (field_name f) /\ (length (field_name f) < fuel)%nat) fs.
Proof.
  unfold plain_row. intros P. split; [|split]; (eapply Forall_impl; [|exact P]); cbn; tauto.
Qed.
Lemma api_header fuel fs h rest : plain_row fuel fs -> rg_header fs = Ok h ->
  exists cols, h = [82; 71; 1; Z.of_nat (length fs); 0; 0; 0; 0] ++ cols /\
  rg_read_columns fuel (length fs) (cols ++ rest) = Some (Ok (fs, rest)).
Proof.
  intros P E. destruct (plain_row_parts _ _ P) as (C & P1 & P2). destruct (header_shape _ _ C P1 E) as (B & L & ->).
  exists (flat_map ser_col fs). split; [reflexivity|]. apply read_columns_ok; assumption.
Qed.
Lemma hist_open fuel fs rows w l h : plain_row fuel fs -> rg_header fs = Ok h -> holds fs h rows w ->
  rw_index w = index_of_hist 0 l -> storable l ->
  forall rg md, rg_close w = Ok (rg, md) ->
  exists n ds, Forall2 (enc fs) rows ds /\ forall coll names_ok,
    rg_open coll names_ok fuel rg md =
    Some (if negb coll then Err NameError else if negb (names_ok (map field_name fs)) then Err ValueError
          else Ok (reader_at fs n ds (text_of (index_of_hist 0 l)) 0 0)).
Proof.
  intros P Eh H I (S1 & S2) rg md E. destruct (plain_row_parts _ _ P) as (C & P1 & P2).
  destruct (close_ok _ _ _ _ _ C P1 h Eh H E) as (-> & B & L & _ & n & ds & R & F & ->).
  exists n, ds. split; [exact F|]. intros coll names_ok. rewrite I. rewrite open_ok; try assumption.
  - unfold reader_at. rewrite Z.mul_0_r, Z.add_0_r. reflexivity.
  - apply good_hist; assumption.
Qed.
Lemma plain_hist fs w0 l w : rg_new fs = Ok w0 -> rg_write_all w0 l = Some w ->
  exists h, rg_header fs = Ok h /\ holds fs h (rows_of l) w /\ rw_index w = index_of_hist 0 l.
Proof.
  intros N E. destruct (new_holds _ _ N) as (h & Eh & H & I). exists h. split; [exact Eh|].
  destruct (write_all_ok _ _ _ _ _ _ H E) as (H' & I'). rewrite I in I'. split; [exact H'|exact I'].
Qed.
Lemma api_close fs w0 l w : rg_new fs = Ok w0 -> rg_write_all w0 l = Some w ->
  ((exists files, rg_close w = Ok files) <-> nrows l < 2 ^ 32).
Proof.
  intros N E. destruct (plain_hist _ _ _ _ N E) as (h & _ & _ & I). rewrite close_iff, I, index_rows.
  unfold nrows. split; [tauto|]. intros H. split; [lia|exact H].
Qed.
Lemma api_open fuel fs w0 l w rg md coll names_ok : plain_row fuel fs -> storable l -> rg_new fs = Ok w0 ->
  rg_write_all w0 l = Some w -> rg_close w = Ok (rg, md) ->
  (coll = false -> rg_open coll names_ok fuel rg md = Some (Err NameError)) /\
  (coll = true -> names_ok (map field_name fs) = false -> rg_open coll names_ok fuel rg md = Some (Err ValueError)) /\
  (coll = true -> names_ok (map field_name fs) = true -> exists rd, rg_open coll names_ok fuel rg md = Some (Ok rd)).
Proof.
  intros P S N E Cl. destruct (plain_hist _ _ _ _ N E) as (h & Eh & H & I).
  destruct (hist_open _ _ _ _ _ _ P Eh H I S _ _ Cl) as (n & ds & F & O). rewrite O.
  split; [intros ->; reflexivity|]. split; intros -> ->; [reflexivity|]. eexists; reflexivity.
Qed.
Lemma api_read fuel fs w0 l w rg md names_ok rd : plain_row fuel fs -> storable l -> rg_new fs = Ok w0 ->
  rg_write_all w0 l = Some w -> rg_close w = Ok (rg, md) ->
  rg_open true names_ok fuel rg md = Some (Ok rd) ->
  rr_row rd = fs /\
  (forall i id_ segs e, nth_error l i = Some (id_, segs) -> first_with (ids_from 0 l) e i ->
    rmap fst (rg_read rd (Some e)) = recoded fs segs /\
    (forall s rd', rg_read rd (Some e) = Ok (s, rd') ->
      rg_read_n (length l - S i) rd' = mapM (recoded fs) (map snd (skipn (S i) l)))) /\
  (forall e, (forall e', In e' (ids_from 0 l) -> eid_text e' <> eid_text e) -> rg_read rd (Some e) = Err KeyError) /\
  rg_read_n (length l) rd = mapM (recoded fs) (map snd l) /\
  rg_read_n (S (length l)) rd = (_ <- mapM (recoded fs) (map snd l) ;; Err IndexError).
Proof.
  intros P S N E Cl Op. destruct (plain_hist _ _ _ _ N E) as (h & Eh & H & I).
  destruct (hist_open _ _ _ _ _ _ P Eh H I S _ _ Cl) as (n & ds & F & O). rewrite O in Op. cbn [negb] in Op.
  destruct (names_ok (map field_name fs)); [|discriminate]. cbn [negb] in Op. injection Op as <-.
  destruct (plain_row_parts _ _ P) as (C & _ & _). split; [reflexivity|]. split; [|split; [|]].
  - intros i id_ segs e Ni (Fe & Fb).
    pose proof (through_id fs n ds l i id_ segs e 0 0 Ni Fe Fb) as T. rewrite T.
    rewrite (through_next fs n _ ds l C F (Nat.le_refl _) i id_ segs Ni).
    assert (Ec : cut (map (length (A:=list val)) segs) (skipn (before l i) (rows_of l)) = segs).
    { rewrite (rows_split _ _ _ _ Ni). unfold before. rewrite skipn_exact by reflexivity. apply cut_concat. }
    rewrite Ec. split; [destruct (recoded fs segs); reflexivity|].
    intros s rd' Er. destruct (recoded fs segs); [|discriminate]. cbn [rmap] in Er. injection Er as <- <-.
    apply (through_seq fs n ds l C F). assert (i < length l)%nat by (apply nth_error_Some; congruence). lia.
  - intros e He. apply (through_none fs n ds l). exact He.
  - apply (through_seq fs n ds l C F (length l) 0). lia.
Qed.
Lemma mapM_app {A B} (f : A -> res B) a b : mapM f (a ++ b) = (x <- mapM f a ;; y <- mapM f b ;; Ok (x ++ y)).
Proof.
  induction a as [|z a IH]; cbn [app mapM bind].
  - destruct (mapM f b); reflexivity.
  - destruct (f z); [|reflexivity]. cbn [bind]. rewrite IH. destruct (mapM f a); [|reflexivity]. cbn [bind].
    destruct (mapM f b); reflexivity.
Qed.
Lemma recoded_flat fs segs : rmap (@concat _) (recoded fs segs) = recoded_rows fs (concat segs).
Proof.
  unfold recoded, recoded_rows. induction segs as [|s segs IH]; [reflexivity|]. cbn [mapM concat]. rewrite mapM_app, <- IH.
  destruct (mapM _ s); [|reflexivity]. cbn [bind]. destruct (mapM _ segs); reflexivity.
Qed.
Lemma before_app l1 l2 i : before (l1 ++ l2) (length l1 + i) = (length (rows_of l1) + before l2 i)%nat.
Proof.
  unfold before, rows_of. rewrite firstn_app. replace (length l1 + i - length l1)%nat with i by lia.
  rewrite firstn_all2 by lia. rewrite map_app, !concat_app, app_length. reflexivity.
Qed.
Lemma api_stale fuel fs w0 l1 w1 bad id_ w2 e l2 w3 rg md names_ok rd : plain_row fuel fs -> storable (l1 ++ l2) ->
  rg_new fs = Ok w0 -> rg_write_all w0 l1 = Some w1 -> rg_write w1 bad id_ = (w2, Err e) ->
  rg_write_all w2 l2 = Some w3 -> rg_close w3 = Ok (rg, md) -> rg_open true names_ok fuel rg md = Some (Ok rd) ->
  exists pre r post, concat bad = pre ++ r :: post /\ row_encode fs r = Err e /\
  (forall i id_ segs e', nth_error l1 i = Some (id_, segs) -> first_with (ids_from 0 (l1 ++ l2)) e' i ->
    rmap fst (rg_read rd (Some e')) = recoded fs segs) /\
  (forall i id_ segs e', nth_error l2 i = Some (id_, segs) -> first_with (ids_from 0 (l1 ++ l2)) e' (length l1 + i) ->
    rmap (fun x => concat (fst x)) (rg_read rd (Some e')) =
    recoded_rows fs (firstn (length (concat segs))
      (skipn (Z.to_nat (nrows (firstn i l2))) (pre ++ concat (concat (map snd l2)))))).
Proof.
  intros P S N E1 Eb E2 Cl Op. destruct (plain_hist _ _ _ _ N E1) as (h & Eh & H1 & I1).
  destruct (write_err _ _ _ _ _ _ _ _ H1 Eb) as (I2 & pre & r & post & Bad & Er & H2).
  destruct (write_all_ok _ _ _ _ _ _ H2 E2) as (H3 & I3). rewrite I2, I1 in I3.
  assert (I : rw_index w3 = index_of_hist 0 (l1 ++ l2)).
  { rewrite I3, hist_app. unfold lenz at 1. rewrite hist_length. reflexivity. }
  destruct (hist_open _ _ _ _ _ _ P Eh H3 I S _ _ Cl) as (n & ds & F & O). rewrite O in Op. cbn [negb] in Op.
  destruct (names_ok (map field_name fs)); [|discriminate]. cbn [negb] in Op. injection Op as <-.
  destruct (plain_row_parts _ _ P) as (C & _ & _).
  assert (En : (length (rows_of (l1 ++ l2)) <= length ((rows_of l1 ++ pre) ++ rows_of l2))%nat).
  { unfold rows_of. rewrite map_app, !concat_app, !app_length. lia. }
  exists pre, r, post. split; [exact Bad|]. split; [exact Er|]. split.
  - intros i id' segs e' Ni (Fe & Fb).
    assert (Ni' : nth_error (l1 ++ l2) i = Some (id', segs)).
    { rewrite nth_error_app1; [exact Ni|]. apply nth_error_Some. congruence. }
    pose proof (through_id fs n ds (l1 ++ l2) i id' segs e' 0 0 Ni' Fe Fb) as T. rewrite T.
    rewrite (through_next fs n _ ds (l1 ++ l2) C F En i id' segs Ni').
    assert (Ec : cut (map (length (A:=list val)) segs) (skipn (before (l1 ++ l2) i) ((rows_of l1 ++ pre) ++ rows_of l2)) = segs).
    { rewrite (rows_split _ _ _ _ Ni). unfold before.
      assert (firstn i (l1 ++ l2) = firstn i l1) as ->.
      { rewrite firstn_app. replace (i - length l1)%nat with 0%nat; [cbn; apply app_nil_r|].
        assert (i < length l1)%nat by (apply nth_error_Some; congruence). lia. }
      rewrite <- !app_assoc, skipn_exact by reflexivity. apply cut_concat. }
    rewrite Ec. destruct (recoded fs segs); reflexivity.
  - intros i id' segs e' Ni (Fe & Fb).
    assert (Ni' : nth_error (l1 ++ l2) (length l1 + i) = Some (id', segs)).
    { rewrite nth_error_app2 by lia. replace (length l1 + i - length l1)%nat with i by lia. exact Ni. }
    pose proof (through_id fs n ds (l1 ++ l2) (length l1 + i) id' segs e' 0 0 Ni' Fe Fb) as T. rewrite T.
    rewrite (through_next fs n _ ds (l1 ++ l2) C F En _ id' segs Ni'), before_app.
    rewrite <- (skipn_skipn (before l2 i) (length (rows_of l1))). rewrite <- app_assoc, skipn_exact by reflexivity.
    unfold nrows. rewrite Nat2Z.id. fold (rows_of (firstn i l2)). fold (before l2 i). fold (rows_of l2).
    rewrite <- list_sum_length, <- concat_cut.
    + rewrite <- recoded_flat. destruct (recoded fs _); reflexivity.
    + rewrite list_sum_length, skipn_length, app_length. rewrite (rows_split _ _ _ _ Ni), !app_length. unfold before. lia.
Qed.
Lemma api_first_row_fails w segs id_ r post e : concat segs = r :: post -> row_encode (rw_row w) r = Err e ->
  rg_write w segs id_ = (w, Err e).
Proof.
  intros Es Er. assert (E : rg_segs (rw_row w) segs = ([], Err e)).
  { induction segs as [|s segs IH]; [discriminate|]. cbn [rg_segs]. destruct s as [|r' s].
    - cbn in *. rewrite IH by exact Es. reflexivity.
    - cbn in Es. injection Es as -> _. cbn [rg_rows]. rewrite Er. reflexivity. }
  unfold rg_write. rewrite E. rewrite app_nil_r. destruct w; reflexivity.
Qed.
Lemma good_iff index : Forall (fun e => clean_id (eid_text (fst e)) /\ snd e <> []) index ->
  Forall good_entry (text_of index).
Proof. intros F. apply Forall_map. eapply Forall_impl; [|exact F]. intros e H. exact H. Qed.
Lemma api_index index : Forall (fun e => clean_id (eid_text (fst e)) /\ snd e <> []) index ->
  rg_readindex (rg_writeindex index) = Ok (map (fun e => (eid_text (fst e), snd e)) index).
Proof. intros F. apply index_round, good_iff, F. Qed.
Lemma api_index_bad index1 id_ lens index2 : Forall (fun e => clean_id (eid_text (fst e)) /\ snd e <> []) index1 ->
  ~ In 10 (eid_text id_) -> ~ In 13 (eid_text id_) -> In 32 (eid_text id_) \/ lens = [] ->
  rg_readindex (rg_writeindex (index1 ++ (id_, lens) :: index2)) = Err ValueError.
Proof. intros F. apply index_bad, good_iff, F. Qed.
