(** Lemmas on tables. *)
From Verif Require Import Py StrModel Utf8Model TableModel TableSpec.
Open Scope Z_scope.

Lemma str_eqb_spec a b : reflect (a = b) (str_eqb a b).
Proof.
  revert b; induction a as [|x r IH]; intros [|y s]; cbn; try (constructor; congruence).
  destruct (Z.eqb_spec x y) as [->|N]; cbn; [|constructor; congruence].
  destruct (IH s) as [->|N]; constructor; congruence.
Qed.
Lemma str_eqb_refl a : str_eqb a a = true.
Proof. destruct (str_eqb_spec a a); congruence. Qed.
Lemma str_in_spec k l : reflect (In k l) (str_in k l).
Proof.
  unfold str_in. destruct (existsb (str_eqb k) l) eqn:E; constructor.
  - apply existsb_exists in E. destruct E as (x & I & E). destruct (str_eqb_spec k x); [subst; exact I|discriminate].
  - intros I. enough (existsb (str_eqb k) l = true) by congruence. apply existsb_exists. exists k. split; [exact I|apply str_eqb_refl].
Qed.
Lemma str_in_true k l : str_in k l = true <-> In k l.
Proof. destruct (str_in_spec k l); split; intros; try congruence; tauto. Qed.
Lemma fields_distinct_ok l : fields_distinct l = true <-> NoDup l.
Proof.
  induction l as [|k l IH]; cbn; [split; [constructor|reflexivity]|].
  rewrite andb_true_iff, negb_true_iff, NoDup_cons_iff, IH. rewrite <- (str_in_true k l). destruct (str_in k l); intuition congruence.
Qed.
Lemma field_ok_spec s : field_ok s = true <-> name_ok s.
Proof.
  unfold field_ok, name_ok. rewrite !andb_true_iff, !negb_true_iff.
  rewrite <- (str_in_true s keywords). split.
  - intros [[I K] U]. split; [|congruence]. destruct s as [|c r]; [discriminate|]. exists c, r. split; [reflexivity|].
    cbn in I. apply andb_prop in I. destruct I as [A F]. split.
    + unfold is_alpha_ in A. unfold letter. assert (c <> 95) by (intros ->; discriminate U). lia.
    + apply Forall_forall. intros d D. rewrite forallb_forall in F. specialize (F d D). unfold is_alpha_, is_digit in F. unfold letter. lia.
  - intros [(c & r & -> & L & F) K]. split; [split|].
    + cbn. unfold letter in L. unfold is_alpha_ at 1. apply andb_true_intro. split; [lia|]. apply forallb_forall. intros d D.
      rewrite Forall_forall in F. specialize (F d D). cbn in F. unfold letter in F. unfold is_alpha_, is_digit. lia.
    + destruct (str_in _ _); congruence.
    + unfold letter in L. destruct c as [|p|p]; try reflexivity. repeat (destruct p as [p|p|]; try reflexivity). exfalso. lia.
Qed.
Lemma row_type_spec l : (names_ok l /\ row_type l = Ok tt) \/ (~ names_ok l /\ row_type l = Err ValueError).
Proof.
  unfold row_type, names_ok. destruct (forallb field_ok l) eqn:F; cbn [andb].
  - destruct (fields_distinct l) eqn:D.
    + left. split; [|reflexivity]. split; [|apply fields_distinct_ok; exact D]. apply Forall_forall. intros s I.
      rewrite forallb_forall in F. apply field_ok_spec, F, I.
    + right. split; [|reflexivity]. intros [_ H]. apply fields_distinct_ok in H. congruence.
  - right. split; [|reflexivity]. intros [H _]. enough (forallb field_ok l = true) by congruence. apply forallb_forall.
    intros s I. rewrite Forall_forall in H. apply field_ok_spec, H, I.
Qed.
Lemma row_type_ok l : names_ok l -> row_type l = Ok tt.
Proof. intros H. destruct (row_type_spec l) as [[_ E]|[N _]]; tauto. Qed.
Lemma row_type_bad l : ~ names_ok l -> row_type l = Err ValueError.
Proof. intros H. destruct (row_type_spec l) as [[N _]|[_ E]]; tauto. Qed.

Lemma nth_error_ext {A} (a : list A) : forall b, (forall i, nth_error a i = nth_error b i) -> a = b.
Proof.
  induction a as [|x a IH]; intros [|y b] H; [reflexivity|discriminate (H O)|discriminate (H O)|].
  f_equal; [specialize (H O); cbn in H; congruence|]. apply IH. intros i. exact (H (S i)).
Qed.
Section Rows.
  Context {V : Type}.
  Implicit Types (r : row V).

  (** *** Dictionaries *)
  Lemma get_set k k' (v : V) d : dict_get k (dict_set k' v d) = if str_eqb k k' then Some v else dict_get k d.
  Proof.
    induction d as [|[k0 v0] d IH]; cbn; [reflexivity|].
    destruct (str_eqb_spec k' k0) as [->|N]; cbn.
    - destruct (str_eqb k k0); reflexivity.
    - rewrite IH. destruct (str_eqb_spec k k0) as [->|]; [|reflexivity]. destruct (str_eqb_spec k0 k') as [->|]; congruence.
  Qed.
  (** In a dict made of distinct fields. *)
  Lemma get_update k (e : dict) : forall (d : dict (V := V)), NoDup (map fst e) ->
    dict_get k (dict_update d e) = match dict_get k e with Some v => Some v | None => dict_get k d end.
  Proof.
    unfold dict_update. induction e as [|[k0 v0] e IH]; intros d N; cbn; [reflexivity|].
    inversion N as [|? ? N1 N2]; subst. rewrite IH by exact N2. rewrite get_set. destruct (str_eqb_spec k k0) as [->|]; [|reflexivity].
    assert (E : dict_get k0 e = None).
    { clear - N1. induction e as [|[k1 v1] e IH]; [reflexivity|]. cbn in *. destruct (str_eqb_spec k0 k1) as [->|]; [tauto|]. apply IH. tauto. }
    rewrite E. reflexivity.
  Qed.
  Lemma fst_combine_nodup (a : list str) : forall (b : list V), NoDup a -> NoDup (map fst (combine a b)).
  Proof.
    induction a as [|x a IH]; intros [|y b] N; cbn; try constructor; inversion N; subst; [|apply IH; assumption].
    intros I. apply in_map_iff in I. destruct I as ([p q] & <- & I). apply in_combine_l in I. contradiction.
  Qed.
  Lemma get_combine k v : forall (a : list str) (b : list V), NoDup a ->
    dict_get k (combine a b) = Some v <-> exists i, nth_error a i = Some k /\ nth_error b i = Some v.
  Proof.
    induction a as [|x a IH]; intros b N; cbn.
    { split; [discriminate|]. intros ([|i] & E & _); discriminate. }
    inversion N as [|? ? N1 N2]; subst. destruct b as [|y b]; cbn.
    { split; [discriminate|]. intros ([|i] & _ & E); discriminate. }
    destruct (str_eqb_spec k x) as [->|D].
    - split.
      + intros E. injection E as ->. exists O. split; reflexivity.
      + intros ([|i] & E & E'); [cbn in E'; congruence|]. exfalso. apply N1. cbn in E. apply nth_error_In in E. exact E.
    - rewrite IH by exact N2. split.
      + intros (i & E). exists (S i). exact E.
      + intros ([|i] & E & E'); [cbn in E; congruence|]. exists i. split; assumption.
  Qed.
  Lemma get_cell r k v : row_ok r -> dict_get k (asdict r) = Some v <-> cell r k v.
  Proof. intros [N _]. apply get_combine, N. Qed.
  Lemma get_none r k : row_ok r -> dict_get k (asdict r) = None <-> ~ In k (r_fields r).
  Proof.
    intros [N L]. unfold asdict. clear N. revert L. generalize (r_values r) as b. induction (r_fields r) as [|x a IH]; intros [|y b] L; cbn in *; try lia.
    - tauto.
    - destruct (str_eqb_spec k x) as [->|D]; [intuition congruence|]. rewrite IH by lia. intuition congruence.
  Qed.
  Lemma cell_has r k : row_ok r -> In k (r_fields r) -> exists v, cell r k v.
  Proof.
    intros [_ L] I. apply In_nth_error in I. destruct I as [i I]. destruct (nth_error (r_values r) i) as [v|] eqn:E.
    - exists v, i. split; assumption.
    - apply nth_error_None in E. assert (i < length (r_fields r))%nat by (apply nth_error_Some; congruence). lia.
  Qed.
  Lemma cell_in r k v : cell r k v -> In k (r_fields r).
  Proof. intros (i & E & _). apply nth_error_In in E. exact E. Qed.
  Lemma cell_fun r k v w : row_ok r -> cell r k v -> cell r k w -> v = w.
  Proof. intros O H1 H2. apply (get_cell _ _ _ O) in H1. apply (get_cell _ _ _ O) in H2. congruence. Qed.
  Lemma getattr_shows empty r k v : row_ok r -> getattr empty r k = v <-> shows empty r k v.
  Proof.
    intros O. unfold getattr, shows. destruct (dict_get k (asdict r)) as [w|] eqn:E.
    - pose proof E as E'. apply (get_cell _ _ _ O) in E'. split.
      + intros <-. left. exact E'.
      + intros [H|[H _]]; [exact (cell_fun _ _ _ _ O E' H)|]. exfalso. exact (H (cell_in _ _ _ E')).
    - pose proof E as E'. apply (get_none _ _ O) in E'. split.
      + intros <-. right. split; [exact E'|reflexivity].
      + intros [H|[_ H]]; [exfalso; exact (E' (cell_in _ _ _ H))|congruence].
  Qed.
  Lemma shows_fun empty r k v w : row_ok r -> shows empty r k v -> shows empty r k w -> v = w.
  Proof. intros O H1 H2. apply (getattr_shows _ _ _ _ O) in H1. apply (getattr_shows _ _ _ _ O) in H2. congruence. Qed.
  Lemma dict_at_cell r k v : row_ok r -> dict_at (asdict r) k = Ok v <-> cell r k v.
  Proof.
    intros O. unfold dict_at. rewrite <- (get_cell _ _ _ O). destruct (dict_get k (asdict r)); split; congruence.
  Qed.
  Lemma dict_at_none r k : row_ok r -> ~ In k (r_fields r) -> dict_at (asdict r) k = Err KeyError.
  Proof. intros O H. unfold dict_at. apply (get_none _ _ O) in H. rewrite H. reflexivity. Qed.
  (** A row made of a function of its keys. *)
  Lemma cell_map keys (f : str -> V) k v : In k keys -> (cell (mkrow keys (map f keys)) k v <-> f k = v).
  Proof.
    intros I. unfold cell. cbn. split.
    - intros (i & E & E'). rewrite nth_error_map, E in E'. cbn in E'. congruence.
    - intros <-. apply In_nth_error in I. destruct I as [i I]. exists i. split; [exact I|]. rewrite nth_error_map, I. reflexivity.
  Qed.

  Variable veqb : V -> V -> bool.
  Hypothesis veq : forall a b, reflect (a = b) (veqb a b).
  Variable empty : V.
  Lemma list_eqb_spec a b : reflect (a = b) (list_eqb veqb a b).
  Proof.
    revert b; induction a as [|x a IH]; intros [|y b]; cbn; try (constructor; congruence).
    destruct (veq x y) as [->|N]; cbn; [|constructor; congruence]. destruct (IH b) as [->|N]; constructor; congruence.
  Qed.
  Lemma agree_eq pivots r1 r2 : row_ok r1 -> row_ok r2 ->
    (map (getattr empty r1) pivots = map (getattr empty r2) pivots <-> agree empty pivots r1 r2).
  Proof.
    intros O1 O2. unfold agree. induction pivots as [|p l IH]; cbn.
    - split; [intros _ q []|reflexivity].
    - split.
      + intros E. injection E as E1 E2. pose proof (proj1 IH E2) as E3. intros q [<-|I]; [|apply E3, I].
        exists (getattr empty r1 p). split; apply getattr_shows; auto.
      + intros H. f_equal.
        * destruct (H p (or_introl eq_refl)) as (v & A & B). apply (getattr_shows _ _ _ _ O1) in A. apply (getattr_shows _ _ _ _ O2) in B. congruence.
        * apply IH. intros q I. apply H. right. exact I.
  Qed.
  Lemma find_match_spec pivots r1 t2 : row_ok r1 -> Forall row_ok t2 ->
    first_such (agree empty pivots r1) t2 (find_match veqb empty pivots (map (getattr empty r1) pivots) t2).
  Proof.
    intros O1 F. induction F as [|r2 t2 O2 F IH]; cbn; [constructor|].
    destruct (list_eqb_spec (map (getattr empty r1) pivots) (map (getattr empty r2) pivots)) as [E|N].
    - cbn. split; [apply (agree_eq _ _ _ O1 O2); exact E|]. exists [], t2. split; [reflexivity|constructor].
    - rewrite (agree_eq _ _ _ O1 O2) in N. destruct (find_match _ _ _ _ t2) as [x|]; cbn in *.
      + destruct IH as (A & b & a & -> & B). split; [exact A|]. exists (r2 :: b), a. split; [reflexivity|]. constructor; assumption.
      + constructor; assumption.
  Qed.
  Lemma find_match_in pivots id1 t2 r2 : find_match veqb empty pivots id1 t2 = Some r2 -> In r2 t2.
  Proof.
    induction t2 as [|x t2 IH]; cbn; [discriminate|]. destruct (list_eqb _ _ _); [intros E; left; congruence|]. intros E. right. apply IH, E.
  Qed.
  Lemma join_row_spec t2 pivots keys r1 : row_ok r1 -> Forall row_ok t2 ->
    exists r o, join_row veqb empty t2 pivots keys r1 = Ok r /\ r_fields r = keys /\ length (r_values r) = length keys /\
      first_such (agree empty pivots r1) t2 o /\
      forall k v, In k keys -> (cell r k v <-> joined empty r1 o k v).
  Proof.
    intros O1 F2. unfold join_row, row_new. rewrite map_length, Nat.eqb_refl.
    pose proof (find_match_spec pivots r1 t2 O1 F2) as P. destruct (find_match _ _ _ _ t2) as [r2|] eqn:E.
    - assert (O2 : row_ok r2) by (rewrite Forall_forall in F2; apply F2, (find_match_in _ _ _ _ E)).
      eexists _, (Some r2). split; [reflexivity|]. split; [reflexivity|]. split; [apply map_length|]. split; [exact P|].
      intros k v I. rewrite cell_map by exact I. rewrite get_update by (apply fst_combine_nodup, O2).
      cbn [joined]. destruct (dict_get k (asdict r2)) as [w|] eqn:G.
      + pose proof G as G'. apply (get_cell _ _ _ O2) in G'. split.
        * intros <-. left. exact G'.
        * intros [H|[H _]]; [exact (cell_fun _ _ _ _ O2 G' H)|]. exfalso. exact (H (cell_in _ _ _ G')).
      + pose proof G as G'. apply (get_none _ _ O2) in G'. fold (getattr empty r1 k). rewrite (getattr_shows _ _ _ _ O1). split.
        * intros H. right. split; assumption.
        * intros [H|[_ H]]; [exfalso; exact (G' (cell_in _ _ _ H))|exact H].
    - eexists _, None. split; [reflexivity|]. split; [reflexivity|]. split; [apply map_length|]. split; [exact P|].
      intros k v I. rewrite cell_map by exact I. fold (getattr empty r1 k). apply getattr_shows, O1.
  Qed.
  Lemma api_join t1 t2 pivots keys : Forall row_ok t1 -> Forall row_ok t2 -> t1 <> [] -> t2 <> [] -> names_ok keys ->
    exists t, join_tables veqb empty t1 t2 pivots keys = Ok t /\
      Forall2 (fun r1 r => r_fields r = keys /\ length (r_values r) = length keys /\
        exists o, first_such (agree empty pivots r1) t2 o /\ forall k v, In k keys -> (cell r k v <-> joined empty r1 o k v)) t1 t.
  Proof.
    intros F1 F2 N1 N2 K. unfold join_tables.
    assert (G : forall A (l : list A), l <> [] -> exists x, py_get l 0 = Ok x).
    { intros A [|x l] N; [congruence|]. exists x. reflexivity. }
    destruct (G _ t1 N1) as [x1 ->]. destruct (G _ t2 N2) as [x2 ->]. cbn [bind]. rewrite row_type_ok by exact K. cbn [bind].
    clear N1 G. induction F1 as [|r1 t1 O1 F1 IH].
    - exists []. split; [reflexivity|constructor].
    - destruct IH as (t & E & H). destruct (join_row_spec t2 pivots keys r1 O1 F2) as (r & o & Er & Hf & Hl & Ho & Hc).
      exists (r :: t). cbn. rewrite Er. cbn. rewrite E. split; [reflexivity|]. constructor; [|exact H].
      split; [exact Hf|]. split; [exact Hl|]. exists o. split; assumption.
  Qed.
  Lemma api_join_fail t1 t2 pivots keys :
    (t1 = [] \/ t2 = [] -> join_tables veqb empty t1 t2 pivots keys = Err IndexError) /\
    (t1 <> [] -> t2 <> [] -> ~ names_ok keys -> join_tables veqb empty t1 t2 pivots keys = Err ValueError).
  Proof.
    split.
    - intros [-> | ->]; unfold join_tables; [reflexivity|]. destruct t1; reflexivity.
    - intros N1 N2 K. unfold join_tables. destruct t1; [congruence|]. destruct t2; [congruence|]. cbn. rewrite row_type_bad by exact K. reflexivity.
  Qed.
  (** Only the set of pivots matters: the default pivots come in any order. *)
  Lemma find_match_set p q r1 t2 : row_ok r1 -> Forall row_ok t2 -> (forall k, In k p <-> In k q) ->
    find_match veqb empty p (map (getattr empty r1) p) t2 = find_match veqb empty q (map (getattr empty r1) q) t2.
  Proof.
    intros O F E. induction F as [|r2 t2 O2 F IH]; cbn; [reflexivity|].
    assert (A : agree empty p r1 r2 <-> agree empty q r1 r2).
    { unfold agree. split; intros H k I; apply H, E, I. }
    rewrite <- !agree_eq in A by assumption.
    destruct (list_eqb_spec (map (getattr empty r1) p) (map (getattr empty r2) p));
    destruct (list_eqb_spec (map (getattr empty r1) q) (map (getattr empty r2) q)); try tauto; exact IH.
  Qed.
  Lemma api_join_pivots t1 t2 p q keys : Forall row_ok t1 -> Forall row_ok t2 -> (forall k, In k p <-> In k q) ->
    join_tables veqb empty t1 t2 p keys = join_tables veqb empty t1 t2 q keys.
  Proof.
    intros F1 F2 E. unfold join_tables. destruct (py_get t1 0); [|reflexivity]. destruct (py_get t2 0); [|reflexivity]. cbn.
    destruct (row_type keys); [|reflexivity]. cbn. clear a a0 a1. induction F1 as [|r1 t1 O1 F1 IH]; [reflexivity|]. cbn.
    unfold join_row at 1 3. rewrite (find_match_set p q r1 t2 O1 F2 E). rewrite IH. reflexivity.
  Qed.

  (** *** Queries *)
  Lemma dict_at_query r key query v : row_ok r -> dict_at (asdict r) key = Ok v ->
    if veqb v query then cell r key query else ~ cell r key query.
  Proof.
    intros O E. apply (dict_at_cell _ _ _ O) in E. destruct (veq v query) as [<-|N]; [exact E|].
    intros C. exact (N (cell_fun _ _ _ _ O E C)).
  Qed.
  Lemma has_col r key : row_ok r -> In key (r_fields r) -> exists v, dict_at (asdict r) key = Ok v.
  Proof. intros O I. destruct (cell_has _ _ O I) as [v C]. exists v. apply (dict_at_cell _ _ _ O), C. Qed.
  Lemma api_getall t key query : Forall row_ok t -> Forall (fun r => In key (r_fields r)) t ->
    exists l, getall veqb t key query = (l, Ok tt) /\ selected (fun r => cell r key query) t l.
  Proof.
    intros F C. induction t as [|r t IH]; cbn; [exists []; split; [reflexivity|constructor]|].
    inversion F as [|? ? O F']; subst. inversion C as [|? ? I C']; subst.
    destruct (has_col _ _ O I) as [v E]. rewrite E. destruct (IH F' C') as (l & El & Sl). rewrite El.
    pose proof (dict_at_query _ _ query _ O E) as Q. destruct (veqb v query); eexists; split; try reflexivity; constructor; assumption.
  Qed.
  Lemma api_getall_unknown before r after key query : Forall row_ok (before ++ r :: after) ->
    Forall (fun r => In key (r_fields r)) before -> ~ In key (r_fields r) ->
    exists l, getall veqb (before ++ r :: after) key query = (l, Err KeyError) /\ selected (fun r => cell r key query) before l.
  Proof.
    intros F C N. induction before as [|x b IH]; cbn in *.
    - inversion F; subst. rewrite dict_at_none by assumption. exists []. split; [reflexivity|constructor].
    - inversion F as [|? ? O F']; subst. inversion C as [|? ? I C']; subst.
      destruct (has_col _ _ O I) as [v E]. rewrite E. destruct (IH F' C') as (l & El & Sl). rewrite El.
      pose proof (dict_at_query _ _ query _ O E) as Q. destruct (veqb v query); eexists; split; try reflexivity; constructor; assumption.
  Qed.
  Lemma api_getone t key query : Forall row_ok t -> Forall (fun r => In key (r_fields r)) t ->
    exists o, getone veqb t key query = Ok o /\ first_such (fun r => cell r key query) t o.
  Proof.
    intros F C. induction t as [|r t IH]; cbn; [exists None; split; [reflexivity|constructor]|].
    inversion F as [|? ? O F']; subst. inversion C as [|? ? I C']; subst.
    destruct (has_col _ _ O I) as [v E]. rewrite E. cbn.
    pose proof (dict_at_query _ _ query _ O E) as Q. destruct (veqb v query).
    - exists (Some r). split; [reflexivity|]. split; [exact Q|]. exists [], t. split; [reflexivity|constructor].
    - destruct (IH F' C') as (o & El & Sl). exists o. split; [exact El|]. destruct o as [x|]; cbn in *.
      + destruct Sl as (P & b & a & -> & B). split; [exact P|]. exists (r :: b), a. split; [reflexivity|]. constructor; assumption.
      + constructor; assumption.
  Qed.
  Lemma api_getone_unknown before r after key query : Forall row_ok (before ++ r :: after) ->
    Forall (fun r => In key (r_fields r) /\ ~ cell r key query) before -> ~ In key (r_fields r) ->
    getone veqb (before ++ r :: after) key query = Err KeyError.
  Proof.
    intros F C N. induction before as [|x b IH]; cbn in *.
    - inversion F; subst. rewrite dict_at_none by assumption. reflexivity.
    - inversion F as [|? ? O F']; subst. inversion C as [|? ? [I NC] C']; subst.
      destruct (has_col _ _ O I) as [v E]. rewrite E. cbn.
      pose proof (dict_at_query _ _ query _ O E) as Q. destruct (veqb v query); [contradiction|]. apply IH; assumption.
  Qed.

  (** *** Restructuring *)
  Lemma pick_row keys r : row_ok r -> incl keys (r_fields r) -> exists n,
    (vs <- mapM (dict_at (asdict r)) keys ;; row_new keys vs) = Ok n /\ restricted keys r n.
  Proof.
    intros O I. pose (f := fun k => match dict_get k (asdict r) with Some v => v | None => empty end).
    rewrite (mapM_map_ok _ f).
    - cbn. unfold row_new. rewrite map_length, Nat.eqb_refl. eexists. split; [reflexivity|].
      split; [reflexivity|]. split; [apply map_length|]. intros k v Ik. rewrite cell_map by exact Ik. subst f. cbn beta.
      destruct (cell_has _ _ O (I _ Ik)) as [w C]. pose proof C as C'. apply (get_cell _ _ _ O) in C'. rewrite C'. split.
      + intros <-. exact C.
      + intros H. exact (cell_fun _ _ _ _ O C H).
    - intros k Ik. subst f. cbn. unfold dict_at. destruct (has_col _ _ O (I _ Ik)) as [v E]. unfold dict_at in E.
      destruct (dict_get k (asdict r)); [reflexivity|discriminate].
  Qed.
  Lemma gen_rows_all f t (P : row V -> row V -> Prop) :
    (forall r, In r t -> exists n, f r = Ok n /\ P r n) -> exists l, gen_rows f t = (l, Ok tt) /\ Forall2 P t l.
  Proof.
    induction t as [|r t IH]; intros H; cbn; [exists []; split; [reflexivity|constructor]|].
    destruct (H r (or_introl eq_refl)) as (n & E & Pn). rewrite E.
    destruct (IH (fun x I => H x (or_intror I))) as (l & El & Sl). rewrite El. exists (n :: l). split; [reflexivity|]. constructor; assumption.
  Qed.
  Lemma gen_rows_fail f before r after e (P : row V -> row V -> Prop) :
    (forall r, In r before -> exists n, f r = Ok n /\ P r n) -> f r = Err e ->
    exists l, gen_rows f (before ++ r :: after) = (l, Err e) /\ Forall2 P before l.
  Proof.
    intros H N. induction before as [|x b IH]; cbn; [rewrite N; exists []; split; [reflexivity|constructor]|].
    destruct (H x (or_introl eq_refl)) as (n & E & Pn). rewrite E.
    destruct (IH (fun x I => H x (or_intror I))) as (l & El & Sl). rewrite El. exists (n :: l). split; [reflexivity|]. constructor; assumption.
  Qed.
  Lemma uniform_ok fields (t : list (row V)) : NoDup fields -> uniform fields t -> Forall row_ok t.
  Proof. intros N U. eapply Forall_impl; [|exact U]. intros r [E L]. split; [rewrite E; exact N|rewrite E; exact L]. Qed.
  Lemma filter_selected {A} (p : A -> bool) (P : A -> Prop) l : (forall x, p x = true <-> P x) -> selected P l (filter p l).
  Proof.
    intros H. induction l as [|x l IH]; cbn; [constructor|]. destruct (p x) eqn:E.
    - constructor; [apply H, E|exact IH].
    - constructor; [intros Q; apply H in Q; congruence|exact IH].
  Qed.
  Lemma selected_incl {A} (P : A -> Prop) l s : selected P l s -> incl s l.
  Proof. induction 1; intros y I; cbn in *; [contradiction|destruct I as [->|I]; auto|auto]. Qed.
  Lemma selected_in {A} (P : A -> Prop) l s : selected P l s -> forall x, In x s <-> In x l /\ P x.
  Proof.
    induction 1 as [|x l s H _ IH|x l s H _ IH]; intros y; cbn; [tauto|rewrite IH|rewrite IH]; split.
    - intros [<-|[Q1 Q2]]; tauto.
    - intros [[<-|Q1] Q2]; tauto.
    - tauto.
    - intros [[<-|Q1] Q2]; tauto.
  Qed.
  Lemma selected_fun {A} (P : A -> Prop) l s : selected P l s -> forall s', selected P l s' -> s' = s.
  Proof.
    induction 1 as [|x l s H _ IH|x l s H _ IH]; intros s' S'; inversion S'; subst; try contradiction; f_equal; auto.
  Qed.
  Lemma names_sub (P : str -> Prop) l s : selected P l s -> names_ok l -> names_ok s.
  Proof.
    intros S [F N]. split.
    - rewrite Forall_forall in *. intros x I. apply F, (selected_incl _ _ _ S), I.
    - induction S as [|x l s H S IH|x l s H S IH]; [constructor| |]; inversion N; inversion F; subst.
      + constructor; [|apply IH; assumption]. intros I. apply (selected_incl _ _ _ S) in I. contradiction.
      + apply IH; assumption.
  Qed.
  Lemma api_delkeys fields (t : list (row V)) del : names_ok fields -> uniform fields t -> t <> [] ->
    exists kept l, selected (fun k => ~ In k del) fields kept /\ delkeys t del = (l, Ok tt) /\ Forall2 (restricted kept) t l.
  Proof.
    intros K U N. destruct t as [|r0 t0]; [congruence|]. clear N. set (t := r0 :: t0) in *.
    assert (E0 : r_fields r0 = fields) by (inversion U; tauto).
    assert (S : selected (fun k => ~ In k del) fields (filter (fun k => negb (str_in k del)) fields)).
    { apply filter_selected. intros k. rewrite negb_true_iff. destruct (str_in_spec k del); split; intros; try congruence; tauto. }
    unfold delkeys. change (py_get t 0) with (Ok r0). cbn [gen_after]. rewrite E0.
    rewrite row_type_ok by exact (names_sub _ _ _ S K). cbn [gen_after].
    edestruct (gen_rows_all (fun r => vs <- mapM (dict_at (asdict r)) (filter (fun k => negb (str_in k del)) fields) ;; row_new (filter (fun k => negb (str_in k del)) fields) vs) t
      (restricted (filter (fun k => negb (str_in k del)) fields))) as (l & El & Fl).
    - intros r I. apply pick_row.
      + pose proof (uniform_ok _ _ (proj2 K) U) as O. rewrite Forall_forall in O. apply O, I.
      + unfold uniform in U. rewrite Forall_forall in U. rewrite (proj1 (U r I)). apply (selected_incl _ _ _ S).
    - eexists _, l. split; [exact S|]. split; [exact El|exact Fl].
  Qed.
  Lemma asdict_snoc fs vs key (v : V) : length vs = length fs -> ~ In key fs ->
    dict_set key v (combine fs vs) = combine (fs ++ [key]) (vs ++ [v]).
  Proof.
    revert vs; induction fs as [|k fs IH]; intros [|w vs] L N; cbn in *; try lia; [reflexivity|].
    destruct (str_eqb_spec key k) as [->|]; [tauto|]. rewrite IH by (try lia; tauto). reflexivity.
  Qed.
  Lemma get_all fs : forall (vs : list V), NoDup fs -> length vs = length fs -> mapM (dict_at (combine fs vs)) fs = Ok vs.
  Proof.
    assert (G : forall pre pv post pw, length pre = length pv -> length post = length pw -> NoDup (pre ++ post) ->
      mapM (dict_at (combine (pre ++ post) (pv ++ pw))) post = Ok (A := list V) pw).
    { intros pre pv post. revert pre pv. induction post as [|k post IH]; intros pre pv [|w pw] L1 L2 N; cbn in L2; try lia; [reflexivity|].
      cbn [mapM]. unfold dict_at at 1. assert (E : dict_get k (combine (pre ++ k :: post) (pv ++ w :: pw)) = Some w).
      { apply get_combine; [exact N|]. exists (length pre). split.
        - rewrite nth_error_app2, Nat.sub_diag by lia. reflexivity.
        - rewrite nth_error_app2 by lia. rewrite <- L1, Nat.sub_diag. reflexivity. }
      rewrite E. cbn [bind]. specialize (IH (pre ++ [k]) (pv ++ [w]) pw). rewrite <- !app_assoc in IH. cbn in IH.
      rewrite IH; [reflexivity| | |exact N]; [rewrite !app_length; cbn; lia|lia]. }
    intros vs N L. apply (G [] [] fs vs); auto.
  Qed.
  Lemma addkey_row fields key r v : names_ok (fields ++ [key]) -> r_fields r = fields -> length (r_values r) = length fields ->
    (vs <- mapM (dict_at (dict_set key v (asdict r))) (fields ++ [key]) ;; row_new (fields ++ [key]) vs) =
    Ok (mkrow (fields ++ [key]) (r_values r ++ [v])).
  Proof.
    intros K E L. destruct K as [_ N]. unfold asdict. rewrite E, asdict_snoc.
    - rewrite get_all; [|exact N|rewrite !app_length; cbn; lia]. cbn. unfold row_new. rewrite !app_length. cbn. rewrite L, Nat.eqb_refl. reflexivity.
    - exact L.
    - apply NoDup_remove_2 in N. rewrite app_nil_r in N. exact N.
  Qed.
  Lemma api_addkey fields key t func : names_ok (fields ++ [key]) -> uniform fields t -> t <> [] ->
    (forall r, In r t -> exists v, func r = Ok v) ->
    exists l, addkey t key func = (l, Ok tt) /\
      Forall2 (fun r n => exists v, func r = Ok v /\ n = mkrow (fields ++ [key]) (r_values r ++ [v])) t l.
  Proof.
    intros K U N H. destruct t as [|r0 t0]; [congruence|]. clear N. set (t := r0 :: t0) in *.
    assert (E0 : r_fields r0 = fields) by (inversion U; tauto).
    unfold addkey. change (py_get t 0) with (Ok r0). cbn [gen_after]. rewrite E0.
    rewrite row_type_ok by exact K. cbn [gen_after]. apply gen_rows_all.
    intros r I. destruct (H r I) as [v E]. unfold uniform in U. rewrite Forall_forall in U. destruct (U r I) as [Ef El].
    eexists. rewrite E. cbn [bind]. rewrite addkey_row by assumption. split; [reflexivity|]. exists v. split; reflexivity.
  Qed.
  Lemma api_addkey_raises fields key before r after func e : names_ok (fields ++ [key]) -> uniform fields (before ++ r :: after) ->
    (forall r, In r before -> exists v, func r = Ok v) -> func r = Err e ->
    exists l, addkey (before ++ r :: after) key func = (l, Err e) /\
      Forall2 (fun r n => exists v, func r = Ok v /\ n = mkrow (fields ++ [key]) (r_values r ++ [v])) before l.
  Proof.
    intros K U H N. unfold addkey. unfold uniform in U. rewrite Forall_forall in U.
    assert (E0 : exists r0, py_get (before ++ r :: after) 0 = Ok r0 /\ r_fields r0 = fields).
    { destruct before as [|x b]; eexists; (split; [reflexivity|]); apply U; cbn; auto. }
    destruct E0 as (r0 & -> & E0). cbn [gen_after]. rewrite E0. rewrite row_type_ok by exact K. cbn [gen_after]. apply gen_rows_fail.
    - intros x I. destruct (H x I) as [v E]. destruct (U x) as [Ef El]; [apply in_or_app; auto|].
      eexists. rewrite E. cbn [bind]. rewrite addkey_row by assumption. split; [reflexivity|]. exists v. split; reflexivity.
    - rewrite N. reflexivity.
  Qed.
  Lemma api_restructure_fail key del func (t : list (row V)) :
    addkey [] key func = ([], Err IndexError) /\ delkeys (V := V) [] del = ([], Err IndexError) /\
    indexby veqb [] key = Err IndexError /\
    (forall fields, t <> [] -> uniform fields t -> ~ names_ok (fields ++ [key]) -> addkey t key func = ([], Err ValueError)).
  Proof.
    split; [reflexivity|]. split; [reflexivity|]. split; [reflexivity|]. intros fields N U K.
    destruct t as [|r0 t0]; [congruence|]. assert (E0 : r_fields r0 = fields) by (inversion U; tauto).
    unfold addkey. change (py_get (r0 :: t0) 0) with (Ok r0). cbn [gen_after]. rewrite E0, row_type_bad by exact K. reflexivity.
  Qed.

  (** *** indexby *)
  Lemma vset_in {A} (k : V) (v : A) (d : list (V * A)) k' v' : NoDup (map fst d) ->
    In (k', v') (vdict_set veqb k v d) <-> (k' = k /\ v' = v) \/ (k' <> k /\ In (k', v') d).
  Proof.
    induction d as [|[k0 v0] d IH]; intros N; cbn.
    - split; [intros [E|[]]; inversion E; auto|]. intros [[-> ->]|[_ []]]. auto.
    - inversion N as [|? ? N1 N2]; subst. destruct (veq k k0) as [->|D]; cbn.
      + split.
        * intros [E|I]; [inversion E; auto|]. right. split; [|auto]. intros ->. apply N1. apply in_map_iff. exists (k0, v'). auto.
        * intros [[-> ->]|[D [E|I]]]; [auto|inversion E; congruence|auto].
      + rewrite IH by exact N2. split.
        * intros [E|[[-> ->]|[D' I]]]; [inversion E; subst; right; split; [congruence|auto]|auto|auto].
        * intros [[-> ->]|[D' [E|I]]]; auto.
  Qed.
  Lemma vset_keys {A} (k : V) (v : A) (d : list (V * A)) : NoDup (map fst d) -> NoDup (map fst (vdict_set veqb k v d)).
  Proof.
    induction d as [|[k0 v0] d IH]; intros N; cbn; [repeat constructor; auto|]. inversion N as [|? ? N1 N2]; subst.
    destruct (veq k k0) as [->|D]; cbn; [constructor; assumption|]. constructor; [|apply IH, N2].
    intros I. apply in_map_iff in I. destruct I as ([a b] & E & I). cbn in E. subst a. apply (vset_in k v d k0 b N2) in I.
    destruct I as [[E _]|[_ I]]; [congruence|]. apply N1. apply in_map_iff. exists (k0, b). auto.
  Qed.
  (** The dictionary built so far describes the rows read so far. *)
  Definition indexed_by (kept : list str) (key : str) (t : list (row V)) (d : list (V * row V)) : Prop :=
    NoDup (map fst d) /\
    forall v n, In (v, n) d <->
      exists before r after, t = before ++ r :: after /\ cell r key v /\ Forall (fun x => ~ cell x key v) after /\
        n = mkrow kept (r_values n) /\ restricted kept r n.
  Lemma restricted_fun kept r n n' : NoDup kept -> restricted kept r n -> restricted kept r n' -> n = n'.
  Proof.
    intros N (F & L & H) (F' & L' & H'). destruct n as [f v], n' as [f' v']. cbn in *. subst f f'. f_equal.
    apply nth_error_ext. intros i. destruct (nth_error kept i) as [k|] eqn:E.
    - pose proof E as I. apply nth_error_In in I. assert (B : (i < length kept)%nat) by (apply nth_error_Some; congruence).
      assert (Ev : exists x, nth_error v i = Some x).
      { destruct (nth_error v i) eqn:Q; [eauto|]. apply nth_error_None in Q. lia. }
      destruct Ev as [x Ev]. rewrite Ev. assert (C : cell (mkrow kept v) k x) by (exists i; split; assumption).
      apply (H _ _ I) in C. apply (H' _ _ I) in C. destruct C as (j & Ej & Ej'). cbn in *.
      replace i with j; [congruence|]. eapply (proj1 (NoDup_nth_error kept) N); [apply nth_error_Some; congruence|congruence].
    - apply nth_error_None in E. rewrite (proj2 (nth_error_None _ _)) by lia. symmetry. apply nth_error_None. lia.
  Qed.
  Lemma restricted_shape kept r n : restricted kept r n -> n = mkrow kept (r_values n).
  Proof. intros (F & _ & _). destruct n as [f v]. cbn in *. congruence. Qed.
  Lemma index_step fields key kept t (d : list (V * row V)) r : NoDup fields -> NoDup kept -> incl kept fields -> In key fields ->
    r_fields r = fields -> length (r_values r) = length fields -> indexed_by kept key t d ->
    exists d', index_row veqb kept key d r = Ok d' /\ indexed_by kept key (t ++ [r]) d'.
  Proof.
    intros N NK IK I E L [D H]. assert (O : row_ok r) by (split; rewrite E; assumption).
    destruct (pick_row kept r O) as (n & En & Rn); [rewrite E; exact IK|].
    destruct (has_col r key O) as [v Ev]; [rewrite E; exact I|].
    unfold index_row. destruct (mapM (dict_at (asdict r)) kept) as [vs|e] eqn:Evs; cbn [bind] in En |- *; [|discriminate].
    rewrite En. cbn [bind]. rewrite Ev. cbn [bind]. eexists. split; [reflexivity|]. split; [apply vset_keys, D|].
    apply (dict_at_cell _ _ _ O) in Ev. intros w m. rewrite vset_in by exact D. split.
    - intros [[-> ->]|[Nw J]].
      + exists t, r, []. split; [reflexivity|]. split; [exact Ev|]. split; [constructor|]. split; [apply (restricted_shape _ _ _ Rn)|exact Rn].
      + apply H in J. destruct J as (b & x & a & -> & C & Fa & S & R). exists b, x, (a ++ [r]). rewrite <- app_assoc. split; [reflexivity|].
        split; [exact C|]. split; [|split; assumption]. apply Forall_app. split; [exact Fa|]. constructor; [|constructor].
        intros C'. apply Nw. exact (cell_fun _ _ _ _ O C' Ev).
    - intros (b & x & a & T & C & Fa & S & R). destruct (@exists_last _ (x :: a)) as (a' & y & Ea); [discriminate|].
      rewrite Ea, app_assoc in T. apply app_inj_tail in T. destruct T as [-> <-]. destruct a' as [|x' a'].
      + cbn in Ea. injection Ea as -> ->. left. split; [exact (cell_fun _ _ _ _ O C Ev)|]. exact (restricted_fun _ _ _ _ NK R Rn).
      + cbn in Ea. injection Ea as <- ->. apply Forall_app in Fa. destruct Fa as [Fa Fr]. right. split.
        * intros ->. inversion Fr. contradiction.
        * apply H. exists b, x, a'. auto.
  Qed.
  Lemma index_loop fields key kept : NoDup fields -> NoDup kept -> incl kept fields -> In key fields ->
    forall todo t d, uniform fields todo -> indexed_by kept key t d ->
    exists d', foldM (index_row veqb kept key) todo d = Ok d' /\ indexed_by kept key (t ++ todo) d'.
  Proof.
    intros N NK IK I. induction todo as [|r todo IH]; intros t d U H; cbn.
    - exists d. rewrite app_nil_r. split; [reflexivity|exact H].
    - inversion U as [|? ? [E L] U']; subst. destruct (index_step _ key kept t d r N NK IK I eq_refl L H) as (d' & Ed & H').
      rewrite Ed. cbn. destruct (IH (t ++ [r]) d' U' H') as (d'' & E'' & H''). rewrite <- app_assoc in H''. exists d''. auto.
  Qed.
  Lemma others_selected key fields : selected (fun k => k <> key) fields (filter (fun k => negb (str_eqb k key)) fields).
  Proof. apply filter_selected. intros k. rewrite negb_true_iff. destruct (str_eqb_spec k key); split; intros; congruence. Qed.
  Lemma api_indexby fields key t : names_ok fields -> uniform fields t -> t <> [] -> In key fields ->
    exists kept d, selected (fun k => k <> key) fields kept /\ indexby veqb t key = Ok d /\ NoDup (map fst d) /\
      forall v n, In (v, n) d <->
        exists before r after, t = before ++ r :: after /\ cell r key v /\ Forall (fun x => ~ cell x key v) after /\
          r_fields n = kept /\ restricted kept r n.
  Proof.
    intros K U N I. pose proof (others_selected key fields) as S. pose proof (names_sub _ _ _ S K) as K'.
    assert (E0 : exists r0, py_get t 0 = Ok r0 /\ r_fields r0 = fields).
    { destruct t as [|r0 t0]; [congruence|]. exists r0. split; [reflexivity|]. inversion U; tauto. }
    destruct E0 as (r0 & Eg & E0). unfold indexby. rewrite Eg. cbn [bind]. rewrite E0, row_type_ok by exact K'. cbn [bind].
    destruct (index_loop fields key _ (proj2 K) (proj2 K') (selected_incl _ _ _ S) I t [] [] U) as (d & Ed & D & H).
    { split; [constructor|]. intros v n. split; [intros []|]. intros (b & r & a & E & _). destruct b; discriminate. }
    eexists _, d. split; [exact S|]. split; [exact Ed|]. split; [exact D|]. intros v n. rewrite H. cbn [app].
    split; intros (b & r & a & E & C & F & S' & R); exists b, r, a; (split; [exact E|]); (split; [exact C|]); (split; [exact F|]); (split; [|exact R]).
    - rewrite S'. reflexivity.
    - exact (restricted_shape _ _ _ R).
  Qed.
  Lemma api_indexby_unknown fields key t : names_ok fields -> uniform fields t -> t <> [] -> ~ In key fields ->
    indexby veqb t key = Err KeyError.
  Proof.
    intros K U N I. pose proof (others_selected key fields) as S. pose proof (names_sub _ _ _ S K) as K'.
    destruct t as [|r0 t0]; [congruence|]. inversion U as [|? ? [E0 L0] _]; subst.
    unfold indexby. change (py_get (r0 :: t0) 0) with (Ok r0). cbn [bind]. rewrite row_type_ok by exact K'. cbn [bind foldM].
    assert (O : row_ok r0) by (split; [apply K|exact L0]).
    destruct (pick_row _ r0 O (selected_incl _ _ _ S)) as (n & En & _). unfold index_row at 1.
    destruct (mapM (dict_at (asdict r0)) _) as [vs|]; cbn [bind] in En |- *; [|discriminate]. rewrite En. cbn [bind].
    rewrite dict_at_none by assumption. reflexivity.
  Qed.
End Rows.
