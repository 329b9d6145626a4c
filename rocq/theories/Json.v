(** Reading back what json wrote. *)
From Coq Require Import ZArith Lia SpecFloat.
From Flocq Require Import IEEE754.BinarySingleNaN.
From Verif Require Import Py Num Text StrModel StrProofs BBoxModel ReprProofs ShpReaderModel ShpTableSpec ShpFloatText
  FloatTextModel FloatReprModel FloatReprText NumTextModel NumTextSpec NumText JsonModel JsonSpec.
Open Scope Z_scope.

(** ** The form of a printed number *)
Definition point_part (f : list Z) : Prop := f = [] \/ exists d, f = 46 :: d /\ plain_digs d /\ d <> [].
Definition exp_part (e : list Z) : Prop := e = [] \/ exists h d, e = 101 :: h :: d /\ (h = 43 \/ h = 45) /\ plain_digs d /\ d <> [].
Definition int_part (i : list Z) : Prop := i = [48] \/ exists c r, i = c :: r /\ 49 <= c <= 57 /\ plain_digs r.
Lemma plain_firstn n s : plain_digs s -> plain_digs (firstn n s).
Proof. intros P. unfold plain_digs in *. rewrite <- (firstn_skipn n s) in P. apply Forall_app in P. apply P. Qed.
Lemma plain_skipn n s : plain_digs s -> plain_digs (skipn n s).
Proof. intros P. unfold plain_digs in *. rewrite <- (firstn_skipn n s) in P. apply Forall_app in P. apply P. Qed.
Lemma exponent_part x : exp_part (text "e" ++ exponent_text x).
Proof.
  right. unfold exponent_text. cbv zeta. destruct (plain_dec (Z.abs x) (Z.abs_nonneg x)) as (P & Ne & _).
  exists (if x <? 0 then 45 else 43), (if (length (dec_nat (Z.abs x)) <? 2)%nat then 48 :: dec_nat (Z.abs x) else dec_nat (Z.abs x)).
  split; [destruct (x <? 0); reflexivity|]. split; [destruct (x <? 0); auto|].
  destruct (_ <? 2)%nat; split; auto; [constructor; [unfold digit; lia|exact P]|discriminate].
Qed.
Lemma strip_head n : 0 < n -> exists c r, rstrip_by (fun c => c =? 48) (dec_nat n) = c :: r /\ 49 <= c <= 57 /\ plain_digs r.
Proof.
  intros N. destruct (stripped n N) as (j & _ & P & Ne & _). destruct (first_digit n N) as (c & d & E & C).
  destruct (rstrip_split (fun c => c =? 48) (dec_nat n)) as (z & Ez & _). destruct (rstrip_by _ _) as [|c' r]; [congruence|].
  rewrite E in Ez. injection Ez as <- _. exists c, r. split; [reflexivity|]. split; [exact C|]. inversion P; assumption.
Qed.
Lemma layout_shape n k : 0 < n -> exists i f e, layout n k = i ++ f ++ e /\ int_part i /\ point_part f /\ exp_part e /\ f ++ e <> [].
Proof.
  intros N. destruct (strip_head n N) as (c & r & E & C & P). unfold layout. cbv zeta. rewrite E.
  assert (Pc : plain_digs (c :: r)) by (constructor; [unfold digit; lia|exact P]).
  set (pt := k + Z.of_nat (length (dec_nat n))). destruct (_ && _); [destruct (pt <=? 0) eqn:P0; [|destruct (pt <? _) eqn:P1]|].
  - exists [48], (46 :: zeros (- pt) ++ c :: r), []. rewrite app_nil_r. split; [reflexivity|]. split; [left; reflexivity|]. split; [|split; [left; reflexivity|discriminate]].
    right. eexists. split; [reflexivity|]. split; [apply Forall_app; split; [apply plain_zeros|exact Pc]|]. intros Q. apply app_eq_nil in Q. destruct Q; discriminate.
  - apply Z.leb_gt in P0. apply Z.ltb_lt in P1. exists (firstn (Z.to_nat pt) (c :: r)), (46 :: skipn (Z.to_nat pt) (c :: r)), []. rewrite app_nil_r. split; [reflexivity|].
    split; [|split; [|split; [left; reflexivity|discriminate]]].
    + right. destruct (Z.to_nat pt) as [|m] eqn:M; [lia|]. exists c, (firstn m r). split; [reflexivity|]. split; [exact C|apply plain_firstn, P].
    + right. eexists. split; [reflexivity|]. split; [apply plain_skipn, Pc|]. intros Q. assert (L : length (skipn (Z.to_nat pt) (c :: r)) = O) by (rewrite Q; reflexivity).
      rewrite skipn_length in L. lia.
  - exists ((c :: r) ++ zeros (pt - Z.of_nat (length (c :: r)))), (text ".0"), []. rewrite app_nil_r. split; [reflexivity|]. split; [|split; [|split; [left; reflexivity|discriminate]]].
    + right. eexists. eexists. split; [reflexivity|]. split; [exact C|]. apply Forall_app. split; [exact P|apply plain_zeros].
    + right. exists [48]. split; [reflexivity|]. split; [repeat constructor; unfold digit; lia|discriminate].
  - exists [c], (match r with [] => [] | f => 46 :: f end), (text "e" ++ exponent_text (pt - 1)). split; [cbn [firstn skipn]; rewrite <- app_assoc; destruct r; reflexivity|].
    split; [right; exists c, []; repeat split; try lia; constructor|]. split; [|split; [apply exponent_part|]].
    + destruct r as [|c' r]; [left; reflexivity|right]. eexists. split; [reflexivity|]. split; [exact P|discriminate].
    + intros Q. apply app_eq_nil in Q. destruct Q as [_ Q]. discriminate Q.
Qed.
Lemma float_shape d : finite_number (Float d) -> exists s i f e, repr64 d = minus s ++ i ++ f ++ e /\ int_part i /\ point_part f /\ exp_part e /\ f ++ e <> [].
Proof.
  intros F. destruct d as [s|s| |s m e]; try contradiction.
  - exists s, [48], (text ".0"), []. split; [destruct s; reflexivity|]. split; [left; reflexivity|]. split; [|split; [left; reflexivity|discriminate]].
    right. exists [48]. split; [reflexivity|]. split; [repeat constructor; unfold digit; lia|discriminate].
  - pose proof (FloatReprDigits.digits_spec m e (valid_sign _ _ _ F)) as S. unfold repr64. destruct (shortest 17 m e 1 _) as [n k]. destruct S as (N & _).
    destruct (layout_shape n k N) as (i & f & x & E & R). exists s, i, f, x. split; [rewrite E; reflexivity|exact R].
Qed.

(** ** Numbers *)
Definition ends (r : list Z) : Prop := match r with [] => True | c :: _ => c = 44 \/ c = 10 end.
Lemma ends_nodigit r : ends r -> no_digit_first r.
Proof. intros E c t ->. cbn in E. unfold digit. lia. Qed.
Lemma nodigit c r : ~ digit c -> no_digit_first (c :: r).
Proof. intros N x t Q. injection Q as <- <-. exact N. Qed.
Lemma load_shape s i f e rest d : int_part i -> point_part f -> exp_part e -> f ++ e <> [] -> ends rest -> float64 (minus s ++ i ++ f ++ e) = Ok d ->
  load_number ((minus s ++ i ++ f ++ e) ++ rest) = Some (Float d, rest).
Proof.
  intros I F E N R V.
  unfold load_number.
  assert (A : (match (minus s ++ i ++ f ++ e) ++ rest with 45 :: r => ([45], r) | _ => ([], (minus s ++ i ++ f ++ e) ++ rest) end) = (minus s, i ++ f ++ e ++ rest)).
  { rewrite <- !app_assoc. destruct s; [reflexivity|]. destruct I as [->|(c & r & -> & C & _)]; [reflexivity|]. cbn [minus app].
    assert (O : c = 49 \/ c = 50 \/ c = 51 \/ c = 52 \/ c = 53 \/ c = 54 \/ c = 55 \/ c = 56 \/ c = 57) by lia. repeat (destruct O as [->|O]; [reflexivity|]). subst c. reflexivity. }
  rewrite A. cbv zeta.
  assert (NE : no_digit_first (e ++ rest)) by (destruct E as [->|(h & u & -> & _)]; [apply ends_nodigit, R|apply nodigit; unfold digit; lia]).
  assert (NF : no_digit_first (f ++ e ++ rest)) by (destruct F as [->|(u & -> & _)]; [exact NE|apply nodigit; unfold digit; lia]).
  assert (B : (match i ++ f ++ e ++ rest with 48 :: r' => ([48], r') | _ => span_digits (i ++ f ++ e ++ rest) end) = (i, f ++ e ++ rest)).
  { destruct I as [->|(c & r & -> & C & P)]; [reflexivity|]. assert (Pc : plain_digs (c :: r)) by (constructor; [unfold digit; lia|exact P]).
    rewrite (span_app (c :: r) (f ++ e ++ rest) Pc NF). cbn [app].
    assert (O : c = 49 \/ c = 50 \/ c = 51 \/ c = 52 \/ c = 53 \/ c = 54 \/ c = 55 \/ c = 56 \/ c = 57) by lia. repeat (destruct O as [->|O]; [reflexivity|]). subst c. reflexivity. }
  rewrite B.
  assert (Ni : negb (nonempty i) = false) by (destruct I as [->|(c & r & -> & _)]; reflexivity). rewrite Ni.
  assert (D : (match f ++ e ++ rest with 46 :: r' => let '(d0, t) := span_digits r' in if nonempty d0 then (46 :: d0, t) else ([], f ++ e ++ rest) | _ => ([], f ++ e ++ rest) end) = (f, e ++ rest)).
  { destruct F as [->|(u & -> & P & Nu)].
    - cbn [app]. destruct E as [->|(h & u & -> & _)]; [|reflexivity]. cbn [app]. destruct rest as [|c rest]; [reflexivity|]. destruct R as [->| ->]; reflexivity.
    - cbn [app]. rewrite (span_app u _ P NE). destruct u; [congruence|reflexivity]. }
  rewrite D.
  assert (G : (match e ++ rest with
      | c :: r' => if (c =? 101) || (c =? 69) then
            let '(h, u) := match r' with 43 :: u => ([43], u) | 45 :: u => ([45], u) | _ => ([], r') end in
            let '(d0, t) := span_digits u in if nonempty d0 then (c :: h ++ d0, t) else ([], e ++ rest)
          else ([], e ++ rest)
      | [] => ([], e ++ rest) end) = (e, rest)).
  { destruct E as [->|(h & u & -> & H & P & Nu)].
    - cbn [app]. destruct rest as [|c rest]; [reflexivity|]. destruct R as [->| ->]; reflexivity.
    - cbn [app]. change ((101 =? 101) || (101 =? 69)) with true. cbv iota.
      assert (Q : (match h :: u ++ rest with 43 :: u => ([43], u) | 45 :: u => ([45], u) | _ => ([], h :: u ++ rest) end) = ([h], u ++ rest)) by (destruct H as [->| ->]; reflexivity).
      rewrite Q. rewrite (span_app u _ P (ends_nodigit _ R)). destruct u; [congruence|reflexivity]. }
  rewrite G. rewrite V. destruct (f ++ e); [congruence|reflexivity].
Qed.
Lemma load_int z rest : ends rest -> load_number (str_int z ++ rest) = Some (Int z, rest).
Proof.
  intros R.
  assert (H : exists s i, str_int z = minus s ++ i /\ int_part i).
  { unfold str_int. destruct (z <? 0) eqn:L.
    - apply Z.ltb_lt in L. destruct (first_digit (- z)) as (c & d & E & C); [lia|]. exists true, (dec_nat (- z)). split; [reflexivity|]. right. exists c, d. split; [exact E|].
      split; [exact C|]. destruct (plain_dec (- z)) as (P & _); [lia|]. rewrite E in P. inversion P; assumption.
    - apply Z.ltb_ge in L. exists false, (dec_nat z). split; [reflexivity|]. destruct (Z.eq_dec z 0) as [->|N]; [left; reflexivity|].
      destruct (first_digit z) as (c & d & E & C); [lia|]. right. exists c, d. split; [exact E|].
      split; [exact C|]. destruct (plain_dec z) as (P & _); [lia|]. rewrite E in P. inversion P; assumption. }
  destruct H as (s & i & E & I). pose proof (py_int_str z [] (Forall_nil _)) as V. rewrite app_nil_r in V. rewrite E in V |- *.
  unfold load_number.
  assert (A : (match (minus s ++ i) ++ rest with 45 :: r => ([45], r) | _ => ([], (minus s ++ i) ++ rest) end) = (minus s, i ++ rest)).
  { rewrite <- !app_assoc. destruct s; [reflexivity|]. destruct I as [->|(c & r & -> & C & _)]; [reflexivity|]. cbn [minus app].
    assert (O : c = 49 \/ c = 50 \/ c = 51 \/ c = 52 \/ c = 53 \/ c = 54 \/ c = 55 \/ c = 56 \/ c = 57) by lia. repeat (destruct O as [->|O]; [reflexivity|]). subst c. reflexivity. }
  rewrite A. cbv zeta.
  assert (B : (match i ++ rest with 48 :: r' => ([48], r') | _ => span_digits (i ++ rest) end) = (i, rest)).
  { destruct I as [->|(c & r & -> & C & P)]; [reflexivity|]. assert (Pc : plain_digs (c :: r)) by (constructor; [unfold digit; lia|exact P]).
    rewrite (span_app (c :: r) rest Pc (ends_nodigit _ R)). cbn [app].
    assert (O : c = 49 \/ c = 50 \/ c = 51 \/ c = 52 \/ c = 53 \/ c = 54 \/ c = 55 \/ c = 56 \/ c = 57) by lia. repeat (destruct O as [->|O]; [reflexivity|]). subst c. reflexivity. }
  rewrite B.
  assert (Ni : negb (nonempty i) = false) by (destruct I as [->|(c & r & -> & _)]; reflexivity). rewrite Ni.
  assert (D : (match rest with 46 :: r' => let '(d0, t) := span_digits r' in if nonempty d0 then (46 :: d0, t) else ([], rest) | _ => ([], rest) end) = ([], rest)).
  { destruct rest as [|c rest]; [reflexivity|]. destruct R as [->| ->]; reflexivity. }
  rewrite D.
  destruct rest as [|c rest]; [cbn [app nonempty]; rewrite V; reflexivity|]. destruct R as [->| ->]; cbn [Z.eqb Pos.eqb orb app nonempty]; rewrite V; reflexivity.
Qed.
(** The first character of a number, and the rest for which the words fail *)
Lemma num_head x : finite_number x -> exists c t, num_str x = c :: t /\ (48 <= c <= 57 \/ (c = 45 /\ exists c' t', t = c' :: t' /\ 48 <= c' <= 57)).
Proof.
  intros F.
  assert (H : forall s i u, int_part i -> exists c t, minus s ++ i ++ u = c :: t /\ (48 <= c <= 57 \/ (c = 45 /\ exists c' t', t = c' :: t' /\ 48 <= c' <= 57))).
  { intros s i u I. assert (exists c r, i = c :: r /\ 48 <= c <= 57) as (c & r & -> & C) by (destruct I as [->|(c & r & -> & C & _)]; eexists; eexists; (split; [reflexivity|]); lia).
    destruct s; cbn [minus app].
    - exists 45, (c :: r ++ u). split; [reflexivity|]. right. split; [reflexivity|]. exists c, (r ++ u). auto.
    - exists c, (r ++ u). auto. }
  destruct x as [z|d]; cbn [num_str].
  - unfold str_int. destruct (z <? 0) eqn:L.
    + apply Z.ltb_lt in L. destruct (first_digit (- z)) as (c & d & -> & C); [lia|]. exists 45, (c :: d). split; [reflexivity|]. right. split; [reflexivity|]. exists c, d. split; [reflexivity|lia].
    + apply Z.ltb_ge in L. destruct (Z.eq_dec z 0) as [->|N]; [exists 48, []; split; [reflexivity|left; lia]|]. destruct (first_digit z) as (c & d & -> & C); [lia|]. exists c, d. split; [reflexivity|left; lia].
  - destruct (float_shape d F) as (s & i & f & e & -> & I & _). apply H, I.
Qed.
Lemma load_num f x rest : a_number x -> ends rest -> load_value (S f) (json_num x ++ rest) = Some (DNum x, rest).
Proof.
  intros A R. destruct (finite_dec x) as [F|F].
  - assert (E : json_num x = num_str x) by (destruct x as [z|[s|s| |s m e]]; try contradiction; reflexivity). rewrite E.
    assert (L : load_number (num_str x ++ rest) = Some (x, rest)).
    { destruct x as [z|d]; [apply load_int, R|]. cbn [num_str]. destruct (float_shape d F) as (s & i & u & e & Q & I & P & X & N). rewrite Q. apply load_shape; auto.
      rewrite <- Q. apply repr_back. exact A. }
    destruct (num_head x F) as (c & t & Q & H). assert (Hc : c = 45 \/ 48 <= c <= 57) by (destruct H as [H|(H & _)]; [right; exact H|left; exact H]). rewrite Q in L |- *. cbn [app] in L |- *.
    assert (V : drop_prefix (text "NaN") (c :: t ++ rest) = None /\ drop_prefix (text "Infinity") (c :: t ++ rest) = None /\ drop_prefix (text "-Infinity") (c :: t ++ rest) = None).
    { assert (K : forall a p, a <> c -> drop_prefix (a :: p) (c :: t ++ rest) = None) by (intros a p Ne; cbn; destruct (Z.eqb_spec a c); [contradiction|reflexivity]).
      split; [apply (K 78); clear - Hc; lia|]. split; [apply (K 73); clear - Hc; lia|]. destruct H as [H|(-> & c' & t' & -> & C)]; [apply (K 45); lia|].
      cbn. destruct (73 =? c') eqn:E7; [apply Z.eqb_eq in E7; lia|]. destruct c'; try reflexivity. all: repeat (destruct p; try reflexivity; try (cbn in E7; discriminate E7)). }
    destruct V as (V1 & V2 & V3).
    assert (O : c <> 34 /\ c <> 91 /\ c <> 123) by (clear - Hc; lia).
    assert (G : load_value (S f) (c :: t ++ rest) =
      match drop_prefix (text "NaN") (c :: t ++ rest) with Some t => Some (DNum (Float S754_nan), t) | None =>
          match drop_prefix (text "Infinity") (c :: t ++ rest) with Some t => Some (DNum (Float (S754_infinity false)), t) | None =>
          match drop_prefix (text "-Infinity") (c :: t ++ rest) with Some t => Some (DNum (Float (S754_infinity true)), t) | None =>
          match load_number (c :: t ++ rest) with Some (x, t) => Some (DNum x, t) | None => None end end end end).
    { assert (O2 : c = 45 \/ c = 48 \/ c = 49 \/ c = 50 \/ c = 51 \/ c = 52 \/ c = 53 \/ c = 54 \/ c = 55 \/ c = 56 \/ c = 57) by (clear - Hc; lia).
      clear - O2. repeat (destruct O2 as [->|O2]; [reflexivity|]). subst c. reflexivity. }
    rewrite G, V1, V2, V3, L. reflexivity.
  - destruct x as [z|[s|s| |s m e]]; [destruct F; exact I|destruct F; reflexivity| | |destruct F; exact A].
    + destruct s; reflexivity.
    + reflexivity.
Qed.

(** ** Strings and white space *)
Lemma load_str s rest : simple s -> load_string (s ++ 34 :: rest) = Some (s, rest).
Proof.
  induction 1 as [|c s (A & B & D) F IH]; [reflexivity|]. cbn [app load_string]. destruct (Z.eqb_spec c 34); [contradiction|]. destruct (Z.eqb_spec c 92); [contradiction|]. rewrite IH. reflexivity.
Qed.
Definition solid (s : list Z) : Prop := match s with [] => False | c :: _ => c <> 32 /\ c <> 9 /\ c <> 10 /\ c <> 13 end.
Lemma skip_solid s : solid s -> skip_white s = s.
Proof.
  destruct s as [|c s]; [intros []|]. cbn. intros (A & B & D & E).
  destruct (Z.eqb_spec c 32); [contradiction|]. destruct (Z.eqb_spec c 9); [contradiction|]. destruct (Z.eqb_spec c 10); [contradiction|]. destruct (Z.eqb_spec c 13); [contradiction|]. reflexivity.
Qed.
Lemma skip_newline i s : solid s -> skip_white (newline i ++ s) = s.
Proof.
  intros S. unfold newline. cbn [app skip_white]. change ((10 =? 32) || (10 =? 9) || (10 =? 10) || (10 =? 13)) with true. cbv iota.
  induction (4 * i)%nat as [|n IH]; [exact (skip_solid s S)|]. cbn [repeat app skip_white]. exact IH.
Qed.
(** What a dumped value begins with *)
Definition starts (s : list Z) : Prop := match s with [] => False | c :: _ => c = 45 \/ 48 <= c <= 57 \/ c = 73 \/ c = 78 \/ c = 34 \/ c = 91 \/ c = 123 end.
Lemma dump_starts ind d rest : writable d -> starts (dump ind d ++ rest).
Proof.
  intros W. destruct d as [x|s|[|d l]|[|kv l]]; cbn [dump]; try (cbn; lia).
  inversion W; subst. destruct (finite_dec x) as [F|F].
  - assert (E : json_num x = num_str x) by (destruct x as [z|[s|s| |s m e]]; try contradiction; reflexivity). rewrite E. destruct (num_head x F) as (c & t & -> & H). cbn. assert (Hc : c = 45 \/ 48 <= c <= 57) by (destruct H as [H|(H & _)]; [right; exact H|left; exact H]). clear - Hc. lia.
  - destruct x as [z|[s|s| |s m e]]; [destruct F; exact I|destruct F; reflexivity| | |destruct F; assumption]; [destruct s|]; cbn; lia.
Qed.
Lemma starts_solid s : starts s -> solid s.
Proof. destruct s as [|c s]; cbn; [auto|lia]. Qed.

(** ** Documents *)
Fixpoint dsize (d : doc) : nat :=
  match d with
  | DNum _ | DStr _ => 1
  | DArr l => S (fold_right (fun d a => S (dsize d + a)) O l)
  | DObj l => S (fold_right (fun kv a => S (match kv with (_, d) => dsize d end + a)) O l)
  end.
Definition isize (l : list doc) : nat := fold_right (fun d a => S (dsize d + a)) O l.
Definition psize (l : list (list Z * doc)) : nat := fold_right (fun kv a => S (match kv with (_, d) => dsize d end + a)) O l.
Definition pair_text (i : nat) (kv : list Z * doc) : list Z := match kv with (k, v) => quoted k ++ text ": " ++ dump i v end.
Lemma joined_cons sep a b l : joined sep (a :: b :: l) = a ++ sep ++ joined sep (b :: l).
Proof. reflexivity. Qed.
Lemma dump_arr ind d l : dump ind (DArr (d :: l)) = 91 :: newline (S ind) ++ joined (44 :: newline (S ind)) (map (dump (S ind)) (d :: l)) ++ newline ind ++ [93].
Proof. reflexivity. Qed.
Lemma dump_obj ind d l : dump ind (DObj (d :: l)) = 123 :: newline (S ind) ++ joined (44 :: newline (S ind)) (map (pair_text (S ind)) (d :: l)) ++ newline ind ++ [125].
Proof. reflexivity. Qed.
Lemma joined_head sep a l s : starts a -> starts (joined sep (a :: l) ++ s).
Proof. intros H. destruct l; [|rewrite joined_cons]; destruct a; try contradiction; exact H. Qed.
Lemma dump_starts' ind d : writable d -> starts (dump ind d).
Proof. intros W. pose proof (dump_starts ind d [] W) as H. rewrite app_nil_r in H. exact H. Qed.
Lemma solid_cons c s : c <> 32 -> c <> 9 -> c <> 10 -> c <> 13 -> solid (c :: s).
Proof. cbn. auto. Qed.

Lemma loads n :
  (forall d ind rest, writable d -> (dsize d <= n)%nat -> ends rest -> load_value n (dump ind d ++ rest) = Some (d, rest)) /\
  (forall l i j rest, l <> [] -> Forall writable l -> (isize l <= n)%nat ->
     load_items n (joined (44 :: newline i) (map (dump i) l) ++ newline j ++ 93 :: rest) = Some (l, rest)) /\
  (forall l i j rest, l <> [] -> Forall (fun kv => simple (fst kv)) l -> Forall writable (map snd l) -> (psize l <= n)%nat ->
     load_pairs n (joined (44 :: newline i) (map (pair_text i) l) ++ newline j ++ 125 :: rest) = Some (l, rest)).
Proof.
  induction n as [|n (IV & II & IP)].
  - split; [|split].
    + intros [x|s|l|l] ind rest W L; cbn in L; lia.
    + intros [|d l] i j rest N W L; [congruence|cbn in L; lia].
    + intros [|d l] i j rest N W W' L; [congruence|cbn in L; lia].
  - split; [|split].
    + intros d ind rest W L E. inversion W as [x A|s A|l F|l F F']; subst.
      * apply load_num; auto.
      * unfold dump, quoted. cbn [app]. rewrite <- app_assoc. cbn [load_value app]. rewrite load_str by exact A. reflexivity.
      * destruct l as [|d l]; [reflexivity|]. rewrite dump_arr. cbn [app load_value]. rewrite <- !app_assoc. cbn [app].
        assert (S0 : starts (joined (44 :: newline (S ind)) (map (dump (S ind)) (d :: l)) ++ newline ind ++ 93 :: rest)).
        { apply joined_head, dump_starts'. inversion F; assumption. }
        rewrite skip_newline by (apply starts_solid, S0). 
        assert (P : load_items n (joined (44 :: newline (S ind)) (map (dump (S ind)) (d :: l)) ++ newline ind ++ 93 :: rest) = Some (d :: l, rest)).
        { apply II; [discriminate|exact F|]. cbn in L |- *. lia. }
        revert S0 P. generalize (joined (44 :: newline (S ind)) (map (dump (S ind)) (d :: l)) ++ newline ind ++ 93 :: rest). clear. intros [|c s]; [intros []|]. cbn [starts]. intros H P.
        assert (O : c = 45 \/ c = 48 \/ c = 49 \/ c = 50 \/ c = 51 \/ c = 52 \/ c = 53 \/ c = 54 \/ c = 55 \/ c = 56 \/ c = 57 \/ c = 73 \/ c = 78 \/ c = 34 \/ c = 91 \/ c = 123) by lia.
        clear H. repeat (destruct O as [->|O]; [rewrite P; reflexivity|]). subst c. rewrite P. reflexivity.
      * destruct l as [|d l]; [reflexivity|]. rewrite dump_obj. cbn [app load_value]. rewrite <- !app_assoc. cbn [app].
        assert (S0 : exists t, joined (44 :: newline (S ind)) (map (pair_text (S ind)) (d :: l)) ++ newline ind ++ 125 :: rest = 34 :: t).
        { cbn [map]. destruct d as [k v]. destruct (map (pair_text (S ind)) l); eexists; reflexivity. }
        rewrite skip_newline by (destruct S0 as (t & ->); cbn; lia).
        assert (P : load_pairs n (joined (44 :: newline (S ind)) (map (pair_text (S ind)) (d :: l)) ++ newline ind ++ 125 :: rest) = Some (d :: l, rest)).
        { apply IP; [discriminate|exact F|exact F'|]. cbn in L |- *. lia. }
        destruct S0 as (t & Q). rewrite Q in P |- *. rewrite P. reflexivity.
    + intros [|d l] i j rest N W L; [congruence|]. inversion W as [|? ? Wd Wl]; subst. cbn [isize fold_right] in L.
      cbn [load_items]. destruct l as [|d' l].
      * cbn [map joined]. rewrite IV; [|exact Wd|lia|cbn; lia]. rewrite skip_newline by (cbn; lia). reflexivity.
      * cbn [map]. rewrite joined_cons, <- app_assoc. rewrite IV; [|exact Wd|lia|cbn; lia].
        cbn [app]. rewrite skip_solid by (cbn; lia). rewrite <- app_assoc.
        rewrite skip_newline by (apply starts_solid, joined_head, dump_starts'; inversion Wl; assumption).
        change (dump i d' :: map (dump i) l) with (map (dump i) (d' :: l)). rewrite II; [reflexivity|discriminate|exact Wl|]. fold (isize (d' :: l)) in L. lia.
    + intros [|[k d] l] i j rest N F W L; [congruence|]. inversion F as [|? ? Fk Fl]; subst. inversion W as [|? ? Wd Wl]; subst. cbn [psize fold_right] in L. cbn [fst] in Fk. cbn [snd] in Wd.
      destruct l as [|d' l].
      * cbn [map joined]. cbn [pair_text]. unfold quoted. change (text ": ") with [58; 32]. cbn [app load_pairs]. rewrite <- !app_assoc. cbn [app]. rewrite load_str by exact Fk.
        cbn [skip_white Z.eqb Pos.eqb orb]. rewrite skip_solid by (apply starts_solid, dump_starts, Wd). rewrite IV; [|exact Wd|lia|cbn; lia]. rewrite skip_newline by (cbn; lia). reflexivity.
      * cbn [map]. rewrite joined_cons. cbn [pair_text]. unfold quoted at 1. change (text ": ") with [58; 32] at 1. cbn [app load_pairs]. rewrite <- !app_assoc. cbn [app]. rewrite load_str by exact Fk.
        cbn [skip_white Z.eqb Pos.eqb orb]. rewrite skip_solid by (apply starts_solid, dump_starts, Wd). rewrite IV; [|exact Wd|lia|cbn; lia].
        rewrite skip_solid by (cbn; lia). 
        assert (S0 : exists t, joined (44 :: newline i) (pair_text i d' :: map (pair_text i) l) ++ newline j ++ 125 :: rest = 34 :: t).
        { destruct d' as [k' v']. destruct (map (pair_text i) l); eexists; reflexivity. }
        rewrite <- app_assoc. rewrite skip_newline by (destruct S0 as (t & ->); cbn; lia).
        change (pair_text i d' :: map (pair_text i) l) with (map (pair_text i) (d' :: l)). rewrite IP; [reflexivity|discriminate|exact Fl|exact Wl|]. fold (psize (d' :: l)) in L. lia.
Qed.
Lemma joined_length (sep : list Z) l : (1 <= length sep)%nat -> (fold_right (fun a n => S (length a + n)) O l <= S (length (joined sep l)))%nat.
Proof.
  intros S0. induction l as [|a [|b l] IH]; [cbn; lia|cbn; lia|]. rewrite joined_cons, !app_length. cbn [fold_right] in IH |- *. lia.
Qed.
Lemma size_length n : forall d ind, (dsize d <= n)%nat -> writable d -> (dsize d <= length (dump ind d))%nat.
Proof.
  induction n as [|n IH]; intros d ind L W; [destruct d; cbn in L; lia|].
  inversion W as [x A|s A|l F|l F F']; subst.
  - pose proof (dump_starts' ind _ W) as S0. cbn [dsize]. destruct (dump ind (DNum x)); [contradiction|cbn; lia].
  - cbn. lia.
  - destruct l as [|d l]; [cbn; lia|]. rewrite dump_arr. cbn [length]. rewrite !app_length.
    pose proof (joined_length (44 :: newline (S ind)) (map (dump (S ind)) (d :: l)) ltac:(cbn; lia)) as J.
    assert (K : forall l, Forall writable l -> (isize l <= n)%nat -> (isize l <= fold_right (fun a n => S (length a + n)) O (map (dump (S ind)) l))%nat).
    { induction l0 as [|x l0 IHl]; intros Fl Ll; [cbn; lia|]. inversion Fl; subst. cbn [isize fold_right map] in Ll |- *. fold (isize l0) in Ll |- *.
      pose proof (IH x (S ind) ltac:(lia) ltac:(assumption)). specialize (IHl ltac:(assumption) ltac:(lia)). lia. }
    change (dsize (DArr (d :: l))) with (S (isize (d :: l))) in L |- *. specialize (K (d :: l) F ltac:(lia)).
    assert (N1 : (1 <= length (newline ind))%nat) by (cbn; lia). lia.
  - destruct l as [|d l]; [cbn; lia|]. rewrite dump_obj. cbn [length]. rewrite !app_length.
    pose proof (joined_length (44 :: newline (S ind)) (map (pair_text (S ind)) (d :: l)) ltac:(cbn; lia)) as J.
    assert (K : forall l, Forall writable (map snd l) -> (psize l <= n)%nat -> (psize l <= fold_right (fun a n => S (length a + n)) O (map (pair_text (S ind)) l))%nat).
    { induction l0 as [|[k x] l0 IHl]; intros Fl Ll; [cbn; lia|]. inversion Fl; subst. cbn [psize fold_right map] in Ll |- *. fold (psize l0) in Ll |- *.
      pose proof (IH x (S ind) ltac:(lia) ltac:(assumption)). specialize (IHl ltac:(assumption) ltac:(lia)). unfold pair_text at 1. rewrite !app_length. lia. }
    change (dsize (DObj (d :: l))) with (S (psize (d :: l))) in L |- *. specialize (K (d :: l) F' ltac:(lia)).
    assert (N1 : (1 <= length (newline ind))%nat) by (cbn; lia). lia.
Qed.
Lemma load_dump d : writable d -> load_text (dump 0 d ++ [10]) = Some d.
Proof.
  intros W. unfold load_text. rewrite skip_solid by (apply starts_solid, dump_starts, W).
  destruct (loads (S (length (dump 0 d ++ [10])))) as (V & _). rewrite V; [reflexivity|exact W| |cbn; auto].
  pose proof (size_length (dsize d) d 0 (le_n _) W). rewrite app_length. lia.
Qed.

(** ** Frames *)
Lemma simple_text s : forallb (fun c => (32 <=? c) && (c <? 127) && negb (c =? 34) && negb (c =? 92)) s = true -> simple s.
Proof.
  intros H. apply Forall_forall. intros c I. rewrite forallb_forall in H. specialize (H c I).
  apply andb_prop in H as (H & D). apply andb_prop in H as (H & C). apply andb_prop in H as (A & B).
  apply Z.leb_le in A. apply Z.ltb_lt in B. apply Bool.negb_true_iff, Z.eqb_neq in C. apply Bool.negb_true_iff, Z.eqb_neq in D. auto.
Qed.
Lemma frame_writable f : good_settings f -> writable (frame_doc f).
Proof.
  intros (T & C0 & C1 & (B0 & B1 & B2 & B3) & S0). unfold frame_doc.
  destruct (st_shape f) as [r|a b e g]; [|destruct S0 as (Sa & Sb & Se & Sg)];
  repeat match goal with
  | |- writable (snd (_, _)) => cbn [snd]
  | |- writable (DObj _) => apply w_obj
  | |- writable (DArr _) => apply w_arr
  | |- writable (DStr _) => apply w_str
  | |- writable (DNum _) => apply w_num
  | |- Forall _ _ => constructor
  | |- Forall _ (map _ _) => cbn [map snd]; constructor
  | |- simple (st_type _) => exact T
  | |- simple _ => apply simple_text; reflexivity
  | |- a_number (Float (S754_zero _)) => exact (eq_refl true)
  | |- a_number _ => assumption
  end.
Qed.
Lemma frame_fields f : has_settings (Some (frame_doc f)) f.
Proof. destruct f as [t [u v] [r|a b e g] [x0 y0 x1 y1]]; repeat split; reflexivity. Qed.
Lemma fields_one d f g : has_settings d f -> has_settings d g -> f = g.
Proof.
  destruct f as [t [u v] s [x0 y0 x1 y1]], g as [t' [u' v'] s' [a0 b0 a1 b1]]. unfold has_settings. cbv zeta. cbn [st_type st_center st_shape st_box fst snd bx0 by0 bx1 by1].
  intros (E1 & E2 & E3 & E4 & E5 & E6 & E7) (F1 & F2 & F3 & F4 & F5 & F6 & F7).
  rewrite E1 in F1. rewrite E2 in F2. rewrite E3 in F3. rewrite E4 in F4. rewrite E5 in F5. rewrite E6 in F6.
  assert (s = s').
  { destruct s as [r|a b e g], s' as [r'|a' b' e' g'].
    - destruct E7 as (_ & E7), F7 as (_ & F7). rewrite E7 in F7. congruence.
    - destruct E7 as (E7 & _), F7 as (F7 & _). rewrite E7 in F7. discriminate F7.
    - destruct E7 as (E7 & _), F7 as (F7 & _). rewrite E7 in F7. discriminate F7.
    - destruct E7 as (_ & A & B & E & G), F7 as (_ & A' & B' & E' & G'). rewrite A in A'. rewrite B in B'. rewrite E in E'. rewrite G in G'. congruence. }
  congruence.
Qed.
Lemma frame_back f : good_settings f -> has_settings (load_text (frame_file f)) f.
Proof. intros G. unfold frame_file. rewrite load_dump by apply frame_writable, G. apply frame_fields. Qed.
Lemma frame_apart f g : good_settings f -> good_settings g -> frame_file f = frame_file g -> f = g.
Proof. intros F G E. pose proof (frame_back f F) as A. rewrite E in A. exact (fields_one _ _ _ A (frame_back g G)). Qed.
Lemma dump_apart d d' : writable d -> writable d' -> dump 0 d = dump 0 d' -> d = d'.
Proof. intros W W' E. pose proof (load_dump d W) as A. rewrite E, load_dump in A by exact W'. congruence. Qed.
