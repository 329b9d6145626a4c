(** Proofs about the texts of boxes, buffers and variables. *)
From Coq Require Import Lia ZifyBool QArith.
From Verif Require Import Num Py Text StrModel StrProofs BBoxModel BufferModel GridModel ReprModel ReprSpec.
Open Scope Z_scope.

Lemma after_app p s : after p (p ++ s) = Some s.
Proof. induction p as [|a p IH]; cbn; [reflexivity|]. now rewrite Z.eqb_refl. Qed.
Lemma after_app2 p q s : after (p ++ q) (p ++ s) = after q s.
Proof. induction p as [|a p IH]; cbn; [reflexivity|]. now rewrite Z.eqb_refl. Qed.

Definition stops (r : list Z) : Prop := match r with [] => True | c :: _ => ~ (48 <= c <= 57) end.
Lemma digits_app d r : all_digits d -> stops r -> digits (d ++ r) = (d, r).
Proof.
  intros D R. induction D as [|c d C D IH]; cbn [app digits].
  - destruct r as [|c r]; cbn in *; [reflexivity|]. replace ((48 <=? c) && (c <=? 57)) with false by lia. reflexivity.
  - replace ((48 <=? c) && (c <=? 57)) with true by lia. now rewrite IH.
Qed.
Lemma number_dec v r : 0 <= v -> stops r -> number (dec_nat v ++ r) = Some (v, r).
Proof.
  intros V R. destruct (dec_nat_spec v V) as (D & E & N & H). unfold number. rewrite digits_app by assumption.
  assert (L : (0 < length (dec_nat v))%nat) by (destruct (dec_nat v); [congruence|cbn; lia]).
  replace (_ || _) with false; [now rewrite <- E at 2|].
  destruct (Z.ltb_spec 1 (Z.of_nat (length (dec_nat v)))) as [G|G]; [|lia].
  specialize (H ltac:(lia)). lia.
Qed.
Lemma str_head z : exists c r, str_int z = c :: r /\ (c = 45 \/ 48 <= c <= 57).
Proof.
  destruct (str_int_chars z) as [F N]. destruct (str_int z) as [|c r]; [congruence|].
  inversion F; subst. eauto.
Qed.
Lemma literal_int f z r : stops r -> literal (S f) (str_int z ++ r) = Some (PInt z, r).
Proof.
  intros R. destruct (str_head z) as (c & t & E & C).
  cbn [literal]. rewrite E. cbn [app].
  change (text "True") with [84; 114; 117; 101]. change (text "False") with [70; 97; 108; 115; 101].
  change (text "(") with [40]. change (text "-") with [45]. cbn [after].
  replace (84 =? c) with false by lia. replace (70 =? c) with false by lia. replace (40 =? c) with false by lia.
  unfold str_int in E. destruct (Z.ltb_spec z 0) as [L|L].
  - injection E as <- <-. cbn [Z.eqb Pos.eqb]. rewrite number_dec by (assumption || lia). now rewrite Z.opp_involutive.
  - destruct (dec_nat_spec z L) as (D & _). rewrite E in D. inversion D; subst.
    replace (45 =? c) with false by lia. change (c :: t ++ r) with ((c :: t) ++ r). rewrite <- E, number_dec by assumption. reflexivity.
Qed.
Lemma literal_bool f b r : literal (S f) (str_bool b ++ r) = Some (PBool b, r).
Proof. destruct b; reflexivity. Qed.
Lemma items_last f s v r : literal f s = Some (v, 41 :: r) -> items (S f) s = Some ([v], r).
Proof. intros E. cbn [items]. rewrite E. reflexivity. Qed.
Lemma items_next f s v l t r : literal f s = Some (v, 44 :: 32 :: t) -> items f t = Some (l, r) ->
  items (S f) s = Some (v :: l, r).
Proof.
  intros E F. cbn [items]. rewrite E. cbn. now rewrite F.
Qed.
Lemma literal_tuple f s a b l r : items f s = Some (a :: b :: l, r) -> literal (S f) (40 :: s) = Some (PTuple (a :: b :: l), r).
Proof. intros E. cbn [literal]. cbn [text after]. cbn. now rewrite E. Qed.

(** More fuel changes nothing, so a text means at most one call. *)
Lemma more f : (forall s x, literal f s = Some x -> literal (S f) s = Some x) /\
  (forall s x, items f s = Some x -> items (S f) s = Some x).
Proof.
  induction f as [|f [IL II]]; [split; discriminate|]. split.
  - intros s x E. set (g := S f) in *. cbn [literal]. subst g. cbn [literal] in E.
    destruct (after (text "True") s) as [?|]; [exact E|]. destruct (after (text "False") s) as [?|]; [exact E|].
    destruct (after (text "(") s) as [r|]; [|exact E].
    destruct (items f r) as [[l r']|] eqn:F; [|discriminate]. now rewrite (II _ _ F).
  - intros s x E. set (g := S f) in *. cbn [items]. subst g. cbn [items] in E.
    destruct (literal f s) as [[v t]|] eqn:F; [|discriminate]. rewrite (IL _ _ F).
    destruct (after (text ")") t) as [?|]; [exact E|]. destruct (after (text ", ") t) as [r|]; [|exact E].
    destruct (items f r) as [[l r']|] eqn:G; [|discriminate]. now rewrite (II _ _ G).
Qed.
Lemma more_items n f s x : items f s = Some x -> items (n + f) s = Some x.
Proof. intros E. induction n as [|n IH]; [exact E|]. now apply more. Qed.
Lemma call_one name s a b : is_call name s a -> is_call name s b -> a = b.
Proof.
  unfold is_call. destruct (after _ s) as [r|]; [|tauto]. intros (f & F) (g & G).
  apply (more_items g) in F. apply (more_items f) in G. rewrite Nat.add_comm in G. congruence.
Qed.
Lemma eval_one {A} name init s (x y : res A) : evaluates name init s x -> evaluates name init s y -> x = y.
Proof. intros (a & Ca & <-) (b & Cb & <-). now rewrite (call_one name s a b Ca Cb). Qed.

(** ** Boxes *)
Ltac stop := cbn; lia.
Lemma box_call b : is_call (text "BBox") (bb_repr b)
  [PTuple [PInt (bx0 b); PInt (by0 b)]; PTuple [PInt (bx1 b); PInt (by1 b)]].
Proof.
  unfold is_call, bb_repr. change (text "BBox((") with ((text "BBox" ++ text "(") ++ [40]). rewrite <- (app_assoc _ [40]).
  rewrite after_app. exists 6%nat. eapply items_next.
  - cbn [app]. eapply literal_tuple. eapply items_next; [apply literal_int; stop|].
    eapply items_last. apply literal_int; stop.
  - eapply items_last. eapply literal_tuple. eapply items_next; [apply literal_int; stop|].
    eapply items_last. apply literal_int; stop.
Qed.
Lemma box_back b : evaluates (text "BBox") bb_init (bb_repr b) (Ok b).
Proof. eexists. split; [apply box_call|]. destruct b; reflexivity. Qed.
Lemma box_many args : (3 <= length args)%nat -> bb_init args = Err BareException.
Proof. intros L. destruct args as [|a [|b [|c l]]]; cbn in L; try lia. cbn. destruct a; reflexivity. Qed.

(** ** Buffers *)
Lemma buf_back {A} (b b0 : buffer A) : buf_new (b_n b) = Ok b0 ->
  evaluates (text "Buffer") buf_init (buf_repr b) (Ok b0).
Proof.
  intros N. exists [PInt (b_n b)]. split; [|exact N].
  unfold is_call, buf_repr. change (text "Buffer(") with (text "Buffer" ++ text "("). rewrite after_app.
  exists 2%nat. eapply items_last. apply literal_int; stop.
Qed.

(** ** Variables *)
Lemma ivar_call f : is_call (text "IVar") (ivar_repr f) [PInt (i_min f); PInt (i_max f); PBool (i_nullable f)].
Proof.
  unfold is_call, ivar_repr. change (text "IVar(") with (text "IVar" ++ text "("). rewrite after_app.
  exists 4%nat. eapply items_next; [apply literal_int; stop|].
  eapply items_next; [apply literal_int; stop|].
  eapply items_last. apply literal_bool.
Qed.
Lemma svar_call f : is_call (text "SVar") (svar_repr f) [PInt (Z.of_nat (s_size f)); PBool (s_nullable f)].
Proof.
  unfold is_call, svar_repr. change (text "SVar(") with (text "SVar" ++ text "("). rewrite after_app.
  exists 3%nat. eapply items_next; [apply literal_int; stop|]. eapply items_last. apply literal_bool.
Qed.
Lemma str_bound_int z : str_bound (inject_Z z) = str_int z.
Proof. unfold str_bound, inject_Z. cbn [Qnum Qden]. now rewrite Z.div_1_r. Qed.
Lemma fvar_call f a b : f_min f = inject_Z a -> f_max f = inject_Z b ->
  is_call (text "FVar") (fvar_repr f) [PInt a; PInt b; PInt (Z.of_nat (f_size f)); PBool (f_nullable f)].
Proof.
  intros A B. unfold is_call, fvar_repr. rewrite A, B, !str_bound_int.
  change (text "FVar(") with (text "FVar" ++ text "("). rewrite after_app.
  exists 5%nat. eapply items_next; [apply literal_int; stop|]. eapply items_next; [apply literal_int; stop|].
  eapply items_next; [apply literal_int; stop|]. eapply items_last. apply literal_bool.
Qed.
Lemma ivar_never name a b n f g : ivar_new name a b n = Ok f ->
  evaluates (text "IVar") ivar_init (ivar_repr f) (Ok g) -> i_min g = b /\ i_min g <> i_min f.
Proof.
  intros N E. assert (F : i_min f = a /\ i_max f = b /\ a < b).
  { revert N. unfold ivar_new. destruct (Z.ltb_spec a b); cbn [negb]; [|discriminate].
    destruct (if _ <? _ then _ else _); cbn; [|discriminate]. intros [= <-]. cbn. lia. }
  destruct F as (-> & F & L). rewrite <- F.
  assert (G : ivar_new (str_int (i_min f)) (i_max f) (b2z (i_nullable f)) false = Ok g).
  { destruct E as (args & C & <-). now rewrite (call_one _ _ _ _ C (ivar_call f)). }
  revert G. unfold ivar_new. destruct (_ <? _); cbn [negb]; [|discriminate].
  destruct (if _ <? _ then _ else _); cbn; [|discriminate]. intros [= <-]. cbn. lia.
Qed.
Lemma ivar_fails f : b2z (i_nullable f) <= i_max f ->
  evaluates (text "IVar") ivar_init (ivar_repr f) (Err AssertionError).
Proof.
  intros L. eexists. split; [apply ivar_call|]. cbn. unfold ivar_new.
  destruct (Z.ltb_spec (i_max f) (b2z (i_nullable f))); [lia|reflexivity].
Qed.
Lemma svar_back f : evaluates (text "SVar") svar_init (svar_repr f)
  (Ok (mksvar (str_int (Z.of_nat (s_size f))) (if s_nullable f then 1 else 0) false)).
Proof. eexists. split; [apply svar_call|]. cbn. destruct (s_nullable f); reflexivity. Qed.
Lemma fvar_back f a b : f_min f = inject_Z a -> f_max f = inject_Z b ->
  evaluates (text "FVar") fvar_init (fvar_repr f)
    (if f_nullable f && (b <? Z.of_nat (f_size f))
     then Ok (mkfvar (str_int a) (inject_Z b) (inject_Z (Z.of_nat (f_size f))) 1
                (inject_Z (Z.of_nat (f_size f)) - inject_Z b)%Q 256 false)
     else Err AssertionError).
Proof.
  intros A B. eexists. split; [apply (fvar_call f a b A B)|]. cbn [fvar_init as_int bind as_name as_bool].
  unfold fvar_new.
  assert (Q : Qlt_bool (inject_Z b) (inject_Z (Z.of_nat (f_size f))) = (b <? Z.of_nat (f_size f))).
  { unfold Qlt_bool, Qle_bool, inject_Z. cbn. lia. }
  rewrite Q. destruct (b <? _); cbn [negb]; [|now rewrite andb_false_r]. destruct (f_nullable f); reflexivity.
Qed.

(** ** The descriptions *)
Lemma last_split (c : Z) a b a' b' : ~ In c b -> ~ In c b' -> a ++ c :: b = a' ++ c :: b' -> a = a' /\ b = b'.
Proof.
  intros B B'. revert a'. induction a as [|x a IH]; intros [|y a'] E; cbn in E.
  - now injection E.
  - injection E as -> E. exfalso. apply B. rewrite E. apply in_or_app; right; now left.
  - injection E as <- E. exfalso. apply B'. rewrite <- E. apply in_or_app; right; now left.
  - injection E as <- E. destruct (IH _ E) as [-> ->]. auto.
Qed.
Lemma str_not_in c z : ~ (c = 45 \/ 48 <= c <= 57) -> ~ In c (str_int z).
Proof. intros N I. destruct (str_int_chars z) as [F _]. rewrite Forall_forall in F. now apply N, F. Qed.
Lemma str_inj a b : str_int a = str_int b -> a = b.
Proof.
  intros E. pose proof (py_int_str a [] (Forall_nil _)) as A. pose proof (py_int_str b [] (Forall_nil _)) as B.
  rewrite app_nil_r in A, B. congruence.
Qed.
Lemma no_snoc {A} (l l' : list A) a b : a <> b -> l ++ [a] <> l' ++ [b].
Proof. intros N E. apply app_inj_tail in E. tauto. Qed.

Definition ending (null : bool) : list Z := if null then text " or null" else [].
Lemma ending_inj a b n m x y : a ++ x :: ending n = b ++ y :: ending m -> x <> 108 -> y <> 108 -> a ++ [x] = b ++ [y] /\ n = m.
Proof.
  intros E X Y. destruct n, m.
  - change (x :: ending true) with ([x] ++ ending true) in E. change (y :: ending true) with ([y] ++ ending true) in E.
    rewrite !app_assoc in E. apply app_inv_tail in E. auto.
  - exfalso. unfold ending in E. change (x :: text " or null") with ((x :: text " or nul") ++ [108]) in E.
    rewrite app_assoc in E. apply no_snoc in E; auto.
  - exfalso. unfold ending in E. change (y :: text " or null") with ((y :: text " or nul") ++ [108]) in E.
    rewrite app_assoc in E. symmetry in E. apply no_snoc in E; auto.
  - auto.
Qed.
Lemma range_inj p n1 n2 a1 b1 a2 b2 (u1 u2 : bool) :
  p ++ n1 ++ text " in [" ++ str_int a1 ++ text "; " ++ str_int b1 ++ 93 :: ending u1 =
  p ++ n2 ++ text " in [" ++ str_int a2 ++ text "; " ++ str_int b2 ++ 93 :: ending u2 ->
  n1 = n2 /\ a1 = a2 /\ b1 = b2 /\ u1 = u2.
Proof.
  intros E. apply app_inv_head in E. rewrite !app_assoc in E.
  apply ending_inj in E; [|discriminate|discriminate]. destruct E as [E ->].
  apply app_inj_tail in E as [E _].
  change (text "; ") with ([59] ++ [32]) in E. rewrite !app_assoc in E. rewrite <- !(app_assoc _ [32]) in E. cbn [app] in E.
  apply last_split in E; [|apply str_not_in; lia|apply str_not_in; lia]. destruct E as [E B]. apply str_inj in B as ->.
  apply app_inj_tail in E as [E _].
  change (text " in [") with (text " in " ++ [91]) in E. rewrite !app_assoc in E. rewrite <- !(app_assoc _ [91]) in E. cbn [app] in E.
  apply last_split in E; [|apply str_not_in; lia|apply str_not_in; lia]. destruct E as [E A]. apply str_inj in A as ->.
  apply app_inv_tail in E. auto.
Qed.
Lemma ivar_str_eq f : ivar_str f = text "integer " ++ i_name f ++ text " in [" ++ str_int (i_min f) ++ text "; " ++ str_int (i_max f) ++ 93 :: ending (i_nullable f).
Proof. unfold ivar_str. destruct (i_nullable f); reflexivity. Qed.
Lemma fvar_str_eq f a b : f_min f = inject_Z a -> f_max f = inject_Z b ->
  fvar_str f = text "real " ++ f_name f ++ text " in [" ++ str_int a ++ text "; " ++ str_int b ++ 93 :: ending (f_nullable f).
Proof. intros A B. unfold fvar_str. rewrite A, B, !str_bound_int. destruct (f_nullable f); reflexivity. Qed.
Lemma svar_str_eq f : svar_str f = text "string " ++ s_name f ++ text " of " ++ str_int (Z.of_nat (s_size f)) ++ text " byte" ++ 115 :: ending (s_nullable f).
Proof. unfold svar_str. destruct (s_nullable f); reflexivity. Qed.
Lemma ivar_str_inj f g : ivar_str f = ivar_str g ->
  i_name f = i_name g /\ i_min f = i_min g /\ i_max f = i_max g /\ i_nullable f = i_nullable g.
Proof. rewrite !ivar_str_eq. apply range_inj. Qed.
Lemma fvar_str_inj f g a b c d : f_min f = inject_Z a -> f_max f = inject_Z b -> f_min g = inject_Z c -> f_max g = inject_Z d ->
  fvar_str f = fvar_str g -> f_name f = f_name g /\ f_min f = f_min g /\ f_max f = f_max g /\ f_nullable f = f_nullable g.
Proof.
  intros A B C D. rewrite (fvar_str_eq f a b A B), (fvar_str_eq g c d C D). intros E. apply range_inj in E.
  rewrite A, B, C, D. intuition congruence.
Qed.
Lemma svar_str_inj f g : svar_str f = svar_str g -> f = g.
Proof.
  rewrite !svar_str_eq. intros E. apply app_inv_head in E. rewrite !app_assoc in E.
  apply ending_inj in E; [|discriminate|discriminate]. destruct E as [E U].
  apply app_inj_tail in E as [E _]. apply app_inv_tail in E.
  change (text " of ") with (text " of" ++ [32]) in E. rewrite !app_assoc in E. rewrite <- !(app_assoc _ [32]) in E. cbn [app] in E.
  apply last_split in E; [|apply str_not_in; lia|apply str_not_in; lia]. destruct E as [E A]. apply str_inj in A.
  apply app_inv_tail in E. destruct f, g; cbn in *. f_equal; auto. lia.
Qed.
Lemma kinds f g h : ivar_str f <> fvar_str g /\ ivar_str f <> svar_str h /\ fvar_str g <> svar_str h.
Proof.
  unfold ivar_str, fvar_str, svar_str.
  repeat split; destruct (i_nullable f), (f_nullable g), (s_nullable h); discriminate.
Qed.
Lemma box_repr_inj a b : bb_repr a = bb_repr b -> a = b.
Proof.
  intros E. pose proof (box_back a) as A. pose proof (box_back b) as B. rewrite E in A.
  pose proof (eval_one _ _ _ _ _ A B). congruence.
Qed.
(** ** str() of a buffer *)
Lemma spaced_split l : l <> [] -> Forall (fun w => ~ In 32 w) l -> split_on 32 (spaced l) = l.
Proof.
  intros N F. induction F as [|w l W F IH]; [congruence|]. destruct l as [|v l].
  - cbn [spaced]. now apply split_on_none.
  - change (spaced (w :: v :: l)) with (w ++ 32 :: spaced (v :: l)). rewrite split_on_cons by exact W.
    f_equal. apply IH. discriminate.
Qed.
Lemma slot_inj a b : str_slot a = str_slot b -> a = b.
Proof.
  destruct a as [a|], b as [b|]; cbn [str_slot]; intros E; [f_equal; now apply str_inj| | |reflexivity].
  - destruct (str_head a) as (c & r & H & C). rewrite H in E. change (text "None") with [78; 111; 110; 101] in E. injection E as -> _. lia.
  - destruct (str_head b) as (c & r & H & C). rewrite H in E. change (text "None") with [78; 111; 110; 101] in E. injection E as E _. lia.
Qed.
Lemma slot_nospace a : ~ In 32 (str_slot a).
Proof. destruct a; cbn [str_slot]; [apply str_not_in; lia|]. vm_compute. intuition discriminate. Qed.
Definition shown (l : list (option Z)) : list Z := text "<" ++ spaced (map str_slot l) ++ text ">".
Lemma shown_inj l l' : shown l = shown l' -> l = l'.
Proof.
  unfold shown. intros E. apply app_inv_head in E. apply app_inv_tail in E.
  assert (Z0 : forall x r, spaced (map str_slot (x :: r)) <> []).
  { intros x r. cbn [map]. assert (N : str_slot x <> []).
    { destruct x; [cbn; destruct (str_head z) as (c & t & -> & _)|]; discriminate. }
    cbn [spaced]. destruct (map str_slot r); [exact N|]. intros H. apply app_eq_nil in H. tauto. }
  destruct l as [|x l], l' as [|x' l']; [reflexivity| | |].
  - symmetry in E. now apply Z0 in E.
  - now apply Z0 in E.
  - assert (F : forall k, Forall (fun w => ~ In 32 w) (map str_slot k)).
    { intros k. apply Forall_forall. intros w I. apply in_map_iff in I as (o & <- & _). apply slot_nospace. }
    pose proof (spaced_split (map str_slot (x :: l)) ltac:(cbn; discriminate) (F _)) as A.
    pose proof (spaced_split (map str_slot (x' :: l')) ltac:(cbn; discriminate) (F _)) as B.
    rewrite E in A. rewrite A in B. clear - B. revert B. generalize (x :: l) (x' :: l').
    intros k. induction k as [|a k IH]; intros [|b k'] B; try discriminate; [reflexivity|].
    injection B as B1 B2. apply slot_inj in B1. now rewrite B1, (IH _ B2).
Qed.
Lemma buf_text_shown fuel b : buf_text fuel b =
  match b_str fuel b with None => None | Some (Err e) => Some (Err e) | Some (Ok l) => Some (Ok (shown l)) end.
Proof.
  unfold buf_text, b_str. destruct (b_isempty b); reflexivity.
Qed.
Lemma buf_text_inj fuel fuel' b b' l l' : b_str fuel b = Some (Ok l) -> b_str fuel' b' = Some (Ok l') ->
  buf_text fuel b = buf_text fuel' b' -> l = l'.
Proof. intros L L'. rewrite !buf_text_shown, L, L'. intros E. apply shown_inj. change (match Some (Ok (shown l)) with Some (Ok x) => x | _ => [] end = shown l'). now rewrite E. Qed.
