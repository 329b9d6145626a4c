(** Proofs about tqdm. *)
From Coq Require Import SpecFloat Lqa.
From Verif Require Import Num StrModel StrProofs TqdmModel TqdmSpec.
Open Scope Z_scope.

(** ** Intervals *)
Lemma two_digits z : 0 <= z < 60 -> sexagesimal (pad_left 2 48 (str_int z)) z.
Proof.
  intros H.
  assert (E : In z (map Z.of_nat (seq 0 60))).
  { apply in_map_iff. exists (Z.to_nat z). split; [lia|]. apply in_seq. lia. }
  cbn [seq map] in E.
  repeat (destruct E as [<-|E]; [match goal with |- sexagesimal ?a ?z => let x := eval vm_compute in a in change (sexagesimal x z);
    match x with [?p; ?q] => change z with (10 * (p - 48) + (q - 48)); constructor; lia end end|]).
  destruct E.
Qed.

Lemma format_interval_text {T} `{PyNum T} `{PyMeter T} (t : T) z : mint t = Ok z -> exists s, format_interval t = Ok s /\ clock_text s z.
Proof.
  intros E. unfold format_interval. rewrite E. cbn [bind].
  assert (B1 := Z.mod_pos_bound z 60 ltac:(lia)). assert (B2 := Z.mod_pos_bound (z / 60) 60 ltac:(lia)).
  assert (D1 := Z.div_mod z 60 ltac:(lia)). assert (D2 := Z.div_mod (z / 60) 60 ltac:(lia)).
  destruct (z / 60 / 60 =? 0) eqn:C.
  - apply Z.eqb_eq in C. eexists. split; [reflexivity|].
    replace z with (60 * (z / 60 mod 60) + z mod 60) at 3 by lia.
    constructor; apply two_digits; assumption.
  - apply Z.eqb_neq in C. eexists. split; [reflexivity|].
    replace z with (3600 * (z / 60 / 60) + 60 * (z / 60 mod 60) + z mod 60) at 4 by lia.
    constructor; [| |assumption|apply two_digits; assumption|apply two_digits; assumption].
    + intros I. destruct (str_int_chars (z / 60 / 60)) as [F _]. rewrite Forall_forall in F. destruct (F _ I) as [F'|F']; lia.
    + rewrite <- (app_nil_r (str_int _)). apply py_int_str. constructor.
Qed.

Lemma app_len_inj {A} (a b c d : list A) : length a = length b -> a ++ c = b ++ d -> a = b /\ c = d.
Proof.
  revert b; induction a as [|x a IH]; intros [|y b] L E; try discriminate L; cbn in E.
  - split; [reflexivity|exact E].
  - inversion E. destruct (IH b) as [-> ->]; [cbn in L; congruence|assumption|]. split; reflexivity.
Qed.
Lemma clock_text_fun s z z' : clock_text s z -> clock_text s z' -> z = z'.
Proof.
  assert (S2 : forall a x, sexagesimal a x -> exists p q, a = [p; q] /\ x = 10 * (p - 48) + (q - 48) /\ 48 <= p <= 53 /\ 48 <= q <= 57).
  { intros a x [p q P Q]. exists p, q. auto. }
  assert (A : forall h m s zh zm zs m' s' zm' zs', ~ In 58 h -> py_int h = Ok zh -> sexagesimal m zm -> sexagesimal s zs ->
    sexagesimal m' zm' -> sexagesimal s' zs' -> h ++ 58 :: m ++ 58 :: s = m' ++ 58 :: s' -> False).
  { intros h m t zh zm zs m' s' zm' zs' N I1 X1 X2 X3 X4 E.
    apply S2 in X1, X2, X3, X4. destruct X1 as (p1 & q1 & -> & _ & X1), X2 as (p2 & q2 & -> & _ & X2), X3 as (p3 & q3 & -> & _ & X3), X4 as (p4 & q4 & -> & _ & X4).
    apply (f_equal (@length Z)) in E as L. rewrite app_length in L. cbn in L. lia. }
  intros H H'. destruct H as [m t zm zs X1 X2|h m t zh zm zs N I Z0 X1 X2].
  - remember (m ++ 58 :: t) as w eqn:E. destruct H' as [m' t' zm' zs' Y1 Y2|h m' t' zh zm' zs' N I Z0 Y1 Y2].
    + apply S2 in X1, X2, Y1, Y2. destruct X1 as (p1 & q1 & -> & -> & X1), X2 as (p2 & q2 & -> & -> & X2), Y1 as (p3 & q3 & -> & -> & Y1), Y2 as (p4 & q4 & -> & -> & Y2).
      cbn in E. inversion E. reflexivity.
    + exfalso. eapply (A h m' t' zh zm' zs' m t zm zs); eassumption.
  - remember (h ++ 58 :: m ++ 58 :: t) as w eqn:E. destruct H' as [m' t' zm' zs' Y1 Y2|h' m' t' zh' zm' zs' N' I' Z0' Y1 Y2].
    + exfalso. eapply (A h m t zh zm zs m' t' zm' zs'); try eassumption. symmetry. exact E.
    + apply S2 in X1, X2, Y1, Y2. destruct X1 as (p1 & q1 & -> & -> & X1), X2 as (p2 & q2 & -> & -> & X2), Y1 as (p3 & q3 & -> & -> & Y1), Y2 as (p4 & q4 & -> & -> & Y2).
      assert (L : length h' = length h) by (apply (f_equal (@length Z)) in E; rewrite !app_length in E; cbn in E; lia).
      destruct (app_len_inj _ _ _ _ L E) as [-> E'].  clear E. rename E' into E. inversion E. subst. rewrite I in I'. inversion I'. reflexivity.
Qed.

(** ** The terminal *)
Definition shows (t : term) (s : list Z) : Prop := exists k, t_line t = s ++ repeat 32 k.

Lemma put_at pre x c post : c <> 13 -> put {| t_line := pre ++ x :: post; t_col := length pre |} c = {| t_line := (pre ++ [c]) ++ post; t_col := length (pre ++ [c]) |}.
Proof.
  intros H. unfold put. destruct (c =? 13) eqn:E; [lia|]. cbn [t_line t_col]. f_equal.
  - rewrite firstn_app. rewrite app_length. cbn [length].
    replace (length pre - (length pre + S (length post)))%nat with 0%nat by lia. cbn [firstn]. cbn [repeat]. rewrite app_nil_r.
    rewrite firstn_app, Nat.sub_diag, firstn_all. cbn [firstn]. rewrite app_nil_r.
    rewrite skipn_app. rewrite skipn_all2 by lia. replace (S (length pre) - length pre)%nat with 1%nat by lia. cbn [skipn app].
    rewrite <- app_assoc. reflexivity.
  - rewrite app_length. cbn. lia.
Qed.
Lemma put_end pre c : c <> 13 -> put {| t_line := pre; t_col := length pre |} c = {| t_line := pre ++ [c]; t_col := length (pre ++ [c]) |}.
Proof.
  intros H. unfold put. destruct (c =? 13) eqn:E; [lia|]. cbn [t_line t_col]. rewrite Nat.sub_diag. cbn [repeat]. rewrite app_nil_r, firstn_all.
  rewrite skipn_all2 by lia. rewrite app_length. cbn [length]. f_equal. lia.
Qed.
Lemma show_over s : forall pre old, ~ In 13 s ->
  show {| t_line := pre ++ old; t_col := length pre |} s = {| t_line := pre ++ s ++ skipn (length s) old; t_col := length (pre ++ s) |}.
Proof.
  induction s as [|c s IH]; intros pre old N.
  - cbn. rewrite app_nil_r. reflexivity.
  - cbn [show fold_left]. assert (C : c <> 13) by (intros ->; apply N; left; reflexivity).
    assert (N' : ~ In 13 s) by (intros I; apply N; right; exact I).
    destruct old as [|x old].
    + rewrite app_nil_r, put_end by exact C. change (fold_left put s ?t) with (show t s).
      rewrite <- (app_nil_r (pre ++ [c])) at 1. rewrite IH by exact N'. rewrite !skipn_nil, !app_nil_r. rewrite <- !app_assoc. reflexivity.
    + rewrite put_at by exact C. change (fold_left put s ?t) with (show t s). rewrite IH by exact N'. cbn [length skipn]. rewrite <- !app_assoc. reflexivity.
Qed.
Lemma show_app t a b : show t (a ++ b) = show (show t a) b.
Proof. unfold show. apply fold_left_app. Qed.
Lemma show_cr t s : show t (13 :: s) = show {| t_line := t_line t; t_col := 0 |} s.
Proof. reflexivity. Qed.
Lemma not_in_repeat (a b : Z) n : a <> b -> ~ In a (repeat b n).
Proof. intros H I. apply repeat_spec in I. congruence. Qed.
Lemma skipn_repeat {A} (a : A) n m : skipn n (repeat a m) = repeat a (m - n).
Proof. revert m; induction n as [|n IH]; intros [|m]; cbn; try reflexivity. apply IH. Qed.

Lemma print_shows t old s : shows t old -> plain s ->
  shows (show t (fst (print_status (Z.of_nat (length old)) s))) s.
Proof.
  intros [k E] [N _]. unfold print_status. cbn [fst]. rewrite show_cr, E.
  rewrite show_app. set (d := Z.to_nat (Z.max (Z.of_nat (length old) - Z.of_nat (length s)) 0)).
  assert (D : d = (length old - length s)%nat) by (unfold d; lia). rewrite D. clear D d.
  pose proof (show_over s [] (old ++ repeat 32 k) N) as P. cbn [app length] in P. rewrite P. clear P.
  rewrite show_over by (apply not_in_repeat; discriminate). rewrite repeat_length.
  unfold shows. cbn [t_line]. rewrite skipn_app, skipn_repeat. rewrite skipn_app, skipn_repeat.
  rewrite skipn_all2 by (rewrite skipn_length; lia). cbn [app]. rewrite <- repeat_app. eexists. reflexivity.
Qed.

Lemma printed_app l : forall len s, printed len (l ++ [s]) = printed len l ++ fst (print_status (match rev l with [] => len | x :: _ => Z.of_nat (length x) end) s).
Proof.
  induction l as [|x l IH]; intros len s.
  - cbn. rewrite app_nil_r. reflexivity.
  - cbn [app printed]. rewrite IH. rewrite <- app_assoc. f_equal. f_equal. f_equal. cbn [rev].
    destruct (rev l) as [|y r]; cbn; reflexivity.
Qed.
Lemma printed_shows_snoc l : forall s t, Forall plain (l ++ [s]) -> t_line t = [] -> shows (show t (printed 0 (l ++ [s]))) s.
Proof.
  induction l as [|x l IH] using rev_ind; intros s t F E.
  - cbn [app printed]. rewrite app_nil_r. apply (print_shows t []). { exists 0%nat. exact E. } inversion F; assumption.
  - rewrite printed_app. rewrite show_app. rewrite rev_app_distr. cbn [rev app].
    apply Forall_app in F. destruct F as [F1 F2]. inversion F2; subst. apply print_shows; [|assumption].
    apply IH; assumption.
Qed.
