(** Scanning the characters of a drawing file. *)
From Coq Require Import Lia.
From Verif Require Import Py Num BBoxModel StrModel Text VectorModel PsSpec PsProofs VectorSpec PsText PsImage PsHead VectorProofs
  ShpTableSpec ShpCellSpec FloatReprModel FloatReprText NumTextModel NumTextSpec NumText PsNumModel PsNumSpec.
Open Scope Z_scope.

(** ** No stray characters *)
Section Clean.
  Context {T : Type} `{PyNum T}.
  Notation line := (list (ch T)) (only parsing).
  Definition sound (k : token T) : bool := match k with KBad => false | _ => true end.
  Definition clean (ls : list line) : Prop := exists toks, scan MTop (body ls) = (MTop, toks) /\ forallb sound toks = true.
  Lemma clean_nil : clean [].
  Proof. exists []. split; reflexivity. Qed.
  Lemma clean_app a b : clean a -> clean b -> clean (a ++ b).
  Proof.
    intros (t1 & S1 & E1) (t2 & S2 & E2). exists (t1 ++ t2). rewrite body_app, scan_app, S1, S2. split; [reflexivity|]. rewrite forallb_app, E1, E2. reflexivity.
  Qed.
  Lemma clean_one (l : line) toks : scan MTop (l ++ [C 10]) = (MTop, toks) -> forallb sound toks = true -> clean [l].
  Proof. intros S E. exists toks. unfold body. cbn [flat_map]. rewrite app_nil_r. auto. Qed.
  Definition adds (c c' : canvas T) : Prop := exists ls, cv_lines c' = cv_lines c ++ ls /\ clean ls.
  Lemma adds_refl c c' : cv_lines c' = cv_lines c -> adds c c'.
  Proof. intros E. exists []. rewrite app_nil_r. split; [exact E|apply clean_nil]. Qed.
  Lemma adds_trans a b c : adds a b -> adds b c -> adds a c.
  Proof.
    intros (l & E & K) (l' & E' & K'). exists (l ++ l'). split; [rewrite E', E, app_assoc; reflexivity|apply clean_app; assumption].
  Qed.
  Lemma adds_line c c' (l : line) toks : cv_lines c' = cv_lines c ++ [l] -> scan MTop (l ++ [C 10]) = (MTop, toks) -> forallb sound toks = true -> adds c c'.
  Proof. intros E S K. exists [l]. split; [exact E|exact (clean_one l toks S K)]. Qed.
  Lemma adds_gray c v : adds c (setgray c v).
  Proof. unfold setgray. destruct (neq _ _); [apply adds_refl; reflexivity|]. eapply adds_line; reflexivity. Qed.
  Lemma adds_color c r g b : adds c (setcolor c r g b).
  Proof. unfold setcolor. destruct (nums_eqb _ _); [apply adds_refl; reflexivity|]. eapply adds_line; reflexivity. Qed.
  Lemma adds_ink c i : adds c (fst (setink c i)).
  Proof.
    destruct i as [v|[|r [|g [|b [|? ?]]]]|]; cbn [setink fst]; try (apply adds_refl; reflexivity); [apply adds_gray|apply adds_color].
  Qed.
  Lemma adds_word c s toks : scan MTop (@tx T s ++ [C 10]) = (MTop, toks) -> forallb sound toks = true -> adds c (emit c (tx s)).
  Proof. apply adds_line. reflexivity. Qed.
  Lemma adds_paint c f s : adds c (fst (paint c f s)).
  Proof.
    unfold paint.
    assert (S : forall c0, adds c c0 -> forall g : bool, adds c (fst (match s with
        | None => (c0, Ok tt)
        | Some i => let c := if g then emit c0 (tx "gr") else c0 in
            let '(c, r) := setink c i in match r with Ok _ => (emit c (tx "s"), Ok tt) | Err e => (c, Err e) end
        end))).
    { intros c0 A g. destruct s as [i|]; [|exact A]. cbv zeta.
      assert (A' : adds c (if g then emit c0 (tx "gr") else c0)) by (destruct g; [eapply adds_trans; [exact A|eapply adds_word; reflexivity]|exact A]).
      pose proof (adds_trans _ _ _ A' (adds_ink _ i)) as B. destruct (setink _ i) as [c1 [u|e]]; [|exact B].
      eapply adds_trans; [exact B|eapply adds_word; reflexivity]. }
    destruct f as [i|].
    - assert (A' : adds c (match s with Some _ => emit c (tx "gs") | None => c end)) by (destruct s; [eapply adds_word; reflexivity|apply adds_refl; reflexivity]).
      pose proof (adds_trans _ _ _ A' (adds_ink _ i)) as B. destruct (setink _ i) as [c1 [u|e]]; [|exact B].
      apply (S (emit c1 (tx "f"))) with (g := true). eapply adds_trans; [exact B|eapply adds_word; reflexivity].
    - apply (S c) with (g := false). apply adds_refl; reflexivity.
  Qed.
  Lemma adds_then c x f : adds c (fst x) -> (forall c1, adds c1 (fst (f c1))) -> adds c (fst (and_then x f)).
  Proof.
    intros A F. destruct x as [c1 [u|e]]; cbn [and_then fst] in *; [|exact A]. eapply adds_trans; [exact A|apply F].
  Qed.
  Lemma adds_fold {B} (f : B -> line) (r : list B) c : (forall b, clean [f b]) -> adds c (fold_left (fun c q => emit c (f q)) r c).
  Proof.
    intros F. rewrite fold_emit. exists (map f r). split; [reflexivity|]. induction r as [|b r IH]; [apply clean_nil|]. change (map f (b :: r)) with ([f b] ++ map f r).
    apply clean_app; [apply F|exact IH].
  Qed.
  Lemma adds_points c p l : adds c (fold_left (fun c q => emit c (point_line q " l")) l (emit (emit c (tx "np")) (point_line p " m"))).
  Proof.
    apply (adds_trans _ (emit c (tx "np"))); [eapply adds_word; reflexivity|].
    apply (adds_trans _ (emit (emit c (tx "np")) (point_line p " m"))); [eapply adds_line; reflexivity|]. apply adds_fold. intros b. eapply clean_one; reflexivity.
  Qed.
  Lemma fold_left_eq {A B} (f g : A -> B -> A) l : (forall a b, f a b = g a b) -> forall a, fold_left f l a = fold_left g l a.
  Proof. intros E. induction l as [|b l IH]; intros a; [reflexivity|]. cbn [fold_left]. rewrite E. apply IH. Qed.
  Lemma adds_image c data w p z col : Forall is_byte data /\ 0 < w -> adds c (fst (addimage c data w p z col)).
  Proof.
    intros [B W]. unfold addimage. set (cw := if col then 3 * w else w). destruct (Z.eqb_spec cw 0) as [Z0|Z0]; [apply adds_refl; reflexivity|].
    assert (Hcw : 0 < cw) by (subst cw; destruct col; lia). set (ht := Z.of_nat (length data) / cw).
    assert (Hht : 0 <= ht) by (apply Z.div_pos; lia).
    set (ls := [tx "gs"] ++ (match p with Some (x, y) => [[N x] ++ sp ++ [N y] ++ tx " translate"] | None => [] end) ++
      [[N (nmul (nofZ w) z)] ++ sp ++ [N (nmul (nofZ ht) z)] ++ tx " scale"] ++
      [[N (nofZ w)] ++ sp ++ [N (nofZ ht)] ++ tx " 8 [" ++ [N (nofZ w)] ++ tx " 0 0 " ++ [N (nofZ (- ht))] ++ tx " 0 " ++ [N (nofZ ht)] ++ tx "]"] ++
      ([tx "{<"] ++ image_rows (Z.to_nat ht) cw data 0 ++ [tx ">}"]) ++ [if col then tx "false 3 colorimage" else tx "image"] ++ [tx "gr"] : list line).
    exists ls. split.
    { assert (Fe : forall rows (c0 : canvas T), cv_lines (fold_left emit rows c0) = cv_lines c0 ++ rows).
      { clear. induction rows as [|r rows IH]; intros c0; cbn [fold_left]; [rewrite app_nil_r; reflexivity|]. rewrite IH. cbn [emit cv_lines]. rewrite <- app_assoc. reflexivity. }
      destruct p as [[x y]|]; cbn [fst grow cv_lines emit]; rewrite Fe; cbn [emit cv_lines]; unfold ls; rewrite <- !app_assoc; cbn [app]; reflexivity. }
    unfold ls. apply clean_app; [eapply clean_one; reflexivity|]. apply clean_app; [destruct p as [[x y]|]; [eapply clean_one; reflexivity|apply clean_nil]|].
    apply clean_app; [eapply clean_one; reflexivity|]. apply clean_app; [eapply clean_one; reflexivity|]. apply clean_app; [|apply clean_app; [destruct col; eapply clean_one; reflexivity|eapply clean_one; reflexivity]].
    rewrite <- (Z2Nat.id cw) by lia. eexists. rewrite !body_app. rewrite scan_app. change (scan (@MTop T) (body [tx "{<"])) with (@MHex T [], [@KOpenP T]). cbv iota.
    change 0 with (Z.of_nat 0). rewrite (scan_rows data (Z.to_nat cw) B). split; reflexivity.
  Qed.
  Lemma adds_perform h c o : good_op o -> adds c (fst (snd (perform h c o))).
  Proof.
    destruct o as [v|r g b|i|w|d off|[x y] r f s|[|p l] s|[|p l] f s|l r f s|p s z fo an|da w p z col| |d l]; intros G; cbn [perform snd fst].
    - apply adds_gray.
    - apply adds_color.
    - apply adds_ink.
    - unfold setwidth. destruct (neq _ _); [apply adds_refl; reflexivity|]. eapply adds_line; reflexivity.
    - unfold setdash. destruct (_ && _); [apply adds_refl; reflexivity|]. eapply adds_line; [reflexivity| |].
      + rewrite <- !app_assoc. rewrite scan_app. change (scan (@MTop T) (tx "[")) with (@MTop T, [@KOpenA T]). cbv iota.
        erewrite scan_nums; [|reflexivity]. reflexivity.
      + cbn [app forallb sound]. rewrite forallb_app. cbn [forallb sound]. rewrite andb_true_r. apply forallb_forall. intros k I. apply in_map_iff in I. destruct I as (u & <- & _). reflexivity.
    - unfold addcircle. apply adds_then; [|intros c1; apply adds_refl; reflexivity]. eapply adds_trans; [|apply adds_paint]. eapply adds_line; reflexivity.
    - apply adds_refl; reflexivity.
    - unfold addpolyline. apply adds_then.
      + assert (A : adds c (fold_left (fun c q => emit c (point_line q " l")) l (emit (emit c (tx "np")) (point_line p " m")))) by apply adds_points.
        destruct s as [i|]; [eapply adds_trans; [exact A|apply adds_ink]|exact A].
      + intros c1. eapply adds_line; reflexivity.
    - apply adds_refl; reflexivity.
    - unfold addpolygon. apply adds_then; [|intros c1; apply adds_refl; reflexivity]. eapply adds_trans; [|apply adds_paint].
      eapply adds_trans; [apply adds_points|eapply adds_word; reflexivity].
    - unfold addroundedpolygon. assert (A : adds c (emit c (tx "np"))) by (eapply adds_word; reflexivity).
      destruct l as [|[x1 y1] [|[x2 y2] l]]; [exact A|exact A|]. apply adds_then.
      + eapply adds_trans; [|apply adds_paint]. eapply adds_trans; [|eapply adds_word; reflexivity].
        eapply adds_trans; [eapply adds_trans; [exact A|]|].
        * instantiate (1 := emit (emit c (tx "np")) (point_line (ndiv (nadd x1 x2) (nofZ 2), ndiv (nadd y1 y2) (nofZ 2)) " m")). eapply adds_line; reflexivity.
        * match goal with |- adds ?a (fold_left ?f ?ps ?a) => replace (fold_left f ps a) with (fold_left (fun c ab => emit c ([N (fst (fst ab))] ++ sp ++ [N (snd (fst ab))] ++ sp ++ [N (fst (snd ab))] ++ sp ++ [N (snd (snd ab))] ++ sp ++ [N r] ++ tx " arcto")) ps a) end.
          { apply adds_fold. intros b. eapply clean_one; reflexivity. }
          { apply fold_left_eq. intros c1 [[u v] [u' v']]. reflexivity. }
      + intros c1. destruct (bb_of_points _); apply adds_refl; reflexivity.
    - unfold addtext. destruct (existsb _ _) eqn:An; [|apply adds_refl; reflexivity]. destruct p as [x y]. destruct G as [Gs Gf].
      eapply adds_line; [reflexivity|apply scan_text; [exact Gs|exact Gf|]|reflexivity].
      apply existsb_exists in An. destruct An as (k & Ik & Qk). apply zlist_eqb_eq in Qk. subst k. revert an Ik. apply Forall_forall.
      repeat (apply Forall_cons; [repeat (apply Forall_cons; [reflexivity|]); apply Forall_nil|]). apply Forall_nil.
    - apply adds_image, G.
    - apply adds_refl; reflexivity.
    - apply adds_refl; reflexivity.
  Qed.
  Lemma adds_history l : forall h c hf cf, Forall good_op l -> history h c l = Some (hf, cf) -> adds c cf.
  Proof.
    induction l as [|o l IH]; intros h c hf cf G Q; [injection Q as <- <-; apply adds_refl; reflexivity|]. inversion G; subst.
    cbn [history] in Q. pose proof (adds_perform h c o) as A. destruct (perform h c o) as [h1 [c1 [u|e]]]; [|discriminate].
    eapply adds_trans; [apply A; assumption|]. eapply IH; eassumption.
  Qed.
  (** ** The head of the file *)
  Lemma clean_defs ks : incl ks KEYS -> forall ls : list line, mapM (fun key => rmap (map C) (defs_get key DEFS)) ks = Ok ls -> clean ls.
  Proof.
    intros I. induction ks as [|k ks IH]; intros ls Q; cbn [mapM] in Q; [injection Q as <-; apply clean_nil|].
    assert (A : Forall (fun k => exists src, defs_get k DEFS = Ok src /\ clean [map C src]) KEYS).
    { let d := eval vm_compute in DEFS in change DEFS with d. let d := eval vm_compute in KEYS in change KEYS with d.
      repeat (apply Forall_cons; [eexists; split; [reflexivity|eapply clean_one; reflexivity]|]). apply Forall_nil. }
    rewrite Forall_forall in A. destruct (A k (I k (or_introl eq_refl))) as (src & E & Cl). rewrite E in Q. cbn [rmap bind] in Q.
    destruct (mapM _ ks) as [l|e] eqn:M; [|discriminate]. injection Q as <-. change (map C src :: l) with ([map (@C T) src] ++ l).
    apply clean_app; [exact Cl|]. apply IH; [intros x Ix; apply I; right; exact Ix|reflexivity].
  Qed.
  Lemma clean_head c size margin pre : save_header c size margin = Ok pre -> clean pre.
  Proof.
    unfold save_header. intros Q.
    destruct (match size with Some s => _ | None => _ end) as [[[x0 y0] x1] y1].
    destruct (mapM _ _) as [dl|e] eqn:M; [|discriminate Q]. cbn [bind] in Q. apply clean_defs in M; [|intros k Ik; apply filter_In in Ik; apply Ik].
    match type of Q with bind ?b _ = _ => destruct b as [bl|e] eqn:B; [|discriminate Q] end. cbn [bind] in Q.
    match type of Q with bind ?b _ = _ => destruct b as [fl|e] eqn:F; [|discriminate Q] end. cbn [bind] in Q. injection Q as <-.
    assert (Kb : clean bl).
    { destruct (cv_bg c) as [[v|[|r [|g [|b l]]]|]|]; cbn [bind] in B; try discriminate B; injection B as <-; try apply clean_nil;
        (match goal with |- clean (?a :: ?l) => change (a :: l) with ([a] ++ l) end; apply clean_app; eapply clean_one; reflexivity). }
    assert (Kf : clean fl).
    { destruct size as [s|]; [|injection F as <-; apply clean_nil]. destruct (ndivE _ _) as [scl|e]; [|discriminate F]. cbn [bind] in F. destruct (bb_center _) as [cx cy]. injection F as <-.
      match goal with |- clean [?a; ?b; ?d] => change [a; b; d] with ([a] ++ [b] ++ [d]) end. repeat apply clean_app; eapply clean_one; reflexivity. }
    match goal with |- clean (?a :: ?b :: ?d :: ?e :: ?r) => change (a :: b :: d :: e :: r) with ([a] ++ [b] ++ [d] ++ [e] ++ r) end.
    repeat apply clean_app; try assumption; try (eapply clean_one; reflexivity).
  Qed.
  Lemma saved_clean bg h0 ops h c size margin file : history h0 (canvas_new bg) ops = Some (h, c) -> Forall good_op ops -> save c size margin = Ok file ->
    exists toks, scan MTop file = (MTop, toks) /\ forallb sound toks = true.
  Proof.
    intros Hi G Sv. unfold save in Sv. destruct (save_header c size margin) as [pre|e] eqn:Hd; [|discriminate]. cbn [bind] in Sv. injection Sv as <-.
    apply adds_history in Hi; [|exact G]. destruct Hi as (ls & E & K). cbn [canvas_new cv_lines app] in E. rewrite E.
    exact (clean_app _ _ (clean_head _ _ _ _ Hd) K).
  Qed.
End Clean.

(** ** No underscores *)
Lemma free_app (c : Z) a b : ~ In c a -> ~ In c b -> ~ In c (a ++ b).
Proof. intros A B I. apply in_app_or in I. tauto. Qed.
Lemma free_firstn (c : Z) n l : ~ In c l -> ~ In c (firstn n l).
Proof. intros A I. apply A. rewrite <- (firstn_skipn n l). apply in_or_app. left. exact I. Qed.
Lemma free_skipn (c : Z) n l : ~ In c l -> ~ In c (skipn n l).
Proof. intros A I. apply A. rewrite <- (firstn_skipn n l). apply in_or_app. right. exact I. Qed.
Lemma free_plain s : ShpFloatText.plain_digs s -> ~ In 95 s.
Proof. intros P I. unfold ShpFloatText.plain_digs in P. rewrite Forall_forall in P. apply P in I. unfold digit in I. lia. Qed.
Lemma free_dec n : 0 <= n -> ~ In 95 (dec_nat n).
Proof. intros N. apply free_plain, plain_dec, N. Qed.
Lemma free_exponent x : ~ In 95 (exponent_text x).
Proof.
  unfold exponent_text. cbv zeta. apply free_app; [destruct (x <? 0); cbn; lia|]. pose proof (free_dec (Z.abs x) (Z.abs_nonneg x)) as F.
  destruct (_ <? 2)%nat; [|exact F]. intros [E|I]; [lia|exact (F I)].
Qed.
Lemma free_layout n k : 0 < n -> ~ In 95 (layout n k).
Proof.
  intros N. destruct (stripped n N) as (j & _ & P & _). apply free_plain in P. unfold layout. cbv zeta. set (t := rstrip_by _ _) in *.
  assert (Z0 : forall i, ~ In 95 (zeros i)) by (intros i; apply free_plain, plain_zeros).
  assert (K := free_skipn 95 1 t P).
  assert (L : ~ In 95 (match skipn 1 t with [] => [] | f => text "." ++ f end)).
  { destruct (skipn 1 t) as [|c f]; [intros []|]. apply (free_app 95 [46]); [cbn; lia|exact K]. }
  destruct (_ && _); [destruct (_ <=? 0); [|destruct (_ <? _)]|].
  - apply free_app; [cbn; lia|]. apply free_app; [apply Z0|exact P].
  - apply free_app; [apply free_firstn, P|]. apply free_app; [cbn; lia|apply free_skipn, P].
  - apply free_app; [apply free_app; [exact P|apply Z0]|cbn; lia].
  - apply free_app; [apply free_app; [apply free_firstn, P|exact L]|]. apply free_app; [cbn; lia|apply free_exponent].
Qed.
Lemma free_num x : finite_number x -> ~ In 95 (num_str x).
Proof.
  destruct x as [z|d]; intros F; [apply ReprProofs.str_not_in; lia|]. cbn [num_str]. destruct d as [s|s| |s m e]; try contradiction.
  - destruct s; cbn; lia.
  - pose proof (FloatReprDigits.digits_spec m e (valid_sign _ _ _ F)) as S. unfold repr64. destruct (shortest 17 m e 1 _) as [n k]. destruct S as (N & _).
    apply free_app; [destruct s; cbn; lia|exact (free_layout n k N)].
Qed.

(** ** The scanner on the characters *)
Lemma regular_char c : fchar c -> ps_regular c = true.
Proof.
  unfold fchar, ichar, dig. intros F.
  assert (O : c = 43 \/ c = 45 \/ c = 46 \/ c = 48 \/ c = 49 \/ c = 50 \/ c = 51 \/ c = 52 \/ c = 53 \/ c = 54 \/ c = 55 \/ c = 56 \/ c = 57 \/ c = 69 \/ c = 95 \/ c = 101) by lia.
  clear F. repeat (destruct O as [->|O]; [reflexivity|]). subst c. reflexivity.
Qed.
Lemma regular_start c : ps_regular c = true -> start c = (@MWord number [c], @nil (token number)).
Proof.
  intros R. unfold ps_regular in R. apply andb_true_iff in R. destruct R as [W D]. apply negb_true_iff in W, D. unfold start. rewrite W, D.
  unfold ps_delim in D. cbn [existsb] in D. repeat (apply orb_false_iff in D; destruct D as [? D]).
  repeat match goal with H : (c =? _) = false |- _ => rewrite H; clear H end. reflexivity.
Qed.
Lemma scan_word w : Forall (fun c => ps_regular c = true) w -> forall acc, scan (@MWord number acc) (map C w) = (MWord (acc ++ w), []).
Proof.
  induction 1 as [|c w R F IH]; intros acc; [rewrite app_nil_r; reflexivity|]. cbn [map scan scan1]. rewrite R, IH, <- app_assoc. reflexivity.
Qed.
Lemma scan_number x : finite_number x -> scan (@MTop number) (map C (num_str x)) = (MWord (num_str x), []).
Proof.
  intros F. pose proof (numeral_chars _ _ (num_back x F)) as K. assert (R : Forall (fun c => ps_regular c = true) (num_str x)) by (apply (fa_imp fchar); [exact regular_char|exact K]).
  destruct (num_str x) as [|c w] eqn:E.
  - destruct x as [z|d]; cbn [num_str] in E; [destruct (ReprProofs.str_head z) as (c & r & Q & _); congruence|]. pose proof (repr_marks d) as M. rewrite E in M. cbn in M. tauto.
  - inversion R; subst. cbn [map scan scan1]. rewrite regular_start by assumption. rewrite scan_word by assumption. reflexivity.
Qed.
Lemma scan_comment w : ~ In 10 w -> scan (@MComment number) (map C w) = (MComment, []).
Proof.
  induction w as [|c w IH]; intros F; [reflexivity|]. cbn [map scan scan1]. destruct (Z.eqb_spec c 10) as [E|E]; [destruct F; left; exact E|].
  rewrite IH by (intros I; apply F; right; exact I). reflexivity.
Qed.
Definition in_text (m : mode number) : mode number := match m with MNum x => MWord (num_str x) | _ => m end.
Definition number_of (m : mode number) : Prop := match m with MNum x => finite_number x | _ => True end.
Lemma reads_same k : sound k = true -> (forall x, k <> KNum x) -> reads k k.
Proof. destruct k; intros S N; try reflexivity. destruct (N x eq_refl). Qed.
Lemma start_reads c : forallb sound (snd (@start number c)) = true -> Forall2 reads (snd (start c)) (snd (start c)) /\ in_text (fst (start c)) = fst (start c) /\ number_of (fst (start c)).
Proof.
  unfold start. repeat match goal with |- context [if ?b then _ else _] => destruct b end; cbn [fst snd]; intros S; try discriminate S;
    (split; [repeat constructor|split; [reflexivity|exact I]]).
Qed.
Lemma scan_chars l : forall m m1 toks, scan m l = (m1, toks) -> forallb sound toks = true -> Forall finite_number (numbers l) -> number_of m ->
  exists toks', scan (in_text m) (map C (chars l)) = (in_text m1, toks') /\ Forall2 reads toks toks' /\ number_of m1.
Proof.
  induction l as [|c l IH]; intros m m1 toks Q S F M.
  - injection Q as <- <-. exists []. repeat split; auto.
  - cbn [scan] in Q. destruct (scan1 m c) as [m2 t2] eqn:Q2. destruct (scan m2 l) as [m3 t3] eqn:Q3. injection Q as <- <-.
    rewrite forallb_app in S. apply andb_true_iff in S. destruct S as [S2 S3].
    assert (G : Forall finite_number (numbers l)) by (destruct c; [exact F|inversion F; assumption]).
    assert (H : exists t2', scan (in_text m) (map C (chars [c])) = (in_text m2, t2') /\ Forall2 reads t2 t2' /\ number_of m2).
    { destruct c as [c|x].
      - change (map C (chars [C c])) with [@C number c]. cbn [scan].
        assert (E : forall m0 t0, scan1 (in_text m) (C c) = (m0, t0) -> (let '(ma, ta) := scan1 (in_text m) (C c) in (ma, ta ++ [])) = (m0, t0)).
        { intros m0 t0 ->. rewrite app_nil_r. reflexivity. }
        destruct m as [|x|w|w|d s|d s|hl|]; cbn [in_text scan1] in Q2, E |- *.
        + destruct (start_reads c) as (A & B & D); [rewrite Q2; exact S2|]. rewrite Q2 in A, B, D. exists t2. rewrite Q2. cbn [fst snd] in *. rewrite app_nil_r, B. auto.
        + destruct (ps_regular c); [injection Q2 as <- <-; discriminate S2|]. unfold after in *. destruct (start c) as [ms ts] eqn:St. injection Q2 as <- <-.
          destruct (start_reads c) as (A & B & D); [rewrite St; exact S2|]. rewrite St in A, B, D. cbn [fst snd] in *. rewrite app_nil_r. exists (KName (num_str x) :: ts). rewrite B.
          split; [reflexivity|]. split; [|exact D]. constructor; [|exact A]. exists (num_str x). split; [reflexivity|]. split; [apply num_back; exact M|apply free_num; exact M].
        + destruct (ps_regular c); [injection Q2 as <- <-; exists []; repeat split; constructor|]. unfold after in *. destruct (start c) as [ms ts] eqn:St. injection Q2 as <- <-.
          destruct (start_reads c) as (A & B & D); [rewrite St; exact S2|]. rewrite St in A, B, D. cbn [fst snd] in *. rewrite app_nil_r. exists (KName w :: ts). rewrite B. split; [reflexivity|]. split; [|exact D]. constructor; [reflexivity|exact A].
        + destruct (ps_regular c); [injection Q2 as <- <-; exists []; repeat split; constructor|]. unfold after in *. destruct (start c) as [ms ts] eqn:St. injection Q2 as <- <-.
          destruct (start_reads c) as (A & B & D); [rewrite St; exact S2|]. rewrite St in A, B, D. cbn [fst snd] in *. rewrite app_nil_r. exists (KLit w :: ts). rewrite B. split; [reflexivity|]. split; [|exact D]. constructor; [reflexivity|exact A].
        + exists t2. rewrite Q2, app_nil_r. destruct (c =? 92), (c =? 40), (c =? 41), d; injection Q2 as <- <-; repeat split; repeat constructor.
        + exists t2. injection Q2 as <- <-. repeat split; repeat constructor.
        + exists t2. rewrite Q2, app_nil_r. destruct (ps_white c), (c =? 62), (hex_val c); injection Q2 as <- <-; try discriminate S2; repeat split; repeat constructor.
        + exists t2. rewrite Q2, app_nil_r. destruct (c =? 10); injection Q2 as <- <-; repeat split; repeat constructor.
      - assert (Fx : finite_number x) by (inversion F; assumption). unfold chars. cbn [flat_map]. rewrite app_nil_r.
        destruct m as [|y|w|w|d s|d s|hl|]; cbn [scan1] in Q2; injection Q2 as <- <-; try discriminate S2; cbn [in_text].
        + exists []. split; [apply scan_number, Fx|]. split; [constructor|exact Fx].
        + exists []. split; [|split; [constructor|exact I]]. apply scan_comment. apply (numeral_free 10 _ x); [unfold fchar, ichar, dig; lia|apply num_back, Fx]. }
    destruct H as (t2' & A2 & R2 & N2). destruct (IH _ _ _ Q3 S3 G N2) as (t3' & A3 & R3 & N3).
    exists (t2' ++ t3'). split; [|split; [apply Forall2_app; assumption|exact N3]].
    change (chars (c :: l)) with ((match c with C c => [c] | N x => num_str x end) ++ chars l). replace (match c with C c => [c] | N x => num_str x end) with (chars [c]) by (destruct c; cbn; rewrite ?app_nil_r; reflexivity).
    rewrite map_app, scan_app, A2, A3. reflexivity.
Qed.
Lemma saved_tokens (P : PyNum number) bg h0 ops h c size margin file : history h0 (canvas_new bg) ops = Some (h, c) -> Forall good_op ops -> save c size margin = Ok file ->
  Forall finite_number (numbers file) ->
  exists toks toks', scan MTop file = (MTop, toks) /\ scan MTop (map C (chars file)) = (MTop, toks') /\ Forall2 reads toks toks' /\ ~ In KBad toks.
Proof.
  intros Hi G Sv F. destruct (saved_clean _ _ _ _ _ _ _ _ Hi G Sv) as (toks & Q & S). destruct (scan_chars file _ _ _ Q S F I) as (toks' & Q' & R & _).
  exists toks, toks'. repeat split; auto. intros B. rewrite forallb_forall in S. apply S in B. discriminate B.
Qed.
