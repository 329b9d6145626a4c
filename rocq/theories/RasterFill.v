(** Scan conversion and filling. *)
From Coq Require Import Lia Lqa ZifyBool Sorted Permutation.
From Verif Require Import Num PfProofs RgProofs RoundProofs RasterModel RasterSpec RasterLine RasterCanvas.
Open Scope Z_scope.

(** ** Marks *)
Lemma mle_total a b : mle a b \/ mle b a.
Proof. unfold mle, mark_leb. destruct a as [x []], b as [y []]; cbn; lia. Qed.
Lemma mle_trans a b c : mle a b -> mle b c -> mle a c.
Proof. unfold mle, mark_leb. destruct a as [x []], b as [y []], c as [z []]; cbn; lia. Qed.
Lemma mle_refl a : mle a a.
Proof. unfold mle, mark_leb. destruct a as [x []]; cbn; lia. Qed.
Lemma mle_fst a b : mle a b -> fst a <= fst b.
Proof. unfold mle, mark_leb. destruct a as [x []], b as [y []]; cbn; lia. Qed.
Lemma mle_antisym a b : mle a b -> mle b a -> a = b.
Proof.
  unfold mle, mark_leb. destruct a as [x d], b as [y e]; cbn. intros A B.
  assert (x = y) by (destruct d, e; cbn in *; lia). subst y. destruct d, e; cbn in *; try reflexivity; lia.
Qed.
Lemma push_perm m h : Permutation (heappush m h) (m :: h).
Proof.
  induction h as [|x r IH]; cbn; [reflexivity|]. destruct (mark_leb m x); [reflexivity|].
  rewrite IH. apply perm_swap.
Qed.
Lemma push_sorted m h : sorted h -> sorted (heappush m h).
Proof.
  induction 1 as [|x r S IH F]; cbn; [constructor; constructor|]. destruct (mark_leb m x) eqn:E.
  - constructor; [constructor; assumption|]. constructor; [exact E|]. eapply Forall_impl; [|exact F]. intros a. apply mle_trans. exact E.
  - constructor; [exact IH|]. apply (Permutation_Forall (Permutation_sym (push_perm m r))). constructor; [|exact F].
    destruct (mle_total m x) as [C|C]; [unfold mle in C; congruence|exact C].
Qed.

(** ** Filling a row *)
Fixpoint segs (width : Z) (l : list mark) : list Z :=
  match l with
  | a :: ((b :: _) as r) => (if fst b <? width then (if snd a then [] else zfromto (fst a) (fst b)) else []) ++ segs width r
  | _ => []
  end.
Lemma segs_cons width a b r : segs width (a :: b :: r) =
  (if fst b <? width then (if snd a then [] else zfromto (fst a) (fst b)) else []) ++ segs width (b :: r).
Proof. reflexivity. Qed.
Lemma segs_out width a r : sorted (a :: r) -> width <= fst a -> segs width (a :: r) = [].
Proof.
  revert a. induction r as [|b r IH]; intros a S W; [reflexivity|]. inversion S as [|? ? S' F]; subst.
  inversion F as [|? ? M _]; subst. apply mle_fst in M. cbn [segs]. replace (fst b <? width) with false by lia. cbn [app].
  apply IH; [exact S'|lia].
Qed.
Lemma fill_loop_segs width m0 m1 r : sorted (m0 :: m1 :: r) -> (exists m, In m (m1 :: r) /\ width <= fst m) ->
  exists rest, fill_loop width (fst m0) (snd m0) (fst m1) (snd m1) r = (segs width (m0 :: m1 :: r), Ok rest) /\
    Forall (fun m => width <= fst m) rest.
Proof.
  revert m0 m1. induction r as [|m2 r IH]; intros m0 m1 S (m & I & W).
  - destruct I as [->|[]]. cbn [fill_loop segs]. replace (fst m <? width) with false by lia. exists []. split; [reflexivity|constructor].
  - cbn [fill_loop]. rewrite segs_cons. inversion S as [|? ? S' F]; subst. inversion F as [|? ? M01 F']; subst.
    destruct (fst m1 <? width) eqn:C.
    + assert (E' : exists m, In m (m2 :: r) /\ width <= fst m).
      { destruct I as [->|I]; [lia|]. exists m. auto. }
      destruct (IH m1 m2 S' E') as (rest & Ef & Fr).
      assert (X : (if snd m0 then fst m1 else Z.max (fst m0) (fst m1)) = fst m1).
      { destruct (snd m0); [reflexivity|]. apply mle_fst in M01. lia. }
      rewrite X. destruct m2 as [x2 d2]. cbn [fst snd] in Ef. rewrite Ef. exists rest. split; [reflexivity|exact Fr].
    + exists (m2 :: r). rewrite segs_out; [|exact S'|lia].
      split; [reflexivity|]. inversion S' as [|? ? _ F2]; subst. rewrite Forall_forall in F2 |- *. intros m' I'.
      apply F2, mle_fst in I'. lia.
Qed.
Definition lead (width : Z) (l : list mark) : list Z :=
  match l with
  | (x1, true) :: _ => if x1 <? width then zfromto 0 x1 else []
  | _ => []
  end.
Lemma fill_row_segs width marks : sorted marks ->
  exists rest, fill_row width marks =
    (lead width (heappush (width, false) marks) ++ segs width (heappush (width, false) marks), Ok rest) /\
    Forall (fun m => width <= fst m) rest.
Proof.
  intros S. unfold fill_row. pose proof (push_sorted (width, false) marks S) as S1.
  assert (I : In (width, false) (heappush (width, false) marks)).
  { apply (Permutation_in _ (Permutation_sym (push_perm _ _))). left. reflexivity. }
  destruct (heappush (width, false) marks) as [|[x1 d1] r] eqn:E; [contradiction|].
  destruct d1; cbn [negb lead].
  - (* the first mark goes down *)
    destruct r as [|m2 r].
    { destruct I as [C|[]]. discriminate. }
    cbn [fill_loop]. destruct (x1 <? width) eqn:C.
    + assert (E' : exists m, In m (m2 :: r) /\ width <= fst m).
      { destruct I as [C'|I]; [discriminate|]. exists (width, false). split; [exact I|cbn; lia]. }
      destruct (fill_loop_segs width (x1, true) m2 r S1 E') as (rest & Ef & Fr). cbn [fst snd] in Ef.
      (* with d0 true the value of x0 does not matter *)
      assert (X : forall x, fill_loop width x true (fst m2) (snd m2) r = fill_loop width x1 true (fst m2) (snd m2) r)
        by (intros x; destruct r; reflexivity).
      destruct m2 as [x2 d2]. cbn [fst snd] in *. rewrite X, Ef. exists rest. split; [reflexivity|exact Fr].
    + exists (m2 :: r). rewrite segs_out; [|exact S1|cbn; lia]. split; [reflexivity|].
      inversion S1 as [|? ? _ F2]; subst. rewrite Forall_forall in F2 |- *. intros m' I'. apply F2, mle_fst in I'. cbn in I'. lia.
  - (* the first mark goes up: nothing before it *)
    destruct r as [|m2 r].
    { destruct I as [C|[]]. injection C as C. subst x1. cbn [fill_loop]. rewrite Z.ltb_irrefl. exists []. split; [reflexivity|constructor]. }
    cbn [fill_loop]. destruct (x1 <? width) eqn:C.
    + assert (E' : exists m, In m (m2 :: r) /\ width <= fst m).
      { destruct I as [C'|I]; [injection C' as C'; subst; lia|]. exists (width, false). split; [exact I|cbn; lia]. }
      destruct (fill_loop_segs width (x1, false) m2 r S1 E') as (rest & Ef & Fr). cbn [fst snd] in Ef.
      destruct m2 as [x2 d2]. cbn [fst snd] in *. rewrite Ef. exists rest. split; [reflexivity|exact Fr].
    + exists (m2 :: r). rewrite segs_out; [|exact S1|cbn; lia]. split; [reflexivity|].
      inversion S1 as [|? ? _ F2]; subst. rewrite Forall_forall in F2 |- *. intros m' I'. apply F2, mle_fst in I'. cbn in I'. lia.
Qed.

(** ** Which pixels *)
Lemma last_is_cons a b r x d : sorted (a :: b :: r) -> fst b <= x -> (last_is (a :: b :: r) x d <-> last_is (b :: r) x d).
Proof.
  intros S B. inversion S as [|? ? _ F]; subst. rewrite Forall_forall in F. split; intros (m & I & L & D & M).
  - assert (Im : In m (b :: r)).
    { destruct I as [->|I]; [|exact I]. assert (E : mle b m) by (apply M; [right; left; reflexivity|exact B]).
      rewrite (mle_antisym m b); [left; reflexivity|apply F; left; reflexivity|exact E]. }
    exists m. split; [exact Im|]. split; [exact L|]. split; [exact D|]. intros m' I' L'. apply M; [right; exact I'|exact L'].
  - exists m. split; [right; exact I|]. split; [exact L|]. split; [exact D|]. intros m' [<-|I'] L'; [|apply M; assumption].
    apply F. exact I.
Qed.
Lemma in_segs width l x : sorted l ->
  (In x (segs width l) <-> last_is l x false /\ exists m, In m l /\ x < fst m < width).
Proof.
  induction l as [|a r IH]; intros S.
  - split; [intros []|]. intros [(m & [] & _) _].
  - destruct r as [|b r].
    + split; [intros []|]. intros [(m & [<-|[]] & L & _) (m' & [<-|[]] & R)]. lia.
    + inversion S as [|? ? S' F]; subst. pose proof (mle_fst _ _ (Forall_inv F)) as AB.
      cbn [segs]. rewrite in_app_iff, IH by exact S'. destruct (Z.le_gt_cases (fst b) x) as [C|C].
      * rewrite (last_is_cons a b r x false S C). split.
        -- intros [I|[L (m & I & R)]].
           ++ exfalso. destruct (fst b <? width); [|contradiction]. destruct (snd a); [contradiction|].
              apply in_zfromto in I. lia.
           ++ split; [exact L|]. exists m. split; [right; exact I|exact R].
        -- intros [L (m & [<-|I] & R)]; [lia|]. right. split; [exact L|]. exists m. auto.
      * assert (Nb : ~ last_is (b :: r) x false).
        { intros (m & I & L & _). destruct I as [<-|I]; [lia|]. inversion S' as [|? ? _ F']; subst.
          rewrite Forall_forall in F'. apply F', mle_fst in I. lia. }
        split.
        -- intros [I|[L _]]; [|contradiction]. destruct (fst b <? width) eqn:W; [|contradiction]. destruct (snd a) eqn:D; [contradiction|].
           apply in_zfromto in I. split.
           ++ exists a. split; [left; reflexivity|]. split; [lia|]. split; [exact D|]. intros m' [<-|[<-|I']] L'; [apply mle_refl|lia|].
              inversion S' as [|? ? _ F']; subst. rewrite Forall_forall in F'. apply F', mle_fst in I'. lia.
           ++ exists b. split; [right; left; reflexivity|lia].
        -- intros [(m & I & L & D & M) (m' & I' & R)]. left.
           assert (Em : m = a).
           { destruct I as [<-|[<-|I]]; [reflexivity|lia|]. inversion S' as [|? ? _ F']; subst.
             rewrite Forall_forall in F'. apply F', mle_fst in I. lia. }
           subst m. assert (W : fst b < width).
           { destruct I' as [<-|[<-|I']]; [lia|lia|]. inversion S' as [|? ? _ F']; subst.
             rewrite Forall_forall in F'. apply F', mle_fst in I'. lia. }
           replace (fst b <? width) with true by lia. rewrite D. apply in_zfromto. lia.
Qed.
Lemma in_lead width l x : sorted l ->
  (In x (lead width l) <-> (exists m, In m l /\ snd m = true /\ fst m < width /\ forall m', In m' l -> mle m m') /\
     0 <= x /\ forall m, In m l -> x < fst m).
Proof.
  intros S. destruct l as [|[x1 d1] r]; [split; [intros []|intros [(m & [] & _) _]]|].
  inversion S as [|? ? S' F]; subst. rewrite Forall_forall in F. cbn [lead]. destruct d1.
  - destruct (x1 <? width) eqn:W.
    + rewrite in_zfromto. split.
      * intros R. split; [|split; [lia|]].
        -- exists (x1, true). split; [left; reflexivity|]. split; [reflexivity|]. split; [cbn; lia|].
           intros m' [<-|I']; [apply mle_refl|apply F; exact I'].
        -- intros m [<-|I]; [cbn; lia|]. apply F, mle_fst in I. cbn in I. lia.
      * intros [_ [P A]]. specialize (A (x1, true) (or_introl eq_refl)). cbn in A. lia.
    + split; [intros []|]. intros [(m & I & D & L & M) _]. specialize (M (x1, true) (or_introl eq_refl)).
      destruct I as [<-|I]; [cbn in L; lia|]. apply F, mle_fst in I. cbn in I. lia.
  - split; [intros []|]. intros [(m & I & D & L & M) _]. specialize (M (x1, false) (or_introl eq_refl)).
    destruct I as [<-|I]; [discriminate D|]. apply F in I. pose proof (mle_antisym _ _ M I) as ->. discriminate D.
Qed.
Lemma in_push m h x : In x (heappush m h) <-> x = m \/ In x h.
Proof.
  split; intros I.
  - apply (Permutation_in _ (push_perm m h)) in I. destruct I as [->|I]; auto.
  - apply (Permutation_in _ (Permutation_sym (push_perm m h))). destruct I as [->|I]; [left; reflexivity|right; exact I].
Qed.
Lemma fill_row_painted width marks : sorted marks ->
  exists xs rest, fill_row width marks = (xs, Ok rest) /\ Forall (fun m => width <= fst m) rest /\
    forall x, In x xs <-> painted width marks x.
Proof.
  intros S. destruct (fill_row_segs width marks S) as (rest & E & F). eexists. exists rest. split; [exact E|]. split; [exact F|].
  intros x. pose proof (push_sorted (width, false) marks S) as S1. rewrite in_app_iff, in_lead, in_segs by exact S1. unfold painted. split.
  - intros [[(m & I & D & L & M) [P A]]|[(m & I & L & D & M) (m' & I' & R)]].
    + assert (Im : In m marks) by (apply in_push in I; destruct I as [->|I]; [cbn in L; lia|exact I]).
      split; [exists m; split; [exact Im|]; specialize (A m I); lia|]. right. split; [exact P|].
      split; [intros m' I'; apply A, in_push; auto|]. exists m. split; [exact Im|]. split; [exact D|].
      intros m' I'. apply M, in_push. auto.
    + assert (Im' : In m' marks) by (apply in_push in I'; destruct I' as [->|I']; [cbn in R; lia|exact I']).
      split; [exists m'; auto|]. left. exists m.
      split; [apply in_push in I; destruct I as [->|I]; [cbn in L; lia|exact I]|]. split; [exact L|]. split; [exact D|].
      intros m2 I2 L2. apply M; [apply in_push; auto|exact L2].
  - intros [(m & I & R) [(n & In_ & L & D & M)|(P & A & (n & In_ & D & M))]].
    + right. split; [|exists m; split; [apply in_push; auto|exact R]]. exists n. split; [apply in_push; auto|]. split; [exact L|].
      split; [exact D|]. intros m' I' L'. apply in_push in I'. destruct I' as [->|I']; [cbn in L'; lia|]. apply M; assumption.
    + left. split.
      * exists n. split; [apply in_push; auto|]. split; [exact D|]. pose proof (mle_fst _ _ (M m I)) as Lm. split; [lia|].
        intros m' I'. apply in_push in I'. destruct I' as [->|I']; [|apply M; exact I'].
        unfold mle, mark_leb. cbn [fst snd]. replace (fst n <? width) with true by lia. reflexivity.
      * split; [exact P|]. intros m' I'. apply in_push in I'. destruct I' as [->|I']; [cbn; lia|apply A; exact I'].
Qed.

(** Each pixel once, left to right. *)
Lemma zfromto_sorted a b : StronglySorted Z.lt (zfromto a b).
Proof.
  destruct (Z.le_gt_cases b a) as [C|C]; [rewrite zfromto_nil by lia; constructor|].
  remember (Z.to_nat (b - a)) as n eqn:N. revert a C N. induction n as [|n IH]; intros a C N; [lia|].
  rewrite zfromto_cons by lia. constructor.
  - destruct (Z.le_gt_cases b (a + 1)); [rewrite zfromto_nil by lia; constructor|]. apply IH; lia.
  - apply Forall_forall. intros x I. apply in_zfromto in I. lia.
Qed.
Lemma ss_app l1 l2 : StronglySorted Z.lt l1 -> StronglySorted Z.lt l2 -> (forall x y, In x l1 -> In y l2 -> x < y) ->
  StronglySorted Z.lt (l1 ++ l2).
Proof.
  intros S1 S2 L. induction S1 as [|x l S IH F]; [exact S2|]. cbn. constructor.
  - apply IH. intros a b A B. apply L; [right; exact A|exact B].
  - apply Forall_app. split; [exact F|]. apply Forall_forall. intros y I. apply L; [left; reflexivity|exact I].
Qed.
Lemma segs_lower width a r x : sorted (a :: r) -> In x (segs width (a :: r)) -> fst a <= x.
Proof.
  intros S I. apply in_segs in I; [|exact S]. destruct I as [(m & I & L & _) _]. destruct I as [<-|I]; [exact L|].
  inversion S as [|? ? _ F]; subst. rewrite Forall_forall in F. apply F, mle_fst in I. lia.
Qed.
Lemma segs_sorted width l : sorted l -> StronglySorted Z.lt (segs width l).
Proof.
  induction l as [|a r IH]; intros S; [constructor|]. destruct r as [|b r]; [constructor|].
  inversion S as [|? ? S' F]; subst. cbn [segs]. apply ss_app; [|apply IH; exact S'|].
  - destruct (fst b <? width); [|constructor]. destruct (snd a); [constructor|apply zfromto_sorted].
  - intros x y I J. apply segs_lower in J; [|exact S']. destruct (fst b <? width); [|contradiction]. destruct (snd a); [contradiction|].
    apply in_zfromto in I. lia.
Qed.
Lemma fill_row_once width marks : sorted marks -> StronglySorted Z.lt (fst (fill_row width marks)).
Proof.
  intros S. destruct (fill_row_segs width marks S) as (rest & -> & _). cbn [fst].
  pose proof (push_sorted (width, false) marks S) as S1. apply ss_app.
  - unfold lead. destruct (heappush _ marks) as [|[x1 []] r]; try constructor. destruct (x1 <? width); [apply zfromto_sorted|constructor].
  - apply segs_sorted. exact S1.
  - intros x y I J. destruct (heappush _ marks) as [|[x1 []] r]; try contradiction. cbn [lead] in I.
    destruct (x1 <? width); [|contradiction]. apply in_zfromto in I. apply segs_lower in J; [|exact S1]. cbn in J. lia.
Qed.
