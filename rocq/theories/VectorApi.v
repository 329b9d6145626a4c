(** The facts about canvases that the theorems state. *)
From Coq Require Import Reals Lra Psatz.
From Verif Require Import Num RealNum BBoxModel StrModel StrProofs Text VectorModel PsSpec PsProofs VectorSpec VectorSpecR PsText PsImage PsHead VectorProofs VectorSave VectorPage.
Open Scope Z_scope.

Lemma Forall2_weaken {A B} (P Q : A -> B -> Prop) l m : (forall a b, P a b -> Q a b) -> Forall2 P l m -> Forall2 Q l m.
Proof. intros I F. induction F; constructor; auto. Qed.

Section VA.
  Context {T : Type} `{PyNum T}.
  Variable metric : list Z -> T -> list Z -> T * T.
  Variable advance : list Z -> T -> list Z -> T * T.
  Hypothesis X : exact_eq T.

  Section One.
    Variables (bg : option (ink T)) (h0 : heap T) (ops : list (op T)) (h : heap T) (c : canvas T) (size : option T) (margin : T) (file : list (ch T)).
    Hypotheses (H0 : h0 O = []) (Hi : history h0 (canvas_new bg) ops = Some (h, c)) (Sv : save c size margin = Ok file)
      (Go : Forall good_op ops) (Kp : lists_kept [O] ops).
    Lemma api_state : exists evs, interpret metric advance file = Some (bg_event bg (cv_bbox c) size margin ++ evs) /\
      Forall2 (fun e o => kind_of e (o_what o) /\ e_width e = o_width o /\ e_dash e = o_dash o) evs (orders h0 (want_start bg) ops).
    Proof.
      destruct (saved_paints metric advance X true bg h0 ops h c size margin file H0 Hi Sv Go Kp) as (evs & I & F). exists evs. split; [exact I|].
      eapply Forall2_weaken; [|exact F]. intros e o (A & B & D & _). auto.
    Qed.
    Lemma api_ink : all_gray (match bg with Some i => [i] | None => [] end ++ flat_map inks_of ops) \/ all_rgb (match bg with Some i => [i] | None => [] end ++ flat_map inks_of ops) ->
      Forall two_inks ops ->
      exists evs, interpret metric advance file = Some (bg_event bg (cv_bbox c) size margin ++ evs) /\
        Forall2 (fun e o => kind_of e (o_what o) /\ rgb (e_ink e) = rgb (o_ink o)) evs (orders h0 (want_start bg) ops).
    Proof.
      intros Fm Tw. assert (Ex : exists fam : bool, family fam bg ops) by (destruct Fm as [A|A]; [exists true|exists false]; exact A). destruct Ex as [fam Fa].
      destruct (saved_paints metric advance X fam bg h0 ops h c size margin file H0 Hi Sv Go Kp) as (evs & I & F). exists evs. split; [exact I|].
      eapply Forall2_weaken; [|exact F]. intros e o (A & _ & _ & _ & _ & B & _). auto.
    Qed.
    Lemma api_path : circles_apart false ops ->
      exists evs, interpret metric advance file = Some (bg_event bg (cv_bbox c) size margin ++ evs) /\
        Forall2 (fun e o => kind_of e (o_what o) /\ path_of e (o_what o)) evs (orders h0 (want_start bg) ops).
    Proof.
      intros Ca. destruct (saved_paints metric advance X true bg h0 ops h c size margin file H0 Hi Sv Go Kp) as (evs & I & F). exists evs. split; [exact I|].
      eapply Forall2_weaken; [|exact F]. intros e o (A & _ & _ & _ & _ & _ & B). auto.
    Qed.
    Lemma api_place : exists evs, interpret metric advance file = Some (bg_event bg (cv_bbox c) size margin ++ evs) /\
        Forall2 (fun e o => kind_of e (o_what o) /\ placed (page_ctm (cv_bbox c) size margin) e (o_what o) /\ text_ok metric e (o_what o)) evs (orders h0 (want_start bg) ops).
    Proof.
      destruct (saved_paints metric advance X true bg h0 ops h c size margin file H0 Hi Sv Go Kp) as (evs & I & F). exists evs. split; [exact I|].
      eapply Forall2_weaken; [|exact F]. intros e o (A & _ & _ & B & D & _). auto.
    Qed.
    Lemma order_images hh q l : flat_map (fun o => match o_what o with WImage col w ht data _ _ _ => [(col, nofZ w, nofZ ht, data)] | _ => [] end) (orders hh q l) = images l.
    Proof.
      revert hh q. induction l as [|o r IH]; intros hh q; [reflexivity|]. cbn [orders images flat_map]. fold (images r). rewrite flat_map_app, IH. f_equal.
      destruct o as [v|rr gr b|i|w|d off|[x y] rr f s|[|p l] s|[|p l] f s|l rr f s|p s z fo an|da w p z col| |d l]; cbn [asks fst]; try reflexivity; unfold shape; destruct f, s; reflexivity.
    Qed.
    Lemma api_images : exists evs, interpret metric advance file = Some evs /\ images_shown evs = images ops.
    Proof.
      destruct api_state as (evs & I & F). eexists. split; [exact I|]. unfold images_shown. rewrite flat_map_app.
      assert (B : flat_map (fun e : event T => match e_kind e with EImage col w ht _ _ data => [(col, w, ht, data)] | _ => [] end) (bg_event bg (cv_bbox c) size margin) = []).
      { unfold bg_event. destruct (bg_ink bg); [destruct (page _ _ _) as [[[? ?] ?] ?]|]; reflexivity. }
      rewrite B. cbn [app]. rewrite <- (order_images h0 (want_start bg) ops).
      clear - F. induction F as [|e o evs os (K & _) F IH]; [reflexivity|]. cbn [flat_map]. rewrite IH. f_equal.
      destruct (o_what o); cbn [kind_of] in K; rewrite K; reflexivity.
    Qed.
    Lemma order_texts hh q l : flat_map (fun o => match o_what o with WText _ s f z _ => [(s, f, z)] | _ => [] end) (orders hh q l) = texts l.
    Proof.
      revert hh q. induction l as [|o r IH]; intros hh q; [reflexivity|]. cbn [orders texts flat_map]. fold (texts r). rewrite flat_map_app, IH. f_equal.
      destruct o as [v|rr gr b|i|w|d off|[x y] rr f s|[|p l] s|[|p l] f s|l rr f s|p s z fo an|da w p z col| |d l]; cbn [asks fst]; try reflexivity; unfold shape; destruct f, s; reflexivity.
    Qed.
    Lemma api_texts : exists evs, interpret metric advance file = Some evs /\ texts_shown evs = texts ops.
    Proof.
      destruct api_state as (evs & I & F). eexists. split; [exact I|]. unfold texts_shown. rewrite flat_map_app.
      assert (B : flat_map (fun e : event T => match e_kind e with EText s f z => [(s, f, z)] | _ => [] end) (bg_event bg (cv_bbox c) size margin) = []).
      { unfold bg_event. destruct (bg_ink bg); [destruct (page _ _ _) as [[[? ?] ?] ?]|]; reflexivity. }
      rewrite B. cbn [app]. rewrite <- (order_texts h0 (want_start bg) ops).
      clear - F. induction F as [|e o evs os (K & _) F IH]; [reflexivity|]. cbn [flat_map]. rewrite IH. f_equal.
      destruct (o_what o); cbn [kind_of] in K; rewrite K; reflexivity.
    Qed.
  End One.

  (** ** Definitions in the file *)
  Definition used_inv (l : list (op T)) (deps : list (list Z)) : Prop := forall k, In k deps <-> needs l k.
  Lemma set_add_in k s x : In x (set_add k s) <-> x = k \/ In x s.
  Proof.
    unfold set_add. destruct (existsb (zlist_eqb k) s) eqn:Q.
    - apply existsb_exists in Q. destruct Q as (y & I & Qy). apply zlist_eqb_eq in Qy. subst y. split; [auto|]. intros [->|G]; assumption.
    - rewrite in_app_iff. cbn. split; [intros [|[|[]]]; auto|intros [|]; auto].
  Qed.
  Lemma needs_snoc (l : list (op T)) o k : needs (l ++ [o]) k <-> needs l k \/ needs [o] k.
  Proof.
    unfold needs. split.
    - intros (p & s & z & f & a & I & K). apply in_app_iff in I. destruct I as [I|I]; [left|right]; exists p, s, z, f, a; auto.
    - intros [(p & s & z & f & a & I & K)|(p & s & z & f & a & I & K)]; exists p, s, z, f, a; (split; [apply in_app_iff; auto|exact K]).
  Qed.
  Lemma no_text (o : op T) k : (forall p s z f a, o <> OText p s z f a) -> ~ needs [o] k.
  Proof. intros N (p & s & z & f & a & [I|[]] & _). exact (N _ _ _ _ _ I). Qed.
  Lemma setink_deps2 (c : canvas T) i c' : setink c i = (c', Ok tt) -> cv_deps c' = cv_deps c.
  Proof.
    destruct i as [v|[|r [|gr [|b [|]]]]|]; cbn [setink]; intros Q; try discriminate; injection Q as <-.
    - unfold setgray. destruct (Num.neq _ _); reflexivity.
    - unfold setcolor. destruct (nums_eqb _ _); reflexivity.
  Qed.
  Lemma paint_deps2 (c : canvas T) f s c' : paint c f s = (c', Ok tt) -> cv_deps c' = cv_deps c.
  Proof.
    unfold paint. intros Q. destruct f as [f|], s as [s|].
    - destruct (setink _ f) as [c2 [[]|e]] eqn:S1; [|discriminate]. cbv iota beta in Q. destruct (setink _ s) as [c3 [[]|e]] eqn:S2; [|discriminate]. injection Q as <-.
      cbn [emit cv_deps]. rewrite (setink_deps2 _ _ _ S2). cbn [emit cv_deps]. rewrite (setink_deps2 _ _ _ S1). reflexivity.
    - destruct (setink _ f) as [c2 [[]|e]] eqn:S1; [|discriminate]. injection Q as <-. cbn [emit cv_deps]. rewrite (setink_deps2 _ _ _ S1). reflexivity.
    - cbv iota beta in Q. destruct (setink _ s) as [c2 [[]|e]] eqn:S1; [|discriminate]. injection Q as <-. cbn [emit cv_deps]. rewrite (setink_deps2 _ _ _ S1). reflexivity.
    - injection Q as <-. reflexivity.
  Qed.
  Lemma perform_uses h (c : canvas T) o h' c' : perform h c o = (h', (c', Ok tt)) -> forall k, In k (cv_deps c') <-> In k (cv_deps c) \/ needs [o] k.
  Proof.
    intros Q k. assert (Same : (forall p s z f a, o <> OText p s z f a) -> cv_deps c' = cv_deps c -> (In k (cv_deps c') <-> In k (cv_deps c) \/ needs [o] k)).
    { intros N ->. pose proof (no_text o k N). tauto. }
    destruct o as [v|r gr b|i|w|d off|[x y] r f s|l s|l f s|l r f s|p s z fo an|da w p z col| |d l]; cbn [perform] in Q;
      try (apply Same; [discriminate|]).
    - injection Q as <- <-. unfold setgray. destruct (Num.neq _ _); reflexivity.
    - injection Q as <- <-. unfold setcolor. destruct (nums_eqb _ _); reflexivity.
    - injection Q as <- Q. apply (setink_deps2 _ _ _ Q).
    - injection Q as <- <-. unfold setwidth. destruct (Num.neq _ _); reflexivity.
    - injection Q as <- <-. unfold setdash. destruct (_ && _); reflexivity.
    - injection Q as <- Q. unfold addcircle, and_then in Q. destruct (paint _ f s) as [c2 [[]|e]] eqn:Pt; [|discriminate]. injection Q as <-. cbn [grow cv_deps]. rewrite (paint_deps2 _ _ _ _ Pt). reflexivity.
    - destruct l as [|p r]; injection Q as <- Q; [subst c'; reflexivity|]. cbn [addpolyline] in Q. rewrite fold_emit in Q. destruct s as [s|].
      + destruct (setink _ s) as [c2 [[]|e]] eqn:S1; [|discriminate]. cbn [and_then] in Q. injection Q as <-. cbn [grow emit cv_deps]. rewrite (setink_deps2 _ _ _ S1). reflexivity.
      + cbn [and_then] in Q. injection Q as <-. reflexivity.
    - destruct l as [|p r]; injection Q as <- Q; [subst c'; reflexivity|]. cbn [addpolygon] in Q. rewrite fold_emit in Q. unfold and_then in Q.
      destruct (paint _ f s) as [c2 [[]|e]] eqn:Pt; [|discriminate]. injection Q as <-. cbn [grow cv_deps]. rewrite (paint_deps2 _ _ _ _ Pt). reflexivity.
    - injection Q as <- Q. unfold addroundedpolygon in Q. destruct l as [|[x1 y1] [|[x2 y2] rest]]; try discriminate. cbv zeta in Q. unfold and_then in Q.
      destruct (paint _ f s) as [c2 [[]|e]] eqn:Pt; [|discriminate]. destruct (bb_of_points _) as [b|e]; [|discriminate]. injection Q as <-. cbn [grow cv_deps]. rewrite (paint_deps2 _ _ _ _ Pt).
      match goal with |- context [fold_left ?f ?l ?c0] => assert (Fd : cv_deps (fold_left f l c0) = cv_deps c0) end.
      { match goal with |- cv_deps (fold_left ?f ?l ?c0) = _ => generalize c0; generalize l end. clear.
        induction l as [|[[u1 v1] [u2 v2]] l IH]; intros c3; [reflexivity|]. cbn [fold_left]. rewrite IH. reflexivity. }
      cbn [emit cv_deps] in Fd |- *. rewrite Fd. reflexivity.
    - injection Q as <- Q. unfold addtext in Q. destruct (existsb (zlist_eqb an) ANCHORS) eqn:A; [|discriminate]. destruct p as [x y]. injection Q as <-. cbn [cv_deps emit].
      rewrite anchor_deps by exact A. rewrite !set_add_in. unfold needs. split.
      + intros [->|[->|I]]; [right|right|left; exact I]; exists (x, y), s, z, fo, an; (split; [left; reflexivity|auto]).
      + intros [I|(p & s' & z' & f' & a' & [I|[]] & K)]; [auto|]. injection I as <- <- <- <- <-. destruct K; auto.
    - injection Q as <- Q. unfold addimage in Q. destruct (_ =? 0); [discriminate|].
      assert (Fe : forall rows (c0 : canvas T), cv_deps (fold_left emit rows c0) = cv_deps c0).
      { clear. induction rows as [|r rows IH]; intros c0; cbn [fold_left]; [reflexivity|]. rewrite IH. reflexivity. }
      destruct p as [[x y]|]; injection Q as <-; cbn [grow cv_deps emit]; rewrite Fe; reflexivity.
    - injection Q as <- <-. reflexivity.
    - injection Q as <- <-. reflexivity.
  Qed.
  Lemma history_uses l : forall h (c : canvas T) hf cf, history h c l = Some (hf, cf) -> forall k, In k (cv_deps cf) <-> In k (cv_deps c) \/ needs l k.
  Proof.
    induction l as [|o r IH]; intros h c hf cf Q k.
    - injection Q as <- <-. split; [auto|]. intros [I|(p & s & z & f & a & [] & _)]. exact I.
    - destruct (history_cons _ _ _ _ _ Q) as (h1 & c1 & P1 & Q1). rewrite (IH _ _ _ _ Q1 k), (perform_uses _ _ _ _ _ P1 k). unfold needs. split.
      + intros [[I|(p & s & z & f & a & [I|[]] & K)]|(p & s & z & f & a & I & K)]; [auto|right|right]; exists p, s, z, f, a; cbn; auto.
      + intros [I|(p & s & z & f & a & [I|I] & K)]; [auto|left; right|right]; exists p, s, z, f, a; cbn; auto.
  Qed.
  (** A key of the file and its definition *)
  Definition cut_defs (k : list Z) : list Z := match defs_get k DEFS with Ok b => b | Err _ => [] end.
  Definition def_body (k : list Z) : list Z := firstn (length (cut_defs k) - length k - 8) (skipn (length k + 3) (cut_defs k)).
  Fixpoint find_sub (b s : list Z) (n : nat) : nat :=
    match s with [] => n | _ :: r => if zlist_eqb (firstn (length b) s) b then n else find_sub b r (S n) end.
  Definition check_def (k : list Z) : bool :=
    match defs_get k DEFS with
    | Ok b => zlist_eqb b (text "/" ++ k ++ text " {" ++ def_body k ++ text "} bd" ++ [10]) && zlist_eqb (firstn (length b) (skipn (find_sub b DEFS_PS 0) DEFS_PS)) b
    | Err _ => false
    end.
  Lemma checked : forallb check_def KEYS = true.
  Proof. vm_compute. reflexivity. Qed.
  Lemma defs_ok k : In k KEYS -> defs_get k DEFS = Ok (cut_defs k) /\ defines k (cut_defs k).
  Proof.
    intros I. pose proof checked as Ck. rewrite forallb_forall in Ck. specialize (Ck k I). unfold check_def in Ck. unfold cut_defs at 1 2.
    destruct (defs_get k DEFS) as [b|e] eqn:Q; [|discriminate]. apply andb_true_iff in Ck. destruct Ck as [A B]. apply zlist_eqb_eq in A. apply zlist_eqb_eq in B.
    split; [reflexivity|]. split; [exists (def_body k); exact A|]. set (n := find_sub b DEFS_PS 0) in *. exists (firstn n DEFS_PS), (skipn (length b) (skipn n DEFS_PS)).
    rewrite <- B at 1. rewrite firstn_skipn. symmetry. apply firstn_skipn.
  Qed.
  Lemma mapM_defs ks : incl ks KEYS -> mapM (fun key => rmap (map (@C T)) (defs_get key DEFS)) ks = Ok (map (fun k => map C (cut_defs k)) ks).
  Proof.
    induction ks as [|k ks IH]; intros I; [reflexivity|]. cbn [mapM map]. destruct (defs_ok k (I k (or_introl eq_refl))) as [-> _]. cbn [rmap bind].
    rewrite IH by (intros x Hx; apply I; right; exact Hx). reflexivity.
  Qed.
  Lemma KEYS_are : KEYS = [text "sz"; text "sc"; text "st"; text "str"; text "sr"; text "sbr"; text "sb"; text "sbl"; text "sl"; text "stl"].
  Proof. vm_compute. reflexivity. Qed.
  Lemma anchor_key a : existsb (zlist_eqb a) ANCHORS = true -> In (text "s" ++ a) KEYS.
  Proof.
    intros A. apply existsb_exists in A. destruct A as (b & I & Q). apply zlist_eqb_eq in Q. subst b. rewrite KEYS_are. unfold ANCHORS in I.
    repeat (destruct I as [<-|I]; [cbn; tauto|]). destruct I.
  Qed.
  Lemma needs_keys l : forall h (c : canvas T) hf cf, history h c l = Some (hf, cf) -> forall k, needs l k -> In k KEYS.
  Proof.
    induction l as [|o r IH]; intros h c hf cf Q k (p & s & z & f & a & I & K); [destruct I|].
    destruct (history_cons _ _ _ _ _ Q) as (h1 & c1 & P1 & Q1). destruct I as [->|I].
    - cbn [perform] in P1. unfold addtext in P1. destruct (existsb (zlist_eqb a) ANCHORS) eqn:A; [|discriminate]. destruct K as [->| ->]; [left; vm_compute; reflexivity|apply anchor_key; exact A].
    - apply (IH _ _ _ _ Q1 k). exists p, s, z, f, a. auto.
  Qed.
  Lemma blocks_lines ks : flat_map (fun l : list (ch T) => l ++ [C 10]) (map (fun k => map C (cut_defs k)) ks) = flat_map (fun b => map C b ++ [C 10]) (map cut_defs ks).
  Proof. induction ks as [|k r IH]; [reflexivity|]. cbn [map flat_map]. rewrite IH. reflexivity. Qed.
  Lemma api_defs bg h0 (ops : list (op T)) h c size margin file :
    history h0 (canvas_new bg) ops = Some (h, c) -> save c size margin = Ok file ->
    exists ks blocks head mid drawing, file = head ++ flat_map (fun b => map C b ++ [C 10]) blocks ++ mid ++ drawing /\
      Forall2 defines ks blocks /\ NoDup ks /\ (forall k, In k ks <-> needs ops k) /\ (forall k, ks <> [] -> hd k ks = text "sz") /\
      (exists lines, drawing = flat_map (fun l => l ++ [C 10]) lines /\ lines = cv_lines c).
  Proof.
    intros Hi Sv. unfold save in Sv. destruct (save_header c size margin) as [pre|e] eqn:Hd; [|discriminate]. injection Sv as <-.
    set (ks := filter (fun k => existsb (zlist_eqb k) (cv_deps c)) KEYS) in *.
    assert (Ik : incl ks KEYS) by (intros k I; apply filter_In in I; apply I).
    unfold save_header in Hd. fold ks in Hd.
    destruct (match size with None => _ | Some s => _ end) as [[[x0 y0] x1] y1] in Hd. rewrite (mapM_defs ks Ik) in Hd. cbn [bind] in Hd.
    match type of Hd with (bind ?B _) = _ => destruct B as [bl|e]; [|discriminate] end. cbn [bind] in Hd.
    match type of Hd with (bind ?B _) = _ => destruct B as [fl|e]; [|discriminate] end. cbn [bind] in Hd.
    apply (f_equal (fun r => match r with Ok v => v | Err _ => [] end)) in Hd. cbv beta iota in Hd. rewrite <- Hd. clear Hd.
    assert (Nd : forall k, In k ks <-> needs ops k).
    { intros k. unfold ks. rewrite filter_In. rewrite existsb_exists. pose proof (history_uses _ _ _ _ _ Hi k) as Us. cbn [canvas_new cv_deps In] in Us. split.
      - intros (_ & x & I & Q). apply zlist_eqb_eq in Q. subst x. apply Us in I. destruct I as [I|I]; [|exact I]. destruct bg as [[|l|]|]; destruct I.
      - intros N. split; [exact (needs_keys _ _ _ _ _ Hi k N)|]. exists k. split; [apply Us; auto|apply zlist_eqb_refl]. }
    match goal with |- context [flat_map _ ((?hd ++ _ ++ bl ++ fl ++ [[]]) ++ _)] => set (head4 := hd) end. clearbody head4.
    exists ks, (map cut_defs ks), (flat_map (fun l => l ++ [C 10]) head4), (flat_map (fun l => l ++ [C 10]) (bl ++ fl ++ [[]])), (flat_map (fun l => l ++ [C 10]) (cv_lines c)).
    split; [|split; [|split; [|split; [exact Nd|split; [|eexists; split; reflexivity]]]]].
    - rewrite <- (blocks_lines ks). rewrite <- !flat_map_app. f_equal. rewrite <- !app_assoc. reflexivity.
    - clear - Ik. induction ks as [|k r IH]; [constructor|]. cbn [map]. constructor; [apply defs_ok, Ik; left; reflexivity|]. apply IH. intros x I. apply Ik. right. exact I.
    - apply NoDup_filter. rewrite KEYS_are. repeat (constructor; [cbn; intuition discriminate|]). constructor.
    - intros k N. assert (Sz : In (text "sz") ks).
      { destruct ks as [|k1 r]; [destruct (N eq_refl)|]. destruct (proj1 (Nd k1) (or_introl eq_refl)) as (p & s & z & f & a & I & _). apply Nd. exists p, s, z, f, a. auto. }
      unfold ks in *. rewrite KEYS_are in *. apply filter_In in Sz. destruct Sz as [_ Sz]. cbn [filter]. rewrite Sz. reflexivity.
  Qed.

  (** ** Calls that fail *)
  Lemma setink_ok (c : canvas T) i : (usable i -> exists c', setink c i = (c', Ok tt)) /\ (~ usable i -> setink c i = (c, Err TypeError)).
  Proof.
    unfold usable. destruct i as [v|[|r [|gr [|b [|]]]]|]; cbn [setink ink_of]; split; intros U; try (destruct U; reflexivity); try (eexists; reflexivity); try reflexivity; exfalso; apply U; discriminate.
  Qed.
  Lemma usable_dec (i : ink T) : {usable i} + {~ usable i}.
  Proof. unfold usable. destruct (ink_of i); [left; discriminate|right; auto]. Qed.
  Definition keeps (c c' : canvas T) : Prop := cv_bbox c' = cv_bbox c /\ cv_deps c' = cv_deps c /\ cv_bg c' = cv_bg c.
  Lemma keeps_setink (c : canvas T) i : keeps c (fst (setink c i)).
  Proof.
    destruct i as [v|[|r [|gr [|b [|]]]]|]; cbn [setink fst]; try (split; [|split]; reflexivity).
    - unfold setgray. destruct (Num.neq _ _); (split; [|split]; reflexivity).
    - unfold setcolor. destruct (nums_eqb _ _); (split; [|split]; reflexivity).
  Qed.
  Lemma paint_ok (c : canvas T) f s : let us := match f with Some i => [i] | None => [] end ++ match s with Some i => [i] | None => [] end in
    (Forall usable us -> exists c', paint c f s = (c', Ok tt)) /\ (~ Forall usable us -> exists c', paint c f s = (c', Err TypeError) /\ keeps c c').
  Proof.
    cbv zeta. unfold paint. destruct f as [f|], s as [s|]; cbn [app].
    - destruct (setink (emit c (tx "gs")) f) as [c1 r1] eqn:S1. pose proof (setink_ok (emit c (tx "gs")) f) as [A1 B1]. pose proof (keeps_setink (emit c (tx "gs")) f) as K1. rewrite S1 in *. cbn [fst] in K1.
      destruct (setink (emit (emit c1 (tx "f")) (tx "gr")) s) as [c2 r2] eqn:S2. pose proof (setink_ok (emit (emit c1 (tx "f")) (tx "gr")) s) as [A2 B2].
      pose proof (keeps_setink (emit (emit c1 (tx "f")) (tx "gr")) s) as K2. rewrite S2 in *. cbn [fst] in K2.
      assert (K3 : keeps c c2). { unfold keeps in *. cbn [emit cv_bbox cv_deps cv_bg] in *. intuition congruence. }
      destruct (usable_dec f) as [Uf|Uf].
      + destruct (A1 Uf) as [x Ex]. injection Ex as <- ->. cbv iota beta. rewrite S2. destruct (usable_dec s) as [Us|Us].
        * destruct (A2 Us) as [y Ey]. injection Ey as <- ->. split; [intros _; eexists; reflexivity|]. intros N. destruct N. repeat constructor; assumption.
        * specialize (B2 Us). injection B2 as -> ->. split; [intros F; inversion F as [|? ? _ F2]; inversion F2; contradiction|]. intros _. eexists. split; [reflexivity|]. exact K3.
      + specialize (B1 Uf). injection B1 as -> ->. split; [intros F; inversion F; contradiction|]. intros _. eexists. split; [reflexivity|]. split; [|split]; reflexivity.
    - destruct (setink c f) as [c1 r1] eqn:S1. pose proof (setink_ok c f) as [A1 B1]. rewrite S1 in *. destruct (usable_dec f) as [Uf|Uf].
      + destruct (A1 Uf) as [x Ex]. injection Ex as <- ->. split; [intros _; eexists; reflexivity|]. intros N. destruct N. repeat constructor; assumption.
      + specialize (B1 Uf). injection B1 as -> ->. split; [intros F; inversion F; contradiction|]. intros _. eexists. split; [reflexivity|]. split; [|split]; reflexivity.
    - destruct (setink c s) as [c1 r1] eqn:S1. pose proof (setink_ok c s) as [A1 B1]. rewrite S1 in *. destruct (usable_dec s) as [Uf|Uf].
      + destruct (A1 Uf) as [x Ex]. injection Ex as <- ->. split; [intros _; eexists; reflexivity|]. intros N. destruct N. repeat constructor; assumption.
      + specialize (B1 Uf). injection B1 as -> ->. split; [intros F; inversion F; contradiction|]. intros _. eexists. split; [reflexivity|]. split; [|split]; reflexivity.
    - split; [intros _; eexists; reflexivity|]. intros N. destruct N. constructor.
  Qed.
  Lemma api_calls h (c : canvas T) o : 
    (accepts o -> exists c', perform h c o = (after_op h o, (c', Ok tt))) /\
    (~ accepts o -> exists c' e, perform h c o = (h, (c', Err e)) /\ complaint o e /\ cv_bbox c' = cv_bbox c /\ cv_deps c' = cv_deps c /\ cv_bg c' = cv_bg c /\ (checked_first o -> c' = c)).
  Proof.
    destruct o as [v|r gr b|i|w|d off|[x y] r f s|l s|l f s|l r f s|[px py] s z fo an|da w p z col| |d l]; cbn [perform accepts after_op complaint checked_first];
      try (split; [intros _; eexists; reflexivity|tauto]).
    - pose proof (setink_ok c i) as [A B]. split.
      + intros U. destruct (A U) as [c' ->]. eexists. reflexivity.
      + intros U. rewrite (B U). exists c, TypeError. auto 10.
    - unfold addcircle, and_then. set (c1 := emit c _). pose proof (paint_ok c1 f s) as [A B]. cbn [inks_of]. split.
      + intros U. destruct (A U) as [c' ->]. eexists. reflexivity.
      + intros U. destruct (B U) as (c' & -> & K1 & K2 & K3). exists c', TypeError. rewrite K1, K2, K3. repeat (split; [reflexivity|]). tauto.
    - destruct l as [|p l]; [split; [intros _; eexists; reflexivity|tauto]|]. cbn [addpolyline]. rewrite fold_emit. set (c1 := mkcv _ _ _ _ _). destruct s as [s|]; cbn [inks_of].
      + pose proof (setink_ok c1 s) as [A B]. split.
        * intros [Q|U]; [discriminate|]. inversion U as [|? ? U1 _]. destruct (A U1) as [c' ->]. eexists. reflexivity.
        * intros N. assert (U : ~ usable s) by (intros U; apply N; right; repeat constructor; exact U). rewrite (B U). exists c1, TypeError. repeat (split; [reflexivity|]). tauto.
      + split; [intros _; eexists; reflexivity|]. intros N. destruct N. right. constructor.
    - destruct l as [|p l]; [split; [intros _; eexists; reflexivity|tauto]|]. cbn [addpolygon]. rewrite fold_emit. set (c1 := emit (mkcv _ _ _ _ _) _). unfold and_then. cbn [inks_of]. pose proof (paint_ok c1 f s) as [A B]. split.
      + intros [Q|U]; [discriminate|]. destruct (A U) as [c' ->]. eexists. reflexivity.
      + intros N. assert (U : ~ Forall usable (match f with Some i => [i] | None => [] end ++ match s with Some i => [i] | None => [] end)) by (intros U; apply N; right; exact U).
        destruct (B U) as (c' & -> & K1 & K2 & K3). exists c', TypeError. rewrite K1, K2, K3. repeat (split; [reflexivity|]). tauto.
    - unfold addroundedpolygon. destruct l as [|[x1 y1] [|[x2 y2] rest]].
      + split; [cbn; lia|]. intros _. exists (emit c (tx "np")), ValueError. repeat (split; [reflexivity|]). tauto.
      + split; [cbn; lia|]. intros _. exists (emit c (tx "np")), ValueError. repeat (split; [reflexivity|]). tauto.
      + cbv zeta. cbn [inks_of length Nat.ltb Nat.leb]. unfold and_then.
        match goal with |- context [paint ?c0 f s] => set (c1 := c0) end.
        assert (K0 : keeps c c1).
        { unfold c1. match goal with |- context [fold_left ?f ?l ?c0] => assert (Fd : keeps c (fold_left f l c0)) end.
          { match goal with |- keeps c (fold_left ?f ?l ?c0) => assert (Kc : keeps c c0) by (split; [|split]; reflexivity); revert Kc; generalize c0; generalize l end. clear.
            induction l as [|[[u1 v1] [u2 v2]] l IH]; intros c3 Kc; [exact Kc|]. cbn [fold_left]. apply IH. exact Kc. }
          exact Fd. }
        pose proof (paint_ok c1 f s) as [A B]. split.
        * intros [_ U]. destruct (A U) as [c' ->]. cbn [bb_of_points]. eexists. reflexivity.
        * intros N. assert (U : ~ Forall usable (match f with Some i => [i] | None => [] end ++ match s with Some i => [i] | None => [] end)) by (intros U; apply N; split; [lia|exact U]).
          destruct (B U) as (c' & -> & K1 & K2 & K3). destruct K0 as (L1 & L2 & L3). exists c', TypeError. rewrite K1, K2, K3, L1, L2, L3. repeat (split; [reflexivity|]). tauto.
    - unfold addtext. fold ANCHORS. destruct (existsb (zlist_eqb an) ANCHORS) eqn:A; (split; [|]).
      + intros _. eexists. reflexivity.
      + intros N. destruct N. apply existsb_exists in A. destruct A as (b & I & Q). apply zlist_eqb_eq in Q. subst b. exact I.
      + intros I. assert (Tr : existsb (zlist_eqb an) ANCHORS = true) by (apply existsb_exists; exists an; split; [exact I|apply zlist_eqb_refl]). congruence.
      + intros _. exists c, AssertionError. auto 10.
    - unfold addimage. destruct ((if col then 3 * w else w) =? 0) eqn:Q.
      + assert (w = 0) by (destruct col; lia). split; [contradiction|]. intros _. exists c, ZeroDivisionError. auto 10.
      + split; [intros _|intros N; destruct N; destruct col; lia]. destruct p as [[x y]|]; eexists; reflexivity.
  Qed.
End VA.

(** ** Exact arithmetic *)
Open Scope R_scope.
Lemma text_anchored metric p s z f a : In a [text "c"; text "t"; text "tr"; text "r"; text "br"; text "b"; text "bl"; text "l"; text "tl"] ->
  anchored a (fst (metric f z s)) (snd (metric f z s)) p (text_pos metric p s z f a).
Proof.
  intros I. unfold text_pos. destruct p as [x y], (metric f z s) as [w h]. cbn [fst snd].
  repeat (destruct I as [<-|I]; [unfold anchored; cbn; split; lra|]). destruct I.
Qed.

Open Scope Z_scope.
(** ** Files of definitions *)
Lemma lines_of_line w : ~ In 10 w -> forall cur s, lines_of cur (w ++ [10] ++ s) = (rev cur ++ w ++ [10]) :: lines_of [] s.
Proof.
  induction w as [|c w IH]; intros N cur s.
  - cbn [app lines_of]. rewrite Z.eqb_refl. reflexivity.
  - cbn [app lines_of]. assert (c <> 10) by (intros ->; apply N; left; reflexivity). destruct (c =? 10) eqn:Q; [lia|].
    change (10 :: s) with ([10] ++ s). rewrite IH by (intros I; apply N; right; exact I). cbn [rev]. rewrite <- app_assoc. reflexivity.
Qed.
Lemma rstrip_some w : (exists c, In c w /\ is_space c = false) -> rstrip_by is_space w <> [].
Proof.
  induction w as [|x w IH]; intros (c & I & S); [destruct I|]. cbn [rstrip_by]. destruct I as [->|I].
  - destruct (rstrip_by is_space w); [rewrite S|]; discriminate.
  - destruct (rstrip_by is_space w) eqn:E; [destruct IH; eauto|discriminate].
Qed.
Lemma index_first k rest c : c <> 32 -> ~ In 32 k -> index_char 32 (c :: k ++ [32] ++ rest) = Ok (S (length k)).
Proof.
  intros Nc Nk. change ([32] ++ rest) with (32 :: rest). cbn [index_char]. destruct (c =? 32) eqn:Q; [lia|]. clear Q Nc. assert (G : index_char 32 (k ++ 32 :: rest) = Ok (length k)); [|rewrite G; reflexivity].
  induction k as [|x k IH]; [reflexivity|]. cbn [app index_char length]. assert (x <> 32) by (intros ->; apply Nk; left; reflexivity). destruct (x =? 32) eqn:Q; [lia|].
  rewrite IH by (intros I; apply Nk; right; exact I). reflexivity.
Qed.
Lemma blocks_skip ls : Forall nonblank ls -> forall src r, read_blocks src (lines_of [] (concat ls ++ r)) = read_blocks (src ++ concat ls) (lines_of [] r).
Proof.
  induction 1 as [|l ls (w & -> & N & Sp) _ IH]; intros src r; [cbn; rewrite app_nil_r; reflexivity|]. cbn [concat]. rewrite <- !app_assoc. rewrite lines_of_line by exact N.
  cbn [rev app read_blocks]. rewrite rstrip_app by (repeat constructor). destruct (rstrip_by is_space w) eqn:E; [destruct (rstrip_some w Sp E)|].
  rewrite IH. rewrite <- !app_assoc. reflexivity.
Qed.
Lemma rstrip_blank w : Forall (fun c => is_space c = true) w -> rstrip_by is_space (w ++ [10]) = [].
Proof. intros F. rewrite rstrip_app by (repeat constructor). induction F as [|c w Q _ IH]; [reflexivity|]. cbn [rstrip_by]. rewrite IH, Q. reflexivity. Qed.
Lemma api_read_defs (blocks : list (list Z * list (list Z) * list Z)) (tail : list (list Z)) :
  Forall (fun x => is_block (fst (fst x)) (snd (fst x)) /\ blank_line (snd x)) blocks -> Forall nonblank tail ->
  read_defs (flat_map (fun x => concat (snd (fst x)) ++ snd x) blocks ++ concat tail) =
    Ok (map (fun x => fst (fst x)) blocks, map (fun x => (fst (fst x), concat (snd (fst x)))) blocks).
Proof.
  intros F Nb. unfold read_defs. assert (G : read_blocks [] (lines_of [] (flat_map (fun x => concat (snd (fst x)) ++ snd x) blocks ++ concat tail)) = Ok (map (fun x => (fst (fst x), concat (snd (fst x)))) blocks)).
  { induction F as [|[[k ls] b] blocks Fb _ IH]; cbn [flat_map map fst snd] in *.
    - cbn [app]. rewrite <- (app_nil_r (concat tail)). rewrite (blocks_skip tail Nb). reflexivity.
    - destruct Fb as ((Fn & Nk & c & rest & more & El & Nc) & (w & Eb & Nw & Fw)). subst ls. subst b. rewrite <- !app_assoc. rewrite (blocks_skip _ Fn). rewrite (lines_of_line w Nw). cbn [rev app read_blocks]. rewrite (rstrip_blank w Fw).
      cbn [concat]. change ((c :: k ++ 32 :: rest) ++ concat more) with (c :: (k ++ 32 :: rest) ++ concat more). rewrite <- app_assoc.
      change (c :: k ++ (32 :: rest) ++ concat more) with (c :: k ++ [32] ++ (rest ++ concat more)). rewrite (index_first _ _ _ Nc Nk). cbn [bind].
      rewrite IH. cbn [rmap bind]. do 2 f_equal. f_equal. change 1 with (Z.of_nat 1). replace (Z.of_nat (S (length k))) with (Z.of_nat 1 + Z.of_nat (length k)) by lia. rewrite slice_nat. cbn [skipn].
      rewrite firstn_app, firstn_all, Nat.sub_diag. apply app_nil_r. }
  rewrite G. cbn [rmap bind]. rewrite map_map. reflexivity.
Qed.

(** ** The page *)
Open Scope R_scope.
Lemma nmax_R (a b : R) : nmax a b = Rmax a b.
Proof. unfold nmax. cbn [nlt NumR]. unfold Rmax. destruct (Rlt_bool_spec a b); destruct (Rle_dec a b); lra. Qed.
Lemma api_box bg h0 ops h c : history h0 (canvas_new bg) ops = Some (h, c) -> Forall solid ops ->
  ((forall o p, In o (since [] ops) -> ~ drawn o p) -> cv_bbox c = mkbb 0 0 0 0) /\
  ((exists o p, In o (since [] ops) /\ drawn o p) ->
     (forall o p, In o (since [] ops) -> drawn o p -> covers (cv_bbox c) p) /\ touches (since [] ops) (cv_bbox c) /\ bx0 (cv_bbox c) < bx1 (cv_bbox c) /\ by0 (cv_bbox c) < by1 (cv_bbox c)).
Proof.
  intros Hi So. assert (B : boxed (since [] ops) (cv_bbox c)).
  { eapply history_boxed; [exact Hi|exact So|]. left. split; [unfold canvas_new; destruct bg as [[|l|]|]; reflexivity|]. intros o p []. }
  destruct B as [[E N]|(Pr & Cv & To)]; split.
  - intros _. exact E.
  - intros (o & p & I & D). destruct (N o p I D).
  - intros N. destruct To as ((o & p & I & D & _) & _). destruct (N o p I D).
  - intros _. split; [exact Cv|]. split; [exact To|exact Pr].
Qed.
Lemma save_result (c : canvas R) size margin : good_bg (cv_bg c) ->
  match size with
  | None => exists file, save c None margin = Ok file
  | Some s => (Rmax (bb_width (cv_bbox c)) (bb_height (cv_bbox c)) = 0 -> save c size margin = Err ZeroDivisionError) /\
              (Rmax (bb_width (cv_bbox c)) (bb_height (cv_bbox c)) <> 0 -> exists file, save c size margin = Ok file)
  end.
Proof.
  intros G. unfold save, save_header. set (ks := filter _ KEYS).
  assert (Ik : incl ks KEYS) by (intros k I; apply filter_In in I; apply I).
  destruct size as [s|].
  - rewrite (mapM_defs ks Ik). cbn [bind]. rewrite nmax_R.
    unfold ndivE. cbn [Num.neq NumR nofZ]. destruct (bb_center (cv_bbox c)) as [cx cy].
    destruct (cv_bg c) as [[v|[|r [|gr [|b l]]]|]|]; try contradiction; cbn [bind];
      destruct (Req_bool_spec (Rmax (bb_width (cv_bbox c)) (bb_height (cv_bbox c))) 0) as [E|E]; cbn [bind]; (split; intros Q; try contradiction; try reflexivity; eexists; reflexivity).
  - rewrite (mapM_defs ks Ik). cbn [bind].
    destruct (cv_bg c) as [[v|[|r [|gr [|b l]]]|]|]; try contradiction; cbn [bind]; eexists; reflexivity.
Qed.
Lemma fit_page (b : bbox R) s m : bx0 b < bx1 b -> by0 b < by1 b ->
  let k := (s - m) / Rmax (bx1 b - bx0 b) (by1 b - by0 b) in
  forall p, at_ctm (page_ctm b (Some s) m) p = (s / 2 + k * (fst p - (bx0 b + bx1 b) / 2), s / 2 + k * (snd p - (by0 b + by1 b) / 2)).
Proof.
  intros A B k p. unfold page_ctm, fit_scale, bb_center. cbn [nadd nsub nmul ndiv nofZ NumR]. rewrite nmax_R. unfold bb_width, bb_height. cbn [nsub NumR]. fold k.
  unfold at_ctm. cbn [fst snd]. f_equal; field.
Qed.
Lemma fit_inside k lo hi s m x w : 0 <= k -> k * w = s - m -> hi - lo <= w -> lo <= x <= hi -> m / 2 <= s / 2 + k * (x - (lo + hi) / 2) <= s - m / 2.
Proof.
  intros K E W [L U]. assert (A : k * (x - (lo + hi) / 2) <= k * (w / 2)) by (apply Rmult_le_compat_l; lra).
  assert (B : k * ((lo + hi) / 2 - x) <= k * (w / 2)) by (apply Rmult_le_compat_l; lra). lra.
Qed.
Lemma api_fit metric advance bg h0 ops h c s m file :
  h0 O = [] -> history h0 (canvas_new bg) ops = Some (h, c) -> save c (Some s) m = Ok file -> Forall good_op ops -> lists_kept [O] ops ->
  Forall solid ops -> m <= s ->
  exists evs ctm, interpret metric advance file = Some (bg_event bg (cv_bbox c) (Some s) m ++ evs) /\
    Forall2 (fun e o => kind_of e (o_what o) /\ placed ctm e (o_what o)) evs (orders h0 (want_start bg) ops) /\
    (forall o p, In o (since [] ops) -> drawn o p -> in_page s m (at_ctm ctm p)) /\
    (exists k, 0 <= k /\ (m < s -> 0 < k) /\ forall p q, at_ctm ctm p = (fst (at_ctm ctm q) + k * (fst p - fst q), snd (at_ctm ctm q) + k * (snd p - snd q))) /\
    (forall b, (forall o p, In o (since [] ops) -> drawn o p -> covers b p) -> touches (since [] ops) b ->
       let lo := at_ctm ctm (bx0 b, by0 b) in let hi := at_ctm ctm (bx1 b, by1 b) in
       fst lo + fst hi = s /\ snd lo + snd hi = s /\ (fst lo = m / 2 /\ fst hi = s - m / 2 \/ snd lo = m / 2 /\ snd hi = s - m / 2)).
Proof.
  intros H0 Hi Sv Go Kp So Ms. destruct (api_place metric advance exact_R bg h0 ops h c (Some s) m file H0 Hi Sv Go Kp) as (evs & I & F).
  exists evs, (page_ctm (cv_bbox c) (Some s) m). split; [exact I|]. split; [eapply Forall2_weaken; [|exact F]; intros e o (A & B & _); auto|].
  destruct (api_box _ _ _ _ _ Hi So) as [Em Fu].
  assert (Bg : good_bg (cv_bg c)).
  { unfold save, save_header in Sv. destruct (mapM _ _) in Sv; [|discriminate]. cbn [bind] in Sv. destruct (cv_bg c) as [[v|[|r [|gr [|bb l]]]|]|]; try discriminate Sv; exact Logic.I. }
  pose proof (save_result c (Some s) m Bg) as [Sz _].
  assert (Nz : Rmax (bb_width (cv_bbox c)) (bb_height (cv_bbox c)) <> 0) by (intros Q; rewrite (Sz Q) in Sv; discriminate).
  assert (Bx : boxed (since [] ops) (cv_bbox c)).
  { eapply history_boxed; [exact Hi|exact So|]. left. split; [unfold canvas_new; destruct bg as [[|l|]|]; reflexivity|]. intros o p []. }
  destruct Bx as [[E _]|((P1 & P2) & Cv & To)].
  { exfalso. apply Nz. rewrite E. unfold bb_width, bb_height. cbn [bb_empty bx0 bx1 by0 by1 nsub nofZ NumR]. rewrite Rmax_left; lra. }
  set (b := cv_bbox c) in *. pose proof (fit_page b s m P1 P2) as Ft. cbv zeta in Ft. set (w := Rmax (bx1 b - bx0 b) (by1 b - by0 b)) in *. set (k := (s - m) / w) in *.
  assert (Wx : bx1 b - bx0 b <= w) by apply Rmax_l. assert (Wy : by1 b - by0 b <= w) by apply Rmax_r. assert (Wp : 0 < w) by lra.
  assert (Kw : k * w = s - m) by (unfold k; field; lra). assert (Kp' : 0 <= k) by (unfold k; apply Rmult_le_pos; [lra|apply Rlt_le, Rinv_0_lt_compat; lra]).
  split; [|split].
  - intros o p Io D. destruct (Cv o p Io D) as [C1 C2]. rewrite Ft. unfold in_page. cbn [fst snd]. split; eapply fit_inside with (w := w); eassumption.
  - exists k. split; [exact Kp'|]. split; [intros L; unfold k; apply Rmult_lt_0_compat; [lra|apply Rinv_0_lt_compat; lra]|]. intros p q. rewrite !Ft. cbn [fst snd]. f_equal; ring.
  - intros b' Cv' To'. assert (Eb : b' = b).
    { destruct To as ((o1 & p1 & I1 & D1 & E1) & (o2 & p2 & I2 & D2 & E2) & (o3 & p3 & I3 & D3 & E3) & (o4 & p4 & I4 & D4 & E4)).
      destruct To' as ((o5 & p5 & I5 & D5 & E5) & (o6 & p6 & I6 & D6 & E6) & (o7 & p7 & I7 & D7 & E7) & (o8 & p8 & I8 & D8 & E8)).
      destruct (Cv' _ _ I1 D1), (Cv' _ _ I2 D2), (Cv' _ _ I3 D3), (Cv' _ _ I4 D4), (Cv _ _ I5 D5), (Cv _ _ I6 D6), (Cv _ _ I7 D7), (Cv _ _ I8 D8).
      assert (Ex : forall u v : bbox R, bx0 u = bx0 v -> by0 u = by0 v -> bx1 u = bx1 v -> by1 u = by1 v -> u = v) by (intros [? ? ? ?] [? ? ? ?]; cbn; intros; f_equal; assumption).
      clearbody b. apply Ex; lra. }
    subst b'. rewrite !Ft. cbn [fst snd]. split; [field|]. split; [field|].
    assert (Mx : w = bx1 b - bx0 b \/ w = by1 b - by0 b) by (unfold w, Rmax; destruct (Rle_dec _ _); auto).
    destruct Mx as [Q|Q]; [left|right]; rewrite Q in Kw; lra.
Qed.
Lemma hist_bg h0 (c0 : canvas R) ops h c : history h0 c0 ops = Some (h, c) -> cv_bg c = cv_bg c0.
Proof.
  exact (history_bg (fun _ _ _ => (0, 0)) (fun _ _ _ => (0, 0)) exact_R (@common R) [] env_common plain_ctm True True true ops h0 c0 h c).
Qed.
Lemma api_fit_empty bg h0 ops h (c : canvas R) s m : history h0 (canvas_new bg) ops = Some (h, c) -> Forall solid ops -> good_bg bg ->
  ((forall o p, In o (since [] ops) -> ~ drawn o p) -> save c (Some s) m = Err ZeroDivisionError) /\
  ((exists o p, In o (since [] ops) /\ drawn o p) -> exists file, save c (Some s) m = Ok file) /\
  (exists file, save c None m = Ok file).
Proof.
  intros Hi So Gb. destruct (api_box _ _ _ _ _ Hi So) as [Em Fu].
  assert (Hb : cv_bg c = bg). { rewrite (hist_bg _ _ _ _ _ Hi). reflexivity. }
  rewrite <- Hb in Gb. pose proof (save_result c (Some s) m Gb) as [A B]. pose proof (save_result c None m Gb) as D. split; [|split; [|exact D]].
  - intros N. apply A. rewrite (Em N). unfold bb_width, bb_height. cbn [bx0 bx1 by0 by1 nsub NumR]. rewrite Rmax_left; lra.
  - intros N. destruct (Fu N) as (_ & _ & P1 & P2). apply B. unfold bb_width, bb_height. cbn [nsub NumR]. pose proof (Rmax_l (bx1 (cv_bbox c) - bx0 (cv_bbox c)) (by1 (cv_bbox c) - by0 (cv_bbox c))). lra.
Qed.
(** ** Texts *)
Lemma api_text metric advance bg h0 ops h c size m file :
  h0 O = [] -> history h0 (canvas_new bg) ops = Some (h, c) -> save c size m = Ok file -> Forall good_op ops -> lists_kept [O] ops ->
  exists evs, interpret metric advance file = Some (bg_event bg (cv_bbox c) size m ++ evs) /\
    Forall2 (fun e o => match o_what o with
                        | WText p s f z a => e_kind e = EText s f z /\ exists q, shown_at e q /\ anchored a (fst (metric f z s)) (snd (metric f z s)) p q
                        | _ => True
                        end) evs (orders h0 (want_start bg) ops).
Proof.
  intros H0 Hi Sv Go Kp. destruct (api_place metric advance exact_R bg h0 ops h c size m file H0 Hi Sv Go Kp) as (evs & I & F). exists evs. split; [exact I|].
  assert (An : Forall (fun o => match o_what o with WText p s f z a => In a [text "c"; text "t"; text "tr"; text "r"; text "br"; text "b"; text "bl"; text "l"; text "tl"] | _ => True end) (orders h0 (want_start bg) ops)).
  { clear - Hi. revert Hi. generalize (want_start bg), (canvas_new bg), h0. induction ops as [|o r IH]; intros q c0 hh Hi; [constructor|].
    destruct (history_cons _ _ _ _ _ Hi) as (h1 & c1 & P1 & Q1). cbn [orders]. apply Forall_app. split.
    - destruct o as [v|rr gr b|i|w|d off|[x y] rr f s|[|p l] s|[|p l] f s|l rr f s|p s z fo an|da w p z col| |d l]; cbn [asks fst]; try (apply Forall_nil);
        try (unfold shape; destruct f, s; repeat constructor); try (constructor; [exact Logic.I|constructor]).
      constructor; [|constructor]. cbn [order_of o_what]. destruct (api_calls hh c0 (OText p s z fo an)) as [_ N].
      cbn [accepts] in N. cbn [perform] in P1. unfold addtext in P1. destruct (existsb (zlist_eqb an) ANCHORS) eqn:A; [|discriminate].
      apply existsb_exists in A. destruct A as (b & Ib & Qb). apply zlist_eqb_eq in Qb. subst b. exact Ib.
    - assert (Eh : h1 = after_op hh o) by (destruct o; cbn [perform after_op] in *; try (injection P1 as <- _; reflexivity); try (injection P1 as <-; reflexivity)).
      rewrite <- Eh. eapply IH. exact Q1. }
  clear - F An. induction F as [|e o evs os (K & _ & Tx) F IH]; [constructor|]. inversion An as [|? ? A1 A2]; subst. constructor; [|apply IH; exact A2].
  destruct (o_what o); try exact Logic.I. cbn [kind_of text_ok] in *. split; [exact K|]. destruct Tx as (l & El). eexists. split; [exists l; exact El|]. apply text_anchored. exact A1.
Qed.

Open Scope Z_scope.
(** ** Rows of images *)
Fixpoint zrows (n : nat) (cw : Z) (data : list Z) (a : Z) : list (list Z) :=
  match n with O => [] | S m => flat_map fmt02x (py_slice data a (a + cw)) :: zrows m cw data (a + cw) end.
Lemma image_zrows {T} n cw data a : @image_rows T n cw data a = map (map C) (zrows n cw data a).
Proof. revert a. induction n as [|n IH]; intros a; [reflexivity|]. cbn [image_rows zrows map]. rewrite IH. reflexivity. Qed.
Lemma hex_row l : Forall is_byte l -> hex_digits (flat_map fmt02x l) l /\ length (flat_map fmt02x l) = (2 * length l)%nat.
Proof.
  induction 1 as [|v l B F [IH1 IH2]]; [split; [constructor|reflexivity]|]. cbn [flat_map]. rewrite (fmt02x_byte v B). unfold is_byte in B.
  assert (D1 : 0 <= v / 16 < 16) by (split; [apply Z.div_pos; lia|apply Z.div_lt_upper_bound; lia]). assert (D2 : 0 <= v mod 16 < 16) by (apply Z.mod_pos_bound; lia).
  destruct (hexdigit_ok _ D1) as (_ & _ & V1). destruct (hexdigit_ok _ D2) as (_ & _ & V2). split.
  - cbn [app]. replace v with (16 * (v / 16) + v mod 16) at 3 by (pose proof (Z.div_mod v 16); lia). constructor; assumption.
  - cbn [app length]. rewrite IH2. lia.
Qed.
Lemma hex_app a b c d : hex_digits a b -> hex_digits c d -> hex_digits (a ++ c) (b ++ d).
Proof. induction 1; intros K; [exact K|]. cbn [app]. constructor; auto. Qed.
Lemma zrows_ok data cw : Forall is_byte data -> forall n a, (a + n * cw <= length data)%nat ->
  let rows := zrows n (Z.of_nat cw) data (Z.of_nat a) in
  length rows = n /\ Forall (fun r => length r = (2 * cw)%nat) rows /\ hex_digits (concat rows) (firstn (n * cw) (skipn a data)).
Proof.
  intros B. induction n as [|n IH]; intros a L; [repeat split; constructor|]. cbn [zrows]. cbn [Nat.mul] in L. rewrite slice_nat. rewrite <- Nat2Z.inj_add.
  assert (Bs : Forall is_byte (firstn cw (skipn a data))) by (apply Forall_firstn_l, Forall_skipn_l, B). destruct (hex_row _ Bs) as [H1 H2].
  destruct (IH (a + cw)%nat ltac:(lia)) as (I1 & I2 & I3). cbv zeta. split; [cbn [length]; f_equal; exact I1|]. split.
  - constructor; [|exact I2]. rewrite H2, firstn_length, skipn_length. lia.
  - cbn [concat Nat.mul]. rewrite firstn_add. apply hex_app; [exact H1|]. rewrite <- skipn_add. exact I3.
Qed.
Lemma fold_lines {T} (rows : list (list (ch T))) (c : canvas T) : cv_lines (fold_left emit rows c) = cv_lines c ++ rows.
Proof. revert c. induction rows as [|r rows IH]; intros c; [cbn; rewrite app_nil_r; reflexivity|]. cbn [fold_left]. rewrite IH. cbn [emit cv_lines]. rewrite <- app_assoc. reflexivity. Qed.
Lemma api_rows {T : Type} {Nm : PyNum T} (c : canvas T) data width pos scale (color : bool) : 0 < width -> Forall is_byte data ->
  let cw := if color then 3 * width else width in
  exists c' pre rows post, addimage c data width pos scale color = (c', Ok tt) /\ cv_lines c' = cv_lines c ++ pre ++ map (map C) rows ++ post /\
    length rows = Z.to_nat (Z.of_nat (length data) / cw) /\ Forall (fun r => length r = Z.to_nat (2 * cw)) rows /\
    hex_digits (concat rows) (firstn (Z.to_nat (cw * (Z.of_nat (length data) / cw))) data).
Proof.
  intros W B cw. assert (Pc : 0 < cw) by (unfold cw; destruct color; lia). set (ht := Z.of_nat (length data) / cw).
  assert (Hh : 0 <= ht) by (apply Z.div_pos; lia). assert (Hm : cw * ht <= Z.of_nat (length data)) by (apply Z.mul_div_le; lia).
  destruct (zrows_ok data (Z.to_nat cw) B (Z.to_nat ht) O) as (Z1 & Z2 & Z3); [cbn; nia|]. rewrite Z2Nat.id in Z1, Z2, Z3 by lia. change (Z.of_nat 0) with 0 in *. cbn [skipn] in Z3.
  unfold addimage. fold cw. destruct (cw =? 0) eqn:Q; [lia|]. fold ht. rewrite (image_zrows (T := T)). set (rows := zrows (Z.to_nat ht) cw data 0) in *.
  assert (Fin : Forall (fun r => length r = Z.to_nat (2 * cw)) rows /\ hex_digits (concat rows) (firstn (Z.to_nat (cw * ht)) data)).
  { split; [eapply Forall_impl; [|exact Z2]; cbn; intros r ->; lia|]. replace (Z.to_nat (cw * ht)) with (Z.to_nat ht * Z.to_nat cw)%nat by nia. exact Z3. }
  destruct pos as [[x y]|].
  - eexists. match goal with |- context [fold_left emit _ ?c0] => set (c1 := c0) end.
    exists [tx "gs"; [VectorModel.N x] ++ sp ++ [VectorModel.N y] ++ tx " translate"; [VectorModel.N (nmul (nofZ width) scale)] ++ sp ++ [VectorModel.N (nmul (nofZ ht) scale)] ++ tx " scale";
            [VectorModel.N (nofZ width)] ++ sp ++ [VectorModel.N (nofZ ht)] ++ tx " 8 [" ++ [VectorModel.N (nofZ width)] ++ tx " 0 0 " ++ [VectorModel.N (nofZ (- ht))] ++ tx " 0 " ++ [VectorModel.N (nofZ ht)] ++ tx "]"; tx "{<"], rows, [tx ">}"; if color then tx "false 3 colorimage" else tx "image"; tx "gr"].
    split; [reflexivity|]. split; [|split; [exact Z1|exact Fin]]. cbn [grow emit cv_lines]. rewrite fold_lines. unfold c1. cbn [emit cv_lines]. rewrite <- !app_assoc. reflexivity.
  - eexists. match goal with |- context [fold_left emit _ ?c0] => set (c1 := c0) end.
    exists [tx "gs"; [VectorModel.N (nmul (nofZ width) scale)] ++ sp ++ [VectorModel.N (nmul (nofZ ht) scale)] ++ tx " scale";
            [VectorModel.N (nofZ width)] ++ sp ++ [VectorModel.N (nofZ ht)] ++ tx " 8 [" ++ [VectorModel.N (nofZ width)] ++ tx " 0 0 " ++ [VectorModel.N (nofZ (- ht))] ++ tx " 0 " ++ [VectorModel.N (nofZ ht)] ++ tx "]"; tx "{<"], rows, [tx ">}"; if color then tx "false 3 colorimage" else tx "image"; tx "gr"].
    split; [reflexivity|]. split; [|split; [exact Z1|exact Fin]]. cbn [grow emit cv_lines]. rewrite fold_lines. unfold c1. cbn [emit cv_lines]. rewrite <- !app_assoc. reflexivity.
Qed.
