(** Saving a canvas and interpreting the file. *)
From Verif Require Import Num BBoxModel StrModel Text VectorModel PsSpec PsProofs VectorSpec PsText PsImage PsHead VectorProofs.
Open Scope Z_scope.

Section VS.
  Context {T : Type} `{PyNum T}.
  Variable metric : list Z -> T -> list Z -> T * T.
  Variable advance : list Z -> T -> list Z -> T * T.
  Hypothesis X : exact_eq T.
  Notation runs := (runs metric advance).
  Notation line := (list (ch T)) (only parsing).

  (** The transformation set by save *)
  Definition fit_scale (b : bbox T) (s margin : T) : T := ndiv (nsub s margin) (nmax (bb_width b) (bb_height b)).
  Definition page_ctm (b : bbox T) (size : option T) (margin : T) : (T * T) * (T * T) :=
    match size with
    | None => plain_ctm
    | Some s =>
        let k := nmul (nofZ 1) (fit_scale b s margin) in
        let t := nadd (nmul (nofZ 1) (ndiv s (nofZ 2))) (nofZ 0) in
        let '(cx, cy) := bb_center b in
        ((k, k), (nadd (nmul k (nsub (nofZ 0) cx)) t, nadd (nmul k (nsub (nofZ 0) cy)) t))
    end.

  Lemma header_ok c size margin pre : save_header c size margin = Ok pre ->
    exists D, env D (cv_deps c) /\
      runs pre ps_init (mkps [] D (set_ctm (match bg_ink (cv_bg c) with
                                            | Some k => let '(x0, y0, x1, y1) := page (cv_bbox c) size margin in
                                                        newpath (set_ink (set_path gs_init (rect x0 y0 x1 y1) (Some (x0, y0)) (x0, y0)) k)
                                            | None => gs_init end) (page_ctm (cv_bbox c) size margin)) []
        (bg_event (cv_bg c) (cv_bbox c) size margin) None).
  Proof.
    unfold save_header. intros Q.
    assert (Pg : match size with
        | Some s => (nofZ 0, nofZ 0, s, s)
        | None => (nsub (bx0 (cv_bbox c)) margin, nsub (by0 (cv_bbox c)) margin, nadd (bx1 (cv_bbox c)) margin, nadd (by1 (cv_bbox c)) margin) end = page (cv_bbox c) size margin)
      by (destruct size; reflexivity).
    rewrite Pg in Q. destruct (page (cv_bbox c) size margin) as [[[x0 y0] x1] y1] eqn:Pe.
    set (ks := filter (fun k => existsb (zlist_eqb k) (cv_deps c)) KEYS) in Q.
    assert (Kk : KEYS = keys) by (vm_compute; reflexivity).
    destruct (run_defs metric advance ks) with (D := @common T) (deps := @nil (list Z)) (stk := @nil (obj T)) (g := @gs_init T _) (sv := @nil (gstate T)) (ev := @nil (event T)) as (dl & D & Mq & En & Rd).
    { intros k I. apply filter_In in I. rewrite <- Kk. apply I. }
    { apply env_common. }
    cbn [app] in En. rewrite Mq in Q. cbn [bind] in Q.
    assert (E : env D (cv_deps c)).
    { intros w W. apply En. apply orb_true_iff in W. apply orb_true_iff. destruct W as [W|W]; [left; exact W|].
      destruct (has w keys) eqn:Kw; [right|left; reflexivity]. unfold has, ks. apply existsb_exists in Kw. destruct Kw as (k & I & Qk). apply existsb_exists. exists k. split; [|exact Qk].
      apply filter_In. rewrite Kk. split; [exact I|]. apply zlist_eqb_eq in Qk. subst k. exact W. }
    exists D. split; [exact E|].
    set (g1 := match bg_ink (cv_bg c) with Some k => newpath (set_ink (set_path gs_init (rect x0 y0 x1 y1) (Some (x0, y0)) (x0, y0)) k) | None => gs_init end).
    assert (Bg : exists bl, match cv_bg c with
          | None => Ok []
          | Some i =>
              col <- match i with
                     | ITuple (r :: g :: b :: _) => Ok ([N r] ++ sp ++ [N g] ++ sp ++ [N b] ++ tx " rgb f")
                     | ITuple _ => Err IndexError
                     | IGray v => Ok ([N v] ++ tx " v f")
                     | IOther => Err TypeError
                     end ;;
              Ok [tx "np " ++ [N x0] ++ sp ++ [N y0] ++ tx " m " ++ [N x1] ++ sp ++ [N y0] ++ tx " l " ++ [N x1] ++ sp ++ [N y1] ++ tx " l "
                  ++ [N x0] ++ sp ++ [N y1] ++ tx " l cp"; col]
          end = Ok bl /\ runs bl (mkps [] D gs_init [] [] None) (mkps [] D g1 [] (bg_event (cv_bg c) (cv_bbox c) size margin) None)).
    { unfold g1, bg_event. destruct (cv_bg c) as [[v|[|r [|gr [|b l]]]|]|]; try discriminate Q; cbn [bg_ink bind].
      - eexists. split; [reflexivity|]. rewrite Pe. eapply (runs_app _ _ [_] [_]); [eapply run_rect; exact E|exact (run_vf metric advance D _ E [] (set_path gs_init (rect x0 y0 x1 y1) (Some (x0, y0)) (x0, y0)) [] [] v)].
      - eexists. split; [reflexivity|]. rewrite Pe. eapply (runs_app _ _ [_] [_]); [eapply run_rect; exact E|exact (run_rgbf metric advance D _ E [] (set_path gs_init (rect x0 y0 x1 y1) (Some (x0, y0)) (x0, y0)) [] [] r gr b)].
      - exists []. split; [reflexivity|]. apply runs_nil. }
    destruct Bg as (bl & Bq & Rb). rewrite Bq in Q. cbn [bind] in Q. clear Bq.
    assert (Ft : exists fl, match size with
           | None => Ok []
           | Some s =>
               scl <- ndivE (nsub s margin) (nmax (bb_width (cv_bbox c)) (bb_height (cv_bbox c))) ;;
               let '(cx, cy) := bb_center (cv_bbox c) in
               Ok [[N (ndiv s (nofZ 2))] ++ sp ++ [N (ndiv s (nofZ 2))] ++ tx " translate";
                   [N scl] ++ sp ++ [N scl] ++ tx " scale";
                   [N (nsub (nofZ 0) cx)] ++ sp ++ [N (nsub (nofZ 0) cy)] ++ tx " translate"]
           end = Ok fl /\ runs fl (mkps [] D g1 [] (bg_event (cv_bg c) (cv_bbox c) size margin) None)
                            (mkps [] D (set_ctm g1 (page_ctm (cv_bbox c) size margin)) [] (bg_event (cv_bg c) (cv_bbox c) size margin) None)).
    { assert (G1 : g_ctm g1 = plain_ctm) by (unfold g1; destruct (bg_ink (cv_bg c)); reflexivity).
      clearbody g1. destruct size as [s|].
      - unfold page_ctm, fit_scale. unfold ndivE in Q |- *. destruct (neq (nmax _ _) (nofZ 0)); [discriminate|]. cbn [bind] in *. destruct (bb_center (cv_bbox c)) as [cx cy]. eexists. split; [reflexivity|].
        eapply (runs_app _ _ [_] [_; _]); [eapply run_translate; exact E|]. eapply (runs_app _ _ [_] [_]); [eapply run_scale; exact E|].
        match goal with |- runs _ (mkps _ _ ?ga _ _ _) (mkps _ _ ?gb _ _ _) => pose proof (run_translate metric advance D (cv_deps c) E [] ga [] (bg_event (cv_bg c) (cv_bbox c) (Some s) margin) (nsub (nofZ 0) cx) (nsub (nofZ 0) cy)) as R end.
        cbn [set_ctm g_ctm fst snd] in R |- *. rewrite G1 in R |- *. exact R.
      - exists []. split; [reflexivity|]. unfold page_ctm. rewrite <- G1. destruct g1. apply runs_nil. }
    destruct Ft as (fl & Fq & Rf). rewrite Fq in Q. cbn [bind] in Q. apply (f_equal (fun r => match r with Ok v => v | Err _ => [] end)) in Q. cbv beta iota in Q. rewrite <- Q. clear Q.
    change ([tx "%!PS-Adobe-3.0 EPSF-3.0"; tx "%%BoundingBox: " ++ [N x0] ++ sp ++ [N y0] ++ sp ++ [N x1] ++ sp ++ [N y1]; map C COMMONDEF; tx "1 setlinejoin"] ++ dl ++ bl ++ fl ++ [[]])
      with ([tx "%!PS-Adobe-3.0 EPSF-3.0"] ++ [tx "%%BoundingBox: " ++ [N x0] ++ sp ++ [N y0] ++ sp ++ [N x1] ++ sp ++ [N y1]] ++ [map (@C T) COMMONDEF] ++ [tx "1 setlinejoin"] ++ dl ++ bl ++ fl ++ [[]]).
    eapply runs_app; [apply run_magic|]. eapply runs_app; [apply run_bbline|]. eapply runs_app; [apply run_common|].
    eapply runs_app; [eapply run_join; apply env_common|]. eapply runs_app; [exact Rd|]. eapply runs_app; [exact Rb|]. eapply runs_app; [exact Rf|]. apply run_blank.
  Qed.

  (** Conditions on the inks *)
  Definition inks_all (bg : option (ink T)) (l : list (op T)) : list (ink T) := match bg with Some i => [i] | None => [] end ++ flat_map inks_of l.
  Definition family (fam : bool) (bg : option (ink T)) (l : list (op T)) : Prop := if fam then all_gray (inks_all bg l) else all_rgb (inks_all bg l).
  Theorem saved_paints fam bg h0 ops h c size margin file :
    h0 O = [] -> history h0 (canvas_new bg) ops = Some (h, c) -> save c size margin = Ok file -> Forall good_op ops -> lists_kept [O] ops ->
    exists evs, interpret metric advance file = Some (bg_event bg (cv_bbox c) size margin ++ evs) /\
      Forall2 (rel metric (page_ctm (cv_bbox c) size margin) (family fam bg ops /\ Forall two_inks ops) (circles_apart false ops)) evs (orders h0 (want_start bg) ops).
  Proof.
    intros H0 Hi Sv Go Kp. unfold save in Sv. destruct (save_header c size margin) as [pre|e] eqn:Hd; [|discriminate]. injection Sv as <-.
    destruct (header_ok _ _ _ _ Hd) as (D & E & Rp).
    assert (Hbg : cv_bg c = bg) by exact (history_bg metric advance X D (cv_deps c) E plain_ctm True True true _ _ _ _ _ Hi). rewrite Hbg in Rp.
    set (Ii := family fam bg ops /\ Forall two_inks ops). set (Pp := circles_apart false ops). set (ctm := page_ctm (cv_bbox c) size margin) in *.
    set (g0 := set_ctm _ ctm) in Rp.
    assert (Main : (Ii -> (forall o i, In o ops -> In i (inks_of o) -> in_fam fam i) /\ Forall two_inks ops /\ in_sync fam (canvas_new bg) (want_start bg) g0) ->
      exists ls, cv_lines c = cv_lines (canvas_new bg) ++ ls /\ exists stk' g' evs, runs ls (mkps [] D g0 [] (bg_event bg (cv_bbox c) size margin) None) (mkps stk' D g' [] (bg_event bg (cv_bbox c) size margin ++ evs) None) /\
        Forall2 (rel metric ctm Ii Pp) evs (orders h0 (want_start bg) ops)).
    { intros Hf. destruct (run_history metric advance X D (cv_deps c) E ctm Ii Pp fam ops [O] false h0 (canvas_new bg) (want_start bg) h c Hi Go Kp) as (ls & L & Xr).
      { intros Hh. destruct (Hf Hh) as (A & B & _). split; assumption. }
      { auto. }
      { auto. }
      exists ls. split; [exact L|]. apply Xr. constructor.
      - unfold g0, agree. split; [|split; [|reflexivity]]; unfold want_start; destruct (bg_ink bg); try reflexivity; destruct (page _ _ _) as [[[? ?] ?] ?]; reflexivity.
      - unfold g0, canvas_new. destruct bg as [[v|l|]|]; cbn [bg_ink]; try reflexivity; [destruct (page _ _ _) as [[[? ?] ?] ?]; reflexivity|].
        destruct l as [|r [|gr [|b l]]]; try reflexivity; destruct (page _ _ _) as [[[? ?] ?] ?]; reflexivity.
      - assert (G : g_dash g0 = ([], nofZ 0)) by (unfold g0; destruct (bg_ink bg); [destruct (page _ _ _) as [[[? ?] ?] ?]|]; reflexivity). rewrite G.
        assert (Dd : cs_dash (cv_state (canvas_new bg)) = (O, nofZ 0)) by (unfold canvas_new; destruct bg as [[v|l|]|]; reflexivity). rewrite Dd. cbn [fst snd]. rewrite H0. reflexivity.
      - left. unfold canvas_new. destruct bg as [[v|l|]|]; reflexivity.
      - intros Hh. apply (Hf Hh).
      - intros _ _. unfold g0. destruct (bg_ink bg); [destruct (page _ _ _) as [[[? ?] ?] ?]|]; split; reflexivity. }
    assert (Fin : exists ls, cv_lines c = cv_lines (canvas_new bg) ++ ls /\ exists stk' g' evs, runs ls (mkps [] D g0 [] (bg_event bg (cv_bbox c) size margin) None) (mkps stk' D g' [] (bg_event bg (cv_bbox c) size margin ++ evs) None) /\
        Forall2 (rel metric ctm Ii Pp) evs (orders h0 (want_start bg) ops)).
    { assert (Gi : rgb (g_ink g0) = rgb (q_ink (want_start bg))).
      { unfold g0, want_start. destruct (bg_ink bg); [destruct (page _ _ _) as [[[? ?] ?] ?]|]; reflexivity. }
      assert (Sub : forall o i, In o ops -> In i (inks_of o) -> In i (match bg with Some i => [i] | None => [] end ++ flat_map inks_of ops)).
      { intros o i Io Ia. apply in_or_app. right. apply in_flat_map. exists o. auto. }
      apply Main. intros [Fm Tw]. split; [|split; [exact Tw|split; [|exact Gi]]].
      - intros o i Io Ia. unfold in_fam. unfold family in Fm. destruct fam; exact (Fm i (Sub o i Io Ia)).
      - unfold ink_inv. rewrite Gi. unfold family in Fm. destruct fam.
        + destruct bg as [i|]; [|reflexivity]. destruct (Fm i (or_introl eq_refl)) as [v ->]. reflexivity.
        + destruct bg as [i|]; [|exists (nofZ 0), (nofZ 0), (nofZ 0); split; reflexivity]. destruct (Fm i (or_introl eq_refl)) as (r & gr & b & ->). exists r, gr, b. split; reflexivity. }
    destruct Fin as (ls & L & stk' & g' & evs & R & F). exists evs. split; [|exact F].
    cbn [canvas_new cv_lines app] in L. rewrite L. destruct (runs_app _ _ _ _ _ _ _ Rp R) as (toks & S1 & E1). unfold interpret.
    unfold body in S1. rewrite S1, E1. reflexivity.
  Qed.
End VS.
