(** Running the first lines of a drawing: definitions, background, fit to
    page. *)
From Verif Require Import Num BBoxModel StrModel Text VectorModel PsSpec PsProofs VectorSpec PsText PsImage.
Open Scope Z_scope.

Section PsH.
  Context {T : Type} `{PyNum T}.
  Variable metric : list Z -> T -> list Z -> T * T.
  Variable advance : list Z -> T -> list Z -> T * T.
  Notation exec := (exec metric advance).
  Notation runs := (runs metric advance).
  Notation line := (list (ch T)) (only parsing).

  Definition plain (t : token T) : bool := match t with KOpenP | KCloseP | KBad => false | _ => true end.
  Lemma exec_inside d b : forallb plain b = true -> forall acc stk D g sv ev rest,
    exec d (b ++ rest) (mkps stk D g sv ev (Some (O, acc))) = exec d rest (mkps stk D g sv ev (Some (O, acc ++ b))).
  Proof.
    induction b as [|t b IH]; intros P acc stk D g sv ev rest; [rewrite app_nil_r; reflexivity|].
    cbn [forallb] in P. apply andb_prop in P. destruct P as [P1 P2]. cbn [app]. rewrite exec_cons.
    replace (acc ++ t :: b) with ((acc ++ [t]) ++ b) by (rewrite <- app_assoc; reflexivity). rewrite <- (IH P2).
    destruct t; try discriminate P1; reflexivity.
  Qed.
  Lemma exec_def D deps key b stk g sv ev : env D deps -> forallb plain b = true ->
    exec 3 (KLit key :: KOpenP :: b ++ [KCloseP; KName (text "bd")]) (mkps stk D g sv ev None) = Some (mkps stk ((key, b) :: D) g sv ev None).
  Proof.
    intros E P. rewrite exec_cons. cbn [exec1 p_proc]. rewrite exec_cons. cbn [exec1 p_proc push with_stack]. unfold push, with_stack. cbn [p_stack p_dict p_g p_saved p_events].
    rewrite exec_inside by exact P. cbn [app]. rewrite exec_cons. cbn [exec1 p_proc p_stack p_dict p_g p_saved p_events].
    words E. reflexivity.
  Qed.
  (** The definitions *)
  Definition proc_of (key : list Z) : list (token T) := match dict_get key full with Some b => b | None => [] end.
  Lemma run_def D deps key src stk g sv ev : env D deps -> In (key, src) DEFS ->
    runs [map C src] (mkps stk D g sv ev None) (mkps stk ((key, proc_of key) :: D) g sv ev None).
  Proof.
    intros E I.
    assert (A : Forall (fun kv => scan (@MTop T) (map C (snd kv) ++ [C 10]) = (@MTop T, KLit (fst kv) :: KOpenP :: proc_of (fst kv) ++ [KCloseP; KName (text "bd")])
      /\ forallb plain (proc_of (fst kv)) = true) DEFS).
    { let d := eval vm_compute in DEFS in change DEFS with d. repeat (apply Forall_cons; [split; vm_compute; reflexivity|]). apply Forall_nil. }
    rewrite Forall_forall in A. destruct (A _ I) as [S P]. cbn [fst snd] in S, P.
    eapply runs_tokens; [exact S|]. apply (exec_def D deps); assumption.
  Qed.
  Lemma env_def D deps key : In key keys -> env D deps -> env ((key, proc_of key) :: D) (deps ++ [key]).
  Proof.
    intros I E w Q. cbn [dict_get]. destruct (zlist_eqb w key) eqn:W.
    - apply zlist_eqb_eq in W. subst w. unfold proc_of.
      assert (A : Forall (fun k => exists b, dict_get k (@full T) = Some b) keys) by (repeat (apply Forall_cons; [eexists; reflexivity|]); apply Forall_nil).
      rewrite Forall_forall in A. destruct (A _ I) as [b ->]. reflexivity.
    - apply E. unfold has in Q |- *. rewrite existsb_app in Q. cbn [existsb] in Q. rewrite W, !orb_false_r in Q. exact Q.
  Qed.
  Lemma run_defs ks : incl ks keys -> forall D deps stk g sv ev, env D deps ->
    exists ls D', mapM (fun key => rmap (map C) (defs_get key DEFS)) ks = Ok ls /\ env D' (deps ++ ks) /\
      runs ls (mkps stk D g sv ev None) (mkps stk D' g sv ev None).
  Proof.
    induction ks as [|k ks IH]; intros I D deps stk g sv ev E.
    - exists [], D. rewrite app_nil_r. split; [reflexivity|]. split; [exact E|]. apply runs_nil.
    - assert (Ik : In k keys) by (apply I; left; reflexivity).
      assert (A : Forall (fun k => exists src, defs_get k DEFS = Ok src /\ In (k, src) DEFS) keys).
      { let d := eval vm_compute in DEFS in change DEFS with d. unfold keys. repeat (apply Forall_cons; [eexists; split; [reflexivity|cbn; tauto]|]). apply Forall_nil. }
      rewrite Forall_forall in A. destruct (A _ Ik) as (src & Q & Is).
      destruct (IH (fun x Ix => I x (or_intror Ix)) ((k, proc_of k) :: D) (deps ++ [k]) stk g sv ev (env_def _ _ _ Ik E)) as (ls & D' & M & E' & R).
      exists (map C src :: ls), D'. cbn [mapM]. rewrite Q. cbn [rmap bind]. rewrite M. split; [reflexivity|].
      split; [rewrite <- app_assoc in E'; exact E'|]. change (map C src :: ls) with ([map (@C T) src] ++ ls). eapply runs_app; [|exact R].
      eapply run_def; eassumption.
  Qed.
  Lemma env_common : env (@common T) [] .
  Proof.
    intros w Q. cbn [has existsb] in Q. rewrite orb_false_r in Q. apply negb_true_iff in Q. unfold has, keys in Q. cbn [existsb] in Q.
    repeat (apply orb_false_iff in Q; destruct Q as [? Q]). unfold full, common. cbn [dict_get]. 
    repeat match goal with Hz : zlist_eqb w _ = false |- _ => rewrite Hz; clear Hz end. reflexivity.
  Qed.
  Lemma run_common stk g sv ev : runs [map C COMMONDEF] (mkps stk [] g sv ev None) (mkps stk common g sv ev None).
  Proof. eapply runs_tokens; vm_compute; reflexivity. Qed.
  Lemma run_magic st : runs [tx "%!PS-Adobe-3.0 EPSF-3.0"] st st.
  Proof. eapply runs_tokens; [reflexivity|]. apply exec_nil. Qed.
  Lemma run_bbline st a b c d : runs [tx "%%BoundingBox: " ++ [N a] ++ sp ++ [N b] ++ sp ++ [N c] ++ sp ++ [N d]] st st.
  Proof. eapply runs_tokens; [reflexivity|]. apply exec_nil. Qed.

  Section Lines.
    Variables (D : list (list Z * list (token T))) (deps : list (list Z)).
    Hypothesis E : env D deps.
    Variables (stk : list (obj T)) (g : gstate T) (sv : list (gstate T)) (ev : list (event T)).
    Notation st := (mkps stk D g sv ev None).
    Definition rect (x0 y0 x1 y1 : T) : list (pelt T) := [PMove (x0, y0); PLine (x1, y0); PLine (x1, y1); PLine (x0, y1); PClose].
    Notation xw := (x_word metric advance D).
    Notation xp := (x_prim metric advance D deps E).
    Lemma x_1 d l w p st0 st1 : dict_get w (@full T) = Some [KName p] -> negb (has w keys) || has w deps = true -> (forall z, py_int w <> Ok z) ->
      dict_get p (@full T) = None -> negb (has p keys) || has p deps = true -> (forall z, py_int p <> Ok z) ->
      p_dict st0 = D -> p_proc st0 = None -> prim metric advance p st0 = Some st1 -> exec (S d) (KName w :: l) st0 = exec (S d) l st1.
    Proof.
      intros A B Cc A' B' C' D0 P0 R. destruct st0 as [s0 D1 g0 sv0 e0 p0]. cbn [p_dict p_proc] in D0, P0. subst D1 p0.
      rewrite (xw d l w [KName p]) by (rewrite ?(E _ B); assumption). rewrite (xp d [] p _ _ _ _ st1) by assumption. rewrite exec_nil. reflexivity.
    Qed.
    Ltac go := erewrite x_1; [|reflexivity|reflexivity|discriminate|reflexivity|reflexivity|discriminate|reflexivity|reflexivity|cbn -[nofZ]; cbv [with_stack with_g push paint_event p_stack p_dict p_g p_saved p_events p_proc]; reflexivity].
    Lemma run_rect x0 y0 x1 y1 :
      runs [tx "np " ++ [N x0] ++ sp ++ [N y0] ++ tx " m " ++ [N x1] ++ sp ++ [N y0] ++ tx " l " ++ [N x1] ++ sp ++ [N y1] ++ tx " l " ++ [N x0] ++ sp ++ [N y1] ++ tx " l cp"] st
        (mkps stk D (set_path g (rect x0 y0 x1 y1) (Some (x0, y0)) (x0, y0)) sv ev None).
    Proof.
      eapply runs_tokens; [vm_compute; reflexivity|]. go. rewrite !x_num. go. rewrite !x_num. go. rewrite !x_num. go. rewrite !x_num. go. go. rewrite exec_nil. reflexivity.
    Qed.
    Lemma run_vf v : runs [[N v] ++ tx " v f"] st
      (mkps stk D (newpath (set_ink g (PGray v))) sv (ev ++ [ev_of EFill (set_ink g (PGray v))]) None).
    Proof. eapply runs_tokens; [vm_compute; reflexivity|]. rewrite !x_num. go. go. rewrite exec_nil. reflexivity. Qed.
    Lemma run_rgbf r gr b : runs [[N r] ++ sp ++ [N gr] ++ sp ++ [N b] ++ tx " rgb f"] st
      (mkps stk D (newpath (set_ink g (PRGB r gr b))) sv (ev ++ [ev_of EFill (set_ink g (PRGB r gr b))]) None).
    Proof. eapply runs_tokens; [vm_compute; reflexivity|]. rewrite !x_num. go. go. rewrite exec_nil. reflexivity. Qed.
  End Lines.
End PsH.
