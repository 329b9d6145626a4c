(** Running lines of a drawing. *)
From Verif Require Import Num StrModel Text VectorModel PsSpec.
Open Scope Z_scope.

Section PsP.
  Context {T : Type} `{PyNum T}.
  Variable metric : list Z -> T -> list Z -> T * T.
  Variable advance : list Z -> T -> list Z -> T * T.
  Notation exec := (exec metric advance).
  Notation line := (list (ch T)) (only parsing).

  Lemma scan_app m (a b : line) : scan m (a ++ b) = let '(m1, t1) := scan m a in let '(m2, t2) := scan m1 b in (m2, t1 ++ t2).
  Proof.
    revert m. induction a as [|c a IH]; intros m; cbn [app scan].
    - destruct (scan m b). reflexivity.
    - destruct (scan1 m c) as [m1 t1]. rewrite IH. destruct (scan m1 a) as [m2 t2]. destruct (scan m2 b) as [m3 t3]. rewrite app_assoc. reflexivity.
  Qed.
  Lemma exec_cons d t l st : exec d (t :: l) st =
    match exec1 metric advance (match d with O => fun _ _ => None | S d => exec d end) t st with Some st => exec d l st | None => None end.
  Proof. destruct d; reflexivity. Qed.
  Lemma exec_nil d st : exec d [] st = Some st.
  Proof. destruct d; reflexivity. Qed.
  Lemma exec_app d a b st : exec d (a ++ b) st = match exec d a st with Some st1 => exec d b st1 | None => None end.
  Proof.
    revert st. induction a as [|t a IH]; intros st; [rewrite exec_nil; reflexivity|]. cbn [app]. rewrite !exec_cons.
    destruct (exec1 _ _ _ t st); [apply IH|reflexivity].
  Qed.

  Definition body (ls : list line) : line := flat_map (fun l => l ++ [C 10]) ls.
  Definition runs (ls : list line) (st st' : ps T) : Prop := exists toks, scan MTop (body ls) = (MTop, toks) /\ exec 3 toks st = Some st'.
  Lemma body_app a b : body (a ++ b) = body a ++ body b.
  Proof. apply flat_map_app. Qed.
  Lemma runs_app a b st st1 st2 : runs a st st1 -> runs b st1 st2 -> runs (a ++ b) st st2.
  Proof.
    intros (t1 & S1 & E1) (t2 & S2 & E2). exists (t1 ++ t2). rewrite body_app, scan_app, S1, S2. split; [reflexivity|]. rewrite exec_app, E1. exact E2.
  Qed.
  Lemma runs_nil st : runs [] st st.
  Proof. exists []. split; reflexivity. Qed.
  Lemma runs_tokens l toks st st' : scan MTop (l ++ [C 10]) = (MTop, toks) -> exec 3 toks st = Some st' -> runs [l] st st'.
  Proof. intros S E. exists toks. unfold body. cbn [flat_map]. rewrite app_nil_r. auto. Qed.

  (** ** Dictionaries *)
  Definition empty_g : gstate T := gs_init.
  Definition defining (s : list Z) (d : list (list Z * list (token T))) : list (list Z * list (token T)) :=
    match scan MTop (map C s ++ [C 10]) with
    | (MTop, l) => match exec 3 l (mkps [] d empty_g [] [] None) with Some st => p_dict st | None => [] end
    | _ => []
    end.
  Definition common : list (list Z * list (token T)) := Eval vm_compute in defining COMMONDEF [].
  Definition full : list (list Z * list (token T)) := Eval vm_compute in fold_left (fun d kv => defining (snd kv) d) DEFS common.

  (** D gives the common words, the text procedures in [deps] and nothing
      else. *)
  Definition has (w : list Z) (l : list (list Z)) : bool := existsb (zlist_eqb w) l.
  Definition keys : list (list Z) := Eval vm_compute in KEYS.
  Definition env (D : list (list Z * list (token T))) (deps : list (list Z)) : Prop :=
    forall w, negb (has w keys) || has w deps = true -> dict_get w D = dict_get w full.

  Ltac words E := repeat first [match goal with |- context [dict_get ?w ?D] => match type of E with env D _ => rewrite (E w eq_refl) end end | progress cbn -[nofZ nadd nsub nmul ndiv neq]].

  Section Lines.
    Variables (D : list (list Z * list (token T))) (deps : list (list Z)).
    Hypothesis E : env D deps.
    Variables (stk : list (obj T)) (g : gstate T) (sv : list (gstate T)) (ev : list (event T)).
    Notation st := (mkps stk D g sv ev None).
    Lemma run_v v : runs [[N v] ++ tx " v"] st (mkps stk D (set_ink g (PGray v)) sv ev None).
    Proof. eapply runs_tokens; [reflexivity|]. words E. reflexivity. Qed.
    Lemma run_rgb r gr b : runs [[N r] ++ sp ++ [N gr] ++ sp ++ [N b] ++ tx " rgb"] st (mkps stk D (set_ink g (PRGB r gr b)) sv ev None).
    Proof. eapply runs_tokens; [reflexivity|]. words E. reflexivity. Qed.
    Lemma run_w w : runs [[N w] ++ tx " w"] st (mkps stk D (set_width g w) sv ev None).
    Proof. eapply runs_tokens; [reflexivity|]. words E. reflexivity. Qed.
    Lemma run_np : runs [tx "np"] st (mkps stk D (newpath g) sv ev None).
    Proof. eapply runs_tokens; [reflexivity|]. words E. reflexivity. Qed.
    Lemma run_m p : runs [point_line p " m"] st (mkps stk D (moveto g p) sv ev None).
    Proof. destruct p. eapply runs_tokens; [reflexivity|]. words E. reflexivity. Qed.
    Lemma run_l p q : g_point g = Some q -> runs [point_line p " l"] st (mkps stk D (lineto g p) sv ev None).
    Proof. intros G. destruct p. eapply runs_tokens; [reflexivity|]. words E. rewrite G. reflexivity. Qed.
    Lemma run_cp q : g_point g = Some q -> runs [tx "cp"] st (mkps stk D (set_path g (g_path g ++ [PClose]) (Some (g_start g)) (g_start g)) sv ev None).
    Proof. intros G. eapply runs_tokens; [reflexivity|]. words E. rewrite G. reflexivity. Qed.
    Definition ev_of (k : kind T) (g : gstate T) : event T := mkev k (g_ink g) (g_width g) (g_dash g) (g_ctm g) (g_path g).
    Lemma run_f : runs [tx "f"] st (mkps stk D (newpath g) sv (ev ++ [ev_of EFill g]) None).
    Proof. eapply runs_tokens; [reflexivity|]. words E. reflexivity. Qed.
    Lemma run_s : runs [tx "s"] st (mkps stk D (newpath g) sv (ev ++ [ev_of EStroke g]) None).
    Proof. eapply runs_tokens; [reflexivity|]. words E. reflexivity. Qed.
    Lemma run_gs : runs [tx "gs"] st (mkps stk D g (g :: sv) ev None).
    Proof. eapply runs_tokens; [reflexivity|]. words E. reflexivity. Qed.
    Lemma run_gr g' : runs [tx "gr"] (mkps stk D g (g' :: sv) ev None) (mkps stk D g' sv ev None).
    Proof. eapply runs_tokens; [reflexivity|]. words E. reflexivity. Qed.
    Definition arc_start (g : gstate T) (p : T * T) : gstate T := match g_point g with None => moveto g p | Some _ => lineto g p end.
    Definition circle_path (g : gstate T) (x y r : T) : gstate T :=
      let g1 := arc_start g (nadd x r, y) in
      let g2 := set_path g1 (g_path g1 ++ [PArc (x, y) r (nofZ 0) (nofZ 360)]) (Some (nadd x r, y)) (g_start g1) in
      set_path g2 (g_path g2 ++ [PClose]) (Some (g_start g2)) (g_start g2).
    Lemma run_arc x y r : runs [[N x] ++ sp ++ [N y] ++ sp ++ [N r] ++ tx " 0 360 arc cp"] st (mkps stk D (circle_path g x y r) sv ev None).
    Proof. eapply runs_tokens; [reflexivity|]. words E. reflexivity. Qed.
    Lemma run_arcto x1 y1 x2 y2 r q : g_point g = Some q ->
      runs [[N x1] ++ sp ++ [N y1] ++ sp ++ [N x2] ++ sp ++ [N y2] ++ sp ++ [N r] ++ tx " arcto"] st
        (mkps (ONum y2 :: ONum x2 :: ONum y1 :: ONum x1 :: stk) D
           (set_path g (g_path g ++ [PArcto (x1, y1) (x2, y2) r]) (Some (x2, y2)) (g_start g)) sv ev None).
    Proof. intros G. eapply runs_tokens; [reflexivity|]. words E. rewrite G. reflexivity. Qed.
    Lemma run_translate x y : runs [[N x] ++ sp ++ [N y] ++ tx " translate"] st
      (mkps stk D (set_ctm g (fst (g_ctm g), (nadd (nmul (fst (fst (g_ctm g))) x) (fst (snd (g_ctm g))), nadd (nmul (snd (fst (g_ctm g))) y) (snd (snd (g_ctm g)))))) sv ev None).
    Proof. eapply runs_tokens; [reflexivity|]. words E. destruct (g_ctm g) as [[sx sy] [tx ty]]. reflexivity. Qed.
    Lemma run_scale x y : runs [[N x] ++ sp ++ [N y] ++ tx " scale"] st
      (mkps stk D (set_ctm g ((nmul (fst (fst (g_ctm g))) x, nmul (snd (fst (g_ctm g))) y), snd (g_ctm g))) sv ev None).
    Proof. eapply runs_tokens; [reflexivity|]. words E. destruct (g_ctm g) as [[sx sy] t]. reflexivity. Qed.
    Lemma run_join : runs [tx "1 setlinejoin"] st st.
    Proof. eapply runs_tokens; [reflexivity|]. words E. reflexivity. Qed.
    Lemma run_blank : runs [[]] st st.
    Proof. eapply runs_tokens; [reflexivity|]. reflexivity. Qed.

    (** Dash patterns *)
    Lemma scan_num_space x r : scan MTop (N x :: C 32 :: r) = let '(m, t) := scan MTop r in (m, @KNum T x :: t).
    Proof. cbn [scan scan1]. change (ps_regular 32) with false. cbv iota. change (after (@KNum T x) 32) with (@MTop T, [KNum x]). cbv iota. destruct (scan MTop r). reflexivity. Qed.
    Lemma scan_nums (l : list T) rest m toks : scan MTop (tx "] " ++ rest) = (m, toks) ->
      scan MTop (join_nums l ++ tx "] " ++ rest) = (m, map (@KNum T) l ++ toks).
    Proof.
      intros S. induction l as [|x [|y l] IH]; [exact S| |].
      - cbn [join_nums map app]. cbn in S |- *. destruct (scan MTop rest) as [m' t']. injection S as <- <-. reflexivity.
      - change (join_nums (x :: y :: l) ++ tx "] " ++ rest) with (N x :: C 32 :: (join_nums (y :: l) ++ tx "] " ++ rest)). rewrite scan_num_space, IH. reflexivity.
    Qed.
    Lemma exec_nums d (l : list T) stk' : forall rest, exec d (map (@KNum T) l ++ rest) (mkps stk' D g sv ev None) = exec d rest (mkps (rev (map (@ONum T) l) ++ stk') D g sv ev None).
    Proof.
      revert stk'. induction l as [|x l IH]; intros stk' rest; [reflexivity|]. cbn [map app]. rewrite exec_cons. cbn [exec1 p_proc]. unfold push, with_stack. cbn [p_stack p_dict p_g p_saved p_events p_proc].
      rewrite IH. cbn [rev]. rewrite <- app_assoc. reflexivity.
    Qed.
    Lemma to_mark_nums l acc r : to_mark (map (@ONum T) l ++ OMark :: r) acc = Some (rev l ++ acc, r).
    Proof. revert acc. induction l as [|x l IH]; intros acc; [reflexivity|]. cbn [map app to_mark]. rewrite IH. cbn [rev]. rewrite <- app_assoc. reflexivity. Qed.
    Lemma run_dash l off : runs [tx "[" ++ join_nums l ++ tx "] " ++ [N off] ++ tx " setdash"] st (mkps stk D (set_dash g (l, off)) sv ev None).
    Proof.
      eapply runs_tokens.
      - rewrite <- !app_assoc. rewrite scan_app. change (scan (@MTop T) (tx "[")) with (@MTop T, [@KOpenA T]). cbv iota.
        erewrite scan_nums; [|reflexivity]. reflexivity.
      - cbn [app]. rewrite exec_cons. cbn [exec1 p_proc]. unfold push, with_stack. cbn [p_stack p_dict p_g p_saved p_events p_proc].
        rewrite exec_nums. rewrite exec_cons. cbn [exec1 p_proc p_stack]. rewrite <- map_rev, to_mark_nums, rev_involutive, app_nil_r.
        words E. reflexivity.
    Qed.
  End Lines.
End PsP.
