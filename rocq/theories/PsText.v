(** Running lines of a drawing: texts and images. *)
From Verif Require Import Num BBoxModel StrModel Text VectorModel PsSpec PsProofs VectorSpec.
Open Scope Z_scope.

Ltac words E := repeat first [match goal with |- context [dict_get ?w ?D] => match type of E with env D _ => rewrite (E w eq_refl) end end | progress cbn -[nofZ nadd nsub nmul ndiv neq]].

Section PsT.
  Context {T : Type} `{PyNum T}.
  Variable metric : list Z -> T -> list Z -> T * T.
  Variable advance : list Z -> T -> list Z -> T * T.
  Notation exec := (exec metric advance).
  Notation runs := (runs metric advance).
  Notation line := (list (ch T)) (only parsing).

  (** ** Strings and names *)
  Lemma scan_string s : forall d d' acc, ~ In 92 s -> nest d s = Some d' -> scan (MStr d acc) (map (@C T) s) = (MStr d' (acc ++ s), []).
  Proof.
    induction s as [|c s IH]; intros d d' acc B Nst; cbn [nest map scan] in *.
    - injection Nst as <-. rewrite app_nil_r. reflexivity.
    - assert (Hc : (c =? 92) = false) by (apply Z.eqb_neq; intros ->; apply B; left; reflexivity).
      assert (B' : ~ In 92 s) by (intros I; apply B; right; exact I).
      cbn [scan1]. rewrite Hc. change (acc ++ c :: s) with (acc ++ [c] ++ s). rewrite app_assoc.
      destruct (c =? 40); [rewrite (IH _ _ _ B' Nst); reflexivity|]. destruct (c =? 41).
      + destruct d as [|d]; [discriminate|]. rewrite (IH _ _ _ B' Nst). reflexivity.
      + rewrite (IH _ _ _ B' Nst). reflexivity.
  Qed.
  Lemma scan_lit f : forall acc, Forall (fun c => ps_regular c = true) f -> scan (MLit acc) (map (@C T) f) = (MLit (acc ++ f), []).
  Proof.
    induction f as [|c f IH]; intros acc F; cbn [map scan]; [rewrite app_nil_r; reflexivity|]. inversion F; subst. cbn [scan1]. rewrite H2.
    change (acc ++ c :: f) with (acc ++ [c] ++ f). rewrite app_assoc, IH by assumption. reflexivity.
  Qed.

  (** Displacement of the text box *)
  Definition text_shift (anchor : list Z) (dx dy : T) : T * T :=
    let half v := ndiv v (nofZ (-2)) in
    ( if existsb (zlist_eqb anchor) [text "c"; text "t"; text "b"] then half dx
      else if existsb (zlist_eqb anchor) [text "tr"; text "r"; text "br"] then neg dx else nofZ 0,
      if existsb (zlist_eqb anchor) [text "c"; text "r"; text "l"] then half dy
      else if existsb (zlist_eqb anchor) [text "t"; text "tr"; text "tl"] then neg dy else nofZ 0 ).
  Definition text_pos (pos : T * T) (s : list Z) (size : T) (font anchor : list Z) : T * T :=
    let '(x, y) := pos in
    let '(w, h) := metric font size s in
    let '(ax, ay) := text_shift anchor (neg (nsub x (nadd x w))) (nsub (nadd y h) y) in
    (nadd x ax, nadd y ay).
  Definition text_g (g : gstate T) (pos : T * T) (s : list Z) (size : T) (font anchor : list Z) : gstate T :=
    moveto (set_font (moveto g pos) (font, size)) (text_pos pos s size font anchor).
  Definition shown (g : gstate T) (s : list Z) (size : T) (font : list Z) : gstate T :=
    match g_point g with
    | Some (x, y) => let '(dx, dy) := advance font size s in moveto g (nadd x dx, nadd y dy)
    | None => g
    end.

  Section Lines.
    Hypothesis X : exact_eq T.
    Variables (D : list (list Z * list (token T))) (deps : list (list Z)).
    Hypothesis E : env D deps.

    Lemma neq_lit a b : neq (nofZ a : T) (nofZ b) = (a =? b).
    Proof.
      destruct X as [X1 X2]. destruct (Z.eqb_spec a b) as [->|Nab]; [apply X1; reflexivity|].
      destruct (neq (nofZ a : T) (nofZ b)) eqn:F; [|reflexivity]. apply X1, X2 in F. contradiction.
    Qed.
    Lemma scan_text (s font key : list Z) (size x y : T) : good_string s -> good_font font -> Forall (fun c => ps_regular c = true) (115 :: key) -> 
      scan MTop ((tx "(" ++ map C s ++ tx ") " ++ [N size] ++ tx " /" ++ map C font ++ sp ++ [N x] ++ sp ++ [N y] ++ sp ++ map C (115 :: key)) ++ [C 10])
      = (MTop, [KStr s; KNum size; KLit font; KNum x; KNum y; KName (115 :: key)]).
    Proof.
      intros [B Ns] F K. rewrite <- !app_assoc. rewrite scan_app. change (scan (@MTop T) (tx "(")) with (@MStr T 0 [], @nil (token T)). cbv iota.
      rewrite scan_app, (scan_string s _ _ _ B Ns). cbn [app].
      assert (W : forall k acc, Forall (fun c => ps_regular c = true) k -> scan (MWord acc) (map (@C T) k ++ [C 10]) = (MTop, [KName (acc ++ k)])).
      { clear. induction k as [|c k IH]; intros acc F; cbn [map app scan]; [rewrite app_nil_r; reflexivity|]. inversion F; subst. cbn [scan1]. rewrite H1.
        change (acc ++ c :: k) with (acc ++ [c] ++ k). rewrite app_assoc, IH by assumption. reflexivity. }
      assert (S1 : forall rest m t, scan (@MLit T []) rest = (m, t) -> scan (@MStr T 0 s) (tx ") " ++ N size :: tx " /" ++ rest) = (m, KStr s :: KNum size :: t)).
      { intros rest m t Q. cbn. rewrite Q. reflexivity. }
      assert (S2 : forall rest m t, scan (@MWord T [115]) rest = (m, t) -> scan (@MLit T font) (sp ++ N x :: sp ++ N y :: sp ++ C 115 :: rest) = (m, KLit font :: KNum x :: KNum y :: t)).
      { intros rest m t Q. cbn. rewrite Q. reflexivity. }
      erewrite S1; [reflexivity|]. rewrite scan_app, (scan_lit font [] F). cbn [app map]. 
      erewrite S2; [reflexivity|]. rewrite W by (inversion K; assumption). reflexivity.
    Qed.

    (** One word at a time *)
    Section Words.
      Variables (d : nat) (l : list (token T)).
      Lemma x_word w b stk g sv ev : dict_get w D = Some b -> (forall z, py_int w <> Ok z) ->
        exec (S d) (KName w :: l) (mkps stk D g sv ev None) = match exec d b (mkps stk D g sv ev None) with Some st' => exec (S d) l st' | None => None end.
      Proof.
        intros Q P. rewrite exec_cons. cbn [exec1 p_proc p_dict]. destruct (py_int w) as [z|] eqn:I; [destruct (P z eq_refl)|]. rewrite Q. reflexivity.
      Qed.
      Lemma x_prim w stk g sv ev st' : negb (has w keys) || has w deps = true -> dict_get w (@full T) = None -> (forall z, py_int w <> Ok z) ->
        prim metric advance w (mkps stk D g sv ev None) = Some st' ->
        exec d (KName w :: l) (mkps stk D g sv ev None) = exec d l st'.
      Proof.
        intros K Q P R. rewrite exec_cons. cbn [exec1 p_proc p_dict]. destruct (py_int w) as [z|] eqn:I; [destruct (P z eq_refl)|]. rewrite (E _ K), Q, R. reflexivity.
      Qed.
      Lemma x_int w z stk g sv ev : py_int w = Ok z -> exec d (KName w :: l) (mkps stk D g sv ev None) = exec d l (mkps (ONum (nofZ z) :: stk) D g sv ev None).
      Proof. intros P. rewrite exec_cons. cbn [exec1 p_proc p_dict]. rewrite P. reflexivity. Qed.
      Lemma x_str s stk g sv ev : exec d (KStr s :: l) (mkps stk D g sv ev None) = exec d l (mkps (OStr s :: stk) D g sv ev None).
      Proof. rewrite exec_cons. reflexivity. Qed.
      Lemma x_num x stk g sv ev : exec d (KNum x :: l) (mkps stk D g sv ev None) = exec d l (mkps (ONum x :: stk) D g sv ev None).
      Proof. rewrite exec_cons. reflexivity. Qed.
      Lemma x_lit x stk g sv ev : exec d (KLit x :: l) (mkps stk D g sv ev None) = exec d l (mkps (OLit x :: stk) D g sv ev None).
      Proof. rewrite exec_cons. reflexivity. Qed.
    End Words.
    Lemma full_m : dict_get [109] (@full T) = Some [KName (text "moveto")]. Proof. reflexivity. Qed.
    Lemma full_rm : dict_get [114; 109] (@full T) = Some [KName (text "rmoveto")]. Proof. reflexivity. Qed.
    Lemma full_gs : dict_get [103; 115] (@full T) = Some [KName (text "gsave")]. Proof. reflexivity. Qed.
    Lemma full_gr : dict_get [103; 114] (@full T) = Some [KName (text "grestore")]. Proof. reflexivity. Qed.
    Definition sz_body : list (token T) := Eval vm_compute in match dict_get [115; 122] (@full T) with Some b => b | None => [] end.
    Lemma full_sz : dict_get [115; 122] (@full T) = Some sz_body. Proof. reflexivity. Qed.
    Lemma x_m d l x y stk g sv ev : exec (S d) (KName [109] :: l) (mkps (ONum y :: ONum x :: stk) D g sv ev None) = exec (S d) l (mkps stk D (moveto g (x, y)) sv ev None).
    Proof.
      erewrite x_word; [|rewrite (E [109] eq_refl); apply full_m|discriminate]. erewrite x_prim; [|reflexivity|reflexivity|discriminate|reflexivity].
      rewrite exec_nil. reflexivity.
    Qed.
    Lemma x_rm d l x y px py stk g sv ev : g_point g = Some (px, py) ->
      exec (S d) (KName [114; 109] :: l) (mkps (ONum y :: ONum x :: stk) D g sv ev None) = exec (S d) l (mkps stk D (moveto g (nadd px x, nadd py y)) sv ev None).
    Proof.
      intros G. erewrite x_word; [|rewrite (E [114; 109] eq_refl); apply full_rm|discriminate].
      erewrite x_prim; [|reflexivity|reflexivity|discriminate|cbn; rewrite G; reflexivity].
      rewrite exec_nil. reflexivity.
    Qed.
    Lemma x_gs d l stk g sv ev : exec (S d) (KName [103; 115] :: l) (mkps stk D g sv ev None) = exec (S d) l (mkps stk D g (g :: sv) ev None).
    Proof.
      erewrite x_word; [|rewrite (E [103; 115] eq_refl); apply full_gs|discriminate]. erewrite x_prim; [|reflexivity|reflexivity|discriminate|reflexivity].
      rewrite exec_nil. reflexivity.
    Qed.
    Lemma x_gr d l stk g g' sv ev : exec (S d) (KName [103; 114] :: l) (mkps stk D g (g' :: sv) ev None) = exec (S d) l (mkps stk D g' sv ev None).
    Proof.
      erewrite x_word; [|rewrite (E [103; 114] eq_refl); apply full_gr|discriminate]. erewrite x_prim; [|reflexivity|reflexivity|discriminate|reflexivity].
      rewrite exec_nil. reflexivity.
    Qed.
    Ltac tidy := cbv [with_stack with_g push paint_event p_stack p_dict p_g p_saved p_events p_proc].
    Ltac prim_step := erewrite x_prim; [|reflexivity|reflexivity|discriminate|cbn -[nofZ nadd nsub nmul ndiv neq neg ndivE]; tidy; reflexivity].
    Lemma x_sz d l s size font x y w h stk g sv ev : metric font size s = (w, h) -> has [115; 122] deps = true -> g_point g = Some (x, y) ->
      exec (S (S d)) (KName [115; 122] :: l) (mkps (OLit font :: ONum size :: OStr s :: stk) D g sv ev None) =
      exec (S (S d)) l (mkps (ONum (neg (nsub x (nadd x w))) :: ONum (nsub (nadd y h) y) :: OStr s :: stk) D (set_font g (font, size)) sv ev None).
    Proof.
      intros M K G. erewrite x_word; [|rewrite (E [115; 122]); [apply full_sz|rewrite K; apply orb_true_r]|discriminate].
      unfold sz_body. do 4 prim_step. rewrite x_gs. do 2 prim_step.
      erewrite x_prim; [|reflexivity|reflexivity|discriminate|cbn -[nofZ]; rewrite G; tidy; reflexivity]. prim_step.
      erewrite x_prim; [|reflexivity|reflexivity|discriminate|cbn -[nofZ]; rewrite G, M; tidy; reflexivity].
      rewrite x_gr. erewrite x_int by reflexivity. erewrite x_int by reflexivity.
      erewrite x_prim; [|reflexivity|reflexivity|discriminate|cbn -[nofZ]; rewrite !neq_lit; cbn -[nofZ]; tidy; reflexivity]. prim_step.
      erewrite x_int by reflexivity. erewrite x_int by reflexivity.
      erewrite x_prim; [|reflexivity|reflexivity|discriminate|cbn -[nofZ]; rewrite !neq_lit; cbn -[nofZ]; tidy; reflexivity]. do 2 prim_step.
      rewrite exec_nil. reflexivity.
    Qed.
    Lemma x_show d l s size font x y stk g sv ev : g_font g = Some (font, size) -> g_point g = Some (x, y) ->
      exec d (KName (text "show") :: l) (mkps (OStr s :: stk) D g sv ev None) =
      exec d l (mkps stk D (shown g s size font) sv (ev ++ [ev_of (EText s font size) g]) None).
    Proof.
      intros F G. unfold shown. rewrite G. destruct (advance font size s) as [dx dy] eqn:A.
      erewrite x_prim; [|reflexivity|reflexivity|discriminate|cbn -[nofZ]; rewrite F, G, A; tidy; reflexivity]. reflexivity.
    Qed.
    Lemma x_half d l v stk g sv ev : exec d (KName (text "-2") :: KName (text "div") :: l) (mkps (ONum v :: stk) D g sv ev None) = exec d l (mkps (ONum (ndiv v (nofZ (-2))) :: stk) D g sv ev None).
    Proof.
      erewrite x_int by reflexivity. erewrite x_prim; [|reflexivity|reflexivity|discriminate|cbn -[nofZ ndivE]; unfold ndivE; rewrite neq_lit; tidy; reflexivity]. reflexivity.
    Qed.
    Lemma x_negw d l v stk g sv ev : exec d (KName (text "neg") :: l) (mkps (ONum v :: stk) D g sv ev None) = exec d l (mkps (ONum (neg v) :: stk) D g sv ev None).
    Proof. prim_step. reflexivity. Qed.
    Lemma x_exch d l a b stk g sv ev : exec d (KName (text "exch") :: l) (mkps (a :: b :: stk) D g sv ev None) = exec d l (mkps (b :: a :: stk) D g sv ev None).
    Proof. prim_step. reflexivity. Qed.
    Lemma x_pop0 d l a stk g sv ev : exec d (KName (text "pop") :: KName (text "0") :: l) (mkps (a :: stk) D g sv ev None) = exec d l (mkps (ONum (nofZ 0) :: stk) D g sv ev None).
    Proof. prim_step. erewrite x_int by reflexivity. reflexivity. Qed.
    Variables (stk : list (obj T)) (g : gstate T) (sv : list (gstate T)) (ev : list (event T)).
    Notation st := (mkps stk D g sv ev None).
    Lemma run_text pos s size font anchor : good_string s -> good_font font ->
      existsb (zlist_eqb anchor) ANCHORS = true -> has (115 :: anchor) deps = true -> has (text "sz") deps = true ->
      runs [tx "(" ++ map C s ++ tx ") " ++ [N size] ++ tx " /" ++ map C font ++ sp ++ [N (fst pos)] ++ sp ++ [N (snd pos)] ++ sp ++ map C (115 :: anchor)] st
        (mkps stk D (shown (text_g g pos s size font anchor) s size font) sv (ev ++ [ev_of (EText s font size) (text_g g pos s size font anchor)]) None).
    Proof.
      intros Gs Gf A K Z. destruct pos as [x y].
      assert (DV : forall v : T, ndivE v (nofZ (-2)) = Ok (ndiv v (nofZ (-2)))) by (intros v; unfold ndivE; rewrite neq_lit; reflexivity).
      assert (R : Forall (fun c => ps_regular c = true) (115 :: anchor)).
      { apply existsb_exists in A. destruct A as (a & I & Q). apply zlist_eqb_eq in Q. subst a. repeat (destruct I as [<-|I]; [repeat constructor|]). destruct I. }
      eapply runs_tokens; [apply (scan_text s font anchor size x y Gs Gf R)|]. clear R.
      assert (EZ : dict_get (text "sz") D = dict_get (text "sz") full) by (apply E; rewrite Z; apply orb_true_r).
      assert (EK : dict_get (115 :: anchor) D = dict_get (115 :: anchor) full) by (apply E; rewrite K; apply orb_true_r).
      change (text "sz") with [115; 122] in EZ.
      unfold text_g, text_pos. destruct (metric font size s) as [w h] eqn:M. rewrite x_str, x_num, x_lit, !x_num.
      apply existsb_exists in A. destruct A as (a & I & Q). apply zlist_eqb_eq in Q. subst a.
      unfold ANCHORS in I.
      repeat (destruct I as [<-|I]; [
        erewrite x_word; [|rewrite EK; reflexivity|discriminate]; rewrite x_m; erewrite x_sz; [|exact M|exact Z|reflexivity];
        repeat first [rewrite x_half | rewrite x_negw | rewrite x_exch | rewrite x_pop0];
        erewrite x_rm by reflexivity; erewrite x_show by reflexivity; rewrite !exec_nil; reflexivity|]).
      destruct I.
    Qed.
  End Lines.
End PsT.
