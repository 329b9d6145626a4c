(** The inks a canvas remembers: proofs. *)
From Verif Require Import Num BBoxModel StrModel Text VectorModel PsSpec VectorSpec VectorProofs.
Open Scope Z_scope.
Section Asked.
  Context {T : Type} `{PyNum T}.
  Hypothesis X : exact_eq T.
  Definition known (c : canvas T) : T * list T := (cs_gray (cv_state c), cs_color (cv_state c)).
  Definition next_ink (s : T * list T) (i : ink T) : T * list T :=
    match i with IGray v => (v, snd s) | ITuple l => (fst s, l) | IOther => s end.
  Definition opt_ink (o : option (ink T)) : list (ink T) := match o with Some i => [i] | None => [] end.
  Lemma setgray_known c v : known (setgray c v) = (v, snd (known c)).
  Proof. unfold setgray, known. destruct (neq (cs_gray (cv_state c)) v) eqn:E; [apply X in E; rewrite <- E|]; reflexivity. Qed.
  Lemma setcolor_known c r g b : known (setcolor c r g b) = (fst (known c), [r; g; b]).
  Proof. unfold setcolor, known. destruct (nums_eqb (cs_color (cv_state c)) [r; g; b]) eqn:E; [apply (nums_eqb_eq X) in E; rewrite <- E|]; reflexivity. Qed.
  Lemma setink_known c i c' : setink c i = (c', Ok tt) -> known c' = next_ink (known c) i.
  Proof.
    destruct i as [v|[|r [|g [|b [|? ?]]]]|]; cbn [setink]; intros Q; try discriminate; injection Q as <-; [apply setgray_known|apply setcolor_known].
  Qed.
  Lemma paint_known c f s c' : paint c f s = (c', Ok tt) -> known c' = fold_left next_ink (opt_ink f ++ opt_ink s) (known c).
  Proof.
    unfold paint. destruct f as [f|], s as [s|]; cbn [opt_ink app fold_left]; intros Q.
    - destruct (setink (emit c (tx "gs")) f) as [c1 [[]|e]] eqn:S1; [|discriminate]. apply setink_known in S1.
      destruct (setink (emit (emit c1 (tx "f")) (tx "gr")) s) as [c2 [[]|e]] eqn:S2; [|discriminate]. apply setink_known in S2. injection Q as <-.
      change (known (emit c2 (tx "s"))) with (known c2). rewrite S2. change (known (emit (emit c1 (tx "f")) (tx "gr"))) with (known c1). rewrite S1. reflexivity.
    - destruct (setink c f) as [c1 [[]|e]] eqn:S1; [|discriminate]. apply setink_known in S1. injection Q as <-. exact S1.
    - destruct (setink c s) as [c1 [[]|e]] eqn:S1; [|discriminate]. apply setink_known in S1. injection Q as <-. exact S1.
    - injection Q as <-. reflexivity.
  Qed.
  Lemma fold_known {A} (f : canvas T -> A -> canvas T) l : (forall c x, known (f c x) = known c) -> forall c, known (fold_left f l c) = known c.
  Proof. intros F. induction l as [|x l IH]; intros c; [reflexivity|]. cbn [fold_left]. rewrite IH. apply F. Qed.
  Lemma perform_known h c o h' c' : perform h c o = (h', (c', Ok tt)) -> known c' = fold_left next_ink (asked o) (known c).
  Proof.
    intros Q. destruct o as [v|r gr b|i|w|d off|[x y] r f s|l s|l f s|l r f s|p s z fo an|da w p z col| |d l]; cbn [perform] in Q.
    - injection Q as <- <-. apply setgray_known.
    - injection Q as <- <-. apply setcolor_known.
    - injection Q as <- Q. exact (setink_known _ _ _ Q).
    - injection Q as <- <-. unfold setwidth. destruct (neq _ _); reflexivity.
    - injection Q as <- <-. unfold setdash. destruct (_ && _); reflexivity.
    - injection Q as <- Q. unfold addcircle, and_then in Q. destruct (paint _ f s) as [c2 [[]|e]] eqn:Pt; [|discriminate]. injection Q as <-. exact (paint_known _ _ _ _ Pt).
    - destruct l as [|p r]; injection Q as <- Q; [subst c'; reflexivity|]. cbn [addpolyline] in Q. unfold and_then in Q.
      assert (K : known (fold_left (fun c q => emit c (point_line q " l")) r (emit (emit c (tx "np")) (point_line p " m"))) = known c) by (rewrite fold_known; reflexivity).
      destruct s as [s|].
      + destruct (setink _ s) as [c2 [[]|e]] eqn:S1; [|discriminate]. apply setink_known in S1. injection Q as <-. change (known c2 = next_ink (known c) s). rewrite S1. f_equal. exact K.
      + injection Q as <-. exact K.
    - destruct l as [|p r]; injection Q as <- Q; [subst c'; reflexivity|]. cbn [addpolygon] in Q. unfold and_then in Q.
      assert (K : known (fold_left (fun c q => emit c (point_line q " l")) r (emit (emit c (tx "np")) (point_line p " m"))) = known c) by (rewrite fold_known; reflexivity).
      destruct (paint _ f s) as [c2 [[]|e]] eqn:Pt; [|discriminate]. injection Q as <-. apply paint_known in Pt. change (known c2 = fold_left next_ink (opt_ink f ++ opt_ink s) (known c)).
      rewrite Pt. f_equal. exact K.
    - injection Q as <- Q. unfold addroundedpolygon in Q. destruct l as [|[x1 y1] [|[x2 y2] rest]]; try discriminate. cbv zeta in Q. unfold and_then in Q.
      destruct (paint _ f s) as [c2 [[]|e]] eqn:Pt; [|discriminate]. destruct (bb_of_points _) as [b|e]; [|discriminate]. injection Q as <-. apply paint_known in Pt.
      change (known c2 = fold_left next_ink (opt_ink f ++ opt_ink s) (known c)). rewrite Pt. f_equal.
      match goal with |- known (emit ?c1 _) = _ => change (known c1 = known c) end. rewrite fold_known; [reflexivity|]. intros c3 [[u1 v1] [u2 v2]]. reflexivity.
    - injection Q as <- Q. unfold addtext in Q. destruct (existsb (zlist_eqb an) ANCHORS) eqn:A; [|discriminate]. destruct p as [x y]. injection Q as <-. reflexivity.
    - injection Q as <- Q. unfold addimage in Q. destruct (_ =? 0); [discriminate|].
      assert (Fe : forall rows (c0 : canvas T), known (fold_left emit rows c0) = known c0) by (intros; apply fold_known; reflexivity).
      destruct p as [[x y]|]; injection Q as <-; match goal with |- known (grow (emit (emit (emit ?c1 _) _) _) _) = _ => change (known c1 = known c) end; rewrite Fe; reflexivity.
    - injection Q as <- <-. reflexivity.
    - injection Q as <- <-. reflexivity.
  Qed.
  Lemma history_known l : forall h c hf cf, history h c l = Some (hf, cf) -> known cf = fold_left next_ink (flat_map asked l) (known c).
  Proof.
    induction l as [|o r IH]; intros h c hf cf Q; [injection Q as <- <-; reflexivity|].
    destruct (history_cons _ _ _ _ _ Q) as (h1 & c1 & P1 & Q1). rewrite (IH _ _ _ _ Q1), (perform_known _ _ _ _ _ P1). cbn [flat_map]. rewrite fold_left_app. reflexivity.
  Qed.
  Lemma known_last l : forall g c, fold_left next_ink l (g, c) = (fold_left (fun g i => match i with IGray v => v | _ => g end) l g, fold_left (fun c i => match i with ITuple t => t | _ => c end) l c).
  Proof. induction l as [|[v|t|] l IH]; intros g c; cbn [fold_left next_ink fst snd]; [reflexivity|apply IH|apply IH|apply IH]. Qed.
  Lemma canvas_known h0 bg ops h c : history h0 (canvas_new bg) ops = Some (h, c) ->
    cs_gray (cv_state c) = last_gray (opt_ink bg ++ flat_map asked ops) /\ cs_color (cv_state c) = last_color (opt_ink bg ++ flat_map asked ops).
  Proof.
    intros Q. apply history_known in Q.
    assert (E : known (canvas_new bg) = fold_left next_ink (opt_ink bg) (nofZ 0, [nofZ 0; nofZ 0; nofZ 0])) by (destruct bg as [[v|t|]|]; reflexivity).
    rewrite E, <- fold_left_app, known_last in Q. unfold known in Q. injection Q as Q1 Q2. auto.
  Qed.
  Lemma save_emit c size margin file l s : save c size margin = Ok file -> save (with_state (emit c l) s) size margin = Ok (file ++ l ++ [C 10]).
  Proof.
    unfold save. change (save_header (with_state (emit c l) s) size margin) with (save_header c size margin).
    destruct (save_header c size margin) as [pre|e]; [|discriminate]. cbn [bind]. intros Q. injection Q as <-. cbn [with_state emit cv_lines].
    rewrite app_assoc, flat_map_app. cbn [flat_map]. rewrite app_nil_r. reflexivity.
  Qed.
  Lemma gray_again h0 bg ops h c size margin file v : history h0 (canvas_new bg) ops = Some (h, c) -> save c size margin = Ok file ->
    let inks := opt_ink bg ++ flat_map asked ops in
    (last_gray inks = v -> save (setgray c v) size margin = Ok file) /\
    (last_gray inks <> v -> save (setgray c v) size margin = Ok (file ++ [N v] ++ tx " v" ++ [C 10])).
  Proof.
    intros Q S inks. destruct (canvas_known _ _ _ _ _ Q) as [G _]. fold inks in G. unfold setgray. rewrite G. destruct (neq (last_gray inks) v) eqn:E.
    - apply X in E. split; [auto|contradiction].
    - split; [intros Y; apply X in Y; congruence|]. intros _. exact (save_emit _ _ _ _ _ _ S).
  Qed.
  Lemma color_again h0 bg ops h c size margin file r g b : history h0 (canvas_new bg) ops = Some (h, c) -> save c size margin = Ok file ->
    let inks := opt_ink bg ++ flat_map asked ops in
    (last_color inks = [r; g; b] -> save (setcolor c r g b) size margin = Ok file) /\
    (last_color inks <> [r; g; b] -> save (setcolor c r g b) size margin = Ok (file ++ [N r] ++ sp ++ [N g] ++ sp ++ [N b] ++ tx " rgb" ++ [C 10])).
  Proof.
    intros Q S inks. destruct (canvas_known _ _ _ _ _ Q) as [_ G]. fold inks in G. unfold setcolor. rewrite G. destruct (nums_eqb (last_color inks) [r; g; b]) eqn:E.
    - apply (nums_eqb_eq X) in E. split; [auto|contradiction].
    - split; [intros Y; apply (nums_eqb_eq X) in Y; congruence|]. intros _. exact (save_emit _ _ _ _ _ _ S).
  Qed.
  (** A copy behaves like the canvas. *)
  Lemma copy_same (c : canvas T) : canvas_copy c = c.
  Proof. destruct c as [bg ls [x0 y0 x1 y1] st deps]. reflexivity. Qed.
End Asked.
