(** The canvas: theorems. *)
From Coq Require Import Reals Lra Qcanon.
From Verif Require Import Num RealNum QcNum BBoxModel StrModel Text VectorModel PsSpec VectorSpec VectorSpecR VectorPage VectorApi VectorAsked.
Open Scope Z_scope.

Lemma exact_Qc : exact_eq Qc.
Proof. split; [apply neq_Qc|]. intros a b E. apply Q2Qc_eq_iff in E. unfold Qeq in E. cbn in E. lia. Qed.

(** Drawings for the examples *)
Definition q (z : Z) : Qc := nofZ z.
Definition qp (x y : Z) : Qc * Qc := (q x, q y).
Definition em (f : list Z) (z : Qc) (s : list Z) : Qc * Qc := (q (Z.of_nat (length s)), z).
Definition no_lists : heap Qc := fun _ => [].
Definition nums (l : list Qc) : list Q := map this l.

(** ** C64 *)
Theorem C64_width_dash : forall (T : Type) (N : PyNum T) (metric advance : list Z -> T -> list Z -> T * T), exact_eq T ->
  forall (bg : option (ink T)) (h0 : heap T) (ops : list (op T)) h c size margin file,
  h0 O = [] -> history h0 (canvas_new bg) ops = Some (h, c) -> save c size margin = Ok file -> Forall good_op ops -> lists_kept [O] ops ->
  exists evs, interpret metric advance file = Some (bg_event bg (cv_bbox c) size margin ++ evs) /\
    Forall2 (fun e o => kind_of e (o_what o) /\ e_width e = o_width o /\ e_dash e = o_dash o) evs (orders h0 (want_start bg) ops).
Proof. intros. eapply api_state; eassumption. Qed.
Definition drawing1 : list (op Qc) :=
  [OMutate 1 [q 3; q 2]; OSetwidth (q 2); OPolyline [qp 0 0; qp 4 3] (Some (IGray (q 1))); OSetdash 1 (q 0); OSetwidth (q 2); OSetwidth (q 5);
   OPolygon [qp 0 0; qp 4 0; qp 4 4] (Some (IGray (q 0))) (Some (IGray (q 1))); OText (qp 1 1) (text "(a) b") (q 12) (text "Times") (text "tr");
   OImage [0; 15; 255; 16; 7] 2 (Some (qp 8 8)) (q 3) false; OCircle (qp 2 2) (q 1) None (Some (IGray (q 0)))].
Example C64_case : (exists h c file, history no_lists (canvas_new None) drawing1 = Some (h, c) /\ save c (Some (q 100)) (q 4) = Ok file /\
    exists evs, interpret em em file = Some evs /\ map (fun e => this (e_width e)) evs = nums [q 2; q 5; q 5; q 5; q 5; q 5] /\
      map (fun e => nums (fst (e_dash e))) evs = [[]; nums [q 3; q 2]; nums [q 3; q 2]; nums [q 3; q 2]; nums [q 3; q 2]; nums [q 3; q 2]]) /\
  Forall good_op drawing1 /\ lists_kept [O] drawing1 /\ exact_eq R /\ exact_eq Qc.
Proof.
  split; [|split; [|split; [|split; [exact exact_R|exact exact_Qc]]]].
  - do 3 eexists. split; [vm_compute; reflexivity|]. split; [vm_compute; reflexivity|]. eexists. split; [vm_compute; reflexivity|]. split; vm_compute; reflexivity.
  - repeat constructor; cbn; try lia; intuition discriminate.
  - cbn. intuition discriminate.
Qed.
(** A list changed after it was given to setdash: the new pattern is asked for
    again and ignored. *)
Theorem C64_changed_list_refuted : exists (ops : list (op Qc)) h c file evs,
  history no_lists (canvas_new None) ops = Some (h, c) /\ save c None (q 0) = Ok file /\ Forall good_op ops /\ ~ lists_kept [O] ops /\
  interpret em em file = Some evs /\ map (fun e => nums (fst (e_dash e))) evs = [nums [q 3]] /\
  map (fun o => nums (fst (o_dash o))) (orders no_lists (want_start None) ops) = [nums [q 5]].
Proof.
  exists [OMutate 1 [q 3]; OSetdash 1 (q 0); OMutate 1 [q 5]; OSetdash 1 (q 0); OPolyline [qp 0 0; qp 4 3] None].
  do 4 eexists. split; [vm_compute; reflexivity|]. split; [vm_compute; reflexivity|]. split; [repeat constructor|]. split; [cbn; intuition|].
  split; [vm_compute; reflexivity|]. split; vm_compute; reflexivity.
Qed.

(** A copy draws and saves what the canvas does. *)
Theorem C64_copy : forall (T : Type) (N : PyNum T) (h0 : heap T) bg ops1 h c ops2 size margin, history h0 (canvas_new bg) ops1 = Some (h, c) ->
  history h (canvas_copy c) ops2 = history h c ops2 /\ save (canvas_copy c) size margin = save c size margin.
Proof. intros. rewrite copy_same. split; reflexivity. Qed.
Example C64_copy_case : exists h c file, history no_lists (canvas_new (Some (IGray (q 1)))) drawing1 = Some (h, c) /\
  save (canvas_copy c) (Some (q 100)) (q 4) = Ok file /\ cv_lines c <> [] /\
  exists h' c', history h (canvas_copy c) drawing1 = Some (h', c') /\ length (cv_lines c) <> length (cv_lines c').
Proof.
  do 3 eexists. split; [vm_compute; reflexivity|]. split; [vm_compute; reflexivity|]. split; [discriminate|].
  do 2 eexists. split; [vm_compute; reflexivity|]. vm_compute. discriminate.
Qed.

(** ** C65 *)
Theorem C65_ink : forall (T : Type) (N : PyNum T) (metric advance : list Z -> T -> list Z -> T * T), exact_eq T ->
  forall (bg : option (ink T)) (h0 : heap T) (ops : list (op T)) h c size margin file,
  h0 O = [] -> history h0 (canvas_new bg) ops = Some (h, c) -> save c size margin = Ok file -> Forall good_op ops -> lists_kept [O] ops ->
  let inks := match bg with Some i => [i] | None => [] end ++ flat_map inks_of ops in
  all_gray inks \/ all_rgb inks -> Forall two_inks ops ->
  exists evs, interpret metric advance file = Some (bg_event bg (cv_bbox c) size margin ++ evs) /\
    Forall2 (fun e o => kind_of e (o_what o) /\ rgb (e_ink e) = rgb (o_ink o)) evs (orders h0 (want_start bg) ops).
Proof. intros. eapply api_ink; eassumption. Qed.
Example C65_case : let inks := flat_map inks_of drawing1 in
  (all_gray ([IGray (q 1)] ++ inks) \/ all_rgb ([IGray (q 1)] ++ inks)) /\ Forall two_inks drawing1 /\
  exists h c file evs, history no_lists (canvas_new (Some (IGray (q 1)))) drawing1 = Some (h, c) /\ save c None (q 4) = Ok file /\ interpret em em file = Some evs /\
    map (fun e => nums [fst (fst (rgb (e_ink e)))]) evs = map (fun z => nums [q z]) [1; 1; 0; 1; 1; 1; 0].
Proof.
  cbv zeta. split; [|split].
  - left. intros i I. cbn in I. repeat (destruct I as [<-|I]; [eexists; reflexivity|]). destruct I.
  - repeat constructor; cbn; try (intros Q; injection Q as Q; vm_compute in Q; discriminate); trivial.
  - do 4 eexists. split; [vm_compute; reflexivity|]. split; [vm_compute; reflexivity|]. split; [vm_compute; reflexivity|]. vm_compute. reflexivity.
Qed.
(** Filled and stroked with the same ink: grestore brings the previous ink
    back, and the stroke is painted with it. *)
Theorem C65_same_ink_refuted : exists (ops : list (op Qc)) h c file evs,
  history no_lists (canvas_new None) ops = Some (h, c) /\ save c None (q 0) = Ok file /\ Forall good_op ops /\ all_gray (flat_map inks_of ops) /\
  interpret em em file = Some evs /\ map (fun e => e_kind e) evs = [EFill; EStroke] /\
  map (fun e => nums [fst (fst (rgb (e_ink e)))]) evs = [nums [q 1]; nums [q 0]] /\
  map (fun o => nums [fst (fst (rgb (o_ink o)))]) (orders no_lists (want_start None) ops) = [nums [q 1]; nums [q 1]].
Proof.
  exists [OPolygon [qp 0 0; qp 4 3; qp 5 5] (Some (IGray (q 1))) (Some (IGray (q 1)))].
  do 4 eexists. split; [vm_compute; reflexivity|]. split; [vm_compute; reflexivity|]. split; [repeat constructor|].
  split; [intros i I; cbn in I; repeat (destruct I as [<-|I]; [eexists; reflexivity|]); destruct I|].
  split; [vm_compute; reflexivity|]. split; [reflexivity|]. split; vm_compute; reflexivity.
Qed.
(** Gray and colour in turn: white, red and white again leaves red. *)
Theorem C65_mixed_refuted : exists (ops : list (op Qc)) h c file evs,
  history no_lists (canvas_new None) ops = Some (h, c) /\ save c None (q 0) = Ok file /\ Forall good_op ops /\ Forall two_inks ops /\
  interpret em em file = Some evs /\
  map (fun e => let '(r, g, b) := rgb (e_ink e) in nums [r; g; b]) evs = [nums [q 1; q 0; q 0]] /\
  map (fun o => let '(r, g, b) := rgb (o_ink o) in nums [r; g; b]) (orders no_lists (want_start None) ops) = [nums [q 1; q 1; q 1]].
Proof.
  exists [OSetgray (q 1); OSetcolor (q 1) (q 0) (q 0); OSetgray (q 1); OPolyline [qp 0 0; qp 4 3] None].
  do 4 eexists. split; [vm_compute; reflexivity|]. split; [vm_compute; reflexivity|]. split; [repeat constructor|]. split; [repeat constructor|].
  split; [vm_compute; reflexivity|]. split; vm_compute; reflexivity.
Qed.

(** Which calls add a line: not the last gray, or the last colour, again. *)
Theorem C65_gray_again : forall (T : Type) (N : PyNum T), exact_eq T ->
  forall (bg : option (ink T)) (h0 : heap T) (ops : list (op T)) h c size margin file v,
  history h0 (canvas_new bg) ops = Some (h, c) -> save c size margin = Ok file ->
  let inks := match bg with Some i => [i] | None => [] end ++ flat_map asked ops in
  (last_gray inks = v -> save (setgray c v) size margin = Ok file) /\
  (last_gray inks <> v -> save (setgray c v) size margin = Ok (file ++ [VectorModel.N v] ++ tx " v" ++ [C 10])).
Proof. intros T N X bg h0 ops h c size margin file v. apply gray_again. exact X. Qed.
Theorem C65_color_again : forall (T : Type) (N : PyNum T), exact_eq T ->
  forall (bg : option (ink T)) (h0 : heap T) (ops : list (op T)) h c size margin file r g b,
  history h0 (canvas_new bg) ops = Some (h, c) -> save c size margin = Ok file ->
  let inks := match bg with Some i => [i] | None => [] end ++ flat_map asked ops in
  (last_color inks = [r; g; b] -> save (setcolor c r g b) size margin = Ok file) /\
  (last_color inks <> [r; g; b] ->
   save (setcolor c r g b) size margin = Ok (file ++ [VectorModel.N r] ++ sp ++ [VectorModel.N g] ++ sp ++ [VectorModel.N b] ++ tx " rgb" ++ [C 10])).
Proof. intros T N X bg h0 ops h c size margin file r g b. apply color_again. exact X. Qed.
Example C65_again_case : exists h c file, history no_lists (canvas_new (Some (IGray (q 1)))) [OSetcolor (q 1) (q 0) (q 0); OPolyline [] (Some (IGray (q 5)))] = Some (h, c) /\
  save c None (q 0) = Ok file /\ save (setgray c (q 1)) None (q 0) = Ok file /\ save (setcolor c (q 1) (q 0) (q 0)) None (q 0) = Ok file /\
  exists more, save (setgray c (q 0)) None (q 0) = Ok (file ++ more) /\ more <> [].
Proof.
  do 3 eexists. split; [vm_compute; reflexivity|]. split; [vm_compute; reflexivity|]. split; [vm_compute; reflexivity|]. split; [vm_compute; reflexivity|].
  eexists ([VectorModel.N (q 0)] ++ tx " v" ++ [C 10]). split; [vm_compute; reflexivity|discriminate].
Qed.

(** ** C66 *)
Theorem C66_box : forall (bg : option (ink R)) h0 ops h c, history h0 (canvas_new bg) ops = Some (h, c) -> Forall solid ops ->
  ((forall o p, In o (since [] ops) -> ~ drawn o p) -> cv_bbox c = mkbb 0%R 0%R 0%R 0%R) /\
  ((exists o p, In o (since [] ops) /\ drawn o p) ->
     (forall o p, In o (since [] ops) -> drawn o p -> covers (cv_bbox c) p) /\ touches (since [] ops) (cv_bbox c)).
Proof. intros bg h0 ops h c Hi So. destruct (api_box bg h0 ops h c Hi So) as [A B]. split; [exact A|]. intros E. destruct (B E) as (P & Q & _). auto. Qed.
Definition drawing2 : list (op R) :=
  [OCircle (50, 50)%R 7%R None None; OReset; OCircle (2, 3)%R 1%R (Some (IGray 0%R)) None; OPolyline [(0, 0); (4, 1)]%R None; OText (9, 9)%R [65] 5%R [66] (text "c");
   OImage [1; 2; 3; 4] 2 (Some (3, 0)%R) 1%R false].
Example C66_case : Forall solid drawing2 /\ (exists h c, history (fun _ => []) (canvas_new None) drawing2 = Some (h, c)) /\
  length (since [] drawing2) = 4%nat /\ In (OPolyline [(0, 0); (4, 1)]%R None) (since [] drawing2) /\ drawn (OPolyline [(0, 0); (4, 1)]%R None) (2, 1 / 2)%R /\
  drawn (OCircle (2, 3)%R 1%R (Some (IGray 0%R)) None) (2, 4)%R.
Proof.
  split; [|split; [|split; [reflexivity|split; [right; left; reflexivity|split]]]].
  - unfold drawing2. repeat (apply Forall_cons); try apply Forall_nil; cbn [solid]; try exact Logic.I; try lra.
    + right. split; exists (0, 0)%R, (4, 1)%R; cbn; (split; [auto|split; [auto|lra]]).
    + unfold img_height. cbn. lra.
  - unfold drawing2. cbn [history perform]. assert (Ex : forall h (c : canvas R) l, Forall accepts l -> exists h' c', history h c l = Some (h', c')).
    { intros h c l F. revert h c. induction F as [|o l A F IH]; intros h c; [do 2 eexists; reflexivity|]. destruct (api_calls h c o) as [K _]. destruct (K A) as [c1 E]. cbn [history]. rewrite E. apply IH. }
    apply (Ex _ _ drawing2). assert (U : usable (IGray 0%R)) by discriminate.
    constructor; [constructor|]. constructor; [exact Logic.I|]. constructor; [constructor; [exact U|constructor]|]. constructor; [right; constructor|]. constructor; [cbn; auto|].
    constructor; [discriminate|constructor].
  - cbn. exists (0, 0)%R, (4, 1)%R. split; [auto|]. split; [auto|]. exists (1 / 2)%R. cbn. lra.
  - cbn. lra.
Qed.
Lemma Rlt_true a b : (a < b)%R -> Rlt_bool a b = true.
Proof. destruct (Rlt_bool_spec a b); [reflexivity|contradiction]. Qed.
Lemma Rlt_false a b : ~ (a < b)%R -> Rlt_bool a b = false.
Proof. destruct (Rlt_bool_spec a b); [contradiction|reflexivity]. Qed.
Lemma Req_true a b : a = b -> Req_bool a b = true.
Proof. destruct (Req_bool_spec a b); [reflexivity|contradiction]. Qed.
Lemma Req_false a b : a <> b -> Req_bool a b = false.
Proof. destruct (Req_bool_spec a b); [contradiction|reflexivity]. Qed.
(** A horizontal line does not count once something else was drawn. *)
Theorem C66_flat_refuted : exists (ops : list (op R)) h c o p, history (fun _ => []) (canvas_new None) ops = Some (h, c) /\
  In o ops /\ drawn o p /\ ~ covers (cv_bbox c) p.
Proof.
  exists [OPolygon [(0, 0); (4, 0); (4, 4)]%R None None; OPolyline [(0, 9); (7, 9)]%R None]. do 2 eexists. exists (OPolyline [(0, 9); (7, 9)]%R None), (7, 9)%R.
  split; [reflexivity|]. split; [right; left; reflexivity|]. split.
  - exists (7, 9)%R, (7, 9)%R. cbn. split; [auto|]. split; [auto|]. exists 0%R. cbn. lra.
  - match goal with |- ~ covers (cv_bbox ?c) _ => assert (E : cv_bbox c = mkbb 0%R 0%R 4%R 4%R) end.
    { cbn [cv_bbox grow emit fold_left]. unfold bb_grow. cbn [bb_corners fst snd bx0 bx1 by0 by1 nlt NumR].
      Ltac dec := repeat (match goal with |- context [Rlt_bool ?a ?b] => first [rewrite (Rlt_true a b) by lra|rewrite (Rlt_false a b) by lra] end; cbn [bx0 bx1 by0 by1]).
      dec. change (cv_bbox (canvas_new None)) with (mkbb 0%R 0%R 0%R 0%R). unfold bb_or, bb_bool, bb_area, bb_empty. cbn [bx0 bx1 by0 by1 Num.neq nmul nsub nofZ NumR].
      rewrite (Req_true ((0 - 0) * (0 - 0))%R 0%R) by lra. cbn [negb bx0 bx1 by0 by1]. rewrite (Req_false ((4 - 0) * (4 - 0))%R 0%R) by lra. cbn [negb].
      rewrite (Req_true ((7 - 0) * (9 - 9))%R 0%R) by lra. reflexivity. }
    rewrite E. unfold covers. cbn. lra.
Qed.

(** ** C67 *)
Theorem C67_fit : forall metric advance (bg : option (ink R)) h0 ops h c s margin file,
  h0 O = [] -> history h0 (canvas_new bg) ops = Some (h, c) -> save c (Some s) margin = Ok file -> Forall good_op ops -> lists_kept [O] ops ->
  Forall solid ops -> (margin <= s)%R ->
  exists evs ctm, interpret metric advance file = Some (bg_event bg (cv_bbox c) (Some s) margin ++ evs) /\
    Forall2 (fun e o => kind_of e (o_what o) /\ placed ctm e (o_what o)) evs (orders h0 (want_start bg) ops) /\
    (forall o p, In o (since [] ops) -> drawn o p -> in_page s margin (at_ctm ctm p)) /\
    (exists k, (0 <= k /\ (margin < s -> 0 < k) /\ forall p q, at_ctm ctm p = (fst (at_ctm ctm q) + k * (fst p - fst q), snd (at_ctm ctm q) + k * (snd p - snd q)))%R) /\
    (forall b, (forall o p, In o (since [] ops) -> drawn o p -> covers b p) -> touches (since [] ops) b ->
       let lo := at_ctm ctm (bx0 b, by0 b) in let hi := at_ctm ctm (bx1 b, by1 b) in
       (fst lo + fst hi = s /\ snd lo + snd hi = s /\ (fst lo = margin / 2 /\ fst hi = s - margin / 2 \/ snd lo = margin / 2 /\ snd hi = s - margin / 2))%R).
Proof. exact api_fit. Qed.
Theorem C67_saves : forall (bg : option (ink R)) h0 ops h c s margin, history h0 (canvas_new bg) ops = Some (h, c) -> Forall solid ops -> good_bg bg ->
  ((forall o p, In o (since [] ops) -> ~ drawn o p) -> save c (Some s) margin = Err ZeroDivisionError) /\
  ((exists o p, In o (since [] ops) /\ drawn o p) -> exists file, save c (Some s) margin = Ok file) /\
  (exists file, save c None margin = Ok file).
Proof. exact api_fit_empty. Qed.
Example C67_case : Forall good_op drawing2 /\ lists_kept [O] drawing2 /\ good_bg (@None (ink R)) /\ Forall solid drawing2 /\
  exists h c file evs, history no_lists (canvas_new None) drawing1 = Some (h, c) /\ save c (Some (q 100)) (q 4) = Ok file /\ interpret em em file = Some evs /\
    map (fun e => let '((a, b), (x, y)) := e_ctm e in (this a, this b, (this x, this y))) (firstn 1 evs) = [((48 # 7)%Q, (48 # 7)%Q, (2 # 1, 2 # 1))%Q].
Proof.
  split; [repeat constructor; cbn; try lia; intuition discriminate|]. split; [cbn; auto|]. split; [exact Logic.I|]. split; [apply C66_case|].
  do 4 eexists. split; [vm_compute; reflexivity|]. split; [vm_compute; reflexivity|]. split; [vm_compute; reflexivity|]. vm_compute. reflexivity.
Qed.

(** ** C68 *)
Theorem C68_defined : forall (T : Type) (N : PyNum T) (bg : option (ink T)) h0 (ops : list (op T)) h c size margin file,
  history h0 (canvas_new bg) ops = Some (h, c) -> save c size margin = Ok file ->
  exists ks blocks head mid drawing, file = head ++ flat_map (fun b => map C b ++ [C 10]) blocks ++ mid ++ drawing /\
    Forall2 defines ks blocks /\ NoDup ks /\ (forall k, In k ks <-> needs ops k) /\ (forall k, ks <> [] -> hd k ks = text "sz") /\
    (exists lines, drawing = flat_map (fun l => l ++ [C 10]) lines /\ lines = cv_lines c).
Proof. intros T N. exact (@api_defs T N (fun _ z _ => (z, z)) (fun _ z _ => (z, z))). Qed.
(** The definitions are enough: the file is a program that shows the texts. *)
Theorem C68_shown : forall (T : Type) (N : PyNum T) (metric advance : list Z -> T -> list Z -> T * T), exact_eq T ->
  forall (bg : option (ink T)) (h0 : heap T) (ops : list (op T)) h c size margin file,
  h0 O = [] -> history h0 (canvas_new bg) ops = Some (h, c) -> save c size margin = Ok file -> Forall good_op ops -> lists_kept [O] ops ->
  exists evs, interpret metric advance file = Some evs /\ texts_shown evs = texts ops.
Proof. exact @api_texts. Qed.
Theorem C68_read_defs : forall (blocks : list (list Z * list (list Z) * list Z)) (tail : list (list Z)),
  Forall (fun x => is_block (fst (fst x)) (snd (fst x)) /\ blank_line (snd x)) blocks -> Forall nonblank tail ->
  read_defs (flat_map (fun x => concat (snd (fst x)) ++ snd x) blocks ++ concat tail) =
    Ok (map (fun x => fst (fst x)) blocks, map (fun x => (fst (fst x), concat (snd (fst x)))) blocks).
Proof. exact api_read_defs. Qed.
Example C68_case : needs drawing1 (text "str") /\ needs drawing1 (text "sz") /\ ~ needs drawing1 (text "sc") /\
  read_defs (text "/a {
} bd
 
/bcd {pop} bd

/c {lost} bd
") = Ok ([text "a"; text "bcd"], [(text "a", text "/a {
} bd
"); (text "bcd", text "/bcd {pop} bd
")]).
Proof.
  split; [|split; [|split]].
  - exists (qp 1 1), (text "(a) b"), (q 12), (text "Times"), (text "tr"). split; [cbn; tauto|right; reflexivity].
  - exists (qp 1 1), (text "(a) b"), (q 12), (text "Times"), (text "tr"). split; [cbn; tauto|left; reflexivity].
  - intros (p & s & z & f & a & I & K). cbn in I. repeat (destruct I as [I|I]; [try discriminate I|]); [|destruct I]. injection I as <- <- <- <- <-. destruct K; discriminate.
  - vm_compute. reflexivity.
Qed.

(** ** C69 *)
Theorem C69_images : forall (T : Type) (N : PyNum T) (metric advance : list Z -> T -> list Z -> T * T), exact_eq T ->
  forall (bg : option (ink T)) (h0 : heap T) (ops : list (op T)) h c size margin file,
  h0 O = [] -> history h0 (canvas_new bg) ops = Some (h, c) -> save c size margin = Ok file -> Forall good_op ops -> lists_kept [O] ops ->
  exists evs, interpret metric advance file = Some evs /\ images_shown evs = images ops.
Proof. exact @api_images. Qed.
(** In the text: a line of 2 * width (6 * width) hexadecimal digits for each
    row. *)
Theorem C69_rows : forall (T : Type) (N : PyNum T) (c : canvas T) data width pos scale (color : bool), 0 < width -> Forall is_byte data ->
  let cw := if color then 3 * width else width in
  exists c' pre rows post, addimage c data width pos scale color = (c', Ok tt) /\ cv_lines c' = cv_lines c ++ pre ++ map (map C) rows ++ post /\
    length rows = Z.to_nat (Z.of_nat (length data) / cw) /\ Forall (fun r => length r = Z.to_nat (2 * cw)) rows /\
    hex_digits (concat rows) (firstn (Z.to_nat (cw * (Z.of_nat (length data) / cw))) data).
Proof. exact @api_rows. Qed.
Example C69_case : images drawing1 = [(false, q 2, q 2, [0; 15; 255; 16])] /\ hex_digits (text "000fff10") [0; 15; 255; 16].
Proof. split; [vm_compute; reflexivity|]. apply (hex_row [0; 15; 255; 16]). repeat constructor; discriminate. Qed.
(** Values that are not bytes: 300 takes three digits, and the samples after
    it are shifted. *)
Theorem C69_not_bytes_refuted : exists (ops : list (op Qc)) h c file evs,
  history no_lists (canvas_new None) ops = Some (h, c) /\ save c None (q 0) = Ok file /\ interpret em em file = Some evs /\
  map snd (images_shown evs) = [[18; 192; 16]] /\ map snd (images ops) = [[300; 1]].
Proof.
  exists [OImage [300; 1] 2 None (q 1) false]. do 4 eexists. split; [vm_compute; reflexivity|]. split; [vm_compute; reflexivity|].
  split; [vm_compute; reflexivity|]. split; vm_compute; reflexivity.
Qed.

(** ** C90: shapes are painted where they were asked for *)
Theorem C90_paths : forall (T : Type) (N : PyNum T) (metric advance : list Z -> T -> list Z -> T * T), exact_eq T ->
  forall (bg : option (ink T)) (h0 : heap T) (ops : list (op T)) h c size margin file,
  h0 O = [] -> history h0 (canvas_new bg) ops = Some (h, c) -> save c size margin = Ok file -> Forall good_op ops -> lists_kept [O] ops ->
  circles_apart false ops ->
  exists evs, interpret metric advance file = Some (bg_event bg (cv_bbox c) size margin ++ evs) /\
    Forall2 (fun e o => kind_of e (o_what o) /\ path_of e (o_what o)) evs (orders h0 (want_start bg) ops).
Proof. exact @api_path. Qed.
Definition drawing3 : list (op Qc) := drawing1 ++ [ORounded [qp 0 0; qp 4 0; qp 4 4] (q 1) (Some (IGray (q 1))) None; OPolygon [] None None].
Definition plain_elt (e : pelt Qc) : list Q :=
  match e with
  | PMove (x, y) => nums [x; y] | PLine (x, y) => nums [q 1; x; y] | PArc (x, y) r _ _ => nums [q 2; x; y; r]
  | PArcto (x, y) (u, v) r => nums [q 3; x; y; u; v; r] | PClose => []
  end.
Example C90_case : ~ circles_apart false drawing1 /\ circles_apart false (tl (removelast drawing1) ++ skipn 10 drawing3) /\
  exists h c file evs, history no_lists (canvas_new None) drawing3 = Some (h, c) /\ save c None (q 4) = Ok file /\ interpret em em file = Some evs /\
    map plain_elt (e_path (last evs (mkev EFill (PGray (q 0)) (q 0) ([], q 0) plain_ctm []))) =
      [nums [q 2; q 0]; nums [q 3; q 4; q 0; q 4; q 4; q 1]; nums [q 3; q 4; q 4; q 0; q 0; q 1]; nums [q 3; q 0; q 0; q 2; q 0; q 1]; []].
Proof.
  split; [cbn; intuition discriminate|]. split; [cbn; intuition discriminate|].
  do 4 eexists. split; [vm_compute; reflexivity|]. split; [vm_compute; reflexivity|]. split; [vm_compute; reflexivity|]. vm_compute. reflexivity.
Qed.
(** A circle after a text is joined to the end of the text. *)
Theorem C90_circle_after_text_refuted : exists (ops : list (op Qc)) h c file evs,
  history no_lists (canvas_new None) ops = Some (h, c) /\ save c None (q 0) = Ok file /\ Forall good_op ops /\ interpret em em file = Some evs /\
  match evs with
  | [_; e] => e_kind e = EStroke /\ In (PLine (q 6, q 5)) (e_path e)
  | _ => False
  end.
Proof.
  exists [OText (qp 1 1) (text "label") (q 12) (text "Times") (text "bl"); OCircle (qp 5 5) (q 1) None (Some (IGray (q 0)))].
  do 4 eexists. split; [vm_compute; reflexivity|]. split; [vm_compute; reflexivity|]. split; [repeat constructor; cbn; intuition discriminate|]. split; [vm_compute; reflexivity|].
  split; [reflexivity|]. vm_compute. tauto.
Qed.

(** ** C91: texts *)
Theorem C91_anchor : forall metric advance (bg : option (ink R)) h0 ops h c size margin file,
  h0 O = [] -> history h0 (canvas_new bg) ops = Some (h, c) -> save c size margin = Ok file -> Forall good_op ops -> lists_kept [O] ops ->
  exists evs, interpret metric advance file = Some (bg_event bg (cv_bbox c) size margin ++ evs) /\
    Forall2 (fun e o => match o_what o with
                        | WText p s f z a => e_kind e = EText s f z /\ exists q, shown_at e q /\ anchored a (fst (metric f z s)) (snd (metric f z s)) p q
                        | _ => True
                        end) evs (orders h0 (want_start bg) ops).
Proof. exact api_text. Qed.
Example C91_case : (exists h c file evs, history no_lists (canvas_new None) drawing1 = Some (h, c) /\ save c None (q 4) = Ok file /\ interpret em em file = Some evs /\
    exists e, nth_error evs 3 = Some e /\ map plain_elt (e_path e) = [nums [q 1; q 1]; nums [q (-4); q (-11)]]) /\
  anchored (text "tr") 5%R 12%R (1, 1)%R (-4, -11)%R /\ anchored (text "c") 4%R 2%R (0, 0)%R (-2, -1)%R.
Proof.
  split; [do 4 eexists; split; [vm_compute; reflexivity|]; split; [vm_compute; reflexivity|]; split; [vm_compute; reflexivity|]; eexists; split; [reflexivity|vm_compute; reflexivity]|].
  unfold anchored. cbn. split; split; lra.
Qed.
(** Strings are not escaped: one with an unbalanced parenthesis ruins the
    file. *)
Theorem C91_unbalanced_refuted : exists (ops : list (op Qc)) h c file,
  history no_lists (canvas_new None) ops = Some (h, c) /\ save c None (q 0) = Ok file /\ interpret em em file = None.
Proof.
  exists [OText (qp 1 1) (text "a) b") (q 12) (text "Times") (text "c")].
  do 3 eexists. split; [vm_compute; reflexivity|]. split; [vm_compute; reflexivity|]. vm_compute. reflexivity.
Qed.
(** A backslash disappears. *)
Theorem C91_backslash_refuted : exists (ops : list (op Qc)) h c file evs,
  history no_lists (canvas_new None) ops = Some (h, c) /\ save c None (q 0) = Ok file /\ interpret em em file = Some evs /\
  texts ops = [([97; 92; 98], text "Times", q 12)] /\ texts_shown evs = [([97; 98], text "Times", q 12)].
Proof.
  exists [OText (qp 1 1) [97; 92; 98] (q 12) (text "Times") (text "c")].
  do 4 eexists. split; [vm_compute; reflexivity|]. split; [vm_compute; reflexivity|]. split; [vm_compute; reflexivity|]. split; [reflexivity|]. vm_compute. reflexivity.
Qed.

(** ** C92: calls and their exceptions *)
Theorem C92_calls : forall (T : Type) (N : PyNum T) h (c : canvas T) (o : op T),
  (accepts o -> exists c', perform h c o = (after_op h o, (c', Ok tt))) /\
  (~ accepts o -> exists c' e, perform h c o = (h, (c', Err e)) /\ complaint o e /\
     cv_bbox c' = cv_bbox c /\ cv_deps c' = cv_deps c /\ cv_bg c' = cv_bg c /\ (checked_first o -> c' = c)).
Proof. exact @api_calls. Qed.
Example C92_case : Forall accepts drawing3 /\ ~ accepts (OText (qp 0 0) [] (q 1) [] (text "lt")) /\ ~ accepts (OPolyline [qp 0 0] (Some (IOther : ink Qc))) /\
  ~ accepts (ORounded [qp 0 0] (q 1) None None).
Proof.
  split; [|split; [|split]].
  - unfold drawing3, drawing1. cbn [app]. repeat (constructor; [try exact Logic.I; cbn; try (right; repeat constructor; discriminate); try (repeat constructor; discriminate); try discriminate; auto; tauto|]). constructor.
  - cbn. intuition discriminate.
  - intros [Q|F]; [discriminate|]. inversion F as [|? ? U]. apply U. reflexivity.
  - cbn. lia.
Qed.
(** A polygon with an unusable fill ink raises TypeError, but the path and an
    open gsave stay in the drawing. *)
Theorem C92_half_drawn_refuted : exists (c c' : canvas Qc), addpolygon c [qp 0 0; qp 1 0; qp 1 1] (Some IOther) (Some (IGray (q 0))) = (c', Err TypeError) /\
  cv_lines c = [] /\ last (cv_lines c') [] = tx "gs" /\ length (cv_lines c') = 6%nat.
Proof. exists (canvas_new None). eexists. split; [reflexivity|]. split; [reflexivity|]. split; reflexivity. Qed.

Print Assumptions C64_width_dash.
Print Assumptions C64_changed_list_refuted.
Print Assumptions C64_copy.
Print Assumptions C65_ink.
Print Assumptions C65_same_ink_refuted.
Print Assumptions C65_mixed_refuted.
Print Assumptions C65_gray_again.
Print Assumptions C65_color_again.
Print Assumptions C66_box.
Print Assumptions C66_flat_refuted.
Print Assumptions C67_fit.
Print Assumptions C67_saves.
Print Assumptions C68_defined.
Print Assumptions C68_shown.
Print Assumptions C68_read_defs.
Print Assumptions C69_images.
Print Assumptions C69_rows.
Print Assumptions C69_not_bytes_refuted.
Print Assumptions C90_paths.
Print Assumptions C90_circle_after_text_refuted.
Print Assumptions C91_anchor.
Print Assumptions C91_unbalanced_refuted.
Print Assumptions C91_backslash_refuted.
Print Assumptions C92_calls.
Print Assumptions C92_half_drawn_refuted.
