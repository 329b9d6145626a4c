(** Exporting drawings: theorems. *)
From Coq Require Import Reals Lra Qcanon.
From Verif Require Import Num RealNum QcNum BBoxModel StrModel Text VectorModel VectorSpecR VectorPage VectorApi VectorProps ExportModel ExportSpec ExportProofs ExportBox.
Open Scope Z_scope.

(** ** C106 *)
(** One command is run, with the drawing in /tmp/tempeps.ps, whose words are those
    expected; afterwards there is no such file, whatever was there before, and all
    other files are as the command left them. *)
Theorem C106_export : forall (T : Type) (N : PyNum T) shell (c : canvas T) path device size margin (s : sys T) content,
  Forall plain device -> quotable path -> save c size margin = Ok content ->
  exists cmd found after status s1 r, canvas_export shell c path device size margin s = (s1, r) /\
    s_ran s1 = s_ran s ++ [(cmd, found)] /\
    commands cmd = Some [[text "gs"; text "-q"; text "-dNOPAUSE"; text "-dBATCH"; text "-dEPSCrop"; text "-sDEVICE=" ++ device; text "-sOutputFile=" ++ path; text "/tmp/tempeps.ps"]] /\
    found temporary = Some content /\ (forall q, q <> temporary -> found q = s_files s q) /\ shell cmd found = (after, status) /\
    ((after temporary = None /\ r = NoSuchFile) \/ (after temporary <> None /\ r = Done status)) /\
    s_files s1 temporary = None /\ (forall q, q <> temporary -> s_files s1 q = after q).
Proof. intros T N. exact (export_ok (H := N)). Qed.
Theorem C106_not_saved : forall (T : Type) (N : PyNum T) shell (c : canvas T) path device size margin (s : sys T) x,
  save c size margin = Err x -> canvas_export shell c path device size margin s = (s, Raised x).
Proof. intros T N shell c path device size margin s x E. unfold canvas_export. rewrite E. reflexivity. Qed.
Definition paper : canvas Qc := match history no_lists (canvas_new None) [OPolygon [qp 0 0; qp 4 0; qp 4 4] None (Some (IGray (q 0)))] with Some (_, c) => c | None => canvas_new None end.
(** Programs that make a file and leave all others alone *)
Definition obeys (out : list Z) (cmd : list Z) (f : files Qc) : files Qc * Z := (write_file out [C 137] f, 0).
Definition nothing : sys Qc := mkSys (fun _ => None) [].
Example C106_case : Forall plain (text "png256") /\ quotable (text "my map.png") /\ (exists content, save paper None (q 0) = Ok content) /\
  exists s1, canvas_export (obeys (text "my map.png")) paper (text "my map.png") (text "png256") None (q 0) nothing = (s1, Done 0) /\
    s_files s1 (text "my map.png") = Some [C 137].
Proof.
  split; [apply plain_text; reflexivity|]. split; [split; intros I; vm_compute in I; intuition discriminate|].
  split; [eexists; vm_compute; reflexivity|]. eexists. split; [vm_compute; reflexivity|reflexivity].
Qed.
(** A quote in the path ends it: what follows is run. *)
Theorem C106_quote_refuted : exists s1 cmd found, canvas_export (obeys (text "a")) paper (text "a' b; rm -r 'c") (text "png256") None (q 0) nothing = (s1, Done 0) /\
  s_ran s1 = [(cmd, found)] /\
  commands cmd = Some [[text "gs"; text "-q"; text "-dNOPAUSE"; text "-dBATCH"; text "-dEPSCrop"; text "-sDEVICE=png256"; text "-sOutputFile=a"; text "b"];
                       [text "rm"; text "-r"; text "c"; text "/tmp/tempeps.ps"]].
Proof. do 3 eexists. split; [vm_compute; reflexivity|]. split; [reflexivity|]. vm_compute. reflexivity. Qed.
(** An image that is to be in /tmp/tempeps.ps is removed. *)
Theorem C106_same_path_refuted : exists s1, canvas_export (obeys temporary) paper temporary (text "png256") None (q 0) nothing = (s1, Done 0) /\ s_files s1 temporary = None.
Proof. eexists. split; [vm_compute; reflexivity|]. reflexivity. Qed.

(** ** C107 *)
Theorem C107_export : forall (T : Type) shell pspath output device (s : sys T), Forall plain device -> Forall plain output -> simple pspath ->
  exists cmd, export shell pspath output device s = (mkSys (fst (shell cmd (s_files s))) (s_ran s ++ [(cmd, s_files s)]), Done (snd (shell cmd (s_files s)))) /\
    commands cmd = Some [[text "gs"; text "-q"; text "-dNOPAUSE"; text "-dBATCH"; text "-dEPSCrop"; text "-sDEVICE=" ++ device; text "-sOutputFile=" ++ output; pspath]].
Proof. intros T. exact bare_ok. Qed.
Example C107_case : Forall plain (text "pnggray") /\ Forall plain (text "/home/a/map-2.png") /\ simple (text "/home/a/map-2.ps").
Proof. split; [apply plain_text; reflexivity|]. split; [apply plain_text; reflexivity|apply simple_text; reflexivity]. Qed.
(** A blank in a path splits it. *)
Theorem C107_blank_refuted : exists s1 cmd, export (obeys (text "my")) (text "map.ps") (text "my map.png") (text "png256") nothing = (s1, Done 0) /\
  s_ran s1 = [(cmd, s_files nothing)] /\
  commands cmd = Some [[text "gs"; text "-q"; text "-dNOPAUSE"; text "-dBATCH"; text "-dEPSCrop"; text "-sDEVICE=png256"; text "-sOutputFile=my"; text "map.png"; text "map.ps"]].
Proof. do 2 eexists. split; [vm_compute; reflexivity|]. split; [reflexivity|]. vm_compute. reflexivity. Qed.

(** ** C108 *)
Lemma all3_impl {A B C} (P Q : A -> B -> C -> Prop) la lb lc : (forall a b c, P a b c -> Q a b c) -> all3 P la lb lc -> all3 Q la lb lc.
Proof. intros I. induction 1; constructor; auto. Qed.
Theorem C108_animation : forall (T : Type) (N : PyNum T) shell folder gif (frames : list (canvas T)) delay device size margin (s s1 : sys T) frames1 status,
  simple folder -> simple gif -> Forall plain device -> animation shell folder gif frames delay device size margin s = (s1, frames1, Done status) ->
  exists b paths ran cmd found after, Forall2 (reboxed b) frames frames1 /\
    (forall i p, nth_error paths i = Some p -> frame_file folder (length frames) i p) /\ NoDup paths /\
    s_ran s1 = s_ran s ++ ran ++ [(cmd, found)] /\ all3 (took device size margin) frames1 paths ran /\
    commands cmd = Some [[text "convert"; text "-delay"; str_int delay; text "-loop"; text "0"] ++ paths ++ [gif]] /\
    shell cmd found = (after, status) /\ (frames <> [] -> found temporary = None) /\
    (forall rest, s_files s1 (folder ++ text "/" ++ rest) = None) /\
    (forall p, (forall rest, p <> folder ++ text "/" ++ rest) -> s_files s1 p = after p).
Proof.
  intros T N shell folder gif frames delay device size margin s s1 frames1 status SF SG FD E.
  destruct (animation_ok shell folder gif frames delay device size margin s s1 frames1 status SF SG FD E) as [A [ran [cmd [found [after [R [K [C [S [G F]]]]]]]]]].
  exists (box_of frames). eexists. exists ran, cmd, found, after. split.
  - rewrite A. clear. generalize (box_of frames) as b. intros b. induction frames as [|c l IH]; cbn [map]; constructor; [repeat split|exact IH].
  - split; [|split; [apply paths_nodup|split; [exact R|split; [exact K|split; [exact C|split; [exact S|split; [exact G|split]]]]]]].
    + intros i p I. assert (L : (i < length frames)%nat).
      { rewrite <- (seq_length (length frames) 0). erewrite <- map_length. apply nth_error_Some. rewrite I. discriminate. }
      rewrite nth_error_map in I. rewrite (nth_error_nth' (seq 0 (length frames)) 0%nat) in I by (rewrite seq_length; exact L). rewrite seq_nth in I by exact L. cbn in I.
      injection I as <-. exact (frame_path_file folder (length frames) i L).
    + intros rest. rewrite F. change (text "/" ++ rest) with (47 :: rest). rewrite inside_path. reflexivity.
    + intros p NP. rewrite F. destruct (inside folder p) eqn:I; [|reflexivity]. exfalso. apply inside_true in I. destruct I as [rest ->]. exact (NP rest eq_refl).
Qed.
(** However it ends, nothing is left in the temporary folder. *)
Theorem C108_cleaned : forall (T : Type) (N : PyNum T) shell folder gif (frames : list (canvas T)) delay device size margin (s : sys T) rest,
  s_files (fst (fst (animation shell folder gif frames delay device size margin s))) (folder ++ text "/" ++ rest) = None.
Proof.
  intros T N shell folder gif frames delay device size margin s rest. assert (W : forall s' : sys T, s_files (remove_folder folder s') (folder ++ text "/" ++ rest) = None).
  { intros s'. unfold remove_folder. cbn [set_files s_files]. change (text "/" ++ rest) with (47 :: rest). rewrite inside_path. reflexivity. }
  unfold animation. destruct (shoot _ _ _ _ _ _ _ _ _ _) as [[s1 f1] [p|x|]]; try apply W. destruct (call _ _ _) as [s2 r]. apply W.
Qed.
(** With drawings of shapes of positive width and height it goes through if no
    command removes the file with the drawing; the frames get the smallest box
    around everything drawn, a fortieth wider on all sides. *)
Theorem C108_box : forall shell folder gif (frames : list (canvas R)) lists delay device size margin (s : sys R),
  simple folder -> simple gif -> Forall plain device -> (forall cmd f, f temporary <> None -> fst (shell cmd f) temporary <> None) ->
  Forall2 shows frames lists -> (exists o p, In o (concat lists) /\ drawn o p) ->
  exists s1 frames1 status b u, animation shell folder gif frames delay device size margin s = (s1, frames1, Done status) /\ Forall2 (reboxed b) frames frames1 /\
    (forall o p, In o (concat lists) -> drawn o p -> covers u p) /\ touches (concat lists) u /\
    let w := (bx1 u - bx0 u)%R in let h := (by1 u - by0 u)%R in
    b = mkbb (bx0 u - w / 40)%R (by0 u - h / 40)%R (bx1 u + w / 40)%R (by1 u + h / 40)%R.
Proof.
  intros shell folder gif frames lists delay device size margin s SF SG FD KE F D.
  destruct (animation_done shell folder gif frames delay device size margin s SF SG FD KE (shows_save frames lists size margin F (or_introl D))) as [s1 [frames1 [status E]]].
  destruct (animation_ok shell folder gif frames delay device size margin s s1 frames1 status SF SG FD E) as [A _].
  destruct (animation_box frames lists F D) as [u [Cv [To [_ [_ Q]]]]]. exists s1, frames1, status, (box_of frames), u. split; [exact E|]. split.
  - rewrite A. clear. generalize (box_of frames) as b. intros b. induction frames as [|c l IH]; cbn [map]; constructor; [repeat split|exact IH].
  - split; [exact Cv|]. split; [exact To|exact Q].
Qed.
Theorem C108_nothing_drawn : forall shell folder gif (frames : list (canvas R)) lists delay device size margin (s : sys R),
  Forall2 shows frames lists -> frames <> [] -> (forall o p, In o (concat lists) -> ~ drawn o p) ->
  exists s1 frames1, animation shell folder gif frames delay device (Some size) margin s = (s1, frames1, Raised ZeroDivisionError) /\ s_ran s1 = s_ran s.
Proof. exact nothing_drawn. Qed.
Definition failing (cmd : list Z) (f : files Qc) : files Qc * Z := (f, match cmd with 103 :: _ => 1 | _ => 0 end).
(** A frame that could not be made goes unnoticed. *)
Theorem C108_status_refuted : exists s1 frames1, animation failing (text "/tmp/x") (text "a.gif") [paper; paper] 10 (text "png256") None (q 0) nothing = (s1, frames1, Done 0) /\
  map (fun e => snd (failing (fst e) (snd e))) (s_ran s1) = [1; 1; 0].
Proof. do 2 eexists. split; [vm_compute; reflexivity|]. vm_compute. reflexivity. Qed.
Example C108_case : simple (text "/tmp/x") /\ simple (text "a.gif") /\ Forall plain (text "png256") /\
  (forall cmd f, f temporary <> None -> fst (failing cmd f) temporary <> None) /\
  exists s1 frames1, animation failing (text "/tmp/x") (text "a.gif") (repeat paper 11) 10 (text "png256") (Some (q 100)) (q 0) nothing = (s1, frames1, Done 0) /\
    option_map commands (nth_error (map fst (s_ran s1)) 3) = Some (Some [gs_words (text "png256") (text "/tmp/x/03.png") temporary]).
Proof.
  split; [apply simple_text; reflexivity|]. split; [apply simple_text; reflexivity|]. split; [apply plain_text; reflexivity|]. split; [intros cmd f H; exact H|].
  do 2 eexists. split; [vm_compute; reflexivity|]. vm_compute. reflexivity.
Qed.
Definition sheet1 : list (op R) := [OPolygon [(0, 0); (4, 0); (4, 4)]%R None None].
Example C108_box_case : exists (c : canvas R), shows c sheet1 /\ exists o p, In o (concat [sheet1]) /\ drawn o p.
Proof.
  eexists. split; [exists None, (fun _ => []), sheet1; eexists; split; [exact Logic.I|]; split; [reflexivity|]; split; [|reflexivity]|].
  - constructor; [|constructor]. right. split; [exists (0, 0)%R, (4, 0)%R|exists (4, 0)%R, (4, 4)%R]; cbn; (split; [tauto|split; [tauto|lra]]).
  - eexists _, (4, 4)%R. split; [left; reflexivity|]. exists (4, 4)%R, (4, 4)%R. cbn. split; [tauto|]. split; [tauto|]. exists 0%R. cbn. lra.
Qed.
Example C108_nothing_case : shows (canvas_new None) [] /\ forall o p, In o (concat [@nil (op R)]) -> ~ drawn o p.
Proof.
  split; [exists None, (fun _ => []), []; eexists; split; [exact Logic.I|]; split; [reflexivity|]; split; [constructor|reflexivity]|]. intros o p [].
Qed.
(** A frame with only a horizontal line does not count for the box. *)
Theorem C108_flat_refuted : exists h1 (c1 : canvas R) h2 c2 o p shell s1 f1 f2, history (fun _ => []) (canvas_new None) sheet1 = Some (h1, c1) /\
  history (fun _ => []) (canvas_new None) [o] = Some (h2, c2) /\ drawn o p /\
  animation shell (text "/tmp/x") (text "a.gif") [c1; c2] 10 (text "png256") None 0%R (mkSys (fun _ => None) []) = (s1, [f1; f2], Done 0) /\ ~ covers (cv_bbox f2) p.
Proof.
  set (o := OPolyline [(0, 9); (7, 9)]%R None).
  destruct (history (fun _ => []) (canvas_new None) sheet1) as [[h1 c1]|] eqn:H1; [|discriminate H1]. destruct (history (fun _ => []) (canvas_new None) [o]) as [[h2 c2]|] eqn:H2; [|discriminate H2].
  assert (D : forall l hf (c : canvas R), history (fun _ => []) (canvas_new None) l = Some (hf, c) -> cv_bg c = None) by (intros l hf c Q; rewrite (hist_bg _ _ _ _ _ Q); reflexivity).
  set (sh := fun (_ : list Z) (f : files R) => (f, 0)).
  assert (SV : Forall (fun c => exists v, save (set_bbox (box_of [c1; c2]) c) None 0%R = Ok v) [c1; c2]).
  { generalize (box_of [c1; c2]). intros b. apply Forall_forall. intros c I. apply (save_result (set_bbox b c) None 0%R).
    replace (cv_bg (set_bbox b c)) with (@None (ink R)); [exact Logic.I|]. symmetry. destruct I as [<-|[<-|[]]]; [exact (D _ _ _ H1)|exact (D _ _ _ H2)]. }
  assert (S1 : simple (text "/tmp/x")) by (apply simple_text; reflexivity). assert (S2 : simple (text "a.gif")) by (apply simple_text; reflexivity).
  assert (S3 : Forall plain (text "png256")) by (apply plain_text; reflexivity).
  destruct (animation_done sh (text "/tmp/x") (text "a.gif") [c1; c2] 10 (text "png256") None 0%R (mkSys (fun _ => None) []) S1 S2 S3 (fun _ _ H => H) SV) as [s1 [fr [st E]]].
  destruct (animation_ok sh _ _ _ _ _ _ _ _ _ _ _ S1 S2 S3 E) as [A [ran [cmd [found [after [_ [_ [_ [SH _]]]]]]]]]. injection SH as _ <-. rewrite A in E. cbn [map] in E.
  exists h1, c1, h2, c2, o, (7, 9)%R, sh, s1. do 2 eexists. split; [reflexivity|]. split; [exact H2|]. split; [|split; [exact E|]].
  - exists (7, 9)%R, (7, 9)%R. cbn. split; [auto|]. split; [auto|]. exists 0%R. cbn. lra.
  - assert (E1 : cv_bbox c1 = mkbb 0%R 0%R 4%R 4%R).
    { injection H1 as <- <-. cbn [cv_bbox grow emit fold_left]. unfold bb_grow. cbn [bb_corners fst snd bx0 bx1 by0 by1 nlt NumR]. dec.
      change (cv_bbox (canvas_new None)) with (mkbb 0%R 0%R 0%R 0%R). unfold bb_or, bb_bool, bb_area, bb_empty. cbn [bx0 bx1 by0 by1 Num.neq nmul nsub nofZ NumR].
      rewrite (Req_true ((0 - 0) * (0 - 0))%R 0%R) by lra. reflexivity. }
    assert (E2 : cv_bbox c2 = mkbb 0%R 9%R 7%R 9%R).
    { injection H2 as <- <-. cbn [cv_bbox grow emit fold_left]. unfold bb_grow. cbn [bb_corners fst snd bx0 bx1 by0 by1 nlt NumR]. dec.
      change (cv_bbox (canvas_new None)) with (mkbb 0%R 0%R 0%R 0%R). unfold bb_or, bb_bool, bb_area, bb_empty. cbn [bx0 bx1 by0 by1 Num.neq nmul nsub nofZ NumR].
      rewrite (Req_true ((0 - 0) * (0 - 0))%R 0%R) by lra. reflexivity. }
    cbn [cv_bbox set_bbox]. unfold box_of. cbn [map fold_left]. rewrite E1, E2. unfold bb_or, bb_bool, bb_area, bb_empty. cbn [bx0 bx1 by0 by1 Num.neq nmul nsub nofZ NumR].
    rewrite (Req_true ((0 - 0) * (0 - 0))%R 0%R) by lra. cbn [negb bx0 bx1 by0 by1]. rewrite (Req_false ((4 - 0) * (4 - 0))%R 0%R) by lra. cbn [negb].
    rewrite (Req_true ((7 - 0) * (9 - 9))%R 0%R) by lra. cbn [negb]. unfold bb_scale, bb_center, bb_width, bb_height, covers. cbn [bx0 bx1 by0 by1 fst snd nadd nsub nmul ndiv nofZ NumR]. lra.
Qed.

Print Assumptions C106_export.
Print Assumptions C106_not_saved.
Print Assumptions C106_quote_refuted.
Print Assumptions C106_same_path_refuted.
Print Assumptions C107_export.
Print Assumptions C107_blank_refuted.
Print Assumptions C108_animation.
Print Assumptions C108_cleaned.
Print Assumptions C108_box.
Print Assumptions C108_nothing_drawn.
Print Assumptions C108_status_refuted.
Print Assumptions C108_flat_refuted.
