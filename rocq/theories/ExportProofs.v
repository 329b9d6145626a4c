(** Proofs about the commands that vector.py runs. *)
From Coq Require Import Lia.
From Verif Require Import Num BBoxModel StrModel StrProofs Text VectorModel ExportModel ExportSpec.
Open Scope Z_scope.

(** ** Words *)
Lemma plainb_ok c : plainb c = true <-> plain c.
Proof.
  unfold plainb, plain. rewrite negb_true_iff. split.
  - intros E I. assert (existsb (Z.eqb c) special = true) by (apply existsb_exists; exists c; split; [exact I|apply Z.eqb_refl]). congruence.
  - intros N. destruct (existsb (Z.eqb c) special) eqn:E; [|reflexivity]. exfalso. apply N. apply existsb_exists in E. destruct E as [x [I Q]]. apply Z.eqb_eq in Q. congruence.
Qed.
Lemma plain_not c : plain c -> c <> 39 /\ c <> 32 /\ c <> 9 /\ c <> 59 /\ c <> 0.
Proof. unfold plain, special. cbn. intros N. repeat split; intros ->; apply N; tauto. Qed.
Lemma lex_one c cur ws cs s : plain c -> lex false cur ws cs (c :: s) = lex false (extend cur c) ws cs s.
Proof.
  intros P. destruct (plain_not c P) as [A [B [C [D _]]]]. cbn [lex].
  rewrite (proj2 (Z.eqb_neq _ _) A), (proj2 (Z.eqb_neq _ _) B), (proj2 (Z.eqb_neq _ _) C), (proj2 (Z.eqb_neq _ _) D), (proj2 (plainb_ok c) P). reflexivity.
Qed.
Lemma lex_more w : forall cur ws cs s, Forall plain w -> lex false (Some cur) ws cs (w ++ s) = lex false (Some (cur ++ w)) ws cs s.
Proof.
  induction w as [|c w IH]; intros cur ws cs s F; [rewrite app_nil_r; reflexivity|]. inversion F as [|? ? P F']; subst. cbn [app]. rewrite (lex_one c _ _ _ _ P). cbn [extend].
  rewrite (IH _ _ _ _ F'), <- app_assoc. reflexivity.
Qed.
Lemma lex_start w ws cs s : simple w -> lex false None ws cs (w ++ s) = lex false (Some w) ws cs s.
Proof.
  intros [N F]. destruct w as [|c w]; [congruence|]. inversion F as [|? ? P F']; subst. cbn [app]. rewrite (lex_one c _ _ _ _ P). cbn [extend]. exact (lex_more w [c] ws cs s F').
Qed.
Lemma lex_blank cur ws cs s : lex false cur ws cs (32 :: s) = lex false None (flush cur ws) cs s.
Proof. reflexivity. Qed.
Lemma lex_words l : forall ws cs s, Forall simple l -> lex false None ws cs (flat_map (fun w => w ++ [32]) l ++ s) = lex false None (ws ++ l) cs s.
Proof.
  induction l as [|w l IH]; intros ws cs s F; [rewrite app_nil_r; reflexivity|]. inversion F as [|? ? P F']; subst. cbn [flat_map]. rewrite <- !app_assoc, (lex_start w _ _ _ P). cbn [app].
  rewrite lex_blank. cbn [flush]. rewrite (IH _ _ _ F'), <- app_assoc. reflexivity.
Qed.
Lemma lex_inner p : forall cur ws cs s, ~ In 39 p -> lex true (Some cur) ws cs (p ++ 39 :: s) = lex false (Some (cur ++ p)) ws cs s.
Proof.
  induction p as [|c p IH]; intros cur ws cs s N; [cbn; rewrite app_nil_r; reflexivity|]. cbn [app lex].
  destruct (Z.eqb_spec c 39) as [->|_]; [exfalso; apply N; left; reflexivity|]. cbn [extend]. rewrite IH by (intros I; apply N; right; exact I). rewrite <- app_assoc. reflexivity.
Qed.
Lemma lex_quote cur ws cs p s : ~ In 39 p -> lex false (Some cur) ws cs (39 :: p ++ 39 :: s) = lex false (Some (cur ++ p)) ws cs s.
Proof. intros N. cbn [lex Z.eqb]. exact (lex_inner p cur ws cs s N). Qed.
Lemma lex_last w ws cs : simple w -> lex false None ws cs w = Some (cs ++ [ws ++ [w]]).
Proof. intros P. rewrite <- (app_nil_r w) at 1. rewrite (lex_start w ws cs [] P). cbn [lex flush]. destruct (ws ++ [w]) eqn:E; [|reflexivity]. destruct ws; discriminate. Qed.

Lemma plain_text l : forallb plainb l = true -> Forall plain l.
Proof. intros E. apply Forall_forall. intros c I. apply plainb_ok. rewrite forallb_forall in E. exact (E c I). Qed.
Lemma simple_text l : (match l with [] => false | _ => forallb plainb l end) = true -> simple l.
Proof. destruct l; [discriminate|]. intros E. split; [discriminate|apply plain_text, E]. Qed.
Lemma gs_start_simple : Forall simple gs_start.
Proof. unfold gs_start. repeat (apply Forall_cons; [apply simple_text; reflexivity|]). constructor. Qed.
Lemma gs_split device rest : text "gs -q -dNOPAUSE -dBATCH -dEPSCrop " ++ text "-sDEVICE=" ++ device ++ 32 :: rest =
  flat_map (fun w => w ++ [32]) (gs_start ++ [text "-sDEVICE=" ++ device]) ++ rest.
Proof. rewrite flat_map_app. cbn [flat_map gs_start]. rewrite !app_nil_r. change (text "gs -q -dNOPAUSE -dBATCH -dEPSCrop ") with
  ((text "gs" ++ [32]) ++ (text "-q" ++ [32]) ++ (text "-dNOPAUSE" ++ [32]) ++ (text "-dBATCH" ++ [32]) ++ (text "-dEPSCrop" ++ [32])). rewrite <- !app_assoc. reflexivity. Qed.
Lemma device_simple device : Forall plain device -> simple (text "-sDEVICE=" ++ device).
Proof. intros F. split; [discriminate|]. apply Forall_app. split; [apply plain_text; reflexivity|exact F]. Qed.
Lemma quoted_command device path : Forall plain device -> ~ In 39 path ->
  commands (text "gs -q -dNOPAUSE -dBATCH -dEPSCrop " ++ text "-sDEVICE=" ++ device ++ text " -sOutputFile='" ++ path ++ text "' " ++ PSPATH) = Some [gs_words device path PSPATH].
Proof.
  intros FD NQ. unfold commands.
  change (text " -sOutputFile='" ++ path ++ text "' " ++ PSPATH) with (32 :: (text "-sOutputFile=" ++ 39 :: path ++ 39 :: 32 :: PSPATH)).
  rewrite gs_split, lex_words by (apply Forall_app; split; [exact gs_start_simple|constructor; [exact (device_simple device FD)|constructor]]).
  rewrite lex_start by (apply simple_text; reflexivity). rewrite (lex_quote _ _ _ _ _ NQ), lex_blank. cbn [flush].
  rewrite lex_last by (apply simple_text; reflexivity). unfold gs_words. rewrite <- !app_assoc. reflexivity.
Qed.
Lemma bare_command device output pspath : Forall plain device -> Forall plain output -> simple pspath ->
  commands (text "gs -q -dNOPAUSE -dBATCH -dEPSCrop " ++ text "-sDEVICE=" ++ device ++ text " -sOutputFile=" ++ output ++ text " " ++ pspath) = Some [gs_words device output pspath].
Proof.
  intros FD FO SP. unfold commands.
  change (text " -sOutputFile=" ++ output ++ text " " ++ pspath) with (32 :: (text "-sOutputFile=" ++ output ++ 32 :: pspath)).
  rewrite gs_split, lex_words by (apply Forall_app; split; [exact gs_start_simple|constructor; [exact (device_simple device FD)|constructor]]).
  rewrite (app_assoc (text "-sOutputFile=")), lex_start by (split; [discriminate|apply Forall_app; split; [apply plain_text; reflexivity|exact FO]]).
  rewrite lex_blank. cbn [flush]. rewrite lex_last by exact SP. unfold gs_words. rewrite <- !app_assoc. reflexivity.
Qed.
Lemma no_null l : existsb (Z.eqb 0) l = false <-> ~ In 0 l.
Proof.
  split.
  - intros E I. assert (existsb (Z.eqb 0) l = true) by (apply existsb_exists; exists 0; split; [exact I|reflexivity]). congruence.
  - intros N. destruct (existsb (Z.eqb 0) l) eqn:E; [|reflexivity]. apply existsb_exists in E. destruct E as [x [I Q]]. apply Z.eqb_eq in Q. subst x. contradiction.
Qed.
Lemma plain_no_null l : Forall plain l -> ~ In 0 l.
Proof. intros F I. rewrite Forall_forall in F. apply (F 0 I). cbn. tauto. Qed.

(** ** Paths of frames *)
Lemma int_plain z : Forall plain (str_int z).
Proof.
  apply Forall_impl with (2 := proj1 (str_int_chars z)). intros c H I. cbn in I.
  repeat (destruct I as [I|I]; [subst c; lia|]). contradiction.
Qed.
Lemma frame_path_simple folder k i : simple folder -> simple (frame_path folder k i).
Proof.
  intros [N F]. unfold frame_path. split; [destruct folder; [congruence|discriminate]|]. apply Forall_app. split; [exact F|].
  apply Forall_app. split; [apply plain_text; reflexivity|]. apply Forall_app. split; [|apply plain_text; reflexivity]. apply Forall_app. split; [|apply int_plain].
  apply Forall_forall. intros c I. apply repeat_spec in I. subst c. apply plainb_ok. reflexivity.
Qed.
Lemma zeros_val n l : digits_val (repeat 48 n ++ l) = digits_val l.
Proof. induction n as [|n IH]; [reflexivity|]. cbn [repeat app]. rewrite digits_val_cons, IH. lia. Qed.
Lemma frame_path_inj folder k i j : 0 <= i -> 0 <= j -> frame_path folder k i = frame_path folder k j -> i = j.
Proof.
  intros I J E. unfold frame_path in E. apply app_inv_head in E. apply app_inv_head in E. apply app_inv_tail in E.
  apply (f_equal digits_val) in E. rewrite !zeros_val in E. unfold str_int in E. destruct (Z.ltb_spec i 0), (Z.ltb_spec j 0); try lia.
  rewrite (proj1 (proj2 (dec_nat_spec i I))), (proj1 (proj2 (dec_nat_spec j J))) in E. exact E.
Qed.
Lemma join_words l s : l <> [] -> join 32 l ++ 32 :: s = flat_map (fun w => w ++ [32]) l ++ s.
Proof.
  induction l as [|w l IH]; [congruence|]. intros _. destruct l as [|w' l]; [cbn; rewrite app_nil_r, <- app_assoc; reflexivity|].
  change (join 32 (w :: w' :: l)) with (w ++ 32 :: join 32 (w' :: l)). change (flat_map (fun w => w ++ [32]) (w :: w' :: l)) with ((w ++ [32]) ++ flat_map (fun w => w ++ [32]) (w' :: l)).
  rewrite <- !app_assoc. cbn [app]. rewrite IH by discriminate. reflexivity.
Qed.
Lemma convert_command delay paths gif : Forall simple paths -> simple gif ->
  commands (text "convert -delay " ++ str_int delay ++ text " -loop 0 " ++ join 32 paths ++ text " " ++ gif) = Some [convert_words delay paths gif].
Proof.
  intros FP SG. unfold commands.
  assert (E : text "convert -delay " ++ str_int delay ++ text " -loop 0 " ++ join 32 paths ++ text " " ++ gif =
    flat_map (fun w => w ++ [32]) [text "convert"; text "-delay"; str_int delay; text "-loop"; text "0"] ++ join 32 paths ++ 32 :: gif).
  { change (text "convert -delay ") with ((text "convert" ++ [32]) ++ text "-delay" ++ [32]). change (text " -loop 0 ") with ([32] ++ (text "-loop" ++ [32]) ++ text "0" ++ [32]).
    cbn [flat_map]. rewrite app_nil_r, <- !app_assoc. reflexivity. }
  assert (SI : simple (str_int delay)) by (split; [exact (proj2 (str_int_chars delay))|apply int_plain]).
  rewrite E, lex_words by (repeat (apply Forall_cons); try exact SI; try (apply simple_text; reflexivity); constructor).
  destruct paths as [|p l].
  - cbn [join app]. rewrite lex_blank. cbn [flush]. rewrite (lex_last _ _ _ SG). reflexivity.
  - rewrite join_words by discriminate. rewrite (lex_words _ _ _ _ FP), (lex_last _ _ _ SG). unfold convert_words. rewrite <- !app_assoc. reflexivity.
Qed.

(** ** export *)
Section Runs.
  Context {T : Type} `{PyNum T}.
  Variable shell : list Z -> files T -> files T * Z.
  Lemma call_ok cmd (s : sys T) : ~ In 0 cmd -> call shell cmd s = (mkSys (fst (shell cmd (s_files s))) (s_ran s ++ [(cmd, s_files s)]), Done (snd (shell cmd (s_files s)))).
  Proof. intros N. unfold call. rewrite (proj2 (no_null cmd) N). destruct (shell cmd (s_files s)). reflexivity. Qed.
  Lemma gs_no_null device path : Forall plain device -> ~ In 0 path ->
    ~ In 0 (text "gs -q -dNOPAUSE -dBATCH -dEPSCrop " ++ text "-sDEVICE=" ++ device ++ text " -sOutputFile='" ++ path ++ text "' " ++ PSPATH).
  Proof.
    intros FD NP I. apply in_app_or in I. destruct I as [I|I]; [apply no_null in I; [exact I|reflexivity]|].
    apply in_app_or in I. destruct I as [I|I]; [apply no_null in I; [exact I|reflexivity]|]. apply in_app_or in I. destruct I as [I|I]; [exact (plain_no_null _ FD I)|].
    apply in_app_or in I. destruct I as [I|I]; [apply no_null in I; [exact I|reflexivity]|]. apply in_app_or in I. destruct I as [I|I]; [contradiction|].
    apply in_app_or in I. destruct I as [I|I]; apply no_null in I; try exact I; reflexivity.
  Qed.
  Lemma export_ok c path device size margin (s : sys T) content : Forall plain device -> quotable path -> save c size margin = Ok content ->
    exists cmd found after status s1 r, canvas_export shell c path device size margin s = (s1, r) /\
      s_ran s1 = s_ran s ++ [(cmd, found)] /\ commands cmd = Some [gs_words device path PSPATH] /\
      found PSPATH = Some content /\ (forall q, q <> PSPATH -> found q = s_files s q) /\ shell cmd found = (after, status) /\
      ((after PSPATH = None /\ r = NoSuchFile) \/ (after PSPATH <> None /\ r = Done status)) /\
      s_files s1 PSPATH = None /\ (forall q, q <> PSPATH -> s_files s1 q = after q).
  Proof.
    intros FD [NQ NN] SV. unfold canvas_export. rewrite SV.
    set (cmd := _ ++ _ ++ _ ++ _ ++ _ ++ _ ++ PSPATH). set (found := write_file PSPATH content (s_files s)).
    rewrite (call_ok cmd _ (gs_no_null device path FD NN)). cbn [s_files set_files s_ran]. fold found.
    destruct (shell cmd found) as [after status] eqn:SH. cbn [fst snd s_files].
    assert (F1 : found PSPATH = Some content) by (unfold found, write_file; rewrite zlist_eqb_refl; reflexivity).
    assert (F2 : forall q, q <> PSPATH -> found q = s_files s q) by (intros q Q; unfold found, write_file; rewrite (proj2 (zlist_eqb_neq q PSPATH) Q); reflexivity).
    destruct (after PSPATH) as [v|] eqn:AP.
    - do 6 eexists. split; [reflexivity|]. split; [reflexivity|]. split; [exact (quoted_command device path FD NQ)|]. split; [exact F1|]. split; [exact F2|]. split; [exact SH|].
      split; [right; split; [congruence|reflexivity]|]. cbn [s_files set_files]. unfold remove_file. split; [rewrite zlist_eqb_refl; reflexivity|].
      intros q Q. rewrite (proj2 (zlist_eqb_neq q PSPATH) Q). reflexivity.
    - do 6 eexists. split; [reflexivity|]. split; [reflexivity|]. split; [exact (quoted_command device path FD NQ)|]. split; [exact F1|]. split; [exact F2|]. split; [exact SH|].
      split; [left; split; [exact AP|reflexivity]|]. split; [exact AP|reflexivity].
  Qed.
  Lemma bare_ok pspath output device (s : sys T) : Forall plain device -> Forall plain output -> simple pspath ->
    exists cmd, export shell pspath output device s = (mkSys (fst (shell cmd (s_files s))) (s_ran s ++ [(cmd, s_files s)]), Done (snd (shell cmd (s_files s)))) /\
      commands cmd = Some [gs_words device output pspath].
  Proof.
    intros FD FO SP. eexists. split; [apply call_ok|exact (bare_command device output pspath FD FO SP)].
    intros I. apply in_app_or in I. destruct I as [I|I]; [apply no_null in I; [exact I|reflexivity]|].
    apply in_app_or in I. destruct I as [I|I]; [apply no_null in I; [exact I|reflexivity]|]. apply in_app_or in I. destruct I as [I|I]; [exact (plain_no_null _ FD I)|].
    apply in_app_or in I. destruct I as [I|I]; [apply no_null in I; [exact I|reflexivity]|]. apply in_app_or in I. destruct I as [I|I]; [exact (plain_no_null _ FO I)|].
    apply in_app_or in I. destruct I as [I|I]; [apply no_null in I; [exact I|reflexivity]|]. exact (plain_no_null _ (proj2 SP) I).
  Qed.
  Lemma simple_quotable w : simple w -> quotable w.
  Proof. intros [_ F]. split; [|exact (plain_no_null w F)]. intros I. rewrite Forall_forall in F. apply (F 39 I). cbn. tauto. Qed.

  (** ** animation *)
  Lemma shoot_ok folder k bb device size margin : simple folder -> Forall plain device ->
    forall frames i (s s1 : sys T) frames1 paths, shoot shell folder k bb device size margin i frames s = (s1, frames1, Done paths) ->
    frames1 = map (set_bbox bb) frames /\ paths = map (fun j => frame_path folder k (i + Z.of_nat j)) (seq 0 (length frames)) /\
    exists ran, s_ran s1 = s_ran s ++ ran /\ all3 (took device size margin) frames1 paths ran /\ (frames <> [] -> s_files s1 PSPATH = None).
  Proof.
    intros SF FD. induction frames as [|c rest IH]; intros i s s1 frames1 paths E; cbn [shoot] in E.
    - injection E as <- <- <-. split; [reflexivity|]. split; [reflexivity|]. exists []. rewrite app_nil_r. split; [reflexivity|]. split; [constructor|congruence].
    - set (c' := set_bbox bb c) in *. destruct (save c' size margin) as [content|x] eqn:SV.
      + destruct (export_ok c' (frame_path folder k i) device size margin s content FD (simple_quotable _ (frame_path_simple folder k i SF)) SV)
          as [cmd [found [after [status [s2 [r [E1 [R1 [K1 [F1 [F2 [SH [O [G1 G2]]]]]]]]]]]]]].
        rewrite E1 in E. destruct r as [st|x|]; [|discriminate|discriminate].
        destruct (shoot shell folder k bb device size margin (i + 1) rest s2) as [[s3 rest3] r3] eqn:E3.
        assert (Q : s1 = s3 /\ frames1 = c' :: rest3 /\ exists ps, r3 = Done ps /\ paths = frame_path folder k i :: ps).
        { destruct r3 as [ps|x|]; [|discriminate|discriminate]. injection E as <- <- <-. split; [reflexivity|]. split; [reflexivity|]. exists ps. auto. }
        destruct Q as [-> [-> [ps [-> ->]]]]. destruct (IH (i + 1) s2 s3 rest3 ps E3) as [A [B [ran [C [D G]]]]].
        split; [rewrite A; reflexivity|]. split.
        * rewrite B. cbn [length seq map]. rewrite <- seq_shift, map_map. f_equal; [f_equal; lia|]. apply map_ext. intros j. f_equal. lia.
        * exists ((cmd, found) :: ran). split; [rewrite C, R1, <- app_assoc; reflexivity|]. split; [constructor; [split; [exact K1|exists content; split; [exact SV|exact F1]]|exact D]|].
          intros _. destruct rest as [|c2 rest2]; [|apply G; discriminate]. cbn [shoot] in E3. injection E3 as <- _ _. exact G1.
      + unfold canvas_export in E. rewrite SV in E. discriminate.
  Qed.
  Lemma all3_length {A B C} (P : A -> B -> C -> Prop) la lb lc : all3 P la lb lc -> length la = length lb /\ length lb = length lc.
  Proof. induction 1 as [|? ? ? ? ? ? _ _ [E F]]; cbn; [auto|split; congruence]. Qed.
  Lemma paths_nodup folder k n : NoDup (map (fun j => frame_path folder k (0 + Z.of_nat j)) (seq 0 n)).
  Proof.
    assert (G : forall l, NoDup l -> NoDup (map (fun j => frame_path folder k (0 + Z.of_nat j)) l)).
    { induction 1 as [|x l N _ IH]; cbn [map]; constructor; [|exact IH]. intros I. apply in_map_iff in I. destruct I as [y [E Y]]. apply frame_path_inj in E; [|lia|lia].
      apply N. replace x with y by lia. exact Y. }
    apply G, seq_NoDup.
  Qed.
  Lemma inside_path folder rest : inside folder (folder ++ 47 :: rest) = true.
  Proof. induction folder as [|a f IH]; cbn; [reflexivity|]. rewrite Z.eqb_refl, IH. reflexivity. Qed.
  Lemma inside_true folder : forall q, inside folder q = true -> exists rest, q = folder ++ 47 :: rest.
  Proof.
    induction folder as [|a f IH]; intros q E; destruct q as [|b q]; cbn in E; try discriminate.
    - apply Z.eqb_eq in E. subst b. exists q. reflexivity.
    - apply andb_true_iff in E. destruct E as [E1 E2]. apply Z.eqb_eq in E1. subst b. destruct (IH q E2) as [rest ->]. exists rest. reflexivity.
  Qed.
  Lemma inside_false folder : forall q, inside folder q = false -> ~ exists rest, q = folder ++ 47 :: rest.
  Proof. intros q E [rest ->]. rewrite inside_path in E. discriminate. Qed.
  Definition box_of (frames : list (canvas T)) : bbox T := bb_scale (fold_left (fun a b => bb_or a b) (map cv_bbox frames) bb_empty) (ndiv (nofZ 105) (nofZ 100)).
  Lemma animation_ok folder gif frames delay device size margin (s s1 : sys T) frames1 status :
    simple folder -> simple gif -> Forall plain device -> animation shell folder gif frames delay device size margin s = (s1, frames1, Done status) ->
    let k := length (str_int (Z.of_nat (length frames))) in
    let paths := map (fun j => frame_path folder k (0 + Z.of_nat j)) (seq 0 (length frames)) in
    frames1 = map (set_bbox (box_of frames)) frames /\
    exists ran cmd found after, s_ran s1 = s_ran s ++ ran ++ [(cmd, found)] /\ all3 (took device size margin) frames1 paths ran /\
      commands cmd = Some [convert_words delay paths gif] /\ shell cmd found = (after, status) /\ (frames <> [] -> found PSPATH = None) /\
      s_files s1 = fun q => if inside folder q then None else after q.
  Proof.
    intros SF SG FD E k paths. unfold animation in E. fold k in E. change (bb_scale _ _) with (box_of frames) in E.
    destruct (shoot shell folder k (box_of frames) device size margin 0 frames s) as [[s2 fr2] r2] eqn:E2. destruct r2 as [ps|x|]; [|discriminate|discriminate].
    destruct (shoot_ok folder k _ device size margin SF FD frames 0 s s2 fr2 ps E2) as [A [B [ran [C [D G]]]]]. fold paths in B. subst ps.
    assert (FP : Forall simple paths) by (unfold paths; apply Forall_forall; intros p I; apply in_map_iff in I; destruct I as [j [<- _]]; apply frame_path_simple, SF).
    rewrite call_ok in E.
    - cbn [remove_folder set_files s_files s_ran] in E. injection E as <- <- <-. split; [exact A|].
      eexists ran, _, (s_files s2), _. cbn [s_ran s_files remove_folder set_files]. rewrite C, <- app_assoc. split; [reflexivity|]. split; [exact D|]. split; [exact (convert_command delay paths gif FP SG)|].
      split; [apply surjective_pairing|]. split; [exact G|reflexivity].
    - intros I. apply in_app_or in I. destruct I as [I|I]; [apply no_null in I; [exact I|reflexivity]|].
      apply in_app_or in I. destruct I as [I|I]; [exact (plain_no_null _ (int_plain delay) I)|]. apply in_app_or in I. destruct I as [I|I]; [apply no_null in I; [exact I|reflexivity]|].
      apply in_app_or in I. destruct I as [I|I].
      + revert I. clear - FP. clearbody paths. induction paths as [|p l IH]; [intros []|]. inversion FP as [|? ? P1 P2]; subst. destruct l as [|p' l]; [exact (plain_no_null _ (proj2 P1))|].
        change (join 32 (p :: p' :: l)) with (p ++ 32 :: join 32 (p' :: l)). intros I. apply in_app_or in I. destruct I as [I|[I|I]]; [exact (plain_no_null _ (proj2 P1) I)|discriminate|exact (IH P2 I)].
      + apply in_app_or in I. destruct I as [I|I]; [apply no_null in I; [exact I|reflexivity]|]. exact (plain_no_null _ (proj2 SG) I).
  Qed.
  (** It goes through if every frame can be saved and no command removes the
      drawing. *)
  Lemma shoot_done folder k bb device size margin : simple folder -> Forall plain device -> (forall cmd f, f PSPATH <> None -> fst (shell cmd f) PSPATH <> None) ->
    forall frames i (s : sys T), Forall (fun c => exists v, save (set_bbox bb c) size margin = Ok v) frames ->
    exists s1 frames1 paths, shoot shell folder k bb device size margin i frames s = (s1, frames1, Done paths).
  Proof.
    intros SF FD KE. induction frames as [|c rest IH]; intros i s F; [do 3 eexists; reflexivity|]. inversion F as [|? ? [content SV] F']; subst. cbn [shoot].
    destruct (export_ok (set_bbox bb c) (frame_path folder k i) device size margin s content FD (simple_quotable _ (frame_path_simple folder k i SF)) SV)
      as [cmd [found [after [status [s2 [r [E1 [R1 [K1 [F1 [F2 [SH [O [G1 G2]]]]]]]]]]]]]].
    rewrite E1. specialize (KE cmd found). rewrite SH, F1 in KE. cbn [fst] in KE. destruct O as [[O _]|[_ ->]]; [exfalso; apply (KE ltac:(discriminate)), O|].
    destruct (IH (i + 1) s2 F') as [s3 [f3 [p3 E3]]]. rewrite E3. do 3 eexists. reflexivity.
  Qed.
  Lemma animation_done folder gif frames delay device size margin (s : sys T) :
    simple folder -> simple gif -> Forall plain device -> (forall cmd f, f PSPATH <> None -> fst (shell cmd f) PSPATH <> None) ->
    Forall (fun c => exists v, save (set_bbox (box_of frames) c) size margin = Ok v) frames ->
    exists s1 frames1 status, animation shell folder gif frames delay device size margin s = (s1, frames1, Done status).
  Proof.
    intros SF SG FD KE F. unfold animation. change (bb_scale _ _) with (box_of frames). set (k := length (str_int _)).
    destruct (shoot_done folder k (box_of frames) device size margin SF FD KE frames 0 s F) as [s2 [fr2 [ps E2]]]. rewrite E2.
    destruct (shoot_ok folder k _ device size margin SF FD frames 0 s s2 fr2 ps E2) as [_ [B _]].
    rewrite call_ok; [do 3 eexists; reflexivity|].
    assert (FP : Forall simple ps) by (rewrite B; apply Forall_forall; intros p I; apply in_map_iff in I; destruct I as [j [<- _]]; apply frame_path_simple, SF).
    intros I. apply in_app_or in I. destruct I as [I|I]; [apply no_null in I; [exact I|reflexivity]|].
    apply in_app_or in I. destruct I as [I|I]; [exact (plain_no_null _ (int_plain delay) I)|]. apply in_app_or in I. destruct I as [I|I]; [apply no_null in I; [exact I|reflexivity]|].
    apply in_app_or in I. destruct I as [I|I].
    + revert I. clear - FP. induction ps as [|p l IH]; [intros []|]. inversion FP as [|? ? P1 P2]; subst. destruct l as [|p' l]; [exact (plain_no_null _ (proj2 P1))|].
      change (join 32 (p :: p' :: l)) with (p ++ 32 :: join 32 (p' :: l)). intros I. apply in_app_or in I. destruct I as [I|[I|I]]; [exact (plain_no_null _ (proj2 P1) I)|discriminate|exact (IH P2 I)].
    + apply in_app_or in I. destruct I as [I|I]; [apply no_null in I; [exact I|reflexivity]|]. exact (plain_no_null _ (proj2 SG) I).
  Qed.
End Runs.

(** ** Digits *)
Lemma digits_bound l : all_digits l -> 0 <= digits_val l < 10 ^ Z.of_nat (length l).
Proof.
  induction 1 as [|c l D _ IH]; [cbn; lia|]. rewrite digits_val_cons. cbn [length]. rewrite Nat2Z.inj_succ, Z.pow_succ_r by lia. cbv beta in D. nia.
Qed.
Lemma int_length i n : 0 <= i <= n -> (length (str_int i) <= length (str_int n))%nat.
Proof.
  intros H. unfold str_int. destruct (Z.ltb_spec i 0), (Z.ltb_spec n 0); try lia.
  destruct (dec_nat_spec i ltac:(lia)) as [A [B [C D]]], (dec_nat_spec n ltac:(lia)) as [A' [B' [C' D']]].
  destruct (le_lt_dec (length (dec_nat i)) (length (dec_nat n))) as [L|L]; [exact L|]. exfalso.
  pose proof (digits_bound _ A') as Bn. rewrite B' in Bn.
  destruct (dec_nat i) as [|c l] eqn:E; [cbn in L; lia|]. assert (0 < length (dec_nat n))%nat by (destruct (dec_nat n); [congruence|cbn; lia]).
  cbn [length] in L, D. specialize (D ltac:(lia)). cbn [hd] in D. inversion A as [|? ? Dc Al]; subst. rewrite digits_val_cons in H. pose proof (digits_bound _ Al) as Bl.
  assert (10 ^ Z.of_nat (length (dec_nat n)) <= 10 ^ Z.of_nat (length l)) by (apply Z.pow_le_mono_r; lia). cbv beta in Dc. nia.
Qed.
Lemma frame_path_file folder n i : (i < n)%nat -> frame_file folder n i (frame_path folder (length (str_int (Z.of_nat n))) (0 + Z.of_nat i)).
Proof.
  intros L. rewrite Z.add_0_l. unfold frame_path. exists (repeat 48 (length (str_int (Z.of_nat n)) - length (str_int (Z.of_nat i)))).
  split; [apply Forall_forall; intros c I; apply repeat_spec in I; congruence|]. split; [rewrite <- !app_assoc; reflexivity|].
  rewrite repeat_length. pose proof (int_length (Z.of_nat i) (Z.of_nat n) ltac:(lia)). lia.
Qed.
