(** How a POSIX shell reads a command line: specification vocabulary for the
    commands that vector.py runs. Of the models only the types and the text that
    Canvas.save writes are used. *)
From Coq Require Import Reals.
From Verif Require Import Num RealNum BBoxModel StrModel Text VectorModel VectorSpecR ExportModel.
Open Scope Z_scope.

(** Characters that stand for themselves outside of quotes, whatever their place
    in a word; all others are special or a blank. *)
Definition special : list Z := 0 :: 9 :: 10 :: 32 :: 34 :: 39 :: 92 :: 96 :: 127 :: text "|&;<>()$*?[]#~!{}^".
Definition plain (c : Z) : Prop := ~ In c special.
Definition plainb (c : Z) : bool := negb (existsb (Z.eqb c) special).
(** The commands of a command line, each a list of words. Blanks separate words,
    semicolons commands; between single quotes all characters stand for
    themselves. None: a command line with other special characters, without a
    closing quote or with an empty command. Assignments before a command are
    not told apart from words. *)
Definition flush (cur : option (list Z)) (ws : list (list Z)) : list (list Z) := match cur with Some w => ws ++ [w] | None => ws end.
Definition extend (cur : option (list Z)) (c : Z) : option (list Z) := match cur with Some w => Some (w ++ [c]) | None => Some [c] end.
Fixpoint lex (quoted : bool) (cur : option (list Z)) (ws : list (list Z)) (cs : list (list (list Z))) (s : list Z) : option (list (list (list Z))) :=
  match s with
  | [] => if quoted then None else match flush cur ws with [] => Some cs | l => Some (cs ++ [l]) end
  | c :: r =>
      if quoted then if c =? 39 then lex false cur ws cs r else lex true (extend cur c) ws cs r
      else if c =? 39 then lex true (match cur with Some w => Some w | None => Some [] end) ws cs r
      else if (c =? 32) || (c =? 9) then lex false None (flush cur ws) cs r
      else if c =? 59 then match flush cur ws with [] => None | l => lex false None [] (cs ++ [l]) r end
      else if plainb c then lex false (extend cur c) ws cs r
      else None
  end.
Definition commands (s : list Z) : option (list (list (list Z))) := lex false None [] [] s.

(** A path that can be put between single quotes *)
Definition quotable (p : list Z) : Prop := ~ In 39 p /\ ~ In 0 p.
(** A word without special characters *)
Definition simple (w : list Z) : Prop := w <> [] /\ Forall plain w.

(** ** The commands expected *)
Definition gs_start : list (list Z) := [text "gs"; text "-q"; text "-dNOPAUSE"; text "-dBATCH"; text "-dEPSCrop"].
(** Ghostscript, with a device, an output file and a drawing *)
Definition gs_words (device out pspath : list Z) : list (list Z) := gs_start ++ [text "-sDEVICE=" ++ device; text "-sOutputFile=" ++ out; pspath].
(** ImageMagick, with a delay, the frames and the animation *)
Definition convert_words (delay : Z) (paths : list (list Z)) (gif : list Z) : list (list Z) :=
  [text "convert"; text "-delay"; str_int delay; text "-loop"; text "0"] ++ paths ++ [gif].
Definition temporary : list Z := text "/tmp/tempeps.ps".
(** The path of frame number [i] of [n]: its number with zeros in front *)
Definition frame_file (folder : list Z) (n i : nat) (p : list Z) : Prop :=
  exists zeros, Forall (eq 48) zeros /\ p = folder ++ text "/" ++ zeros ++ str_int (Z.of_nat i) ++ text ".png" /\
    (length zeros + length (str_int (Z.of_nat i)) = length (str_int (Z.of_nat n)))%nat.
Inductive all3 {A B C} (P : A -> B -> C -> Prop) : list A -> list B -> list C -> Prop :=
| all3_nil : all3 P [] [] []
| all3_cons a b c la lb lc : P a b c -> all3 P la lb lc -> all3 P (a :: la) (b :: lb) (c :: lc).
(** The command that makes the image [path] of the canvas [c], and the files that
    it finds *)
Definition took {T} `{PyNum T} (device : list Z) (size : option T) (margin : T) (c : canvas T) (path : list Z) (e : list Z * files T) : Prop :=
    commands (fst e) = Some [gs_words device path temporary] /\ exists v, save c size margin = Ok v /\ snd e temporary = Some v.
(** A canvas on which [l] is drawn, as far as its box is concerned *)
Definition shows (c : canvas R) (l : list (op R)) : Prop :=
  exists bg h0 ops h, good_bg bg /\ history h0 (canvas_new bg) ops = Some (h, c) /\ Forall solid ops /\ l = since [] ops.
(** The same canvas but for its box *)
Definition reboxed {T} (b : bbox T) (c c1 : canvas T) : Prop :=
  cv_bbox c1 = b /\ cv_bg c1 = cv_bg c /\ cv_lines c1 = cv_lines c /\ cv_state c1 = cv_state c /\ cv_deps c1 = cv_deps c.
