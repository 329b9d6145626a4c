(** What a drawing file means: a scanner and an interpreter for the part of
    PostScript that the files use (specification only; nothing here models
    code of the repository).

    Simplifications. Numbers are the symbols of [ch]; a word of digits with an
    optional minus sign is a number too. A backslash in a string keeps the next
    character. The transformation is recorded with each painting operator and
    not applied when a point is added: the files never change it while a path
    is open. Fonts are described by [metric]: width and height of the box of a
    string, whose lower left corner is the current point, and [advance], the
    displacement by show. *)
From Verif Require Import Num StrModel Text VectorModel.
Open Scope Z_scope.

Definition ps_white (c : Z) : bool := existsb (Z.eqb c) [0; 9; 10; 12; 13; 32].
Definition ps_delim (c : Z) : bool := existsb (Z.eqb c) [37; 40; 41; 47; 60; 62; 91; 93; 123; 125].
Definition ps_regular (c : Z) : bool := negb (ps_white c) && negb (ps_delim c).
Definition hex_val (c : Z) : option Z :=
  if (48 <=? c) && (c <=? 57) then Some (c - 48)
  else if (97 <=? c) && (c <=? 102) then Some (c - 87)
  else if (65 <=? c) && (c <=? 70) then Some (c - 55)
  else None.
(** Pairs of digits as bytes; a missing last digit counts as zero. *)
Fixpoint hex_bytes (l : list Z) : list Z :=
  match l with
  | [] => []
  | [a] => [16 * a]
  | a :: b :: r => 16 * a + b :: hex_bytes r
  end.

Section Ps.
  Context {T : Type} `{PyNum T}.
  Variable metric : list Z -> T -> list Z -> T * T.
  Variable advance : list Z -> T -> list Z -> T * T.

  (** ** Scanner *)
  Inductive token :=
  | KNum (x : T) | KName (w : list Z) | KLit (w : list Z) | KStr (s : list Z) | KHex (b : list Z)
  | KOpenA | KCloseA | KOpenP | KCloseP | KBad.
  Inductive mode :=
  | MTop | MNum (x : T) | MWord (w : list Z) | MLit (w : list Z) | MStr (depth : nat) (s : list Z) | MEsc (depth : nat) (s : list Z)
  | MHex (l : list Z) | MComment.
  (** A character outside of all words, strings and comments *)
  Definition start (c : Z) : mode * list token :=
    if ps_white c then (MTop, [])
    else if c =? 40 then (MStr 0 [], [])
    else if c =? 60 then (MHex [], [])
    else if c =? 91 then (MTop, [KOpenA])
    else if c =? 93 then (MTop, [KCloseA])
    else if c =? 123 then (MTop, [KOpenP])
    else if c =? 125 then (MTop, [KCloseP])
    else if c =? 47 then (MLit [], [])
    else if c =? 37 then (MComment, [])
    else if ps_delim c then (MTop, [KBad])
    else (MWord [c], []).
  Definition after (t : token) (c : Z) : mode * list token := let '(m, l) := start c in (m, t :: l).
  Definition scan1 (m : mode) (c : ch T) : mode * list token :=
    match m, c with
    | MTop, C c => start c
    | MTop, N x => (MNum x, [])
    | MNum x, C c => if ps_regular c then (MTop, [KBad]) else after (KNum x) c
    | MWord w, C c => if ps_regular c then (MWord (w ++ [c]), []) else after (KName w) c
    | MLit w, C c => if ps_regular c then (MLit (w ++ [c]), []) else after (KLit w) c
    | MStr d s, C c =>
        if c =? 92 then (MEsc d s, [])
        else if c =? 40 then (MStr (S d) (s ++ [c]), [])
        else if c =? 41 then match d with O => (MTop, [KStr s]) | S d => (MStr d (s ++ [c]), []) end
        else (MStr d (s ++ [c]), [])
    | MEsc d s, C c => (MStr d (s ++ [c]), [])
    | MHex l, C c =>
        if ps_white c then (MHex l, [])
        else if c =? 62 then (MTop, [KHex (hex_bytes l)])
        else match hex_val c with Some v => (MHex (l ++ [v]), []) | None => (MTop, [KBad]) end
    | MComment, C c => if c =? 10 then (MTop, []) else (MComment, [])
    | MComment, N _ => (MComment, [])
    | _, N _ => (MTop, [KBad])
    end.
  Fixpoint scan (m : mode) (l : list (ch T)) : mode * list token :=
    match l with
    | [] => (m, [])
    | c :: r => let '(m1, t1) := scan1 m c in let '(m2, t2) := scan m1 r in (m2, t1 ++ t2)
    end.

  (** ** Graphics state *)
  Inductive psink := PGray (v : T) | PRGB (r g b : T).
  Inductive pelt := PMove (p : T * T) | PLine (p : T * T) | PArc (c : T * T) (r a b : T) | PArcto (p q : T * T) (r : T) | PClose.
  Record gstate := mkgs {
    g_ink : psink; g_width : T; g_dash : list T * T;
    g_ctm : (T * T) * (T * T);     (* x -> sx * x + tx, y -> sy * y + ty *)
    g_path : list pelt; g_point : option (T * T); g_start : T * T;
    g_font : option (list Z * T); g_outline : option (list Z)
  }.
  Inductive kind := EFill | EStroke | EText (s font : list Z) (size : T) | EImage (color : bool) (w h bits : T) (matrix : list T) (data : list Z).
  Record event := mkev { e_kind : kind; e_ink : psink; e_width : T; e_dash : list T * T; e_ctm : (T * T) * (T * T); e_path : list pelt }.
  Inductive obj := ONum (x : T) | OStr (s : list Z) | OLit (w : list Z) | OProc (l : list token) | OMark | OArr (l : list T)
    | OBool (b : bool) | OFont (name : list Z) (size : option T) | OHex (b : list Z).
  Record ps := mkps {
    p_stack : list obj; p_dict : list (list Z * list token); p_g : gstate; p_saved : list gstate; p_events : list event;
    p_proc : option (nat * list token)      (* inside braces: their depth and the tokens so far *)
  }.
  Definition ps_zero := nofZ 0.
  Definition gs_init : gstate :=
    mkgs (PGray (nofZ 0)) (nofZ 1) ([], nofZ 0) ((nofZ 1, nofZ 1), (nofZ 0, nofZ 0)) [] None (nofZ 0, nofZ 0) None None.
  Definition ps_init : ps := mkps [] [] gs_init [] [] None.

  Definition with_stack (st : ps) (s : list obj) : ps := mkps s (p_dict st) (p_g st) (p_saved st) (p_events st) (p_proc st).
  Definition with_g (st : ps) (g : gstate) : ps := mkps (p_stack st) (p_dict st) g (p_saved st) (p_events st) (p_proc st).
  Definition push (st : ps) (o : obj) : ps := with_stack st (o :: p_stack st).
  Definition paint_event (st : ps) (k : kind) : ps :=
    let g := p_g st in
    mkps (p_stack st) (p_dict st) g (p_saved st) (p_events st ++ [mkev k (g_ink g) (g_width g) (g_dash g) (g_ctm g) (g_path g)]) (p_proc st).
  (** Setters *)
  Definition set_ink g i := mkgs i (g_width g) (g_dash g) (g_ctm g) (g_path g) (g_point g) (g_start g) (g_font g) (g_outline g).
  Definition set_width g w := mkgs (g_ink g) w (g_dash g) (g_ctm g) (g_path g) (g_point g) (g_start g) (g_font g) (g_outline g).
  Definition set_dash g d := mkgs (g_ink g) (g_width g) d (g_ctm g) (g_path g) (g_point g) (g_start g) (g_font g) (g_outline g).
  Definition set_ctm g m := mkgs (g_ink g) (g_width g) (g_dash g) m (g_path g) (g_point g) (g_start g) (g_font g) (g_outline g).
  Definition set_path g l p s := mkgs (g_ink g) (g_width g) (g_dash g) (g_ctm g) l p s (g_font g) (g_outline g).
  Definition set_font g f := mkgs (g_ink g) (g_width g) (g_dash g) (g_ctm g) (g_path g) (g_point g) (g_start g) (Some f) (g_outline g).
  Definition set_outline g o := mkgs (g_ink g) (g_width g) (g_dash g) (g_ctm g) (g_path g) (g_point g) (g_start g) (g_font g) o.
  Definition newpath (g : gstate) : gstate := set_path g [] None (g_start g).
  Definition moveto (g : gstate) (p : T * T) : gstate := set_path g (g_path g ++ [PMove p]) (Some p) p.
  Definition lineto (g : gstate) (p : T * T) : gstate := set_path g (g_path g ++ [PLine p]) (Some p) (g_start g).

  (** The numbers above the topmost mark, and what is below *)
  Fixpoint to_mark (s : list obj) (acc : list T) : option (list T * list obj) :=
    match s with
    | OMark :: r => Some (acc, r)
    | ONum x :: r => to_mark r (x :: acc)
    | _ => None
    end.

  (** ** Operators *)
  Definition is_op (w : list Z) (s : String.string) : bool := zlist_eqb w (text s).
  Arguments is_op w s%string_scope.
  Definition neg (x : T) : T := nsub (nofZ 0) x.
  Definition on_path (st : ps) (f : gstate -> option gstate) (rest : list obj) : option ps :=
    match f (p_g st) with Some g => Some (with_g (with_stack st rest) g) | None => None end.
  Definition prim (w : list Z) (st : ps) : option ps :=
    let g := p_g st in
    if is_op w "moveto" then
      match p_stack st with ONum y :: ONum x :: r => Some (with_g (with_stack st r) (moveto g (x, y))) | _ => None end
    else if is_op w "lineto" then
      match p_stack st, g_point g with ONum y :: ONum x :: r, Some _ => Some (with_g (with_stack st r) (lineto g (x, y))) | _, _ => None end
    else if is_op w "rmoveto" then
      match p_stack st, g_point g with
      | ONum y :: ONum x :: r, Some (px, py) => Some (with_g (with_stack st r) (moveto g (nadd px x, nadd py y)))
      | _, _ => None
      end
    else if is_op w "setlinewidth" then
      match p_stack st with ONum x :: r => Some (with_g (with_stack st r) (set_width g x)) | _ => None end
    else if is_op w "setgray" then
      match p_stack st with ONum x :: r => Some (with_g (with_stack st r) (set_ink g (PGray x))) | _ => None end
    else if is_op w "setrgbcolor" then
      match p_stack st with
      | ONum b :: ONum gr :: ONum rd :: r => Some (with_g (with_stack st r) (set_ink g (PRGB rd gr b)))
      | _ => None
      end
    else if is_op w "setdash" then
      match p_stack st with ONum o :: OArr l :: r => Some (with_g (with_stack st r) (set_dash g (l, o))) | _ => None end
    else if is_op w "setlinejoin" then
      match p_stack st with ONum _ :: r => Some (with_stack st r) | _ => None end
    else if is_op w "gsave" then Some (mkps (p_stack st) (p_dict st) g (g :: p_saved st) (p_events st) (p_proc st))
    else if is_op w "grestore" then
      match p_saved st with g' :: r => Some (mkps (p_stack st) (p_dict st) g' r (p_events st) (p_proc st)) | [] => None end
    else if is_op w "stroke" then let st := paint_event st EStroke in Some (with_g st (newpath (p_g st)))
    else if is_op w "fill" then let st := paint_event st EFill in Some (with_g st (newpath (p_g st)))
    else if is_op w "newpath" then Some (with_g st (newpath g))
    else if is_op w "closepath" then
      Some (with_g st (match g_point g with None => g | Some _ => set_path g (g_path g ++ [PClose]) (Some (g_start g)) (g_start g) end))
    else if is_op w "arc" then
      (* full circles only: the arc starts and ends at (x + r, y); a current
         point is joined to its start *)
      match p_stack st with
      | ONum b :: ONum a :: ONum rad :: ONum y :: ONum x :: r =>
          let p := (nadd x rad, y) in
          let g := match g_point g with None => moveto g p | Some _ => lineto g p end in
          Some (with_g (with_stack st r) (set_path g (g_path g ++ [PArc (x, y) rad a b]) (Some p) (g_start g)))
      | _ => None
      end
    else if is_op w "arcto" then
      (* the coordinates of the two tangent points are left on the stack (here
         represented by the given points) *)
      match p_stack st, g_point g with
      | ONum rad :: ONum y2 :: ONum x2 :: ONum y1 :: ONum x1 :: r, Some _ =>
          Some (with_g (with_stack st (ONum y2 :: ONum x2 :: ONum y1 :: ONum x1 :: r))
                 (set_path g (g_path g ++ [PArcto (x1, y1) (x2, y2) rad]) (Some (x2, y2)) (g_start g)))
      | _, _ => None
      end
    else if is_op w "translate" then
      match p_stack st with
      | ONum y :: ONum x :: r =>
          let '((sx, sy), (tx, ty)) := g_ctm g in
          Some (with_g (with_stack st r) (set_ctm g ((sx, sy), (nadd (nmul sx x) tx, nadd (nmul sy y) ty))))
      | _ => None
      end
    else if is_op w "scale" then
      match p_stack st with
      | ONum y :: ONum x :: r =>
          let '((sx, sy), t) := g_ctm g in
          Some (with_g (with_stack st r) (set_ctm g ((nmul sx x, nmul sy y), t)))
      | _ => None
      end
    else if is_op w "image" then
      match p_stack st with
      | OProc [KHex data] :: OArr m :: ONum bits :: ONum h :: ONum w :: r => Some (paint_event (with_stack st r) (EImage false w h bits m data))
      | _ => None
      end
    else if is_op w "colorimage" then
      match p_stack st with
      | ONum _ :: OBool false :: OProc [KHex data] :: OArr m :: ONum bits :: ONum h :: ONum w :: r =>
          Some (paint_event (with_stack st r) (EImage true w h bits m data))
      | _ => None
      end
    else if is_op w "false" then Some (push st (OBool false))
    else if is_op w "bind" then match p_stack st with OProc _ :: _ => Some st | _ => None end
    else if is_op w "def" then
      match p_stack st with
      | OProc l :: OLit k :: r => Some (mkps r ((k, l) :: p_dict st) g (p_saved st) (p_events st) (p_proc st))
      | _ => None
      end
    else if is_op w "dup" then match p_stack st with x :: r => Some (with_stack st (x :: x :: r)) | _ => None end
    else if is_op w "pop" then match p_stack st with _ :: r => Some (with_stack st r) | _ => None end
    else if is_op w "exch" then match p_stack st with x :: y :: r => Some (with_stack st (y :: x :: r)) | _ => None end
    else if is_op w "roll" then
      (* n j roll with n = 3 and j = 1 or -1 *)
      match p_stack st with
      | ONum j :: ONum n :: a :: b :: c :: r =>
          if negb (neq n (nofZ 3)) then None
          else if neq j (nofZ (-1)) then Some (with_stack st (c :: a :: b :: r))
          else if neq j (nofZ 1) then Some (with_stack st (b :: c :: a :: r))
          else None
      | _ => None
      end
    else if is_op w "neg" then match p_stack st with ONum x :: r => Some (with_stack st (ONum (neg x) :: r)) | _ => None end
    else if is_op w "sub" then match p_stack st with ONum y :: ONum x :: r => Some (with_stack st (ONum (nsub x y) :: r)) | _ => None end
    else if is_op w "div" then
      match p_stack st with
      | ONum y :: ONum x :: r => match ndivE x y with Ok q => Some (with_stack st (ONum q :: r)) | Err _ => None end
      | _ => None
      end
    else if is_op w "findfont" then match p_stack st with OLit f :: r => Some (with_stack st (OFont f None :: r)) | _ => None end
    else if is_op w "scalefont" then
      match p_stack st with ONum z :: OFont f None :: r => Some (with_stack st (OFont f (Some z) :: r)) | _ => None end
    else if is_op w "setfont" then
      match p_stack st with OFont f (Some z) :: r => Some (with_g (with_stack st r) (set_font g (f, z))) | _ => None end
    else if is_op w "charpath" then
      match p_stack st, g_point g with OBool _ :: OStr s :: r, Some _ => Some (with_g (with_stack st r) (set_outline g (Some s))) | _, _ => None end
    else if is_op w "flattenpath" then Some st
    else if is_op w "pathbbox" then
      match g_outline g, g_font g, g_point g with
      | Some s, Some (f, z), Some (x, y) =>
          let '(w, h) := metric f z s in
          Some (with_stack st (ONum (nadd y h) :: ONum (nadd x w) :: ONum y :: ONum x :: p_stack st))
      | _, _, _ => None
      end
    else if is_op w "show" then
      match p_stack st, g_font g, g_point g with
      | OStr s :: r, Some (f, z), Some (x, y) =>
          let '(dx, dy) := advance f z s in
          let p := (nadd x dx, nadd y dy) in
          let st := paint_event (with_stack st r) (EText s f z) in
          Some (with_g st (set_path g (g_path g ++ [PMove p]) (Some p) p))
      | _, _, _ => None
      end
    else None.

  (** ** Execution *)
  Fixpoint dict_get (w : list Z) (d : list (list Z * list token)) : option (list token) :=
    match d with
    | [] => None
    | (k, l) :: r => if zlist_eqb w k then Some l else dict_get w r
    end.
  Definition exec1 (call : list token -> ps -> option ps) (t : token) (st : ps) : option ps :=
    match p_proc st with
    | Some (d, acc) =>
        let go p := Some (mkps (p_stack st) (p_dict st) (p_g st) (p_saved st) (p_events st) p) in
        match t, d with
        | KBad, _ => None
        | KOpenP, _ => go (Some (S d, acc ++ [t]))
        | KCloseP, O => Some (mkps (OProc acc :: p_stack st) (p_dict st) (p_g st) (p_saved st) (p_events st) None)
        | KCloseP, S d => go (Some (d, acc ++ [t]))
        | _, _ => go (Some (d, acc ++ [t]))
        end
    | None =>
        match t with
        | KNum x => Some (push st (ONum x))
        | KStr s => Some (push st (OStr s))
        | KLit w => Some (push st (OLit w))
        | KHex b => Some (push st (OHex b))
        | KOpenA => Some (push st OMark)
        | KCloseA => match to_mark (p_stack st) [] with Some (l, r) => Some (with_stack st (OArr l :: r)) | None => None end
        | KOpenP => Some (mkps (p_stack st) (p_dict st) (p_g st) (p_saved st) (p_events st) (Some (O, [])))
        | KCloseP | KBad => None
        | KName w =>
            match py_int w with
            | Ok z => Some (push st (ONum (nofZ z)))
            | Err _ => match dict_get w (p_dict st) with Some body => call body st | None => prim w st end
            end
        end
    end.
  (** At most d procedures inside each other *)
  Fixpoint exec (d : nat) : list token -> ps -> option ps :=
    fix go (l : list token) (st : ps) : option ps :=
      match l with
      | [] => Some st
      | t :: r =>
          match exec1 (match d with O => fun _ _ => None | S d => exec d end) t st with
          | Some st => go r st
          | None => None
          end
      end.
  (** The painting operators executed by a file, or None: it is not a
      program, or one that fails. *)
  Definition interpret (file : list (ch T)) : option (list event) :=
    match scan MTop file with
    | (MTop, l) => match exec 3 l ps_init with Some st => Some (p_events st) | None => None end
    | _ => None
    end.
End Ps.
Arguments token T : clear implicits.
Arguments mode T : clear implicits.
Arguments psink T : clear implicits.
Arguments pelt T : clear implicits.
Arguments gstate T : clear implicits.
Arguments kind T : clear implicits.
Arguments event T : clear implicits.
Arguments obj T : clear implicits.
Arguments ps T : clear implicits.
