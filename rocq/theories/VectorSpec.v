(** Vocabulary of the statements about drawings: what was asked for. *)
From Verif Require Import Num BBoxModel StrModel Text VectorModel PsSpec.
Open Scope Z_scope.

(** A string that can stand between parentheses as it is: no backslash and
    balanced parentheses *)
Fixpoint nest (d : nat) (s : list Z) : option nat :=
  match s with
  | [] => Some d
  | c :: r => if c =? 40 then nest (S d) r else if c =? 41 then match d with O => None | S d => nest d r end else nest d r
  end.
Definition good_string (s : list Z) : Prop := ~ In 92 s /\ nest 0 s = Some O.
(** A font name without white space and delimiters *)
Definition good_font (f : list Z) : Prop := Forall (fun c => ps_regular c = true) f.
Definition is_byte (v : Z) : Prop := 0 <= v < 256.

Section Spec.
  Context {T : Type} `{PyNum T}.

  (** Numbers whose equality test is equality *)
  Definition exact_eq : Prop := (forall a b : T, neq a b = true <-> a = b) /\ (forall a b : Z, nofZ a = nofZ b -> a = b).

  Definition ink_of (i : ink T) : option (psink T) :=
    match i with IGray v => Some (PGray v) | ITuple [r; g; b] => Some (PRGB r g b) | _ => None end.
  (** Ink, width and dash last asked for *)
  Record want := mkwant { q_ink : psink T; q_width : T; q_dash : list T * T }.
  Definition want_ink (q : want) (i : option (ink T)) : want :=
    match i with
    | Some i => match ink_of i with Some k => mkwant k (q_width q) (q_dash q) | None => q end
    | None => q
    end.
  (** A painting operation asked for; the path of a fill or stroke *)
  Inductive what := WFill (path : list (pelt T)) | WStroke (path : list (pelt T))
    | WText (pos : T * T) (s font : list Z) (size : T) (anchor : list Z)
    | WImage (color : bool) (width height : Z) (data : list Z) (pos : option (T * T)) (swidth sheight : T).
  Record order := mkorder { o_what : what; o_ink : psink T; o_width : T; o_dash : list T * T }.
  Definition order_of (q : want) (w : what) : order := mkorder w (q_ink q) (q_width q) (q_dash q).
  Definition shape (q : want) (path : list (pelt T)) (fill stroke : option (ink T)) : list order :=
    match fill with Some _ => [order_of (want_ink q fill) (WFill path)] | None => [] end ++
    match stroke with Some _ => [order_of (want_ink q stroke) (WStroke path)] | None => [] end.

  Definition line_path (points : list (T * T)) : list (pelt T) :=
    match points with [] => [] | p :: r => PMove p :: map PLine r end.
  (** Corners p2 ... pn p1, each rounded on the way to the next one and the
      last on the way to the middle of p1 p2, where the path starts. *)
  Definition rounded_path (points : list (T * T)) (r : T) : list (pelt T) :=
    match points with
    | p1 :: p2 :: rest =>
        let mid := (ndiv (nadd (fst p1) (fst p2)) (nofZ 2), ndiv (nadd (snd p1) (snd p2)) (nofZ 2)) in
        PMove mid :: map (fun ab => PArcto (fst ab) (snd ab) r) (combine (p2 :: rest ++ [p1]) (rest ++ [p1; mid])) ++ [PClose]
    | _ => []
    end.
  Definition circle (c : T * T) (r : T) : list (pelt T) := [PMove (nadd (fst c) r, snd c); PArc c r (nofZ 0) (nofZ 360); PClose].

  (** The painting operations a history asks for *)
  Definition asks (h : heap T) (q : want) (o : op T) : list order * want :=
    match o with
    | OSetgray v => ([], mkwant (PGray v) (q_width q) (q_dash q))
    | OSetcolor r g b => ([], mkwant (PRGB r g b) (q_width q) (q_dash q))
    | OSetink i => ([], want_ink q (Some i))
    | OSetwidth w => ([], mkwant (q_ink q) w (q_dash q))
    | OSetdash d off => ([], mkwant (q_ink q) (q_width q) (h d, off))
    | OCircle c r f s => (shape q (circle c r) f s, want_ink (want_ink q f) s)
    | OPolyline [] _ => ([], q)
    | OPolyline l s => ([order_of (want_ink q s) (WStroke (line_path l))], want_ink q s)
    | OPolygon [] _ _ => ([], q)
    | OPolygon l f s => (shape q (line_path l ++ [PClose]) f s, want_ink (want_ink q f) s)
    | ORounded l r f s => (shape q (rounded_path l r) f s, want_ink (want_ink q f) s)
    | OText p s z f a => ([order_of q (WText p s f z a)], q)
    | OImage data w p z col =>
        let cw := if col then 3 * w else w in
        let ht := Z.of_nat (length data) / cw in
        ([order_of q (WImage col w ht (firstn (Z.to_nat (cw * ht)) data) p (nmul (nofZ w) z) (nmul (nofZ ht) z))], q)
    | OReset => ([], q)
    | OMutate _ _ => ([], q)
    end.
  Definition after_op (h : heap T) (o : op T) : heap T := match o with OMutate d l => heap_set h d l | _ => h end.
  Fixpoint orders (h : heap T) (q : want) (l : list (op T)) : list order :=
    match l with
    | [] => []
    | o :: r => fst (asks h q o) ++ orders (after_op h o) (snd (asks h q o)) r
    end.

  (** Arguments the drawing can carry *)
  Definition good_op (o : op T) : Prop :=
    match o with
    | OText _ s _ f _ => good_string s /\ good_font f
    | OImage data w _ _ _ => Forall is_byte data /\ 0 < w
    | _ => True
    end.
  (** No list is changed after it was given to setdash. *)
  Fixpoint lists_kept (used : list nat) (l : list (op T)) : Prop :=
    match l with
    | [] => True
    | OSetdash d _ :: r => lists_kept (d :: used) r
    | OMutate d _ :: r => ~ In d used /\ lists_kept used r
    | _ :: r => lists_kept used r
    end.

  (** What is painted *)
  Definition kind_of (e : event T) (w : what) : Prop :=
    match w with
    | WFill _ => e_kind e = EFill
    | WStroke _ => e_kind e = EStroke
    | WText _ s f z _ => e_kind e = EText s f z
    | WImage col w h data _ _ _ =>
        e_kind e = EImage col (nofZ w) (nofZ h) (nofZ 8) [nofZ w; nofZ 0; nofZ 0; nofZ (- h); nofZ 0; nofZ h] data
    end.
  Definition path_of (e : event T) (w : what) : Prop :=
    match w with WFill p | WStroke p => e_path e = p | _ => True end.
  (** In which coordinates: [ctm] is the transformation of the page; an image
      fills the unit square of its own coordinates. *)
  Definition placed (ctm : (T * T) * (T * T)) (e : event T) (w : what) : Prop :=
    match w with
    | WImage _ _ _ _ p sw sh =>
        let '((sx, sy), (tx, ty)) := ctm in
        e_ctm e = ((nmul sx sw, nmul sy sh), match p with Some (x, y) => (nadd (nmul sx x) tx, nadd (nmul sy y) ty) | None => (tx, ty) end)
    | _ => e_ctm e = ctm
    end.
  (** Gray is equal amounts of red, green and blue. *)
  Definition rgb (i : psink T) : T * T * T := match i with PGray v => (v, v, v) | PRGB r g b => (r, g, b) end.

  (** All inks of an operation *)
  Definition inks_of (o : op T) : list (ink T) :=
    match o with
    | OSetgray v => [IGray v]
    | OSetcolor r g b => [ITuple [r; g; b]]
    | OSetink i => [i]
    | OCircle _ _ f s | OPolygon _ f s | ORounded _ _ f s =>
        match f with Some i => [i] | None => [] end ++ match s with Some i => [i] | None => [] end
    | OPolyline _ s => match s with Some i => [i] | None => [] end
    | _ => []
    end.
  (** Those that are asked for: nothing is drawn without points. *)
  Definition asked (o : op T) : list (ink T) :=
    match o with OPolyline [] _ | OPolygon [] _ _ => [] | _ => inks_of o end.
  (** The last gray and the last colour; black at first *)
  Definition last_gray (l : list (ink T)) : T := fold_left (fun g i => match i with IGray v => v | _ => g end) l (nofZ 0).
  Definition last_color (l : list (ink T)) : list T :=
    fold_left (fun c i => match i with ITuple t => t | _ => c end) l [nofZ 0; nofZ 0; nofZ 0].
  Definition all_gray (l : list (ink T)) : Prop := forall i, In i l -> exists v, i = IGray v.
  Definition all_rgb (l : list (ink T)) : Prop := forall i, In i l -> exists r g b, i = ITuple [r; g; b].
  (** Not filled and stroked with the same ink *)
  Definition two_inks (o : op T) : Prop :=
    match o with
    | OCircle _ _ (Some f) (Some s) | OPolygon _ (Some f) (Some s) | ORounded _ _ (Some f) (Some s) => f <> s
    | _ => True
    end.
  (** No circle right after something that leaves a current point: a text or a
      circle that was neither filled nor stroked. *)
  Fixpoint circles_apart (pending : bool) (l : list (op T)) : Prop :=
    match l with
    | [] => True
    | OCircle _ _ f s :: r => pending = false /\ circles_apart (match f, s with None, None => true | _, _ => false end) r
    | OPolyline (_ :: _) _ :: r => circles_apart false r
    | (OPolygon (_ :: _) f s | ORounded _ _ f s) :: r => circles_apart (match f, s with None, None => true | _, _ => false end) r
    | OText _ _ _ _ _ :: r => circles_apart true r
    | _ :: r => circles_apart pending r
    end.

  (** The start: background ink or black, width 1, no dashes *)
  Definition bg_ink (bg : option (ink T)) : option (psink T) :=
    match bg with Some (ITuple (r :: g :: b :: _)) => Some (PRGB r g b) | Some (IGray v) => Some (PGray v) | _ => None end.
  Definition want_start (bg : option (ink T)) : want :=
    mkwant (match bg_ink bg with Some k => k | None => PGray (nofZ 0) end) (nofZ 1) ([], nofZ 0).
  Definition box_path (x0 y0 x1 y1 : T) : list (pelt T) := [PMove (x0, y0); PLine (x1, y0); PLine (x1, y1); PLine (x0, y1); PClose].
  (** The page: the bounding box and a margin, or the given square *)
  Definition page (b : bbox T) (size : option T) (margin : T) : T * T * T * T :=
    match size with
    | None => (nsub (bx0 b) margin, nsub (by0 b) margin, nadd (bx1 b) margin, nadd (by1 b) margin)
    | Some s => (nofZ 0, nofZ 0, s, s)
    end.
  Definition plain_ctm : (T * T) * (T * T) := ((nofZ 1, nofZ 1), (nofZ 0, nofZ 0)).
  Definition bg_event (bg : option (ink T)) (b : bbox T) (size : option T) (margin : T) : list (event T) :=
    match bg_ink bg with
    | Some k => let '(x0, y0, x1, y1) := page b size margin in [mkev EFill k (nofZ 1) ([], nofZ 0) plain_ctm (box_path x0 y0 x1 y1)]
    | None => []
    end.
End Spec.
Arguments want T : clear implicits.
Arguments what T : clear implicits.
Arguments order T : clear implicits.
Arguments exact_eq T {H}.
