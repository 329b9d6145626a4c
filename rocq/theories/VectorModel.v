(** Model of coral/vector.py (the Canvas class and read_defs). Export and
    animation are in ExportModel.v. *)
From Verif Require Import Num BBoxModel StrModel Text.
Open Scope Z_scope.

(** The text of a drawing. The decimal text of a number is not modelled: a
    formatted number is kept as one symbol [N x]. *)
Inductive ch (T : Type) := C (c : Z) | N (x : T).
Arguments C {T} c.
Arguments N {T} x.

(** vector.py:39-54 *)
Definition COMMONDEF : list Z := text "
/bd {bind def} bind def
/m {moveto} bd
/rm {rmoveto} bd
/l {lineto} bd
/rl {rlineto} bd
/w {setlinewidth} bd
/v {setgray} bd
/rgb {setrgbcolor} bd
/gs {gsave} bd
/gr {grestore} bd
/s {stroke} bd
/f {fill} bd
/np {newpath} bd
/cp {closepath} bd
".
(** defs.ps *)
Definition DEFS_PS : list Z := text "/sz { % (string) fontsize fontname -- (string) dy dx
    findfont exch scalefont setfont % s
    gs
        dup false charpath flattenpath pathbbox % s x0 y0 x1 y1
    gr
    3 -1 roll sub % s x0 x1 dy
    3 1 roll sub neg % s dy dx
} bd

/sc { % (string) fontsize fontname x y
    m sz -2 div exch -2 div rm show
} bd

/st { % (string) fontsize fontname x y
    m sz -2 div exch neg rm show
} bd

/str { % (string) fontsize fontname x y
    m sz neg exch neg rm show
} bd

/sr { % (string) fontsize fontname x y
    m sz neg exch -2 div rm show
} bd

/sbr { % (string) fontsize fontname x y
    m sz neg exch pop 0 rm show
} bd

/sb { % (string) fontsize fontname x y
    m sz -2 div exch pop 0 rm show
} bd

/sbl { % (string) fontsize fontname x y
    m sz pop 0 exch pop 0 rm show
} bd

/sl { % (string) fontsize fontname x y
    m sz pop 0 exch -2 div rm show
} bd

/stl { % (string) fontsize fontname x y
    m sz pop 0 exch neg rm show
} bd

".

(** src.index(' ') *)
Fixpoint index_char (c : Z) (s : list Z) : res nat :=
  match s with
  | [] => Err ValueError
  | x :: r => if x =? c then Ok O else rmap S (index_char c r)
  end.
(** The lines of a file, line ends kept *)
Fixpoint lines_of (cur s : list Z) : list (list Z) :=
  match s with
  | [] => match cur with [] => [] | _ => [rev cur] end
  | c :: r => if c =? 10 then rev (c :: cur) :: lines_of [] r else lines_of (c :: cur) r
  end.
(** vector.py:56-70; defs is a dictionary: the pairs in order of insertion. *)
Fixpoint read_blocks (src : list Z) (lines : list (list Z)) : res (list (list Z * list Z)) :=
  match lines with
  | [] => Ok []
  | line :: r =>
      match rstrip_by is_space line with
      | _ :: _ => read_blocks (src ++ line) r
      | [] =>
          i <- index_char 32 src ;;
          let key := py_slice src 1 (Z.of_nat i) in
          rmap (cons (key, src)) (read_blocks [] r)
      end
  end.
Definition read_defs (content : list Z) : res (list (list Z) * list (list Z * list Z)) :=
  rmap (fun l => (map fst l, l)) (read_blocks [] (lines_of [] content)).
(** vector.py:73 *)
Definition KEYS : list (list Z) := match read_defs DEFS_PS with Ok (k, _) => k | Err _ => [] end.
Definition DEFS : list (list Z * list Z) := match read_defs DEFS_PS with Ok (_, d) => d | Err _ => [] end.
(** DEFS[key] *)
Fixpoint defs_get (key : list Z) (d : list (list Z * list Z)) : res (list Z) :=
  match d with
  | [] => Err KeyError
  | (k, v) :: r => if zlist_eqb k key then Ok v else defs_get key r
  end.
Definition ANCHORS : list (list Z) := [text "c"; text "t"; text "tr"; text "r"; text "br"; text "b"; text "bl"; text "l"; text "tl"].
(** vector.py:74, DEPS.get(key, set()) *)
Definition DEPS_get (key : list Z) : list (list Z) :=
  if existsb (zlist_eqb key) ([text "sc"; text "st"; text "str"; text "sr"; text "sbr"; text "sb"; text "sbl"; text "sl"; text "stl"]) then [text "sz"] else [].
Definition set_add (k : list Z) (s : list (list Z)) : list (list Z) := if existsb (zlist_eqb k) s then s else s ++ [k].

(** "{:02x}".format(v) *)
Definition hexdigit (d : Z) : Z := if d <? 10 then 48 + d else 87 + d.
Fixpoint hex_of (fuel : nat) (v : Z) : list Z :=
  match fuel with
  | O => []
  | S f => if v <? 16 then [hexdigit v] else hex_of f (v / 16) ++ [hexdigit (v mod 16)]
  end.
Definition fmt02x (v : Z) : list Z :=
  if v <? 0 then 45 :: hex_of (S (Z.to_nat (Z.log2 (- v)))) (- v)
  else let h := hex_of (S (Z.to_nat (Z.log2 v))) v in if (length h <? 2)%nat then 48 :: h else h.

Section Vector.
  Context {T : Type} `{PyNum T}.
  Notation line := (list (ch T)) (only parsing).
  Notation pt := (T * T)%type (only parsing).
  Definition tx (s : String.string) : line := map C (text s).
  Arguments tx s%string_scope.
  Definition sp : line := [C 32].

  (** An ink argument: a number, a tuple or something else. *)
  Inductive ink := IGray (v : T) | ITuple (l : list T) | IOther.
  (** The cached graphics state (vector.py:32-37). The dash pattern is a list
      owned by the caller and kept by reference: [d] names a list in the heap. *)
  Record cstate := mkcs { cs_color : list T; cs_gray : T; cs_width : T; cs_dash : nat * T }.
  (** Lists by reference; the list of PSDEFAULTS is number 0 and empty. *)
  Definition heap := nat -> list T.
  Definition heap_set (h : heap) (d : nat) (l : list T) : heap := fun k => if Nat.eqb k d then l else h k.
  Record canvas := mkcv { cv_bg : option ink; cv_lines : list line; cv_bbox : bbox T; cv_state : cstate; cv_deps : list (list Z) }.
  Definition PSDEFAULTS : cstate := mkcs [nofZ 0; nofZ 0; nofZ 0] (nofZ 0) (nofZ 1) (0%nat, nofZ 0).

  (** vector.py:78-88. Only numbers and tuples are backgrounds. *)
  Definition canvas_new (bg : option ink) : canvas :=
    let st := match bg with
              | Some (ITuple l) => mkcs l (cs_gray PSDEFAULTS) (cs_width PSDEFAULTS) (cs_dash PSDEFAULTS)
              | Some (IGray v) => mkcs (cs_color PSDEFAULTS) v (cs_width PSDEFAULTS) (cs_dash PSDEFAULTS)
              | _ => PSDEFAULTS
              end in
    mkcv bg [] bb_empty st [].
  (** vector.py:90-96 *)
  Definition canvas_copy (c : canvas) : canvas := mkcv (cv_bg c) (cv_lines c) (bb_copy (cv_bbox c)) (cv_state c) (cv_deps c).
  (** vector.py:98-99 *)
  Definition resetbbox (c : canvas) : canvas := mkcv (cv_bg c) (cv_lines c) bb_empty (cv_state c) (cv_deps c).
  Definition emit (c : canvas) (l : line) : canvas := mkcv (cv_bg c) (cv_lines c ++ [l]) (cv_bbox c) (cv_state c) (cv_deps c).
  Definition with_state (c : canvas) (s : cstate) : canvas := mkcv (cv_bg c) (cv_lines c) (cv_bbox c) s (cv_deps c).
  (** self.bbox |= b *)
  Definition grow (c : canvas) (b : bbox T) : canvas := mkcv (cv_bg c) (cv_lines c) (bb_or (cv_bbox c) b) (cv_state c) (cv_deps c).

  (** Equality of lists and tuples of numbers *)
  Fixpoint nums_eqb (a b : list T) : bool :=
    match a, b with
    | [], [] => true
    | x :: a, y :: b => neq x y && nums_eqb a b
    | _, _ => false
    end.

  (** vector.py:101-106 *)
  Definition setgray (c : canvas) (v : T) : canvas :=
    let s := cv_state c in
    if neq (cs_gray s) v then c
    else with_state (emit c ([N v] ++ tx " v")) (mkcs (cs_color s) v (cs_width s) (cs_dash s)).
  (** vector.py:108-113 *)
  Definition setcolor (c : canvas) (r g b : T) : canvas :=
    let s := cv_state c in
    if nums_eqb (cs_color s) [r; g; b] then c
    else with_state (emit c ([N r] ++ sp ++ [N g] ++ sp ++ [N b] ++ tx " rgb")) (mkcs [r; g; b] (cs_gray s) (cs_width s) (cs_dash s)).
  (** vector.py:115-122 *)
  Definition setink (c : canvas) (i : ink) : canvas * res unit :=
    match i with
    | ITuple [r; g; b] => (setcolor c r g b, Ok tt)
    | ITuple _ => (c, Err TypeError)
    | IGray v => (setgray c v, Ok tt)
    | IOther => (c, Err TypeError)
    end.
  (** vector.py:124-129 *)
  Definition setwidth (c : canvas) (w : T) : canvas :=
    let s := cv_state c in
    if neq (cs_width s) w then c
    else with_state (emit c ([N w] ++ tx " w")) (mkcs (cs_color s) (cs_gray s) w (cs_dash s)).
  (** " ".join(map(str, pattern)) *)
  Fixpoint join_nums (l : list T) : line :=
    match l with
    | [] => []
    | [x] => [N x]
    | x :: r => [N x] ++ sp ++ join_nums r
    end.
  (** vector.py:131-137; the pattern is the list named d. *)
  Definition setdash (h : heap) (c : canvas) (d : nat) (offset : T) : canvas :=
    let s := cv_state c in
    if nums_eqb (h (fst (cs_dash s))) (h d) && neq (snd (cs_dash s)) offset then c
    else with_state (emit c (tx "[" ++ join_nums (h d) ++ tx "] " ++ [N offset] ++ tx " setdash"))
           (mkcs (cs_color s) (cs_gray s) (cs_width s) (d, offset)).

  (** vector.py:144-153, 194-203 and 217-226: fill and stroke; an exception
      leaves the lines emitted so far. *)
  Definition paint (c : canvas) (fill stroke : option ink) : canvas * res unit :=
    let '(c, r) :=
      match fill with
      | None => (c, Ok tt)
      | Some i =>
          let c := match stroke with Some _ => emit c (tx "gs") | None => c end in
          let '(c, r) := setink c i in
          match r with Ok _ => (emit c (tx "f"), Ok tt) | Err e => (c, Err e) end
      end in
    match r with
    | Err e => (c, Err e)
    | Ok _ =>
        match stroke with
        | None => (c, Ok tt)
        | Some i =>
            let c := match fill with Some _ => emit c (tx "gr") | None => c end in
            let '(c, r) := setink c i in
            match r with Ok _ => (emit c (tx "s"), Ok tt) | Err e => (c, Err e) end
        end
    end.
  (** What follows a drawing step that did not raise *)
  Definition and_then (x : canvas * res unit) (f : canvas -> canvas * res unit) : canvas * res unit :=
    match x with (c, Ok _) => f c | (c, Err e) => (c, Err e) end.

  (** vector.py:139-154 *)
  Definition addcircle (c : canvas) (center : pt) (r : T) (fill stroke : option ink) : canvas * res unit :=
    let '(x, y) := center in
    let c := emit c ([N x] ++ sp ++ [N y] ++ sp ++ [N r] ++ tx " 0 360 arc cp") in
    and_then (paint c fill stroke) (fun c => (grow c (bb_corners (nsub x r, nsub y r) (nadd x r, nadd y r)), Ok tt)).
  Definition point_line (p : pt) (op : String.string) : line := [N (fst p)] ++ sp ++ [N (snd p)] ++ tx op.
  Arguments point_line p op%string_scope.
  (** vector.py:156-175 *)
  Definition addpolyline (c : canvas) (points : list pt) (stroke : option ink) : canvas * res unit :=
    match points with
    | [] => (c, Ok tt)
    | p :: r =>
        let c := emit (emit c (tx "np")) (point_line p " m") in
        let c := fold_left (fun c q => emit c (point_line q " l")) r c in
        let b := fold_left bb_grow r (bb_corners p p) in
        and_then (match stroke with Some i => setink c i | None => (c, Ok tt) end)
          (fun c => (grow (emit c (tx "s")) b, Ok tt))
    end.
  (** vector.py:177-204 *)
  Definition addpolygon (c : canvas) (points : list pt) (fill stroke : option ink) : canvas * res unit :=
    match points with
    | [] => (c, Ok tt)
    | p :: r =>
        let c := emit (emit c (tx "np")) (point_line p " m") in
        let c := fold_left (fun c q => emit c (point_line q " l")) r c in
        let b := fold_left bb_grow r (bb_corners p p) in
        and_then (paint (emit c (tx "cp")) fill stroke) (fun c => (grow c b, Ok tt))
    end.
  (** vector.py:206-227; points is a list. *)
  Definition addroundedpolygon (c : canvas) (points : list pt) (radius : T) (fill stroke : option ink) : canvas * res unit :=
    let c := emit c (tx "np") in
    match points with
    | (x1, y1) :: (x2, y2) :: _ =>
        let startend := (ndiv (nadd x1 x2) (nofZ 2), ndiv (nadd y1 y2) (nofZ 2)) in
        let poly := [startend] ++ tl points ++ firstn 1 points in
        let c := emit c (point_line startend " m") in
        let c := fold_left (fun c ab => let '((x1, y1), (x2, y2)) := ab in
                   emit c ([N x1] ++ sp ++ [N y1] ++ sp ++ [N x2] ++ sp ++ [N y2] ++ sp ++ [N radius] ++ tx " arcto"))
                   (combine (tl poly) (tl (tl poly) ++ firstn 1 poly)) c in
        and_then (paint (emit c (tx "cp")) fill stroke)
          (fun c => match bb_of_points points with Ok b => (grow c b, Ok tt) | Err e => (c, Err e) end)
    | _ => (c, Err ValueError)
    end.
  (** vector.py:229-237 *)
  Definition addtext (c : canvas) (pos : pt) (s : list Z) (size : T) (font anchor : list Z) : canvas * res unit :=
    if existsb (zlist_eqb anchor) ANCHORS then
      let key := 115 :: anchor in
      let '(x, y) := pos in
      let c := emit c (tx "(" ++ map C s ++ tx ") " ++ [N size] ++ tx " /" ++ map C font ++ sp ++ [N x] ++ sp ++ [N y] ++ sp ++ map C key) in
      (mkcv (cv_bg c) (cv_lines c) (cv_bbox c) (cv_state c) (fold_left (fun s k => set_add k s) (DEPS_get key) (set_add key (cv_deps c))), Ok tt)
    else (c, Err AssertionError).
  (** vector.py:255-260: the rows *)
  Fixpoint image_rows (n : nat) (cwidth : Z) (data : list Z) (a : Z) : list line :=
    match n with
    | O => []
    | S m => map C (flat_map fmt02x (py_slice data a (a + cwidth))) :: image_rows m cwidth data (a + cwidth)
    end.
  (** vector.py:239-267; width is an int. *)
  Definition addimage (c : canvas) (data : list Z) (width : Z) (position : option pt) (scale : T) (color : bool) : canvas * res unit :=
    let cwidth := if color then 3 * width else width in
    if cwidth =? 0 then (c, Err ZeroDivisionError)
    else
      let height := Z.of_nat (length data) / cwidth in
      let swidth := nmul (nofZ width) scale in
      let sheight := nmul (nofZ height) scale in
      let c := emit c (tx "gs") in
      let c := match position with
               | Some (x, y) => emit c ([N x] ++ sp ++ [N y] ++ tx " translate")
               | None => c
               end in
      let c := emit c ([N swidth] ++ sp ++ [N sheight] ++ tx " scale") in
      let c := emit c ([N (nofZ width)] ++ sp ++ [N (nofZ height)] ++ tx " 8 [" ++ [N (nofZ width)] ++ tx " 0 0 " ++ [N (nofZ (- height))] ++ tx " 0 "
                       ++ [N (nofZ height)] ++ tx "]") in
      let c := emit c (tx "{<") in
      let c := fold_left emit (image_rows (Z.to_nat height) cwidth data 0) c in
      let c := emit c (tx ">}") in
      let c := emit c (if color then tx "false 3 colorimage" else tx "image") in
      let c := emit c (tx "gr") in
      let '(x, y) := match position with Some p => p | None => (nofZ 0, nofZ 0) end in
      (grow c (bb_corners (x, y) (nadd swidth x, nadd sheight y)), Ok tt).

  (** vector.py:269-307: the lines written by save, each followed by a line
      break in the file. *)
  Definition save_header (c : canvas) (size : option T) (margin : T) : res (list line) :=
    let bb := cv_bbox c in
    let '(x0, y0, x1, y1) :=
      match size with
      | None => (nsub (bx0 bb) margin, nsub (by0 bb) margin, nadd (bx1 bb) margin, nadd (by1 bb) margin)
      | Some s => (nofZ 0, nofZ 0, s, s)
      end in
    defs <- mapM (fun key => rmap (map C) (defs_get key DEFS)) (filter (fun k => existsb (zlist_eqb k) (cv_deps c)) KEYS) ;;
    bg <- match cv_bg c with
          | None => Ok []
          | Some i =>
              col <- match i with
                     | ITuple (r :: g :: b :: _) => Ok ([N r] ++ sp ++ [N g] ++ sp ++ [N b] ++ tx " rgb f")
                     | ITuple _ => Err IndexError
                     | IGray v => Ok ([N v] ++ tx " v f")
                     | IOther => Err TypeError
                     end ;;
              Ok [tx "np " ++ [N x0] ++ sp ++ [N y0] ++ tx " m " ++ [N x1] ++ sp ++ [N y0] ++ tx " l " ++ [N x1] ++ sp ++ [N y1] ++ tx " l "
                  ++ [N x0] ++ sp ++ [N y1] ++ tx " l cp"; col]
          end ;;
    fit <- match size with
           | None => Ok []
           | Some s =>
               scl <- ndivE (nsub s margin) (nmax (bb_width bb) (bb_height bb)) ;;
               let '(cx, cy) := bb_center bb in
               Ok [[N (ndiv s (nofZ 2))] ++ sp ++ [N (ndiv s (nofZ 2))] ++ tx " translate";
                   [N scl] ++ sp ++ [N scl] ++ tx " scale";
                   [N (nsub (nofZ 0) cx)] ++ sp ++ [N (nsub (nofZ 0) cy)] ++ tx " translate"]
           end ;;
    Ok ([tx "%!PS-Adobe-3.0 EPSF-3.0";
         tx "%%BoundingBox: " ++ [N x0] ++ sp ++ [N y0] ++ sp ++ [N x1] ++ sp ++ [N y1];
         map C COMMONDEF; tx "1 setlinejoin"] ++ defs ++ bg ++ fit ++ [[]]).
  Definition save (c : canvas) (size : option T) (margin : T) : res line :=
    pre <- save_header c size margin ;;
    Ok (flat_map (fun l => l ++ [C 10]) (pre ++ cv_lines c)).

  (** A history of method calls. [OMutate d l]: the caller changes a list. *)
  Inductive op :=
  | OSetgray (v : T) | OSetcolor (r g b : T) | OSetink (i : ink) | OSetwidth (w : T) | OSetdash (d : nat) (offset : T)
  | OCircle (center : pt) (r : T) (fill stroke : option ink)
  | OPolyline (points : list pt) (stroke : option ink)
  | OPolygon (points : list pt) (fill stroke : option ink)
  | ORounded (points : list pt) (radius : T) (fill stroke : option ink)
  | OText (pos : pt) (s : list Z) (size : T) (font anchor : list Z)
  | OImage (data : list Z) (width : Z) (position : option pt) (scale : T) (color : bool)
  | OReset
  | OMutate (d : nat) (l : list T).
  Definition perform (h : heap) (c : canvas) (o : op) : heap * (canvas * res unit) :=
    match o with
    | OSetgray v => (h, (setgray c v, Ok tt))
    | OSetcolor r g b => (h, (setcolor c r g b, Ok tt))
    | OSetink i => (h, setink c i)
    | OSetwidth w => (h, (setwidth c w, Ok tt))
    | OSetdash d off => (h, (setdash h c d off, Ok tt))
    | OCircle p r f s => (h, addcircle c p r f s)
    | OPolyline l s => (h, addpolyline c l s)
    | OPolygon l f s => (h, addpolygon c l f s)
    | ORounded l r f s => (h, addroundedpolygon c l r f s)
    | OText p s z f a => (h, addtext c p s z f a)
    | OImage d w p z col => (h, addimage c d w p z col)
    | OReset => (h, (resetbbox c, Ok tt))
    | OMutate d l => (heap_set h d l, (c, Ok tt))
    end.
  (** A history without exceptions *)
  Fixpoint history (h : heap) (c : canvas) (l : list op) : option (heap * canvas) :=
    match l with
    | [] => Some (h, c)
    | o :: r => match perform h c o with
                | (h, (c, Ok _)) => history h c r
                | (_, (_, Err _)) => None
                end
    end.
End Vector.
Arguments tx {T} s%string_scope.
Arguments point_line {T} p op%string_scope.
Arguments ink T : clear implicits.
Arguments cstate T : clear implicits.
Arguments heap T : clear implicits.
Arguments canvas T : clear implicits.
Arguments op T : clear implicits.
