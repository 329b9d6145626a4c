(** Model of coral/raster.py. Canvases are records of their size and buffer;
    a drawing method is the list of its pixel writes in order, applied by
    [paint]; when a write raises, the partly painted canvas is not followed.
    Coordinates are ints except where stated. *)
From Verif Require Import Num PfModel SimplifyModel StrModel.
Open Scope Z_scope.

(** int(x): truncation, and the sign copysign sees. *)
Class PyInt (T : Type) : Type := { nint : T -> Z; nneg : T -> bool }.
#[export] Instance IntQ : PyInt Q := { nint := q_trunc; nneg := fun x => Qlt_bool x 0 }.
#[export] Instance IntF : PyInt f64 := { nint := f_trunc; nneg := f_sign }.

(** range(a, b) *)
Definition zfromto (a b : Z) : list Z := map (fun k => a + Z.of_nat k) (seq 0 (Z.to_nat (b - a))).
(** zip(points, points[1:] + points[:1]) *)
Definition edges {A} (l : list A) : list (A * A) := combine l (tl l ++ firstn 1 l).

(** ** Scan conversion *)
Definition mark : Type := (Z * bool)%type.
(** Order of (int, bool) tuples *)
Definition mark_leb (a b : mark) : bool :=
  (fst a <? fst b) || ((fst a =? fst b) && implb (snd a) (snd b)).
(** heapq.heappush. Equal tuples are indistinguishable, so a heap is represented
    by the sorted list of its elements, in the order heappop gives them. *)
Fixpoint heappush (m : mark) (h : list mark) : list mark :=
  match h with
  | [] => [m]
  | x :: r => if mark_leb m x then m :: h else x :: heappush m r
  end.
(** heapq.heappush(scans[y], m) *)
Definition push_row (scans : list (list mark)) (y : Z) (m : mark) : res (list (list mark)) :=
  h <- py_get scans y ;; py_set scans y (heappush m h).

Section Scan.
  Context {T : Type} `{PyNum T} `{PyRound T}.
  (** raster.py:50-60: [n] rows from [y] on; the scans as left by the loop
      and how it ended. *)
  Fixpoint scan_rows (n : nat) (y : Z) (x : T) (step : T) (down : bool) (scans : list (list mark))
    : list (list mark) * res unit :=
    match n with
    | O => (scans, Ok tt)
    | S k =>
        match push_row scans y (nround x, down) with
        | Err e => (scans, Err e)
        | Ok scans => scan_rows k (y + 1) (nadd x step) step down scans
        end
    end.
  (** The same for a vertical edge (raster.py:50-53): x0 is not changed. *)
  Fixpoint scan_vertical (n : nat) (y x : Z) (down : bool) (scans : list (list mark))
    : list (list mark) * res unit :=
    match n with
    | O => (scans, Ok tt)
    | S k =>
        match push_row scans y (x, down) with
        | Err e => (scans, Err e)
        | Ok scans => scan_vertical k (y + 1) x down scans
        end
    end.
  Definition nabs (x : T) : T := if nlt x (nofZ 0) then nsub (nofZ 0) x else x.
  (** raster.py:43-60, one edge *)
  Definition scan_edge (e : (Z * Z) * (Z * Z)) (scans : list (list mark)) : list (list mark) * res unit :=
    let '((x0, y0), (x1, y1)) := e in
    if y0 =? y1 then (scans, Ok tt)
    else
      let down := y0 <? y1 in
      let '((x0, y0), (x1, y1)) := if down then ((x0, y0), (x1, y1)) else ((x1, y1), (x0, y0)) in
      let n := Z.to_nat (y1 - y0) in
      if x0 =? x1 then scan_vertical n y0 x0 down scans
      else
        let sx := if x0 <? x1 then 1 else -1 in
        let slope := nabs (ndiv (nofZ (y1 - y0)) (nofZ (x1 - x0))) in
        scan_rows n y0 (nofZ x0) (ndiv (nofZ sx) slope) down scans.
  Fixpoint scan_edges (es : list ((Z * Z) * (Z * Z))) (scans : list (list mark))
    : list (list mark) * res unit :=
    match es with
    | [] => (scans, Ok tt)
    | e :: r =>
        match scan_edge e scans with
        | (scans, Err x) => (scans, Err x)
        | (scans, Ok _) => scan_edges r scans
        end
    end.
  (** raster.py:34-61 *)
  Definition scanpolygon (height : Z) (points : list (Z * Z)) (scans : option (list (list mark)))
    : list (list mark) * res unit :=
    let scans := match scans with None => repeat [] (Z.to_nat height) | Some s => s end in
    scan_edges (edges points) scans.
End Scan.

(** raster.py:70-78: the x of the pixels painted, and the marks left;
    heappop of an empty heap raises IndexError. *)
Fixpoint fill_loop (width x0 : Z) (d0 : bool) (x1 : Z) (d1 : bool) (marks : list mark)
  : list Z * res (list mark) :=
  if x1 <? width then
    let seg := if d0 then [] else zfromto x0 x1 in
    let x0 := if d0 then x1 else Z.max x0 x1 in
    match marks with
    | [] => (seg, Err IndexError)
    | (x2, d2) :: r => let '(xs, m) := fill_loop width x0 d1 x2 d2 r in (seg ++ xs, m)
    end
  else ([], Ok marks).
(** raster.py:67-78 *)
Definition fill_row (width : Z) (marks : list mark) : list Z * res (list mark) :=
  match heappush (width, false) marks with
  | [] => ([], Err IndexError)
  | (x1, d1) :: r => fill_loop width 0 (negb d1) x1 d1 r
  end.
(** raster.py:66-78: pixels painted, and the scans left *)
Fixpoint fill_rows (width y : Z) (scans : list (list mark)) : list (Z * Z) * res (list (list mark)) :=
  match scans with
  | [] => ([], Ok [])
  | marks :: rest =>
      let '(xs, m) := fill_row width marks in
      let px := map (fun x => (x, y)) xs in
      match m with
      | Err e => (px, Err e)
      | Ok m => let '(ps, l) := fill_rows width (y + 1) rest in (px ++ ps, rmap (cons m) l)
      end
  end.

(** ** Lines *)
(** raster.py:90-103: pixels in the order they are painted; [None]: the loop
    has not ended within the fuel. *)
Fixpoint line_loop (fuel : nat) (x0 y0 x1 y1 dx dy sx sy err : Z) : option (list (Z * Z)) :=
  match fuel with
  | O => None
  | S f =>
      option_map (cons (x0, y0))
      (if (x0 =? x1) && (y0 =? y1) then Some []
       else
         let e2 := 2 * err in
         let c := - dy <? e2 in
         let err := if c then err - dy else err in
         let x0 := if c then x0 + sx else x0 in
         if (x0 =? x1) && (y0 =? y1) then Some [(x0, y0)]
         else
           let c := e2 <? dx in
           let err := if c then err + dx else err in
           let y0 := if c then y0 + sy else y0 in
           line_loop f x0 y0 x1 y1 dx dy sx sy err)
  end.
(** raster.py:80-103 *)
Definition line (fuel : nat) (start end_ : Z * Z) : option (list (Z * Z)) :=
  let '(x0, y0) := start in
  let '(x1, y1) := end_ in
  let dx := Z.abs (x1 - x0) in
  let dy := Z.abs (y1 - y0) in
  let sx := if x0 <? x1 then 1 else -1 in
  let sy := if y0 <? y1 then 1 else -1 in
  line_loop fuel x0 y0 x1 y1 dx dy sx sy (dx - dy).

Section Wu.
  Context {T : Type} `{PyNum T} `{PyInt T}.
  Definition half : T := ndiv (nofZ 1) (nofZ 2).
  (** raster.py:30 *)
  Definition nearestT (x : T) : Z := nint (if nneg x then nsub x half else nadd x half).
  (** raster.py:109-110; math.modf(x)[0] is x less its integer part. *)
  Definition fpart (x : T) : T := nsub x (nofZ (nint x)).
  Definition rfpart (x : T) : T := nsub (nofZ 1) (fpart x).
  (** A pair of writes: the pixel and the one after it across the line. *)
  Definition wu_pair (steep : bool) (x y : Z) (a1 a2 : T) : list ((Z * Z) * T) :=
    if steep then [((y, x), a1); ((y + 1, x), a2)] else [((x, y), a1); ((x, y + 1), a2)].
  (** raster.py:122-151, one end of the line *)
  Definition wu_end (steep : bool) (gradient x y : T) : Z * T * list ((Z * Z) * T) :=
    let xend := nearestT x in
    let yend := nadd y (nmul gradient (nsub (nofZ xend) x)) in
    let xgap := rfpart (nadd x half) in
    (xend, yend, wu_pair steep xend (nint yend) (nmul (rfpart yend) xgap) (nmul (fpart yend) xgap)).
  (** raster.py:154-163 *)
  Fixpoint wu_inner (steep : bool) (gradient : T) (xs : list Z) (intery : T) : list ((Z * Z) * T) :=
    match xs with
    | [] => []
    | x :: r => wu_pair steep x (nint intery) (rfpart intery) (fpart intery) ++
                wu_inner steep gradient r (nadd intery gradient)
    end.
  Definition wabs (x : T) : T := if nneg x then nsub (nofZ 0) x else x.
  (** raster.py:105-163: the pixels with the alpha added to the colour.
      Coordinates are numbers. *)
  Definition aaline (start end_ : T * T) : res (list ((Z * Z) * T)) :=
    let '(x0, y0) := start in
    let '(x1, y1) := end_ in
    let steep := nlt (wabs (nsub x1 x0)) (wabs (nsub y1 y0)) in
    let '((x0, y0), (x1, y1)) := if steep then ((y0, x0), (y1, x1)) else ((x0, y0), (x1, y1)) in
    let '((x0, y0), (x1, y1)) := if nlt x1 x0 then ((x1, y1), (x0, y0)) else ((x0, y0), (x1, y1)) in
    gradient <- ndivE (nsub y1 y0) (nsub x1 x0) ;;
    let '(xpxl1, yend1, p1) := wu_end steep gradient x0 y0 in
    let '(xpxl2, _, p2) := wu_end steep gradient x1 y1 in
    Ok (p1 ++ p2 ++ wu_inner steep gradient (zfromto (xpxl1 + 1) xpxl2) (nadd yend1 gradient)).
End Wu.

(** raster.py:165-171 with aa false: the pixels painted. *)
Definition strokepolygon (fuel : nat) (points : list (Z * Z)) : option (list (Z * Z)) :=
  option_map (@concat _) (omap (fun e => line fuel (fst e) (snd e)) (edges points)).

(** A method that writes pixels, on a canvas. *)
Definition paint {C V} (set : C -> Z * Z -> V -> res C) (pixels : list (Z * Z)) (v : V) (c : C) : res C :=
  foldM (fun c p => set c p v) pixels c.

(** array('B', ...) elements *)
Definition byte_check (v : Z) : res Z := if is_byteb v then Ok v else Err OverflowError.

(** ** BWCanvas *)
Record bwcanvas : Type := mkbw { bw_width : Z; bw_height : Z; bw_data : list Z; bw_row : Z }.
(** raster.py:176-183; math.ceil(width/8) on ints below 2^53 *)
Definition bw_new (width height bgcolor : Z) : res bwcanvas :=
  let nw := - (- width / 8) in
  data <- mapM byte_check (repeat bgcolor (Z.to_nat (nw * height))) ;;
  Ok (mkbw width height data (nw * 8)).
(** raster.py:185-191 *)
Definition bw_get (c : bwcanvas) (key : Z * Z) : res bool :=
  let i := snd key * bw_row c + fst key in
  let mask := Z.shiftl 1 (7 - i mod 8) in
  b <- py_get (bw_data c) (i / 8) ;;
  Ok (negb (Z.land b mask =? 0)).
(** raster.py:193-201 *)
Definition bw_set (c : bwcanvas) (key : Z * Z) (value : bool) : res bwcanvas :=
  let i := snd key * bw_row c + fst key in
  let mask := Z.shiftl 1 (7 - i mod 8) in
  b <- py_get (bw_data c) (i / 8) ;;
  data <- py_set (bw_data c) (i / 8) (if value then Z.lor b mask else Z.land b (Z.lnot mask)) ;;
  Ok (mkbw (bw_width c) (bw_height c) data (bw_row c)).
(** raster.py:203-207 *)
Definition size_line (w h : Z) : list Z := str_int w ++ [32] ++ str_int h ++ [10].
Definition bw_save (c : bwcanvas) : list Z :=
  [80; 52; 10] ++ size_line (bw_width c) (bw_height c) ++ bw_data c.

(** ** GrayCanvas *)
Record gcanvas : Type := mkg { g_width : Z; g_height : Z; g_data : list Z }.
(** raster.py:212-217 *)
Definition g_new (width height bgcolor : Z) : res gcanvas :=
  data <- mapM byte_check (repeat bgcolor (Z.to_nat (width * height))) ;;
  Ok (mkg width height data).
(** raster.py:219-222 *)
Definition g_get (c : gcanvas) (key : Z * Z) : res Z :=
  py_get (g_data c) (snd key * g_width c + fst key).
Section Blend.
  Context {T : Type} `{PyNum T} `{PyInt T}.
  (** raster.py:234-237 and each channel of raster.py:276-283; bg and fg ints *)
  Definition blend (bg fg : Z) (alpha : T) : Z :=
    let beta := nsub (nofZ 1) alpha in
    nint (nadd (nadd (nmul (nofZ bg) beta) (nmul (nofZ fg) alpha)) half).
  (** A colour: an int, or a tuple of ints to which a number may have been
      appended. *)
  Inductive gcolor : Type := GInt (v : Z) | GTup (l : list Z) (a : option T).
  (** fg, a = value *)
  Definition unpack_pair (l : list Z) (a : option T) : res (Z * T) :=
    match l, a with
    | [fg], Some a => Ok (fg, a)
    | [fg; a], None => Ok (fg, nofZ a)
    | _, _ => Err ValueError
    end.
  (** raster.py:224-232 *)
  Definition g_set (c : gcanvas) (key : Z * Z) (value : gcolor) : res gcanvas :=
    let i := snd key * g_width c + fst key in
    v <- match value with
         | GInt v => Ok v
         | GTup l a => '(fg, a) <- unpack_pair l a ;; bg <- py_get (g_data c) i ;; Ok (blend bg fg a)
         end ;;
    _ <- py_get (g_data c) i ;;
    v <- byte_check v ;;
    data <- py_set (g_data c) i v ;;
    Ok (mkg (g_width c) (g_height c) data).
  (** color + (alpha,) *)
  Definition add_alpha (color : gcolor) (alpha : T) : res gcolor :=
    match color with
    | GInt _ => Err TypeError
    | GTup l None => Ok (GTup l (Some alpha))
    | GTup l (Some _) => Err ValueError
    end.
  (** raster.py:105-163 on a GrayCanvas. (A tuple that already holds an alpha
      becomes too long: the first write raises ValueError.) *)
  Definition g_aaline (c : gcanvas) (start end_ : T * T) (color : gcolor) : res gcanvas :=
    px <- aaline start end_ ;;
    foldM (fun c pa => v <- add_alpha color (snd pa) ;; g_set c (fst pa) v) px c.
End Blend.
Arguments gcolor T : clear implicits.
(** raster.py:239-244 *)
Definition g_save (c : gcanvas) : list Z :=
  [80; 53; 10] ++ size_line (g_width c) (g_height c) ++ [50; 53; 53; 10] ++ g_data c.

(** ** ColorCanvas *)
Record ccanvas : Type := mkc { c_width : Z; c_height : Z; c_data : list Z }.
(** raster.py:246-258 *)
Definition c_new (width height : Z) (bgcolor : list Z) : res ccanvas :=
  data <- mapM byte_check (concat (repeat bgcolor (Z.to_nat (width * height)))) ;;
  Ok (mkc width height data).
(** raster.py:260-264 *)
Definition c_get (c : ccanvas) (key : Z * Z) : res (Z * Z * Z) :=
  let i := 3 * (snd key * c_width c + fst key) in
  match py_slice (c_data c) i (i + 3) with
  | [r; g; b] => Ok (r, g, b)
  | _ => Err ValueError
  end.
(** data[a:b] = new *)
Definition slice_assign {A} (l : list A) (a b : Z) (new : list A) : list A :=
  let n := Z.of_nat (length l) in
  let a' := slice_clamp n a in
  let b' := Z.max a' (slice_clamp n b) in
  firstn (Z.to_nat a') l ++ new ++ skipn (Z.to_nat b') l.
Section ColorBlend.
  Context {T : Type} `{PyNum T} `{PyInt T}.
  (** raster.py:276-283 *)
  Definition c_blend (bg fg : list Z) (alpha : T) : res (list Z) :=
    match bg, fg with
    | [r0; g0; b0], [r1; g1; b1] => Ok [blend r0 r1 alpha; blend g0 g1 alpha; blend b0 b1 alpha]
    | _, _ => Err ValueError
    end.
  (** raster.py:266-274; the value is a tuple of ints and possibly an alpha.
      array('B', value) with a float raises TypeError. *)
  Definition c_set (c : ccanvas) (key : Z * Z) (value : list Z * option T) : res ccanvas :=
    let i := 3 * (snd key * c_width c + fst key) in
    color <- match value with
             | ([r; g; b; a], None) => c_blend (py_slice (c_data c) i (i + 3)) [r; g; b] (nofZ a)
             | (l, None) => Ok l
             | (l, Some a) =>
                 if Nat.eqb (length l) 3 then c_blend (py_slice (c_data c) i (i + 3)) l a
                 else Err TypeError
             end ;;
    color <- mapM byte_check color ;;
    Ok (mkc (c_width c) (c_height c) (slice_assign (c_data c) i (i + 3) color)).
End ColorBlend.
(** raster.py:285-290 *)
Definition c_save (c : ccanvas) : list Z :=
  [80; 54; 10] ++ size_line (c_width c) (c_height c) ++ [50; 53; 53; 10] ++ c_data c.
