(** The text of a frame file: json.dump and json.load as frame.py uses them. *)
From Coq Require Import SpecFloat.
From Verif Require Import Py Num Text StrModel BBoxModel ShpReaderModel FloatTextModel FloatReprModel NumTextModel FrameModel.
Open Scope Z_scope.

Inductive doc : Type := DNum (x : number) | DStr (s : list Z) | DArr (l : list doc) | DObj (l : list (list Z * doc)).

(** ** frame.py:81-83: json.dump(d, f, indent=4) *)
(** Ints by int.__repr__, floats by float.__repr__ but for the special ones *)
Definition json_num (x : number) : list Z :=
  match x with
  | Float S754_nan => text "NaN"
  | Float (S754_infinity false) => text "Infinity"
  | Float (S754_infinity true) => text "-Infinity"
  | _ => num_str x
  end.
(** Only strings that need no escapes are modelled: the names of classes and
    the keys of frame.py:52-80. *)
Definition quoted (s : list Z) : list Z := 34 :: s ++ [34].
Definition newline (ind : nat) : list Z := 10 :: repeat 32 (4 * ind).
Fixpoint joined (sep : list Z) (l : list (list Z)) : list Z :=
  match l with [] => [] | [a] => a | a :: r => a ++ sep ++ joined sep r end.
Fixpoint dump (ind : nat) (d : doc) : list Z :=
  match d with
  | DNum x => json_num x
  | DStr s => quoted s
  | DArr [] => text "[]"
  | DArr l => text "[" ++ newline (S ind) ++ joined (44 :: newline (S ind)) (map (dump (S ind)) l) ++ newline ind ++ text "]"
  | DObj [] => text "{}"
  | DObj l => text "{" ++ newline (S ind) ++
      joined (44 :: newline (S ind)) (map (fun kv => match kv with (k, v) => quoted k ++ text ": " ++ dump (S ind) v end) l) ++ newline ind ++ text "}"
  end.

(** ** frame.py:117: json.load(f) *)
Fixpoint skip_white (s : list Z) : list Z :=
  match s with
  | c :: r => if (c =? 32) || (c =? 9) || (c =? 10) || (c =? 13) then skip_white r else s
  | [] => []
  end.
Fixpoint drop_prefix (p s : list Z) : option (list Z) :=
  match p, s with
  | [], _ => Some s
  | a :: p, c :: s => if a =? c then drop_prefix p s else None
  | _, [] => None
  end.
(** Up to the next quotation mark; escapes are not modelled, and control
    characters are not refused. *)
Fixpoint load_string (s : list Z) : option (list Z * list Z) :=
  match s with
  | [] => None
  | c :: r => if c =? 34 then Some ([], r) else if c =? 92 then None
              else match load_string r with Some (a, b) => Some (c :: a, b) | None => None end
  end.
(** NUMBER_RE of json.scanner: (-?(?:0|[1-9]\d* ))(\.\d+)?([eE][-+]?\d+)? *)
Definition load_number (s : list Z) : option (number * list Z) :=
  let '(g, r) := match s with 45 :: r => ([45], r) | _ => ([], s) end in
  let '(i, r) := match r with 48 :: r' => ([48], r') | _ => span_digits r end in
  if negb (nonempty i) then None
  else
    let '(f, r) := match r with
                   | 46 :: r' => let '(d, t) := span_digits r' in if nonempty d then (46 :: d, t) else ([], r)
                   | _ => ([], r)
                   end in
    let '(e, r) := match r with
                   | c :: r' =>
                       if (c =? 101) || (c =? 69) then
                         let '(h, u) := match r' with 43 :: u => ([43], u) | 45 :: u => ([45], u) | _ => ([], r') end in
                         let '(d, t) := span_digits u in if nonempty d then (c :: h ++ d, t) else ([], r)
                       else ([], r)
                   | [] => ([], r)
                   end in
    if nonempty (f ++ e)
    then match float64 (g ++ i ++ f ++ e) with Ok d => Some (Float d, r) | Err _ => None end
    else match py_int (g ++ i) with Ok z => Some (Int z, r) | Err _ => None end.
(** None: JSONDecodeError, or no fuel left. An object is kept as its pairs in
    order; true, false and null are left out. *)
Fixpoint load_value (fuel : nat) (s : list Z) : option (doc * list Z) :=
  match fuel with
  | O => None
  | S f =>
      match s with
      | 34 :: r => match load_string r with Some (w, t) => Some (DStr w, t) | None => None end
      | 91 :: r =>
          match skip_white r with
          | 93 :: t => Some (DArr [], t)
          | t => match load_items f t with Some (l, t) => Some (DArr l, t) | None => None end
          end
      | 123 :: r =>
          match skip_white r with
          | 125 :: t => Some (DObj [], t)
          | t => match load_pairs f t with Some (l, t) => Some (DObj l, t) | None => None end
          end
      | _ =>
          match drop_prefix (text "NaN") s with Some t => Some (DNum (Float S754_nan), t) | None =>
          match drop_prefix (text "Infinity") s with Some t => Some (DNum (Float (S754_infinity false)), t) | None =>
          match drop_prefix (text "-Infinity") s with Some t => Some (DNum (Float (S754_infinity true)), t) | None =>
          match load_number s with Some (x, t) => Some (DNum x, t) | None => None end end end end
      end
  end
with load_items (fuel : nat) (s : list Z) : option (list doc * list Z) :=
  match fuel with
  | O => None
  | S f =>
      match load_value f s with
      | None => None
      | Some (d, t) =>
          match skip_white t with
          | 44 :: r => match load_items f (skip_white r) with Some (l, t) => Some (d :: l, t) | None => None end
          | 93 :: r => Some ([d], r)
          | _ => None
          end
      end
  end
with load_pairs (fuel : nat) (s : list Z) : option (list (list Z * doc) * list Z) :=
  match fuel with
  | O => None
  | S f =>
      match s with
      | 34 :: r =>
          match load_string r with
          | None => None
          | Some (k, t) =>
              match skip_white t with
              | 58 :: u =>
                  match load_value f (skip_white u) with
                  | None => None
                  | Some (d, t) =>
                      match skip_white t with
                      | 44 :: r => match load_pairs f (skip_white r) with Some (l, t) => Some ((k, d) :: l, t) | None => None end
                      | 125 :: r => Some ([(k, d)], r)
                      | _ => None
                      end
                  end
              | _ => None
              end
          end
      | _ => None
      end
  end.
(** json.load: white space around the value, and nothing else *)
Definition load_text (s : list Z) : option doc :=
  match load_value (S (length s)) (skip_white s) with
  | Some (d, t) => match skip_white t with [] => Some d | _ => None end
  | None => None
  end.

(** ** frame.py:51-83 with numbers as they are printed *)
Inductive shape := Sphere (r : number) | Ellipsoid (a b e f : number).
Record settings := mkset { st_type : list Z; st_center : number * number; st_shape : shape; st_box : bbox number }.
Definition frame_doc (f : settings) : doc :=
  let model := match st_shape f with
               | Ellipsoid a b e f => DObj [(text "type", DStr (text "ellipsoid")); (text "a", DNum a); (text "b", DNum b); (text "e", DNum e); (text "f", DNum f)]
               | Sphere r => DObj [(text "type", DStr (text "sphere")); (text "r", DNum r)]
               end in
  DObj [(text "projection", DObj [(text "type", DStr (st_type f)); (text "center", DArr [DNum (fst (st_center f)); DNum (snd (st_center f))]);
                                  (text "orientation", DNum (Float (S754_zero false))); (text "model", model)]);
        (text "bounding", DObj [(text "x0", DNum (bx0 (st_box f))); (text "y0", DNum (by0 (st_box f)));
                                (text "x1", DNum (bx1 (st_box f))); (text "y1", DNum (by1 (st_box f)))])].
Definition frame_file (f : settings) : list Z := dump 0 (frame_doc f) ++ [10].
