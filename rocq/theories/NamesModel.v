(** Model of coral/names.py. A str is a list of code points. *)
From Verif Require Import Num.
Open Scope Z_scope.
Notation str := (list Z).

(** names.py:25-28: the accented letters, then their upper-case forms
    (src.upper() of this literal, code point by code point). *)
Definition src_lower : str :=
  [225; 224; 227; 226; 228; 233; 232; 7869; 234; 235; 237; 236; 297; 238; 239; 243; 242; 245; 244; 246; 250; 249; 361; 251; 252; 231].
Definition src_upper : str :=
  [193; 192; 195; 194; 196; 201; 200; 7868; 202; 203; 205; 204; 296; 206; 207; 211; 210; 213; 212; 214; 218; 217; 360; 219; 220; 199].
Definition dst_lower : str :=
  [97; 97; 97; 97; 97; 101; 101; 101; 101; 101; 105; 105; 105; 105; 105; 111; 111; 111; 111; 111; 117; 117; 117; 117; 117; 99].
(** str.upper of lower-case ASCII letters *)
Definition dst_upper : str := map (fun c => c - 32) dst_lower.
(** str.maketrans: a dict from code points to code points; the keys are
    distinct, so the first entry is the only one. *)
Fixpoint trans_get (table : list (Z * Z)) (c : Z) : Z :=
  match table with [] => c | (a, b) :: r => if a =? c then b else trans_get r c end.
(** names.py:24-29 *)
Definition ascii (s : str) : str :=
  let src := src_lower ++ src_upper in
  let dst := dst_lower ++ dst_upper in
  map (trans_get (combine src dst)) s.

(** The dict d of names.py:44: the newest entry first. *)
Definition cells : Type := list (Z * Z * Z).
Fixpoint cell_get (d : cells) (i j : Z) : res Z :=
  match d with
  | [] => Err KeyError
  | (a, b, v) :: r => if (a =? i) && (b =? j) then Ok v else cell_get r i j
  end.
(** range(-1, n) *)
Definition from_minus_one (n : Z) : list Z := map (fun k => k - 1) (zrange (Z.to_nat (n + 1))).
(** names.py:54-65: the body of the inner loop *)
Definition damlev_cell (s1 s2 : str) (i : Z) (d : cells) (j : Z) : res cells :=
  a <- py_get s1 i ;;
  b <- py_get s2 j ;;
  let cost := if a =? b then 0 else 1 in
  del <- cell_get d (i - 1) j ;;
  ins <- cell_get d i (j - 1) ;;
  sub <- cell_get d (i - 1) (j - 1) ;;
  let d := (i, j, Z.min (Z.min (del + 1) (ins + 1)) (sub + cost)) :: d in
  if negb (i =? 0) && negb (j =? 0) then
    b' <- py_get s2 (j - 1) ;;
    if a =? b' then
      a' <- py_get s1 (i - 1) ;;
      if a' =? b then
        here <- cell_get d i j ;;
        swap <- cell_get d (i - 2) (j - 2) ;;
        Ok ((i, j, Z.min here (swap + cost)) :: d)
      else Ok d
    else Ok d
  else Ok d.
(** names.py:43-67 *)
Definition damlev (s1 s2 : str) : res Z :=
  let n1 := Z.of_nat (length s1) in
  let n2 := Z.of_nat (length s2) in
  let d := fold_left (fun d i => (i, -1, i + 1) :: d) (from_minus_one (n1 + 1)) [] in
  let d := fold_left (fun d j => (-1, j, j + 1) :: d) (from_minus_one (n2 + 1)) d in
  d <- foldM (fun d i => foldM (damlev_cell s1 s2 i) (zrange (length s2)) d) (zrange (length s1)) d ;;
  cell_get d (n1 - 1) (n2 - 1).

Section Numbers.
  Context {T : Type} `{PyNum T}.
  (** names.py:69-72 *)
  Definition strerr (s1 s2 : str) : res T :=
    let length := Z.of_nat (length s1) + Z.of_nat (length s2) in
    distance <- damlev s1 s2 ;;
    ndivE (nofZ (distance * 2)) (nofZ length).

  (** str.find(c, i0, i1) of one character: the least index of it in the
      slice, or -1 *)
  Fixpoint find_from (s : str) (c : Z) (k i0 i1 : Z) : Z :=
    match s with
    | [] => -1
    | x :: r => if (i0 <=? k) && (k <? i1) && (x =? c) then k else find_from r c (k + 1) i0 i1
    end.
  Definition str_find (s : str) (c i0 i1 : Z) : Z := find_from s c 0 i0 i1.
  (** names.py:88-97: the body of the loop; m and p *)
  Definition jaro_step (s1 s2 : str) (length w : Z) (st : Z * list Z) (i : Z) : res (Z * list Z) :=
    let '(m, p) := st in
    a <- py_get s1 i ;;
    b <- py_get s2 i ;;
    if a =? b then Ok (m + 1, p)
    else
      let i0 := Z.max 0 (i - w) in
      let i1 := Z.min length (i + w + 1) in
      let f := str_find s2 a i0 i1 in
      if 0 <=? f then Ok (m + 1, p ++ [f]) else Ok (m, p).
  (** names.py:102-106: t and x *)
  Definition swaps_step (st : Z * Z) (f : Z) : Z * Z :=
    let '(t, x) := st in if f <? x then (t + 1, x) else (t, f).
  (** names.py:75-107 *)
  Definition jaro (s1 s2 : str) : res T :=
    let ls1 := Z.of_nat (length s1) in
    let ls2 := Z.of_nat (length s2) in
    let '(s1, s2, len) :=
      if ls1 <? ls2 then (s1 ++ repeat 42 (Z.to_nat (ls2 - ls1)), s2, ls2)
      else if ls2 <? ls1 then (s1, s2 ++ repeat 42 (Z.to_nat (ls1 - ls2)), ls1)
      else (s1, s2, ls1) in
    let w := len / 2 - 1 in
    '(m, p) <- foldM (jaro_step s1 s2 len w) (zrange (Z.to_nat len)) (0, []) ;;
    if m =? 0 then Ok (nofZ 0)
    else
      let '(t, _) := fold_left swaps_step p (0, 0) in
      a <- ndivE (nofZ m) (nofZ ls1) ;;
      b <- ndivE (nofZ m) (nofZ ls2) ;;
      c <- ndivE (nofZ (m - t)) (nofZ m) ;;
      ndivE (nadd (nadd a b) c) (nofZ 3).
  (** names.py:113-117: the loop with its break *)
  Fixpoint common (l : list (Z * Z)) : Z :=
    match l with [] => 0 | (a, b) :: r => if a =? b then 1 + common r else 0 end.
  (** names.py:110-119; the literal 0.1 is the quotient 1/10 *)
  Definition jaro_winkler (s1 s2 : str) : res T :=
    let prelen := Z.min (Z.min (Z.of_nat (length s1)) (Z.of_nat (length s2))) 4 in
    let L := common (combine (py_slice s1 0 prelen) (py_slice s2 0 prelen)) in
    j <- jaro s1 s2 ;;
    Ok (nadd j (nmul (nmul (nofZ L) (ndiv (nofZ 1) (nofZ 10))) (nsub (nofZ 1) j))).

  (** min(range(len(ds)), key=ds.__getitem__) *)
  Definition argmin (ds : list T) : res Z :=
    match ds with
    | [] => Err ValueError
    | d :: r =>
        Ok (snd (fst (fold_left (fun st x => let '(best, at_, k) := st in if nlt x best then (x, k, k + 1) else (best, at_, k + 1)) r (d, 0, 1))))
    end.
  (** names.py:124-129: one key *)
  Definition match_one (values : list str) (key : str) : res (str * str * T) :=
    ds <- mapM (strerr key) values ;;
    i <- argmin ds ;;
    value <- py_get values i ;;
    d <- py_get ds i ;;
    Ok (key, value, nsub (nofZ 1) d).
  (** list.sort with key -score: any stable sort gives this list. -score is
      0 - score, which compares alike. *)
  Fixpoint insert_match (p : str * str * T) (l : list (str * str * T)) : list (str * str * T) :=
    match l with
    | [] => [p]
    | q :: r => if nlt (nsub (nofZ 0) (snd q)) (nsub (nofZ 0) (snd p)) then q :: insert_match p r else p :: l
    end.
  (** names.py:121-131 *)
  Definition mapping (keys values : list str) : res (list (str * str * T)) :=
    m <- mapM (match_one values) keys ;;
    Ok (fold_right insert_match [] m).
End Numbers.

(** names.py:133-145. The globals extras and itertools do not exist in the
    module, so the code after the lookup of extras is never reached. str.upper
    is an argument; sorting by len leaves the pairs in place, and the character
    counts are not used. *)
Definition extras : res (list str) := Err NameError.
Definition abbreviations (upper : str -> str) (names : list str) (length : Z) : res (list (str * str)) :=
  let norm name := ascii (upper name) in
  let inames := combine (zrange (List.length names)) (map norm names) in
  foldM (fun d iname => xs <- extras ;; Ok d) inames [].
