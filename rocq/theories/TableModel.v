(** Model of coral/table.py. A row is a namedtuple instance: its field names
    and its values. Values are of a type with an equality and an empty string;
    where files are involved they are str. *)
From Verif Require Import Py StrModel Utf8Model.
Open Scope Z_scope.

Notation str := (list Z).
Fixpoint str_eqb (a b : str) : bool :=
  match a, b with
  | [], [] => true
  | x :: r, y :: s => (x =? y) && str_eqb r s
  | _, _ => false
  end.
Definition str_in (k : str) (l : list str) : bool := existsb (str_eqb k) l.

(** ** namedtuple field names (collections.namedtuple, rename=False) *)
Definition is_alpha_ (c : Z) : bool := ((65 <=? c) && (c <=? 90)) || ((97 <=? c) && (c <=? 122)) || (c =? 95).
(** str.isidentifier, for ASCII; names outside ASCII are refused here. *)
Definition is_identifier (s : str) : bool :=
  match s with [] => false | c :: r => is_alpha_ c && forallb (fun c => is_alpha_ c || is_digit c) r end.
(** keyword.kwlist *)
Definition keywords : list str :=
  [[70; 97; 108; 115; 101]; [78; 111; 110; 101]; [84; 114; 117; 101]; [97; 110; 100]; [97; 115]; [97; 115; 115; 101; 114; 116];
   [97; 115; 121; 110; 99]; [97; 119; 97; 105; 116]; [98; 114; 101; 97; 107]; [99; 108; 97; 115; 115];
   [99; 111; 110; 116; 105; 110; 117; 101]; [100; 101; 102]; [100; 101; 108]; [101; 108; 105; 102]; [101; 108; 115; 101];
   [101; 120; 99; 101; 112; 116]; [102; 105; 110; 97; 108; 108; 121]; [102; 111; 114]; [102; 114; 111; 109];
   [103; 108; 111; 98; 97; 108]; [105; 102]; [105; 109; 112; 111; 114; 116]; [105; 110]; [105; 115];
   [108; 97; 109; 98; 100; 97]; [110; 111; 110; 108; 111; 99; 97; 108]; [110; 111; 116]; [111; 114]; [112; 97; 115; 115];
   [114; 97; 105; 115; 101]; [114; 101; 116; 117; 114; 110]; [116; 114; 121]; [119; 104; 105; 108; 101]; [119; 105; 116; 104];
   [121; 105; 101; 108; 100]].
Definition field_ok (s : str) : bool :=
  is_identifier s && negb (str_in s keywords) && negb (match s with 95 :: _ => true | _ => false end).
Fixpoint fields_distinct (l : list str) : bool :=
  match l with [] => true | k :: r => negb (str_in k r) && fields_distinct r end.
(** collections.namedtuple("Row", keys) *)
Definition row_type (keys : list str) : res unit :=
  if forallb field_ok keys && fields_distinct keys then Ok tt else Err ValueError.

Section Tables.
  Context {V : Type} (veqb : V -> V -> bool) (empty : V).
  Record row : Type := mkrow { r_fields : list str; r_values : list V }.
  (** Row(args): the number of values must fit *)
  Definition row_new (keys : list str) (vs : list V) : res row :=
    if Nat.eqb (length vs) (length keys) then Ok (mkrow keys vs) else Err TypeError.

  (** A dict in insertion order. *)
  Definition dict : Type := list (str * V).
  Fixpoint dict_get (k : str) (d : dict) : option V :=
    match d with [] => None | (k', v) :: r => if str_eqb k k' then Some v else dict_get k r end.
  Fixpoint dict_set (k : str) (v : V) (d : dict) : dict :=
    match d with
    | [] => [(k, v)]
    | (k', v') :: r => if str_eqb k k' then (k', v) :: r else (k', v') :: dict_set k v r
    end.
  Definition dict_update (d e : dict) : dict := fold_left (fun d kv => dict_set (fst kv) (snd kv) d) e d.
  Definition dict_at (d : dict) (k : str) : res V := match dict_get k d with Some v => Ok v | None => Err KeyError end.
  (** row._asdict() *)
  Definition asdict (r : row) : dict := combine (r_fields r) (r_values r).
  (** getattr(row, key, ""); keys that are attributes of every tuple (count,
      index, names with underscores) are not modelled. *)
  Definition getattr (r : row) (k : str) : V := match dict_get k (asdict r) with Some v => v | None => empty end.
  Fixpoint list_eqb (a b : list V) : bool :=
    match a, b with
    | [], [] => true
    | x :: r, y :: s => veqb x y && list_eqb r s
    | _, _ => false
    end.

  (** table.py:35-39: the first row of t2 that agrees *)
  Fixpoint find_match (pivots : list str) (id1 : list V) (t2 : list row) : option row :=
    match t2 with
    | [] => None
    | r2 :: rest => if list_eqb id1 (map (getattr r2) pivots) then Some r2 else find_match pivots id1 rest
    end.
  (** table.py:32-40, one row *)
  Definition join_row (t2 : list row) (pivots keys : list str) (r1 : row) : res row :=
    let d := match find_match pivots (map (getattr r1) pivots) t2 with
             | Some r2 => dict_update (asdict r1) (asdict r2)
             | None => asdict r1
             end in
    row_new keys (map (fun k => match dict_get k d with Some v => v | None => empty end) keys).
  (** table.py:23-41. With pivots or keys None, the code lists a set in an
      unspecified order; here that list is given. *)
  Definition join_tables (t1 t2 : list row) (pivots keys : list str) : res (list row) :=
    _ <- py_get t1 0 ;; _ <- py_get t2 0 ;;
    _ <- row_type keys ;;
    mapM (join_row t2 pivots keys) t1.

  (** table.py:43-46; the result None is [None] *)
  Fixpoint getone (table : list row) (key : str) (query : V) : res (option row) :=
    match table with
    | [] => Ok None
    | r :: rest => v <- dict_at (asdict r) key ;; if veqb v query then Ok (Some r) else getone rest key query
    end.
  (** A generator: what it yields and how it ends. *)
  Definition gen (A : Type) : Type := (list A * res unit)%type.
  (** table.py:48-51 *)
  Fixpoint getall (table : list row) (key : str) (query : V) : gen row :=
    match table with
    | [] => ([], Ok tt)
    | r :: rest =>
        match dict_at (asdict r) key with
        | Err e => ([], Err e)
        | Ok v => let '(l, e) := getall rest key query in (if veqb v query then r :: l else l, e)
        end
    end.
  (** A dict keyed by values. *)
  Fixpoint vdict_set {A} (k : V) (v : A) (d : list (V * A)) : list (V * A) :=
    match d with
    | [] => [(k, v)]
    | (k', v') :: r => if veqb k k' then (k', v) :: r else (k', v') :: vdict_set k v r
    end.
  (** table.py:57-60, one row *)
  Definition index_row (keys : list str) (key : str) (indexed : list (V * row)) (r : row) : res (list (V * row)) :=
    let d := asdict r in
    vs <- mapM (dict_at d) keys ;;
    newrow <- row_new keys vs ;;
    k <- dict_at d key ;;
    Ok (vdict_set k newrow indexed).
  (** table.py:53-61 *)
  Definition indexby (table : list row) (key : str) : res (list (V * row)) :=
    first <- py_get table 0 ;;
    let keys := filter (fun k => negb (str_eqb k key)) (r_fields first) in
    _ <- row_type keys ;;
    foldM (index_row keys key) table [].
  (** A generator that computes a row from each row *)
  Fixpoint gen_rows (f : row -> res row) (table : list row) : gen row :=
    match table with
    | [] => ([], Ok tt)
    | r :: rest =>
        match f r with
        | Err e => ([], Err e)
        | Ok n => let '(l, e) := gen_rows f rest in (n :: l, e)
        end
    end.
  Definition gen_after {A} (m : res A) (f : A -> gen row) : gen row := match m with Err e => ([], Err e) | Ok a => f a end.
  (** table.py:63-70 *)
  Definition addkey (table : list row) (key : str) (func : row -> res V) : gen row :=
    gen_after (py_get table 0) (fun first =>
    let newkeys := r_fields first ++ [key] in
    gen_after (row_type newkeys) (fun _ =>
    gen_rows (fun r =>
      v <- func r ;;
      let d := dict_set key v (asdict r) in
      vs <- mapM (dict_at d) newkeys ;; row_new newkeys vs) table)).
  (** table.py:72-78 *)
  Definition delkeys (table : list row) (keys_to_del : list str) : gen row :=
    gen_after (py_get table 0) (fun first =>
    let newkeys := filter (fun k => negb (str_in k keys_to_del)) (r_fields first) in
    gen_after (row_type newkeys) (fun _ =>
    gen_rows (fun r => vs <- mapM (dict_at (asdict r)) newkeys ;; row_new newkeys vs) table)).
End Tables.
Arguments row V : clear implicits.
Arguments mkrow {V}. Arguments r_fields {V}. Arguments r_values {V}.

(** ** Files. The separator and the comment mark are single characters. *)
(** codecs readers end a line where str.splitlines does. *)
Definition is_break (c : Z) : bool :=
  ((10 <=? c) && (c <=? 13)) || ((28 <=? c) && (c <=? 30)) || (c =? 133) || (c =? 8232) || (c =? 8233).
(** f.readline(): a line with its end, and the rest *)
Fixpoint cut_line (s : str) : str * str :=
  match s with
  | [] => ([], [])
  | c :: r =>
      if is_break c then
        match c, r with
        | 13, 10 :: r' => ([13; 10], r')
        | _, _ => ([c], r)
        end
      else let '(l, t) := cut_line r in (c :: l, t)
  end.
(** line.split(comm)[0].strip() *)
Definition clean (comm : Z) (line : str) : str := strip (match split_on comm line with w :: _ => w | [] => [] end).
(** table.py:83-85: [None] when the loop has not found a line. *)
Fixpoint header_line (fuel : nat) (comm : Z) (s : str) : option (str * str) :=
  match fuel with
  | O => None
  | S f => let '(l, t) := cut_line s in
           match clean comm l with [] => header_line f comm t | c => Some (c, t) end
  end.
(** for line in f: the lines up to the end *)
Fixpoint all_lines (fuel : nat) (s : str) : list str :=
  match fuel with
  | O => []
  | S f => match s with [] => [] | _ => let '(l, t) := cut_line s in l :: all_lines f t end
  end.
(** table.py:91-97, one line *)
Definition read_row (keys : list str) (indexes : list Z) (sep comm : Z) (table : list (row str)) (line : str) : res (list (row str)) :=
  match clean comm line with
  | [] => Ok table
  | line =>
      let fvalues := split_on sep line in
      values <- mapM (py_get fvalues) indexes ;;
      r <- row_new keys values ;;
      Ok (table ++ [r])
  end.
(** range(len(l)) *)
Definition indices {A} (l : list A) : list Z := map Z.of_nat (seq 0 (length l)).
(** table.py:80-98 on the bytes of the file; the whole file is decoded
    before its first line is looked at. *)
Definition readfile (fuel : nat) (data : list Z) (keys : option (list str)) (sep comm : Z) : option (res (list (row str))) :=
  match utf8_decode data with
  | Err e => Some (Err e)
  | Ok text =>
      match header_line fuel comm text with
      | None => None
      | Some (line, rest) =>
          let fkeys := split_on sep line in
          let keys := match keys with None => fkeys | Some k => k end in
          let indexes := filter (fun i => match py_get fkeys i with Ok k => str_in k keys | Err _ => false end) (indices fkeys) in
          Some (_ <- row_type keys ;;
                foldM (read_row keys indexes sep comm) (all_lines (length rest) rest) [])
      end
  end.
(** table.py:105-106 *)
Fixpoint write_rows (keys : list str) (sep : Z) (table : list (row str)) : list Z * res unit :=
  match table with
  | [] => ([], Ok tt)
  | r :: rest =>
      match (vs <- mapM (dict_at (asdict r)) keys ;; utf8_encode (join sep vs ++ [10])) with
      | Err e => ([], Err e)
      | Ok b => let '(bs, e) := write_rows keys sep rest in (b ++ bs, e)
      end
  end.
(** table.py:100-106: the bytes in the file, and how it ended. [None]: the
    file was not opened. *)
Definition writefile (table : list (row str)) (keys : option (list str)) (sep : Z) : option (list Z) * res unit :=
  match (match keys with Some k => Ok k | None => first <- py_get table 0 ;; Ok (r_fields first) end) with
  | Err e => (None, Err e)
  | Ok keys =>
      match utf8_encode (join sep keys ++ [10]) with
      | Err e => (Some [], Err e)
      | Ok b => let '(bs, e) := write_rows keys sep table in (Some (b ++ bs), e)
      end
  end.

(** ** pprint *)
(** max(l, key=len), a list that is not empty *)
Definition longest (l : list str) : str :=
  match l with [] => [] | x :: r => fold_left (fun m y => if Nat.ltb (length m) (length y) then y else m) r x end.
(** "%-Ns" % s *)
Definition ljust (n : nat) (s : str) : str := s ++ repeat 32 (n - length s).
Fixpoint sjoin (sep : str) (l : list str) : str :=
  match l with [] => [] | [w] => w | w :: r => w ++ sep ++ sjoin sep r end.
(** table.py:113-114 *)
Definition column_width (table : list (row str)) (k : str) : res nat :=
  cells <- mapM (fun r => dict_at (asdict r) k) table ;; Ok (length (longest (cells ++ [k]))).
(** table.py:108-121: the lines printed; when it raises half way, the lines
    already printed are not followed. *)
Definition pprint (table : list (row str)) (keys : option (list str)) : res (list str) :=
  keys <- match keys with Some k => Ok k | None => first <- py_get table 0 ;; Ok (r_fields first) end ;;
  lens <- mapM (column_width table) keys ;;
  let line := fun cells => sjoin [32; 124; 32] (map (fun p => ljust (fst p) (snd p)) (combine lens cells)) in
  rows <- mapM (fun r => vs <- mapM (dict_at (asdict r)) keys ;; Ok (line vs)) table ;;
  Ok (line keys :: sjoin [45; 43; 45] (map (fun n => repeat 45 n) lens) :: rows).
