(** Model of coral/grid.py. Numbers of FVar fields are exact rationals;
    [fvarF_*] is the same code in double arithmetic. *)
From Coq Require Import SpecFloat.
From Verif Require Import Num VlvModel Utf8Model.
Open Scope Z_scope.

(** grid.py:24 *)
Definition size_span (size : Z) : Z := 256 ^ size.
Definition b2z (b : bool) : Z := if b then 1 else 0.

(** ** IVar, grid.py:26-76 *)
Record ivar : Type := mkivar {
  i_name : list Z; i_min : Z; i_max : Z; i_size : Z; i_span : Z; i_nullable : bool;
  i_fmt : option nat (* the attribute fmt (a big-endian width), if it was ever set *)
}.
(** grid.py:28-47; the constructor does not set fmt. *)
Definition ivar_new (name : list Z) (minv maxv : Z) (nullable : bool) : res ivar :=
  if negb (minv <? maxv) then Err AssertionError else
  let delta := maxv - minv in
  let n := b2z nullable in
  size <- (if delta <? size_span 1 - n then Ok 1
           else if delta <? size_span 2 - n then Ok 2
           else if delta <? size_span 4 - n then Ok 4
           else if delta <? size_span 8 - n then Ok 8
           else Err ValueError) ;;
  Ok (mkivar name minv maxv size (size_span size - n) nullable None).
(** grid.py:58-63 *)
Definition ivar_index (f : ivar) (v : option Z) : res Z :=
  match v with
  | None => if i_nullable f then Ok (i_span f + 1) else Err AssertionError
  | Some x => if (i_min f <=? x) && (x <=? i_max f) then Ok (x - i_min f) else Err AssertionError
  end.
(** grid.py:65-70 *)
Definition ivar_value (f : ivar) (i : Z) : res (option Z) :=
  if i =? i_span f + 1
  then if i_nullable f then Ok None else Err AssertionError
  else if (0 <=? i) && (i <=? i_span f) then Ok (Some (i_min f + i)) else Err AssertionError.
(** self.fmt *)
Definition ivar_fmt (f : ivar) : res nat :=
  match i_fmt f with Some n => Ok n | None => Err AttributeError end.
(** grid.py:72-73; self.fmt is evaluated before self.index(value). *)
Definition ivar_encode (f : ivar) (v : option Z) : res (list Z) :=
  n <- ivar_fmt f ;; i <- ivar_index f v ;; pack_be n i.
(** grid.py:75-76 *)
Definition ivar_decode (f : ivar) (data : list Z) : res (option Z) :=
  n <- ivar_fmt f ;; i <- unpack_be n data ;; ivar_value f i.

(** ** FVar, grid.py:78-121 *)
Record fvar : Type := mkfvar {
  f_name : list Z; f_min : Q; f_max : Q; f_size : nat; f_delta : Q; f_span : Z; f_nullable : bool
}.
(** grid.py:80-92 *)
Definition fvar_new (name : list Z) (minv maxv : Q) (size : Z) (nullable : bool) : res fvar :=
  if negb (Qlt_bool minv maxv) then Err AssertionError
  else if negb ((size =? 1) || (size =? 2) || (size =? 4) || (size =? 8))
       then Err AssertionError
       else Ok (mkfvar name minv maxv (Z.to_nat size) (maxv - minv)%Q
                  (size_span size - b2z nullable) nullable).
(** grid.py:103-108 *)
Definition fvar_index (f : fvar) (v : option Q) : res Z :=
  match v with
  | None => if f_nullable f then Ok (f_span f + 1) else Err AssertionError
  | Some x =>
      if Qle_bool (f_min f) x && Qle_bool x (f_max f)
      then Ok (Z.min (q_round ((x - f_min f) * inject_Z (f_span f) / f_delta f)%Q) (f_span f))
      else Err AssertionError
  end.
(** grid.py:110-115 *)
Definition fvar_value (f : fvar) (i : Z) : res (option Q) :=
  if i =? f_span f + 1
  then if f_nullable f then Ok None else Err AssertionError
  else if (0 <=? i) && (i <=? f_span f)
       then Ok (Some (f_min f + inject_Z i * f_delta f / inject_Z (f_span f))%Q)
       else Err AssertionError.
(** grid.py:117-121 *)
Definition fvar_encode (f : fvar) (v : option Q) : res (list Z) :=
  i <- fvar_index f v ;; pack_be (f_size f) i.
Definition fvar_decode (f : fvar) (data : list Z) : res (option Q) :=
  i <- unpack_be (f_size f) data ;; fvar_value f i.

(** The same with double bounds and values (non-null). *)
Definition fvarF_encode (minv maxv : f64) (size : nat) (nullable : bool) (x : f64)
  : res (list Z) :=
  let span := 256 ^ Z.of_nat size - b2z nullable in
  if SFleb minv x && SFleb x maxv
  then pack_be size
    (Z.min (f_round (fdiv (fmul (fsub x minv) (fofZ span)) (fsub maxv minv))) span)
  else Err AssertionError.
Definition fvarF_decode (minv maxv : f64) (size : nat) (nullable : bool) (data : list Z)
  : res f64 :=
  let span := 256 ^ Z.of_nat size - b2z nullable in
  i <- unpack_be size data ;;
  Ok (fadd minv (fdiv (fmul (fofZ i) (fsub maxv minv)) (fofZ span))).

(** ** SVar, grid.py:123-151 *)
Record svar : Type := mksvar { s_name : list Z; s_size : nat; s_nullable : bool }.
(** data.ljust(size, b'\x00') *)
Definition ljust0 (n : nat) (d : list Z) : list Z := d ++ repeat 0 (n - length d).
(** str.rstrip('\x00') *)
Fixpoint rstrip0 (s : list Z) : list Z :=
  match s with
  | [] => []
  | c :: r => match rstrip0 r with
              | [] => if c =? 0 then [] else [c]
              | r' => c :: r'
              end
  end.
(** grid.py:139-145 *)
Definition svar_encode (f : svar) (v : option (list Z)) : res (list Z) :=
  match v with
  | None => if s_nullable f then Ok (repeat 255 (s_size f)) else Err AssertionError
  | Some s =>
      data <- utf8_encode s ;;
      if Z.of_nat (length data) <=? Z.of_nat (s_size f)
      then Ok (ljust0 (s_size f) data) else Err AssertionError
  end.
(** grid.py:147-151 *)
Definition svar_decode (f : svar) (data : list Z) : res (option (list Z)) :=
  if zlist_eqb data (repeat 255 (s_size f))
  then if s_nullable f then Ok None else Err AssertionError
  else s <- utf8_decode data ;; Ok (Some (rstrip0 s)).

(** ** GRow, grid.py:153-174 *)
Inductive field : Type := FI (f : ivar) | FF (f : fvar) | FS (f : svar).
Inductive val : Type := VNone | VInt (z : Z) | VReal (x : Q) | VStr (s : list Z).

Definition field_size (f : field) : Z :=
  match f with FI f => i_size f | FF f => Z.of_nat (f_size f) | FS f => Z.of_nat (s_size f) end.
(** Encoding by class; a string compared with numbers raises TypeError, a
    number has no encode method. Integer values of IVar columns are VInt. *)
Definition field_encode (f : field) (v : val) : res (list Z) :=
  match f, v with
  | FI f, VNone => ivar_encode f None
  | FI f, VInt z => ivar_encode f (Some z)
  | FI f, _ => _ <- ivar_fmt f ;; Err TypeError
  | FF f, VInt z => fvar_encode f (Some (inject_Z z))
  | FF f, VNone => fvar_encode f None
  | FF f, VReal x => fvar_encode f (Some x)
  | FF _, VStr _ => Err TypeError
  | FS f, VNone => svar_encode f None
  | FS f, VStr s => svar_encode f (Some s)
  | FS _, _ => Err AttributeError
  end.
Definition field_decode (f : field) (data : list Z) : res val :=
  match f with
  | FI f => rmap (fun o => match o with None => VNone | Some z => VInt z end) (ivar_decode f data)
  | FF f => rmap (fun o => match o with None => VNone | Some x => VReal x end) (fvar_decode f data)
  | FS f => rmap (fun o => match o with None => VNone | Some s => VStr s end) (svar_decode f data)
  end.

Definition row : Type := list field.
(** grid.py:157 *)
Definition row_size (fs : row) : Z := zsum (map field_size fs).
(** grid.py:162-165 *)
Definition row_encode (fs : row) (vs : list val) : res (list Z) :=
  parts <- mapM (fun fv => field_encode (fst fv) (snd fv)) (combine fs vs) ;;
  let data := concat parts in
  if Z.of_nat (length data) =? row_size fs then Ok data else Err AssertionError.
(** grid.py:167-174 *)
Fixpoint row_decode_loop (fs : row) (data : list Z) (offset : Z) : res (list val) :=
  match fs with
  | [] => Ok []
  | f :: r =>
      v <- field_decode f (py_slice data offset (offset + field_size f)) ;;
      vs <- row_decode_loop r data (offset + field_size f) ;;
      Ok (v :: vs)
  end.
Definition row_decode (fs : row) (data : list Z) : res (list val) := row_decode_loop fs data 0.
