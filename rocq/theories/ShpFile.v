(** Vocabulary of the shapefile model (coral/shapefile.py): a state-and-exception
    monad, binary file objects, [struct] formats, doubles. *)
From Verif Require Import Py VlvModel.
Open Scope Z_scope.

(** ** Computations over a mutable state that may raise: the state survives
    the exception. *)
Definition M (S A : Type) : Type := S -> S * res A.
Definition ret {S A} (a : A) : M S A := fun s => (s, Ok a).
Definition raise {S A} (e : exn) : M S A := fun s => (s, Err e).
Definition lift {S A} (r : res A) : M S A := fun s => (s, r).
Definition mbind {S A B} (m : M S A) (k : A -> M S B) : M S B :=
  fun s => match m s with
           | (s', Ok a) => k a s'
           | (s', Err e) => (s', Err e)
           end.
Definition get {S} : M S S := fun s => (s, Ok s).
Definition modify {S} (g : S -> S) : M S unit := fun s => (g s, Ok tt).
Declare Scope m_scope.
Delimit Scope m_scope with m.
Notation "x <~ m ;; k" := (mbind m (fun x => k))
  (at level 61, m at next level, right associativity) : m_scope.
Notation "' p <~ m ;; k" := (mbind m (fun p => k))
  (at level 61, p pattern, m at next level, right associativity) : m_scope.
Notation "m ;;; k" := (mbind m (fun _ => k))
  (at level 61, right associativity) : m_scope.
Open Scope m_scope.
(** A [for] loop. *)
Fixpoint for_each {S A} (body : A -> M S unit) (l : list A) : M S unit :=
  match l with
  | [] => ret tt
  | x :: r => body x ;;; for_each body r
  end.
(** [[body(x) for x in l]] *)
Fixpoint for_map {S A B} (body : A -> M S B) (l : list A) : M S (list B) :=
  match l with
  | [] => ret []
  | x :: r => y <~ body x ;; ys <~ for_map body r ;; ret (y :: ys)
  end.
(** [if c: m] *)
Definition when {S} (c : bool) (m : M S unit) : M S unit := if c then m else ret tt.
(** Running on a component of the state. *)
Definition zoom {S T A} (g : S -> T) (p : T -> S -> S) (m : M T A) : M S A :=
  fun s => let '(t, r) := m (g s) in (p t s, r).

(** ** Binary file objects: contents and position *)
Record file : Type := mkFile { fdata : list Z; fpos : nat }.
Definition new_file : file := mkFile [] 0.
(** f.seek(n): a negative position raises ValueError (io.BytesIO; a disk file
    raises OSError, which is not distinguished here). *)
Definition f_seek (n : Z) : M file unit :=
  fun f => if n <? 0 then (f, Err ValueError) else (mkFile (fdata f) (Z.to_nat n), Ok tt).
(** f.seek(0, 2) *)
Definition f_seek_end : M file unit :=
  fun f => (mkFile (fdata f) (length (fdata f)), Ok tt).
Definition f_tell : M file Z := fun f => (f, Ok (Z.of_nat (fpos f))).
(** f.read(n): at most n bytes; a negative n reads to the end. *)
Definition f_read (n : Z) : M file (list Z) :=
  fun f =>
    let rest := skipn (fpos f) (fdata f) in
    let bs := if n <? 0 then rest else firstn (Z.to_nat n) rest in
    (mkFile (fdata f) (fpos f + length bs), Ok bs).
(** f.write(bs): overwrites from the position on; a gap after the old end is
    filled with zeros. *)
Definition f_write (bs : list Z) : M file unit :=
  fun f =>
    let d := fdata f in
    let p := fpos f in
    let head := firstn p d ++ repeat 0 (p - length d) in
    (mkFile (head ++ bs ++ skipn (p + length bs) d) (p + length bs), Ok tt).
(** f.write(pack(...)) *)
Definition f_put (r : res (list Z)) : M file unit := bs <~ lift r ;; f_write bs.

(** ** struct *)
(** ">i" and "<i": 32-bit two's complement, struct.error out of range. *)
Definition i32_ok (v : Z) : bool := (-2147483648 <=? v) && (v <? 2147483648).
Definition pack_bi (v : Z) : res (list Z) :=
  if i32_ok v then Ok (be_bytes 4 (v mod 4294967296)) else Err StructError.
Definition pack_li (v : Z) : res (list Z) := rmap (@rev Z) (pack_bi v).
Definition i32_of (v : Z) : Z := if 2147483648 <=? v then v - 4294967296 else v.
Definition unpack_bi (bs : list Z) : res Z := rmap i32_of (unpack_be 4 bs).
Definition unpack_li (bs : list Z) : res Z := rmap i32_of (unpack_le 4 bs).
(** pack("<i", x) where x may be None (struct.error). *)
Definition pack_li_opt (v : option Z) : res (list Z) :=
  match v with Some z => pack_li z | None => Err StructError end.
(** Several values at once. *)
Definition pack_many {A} (p : A -> res (list Z)) (l : list A) : res (list Z) :=
  rmap (@concat Z) (mapM p l).
(** Split into [n] pieces of [k] bytes. *)
Fixpoint chunks (k n : nat) (bs : list Z) : list (list Z) :=
  match n with
  | O => []
  | S m => firstn k bs :: chunks k m (skipn k bs)
  end.
(** unpack of [n] equal fields of [k] bytes; a wrong length raises struct.error,
    and so does a negative repeat count (bad format). *)
Definition unpack_many {A} (k : nat) (u : list Z -> res A) (n : Z) (bs : list Z) : res (list A) :=
  if (0 <=? n) && (Z.of_nat (length bs) =? n * Z.of_nat k)
  then mapM u (chunks k (Z.to_nat n) bs) else Err StructError.

(** ** Doubles
    A Python float is identified with its 64-bit pattern (an integer below
    2^64), so that "the same float" means bit-identical. Python ints used as
    coordinates are represented by the equal float (they are only compared and
    packed as "d"). *)
Definition dbl := Z.
Definition is_dbl (d : dbl) : Prop := 0 <= d < 18446744073709551616.
(** pack("<d", x): never fails on a float. *)
Definition dbl_bytes (d : dbl) : list Z := rev (be_bytes 8 d).
Definition unpack_d (bs : list Z) : res dbl := unpack_le 8 bs.
Definition pack_ds (l : list dbl) : list Z := flat_map dbl_bytes l.
Definition unpack_ds (n : Z) (bs : list Z) : res (list dbl) := unpack_many 8 unpack_d n bs.
(** IEEE 754 comparison on bit patterns: the sign-and-magnitude order, with
    both zeros equal and NaN unordered. *)
Definition dbl_mag (d : dbl) : Z := d mod 9223372036854775808.
Definition dbl_nan (d : dbl) : bool := 9218868437227405312 <? dbl_mag d.
Definition dbl_key (d : dbl) : Z :=
  if d <? 9223372036854775808 then dbl_mag d else - dbl_mag d.
Definition dbl_lt (a b : dbl) : bool :=
  negb (dbl_nan a) && negb (dbl_nan b) && (dbl_key a <? dbl_key b).
Definition dbl_eq (a b : dbl) : bool :=
  negb (dbl_nan a) && negb (dbl_nan b) && (dbl_key a =? dbl_key b).
(** The int or float 0; -10e38 *)
Definition dbl_zero : dbl := 0.
Definition dbl_nodata : dbl := 14413632652858640925.
(** min(l), max(l): the first extreme element wins; ValueError on []. *)
Definition dbl_min (l : list dbl) : res dbl :=
  match l with
  | [] => Err ValueError
  | x :: r => Ok (fold_left (fun a b => if dbl_lt b a then b else a) r x)
  end.
Definition dbl_max (l : list dbl) : res dbl :=
  match l with
  | [] => Err ValueError
  | x :: r => Ok (fold_left (fun a b => if dbl_lt a b then b else a) r x)
  end.

(** [t in (..)] for a shape type that may be None *)
Definition type_in (t : option Z) (l : list Z) : bool :=
  match t with Some z => existsb (Z.eqb z) l | None => false end.
Definition type_is (t : option Z) (z : Z) : bool := type_in t [z].
