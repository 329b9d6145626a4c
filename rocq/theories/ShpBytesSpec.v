(** What the bytes of a .shp file say, independent of the model: which shape a
    record describes, and which list of shapes a file holds. From the writer
    model only the record [shape] of the attributes of a shape is used: type,
    points, parts, part types, z, m, box. *)
From Verif Require Import Py ShpFile ShpWriterModel ShpSpec ShpHostileSpec.
Open Scope Z_scope.

(** The bytes [c] stand at offset [p] of [bs]. *)
Definition stands (bs : list Z) (p : nat) (c : list Z) : Prop := firstn (length c) (skipn p bs) = c.
Definition ints (l : list Z) : list Z := flat_map le32 l.
Definition one_of (t : Z) (l : list Z) : bool := existsb (Z.eqb t) l.
Definition bits (l : list dbl) : Prop := Forall is_dbl l.
(** A point is two doubles. *)
Definition pair (p : list dbl) : Prop := length p = 2%nat /\ bits p.
(** Measures at or below -10e38 count as missing. *)
Definition present (m : dbl) : option dbl := if dbl_lt dbl_nodata m then Some m else None.
(** Types with parts, with elevations, with measures. *)
Definition parted (t : Z) : bool := one_of t [3; 5; 13; 15; 23; 25; 31].
Definition elevated (t : Z) : bool := one_of t [13; 15; 31].
Definition measured (t : Z) : bool := one_of t [13; 15; 23; 25; 31].

(** The content [c] of a record (its type and all that follows) describes [s];
    [m] tells whether measures are read at all. *)
Inductive says (m : bool) : shape -> list Z -> Prop :=
(** Null shapes, and types the format does not have. *)
| says_null : forall t, int32 t -> one_of t [1; 3; 5; 8; 11; 13; 15; 18; 21; 23; 25; 28; 31] = false ->
    says m (mkShape (Some t) [] None None None None None) (le32 t)
(** Single points. *)
| says_point : forall x y, bits [x; y] ->
    says m (mkShape (Some 1) [[x; y]] None None None None None) (le32 1 ++ doubles [x; y])
| says_pointz : forall x y z w, bits [x; y; z; w] ->
    says m (mkShape (Some 11) [[x; y]] None None (Some [z]) (Some [Some w]) None) (le32 11 ++ doubles [x; y; z; w])
| says_pointm : forall x y w, bits [x; y; w] ->
    says m (mkShape (Some 21) [[x; y]] None None None (Some [Some w]) None) (le32 21 ++ doubles [x; y; w])
(** Multipoints with measures: of these only the box is read. *)
| says_multim : forall b, m = false -> length b = 4%nat -> bits b ->
    says m (mkShape (Some 28) [] None None None None (Some b)) (le32 28 ++ doubles b)
(** All others.  [n] is the declared number of points; a negative one counts
    as 0, but not if elevations or measures are to follow. *)
| says_many : forall t b parts types n pts zr zs mr ms,
    one_of t [3; 5; 8; 13; 15; 23; 25; 31] = true ->
    length b = 4%nat -> bits b -> int32 n -> length pts = Z.to_nat n -> Forall pair pts ->
    int32 (Z.of_nat (length parts)) -> Forall int32 parts -> (parted t = false -> parts = []) ->
    Forall int32 types -> length types = (if t =? 31 then length parts else 0%nat) ->
    (if elevated t then 0 <= n /\ length zr = 2%nat /\ bits zr /\ length zs = Z.to_nat n /\ bits zs else zr = [] /\ zs = []) ->
    (if measured t && m then 0 <= n /\ length mr = 2%nat /\ bits mr /\ length ms = Z.to_nat n /\ bits ms else mr = [] /\ ms = []) ->
    says m (mkShape (Some t) pts (match parts with [] => None | _ => Some parts end) (if t =? 31 then Some (Some types) else None)
              (if elevated t then Some zs else None) (if measured t && m then Some (map present ms) else None) (Some b))
      (le32 t ++ doubles b ++ (if parted t then le32 (Z.of_nat (length parts)) else []) ++ le32 n ++ ints parts ++ ints types ++
       doubles (concat pts) ++ doubles zr ++ doubles zs ++ doubles mr ++ doubles ms).

(** The record at offset [o] describes [s]; the next one is at [q]: the
    declared length, in 16-bit words, need not be that of the content. *)
Definition record_at (m : bool) (bs : list Z) (o : nat) (s : shape) (q : nat) : Prop :=
  exists num n c, int32 num /\ int32 n /\ stands bs o (be32 num ++ be32 n ++ c) /\ says m s c /\ Z.of_nat q = Z.of_nat o + 8 + 2 * n.
(** From offset [o] on, the records before offset [q] describe [ss]. *)
Inductive records_at (m : bool) (bs : list Z) : nat -> list shape -> nat -> Prop :=
| records_none : forall o, records_at m bs o [] o
| records_more : forall o s p ss q, (o < length bs)%nat -> record_at m bs o s p -> records_at m bs p ss q -> records_at m bs o (s :: ss) q.
(** The file holds [ss]. *)
Definition holds_shapes (m : bool) (bs : list Z) (ss : list shape) : Prop :=
  exists q, records_at m bs 100 ss q /\ (length bs <= q)%nat.
(** Whether measures are read: neither bound of the header's range is zero. *)
Definition with_measures (range : list dbl) : bool := forallb (fun d => negb (dbl_eq 0 d)) range.

(** The index file [ix] has the entries [vs]: offsets in 16-bit words, as many
    as fit into the length it declares. *)
Definition index_has (ix : list Z) (vs : list Z) : Prop :=
  exists n, holds_be ix 24 n /\ length vs = Z.to_nat ((2 * n - 100) / 8) /\
    forall k v, nth_error vs k = Some v -> holds_be ix (100 + 8 * k) v.
(** It declares more entries than it has: [vs] are there, and the next is not. *)
Definition index_cut (ix : list Z) (vs : list Z) : Prop :=
  exists n, holds_be ix 24 n /\ (length vs < Z.to_nat ((2 * n - 100) / 8))%nat /\ (length ix < 104 + 8 * length vs)%nat /\
    forall k v, nth_error vs k = Some v -> holds_be ix (100 + 8 * k) v.
(** [vs[i]] in Python. *)
Definition item (vs : list Z) (i v : Z) : Prop :=
  let n := Z.of_nat (length vs) in
  - n <= i < n /\ nth_error vs (Z.to_nat (if i <? 0 then i + n else i)) = Some v.
(** The range of measures in the header of a .shp file. *)
Definition range_of (bs : list Z) (range : list dbl) : Prop := length range = 2%nat /\ bits range /\ stands bs 84 (doubles range).
