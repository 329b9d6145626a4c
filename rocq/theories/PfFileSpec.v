(** The layout of a P file, independent of the model: what a sequence of bytes
    has to be in order to be the file of given entities. *)
From Coq Require Import QArith.
From Verif Require Import Py Num PfSpec.
Open Scope Z_scope.

(** The number with these digits in base [b], most significant first. *)
Definition in_base (b : Z) (ds : list Z) : Z := fold_left (fun a d => a * b + d) ds 0.
(** [bs] spells [v] with seven bits a byte: all bytes but the last one have the
    top bit set.  Leading zeros are allowed. *)
Definition number (v : Z) (bs : list Z) : Prop :=
  exists ds z, bs = map (Z.add 128) ds ++ [z] /\ Forall (fun d => 0 <= d < 128) (ds ++ [z]) /\ v = in_base 128 (ds ++ [z]).
(** [bs] is the 16-bit big-endian [v]. *)
Definition short (v : Z) (bs : list Z) : Prop := length bs = 2%nat /\ v = in_base 256 bs.

(** An entity of the index: its name, the grid coordinates of its box (west,
    east, south, north), the numbers of points of its parts. *)
Record entity : Type := ent { e_name : list Z; e_west : Z; e_east : Z; e_south : Z; e_north : Z; e_lens : list Z }.
Definition entity_bytes (e : entity) (bs : list Z) : Prop :=
  exists p w x s n ls, bs = e_name e ++ [0] ++ p ++ w ++ x ++ s ++ n ++ concat ls /\
    Forall (fun c => 0 < c < 128) (e_name e) /\ number (Z.of_nat (length (e_lens e))) p /\
    short (e_west e) w /\ short (e_east e) x /\ short (e_south e) s /\ short (e_north e) n /\ Forall2 number (e_lens e) ls.
(** The file with codes of [size] bytes, the index [es], and [data] after it.
    The number of rows, [rows], can be anything. *)
Definition layout (file : list Z) (size : Z) (es : list entity) (data : list Z) : Prop :=
  exists rows r n bs, In size psizes /\ file = [80; 70; 0; size] ++ r ++ n ++ concat bs ++ data /\
    number rows r /\ number (Z.of_nat (length es)) n /\ Forall2 entity_bytes es bs.

(** The box of an entity in degrees. *)
Definition box_is (b : Q * Q * Q * Q) (e : entity) : Prop :=
  let '(x0, x1, y0, y1) := b in
  (x0 == grid_lon (e_west e) /\ x1 == grid_lon (e_east e) /\ y0 == grid_lat (e_south e) /\ y1 == grid_lat (e_north e))%Q.
(** The same in double arithmetic. *)
Definition box64 (e : entity) := (edge64_lon (e_west e), edge64_lon (e_east e), edge64_lat (e_south e), edge64_lat (e_north e)).

(** Code number [i] of the data, [size] bytes big-endian. *)
Definition code (size : nat) (data : list Z) (i : nat) : Z := in_base 256 (firstn size (skipn (size * i) data)).
(** How many points the entities before number [i] have. *)
Definition before (es : list entity) (i : nat) : nat := Z.to_nat (zsum (map (fun e => zsum (e_lens e)) (firstn i es))).
(** [p] is point number [j] of the data, placed within the box of [e]. *)
Definition point_is (size : Z) (data : list Z) (e : entity) (j : nat) (p : Q * Q) : Prop :=
  let u := code (Z.to_nat size) data (2 * j) in let v := code (Z.to_nat size) data (2 * j + 1) in
  (fst p == grid_lon (e_west e) + inject_Z u * (grid_lon (e_east e) - grid_lon (e_west e)) / inject_Z (max_code size) /\
   snd p == grid_lat (e_south e) + inject_Z v * (grid_lat (e_north e) - grid_lat (e_south e)) / inject_Z (max_code size))%Q.
(** The same in double arithmetic. *)
Definition point64 (size : Z) (data : list Z) (e : entity) (j : nat) : f64 * f64 :=
  let u := code (Z.to_nat size) data (2 * j) in let v := code (Z.to_nat size) data (2 * j + 1) in
  let '(x0, x1, y0, y1) := box64 e in
  (fadd x0 (fdiv (fmul (fofZ u) (fsub x1 x0)) (fofZ (max_code size))), fadd y0 (fdiv (fmul (fofZ v) (fsub y1 y0)) (fofZ (max_code size)))).
(** The place in a list of [n] that Python's index [idx] means. *)
Definition place (n : nat) (idx : Z) : nat := Z.to_nat (if idx <? 0 then Z.of_nat n + idx else idx).
