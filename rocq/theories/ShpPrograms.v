(** Programs over the shapefile API, as the statements in ShpProps.v mention
    them: no proofs here. *)
From Verif Require Import Py ShpFile ShpWriterModel ShpReaderModel ShpSpec.
Open Scope Z_scope.
Open Scope m_scope.

(** Types that are written and read in full: point, polyline, polygon,
    multipoint, point Z, point M, polyline M, polygon M *)
Definition good (t : Z) : Prop := In t [1; 3; 5; 8; 11; 21; 23; 25].
(** The method called: shapefile.py:925-970 *)
Definition do_call (c : call) : M writer unit :=
  match c with
  | Point x y z m => point x y z m
  | Line parts t => line parts t
  | Poly parts t => poly parts t None
  | Null => null
  end.
(** A program that makes a Writer, adds shapes and saves them. *)
Record saved (given : option Z) (calls : list call) (t : Z) (w0 w1 w2 : writer) : Prop := {
  sv_doubles : Forall call_doubles calls;
  sv_calls : for_each do_call calls (Writer given) = (w0, Ok tt);
  sv_type : file_type given calls t;
  sv_shp : saveShp new_file w0 = (w1, Ok tt);
  sv_shx : saveShx new_file w1 = (w2, Ok tt)
}.
(** Earlier use of a Reader of [n] shapes: any number of calls of shapes() and
    shape(i) with any index, whether they raise or not. *)
Inductive used (n : nat) (r0 : reader) : reader -> Prop :=
| used_none : used n r0 r0
| used_shapes r r' fuel x : used n r0 r -> (n < fuel)%nat -> shapes fuel r = (r', x) -> used n r0 r'
| used_shape r r' fuel i x : used n r0 r -> (n < fuel)%nat -> shape_at fuel i r = (r', x) -> used n r0 r'.
(** A program that saves, adds shapes and saves again. *)
Record twice (given : option Z) (calls1 calls2 : list call) (t : Z) (w0 w1 w2 w3 w4 w5 : writer) : Prop := {
  tw_first : saved given calls1 t w0 w1 w2;
  tw_doubles : Forall call_doubles calls2;
  tw_calls : for_each do_call calls2 w2 = (w3, Ok tt);
  tw_shp : saveShp new_file w3 = (w4, Ok tt);
  tw_shx : saveShx new_file w4 = (w5, Ok tt)
}.
(** The shapes are not too many: no shape has more than [P] parts, and the
    32-bit length fields cannot overflow (4 GB). *)
Definition modest (gs : list geometry) : Prop :=
  exists P, Forall (fun g => Z.of_nat (length g) <= P) gs /\
    100 + (128 + 8 * P) * Z.of_nat (length gs) + 32 * Z.of_nat (length (flat_map vertices gs)) < 4294967296.
(** Polyline Z, polygon Z, multipoint Z *)
Definition z_type (t : Z) : Prop := In t [13; 15; 18].
(** The arguments of line() and poly() *)
Definition call_parts (c : call) : option (list (list (list dbl)) * Z) :=
  match c with Line parts t | Poly parts t => Some (parts, t) | _ => None end.
(** Calls that add a shape without parts *)
Definition single (c : call) : bool := match c with Line _ _ | Poly _ _ => false | _ => true end.
(** File types whose records list parts *)
Definition parts_file (t : Z) : Prop := In t [3; 5; 13; 15; 23; 25; 31].
(** A program that has added shapes of geometry [gs] and has not saved yet. *)
Record program (given : option Z) (calls : list call) (t : Z) (gs : list geometry) (w : writer) : Prop := {
  pr_doubles : Forall call_doubles calls;
  pr_calls : for_each do_call calls (Writer given) = (w, Ok tt);
  pr_type : file_type given calls t;
  pr_adds : Forall2 adds calls gs;
  pr_modest : modest gs
}.
Definition first_single (calls : list call) : Prop := exists c, hd_error calls = Some c /\ single c = true.
