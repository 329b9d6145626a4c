(** Vocabulary of the statements about frames. *)
From Coq Require Import Reals.
From Verif Require Import Num RealNum BBoxModel PfModel StrModel ProjModel FrameModel.
Open Scope Z_scope.

(** xys are the projections of the points. *)
Definition projects (p : projection) (points xys : list (R * R)) : Prop :=
  Forall2 (fun g xy => exists n, geo2rect n p (fst g) (snd g) = Some (Ok xy)) points xys.
(** b is the smallest box around the points. *)
Definition tight (b : bbox R) (xys : list (R * R)) : Prop :=
  (forall q, In q xys -> (bx0 b <= fst q <= bx1 b /\ by0 b <= snd q <= by1 b)%R) /\
  (exists q, In q xys /\ fst q = bx0 b) /\ (exists q, In q xys /\ fst q = bx1 b) /\
  (exists q, In q xys /\ snd q = by0 b) /\ (exists q, In q xys /\ snd q = by1 b).
(** In both directions the larger of the two starts lies in the half-open
    interval of the other box. *)
Definition overlap (a b : bbox R) : Prop :=
  ((bx0 a <= bx0 b < bx1 a \/ bx0 b <= bx0 a < bx1 b) /\ (by0 a <= by0 b < by1 a \/ by0 b <= by0 a < by1 b))%R.
(** Some polygon's projected box overlaps the frame. *)
Definition visible (f : frame) (parts : list (list (R * R))) : Prop :=
  exists poly xys b, In poly parts /\ projects (fr_proj f) poly xys /\ tight b xys /\ overlap (fr_box f) b.
(** The sublist of the items satisfying P, in order *)
Inductive selects {A} (P : A -> Prop) : list A -> list A -> Prop :=
| sel_nil : selects P [] []
| sel_take x r l : P x -> selects P r l -> selects P (x :: r) (x :: l)
| sel_skip x r l : ~ P x -> selects P r l -> selects P (x :: r) l.
(** A name that survives a line of a text file *)
Definition clean (name : list Z) : Prop := ~ In 10 name /\ ~ In 13 name /\
  match rev name with [] => True | c :: _ => is_space c = false end.
(** Value at a path of keys of a document *)
Fixpoint at_path (j : json) (path : list (list Z)) : option json :=
  match path with
  | [] => Some j
  | k :: r => match j with
              | JObj l => match find (fun kv => zlist_eqb k (fst kv)) l with Some kv => at_path (snd kv) r | None => None end
              | _ => None
              end
  end.
(** Half away from zero, as in SimplifySpec.rounds but on real numbers *)
Definition roundsR (x : R) (q : Z) : Prop :=
  ((0 <= x -> IZR q - 1 / 2 <= x < IZR q + 1 / 2) /\ (x < 0 -> IZR q - 1 / 2 < x <= IZR q + 1 / 2))%R.
(** Every coordinate divided by m and rounded *)
Definition snappedR (m : R) (xys : list (R * R)) (s : list (Z * Z)) : Prop :=
  Forall2 (fun xy g => roundsR (fst xy / m)%R (fst g) /\ roundsR (snd xy / m)%R (snd g)) xys s.
(** The cell of width s (positive) containing x *)
Definition cell (s x : R) (i : Z) : Prop := (IZR i * s <= x < (IZR i + 1) * s)%R.
