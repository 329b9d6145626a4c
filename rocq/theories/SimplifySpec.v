(** Specification vocabulary for polyline simplification. *)
From Verif Require Import Num.
Open Scope Z_scope.

(** Order-preserving selection. *)
Inductive subseq {A} : list A -> list A -> Prop :=
| ss_nil l : subseq [] l
| ss_take x l m : subseq l m -> subseq (x :: l) (x :: m)
| ss_skip x l m : subseq l m -> subseq l (x :: m).

(** Collapse runs of equal points. *)
Definition same (a b : Z * Z) : {a = b} + {a <> b}.
Proof. decide equality; apply Z.eq_dec. Defined.
Fixpoint dedup (l : list (Z * Z)) : list (Z * Z) :=
  match l with
  | x :: (y :: _) as r => if same x y then dedup r else x :: dedup r
  | _ => l
  end.

(** Twice the signed area of the triangle a b c. *)
Definition cross (a b c : Z * Z) : Z :=
  (fst b - fst a) * (snd c - snd a) - (snd b - snd a) * (fst c - fst a).
Definition dot (a b c d : Z * Z) : Z :=
  (fst b - fst a) * (fst d - fst c) + (snd b - snd a) * (snd d - snd c).

(** Interior points of a path at which it turns. *)
Fixpoint turns (l : list (Z * Z)) : list (Z * Z) :=
  match l with
  | a :: (b :: c :: _) as r =>
      if cross a b c =? 0 then turns r else b :: turns r
  | _ => []
  end.

(** [cancels l m]: m arises from l by deleting adjacent equal pairs. *)
Inductive cancels {A} : list A -> list A -> Prop :=
| ca_done l : cancels l l
| ca_pair a x b m : cancels (a ++ b) m -> cancels (a ++ x :: x :: b) m.

Definition no_adjacent {A} (l : list A) : Prop :=
  forall a x b, l <> a ++ x :: x :: b.

(** Point x on the closed segment a b. *)
Definition on_segment (a b x : Z * Z) : Prop :=
  exists t : Q, (0 <= t <= 1)%Q /\
    (inject_Z (fst x) == inject_Z (fst a) + t * inject_Z (fst b - fst a))%Q /\
    (inject_Z (snd x) == inject_Z (snd a) + t * inject_Z (snd b - snd a))%Q.

(** Point x on the polyline through the vertices l. *)
Definition on_polyline (l : list (Z * Z)) (x : Z * Z) : Prop :=
  exists u a b v, l = u ++ a :: b :: v /\ on_segment a b x.

(** q is the integer nearest to x, ties away from zero. *)
Definition rounds (x : Q) (q : Z) : Prop :=
  (inject_Z (Z.abs q) - (1 # 2) <= Qabs x)%Q /\ (Qabs x < inject_Z (Z.abs q) + (1 # 2))%Q /\
  (0 <= x * inject_Z q)%Q.

(** s is the path xys snapped to the grid of cell size m, in cell units. *)
Definition snapped (m : Q) (xys : list (Q * Q)) (s : list (Z * Z)) : Prop :=
  Forall2 (fun xy g => rounds (fst xy / m) (fst g) /\ rounds (snd xy / m) (snd g)) xys s.

(** No step of the path turns back along the previous one. *)
Definition never_reverses (l : list (Z * Z)) : Prop :=
  forall u p q r v, l = u ++ p :: q :: r :: v -> cross p q r = 0 -> dot p q q r > 0.

(** Twice the signed area enclosed by a ring. *)
Fixpoint shoelace (first : Z * Z) (l : list (Z * Z)) : Z :=
  match l with
  | a :: (b :: _) as r => fst a * snd b - fst b * snd a + shoelace first r
  | [a] => fst a * snd first - fst first * snd a
  | [] => 0
  end.
Definition area2 (l : list (Z * Z)) : Z :=
  match l with [] => 0 | a :: _ => shoelace a l end.
