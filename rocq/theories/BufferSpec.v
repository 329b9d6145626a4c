(** Specification: a list (oldest first) of at most [cap] items. *)
From Verif Require Import Py BufferModel.
Open Scope Z_scope.

Definition newest {A} (q : list A) : option A := nth_error q (length q - 1).

Definition qstep {A} (cap : Z) (q : list A) (o : bop A) : bout A * list A :=
  match o with
  | BPush a => if Z.of_nat (length q) <? cap then (ONone, q ++ [a])
               else (ORaise AssertionError, q)
  | BPop => match q with [] => (ORaise AssertionError, q)
            | _ => (OVal (newest q), removelast q) end
  | BPeek => match q with [] => (ORaise AssertionError, q) | _ => (OVal (newest q), q) end
  | BShift => match q with [] => (ORaise AssertionError, q)
              | a :: r => (OVal (Some a), r) end
  | BIsEmpty => (OBool (match q with [] => true | _ => false end), q)
  | BIsFull => (OBool (Z.of_nat (length q) =? cap), q)
  | BStr => (OItems (map Some q), q)
  end.
Fixpoint qrun {A} (cap : Z) (q : list A) (l : list (bop A)) : list (bout A) :=
  match l with
  | [] => []
  | o :: r => let '(v, q') := qstep cap q o in v :: qrun cap q' r
  end.
