(** The tokens of the file, numbers included. *)
From Verif Require Import Py Num Text VectorModel PsSpec NumTextModel NumTextSpec.
Open Scope Z_scope.

(** The token [k] of a drawing and the token of the file in its place: a
    numeral without underscores for a number, the same for anything else *)
Definition reads (k k' : token number) : Prop :=
  match k with
  | KNum x => exists w, k' = KName w /\ numeral w x /\ ~ In 95 w
  | _ => k' = k
  end.
(** The numbers in a drawing *)
Definition numbers (l : list (ch number)) : list number := flat_map (fun c => match c with C _ => [] | N x => [x] end) l.
