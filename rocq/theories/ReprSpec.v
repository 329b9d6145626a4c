(** How Python reads the text of a call whose arguments are literals:
    decimal integers, True, False and tuples. *)
From Verif Require Import Py Text ReprModel.
Open Scope Z_scope.

Fixpoint after (p s : list Z) : option (list Z) :=
  match p, s with
  | [], _ => Some s
  | a :: p', c :: s' => if a =? c then after p' s' else None
  | _, [] => None
  end.
Fixpoint digits (s : list Z) : list Z * list Z :=
  match s with
  | [] => ([], [])
  | c :: r => if (48 <=? c) && (c <=? 57) then let '(d, r') := digits r in (c :: d, r') else ([], s)
  end.
(** A literal has a digit, and does not begin with 0 unless it is 0. *)
Definition number (s : list Z) : option (Z * list Z) :=
  let '(d, r) := digits s in
  if (Z.of_nat (length d) =? 0) || ((1 <? Z.of_nat (length d)) && (hd 0 d =? 48)) then None
  else Some (fold_left (fun a c => a * 10 + (c - 48)) d 0, r).
(** Items are separated by a comma and a blank and end with a closing
    parenthesis; a tuple has two items or more. *)
Fixpoint literal (fuel : nat) (s : list Z) : option (pyval * list Z) :=
  match fuel with
  | O => None
  | S f =>
      match after (text "True") s with Some r => Some (PBool true, r) | None =>
      match after (text "False") s with Some r => Some (PBool false, r) | None =>
      match after (text "(") s with
      | Some r => match items f r with
                  | Some (a :: b :: l, r') => Some (PTuple (a :: b :: l), r')
                  | _ => None
                  end
      | None =>
      match after (text "-") s with
      | Some r => match number r with Some (z, r') => Some (PInt (- z), r') | None => None end
      | None => match number s with Some (z, r') => Some (PInt z, r') | None => None end
      end end end end
  end
with items (fuel : nat) (s : list Z) : option (list pyval * list Z) :=
  match fuel with
  | O => None
  | S f =>
      match literal f s with
      | None => None
      | Some (v, t) =>
          match after (text ")") t with Some r => Some ([v], r) | None =>
          match after (text ", ") t with
          | Some r => match items f r with Some (l, r') => Some (v :: l, r') | None => None end
          | None => None
          end end
      end
  end.
(** The text is a call of [name] with these arguments, and nothing follows. *)
Definition is_call (name s : list Z) (args : list pyval) : Prop :=
  match after (name ++ text "(") s with
  | Some r => exists fuel, items fuel r = Some (args, [])
  | None => False
  end.
(** A text means at most one call (C134_one_meaning), so this is what eval()
    of the text returns or raises, when [name] is bound to the constructor. *)
Definition evaluates {A} (name : list Z) (init : list pyval -> res A) (s : list Z) (r : res A) : Prop :=
  exists args, is_call name s args /\ init args = r.
