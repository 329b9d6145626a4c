(** The characters of a drawing file whose numbers are ints and floats. *)
From Coq Require Import SpecFloat.
From Verif Require Import Py Num Text StrModel VectorModel FloatTextModel NumTextModel.
Open Scope Z_scope.

(** vector.py:104, 111, 127, 134-135, 142, 163, 170, 184, 191, 211, 214, 234, 246, 248, 251, 279, 289-305: str.format() and
    str() put the text of a number in the place of the symbol [N x]. *)
Definition chars (l : list (ch number)) : list Z := flat_map (fun c => match c with C c => [c] | N x => num_str x end) l.
(** vector.py:308-310: what save() writes into the file *)
Definition saved {P : PyNum number} (c : canvas number) (size : option number) (margin : number) : res (list Z) := rmap chars (save c size margin).

(** Python's arithmetic with ints and floats. An int met by a float is
    rounded to a float, where Python compares exactly and may raise
    OverflowError; no theorem depends on it. *)
Definition to64 (x : number) : f64 := match x with Int z => decimal64 (z <? 0) (Z.abs z) 0 | Float d => d end.
Definition mixed2 {A} (f : Z -> Z -> A) (g : f64 -> f64 -> A) (x y : number) : A :=
  match x, y with Int a, Int b => f a b | _, _ => g (to64 x) (to64 y) end.
#[export] Instance mixed : PyNum number := {
  nofZ := Int;
  nadd := mixed2 (fun a b => Int (a + b)) (fun a b => Float (nadd a b));
  nsub := mixed2 (fun a b => Int (a - b)) (fun a b => Float (nsub a b));
  nmul := mixed2 (fun a b => Int (a * b)) (fun a b => Float (nmul a b));
  ndiv := fun x y => match x, y with
          | Int a, Int b => Float (if a =? 0 then S754_zero (b <? 0) else ratio64 (xorb (a <? 0) (b <? 0)) (Z.to_pos (Z.abs a)) (Z.to_pos (Z.abs b)))
          | _, _ => Float (ndiv (to64 x) (to64 y))
          end;
  nlt := mixed2 Z.ltb nlt;
  nle := mixed2 Z.leb nle;
  neq := mixed2 Z.eqb neq
}.
