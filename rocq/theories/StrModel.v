(** Python text: decimal integers, splitting, lines. A str is a list of code
    points. *)
From Verif Require Import Py.
Open Scope Z_scope.

(** str(n) of an int; the fuel suffices (see StrProofs.dec_nat_spec). *)
Fixpoint dec_loop (fuel : nat) (v : Z) (acc : list Z) : list Z :=
  match fuel with
  | O => 48 + v :: acc
  | S f => if 10 <=? v then dec_loop f (v / 10) (48 + v mod 10 :: acc) else 48 + v :: acc
  end.
Definition dec_nat (v : Z) : list Z := dec_loop (Z.to_nat (Z.log2 v)) v [].
Definition str_int (z : Z) : list Z := if z <? 0 then 45 :: dec_nat (- z) else dec_nat z.

(** str.isspace for one character *)
Definition is_space (c : Z) : bool :=
  ((9 <=? c) && (c <=? 13)) || ((28 <=? c) && (c <=? 32)) || (c =? 133) || (c =? 160) ||
  (c =? 5760) || ((8192 <=? c) && (c <=? 8202)) || (c =? 8232) || (c =? 8233) || (c =? 8239) ||
  (c =? 8287) || (c =? 12288).
Fixpoint lstrip_by (p : Z -> bool) (s : list Z) : list Z :=
  match s with [] => [] | c :: r => if p c then lstrip_by p r else s end.
Fixpoint rstrip_by (p : Z -> bool) (s : list Z) : list Z :=
  match s with
  | [] => []
  | c :: r => match rstrip_by p r with
              | [] => if p c then [] else [c]
              | r' => c :: r'
              end
  end.
(** str.strip() *)
Definition strip (s : list Z) : list Z := rstrip_by is_space (lstrip_by is_space s).

Definition is_digit (c : Z) : bool := (48 <=? c) && (c <=? 57).
(** Digits with single underscores between them. [after] tells whether the
    previous character was a digit. *)
Fixpoint int_digits (after : bool) (acc : Z) (s : list Z) : option Z :=
  match s with
  | [] => if after then Some acc else None
  | c :: r =>
      if is_digit c then int_digits true (acc * 10 + (c - 48)) r
      else if (c =? 95) && after then int_digits false acc r
      else None
  end.
(** int(s); digits outside ASCII are not modelled (they are refused here). *)
Definition py_int (s : list Z) : res Z :=
  let r := match strip s with
           | 43 :: t => int_digits false 0 t
           | 45 :: t => option_map Z.opp (int_digits false 0 t)
           | t => int_digits false 0 t
           end in
  match r with Some z => Ok z | None => Err ValueError end.

(** s.split(c) for a one-character separator *)
Fixpoint split_on (c : Z) (s : list Z) : list (list Z) :=
  match s with
  | [] => [[]]
  | x :: r => if x =? c then [] :: split_on c r
              else match split_on c r with [] => [[x]] | w :: ws => (x :: w) :: ws end
  end.
(** c.join(l) for a one-character separator *)
Fixpoint join (c : Z) (l : list (list Z)) : list Z :=
  match l with
  | [] => []
  | [w] => w
  | w :: r => w ++ c :: join c r
  end.

(** Reading a text file translates the line ends CR LF and CR to LF. *)
Fixpoint univ_newlines (s : list Z) : list Z :=
  match s with
  | [] => []
  | 13 :: r => 10 :: match r with 10 :: r' => univ_newlines r' | _ => univ_newlines r end
  | c :: r => c :: univ_newlines r
  end.
(** f.readline() on the rest of a translated text *)
Fixpoint readline (s : list Z) : list Z * list Z :=
  match s with
  | [] => ([], [])
  | c :: r => if c =? 10 then ([10], r) else let '(l, t) := readline r in (c :: l, t)
  end.
