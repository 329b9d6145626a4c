(** Vocabulary of the statements about tqdm, independent of the model's
    functions. *)
From Verif Require Import Num StrModel TqdmModel.
Open Scope Z_scope.

(** What the consumer receives, what [file] receives, what sys.stdout receives. *)
Definition yields {A} (l : list (event A)) : list A := flat_map (fun e => match e with EYield a => [a] | _ => [] end) l.
Definition filed {A} (l : list (event A)) : list Z := flat_map (fun e => match e with EFile s => s | _ => [] end) l.
Definition stdouted {A} (l : list (event A)) : list Z := flat_map (fun e => match e with EStdout s => s | _ => [] end) l.
(** Number of writes to [file] *)
Definition writes {A} (l : list (event A)) : Z := Z.of_nat (length (filter (fun e => match e with EFile _ => true | _ => false end) l)).

(** One line of a terminal: its cells and the cursor. A carriage return moves
    the cursor to the first cell, any other character overwrites a cell. Line
    breaks, other control characters and wide characters are not described. *)
Record term := { t_line : list Z; t_col : nat }.
Definition blank_line : term := {| t_line := []; t_col := 0 |}.
Definition put (t : term) (c : Z) : term :=
  if c =? 13 then {| t_line := t_line t; t_col := 0 |}
  else {| t_line := firstn (t_col t) (t_line t ++ repeat 32 (t_col t - length (t_line t))) ++ c :: skipn (S (t_col t)) (t_line t);
          t_col := S (t_col t) |}.
Definition show (t : term) (s : list Z) : term := fold_left put s t.
Definition plain (s : list Z) : Prop := ~ In 13 s /\ ~ In 10 s.

(** The text of a sequence of status prints *)
Fixpoint printed (len : Z) (l : list (list Z)) : list Z :=
  match l with
  | [] => []
  | s :: r => fst (print_status len s) ++ printed (snd (print_status len s)) r
  end.

(** s is a clock text: colon-separated, the last two fields two decimal
    digits denoting 0..59, at most one more field denoting a non-zero number
    of hours; z is the number of seconds it denotes. *)
Inductive sexagesimal : list Z -> Z -> Prop :=
| sx_digits a b : 48 <= a <= 53 -> 48 <= b <= 57 -> sexagesimal [a; b] (10 * (a - 48) + (b - 48)).
Inductive clock_text : list Z -> Z -> Prop :=
| ct_short m s zm zs : sexagesimal m zm -> sexagesimal s zs -> clock_text (m ++ 58 :: s) (60 * zm + zs)
| ct_long h m s zh zm zs : ~ In 58 h -> py_int h = Ok zh -> zh <> 0 -> sexagesimal m zm -> sexagesimal s zs ->
    clock_text (h ++ 58 :: m ++ 58 :: s) (3600 * zh + 60 * zm + zs).
