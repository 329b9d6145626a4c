(** Model of coral/gradient.py. A stop is a position and a colour (a tuple of
    numbers). *)
From Verif Require Import Num RasterModel.
Open Scope Z_scope.

Section Gradient.
  Context {T : Type} `{PyNum T} `{PyInt T}.
  Notation stop := (T * list T)%type.
  (** gradient.py:26: list.sort with the position as key; any stable sort
      gives this list when positions are ordered. *)
  Fixpoint insert_stop (p : stop) (l : list stop) : list stop :=
    match l with
    | [] => [p]
    | q :: r => if nlt (fst q) (fst p) then q :: insert_stop p r else p :: l
    end.
  Definition sort_stops (l : list stop) : list stop := fold_right insert_stop [] l.
  (** gradient.py:25-32. The list is also what the caller's list has become. *)
  Definition gradient_new (points : list stop) : res (list stop) :=
    let points := sort_stops points in
    first <- py_get points 0 ;;
    let points := if nlt (nofZ 0) (fst first) then (nofZ 0, snd first) :: points else points in
    last <- py_get points (-1) ;;
    Ok (if nlt (fst last) (nofZ 1) then points ++ [(nofZ 1, snd last)] else points).
  (** bisect.bisect_left(a, x) from lo to hi; the length of the list is
      enough fuel. *)
  Fixpoint bisect_loop (fuel : nat) (a : list T) (x : T) (lo hi : Z) : res Z :=
    match fuel with
    | O => Ok lo
    | S f =>
        if lo <? hi then
          let mid := (lo + hi) / 2 in
          v <- py_get a mid ;;
          if nlt v x then bisect_loop f a x (mid + 1) hi else bisect_loop f a x lo mid
        else Ok lo
    end.
  Definition bisect_left (a : list T) (x : T) : res Z := bisect_loop (length a) a x 0 (Z.of_nat (length a)).
  (** gradient.py:34-45 *)
  Definition gradient_get (g : list stop) (x : T) : res (list T) :=
    let pos := map fst g in
    let rgb := map snd g in
    ib <- bisect_left pos x ;;
    p <- py_get pos ib ;;
    if neq p x then py_get rgb ib
    else
      let ia := ib - 1 in
      pa <- py_get pos ia ;;
      pb <- py_get pos ib ;;
      fa <- ndivE (nsub pb x) (nsub pb pa) ;;
      fb <- ndivE (nsub x pa) (nsub pb pa) ;;
      ca <- py_get rgb ia ;;
      cb <- py_get rgb ib ;;
      Ok (map (fun q => nadd (nmul (fst q) fa) (nmul (snd q) fb)) (combine ca cb)).
  (** The first digit of hex(n): the character at index 2, which is the x of
      "-0x" when n is negative. *)
  Fixpoint top_digit (fuel : nat) (n : Z) : Z :=
    match fuel with O => n | S f => if n <? 16 then n else top_digit f (n / 16) end.
  Definition hex_char (d : Z) : Z := if d <? 10 then 48 + d else 87 + d.
  Definition hex2 (n : Z) : Z := if n <? 0 then 120 else hex_char (top_digit (Z.to_nat (Z.log2 n)) n).
  (** gradient.py:47-49 *)
  Definition gradient_hex (g : list stop) (x : T) : res (list Z) :=
    c <- gradient_get g x ;;
    Ok (35 :: map (fun i => hex2 (nint (nmul i (nofZ 15)))) c).
End Gradient.
