(** Model of the polyline simplification part of coral/coord.py. *)
From Coq Require Import SpecFloat.
From Verif Require Import Num BufferModel.
Open Scope Z_scope.

(** coord.py:36, nearest(x) = int(x + copysign(0.5, x)), exact arithmetic. *)
Definition nearestQ (x : Q) : Z :=
  q_trunc (x + (if Qlt_bool x 0 then - (1 # 2) else 1 # 2))%Q.

(** coord.py:36 in double arithmetic (finite arguments; copysign uses the sign
    bit). *)
Definition f_sign (x : f64) : bool :=
  match x with
  | S754_zero s | S754_infinity s | S754_finite s _ _ => s
  | S754_nan => false
  end.
Definition nearestF (x : f64) : Z :=
  f_trunc (fadd x (if f_sign x then f_of (-1) (-1) else f_of 1 (-1))).

(** coord.py:236-241, over exact numbers and over the integers. *)
Definition collinearQ (a b c : Q * Q) : bool :=
  let '(xa, ya) := a in let '(xb, yb) := b in let '(xc, yc) := c in
  Qeq_bool ((xa - xc) * (yb - ya))%Q ((xa - xb) * (yc - ya))%Q.

Notation pt := (Z * Z)%type (only parsing).
Definition pt_eqb (a b : pt) : bool := (fst a =? fst b) && (snd a =? snd b).
Definition collinear (a b c : pt) : bool :=
  let '(xa, ya) := a in let '(xb, yb) := b in let '(xc, yc) := c in
  (xa - xc) * (yb - ya) =? (xa - xb) * (yc - ya).

(** A generator is modelled by what it yields and how it ends: normally or
    with an exception ([None] for the whole: fuel exhausted). *)
Definition gen : Type := (list pt * res unit)%type.

(** coord.py:243-247; the division by m raises on the first item if m = 0. *)
Definition sqr_fit (m : Q) (s : list (Q * Q)) : list pt * res unit :=
  match s with
  | [] => ([], Ok tt)
  | _ => if Qeq_bool m 0 then ([], Err ZeroDivisionError)
         else (map (fun '(x, y) => (nearestQ (x / m), nearestQ (y / m)))%Q s, Ok tt)
  end.

(** q == b.peek() with a peeked slot. *)
Definition slot_eqb (q : pt) (o : option pt) : bool :=
  match o with Some p => pt_eqb q p | None => false end.
(** Yielding a slot of the buffer (a slot never written holds None; such a
    value is never yielded, see the proofs). *)
Definition slot_list (o : option pt) : list pt :=
  match o with Some p => [p] | None => [] end.

(** coord.py:258-263, the corner branch of open_no_slit: items yielded and the
    new buffer. *)
Definition open_corner (b : buffer pt) (q : pt) : list pt * res (buffer pt) :=
  if negb (b_isempty b) &&
     match b_peek b with Ok o => slot_eqb q o | Err _ => false end
  then ([], rmap snd (b_pop b))
  else if b_isfull b
       then match b_shift b with
            | Ok (o, b') => (slot_list o, b_push b' q)
            | Err e => ([], Err e)
            end
       else ([], b_push b q).

(** coord.py:254-264 *)
Fixpoint open_loop (b : buffer pt) (p q : pt) (s : list pt)
  : list pt * res (buffer pt * pt) :=
  match s with
  | [] => ([], Ok (b, q))
  | r :: s' =>
      if pt_eqb r q then open_loop b p q s'
      else if collinear p q r then open_loop b q r s'
      else
        let '(o, rb) := open_corner b q in
        match rb with
        | Err e => (o, Err e)
        | Ok b' => let '(o', x) := open_loop b' q r s' in (o ++ o', x)
        end
  end.

(** coord.py:265-266 and 299-300, "while not b.isempty(): yield b.shift()" *)
Fixpoint flush (fuel : nat) (b : buffer pt) : option (list pt * res unit) :=
  match fuel with
  | O => None
  | S f =>
      if b_isempty b then Some ([], Ok tt)
      else match b_shift b with
           | Err e => Some ([], Err e)
           | Ok (o, b') =>
               match flush f b' with
               | None => None
               | Some (l, x) => Some (slot_list o ++ l, x)
               end
           end
  end.

(** coord.py:249-267 *)
Definition open_no_slit (fuel : nat) (s : list pt) (k : Z) : option gen :=
  match buf_new k with
  | Err e => Some ([], Err e)
  | Ok b =>
      match s with
      | [] => Some ([], Err StopIteration)
      | [p] => Some ([p], Err StopIteration)
      | p :: q :: s' =>
          match open_loop b p q s' with
          | (o, Err e) => Some (p :: o, Err e)
          | (o, Ok (b', q')) =>
              match flush fuel b' with
              | None => None
              | Some (l, Err e) => Some (p :: o ++ l, Err e)
              | Some (l, Ok _) => Some (p :: o ++ l ++ [q'], Ok tt)
              end
          end
      end
  end.

(** coord.py:279-288, the corner branch of closed_no_slit. *)
Definition closed_corner (b1 b2 : buffer pt) (q : pt)
  : list pt * res (buffer pt * buffer pt) :=
  if negb (b_isempty b1) &&
     match b_peek b1 with Ok o => slot_eqb q o | Err _ => false end
  then ([], rmap (fun ob => (snd ob, b2)) (b_pop b1))
  else if b_isfull b1
       then match b_shift b1 with
            | Ok (o, b1') =>
                if b_isfull b2
                then (slot_list o, rmap (fun b => (b, b2)) (b_push b1' q))
                else ([], match o with
                          | Some t => b2' <- b_push b2 t ;; b1'' <- b_push b1' q ;; Ok (b1'', b2')
                          | None => Err TypeError
                          end)
            | Err e => ([], Err e)
            end
       else ([], rmap (fun b => (b, b2)) (b_push b1 q)).

(** coord.py:275-289; the last component is the value of [r], unbound if the
    loop body never ran. *)
Fixpoint closed_loop (b1 b2 : buffer pt) (p q : pt) (ro : option pt) (s : list pt)
  : list pt * res (buffer pt * buffer pt * pt * pt * option pt) :=
  match s with
  | [] => ([], Ok (b1, b2, p, q, ro))
  | r :: s' =>
      if pt_eqb r q then closed_loop b1 b2 p q (Some r) s'
      else if collinear p q r then closed_loop b1 b2 q r (Some r) s'
      else
        let '(o, rb) := closed_corner b1 b2 q in
        match rb with
        | Err e => (o, Err e)
        | Ok (b1', b2') =>
            let '(o', x) := closed_loop b1' b2' q r (Some r) s' in (o ++ o', x)
        end
  end.

(** coord.py:290-294 *)
Fixpoint closed_meet (fuel : nat) (b1 b2 : buffer pt) (p q : pt)
  : option (res (buffer pt * buffer pt * pt * pt)) :=
  match fuel with
  | O => None
  | S f =>
      if b_isempty b1 || b_isempty b2 then Some (Ok (b1, b2, p, q))
      else match b_pop b1, b_shift b2 with
           | Ok (Some p', b1'), Ok (Some q', b2') =>
               if negb (pt_eqb p' q') then Some (Ok (b1', b2', p', q'))
               else closed_meet f b1' b2' p' q'
           | Err e, _ => Some (Err e)
           | _, Err e => Some (Err e)
           | _, _ => Some (Err TypeError)
           end
  end.

(** coord.py:269-301 *)
Definition closed_no_slit (fuel : nat) (s : list pt) (k : Z) : option gen :=
  match buf_new k with
  | Err e => Some ([], Err e)
  | Ok b =>
      match s with
      | [] => Some ([], Err StopIteration)
      | [p] => Some ([p], Err StopIteration)
      | p :: q :: s' =>
          match closed_loop b b p q None s' with
          | (o, Err e) => Some (p :: o, Err e)
          | (o, Ok (b1, b2, p', q', ro)) =>
              match closed_meet fuel b1 b2 p' q' with
              | None => None
              | Some (Err e) => Some (p :: o, Err e)
              | Some (Ok (b1', b2', p'', q'')) =>
                  match flush fuel b1' with
                  | None => None
                  | Some (l1, Err e) => Some (p :: o ++ l1, Err e)
                  | Some (l1, Ok _) =>
                      match flush fuel b2' with
                      | None => None
                      | Some (l2, Err e) => Some (p :: o ++ l1 ++ [p''; q''] ++ l2, Err e)
                      | Some (l2, Ok _) =>
                          match ro with
                          | None => Some (p :: o ++ l1 ++ [p''; q''] ++ l2, Err UnboundLocalError)
                          | Some r => Some (p :: o ++ l1 ++ [p''; q''] ++ l2 ++ [r], Ok tt)
                          end
                      end
                  end
              end
          end
      end
  end.

(** coord.py:303-308; an exception raised by sqr_fit escapes through next(). *)
Definition simplify (fuel : nat) (xys : list (Q * Q)) (scl : Q) (closed : bool) (k : Z)
  : option gen :=
  match sqr_fit scl xys with
  | (_, Err e) =>
      match @buf_new pt k with Err e' => Some ([], Err e') | Ok _ => Some ([], Err e) end
  | (s, Ok _) => if closed then closed_no_slit fuel s k else open_no_slit fuel s k
  end.
