(** Model of class Buffer in coral/coord.py. *)
From Verif Require Import Py.
Open Scope Z_scope.

(** coord.py:38-46, the attributes of a Buffer. [buf] holds [None] where
    nothing has been stored yet. *)
Record buffer (A : Type) : Type := mkbuf {
  b_n : Z; b_buf : list (option A); b_s : Z; b_e : Z; b_m1 : Z; b_m2 : Z }.
Arguments mkbuf {A}.
Arguments b_n {A}. Arguments b_buf {A}. Arguments b_s {A}.
Arguments b_e {A}. Arguments b_m1 {A}. Arguments b_m2 {A}.

Section Buffer.
  Context {A : Type}.

  (** coord.py:40-46 *)
  Definition buf_new (n : Z) : res (buffer A) :=
    _ <- py_assert (Z.land n (n - 1) =? 0) ;;
    Ok (mkbuf n (repeat None (Z.to_nat n)) 0 0 (n - 1) (Z.shiftl n 1 - 1)).

  (** coord.py:63-67 *)
  Definition b_inc (b : buffer A) (i : Z) : Z := Z.land (i + 1) (b_m2 b).
  Definition b_dec (b : buffer A) (i : Z) : Z := Z.land (i - 1) (b_m2 b).

  (** coord.py:69-73; [==] binds weaker than [^]. *)
  Definition b_isempty (b : buffer A) : bool := b_e b =? b_s b.
  Definition b_isfull (b : buffer A) : bool := b_e b =? Z.lxor (b_s b) (b_n b).

  Definition b_with_s (b : buffer A) (s : Z) : buffer A :=
    mkbuf (b_n b) (b_buf b) s (b_e b) (b_m1 b) (b_m2 b).
  Definition b_with_e (b : buffer A) (e : Z) : buffer A :=
    mkbuf (b_n b) (b_buf b) (b_s b) e (b_m1 b) (b_m2 b).
  Definition b_with_buf (b : buffer A) (l : list (option A)) : buffer A :=
    mkbuf (b_n b) l (b_s b) (b_e b) (b_m1 b) (b_m2 b).

  (** coord.py:75-78 *)
  Definition b_push (b : buffer A) (o : A) : res (buffer A) :=
    _ <- py_assert (negb (b_isfull b)) ;;
    l <- py_set (b_buf b) (Z.land (b_e b) (b_m1 b)) (Some o) ;;
    let b := b_with_buf b l in
    Ok (b_with_e b (b_inc b (b_e b))).

  (** coord.py:80-84 *)
  Definition b_pop (b : buffer A) : res (option A * buffer A) :=
    _ <- py_assert (negb (b_isempty b)) ;;
    let b := b_with_e b (b_dec b (b_e b)) in
    o <- py_get (b_buf b) (Z.land (b_e b) (b_m1 b)) ;;
    Ok (o, b).

  (** coord.py:86-89 *)
  Definition b_peek (b : buffer A) : res (option A) :=
    _ <- py_assert (negb (b_isempty b)) ;;
    py_get (b_buf b) (Z.land (b_dec b (b_e b)) (b_m1 b)).

  (** coord.py:91-95 *)
  Definition b_shift (b : buffer A) : res (option A * buffer A) :=
    _ <- py_assert (negb (b_isempty b)) ;;
    o <- py_get (b_buf b) (Z.land (b_s b) (b_m1 b)) ;;
    Ok (o, b_with_s b (b_inc b (b_s b))).

  (** coord.py:51-61: the items listed by str(); the loop takes fuel.  The
      rendering of an item is left out. *)
  Fixpoint b_items (fuel : nat) (b : buffer A) (i end_ : Z) : option (res (list (option A))) :=
    match fuel with
    | O => None
    | S f =>
        if i =? end_ then Some (Ok [])
        else match py_get (b_buf b) (Z.land i (b_m1 b)) with
             | Err e => Some (Err e)
             | Ok o =>
                 match b_items f b (b_inc b i) end_ with
                 | None => None
                 | Some (Err e) => Some (Err e)
                 | Some (Ok l) => Some (Ok (o :: l))
                 end
             end
    end.
  Definition b_str (fuel : nat) (b : buffer A) : option (res (list (option A))) :=
    if b_isempty b then Some (Ok []) else b_items fuel b (b_s b) (b_e b).
End Buffer.

(** A client calling methods one after another, catching exceptions. *)
Inductive bop (A : Type) : Type :=
| BPush (a : A) | BPop | BPeek | BShift | BIsEmpty | BIsFull | BStr.
Arguments BPush {A}. Arguments BPop {A}. Arguments BPeek {A}. Arguments BShift {A}.
Arguments BIsEmpty {A}. Arguments BIsFull {A}. Arguments BStr {A}.

Inductive bout (A : Type) : Type :=
| ONone | OVal (o : option A) | OBool (b : bool) | OItems (l : list (option A))
| ORaise (e : exn) | ODiverge.
Arguments ONone {A}. Arguments OVal {A}. Arguments OBool {A}.
Arguments OItems {A}. Arguments ORaise {A}. Arguments ODiverge {A}.

Definition bstep {A} (fuel : nat) (b : buffer A) (o : bop A) : bout A * buffer A :=
  match o with
  | BPush a => match b_push b a with Ok b' => (ONone, b') | Err e => (ORaise e, b) end
  | BPop => match b_pop b with Ok (v, b') => (OVal v, b') | Err e => (ORaise e, b) end
  | BPeek => match b_peek b with Ok v => (OVal v, b) | Err e => (ORaise e, b) end
  | BShift => match b_shift b with Ok (v, b') => (OVal v, b') | Err e => (ORaise e, b) end
  | BIsEmpty => (OBool (b_isempty b), b)
  | BIsFull => (OBool (b_isfull b), b)
  | BStr => match b_str fuel b with
            | Some (Ok l) => (OItems l, b) | Some (Err e) => (ORaise e, b)
            | None => (ODiverge, b) end
  end.
Fixpoint brun {A} (fuel : nat) (b : buffer A) (l : list (bop A)) : list (bout A) :=
  match l with
  | [] => []
  | o :: r => let '(v, b') := bstep fuel b o in v :: brun fuel b' r
  end.
