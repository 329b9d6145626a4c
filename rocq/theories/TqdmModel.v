(** Model of coral/tqdm.py. *)
From Coq Require Import SpecFloat.
From Verif Require Export Num StrModel.
Open Scope Z_scope.

(** s padded on the left with the character c to w characters *)
Definition pad_left (w : nat) (c : Z) (s : list Z) : list Z := repeat c (w - length s) ++ s.
(** The digits of '%.2f' % (r / 100), r >= 0 *)
Definition cents (r : Z) : list Z := dec_nat (r / 100) ++ 46 :: pad_left 2 48 (dec_nat (r mod 100)).
(** '%5.2f' % q of an exact number *)
Definition q_fixed (q : Q) : list Z :=
  pad_left 5 32 ((if Qlt_bool q 0 then [45] else []) ++ cents (q_round (Qabs q * 100))).
(** The exact value of a finite double *)
Definition f_value (x : f64) : Q :=
  match x with
  | S754_finite s m e =>
      let v := if s then Zneg m else Zpos m in
      if 0 <=? e then inject_Z (v * 2 ^ e) else (inject_Z v / inject_Z (2 ^ (- e)))%Q
  | _ => 0
  end.
(** '%5.2f' % x of a double *)
Definition f_fixed (x : f64) : list Z :=
  match x with
  | S754_nan => [32; 32; 110; 97; 110]
  | S754_infinity s => [32; if s then 45 else 32; 105; 110; 102]
  | S754_zero s => pad_left 5 32 ((if s then [45] else []) ++ cents 0)
  | S754_finite s _ _ => pad_left 5 32 ((if s then [45] else []) ++ cents (q_round (Qabs (f_value x) * 100)))
  end.

(** int(x) and '%5.2f' % x *)
Class PyMeter (T : Type) : Type := { mint : T -> res Z; mfixed : T -> list Z }.
#[export] Instance MeterQ : PyMeter Q := { mint := fun x => Ok (q_trunc x); mfixed := q_fixed }.
#[export] Instance MeterF : PyMeter f64 := {
  mint := fun x => match x with S754_nan => Err ValueError | S754_infinity _ => Err OverflowError | _ => Ok (f_trunc x) end;
  mfixed := f_fixed
}.

(** What one run of the generator does, in order: a value handed to the
    consumer, a write to [file], a write to sys.stdout (flushing is not
    recorded). *)
Inductive event (A : Type) : Type :=
| EYield (a : A) | EFile (s : list Z) | EStdout (s : list Z).
Arguments EYield {A} a.
Arguments EFile {A} s.
Arguments EStdout {A} s.

Section Tqdm.
  Context {T : Type} `{PyNum T} `{PyMeter T}.

  (** tqdm.py:29-35 *)
  Definition format_interval (t : T) : res (list Z) :=
    t <- mint t ;;
    let '(mins, s) := (t / 60, t mod 60) in
    let '(h, m) := (mins / 60, mins mod 60) in
    if h =? 0 then Ok (pad_left 2 48 (str_int m) ++ 58 :: pad_left 2 48 (str_int s))
    else Ok (str_int h ++ 58 :: pad_left 2 48 (str_int m) ++ 58 :: pad_left 2 48 (str_int s)).

  (** " [elapsed: ", " left: ", ", " and " iters/sec]" *)
  Definition s_elapsed : list Z := [32; 91; 101; 108; 97; 112; 115; 101; 100; 58; 32].
  Definition s_left : list Z := [32; 108; 101; 102; 116; 58; 32].
  Definition s_comma : list Z := [44; 32].
  Definition s_iters : list Z := [32; 105; 116; 101; 114; 115; 47; 115; 101; 99; 93].

  (** tqdm.py:38-63; counts are ints, elapsed a number *)
  Definition format_meter (n : Z) (total : option Z) (elapsed : T) : res (list Z) :=
    match total with
    | None => Err TypeError
    | Some t =>
        let total := if t <? n then 0 else t in
        elapsed_str <- format_interval elapsed ;;
        let rate := if neq elapsed (nofZ 0) then [63] else mfixed (ndiv (nofZ n) elapsed) in
        if total =? 0 then
          Ok (str_int n ++ s_elapsed ++ elapsed_str ++ s_comma ++ rate ++ s_iters)
        else
          let frac := ndiv (nofZ n) (nofZ total) in
          bar_length <- mint (nmul frac (nofZ 10)) ;;
          let bar := repeat 35 (Z.to_nat bar_length) ++ repeat 45 (Z.to_nat (10 - bar_length)) in
          pc <- mint (nmul frac (nofZ 100)) ;;
          let percentage := pad_left 3 32 (str_int pc) ++ [37] in
          left_str <- (if n =? 0 then Ok [63]
                       else format_interval (nmul (ndiv elapsed (nofZ n)) (nofZ (total - n)))) ;;
          Ok (124 :: bar ++ [124; 32] ++ str_int n ++ 47 :: str_int total ++ 32 :: percentage ++
              s_elapsed ++ elapsed_str ++ s_left ++ left_str ++ s_comma ++ rate ++ s_iters)
    end.

  (** tqdm.py:66-74: what one print_status writes and the new
      last_printed_len *)
  Definition print_status (last_printed_len : Z) (s : list Z) : list Z * Z :=
    let len := Z.of_nat (length s) in
    (13 :: s ++ repeat 32 (Z.to_nat (Z.max (last_printed_len - len) 0)), len).

  (** tqdm.py:77-78: the keyword arguments (other than file) *)
  Record options := { o_desc : list Z; o_total : option Z; o_leave : bool; o_mininterval : T; o_miniters : Z }.
  Definition defaults : options :=
    {| o_desc := []; o_total := None; o_leave := true; o_mininterval := ndiv (nofZ 1) (nofZ 2); o_miniters := 1 |}.

  (** tqdm.py:99 *)
  Definition prefix (desc : list Z) : list Z := match desc with [] => [] | _ => desc ++ [58; 32] end.

  (** The local variables of the loop: the number of clock readings so far,
      sp.last_printed_len, last_print_t, last_print_n, n. *)
  Record meter := { m_clock : nat; m_len : Z; m_last_t : T; m_last_n : Z; m_n : Z }.

  (** time.time(): the k-th reading is [clock k]. *)
  Variable clock : nat -> T.
  Context {A : Type}.

  (** tqdm.py:110-117 *)
  Definition step (o : options) (total : option Z) (start_t : T) (m : meter) : list (event A) * res meter :=
    let n := m_n m + 1 in
    if o_miniters o <=? n - m_last_n m then
      let cur_t := clock (m_clock m) in
      if nle (o_mininterval o) (nsub cur_t (m_last_t m)) then
        match format_meter n total (nsub cur_t start_t) with
        | Err e => ([], Err e)
        | Ok s =>
            let '(w, len) := print_status (m_len m) (prefix (o_desc o) ++ s) in
            ([EFile w], Ok {| m_clock := S (m_clock m); m_len := len; m_last_t := cur_t; m_last_n := n; m_n := n |})
        end
      else ([], Ok {| m_clock := S (m_clock m); m_len := m_len m; m_last_t := m_last_t m; m_last_n := m_last_n m; m_n := n |})
    else ([], Ok {| m_clock := m_clock m; m_len := m_len m; m_last_t := m_last_t m; m_last_n := m_last_n m; m_n := n |}).

  (** tqdm.py:107-117 *)
  Fixpoint loop (o : options) (total : option Z) (start_t : T) (items : list A) (m : meter) : list (event A) * res meter :=
    match items with
    | [] => ([], Ok m)
    | a :: r =>
        let '(w, x) := step o total start_t m in
        match x with
        | Err e => (EYield a :: w, Err e)
        | Ok m => let '(w', x) := loop o total start_t r m in (EYield a :: w ++ w', x)
        end
    end.

  (** tqdm.py:119-126 *)
  Definition finish (o : options) (total : option Z) (start_t : T) (m : meter) : list (event A) * res unit :=
    if negb (o_leave o) then ([EFile (fst (print_status (m_len m) [])); EStdout [13]], Ok tt)
    else if m_last_n m <? m_n m then
      match format_meter (m_n m) total (nsub (clock (m_clock m)) start_t) with
      | Err e => ([], Err e)
      | Ok s => ([EFile (fst (print_status (m_len m) (prefix (o_desc o) ++ s))); EFile [10]], Ok tt)
      end
    else ([EFile [10]], Ok tt).

  (** tqdm.py:93-126 run to exhaustion. The iterable yields [items] and then
      ends ([Ok tt]) or raises; [size] is its len(), None when len raises
      TypeError. *)
  Definition tqdm (o : options) (size : option Z) (items : list A) (ending : res unit) : list (event A) * res unit :=
    let total := match o_total o with None => size | Some t => Some t end in
    match format_meter 0 total (nofZ 0) with
    | Err e => ([], Err e)
    | Ok s =>
        let '(w, len) := print_status 0 (prefix (o_desc o) ++ s) in
        let start_t := clock 0 in
        let '(l, x) := loop o total start_t items {| m_clock := 1; m_len := len; m_last_t := start_t; m_last_n := 0; m_n := 0 |} in
        match x with
        | Err e => (EFile w :: l, Err e)
        | Ok m =>
            match ending with
            | Err e => (EFile w :: l, Err e)
            | Ok _ => let '(f, x) := finish o total start_t m in (EFile w :: l ++ f, x)
            end
        end
    end.
End Tqdm.

(** range(a, b, step); ValueError for a zero step *)
Definition py_range (a b step : Z) : res (list Z) :=
  if step =? 0 then Err ValueError
  else
    let n := if 0 <? step then (b - a + step - 1) / step else (a - b - step - 1) / (- step) in
    Ok (map (fun i => a + Z.of_nat i * step) (seq 0 (Z.to_nat n))).

(** tqdm.py:129-136 under Python 3 (xrange is not defined); all three
    arguments of range given *)
Definition trange {T} `{PyNum T} `{PyMeter T} (clock : nat -> T) (o : options) (a b step : Z) : list (event Z) * res unit :=
  match py_range a b step with
  | Err e => ([], Err e)
  | Ok l => tqdm clock o (Some (Z.of_nat (length l))) l (Ok tt)
  end.
