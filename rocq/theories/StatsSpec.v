(** Statistics: specification vocabulary. *)
From Coq Require Import Reals.
From Verif Require Import Num RealNum StatsModel.

(** ** Textbook definitions *)
Open Scope R_scope.
Definition total (l : list R) : R := fold_right Rplus 0 l.
Definition count (l : list R) : R := INR (length l).
Definition mean (l : list R) : R := total l / count l.
Definition variance (l : list R) : R := total (map (fun x => (x - mean l) ^ 2) l) / count l.
Definition covariance (a b : list R) : R :=
  total (map (fun p => (fst p - mean a) * (snd p - mean b)) (combine a b)) / count a.
(** All pairs of different positions, each once. *)
Fixpoint pairs {A} (l : list A) : list (A * A) :=
  match l with [] => [] | x :: r => map (fun y => (x, y)) r ++ pairs r end.
(** Half the relative mean absolute difference of two different members. *)
Definition gini (l : list R) : R :=
  total (map (fun p => Rabs (fst p - snd p)) (pairs l)) / (count l * (count l - 1) * mean l).

(** What each call must return. *)
Definition expected (c : stcall R) (r : res (stvalue R)) : Prop :=
  match c with
  | CMax None | CMin None | CSum None | CLen None | CAvg None | CVar None | CStd None | CKak None | CDea None => r = Err TypeError
  | CCov None | CCorr None => r = Err TypeError
  | CMax (Some l) => l = [] /\ r = Err ValueError \/ exists v, r = Ok (VNum v) /\ In v l /\ forall x, In x l -> x <= v
  | CMin (Some l) => l = [] /\ r = Err ValueError \/ exists v, r = Ok (VNum v) /\ In v l /\ forall x, In x l -> v <= x
  | CSum (Some l) => r = Ok (VNum (total l))
  | CLen (Some l) => r = Ok (VInt (Z.of_nat (length l)))
  | CAvg (Some l) => l = [] /\ r = Err ZeroDivisionError \/ l <> [] /\ r = Ok (VNum (mean l))
  | CVar (Some l) => l = [] /\ r = Err ZeroDivisionError \/ l <> [] /\ r = Ok (VNum (variance l))
  | CStd (Some l) => l = [] /\ r = Err ZeroDivisionError \/ l <> [] /\ r = Ok (VNum (sqrt (variance l)))
  | CCov (Some (a, b)) =>
      (a = [] \/ b = []) /\ r = Err ZeroDivisionError \/
      b <> [] /\ (length b < length a)%nat /\ r = Err IndexError \/
      a <> [] /\ (length a <= length b)%nat /\ r = Ok (VNum (covariance a b))
  | CCorr (Some (a, b)) =>
      (a = [] \/ b = [] \/ (length a <= length b)%nat /\ variance a * variance b = 0) /\ r = Err ZeroDivisionError \/
      b <> [] /\ (length b < length a)%nat /\ r = Err IndexError \/
      a <> [] /\ (length a <= length b)%nat /\ variance a * variance b <> 0 /\
        r = Ok (VNum (covariance a b / sqrt (variance a * variance b)))
  | CKak (Some l) | CDea (Some l) =>
      ((length l < 2)%nat \/ mean l = 0) /\ r = Err ZeroDivisionError \/
      (2 <= length l)%nat /\ mean l <> 0 /\ r = Ok (VNum (gini l))
  | CClear => r = Ok VNone
  end.

(** What the module answers to a call after a history of calls. *)
Definition answers (h : list (stcall R)) (c : stcall R) (r : res (stvalue R)) : Prop := snd (st_call c (st_run h)) = r.

(** ** Caches *)
(** The members of a list without repetitions, each at its first place. *)
Fixpoint distinct {K} (keq : K -> K -> bool) (l : list K) : list K :=
  match l with
  | [] => []
  | x :: r => x :: filter (fun y => negb (keq x y)) (distinct keq r)
  end.
(** A history of calls to one cached function: the state, and the results. *)
Definition lru_step {K V} (keq : K -> K -> bool) (maxsize : nat) (f : K -> res V) (k : option K) (c : lru K V) : lru K V * res V :=
  memo keq (fun c => c) (fun c _ => c) maxsize (fun k => mret (f k)) k c.
Definition lru_run {K V} (keq : K -> K -> bool) (maxsize : nat) (f : K -> res V) (h : list (option K)) : lru K V :=
  fold_left (fun c k => fst (lru_step keq maxsize f k c)) h lru_empty.
(** The hashable arguments of a history whose call returned, last first. *)
Definition returned {K V} (f : K -> res V) (h : list (option K)) : list K :=
  concat (map (fun k => match k with Some k => match f k with Ok _ => [k] | Err _ => [] end | None => [] end) (rev h)).
Definition hashable {K} (h : list (option K)) : Z :=
  Z.of_nat (length (filter (fun k => match k with Some _ => true | None => false end) h)).

(** Calls made to a function since the last clear. *)
Fixpoint calls_since (p : stcall R -> bool) (h : list (stcall R)) (n : Z) : Z :=
  match h with
  | [] => n
  | CClear :: r => calls_since p r 0
  | c :: r => calls_since p r (if p c then (n + 1)%Z else n)
  end.
Definition to_max (c : stcall R) : bool := match c with CMax (Some _) => true | _ => false end.
Definition to_min (c : stcall R) : bool := match c with CMin (Some _) => true | _ => false end.
Definition to_corr (c : stcall R) : bool := match c with CCorr (Some _) => true | _ => false end.
Definition to_kak (c : stcall R) : bool := match c with CKak (Some _) => true | _ => false end.
Definition to_dea (c : stcall R) : bool := match c with CDea (Some _) => true | _ => false end.
Definition calls_ever (p : stcall R -> bool) (h : list (stcall R)) : Z := Z.of_nat (length (filter p h)).
