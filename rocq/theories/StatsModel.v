(** Model of coral/stats.py: the functions with their caches, as a state
    machine. Arguments are tuples of numbers, or something unhashable (a
    list). Numbers are exact; int and float are not distinguished. *)
From Coq Require Import Reals.
From Verif Require Import Num RealNum.
Open Scope Z_scope.

(** math.fsum on exact numbers, and math.sqrt. *)
Class PyStat (T : Type) : Type := { nfsum : list T -> T; nsqrt : T -> res T }.
#[export] Instance StatR : PyStat R := {
  nfsum := fold_right Rplus 0%R;
  nsqrt := fun x => if Rlt_bool x 0 then Err ValueError else Ok (sqrt x)
}.

(** ** functools.lru_cache (CPython's bounded wrapper), stats.py:29: entries
    most recently used first, hits, misses. *)
Record lru (K V : Type) : Type := mklru { l_entries : list (K * V); l_hits : Z; l_misses : Z }.
Arguments mklru {K V}. Arguments l_entries {K V}. Arguments l_hits {K V}. Arguments l_misses {K V}.
Definition lru_empty {K V} : lru K V := mklru [] 0 0.
Section Lru.
  Context {K V : Type} (keq : K -> K -> bool).
  (** dict lookup *)
  Fixpoint lru_find (k : K) (l : list (K * V)) : option (K * V) :=
    match l with
    | [] => None
    | e :: r => if keq k (fst e) then Some e else lru_find k r
    end.
  Fixpoint lru_remove (k : K) (l : list (K * V)) : list (K * V) :=
    match l with
    | [] => []
    | e :: r => if keq k (fst e) then r else e :: lru_remove k r
    end.
  (** A hit: the stored link moves to the front (its stored key stays). *)
  Definition lru_hit (e : K * V) (c : lru K V) : lru K V :=
    mklru (e :: lru_remove (fst e) (l_entries c)) (l_hits c + 1) (l_misses c).
  (** A miss is counted before the function is called, *)
  Definition lru_miss (c : lru K V) : lru K V := mklru (l_entries c) (l_hits c) (l_misses c + 1).
  (** and its result stored when it returns, the oldest entry making room. *)
  Definition lru_store (maxsize : nat) (k : K) (v : V) (c : lru K V) : lru K V :=
    let l := l_entries c in
    mklru ((k, v) :: if Nat.leb maxsize (length l) then removelast l else l) (l_hits c) (l_misses c).
  Definition lru_lookup (k : K) (c : lru K V) : option (K * V) := lru_find k (l_entries c).
End Lru.

(** The decorated form of a function of the machine state [S]; [get] and [put]
    select its cache. [None]: an unhashable argument. *)
Definition memo {S K V} (keq : K -> K -> bool) (get : S -> lru K V) (put : lru K V -> S -> S) (maxsize : nat)
    (f : K -> S -> S * res V) (arg : option K) (st : S) : S * res V :=
  match arg with
  | None => (st, Err TypeError)
  | Some k =>
      match lru_lookup keq k (get st) with
      | Some e => (put (lru_hit keq e (get st)) st, Ok (snd e))
      | None =>
          match f k (put (lru_miss (get st)) st) with
          | (st, Err e) => (st, Err e)
          | (st, Ok v) => (put (lru_store maxsize k v (get st)) st, Ok v)
          end
      end
  end.

(** Sequencing of stateful calls. *)
Definition mbind {S A B} (m : S -> S * res A) (f : A -> S -> S * res B) (st : S) : S * res B :=
  match m st with
  | (st, Err e) => (st, Err e)
  | (st, Ok a) => f a st
  end.
Notation "x <~ m ;; f" := (mbind m (fun x => f)) (at level 61, m at next level, right associativity).
Definition mret {S A} (r : res A) (st : S) : S * res A := (st, r).

Section Stats.
  Context {T : Type} `{PyNum T} `{PyStat T}.
  (** Equality of tuples of numbers. *)
  Fixpoint tup_eqb (a b : list T) : bool :=
    match a, b with
    | [], [] => true
    | x :: r, y :: s => neq x y && tup_eqb r s
    | _, _ => false
    end.
  Definition tup2_eqb (a b : list T * list T) : bool := tup_eqb (fst a) (fst b) && tup_eqb (snd a) (snd b).
  (** Argument of [sum]: a tuple, or a generator object, which is equal to
      itself only. A generator carries the values it will yield. *)
  Inductive sumkey : Type := STup (l : list T) | SGen (id : Z) (l : list T).
  Definition sumkey_eqb (a b : sumkey) : bool :=
    match a, b with
    | STup l, STup m => tup_eqb l m
    | SGen i _, SGen j _ => i =? j
    | _, _ => false
    end.
  Definition sumkey_values (k : sumkey) : list T := match k with STup l | SGen _ l => l end.

  Record stats : Type := mkstats {
    s_max : lru (list T) T; s_min : lru (list T) T; s_sum : lru sumkey T; s_len : lru (list T) Z;
    s_avg : lru (list T) T; s_var : lru (list T) T; s_std : lru (list T) T;
    s_cov : lru (list T * list T) T; s_corr : lru (list T * list T) T;
    s_kak : lru (list T) T; s_dea : lru (list T) T;
    s_gen : Z (** generators made so far: the identity of the next *)
  }.
  Definition stats0 : stats := mkstats lru_empty lru_empty lru_empty lru_empty lru_empty lru_empty lru_empty
    lru_empty lru_empty lru_empty lru_empty 0.
  Definition put_max c st := mkstats c (s_min st) (s_sum st) (s_len st) (s_avg st) (s_var st) (s_std st) (s_cov st) (s_corr st) (s_kak st) (s_dea st) (s_gen st).
  Definition put_min c st := mkstats (s_max st) c (s_sum st) (s_len st) (s_avg st) (s_var st) (s_std st) (s_cov st) (s_corr st) (s_kak st) (s_dea st) (s_gen st).
  Definition put_sum c st := mkstats (s_max st) (s_min st) c (s_len st) (s_avg st) (s_var st) (s_std st) (s_cov st) (s_corr st) (s_kak st) (s_dea st) (s_gen st).
  Definition put_len c st := mkstats (s_max st) (s_min st) (s_sum st) c (s_avg st) (s_var st) (s_std st) (s_cov st) (s_corr st) (s_kak st) (s_dea st) (s_gen st).
  Definition put_avg c st := mkstats (s_max st) (s_min st) (s_sum st) (s_len st) c (s_var st) (s_std st) (s_cov st) (s_corr st) (s_kak st) (s_dea st) (s_gen st).
  Definition put_var c st := mkstats (s_max st) (s_min st) (s_sum st) (s_len st) (s_avg st) c (s_std st) (s_cov st) (s_corr st) (s_kak st) (s_dea st) (s_gen st).
  Definition put_std c st := mkstats (s_max st) (s_min st) (s_sum st) (s_len st) (s_avg st) (s_var st) c (s_cov st) (s_corr st) (s_kak st) (s_dea st) (s_gen st).
  Definition put_cov c st := mkstats (s_max st) (s_min st) (s_sum st) (s_len st) (s_avg st) (s_var st) (s_std st) c (s_corr st) (s_kak st) (s_dea st) (s_gen st).
  Definition put_corr c st := mkstats (s_max st) (s_min st) (s_sum st) (s_len st) (s_avg st) (s_var st) (s_std st) (s_cov st) c (s_kak st) (s_dea st) (s_gen st).
  Definition put_kak c st := mkstats (s_max st) (s_min st) (s_sum st) (s_len st) (s_avg st) (s_var st) (s_std st) (s_cov st) (s_corr st) c (s_dea st) (s_gen st).
  Definition put_dea c st := mkstats (s_max st) (s_min st) (s_sum st) (s_len st) (s_avg st) (s_var st) (s_std st) (s_cov st) (s_corr st) (s_kak st) c (s_gen st).
  Definition stM (A : Type) : Type := stats -> stats * res A.

  (** max(seq), min(seq): ValueError when empty *)
  Definition py_max (l : list T) : res T :=
    match l with [] => Err ValueError | x :: r => Ok (fold_left nmax r x) end.
  Definition py_min (l : list T) : res T :=
    match l with [] => Err ValueError | x :: r => Ok (fold_left nmin r x) end.
  (** stats.py:31-34; the default maxsize is 128 *)
  Definition st_max : option (list T) -> stM T := memo tup_eqb s_max put_max 128 (fun l => mret (py_max l)).
  Definition st_min : option (list T) -> stM T := memo tup_eqb s_min put_min 128 (fun l => mret (py_min l)).
  Definition st_sum : option sumkey -> stM T :=
    memo sumkey_eqb s_sum put_sum 128 (fun k => mret (Ok (nfsum (sumkey_values k)))).
  Definition st_len : option (list T) -> stM Z :=
    memo tup_eqb s_len put_len 128 (fun l => mret (Ok (Z.of_nat (length l)))).
  (** Creating a generator object *)
  Definition new_gen (l : list T) : stM sumkey := fun st =>
    (mkstats (s_max st) (s_min st) (s_sum st) (s_len st) (s_avg st) (s_var st) (s_std st) (s_cov st) (s_corr st)
       (s_kak st) (s_dea st) (s_gen st + 1), Ok (SGen (s_gen st) l)).

  (** stats.py:36-38 *)
  Definition st_avg : option (list T) -> stM T := memo tup_eqb s_avg put_avg 128 (fun seq =>
    s <~ st_sum (Some (STup seq)) ;;
    n <~ st_len (Some seq) ;;
    mret (ndivE s (nofZ n))).
  (** stats.py:40-43 *)
  Definition st_var : option (list T) -> stM T := memo tup_eqb s_var put_var 64 (fun seq =>
    u <~ st_avg (Some seq) ;;
    g <~ new_gen (map (fun x => nmul (nsub x u) (nsub x u)) seq) ;;
    s <~ st_sum (Some g) ;;
    n <~ st_len (Some seq) ;;
    mret (ndivE s (nofZ n))).
  (** stats.py:45-47 *)
  Definition st_std : option (list T) -> stM T := memo tup_eqb s_std put_std 64 (fun seq =>
    v <~ st_var (Some seq) ;;
    mret (nsqrt v)).
  (** stats.py:54-58: seq1 is traversed to its end, seq2 by index *)
  Fixpoint covar_loop (n : Z) (u1 u2 : T) (seq1 seq2 : list T) (cov : T) : res T :=
    match seq1, seq2 with
    | [], _ => Ok cov
    | x :: r, [] => Err IndexError
    | x :: r, y :: s =>
        d <- ndivE (nmul (nsub x u1) (nsub y u2)) (nofZ n) ;;
        covar_loop n u1 u2 r s (nadd cov d)
    end.
  (** stats.py:49-59 *)
  Definition st_covar : option (list T * list T) -> stM T := memo tup2_eqb s_cov put_cov 32 (fun '(seq1, seq2) =>
    n <~ st_len (Some seq1) ;;
    u1 <~ st_avg (Some seq1) ;;
    u2 <~ st_avg (Some seq2) ;;
    mret (covar_loop n u1 u2 seq1 seq2 (nofZ 0))).
  (** stats.py:61-63 *)
  Definition st_corr : option (list T * list T) -> stM T := memo tup2_eqb s_corr put_corr 16 (fun '(seq1, seq2) =>
    c <~ st_covar (Some (seq1, seq2)) ;;
    d1 <~ st_std (Some seq1) ;;
    d2 <~ st_std (Some seq2) ;;
    mret (ndivE c (nmul d1 d2))).
  Definition st_abs (x : T) : T := if nlt x (nofZ 0) then nsub (nofZ 0) x else x.
  (** stats.py:72-74: all pairs of positions i < j, in order *)
  Fixpoint kak_loop (seq : list T) (s : T) : T :=
    match seq with
    | [] => s
    | x :: r => kak_loop r (fold_left (fun s y => nadd s (st_abs (nsub x y))) r s)
    end.
  (** stats.py:67-77 *)
  Definition st_kakwani : option (list T) -> stM T := memo tup_eqb s_kak put_kak 16 (fun seq =>
    n <~ st_len (Some seq) ;;
    u <~ st_avg (Some seq) ;;
    let s := kak_loop seq (nofZ 0) in
    us <~ mret (ndivE (nmul (nofZ 2) s) (nofZ (n * (n - 1)))) ;;
    mret (ndivE us (nmul (nofZ 2) u))).
  (** sorted(seq, reverse=True) *)
  Fixpoint insert_desc (x : T) (l : list T) : list T :=
    match l with
    | [] => [x]
    | y :: r => if nlt y x then x :: l else y :: insert_desc x r
    end.
  Definition sort_desc (l : list T) : list T := fold_left (fun acc x => insert_desc x acc) l [].
  (** stats.py:87-88 *)
  Fixpoint dea_loop (i : Z) (seq : list T) (s : T) : T :=
    match seq with
    | [] => s
    | x :: r => dea_loop (i + 1) r (nadd s (nmul (nofZ i) x))
    end.
  (** stats.py:81-90 *)
  Definition st_deaton : option (list T) -> stM T := memo tup_eqb s_dea put_dea 16 (fun seq =>
    n <~ st_len (Some seq) ;;
    u <~ st_avg (Some seq) ;;
    s <~ st_sum (Some (STup seq)) ;;
    let s := dea_loop 0 (sort_desc seq) s in
    a <~ mret (ndivE (nofZ (n + 1)) (nofZ (n - 1))) ;;
    b <~ mret (ndivE (nmul (nofZ 2) s) (nmul (nofZ (n * (n - 1))) u)) ;;
    mret (Ok (nsub a b))).

  (** stats.py:92-98: max and min are not in memos *)
  Definition st_clear (st : stats) : stats :=
    mkstats (s_max st) (s_min st) lru_empty lru_empty lru_empty lru_empty lru_empty lru_empty lru_empty lru_empty lru_empty (s_gen st).
  (** hits, misses, maxsize, currsize of a cache *)
  Definition info {K V} (maxsize : Z) (c : lru K V) : Z * Z * Z * Z :=
    (l_hits c, l_misses c, maxsize, Z.of_nat (length (l_entries c))).
  Definition info_add (a b : Z * Z * Z * Z) : Z * Z * Z * Z :=
    let '(h, m, x, c) := a in let '(h', m', x', c') := b in (h + h', m + m', x + x', c + c').
  (** stats.py:100-107 *)
  Definition st_info (st : stats) : Z * Z * Z * Z :=
    fold_left info_add
      [info 128 (s_sum st); info 128 (s_len st); info 128 (s_avg st); info 64 (s_var st); info 64 (s_std st);
       info 32 (s_cov st); info 16 (s_corr st); info 16 (s_kak st); info 16 (s_dea st)] (0, 0, 0, 0).

  (** A call made by a user of the module. *)
  Inductive stcall : Type :=
  | CMax (a : option (list T)) | CMin (a : option (list T)) | CSum (a : option (list T)) | CLen (a : option (list T))
  | CAvg (a : option (list T)) | CVar (a : option (list T)) | CStd (a : option (list T))
  | CCov (a : option (list T * list T)) | CCorr (a : option (list T * list T))
  | CKak (a : option (list T)) | CDea (a : option (list T)) | CClear.
  Inductive stvalue : Type := VNum (x : T) | VInt (n : Z) | VNone.
  Definition vnum (r : stats * res T) : stats * res stvalue := (fst r, rmap VNum (snd r)).
  Definition st_call (c : stcall) (st : stats) : stats * res stvalue :=
    match c with
    | CMax a => vnum (st_max a st)
    | CMin a => vnum (st_min a st)
    | CSum a => vnum (st_sum (option_map STup a) st)
    | CLen a => let r := st_len a st in (fst r, rmap VInt (snd r))
    | CAvg a => vnum (st_avg a st)
    | CVar a => vnum (st_var a st)
    | CStd a => vnum (st_std a st)
    | CCov a => vnum (st_covar a st)
    | CCorr a => vnum (st_corr a st)
    | CKak a => vnum (st_kakwani a st)
    | CDea a => vnum (st_deaton a st)
    | CClear => (st_clear st, Ok VNone)
    end.
  Definition st_run (h : list stcall) : stats := fold_left (fun st c => fst (st_call c st)) h stats0.
End Stats.
Arguments stats T : clear implicits.
Arguments stcall T : clear implicits.
Arguments stvalue T : clear implicits.
Arguments sumkey T : clear implicits.
