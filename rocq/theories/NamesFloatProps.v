(** String similarity and matching of names with doubles (coral/names.py). *)
From Coq Require Import ZArith QArith Reals Qreals Lia Lra List SpecFloat.
From Verif Require Import Py Num FloatLib NamesModel NamesSpec NamesFloatSpec NamesFloat NamesFloatJaro Text.
Import ListNotations.
Open Scope Z_scope.

(** C130 *)
(** The relative distance has the same exceptions as in exact arithmetic, and
    two roundings. *)
Theorem C130_strerr : forall s t, short s -> short t ->
  agrees (/ IZR (2 ^ 52)) (strerr (T := f64) s t) (strerr (T := Q) s t).
Proof. exact strerr64. Qed.
(** Rounding never changes which names are matched, nor their order: the
    quotients of two lengths that differ still differ as doubles. *)
Theorem C130_mapping : forall keys values, Forall short keys -> Forall short values ->
  match mapping (T := f64) keys values, mapping (T := Q) keys values with
  | Ok mf, Ok mq => Forall2 same_match mf mq
  | Err x, Err y => x = y
  | _, _ => False
  end.
Proof. exact mapping64. Qed.
(** The Jaro similarity *)
Theorem C130_jaro : forall s1 s2, short s1 -> short s2 ->
  agrees (/ IZR (2 ^ 49)) (jaro (T := f64) s1 s2) (jaro (T := Q) s1 s2).
Proof. exact jaro64. Qed.
(** It is between 0 and 1 where the exact one is (C59_at_most_one): the
    roundings do not take it above. *)
Theorem C130_jaro_range : forall s1 s2, short s1 -> short s2 -> s1 <> [] ->
  (length s1 = length s2 \/ ((length s1 < length s2)%nat /\ ~ In 42 s2)) ->
  exists f x, jaro s1 s2 = Ok f /\ isf f x /\ (0 <= x <= 1)%R.
Proof. exact jaro64_range. Qed.
(** A string is exactly as similar as can be to itself. *)
Theorem C130_self : forall s, short s -> s <> [] -> exists f, jaro s s = Ok f /\ isf f 1.
Proof. exact jaro64_self. Qed.
(** Winkler's bonus never lowers the similarity nor takes it above 1. *)
Theorem C130_winkler : forall s1 s2, short s1 -> short s2 -> s1 <> [] ->
  (length s1 = length s2 \/ ((length s1 < length s2)%nat /\ ~ In 42 s2)) ->
  exists f j w v q, jaro s1 s2 = Ok f /\ isf f j /\ jaro_winkler s1 s2 = Ok w /\ isf w v /\ (j <= v <= 1)%R /\
    jaro_winkler s1 s2 = Ok q /\ (Rabs (v - Q2R q) <= / IZR (2 ^ 48))%R.
Proof. exact winkler64. Qed.
Example C130_case : short (text "martha") /\ short (text "marhta") /\ length (text "martha") = length (text "marhta") /\
  jaro (T := f64) (text "martha") (text "marhta") = Ok (S754_finite false 8506799296144271 (-53)) /\
  jaro_winkler (T := f64) (text "martha") (text "marhta") = Ok (S754_finite false 8656919283723287 (-53)) /\
  strerr (T := f64) (text "kitten") (text "sitting") = Ok (S754_finite false 8314337773607070 (-54)) /\
  rmap (map fst) (mapping (T := f64) [text "Sao Paulo"; text "Rio"] [text "rio"; text "s. paulo"]) = Ok [(text "Rio", text "rio"); (text "Sao Paulo", text "s. paulo")].
Proof. repeat split; vm_compute; try reflexivity; discriminate. Qed.

Print Assumptions C130_strerr.
Print Assumptions C130_mapping.
Print Assumptions C130_jaro.
Print Assumptions C130_jaro_range.
Print Assumptions C130_self.
Print Assumptions C130_winkler.
