(** Vocabulary for the gradient properties (exact rationals). *)
From Verif Require Import Num.
Open Scope Q_scope.

(** The colour of the first / last stop given for position [p]. *)
Definition first_at (points : list (Q * list Q)) (p : Q) (c : list Q) : Prop :=
  exists before p' after, points = before ++ (p', c) :: after /\ p' == p /\ Forall (fun q => ~ fst q == p) before.
Definition last_at (points : list (Q * list Q)) (p : Q) (c : list Q) : Prop :=
  exists before p' after, points = before ++ (p', c) :: after /\ p' == p /\ Forall (fun q => ~ fst q == p) after.
(** [p] is the position of the nearest stop below / above. *)
Definition nearest_below (points : list (Q * list Q)) (x p : Q) : Prop :=
  (exists c, In (p, c) points) /\ p < x /\ forall q, In q points -> fst q < x -> fst q <= p.
Definition nearest_above (points : list (Q * list Q)) (x p : Q) : Prop :=
  (exists c, In (p, c) points) /\ x < p /\ forall q, In q points -> x < fst q -> p <= fst q.
(** [c] lies on the line from [ca] at [pa] to [cb] at [pb]. *)
Definition interpolates (pa : Q) (ca : list Q) (pb : Q) (cb : list Q) (x : Q) (c : list Q) : Prop :=
  length c = Nat.min (length ca) (length cb) /\
  forall i a b v, nth_error ca i = Some a -> nth_error cb i = Some b -> nth_error c i = Some v ->
    v == a + (b - a) * ((x - pa) / (pb - pa)).
Definition same_colour (c d : list Q) : Prop := Forall2 Qeq c d.
(** What a gradient shows at [x]. *)
Definition shows_at (points : list (Q * list Q)) (x : Q) (c : list Q) : Prop :=
  first_at points x c \/
  (Forall (fun q => ~ fst q == x) points /\
   ((exists pa ca pb cb, nearest_below points x pa /\ last_at points pa ca /\ nearest_above points x pb /\ first_at points pb cb /\
       interpolates pa ca pb cb x c /\
       forall i a b v, nth_error ca i = Some a -> nth_error cb i = Some b -> nth_error c i = Some v ->
         (a <= v <= b) \/ (b <= v <= a)) \/
    (exists p c0, (forall q, In q points -> x < fst q) /\ nearest_above points x p /\ first_at points p c0 /\ same_colour c c0) \/
    (exists p c0, (forall q, In q points -> fst q < x) /\ nearest_below points x p /\ last_at points p c0 /\ same_colour c c0))).
(** The hexadecimal digit of value [d]. *)
Definition is_hex_digit (ch d : Z) : Prop :=
  ((48 <= ch <= 57 /\ d = ch - 48) \/ (97 <= ch <= 102 /\ d = ch - 87))%Z.
