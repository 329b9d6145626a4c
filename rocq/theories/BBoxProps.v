(** Properties C01-C08: bounding boxes (coral/bbox.py). *)
From Coq Require Import SpecFloat.
From Verif Require Import Num BBoxModel BBoxSpec BBoxProofs.
Open Scope Z_scope.

(** ** C01 *)
Theorem C01_bbox_tightest (pts : list (Q * Q)) :
  pts <> [] ->
  exists b, bb_of_points pts = Ok b /\
    (forall x y, In (x, y) pts -> (bx0 b <= x /\ x <= bx1 b /\ by0 b <= y /\ y <= by1 b)%Q) /\
    (exists y, In (bx0 b, y) pts) /\ (exists y, In (bx1 b, y) pts) /\
    (exists x, In (x, by0 b) pts) /\ (exists x, In (x, by1 b) pts).
Proof. exact (of_points_tight_Q pts). Qed.

Theorem C01_bbox_tightest_double (pts : list (f64 * f64)) :
  pts <> [] ->
  (forall x y, In (x, y) pts -> is_nan x = false /\ is_nan y = false) ->
  exists b, bb_of_points pts = Ok b /\
    (forall x y, In (x, y) pts ->
       SFleb (bx0 b) x = true /\ SFleb x (bx1 b) = true /\
       SFleb (by0 b) y = true /\ SFleb y (by1 b) = true) /\
    (exists y, In (bx0 b, y) pts) /\ (exists y, In (bx1 b, y) pts) /\
    (exists x, In (x, by0 b) pts) /\ (exists x, In (x, by1 b) pts).
Proof. exact (of_points_tight_F pts). Qed.

Theorem C01_bbox_empty : bb_of_points (T:=Q) [] = Err StopIteration.
Proof. exact eq_refl. Qed.

Example C01_case :
  exists b, bb_of_points [(3#1, 1#1); (1#1, 4#1); (2#1, -5#1)]%Q = Ok b /\
    b = mkbb 1%Q (-5#1)%Q (3#1)%Q (4#1)%Q.
Proof. eexists. split; [|reflexivity]. vm_compute. reflexivity. Qed.
Example C01_case_double :
  is_nan (fofZ 3) = false /\
  bb_of_points [(fofZ 3, fofZ 1); (fofZ 1, fofZ (-7))] =
    Ok (mkbb (fofZ 1) (fofZ (-7)) (fofZ 3) (fofZ 1)).
Proof. vm_compute. auto. Qed.

(** NaN must be excluded: a NaN first point is never replaced. *)
Theorem C01_bbox_nan_refuted :
  exists (p q : f64 * f64) b, bb_of_points [p; q] = Ok b /\
    SFleb (bx0 b) (fst q) = false.
Proof.
  exists (S754_nan, fofZ 0), (fofZ 1, fofZ 0), (mkbb S754_nan (fofZ 0) S754_nan (fofZ 0)).
  split; vm_compute; reflexivity.
Qed.

(** ** C02 *)
Theorem C02_has_point (b : bbox Q) x y :
  bb_has_point b (x, y) = true <->
  (bx0 b <= x < bx1 b /\ by0 b <= y < by1 b)%Q.
Proof. exact (has_point_inbox b x y). Qed.

Theorem C02_intersection_exact (a b : bbox Q) x y :
  inbox (bb_and a b) x y <-> inbox a x y /\ inbox b x y.
Proof. exact (and_spec a b x y). Qed.

Theorem C02_intersection_empty (a b : bbox Q) :
  (forall x y, ~ (inbox a x y /\ inbox b x y)) -> bb_and a b = mkbb 0%Q 0%Q 0%Q 0%Q.
Proof. exact (and_empty a b). Qed.

Example C02_case :
  let a := (mkbb 0 0 4 4)%Q in let b := (mkbb 2 3 9 5)%Q in
  bb_and a b = (mkbb 2 3 4 4)%Q /\ inbox (bb_and a b) 3 (7#2).
Proof.
  vm_compute. repeat split; discriminate.
Qed.
Example C02_case_empty :
  let a := (mkbb 0 0 1 1)%Q in let b := (mkbb 1 0 2 1)%Q in
  forall x y, ~ (inbox a x y /\ inbox b x y).
Proof.
  cbn. intros x y [[[_ H1] _] [[H2 _] _]]. cbn in *.
  exact (Qlt_not_le _ _ H1 H2).
Qed.

(** In double arithmetic the emptiness test underflows: two overlapping boxes
    of width 2^-600 intersect to the empty box. *)
Theorem C02_double_underflow_refuted :
  exists (a : bbox f64) p,
    bb_has_point a p = true /\ bb_has_point (bb_and a a) p = false.
Proof.
  exists (mkbb (fofZ 0) (fofZ 0) (f_of 1 (-600)) (f_of 1 (-600))), (fofZ 0, fofZ 0).
  vm_compute. split; reflexivity.
Qed.

(** ** C03 *)
Theorem C03_union_least (a b : bbox Q) :
  proper a -> proper b ->
  proper (bb_or a b) /\ subbox a (bb_or a b) /\ subbox b (bb_or a b) /\
  (forall c, subbox a c -> subbox b c -> subbox (bb_or a b) c).
Proof. exact (or_proper_lub a b). Qed.

Theorem C03_union_comm (a b : bbox Q) :
  proper a -> proper b -> beqv (bb_or a b) (bb_or b a).
Proof. exact (or_comm a b). Qed.

Theorem C03_union_assoc (a b c : bbox Q) :
  wf a -> wf b -> wf c -> beqv (bb_or (bb_or a b) c) (bb_or a (bb_or b c)).
Proof. exact (or_assoc a b c). Qed.

Theorem C03_union_idem (a : bbox Q) : wf a -> beqv (bb_or a a) a.
Proof. exact (or_idem a). Qed.

(** A zero-area operand is ignored. *)
Theorem C03_union_ignores_left (a b : bbox Q) : wf a -> ~ proper a -> bb_or a b = b.
Proof. exact (or_degenerate_left a b). Qed.
Theorem C03_union_ignores_right (a b : bbox Q) :
  proper a -> wf b -> ~ proper b -> bb_or a b = a.
Proof. exact (or_degenerate_right a b). Qed.

(** Folding a sequence covers exactly the non-degenerate members. *)
Theorem C03_union_fold (l : list (bbox Q)) (acc : bbox Q) :
  wf acc -> (forall b, In b l -> wf b) ->
  wf (fold_left bb_or l acc) /\
  (proper acc -> proper (fold_left bb_or l acc) /\ subbox acc (fold_left bb_or l acc)) /\
  (forall b, In b l -> proper b ->
     proper (fold_left bb_or l acc) /\ subbox b (fold_left bb_or l acc)).
Proof. exact (fold_or_covers l acc). Qed.

Theorem C03_union_covers_refuted :
  exists a b : bbox Q, wf a /\ proper b /\ ~ subbox a (bb_or a b).
Proof.
  exists (mkbb 0 0 5 0)%Q, (mkbb 0 1 1 2)%Q. unfold wf, proper, subbox.
  vm_compute. intuition discriminate.
Qed.

Example C03_case : proper (mkbb 0 0 2 1)%Q /\ proper (mkbb 1 (-1#1) 3 (1#2))%Q /\
  bb_or (mkbb 0 0 2 1)%Q (mkbb 1 (-1#1) 3 (1#2))%Q = (mkbb 0 (-1#1) 3 1)%Q /\
  wf (mkbb 0 0 5 0)%Q /\ ~ proper (mkbb 0 0 5 0)%Q.
Proof. unfold proper, wf. vm_compute. intuition discriminate. Qed.

(** ** C04 *)
Theorem C04_collide_common_point (a b : bbox Q) :
  proper a -> proper b ->
  (bb_collide a b = true <-> exists x y, inbox a x y /\ inbox b x y).
Proof. exact (collide_spec a b). Qed.

Theorem C04_collide_intersection (a b : bbox Q) :
  proper a -> proper b ->
  (bb_collide a b = true <-> bb_bool (bb_and a b) = true).
Proof. exact (collide_and a b). Qed.

Theorem C04_collide_sym (a b : bbox Q) : bb_collide a b = bb_collide b a.
Proof. exact (collide_sym a b). Qed.

Theorem C04_collide_point (a : bbox Q) x y :
  proper a -> (bb_collide a (mkbb x y x y) = true <-> inbox a x y).
Proof. exact (collide_point a x y). Qed.

Example C04_case : proper (mkbb 0 0 2 2)%Q /\ proper (mkbb 1 1 3 3)%Q /\
  bb_collide (mkbb 0 0 2 2)%Q (mkbb 1 1 3 3)%Q = true /\
  bb_collide (mkbb 0 0 2 2)%Q (mkbb 2 0 3 3)%Q = false.
Proof. unfold proper. vm_compute. auto. Qed.

(** ** C05 *)
Theorem C05_contains_exact (a b : bbox Q) : wf b ->
  (bb_has_bbox a b = true <->
   (bx0 a <= bx0 b /\ bx1 b < bx1 a /\ by0 a <= by0 b /\ by1 b < by1 a)%Q).
Proof. exact (has_bbox_exact a b). Qed.

Theorem C05_contains_points (a b : bbox Q) x y :
  bb_has_bbox a b = true -> inbox b x y -> inbox a x y.
Proof. exact (has_bbox_points a b x y). Qed.

Theorem C05_contains_trans (a b c : bbox Q) :
  bb_has_bbox a b = true -> bb_has_bbox b c = true -> bb_has_bbox a c = true.
Proof. exact (has_bbox_trans a b c). Qed.

Theorem C05_contains_strict (a b : bbox Q) :
  (bx1 b == bx1 a \/ by1 b == by1 a)%Q -> bb_has_bbox a b = false.
Proof. exact (has_bbox_upper a b). Qed.

Theorem C05_not_in_itself (a : bbox Q) : bb_contains a (IBox a) = Ok false.
Proof. exact (f_equal Ok (has_bbox_upper a a (or_introl (Qeq_refl _)))). Qed.

Example C05_case : bb_has_bbox (mkbb 0 0 9 9)%Q (mkbb 1 1 8 8)%Q = true /\
  bb_has_bbox (mkbb 1 1 8 8)%Q (mkbb 2 2 3 3)%Q = true /\
  inbox (mkbb 1 1 8 8)%Q 2 2 /\ wf (mkbb 1 1 8 8)%Q.
Proof. unfold inbox, wf. vm_compute. intuition discriminate. Qed.

(** ** C06 *)
Theorem C06_translate_compose b dx dy ex ey :
  beqv (bb_translate (bb_translate b dx dy) ex ey) (bb_translate b (dx + ex) (dy + ey))%Q.
Proof. exact (translate_translate b dx dy ex ey). Qed.
Theorem C06_translate_inverse b p : beqv (bb_sub (bb_add b p) p) b.
Proof. exact (add_sub b p). Qed.
Theorem C06_translate_dims b dx dy :
  (bb_width (bb_translate b dx dy) == bb_width b /\
   bb_height (bb_translate b dx dy) == bb_height b /\
   bb_area (bb_translate b dx dy) == bb_area b)%Q.
Proof. exact (translate_dims b dx dy). Qed.
Theorem C06_translate_points b dx dy x y :
  bb_has_point (bb_translate b dx dy) (x + dx, y + dy)%Q = bb_has_point b (x, y).
Proof. exact (translate_point b dx dy x y). Qed.
Theorem C06_scale_center b f :
  (fst (bb_center (bb_scale b f)) == fst (bb_center b) /\
   snd (bb_center (bb_scale b f)) == snd (bb_center b))%Q.
Proof. exact (scale_center b f). Qed.
Theorem C06_scale_dims b f :
  (bb_width (bb_scale b f) == f * bb_width b /\
   bb_height (bb_scale b f) == f * bb_height b /\
   bb_area (bb_scale b f) == f * f * bb_area b)%Q.
Proof. exact (scale_dims b f). Qed.
Theorem C06_scale_compose b f g :
  beqv (bb_scale (bb_scale b f) g) (bb_scale b (f * g))%Q.
Proof. exact (scale_scale b f g). Qed.
Theorem C06_scale_one b : beqv (bb_scale b 1%Q) b.
Proof. exact (scale_one b). Qed.
Theorem C06_scale_translate_commute b f dx dy :
  beqv (bb_scale (bb_translate b dx dy) f) (bb_translate (bb_scale b f) dx dy).
Proof. exact (scale_translate b f dx dy). Qed.
Theorem C06_div_undoes_mul b f : ~ (f == 0)%Q ->
  exists c, bb_truediv (bb_mul b f) f = Ok c /\ beqv c b.
Proof. exact (mul_div b f). Qed.
Theorem C06_div_zero (b : bbox Q) f :
  (f == 0)%Q -> bb_truediv b f = Err ZeroDivisionError.
Proof. exact (div_zero b f). Qed.
Theorem C06_scale_grows b f x y :
  wf b -> (1 <= f)%Q -> inbox b x y -> inbox (bb_scale b f) x y.
Proof. exact (scale_contains b f x y). Qed.

(** Width, height, area and centre are what their names say. *)
Theorem C06_measures (b : bbox Q) :
  bb_width b = (bx1 b - bx0 b)%Q /\ bb_height b = (by1 b - by0 b)%Q /\
  (bb_area b == bb_width b * bb_height b)%Q /\
  (2 * fst (bb_center b) == bx0 b + bx1 b)%Q /\
  (2 * snd (bb_center b) == by0 b + by1 b)%Q.
Proof. exact (measures b). Qed.

Example C06_case :
  beqv (bb_scale (mkbb 0 0 4 2)%Q (1#2)) (mkbb 1 (1#2) 3 (3#2))%Q /\
  ~ ((1#2) == 0)%Q /\ inbox (mkbb 0 0 4 2)%Q 3 1.
Proof. unfold beqv, inbox. vm_compute. intuition discriminate. Qed.

(** ** C07 *)
Theorem C07_same_box_equal comb (a b : bbox Z) :
  a = b -> bb_eq py_hash_int comb a b = true.
Proof. exact (eq_of_same comb a b). Qed.

Theorem C07_hash_equal_boxes_equal comb (a b : bbox Z) :
  py_hash_int (bx0 a) = py_hash_int (bx0 b) -> py_hash_int (by0 a) = py_hash_int (by0 b) ->
  py_hash_int (bx1 a) = py_hash_int (bx1 b) -> py_hash_int (by1 a) = py_hash_int (by1 b) ->
  bb_eq py_hash_int comb a b = true.
Proof. exact (eq_hash_collision comb a b). Qed.

Theorem C07_hash_minus_one : py_hash_int (-1) = py_hash_int (-2).
Proof. exact hash_m1_m2. Qed.

Theorem C07_hash_period z k : 0 <= z -> 0 <= k ->
  py_hash_int (z + k * (2 ^ 61 - 1)) = py_hash_int z.
Proof. exact (hash_period z k). Qed.

(** Different boxes compare equal whatever CPython does with the item hashes. *)
Theorem C07_equality_refuted :
  forall comb, exists a b : bbox Z,
    a <> b /\ bx0 a < bx1 a /\ by0 a < by1 a /\ bx0 b < bx1 b /\ by0 b < by1 b /\
    bb_eq py_hash_int comb a b = true.
Proof.
  intros comb. exists (mkbb (-1) (-1) 0 0), (mkbb (-2) (-1) 0 0).
  repeat split; try reflexivity; [discriminate|].
  exact (eq_hash_collision comb (mkbb (-1) (-1) 0 0) (mkbb (-2) (-1) 0 0)
           hash_m1_m2 eq_refl eq_refl eq_refl).
Qed.

Example C07_case : py_hash_int 5 = 5 /\ py_hash_int (2 ^ 61 + 4) = 5 /\
  (forall comb, bb_eq py_hash_int comb (mkbb 5 0 6 1) (mkbb (2 ^ 61 + 4) 0 6 1) = true).
Proof.
  split; [reflexivity|]. split; [reflexivity|].
  intros comb. apply C07_hash_equal_boxes_equal; reflexivity.
Qed.

(** ** C08 *)
Theorem C08_lt_by_area (a b : bbox Q) :
  bb_lt a b = true <->
  ((bx1 a - bx0 a) * (by1 a - by0 a) < (bx1 b - bx0 b) * (by1 b - by0 b))%Q.
Proof. exact (lt_area a b). Qed.
Theorem C08_lt_irreflexive (a : bbox Q) : bb_lt a a = false.
Proof. exact (lt_irrefl a). Qed.
Theorem C08_lt_transitive (a b c : bbox Q) :
  bb_lt a b = true -> bb_lt b c = true -> bb_lt a c = true.
Proof. exact (lt_trans a b c). Qed.
Theorem C08_ties_transitive (a b c : bbox Q) :
  bb_lt a b = false -> bb_lt b a = false -> bb_lt b c = false -> bb_lt c b = false ->
  bb_lt a c = false /\ bb_lt c a = false.
Proof. exact (incomparable_trans a b c). Qed.
Theorem C08_derived_order_broken h comb (a b : bbox Q) :
  (bb_area a == bb_area b)%Q -> bb_eq h comb a b = false ->
  bb_gt h comb a b = true /\ bb_gt h comb b a = true /\
  bb_ge a b = true /\ bb_ge b a = true /\
  bb_le h comb a b = false /\ bb_le h comb b a = false.
Proof. exact (same_area_gt h comb a b). Qed.

(** Where the areas differ, or the boxes are equal, the derived operators are
    right. *)
Theorem C08_derived_order h comb (a b : bbox Q) :
  bb_eq h comb a b = false -> (bb_area a < bb_area b)%Q ->
  bb_le h comb a b = true /\ bb_le h comb b a = false /\ bb_gt h comb a b = false /\ bb_gt h comb b a = true /\
  bb_ge a b = false /\ bb_ge b a = true.
Proof. exact (derived_order h comb a b). Qed.
Theorem C08_derived_equal h comb (a b : bbox Q) :
  bb_eq h comb a b = true -> (bb_area a == bb_area b)%Q ->
  bb_le h comb a b = true /\ bb_le h comb b a = true /\ bb_gt h comb a b = false /\ bb_gt h comb b a = false /\
  bb_ge a b = true /\ bb_ge b a = true.
Proof. exact (derived_equal h comb a b). Qed.

Example C08_case :
  let a := (mkbb 0 0 1 2)%Q in let b := (mkbb 0 0 2 1)%Q in
  let comb := fun l => fold_left (fun s v => 10 * s + v) l 0 in
  (bb_area a == bb_area b)%Q /\ bb_eq q_trunc comb a b = false /\
  bb_lt a (mkbb 0 0 2 2)%Q = true /\
  bb_eq q_trunc comb a (mkbb 0 0 2 2)%Q = false /\ (bb_area a < bb_area (mkbb 0 0 2 2))%Q /\ bb_eq q_trunc comb a a = true.
Proof. vm_compute. auto 7. Qed.

Print Assumptions C01_bbox_tightest.
Print Assumptions C01_bbox_tightest_double.
Print Assumptions C01_bbox_empty.
Print Assumptions C01_bbox_nan_refuted.
Print Assumptions C02_has_point.
Print Assumptions C02_intersection_exact.
Print Assumptions C02_intersection_empty.
Print Assumptions C02_double_underflow_refuted.
Print Assumptions C03_union_least.
Print Assumptions C03_union_comm.
Print Assumptions C03_union_assoc.
Print Assumptions C03_union_idem.
Print Assumptions C03_union_ignores_left.
Print Assumptions C03_union_ignores_right.
Print Assumptions C03_union_fold.
Print Assumptions C03_union_covers_refuted.
Print Assumptions C04_collide_common_point.
Print Assumptions C04_collide_intersection.
Print Assumptions C04_collide_sym.
Print Assumptions C04_collide_point.
Print Assumptions C05_contains_exact.
Print Assumptions C05_contains_points.
Print Assumptions C05_contains_trans.
Print Assumptions C05_contains_strict.
Print Assumptions C05_not_in_itself.
Print Assumptions C06_translate_compose.
Print Assumptions C06_translate_inverse.
Print Assumptions C06_translate_dims.
Print Assumptions C06_translate_points.
Print Assumptions C06_scale_center.
Print Assumptions C06_scale_dims.
Print Assumptions C06_scale_compose.
Print Assumptions C06_scale_one.
Print Assumptions C06_scale_translate_commute.
Print Assumptions C06_div_undoes_mul.
Print Assumptions C06_div_zero.
Print Assumptions C06_scale_grows.
Print Assumptions C06_measures.
Print Assumptions C07_same_box_equal.
Print Assumptions C07_hash_equal_boxes_equal.
Print Assumptions C07_hash_minus_one.
Print Assumptions C07_hash_period.
Print Assumptions C07_equality_refuted.
Print Assumptions C08_lt_by_area.
Print Assumptions C08_lt_irreflexive.
Print Assumptions C08_lt_transitive.
Print Assumptions C08_ties_transitive.
Print Assumptions C08_derived_order_broken.
Print Assumptions C08_derived_order.
Print Assumptions C08_derived_equal.
