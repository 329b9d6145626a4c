(** Properties C10-C14: grid snapping and polyline simplification
    (coral/coord.py). *)
From Coq Require Import SpecFloat Lqa.
From Verif Require Import Num BufferModel SimplifyModel SimplifySpec SimplifyProofs
  ClosedProofs SnapProofs.
Open Scope Z_scope.

(** ** C10 *)
Theorem C10_nearest_half_away (x : Q) (q : Z) : nearestQ x = q <-> rounds x q.
Proof. exact (iff_sym (rounds_iff x q)). Qed.
Theorem C10_nearest_unique (x : Q) (p q : Z) : rounds x p -> rounds x q -> p = q.
Proof. exact (rounds_unique x p q). Qed.
Theorem C10_nearest_error (x : Q) : (Qabs (x - inject_Z (nearestQ x)) <= 1 # 2)%Q.
Proof. exact (nearest_half x). Qed.
Theorem C10_snap_error (x m : Q) :
  (0 < m)%Q -> (Qabs (x - m * inject_Z (nearestQ (x / m))) <= m / 2)%Q.
Proof. exact (snap_err x m). Qed.
Theorem C10_nearest_odd (x : Q) : nearestQ (- x) = - nearestQ x.
Proof. exact (nearest_opp x). Qed.
Theorem C10_nearest_monotone (x y : Q) : (x <= y)%Q -> nearestQ x <= nearestQ y.
Proof. exact (nearest_mono x y). Qed.
(** Ties go away from zero. *)
Example C10_ties : nearestQ (5 # 2) = 3 /\ nearestQ (- (5 # 2)) = -3 /\ nearestQ (7 # 3) = 2.
Proof. vm_compute. auto. Qed.
Example C10_case : (0 < 3 # 10)%Q /\ nearestQ ((29 # 10) / (3 # 10)) = 10.
Proof. split; [reflexivity|vm_compute; reflexivity]. Qed.
(** snapping a path maps every coordinate to the nearest grid line. *)
Theorem C10_snap_path m xys s :
  ~ (m == 0)%Q -> snapped m xys s -> sqr_fit m xys = (s, Ok tt).
Proof. exact (sqr_fit_snapped m xys s). Qed.
Theorem C10_snap_path_total m xys : exists s, snapped m xys s.
Proof. exact (snapped_ex m xys). Qed.
Theorem C10_zero_cell fuel m xys closed k :
  (m == 0)%Q -> xys <> [] -> (exists b, @buf_new (Z * Z) k = Ok b) ->
  simplify fuel xys m closed k = Some ([], Err ZeroDivisionError).
Proof. exact (simplify_zero fuel m xys closed k). Qed.
Example C10_zero_cell_case :
  simplify 9 [(1 # 1, 2 # 1)]%Q 0 false 8 = Some ([], Err ZeroDivisionError).
Proof. vm_compute. reflexivity. Qed.

(** In doubles the largest number below one half rounds to 1 ... *)
Theorem C10_double_half_refuted : exists x : f64,
  SFltb x (f_of 1 (-1)) = true /\ SFltb (fofZ 0) x = true /\ nearestF x = 1.
Proof. exists (f_of 9007199254740991 (-54)). vm_compute. auto. Qed.
(** ... and an integer-valued double is not rounded to itself. *)
Theorem C10_double_integer_refuted : exists z : Z,
  f_trunc (fofZ z) = z /\ nearestF (fofZ z) = z + 1.
Proof. exists 4503599627370497. vm_compute. auto. Qed.

(** ** C11 *)
(** The output is the first point, the corners of the snapped path (repeated
    points collapsed) after deleting some adjacent equal pairs of corners -
    all of them if the buffer never overflows - and the last point. *)
Theorem C11_open_simplify xys m s n k fuel :
  ~ (m == 0)%Q -> snapped m xys s ->
  0 <= k -> n = 2 ^ k -> n < Z.of_nat fuel -> (2 <= length s)%nat ->
  exists a mid z, simplify fuel xys m false n = Some (a :: mid ++ [z], Ok tt) /\
    hd_error s = Some a /\ last s a = z /\
    cancels (turns (dedup s)) mid /\ subseq (a :: mid ++ [z]) s /\
    (Z.of_nat (length (turns (dedup s))) <= n -> no_adjacent mid).
Proof.
  exact (fun Hm Hs Hk Hn Hf Hl =>
    eq_ind_r (fun g => exists a mid z, g = Some (a :: mid ++ [z], Ok tt) /\
        hd_error s = Some a /\ last s a = z /\
        cancels (turns (dedup s)) mid /\ subseq (a :: mid ++ [z]) s /\
        (Z.of_nat (length (turns (dedup s))) <= n -> no_adjacent mid))
      (open_spec s n k fuel Hk Hn Hf Hl)
      (simplify_snapped fuel m xys s false n Hm Hs)).
Qed.
(** A path without out-and-back spurs keeps exactly its corners, whatever the
    buffer size. *)
Theorem C11_open_exact xys m s n k fuel :
  ~ (m == 0)%Q -> snapped m xys s ->
  0 <= k -> n = 2 ^ k -> n < Z.of_nat fuel -> (2 <= length s)%nat ->
  no_adjacent (turns (dedup s)) ->
  exists a, hd_error s = Some a /\
    simplify fuel xys m false n = Some (a :: turns (dedup s) ++ [last s a], Ok tt).
Proof.
  exact (fun Hm Hs Hk Hn Hf Hl Ha =>
    eq_ind_r (fun g => exists a, hd_error s = Some a /\
        g = Some (a :: turns (dedup s) ++ [last s a], Ok tt))
      (open_exact s n k fuel Hk Hn Hf Hl Ha)
      (simplify_snapped fuel m xys s false n Hm Hs)).
Qed.
Theorem C11_open_short s n fuel :
  (exists b, @buf_new (Z * Z) n = Ok b) -> (length s < 2)%nat ->
  open_no_slit fuel s n = Some (s, Err StopIteration).
Proof. exact (open_short s n fuel). Qed.
Theorem C11_open_no_buffer fuel p q s : (0 < fuel)%nat ->
  open_no_slit fuel (p :: q :: s) 0 =
  match turns (dedup (p :: q :: s)) with
  | [] => Some ([p; last (p :: q :: s) p], Ok tt)
  | _ => Some ([p], Err AssertionError)
  end.
Proof. exact (open_zero fuel p q s). Qed.
Example C11_case :
  simplify 9 [(1#3, 0); (1, 1#10); (2, 0); (2, 2); (4, 4); (2, 2); (2, 5)]%Q 1 false 8 =
  Some ([(0, 0); (2, 0); (2, 5)], Ok tt).
Proof. vm_compute. reflexivity. Qed.
Example C11_case_exact :
  no_adjacent (turns (dedup [(0, 0); (1, 0); (2, 0); (2, 2); (4, 4); (4, 5)])) /\
  turns (dedup [(0, 0); (1, 0); (2, 0); (2, 2); (4, 4); (4, 5)]) = [(2, 0); (2, 2); (4, 4)].
Proof.
  split; [|vm_compute; reflexivity].
  intros [|? [|? [|? [|? ?]]]] x b H; vm_compute in H; congruence.
Qed.
(** The naive expectation "only non-corners and spur tips disappear" fails:
    the base (1,0) of a spur is dropped although the remaining path turns
    there. *)
Theorem C11_spur_base_refuted : exists s out,
  open_no_slit 9 s 8 = Some (out, Ok tt) /\
  s = [(0, 0); (1, 0); (2, 1); (1, 0); (1, 1)] /\ out = [(0, 0); (1, 1)] /\
  ~ In (1, 0) out.
Proof.
  eexists; eexists. split; [|split; [reflexivity|split; [reflexivity|]]].
  - vm_compute. reflexivity.
  - cbn. intros [H|[H|[]]]; discriminate.
Qed.

(** ** C12 *)
Theorem C12_open_covers xys m s n k fuel :
  ~ (m == 0)%Q -> snapped m xys s ->
  0 <= k -> n = 2 ^ k -> n < Z.of_nat fuel -> (2 <= length s)%nat ->
  never_reverses (dedup s) -> no_adjacent (turns (dedup s)) ->
  exists out, simplify fuel xys m false n = Some (out, Ok tt) /\
    (forall x, In x s -> on_polyline out x).
Proof.
  exact (fun Hm Hs Hk Hn Hf Hl Hr Ha =>
    eq_ind_r (fun g => exists out, g = Some (out, Ok tt) /\
        (forall x, In x s -> on_polyline out x))
      (open_covers s n k fuel Hk Hn Hf Hl Hr Ha)
      (simplify_snapped fuel m xys s false n Hm Hs)).
Qed.
Example C12_case :
  never_reverses (dedup [(0, 0); (1, 0); (2, 0); (2, 0); (2, 2); (4, 4); (4, 5)]).
Proof.
  intros [|x0 [|x1 [|x2 [|x3 [|x4 x5]]]]] p q r v H; vm_compute in H; try discriminate;
    inversion H; subst; vm_compute; intros HH; try discriminate HH; try reflexivity;
    try (destruct x5 as [|? [|? x5]]; discriminate).
Qed.
(** Without the hypothesis a vertex may fall off the line: (3,0) below. *)
Theorem C12_backtrack_refuted : exists s out x,
  open_no_slit 9 s 8 = Some (out, Ok tt) /\ In x s /\ ~ on_polyline out x.
Proof.
  exists [(0, 0); (3, 0); (1, 0)], [(0, 0); (1, 0)], (3, 0).
  split; [vm_compute; reflexivity|]. split; [right; left; reflexivity|].
  intros (u & a & b & v & E & t & Ht & H1 & _).
  destruct u as [|? [|? u]]; [|discriminate|destruct u; discriminate].
  injection E as <- <- <-. cbn in H1. unfold inject_Z in H1. lra.
Qed.

(** ** C13 *)
Theorem C13_closed_vertices xys m s n k fuel :
  ~ (m == 0)%Q -> snapped m xys s ->
  0 <= k -> n = 2 ^ k -> n < Z.of_nat fuel -> (3 <= length s)%nat ->
  exists out, simplify fuel xys m true n = Some (out, Ok tt) /\
    (forall v, In v out -> In v s) /\
    hd_error out = hd_error s /\ (forall d, last out d = last s d).
Proof.
  exact (fun Hm Hs Hk Hn Hf Hl =>
    eq_ind_r (fun g => exists out, g = Some (out, Ok tt) /\
        (forall v, In v out -> In v s) /\
        hd_error out = hd_error s /\ (forall d, last out d = last s d))
      (closed_vertices s n k fuel Hk Hn Hf Hl)
      (simplify_snapped fuel m xys s true n Hm Hs)).
Qed.
(** At most k corners: first vertex, the reduced corners in order, the vertex
    before the last, and the last vertex twice. *)
Theorem C13_closed_order_kept s n k fuel :
  0 <= k -> n = 2 ^ k -> n < Z.of_nat fuel -> (3 <= length s)%nat ->
  Z.of_nat (length (turns (dedup s))) <= n ->
  exists a mid p z, closed_no_slit fuel s n = Some (a :: mid ++ [p; z; z], Ok tt) /\
    hd_error s = Some a /\ p = last (removelast (dedup s)) a /\ z = last s a /\
    cancels (turns (dedup s)) mid /\ no_adjacent mid.
Proof. exact (closed_few s n k fuel). Qed.
(** Between k+1 and 2k distinct corners: the first ones are moved behind the
    others. *)
Theorem C13_closed_order_rotated s n k fuel :
  0 <= k -> n = 2 ^ k -> n < Z.of_nat fuel -> (3 <= length s)%nat ->
  let c := turns (dedup s) in
  let j := (length c - Z.to_nat n)%nat in
  NoDup c -> (Z.to_nat n < length c <= 2 * Z.to_nat n)%nat ->
  exists a, hd_error s = Some a /\
    closed_no_slit fuel s n = Some (a :: skipn j c ++ firstn j c ++ [last s a], Ok tt).
Proof. exact (closed_rotated s n k fuel). Qed.
Theorem C13_closed_two p q n k fuel :
  0 <= k -> n = 2 ^ k -> (0 < fuel)%nat ->
  closed_no_slit fuel [p; q] n = Some ([p; p; q], Err UnboundLocalError).
Proof. exact (closed_two p q n k fuel). Qed.
Theorem C13_closed_short s n fuel :
  (exists b, @buf_new (Z * Z) n = Ok b) -> (length s < 2)%nat ->
  closed_no_slit fuel s n = Some (s, Err StopIteration).
Proof. exact (closed_short s n fuel). Qed.
Example C13_case_kept :
  closed_no_slit 9 [(0,0); (2,0); (4,0); (4,4); (0,4); (0,0)] 8 =
  Some ([(0,0); (4,0); (4,4); (0,4); (0,4); (0,0); (0,0)], Ok tt).
Proof. vm_compute. reflexivity. Qed.
Definition C13_ring : list (Z * Z) :=
  [(0,0); (1,1); (2,4); (3,9); (4,16); (5,25); (6,36); (7,49); (8,64); (9,81); (10,100)].
Example C13_case_rotated :
  NoDup (turns (dedup C13_ring)) /\ length (turns (dedup C13_ring)) = 9%nat.
Proof.
  split; [|vm_compute; reflexivity].
  replace (turns (dedup C13_ring)) with (removelast (tl C13_ring)) by (vm_compute; reflexivity).
  cbn. repeat constructor; cbn; intros H;
    repeat (destruct H as [H|H]; [discriminate|]); exact H.
Qed.
(** With the default buffer of 8 a convex ring of eleven corners encloses a
    different area afterwards, although no vertex was dropped. *)
Theorem C13_area_changes_refuted : exists out,
  closed_no_slit 9 C13_ring 8 = Some (out, Ok tt) /\
  (forall v, In v C13_ring <-> In v out) /\ area2 out <> area2 C13_ring.
Proof.
  exists [(0,0); (2,4); (3,9); (4,16); (5,25); (6,36); (7,49); (8,64); (9,81); (1,1); (10,100)].
  split; [vm_compute; reflexivity|]. split; [cbn; tauto|vm_compute; discriminate].
Qed.

(** ** C14 *)
Theorem C14_collinear_cross (a b c : Q * Q) :
  collinearQ a b c = true <->
  ((fst b - fst a) * (snd c - snd a) - (snd b - snd a) * (fst c - fst a) == 0)%Q.
Proof. exact (collinearQ_iff a b c). Qed.
Theorem C14_collinear_swap_first (a b c : Q * Q) : collinearQ b a c = collinearQ a b c.
Proof. exact (collinear_swap12 a b c). Qed.
Theorem C14_collinear_swap_last (a b c : Q * Q) : collinearQ a c b = collinearQ a b c.
Proof. exact (collinear_swap23 a b c). Qed.
Theorem C14_collinear_affine (m11 m12 m21 m22 dx dy : Q) (f : Q * Q -> Q * Q) a b c :
  (forall x y, f (x, y) = (m11 * x + m12 * y + dx, m21 * x + m22 * y + dy)%Q) ->
  ~ (m11 * m22 - m12 * m21 == 0)%Q ->
  collinearQ (f a) (f b) (f c) = collinearQ a b c.
Proof. exact (collinear_affine m11 m12 m21 m22 dx dy f a b c). Qed.
Theorem C14_collinear_coincident (a c : Q * Q) : collinearQ a a c = true.
Proof. exact (collinear_refl12 a c). Qed.
Example C14_case :
  collinearQ (0, 0)%Q (1#2, 1#3)%Q (3, 2)%Q = true /\
  collinearQ (0, 0)%Q (1#2, 1#3)%Q (3, 1)%Q = false.
Proof. vm_compute. auto. Qed.

Print Assumptions C10_nearest_half_away.
Print Assumptions C10_nearest_unique.
Print Assumptions C10_nearest_error.
Print Assumptions C10_snap_error.
Print Assumptions C10_nearest_odd.
Print Assumptions C10_nearest_monotone.
Print Assumptions C10_snap_path.
Print Assumptions C10_snap_path_total.
Print Assumptions C10_zero_cell.
Print Assumptions C10_double_half_refuted.
Print Assumptions C10_double_integer_refuted.
Print Assumptions C11_open_simplify.
Print Assumptions C11_open_exact.
Print Assumptions C11_open_short.
Print Assumptions C11_open_no_buffer.
Print Assumptions C11_spur_base_refuted.
Print Assumptions C12_open_covers.
Print Assumptions C12_backtrack_refuted.
Print Assumptions C13_closed_vertices.
Print Assumptions C13_closed_order_kept.
Print Assumptions C13_closed_order_rotated.
Print Assumptions C13_closed_two.
Print Assumptions C13_closed_short.
Print Assumptions C13_area_changes_refuted.
Print Assumptions C14_collinear_cross.
Print Assumptions C14_collinear_swap_first.
Print Assumptions C14_collinear_swap_last.
Print Assumptions C14_collinear_affine.
Print Assumptions C14_collinear_coincident.
