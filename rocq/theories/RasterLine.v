(** Bresenham's line. *)
From Verif Require Import Num RasterModel.
Open Scope Z_scope.

(** [k] steps along the long side [M]: steps along the short side [m], nearest
    and ties down. *)
Definition minor (M m k : Z) : Z := (2 * k * m + M - 1) / (2 * M).
Lemma minor_iff M m k j : 0 < M -> (minor M m k = j <-> - M <= 2 * (j * M - k * m) < M).
Proof.
  intros P. unfold minor. split.
  - intros <-. pose proof (Z.div_mod (2 * k * m + M - 1) (2 * M) ltac:(lia)) as D.
    pose proof (Z.mod_pos_bound (2 * k * m + M - 1) (2 * M) ltac:(lia)) as B. nia.
  - intros R. symmetry. apply Z.div_unique with (r := 2 * k * m + M - 1 - 2 * M * j); [|ring]. left. nia.
Qed.
Lemma minor_0 M m : 0 < M -> minor M m 0 = 0.
Proof. intros P. apply minor_iff; [exact P|]. lia. Qed.
Lemma minor_M M m : 0 < M -> minor M m M = m.
Proof. intros P. apply minor_iff; [exact P|]. lia. Qed.
Lemma minor_bounds M m k : 0 < M -> 0 <= m -> 0 <= k <= M -> 0 <= minor M m k <= m.
Proof.
  intros P Hm Hk. pose proof (proj1 (minor_iff M m k _ P) eq_refl) as B. nia.
Qed.
Lemma minor_step M m k : 0 < M -> 0 <= m <= M -> minor M m k <= minor M m (k + 1) <= minor M m k + 1.
Proof.
  intros P Hm. pose proof (proj1 (minor_iff M m k _ P) eq_refl) as B.
  pose proof (proj1 (minor_iff M m (k + 1) _ P) eq_refl) as B'. nia.
Qed.

Definition upto (i n : Z) : list Z := zfromto i (n + 1).
Lemma zfromto_cons a b : a < b -> zfromto a b = a :: zfromto (a + 1) b.
Proof.
  intros L. unfold zfromto. replace (Z.to_nat (b - a)) with (S (Z.to_nat (b - (a + 1)))) by lia.
  cbn [seq map]. f_equal; [lia|]. rewrite <- seq_shift, map_map. apply map_ext. lia.
Qed.
Lemma zfromto_nil a b : b <= a -> zfromto a b = [].
Proof. intros L. unfold zfromto. replace (Z.to_nat (b - a)) with 0%nat by lia. reflexivity. Qed.
Lemma in_zfromto a b x : In x (zfromto a b) <-> a <= x < b.
Proof.
  unfold zfromto. rewrite in_map_iff. split.
  - intros (k & <- & I). apply in_seq in I. lia.
  - intros L. exists (Z.to_nat (x - a)). split; [lia|]. apply in_seq. lia.
Qed.

Lemma shallow x0 y0 sx sy dx dy : 0 < dx -> 0 <= dy <= dx -> (sx = 1 \/ sx = -1) -> (sy = 1 \/ sy = -1) ->
  forall n i fuel, dx - i = Z.of_nat n -> 0 <= i -> (n < fuel)%nat ->
  line_loop fuel (x0 + sx * i) (y0 + sy * minor dx dy i) (x0 + sx * dx) (y0 + sy * dy) dx dy sx sy
    ((minor dx dy i + 1) * dx - (i + 1) * dy) =
  Some (map (fun k => (x0 + sx * k, y0 + sy * minor dx dy k)) (upto i dx)).
Proof.
  intros P D Sx Sy. induction n as [|n IH]; intros i fuel Hi I0 Fu; (destruct fuel as [|fuel]; [lia|]); cbn [line_loop].
  - assert (i = dx) by lia. subst i. rewrite minor_M by exact P. rewrite !Z.eqb_refl. cbn [andb option_map].
    unfold upto. rewrite zfromto_cons by lia. rewrite zfromto_nil by lia. cbn [map]. rewrite minor_M by exact P. reflexivity.
  - unfold upto. rewrite zfromto_cons by lia. cbn [map].
    replace (x0 + sx * i =? x0 + sx * dx) with false by (symmetry; apply Z.eqb_neq; nia). cbn [andb].
    set (j := minor dx dy i) in *. pose proof (proj1 (minor_iff dx dy i j P) eq_refl) as B.
    assert (Cx : - dy <? 2 * ((j + 1) * dx - (i + 1) * dy) = true).
    { apply Z.ltb_lt. destruct (Z.eq_dec dx dy) as [E|E]; [|nia]. subst dy. assert (j - i = 0) by nia. nia. }
    rewrite Cx. pose proof (minor_step dx dy i P ltac:(lia)) as St. fold j in St.
    pose proof (proj1 (minor_iff dx dy (i + 1) _ P) eq_refl) as B'.
    set (j' := minor dx dy (i + 1)) in *.
    assert (Nx : x0 + sx * i + sx = x0 + sx * (i + 1)) by lia. rewrite Nx.
    destruct ((x0 + sx * (i + 1) =? x0 + sx * dx) && (y0 + sy * j =? y0 + sy * dy)) eqn:E.
    + apply andb_prop in E. destruct E as [E1 E2]. apply Z.eqb_eq in E1, E2.
      assert (i + 1 = dx) by nia. assert (j = dy) by nia. cbn [option_map]. do 2 f_equal.
      assert (n = 0%nat) by lia. rewrite zfromto_cons by lia. rewrite zfromto_nil by lia. cbn [map].
      fold j'. assert (j' = dy) by (unfold j'; rewrite H; apply minor_M; exact P). rewrite H2, H0. reflexivity.
    + destruct (Z.ltb_spec (2 * ((j + 1) * dx - (i + 1) * dy)) dx) as [L|L].
      * assert (Ej : j' = j + 1) by nia.
        replace (y0 + sy * j + sy) with (y0 + sy * j') by (rewrite Ej; lia).
        replace ((j + 1) * dx - (i + 1) * dy - dy + dx) with ((j' + 1) * dx - (i + 1 + 1) * dy) by (rewrite Ej; ring).
        unfold j'. rewrite IH by lia. reflexivity.
      * assert (Ej : j' = j) by nia. rewrite <- Ej.
        replace ((j' + 1) * dx - (i + 1) * dy - dy) with ((j' + 1) * dx - (i + 1 + 1) * dy) by ring.
        unfold j'. rewrite IH by lia. reflexivity.
Qed.
Lemma steep x0 y0 sx sy dx dy : 0 <= dx < dy -> (sx = 1 \/ sx = -1) -> (sy = 1 \/ sy = -1) ->
  forall n i fuel, dy - i = Z.of_nat n -> 0 <= i -> (n < fuel)%nat ->
  line_loop fuel (x0 + sx * minor dy dx i) (y0 + sy * i) (x0 + sx * dx) (y0 + sy * dy) dx dy sx sy
    ((i + 1) * dx - (minor dy dx i + 1) * dy) =
  Some (map (fun k => (x0 + sx * minor dy dx k, y0 + sy * k)) (upto i dy)).
Proof.
  intros D Sx Sy. assert (P : 0 < dy) by lia.
  induction n as [|n IH]; intros i fuel Hi I0 Fu; (destruct fuel as [|fuel]; [lia|]); cbn [line_loop].
  - assert (i = dy) by lia. subst i. rewrite minor_M by exact P. rewrite !Z.eqb_refl. cbn [andb option_map].
    unfold upto. rewrite zfromto_cons by lia. rewrite zfromto_nil by lia. cbn [map]. rewrite minor_M by exact P. reflexivity.
  - unfold upto. rewrite zfromto_cons by lia. cbn [map].
    replace (y0 + sy * i =? y0 + sy * dy) with false by (symmetry; apply Z.eqb_neq; nia). rewrite !andb_false_r.
    set (j := minor dy dx i) in *. pose proof (proj1 (minor_iff dy dx i j P) eq_refl) as B.
    assert (Cy : 2 * ((i + 1) * dx - (j + 1) * dy) <? dx = true) by (apply Z.ltb_lt; nia).
    rewrite Cy. pose proof (minor_step dy dx i P ltac:(lia)) as St. fold j in St.
    pose proof (proj1 (minor_iff dy dx (i + 1) _ P) eq_refl) as B'.
    set (j' := minor dy dx (i + 1)) in *.
    replace (y0 + sy * i + sy) with (y0 + sy * (i + 1)) by lia.
    destruct (Z.ltb_spec (- dy) (2 * ((i + 1) * dx - (j + 1) * dy))) as [L|L].
    + assert (Ej : j' = j + 1) by nia.
      replace (x0 + sx * j + sx) with (x0 + sx * j') by (rewrite Ej; lia).
      replace ((i + 1) * dx - (j + 1) * dy - dy + dx) with ((i + 1 + 1) * dx - (j' + 1) * dy) by (rewrite Ej; ring).
      unfold j'. rewrite IH by lia. reflexivity.
    + assert (Ej : j' = j) by nia. rewrite <- Ej.
      replace ((i + 1) * dx - (j' + 1) * dy + dx) with ((i + 1 + 1) * dx - (j' + 1) * dy) by ring.
      unfold j'. rewrite IH by lia. reflexivity.
Qed.

Definition dir (a b : Z) : Z := if a <? b then 1 else -1.
(** The pixels of the line, in order. *)
Definition ideal (a b : Z * Z) : list (Z * Z) :=
  let dx := Z.abs (fst b - fst a) in let dy := Z.abs (snd b - snd a) in
  let sx := dir (fst a) (fst b) in let sy := dir (snd a) (snd b) in
  if dy <=? dx then
    if dx =? 0 then [a] else map (fun k => (fst a + sx * k, snd a + sy * minor dx dy k)) (zfromto 0 (dx + 1))
  else map (fun k => (fst a + sx * minor dy dx k, snd a + sy * k)) (zfromto 0 (dy + 1)).
Lemma dir_abs a b : a + dir a b * Z.abs (b - a) = b.
Proof. unfold dir. destruct (Z.ltb_spec a b); lia. Qed.
Lemma dir_cases a b : dir a b = 1 \/ dir a b = -1.
Proof. unfold dir. destruct (a <? b); auto. Qed.
Lemma line_ideal a b fuel : Z.abs (fst b - fst a) < Z.of_nat fuel -> Z.abs (snd b - snd a) < Z.of_nat fuel ->
  line fuel a b = Some (ideal a b).
Proof.
  destruct a as [x0 y0], b as [x1 y1]. cbn [fst snd]. intros F1 F2. unfold line, ideal. cbn [fst snd].
  fold (dir x0 x1). fold (dir y0 y1). pose proof (dir_abs x0 x1) as Ex. pose proof (dir_abs y0 y1) as Ey.
  pose proof (dir_cases x0 x1) as Sx. pose proof (dir_cases y0 y1) as Sy.
  set (dx := Z.abs (x1 - x0)) in *. set (dy := Z.abs (y1 - y0)) in *. set (sx := dir x0 x1) in *. set (sy := dir y0 y1) in *.
  destruct (Z.leb_spec dy dx) as [L|L].
  - destruct (Z.eqb_spec dx 0) as [E|E].
    + destruct fuel; [lia|]. cbn [line_loop].
      replace (x0 =? x1) with true by (symmetry; apply Z.eqb_eq; lia).
      replace (y0 =? y1) with true by (symmetry; apply Z.eqb_eq; lia). reflexivity.
    + pose proof (shallow x0 y0 sx sy dx dy ltac:(lia) ltac:(lia) Sx Sy (Z.to_nat dx) 0 fuel ltac:(lia) ltac:(lia) ltac:(lia)) as S.
      rewrite minor_0 in S by lia. rewrite Ex, Ey in S. rewrite !Z.mul_0_r, !Z.add_0_r in S.
      replace ((0 + 1) * dx - (0 + 1) * dy) with (dx - dy) in S by lia. exact S.
  - pose proof (steep x0 y0 sx sy dx dy ltac:(lia) Sx Sy (Z.to_nat dy) 0 fuel ltac:(lia) ltac:(lia) ltac:(lia)) as S.
    rewrite minor_0 in S by lia. rewrite Ex, Ey in S. rewrite !Z.mul_0_r, !Z.add_0_r in S.
    replace ((0 + 1) * dx - (0 + 1) * dy) with (dx - dy) in S by lia. exact S.
Qed.

Lemma nth_zfromto a b k : (k < Z.to_nat (b - a))%nat -> nth_error (zfromto a b) k = Some (a + Z.of_nat k).
Proof.
  intros L. unfold zfromto. rewrite nth_error_map.
  replace (nth_error (seq 0 (Z.to_nat (b - a))) k) with (Some k); [reflexivity|].
  symmetry. rewrite nth_error_nth' with (d := 0%nat) by (rewrite seq_length; exact L). rewrite seq_nth by exact L. reflexivity.
Qed.
Lemma zfromto_length a b : length (zfromto a b) = Z.to_nat (b - a).
Proof. unfold zfromto. rewrite map_length, seq_length. reflexivity. Qed.
Lemma ideal_length a b : Z.of_nat (length (ideal a b)) = Z.max (Z.abs (fst b - fst a)) (Z.abs (snd b - snd a)) + 1.
Proof.
  unfold ideal. destruct (Z.leb_spec (Z.abs (snd b - snd a)) (Z.abs (fst b - fst a))).
  - destruct (Z.eqb_spec (Z.abs (fst b - fst a)) 0); [cbn; lia|]. rewrite map_length, zfromto_length. lia.
  - rewrite map_length, zfromto_length. lia.
Qed.
(** The k-th pixel: [u] is the distance moved along x, [v] along y. *)
Lemma ideal_nth a b k p : nth_error (ideal a b) k = Some p ->
  let dx := Z.abs (fst b - fst a) in let dy := Z.abs (snd b - snd a) in
  let u := Z.abs (fst p - fst a) in let v := Z.abs (snd p - snd a) in
  fst p = fst a + dir (fst a) (fst b) * u /\ snd p = snd a + dir (snd a) (snd b) * v /\
  u <= dx /\ v <= dy /\
  (dy <= dx -> u = Z.of_nat k /\ (0 < dx -> - dx <= 2 * (v * dx - u * dy) < dx)) /\
  (dx < dy -> v = Z.of_nat k /\ - dy <= 2 * (u * dy - v * dx) < dy).
Proof.
  unfold ideal. cbv zeta. pose proof (dir_cases (fst a) (fst b)) as Sx. pose proof (dir_cases (snd a) (snd b)) as Sy.
  set (dx := Z.abs (fst b - fst a)) in *. set (dy := Z.abs (snd b - snd a)) in *.
  assert (Dx : 0 <= dx) by (unfold dx; lia). assert (Dy : 0 <= dy) by (unfold dy; lia).
  clearbody dx dy. set (sx := dir (fst a) (fst b)) in *. set (sy := dir (snd a) (snd b)) in *. clearbody sx sy.
  destruct (Z.leb_spec dy dx) as [L|L].
  - destruct (Z.eqb_spec dx 0) as [E|E].
    + destruct k as [|k]; [|destruct k; discriminate]. intros Hp. injection Hp as <-.
      rewrite !Z.sub_diag. cbn [Z.abs]. repeat split; lia.
    + rewrite nth_error_map. intros Hp. destruct (Nat.lt_ge_cases k (Z.to_nat (dx + 1 - 0))) as [Lk|Lk].
      * rewrite nth_zfromto in Hp by exact Lk. cbn [option_map] in Hp. injection Hp as <-. cbn [fst snd].
        set (kk := Z.of_nat k). assert (K : 0 <= kk <= dx) by lia.
        pose proof (minor_bounds dx dy kk ltac:(lia) Dy K) as B. pose proof (proj1 (minor_iff dx dy kk _ ltac:(lia)) eq_refl) as J.
        set (j := minor dx dy kk) in *. clearbody j.
        assert (U : Z.abs (fst a + sx * kk - fst a) = kk) by lia.
        assert (V : Z.abs (snd a + sy * j - snd a) = j) by lia. rewrite U, V.
        repeat split; try lia.
      * rewrite (proj2 (nth_error_None _ _)) in Hp by (rewrite zfromto_length; exact Lk). discriminate.
  - rewrite nth_error_map. intros Hp. destruct (Nat.lt_ge_cases k (Z.to_nat (dy + 1 - 0))) as [Lk|Lk].
    + rewrite nth_zfromto in Hp by exact Lk. cbn [option_map] in Hp. injection Hp as <-. cbn [fst snd].
      set (kk := Z.of_nat k). assert (K : 0 <= kk <= dy) by lia.
      pose proof (minor_bounds dy dx kk ltac:(lia) Dx K) as B. pose proof (proj1 (minor_iff dy dx kk _ ltac:(lia)) eq_refl) as J.
      set (j := minor dy dx kk) in *. clearbody j.
      assert (U : Z.abs (snd a + sy * kk - snd a) = kk) by lia.
      assert (V : Z.abs (fst a + sx * j - fst a) = j) by lia. rewrite U, V.
      repeat split; try lia.
    + rewrite (proj2 (nth_error_None _ _)) in Hp by (rewrite zfromto_length; exact Lk). discriminate.
Qed.
Lemma ideal_first a b : nth_error (ideal a b) 0 = Some a.
Proof.
  destruct a as [x0 y0]. unfold ideal. cbn [fst snd]. destruct (Z.leb_spec (Z.abs (snd b - y0)) (Z.abs (fst b - x0))).
  - destruct (Z.eqb_spec (Z.abs (fst b - x0)) 0); [reflexivity|]. rewrite nth_error_map, nth_zfromto by lia.
    cbn [option_map]. rewrite minor_0 by lia. rewrite !Z.mul_0_r, !Z.add_0_r. reflexivity.
  - rewrite nth_error_map, nth_zfromto by lia.
    cbn [option_map]. rewrite minor_0 by lia. rewrite !Z.mul_0_r, !Z.add_0_r. reflexivity.
Qed.
Lemma ideal_last a b : nth_error (ideal a b) (length (ideal a b) - 1) = Some b.
Proof.
  destruct a as [x0 y0], b as [x1 y1]. unfold ideal. cbn [fst snd].
  pose proof (dir_abs x0 x1) as Ex. pose proof (dir_abs y0 y1) as Ey.
  destruct (Z.leb_spec (Z.abs (y1 - y0)) (Z.abs (x1 - x0))).
  - destruct (Z.eqb_spec (Z.abs (x1 - x0)) 0); [cbn; do 2 f_equal; lia|]. rewrite map_length, zfromto_length.
    rewrite nth_error_map, nth_zfromto by lia. cbn [option_map].
    match goal with |- context [minor _ _ ?k] => replace k with (Z.abs (x1 - x0)) by lia end. rewrite minor_M by lia.
    rewrite Ex, Ey. reflexivity.
  - rewrite map_length, zfromto_length. rewrite nth_error_map, nth_zfromto by lia. cbn [option_map].
    match goal with |- context [minor _ _ ?k] => replace k with (Z.abs (y1 - y0)) by lia end. rewrite minor_M by lia.
    rewrite Ex, Ey. reflexivity.
Qed.
