(** Concrete frames: a Mercator projection on which one degree of longitude is
    one unit. *)
From Coq Require Import Reals Lra Lia.
From Verif Require Import Num RealNum BBoxModel BufferModel SimplifyModel SimplifySpec VlvModel PfModel StrModel Text ProjModel TrigLib ProjProofs FrameModel FrameSpec FrameProofs FramePlan.
Open Scope Z_scope.

Definition unit_mercator : projection := PSphere CMercator (proj_new (Some (0, 0))%R (Some (180 / PI))%R).
Lemma unit_forward lon lat : (-180 <= lon <= 180 -> -90 < lat < 90 -> forall n, exists y, geo2rect n unit_mercator lon lat = Some (Ok (lon, y)) /\ (lat = 0 -> y = 0))%R.
Proof.
  intros L B n. destruct (mercator_forward 0 0 (180 / PI) lon lat B) as (x & y & E & Hx & Hy). exists y. cbn [geo2rect unit_mercator]. rewrite E. pose proof PI_RGT_0 as P.
  replace x with lon; [split; [reflexivity|]|].
  - intros ->. rewrite Hy. replace (PI / 4 + radians 0 / 2)%R with (PI / 4)%R by (unfold radians; field). rewrite tan_PI4, ln_1. ring.
  - rewrite Hx. destruct (corangle_spec (radians lon - radians 0)) as (_ & _ & C). rewrite C; unfold radians; [field; lra|].
    assert (0 < PI / 180)%R by lra. replace (lon * (PI / 180) - 0 * (PI / 180))%R with (lon * (PI / 180))%R by ring. split; nra.
Qed.
Lemma unit_project n pts : Forall (fun g => -180 <= fst g <= 180 /\ -90 < snd g < 90)%R pts -> exists xys, project n unit_mercator pts = Some (Ok xys) /\ map fst xys = map fst pts.
Proof.
  induction 1 as [|[lon lat] pts [A B] _ (xys & E & M)]; [exists []; split; reflexivity|]. cbn [fst snd] in *.
  destruct (unit_forward lon lat A B n) as (y & G & _). exists ((lon, y) :: xys). cbn [project]. rewrite G, E. cbn. rewrite M. split; reflexivity.
Qed.

Definition case_file : list Z :=
  [80; 70; 0; 1; 6; 2; 65; 0; 1; 51; 51; 102; 102; 85; 85; 170; 170; 3; 65; 0; 1; 153; 153; 204; 204; 85; 85; 170; 170; 3;
   0; 0; 255; 0; 255; 255; 0; 0; 255; 0; 255; 255].
Definition space_file : list Z :=
  [80; 70; 0; 1; 3; 1; 65; 32; 0; 1; 153; 153; 204; 204; 85; 85; 170; 170; 3; 0; 0; 255; 0; 255; 255].
Definition left_poly : list (R * R) := [(-108, -30); (-36, -30); (-36, 30)]%R.
Definition right_poly : list (R * R) := [(36, -30); (108, -30); (108, 30)]%R.
Definition case_rd : preader R :=
  mkpr case_file 30 1 [(-108, -36, -30, 30); (36, 108, -30, 30)]%R [text "A"; text "A"] [[3]; [3]] 1 255.
Definition space_rd : preader R :=
  mkpr space_file 19 1 [(36, 108, -30, 30)]%R [text "A "] [[3]] 1 255.
Lemma eq4 (a b c d a' b' c' d' : R) : a = a' -> b = b' -> c = c' -> d = d' -> (a, b, c, d) = (a', b', c', d').
Proof. intros -> -> -> ->. reflexivity. Qed.
Lemma case_open : pf_open (T := R) 2 case_file = Some (Ok case_rd).
Proof.
  transitivity (Some (Ok (mkpr case_file 30 1
    [(4718520 / 65535 - 180, 9437040 / 65535 - 180, 3932100 / 65535 - 90, 7864200 / 65535 - 90);
     (14155560 / 65535 - 180, 18874080 / 65535 - 180, 3932100 / 65535 - 90, 7864200 / 65535 - 90)]%R [text "A"; text "A"] [[3]; [3]] 1 255))); [reflexivity|].
  unfold case_rd. do 4 f_equal; [apply eq4; lra|f_equal; apply eq4; lra].
Qed.
Lemma space_open : pf_open (T := R) 3 space_file = Some (Ok space_rd).
Proof.
  transitivity (Some (Ok (mkpr space_file 19 1
    [(14155560 / 65535 - 180, 18874080 / 65535 - 180, 3932100 / 65535 - 90, 7864200 / 65535 - 90)]%R [text "A "] [[3]] 1 255))); [reflexivity|].
  unfold space_rd. do 4 f_equal; apply eq4; lra.
Qed.
Definition poly_in (x0 x1 y0 y1 : R) : list (R * R) :=
  [(x0 + 0 * (x1 - x0) / 255, y0 + 0 * (y1 - y0) / 255); (x0 + 255 * (x1 - x0) / 255, y0 + 0 * (y1 - y0) / 255); (x0 + 255 * (x1 - x0) / 255, y0 + 255 * (y1 - y0) / 255)]%R.
Lemma poly_in_eq x0 x1 y0 y1 : poly_in x0 x1 y0 y1 = [(x0, y0); (x1, y0); (x1, y1)].
Proof. unfold poly_in. repeat (f_equal; try lra). Qed.
Lemma case_read0 : pf_read case_rd 0 = Ok [left_poly].
Proof. unfold left_poly. rewrite <- poly_in_eq. reflexivity. Qed.
Lemma case_read1 : pf_read case_rd 1 = Ok [right_poly].
Proof. unfold right_poly. rewrite <- poly_in_eq. reflexivity. Qed.
Lemma space_read : pf_get space_rd (text "A ") = Ok [right_poly].
Proof. unfold right_poly. rewrite <- poly_in_eq. reflexivity. Qed.

(** The two triangles on the map, and a frame showing only the right one. *)
Lemma the_frame n : exists h, (0 < h)%R /\ let f := mkframe unit_mercator (mkbb 0 (- h) 180 h)%R in
  any_collides n f [left_poly] = Some (Ok false) /\ any_collides n f [right_poly] = Some (Ok true) /\ visible f [right_poly].
Proof.
  assert (G : forall a b, (-180 <= a <= 180)%R -> (-180 <= b <= 180)%R -> exists h, (0 < h)%R /\ exists u v, project n unit_mercator [(a, -30); (b, -30); (b, 30)]%R = Some (Ok [(a, u); (b, u); (b, v)]) /\ (- h < u < h)%R /\ (- h < v < h)%R).
  { intros a b Ha Hb. destruct (unit_forward a (-30) Ha ltac:(lra) n) as (u & E & _). destruct (unit_forward b (-30) Hb ltac:(lra) n) as (u' & E1 & _). destruct (unit_forward b 30 Hb ltac:(lra) n) as (v & E2 & _).
    assert (u' = u). { cbn [geo2rect unit_mercator] in E, E1. unfold mercator_geo2rect in E, E1. destruct (Req_bool (-30) (-90)); [discriminate|]. destruct (math_log (tan (PI / 4 + radians (-30) / 2))) as [l|]; [|discriminate]. cbn [bind] in E, E1. injection E as _ E. injection E1 as _ E1. congruence. }
    subst u'. exists (Rabs u + Rabs v + 1)%R. pose proof (Rabs_pos u). pose proof (Rabs_pos v). split; [lra|]. exists u, v. cbn [project]. rewrite E, E1, E2. split; [reflexivity|].
    unfold Rabs in *. destruct (Rcase_abs u), (Rcase_abs v); lra. }
  destruct (G (-108) (-36) ltac:(lra) ltac:(lra))%R as (h1 & _ & u & v & P1 & _ & _).
  destruct (G 36 108 ltac:(lra) ltac:(lra))%R as (h & Hh & u' & v' & P2 & Bu & Bv).
  exists h. split; [exact Hh|]. cbv zeta.
  assert (V : any_collides n (mkframe unit_mercator (mkbb 0 (- h) 180 h)%R) [right_poly] = Some (Ok true)).
  { cbn [any_collides fr_proj fr_box]. unfold right_poly. rewrite P2. destruct (bb_of_points [(36, u'); (108, u'); (108, v')]%R) as [b|e] eqn:B; [|discriminate].
    apply points_tight in B. destruct (bb_collide _ b) eqn:C; [reflexivity|]. exfalso.
    assert (D : bb_collide (mkbb 0 (- h) 180 h)%R b = true); [|congruence]. apply collide_overlap. destruct B as (_ & (q1 & I1 & E1) & _ & (q3 & I3 & E3) & _). unfold overlap. cbn [bx0 bx1 by0 by1].
    cbn in I1, I3. split; [left|left].
    - destruct I1 as [<-|[<-|[<-|[]]]]; cbn in E1; lra.
    - destruct I3 as [<-|[<-|[<-|[]]]]; cbn in E3; lra. }
  split; [|split; [exact V|apply (any_collides_ok n _ _ true V); reflexivity]].
  cbn [any_collides fr_proj fr_box]. unfold left_poly. rewrite P1. destruct (bb_of_points [(-108, u); (-36, u); (-36, v)]%R) as [b|e] eqn:B; [|discriminate].
  apply points_tight in B. destruct (bb_collide _ b) eqn:C; [|reflexivity]. exfalso. apply collide_overlap in C. destruct B as (Al & (q1 & I1 & E1) & (q2 & I2 & E2) & _). destruct C as [C _]. cbn [bx0 bx1] in C. cbn in I1, I2.
  destruct I2 as [<-|[<-|[<-|[]]]]; cbn in E2; destruct I1 as [<-|[<-|[<-|[]]]]; cbn in E1; lra.
Qed.
(** The second of two entities of the same name is never looked at. *)
Lemma same_name_missed : exists file rd f parts, pf_open (T := R) 2 file = Some (Ok rd) /\ r_names rd = [text "A"; text "A"] /\
  (forall n, cachenames n f rd = Some (Ok ([], 0))) /\ loadnames [] = [] /\ pf_read rd 1 = Ok parts /\ visible f parts.
Proof.
  destruct (the_frame 0) as (h & _ & _ & _ & V). exists case_file, case_rd, (mkframe unit_mercator (mkbb 0 (- h) 180 h))%R, [right_poly].
  split; [exact case_open|]. split; [reflexivity|]. split; [|split; [reflexivity|split; [exact case_read1|exact V]]].
  intros n. destruct (the_frame n) as (h' & _ & A & _ & _).
  assert (A' : any_collides n (mkframe unit_mercator (mkbb 0 (- h) 180 h)%R) [left_poly] = Some (Ok false)).
  { destruct (unit_project n left_poly) as (xys & P & M). { unfold left_poly. repeat (apply Forall_cons; [cbn; lra|]). constructor. }
    cbn [any_collides fr_proj fr_box]. rewrite P. destruct (bb_of_points xys) as [b|e] eqn:B; [|destruct xys; discriminate].
    destruct (bb_collide _ b) eqn:C; [|reflexivity]. exfalso. apply points_tight in B. apply collide_overlap in C. destruct B as (_ & (q1 & I1 & E1) & (q2 & I2 & E2) & _). destruct C as [C _]. cbn [bx0 bx1] in C.
    apply (in_map fst) in I1, I2. rewrite M in I1, I2. cbn in I1, I2. lra. }
  unfold cachenames, case_rd. cbn [r_names cache_lines]. fold case_rd.
  assert (G : pf_get case_rd (text "A") = Ok [left_poly]) by exact case_read0. rewrite G, A'. reflexivity.
Qed.
(** Trailing white space is lost. *)
Lemma trailing_space : exists file rd f content, pf_open (T := R) 3 file = Some (Ok rd) /\ r_names rd = [text "A "] /\
  cachenames 0 f rd = Some (Ok (content, 1)) /\ loadnames content = [text "A"].
Proof.
  destruct (the_frame 0) as (h & _ & _ & A & _). exists space_file, space_rd, (mkframe unit_mercator (mkbb 0 (- h) 180 h))%R, (text "A " ++ [10]).
  split; [exact space_open|]. split; [reflexivity|]. split; [|reflexivity].
  unfold cachenames, space_rd. cbn [r_names cache_lines]. fold space_rd. rewrite space_read, A. reflexivity.
Qed.
Lemma cached_case : exists rd f content, r_names rd = [text "A"] /\ Forall clean (r_names rd) /\ cachenames 0 f rd = Some (Ok (content, 1)) /\ loadnames content = [text "A"].
Proof.
  destruct (the_frame 0) as (h & _ & _ & A & _). exists (mkpr space_file 19 1 [(36, 108, -30, 30)]%R [text "A"] [[3]] 1 255), (mkframe unit_mercator (mkbb 0 (- h) 180 h))%R, (text "A" ++ [10]).
  split; [reflexivity|]. split; [|split; [|reflexivity]].
  - apply Forall_cons; [|constructor]. change (text "A") with [65]. unfold clean. cbn. repeat split; intros [H|[]]; discriminate.
  - unfold cachenames. cbn [r_names cache_lines]. assert (G : pf_get (mkpr space_file 19 1 [(36, 108, -30, 30)]%R [text "A"] [[3]] 1 255) (text "A") = Ok [right_poly]) by (unfold right_poly; rewrite <- poly_in_eq; reflexivity). rewrite G, A. reflexivity.
Qed.

(** Point and path disagree on the cell. *)
Lemma unit_equator n lon : (-180 <= lon <= 180)%R -> geo2rect n unit_mercator lon 0 = Some (Ok (lon, 0%R)).
Proof. intros L. destruct (unit_forward lon 0 L ltac:(lra) n) as (y & E & H). rewrite E, (H eq_refl). reflexivity. Qed.
Lemma point_planify : exists f lon, forall n, (9 <= n)%nat -> frame_point n f 1 (lon, 0)%R = Some (Ok (0, 0)%R) /\
  frame_planify n f 1 [(-5, 0); (lon, 0)]%R false = Some ([(-5, 0); (1, 0)], Ok tt).
Proof.
  exists (mkframe unit_mercator (mkbb 0 0 1 1)%R), (6 / 10)%R. intros n L. split.
  - unfold frame_point. cbn [fst snd fr_proj]. rewrite unit_equator by lra. cbn [bind]. unfold floordiv. rewrite !ndivE_R by lra. cbn [bind].
    rewrite (int_part_unique (6 / 10 / 1) 0) by (cbn; lra). rewrite (int_part_unique (0 / 1) 0) by (cbn; lra). reflexivity.
  - rewrite (planify_run n _ 1 _ [(-5, 0); (6 / 10, 0)]%R [(-5, 0); (1, 0)]).
    + apply (open_mono 9); [vm_compute; reflexivity|exact L].
    + cbn [project fr_proj]. rewrite !unit_equator by lra. reflexivity.
    + lra.
    + unfold snappedR, roundsR. repeat (apply Forall2_cons; [cbn; split; split; intros; lra|]). constructor.
Qed.
Lemma ring_case : exists f scale points xys s, projects (fr_proj f) points xys /\ scale <> 0%R /\ snappedR scale xys s /\ length points = 3%nat /\ s = [(0, 0); (3, 0); (7, 0)].
Proof.
  exists (mkframe unit_mercator (mkbb 0 0 1 1)%R), 2%R, [(0, 0); (6, 0); (14, 0)]%R, [(0, 0); (6, 0); (14, 0)]%R, [(0, 0); (3, 0); (7, 0)].
  split; [|split; [lra|split; [|split; reflexivity]]].
  - unfold projects. repeat (apply Forall2_cons; [exists 0%nat; apply unit_equator; cbn; lra|]). constructor.
  - unfold snappedR, roundsR. repeat (apply Forall2_cons; [cbn; split; split; intros; lra|]). constructor.
Qed.
