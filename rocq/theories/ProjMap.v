(** Which projections keep shapes, and which keep areas. *)
From Coq Require Import Lia.
From Verif Require Import ProjModel GeoSpec TrigLib ProjProofs ProjIter ProjScale ProjMapSpec.
Open Scope R_scope.

(** * Derivatives *)
Lemma dl_eq f x l l' : derivable_pt_lim f x l -> l = l' -> derivable_pt_lim f x l'.
Proof. intros D <-. exact D. Qed.
Lemma dl_const c x : derivable_pt_lim (fun _ => c) x 0.
Proof. apply derivable_pt_lim_const. Qed.
Lemma dl_id x : derivable_pt_lim (fun t => t) x 1.
Proof. apply derivable_pt_lim_id. Qed.
Lemma dl_plus u v x a b : derivable_pt_lim u x a -> derivable_pt_lim v x b -> derivable_pt_lim (fun t => u t + v t) x (a + b).
Proof. intros A B. exact (derivable_pt_lim_plus u v x a b A B). Qed.
Lemma dl_minus u v x a b : derivable_pt_lim u x a -> derivable_pt_lim v x b -> derivable_pt_lim (fun t => u t - v t) x (a - b).
Proof. intros A B. exact (derivable_pt_lim_minus u v x a b A B). Qed.
Lemma dl_mult u v x a b : derivable_pt_lim u x a -> derivable_pt_lim v x b -> derivable_pt_lim (fun t => u t * v t) x (a * v x + u x * b).
Proof. intros A B. exact (derivable_pt_lim_mult u v x a b A B). Qed.
Lemma dl_div u v x a b : derivable_pt_lim u x a -> derivable_pt_lim v x b -> v x <> 0 -> derivable_pt_lim (fun t => u t / v t) x ((a * v x - b * u x) / (v x)²).
Proof. intros A B N. exact (derivable_pt_lim_div u v x a b A B N). Qed.
Lemma dl_comp (g : R -> R) u x a b : derivable_pt_lim u x a -> derivable_pt_lim g (u x) b -> derivable_pt_lim (fun t => g (u t)) x (b * a).
Proof. intros A B. exact (derivable_pt_lim_comp u g x a b A B). Qed.
Lemma dl_sin u x a : derivable_pt_lim u x a -> derivable_pt_lim (fun t => sin (u t)) x (cos (u x) * a).
Proof. intros A. apply (dl_comp sin u x a); [exact A|apply derivable_pt_lim_sin]. Qed.
Lemma dl_cos u x a : derivable_pt_lim u x a -> derivable_pt_lim (fun t => cos (u t)) x (- sin (u x) * a).
Proof. intros A. apply (dl_comp cos u x a); [exact A|apply derivable_pt_lim_cos]. Qed.
Lemma dl_atan u x a : derivable_pt_lim u x a -> derivable_pt_lim (fun t => atan (u t)) x (/ (1 + u x ^ 2) * a).
Proof. intros A. apply (dl_comp atan u x a); [exact A|apply derivable_pt_lim_atan]. Qed.
Lemma dl_artanh u x a : derivable_pt_lim u x a -> -1 < u x < 1 -> derivable_pt_lim (fun t => artanh (u t)) x (/ (1 - u x * u x) * a).
Proof. intros A B. apply (dl_comp artanh u x a); [exact A|apply artanh_lim, B]. Qed.
Lemma dl_sqrt u x a : derivable_pt_lim u x a -> 0 < u x -> derivable_pt_lim (fun t => sqrt (u t)) x (/ (2 * sqrt (u x)) * a).
Proof. intros A B. apply (dl_comp sqrt u x a); [exact A|apply sqrt_lim, B]. Qed.
Ltac dl := repeat first [apply dl_const | apply dl_id | eapply dl_sin | eapply dl_cos | eapply dl_atan | eapply dl_artanh | eapply dl_sqrt | eapply dl_minus | eapply dl_plus | eapply dl_div | eapply dl_mult].
Lemma dl_near g x l c : derivable_pt_lim g x l -> c < g x -> exists d, 0 < d /\ forall h, Rabs (h - x) < d -> c < g h.
Proof.
  intros D L. assert (K : continuity_pt g x) by (apply derivable_continuous_pt; exists l; exact D).
  destruct (K (g x - c) ltac:(lra)) as (d & Pd & Hd). exists d. split; [exact Pd|]. intros h Lh. destruct (Req_dec h x) as [->|N]; [exact L|].
  assert (G : Rabs (g h - g x) < g x - c). { apply (Hd h). split; [split; [exact I|intro E; apply N; symmetry; exact E]|exact Lh]. }
  apply Rabs_def2 in G. lra.
Qed.
(** The wrap-around of an angle, away from the cut *)
Lemma corangle_near a : - PI < corangle a < PI -> exists k, corangle a = a + k /\ exists d, 0 < d /\ forall h, Rabs (h - a) < d -> corangle h = h + k.
Proof.
  intros B. destruct (corangle_turn a) as (k & E). exists (corangle a - a). split; [ring|].
  exists (Rmin (PI - corangle a) (PI + corangle a)). split; [apply Rmin_pos; lra|]. intros h L.
  assert (L1 : Rabs (h - a) < PI - corangle a) by (eapply Rlt_le_trans; [exact L|apply Rmin_l]).
  assert (L2 : Rabs (h - a) < PI + corangle a) by (eapply Rlt_le_trans; [exact L|apply Rmin_r]). apply Rabs_def2 in L1, L2.
  destruct (corangle_spec h) as (Bh & (j & Ej) & _).
  assert (X : -1 < IZR (j - k) < 1). { rewrite minus_IZR. pose proof PI_RGT_0. split; nra. }
  assert (j = k) as -> by (destruct X as [X1 X2]; apply lt_IZR in X1, X2; lia). rewrite Ej, E. ring.
Qed.
Lemma corangle_lim a : - PI < corangle a < PI -> derivable_pt_lim corangle a 1.
Proof.
  intros B. destruct (corangle_near a B) as (k & _ & d & Pd & H). apply (lim_near _ (fun h => h + k) _ _ d Pd H).
  eapply dl_eq; [dl|ring].
Qed.
Lemma dl_corangle u x a : derivable_pt_lim u x a -> - PI < corangle (u x) < PI -> derivable_pt_lim (fun t => corangle (u t)) x a.
Proof. intros A B. eapply dl_eq; [apply (dl_comp corangle u x a 1); [exact A|apply corangle_lim, B]|ring]. Qed.
(** The cut: the cosine is -1 *)
Lemma corangle_open a : cos a <> -1 -> - PI < corangle a < PI.
Proof.
  intros N. destruct (corangle_spec a) as (B & T & _). assert (E : cos (corangle a) = cos a).
  { apply same_turn_cos, T. }
  split.
  - destruct (Req_dec (corangle a) (- PI)) as [X|]; [|lra]. rewrite X, cos_neg, cos_PI in E. lra.
  - destruct (Req_dec (corangle a) PI) as [X|]; [|lra]. rewrite X, cos_PI in E. lra.
Qed.

Lemma corangle_same a b : same_turn a b -> - PI < corangle a < PI -> corangle b = corangle a.
Proof.
  intros S B. destruct (corangle_spec b) as (Bb & T & _). destruct (corangle_turn a) as (i & Ei). destruct T as (j & Ej). destruct S as (k & Ek).
  assert (X : -1 < IZR (j - k - i) < 1). { rewrite !minus_IZR. pose proof PI_RGT_0. split; nra. }
  assert (X' : (j - k - i = 0)%Z) by (destruct X as [X1 X2]; apply lt_IZR in X1, X2; lia). rewrite Ej, Ei, Ek. replace j with (k + i)%Z by lia. rewrite plus_IZR. ring.
Qed.
(** From formulas in radians *)
Lemma near_shift (P : R -> Prop) d x h : (forall h, Rabs (h - x) < d -> P h) -> Rabs h < d -> P (x + h).
Proof. intros H L. apply H. replace (x + h - x) with h by ring. exact L. Qed.
Lemma growth_of (f : map) lon lat (X Y : R -> R -> R) xl yl xp yp :
  (exists d, 0 < d /\ forall h, Rabs (h - lon) < d -> f h lat = Ok (X (radians h) (radians lat), Y (radians h) (radians lat))) ->
  (exists d, 0 < d /\ forall h, Rabs (h - lat) < d -> f lon h = Ok (X (radians lon) (radians h), Y (radians lon) (radians h))) ->
  derivable_pt_lim (fun t => X t (radians lat)) (radians lon) xl -> derivable_pt_lim (fun t => Y t (radians lat)) (radians lon) yl ->
  derivable_pt_lim (fun t => X (radians lon) t) (radians lat) xp -> derivable_pt_lim (fun t => Y (radians lon) t) (radians lat) yp ->
  growth f lon lat xl yl xp yp.
Proof.
  intros (d1 & P1 & F1) (d2 & P2 & F2) A B C D. split; [|split; [|split; [|split]]].
  - exists (Rmin d1 d2). split; [apply Rmin_pos; assumption|]. intros h L.
    assert (L1 : Rabs h < d1) by (eapply Rlt_le_trans; [exact L|apply Rmin_l]). assert (L2 : Rabs h < d2) by (eapply Rlt_le_trans; [exact L|apply Rmin_r]).
    split; eexists; [apply (near_shift (fun h => f h lat = Ok (X (radians h) (radians lat), Y (radians h) (radians lat))) d1 lon h F1 L1)|
      apply (near_shift (fun h => f lon h = Ok (X (radians lon) (radians h), Y (radians lon) (radians h))) d2 lat h F2 L2)].
  - apply (lim_near _ (fun h => X (radians h) (radians lat)) _ _ d1 P1); [intros h L; rewrite F1 by exact L; reflexivity|].
    apply (dl_comp (fun t => X t (radians lat)) radians); [apply rad_lim|exact A].
  - apply (lim_near _ (fun h => Y (radians h) (radians lat)) _ _ d1 P1); [intros h L; rewrite F1 by exact L; reflexivity|].
    apply (dl_comp (fun t => Y t (radians lat)) radians); [apply rad_lim|exact B].
  - apply (lim_near _ (fun h => X (radians lon) (radians h)) _ _ d2 P2); [intros h L; rewrite F2 by exact L; reflexivity|].
    apply (dl_comp (fun t => X (radians lon) t) radians); [apply rad_lim|exact C].
  - apply (lim_near _ (fun h => Y (radians lon) (radians h)) _ _ d2 P2); [intros h L; rewrite F2 by exact L; reflexivity|].
    apply (dl_comp (fun t => Y (radians lon) t) radians); [apply rad_lim|exact D].
Qed.
(** A condition on radians that holds near the point holds near it in degrees. *)
Lemma near_rad (g : R -> R) x l c : derivable_pt_lim g (radians x) l -> c < g (radians x) -> exists d, 0 < d /\ forall h, Rabs (h - x) < d -> c < g (radians h).
Proof. intros D L. apply (dl_near (fun h => g (radians h)) x (l * (PI / 180))); [apply (dl_comp g radians); [apply rad_lim|exact D]|exact L]. Qed.
Lemma both_near (P Q : R -> Prop) x : (exists d, 0 < d /\ forall h, Rabs (h - x) < d -> P h) -> (exists d, 0 < d /\ forall h, Rabs (h - x) < d -> Q h) ->
  exists d, 0 < d /\ forall h, Rabs (h - x) < d -> P h /\ Q h.
Proof.
  intros (a & Pa & Ha) (b & Pb & Hb). exists (Rmin a b). split; [apply Rmin_pos; assumption|]. intros h L.
  split; [apply Ha|apply Hb]; (eapply Rlt_le_trans; [exact L|]); [apply Rmin_l|apply Rmin_r].
Qed.
Lemma always_near (P : R -> Prop) x : (forall h, P h) -> exists d, 0 < d /\ forall h, Rabs (h - x) < d -> P h.
Proof. intros H. exists 1. split; [lra|auto]. Qed.

(** * Formulas *)
Definition ux (l0 b0 l f : R) : R := cos f * sin (l - l0).
Definition uy (l0 b0 l f : R) : R := cos b0 * sin f - sin b0 * cos f * cos (l - l0).
Definition uz (l0 b0 l f : R) : R := sin b0 * sin f + cos b0 * cos f * cos (l - l0).
(** The sphere, turned so that the centre of the map is on the third axis: its
    metric and its orientation. *)
Lemma turned l0 b0 l f : let s := sin f in let c := cos f in let S := sin (l - l0) in let C := cos (l - l0) in let s0 := sin b0 in let c0 := cos b0 in
  let P := c * S in let Q := c0 * s - s0 * c * C in let u := s0 * s + c0 * c * C in
  let Pl := c * C in let Pf := - (s * S) in let Ql := s0 * c * S in let Qf := c0 * c + s0 * s * C in let ul := - (c0 * c * S) in let uf := s0 * c - c0 * s * C in
  P * P + Q * Q = 1 - u * u /\
  Pl * Pl + Ql * Ql = c * c - ul * ul /\ Pf * Pf + Qf * Qf = 1 - uf * uf /\ Pl * Pf + Ql * Qf = - (ul * uf) /\
  P * Pl + Q * Ql = - (u * ul) /\ P * Pf + Q * Qf = - (u * uf) /\
  Pl * Qf - Pf * Ql = c * u /\ P * (ul * Qf - uf * Ql) + Q * (Pl * uf - Pf * ul) = - (c * (1 - u * u)).
Proof.
  cbv zeta. assert (H1 : sin f * sin f = 1 - cos f * cos f) by (pose proof (sc f); lra).
  assert (H2 : sin (l - l0) * sin (l - l0) = 1 - cos (l - l0) * cos (l - l0)) by (pose proof (sc (l - l0)); lra).
  assert (H3 : sin b0 * sin b0 = 1 - cos b0 * cos b0) by (pose proof (sc b0); lra).
  set (s := sin f) in *. set (c := cos f) in *. set (S := sin (l - l0)) in *. set (C := cos (l - l0)) in *. set (s0 := sin b0) in *. set (c0 := cos b0) in *. clearbody s c S C s0 c0.
  repeat split; ring [H1 H2 H3].
Qed.
Lemma metric_shape xl yl xp yp m n k c : xl * xl + yl * yl = k * k * (n * c * (n * c)) -> xp * xp + yp * yp = k * k * (m * m) -> xl * xp + yl * yp = 0 ->
  forall u v, (xl * u + xp * v) * (xl * u + xp * v) + (yl * u + yp * v) * (yl * u + yp * v) = k * k * ((n * c * u) * (n * c * u) + m * v * (m * v)).
Proof.
  intros A B C u v. replace ((xl * u + xp * v) * (xl * u + xp * v) + (yl * u + yp * v) * (yl * u + yp * v))
    with ((xl * xl + yl * yl) * (u * u) + (xp * xp + yp * yp) * (v * v) + 2 * (xl * xp + yl * yp) * (u * v)) by ring.
  rewrite A, B, C. ring.
Qed.
Lemma uz_dot l0 b0 lon lat : uz (radians l0) (radians b0) (radians lon) (radians lat) = dot (on_sphere l0 b0) (on_sphere lon lat).
Proof. unfold uz, dot, on_sphere. rewrite cos_minus, <- !rad_radians. ring. Qed.
Lemma ux_l l0 b0 l f : derivable_pt_lim (fun t => ux l0 b0 t f) l (cos f * cos (l - l0)).
Proof. unfold ux. eapply dl_eq; [dl|]. cbn beta. ring. Qed.
Lemma ux_f l0 b0 l f : derivable_pt_lim (fun t => ux l0 b0 l t) f (- (sin f * sin (l - l0))).
Proof. unfold ux. eapply dl_eq; [dl|]. cbn beta. ring. Qed.
Lemma uy_l l0 b0 l f : derivable_pt_lim (fun t => uy l0 b0 t f) l (sin b0 * cos f * sin (l - l0)).
Proof. unfold uy. eapply dl_eq; [dl|]. cbn beta. ring. Qed.
Lemma uy_f l0 b0 l f : derivable_pt_lim (fun t => uy l0 b0 l t) f (cos b0 * cos f + sin b0 * sin f * cos (l - l0)).
Proof. unfold uy. eapply dl_eq; [dl|]. cbn beta. ring. Qed.
Lemma uz_l l0 b0 l f : derivable_pt_lim (fun t => uz l0 b0 t f) l (- (cos b0 * cos f * sin (l - l0))).
Proof. unfold uz. eapply dl_eq; [dl|]. cbn beta. ring. Qed.
Lemma uz_f l0 b0 l f : derivable_pt_lim (fun t => uz l0 b0 l t) f (sin b0 * cos f - cos b0 * sin f * cos (l - l0)).
Proof. unfold uz. eapply dl_eq; [dl|]. cbn beta. ring. Qed.
(** A map that draws the point P, Q, u of the turned sphere at r g(u) P, r g(u) Q *)
Lemma azimuthal_growth (f : map) l0 b0 r (g : R -> R) g' lon lat : let L := radians l0 in let B := radians b0 in let l := radians lon in let a := radians lat in
  -1 < uz L B l a ->
  (forall lon lat, -1 < uz L B (radians lon) (radians lat) ->
    f lon lat = Ok (r * g (uz L B (radians lon) (radians lat)) * ux L B (radians lon) (radians lat), r * g (uz L B (radians lon) (radians lat)) * uy L B (radians lon) (radians lat))) ->
  derivable_pt_lim g (uz L B l a) g' ->
  let G := g (uz L B l a) in
  growth f lon lat (r * (g' * - (cos B * cos a * sin (l - L)) * ux L B l a + G * (cos a * cos (l - L))))
                   (r * (g' * - (cos B * cos a * sin (l - L)) * uy L B l a + G * (sin B * cos a * sin (l - L))))
                   (r * (g' * (sin B * cos a - cos B * sin a * cos (l - L)) * ux L B l a + G * - (sin a * sin (l - L))))
                   (r * (g' * (sin B * cos a - cos B * sin a * cos (l - L)) * uy L B l a + G * (cos B * cos a + sin B * sin a * cos (l - L)))).
Proof.
  intros L B l a Pu F D G.
  apply (growth_of f lon lat (fun l a => r * g (uz L B l a) * ux L B l a) (fun l a => r * g (uz L B l a) * uy L B l a)).
  - destruct (near_rad (fun t => uz L B t a) lon _ (-1) (uz_l L B l a) Pu) as (d & Pd & H). exists d. split; [exact Pd|]. intros h Lh. apply F, H, Lh.
  - destruct (near_rad (fun t => uz L B l t) lat _ (-1) (uz_f L B l a) Pu) as (d & Pd & H). exists d. split; [exact Pd|]. intros h Lh. apply F, H, Lh.
  - eapply dl_eq; [eapply dl_mult; [eapply dl_mult; [apply dl_const|apply (dl_comp g (fun t => uz L B t a)); [apply uz_l|exact D]]|apply ux_l]|]. cbv beta. fold l a G. ring.
  - eapply dl_eq; [eapply dl_mult; [eapply dl_mult; [apply dl_const|apply (dl_comp g (fun t => uz L B t a)); [apply uz_l|exact D]]|apply uy_l]|]. cbv beta. fold l a G. ring.
  - eapply dl_eq; [eapply dl_mult; [eapply dl_mult; [apply dl_const|apply (dl_comp g (fun t => uz L B l t)); [apply uz_f|exact D]]|apply ux_f]|]. cbv beta. fold l a G. ring.
  - eapply dl_eq; [eapply dl_mult; [eapply dl_mult; [apply dl_const|apply (dl_comp g (fun t => uz L B l t)); [apply uz_f|exact D]]|apply uy_f]|]. cbv beta. fold l a G. ring.
Qed.
Lemma stereo_form l0 b0 r lon lat : let L := radians l0 in let B := radians b0 in let p := proj_new (Some (l0, b0)) (Some r) in
  -1 < uz L B (radians lon) (radians lat) ->
  stereo_geo2rect p lon lat = Ok (r * (2 / (1 + uz L B (radians lon) (radians lat))) * ux L B (radians lon) (radians lat), r * (2 / (1 + uz L B (radians lon) (radians lat))) * uy L B (radians lon) (radians lat)).
Proof.
  intros L B p H. unfold stereo_geo2rect. change (azimuthal_cos p (radians lon) (radians lat)) with (uz L B (radians lon) (radians lat)).
  rewrite ndivE_R by lra. cbn [bind]. reflexivity.
Qed.
Lemma stereo_shape l0 b0 r lon lat : -1 < dot (on_sphere l0 b0) (on_sphere lon lat) ->
  same_shape (stereo_geo2rect (proj_new (Some (l0, b0)) (Some r))) lon lat r r (2 / (1 + dot (on_sphere l0 b0) (on_sphere lon lat))).
Proof.
  intros H. rewrite <- uz_dot in *. set (L := radians l0) in *. set (B := radians b0) in *.
  assert (D : derivable_pt_lim (fun u => 2 / (1 + u)) (uz L B (radians lon) (radians lat)) (- (2 / (1 + uz L B (radians lon) (radians lat))) / (1 + uz L B (radians lon) (radians lat)))).
  { eapply dl_eq; [dl; lra|]. cbn beta. unfold Rsqr. field. lra. }
  pose proof (azimuthal_growth (stereo_geo2rect (proj_new (Some (l0, b0)) (Some r))) l0 b0 r (fun u => 2 / (1 + u)) _ lon lat H (stereo_form l0 b0 r) D) as G.
  cbv zeta in G. fold L B in G. do 4 eexists. split; [exact G|]. clear G D. rewrite <- rad_radians.
  pose proof (turned L B (radians lon) (radians lat)) as T. cbv zeta in T. fold (ux L B (radians lon) (radians lat)) in T. fold (uy L B (radians lon) (radians lat)) in T. fold (uz L B (radians lon) (radians lat)) in T.
  set (P := ux L B (radians lon) (radians lat)) in *. set (Q := uy L B (radians lon) (radians lat)) in *. set (u := uz L B (radians lon) (radians lat)) in *.
  set (c := cos (radians lat)) in *. set (Pl := c * cos (radians lon - L)) in *. set (Pf := - (sin (radians lat) * sin (radians lon - L))) in *.
  set (Ql := sin B * c * sin (radians lon - L)) in *. set (Qf := cos B * c + sin B * sin (radians lat) * cos (radians lon - L)) in *.
  set (ul := - (cos B * c * sin (radians lon - L))) in *. set (uf := sin B * c - cos B * sin (radians lat) * cos (radians lon - L)) in *.
  clearbody P Q u c Pl Pf Ql Qf ul uf. destruct T as (T1 & T2 & T3 & T4 & T5 & T6 & T7 & T8).
  set (g := 2 / (1 + u)) in *. assert (N : 1 + u <> 0) by lra.
  split; [apply metric_shape|].
  - replace (r * (- g / (1 + u) * ul * P + g * Pl) * (r * (- g / (1 + u) * ul * P + g * Pl)) + r * (- g / (1 + u) * ul * Q + g * Ql) * (r * (- g / (1 + u) * ul * Q + g * Ql)))
      with (r * r * (g * g) * ((ul * ul * (P * P + Q * Q) - 2 * (1 + u) * ul * (P * Pl + Q * Ql)) / ((1 + u) * (1 + u)) + (Pl * Pl + Ql * Ql))) by (field; lra).
    rewrite T1, T2, T5. field. lra.
  - replace (r * (- g / (1 + u) * uf * P + g * Pf) * (r * (- g / (1 + u) * uf * P + g * Pf)) + r * (- g / (1 + u) * uf * Q + g * Qf) * (r * (- g / (1 + u) * uf * Q + g * Qf)))
      with (r * r * (g * g) * ((uf * uf * (P * P + Q * Q) - 2 * (1 + u) * uf * (P * Pf + Q * Qf)) / ((1 + u) * (1 + u)) + (Pf * Pf + Qf * Qf))) by (field; lra).
    rewrite T1, T3, T6. field. lra.
  - replace (r * (- g / (1 + u) * ul * P + g * Pl) * (r * (- g / (1 + u) * uf * P + g * Pf)) + r * (- g / (1 + u) * ul * Q + g * Ql) * (r * (- g / (1 + u) * uf * Q + g * Qf)))
      with (r * r * (g * g) * ((ul * uf * (P * P + Q * Q) - (1 + u) * (ul * (P * Pf + Q * Qf) + uf * (P * Pl + Q * Ql))) / ((1 + u) * (1 + u)) + (Pl * Pf + Ql * Qf))) by (field; lra).
    rewrite T1, T4, T5, T6. field. lra.
  - replace (r * (- g / (1 + u) * ul * P + g * Pl) * (r * (- g / (1 + u) * uf * Q + g * Qf)) - r * (- g / (1 + u) * uf * P + g * Pf) * (r * (- g / (1 + u) * ul * Q + g * Ql)))
      with (r * r * (g * g) * ((Pl * Qf - Pf * Ql) - (P * (ul * Qf - uf * Ql) + Q * (Pl * uf - Pf * ul)) / (1 + u))) by (field; lra).
    rewrite T7, T8. field. lra.
Qed.

Lemma equalarea_form l0 b0 r lon lat : let L := radians l0 in let B := radians b0 in let p := proj_new (Some (l0, b0)) (Some r) in
  -1 < uz L B (radians lon) (radians lat) ->
  equalarea_geo2rect p lon lat = Ok (r * sqrt (2 / (1 + uz L B (radians lon) (radians lat))) * ux L B (radians lon) (radians lat), r * sqrt (2 / (1 + uz L B (radians lon) (radians lat))) * uy L B (radians lon) (radians lat)).
Proof.
  intros L B p H. unfold equalarea_geo2rect. change (azimuthal_cos p (radians lon) (radians lat)) with (uz L B (radians lon) (radians lat)).
  rewrite ndivE_R by lra. cbn [bind]. rewrite math_sqrt_ok by (left; apply Rdiv_lt_0_compat; lra). cbn [bind]. reflexivity.
Qed.
Lemma equalarea_area l0 b0 r lon lat : -1 < dot (on_sphere l0 b0) (on_sphere lon lat) ->
  same_area (equalarea_geo2rect (proj_new (Some (l0, b0)) (Some r))) lon lat r.
Proof.
  intros H. rewrite <- uz_dot in *. set (L := radians l0) in *. set (B := radians b0) in *.
  assert (Pq : 0 < 2 / (1 + uz L B (radians lon) (radians lat))) by (apply Rdiv_lt_0_compat; lra).
  assert (Pg : 0 < sqrt (2 / (1 + uz L B (radians lon) (radians lat)))) by (apply sqrt_lt_R0; exact Pq).
  assert (Sg : sqrt (2 / (1 + uz L B (radians lon) (radians lat))) * sqrt (2 / (1 + uz L B (radians lon) (radians lat))) = 2 / (1 + uz L B (radians lon) (radians lat))) by (apply sqrt_sqrt; lra).
  assert (D : derivable_pt_lim (fun u => sqrt (2 / (1 + u))) (uz L B (radians lon) (radians lat)) (- sqrt (2 / (1 + uz L B (radians lon) (radians lat))) / (2 * (1 + uz L B (radians lon) (radians lat))))).
  { eapply dl_eq; [dl; [lra|exact Pq]|]. cbv beta. unfold Rsqr.
    set (u := uz L B (radians lon) (radians lat)) in *. set (g := sqrt (2 / (1 + u))) in *.
    apply Rmult_eq_reg_r with g; [|lra]. replace (- g / (2 * (1 + u)) * g) with (- (g * g) / (2 * (1 + u))) by (field; lra). rewrite Sg. field. lra. }
  pose proof (azimuthal_growth (equalarea_geo2rect (proj_new (Some (l0, b0)) (Some r))) l0 b0 r (fun u => sqrt (2 / (1 + u))) _ lon lat H (equalarea_form l0 b0 r) D) as G.
  cbv zeta in G. fold L B in G. do 4 eexists. split; [exact G|]. clear G D. rewrite <- rad_radians.
  pose proof (turned L B (radians lon) (radians lat)) as T. cbv zeta in T. fold (ux L B (radians lon) (radians lat)) in T. fold (uy L B (radians lon) (radians lat)) in T. fold (uz L B (radians lon) (radians lat)) in T.
  set (P := ux L B (radians lon) (radians lat)) in *. set (Q := uy L B (radians lon) (radians lat)) in *. set (u := uz L B (radians lon) (radians lat)) in *.
  set (c := cos (radians lat)) in *. set (Pl := c * cos (radians lon - L)) in *. set (Pf := - (sin (radians lat) * sin (radians lon - L))) in *.
  set (Ql := sin B * c * sin (radians lon - L)) in *. set (Qf := cos B * c + sin B * sin (radians lat) * cos (radians lon - L)) in *.
  set (ul := - (cos B * c * sin (radians lon - L))) in *. set (uf := sin B * c - cos B * sin (radians lat) * cos (radians lon - L)) in *.
  set (g := sqrt (2 / (1 + u))) in *. clearbody P Q u c Pl Pf Ql Qf ul uf. destruct T as (_ & _ & _ & _ & _ & _ & T7 & T8).
  assert (N : 1 + u <> 0) by lra. clearbody g.
  replace (r * (- g / (2 * (1 + u)) * ul * P + g * Pl) * (r * (- g / (2 * (1 + u)) * uf * Q + g * Qf)) - r * (- g / (2 * (1 + u)) * uf * P + g * Pf) * (r * (- g / (2 * (1 + u)) * ul * Q + g * Ql)))
    with (r * r * (g * g) * ((Pl * Qf - Pf * Ql) - (P * (ul * Qf - uf * Ql) + Q * (Pl * uf - Pf * ul)) / (2 * (1 + u)))) by (field; lra).
  rewrite T7, T8, Sg. field. lra.
Qed.
(** * The conic *)
Lemma conic_pos k lat1 lat2 h : sin (rad lat1) + sin (rad lat2) <> 0 -> k_n k = (sin (rad lat1) + sin (rad lat2)) / 2 -> k_c k = 1 + sin (rad lat1) * sin (rad lat2) ->
  -90 < h < 90 -> 0 < k_c k - 2 * k_n k * sin (radians h).
Proof.
  intros N Kn Kc Bh. rewrite Kc, Kn. set (s1 := sin (rad lat1)) in *. set (s2 := sin (rad lat2)) in *. pose proof (sin_open _ (rad_lat_strict h Bh)) as Bs. set (s := sin (radians h)) in *.
  assert (B1 : -1 <= s1 <= 1) by apply SIN_bound. assert (B2 : -1 <= s2 <= 1) by apply SIN_bound.
  replace (1 + s1 * s2 - 2 * ((s1 + s2) / 2) * s) with (((1 - s1) * (1 - s2) * (1 + s) + (1 + s1) * (1 + s2) * (1 - s)) / 2) by field.
  assert (0 <= (1 - s1) * (1 - s2)) by nra. assert (0 <= (1 + s1) * (1 + s2)) by nra.
  assert (H1 : 0 < (1 - s1) * (1 - s2) \/ 0 < (1 + s1) * (1 + s2)).
  { destruct (Req_dec ((1 - s1) * (1 - s2)) 0) as [Z0|]; [right|left; lra]. apply Rmult_integral in Z0. destruct Z0; nra. }
  destruct H1; nra.
Qed.
Lemma conic_growth lat1 lat2 r lon lat : sin (rad lat1) + sin (rad lat2) <> 0 -> -90 < lat < 90 -> exists k w, conic_new (Some (lat1, lat2)) (Some r) = Ok k /\ 0 < w /\
  conic_scale k lon lat = Ok (cos (rad lat) / w) /\
  growth (conic_geo2rect k) lon lat (r * w * cos (k_n k * radians lon)) (r * w * sin (k_n k * radians lon))
    (- (r * (cos (rad lat) / w)) * sin (k_n k * radians lon)) (r * (cos (rad lat) / w) * cos (k_n k * radians lon)).
Proof.
  intros N B. destruct (conic_make lat1 lat2 r N) as (k & Ek & Kr & Kn & Kc). pose proof (conic_pos k lat1 lat2) as Pw.
  exists k, (sqrt (k_c k - 2 * k_n k * sin (radians lat))). pose proof (Pw lat N Kn Kc B) as P0. assert (Nn : k_n k <> 0) by (rewrite Kn; lra).
  assert (Ps : 0 < sqrt (k_c k - 2 * k_n k * sin (radians lat))) by (apply sqrt_lt_R0; exact P0). split; [exact Ek|]. split; [exact Ps|]. split.
  - unfold conic_scale. rewrite math_sqrt_ok by lra. cbn [bind]. rewrite ndivE_R by lra. rewrite rad_radians. reflexivity.
  - assert (F : forall lon h, -90 < h < 90 -> conic_geo2rect k lon h =
      Ok (r * sqrt (k_c k - 2 * k_n k * sin (radians h)) / k_n k * sin (k_n k * radians lon), k_p0 k - r * sqrt (k_c k - 2 * k_n k * sin (radians h)) / k_n k * cos (k_n k * radians lon))).
    { intros l h Bh. unfold conic_geo2rect. rewrite math_sqrt_ok by (left; apply (Pw h); assumption). cbn [bind]. rewrite ndivE_R by exact Nn. cbn [bind]. rewrite Kr. reflexivity. }
    apply (growth_of (conic_geo2rect k) lon lat (fun l f => r * sqrt (k_c k - 2 * k_n k * sin f) / k_n k * sin (k_n k * l)) (fun l f => k_p0 k - r * sqrt (k_c k - 2 * k_n k * sin f) / k_n k * cos (k_n k * l))).
    + apply always_near. intros h. apply F, B.
    + destruct (lat_room lat B) as (d & Pd & Hd). exists d. split; [exact Pd|]. intros h Lh. apply F, Hd, Lh.
    + eapply dl_eq; [dl|]. cbv beta. field. exact Nn.
    + eapply dl_eq; [dl|]. cbv beta. field. exact Nn.
    + eapply dl_eq; [dl; first [exact P0|exact Nn]|]. cbv beta. unfold Rsqr. rewrite <- rad_radians. field. split; [lra|exact Nn].
    + eapply dl_eq; [dl; first [exact P0|exact Nn]|]. cbv beta. unfold Rsqr. rewrite <- rad_radians. field. split; [lra|exact Nn].
Qed.
Lemma conic_area lat1 lat2 r lon lat : sin (rad lat1) + sin (rad lat2) <> 0 -> -90 < lat < 90 -> exists k m, conic_new (Some (lat1, lat2)) (Some r) = Ok k /\
  conic_scale k lon lat = Ok m /\ m <> 0 /\ same_area (conic_geo2rect k) lon lat r /\ scales (conic_geo2rect k) lon lat (r / m) (r * m).
Proof.
  intros N B. destruct (conic_growth lat1 lat2 r lon lat N B) as (k & w & Ek & Pw & Es & G). exists k, (cos (rad lat) / w).
  pose proof (cos_pos_strict lat B) as C. rewrite rad_radians in C. assert (Pm : 0 < cos (rad lat) / w) by (apply Rdiv_lt_0_compat; lra).
  assert (T : sin (k_n k * radians lon) * sin (k_n k * radians lon) = 1 - cos (k_n k * radians lon) * cos (k_n k * radians lon)) by (pose proof (sc (k_n k * radians lon)); lra).
  set (st := sin (k_n k * radians lon)) in *. set (ct := cos (k_n k * radians lon)) in *. clearbody st ct. set (c := cos (rad lat)) in *.
  split; [exact Ek|]. split; [exact Es|]. split; [lra|]. split; do 4 eexists; (split; [exact G|]).
  - fold c. replace (r * w * ct * (r * (c / w) * ct) - - (r * (c / w)) * st * (r * w * st)) with (r * r * c * (ct * ct + st * st)) by (field; lra). rewrite T. ring.
  - fold c. repeat split.
    + replace (r * w * ct * (r * w * ct) + r * w * st * (r * w * st)) with (r * w * (r * w) * (ct * ct + st * st)) by ring. rewrite T. field. lra.
    + replace (- (r * (c / w)) * st * (- (r * (c / w)) * st) + r * (c / w) * ct * (r * (c / w) * ct)) with (r * (c / w) * (r * (c / w)) * (ct * ct + st * st)) by ring. rewrite T. ring.
    + ring.
Qed.
(** * The Mercator projections *)
Lemma mercator_shape l0 b0 r lon lat : -90 < lat < 90 -> cos (rad (lon - l0)) <> -1 -> let p := proj_new (Some (l0, b0)) (Some r) in exists k,
  mercator_scale p lon lat = Ok k /\ same_shape (mercator_geo2rect p) lon lat r r k.
Proof.
  intros B N p. pose proof (cos_pos_strict lat B) as C. rewrite <- rad_radians, rad_minus in N. unfold mercator_scale. rewrite ndivE_R by lra. eexists. split; [reflexivity|].
  assert (F : forall l h, -90 < h < 90 -> mercator_geo2rect p l h = Ok (r * corangle (radians l - radians l0), r * iso (radians h))).
  { intros l h Bh. destruct (mercator_forward l0 b0 r l h Bh) as (x & y & E & -> & ->). fold p in E. rewrite E, iso_log by (apply rad_lat_strict; exact Bh). reflexivity. }
  exists r, 0, 0, (r * / cos (radians lat)). split; [|split].
  - apply (growth_of (mercator_geo2rect p) lon lat (fun l _ => r * corangle (l - radians l0)) (fun _ f => r * iso f)).
    + apply always_near. intros h. apply F, B.
    + destruct (lat_room lat B) as (d & Pd & Hd). exists d. split; [exact Pd|]. intros h Lh. apply F, Hd, Lh.
    + eapply dl_eq; [eapply dl_mult; [apply dl_const|eapply dl_corangle; [dl|apply corangle_open, N]]|]. cbv beta. ring.
    + apply dl_const.
    + apply dl_const.
    + eapply dl_eq; [eapply dl_mult; [apply dl_const|apply iso_lim, rad_lat_strict, B]|]. cbv beta. ring.
  - rewrite <- rad_radians. apply metric_shape; field; lra.
  - rewrite <- rad_radians. field. lra.
Qed.
Lemma emercator_shape l0 b0 ell lon lat : 0 < el_a ell -> 0 <= el_e ell < 1 -> -90 < lat < 90 -> cos (rad (lon - l0)) <> -1 ->
  let p := eproj_new (Some (l0, b0)) (Some ell) in exists k, emercator_scale p lon lat = Ok k /\
  same_shape (emercator_geo2rect p) lon lat (along_meridian (el_a ell) (el_e ell) lat) (across_meridian (el_a ell) (el_e ell) lat) k.
Proof.
  intros A E B N p. set (a := el_a ell) in *. set (e := el_e ell) in *. pose proof (cos_pos_strict lat B) as C. pose proof (rad_lat_strict lat B) as Bf. rewrite <- rad_radians, rad_minus in N.
  unfold along_meridian, across_meridian. rewrite <- !rad_radians. unfold emercator_scale. change (e_ell p) with ell. fold e. pose proof (e_sin e (radians lat) E) as Es.
  set (w := 1 - e * e * sin (radians lat) * sin (radians lat)). assert (Pw : 0 < w) by (unfold w; nra). rewrite math_sqrt_ok by lra. cbn [bind]. rewrite ndivE_R by lra.
  assert (Ps : 0 < sqrt w) by (apply sqrt_lt_R0; exact Pw). assert (Qs : sqrt w * sqrt w = w) by (apply sqrt_sqrt; lra). eexists. split; [reflexivity|].
  assert (Cc : cos (radians lat) * cos (radians lat) = 1 - sin (radians lat) * sin (radians lat)) by (pose proof (sc (radians lat)); lra).
  exists a, 0, 0, (a * (1 - e * e) / (w * cos (radians lat))). split; [|split].
  - apply (growth_of (emercator_geo2rect p) lon lat (fun l _ => a * corangle (l - radians l0)) (fun _ f => a * (iso f - e * artanh (e * sin f)))).
    + apply always_near. intros h. unfold p. rewrite eforward by assumption. reflexivity.
    + destruct (lat_room lat B) as (d & Pd & Hd). exists d. split; [exact Pd|]. intros h Lh. unfold p. rewrite eforward by (try apply Hd; assumption). reflexivity.
    + eapply dl_eq; [eapply dl_mult; [apply dl_const|eapply dl_corangle; [dl|apply corangle_open, N]]|]. cbv beta. ring.
    + apply dl_const.
    + apply dl_const.
    + eapply dl_eq; [eapply dl_mult; [apply dl_const|eapply dl_minus; [apply iso_lim, Bf|dl; exact Es]]|]. cbv beta.
      replace (1 - e * sin (radians lat) * (e * sin (radians lat))) with w by (unfold w; ring). replace (1 - e * e) with (w - e * e * (cos (radians lat) * cos (radians lat))) by (rewrite Cc; unfold w; ring). field. lra.
  - rewrite <- rad_radians. set (s := sqrt w) in *. rewrite <- Qs. apply metric_shape; field; lra.
  - rewrite <- rad_radians. set (s := sqrt w) in *. rewrite <- Qs. field. lra.
Qed.
(** The sphere turned so that the pole of the oblique map is on the third axis *)
Definition oa (L B l f : R) : R := sin B * sin f - cos B * cos f * sin (l - L).
Definition ov (L B l f : R) : R := sin f * cos B + sin B * cos f * sin (l - L).
Definition oh (L B l f : R) : R := cos f * cos (l - L).
Definition oal (L B l f : R) : R := - (cos B * cos f * cos (l - L)).
Definition oaf (L B l f : R) : R := sin B * cos f + cos B * sin f * sin (l - L).
Lemma oblique L B l f : let c := cos f in
  ov L B l f * ov L B l f + oh L B l f * oh L B l f = 1 - oa L B l f * oa L B l f /\
  oal L B l f * oal L B l f + c * c * (oaf L B l f * oaf L B l f) = c * c * (1 - oa L B l f * oa L B l f) /\
  (sin B * c * cos (l - L)) * oh L B l f - ov L B l f * - (c * sin (l - L)) = c * oaf L B l f /\
  c * ((cos f * cos B - sin B * sin f * sin (l - L)) * oh L B l f - ov L B l f * - (sin f * cos (l - L))) = - oal L B l f.
Proof.
  cbv zeta. unfold oa, ov, oh, oal, oaf. assert (H1 : sin f * sin f = 1 - cos f * cos f) by (pose proof (sc f); lra).
  assert (H2 : sin (l - L) * sin (l - L) = 1 - cos (l - L) * cos (l - L)) by (pose proof (sc (l - L)); lra).
  assert (H3 : sin B * sin B = 1 - cos B * cos B) by (pose proof (sc B); lra).
  set (s := sin f) in *. set (c := cos f) in *. set (S := sin (l - L)) in *. set (C := cos (l - L)) in *. set (s0 := sin B) in *. set (c0 := cos B) in *. clearbody s c S C s0 c0.
  repeat split; ring [H1 H2 H3].
Qed.
Lemma oblique_open L B l f : oh L B l f <> 0 -> -1 < oa L B l f < 1.
Proof. intros N. destruct (oblique L B l f) as (E & _). assert (0 < oh L B l f * oh L B l f) by (apply Rsqr_pos_lt in N; exact N). split; nra. Qed.
Lemma oblique_lims L B l f : oh L B l f <> 0 -> cos f <> 0 -> let q := 1 - oa L B l f * oa L B l f in
  derivable_pt_lim (fun t => atan (ov L B t f / oh L B t f)) l (cos f * oaf L B l f / q) /\
  derivable_pt_lim (fun t => atan (ov L B l t / oh L B l t)) f (- oal L B l f / (cos f * q)) /\
  derivable_pt_lim (fun t => artanh (oa L B t f)) l (oal L B l f / q) /\
  derivable_pt_lim (fun t => artanh (oa L B l t)) f (oaf L B l f / q).
Proof.
  intros N Nc q. pose proof (oblique_open L B l f N) as Ba. destruct (oblique L B l f) as (E1 & _ & E3 & E4). assert (Pq : 0 < q) by (unfold q; nra). fold q in E1. repeat split.
  - rewrite <- E3. eapply dl_eq; [eapply dl_atan, dl_div; [unfold ov; dl|unfold oh; dl|exact N]|]. cbv beta. unfold Rsqr. rewrite <- E1. unfold ov, oh in *. field. repeat split; try (intro Z; rewrite Z in *; lra). all: rewrite E1; lra.
  - replace (- oal L B l f / (cos f * q)) with ((cos f * ((cos f * cos B - sin B * sin f * sin (l - L)) * oh L B l f - ov L B l f * - (sin f * cos (l - L)))) / (cos f * q)) by (rewrite E4; reflexivity).
    eapply dl_eq; [eapply dl_atan, dl_div; [unfold ov; dl|unfold oh; dl|exact N]|]. cbv beta. unfold Rsqr. rewrite <- E1. unfold ov, oh in *. field. repeat split; try (intro Z; rewrite Z in *; lra). all: rewrite E1; lra.
  - eapply dl_eq; [eapply dl_artanh; [unfold oa; dl|exact Ba]|]. cbv beta. fold q. unfold oal. field. lra.
  - eapply dl_eq; [eapply dl_artanh; [unfold oa; dl|exact Ba]|]. cbv beta. fold q. unfold oaf. field. lra.
Qed.
Lemma oblique_metric L B l f r q c : c <> 0 -> q = 1 - oa L B l f * oa L B l f -> 0 < q -> c = cos f -> 
  let xl := r * (c * oaf L B l f / q) in let yl := r * (oal L B l f / q) in let xp := r * (- oal L B l f / (c * q)) in let yp := r * (oaf L B l f / q) in
  (forall u v, (xl * u + xp * v) * (xl * u + xp * v) + (yl * u + yp * v) * (yl * u + yp * v) = 1 / sqrt q * (1 / sqrt q) * ((r * c * u) * (r * c * u) + r * v * (r * v))) /\
  xl * yp - xp * yl = 1 / sqrt q * (1 / sqrt q) * (r * r * c).
Proof.
  intros Nc Eq Pq Ec xl yl xp yp. destruct (oblique L B l f) as (_ & E & _). rewrite <- Ec, <- Eq in E.
  assert (K : 1 / sqrt q * (1 / sqrt q) = / q). { assert (0 < sqrt q) by (apply sqrt_lt_R0; exact Pq). replace (1 / sqrt q * (1 / sqrt q)) with (/ (sqrt q * sqrt q)) by (field; lra). rewrite sqrt_sqrt by lra. reflexivity. }
  set (al := oal L B l f) in *. set (af := oaf L B l f) in *. split.
  - apply metric_shape; unfold xl, yl, xp, yp; rewrite ?K.
    + replace (r * (c * af / q) * (r * (c * af / q)) + r * (al / q) * (r * (al / q))) with (r * r * (al * al + c * c * (af * af)) / (q * q)) by (field; lra). rewrite E. field. lra.
    + replace (r * (- al / (c * q)) * (r * (- al / (c * q))) + r * (af / q) * (r * (af / q))) with (r * r * (al * al + c * c * (af * af)) / (q * q * (c * c))) by (field; lra). rewrite E. field. lra.
    + field. lra.
  - unfold xl, yl, xp, yp. rewrite K. replace (r * (c * af / q) * (r * (af / q)) - r * (- al / (c * q)) * (r * (al / q))) with (r * r * (al * al + c * c * (af * af)) / (q * q * c)) by (field; lra). rewrite E. field. lra.
Qed.
Lemma oh_near_l L B lon lat : oh L B (radians lon) (radians lat) <> 0 -> exists d, 0 < d /\ forall h, Rabs (h - lon) < d -> oh L B (radians h) (radians lat) <> 0.
Proof.
  intros N. destruct (near_rad (fun t => oh L B t (radians lat) * oh L B t (radians lat)) lon _ 0 ltac:(unfold oh; dl)) as (d & Pd & H).
  - apply Rsqr_pos_lt in N. exact N.
  - exists d. split; [exact Pd|]. intros h Lh Z. specialize (H h Lh). cbv beta in H. rewrite Z in H. lra.
Qed.
Lemma oh_near_f L B lon lat : oh L B (radians lon) (radians lat) <> 0 -> exists d, 0 < d /\ forall h, Rabs (h - lat) < d -> oh L B (radians lon) (radians h) <> 0.
Proof.
  intros N. destruct (near_rad (fun t => oh L B (radians lon) t * oh L B (radians lon) t) lat _ 0 ltac:(unfold oh; dl)) as (d & Pd & H).
  - apply Rsqr_pos_lt in N. exact N.
  - exists d. split; [exact Pd|]. intros h Lh Z. specialize (H h Lh). cbv beta in H. rewrite Z in H. lra.
Qed.
Lemma oh_cos L B l f : oh L B l f <> 0 -> cos f <> 0 /\ cos (l - L) <> 0.
Proof. unfold oh. intros N. split; intros Z; apply N; rewrite Z; ring. Qed.
Lemma omercator_form l0 b0 r lon lat : oh (radians l0) (radians b0) (radians lon) (radians lat) <> 0 -> omercator_geo2rect (proj_new (Some (l0, b0)) (Some r)) lon lat =
  Ok (r * atan (ov (radians l0) (radians b0) (radians lon) (radians lat) / oh (radians l0) (radians b0) (radians lon) (radians lat)), r * artanh (oa (radians l0) (radians b0) (radians lon) (radians lat))).
Proof.
  intros N. pose proof (oblique_open _ _ _ _ N) as Ba. destruct (oh_cos _ _ _ _ N) as (Nf & Nl). unfold omercator_geo2rect. rewrite new_lon0, new_lat0. cbv zeta. rewrite ndivE_R by exact Nl. cbn [bind].
  fold (oa (radians l0) (radians b0) (radians lon) (radians lat)). rewrite math_atanh_ok by exact Ba. cbn [bind]. fold (artanh (oa (radians l0) (radians b0) (radians lon) (radians lat))).
  do 2 f_equal. change (p_r (proj_new (Some (l0, b0)) (Some r))) with r. do 2 f_equal. unfold ov, oh, tan. field. split; assumption.
Qed.
Lemma omercator_shape l0 b0 r lon lat : -90 < lat < 90 -> cos (rad (lon - l0)) <> 0 -> let p := proj_new (Some (l0, b0)) (Some r) in exists k,
  omercator_scale p lon lat = Ok k /\ same_shape (omercator_geo2rect p) lon lat r r k.
Proof.
  intros Bl N p. rewrite <- rad_radians, rad_minus in N. pose proof (cos_pos_strict lat Bl) as Pc. set (L := radians l0) in *. set (B := radians b0).
  assert (Nh : oh L B (radians lon) (radians lat) <> 0) by (unfold oh; apply Rmult_integral_contrapositive; split; lra).
  pose proof (oblique_open _ _ _ _ Nh) as Ba. set (q := 1 - oa L B (radians lon) (radians lat) * oa L B (radians lon) (radians lat)) in *. assert (Pq : 0 < q) by (unfold q; nra).
  unfold omercator_scale. change (sin (p_lat0 p) * sin (radians lat) - cos (p_lat0 p) * cos (radians lat) * sin (radians lon - p_lon0 p)) with (oa L B (radians lon) (radians lat)).
  cbv zeta. fold q. rewrite math_sqrt_ok by lra. cbn [bind]. assert (0 < sqrt q) by (apply sqrt_lt_R0; exact Pq). rewrite ndivE_R by lra. eexists. split; [reflexivity|].
  destruct (oblique_lims L B (radians lon) (radians lat) Nh ltac:(lra)) as (D1 & D2 & D3 & D4). fold q in D1, D2, D3, D4.
  do 4 eexists. split; [|rewrite <- rad_radians; apply (oblique_metric L B (radians lon) (radians lat) r q (cos (radians lat))); [lra|reflexivity|exact Pq|reflexivity]].
  apply (growth_of (omercator_geo2rect p) lon lat (fun l f => r * atan (ov L B l f / oh L B l f)) (fun l f => r * artanh (oa L B l f))).
  - destruct (oh_near_l L B lon lat Nh) as (d & Pd & H1). exists d. split; [exact Pd|]. intros h Lh. apply omercator_form, H1, Lh.
  - destruct (oh_near_f L B lon lat Nh) as (d & Pd & H1). exists d. split; [exact Pd|]. intros h Lh. apply omercator_form, H1, Lh.
  - eapply dl_eq; [eapply dl_mult; [apply dl_const|exact D1]|]. cbv beta. ring.
  - eapply dl_eq; [eapply dl_mult; [apply dl_const|exact D3]|]. cbv beta. ring.
  - eapply dl_eq; [eapply dl_mult; [apply dl_const|exact D2]|]. cbv beta. ring.
  - eapply dl_eq; [eapply dl_mult; [apply dl_const|exact D4]|]. cbv beta. ring.
Qed.
(** The transverse map is the oblique one, turned a quarter. *)
Lemma oa_0 L l f : oa L 0 l f = - (cos f * sin (l - L)).
Proof. unfold oa. rewrite sin_0, cos_0. ring. Qed.
Lemma atan2_half f D : cos f <> 0 -> cos D <> 0 -> same_turn (atan2 (tan f) (cos D)) (atan (ov 0 0 D f / oh 0 0 D f) + (if Rlt_bool 0 (cos D) then 0 else PI)).
Proof.
  intros Nf N. unfold ov, oh. rewrite Rminus_0_r, sin_0, cos_0. replace ((sin f * 1 + 0 * cos f * sin D) / (cos f * cos D)) with (tan f / cos D) by (unfold tan; field; auto).
  unfold atan2. destruct (Rlt_bool_spec 0 (cos D)) as [P|P]; [rewrite Rplus_0_r; apply same_turn_refl|]. destruct (Rlt_bool_spec (cos D) 0) as [Q|]; [|lra].
  destruct (Rle_bool 0 (tan f)); [apply same_turn_refl|]. exists (-1)%Z. ring.
Qed.
Lemma artanh_odd x : -1 < x < 1 -> artanh (- x) = - artanh x.
Proof.
  intros B. unfold artanh. replace ((1 + - x) / (1 - - x)) with (/ ((1 + x) / (1 - x))) by (field; lra). rewrite ln_Rinv by (apply Rdiv_lt_0_compat; lra). field.
Qed.
Lemma tmercator_form l0 b0 r lon lat u : oh (radians l0) 0 (radians lon) (radians lat) <> 0 -> 
  u = atan (ov (radians l0) 0 (radians lon) (radians lat) / oh (radians l0) 0 (radians lon) (radians lat)) + (if Rlt_bool 0 (cos (radians lon - radians l0)) then 0 else PI) - radians b0 ->
  exists v, same_turn v u /\ tmercator_geo2rect (proj_new (Some (l0, b0)) (Some r)) lon lat = Ok (r * - artanh (oa (radians l0) 0 (radians lon) (radians lat)), r * corangle v).
Proof.
  intros N ->. pose proof (oblique_open _ _ _ _ N) as Ba. destruct (oh_cos _ _ _ _ N) as (Nf & Nl). unfold tmercator_geo2rect. rewrite new_lon0, new_lat0. cbv zeta. rewrite oa_0 in *.
  set (b := cos (radians lat) * sin (radians lon - radians l0)) in *. destruct (Req_bool_spec b (-1)); [lra|]. destruct (Req_bool_spec b 1); [lra|]. cbn [orb].
  rewrite math_atanh_ok by lra. cbn [bind]. fold (artanh b). rewrite artanh_odd by lra. rewrite Ropp_involutive. eexists. split; [|reflexivity].
  apply same_turn_minus; [|apply same_turn_refl]. pose proof (atan2_half (radians lat) (radians lon - radians l0) Nf Nl) as T. unfold ov, oh in *. rewrite Rminus_0_r in T. exact T.
Qed.
Lemma tmercator_shape l0 b0 r lon lat : 0 < r -> -90 < lat < 90 -> cos (rad (lon - l0)) <> 0 -> let p := proj_new (Some (l0, b0)) (Some r) in
  (forall x y, tmercator_geo2rect p lon lat = Ok (x, y) -> - (r * PI) < y < r * PI) -> exists k,
  tmercator_scale p lon lat = Ok k /\ same_shape (tmercator_geo2rect p) lon lat r r k.
Proof.
  intros Pr Bl N p Cut. rewrite <- rad_radians, rad_minus in N. pose proof (cos_pos_strict lat Bl) as Pc. set (L := radians l0) in *.
  assert (Nh : oh L 0 (radians lon) (radians lat) <> 0) by (unfold oh; apply Rmult_integral_contrapositive; split; lra).
  pose proof (oblique_open _ _ _ _ Nh) as Ba. set (q := 1 - oa L 0 (radians lon) (radians lat) * oa L 0 (radians lon) (radians lat)) in *. assert (Pq : 0 < q) by (unfold q; nra).
  unfold tmercator_scale. cbv zeta. change (p_lon0 p) with L. replace (1 - cos (radians lat) * sin (radians lon - L) * (cos (radians lat) * sin (radians lon - L))) with q by (unfold q; rewrite oa_0; ring).
  rewrite math_sqrt_ok by lra. cbn [bind]. assert (0 < sqrt q) by (apply sqrt_lt_R0; exact Pq). rewrite ndivE_R by lra. eexists. split; [reflexivity|].
  destruct (oblique_lims L 0 (radians lon) (radians lat) Nh ltac:(lra)) as (D1 & D2 & D3 & D4). fold q in D1, D2, D3, D4.
  set (kap := if Rlt_bool 0 (cos (radians lon - L)) then 0 else PI).
  set (U := fun l f => atan (ov L 0 l f / oh L 0 l f) + kap - radians b0).
  assert (U1 : derivable_pt_lim (fun t => U t (radians lat)) (radians lon) (cos (radians lat) * oaf L 0 (radians lon) (radians lat) / q)).
  { unfold U. eapply dl_eq; [eapply dl_minus; [eapply dl_plus; [exact D1|apply dl_const]|apply dl_const]|]. ring. }
  assert (U2 : derivable_pt_lim (fun t => U (radians lon) t) (radians lat) (- oal L 0 (radians lon) (radians lat) / (cos (radians lat) * q))).
  { unfold U. eapply dl_eq; [eapply dl_minus; [eapply dl_plus; [exact D2|apply dl_const]|apply dl_const]|]. ring. }
  assert (In : - PI < corangle (U (radians lon) (radians lat)) < PI).
  { destruct (tmercator_form l0 b0 r lon lat _ Nh eq_refl) as (v & T & E). fold L kap in T. fold (U (radians lon) (radians lat)) in T. specialize (Cut _ _ E).
    assert (Bv : - PI < corangle v < PI) by (split; nra). rewrite (corangle_same v _ T Bv). exact Bv. }
  set (I := fun l f => r * corangle (U l f)).
  assert (C1 : derivable_pt_lim (fun t => corangle (U t (radians lat))) (radians lon) (cos (radians lat) * oaf L 0 (radians lon) (radians lat) / q)) by (apply (dl_corangle (fun t => U t (radians lat))); assumption).
  assert (C2 : derivable_pt_lim (fun t => corangle (U (radians lon) t)) (radians lat) (- oal L 0 (radians lon) (radians lat) / (cos (radians lat) * q))) by (apply (dl_corangle (fun t => U (radians lon) t)); assumption).
  assert (F : forall lon' lat', oh L 0 (radians lon') (radians lat') <> 0 -> (if Rlt_bool 0 (cos (radians lon' - L)) then 0 else PI) = kap -> - PI < corangle (U (radians lon') (radians lat')) < PI ->
    tmercator_geo2rect p lon' lat' = Ok (r * - artanh (oa L 0 (radians lon') (radians lat')), r * corangle (U (radians lon') (radians lat')))).
  { intros l f Nh' Ek In'. destruct (tmercator_form l0 b0 r l f _ Nh' eq_refl) as (v & T & E). fold L in T. rewrite Ek in T. fold (U (radians l) (radians f)) in T. unfold p. rewrite E.
    rewrite (corangle_same _ _ (same_turn_sym _ _ T) In'). reflexivity. }
  assert (Open : forall g x l, derivable_pt_lim g (radians x) l -> - PI < g (radians x) < PI -> exists d, 0 < d /\ forall h, Rabs (h - x) < d -> - PI < g (radians h) < PI).
  { intros g x l D Bg. destruct (near_rad g x l (- PI) D ltac:(lra)) as (a & Pa & Ha). destruct (near_rad (fun t => - g t) x (- l) (- PI)) as (b & Pb & Hb); [|lra|].
    - apply (derivable_pt_lim_opp g), D.
    - exists (Rmin a b). split; [apply Rmin_pos; assumption|]. intros h Lh. specialize (Ha h ltac:(eapply Rlt_le_trans; [exact Lh|apply Rmin_l])). specialize (Hb h ltac:(eapply Rlt_le_trans; [exact Lh|apply Rmin_r])). cbv beta in Hb. lra. }
  destruct (oblique_metric L 0 (radians lon) (radians lat) r q (cos (radians lat)) ltac:(lra) eq_refl Pq eq_refl) as (M1 & M2).
  exists (r * - (oal L 0 (radians lon) (radians lat) / q)), (r * (cos (radians lat) * oaf L 0 (radians lon) (radians lat) / q)),
    (r * - (oaf L 0 (radians lon) (radians lat) / q)), (r * (- oal L 0 (radians lon) (radians lat) / (cos (radians lat) * q))).
  split; [|split].
  - apply (growth_of (tmercator_geo2rect p) lon lat (fun l f => r * - artanh (oa L 0 l f)) (fun l f => r * corangle (U l f))).
    + destruct (oh_near_l L 0 lon lat Nh) as (d1 & P1 & H1). destruct (Open _ _ _ C1 In) as (d2 & P2 & H2).
      destruct (near_rad (fun t => cos (t - L) * cos (radians lon - L)) lon _ 0 ltac:(dl)) as (d3 & P3 & H3); [apply Rsqr_pos_lt in N; exact N|].
      exists (Rmin d1 (Rmin d2 d3)). split; [repeat apply Rmin_pos; assumption|]. intros h Lh.
      assert (L1 : Rabs (h - lon) < d1) by (eapply Rlt_le_trans; [exact Lh|apply Rmin_l]). assert (L23 : Rabs (h - lon) < Rmin d2 d3) by (eapply Rlt_le_trans; [exact Lh|apply Rmin_r]).
      assert (L2 : Rabs (h - lon) < d2) by (eapply Rlt_le_trans; [exact L23|apply Rmin_l]). assert (L3 : Rabs (h - lon) < d3) by (eapply Rlt_le_trans; [exact L23|apply Rmin_r]).
      apply F; [apply H1, L1| |apply H2, L2]. specialize (H3 h L3). cbv beta in H3. unfold kap.
      destruct (Rlt_bool_spec 0 (cos (radians h - L))), (Rlt_bool_spec 0 (cos (radians lon - L))); try reflexivity; nra.
    + destruct (oh_near_f L 0 lon lat Nh) as (d1 & P1 & H1). destruct (Open _ _ _ C2 In) as (d2 & P2 & H2).
      exists (Rmin d1 d2). split; [apply Rmin_pos; assumption|]. intros h Lh.
      apply F; [apply H1; eapply Rlt_le_trans; [exact Lh|apply Rmin_l]|reflexivity|apply H2; eapply Rlt_le_trans; [exact Lh|apply Rmin_r]].
    + eapply dl_eq; [eapply dl_mult; [apply dl_const|apply derivable_pt_lim_opp, D3]|]. cbv beta. ring.
    + eapply dl_eq; [eapply dl_mult; [apply dl_const|exact C1]|]. cbv beta. ring.
    + eapply dl_eq; [eapply dl_mult; [apply dl_const|apply derivable_pt_lim_opp, D4]|]. cbv beta. ring.
    + eapply dl_eq; [eapply dl_mult; [apply dl_const|exact C2]|]. cbv beta. ring.
  - rewrite <- rad_radians. intros u v. rewrite <- M1. ring.
  - rewrite <- rad_radians. rewrite <- M2. ring.
Qed.
(** * Cases *)
Lemma map_case : -90 < 45 < 90 /\ cos (rad (60 - 0)) <> -1 /\ cos (rad (60 - 0)) <> 0 /\ -1 < dot (on_sphere 0 0) (on_sphere 60 45) /\ sin (rad 30) + sin (rad 60) <> 0 /\
  (forall x y, tmercator_geo2rect (proj_new (Some (0, 0)) (Some 6371)) 60 45 = Ok (x, y) -> - (6371 * PI) < y < 6371 * PI).
Proof.
  assert (C : cos (rad (60 - 0)) = / 2) by (rewrite Rminus_0_r; unfold rad; replace (60 * PI / 180) with (PI / 3) by field; rewrite cos_PI3; field).
  pose proof (cos_pos_strict 45 ltac:(lra)) as C45. pose proof PI_RGT_0 as PP. split; [lra|]. split; [lra|]. split; [lra|]. split; [|split].
  - unfold dot, on_sphere. rewrite Rminus_0_r in C. rewrite C. rewrite rad_radians in C45. replace (rad 0) with 0 by (unfold rad; field). rewrite sin_0, cos_0. lra.
  - unfold rad. replace (30 * PI / 180) with (PI / 6) by field. replace (60 * PI / 180) with (PI / 3) by field. rewrite sin_PI6, sin_PI3. pose proof (sqrt_lt_R0 3). lra.
  - intros x y E. rewrite <- rad_radians, rad_minus in C. unfold tmercator_geo2rect in E. rewrite new_lon0, new_lat0 in E. cbv zeta in E. rewrite C in E.
    destruct (Req_bool (cos (radians 45) * sin (radians 60 - radians 0)) (-1) || Req_bool (cos (radians 45) * sin (radians 60 - radians 0)) 1); [discriminate|].
    destruct (math_atanh _) as [t|]; [|discriminate]. cbn [bind] in E. injection E as _ <-. unfold atan2. destruct (Rlt_bool_spec 0 (/ 2)) as [_|]; [|lra].
    replace (radians 0) with 0 by (unfold radians; ring). rewrite Rminus_0_r. pose proof (atan_bound (tan (radians 45) / / 2)) as Ab.
    destruct (corangle_spec (atan (tan (radians 45) / / 2))) as (_ & _ & ->); [lra|]. split; nra.
Qed.
