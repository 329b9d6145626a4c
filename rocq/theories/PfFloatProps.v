(** P files in double arithmetic: C118. *)
From Coq Require Import ZArith Reals Lia Lra SpecFloat.
From Flocq Require Import Core IEEE754.BinarySingleNaN.
From Verif Require Import Num FloatLib PfModel PfProofs PfSpec PfHist PfFinal PfAccept PfFloatSpec PfFloatEnds PfFloatBack PfFloatAccept.
Open Scope Z_scope.

(** ** C118 *)
Theorem C118_accepted f (w : pwriter) name polys parts :
  reached f64 w -> w_size w <> 8 -> Forall (Forall in_worldR) polys -> Forall2 ring64 polys parts -> parts <> [] -> Forall spread64 parts ->
  exists w' a1 a2 c1 c2, pf_write (S f) w name polys = Some (w', Ok tt) /\
    w_bboxes w' = w_bboxes w ++ [(a1, a2, c1, c2)] /\
    tight_gridR gridR_lon (/ 2 ^ 40) (map fst (concat parts)) a1 a2 /\ tight_gridR gridR_lat (/ 2 ^ 40) (map snd (concat parts)) c1 c2 /\
    0 <= a1 < a2 /\ a2 <= 65535 /\ 0 <= c1 < c2 /\ c2 <= 65535.
Proof. intros R. exact (write_accepts64 f w name polys parts (proj1 (reached_consistent w R))). Qed.
Theorem C118_round_trip size w0 fuel (l : list (list Z * list (list (f64 * f64)))) w :
  pf_new size = Ok w0 -> size <> 8 -> write_all fuel w0 l = Some w ->
  Forall (fun x => Forall (fun c => 0 < c < 128) (fst x)) l -> Forall (fun x => Forall (Forall plain_point) (snd x)) l ->
  exists file, pf_close w = Ok file /\
  forall fuel', (forall x, In x l -> (length (fst x) < fuel')%nat) ->
  exists rd, pf_open fuel' file = Some (Ok rd) /\ r_names rd = map fst l /\ pf_len rd = Z.of_nat (length l) /\
    forall i name polys, nth_error l i = Some (name, polys) ->
      exists x0 x1 y0 y1 out, nth_error (r_bboxes rd) i = Some (x0, x1, y0, y1) /\
        pf_read rd (Z.of_nat i) = Ok out /\ pf_read rd (Z.of_nat i - Z.of_nat (length l)) = Ok out /\
        (~ In name (map fst (firstn i l)) -> pf_get rd name = Ok out) /\
        same_geometry64 (half_code64 size x0 x1) (half_code64 size y0 y1) polys out.
Proof. exact (round_trip64 size w0 fuel l w). Qed.
(** [write] returns exactly on points whose coordinates settle. *)
Theorem C118_ends (w : pwriter) name (polys : list (list (f64 * f64))) :
  (forall poly p, In poly polys -> In p poly -> wf64 (fst p) /\ wf64 (snd p)) ->
  ((forall poly p, In poly polys -> In p poly -> lon_settles (fst p) /\ lat_settles (snd p)) <->
   exists n, forall fuel, (n <= fuel)%nat -> exists r, pf_write fuel w name polys = Some r).
Proof. exact (write_ends64 w name polys). Qed.
Theorem C118_hangs (w : pwriter) name (polys : list (list (f64 * f64))) poly p :
  In poly polys -> In p poly -> wf64 (fst p) -> wf64 (snd p) -> ~ (lon_settles (fst p) /\ lat_settles (snd p)) ->
  forall fuel, pf_write fuel w name polys = None.
Proof. exact (write_hangs64 w name polys poly p). Qed.
Lemma vint n : Z.abs n <= 2 ^ 53 -> finite64 (fofZ n) /\ val (fofZ n) = IZR n.
Proof. intros H. apply isf_val, isf_int, H. Qed.
Definition tri (x y d : Z) : list (f64 * f64) := [(fofZ x, fofZ y); (fofZ (x + d), fofZ y); (fofZ (x + d), fofZ (y + d)); (fofZ x, fofZ y)].
Example C118_case :
  (exists w0 : pwriter, pf_new 4 = Ok w0 /\ reached f64 w0 /\ w_size w0 <> 8 /\
     Forall (Forall in_worldR) [tri 170 20 10] /\ Forall2 ring64 [tri 170 20 10] [removelast (tri 170 20 10)] /\
     Forall spread64 [removelast (tri 170 20 10)]) /\
  (exists w0 w, pf_new 2 = Ok w0 /\ write_all 3 w0 [([97], [tri 370 (-200) 5; tri 30 (-40) 7]); ([98], [tri (-190) 0 1])] = Some w /\
     Forall (Forall plain_point) [tri 370 (-200) 5]).
Proof.
  assert (V : forall n, Z.abs n <= 1000 -> finite64 (fofZ n) /\ val (fofZ n) = IZR n) by (intros; apply vint; lia).
  split.
  - eexists. split; [reflexivity|]. split; [exists 4; eexists; split; [reflexivity|constructor]|]. split; [discriminate|].
    assert (W : forall x y, Z.abs x <= 180 -> Z.abs y <= 90 -> in_worldR (fofZ x, fofZ y)).
    { intros x y Hx Hy. destruct (V x ltac:(lia)) as [Fx Vx], (V y ltac:(lia)) as [Fy Vy]. unfold in_worldR. cbn [fst snd]. rewrite Vx, Vy.
      split; [exact Fx|]. split; [exact Fy|]. split; split; apply IZR_le; lia. }
    split; [constructor; [|constructor]; repeat (apply Forall_cons; [apply W; lia|]); constructor|].
    split; [constructor; [|constructor]; left; split; [|exists (fofZ 170, fofZ 20); reflexivity]; eexists; eexists; split; [reflexivity|split; [reflexivity|split; reflexivity]]|].
    constructor; [|constructor]. assert (P : (0 < / 2 ^ 20 <= 1)%R) by (split; [apply Rinv_0_lt_compat; lra|]; rewrite <- Rinv_1; apply Rinv_le_contravar; lra).
    split; [exists (fofZ 170, fofZ 20), (fofZ 180, fofZ 20)|exists (fofZ 170, fofZ 20), (fofZ 180, fofZ 30)];
      (split; [left; reflexivity|]; split; [right; (left; reflexivity) || (right; left; reflexivity)|]); cbn [fst snd]; rewrite !(fun n H => proj2 (V n H)) by lia; lra.
  - do 2 eexists. split; [reflexivity|]. split; [vm_compute; reflexivity|].
    assert (W : forall x y, Z.abs x <= 400 -> Z.abs y <= 400 -> plain_point (fofZ x, fofZ y)).
    { intros x y Hx Hy. destruct (V x ltac:(lia)) as [Fx Vx], (V y ltac:(lia)) as [Fy Vy]. unfold plain_point. cbn [fst snd]. rewrite Vx, Vy.
      assert (Bx : (IZR (-400) <= IZR x <= IZR 400)%R) by (split; apply IZR_le; lia). assert (By : (IZR (-400) <= IZR y <= IZR 400)%R) by (split; apply IZR_le; lia).
      split; [exact Fx|]. split; [exact Fy|]. split; apply Rabs_def1; lra. }
    constructor; [|constructor]; repeat (apply Forall_cons; [apply W; lia|]); constructor.
Qed.
(** A longitude of 2^63 never comes down; 95 degrees north neither. *)
Example C118_hang : ~ lon_settles (fofZ (2 ^ 63)) /\ ~ lat_settles (fofZ 95) /\ lon_settles (fofZ (2 ^ 60)) /\ wf64 (fofZ (2 ^ 63)).
Proof.
  split; [intros [H|[_ H]]; vm_compute in H; discriminate|]. split; [intros [H|[_ H]]; vm_compute in H; discriminate|].
  split; [right; split; vm_compute; reflexivity|reflexivity].
Qed.

Print Assumptions C118_accepted.
Print Assumptions C118_round_trip.
Print Assumptions C118_ends.
Print Assumptions C118_hangs.
