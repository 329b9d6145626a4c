(** Gradients: theorems. *)
From Coq Require Import Lqa Permutation.
From Verif Require Import Num RasterModel GradientModel GradientSpec GradientProofs Text.
Open Scope Q_scope.

(** C55 *)
Theorem C55_get : forall points x, points <> [] ->
  0 <= x \/ (exists q, In q points /\ fst q <= x) -> x <= 1 \/ (exists q, In q points /\ x <= fst q) ->
  exists g c, gradient_new points = Ok g /\ gradient_get g x = Ok c /\ shows_at points x c.
Proof. exact api_get. Qed.
Theorem C55_beyond : forall points x, points <> [] -> 1 < x -> (forall q, In q points -> fst q < x) ->
  exists g, gradient_new points = Ok g /\ gradient_get g x = Err IndexError.
Proof. exact api_beyond. Qed.
(** Below every stop the line through the last and the first stop is used. *)
Theorem C55_below : forall points x, points <> [] -> x < 0 -> (forall q, In q points -> x < fst q) ->
  exists g pa ca pb cb c, gradient_new points = Ok g /\ gradient_get g x = Ok c /\ interpolates pa ca pb cb x c /\
    pb <= 0 /\ 1 <= pa /\ (forall q, In q points -> pb <= fst q <= pa) /\
    (exists p, (forall q, In q points -> p <= fst q) /\ first_at points p cb) /\ (exists p, (forall q, In q points -> fst q <= p) /\ last_at points p ca).
Proof. exact api_before. Qed.
Theorem C55_order : forall points points', Permutation points points' ->
  (forall p q, In p points -> In q points -> fst p == fst q -> p = q) -> gradient_new points = gradient_new points'.
Proof. exact api_order. Qed.
Theorem C55_range : forall points x c lo hi, shows_at points x c ->
  (forall q, In q points -> Forall (fun v => lo <= v <= hi) (snd q)) -> Forall (fun v => lo <= v <= hi) c.
Proof. exact shows_range. Qed.
Theorem C55_no_stops : gradient_new (T := Q) [] = Err IndexError.
Proof. exact new_empty. Qed.
(** The argument is sorted and extended in place. *)
Theorem C55_argument_changed_refuted : exists points g, gradient_new (T := Q) points = Ok g /\ g <> points.
Proof. exists [(1, [0]); (0, [1])]. eexists. split; [reflexivity|]. discriminate. Qed.
(** Outside the stops a component can leave the range of all stops. *)
Theorem C55_below_range_refuted : exists points x g c, gradient_new (T := Q) points = Ok g /\ gradient_get g x = Ok c /\
  (forall q, In q points -> Forall (fun v => 0 <= v <= 1) (snd q)) /\ ~ Forall (fun v => 0 <= v <= 1) c.
Proof.
  exists [(0, [0]); (1, [1])], (-1). eexists _, _. split; [reflexivity|]. split; [reflexivity|]. split.
  - intros q [<-|[<-|[]]]; cbn; constructor; [lra|constructor|lra|constructor].
  - intros F. inversion F as [|? ? H _]; subst. vm_compute in H. destruct H as [H _]. apply H. reflexivity.
Qed.
Example C55_case :
  let points := [(3 # 4, [1; 0]); (1 # 4, [0; 1]); (3 # 4, [5; 5])] in
  exists g, gradient_new points = Ok g /\ gradient_get g (3 # 4) = Ok [1; 0] /\ rmap (map Qred) (gradient_get g (1 # 2)) = Ok [1 # 2; 1 # 2] /\
    rmap (map Qred) (gradient_get g (7 # 8)) = Ok [5; 5] /\ gradient_get g 2 = Err IndexError.
Proof. cbv zeta. eexists. split; [reflexivity|]. vm_compute. auto. Qed.

(** C56 *)
Theorem C56_hex : forall points x, points <> [] -> 0 <= x <= 1 -> (forall q, In q points -> Forall (fun v => 0 <= v <= 1) (snd q)) ->
  exists g c chars, gradient_new points = Ok g /\ gradient_get g x = Ok c /\ shows_at points x c /\ gradient_hex g x = Ok (35%Z :: chars) /\
    Forall2 (fun v ch => is_hex_digit ch (Qfloor (15 * v))) c chars.
Proof. exact api_hex. Qed.
(** In doubles a gradient that is white everywhere can show #e. *)
Theorem C56_double_refuted : exists (points : list (f64 * list f64)) g x,
  Forall (fun q => snd q = [fofZ 1]) points /\ gradient_new points = Ok g /\
  nlt (fofZ 0) x = true /\ nlt x (fofZ 1) = true /\ gradient_hex g x = Ok (text "#e").
Proof.
  exists [(fofZ 0, [fofZ 1]); (fdiv (fofZ 3) (fofZ 10), [fofZ 1])]. eexists. exists (fdiv (fofZ 73) (fofZ 1000)).
  split; [repeat constructor|]. split; [vm_compute; reflexivity|]. vm_compute. auto.
Qed.
Example C56_case : let points := [(0, [0; 1 # 3; 1])] in
  exists g, gradient_new points = Ok g /\ gradient_hex g (1 # 2) = Ok (text "#05f") /\
    (forall q, In q points -> Forall (fun v => 0 <= v <= 1) (snd q)).
Proof.
  cbv zeta. eexists. split; [reflexivity|]. split; [vm_compute; reflexivity|]. intros q [<-|[]]. cbn.
  repeat (apply Forall_cons; [lra|]). constructor.
Qed.

Print Assumptions C55_get.
Print Assumptions C55_beyond.
Print Assumptions C55_below.
Print Assumptions C55_order.
Print Assumptions C55_range.
Print Assumptions C55_no_stops.
Print Assumptions C55_argument_changed_refuted.
Print Assumptions C55_below_range_refuted.
Print Assumptions C56_hex.
Print Assumptions C56_double_refuted.
