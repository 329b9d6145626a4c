(** Lists among the shapes of a shapefile.Editor: theorems. *)
From Verif Require Import Py ShpFile ShpWriterModel ShpEditorModel ShpEditorSpec ShpListSpec ShpList.
Open Scope Z_scope.

(** C121 *)
(** A shape number that is out of range puts an empty list among the shapes;
    the point becomes a shape of its own, behind it. *)
Theorem C121_list : forall x y z m i e part point, i <> 0 -> beyond i (e_items e) -> absent part -> absent point ->
  edit_point x y z m (Some i) part point None e = added x y z m (e_items e ++ [EList []]) e.
Proof. exact list_made. Qed.
(** With an address that exists, the point there is replaced and nothing is
    added. *)
Theorem C121_address : forall x y z m i j k e a p s old t q b,
  e_items e = a ++ EList (p ++ (s ++ old :: t) :: q) :: b -> between i a b -> between j p q -> between k s t ->
  edit_point x y z m None None None (Some (i, j, k)) e = balanced (with_shapes (a ++ EList (p ++ (s ++ [Some x; Some y; z; m] :: t) :: q) :: b) e).
Proof. exact addressed. Qed.
Theorem C121_no_part : forall x y z m i j k e a l b, e_items e = a ++ EList l :: b -> between i a b -> beyond j l ->
  edit_point x y z m None None None (Some (i, j, k)) e = (e, Err IndexError).
Proof. exact not_a_part. Qed.
Theorem C121_no_point : forall x y z m i j k e a p s q b, e_items e = a ++ EList (p ++ s :: q) :: b -> between i a b -> between j p q -> beyond k s ->
  edit_point x y z m None None None (Some (i, j, k)) e = (e, Err IndexError).
Proof. exact not_a_point. Qed.
(** With shape, part and point, the coordinates that are not 0 are stored in
    that point; the point is also added as a new shape. *)
Theorem C121_update : forall x y z m i j k e a p s old t q b, is_dbl x -> is_dbl y -> dbls z -> dbls m -> i <> 0 -> j <> 0 -> k <> 0 ->
  e_items e = a ++ EList (p ++ (s ++ old :: t) :: q) :: b -> between i a b -> between j p q -> between k s t -> length old = 4%nat ->
  exists new, updated (Some x) (Some y) z m old new /\
  edit_point x y z m (Some i) (Some j) (Some k) None e = added x y z m (a ++ EList (p ++ (s ++ new :: t) :: q) :: b) e.
Proof. exact point_updated. Qed.
(** With shape and part, every point of the part. *)
Theorem C121_update_part : forall x y z m i j point e a p l q b, is_dbl x -> is_dbl y -> dbls z -> dbls m -> i <> 0 -> j <> 0 -> absent point ->
  e_items e = a ++ EList (p ++ l :: q) :: b -> between i a b -> between j p q -> Forall (fun c => length c = 4%nat) l ->
  exists new, Forall2 (updated (Some x) (Some y) z m) l new /\
  edit_point x y z m (Some i) (Some j) point None e = added x y z m (a ++ EList (p ++ new :: q) :: b) e.
Proof. exact part_updated. Qed.
(** A point that is not there is made, without room for coordinates. *)
Theorem C121_new_point : forall x y z m i j k e a p s q b, is_dbl x -> ~ naught x -> i <> 0 -> j <> 0 -> k <> 0 ->
  e_items e = a ++ EList (p ++ s :: q) :: b -> between i a b -> between j p q -> beyond k s -> s = [] \/ k <> - 1 - Z.of_nat (length s) -> forall addr,
  edit_point x y z m (Some i) (Some j) (Some k) addr e = (with_shapes (a ++ EList (p ++ (s ++ [[]]) :: q) :: b) e, Err IndexError).
Proof. exact point_made. Qed.
(** The number before the first point: the first point is changed. *)
Theorem C121_wrong_point : forall x y z m i j e a p old s q b, is_dbl x -> is_dbl y -> dbls z -> dbls m -> i <> 0 -> j <> 0 ->
  e_items e = a ++ EList (p ++ (old :: s) :: q) :: b -> between i a b -> between j p q -> length old = 4%nat ->
  exists new, updated (Some x) (Some y) z m old new /\
  edit_point x y z m (Some i) (Some j) (Some (- Z.of_nat (length (old :: s)) - 1)) None e = added x y z m (a ++ EList (p ++ (new :: s ++ [[]]) :: q) :: b) e.
Proof. exact wrong_point. Qed.
(** From an empty layer: a list; a part and a point in it; coordinates by
    address; an update. 1.0, 2.0 and 3.0 *)
Definition one : dbl := 4607182418800017408.
Definition two : dbl := 4611686018427387904.
Definition three : dbl := 4613937818241073152.
Definition layer0 : editor := new_editor (Some 1) false.
Definition layer1 : editor := fst (edit_point one one None None (Some 7) None None None layer0).
Definition layer2 : editor := fst (edit_point one one None None (Some (-2)) (Some (-1)) (Some (-1)) None layer1).
Definition layer3 : editor := fst (edit_point one two (Some three) None None None None (Some (0, 0, 0)) layer2).
Definition layer4 : editor := fst (edit_point three 0 None (Some one) (Some (-2)) (Some (-1)) (Some (-1)) None layer3).
Definition layer5 : editor := fst (edit_point two two None None (Some (-3)) (Some (-1)) (Some (-2)) None layer4).
Example C121_case :
  beyond 7 (e_items layer0) /\ e_items layer1 = [EList []; EPoint (Some 1) one one None None] /\
  e_items layer2 = [EList [[[]]]; EPoint (Some 1) one one None None] /\
  e_items layer3 = [EList [[[Some one; Some two; Some three; None]]]; EPoint (Some 1) one one None None] /\
  e_items layer4 = [EList [[[Some three; Some two; Some three; Some one]]]; EPoint (Some 1) one one None None; EPoint (Some 1) three 0 None (Some one)] /\
  e_items layer5 = [EList [[[Some two; Some two; Some three; Some one]; []]]; EPoint (Some 1) one one None None; EPoint (Some 1) three 0 None (Some one); EPoint (Some 1) two two None None] /\
  between (-3) (@nil elem) [EPoint (Some 1) one one None None; EPoint (Some 1) three 0 None (Some one)] /\ naught 0 /\ ~ naught one /\ is_dbl three.
Proof.
  repeat (split; [first [vm_compute; reflexivity | unfold beyond, between, naught; cbn; lia]|]). split; [unfold naught, one; lia|]. unfold is_dbl, three. lia.
Qed.

Print Assumptions C121_list.
Print Assumptions C121_address.
Print Assumptions C121_no_part.
Print Assumptions C121_no_point.
Print Assumptions C121_update.
Print Assumptions C121_update_part.
Print Assumptions C121_new_point.
Print Assumptions C121_wrong_point.
