(** What a record of a .shp file says: lemmas. *)
From Verif Require Import Py VlvModel VlvProofs ShpFile ShpWriterModel ShpReaderModel ShpSpec ShpLib ShpWriterProofs ShpSave ShpRead ShpHostileSpec ShpHostile ShpBytesSpec ShpBytes.
Open Scope Z_scope.
Open Scope m_scope.

(** The model's record, its steps named. *)
Lemma get_shape_steps measure : get_shape measure = (
  hd <~ f_get 8 (unpack_many 4 unpack_bi 2) ;;
  recLength <~ lift (py_get hd 1) ;;
  here <~ f_tell ;;
  t <~ f_get 4 unpack_li ;;
  s <~ (if negb (t =? 0) && type_in (Some t) [3; 5; 8; 13; 15; 18; 23; 25; 28; 31]
        then b <~ f_get 32 (unpack_ds 4) ;; ret (set_bbox (Some b) (new_shape (Some t))) else ret (new_shape (Some t))) ;;
  nParts <~ (if type_in (Some t) [3; 5; 13; 15; 23; 25; 31] then n <~ f_get 4 unpack_li ;; ret (Some n) else ret None) ;;
  nPoints <~ (if type_in (Some t) [3; 5; 8; 13; 15; 23; 25; 31] then n <~ f_get 4 unpack_li ;; ret (Some n) else ret None) ;;
  s <~ parts_step nParts s ;;
  s <~ (if t =? 31 then n <~ lift (count nParts) ;; p <~ f_get (n * 4) (unpack_many 4 unpack_li n) ;; ret (set_ptypes (Some (Some p)) s) else ret s) ;;
  s <~ points_step nPoints s ;;
  s <~ (if type_in (Some t) [13; 15; 18; 31]
        then _ <~ f_get 16 (unpack_ds 2) ;; n <~ lift (count nPoints) ;; z <~ f_get (n * 8) (unpack_ds n) ;; ret (set_z (Some z) s) else ret s) ;;
  s <~ (if type_in (Some t) [13; 15; 18; 23; 25; 28; 31] && negb (existsb (dbl_eq dbl_zero) measure)
        then _ <~ f_get 16 (unpack_ds 2) ;; n <~ lift (count nPoints) ;; m <~ f_get (n * 8) (unpack_ds n) ;; ret (set_m (Some (map measure_of m)) s) else ret s) ;;
  s <~ (if type_in (Some t) [1; 11; 21] then p <~ f_get 16 (unpack_ds 2) ;; ret (set_points [p] s) else ret s) ;;
  s <~ (if t =? 11 then z <~ f_get 8 (unpack_ds 1) ;; ret (set_z (Some z) s) else ret s) ;;
  s <~ (if type_in (Some t) [11; 21] then m <~ f_get 8 (unpack_ds 1) ;; ret (set_m (Some (map Some m)) s) else ret s) ;;
  f_seek (here + 2 * recLength) ;;;
  ret s).
Proof. reflexivity. Qed.

Lemma with_measures_is measure : with_measures measure = negb (existsb (dbl_eq dbl_zero) measure).
Proof. unfold with_measures. induction measure as [|d r IH]; [reflexivity|]. cbn [forallb existsb]. rewrite IH, negb_orb. reflexivity. Qed.
Lemma not_known t : one_of t [1; 3; 5; 8; 11; 13; 15; 18; 21; 23; 25; 28; 31] = false -> forall l, incl l [1; 3; 5; 8; 11; 13; 15; 18; 21; 23; 25; 28; 31] -> type_in (Some t) l = false.
Proof.
  intros N l I. cbn. destruct (existsb _ l) eqn:E; [|reflexivity]. apply existsb_exists in E. destruct E as [x [X E]]. apply I in X.
  assert (T : one_of t [1; 3; 5; 8; 11; 13; 15; 18; 21; 23; 25; 28; 31] = true) by (apply existsb_exists; exists x; auto). congruence.
Qed.
Lemma known_in t l : one_of t l = true -> In t l.
Proof. intros H. apply existsb_exists in H. destruct H as [x [X E]]. apply Z.eqb_eq in E. subst. exact X. Qed.

Ltac bi H f a H1 := apply bind_inv in H; destruct H as [f [a [H1 H]]].
Ltac pick_in H := cbn [type_in existsb Z.eqb Pos.eqb orb andb negb] in H; cbv iota in H.
Ltac ret_in H := let f := fresh in let a := fresh in let H1 := fresh in bi H f a H1; injection H1 as <- <-; pick_in H.
Ltac finish H ST c :=
  let g := fresh in let u := fresh in let HS := fresh in bi H g u HS; injection H as <- <-;
  eexists _, c; split; [|split; [repeat rewrite app_assoc; repeat rewrite app_nil_r; exact ST|unfold mbind; rewrite HS; reflexivity]].
Lemma le32_4 v : length (le32 v) = 4%nat.
Proof. reflexivity. Qed.
Ltac grow ST ST2 := let S3 := fresh in
  match type of ST with stands ?bs ?p ?a => match type of ST2 with stands _ ?q ?b =>
    assert (S3 : stands bs p (a ++ b)) by (apply stands_app; split; [exact ST|replace (p + length a)%nat with q by (rewrite ?app_length, ?le32_4; lia); exact ST2]) end end;
  clear ST ST2; rename S3 into ST.
(** The next step reads doubles, and the shape is changed by them. *)
Ltac doubles_in H B ST :=
  let f := fresh in let s := fresh in let H1 := fresh in let f2 := fresh in let b := fresh "b" in let H2 := fresh in let S2 := fresh in
  bi H f s H1; bi H1 f2 b H2; injection H1 as <- <-; apply (ds_inv _ _ _ _ _ _ B) in H2; destruct H2 as [_ [L [R [S2 ->]]]]; grow ST S2; pick_in H.
Ltac count_in H B ST n I :=
  let f := fresh in let s := fresh in let H1 := fresh in let f2 := fresh in let H2 := fresh in let S2 := fresh in
  bi H f s H1; bi H1 f2 n H2; injection H1 as <- <-; apply (li_inv _ _ _ _ B) in H2; destruct H2 as [I [S2 ->]]; grow ST S2; pick_in H.
Ltac parts_in H B ST IP parts FP :=
  let f := fresh in let s := fresh in let H1 := fresh in let S2 := fresh in
  bi H f s H1; apply (parts_inv _ _ _ _ _ _ B IP) in H1; [|reflexivity]; destruct H1 as [parts [-> [FP [S2 [-> ->]]]]]; grow ST S2; pick_in H.
Ltac types_in H B ST types LT FT :=
  let f := fresh in let s := fresh in let H1 := fresh in let S2 := fresh in let f2 := fresh in let f3 := fresh in let c := fresh in let H2 := fresh in let H3 := fresh in
  bi H f s H1; bi H1 f2 c H2; injection H2 as <- <-; bi H1 f3 types H3; injection H1 as <- <-; apply (ints_inv _ _ _ _ _ _ B) in H3; rewrite Nat2Z.id in H3;
  destruct H3 as [_ [LT [FT [S2 ->]]]]; grow ST S2; pick_in H.
Ltac points_in H B ST pts LP PP :=
  let f := fresh in let s := fresh in let H1 := fresh in let S2 := fresh in
  bi H f s H1; apply (pts_inv _ _ _ _ _ _ B) in H1; [|reflexivity]; destruct H1 as [pts [LP [PP [S2 [-> ->]]]]]; grow ST S2; pick_in H.
(** A range and as many doubles as there are points. *)
Ltac extra_in H B ST zr zs N0 LR RR LZ RZ :=
  let f := fresh in let s := fresh in let H1 := fresh in let S2 := fresh in let S3 := fresh in let f2 := fresh in let f3 := fresh in let f4 := fresh in let c := fresh in
  let H2 := fresh in let H3 := fresh in let H4 := fresh in
  bi H f s H1; bi H1 f2 zr H2; apply (ds_inv _ _ _ _ _ _ B) in H2; destruct H2 as [_ [LR [RR [S2 ->]]]]; grow ST S2;
  bi H1 f3 c H3; injection H3 as <- <-; bi H1 f4 zs H4; injection H1 as <- <-; apply (ds_inv _ _ _ _ _ _ B) in H4; destruct H4 as [N0 [LZ [RZ [S3 ->]]]]; grow ST S3; pick_in H.
Ltac box_in H B ST b LB RB :=
  let f := fresh in let s := fresh in let H1 := fresh in let f2 := fresh in let H2 := fresh in let S2 := fresh in
  bi H f s H1; bi H1 f2 b H2; injection H1 as <- <-; apply (ds_inv _ _ _ _ _ _ B) in H2; destruct H2 as [_ [LB [RB [S2 ->]]]]; grow ST S2; pick_in H.
Ltac many H B ST b LB RB np IP n0 IN parts FP :=
  box_in H B ST b LB RB; count_in H B ST np IP; count_in H B ST n0 IN; parts_in H B ST IP parts FP.
Ltac close H ST t b parts types n0 pts zr zs mr ms :=
  finish H ST (le32 t ++ doubles b ++ (if parted t then le32 (Z.of_nat (length parts)) else []) ++ le32 n0 ++ ints parts ++ ints types ++
       doubles (concat pts) ++ doubles zr ++ doubles zs ++ doubles mr ++ doubles ms).
Lemma two (l : list dbl) : length l = Z.to_nat 2 -> exists x y, l = [x; y].
Proof. destruct l as [|x [|y [|z l]]]; cbn; try discriminate. eauto. Qed.
Lemma single (l : list dbl) : length l = Z.to_nat 1 -> exists x, l = [x].
Proof. destruct l as [|x [|z l]]; cbn; try discriminate. eauto. Qed.
Lemma stands_three bs o a b c : stands bs o (a ++ b) -> stands bs (o + length a + length b) c -> stands bs o (a ++ b ++ c).
Proof. intros H1 H2. rewrite app_assoc. apply stands_app. split; [exact H1|]. rewrite app_length, Nat.add_assoc. exact H2. Qed.

(** Nothing and single points. *)
Lemma record_inv measure bs o f' s : Forall is_byte bs -> get_shape measure (mkFile bs o) = (f', Ok s) ->
  exists q, f' = mkFile bs q /\ record_at (with_measures measure) bs o s q.
Proof.
  intros B H. rewrite get_shape_steps in H. bi H f1 hds H1. apply (bi2_inv bs o _ _ B) in H1. destruct H1 as [num [n [-> [I1 [I2 [ST0 ->]]]]]].
  bi H f2 x H1. cbn in H1. injection H1 as <- <-. bi H f3 here H1. injection H1 as <- <-. cbn [fpos] in H.
  bi H f4 t H1. apply (li_inv bs _ _ _ B) in H1. destruct H1 as [IT [ST1 ->]].
  (* it is enough to find the content *)
  match type of H with ?rest _ = _ => enough (G : exists p c, says (with_measures measure) s c /\ stands bs (o + 8) c /\ (f_seek (Z.of_nat (o + 8) + 2 * n) ;;; ret s) (mkFile bs p) = (f', Ok s)) end.
  { destruct G as [p [c [G1 [G2 G3]]]]. unfold f_seek in G3. unfold mbind in G3. destruct (Z.ltb_spec (Z.of_nat (o + 8) + 2 * n) 0) as [C|C]; [discriminate G3|]. injection G3 as <-.
    eexists. split; [reflexivity|]. exists num, n, c. split; [exact I1|]. split; [exact I2|]. split; [apply stands_three; [exact ST0|]|]. 2:{ split; [exact G1|]. cbn [fdata]. lia. }
    change (length (be32 num)) with 4%nat. change (length (be32 n)) with 4%nat. rewrite <- Nat.add_assoc. exact G2. }
  rewrite with_measures_is.
  destruct (one_of t [1; 3; 5; 8; 11; 13; 15; 18; 21; 23; 25; 28; 31]) eqn:K.
  2:{ repeat rewrite (not_known t K) in H by (intros x X; cbn [In] in *; tauto). rewrite andb_false_r in H. cbn [andb] in H.
    assert (T31 : (t =? 31) = false) by (destruct (Z.eqb_spec t 31); [subst; discriminate K|reflexivity]).
    assert (T11 : (t =? 11) = false) by (destruct (Z.eqb_spec t 11); [subst; discriminate K|reflexivity]).
    rewrite T31, T11 in H. do 11 ret_in H. finish H ST1 (le32 t). constructor; assumption. }
  apply known_in in K. cbn [In] in K.
  set (M := negb (existsb (dbl_eq dbl_zero) measure)) in *.
  destruct K as [<-|[<-|[<-|[<-|[<-|[<-|[<-|[<-|[<-|[<-|[<-|[<-|[<-|[]]]]]]]]]]]]]]; pick_in H.
  - (* 1 *) do 8 ret_in H. doubles_in H B ST1. destruct (two _ L) as [x [y ->]]. do 2 ret_in H.
    finish H ST1 (le32 1 ++ doubles [x; y]). constructor. exact R.
  - (* 3 *) box_in H B ST1 b LB RB. count_in H B ST1 np IP. count_in H B ST1 n0 IN. parts_in H B ST1 IP parts FP. ret_in H. points_in H B ST1 pts LP PP. ret_in H. ret_in H. do 3 ret_in H. close H ST1 3 b parts (@nil Z) n0 pts (@nil dbl) (@nil dbl) (@nil dbl) (@nil dbl).
      refine (says_many _ 3 b parts (@nil Z) n0 pts (@nil dbl) (@nil dbl) (@nil dbl) (@nil dbl) eq_refl LB RB IN LP PP IP FP ltac:(intros X; discriminate X) (Forall_nil _) eq_refl (conj eq_refl eq_refl) (conj eq_refl eq_refl)).
  - (* 5 *) box_in H B ST1 b LB RB. count_in H B ST1 np IP. count_in H B ST1 n0 IN. parts_in H B ST1 IP parts FP. ret_in H. points_in H B ST1 pts LP PP. ret_in H. ret_in H. do 3 ret_in H. close H ST1 5 b parts (@nil Z) n0 pts (@nil dbl) (@nil dbl) (@nil dbl) (@nil dbl).
      refine (says_many _ 5 b parts (@nil Z) n0 pts (@nil dbl) (@nil dbl) (@nil dbl) (@nil dbl) eq_refl LB RB IN LP PP IP FP ltac:(intros X; discriminate X) (Forall_nil _) eq_refl (conj eq_refl eq_refl) (conj eq_refl eq_refl)).
  - (* 8 *) box_in H B ST1 b LB RB. ret_in H. count_in H B ST1 n0 IN. ret_in H. ret_in H. points_in H B ST1 pts LP PP. ret_in H. ret_in H. do 3 ret_in H. close H ST1 8 b (@nil Z) (@nil Z) n0 pts (@nil dbl) (@nil dbl) (@nil dbl) (@nil dbl).
      refine (says_many _ 8 b (@nil Z) (@nil Z) n0 pts (@nil dbl) (@nil dbl) (@nil dbl) (@nil dbl) eq_refl LB RB IN LP PP ltac:(unfold int32; cbn; lia) (Forall_nil _) (fun _ => eq_refl) (Forall_nil _) eq_refl (conj eq_refl eq_refl) (conj eq_refl eq_refl)).
  - (* 11 *) do 8 ret_in H. box_in H B ST1 b LB RB. destruct (two _ LB) as [x [y ->]]. box_in H B ST1 z LZ RZ. destruct (single _ LZ) as [z0 ->]. box_in H B ST1 w LW RW. destruct (single _ LW) as [w0 ->].
    finish H ST1 (le32 11 ++ doubles [x; y; z0; w0]). inversion RB as [|? ? RB1 RB2]; inversion RB2; inversion RZ; inversion RW; subst. constructor. unfold bits in *. repeat (apply Forall_cons; [assumption|]). apply Forall_nil.
  - (* 13 *) box_in H B ST1 b LB RB. count_in H B ST1 np IP. count_in H B ST1 n0 IN. parts_in H B ST1 IP parts FP. ret_in H. points_in H B ST1 pts LP PP. extra_in H B ST1 zr zs ZN LZR RZR LZS RZS. destruct M; pick_in H.
    + extra_in H B ST1 mr ms MN LMR RMR LMS RMS. do 3 ret_in H. close H ST1 13 b parts (@nil Z) n0 pts zr zs mr ms.
      refine (says_many true 13 b parts (@nil Z) n0 pts zr zs mr ms eq_refl LB RB IN LP PP IP FP ltac:(intros X; discriminate X) (Forall_nil _) eq_refl (conj ZN (conj LZR (conj RZR (conj LZS RZS)))) (conj MN (conj LMR (conj RMR (conj LMS RMS))))).
    + ret_in H. do 3 ret_in H. close H ST1 13 b parts (@nil Z) n0 pts zr zs (@nil dbl) (@nil dbl).
      refine (says_many false 13 b parts (@nil Z) n0 pts zr zs (@nil dbl) (@nil dbl) eq_refl LB RB IN LP PP IP FP ltac:(intros X; discriminate X) (Forall_nil _) eq_refl (conj ZN (conj LZR (conj RZR (conj LZS RZS)))) (conj eq_refl eq_refl)).
  - (* 15 *) box_in H B ST1 b LB RB. count_in H B ST1 np IP. count_in H B ST1 n0 IN. parts_in H B ST1 IP parts FP. ret_in H. points_in H B ST1 pts LP PP. extra_in H B ST1 zr zs ZN LZR RZR LZS RZS. destruct M; pick_in H.
    + extra_in H B ST1 mr ms MN LMR RMR LMS RMS. do 3 ret_in H. close H ST1 15 b parts (@nil Z) n0 pts zr zs mr ms.
      refine (says_many true 15 b parts (@nil Z) n0 pts zr zs mr ms eq_refl LB RB IN LP PP IP FP ltac:(intros X; discriminate X) (Forall_nil _) eq_refl (conj ZN (conj LZR (conj RZR (conj LZS RZS)))) (conj MN (conj LMR (conj RMR (conj LMS RMS))))).
    + ret_in H. do 3 ret_in H. close H ST1 15 b parts (@nil Z) n0 pts zr zs (@nil dbl) (@nil dbl).
      refine (says_many false 15 b parts (@nil Z) n0 pts zr zs (@nil dbl) (@nil dbl) eq_refl LB RB IN LP PP IP FP ltac:(intros X; discriminate X) (Forall_nil _) eq_refl (conj ZN (conj LZR (conj RZR (conj LZS RZS)))) (conj eq_refl eq_refl)).
  - (* 18 *) box_in H B ST1 b LB RB. do 5 ret_in H. bi H f5 s5 H1. bi H1 f6 zr H2. bi H1 f7 c H3. discriminate H3.
  - (* 21 *) do 8 ret_in H. box_in H B ST1 b LB RB. ret_in H. box_in H B ST1 w LW RW. destruct (two _ LB) as [x [y ->]]. destruct (single _ LW) as [w0 ->].
    finish H ST1 (le32 21 ++ doubles [x; y; w0]). inversion RB as [|? ? RB1 RB2]; inversion RB2; inversion RW; subst. constructor. unfold bits in *. repeat (apply Forall_cons; [assumption|]). apply Forall_nil.
  - (* 23 *) box_in H B ST1 b LB RB. count_in H B ST1 np IP. count_in H B ST1 n0 IN. parts_in H B ST1 IP parts FP. ret_in H. points_in H B ST1 pts LP PP. ret_in H. destruct M; pick_in H.
    + extra_in H B ST1 mr ms MN LMR RMR LMS RMS. do 3 ret_in H. close H ST1 23 b parts (@nil Z) n0 pts (@nil dbl) (@nil dbl) mr ms.
      refine (says_many true 23 b parts (@nil Z) n0 pts (@nil dbl) (@nil dbl) mr ms eq_refl LB RB IN LP PP IP FP ltac:(intros X; discriminate X) (Forall_nil _) eq_refl (conj eq_refl eq_refl) (conj MN (conj LMR (conj RMR (conj LMS RMS))))).
    + ret_in H. do 3 ret_in H. close H ST1 23 b parts (@nil Z) n0 pts (@nil dbl) (@nil dbl) (@nil dbl) (@nil dbl).
      refine (says_many false 23 b parts (@nil Z) n0 pts (@nil dbl) (@nil dbl) (@nil dbl) (@nil dbl) eq_refl LB RB IN LP PP IP FP ltac:(intros X; discriminate X) (Forall_nil _) eq_refl (conj eq_refl eq_refl) (conj eq_refl eq_refl)).
  - (* 25 *) box_in H B ST1 b LB RB. count_in H B ST1 np IP. count_in H B ST1 n0 IN. parts_in H B ST1 IP parts FP. ret_in H. points_in H B ST1 pts LP PP. ret_in H. destruct M; pick_in H.
    + extra_in H B ST1 mr ms MN LMR RMR LMS RMS. do 3 ret_in H. close H ST1 25 b parts (@nil Z) n0 pts (@nil dbl) (@nil dbl) mr ms.
      refine (says_many true 25 b parts (@nil Z) n0 pts (@nil dbl) (@nil dbl) mr ms eq_refl LB RB IN LP PP IP FP ltac:(intros X; discriminate X) (Forall_nil _) eq_refl (conj eq_refl eq_refl) (conj MN (conj LMR (conj RMR (conj LMS RMS))))).
    + ret_in H. do 3 ret_in H. close H ST1 25 b parts (@nil Z) n0 pts (@nil dbl) (@nil dbl) (@nil dbl) (@nil dbl).
      refine (says_many false 25 b parts (@nil Z) n0 pts (@nil dbl) (@nil dbl) (@nil dbl) (@nil dbl) eq_refl LB RB IN LP PP IP FP ltac:(intros X; discriminate X) (Forall_nil _) eq_refl (conj eq_refl eq_refl) (conj eq_refl eq_refl)).
  - (* 28 *) box_in H B ST1 b LB RB. do 6 ret_in H. destruct M; pick_in H.
    + bi H f5 s5 H1. bi H1 f6 zr H2. bi H1 f7 c H3. discriminate H3.
    + do 4 ret_in H. finish H ST1 (le32 28 ++ doubles b). constructor; [reflexivity|exact LB|exact RB].
  - (* 31 *) box_in H B ST1 b LB RB. count_in H B ST1 np IP. count_in H B ST1 n0 IN. parts_in H B ST1 IP parts FP. types_in H B ST1 types LT FT. points_in H B ST1 pts LP PP. extra_in H B ST1 zr zs ZN LZR RZR LZS RZS. destruct M; pick_in H.
    + extra_in H B ST1 mr ms MN LMR RMR LMS RMS. do 3 ret_in H. close H ST1 31 b parts types n0 pts zr zs mr ms.
      refine (says_many true 31 b parts types n0 pts zr zs mr ms eq_refl LB RB IN LP PP IP FP ltac:(intros X; discriminate X) FT LT (conj ZN (conj LZR (conj RZR (conj LZS RZS)))) (conj MN (conj LMR (conj RMR (conj LMS RMS))))).
    + ret_in H. do 3 ret_in H. close H ST1 31 b parts types n0 pts zr zs (@nil dbl) (@nil dbl).
      refine (says_many false 31 b parts types n0 pts zr zs (@nil dbl) (@nil dbl) eq_refl LB RB IN LP PP IP FP ltac:(intros X; discriminate X) FT LT (conj ZN (conj LZR (conj RZR (conj LZS RZS)))) (conj eq_refl eq_refl)).
Qed.
