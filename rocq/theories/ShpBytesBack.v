(** What a record of a .shp file is read as: lemmas. *)
From Verif Require Import Py VlvModel VlvProofs ShpFile ShpWriterModel ShpReaderModel ShpSpec ShpLib ShpWriterProofs ShpSave ShpRead ShpHostileSpec ShpHostile ShpBytesSpec ShpBytes ShpBytesRecord.
Open Scope Z_scope.
Open Scope m_scope.

Lemma doubles_do {B} bs p n k l (c : list dbl -> M file B) R : stands bs p (doubles l) -> n = 8 * k -> k = Z.of_nat (length l) -> bits l ->
  c l (mkFile bs (p + length (doubles l))) = R -> mbind (f_get n (unpack_ds k)) c (mkFile bs p) = R.
Proof.
  intros ST N K F C. eapply get_does; [exact ST|rewrite doubles_length; lia|apply unpack_doubles; [exact F|exact K]|exact C].
Qed.
Lemma li_do {B} bs p v (c : Z -> M file B) R : stands bs p (le32 v) -> int32 v -> c v (mkFile bs (p + 4)) = R -> mbind (f_get 4 unpack_li) c (mkFile bs p) = R.
Proof. intros ST I C. eapply get_does; [exact ST|reflexivity|apply unpack_li_le32; exact I|exact C]. Qed.
Lemma ints_do {B} bs p n k l (c : list Z -> M file B) R : stands bs p (ints l) -> n = k * 4 -> k = Z.of_nat (length l) -> Forall int32 l ->
  c l (mkFile bs (p + length (ints l))) = R -> mbind (f_get n (unpack_many 4 unpack_li k)) c (mkFile bs p) = R.
Proof.
  intros ST N K F C. eapply get_does; [exact ST|unfold ints; rewrite flat_le32_length; lia|apply unpack_starts; [exact F|exact K]|exact C].
Qed.
(** A step within a step. *)
Lemma nest {S A B C} (m : M S A) (k : A -> M S B) (h : B -> M S C) f R : mbind m (fun a => mbind (k a) h) f = R -> mbind (mbind m k) h f = R.
Proof. intros <-. unfold mbind. destruct (m f) as [g [a|e]]; reflexivity. Qed.
Ltac pick_out := cbn [type_in existsb Z.eqb Pos.eqb orb andb negb]; cbv iota.
Ltac ret_out := match goal with |- mbind (ret ?a) ?k ?f = ?r => change (k a f = r); cbv beta end; pick_out.
Ltac skip_out := match goal with
  | |- mbind (parts_step None ?s) ?k ?f = ?r => change (k s f = r)
  | |- mbind (points_step None ?s) ?k ?f = ?r => change (k s f = r)
  | |- mbind (lift (count (Some ?n))) ?k ?f = ?r => change (k n f = r)
  end; cbv beta; pick_out.
Ltac rets := repeat (first [ret_out | skip_out]).
Ltac cut ST ST2 := let S3 := fresh in apply stands_app in ST; destruct ST as [ST2 S3]; rename S3 into ST.
Ltac dbl_out ST L := let S2 := fresh in cut ST S2; try apply nest; eapply doubles_do; [exact S2|lia|first [reflexivity|rewrite L; reflexivity|lia]|assumption|]; rets.

Ltac many_out ST LT EL ME NP :=
  cbn [parted elevated measured one_of existsb Z.eqb Pos.eqb orb andb] in ST, LT, EL, ME, NP |- *; cbv iota in ST, LT, EL, ME, NP |- *;
  unfold parted, elevated, measured, one_of in *; cbn [existsb Z.eqb Pos.eqb orb andb type_in negb] in *; cbv iota in *.
Ltac no_types types LT ST := destruct types as [|? ?]; [|discriminate LT].
Ltac tidy ST := change (ints []) with (@nil Z) in ST; change (doubles []) with (@nil Z) in ST; cbn [app] in ST.
Ltac extra_out ST L1 L2 :=
  dbl_out ST L1; apply nest; rets; dbl_out ST L2.
Lemma record_do measure bs o s q : record_at (with_measures measure) bs o s q -> get_shape measure (mkFile bs o) = (mkFile bs q, Ok s).
Proof.
  intros [num [n [c [I1 [I2 [ST [SY Q]]]]]]]. rewrite get_shape_steps.
  assert (FIN : forall p (s : shape), (f_seek (Z.of_nat (o + 8) + 2 * n) ;;; ret s) (mkFile bs p) = (mkFile bs q, Ok s)).
  { intros p s'. unfold mbind, f_seek. destruct (Z.ltb_spec (Z.of_nat (o + 8) + 2 * n) 0); [lia|]. unfold ret. cbn [fdata]. repeat f_equal. lia. }
  rewrite app_assoc in ST. cut ST S0. eapply get_does; [exact S0|reflexivity| |].
  { pose proof (unpack_many_flat 4 unpack_bi be32 (fun x => x) [num; n] 2) as U. cbn [flat_map map] in U. rewrite app_nil_r in U.
    apply U; [|reflexivity]. constructor; [split; [reflexivity|apply unpack_bi_be32; assumption]|]. constructor; [split; [reflexivity|apply unpack_bi_be32; assumption]|constructor]. }
  change (length (be32 num ++ be32 n)) with 8%nat in *. match goal with |- mbind (lift (py_get [num; n] 1)) ?k ?f = ?r => change (k n f = r); cbv beta end.
  match goal with |- mbind f_tell ?k ?f = ?r => change (k (Z.of_nat (o + 8)) f = r); cbv beta end.
  rewrite with_measures_is in SY. set (M := negb (existsb (dbl_eq dbl_zero) measure)) in *. clearbody M.
  destruct SY as [t H H0|x y H|x y z w H|x y w H|b H H0 H1|t b parts types n0 pts zr zs mr ms T LB RB IN LP PP IP FP NP FT LT EL ME].
  - eapply li_do; [exact ST|assumption|]. repeat rewrite (not_known t H0) by (intros x X; cbn [In] in *; tauto). rewrite andb_false_r. cbn [andb].
    assert (T31 : (t =? 31) = false) by (destruct (Z.eqb_spec t 31); [subst; discriminate H0|reflexivity]).
    assert (T11 : (t =? 11) = false) by (destruct (Z.eqb_spec t 11); [subst; discriminate H0|reflexivity]).
    rewrite T31, T11. rets. apply FIN.
  - cut ST S1. eapply li_do; [exact S1|unfold int32; lia|]. pick_out. rets. rewrite <- (app_nil_r (doubles _)) in ST.
    dbl_out ST (eq_refl (length [x; y])). apply FIN.
  - change (doubles [x; y; z; w]) with (doubles [x; y] ++ doubles [z] ++ doubles [w]) in ST. cut ST S1. eapply li_do; [exact S1|unfold int32; lia|]. pick_out. rets. rewrite <- (app_nil_r (doubles [w])) in ST.
    inversion H as [|? ? R1 R2]; inversion R2 as [|? ? R3 R4]; inversion R4 as [|? ? R5 R6]; subst.
    assert (bits [x; y]) by (repeat (apply Forall_cons; [assumption|]); apply Forall_nil). assert (bits [z]) by (repeat (apply Forall_cons; [assumption|]); apply Forall_nil).
    dbl_out ST (eq_refl (length [x; y])). dbl_out ST (eq_refl (length [z])). dbl_out ST (eq_refl (length [w])). apply FIN.
  - change (doubles [x; y; w]) with (doubles [x; y] ++ doubles [w]) in ST. cut ST S1. eapply li_do; [exact S1|unfold int32; lia|]. pick_out. rets. rewrite <- (app_nil_r (doubles [w])) in ST.
    inversion H as [|? ? R1 R2]; inversion R2 as [|? ? R3 R4]; subst.
    assert (bits [x; y]) by (repeat (apply Forall_cons; [assumption|]); apply Forall_nil).
    dbl_out ST (eq_refl (length [x; y])). dbl_out ST (eq_refl (length [w])). apply FIN.
  - subst M. cut ST S1. eapply li_do; [exact S1|unfold int32; lia|]. pick_out. rewrite <- (app_nil_r (doubles _)) in ST. dbl_out ST H0. apply FIN.
  - assert (IT : int32 t) by (apply known_in in T; cbn [In] in T; unfold int32; lia). cut ST S1. eapply li_do; [exact S1|exact IT|].
    apply known_in in T. cbn [In] in T.
    destruct T as [<-|[<-|[<-|[<-|[<-|[<-|[<-|[<-|[]]]]]]]]].
    + (* 3 *) many_out ST LT EL ME NP.
      no_types types LT ST. destruct EL as [-> ->]. destruct ME as [-> ->]. tidy ST. dbl_out ST LB. cut ST SP. apply nest; eapply li_do; [exact SP|exact IP|]; rets. cut ST SN. apply nest; eapply li_do; [exact SN|exact IN|]; rets. cut ST SP2. eapply parts_do; [exact FP|exact SP2|reflexivity|]; rets. cut ST SQ. eapply pts_do; [exact LP|exact PP|exact SQ|reflexivity|]; rets. apply FIN.
    + (* 5 *) many_out ST LT EL ME NP.
      no_types types LT ST. destruct EL as [-> ->]. destruct ME as [-> ->]. tidy ST. dbl_out ST LB. cut ST SP. apply nest; eapply li_do; [exact SP|exact IP|]; rets. cut ST SN. apply nest; eapply li_do; [exact SN|exact IN|]; rets. cut ST SP2. eapply parts_do; [exact FP|exact SP2|reflexivity|]; rets. cut ST SQ. eapply pts_do; [exact LP|exact PP|exact SQ|reflexivity|]; rets. apply FIN.
    + (* 8 *) many_out ST LT EL ME NP.
      no_types types LT ST. rewrite (NP eq_refl) in *. destruct EL as [-> ->]. destruct ME as [-> ->]. tidy ST. dbl_out ST LB. cut ST SN. apply nest; eapply li_do; [exact SN|exact IN|]; rets. cut ST SQ. eapply pts_do; [exact LP|exact PP|exact SQ|reflexivity|]; rets. apply FIN.
    + (* 13 *) many_out ST LT EL ME NP.
      no_types types LT ST. destruct EL as [N1 [LZR [RZR [LZS RZS]]]]. destruct M; cbn [andb] in *; cbv iota in *.
      * destruct ME as [N2 [LMR [RMR [LMS RMS]]]]. rewrite <- (app_nil_r (doubles ms)) in ST. tidy ST. dbl_out ST LB. cut ST SP. apply nest; eapply li_do; [exact SP|exact IP|]; rets. cut ST SN. apply nest; eapply li_do; [exact SN|exact IN|]; rets. cut ST SP2. eapply parts_do; [exact FP|exact SP2|reflexivity|]; rets. cut ST SQ. eapply pts_do; [exact LP|exact PP|exact SQ|reflexivity|]; rets. extra_out ST LZR LZS. extra_out ST LMR LMS. apply FIN.
      * destruct ME as [-> ->]. tidy ST. dbl_out ST LB. cut ST SP. apply nest; eapply li_do; [exact SP|exact IP|]; rets. cut ST SN. apply nest; eapply li_do; [exact SN|exact IN|]; rets. cut ST SP2. eapply parts_do; [exact FP|exact SP2|reflexivity|]; rets. cut ST SQ. eapply pts_do; [exact LP|exact PP|exact SQ|reflexivity|]; rets. extra_out ST LZR LZS. apply FIN.
    + (* 15 *) many_out ST LT EL ME NP.
      no_types types LT ST. destruct EL as [N1 [LZR [RZR [LZS RZS]]]]. destruct M; cbn [andb] in *; cbv iota in *.
      * destruct ME as [N2 [LMR [RMR [LMS RMS]]]]. rewrite <- (app_nil_r (doubles ms)) in ST. tidy ST. dbl_out ST LB. cut ST SP. apply nest; eapply li_do; [exact SP|exact IP|]; rets. cut ST SN. apply nest; eapply li_do; [exact SN|exact IN|]; rets. cut ST SP2. eapply parts_do; [exact FP|exact SP2|reflexivity|]; rets. cut ST SQ. eapply pts_do; [exact LP|exact PP|exact SQ|reflexivity|]; rets. extra_out ST LZR LZS. extra_out ST LMR LMS. apply FIN.
      * destruct ME as [-> ->]. tidy ST. dbl_out ST LB. cut ST SP. apply nest; eapply li_do; [exact SP|exact IP|]; rets. cut ST SN. apply nest; eapply li_do; [exact SN|exact IN|]; rets. cut ST SP2. eapply parts_do; [exact FP|exact SP2|reflexivity|]; rets. cut ST SQ. eapply pts_do; [exact LP|exact PP|exact SQ|reflexivity|]; rets. extra_out ST LZR LZS. apply FIN.
    + (* 23 *) many_out ST LT EL ME NP.
      no_types types LT ST. destruct EL as [-> ->]. destruct M; cbn [andb] in *; cbv iota in *.
      * destruct ME as [N2 [LMR [RMR [LMS RMS]]]]. rewrite <- (app_nil_r (doubles ms)) in ST. tidy ST. dbl_out ST LB. cut ST SP. apply nest; eapply li_do; [exact SP|exact IP|]; rets. cut ST SN. apply nest; eapply li_do; [exact SN|exact IN|]; rets. cut ST SP2. eapply parts_do; [exact FP|exact SP2|reflexivity|]; rets. cut ST SQ. eapply pts_do; [exact LP|exact PP|exact SQ|reflexivity|]; rets. extra_out ST LMR LMS. apply FIN.
      * destruct ME as [-> ->]. tidy ST. dbl_out ST LB. cut ST SP. apply nest; eapply li_do; [exact SP|exact IP|]; rets. cut ST SN. apply nest; eapply li_do; [exact SN|exact IN|]; rets. cut ST SP2. eapply parts_do; [exact FP|exact SP2|reflexivity|]; rets. cut ST SQ. eapply pts_do; [exact LP|exact PP|exact SQ|reflexivity|]; rets. apply FIN.
    + (* 25 *) many_out ST LT EL ME NP.
      no_types types LT ST. destruct EL as [-> ->]. destruct M; cbn [andb] in *; cbv iota in *.
      * destruct ME as [N2 [LMR [RMR [LMS RMS]]]]. rewrite <- (app_nil_r (doubles ms)) in ST. tidy ST. dbl_out ST LB. cut ST SP. apply nest; eapply li_do; [exact SP|exact IP|]; rets. cut ST SN. apply nest; eapply li_do; [exact SN|exact IN|]; rets. cut ST SP2. eapply parts_do; [exact FP|exact SP2|reflexivity|]; rets. cut ST SQ. eapply pts_do; [exact LP|exact PP|exact SQ|reflexivity|]; rets. extra_out ST LMR LMS. apply FIN.
      * destruct ME as [-> ->]. tidy ST. dbl_out ST LB. cut ST SP. apply nest; eapply li_do; [exact SP|exact IP|]; rets. cut ST SN. apply nest; eapply li_do; [exact SN|exact IN|]; rets. cut ST SP2. eapply parts_do; [exact FP|exact SP2|reflexivity|]; rets. cut ST SQ. eapply pts_do; [exact LP|exact PP|exact SQ|reflexivity|]; rets. apply FIN.
    + (* 31 *) many_out ST LT EL ME NP.
      destruct EL as [N1 [LZR [RZR [LZS RZS]]]]. destruct M; cbn [andb] in *; cbv iota in *.
      * destruct ME as [N2 [LMR [RMR [LMS RMS]]]]. rewrite <- (app_nil_r (doubles ms)) in ST. tidy ST. dbl_out ST LB. cut ST SP. apply nest; eapply li_do; [exact SP|exact IP|]; rets. cut ST SN. apply nest; eapply li_do; [exact SN|exact IN|]; rets. cut ST SP2. eapply parts_do; [exact FP|exact SP2|reflexivity|]; rets. cut ST ST3. apply nest; rets. apply nest; eapply ints_do; [exact ST3|reflexivity|rewrite LT; reflexivity|exact FT|]; rets. cut ST SQ. eapply pts_do; [exact LP|exact PP|exact SQ|reflexivity|]; rets. extra_out ST LZR LZS. extra_out ST LMR LMS. apply FIN.
      * destruct ME as [-> ->]. tidy ST. dbl_out ST LB. cut ST SP. apply nest; eapply li_do; [exact SP|exact IP|]; rets. cut ST SN. apply nest; eapply li_do; [exact SN|exact IN|]; rets. cut ST SP2. eapply parts_do; [exact FP|exact SP2|reflexivity|]; rets. cut ST ST3. apply nest; rets. apply nest; eapply ints_do; [exact ST3|reflexivity|rewrite LT; reflexivity|exact FT|]; rets. cut ST SQ. eapply pts_do; [exact LP|exact PP|exact SQ|reflexivity|]; rets. extra_out ST LZR LZS. apply FIN.
Qed.
