(** Property C136: the canvas box and the page in double arithmetic. *)
From Coq Require Import ZArith Reals Lia Lra List SpecFloat.
From Flocq Require Import Core IEEE754.BinarySingleNaN.
From Verif Require Import Num RealNum FloatLib BBoxModel StrModel Text VectorModel BBoxFloatSpec BBoxFloat VectorSpecR VectorFloatSpec VectorFloat VectorFloatPage.
Import ListNotations.
Open Scope R_scope.

(** The canvas box covers what was drawn since the last reset, and every side of
    it touches something drawn, but for rounding. *)
Theorem C136_box : forall bg h0 ops OPS h c, history h0 (canvas_new bg) ops = Some (h, c) -> Forall2 geo ops OPS -> Forall plain OPS ->
  ((forall o p, In o (since [] OPS) -> ~ drawn o p) -> cv_bbox c = bb_empty) /\
  ((exists o p, In o (since [] OPS) /\ drawn o p) -> exists b, doubles (cv_bbox c) b /\ bx0 b < bx1 b /\ by0 b < by1 b /\
     (forall o p, In o (since [] OPS) -> drawn o p -> coversF b p) /\ touchesF (since [] OPS) b).
Proof. exact api_box_F. Qed.
(** A saved page: the drawing is centred, fills the page but for the margin, and
    stays within it, but for rounding. *)
Theorem C136_page : forall bg h0 ops OPS h c, history h0 (canvas_new bg) ops = Some (h, c) -> Forall2 geo ops OPS -> Forall plain OPS ->
  forall s m S M, good_bg bg -> isf s S -> isf m M -> page_ok S M ->
  ((forall o p, In o (since [] OPS) -> ~ drawn o p) -> save c (Some s) m = Err ZeroDivisionError) /\
  ((exists o p, In o (since [] OPS) /\ drawn o p) ->
     exists b file pre post h' k cx cy H K X Y, doubles (cv_bbox c) b /\ save c (Some s) m = Ok file /\ file = pre ++ page_lines h' k cx cy ++ post /\
       isf h' H /\ isf k K /\ isf cx X /\ isf cy Y /\ 0 < K /\
       Rabs (K - (S - M) / longer b) <= (S - M) / longer b / 2 ^ 51 /\
       (let q := on_page H K X Y ((bx0 b + bx1 b) / 2, (by0 b + by1 b) / 2) in Rabs (fst q - S / 2) <= page_slack b S M /\ Rabs (snd q - S / 2) <= page_slack b S M) /\
       (forall o p, In o (since [] OPS) -> drawn o p ->
          let q := on_page H K X Y p in
          M / 2 - page_slack b S M <= fst q <= S - M / 2 + page_slack b S M /\ M / 2 - page_slack b S M <= snd q <= S - M / 2 + page_slack b S M)).
Proof. exact api_page_F. Qed.
(** A circle of radius 1 with its center at 2^60 has a box without width in
    double arithmetic, and the next shape drops it from the canvas box. *)
Definition far_circle : op f64 := OCircle (f_of 1 60, fofZ 0) (fofZ 1) None None.
Definition small_circle : op f64 := OCircle (fofZ 0, fofZ 0) (fofZ 1) None None.
Theorem C136_far_refuted : exists h c h2 c2, history (fun _ => []) (canvas_new None) [far_circle] = Some (h, c) /\
  bx0 (cv_bbox c) = bx1 (cv_bbox c) /\
  history (fun _ => []) (canvas_new None) [far_circle; small_circle] = Some (h2, c2) /\ cv_bbox c2 = mkbb (fofZ (-1)) (fofZ (-1)) (fofZ 1) (fofZ 1).
Proof. do 4 eexists. split; [reflexivity|]. split; [vm_compute; reflexivity|]. split; [reflexivity|]. vm_compute. reflexivity. Qed.
(** The hypotheses hold of a circle, a polygon, an image and a page. *)
Definition drawingF : list (op f64) :=
  [small_circle; OPolygon [(fofZ 0, fofZ 0); (fofZ 3, fofZ 1); (fofZ 1, fofZ 4)] None None; OImage [0; 1; 2; 3]%Z 2 None (f_of 1 (-1)) false].
Definition drawingR : list (op R) :=
  [OCircle (0, 0) 1 None None; OPolygon [(0, 0); (3, 1); (1, 4)] None None; OImage [0; 1; 2; 3]%Z 2 None (/ 2) false].
Example C136_case : exists h c, history (fun _ => []) (canvas_new None) drawingF = Some (h, c) /\ Forall2 geo drawingF drawingR /\ Forall plain drawingR /\
  good_bg (@None (ink f64)) /\ page_ok 100 4 /\ exists o p, In o (since [] drawingR) /\ drawn o p.
Proof.
  assert (I : forall z, (Z.abs z <= 100)%Z -> isf (fofZ z) (IZR z)) by (intros z Z; apply isf_int; lia).
  assert (Hf : isf (f_of 1 (-1)) (/ 2)).
  { replace (/ 2) with (SF2R radix2 (f_of 1 (-1))); [apply isf_valid; reflexivity|]. vm_compute (f_of 1 (-1)). unfold SF2R. rewrite F2R_div by lia. change (IZR 4503599627370496 / IZR 9007199254740992 = / 2). lra. }
  destruct pow_chain as (P1 & P2 & P3).
  assert (P4 : / 2 ^ 400 <= / 4) by (rewrite <- pow_400; apply (bpow_le radix2 (-400) (-2)); lia).
  assert (P5 : 1024 <= 2 ^ 400) by (rewrite <- pow400; apply (bpow_le radix2 10 400); lia).
  assert (P6 : / 2 ^ 300 <= / 4 /\ 1024 <= 2 ^ 300).
  { assert (A : bpow radix2 300 = 2 ^ 300) by (rewrite bpow_powerRZ; unfold powerRZ; f_equal). split; [|rewrite <- A; apply (bpow_le radix2 10 300); lia].
    apply Rinv_le; [lra|]. rewrite <- A. apply (bpow_le radix2 2 300). lia. }
  do 2 eexists. split; [reflexivity|]. split.
  { constructor; [|constructor; [|constructor; [|constructor]]].
    - apply geo_circle; [split; apply (I 0%Z); lia|apply (I 1%Z); lia].
    - apply geo_poly. constructor; [split; [apply (I 0%Z)|apply (I 0%Z)]; lia|]. constructor; [split; [apply (I 3%Z)|apply (I 1%Z)]; lia|]. constructor; [split; [apply (I 1%Z)|apply (I 4%Z)]; lia|constructor].
    - apply geo_image0. exact Hf. }
  split.
  { assert (AB : forall x, 0 <= x <= 4 -> Rabs x <= 2 ^ 400) by (intros x X; rewrite Rabs_pos_eq; lra).
    assert (SP : forall s, / 2 <= s <= 4 -> span 0 s) by (intros s S; unfold span; rewrite Rabs_R0, pow50; lra).
    constructor; [|constructor; [|constructor; [|constructor]]].
    - split; apply SP; lra.
    - right. split; (split; [cbn [map fst snd]; constructor; [apply AB; lra|]; constructor; [apply AB; lra|]; constructor; [apply AB; lra|constructor]|]).
      + exists 0, 3. cbn [map fst]. split; [left; reflexivity|]. split; [right; left; reflexivity|lra].
      + exists 0, 4. cbn [map snd]. split; [left; reflexivity|]. split; [right; right; left; reflexivity|lra].
    - cbn [plain]. change (img_height [0; 1; 2; 3]%Z 2 false) with 2%Z. split; [lia|]. split; [lia|]. split; [lra|]. split; apply SP; lra. }
  split; [exact Logic.I|]. split; [unfold page_ok; lra|].
  exists (OCircle (0, 0) 1 None None), (0, 0). split; [left; reflexivity|]. cbn [drawn fst snd]. lra.
Qed.

Print Assumptions C136_box.
Print Assumptions C136_page.
Print Assumptions C136_far_refuted.
