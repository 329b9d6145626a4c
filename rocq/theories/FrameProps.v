(** Properties C62, C63 and C89: frames. *)
From Coq Require Import Reals Lra SpecFloat.
From Verif Require Import Num RealNum BBoxModel BufferModel SimplifyModel SimplifySpec VlvModel PfModel StrModel Text ProjModel ProjFloat
  FrameModel FrameSpec FrameProofs FramePlan FrameCase FrameFloat.
Open Scope Z_scope.

(** ** C62 *)
Theorem C62_round_trip c p b : exists j, frame_save (mkframe (PSphere c p) b) = Ok j /\ frame_load j = Ok (mkframe (PSphere c p) b).
Proof. exact (save_load_sphere c p b). Qed.
(** What is in the file, for a projection built from its origin in degrees. *)
Theorem C62_document c lon lat r b : exists j, frame_save (mkframe (PSphere c (proj_new (Some (lon, lat)) (Some r))) b) = Ok j /\
  at_path j [text "projection"; text "type"] = Some (JStr (class_name c)) /\
  at_path j [text "projection"; text "center"] = Some (JArr [JNum lon; JNum lat]) /\
  at_path j [text "projection"; text "orientation"] = Some (JNum 0%R) /\
  at_path j [text "projection"; text "model"; text "type"] = Some (JStr (text "sphere")) /\
  at_path j [text "projection"; text "model"; text "r"] = Some (JNum r) /\
  at_path j [text "bounding"; text "x0"] = Some (JNum (bx0 b)) /\ at_path j [text "bounding"; text "y0"] = Some (JNum (by0 b)) /\
  at_path j [text "bounding"; text "x1"] = Some (JNum (bx1 b)) /\ at_path j [text "bounding"; text "y1"] = Some (JNum (by1 b)).
Proof. exact (saved_document c lon lat r b). Qed.
(** Ellipsoidal frames are written completely but cannot be read back. *)
Theorem C62_ellipsoid m p b : exists j, frame_save (mkframe (PEllipsoid m p) b) = Ok j /\ frame_load j = Err NameError.
Proof. exact (save_load_ellipsoid m p b). Qed.
Theorem C62_ellipsoid_document m p b : exists j, frame_save (mkframe (PEllipsoid m p) b) = Ok j /\
  at_path j [text "projection"; text "type"] = Some (JStr (text (if m then "EMercator" else "EProj"))) /\
  at_path j [text "projection"; text "center"] = Some (JArr [JNum (degrees (e_lon0 p)); JNum (degrees (e_lat0 p))]) /\
  at_path j [text "projection"; text "orientation"] = Some (JNum 0%R) /\
  at_path j [text "bounding"; text "x0"] = Some (JNum (bx0 b)) /\ at_path j [text "bounding"; text "y0"] = Some (JNum (by0 b)) /\
  at_path j [text "bounding"; text "x1"] = Some (JNum (bx1 b)) /\ at_path j [text "bounding"; text "y1"] = Some (JNum (by1 b)) /\
  at_path j [text "projection"; text "model"; text "type"] = Some (JStr (text "ellipsoid")) /\
  at_path j [text "projection"; text "model"; text "a"] = Some (JNum (el_a (e_ell p))) /\
  at_path j [text "projection"; text "model"; text "b"] = Some (JNum (el_b (e_ell p))) /\
  at_path j [text "projection"; text "model"; text "e"] = Some (JNum (el_e (e_ell p))) /\
  at_path j [text "projection"; text "model"; text "f"] = Some (JNum (el_f (e_ell p))).
Proof. exact (saved_ellipsoid m p b). Qed.
Theorem C62_conic k b : frame_save (mkframe (PConic k) b) = Err AttributeError.
Proof. exact (save_conic k b). Qed.
(** In doubles the centre does not survive: the number of degrees written
    differs from the one given, and for -114 degrees the loaded projection
    differs from the saved one. *)
Theorem C62_double_degrees_refuted : exists x, saved_centre x <> x /\ x = fofZ 3.
Proof. exists (fofZ 3). split; [vm_compute; discriminate|reflexivity]. Qed.
Theorem C62_double_refuted : exists x, SFeqb (loaded_centre x) (radiansF x) = false /\ x = fofZ (-114).
Proof. exists (fofZ (-114)). exact (conj (proj1 minus_114) eq_refl). Qed.
Example C62_case : exists j, frame_save (mkframe (PSphere CStereo (proj_new (Some (-114, 40)) (Some 6371000)))%R (mkbb 1 2 3 4)%R) = Ok j /\
  at_path j [text "projection"; text "center"] = Some (JArr [JNum (-114)%R; JNum 40%R]) /\ at_path j [text "projection"; text "type"] = Some (JStr (text "Stereographic")).
Proof. destruct (saved_document CStereo (-114)%R 40%R 6371000%R (mkbb 1 2 3 4)%R) as (j & E & T & C & _). exists j. auto. Qed.

(** ** C63 *)
(** Reading the file back gives, in the order of the P file, exactly the names
    whose entity has a polygon whose projected box overlaps the frame. *)
Theorem C63_names n f rd content k : cachenames n f rd = Some (Ok (content, k)) -> Forall clean (r_names rd) ->
  exists sel, loadnames content = sel /\ selects (fun name => exists parts, pf_get rd name = Ok parts /\ visible f parts) (r_names rd) sel /\
    k = Z.of_nat (length sel).
Proof. exact (cache_ok n f rd content k). Qed.
Theorem C63_membership n f rd content k name : cachenames n f rd = Some (Ok (content, k)) -> Forall clean (r_names rd) ->
  (In name (loadnames content) <-> In name (r_names rd) /\ exists parts, pf_get rd name = Ok parts /\ visible f parts).
Proof. exact (cache_member n f rd content k name). Qed.
(** The second of two entities of the same name is never looked at, ... *)
Theorem C63_same_name_refuted : exists file rd f parts, pf_open (T := R) 2 file = Some (Ok rd) /\ r_names rd = [text "A"; text "A"] /\
  (forall n, cachenames n f rd = Some (Ok ([], 0))) /\ loadnames [] = [] /\ pf_read rd 1 = Ok parts /\ visible f parts.
Proof. exact same_name_missed. Qed.
(** ... and trailing white space is lost. *)
Theorem C63_space_refuted : exists file rd f content, pf_open (T := R) 3 file = Some (Ok rd) /\ r_names rd = [text "A "] /\
  cachenames 0 f rd = Some (Ok (content, 1)) /\ loadnames content = [text "A"].
Proof. exact trailing_space. Qed.
Example C63_case : exists rd f content, r_names rd = [text "A"] /\ Forall clean (r_names rd) /\
  cachenames 0 f rd = Some (Ok (content, 1)) /\ loadnames content = [text "A"].
Proof. exact cached_case. Qed.

(** ** C89 *)
Theorem C89_point f scale lon lat x y : (exists n, geo2rect n (fr_proj f) lon lat = Some (Ok (x, y))) -> (0 < scale)%R ->
  exists N i j, (forall n, (N <= n)%nat -> frame_point n f scale (lon, lat) = Some (Ok (IZR i, IZR j))) /\ cell scale x i /\ cell scale y j.
Proof. exact (point_cell f scale lon lat x y). Qed.
Theorem C89_point_zero n f lon lat xy : geo2rect n (fr_proj f) lon lat = Some (Ok xy) -> frame_point n f 0 (lon, lat) = Some (Err ZeroDivisionError).
Proof. exact (point_zero n f lon lat xy). Qed.
(** A closed path: only snapped projections of the given points, beginning
    and ending as they do. *)
Theorem C89_planify_closed f scale points xys s : projects (fr_proj f) points xys -> (scale <> 0)%R -> snappedR scale xys s -> (3 <= length points)%nat ->
  exists N out, (forall n, (N <= n)%nat -> frame_planify n f scale points true = Some (out, Ok tt)) /\
    (forall v, In v out -> In v s) /\ hd_error out = hd_error s /\ (forall d, last out d = last s d).
Proof. exact (planify_closed f scale points xys s). Qed.
Theorem C89_planify_open f scale points xys s : projects (fr_proj f) points xys -> (scale <> 0)%R -> snappedR scale xys s -> (2 <= length points)%nat ->
  exists N a mid z, (forall n, (N <= n)%nat -> frame_planify n f scale points false = Some (a :: mid ++ [z], Ok tt)) /\
    hd_error s = Some a /\ last s a = z /\ cancels (SimplifySpec.turns (dedup s)) mid.
Proof. exact (planify_open f scale points xys s). Qed.
Theorem C89_snapped scale xys : exists s, snappedR scale xys s.
Proof. exact (snappedR_ex scale xys). Qed.
Theorem C89_planify_zero n f points xys closed : project n (fr_proj f) points = Some (Ok xys) -> points <> [] ->
  frame_planify n f 0 points closed = Some ([], Err ZeroDivisionError).
Proof. exact (planify_zero n f points xys closed). Qed.
(** The classes Proj and EProj themselves project nothing. *)
Theorem C89_base n p b scale pt points closed : (exists q, p = PSphere CProjBase q) \/ (exists q, p = PEllipsoid false q) ->
  frame_point n (mkframe p b) scale pt = Some (Err AttributeError) /\
  (points <> [] -> frame_planify n (mkframe p b) scale points closed = Some ([], Err AttributeError)).
Proof. exact (base_raises n p b scale pt points closed). Qed.
(** The two disagree: the point 0.6 cells from the origin is in cell 0 for
    point() and a path ending there ends at 1. *)
Theorem C89_same_cell_refuted : exists f lon, forall n, (9 <= n)%nat -> frame_point n f 1 (lon, 0)%R = Some (Ok (0, 0)%R) /\
  frame_planify n f 1 [(-5, 0); (lon, 0)]%R false = Some ([(-5, 0); (1, 0)], Ok tt).
Proof. exact point_planify. Qed.
Example C89_case : exists f scale points xys s, projects (fr_proj f) points xys /\ scale <> 0%R /\ snappedR scale xys s /\
  length points = 3%nat /\ s = [(0, 0); (3, 0); (7, 0)].
Proof. exact ring_case. Qed.

Print Assumptions C62_round_trip.
Print Assumptions C62_document.
Print Assumptions C62_ellipsoid.
Print Assumptions C62_ellipsoid_document.
Print Assumptions C62_conic.
Print Assumptions C62_double_degrees_refuted.
Print Assumptions C62_double_refuted.
Print Assumptions C63_names.
Print Assumptions C63_membership.
Print Assumptions C63_same_name_refuted.
Print Assumptions C63_space_refuted.
Print Assumptions C89_point.
Print Assumptions C89_point_zero.
Print Assumptions C89_planify_closed.
Print Assumptions C89_planify_open.
Print Assumptions C89_snapped.
Print Assumptions C89_planify_zero.
Print Assumptions C89_base.
Print Assumptions C89_same_cell_refuted.
