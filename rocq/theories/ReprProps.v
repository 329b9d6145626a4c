(** Property C134: what boxes, buffers and grid variables print as. *)
From Coq Require Import QArith.
From Verif Require Import Py Text StrModel BBoxModel BufferModel GridModel ReprModel ReprSpec ReprProofs.
Open Scope Z_scope.

(** A text is read as one call or none. *)
Theorem C134_one_meaning (A : Type) name (init : list pyval -> res A) s x y :
  evaluates name init s x -> evaluates name init s y -> x = y.
Proof. exact (eval_one name init s x y). Qed.

(** eval(repr(box)) is the box, whatever the order of its corners. *)
Theorem C134_box b : evaluates (text "BBox") bb_init (bb_repr b) (Ok b).
Proof. exact (box_back b). Qed.
Theorem C134_box_text a b : bb_repr a = bb_repr b -> a = b.
Proof. exact (box_repr_inj a b). Qed.
Theorem C134_box_many args : (3 <= length args)%nat -> bb_init args = Err BareException.
Proof. exact (box_many args). Qed.

(** eval(repr(buffer)) is an empty buffer of the same size: the contents are
    not in the text. *)
Theorem C134_buffer (A : Type) (b b0 : buffer A) : buf_new (b_n b) = Ok b0 ->
  evaluates (text "Buffer") buf_init (buf_repr b) (Ok b0).
Proof. exact (buf_back b b0). Qed.
(** str(buffer) tells the items apart. *)
Theorem C134_buffer_text fuel fuel' b b' l l' :
  b_str fuel b = Some (Ok l) -> b_str fuel' b' = Some (Ok l') ->
  buf_text fuel b = buf_text fuel' b' -> l = l'.
Proof. exact (buf_text_inj fuel fuel' b b' l l'). Qed.

(** repr() of a variable leaves out its name, so its text is not a call that
    makes it again. An integer variable: an assertion fails, unless its
    maximum is below its nullability taken as a number; what is then built
    has other bounds. *)
Theorem C134_ivar_refuted f : b2z (i_nullable f) <= i_max f ->
  evaluates (text "IVar") ivar_init (ivar_repr f) (Err AssertionError).
Proof. exact (ivar_fails f). Qed.
Theorem C134_ivar_never name a b n f g : ivar_new name a b n = Ok f ->
  evaluates (text "IVar") ivar_init (ivar_repr f) (Ok g) -> i_min g = b /\ i_min g <> i_min f.
Proof. exact (ivar_never name a b n f g). Qed.
(** A string variable: it becomes one of 0 or 1 bytes named by its size. *)
Theorem C134_svar f : evaluates (text "SVar") svar_init (svar_repr f)
  (Ok (mksvar (str_int (Z.of_nat (s_size f))) (if s_nullable f then 1 else 0) false)).
Proof. exact (svar_back f). Qed.
(** A real variable: an assertion fails unless it is nullable and its maximum
    is below its size in bytes. *)
Theorem C134_fvar f a b : f_min f = inject_Z a -> f_max f = inject_Z b ->
  evaluates (text "FVar") fvar_init (fvar_repr f)
    (if f_nullable f && (b <? Z.of_nat (f_size f))
     then Ok (mkfvar (str_int a) (inject_Z b) (inject_Z (Z.of_nat (f_size f))) 1
                (inject_Z (Z.of_nat (f_size f)) - inject_Z b)%Q 256 false)
     else Err AssertionError).
Proof. exact (fvar_back f a b). Qed.

(** str() of a variable tells its kind, name, bounds and nullability,
    whatever characters the name has. *)
Theorem C134_ivar_text f g : ivar_str f = ivar_str g ->
  i_name f = i_name g /\ i_min f = i_min g /\ i_max f = i_max g /\ i_nullable f = i_nullable g.
Proof. exact (ivar_str_inj f g). Qed.
Theorem C134_fvar_text f g a b c d :
  f_min f = inject_Z a -> f_max f = inject_Z b -> f_min g = inject_Z c -> f_max g = inject_Z d ->
  fvar_str f = fvar_str g ->
  f_name f = f_name g /\ f_min f = f_min g /\ f_max f = f_max g /\ f_nullable f = f_nullable g.
Proof. exact (fvar_str_inj f g a b c d). Qed.
Theorem C134_svar_text f g : svar_str f = svar_str g -> f = g.
Proof. exact (svar_str_inj f g). Qed.
Theorem C134_kinds f g h : ivar_str f <> fvar_str g /\ ivar_str f <> svar_str h /\ fvar_str g <> svar_str h.
Proof. exact (kinds f g h). Qed.

Example C134_box_case : bb_repr (mkbb (-3) 10 7 205) = text "BBox((-3, 10), (7, 205))".
Proof. reflexivity. Qed.
Example C134_points_case : evaluates (text "BBox") bb_init (text "BBox(((3, 1), (-2, 9)))") (Ok (mkbb (-2) 1 3 9)).
Proof. eexists. split; [exists 9%nat; vm_compute; reflexivity|reflexivity]. Qed.
Example C134_buffer_case : exists b, buf_new 4 = Ok b /\ buf_repr b = text "Buffer(4)" /\
  exists b', b_push b 7 = Ok b' /\ buf_repr b' = buf_repr b /\ buf_text 9 b' = Some (Ok (text "<7>")) /\
  exists b'', b_push b' (-12) = Ok b'' /\ b_str 9 b'' = Some (Ok [Some 7; Some (-12)]) /\
    buf_text 9 b'' = Some (Ok (text "<7 -12>")).
Proof.
  eexists. split; [vm_compute; reflexivity|]. split; [reflexivity|].
  eexists. split; [vm_compute; reflexivity|]. split; [reflexivity|]. split; [vm_compute; reflexivity|].
  eexists. split; [vm_compute; reflexivity|]. split; vm_compute; reflexivity.
Qed.
Example C134_ivar_case : exists f, ivar_new (text "age") 0 120 true = Ok f /\
  ivar_repr f = text "IVar(0, 120, True)" /\ ivar_str f = text "integer age in [0; 120] or null" /\
  b2z (i_nullable f) <= i_max f.
Proof. eexists. split; [vm_compute; reflexivity|]. repeat split; vm_compute; congruence. Qed.
Example C134_ivar_other : exists f g, ivar_new (text "depth") (-90) (-10) false = Ok f /\
  evaluates (text "IVar") ivar_init (ivar_repr f) (Ok g) /\ i_min g = -10 /\ i_max g = 0 /\ i_name g = text "-90".
Proof.
  eexists. eexists. split; [vm_compute; reflexivity|].
  split; [eexists; split; [exists 9%nat; vm_compute; reflexivity|vm_compute; reflexivity]|]. repeat split.
Qed.
Example C134_fvar_case : exists f, fvar_new (text "lon") (inject_Z (-180)) (inject_Z 180) 8 false = Ok f /\
  fvar_repr f = text "FVar(-180, 180, 8, False)" /\ fvar_str f = text "real lon in [-180; 180]".
Proof. eexists. split; [vm_compute; reflexivity|]. split; reflexivity. Qed.
Example C134_fvar_other : exists f, fvar_new (text "t") (inject_Z (-9)) (inject_Z 3) 4 true = Ok f /\
  f_nullable f && (3 <? Z.of_nat (f_size f)) = true.
Proof. eexists. split; [vm_compute; reflexivity|]. reflexivity. Qed.
Example C134_svar_case : svar_repr (mksvar (text "city") 20 true) = text "SVar(20, True)" /\
  svar_str (mksvar (text "city of x") 20 true) = text "string city of x of 20 bytes or null".
Proof. split; reflexivity. Qed.

Print Assumptions C134_one_meaning.
Print Assumptions C134_box.
Print Assumptions C134_box_text.
Print Assumptions C134_box_many.
Print Assumptions C134_buffer.
Print Assumptions C134_buffer_text.
Print Assumptions C134_ivar_refuted.
Print Assumptions C134_ivar_never.
Print Assumptions C134_svar.
Print Assumptions C134_fvar.
Print Assumptions C134_ivar_text.
Print Assumptions C134_fvar_text.
Print Assumptions C134_svar_text.
Print Assumptions C134_kinds.
