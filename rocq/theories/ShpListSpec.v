(** Lists among the shapes of an Editor: specification. *)
From Verif Require Import Py ShpFile ShpWriterModel ShpEditorModel.
Open Scope Z_scope.

(** [i] is the number of the element between [a] and [b], from either end. *)
Definition between {A} (i : Z) (a b : list A) : Prop := i = Z.of_nat (length a) \/ i = - 1 - Z.of_nat (length b).
(** [i] is not the number of an element of [l]. *)
Definition beyond {A} (i : Z) (l : list A) : Prop := i < - Z.of_nat (length l) \/ Z.of_nat (length l) <= i.
(** A float, if given *)
Definition dbls (o : option dbl) : Prop := match o with Some d => is_dbl d | None => True end.
(** 0.0 or -0.0 *)
Definition naught (d : dbl) : Prop := d = 0 \/ d = 9223372036854775808.
(** An argument replaces a coordinate unless it is None or zero. *)
Inductive coordinate (old : option dbl) : option dbl -> option dbl -> Prop :=
| left_out : coordinate old None old
| zero d : naught d -> coordinate old (Some d) old
| given d : ~ naught d -> coordinate old (Some d) (Some d).
Inductive updated (x y z m : option dbl) : list (option dbl) -> list (option dbl) -> Prop :=
| all_four a b c d a' b' c' d' : coordinate a x a' -> coordinate b y b' -> coordinate c z c' -> coordinate d m d' ->
    updated x y z m [a; b; c; d] [a'; b'; c'; d'].
(** The layer with other shapes *)
Definition with_shapes (l : list elem) (e : editor) : editor := mkEditor (e_auto e) l (e_w e).
(** The end of point(): the point itself, and balance() if wanted *)
Definition balanced (e : editor) : editor * res unit := if e_auto e then balance e else (e, Ok tt).
Definition added (x y : dbl) (z m : option dbl) (l : list elem) (e : editor) : editor * res unit :=
  balanced (with_shapes (l ++ [EPoint (w_type (e_w e)) x y z m]) e).
