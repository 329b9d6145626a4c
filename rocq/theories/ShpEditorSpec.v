(** Specification vocabulary for shapefile.Editor. From the models only the
    argument and result types are used, and the methods of Writer and Editor as
    they are called. *)
From Verif Require Import Py ShpFile ShpWriterModel ShpReaderModel ShpEditorModel ShpSpec ShpPrograms ShpTableSpec ShpTablePrograms.
Open Scope Z_scope.

(** ** Saving what was read *)
(** The types that can be saved as they are read, and those with one vertex per
    shape *)
Definition flat_type (t : Z) : Prop := In t [1; 3; 5; 8; 11; 21].
Definition point_type (t : Z) : Prop := In t [1; 11; 21].
(** The vertices of a shape that a file of type [t] holds *)
Definition kept (t : Z) (g : geometry) : list vertex := if existsb (Z.eqb t) [1; 11; 21] then firstn 1 (vertices g) else vertices g.
(** The ranges of z and m in a header when there are no such numbers *)
Definition no_range : list dbl := [dbl_zero; dbl_zero].
(** A cell, as read, that is not blank; its text, if it is a float, is that of
    this float. *)
Definition solid (fr : list Z -> list Z) (c : cell) : Prop :=
  match c with CStr t => t <> [] | CInt _ => True | CFloat s => fr s = s | CBytes _ => False end.

(** ** Edits *)
(** An argument that is None or 0 *)
Definition absent (o : option Z) : Prop := o = None \/ o = Some 0.
(** Elements that are shapes, not lists *)
Definition ordinary (x : elem) : Prop := match x with EList _ => False | _ => True end.
(** A shape of type 1 *)
Definition a_point (x : elem) : Prop :=
  match x with EShape s => s_type s = Some 1 | EPoint t _ _ _ _ => t = Some 1 | EList _ => False end.
(** Added by point; without z, without m *)
Definition added_point (x : elem) : Prop := match x with EPoint _ _ _ _ _ => True | _ => False end.
Definition missing_m (x : elem) : Prop := match x with EPoint _ _ _ _ None => True | _ => False end.
Definition missing_z (x : elem) : Prop := match x with EPoint _ _ _ None _ => True | _ => False end.
(** The shape that an element is for a Writer *)
Definition item_shape (x : elem) (s : shape) : Prop :=
  match x with
  | EShape s' => s = s'
  | EPoint t x y (Some z) (Some m) => s = mkShape t [[x; y; z; m]] None None None None None
  | _ => False
  end.
(** The type of the first shape; [t] if a list comes first *)
Definition first_type (l : list elem) (t : option Z) : option Z :=
  match l with EShape s :: _ => s_type s | EPoint u _ _ _ _ :: _ => u | _ => t end.
(** A step of a program for a Writer, done with an Editor *)
Definition do_edit (s : step) : M editor unit :=
  match s with
  | Shape (Point x y z m) => edit_point x y (Some z) (Some m) None None None None
  | _ => inherited (do_step s)
  end.
(** The same program with some calls of null() after calls of point() *)
Inductive with_nulls : list step -> list step -> Prop :=
| wn_nil : with_nulls [] []
| wn_keep s l l' : with_nulls l l' -> with_nulls (s :: l) (s :: l')
| wn_null x y z m l l' : with_nulls l l' -> with_nulls (Shape (Point x y z m) :: l) (Shape (Point x y z m) :: Shape Null :: l').

(** An Editor and a Writer in the same state *)
Definition same_state (e : editor) (w : writer) : Prop :=
  Forall2 item_shape (e_items e) (w_shapes w) /\
  w_type (e_w e) = w_type w /\ w_fields (e_w e) = w_fields w /\ w_records (e_w e) = w_records w /\
  w_offsets (e_w e) = w_offsets w /\ w_lengths (e_w e) = w_lengths w /\
  w_shp (e_w e) = w_shp w /\ w_shx (e_w e) = w_shx w /\ w_dbf (e_w e) = w_dbf w /\ w_default (e_w e) = w_default w.
(** An Editor of a file of type [t] with the shapes [ss] and the rows [table] in
    the columns [fs] *)
Definition shows_file (auto : bool) (t : Z) (ss : list shape) (fs : list field) (table : list (list cell)) (e : editor) : Prop :=
  e_auto e = auto /\ e_items e = map EShape ss /\ w_type (e_w e) = Some t /\ w_fields (e_w e) = fs /\ w_records (e_w e) = table /\
  w_offsets (e_w e) = [] /\ w_lengths (e_w e) = [].
