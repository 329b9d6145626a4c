(** Documents that json writes without escapes. *)
From Coq Require Import SpecFloat.
From Verif Require Import Py Num Text BBoxModel NumTextModel NumTextSpec JsonModel.
Open Scope Z_scope.

(** ASCII without control characters, quotation marks and backslashes *)
Definition simple (s : list Z) : Prop := Forall (fun c => 32 <= c < 127 /\ c <> 34 /\ c <> 92) s.
(** All strings and keys are simple, all numbers are ints or doubles. *)
Inductive writable : doc -> Prop :=
| w_num x : a_number x -> writable (DNum x)
| w_str s : simple s -> writable (DStr s)
| w_arr l : Forall writable l -> writable (DArr l)
| w_obj l : Forall (fun kv => simple (fst kv)) l -> Forall writable (map snd l) -> writable (DObj l).
Definition good_settings (f : settings) : Prop :=
  simple (st_type f) /\ a_number (fst (st_center f)) /\ a_number (snd (st_center f)) /\ corners a_number (st_box f) /\
  match st_shape f with Sphere r => a_number r | Ellipsoid a b e g => a_number a /\ a_number b /\ a_number e /\ a_number g end.
(** d[k], where of several values under one key the last one counts *)
Definition get (k : list Z) (d : option doc) : option doc :=
  match d with
  | Some (DObj l) => fold_left (fun r kv => if list_eq_dec Z.eq_dec (fst kv) k then Some (snd kv) else r) l None
  | _ => None
  end.
(** What frame.py:118-131 takes out of the document *)
Definition has_settings (d : option doc) (f : settings) : Prop :=
  let b := get (text "bounding") d in
  let p := get (text "projection") d in
  let m := get (text "model") p in
  get (text "x0") b = Some (DNum (bx0 (st_box f))) /\ get (text "y0") b = Some (DNum (by0 (st_box f))) /\
  get (text "x1") b = Some (DNum (bx1 (st_box f))) /\ get (text "y1") b = Some (DNum (by1 (st_box f))) /\
  get (text "type") p = Some (DStr (st_type f)) /\
  get (text "center") p = Some (DArr [DNum (fst (st_center f)); DNum (snd (st_center f))]) /\
  match st_shape f with
  | Sphere r => get (text "type") m = Some (DStr (text "sphere")) /\ get (text "r") m = Some (DNum r)
  | Ellipsoid a b e g => get (text "type") m = Some (DStr (text "ellipsoid")) /\ get (text "a") m = Some (DNum a) /\ get (text "b") m = Some (DNum b) /\
                         get (text "e") m = Some (DNum e) /\ get (text "f") m = Some (DNum g)
  end.
