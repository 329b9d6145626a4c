(** Vocabulary of the statements about drawings in exact arithmetic: points
    drawn, pages and text anchors. *)
From Coq Require Import Reals Lra.
From Verif Require Import Num RealNum BBoxModel StrModel Text VectorModel PsSpec VectorSpec.
Open Scope R_scope.

Definition covers (b : bbox R) (p : R * R) : Prop := bx0 b <= fst p <= bx1 b /\ by0 b <= snd p <= by1 b.
Definition segment (a b p : R * R) : Prop :=
  exists t, 0 <= t <= 1 /\ fst p = fst a + t * (fst b - fst a) /\ snd p = snd a + t * (snd b - snd a).
Definition img_height (data : list Z) (w : Z) (color : bool) : Z := (Z.of_nat (length data) / (if color then 3 * w else w))%Z.
(** The points of a drawing: discs, segments between the vertices, rectangles
    of images. Texts are left out: they do not count for the canvas box. *)
Definition drawn (o : op R) (p : R * R) : Prop :=
  match o with
  | OCircle (x, y) r _ _ => (fst p - x) ^ 2 + (snd p - y) ^ 2 <= r ^ 2
  | OPolyline l _ | OPolygon l _ _ | ORounded l _ _ _ => exists a b, In a l /\ In b l /\ segment a b p
  | OImage data w pos z col =>
      let '(x, y) := match pos with Some q => q | None => (0, 0) end in
      x <= fst p <= x + IZR w * z /\ y <= snd p <= y + IZR (img_height data w col) * z
  | _ => False
  end.
(** Shapes of positive width and height *)
Definition solid (o : op R) : Prop :=
  match o with
  | OCircle _ r _ _ => 0 < r
  | OPolyline l _ | OPolygon l _ _ | ORounded l _ _ _ =>
      l = [] \/ ((exists a b, In a l /\ In b l /\ fst a < fst b) /\ (exists a b, In a l /\ In b l /\ snd a < snd b))
  | OImage data w pos z col => 0 < IZR w * z /\ 0 < IZR (img_height data w col) * z
  | _ => True
  end.
(** The calls after the last resetbbox *)
Fixpoint since (acc l : list (op R)) : list (op R) :=
  match l with [] => acc | OReset :: r => since [] r | o :: r => since (acc ++ [o]) r end.
(** Every side of the box touches something drawn. *)
Definition touches (l : list (op R)) (b : bbox R) : Prop :=
  (exists o p, In o l /\ drawn o p /\ fst p = bx0 b) /\ (exists o p, In o l /\ drawn o p /\ fst p = bx1 b) /\
  (exists o p, In o l /\ drawn o p /\ snd p = by0 b) /\ (exists o p, In o l /\ drawn o p /\ snd p = by1 b).

(** Where a transformation puts a point *)
Definition at_ctm (m : (R * R) * (R * R)) (p : R * R) : R * R :=
  let '((sx, sy), (tx, ty)) := m in (sx * fst p + tx, sy * snd p + ty).

(** A box of width w and height h with lower left corner [q] has its anchor
    point at [p]. *)
Definition anchored (a : list Z) (w h : R) (p q : R * R) : Prop :=
  (if existsb (zlist_eqb a) [text "l"; text "tl"; text "bl"] then fst q = fst p
   else if existsb (zlist_eqb a) [text "r"; text "tr"; text "br"] then fst q + w = fst p else fst q + w / 2 = fst p) /\
  (if existsb (zlist_eqb a) [text "b"; text "bl"; text "br"] then snd q = snd p
   else if existsb (zlist_eqb a) [text "t"; text "tl"; text "tr"] then snd q + h = snd p else snd q + h / 2 = snd p).
Definition in_page (s margin : R) (q : R * R) : Prop := margin / 2 <= fst q <= s - margin / 2 /\ margin / 2 <= snd q <= s - margin / 2.

Section Gen.
  Context {T : Type} `{PyNum T}.
  (** The position at which something is shown *)
  Definition shown_at (e : event T) (q : T * T) : Prop := exists l, e_path e = l ++ [PMove q].
  (** Images asked for and images shown: colour or gray, columns, rows, samples *)
  Definition images (l : list (op T)) : list (bool * T * T * list Z) :=
    flat_map (fun o => match o with
                       | OImage data w _ _ col =>
                           let cw := (if col then 3 * w else w)%Z in
                           let ht := (Z.of_nat (length data) / cw)%Z in
                           [(col, nofZ w, nofZ ht, firstn (Z.to_nat (cw * ht)) data)]
                       | _ => []
                       end) l.
  Definition images_shown (l : list (event T)) : list (bool * T * T * list Z) :=
    flat_map (fun e => match e_kind e with EImage col w h _ _ data => [(col, w, h, data)] | _ => [] end) l.
  (** The procedure names a history needs *)
  Definition needs (l : list (op T)) (k : list Z) : Prop :=
    exists p s z f a, In (OText p s z f a) l /\ (k = text "sz" \/ k = text "s" ++ a).
End Gen.
(** A definition of the procedure [k], taken from the file of definitions *)
Definition defines (k b : list Z) : Prop :=
  (exists body, b = text "/" ++ k ++ text " {" ++ body ++ text "} bd" ++ [10%Z]) /\ exists pre post, DEFS_PS = pre ++ b ++ post.
(** A file of definitions: every block ends with a blank line. *)
Definition nonblank (l : list Z) : Prop := exists w, l = w ++ [10%Z] /\ ~ In 10%Z w /\ exists c, In c w /\ is_space c = false.
Definition blank_line (l : list Z) : Prop := exists w, l = w ++ [10%Z] /\ ~ In 10%Z w /\ Forall (fun c => is_space c = true) w.
(** Block of definition [k]: its first line starts with one character, the
    name and a space. *)
Definition is_block (k : list Z) (ls : list (list Z)) : Prop :=
  Forall nonblank ls /\ ~ In 32%Z k /\ exists c rest more, ls = (c :: k ++ [32%Z] ++ rest) :: more /\ c <> 32%Z.

Section Calls.
  Context {T : Type} `{PyNum T}.
  (** Arguments a call accepts *)
  Definition usable (i : ink T) : Prop := ink_of i <> None.
  Definition accepts (o : op T) : Prop :=
    match o with
    | OSetink i => usable i
    | OCircle _ _ _ _ => Forall usable (inks_of o)
    | OPolyline l _ | OPolygon l _ _ => l = [] \/ Forall usable (inks_of o)
    | ORounded l _ _ _ => (2 <= length l)%nat /\ Forall usable (inks_of o)
    | OText _ _ _ _ a => In a [text "c"; text "t"; text "tr"; text "r"; text "br"; text "b"; text "bl"; text "l"; text "tl"]
    | OImage _ w _ _ _ => w <> 0%Z
    | _ => True
    end.
  (** The exception of a call that does not accept its arguments *)
  Definition complaint (o : op T) (e : exn) : Prop :=
    match o with
    | OText _ _ _ _ _ => e = AssertionError
    | OImage _ _ _ _ _ => e = ZeroDivisionError
    | ORounded l _ _ _ => if (length l <? 2)%nat then e = ValueError else e = TypeError
    | _ => e = TypeError
    end.
  (** Calls that check their arguments before anything else *)
  Definition checked_first (o : op T) : Prop := match o with OSetink _ | OText _ _ _ _ _ | OImage _ _ _ _ _ => True | _ => False end.
End Calls.
(** A background that can be painted *)
Definition good_bg {T} (bg : option (ink T)) : Prop := match bg with Some (ITuple (_ :: _ :: _ :: _)) | Some (IGray _) | None => True | _ => False end.

Section Gen2.
  Context {T : Type} `{PyNum T}.
  (** Texts asked for and texts shown: string, font, size *)
  Definition texts (l : list (op T)) : list (list Z * list Z * T) := flat_map (fun o => match o with OText _ s z f _ => [(s, f, z)] | _ => [] end) l.
  Definition texts_shown (l : list (event T)) : list (list Z * list Z * T) := flat_map (fun e => match e_kind e with EText s f z => [(s, f, z)] | _ => [] end) l.
End Gen2.
(** Digits 0-9 and a-f, two for each byte *)
Inductive hex_digits : list Z -> list Z -> Prop :=
| hex_nil : hex_digits [] []
| hex_cons a b u v l m : hex_val a = Some u -> hex_val b = Some v -> hex_digits l m -> hex_digits (a :: b :: l) ((16 * u + v)%Z :: m).
