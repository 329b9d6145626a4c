(** Model of shapefile.Editor (coral/shapefile.py:1066-1182), on top of the
    models of Writer and Reader. *)
From Verif Require Import Py ShpFile ShpWriterModel ShpReaderModel.
Open Scope Z_scope.
Open Scope m_scope.

(** An element of [_shapes] (shapefile.py:1112-1153): a shape; a shape made by
    [point], where z or m may be None (shapefile.py:1114, 1157); or a list that
    [point] has appended, whose elements are lists of points (shapefile.py:1121,
    1134, 1145). Simplified: x and y are always floats. *)
Inductive elem : Type :=
| EShape (s : shape)
| EPoint (t : option Z) (x y : dbl) (z m : option dbl)
| EList (l : list (list (list (option dbl)))).

(** The attributes of an Editor: autoBalance, [_shapes], and the other
    attributes of a Writer ([w_shapes] of [e_w] is not used). *)
Record editor : Type := mkEditor { e_auto : bool; e_items : list elem; e_w : writer }.
Definition e_set_items l e := mkEditor (e_auto e) l (e_w e).
Definition e_set_w w e := mkEditor (e_auto e) (e_items e) w.

(** A method that Editor inherits and that only appends to [_shapes]: null,
    line, poly, field, record (shapefile.py:925-999). *)
Definition inherited (m : M writer unit) : M editor unit :=
  fun e => let '(w, r) := m (w_set_shapes [] (e_w e)) in
    (mkEditor (e_auto e) (e_items e ++ map EShape (w_shapes w)) (w_set_shapes (w_shapes (e_w e)) w), r).

(** shapefile.py:1067-1070: Editor(shapeType=t, autoBalance=b) *)
Definition new_editor (t : option Z) (auto : bool) : editor := mkEditor auto [] (Writer t).
(** shapefile.py:1071-1078: Editor(path, autoBalance=b); the arguments are the
    contents of the files path.shp, path.shx and path.dbf (None: no such file).
    The list of fields is shared with the Reader. [Ok None] is an object without the attributes of a Writer: without a .shp
    file nothing is initialised. The outer None: the fuel of shapes() ran out. *)
Definition open_editor (fuel : nat) (auto : bool) (shp shx dbf : option (list Z)) : option (res (option editor)) :=
  match shp, shx, dbf with
  | None, _, _ => Some (Ok None)
  | Some _, Some _, Some _ =>
      match Reader shp shx dbf with
      | (_, Err e) => Some (Err e)
      | (r, Ok _) =>
          match shapes fuel r with
          | (_, Err e) => Some (Err e)
          | (_, Ok None) => None
          | (r1, Ok (Some ss)) =>
              match records r1 with
              | (_, Err e) => Some (Err e)
              | (r2, Ok rs) => Some (Ok (Some (mkEditor auto (map EShape ss)
                                 (w_set_records rs (w_set_fields (r_fields r2) (Writer (r_type r)))))))
              end
          end
      end
  | _, _, _ => Some (Err ShapefileException)
  end.
(** A method call on such an object: every method reads an attribute of a
    Writer first (shapefile.py:1085-1110: only when an argument is given). *)
Definition call_on {A} (m : M editor A) : M (option editor) A :=
  fun o => match o with
           | Some e => let '(e', r) := m e in (Some e', r)
           | None => (None, Err AttributeError)
           end.

(** ** Lists inside the editor *)
(** [del l[i]] *)
Definition py_del {A} (l : list A) (i : Z) : res (list A) :=
  let n := Z.of_nat (length l) in
  let j := if i <? 0 then i + n else i in
  if (0 <=? j) && (j <? n) then Ok (firstn (Z.to_nat j) l ++ skipn (S (Z.to_nat j)) l) else Err IndexError.
(** Something done to [l[i]] in place *)
Definition in_list {A B} (i : Z) (m : M A B) : M (list A) B :=
  fun l => match py_get l i with
           | Ok a => let '(a', r) := m a in
                     (match py_set l i a' with Ok l' => l' | Err _ => l end, r)
           | Err e => (l, Err e)
           end.
(** Something done to the list [_shapes[i]]; a shape is not subscriptable. *)
Definition in_item {B} (i : Z) (m : M (list (list (list (option dbl)))) B) : M editor B :=
  fun e => match py_get (e_items e) i with
           | Ok (EList l) => let '(l', r) := m l in
                             (match py_set (e_items e) i (EList l') with Ok x => e_set_items x e | Err _ => e end, r)
           | Ok _ => (e, Err TypeError)
           | Err x => (e, Err x)
           end.
(** [try: m except IndexError: h] *)
Definition on_index_error {S} (m h : M S unit) : M S unit :=
  fun s => match m s with (s', Err IndexError) => h s' | x => x end.
Definition lift_list {A} (g : list A -> res (list A)) : M (list A) unit :=
  fun l => match g l with Ok l' => (l', Ok tt) | Err e => (l, Err e) end.
Definition on_items (g : list elem -> res (list elem)) : M editor unit :=
  fun e => match g (e_items e) with Ok l => (e_set_items l e, Ok tt) | Err x => (e, Err x) end.

(** ** delete: shapefile.py:1085-1110 *)
(** shapefile.py:1098-1103: the list is iterated by position while elements are
    deleted from it; its length is enough fuel. *)
Definition elem_type (x : elem) : res (option Z) :=
  match x with EShape s => Ok (s_type s) | EPoint t _ _ _ _ => Ok t | EList _ => Err AttributeError end.
Definition elem_parts (x : elem) : option (list Z) :=
  match x with EShape s => s_parts s | _ => None end.
Fixpoint del_points (fuel i : nat) (p : Z) : M editor unit :=
  match fuel with
  | O => ret tt
  | S k =>
      e <~ get ;;
      match nth_error (e_items e) i with
      | None => ret tt
      | Some x =>
          t <~ lift (elem_type x) ;;
          (if type_is t 1 then on_items (fun l => py_del l p)
           else match elem_parts x with
                | None => raise AttributeError
                | Some [] => ret tt
                | Some _ => raise TypeError
                end) ;;;
          del_points k (S i) p
      end
  end.
Definition val (o : option Z) : Z := match o with Some z => z | None => 0 end.
Definition delete (shape part point : option Z) : M editor unit :=
  match truthy shape, truthy part, truthy point with
  | true, true, true => in_item (val shape) (in_list (val part) (lift_list (fun l => py_del l (val point))))
  | true, true, false => in_item (val shape) (lift_list (fun l => py_del l (val part)))
  | true, false, false => on_items (fun l => py_del l (val shape))
  | false, false, true => e <~ get ;; del_points (length (e_items e)) 0 (val point)
  | false, true, true =>
      e <~ get ;;
      for_each (fun i => in_item (Z.of_nat i) (in_list (val part) (lift_list (fun l => py_del l (val point)))))
        (seq 0 (length (e_items e)))
  | false, true, false =>
      e <~ get ;;
      for_each (fun i => in_item (Z.of_nat i) (lift_list (fun l => py_del l (val part)))) (seq 0 (length (e_items e)))
  | _, _, _ => ret tt
  end.

(** ** balance: shapefile.py:1166-1173 *)
Definition balance : M editor unit :=
  e <~ get ;;
  let r := length (w_records (e_w e)) in
  let n := length (e_items e) in
  if (n <? r)%nat then inherited null
  else if (r <? n)%nat then inherited (record (RecList []))
  else ret tt.

(** ** point: shapefile.py:1112-1159 *)
(** [if v: p[k] = v] *)
Definition put_coord (k : Z) (v : option dbl) : M (list (option dbl)) unit :=
  match v with
  | Some d => if dbl_eq d dbl_zero then ret tt else lift_list (fun l => py_set l k v)
  | None => ret tt
  end.
(** shapefile.py:1127-1130, 1142-1145 *)
Definition put_coords (x y : dbl) (z m : option dbl) : M (list (option dbl)) unit :=
  put_coord 0 (Some x) ;;; put_coord 1 (Some y) ;;; put_coord 2 z ;;; put_coord 3 m.
Definition grow {A} : M (list (list A)) unit := modify (fun l => l ++ [[]]).
(** shapefile.py:1119-1120, 1134-1135, 1148-1149 *)
Definition ensure_shape (i : Z) : M editor unit :=
  on_index_error (e <~ get ;; lift (py_get (e_items e) i) ;;; ret tt)
    (modify (fun e => e_set_items (e_items e ++ [EList []]) e)).
(** shapefile.py:1121-1122, 1136-1137 *)
Definition ensure_part (i j : Z) : M editor unit :=
  on_index_error (in_item i (in_list j (ret tt))) (in_item i grow).
(** shapefile.py:1123-1124 *)
Definition ensure_point (i j k : Z) : M editor unit :=
  on_index_error (in_item i (in_list j (in_list k (ret tt)))) (in_item i (in_list j grow)).
Definition point_at (x y : dbl) (z m : option dbl) (shape part point : option Z) : M editor unit :=
  match truthy shape, truthy part, truthy point with
  | true, true, true =>
      ensure_shape (val shape) ;;;
      ensure_part (val shape) (val part) ;;;
      ensure_point (val shape) (val part) (val point) ;;;
      in_item (val shape) (in_list (val part) (in_list (val point) (put_coords x y z m)))
  | true, true, false =>
      ensure_shape (val shape) ;;;
      ensure_part (val shape) (val part) ;;;
      n <~ in_item (val shape) (in_list (val part) (l <~ get ;; ret (length l))) ;;
      for_each (fun i => in_item (val shape) (in_list (val part) (in_list (Z.of_nat i) (put_coords x y z m)))) (seq 0 n)
  | true, false, false => ensure_shape (val shape)
  | _, _, _ => ret tt
  end.
(** shapefile.py:1150-1159; Writer.point: 929-933 *)
Definition edit_point (x y : dbl) (z m : option dbl) (shape part point : option Z) (addr : option (Z * Z * Z)) : M editor unit :=
  point_at x y z m shape part point ;;;
  (match addr with
   | Some (i, j, k) => in_item i (in_list j (lift_list (fun l => py_set l k [Some x; Some y; z; m])))
   | None => modify (fun e => e_set_items (e_items e ++ [EPoint (w_type (e_w e)) x y z m]) e)
   end) ;;;
  e <~ get ;;
  when (e_auto e) balance.

(** ** Saving: the methods of Writer on the items *)
(** The items when all of them are shapes without None *)
Fixpoint plain (l : list elem) : option (list shape) :=
  match l with
  | [] => Some []
  | EShape s :: r => option_map (cons s) (plain r)
  | EPoint t x y (Some z) (Some m) :: r => option_map (cons (set_points [[x; y; z; m]] (new_shape t))) (plain r)
  | _ :: _ => None
  end.
(** A method of Writer run on an editor whose items are such shapes *)
Definition as_writer (ss : list shape) (m : M writer unit) : M editor unit :=
  fun e => let '(w, r) := m (w_set_shapes ss (e_w e)) in
    (mkEditor (e_auto e) (map EShape (w_shapes w)) (w_set_shapes (w_shapes (e_w e)) w), r).

(** shapefile.py:618-675 on any items: a list has no attribute parts or points,
    and the numbers of an earlier item are used. *)
Definition elem_size (t : option Z) (st : Z * option Z * option Z) (x : elem) : res (Z * option Z * option Z) :=
  let '(size, nParts, nPoints) := st in
  match x with
  | EShape s => (r <- shape_size t (size, nParts) s ;; Ok (fst r, snd r, Some (Z.of_nat (length (s_points s)))))%res
  | EPoint _ _ _ _ _ =>
      (r <- shape_size t (size, nParts) (set_points [[]] (new_shape t)) ;; Ok (fst r, snd r, Some 1))%res
  | EList _ =>
      let s := set_points (repeat [] (Z.to_nat (val nPoints))) (new_shape t) in
      (_ <- (if type_in t [3; 5; 13; 15; 23; 25; 31] then n <- need_parts nParts ;; Ok tt else Ok tt) ;;
       _ <- (if type_in t [3; 5; 8; 13; 15; 18; 23; 25; 31] then n <- need_parts nPoints ;; Ok tt else Ok tt) ;;
       r <- shape_size t (size, nParts) s ;; Ok (fst r, nParts, nPoints))%res
  end.
(** min and max of numbers that may be None: comparing with None raises
    TypeError. *)
Definition opt_lt (a b : option dbl) : res bool :=
  match a, b with Some x, Some y => Ok (dbl_lt x y) | _, _ => Err TypeError end.
Definition opt_min (l : list (option dbl)) : res (option dbl) :=
  match l with
  | [] => Err ValueError
  | x :: r => foldM (fun a b => c <- opt_lt b a ;; Ok (if c : bool then b else a))%res r x
  end.
Definition opt_max (l : list (option dbl)) : res (option dbl) :=
  match l with
  | [] => Err ValueError
  | x :: r => foldM (fun a b => c <- opt_lt a b ;; Ok (if c : bool then b else a))%res r x
  end.
(** [s.points] *)
Definition elem_points (x : elem) : res (list (list (option dbl))) :=
  match x with
  | EShape s => Ok (map (map Some) (s_points s))
  | EPoint _ x y z m => Ok [[Some x; Some y; z; m]]
  | EList _ => Err AttributeError
  end.
(** shapefile.py:677-687 *)
Definition elem_columns (p : list (list (option dbl))) : res (list (option dbl) * list (option dbl)) :=
  match p with
  | [] => Err ValueError
  | _ => if forallb (fun q => 2 <=? Z.of_nat (length q)) p
         then Ok (map (fun q => nth 0 q None) p, map (fun q => nth 1 q None) p)
         else Err ValueError
  end.
Definition items_box (l : list elem) : res (list (option dbl)) :=
  (cs <- mapM (fun x => p <- elem_points x ;; elem_columns p) l ;;
   let x := flat_map fst cs in
   let y := flat_map snd cs in
   x0 <- opt_min x ;; y0 <- opt_min y ;; x1 <- opt_max x ;; y1 <- opt_max y ;;
   Ok [x0; y0; x1; y1])%res.
Fixpoint opt_coords (k : nat) (points : list (list (option dbl))) : list (option dbl) :=
  match points with
  | [] => []
  | p :: r => match nth_error p k with Some v => v :: opt_coords k r | None => [] end
  end.
(** shapefile.py:689-698 *)
Definition items_zbox (l : list elem) : res (list (option dbl)) :=
  (ps <- mapM elem_points l ;;
   let z := flat_map (opt_coords 2) ps in
   let z := match z with [] => [Some dbl_zero] | _ => z end in
   a <- opt_min z ;; b <- opt_max z ;; Ok [a; b])%res.
(** shapefile.py:700-708 *)
Definition items_mbox (l : list elem) : res (list (option dbl)) :=
  (ps <- mapM elem_points l ;;
   let m := Some dbl_zero :: flat_map (opt_coords 3) ps in
   a <- opt_min m ;; b <- opt_max m ;; Ok [a; b])%res.
(** pack("<4d", ...): None raises struct.error, which becomes
    ShapefileException. *)
Definition pack_opts (l : list (option dbl)) : res (list Z) :=
  rmap pack_ds (mapM (fun o => match o with Some d => Ok d | None => Err ShapefileException end) l).
(** shapefile.py:710-754 on any items *)
Definition items_header (t : option Z) (l : list elem) (shx : bool) : M file unit :=
  f_seek 0 ;;;
  f_put (pack_many pack_bi [9994; 0; 0; 0; 0; 0]) ;;;
  (if shx then f_put (pack_bi ((100 + Z.of_nat (length l) * 8) / 2))
   else st <~ lift (foldM (elem_size t) l (100, None, None)) ;; f_put (pack_bi (fst (fst st) / 2))) ;;;
  f_put (pack_many pack_li_opt [Some 1000; t]) ;;;
  (if type_is t 0 then f_write (pack_ds [dbl_zero; dbl_zero; dbl_zero; dbl_zero])
   else b <~ lift (items_box l) ;; f_put (pack_opts b)) ;;;
  z <~ lift (items_zbox l) ;;
  m <~ lift (items_mbox l) ;;
  f_put (pack_opts (z ++ m)).
(** shapefile.py:1012-1013 on any items *)
Definition items_type : M editor unit :=
  e <~ get ;;
  match w_type (e_w e) with
  | None | Some 0 =>
      x <~ lift (py_get (e_items e) 0) ;;
      t <~ lift (elem_type x) ;;
      modify (fun e => e_set_w (w_set_type t (e_w e)) e)
  | _ => ret tt
  end.
(** shapefile.py:1008-1026. With an item that is a list or contains None the
    header is modelled only: it always raises (ShpEditor.v). *)
Definition e_saveShp (target : file) : M editor unit :=
  e <~ get ;;
  match plain (e_items e) with
  | Some ss => as_writer ss (saveShp target)
  | None =>
      items_type ;;;
      modify (fun e => e_set_w (w_set_shp target (e_w e)) e) ;;;
      e <~ get ;;
      zoom e_w e_set_w (on_shp (items_header (w_type (e_w e)) (e_items e) false))
  end.
Definition e_saveShx (target : file) : M editor unit :=
  e <~ get ;;
  match plain (e_items e) with
  | Some ss => as_writer ss (saveShx target)
  | None =>
      items_type ;;;
      modify (fun e => e_set_w (w_set_shx target (e_w e)) e) ;;;
      e <~ get ;;
      zoom e_w e_set_w (on_shx (items_header (w_type (e_w e)) (e_items e) true))
  end.
(** shapefile.py:1028-1034: does not look at the shapes *)
Definition e_saveDbf (fr : list Z -> list Z) (today : Z * Z * Z) (target : file) : M editor unit :=
  zoom e_w e_set_w (saveDbf fr today target).
(** shapefile.py:1036-1064 *)
Definition e_save (fr : list Z -> list Z) (today : Z * Z * Z) (shp shx dbf : file) : M editor unit :=
  e_saveShp shp ;;; e_saveShx shx ;;; e_saveDbf fr today dbf.
