(** Model of coral/pf.py: P files. Coordinates are generic numbers
    (exact rationals or doubles). Paths and the file system are left out: the
    writer's close gives the bytes of the file, the reader starts from them.
    The error list (haversine distances) is in PfErrModel. *)
From Verif Require Import Num BBoxModel VlvModel.
Open Scope Z_scope.

(** math.floor, math.ceil and round. *)
Class PyRound (T : Type) : Type := { nfloor : T -> Z; nceil : T -> Z; nround : T -> Z }.
#[export] Instance RoundQ : PyRound Q :=
  { nfloor := Qfloor; nceil := Qceiling; nround := q_round }.
#[export] Instance RoundF : PyRound f64 :=
  { nfloor := f_floor; nceil := f_ceil; nround := f_round }.

(** pf.py:72 *)
Definition UMAX2 : Z := Z.shiftl 1 16 - 1.

(** pf.py:123-138: bytes per coordinate and the largest code. *)
Definition getfmt (size : Z) : res (nat * Z) :=
  if size =? 1 then Ok (1%nat, Z.shiftl 1 8 - 1)
  else if size =? 2 then Ok (2%nat, Z.shiftl 1 16 - 1)
  else if size =? 4 then Ok (4%nat, Z.shiftl 1 32 - 1)
  else if size =? 8 then Ok (8%nat, Z.shiftl 1 64 - 1)
  else Err ValueError.

(** struct.pack(fmt, a, b) *)
Definition pack2 (n : nat) (a b : Z) : res (list Z) :=
  x <- pack_be n a ;; y <- pack_be n b ;; Ok (x ++ y).
(** struct.unpack(fmt, data) *)
Definition unpack2 (n : nat) (bs : list Z) : res (Z * Z) :=
  if Z.of_nat (length bs) =? 2 * Z.of_nat n
  then Ok (be_value (firstn n bs), be_value (skipn n bs)) else Err StructError.

Definition zbox : Type := (Z * Z * Z * Z)%type.

(** pf.py:153-161, the writer's attributes. *)
Record pwriter : Type := mkpw {
  w_size : Z; w_names : list (list Z); w_partlens : list (list Z);
  w_bboxes : list zbox; w_buffers : list (list Z); w_n : nat; w_umax : Z
}.
Definition pf_new (size : Z) : res pwriter :=
  '(n, umax) <- getfmt size ;; Ok (mkpw size [] [] [] [] n umax).

Definition w_add_name (w : pwriter) (name : list Z) : pwriter :=
  mkpw (w_size w) (w_names w ++ [name]) (w_partlens w) (w_bboxes w) (w_buffers w) (w_n w) (w_umax w).
Definition w_add_partlen (w : pwriter) (l : list Z) : pwriter :=
  mkpw (w_size w) (w_names w) (w_partlens w ++ [l]) (w_bboxes w) (w_buffers w) (w_n w) (w_umax w).
Definition w_add_bbox (w : pwriter) (b : zbox) : pwriter :=
  mkpw (w_size w) (w_names w) (w_partlens w) (w_bboxes w ++ [b]) (w_buffers w) (w_n w) (w_umax w).
Definition w_add_data (w : pwriter) (d : list (list Z)) : pwriter :=
  mkpw (w_size w) (w_names w) (w_partlens w) (w_bboxes w) (w_buffers w ++ d) (w_n w) (w_umax w).

Section Pf.
  Context {T : Type} `{PyNum T} `{PyRound T}.
  Notation pt := (T * T)%type (only parsing).

  (** while cond(x): x += d *)
  Fixpoint while_add (fuel : nat) (cond : T -> bool) (d x : T) : option T :=
    match fuel with
    | O => None
    | S f => if cond x then while_add f cond d (nadd x d) else Some x
    end.
  (** pf.py:168-171; lon -= 360 is written as adding -360. *)
  Definition norm_lon (fuel : nat) (lon : T) : option T :=
    match while_add fuel (fun x => nlt x (nofZ (-180))) (nofZ 360) lon with
    | None => None
    | Some x => while_add fuel (fun x => nlt (nofZ 180) x) (nofZ (-360)) x
    end.
  (** pf.py:172-175; both loops add 180. *)
  Definition norm_lat (fuel : nat) (lat : T) : option T :=
    match while_add fuel (fun x => nlt x (nofZ (-90))) (nofZ 180) lat with
    | None => None
    | Some x => while_add fuel (fun x => nlt (nofZ 90) x) (nofZ 180) x
    end.
  Definition norm_point (fuel : nat) (p : pt) : option pt :=
    match norm_lon fuel (fst p) with
    | None => None
    | Some x => match norm_lat fuel (snd p) with None => None | Some y => Some (x, y) end
    end.
  Fixpoint omap {A B} (f : A -> option B) (l : list A) : option (list B) :=
    match l with
    | [] => Some []
    | x :: r => match f x with
                | None => None
                | Some y => match omap f r with None => None | Some ys => Some (y :: ys) end
                end
    end.

  Definition point_eqb (a b : pt) : bool := neq (fst a) (fst b) && neq (snd a) (snd b).
  (** pf.py:178-182: drop a repeated first point; part[0] of an empty part
      raises IndexError. *)
  Definition drop_closing (part : list pt) : res (list pt) :=
    match part with
    | [] => Err IndexError
    | p :: _ => Ok (if point_eqb p (last part p) then removelast part else part)
    end.

  (** pf.py:184-191: the box accumulated over the parts. *)
  Definition bb_step (bb : option (bbox T)) (part : list pt) : res (option (bbox T)) :=
    b <- bb_of_points part ;;
    Ok (Some match bb with None => b | Some a => bb_or a b end).

  (** pf.py:193-196: outward rounding to the 65535-step world grid. *)
  Definition quant_box (b : bbox T) : zbox :=
    (nfloor (ndiv (nmul (nadd (bx0 b) (nofZ 180)) (nofZ UMAX2)) (nofZ 360)),
     nceil (ndiv (nmul (nadd (bx1 b) (nofZ 180)) (nofZ UMAX2)) (nofZ 360)),
     nfloor (ndiv (nmul (nadd (by0 b) (nofZ 90)) (nofZ UMAX2)) (nofZ 180)),
     nceil (ndiv (nmul (nadd (by1 b) (nofZ 90)) (nofZ UMAX2)) (nofZ 180))).
  (** pf.py:201-204 and 273-276 *)
  Definition dequant_box (b : zbox) : T * T * T * T :=
    let '(x0, x1, y0, y1) := b in
    (nsub (ndiv (nofZ (x0 * 360)) (nofZ UMAX2)) (nofZ 180),
     nsub (ndiv (nofZ (x1 * 360)) (nofZ UMAX2)) (nofZ 180),
     nsub (ndiv (nofZ (y0 * 180)) (nofZ UMAX2)) (nofZ 90),
     nsub (ndiv (nofZ (y1 * 180)) (nofZ UMAX2)) (nofZ 90)).

  (** pf.py:207-210 *)
  Definition quant_coord (umax : Z) (a b x : T) : res Z :=
    r <- ndivE (nmul (nsub x a) (nofZ umax)) (nsub b a) ;; Ok (nround r).
  Definition quant_point (n : nat) (umax : Z) (box : T * T * T * T) (p : pt) : res (list Z) :=
    let '(x0, x1, y0, y1) := box in
    ulon <- quant_coord umax x0 x1 (fst p) ;;
    ulat <- quant_coord umax y0 y1 (snd p) ;;
    pack2 n ulon ulat.
  (** pf.py:205-215: the data appended before the loop ends or raises. *)
  Fixpoint quant_points (n : nat) (umax : Z) (box : T * T * T * T) (ps : list pt)
    : list (list Z) * res unit :=
    match ps with
    | [] => ([], Ok tt)
    | p :: r =>
        match quant_point n umax box p with
        | Err e => ([], Err e)
        | Ok d => let '(ds, x) := quant_points n umax box r in (d :: ds, x)
        end
    end.

  (** pf.py:163-215; [None]: a normalising loop has not ended within the fuel.
      Gives the writer's state after the call together with how it ended. *)
  Definition pf_write (fuel : nat) (w : pwriter) (name : list Z) (polygons : list (list pt))
    : option (pwriter * res unit) :=
    match omap (omap (norm_point fuel)) polygons with
    | None => None
    | Some parts0 =>
        Some
        match mapM drop_closing parts0 with
        | Err e => (w, Err e)
        | Ok parts =>
            let w := w_add_name w name in
            match foldM bb_step parts None with
            | Err e => (w, Err e)
            | Ok bb =>
                let w := w_add_partlen w (map (fun p => Z.of_nat (length p)) parts) in
                match bb with
                | None => (w, Err AttributeError)
                | Some bb =>
                    let zb := quant_box bb in
                    let w := w_add_bbox w zb in
                    let '(ds, x) := quant_points (w_n w) (w_umax w) (dequant_box zb) (concat parts) in
                    (w_add_data w ds, x)
                end
            end
        end
    end.

  (** pf.py:217-240, the bytes of the file. *)
  Definition pf_index_entry (w : pwriter) (idx : nat) : res (list Z) :=
    name <- py_get (w_names w) (Z.of_nat idx) ;;
    a <- writeascii name ;;
    partlen <- py_get (w_partlens w) (Z.of_nat idx) ;;
    b <- writevlv (Z.of_nat (length partlen)) ;;
    '(x0, x1, y0, y1) <- py_get (w_bboxes w) (Z.of_nat idx) ;;
    c <- mapM (pack_be 2) [x0; x1; y0; y1] ;;
    d <- mapM writevlv partlen ;;
    Ok (a ++ b ++ concat c ++ concat d).
  Definition pf_close (w : pwriter) : res (list Z) :=
    s <- pack_be 1 (w_size w) ;;
    a <- writevlv (zsum (map zsum (w_partlens w))) ;;
    let nentities := length (w_names w) in
    b <- writevlv (Z.of_nat nentities) ;;
    idx <- mapM (pf_index_entry w) (seq 0 nentities) ;;
    Ok ([80; 70; 0] ++ s ++ a ++ b ++ concat idx ++ concat (w_buffers w)).

  (** ** Reader *)
  Record preader : Type := mkpr {
    r_file : list Z; r_datapos : Z; r_size : Z; r_bboxes : list (T * T * T * T);
    r_names : list (list Z); r_partlens : list (list Z); r_n : nat; r_umax : Z
  }.

  (** struct.unpack(">H", pf.read(2)) *)
  Definition read_h (s : list Z) : res (Z * list Z) :=
    let '(d, r) := f_read 2 s in v <- unpack_be 2 d ;; Ok (v, r).
  Fixpoint read_vlvs (n : nat) (s : list Z) : res (list Z * list Z) :=
    match n with
    | O => Ok ([], s)
    | S m => '(v, s) <- readvlv s ;; '(vs, s) <- read_vlvs m s ;; Ok (v :: vs, s)
    end.
  (** pf.py:268-282, after the name *)
  Definition read_entry (s : list Z) : res (T * T * T * T * list Z * list Z) :=
    '(nparts, s) <- readvlv s ;;
    '(x0, s) <- read_h s ;; '(x1, s) <- read_h s ;;
    '(y0, s) <- read_h s ;; '(y1, s) <- read_h s ;;
    '(lens, s) <- read_vlvs (Z.to_nat nparts) s ;;
    Ok (dequant_box (x0, x1, y0, y1), lens, s).
  (** pf.py:265-282; [None]: readascii has not ended within the fuel. *)
  Fixpoint read_index (fuel n : nat) (s : list Z)
    : option (res (list (list Z * (T * T * T * T) * list Z) * list Z)) :=
    match n with
    | O => Some (Ok ([], s))
    | S m =>
        match readascii fuel s with
        | None => None
        | Some (Err e) => Some (Err e)
        | Some (Ok (name, s)) =>
            match read_entry s with
            | Err e => Some (Err e)
            | Ok (box, lens, s) =>
                match read_index fuel m s with
                | None => None
                | Some (Err e) => Some (Err e)
                | Some (Ok (l, s)) => Some (Ok ((name, box, lens) :: l, s))
                end
            end
        end
    end.
  (** pf.py:253-261 *)
  Definition read_head (file : list Z) : res (Z * Z * list Z) :=
    let '(sig, s) := f_read 2 file in
    _ <- py_assert (zlist_eqb sig [80; 70]) ;;
    let '(ver, s) := f_read 1 s in
    _ <- py_assert (zlist_eqb ver [0]) ;;
    match s with
    | [] => Err TypeError
    | size :: s =>
        _ <- py_assert ((size =? 1) || (size =? 2) || (size =? 4) || (size =? 8)) ;;
        '(nrows, s) <- readvlv s ;;
        '(nentities, s) <- readvlv s ;;
        Ok (size, nentities, s)
    end.
  (** pf.py:244-288 *)
  Definition pf_open (fuel : nat) (file : list Z) : option (res preader) :=
    match read_head file with
    | Err e => Some (Err e)
    | Ok (size, nentities, s) =>
        match read_index fuel (Z.to_nat nentities) s with
        | None => None
        | Some (Err e) => Some (Err e)
        | Some (Ok (l, s)) =>
            Some ('(n, umax) <- getfmt size ;;
                  Ok (mkpr file (Z.of_nat (length file) - Z.of_nat (length s)) size
                        (map (fun x => snd (fst x)) l) (map (fun x => fst (fst x)) l)
                        (map snd l) n umax))
        end
    end.

  (** pf.py:301-304 *)
  Definition dequant_point (umax : Z) (box : T * T * T * T) (u : Z * Z) : pt :=
    let '(x0, x1, y0, y1) := box in
    (nadd x0 (ndiv (nmul (nofZ (fst u)) (nsub x1 x0)) (nofZ umax)),
     nadd y0 (ndiv (nmul (nofZ (snd u)) (nsub y1 y0)) (nofZ umax))).
  Fixpoint read_points (rd : preader) (box : T * T * T * T) (n : nat) (s : list Z)
    : res (list pt * list Z) :=
    match n with
    | O => Ok ([], s)
    | S m =>
        let '(d, s) := f_read (Z.to_nat (r_size rd * 2)) s in
        u <- unpack2 (r_n rd) d ;;
        '(ps, s) <- read_points rd box m s ;;
        Ok (dequant_point (r_umax rd) box u :: ps, s)
    end.
  Fixpoint read_parts (rd : preader) (box : T * T * T * T) (lens : list Z) (s : list Z)
    : res (list (list pt)) :=
    match lens with
    | [] => Ok []
    | n :: r =>
        '(ps, s) <- read_points rd box (Z.to_nat n) s ;;
        pss <- read_parts rd box r s ;;
        Ok (ps :: pss)
    end.
  (** pf.py:290-306 *)
  Definition pf_read (rd : preader) (idx : Z) : res (list (list pt)) :=
    box <- py_get (r_bboxes rd) idx ;;
    let offset := r_datapos rd +
      zsum (map (fun l => zsum l * r_size rd * 2) (py_slice (r_partlens rd) 0 idx)) in
    lens <- py_get (r_partlens rd) idx ;;
    read_parts rd box lens (skipn (Z.to_nat offset) (r_file rd)).

  (** names.index(name) *)
  Fixpoint index_of (i : Z) (name : list Z) (l : list (list Z)) : res Z :=
    match l with
    | [] => Err ValueError
    | x :: r => if zlist_eqb x name then Ok i else index_of (i + 1) name r
    end.
  (** pf.py:308-309 *)
  Definition pf_get (rd : preader) (name : list Z) : res (list (list pt)) :=
    i <- index_of 0 name (r_names rd) ;; pf_read rd i.
  (** pf.py:249-250 *)
  Definition pf_len (rd : preader) : Z := Z.of_nat (length (r_names rd)).
End Pf.
Arguments preader T : clear implicits.

(** pf.py:140-150: the splitting of a shape's points into parts. *)
Definition sf_parts {A} (points : list A) (parts : list Z) : list (list A) :=
  let offsets := parts ++ [Z.of_nat (length points)] in
  map (fun ab => py_slice points (fst ab) (snd ab)) (combine (removelast offsets) (tl offsets)).
