(** Model of the distances collected by pf.Writer (coral/pf.py:159, 211-215,
    240), on top of PfModel. The distance is an argument: coord.haversine over
    the reals, or any function of doubles that may raise. *)
From Verif Require Import Num BBoxModel VlvModel PfModel.
Open Scope Z_scope.

Section Errs.
  Context {T D : Type} `{PyNum T} `{PyRound T}.
  Variable hav : T -> T -> T -> T -> res D.

  (** A Writer with its errs (pf.py:153-161). *)
  Definition dwriter : Type := (pwriter * list D)%type.
  Definition dw_new (size : Z) : res dwriter := w <- pf_new size ;; Ok (w, []).

  (** pf.py:207-215, one point: the packed codes and the distance. *)
  Definition dist_point (n : nat) (umax : Z) (box : T * T * T * T) (p : T * T) : res (list Z * D) :=
    let '(x0, x1, y0, y1) := box in
    ulon <- quant_coord umax x0 x1 (fst p) ;;
    ulat <- quant_coord umax y0 y1 (snd p) ;;
    data <- pack2 n ulon ulat ;;
    let lon2 := nadd x0 (ndiv (nmul (nofZ ulon) (nsub x1 x0)) (nofZ umax)) in
    let lat2 := nadd y0 (ndiv (nmul (nofZ ulat) (nsub y1 y0)) (nofZ umax)) in
    err <- hav (fst p) (snd p) lon2 lat2 ;;
    Ok (data, err).
  (** pf.py:205-215: what was appended before the loop ends or raises. *)
  Fixpoint dist_points (n : nat) (umax : Z) (box : T * T * T * T) (ps : list (T * T))
    : list (list Z) * list D * res unit :=
    match ps with
    | [] => ([], [], Ok tt)
    | p :: r =>
        match dist_point n umax box p with
        | Err e => ([], [], Err e)
        | Ok (d, err) => let '(ds, errs, x) := dist_points n umax box r in (d :: ds, err :: errs, x)
        end
    end.
  (** pf.py:163-215; [None]: a normalising loop has not ended within the fuel. *)
  Definition dw_write (fuel : nat) (we : dwriter) (name : list Z) (polygons : list (list (T * T)))
    : option (dwriter * res unit) :=
    let '(w, errs) := we in
    match omap (omap (norm_point fuel)) polygons with
    | None => None
    | Some parts0 =>
        Some
        match mapM drop_closing parts0 with
        | Err e => (w, errs, Err e)
        | Ok parts =>
            let w := w_add_name w name in
            match foldM bb_step parts None with
            | Err e => (w, errs, Err e)
            | Ok bb =>
                let w := w_add_partlen w (map (fun p => Z.of_nat (length p)) parts) in
                match bb with
                | None => (w, errs, Err AttributeError)
                | Some bb =>
                    let zb := quant_box bb in
                    let w := w_add_bbox w zb in
                    let '(ds, new, x) := dist_points (w_n w) (w_umax w) (dequant_box zb) (concat parts) in
                    (w_add_data w ds, errs ++ new, x)
                end
            end
        end
    end.
  (** pf.py:217-240: the bytes of the file and the returned tuple. *)
  Definition dw_close (we : dwriter) : res (list Z * list D) :=
    file <- pf_close (fst we) ;; Ok (file, snd we).
  (** A loop of writes that stops at the first exception. *)
  Fixpoint dw_all (fuel : nat) (we : dwriter) (l : list (list Z * list (list (T * T))))
    : option (dwriter * res unit) :=
    match l with
    | [] => Some (we, Ok tt)
    | (name, polys) :: r =>
        match dw_write fuel we name polys with
        | None => None
        | Some (we', Err e) => Some (we', Err e)
        | Some (we', Ok _) => dw_all fuel we' r
        end
    end.
End Errs.
Arguments dwriter D : clear implicits.
