(** Model of pf.sf2pf (coral/pf.py:140-150): from the files of a shapefile to the
    bytes of a P file. Paths are left out. *)
From Coq Require Import SpecFloat.
From Verif Require Import Py Num PfModel PfErrModel ShpFile ShpWriterModel ShpReaderModel ShpGeoModel.
Open Scope Z_scope.
Open Scope res_scope.

(** The unpacking of a point in pf.py:167; the points of a Reader are pairs. *)
Definition lonlat (p : list dbl) : res (f64 * f64) :=
  match p with [x; y] => Ok (f64_of_bits x, f64_of_bits y) | _ => Err ValueError end.

Section Sf2pf.
  Context {D : Type}.
  Variable hav : f64 -> f64 -> f64 -> f64 -> res D.
  Variable getname : list cell -> res (list Z).

  (** pf.py:143-149; a shape without parts has no such attribute. *)
  Fixpoint sf_loop (fuel : nat) (we : dwriter D) (l : list (shape * list cell)) : option (dwriter D * res unit) :=
    match l with
    | [] => Some (we, Ok tt)
    | (s, record) :: r =>
        match
          (name <- getname record ;;
           parts <- (match s_parts s with Some p => Ok p | None => Err AttributeError end) ;;
           polys <- mapM (mapM lonlat) (sf_parts (s_points s) parts) ;;
           Ok (name, polys))
        with
        | Err e => Some (we, Err e)
        | Ok (name, polys) =>
            match dw_write hav fuel we name polys with
            | None => None
            | Some (we', Err e) => Some (we', Err e)
            | Some (we', Ok _) => sf_loop fuel we' r
            end
        end
    end.
  (** pf.py:140-150; [None]: a loop has not ended within the fuel. The P file is
      only written by the call of close. *)
  Definition sf2pf (fuel : nat) (shp shx dbf : option (list Z)) (size : Z) : option (res (list Z * list D)) :=
    match Reader shp shx dbf with
    | (_, Err e) => Some (Err e)
    | (sf, Ok _) =>
        match dw_new size with
        | Err e => Some (Err e)
        | Ok pf =>
            match shapeRecords fuel sf with
            | (_, Err e) => Some (Err e)
            | (_, Ok None) => None
            | (_, Ok (Some l)) =>
                match sf_loop fuel pf l with
                | None => None
                | Some (_, Err e) => Some (Err e)
                | Some (pf, Ok _) => Some (dw_close pf)
                end
            end
        end
    end.
End Sf2pf.
