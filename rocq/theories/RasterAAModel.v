(** Model of the anti-aliased drawing methods of coral/raster.py on colour
    canvases, and of strokepolygon with aa. As in [RasterModel], when a write
    raises the partly painted canvas is not followed. *)
From Verif Require Import Num RasterModel.
Open Scope Z_scope.
Section AA.
  Context {T : Type} `{PyNum T} `{PyInt T}.
  (** raster.py:105-163 on a ColorCanvas; the colour is a tuple of ints *)
  Definition c_aaline (c : ccanvas) (start end_ : T * T) (color : list Z) : res ccanvas :=
    px <- aaline start end_ ;;
    foldM (fun c pa => c_set c (fst pa) (color, Some (snd pa))) px c.
  (** raster.py:165-171 with aa true (the default of both canvases,
      raster.py:210 and 251) *)
  Definition g_stroke (c : gcanvas) (points : list (T * T)) (color : gcolor T) : res gcanvas :=
    foldM (fun c e => g_aaline c (fst e) (snd e) color) (edges points) c.
  Definition c_stroke (c : ccanvas) (points : list (T * T)) (color : list Z) : res ccanvas :=
    foldM (fun c e => c_aaline c (fst e) (snd e) color) (edges points) c.
End AA.
