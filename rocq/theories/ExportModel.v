(** Model of vector.py:309-343: Canvas.export, export and animation. The shell that
    subprocess.call(..., shell=True) runs is an argument: it gets the command
    and the files and returns the files and a status. *)
From Verif Require Import Num BBoxModel StrModel Text VectorModel.
Open Scope Z_scope.

(** A value, an exception, or FileNotFoundError *)
Inductive outcome (A : Type) := Done (a : A) | Raised (x : exn) | NoSuchFile.
Arguments Done {A} a.
Arguments Raised {A} x.
Arguments NoSuchFile {A}.

Section Export.
  Context {T : Type} `{PyNum T}.
  (** The contents of the files by path. Permissions and links are not modelled,
      nor that a path may be written in several ways. *)
  Definition files := list Z -> option (list (ch T)).
  Definition write_file (p : list Z) (v : list (ch T)) (f : files) : files := fun q => if zlist_eqb q p then Some v else f q.
  Definition remove_file (p : list Z) (f : files) : files := fun q => if zlist_eqb q p then None else f q.
  (** The files, and the commands that were run, each with the files it found *)
  Record sys := mkSys { s_files : files; s_ran : list (list Z * files) }.
  Definition set_files (f : files) (s : sys) : sys := mkSys f (s_ran s).
  Variable shell : list Z -> files -> files * Z.
  (** subprocess.call(cmd, shell=True); arguments of programs cannot contain a
      null character. *)
  Definition call (cmd : list Z) (s : sys) : sys * outcome Z :=
    if existsb (Z.eqb 0) cmd then (s, Raised ValueError)
    else let '(f, status) := shell cmd (s_files s) in (mkSys f (s_ran s ++ [(cmd, s_files s)]), Done status).
  (** vector.py:311 *)
  Definition PSPATH : list Z := text "/tmp/tempeps.ps".
  (** vector.py:309-317 *)
  Definition canvas_export (c : canvas T) (path device : list Z) (size : option T) (margin : T) (s : sys) : sys * outcome Z :=
    match save c size margin with
    | Err x => (s, Raised x)
    | Ok content =>
        let s := set_files (write_file PSPATH content (s_files s)) s in
        let cmd := text "gs -q -dNOPAUSE -dBATCH -dEPSCrop " ++
                   text "-sDEVICE=" ++ device ++ text " -sOutputFile='" ++ path ++ text "' " ++ PSPATH in
        match call cmd s with
        | (s, Done ret) =>
            match s_files s PSPATH with
            | None => (s, NoSuchFile)
            | Some _ => (set_files (remove_file PSPATH (s_files s)) s, Done ret)
            end
        | r => r
        end
    end.
  (** vector.py:319-324 *)
  Definition export (pspath output device : list Z) (s : sys) : sys * outcome Z :=
    call (text "gs -q -dNOPAUSE -dBATCH -dEPSCrop " ++
          text "-sDEVICE=" ++ device ++ text " -sOutputFile=" ++ output ++ text " " ++ pspath) s.

  (** vector.py:336: canvas.bbox = bb. The frames share one object, which no
      method of a Canvas changes in place. *)
  Definition set_bbox (b : bbox T) (c : canvas T) : canvas T := mkcv (cv_bg c) (cv_lines c) b (cv_state c) (cv_deps c).
  (** vector.py:331, 337: os.path.join(folder, "{:0k}.png").format(i), for a folder
      without braces and without a slash at its end *)
  Definition frame_path (folder : list Z) (k : nat) (i : Z) : list Z :=
    folder ++ [47] ++ (let d := str_int i in repeat 48 (k - length d) ++ d) ++ text ".png".
  (** vector.py:335-339. tqdm passes the frames through (C70). *)
  Fixpoint shoot (folder : list Z) (k : nat) (bb : bbox T) (device : list Z) (size : option T) (margin : T) (i : Z)
      (frames : list (canvas T)) (s : sys) : sys * list (canvas T) * outcome (list (list Z)) :=
    match frames with
    | [] => (s, [], Done [])
    | c :: rest =>
        let c := set_bbox bb c in
        let path := frame_path folder k i in
        match canvas_export c path device size margin s with
        | (s, Done _) =>
            match shoot folder k bb device size margin (i + 1) rest s with
            | (s, rest, Done paths) => (s, c :: rest, Done (path :: paths))
            | (s, rest, r) => (s, c :: rest, r)
            end
        | (s, Raised x) => (s, c :: rest, Raised x)
        | (s, NoSuchFile) => (s, c :: rest, NoSuchFile)
        end
    end.
  (** Whether a path is in a folder *)
  Fixpoint inside (folder p : list Z) : bool :=
    match folder, p with
    | [], c :: _ => c =? 47
    | a :: f, b :: p => (a =? b) && inside f p
    | _, _ => false
    end.
  Definition remove_folder (folder : list Z) (s : sys) : sys := set_files (fun q => if inside folder q then None else s_files s q) s.
  (** vector.py:326-343, for an int delay; [folder] is the new temporary directory.
      The number 1.05 is that nearest to 105/100. *)
  Definition animation (folder gifpath : list Z) (frames : list (canvas T)) (delay : Z) (device : list Z) (size : option T) (margin : T) (s : sys) :
      sys * list (canvas T) * outcome Z :=
    let length_ := length (str_int (Z.of_nat (length frames))) in
    let bb := fold_left (fun a b => bb_or a b) (map cv_bbox frames) bb_empty in
    let bb := bb_scale bb (ndiv (nofZ 105) (nofZ 100)) in
    match shoot folder length_ bb device size margin 0 frames s with
    | (s, frames, Done paths) =>
        let cmd := text "convert -delay " ++ str_int delay ++ text " -loop 0 " ++ join 32 paths ++ text " " ++ gifpath in
        let '(s, r) := call cmd s in (remove_folder folder s, frames, r)
    | (s, frames, Raised x) => (remove_folder folder s, frames, Raised x)
    | (s, frames, NoSuchFile) => (remove_folder folder s, frames, NoSuchFile)
    end.
End Export.
Arguments files T : clear implicits.
Arguments sys T : clear implicits.
