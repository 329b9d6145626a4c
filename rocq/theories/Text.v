(** ASCII literals as lists of code points, for examples. *)
From Coq Require String Ascii.
From Verif Require Import Py.
Export String.StringSyntax.
Definition text (s : String.string) : list Z := map (fun c => Z.of_N (Ascii.N_of_ascii c)) (String.list_ascii_of_string s).
Arguments text s%string_scope.
