(** Names: theorems. *)
From Coq Require Import Permutation Lqa.
From Verif Require Import Num NamesModel NamesSpec NamesProofs NamesMatch NamesJaro Text.
Open Scope Z_scope.

(** C57 *)
Theorem C57_damlev : forall s t, exists d, damlev s t = Ok d /\ align s t d /\ (forall k, align s t k -> d <= k).
Proof. exact damlev_ok. Qed.
Example C57_case : damlev (text "banana") (text "baanna") = Ok 1 /\ align (text "banana") (text "baanna") 1 /\ damlev (text "kitten") (text "sitting") = Ok 3.
Proof. split; [reflexivity|]. split; [|reflexivity]. cbn. repeat apply align_match. apply (align_swap _ _ _ _ 0). repeat apply align_match. constructor. Qed.

(** C58 *)
Theorem C58_symmetric : forall s t, damlev s t = damlev t s.
Proof. exact damlev_sym. Qed.
Theorem C58_zero : forall s t, damlev s t = Ok 0 <-> s = t.
Proof. exact damlev_zero. Qed.
Theorem C58_bounds : forall s t, exists d, damlev s t = Ok d /\
  Z.abs (Z.of_nat (length s) - Z.of_nat (length t)) <= d <= Z.max (Z.of_nat (length s)) (Z.of_nat (length t)).
Proof. exact damlev_bounds. Qed.
Theorem C58_triangle_refuted : exists s t u a b c, damlev s t = Ok a /\ damlev t u = Ok b /\ damlev s u = Ok c /\ a + b < c.
Proof. exists (text "ca"), (text "ac"), (text "abc"), 1, 1, 3. repeat split; reflexivity. Qed.
Example C58_case : damlev (text "abc") [] = Ok 3 /\ damlev (text "abc") (text "xyz") = Ok 3.
Proof. split; reflexivity. Qed.

(** C59 *)
Theorem C59_value : forall s1 s2, let n := Nat.max (length s1) (length s2) in
  exists ms, matches (padded n s1) (padded n s2) (Z.of_nat n / 2 - 1) ms /\
    let m := length (somes ms) in
    let t := late [] (somes (somes ms)) in
    match m with
    | O => jaro s1 s2 = Ok 0%Q
    | S _ => if ((length s1 =? 0) || (length s2 =? 0))%nat then jaro (T := Q) s1 s2 = Err ZeroDivisionError
             else jaro s1 s2 = Ok ((inject_Z (Z.of_nat m) / inject_Z (Z.of_nat (length s1)) + inject_Z (Z.of_nat m) / inject_Z (Z.of_nat (length s2)) +
               inject_Z (Z.of_nat m - Z.of_nat t) / inject_Z (Z.of_nat m)) / 3)%Q
    end.
Proof. exact jaro_value. Qed.
Theorem C59_nonneg : forall s1 s2, s1 <> [] -> s2 <> [] -> exists j : Q, jaro s1 s2 = Ok j /\ (0 <= j)%Q.
Proof. exact jaro_nonneg. Qed.
Theorem C59_at_most_one : forall s1 s2, s1 <> [] -> (length s1 = length s2 \/ ((length s1 < length s2)%nat /\ ~ In 42 s2)) ->
  exists j : Q, jaro s1 s2 = Ok j /\ (0 <= j <= 1)%Q.
Proof. exact jaro_le. Qed.
Theorem C59_self : forall s, s <> [] -> exists j : Q, jaro s s = Ok j /\ (j == 1)%Q.
Proof. exact jaro_self. Qed.
Theorem C59_at_most_one_refuted : exists s1 s2 (j : Q), ~ In 42 s1 /\ ~ In 42 s2 /\ jaro s1 s2 = Ok j /\ (1 < j)%Q.
Proof.
  exists (text "aaaaaaaa"), (text "ab"). eexists. split; [intros I; vm_compute in I; intuition discriminate|]. split; [intros I; vm_compute in I; intuition discriminate|].
  split; [reflexivity|]. reflexivity.
Qed.
Theorem C59_star_refuted : exists s1 s2 (j : Q), (length s1 < length s2)%nat /\ jaro s1 s2 = Ok j /\ (1 < j)%Q.
Proof. exists (text "a"), (text "a*******"). eexists. split; [apply Nat.ltb_lt; reflexivity|]. split; [reflexivity|]. reflexivity. Qed.
Theorem C59_symmetric_refuted : exists s1 s2 (j1 j2 : Q), jaro s1 s2 = Ok j1 /\ jaro s2 s1 = Ok j2 /\ ~ (j1 == j2)%Q.
Proof. exists (text "aaaaaaaa"), (text "ab"). eexists _, _. split; [reflexivity|]. split; [reflexivity|]. discriminate. Qed.
Theorem C59_one_means_equal_refuted : exists s1 s2 (j : Q), s1 <> s2 /\ jaro s1 s2 = Ok j /\ (j == 1)%Q.
Proof. exists (text "aabb"), (text "abab"). eexists. split; [discriminate|]. split; [reflexivity|]. reflexivity. Qed.
Theorem C59_empty_fails_refuted : exists s, jaro (T := Q) [] s = Err ZeroDivisionError.
Proof. exists (text "*"). reflexivity. Qed.
Example C59_case : rmap Qred (jaro (text "martha") (text "marhta")) = Ok (17 # 18)%Q /\ rmap Qred (jaro (text "abcd") (text "badc")) = Ok (5 # 6)%Q.
Proof. split; reflexivity. Qed.

(** C60 *)
Theorem C60_mapping : forall keys values, keys = [] \/ values <> [] -> (In [] keys -> ~ In [] values) ->
  exists m m0, mapping keys values = Ok m /\ Forall2 (closest values) keys m0 /\ Permutation m0 m /\ descending m /\
    forall q, filter (fun x => Qeq_bool (snd x) q) m = filter (fun x => Qeq_bool (snd x) q) m0.
Proof. exact mapping_ok. Qed.
Theorem C60_no_values : forall keys, keys <> [] -> mapping (T := Q) keys [] = Err ValueError.
Proof. exact mapping_no_values. Qed.
Theorem C60_empty_strings : forall keys values, In [] keys -> In [] values -> mapping (T := Q) keys values = Err ZeroDivisionError.
Proof. exact mapping_empty_pair. Qed.
(** The four keys of the module's own example. *)
Example C60_case :
  rmap (map fst) (mapping (T := Q) [text "abc"; text "def"; text "ghi"; text "jkl"] [text "ac"; text "def"; text "gh"; text "jekgl"]) =
    Ok [(text "def", text "def"); (text "abc", text "ac"); (text "ghi", text "gh"); (text "jkl", text "jekgl")].
Proof. vm_compute. reflexivity. Qed.
Example C60_hypotheses : [text "abc"; []] <> [] /\ (In [] [text "abc"; []] -> ~ In [] [text "ac"]) /\
  rmap (map fst) (mapping (T := Q) [text "abc"; []] [text "ac"]) = Ok [(text "abc", text "ac"); ([], text "ac")].
Proof. split; [discriminate|]. split; [intros _ [E|[]]; discriminate|reflexivity]. Qed.

(** C61 *)
Theorem C61_folds : forall s, Forall2 folds s (ascii s).
Proof. exact ascii_folds. Qed.
Theorem C61_folds_unique : forall c b b', folds c b -> folds c b' -> b = b'.
Proof. exact folds_unique. Qed.
Theorem C61_length : forall s, length (ascii s) = length s.
Proof. exact ascii_length. Qed.
Theorem C61_plain : forall s, Forall (fun c => 0 <= c < 128) s -> ascii s = s.
Proof. exact ascii_plain. Qed.
Theorem C61_twice : forall s, ascii (ascii s) = ascii s.
Proof. exact ascii_twice. Qed.
(** Not every result is ASCII. *)
Theorem C61_all_ascii_refuted : exists s, ~ Forall (fun c => 0 <= c < 128) (ascii s).
Proof. exists [241]. intros F. inversion F. lia. Qed.
Theorem C61_abbreviations : forall upper names n, names <> [] -> abbreviations upper names n = Err NameError.
Proof. exact abbreviations_fails. Qed.
Example C61_case : ascii [83; 227; 111; 32; 74; 111; 227; 111; 44; 32; 199; 7869] = text "Sao Joao, Ce" /\ Forall (fun c => 0 <= c < 128) (text "Sao").
Proof. split; [reflexivity|]. change (text "Sao") with [83; 97; 111]. repeat (apply Forall_cons; [lia|]). constructor. Qed.

(** C83 *)
Theorem C83_value : forall s1 s2 (j : Q), jaro s1 s2 = Ok j ->
  exists v : Q, jaro_winkler s1 s2 = Ok v /\ (v == j + inject_Z (Z.of_nat (Nat.min 4 (prefix_length s1 s2))) * (1 # 10) * (1 - j))%Q.
Proof. exact winkler_value. Qed.
Theorem C83_bounds : forall s1 s2 (j : Q), jaro s1 s2 = Ok j -> (j <= 1)%Q -> exists v : Q, jaro_winkler s1 s2 = Ok v /\ (j <= v <= 1)%Q.
Proof. exact winkler_bounds. Qed.
Example C83_case : rmap Qred (jaro_winkler (text "martha") (text "marhta")) = Ok (173 # 180)%Q.
Proof. reflexivity. Qed.

Print Assumptions C57_damlev.
Print Assumptions C58_symmetric.
Print Assumptions C58_zero.
Print Assumptions C58_bounds.
Print Assumptions C58_triangle_refuted.
Print Assumptions C59_value.
Print Assumptions C59_nonneg.
Print Assumptions C59_at_most_one.
Print Assumptions C59_self.
Print Assumptions C59_at_most_one_refuted.
Print Assumptions C59_star_refuted.
Print Assumptions C59_symmetric_refuted.
Print Assumptions C59_one_means_equal_refuted.
Print Assumptions C59_empty_fails_refuted.
Print Assumptions C60_mapping.
Print Assumptions C60_no_values.
Print Assumptions C60_empty_strings.
Print Assumptions C61_folds.
Print Assumptions C61_folds_unique.
Print Assumptions C61_length.
Print Assumptions C61_plain.
Print Assumptions C61_twice.
Print Assumptions C61_all_ascii_refuted.
Print Assumptions C61_abbreviations.
Print Assumptions C83_value.
Print Assumptions C83_bounds.
