(** Names: specification. *)
From Coq Require Export ZArith QArith List.
Export ListNotations.
Open Scope Z_scope.

(** An accented letter of the table and its base letter. *)
Definition lower_base (c b : Z) : Prop :=
  (b = 97 /\ In c [224; 225; 226; 227; 228]) \/ (b = 99 /\ c = 231) \/ (b = 101 /\ In c [232; 233; 234; 235; 7869]) \/
  (b = 105 /\ In c [236; 237; 238; 239; 297]) \/ (b = 111 /\ In c [242; 243; 244; 245; 246]) \/ (b = 117 /\ In c [249; 250; 251; 252; 361]).
Definition upper_base (c b : Z) : Prop :=
  (b = 65 /\ In c [192; 193; 194; 195; 196]) \/ (b = 67 /\ c = 199) \/ (b = 69 /\ In c [200; 201; 202; 203; 7868]) \/
  (b = 73 /\ In c [204; 205; 206; 207; 296]) \/ (b = 79 /\ In c [210; 211; 212; 213; 214]) \/ (b = 85 /\ In c [217; 218; 219; 220; 360]).
Definition folds (c b : Z) : Prop :=
  lower_base c b \/ upper_base c b \/ (b = c /\ forall x, ~ lower_base c x /\ ~ upper_base c x).

(** An alignment of two strings and its cost. *)
Inductive align : list Z -> list Z -> Z -> Prop :=
| align_nil : align [] [] 0
| align_match c s t k : align s t k -> align (c :: s) (c :: t) k
| align_subst a b s t k : align s t k -> align (a :: s) (b :: t) (k + 1)
| align_delete a s t k : align s t k -> align (a :: s) t (k + 1)
| align_insert b s t k : align s t k -> align s (b :: t) (k + 1)
| align_swap a b s t k : align s t k -> align (a :: b :: s) (b :: a :: t) (k + 1).
(** d is the least cost. *)
Definition distance (s t : list Z) (d : Z) : Prop := align s t d /\ forall k, align s t k -> d <= k.

(** The normalised distance 2 d / (|s| + |t|) *)
Definition error (s t : list Z) (e : Q) : Prop :=
  exists d, distance s t d /\ (e * inject_Z (Z.of_nat (length s + length t)) == inject_Z (2 * d))%Q.

(** Jaro: s1 and s2 padded with stars to a common length n. *)
Definition padded (n : nat) (s : list Z) : list Z := s ++ repeat 42 (n - length s).
(** The character of s at i is found in t within distance w, first at j. *)
Definition found (s t : list Z) (w i j : Z) : Prop :=
  0 <= i < Z.of_nat (length s) /\ 0 <= j < Z.of_nat (length t) /\ i - w <= j <= i + w /\
  nth (Z.to_nat j) t 0 = nth (Z.to_nat i) s 0 /\
  forall j', 0 <= j' < j -> i - w <= j' -> nth (Z.to_nat j') t 0 <> nth (Z.to_nat i) s 0.
Definition same_place (s t : list Z) (i : Z) : Prop :=
  0 <= i < Z.of_nat (length s) /\ nth (Z.to_nat i) s 0 = nth (Z.to_nat i) t 0.
(** Match i of the list: Some None in place, Some (Some j) elsewhere. *)
Definition matches (s t : list Z) (w : Z) (ms : list (option (option Z))) : Prop :=
  length ms = length s /\
  forall i : nat, match nth_error ms i with
    | Some (Some None) => same_place s t (Z.of_nat i)
    | Some (Some (Some j)) => ~ same_place s t (Z.of_nat i) /\ found s t w (Z.of_nat i) j
    | Some None => ~ same_place s t (Z.of_nat i) /\ forall j, ~ found s t w (Z.of_nat i) j
    | None => True
    end.
Definition somes {A} (l : list (option A)) : list A := flat_map (fun o => match o with Some x => [x] | None => [] end) l.
(** How many elements are smaller than an earlier one. *)
Fixpoint late (seen l : list Z) : nat :=
  match l with
  | [] => 0
  | x :: r => (if existsb (fun y => x <? y) seen then 1 else 0) + late (x :: seen) r
  end.
(** The longest common prefix *)
Fixpoint prefix_length (s t : list Z) : nat :=
  match s, t with
  | a :: s, b :: t => if a =? b then S (prefix_length s t) else 0
  | _, _ => 0
  end.

(** A match: the key, the value and the score. *)
Definition closest (values : list (list Z)) (key : list Z) (m : list Z * list Z * Q) : Prop :=
  fst (fst m) = key /\
  exists i e, nth_error values i = Some (snd (fst m)) /\ error key (snd (fst m)) e /\ (snd m == 1 - e)%Q /\
    forall j v' e', nth_error values j = Some v' -> error key v' e' -> (e <= e')%Q /\ ((j < i)%nat -> (e < e')%Q).
(** Best first *)
Fixpoint descending (l : list (list Z * list Z * Q)) : Prop :=
  match l with [] => True | m :: r => (forall m', In m' r -> snd m' <= snd m)%Q /\ descending r end.
