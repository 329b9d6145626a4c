(** C142: numbers in drawing files. *)
From Coq Require Import ZArith SpecFloat Lia.
From Flocq Require Import IEEE754.BinarySingleNaN.
From Verif Require Import Py Num Text StrModel VectorModel PsSpec VectorSpec NumTextModel NumTextSpec NumText PsNumModel PsNumSpec PsNum.
Open Scope Z_scope.

(** The file of any history scans as the tokens drawn, with each number a
    numeral of its own that has exactly its value, whatever the arithmetic
    is that made the numbers. *)
Theorem C142_tokens : forall (P : PyNum number) bg h0 ops h c size margin file, history h0 (canvas_new bg) ops = Some (h, c) -> Forall good_op ops ->
  save c size margin = Ok file -> Forall finite_number (numbers file) ->
  exists toks toks', saved c size margin = Ok (chars file) /\ scan MTop file = (MTop, toks) /\ scan MTop (map C (chars file)) = (MTop, toks') /\
    Forall2 reads toks toks' /\ ~ In KBad toks.
Proof.
  intros P bg h0 ops h c size margin file Hi G Sv F. destruct (saved_tokens P _ _ _ _ _ _ _ _ Hi G Sv F) as (t & t' & A & B & D & E). exists t, t'.
  split; [unfold saved; rewrite Sv; reflexivity|auto].
Qed.
(** Infinities and not-a-number become words that are no numerals. *)
Theorem C142_special : forall x y, a_number x -> ~ finite_number x -> ~ numeral (num_str x) y.
Proof. exact special_no. Qed.
Theorem C142_infinite_refuted : exists (ops : list (op number)) h c file (toks' : list (token number)), history (fun _ => []) (canvas_new None) ops = Some (h, c) /\ Forall good_op ops /\
  save c None (Int 0) = Ok file /\ scan MTop (map C (chars file)) = (MTop, toks') /\ In (KName (text "inf")) toks' /\ forall x, ~ numeral (text "inf") x.
Proof.
  exists [OSetwidth (Float (S754_infinity false))]. do 4 eexists. split; [reflexivity|]. split; [repeat constructor|]. split; [vm_compute; reflexivity|].
  split; [vm_compute; reflexivity|]. split.
  - vm_compute. tauto.
  - intros x. apply (special_no (Float (S754_infinity false)) x); [reflexivity|intros []].
Qed.

(** A line from (1, 0.1) to (2.5, -3), half a point wide *)
Definition half : number := Float (S754_finite false 4503599627370496 (-53)).
Definition tenth : number := Float (S754_finite false 7205759403792794 (-56)).
Definition five_halves : number := Float (S754_finite false 5629499534213120 (-51)).
Definition a_line : list (op number) := [OSetwidth half; OPolyline [(Int 1, tenth); (five_halves, Int (-3))] None].
Example C142_case : exists h c file, history (fun _ => []) (canvas_new None) a_line = Some (h, c) /\ Forall good_op a_line /\
  save c (Some (Int 100)) (Int 10) = Ok file /\ Forall finite_number (numbers file) /\ skipn 311 (chars file) = text "50.0 50.0 translate
29.032258064516128 29.032258064516128 scale
-1.75 1.45 translate

0.5 w
np
1 0.1 m
2.5 -3 l
s
".
Proof.
  do 3 eexists. split; [reflexivity|]. split; [repeat constructor|]. split; [vm_compute; reflexivity|].
  split; [repeat (apply Forall_cons; [vm_compute; first [reflexivity|exact I]|]); apply Forall_nil|]. vm_compute. reflexivity.
Qed.

Print Assumptions C142_tokens.
Print Assumptions C142_special.
Print Assumptions C142_infinite_refuted.
