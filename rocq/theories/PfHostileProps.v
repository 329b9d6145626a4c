(** Reading arbitrary bytes as a P file: theorems. *)
From Coq Require Import QArith.
From Verif Require Import Py Num VlvModel VlvProofs PfModel PfHostileSpec PfHostile.
Open Scope Z_scope.

(** ** C113 *)
(** Opening: what it may raise. *)
Theorem C113_opens {T} `{PyNum T} : forall fuel file, Forall is_byte file ->
  match pf_open (T := T) fuel file with
  | Some (Ok rd) => (r_size rd = 1 \/ r_size rd = 2 \/ r_size rd = 4 \/ r_size rd = 8) /\
      0 <= r_datapos rd <= Z.of_nat (length file) /\
      length (r_bboxes rd) = length (r_names rd) /\ length (r_partlens rd) = length (r_names rd)
  | Some (Err e) => e = AssertionError \/ e = TypeError \/ e = StructError \/ e = UnicodeError
  | None => True
  end.
Proof.
  intros fuel file B. pose proof (open_run (T := T) fuel file B) as O. destruct (pf_open fuel file) as [[rd|e]|]; [|exact O|exact I].
  destruct O as [_ [S [_ [D [L [N _]]]]]]. split; [exact S|]. split; [exact D|]. split; congruence.
Qed.
(** Opening ends after at most as many reads of a name as there are bytes, or
    it never ends. *)
Theorem C113_ends {T} `{PyNum T} : forall file, Forall is_byte file ->
  (exists y, forall fuel, (length file < fuel)%nat -> pf_open (T := T) fuel file = Some y) \/
  (forall fuel, pf_open (T := T) fuel file = None).
Proof.
  intros file B. destruct (pf_open (T := T) (S (length file)) file) as [y|] eqn:E.
  - left. exists y. intros fuel L. rewrite <- E. apply open_enough; [exact B|exact L|lia].
  - right. intros fuel. destruct (pf_open (T := T) fuel file) as [y|] eqn:F; [|reflexivity].
    pose proof (open_mono file fuel (S (length file) + fuel) y F ltac:(lia)) as M.
    rewrite (open_enough file (S (length file) + fuel) (S (length file)) B) in M by lia. congruence.
Qed.
(** It never ends when the file is cut within the name of the first entity or
    before it. *)
Theorem C113_never_ends {T} `{PyNum T} : forall size nrows n a b s,
  size = 1 \/ size = 2 \/ size = 4 \/ size = 8 -> writevlv nrows = Ok a -> writevlv n = Ok b -> 0 < n -> ~ In 0 s ->
  forall fuel, pf_open (T := T) fuel ([80; 70; 0; size] ++ a ++ b ++ s) = None.
Proof.
  intros size nrows n a b s SZ A B N Z. apply open_stuck with (size := size) (n := n) (s := s); [|exact N|exact Z].
  unfold read_head, VlvModel.f_read. cbn [app firstn skipn zlist_eqb]. unfold py_assert. cbn [zlist_eqb Z.eqb Pos.eqb andb bind].
  assert (C : (size =? 1) || (size =? 2) || (size =? 4) || (size =? 8) = true) by (destruct SZ as [->|[->|[->| ->]]]; reflexivity).
  rewrite C. cbn [bind]. rewrite (vlv_back nrows a (b ++ s) A). cbn [bind]. rewrite (vlv_back n b s B). reflexivity.
Qed.
(** Reading an entity: IndexError exactly for the numbers out of range,
    struct.error exactly when the file is too short. *)
Theorem C113_reads {T} `{PyNum T} : forall fuel file (rd : preader T) idx, Forall is_byte file -> pf_open fuel file = Some (Ok rd) ->
  match pf_read rd idx with
  | Ok parts => exists lens, py_get (r_partlens rd) idx = Ok lens /\ map (fun p => Z.of_nat (length p)) parts = lens /\
      (zsum lens = 0 \/ start_of rd idx + 2 * r_size rd * zsum lens <= Z.of_nat (length file))
  | Err e => (e = IndexError /\ ~ - pf_len rd <= idx < pf_len rd) \/
      (e = StructError /\ - pf_len rd <= idx < pf_len rd /\ exists lens, py_get (r_partlens rd) idx = Ok lens /\
         Z.of_nat (length file) < start_of rd idx + 2 * r_size rd * zsum lens)
  end.
Proof.
  intros fuel file rd idx B O. pose proof (open_run (T := T) fuel file B) as R. rewrite O in R. apply read_run. exact R.
Qed.
(** Two entities "a" and "b" of one part each, three points and one point; the
    bytes for the last point are missing. *)
Definition short_file : list Z :=
  [80; 70; 0; 1; 4; 2; 97; 0; 1; 0; 0; 1; 0; 0; 0; 1; 0; 3; 98; 0; 1; 0; 0; 1; 0; 0; 0; 1; 0; 1; 0; 0; 255; 0; 255; 255].
Example C113_case :
  Forall is_byte short_file /\
  (exists rd p, pf_open (T := Q) 50 short_file = Some (Ok rd) /\ pf_read rd 0 = Ok [p] /\ length p = 3%nat /\ pf_read rd (-2) = Ok [p] /\
     pf_read rd 1 = Err StructError /\ pf_read rd 2 = Err IndexError) /\
  (writevlv 4 = Ok [4] /\ writevlv 2 = Ok [2] /\ ~ In 0 [97] /\ firstn 7 short_file = [80; 70; 0; 1] ++ [4] ++ [2] ++ [97]) /\
  pf_open (T := Q) 50 (firstn 5 short_file) = Some (Err TypeError).
Proof.
  split; [apply Forall_forall; intros x I; cbn in I; unfold is_byte; repeat (destruct I as [<-|I]; [lia|]); destruct I|].
  split.
  { do 2 eexists. split; [vm_compute; reflexivity|]. split; [vm_compute; reflexivity|]. split; [reflexivity|]. repeat (split; [vm_compute; reflexivity|]). vm_compute. reflexivity. }
  split; [|vm_compute; reflexivity]. split; [reflexivity|]. split; [reflexivity|]. split; [|reflexivity]. intros [X|[]]; discriminate X.
Qed.

Print Assumptions C113_opens.
Print Assumptions C113_ends.
Print Assumptions C113_never_ends.
Print Assumptions C113_reads.
