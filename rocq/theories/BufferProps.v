(** Property C09: Buffer is a bounded double-ended queue (coral/coord.py). *)
From Verif Require Import Py BufferModel BufferSpec BufferProofs.
Open Scope Z_scope.

Theorem C09_buffer_sizes (A : Type) n :
  (exists b : buffer A, buf_new n = Ok b) <-> n = 0 \/ exists k, 0 <= k /\ n = 2 ^ k.
Proof. exact (new_iff n). Qed.

Theorem C09_buffer_bad_size (A : Type) n :
  ~ (n = 0 \/ exists k, 0 <= k /\ n = 2 ^ k) -> @buf_new A n = Err AssertionError.
Proof. exact (new_err n). Qed.

(** Every call of every client history returns what the queue returns; in
    particular str() terminates. *)
Theorem C09_buffer_is_queue (A : Type) n b (l : list (bop A)) fuel :
  buf_new n = Ok b -> n < Z.of_nat fuel -> brun fuel b l = qrun n [] l.
Proof. exact (buffer_refines n b l fuel). Qed.

Example C09_case : exists b : buffer Z, buf_new 2 = Ok b /\
  brun 3 b [BPush 1; BPush 2; BPush 3; BShift; BPush 4; BStr; BPop; BIsFull; BPeek] =
  [ONone; ONone; ORaise AssertionError; OVal (Some 1); ONone; OItems [Some 2; Some 4];
   OVal (Some 4); OBool false; OVal (Some 2)].
Proof. eexists; split; vm_compute; reflexivity. Qed.
Example C09_case_bad : ~ (6 = 0 \/ exists k, 0 <= k /\ 6 = 2 ^ k).
Proof.
  intros H. apply (C09_buffer_sizes Z) in H. destruct H as [b H]. vm_compute in H. discriminate.
Qed.

Print Assumptions C09_buffer_sizes.
Print Assumptions C09_buffer_bad_size.
Print Assumptions C09_buffer_is_queue.
