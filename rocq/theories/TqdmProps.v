(** tqdm: theorems. *)
From Coq Require Import SpecFloat.
From Verif Require Import Num StrModel TqdmModel TqdmSpec TqdmProofs TqdmTrace TqdmRun TqdmFloat Text.
Open Scope Z_scope.

(** C70 *)
Theorem C70_transparent : forall (clock : nat -> Q) A (o : options) size (items : list A) ending, (o_total o <> None \/ size <> None) ->
  exists ev, tqdm clock o size items ending = (ev, ending) /\ yields ev = items.
Proof.
  intros clock A o size items ending H. destruct (o_total o) as [t|] eqn:E.
  - destruct (run_trace clock o size items ending t) as (ev & E1 & E2 & _); [unfold total_of; rewrite E; reflexivity|]. exists ev. split; assumption.
  - destruct size as [t|]; [|destruct H; congruence]. destruct (run_trace clock o (Some t) items ending t) as (ev & E1 & E2 & _); [unfold total_of; rewrite E; reflexivity|]. exists ev. split; assumption.
Qed.
Theorem C70_unsized : forall T `{PyNum T} `{PyMeter T} A (clock : nat -> T) (o : options) (items : list A) ending,
  o_total o = None -> tqdm clock o None items ending = ([], Err TypeError).
Proof. intros. apply run_unsized. assumption. Qed.
Theorem C70_trange : forall (clock : nat -> Q) o a b step, step <> 0 -> exists ev,
  trange clock o a b step = (ev, Ok tt) /\ forall i, nth_error (yields ev) i = (if if 0 <? step then a + Z.of_nat i * step <? b else b <? a + Z.of_nat i * step then Some (a + Z.of_nat i * step) else None).
Proof. exact trange_items. Qed.
Example C70_case : exists ev, tqdm (fun k => inject_Z (Z.of_nat k)) defaults (Some 2) [7; 8] (Ok tt) = (ev, Ok tt) /\ yields ev = [7; 8] /\
  filed ev = 13 :: text "|----------| 0/2   0% [elapsed: 00:00 left: ?, ? iters/sec]" ++ 13 :: text "|#####-----| 1/2  50% [elapsed: 00:01 left: 00:01,  1.00 iters/sec]" ++
    13 :: text "|##########| 2/2 100% [elapsed: 00:02 left: 00:00,  1.00 iters/sec]" ++ [10].
Proof. eexists. split; [reflexivity|]. split; reflexivity. Qed.

(** C71 *)
Theorem C71_no_residue : forall l s, Forall plain (l ++ [s]) -> exists k, t_line (show blank_line (printed 0 (l ++ [s]))) = s ++ repeat 32 k.
Proof. intros l s F. exact (printed_shows_snoc l s blank_line F eq_refl). Qed.
Theorem C71_interval : forall t : Q, exists s, format_interval t = Ok s /\ clock_text s (q_trunc t) /\ forall z, clock_text s z -> z = q_trunc t.
Proof.
  intros t. assert (M : mint t = Ok (q_trunc t)) by reflexivity. destruct (format_interval_text t _ M) as (s & E & C). exists s. split; [exact E|]. split; [exact C|].
  intros z C'. exact (clock_text_fun s z _ C' C).
Qed.
Theorem C71_meter : forall n t (elapsed : Q), 0 <= n <= t -> 0 < t -> exists es ls,
  clock_text es (q_trunc elapsed) /\
  (if n =? 0 then ls = [63] else clock_text ls (q_trunc (elapsed / inject_Z n * inject_Z (t - n)))) /\
  format_meter n (Some t) elapsed = Ok (
    124 :: repeat 35 (Z.to_nat (10 * n / t)) ++ repeat 45 (10 - Z.to_nat (10 * n / t)) ++ [124; 32] ++ str_int n ++ 47 :: str_int t ++ 32 ::
    pad_left 3 32 (str_int (100 * n / t)) ++ [37] ++ s_elapsed ++ es ++ s_left ++ ls ++ s_comma ++
    (if Qeq_bool elapsed 0 then [63] else q_fixed (inject_Z n / elapsed)) ++ s_iters).
Proof. exact meter_value. Qed.
Theorem C71_meter_over : forall n t (elapsed : Q), t < n \/ t = 0 -> exists es, clock_text es (q_trunc elapsed) /\
  format_meter n (Some t) elapsed = Ok (str_int n ++ s_elapsed ++ es ++ s_comma ++ (if Qeq_bool elapsed 0 then [63] else q_fixed (inject_Z n / elapsed)) ++ s_iters).
Proof. exact meter_over. Qed.
Theorem C71_bar_full : forall n t, 0 <= n <= t -> 0 < t -> (10 * n / t = 10 <-> n = t).
Proof. exact bar_full. Qed.
Example C71_case : format_interval (7325 # 2)%Q = Ok (text "1:01:02") /\ format_interval (-5)%Q = Ok (text "-1:59:55") /\ clock_text (text "1:01:02") 3662 /\
  t_line (show blank_line (printed 0 [text "long status"; text "short"])) = text "short      ".
Proof.
  split; [reflexivity|]. split; [reflexivity|]. split; [|reflexivity].
  apply (ct_long (text "1") (text "01") (text "02") 1 1 2); try reflexivity; try discriminate.
  - intros I. vm_compute in I. intuition discriminate.
  - apply (sx_digits 48 49); lia.
  - apply (sx_digits 48 50); lia.
Qed.

(** C87 *)
Theorem C87_counts : forall (clock : nat -> Q) A (o : options) size (items : list A) ending T0, total_of o size = Some T0 ->
  exists ev, tqdm clock o size items ending = (ev, ending) /\
  forall pre w post, ev = pre ++ EFile w :: post ->
      reports o (Some T0) (Z.of_nat (length (yields pre))) w \/
      (o_leave o = true /\ w = [10] /\ post = [] /\ ending = Ok tt) \/
      (o_leave o = false /\ (exists k, w = 13 :: repeat 32 k) /\ post = [EStdout [13]] /\ ending = Ok tt).
Proof. intros clock A o size items ending T0 H. destruct (run_trace clock o size items ending T0 H) as (ev & E & _ & R & _). exists ev. split; assumption. Qed.
Theorem C87_throttled : forall (clock : nat -> Q) A (o : options) size (items : list A) ending T0, total_of o size = Some T0 ->
  exists ev, tqdm clock o size items ending = (ev, ending) /\
  (1 <= o_miniters o -> (writes ev - 3) * o_miniters o <= Z.of_nat (length items)) /\
  ((0 <= o_mininterval o)%Q -> exists k, (k <= length items)%nat /\ (inject_Z (writes ev - 3) * o_mininterval o <= clock k - clock 0%nat)%Q).
Proof. intros clock A o size items ending T0 H. destruct (run_trace clock o size items ending T0 H) as (ev & E & _ & _ & R1 & R2 & _). exists ev. split; [exact E|]. split; assumption. Qed.
Theorem C87_left_behind : forall (clock : nat -> Q) A (o : options) size (items : list A) T0, total_of o size = Some T0 -> plain (o_desc o) ->
  exists ev, tqdm clock o size items (Ok tt) = (ev, Ok tt) /\
  (o_leave o = true -> stdouted ev = [] /\ exists body t s k, filed ev = body ++ [10] /\
      format_meter (Z.of_nat (length items)) (Some T0) t = Ok s /\ (items = [] /\ (t == 0)%Q \/ exists k, t = (clock (S k) - clock 0%nat)%Q) /\
      t_line (show blank_line body) = prefix (o_desc o) ++ s ++ repeat 32 k) /\
  (o_leave o = false -> stdouted ev = [13] /\ exists k, t_line (show blank_line (filed ev)) = repeat 32 k).
Proof.
  intros clock A o size items T0 H P. destruct (run_trace clock o size items (Ok tt) T0 H) as (ev & E & _ & _ & _ & _ & R1 & R2). exists ev. split; [exact E|].
  split; intros L; [apply R1|apply R2]; auto.
Qed.
Example C87_case : let o := {| o_desc := text "x"; o_total := Some 3; o_leave := false; o_mininterval := 1%Q; o_miniters := 2 |} in
  exists ev, tqdm (fun k => inject_Z (Z.of_nat k)) o None [7; 8; 9] (Ok tt) = (ev, Ok tt) /\ writes ev = 3 /\ stdouted ev = [13] /\ total_of o None = Some 3 /\ plain (o_desc o).
Proof.
  eexists. split; [reflexivity|]. split; [reflexivity|]. split; [reflexivity|]. split; [reflexivity|]. split; intros I; vm_compute in I; intuition discriminate.
Qed.

(** C88 *)
Theorem C88_double : forall n t (elapsed : f64) es, 0 <= n <= t -> 0 < t <= 2 ^ 53 -> format_interval elapsed = Ok es ->
  (n = 0 \/ exists ls, format_interval (fmul (fdiv elapsed (fofZ n)) (fofZ (t - n))) = Ok ls) -> exists b p rest,
  format_meter n (Some t) elapsed = Ok (124 :: repeat 35 b ++ repeat 45 (10 - b) ++ [124; 32] ++ str_int n ++ 47 :: str_int t ++ 32 :: pad_left 3 32 (str_int p) ++ 37 :: rest) /\
  (b <= 10)%nat /\ 0 <= p <= 100 /\ (b = 10%nat <-> n = t) /\ (p = 100 <-> n = t).
Proof. exact meter_double. Qed.
Theorem C88_percentage_refuted : exists n t elapsed rest, 0 <= n <= t /\ 100 * n / t = 29 /\
  format_meter n (Some t) (elapsed : f64) = Ok (text "|##--------| 29/100  28%" ++ rest).
Proof. exists 29, 100, (fofZ 1). eexists. split; [lia|]. split; [reflexivity|]. reflexivity. Qed.
Example C88_case : let t := fofZ 100 in exists es ls, format_interval t = Ok es /\ format_interval (fmul (fdiv t (fofZ 29)) (fofZ (100 - 29))) = Ok ls /\ es = text "01:40" /\ ls = text "04:04".
Proof. eexists _, _. split; [reflexivity|]. split; [reflexivity|]. split; reflexivity. Qed.

Print Assumptions C70_transparent.
Print Assumptions C70_unsized.
Print Assumptions C70_trange.
Print Assumptions C71_no_residue.
Print Assumptions C71_interval.
Print Assumptions C71_meter.
Print Assumptions C71_meter_over.
Print Assumptions C71_bar_full.
Print Assumptions C87_counts.
Print Assumptions C87_throttled.
Print Assumptions C87_left_behind.
Print Assumptions C88_double.
Print Assumptions C88_percentage_refuted.
