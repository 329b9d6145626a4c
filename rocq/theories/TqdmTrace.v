(** The trace of a tqdm run (exact clock). *)
From Coq Require Import Lqa.
From Verif Require Import Num StrModel StrProofs TqdmModel TqdmSpec TqdmProofs.
Open Scope Z_scope.

(** ** The meter *)
Definition printable (s : list Z) : Prop := Forall (fun c => 32 <= c <= 126) s.
Lemma printable_plain s : printable s -> plain s.
Proof. intros F. unfold printable in F. rewrite Forall_forall in F. split; intros I; apply F in I; lia. Qed.
Lemma plain_app a b : plain a -> plain b -> plain (a ++ b).
Proof. intros [A1 A2] [B1 B2]. split; rewrite in_app_iff; tauto. Qed.
Lemma plain_status d s : plain d -> plain s -> plain (prefix d ++ s).
Proof.
  intros D S0. apply plain_app; [|exact S0]. unfold prefix. destruct d; [split; intros []|].
  apply plain_app; [exact D|]. apply printable_plain. repeat (constructor; [lia|]). constructor.
Qed.
Lemma printable_app a b : printable a -> printable b -> printable (a ++ b).
Proof. intros. apply Forall_app. split; assumption. Qed.
Lemma printable_cons c b : 32 <= c <= 126 -> printable b -> printable (c :: b).
Proof. intros. constructor; assumption. Qed.
Lemma printable_nil : printable [].
Proof. constructor. Qed.
Lemma printable_repeat c n : 32 <= c <= 126 -> printable (repeat c n).
Proof. intros H. apply Forall_forall. intros x I. apply repeat_spec in I. subst. exact H. Qed.
Lemma printable_int z : printable (str_int z).
Proof. destruct (str_int_chars z) as [F _]. eapply Forall_impl; [|exact F]. cbn. lia. Qed.
Lemma printable_dec z : 0 <= z -> printable (dec_nat z).
Proof. intros H. pose proof (printable_int z) as P. unfold str_int in P. destruct (z <? 0) eqn:E; [lia|exact P]. Qed.
Lemma printable_pad w c s : 32 <= c <= 126 -> printable s -> printable (pad_left w c s).
Proof. intros. apply printable_app; [apply printable_repeat|]; assumption. Qed.
Lemma printable_cents r : 0 <= r -> printable (cents r).
Proof.
  intros H. unfold cents. apply printable_app; [apply printable_dec; apply Z.div_pos; lia|].
  apply printable_cons; [lia|]. apply printable_pad; [lia|]. apply printable_dec. apply Z.mod_pos_bound. lia.
Qed.
Lemma q_round_nonneg q : (0 <= q)%Q -> 0 <= q_round q.
Proof.
  intros H. unfold q_round. assert (F : 0 <= Qfloor q) by (change 0 with (Qfloor 0); apply Qfloor_resp_le; exact H).
  destruct (Qlt_bool _ _); [exact F|]. destruct (Qlt_bool _ _); [lia|]. destruct (Z.even _); lia.
Qed.
Lemma printable_fixed q : printable (q_fixed q).
Proof.
  apply printable_pad; [lia|]. apply printable_app.
  - destruct (Qlt_bool q 0); [apply printable_cons; [lia|]|]; apply printable_nil.
  - apply printable_cents. apply q_round_nonneg. apply Qmult_le_0_compat; [apply Qabs_nonneg|discriminate].
Qed.
Lemma printable_interval (t : Q) : exists s, format_interval t = Ok s /\ printable s.
Proof.
  unfold format_interval. cbn [mint MeterQ bind].
  destruct (_ =? 0); eexists; (split; [reflexivity|]); repeat first [apply printable_cons; [lia|] | apply printable_pad; [lia|] | apply printable_int | apply printable_app].
Qed.
Lemma meter_total (n : Z) (t : Z) (elapsed : Q) : exists s, format_meter n (Some t) elapsed = Ok s /\ printable s.
Proof.
  unfold format_meter. destruct (printable_interval elapsed) as (es & E & P). rewrite E. cbn [bind].
  set (rate := if neq elapsed (nofZ 0) then [63] else mfixed (ndiv (nofZ n) elapsed)).
  assert (PR : printable rate) by (unfold rate; destruct (neq elapsed (nofZ 0)); [apply printable_cons; [lia|apply printable_nil]|apply printable_fixed]).
  clearbody rate.
  assert (L1 : printable s_elapsed) by (repeat (apply printable_cons; [lia|]); apply printable_nil).
  assert (L2 : printable s_left) by (repeat (apply printable_cons; [lia|]); apply printable_nil).
  assert (L3 : printable s_comma) by (repeat (apply printable_cons; [lia|]); apply printable_nil).
  assert (L4 : printable s_iters) by (repeat (apply printable_cons; [lia|]); apply printable_nil).
  destruct ((if t <? n then 0 else t) =? 0).
  - eexists. split; [reflexivity|]. repeat (apply printable_app); try assumption; try apply printable_int.
  - cbn [mint MeterQ bind].
    assert (LL : exists ls, (if n =? 0 then Ok [63] else format_interval (nmul (ndiv elapsed (nofZ n)) (nofZ ((if t <? n then 0 else t) - n)))) = Ok ls /\ printable ls).
    { destruct (n =? 0); [exists [63]; split; [reflexivity|repeat constructor; lia]|apply printable_interval]. }
    destruct LL as (ls & EL & PL). rewrite EL. cbn [bind]. eexists. split; [reflexivity|].
    repeat first [assumption | apply printable_cons; [lia|] | apply printable_app | apply printable_pad; [lia|] | apply printable_int | apply printable_repeat; lia | apply printable_nil].
Qed.

(** The integer reading of the fields *)
Lemma q_trunc_ratio k n t : 0 <= n -> 0 < t -> 0 <= k -> q_trunc (inject_Z n / inject_Z t * inject_Z k) = k * n / t.
Proof.
  intros Hn Ht Hk. unfold q_trunc. destruct t as [|t|t]; try lia.
  assert (E : (inject_Z n / inject_Z (Zpos t) * inject_Z k)%Q = ((n * 1) * k # (1 * t) * 1)%Q) by reflexivity.
  rewrite E. cbn [Qnum Qden]. rewrite Z.quot_div_nonneg by nia. f_equal; [lia|]. lia.
Qed.

Lemma meter_value n t (elapsed : Q) : 0 <= n <= t -> 0 < t -> exists es ls,
  clock_text es (q_trunc elapsed) /\
  (if n =? 0 then ls = [63] else clock_text ls (q_trunc (elapsed / inject_Z n * inject_Z (t - n)))) /\
  format_meter n (Some t) elapsed = Ok (
    124 :: repeat 35 (Z.to_nat (10 * n / t)) ++ repeat 45 (10 - Z.to_nat (10 * n / t)) ++ [124; 32] ++ str_int n ++ 47 :: str_int t ++ 32 ::
    pad_left 3 32 (str_int (100 * n / t)) ++ [37] ++ s_elapsed ++ es ++ s_left ++ ls ++ s_comma ++
    (if Qeq_bool elapsed 0 then [63] else q_fixed (inject_Z n / elapsed)) ++ s_iters).
Proof.
  intros H Ht.
  assert (M : mint elapsed = Ok (q_trunc elapsed)) by reflexivity.
  destruct (format_interval_text elapsed (q_trunc elapsed) M) as (es & E1 & T1).
  assert (LL : exists ls, (if n =? 0 then Ok [63] else format_interval (nmul (ndiv elapsed (nofZ n)) (nofZ (t - n)))) = Ok ls /\
    (if n =? 0 then ls = [63] else clock_text ls (q_trunc (elapsed / inject_Z n * inject_Z (t - n))))).
  { destruct (n =? 0); [eexists; split; reflexivity|]. apply (format_interval_text (nmul (ndiv elapsed (nofZ n)) (nofZ (t - n)))). reflexivity. }
  destruct LL as (ls & EL & TL). exists es, ls. split; [exact T1|]. split; [exact TL|].
  unfold format_meter. destruct (t <? n) eqn:C; [lia|]. rewrite E1. cbn [bind]. destruct (t =? 0) eqn:C2; [lia|].
  cbn [mint MeterQ bind]. cbn [nmul ndiv nofZ NumQ neq] in *. rewrite EL. cbn [bind].
  rewrite !q_trunc_ratio by lia.
  assert (B : 0 <= 10 * n / t <= 10).
  { split; [apply Z.div_pos; lia|]. apply Z.div_le_upper_bound; lia. }
  replace (Z.to_nat (10 - 10 * n / t)) with (10 - Z.to_nat (10 * n / t))%nat by lia.
  change (inject_Z 0) with 0%Q.
  repeat (rewrite <- ?app_assoc; cbn [app]). reflexivity.
Qed.
Lemma bar_full n t : 0 <= n <= t -> 0 < t -> (10 * n / t = 10 <-> n = t).
Proof.
  intros H Ht. split; intros E.
  - assert (M := Z.mul_div_le (10 * n) t Ht). rewrite E in M. lia.
  - subst. apply Z.div_mul. lia.
Qed.

(** ** The trace *)
Section Trace.
  Variable clock : nat -> Q.
  Context {A : Type}.

  Notation status o m := (prefix (o_desc o) ++ m).

  Lemma yields_app (a b : list (event A)) : yields (a ++ b) = yields a ++ yields b.
  Proof. unfold yields. apply flat_map_app. Qed.
  Lemma filed_app (a b : list (event A)) : filed (a ++ b) = filed a ++ filed b.
  Proof. unfold filed. apply flat_map_app. Qed.
  Lemma stdouted_app (a b : list (event A)) : stdouted (a ++ b) = stdouted a ++ stdouted b.
  Proof. unfold stdouted. apply flat_map_app. Qed.
  Lemma writes_app (a b : list (event A)) : writes (a ++ b) = writes a + writes b.
  Proof. unfold writes. rewrite filter_app, app_length. lia. Qed.

  (** A write that shows the meter for the count n *)
  Definition reports (o : options (T := Q)) (total : option Z) (n : Z) (w : list Z) : Prop :=
    exists t m k, format_meter (T := Q) n total t = Ok m /\ w = 13 :: status o m ++ repeat 32 k.

  Lemma step_trace o T0 start (m : meter) : exists ev m', step clock (A := A) o (Some T0) start m = (ev, Ok m') /\
    m_n m' = m_n m + 1 /\ yields ev = [] /\ stdouted ev = [] /\
    ((ev = [] /\ m_last_n m' = m_last_n m /\ m_last_t m' = m_last_t m /\ m_len m' = m_len m /\ (m_clock m <= m_clock m' <= S (m_clock m))%nat) \/
     (exists s, format_meter (m_n m') (Some T0) (clock (m_clock m) - start)%Q = Ok s /\ printable s /\
        ev = [EFile (fst (print_status (m_len m) (status o s)))] /\ m_len m' = Z.of_nat (length (status o s)) /\
        m_last_n m' = m_n m' /\ m_last_t m' = clock (m_clock m) /\ m_clock m' = S (m_clock m) /\
        o_miniters o <= m_last_n m' - m_last_n m /\ (o_mininterval o <= m_last_t m' - m_last_t m)%Q)).
  Proof.
    unfold step. destruct (o_miniters o <=? m_n m + 1 - m_last_n m) eqn:E1.
    - cbn [nle nsub NumQ]. destruct (Qle_bool (o_mininterval o) (clock (m_clock m) - m_last_t m)) eqn:E2.
      + destruct (meter_total (m_n m + 1) T0 (clock (m_clock m) - start)%Q) as (s & Es & Ps). rewrite Es.
        unfold print_status. eexists _, _. split; [reflexivity|]. cbn. split; [reflexivity|]. split; [reflexivity|]. split; [reflexivity|].
        right. exists s. qbool. split; [exact Es|]. split; [exact Ps|]. split; [reflexivity|]. split; [reflexivity|]. split; [reflexivity|]. split; [reflexivity|].
        split; [reflexivity|]. split; [lia|]. exact E2.
      + eexists _, _. split; [reflexivity|]. cbn. split; [reflexivity|]. split; [reflexivity|]. split; [reflexivity|]. left. repeat split; lia.
    - eexists _, _. split; [reflexivity|]. cbn. split; [reflexivity|]. split; [reflexivity|]. split; [reflexivity|]. left. repeat split; lia.
  Qed.

  Lemma loop_trace o T0 start (items : list A) : forall m, m_last_n m <= m_n m -> exists ev m',
    loop clock o (Some T0) start items m = (ev, Ok m') /\
    m_n m' = m_n m + Z.of_nat (length items) /\ m_last_n m' <= m_n m' /\ yields ev = items /\ stdouted ev = [] /\
    (forall pre w post, ev = pre ++ EFile w :: post -> reports o (Some T0) (m_n m + Z.of_nat (length (yields pre))) w) /\
    (1 <= o_miniters o -> writes ev * o_miniters o <= m_last_n m' - m_last_n m) /\
    (inject_Z (writes ev) * o_mininterval o <= m_last_t m' - m_last_t m)%Q /\
    (m_clock m' <= m_clock m + length items)%nat /\ (m_clock m <= m_clock m')%nat /\
    (m_last_t m' = m_last_t m \/ exists k, (m_clock m <= k < m_clock m')%nat /\ m_last_t m' = clock k) /\
    (forall tm s0, plain (o_desc o) -> shows tm s0 -> m_len m = Z.of_nat (length s0) ->
      (exists t m0, format_meter (m_last_n m) (Some T0) t = Ok m0 /\ s0 = status o m0 /\ (m_last_n m = 0 /\ (t == 0)%Q \/ exists k, t = (clock (S k) - start)%Q)) ->
      (1 <= m_clock m)%nat ->
      exists t m0, format_meter (m_last_n m') (Some T0) t = Ok m0 /\ shows (show tm (filed ev)) (status o m0) /\
        m_len m' = Z.of_nat (length (status o m0)) /\ (m_last_n m' = 0 /\ (t == 0)%Q \/ exists k, t = (clock (S k) - start)%Q)).
  Proof.
    induction items as [|a r IH]; intros m LE.
    - exists [], m. split; [reflexivity|]. cbn [length]. split; [lia|]. split; [exact LE|]. split; [reflexivity|]. split; [reflexivity|].
      split; [intros pre w post E; destruct pre; discriminate|]. split; [cbn; lia|]. split; [change (inject_Z (writes [])) with 0%Q; lra|]. split; [lia|]. split; [lia|]. split; [left; reflexivity|].
      intros tm s0 _ SH L0 (t & m0 & E & -> & K) _. exists t, m0. split; [exact E|]. split; [exact SH|]. split; assumption.
    - cbn [loop]. destruct (step_trace o T0 start m) as (e1 & m1 & E1 & N1 & Y1 & O1 & C1). rewrite E1.
      assert (LE1 : m_last_n m1 <= m_n m1).
      { destruct C1 as [(_ & -> & _)|(s & _ & _ & _ & _ & -> & _)]; lia. }
      destruct (IH m1 LE1) as (e2 & m2 & E2 & N2 & LE2 & Y2 & O2 & R2 & W2 & V2 & K2 & K2' & T2 & S2). rewrite E2.
      exists (EYield a :: e1 ++ e2), m2. split; [reflexivity|]. cbn [length].
      split; [lia|]. split; [exact LE2|]. split. { cbn. rewrite flat_map_app. fold (yields e1) (yields e2). rewrite Y1, Y2. reflexivity. }
      split. { cbn. rewrite flat_map_app. fold (stdouted e1) (stdouted e2). rewrite O1, O2. reflexivity. }
      assert (WC : writes (EYield a :: e1 ++ e2) = writes e1 + writes e2) by (rewrite <- writes_app; reflexivity).
      assert (KC : (m_clock m <= m_clock m1 <= S (m_clock m))%nat).
      { destruct C1 as [(_ & _ & _ & _ & ?)|(s & _ & _ & _ & _ & _ & _ & ? & _)]; lia. }
      split; [|split; [|split; [|split; [|split; [|split]]]]].
      + intros pre w post E. destruct pre as [|p pre]; [discriminate|]. cbn [app] in E. injection E as <- E.
        change (yields (EYield a :: pre)) with (a :: yields pre). cbn [length].
        destruct C1 as [(-> & _)|(s & Es & Ps & -> & _)].
        * cbn [app] in E. specialize (R2 pre w post E). rewrite N1 in R2. replace (m_n m + Z.of_nat (S (length (yields pre)))) with (m_n m + 1 + Z.of_nat (length (yields pre))) by lia. exact R2.
        * destruct pre as [|p pre]; cbn [app] in E; injection E as E0 E.
          -- subst w. cbn [yields flat_map length]. rewrite N1 in Es. exists (clock (m_clock m) - start)%Q, s.
             eexists. split; [exact Es|]. unfold print_status. cbn [fst]. reflexivity.
          -- subst p. specialize (R2 pre w post E). rewrite N1 in R2. change (yields (EFile _ :: pre)) with (yields pre).
             replace (m_n m + Z.of_nat (S (length (yields pre)))) with (m_n m + 1 + Z.of_nat (length (yields pre))) by lia. exact R2.
      + intros M1. rewrite WC. specialize (W2 M1). destruct C1 as [(-> & L & _)|(s & _ & _ & -> & _ & _ & _ & _ & L & _)]; [change (writes []) with 0 | change (writes [EFile _]) with 1]; nia.
      + rewrite WC, inject_Z_plus. destruct C1 as [(-> & _ & L & _)|(s & _ & _ & -> & _ & _ & _ & _ & _ & L)]; [change (inject_Z (writes [])) with 0%Q; rewrite L in V2; lra | change (inject_Z (writes [EFile _])) with 1%Q; lra].
      + lia.
      + lia.
      + destruct T2 as [T2|(k & Hk & T2)]; [|right; exists k; split; [lia|exact T2]].
        destruct C1 as [(_ & _ & L & _)|(s & _ & _ & _ & _ & _ & L & L' & _)]; rewrite T2, L; [left; reflexivity|right; exists (m_clock m); split; [lia|reflexivity]].
      + intros tm s0 PD SH L0 INV CK.
        assert (FE : filed (EYield a :: e1 ++ e2) = filed e1 ++ filed e2) by (rewrite <- filed_app; reflexivity). rewrite FE, show_app.
        destruct C1 as [(-> & L1 & _ & L3 & _)|(s & Es & Ps & -> & L3 & L1 & _)].
        * cbn [filed flat_map show fold_left]. eapply S2; [exact PD|exact SH|congruence|rewrite L1; exact INV|lia].
        * assert (Ppl : plain (status o s)).
          { apply plain_status; [exact PD|apply printable_plain; exact Ps]. }
          assert (SH' : shows (show tm (filed [EFile (A := A) (fst (print_status (m_len m) (status o s)))])) (status o s)).
          { cbn [filed flat_map]. rewrite app_nil_r. rewrite L0. apply print_shows; assumption. }
          eapply S2; [exact PD|exact SH'|exact L3| |lia].
          exists (clock (m_clock m) - start)%Q, s. rewrite L1. split; [exact Es|]. split; [reflexivity|]. right. exists (m_clock m - 1)%nat.
          replace (S (m_clock m - 1)) with (m_clock m) by lia. reflexivity.
  Qed.
End Trace.
