(** Whole runs of tqdm. *)
From Coq Require Import Lqa.
From Verif Require Import Num StrModel TqdmModel TqdmSpec TqdmProofs TqdmTrace.
Open Scope Z_scope.

Section Run.
  Variable clock : nat -> Q.
  Context {A : Type}.
  Implicit Types (items : list A) (ending : res unit) (o : options (T := Q)).

  Definition total_of o (size : option Z) : option Z := match o_total o with None => size | Some t => Some t end.

  Lemma finish_trace o T0 start m : exists ev, finish clock (A := A) o (Some T0) start m = (ev, Ok tt) /\ yields ev = [] /\
    ((o_leave o = false /\ ev = [EFile (fst (print_status (m_len m) [])); EStdout [13]]) \/
     (o_leave o = true /\ m_last_n m < m_n m /\ exists s, format_meter (m_n m) (Some T0) (clock (m_clock m) - start)%Q = Ok s /\ printable s /\
        ev = [EFile (fst (print_status (m_len m) (prefix (o_desc o) ++ s))); EFile [10]]) \/
     (o_leave o = true /\ m_n m <= m_last_n m /\ ev = [EFile [10]])).
  Proof.
    unfold finish. destruct (o_leave o); cbn [negb].
    - destruct (m_last_n m <? m_n m) eqn:C.
      + cbn [nsub NumQ]. destruct (meter_total (m_n m) T0 (clock (m_clock m) - start)%Q) as (s & E & P). rewrite E. eexists. split; [reflexivity|]. split; [reflexivity|].
        right; left. split; [reflexivity|]. split; [lia|]. exists s. split; [reflexivity|]. split; [exact P|reflexivity].
      + eexists. split; [reflexivity|]. split; [reflexivity|]. right; right. split; [reflexivity|]. split; [lia|reflexivity].
    - eexists. split; [reflexivity|]. split; [reflexivity|]. left. split; reflexivity.
  Qed.

  Lemma nil_split {B} (ev : list B) pre w post : ev = pre ++ w :: post -> ev <> [].
  Proof. intros ->. destruct pre; discriminate. Qed.

  Lemma run_trace o size items ending T0 : total_of o size = Some T0 -> exists ev,
    tqdm clock o size items ending = (ev, ending) /\ yields ev = items /\
    (forall pre w post, ev = pre ++ EFile w :: post ->
      reports o (Some T0) (Z.of_nat (length (yields pre))) w \/
      (o_leave o = true /\ w = [10] /\ post = [] /\ ending = Ok tt) \/
      (o_leave o = false /\ (exists k, w = 13 :: repeat 32 k) /\ post = [EStdout [13]] /\ ending = Ok tt)) /\
    (1 <= o_miniters o -> (writes ev - 3) * o_miniters o <= Z.of_nat (length items)) /\
    ((0 <= o_mininterval o)%Q -> exists k, (k <= length items)%nat /\ (inject_Z (writes ev - 3) * o_mininterval o <= clock k - clock 0%nat)%Q) /\
    (plain (o_desc o) -> ending = Ok tt -> o_leave o = true -> stdouted ev = [] /\ exists body t s k, filed ev = body ++ [10] /\
      format_meter (Z.of_nat (length items)) (Some T0) t = Ok s /\ (items = [] /\ (t == 0)%Q \/ exists k, t = (clock (S k) - clock 0%nat)%Q) /\
      t_line (show blank_line body) = prefix (o_desc o) ++ s ++ repeat 32 k) /\
    (plain (o_desc o) -> ending = Ok tt -> o_leave o = false -> stdouted ev = [13] /\ exists k, t_line (show blank_line (filed ev)) = repeat 32 k).
  Proof.
    intros HT. unfold tqdm. fold (total_of o size). rewrite HT. cbn [nofZ NumQ].
    destruct (meter_total 0 T0 (inject_Z 0)) as (s0 & E0 & P0). rewrite E0.
    unfold print_status at 1. set (w0 := 13 :: _). set (len0 := Z.of_nat _).
    set (m0 := {| m_clock := 1; m_len := len0; m_last_t := clock 0%nat; m_last_n := 0; m_n := 0 |}).
    destruct (loop_trace clock o T0 (clock 0%nat) items m0 ltac:(cbn; lia)) as (e1 & m1 & E1 & N1 & LE1 & Y1 & O1 & R1 & W1 & V1 & K1 & K1' & T1 & S1).
    rewrite E1. cbn [m_n m_last_n m_last_t m_clock m_len m0] in *.
    assert (RW0 : reports o (Some T0) 0 w0).
    { eexists _, s0, _. split; [exact E0|]. reflexivity. }
    assert (SH0 : plain (o_desc o) -> shows (show blank_line w0) (prefix (o_desc o) ++ s0)).
    { intros PD. apply (print_shows blank_line [] (prefix (o_desc o) ++ s0)); [exists 0%nat; reflexivity|]. apply plain_status; [exact PD|apply printable_plain; exact P0]. }
    assert (SH1 : plain (o_desc o) -> exists t s, format_meter (m_last_n m1) (Some T0) t = Ok s /\ shows (show blank_line (w0 ++ filed e1)) (prefix (o_desc o) ++ s) /\
      m_len m1 = Z.of_nat (length (prefix (o_desc o) ++ s)) /\ (m_last_n m1 = 0 /\ (t == 0)%Q \/ exists k, t = (clock (S k) - clock 0%nat)%Q)).
    { intros PD. specialize (SH0 PD). rewrite show_app. apply (S1 _ (prefix (o_desc o) ++ s0) PD SH0); [reflexivity| |lia].
      exists (inject_Z 0), s0. split; [exact E0|]. split; [reflexivity|]. left. split; reflexivity. }
    assert (T1' : exists k, (k <= length items)%nat /\ m_last_t m1 = clock k).
    { destruct T1 as [T1|(k & Hk & T1)]; [exists 0%nat; split; [lia|exact T1]|exists k; split; [lia|exact T1]]. }
    assert (LN : 0 <= m_last_n m1 \/ o_miniters o < 1) by (destruct (Z_lt_ge_dec (o_miniters o) 1); [right; assumption|left; specialize (W1 ltac:(lia)); unfold writes in W1; nia]).
    assert (SPL : forall f pre w post, EFile w0 :: e1 ++ f = pre ++ EFile w :: post ->
       reports o (Some T0) (Z.of_nat (length (yields pre))) w \/ (exists pre', f = pre' ++ EFile w :: post /\ pre = EFile w0 :: e1 ++ pre')).
    { intros f pre w post E. destruct pre as [|p pre]; cbn [app] in E; injection E as E' E; [subst w; left; exact RW0|]. subst p.
      change (yields (EFile w0 :: pre)) with (yields pre).
      destruct (Nat.lt_ge_cases (length pre) (length e1)) as [L|L].
      - left. specialize (R1 pre w (skipn (S (length pre)) e1)). cbn in R1. apply R1.
        rewrite <- (firstn_skipn (length pre) e1) at 1. apply (f_equal (firstn (length pre))) in E as F1. rewrite !firstn_app, Nat.sub_diag, firstn_all in F1.
        replace (length pre - length e1)%nat with 0%nat in F1 by lia. cbn [firstn] in F1. rewrite !app_nil_r in F1. rewrite F1. f_equal.
        apply (f_equal (skipn (length pre))) in E as F2. rewrite !skipn_app, Nat.sub_diag, skipn_all in F2. replace (length pre - length e1)%nat with 0%nat in F2 by lia. cbn [skipn app] in F2.
        destruct (skipn (length pre) e1) as [|x xs] eqn:SK.
        + apply (f_equal (@length _)) in SK. rewrite skipn_length in SK. cbn in SK. lia.
        + cbn [app] in F2. injection F2 as F2 F3. subst x. f_equal. 
          assert (SS : forall n k (l : list (event A)), skipn k (skipn n l) = skipn (n + k) l).
          { induction n as [|n IHn]; intros k l; [reflexivity|]. destruct l; [rewrite !skipn_nil; reflexivity|]. cbn [skipn Nat.add]. apply IHn. }
          specialize (SS (length pre) 1%nat e1). rewrite SK in SS. change (skipn 1 (EFile w :: xs)) with xs in SS. rewrite SS. replace (length pre + 1)%nat with (S (length pre)) by lia. reflexivity.
      - right. exists (skipn (length e1) pre). apply (f_equal (skipn (length e1))) in E as F2. rewrite !skipn_app, Nat.sub_diag, skipn_all in F2. cbn [skipn app] in F2.
        replace (length e1 - length pre)%nat with 0%nat in F2 by lia. cbn [skipn] in F2. split; [exact F2|]. f_equal.
        apply (f_equal (firstn (length e1))) in E as F1. rewrite !firstn_app, Nat.sub_diag, firstn_all in F1. replace (length e1 - length pre)%nat with 0%nat in F1 by lia. cbn [firstn] in F1. rewrite !app_nil_r in F1.
        rewrite F1 at 1. symmetry. apply firstn_skipn. }
    assert (RB : forall x, x <= writes e1 -> 1 <= o_miniters o -> x * o_miniters o <= Z.of_nat (length items)).
    { intros x L M. specialize (W1 M). destruct LN as [LN|LN]; [|lia]. nia. }
    assert (TB : forall x, x <= writes e1 -> (0 <= o_mininterval o)%Q -> exists k, (k <= length items)%nat /\ (inject_Z x * o_mininterval o <= clock k - clock 0%nat)%Q).
    { intros x L M. destruct T1' as (k & Hk & T1'). exists k. split; [exact Hk|]. rewrite <- T1'. eapply Qle_trans; [|exact V1]. apply Qmult_le_compat_r; [rewrite <- Zle_Qle; exact L|exact M]. }
    destruct ending as [[]|e].
    - destruct (finish_trace o T0 (clock 0%nat) m1) as (f & EF & YF & CF). rewrite EF.
      exists (EFile w0 :: e1 ++ f). split; [reflexivity|].
      split. { change (yields (EFile w0 :: e1 ++ f)) with (yields (e1 ++ f)). rewrite yields_app, Y1, YF. apply app_nil_r. }
      assert (WE : writes (EFile w0 :: e1 ++ f) = 1 + (writes e1 + writes f)).
      { change (EFile w0 :: e1 ++ f) with ([EFile w0] ++ e1 ++ f). rewrite !writes_app. reflexivity. }
      assert (WF : writes f <= 2).
      { destruct CF as [(_ & ->)|[(_ & _ & s & _ & _ & ->)|(_ & _ & ->)]]; cbn; lia. }
      assert (FE : filed (EFile w0 :: e1 ++ f) = (w0 ++ filed e1) ++ filed f).
      { change (EFile w0 :: e1 ++ f) with ([EFile w0] ++ e1 ++ f). rewrite !filed_app. cbn [filed flat_map]. rewrite app_nil_r, app_assoc. reflexivity. }
      assert (OE : stdouted (EFile w0 :: e1 ++ f) = stdouted f).
      { change (EFile w0 :: e1 ++ f) with ([EFile w0] ++ e1 ++ f). rewrite !stdouted_app, O1. reflexivity. }
      split; [|split; [|split; [|split]]].
      + intros pre w post E. destruct (SPL f pre w post E) as [R|(pre' & F & Epre)]; [left; exact R|].
        destruct CF as [(CL & ->)|[(CL & CN & s & Es & Ps & ->)|(CL & CN & ->)]].
        * right; right. split; [exact CL|]. destruct pre' as [|x pre']; cbn [app] in F.
          -- injection F as F1 F2. split; [|split; [symmetry; exact F2|reflexivity]]. unfold print_status in F1. cbn in F1. eexists. symmetry. exact F1.
          -- injection F as _ F. destruct pre' as [|y pre']; [discriminate|]. injection F as _ F. destruct pre'; discriminate.
        * destruct pre' as [|x pre']; cbn [app] in F.
          -- left. injection F as F1 F2. subst pre. change (yields (EFile w0 :: e1 ++ [])) with (yields (e1 ++ [])). rewrite app_nil_r, Y1.
             replace (Z.of_nat (length items)) with (m_n m1) by lia. exists (clock (m_clock m1) - clock 0%nat)%Q, s. eexists. split; [exact Es|].
             symmetry. unfold print_status in F1. exact F1.
          -- right; left. split; [exact CL|]. injection F as _ F. destruct pre' as [|y pre']; cbn [app] in F; [|injection F as _ F; destruct pre'; discriminate].
             injection F as F1 F2. split; [symmetry; exact F1|]. split; [symmetry; exact F2|reflexivity].
        * right; left. split; [exact CL|]. destruct pre' as [|y pre']; cbn [app] in F; [|injection F as _ F; destruct pre'; discriminate].
          injection F as F1 F2. split; [symmetry; exact F1|]. split; [symmetry; exact F2|reflexivity].
      + intros M. apply RB; [lia|exact M].
      + intros M. apply TB; [lia|exact M].
      + intros PD _ CL. rewrite OE, FE. destruct (SH1 PD) as (t1 & s1 & Es1 & Sh1 & L1 & C1).
        destruct CF as [(CL' & _)|[(_ & CN & s & Es & Ps & ->)|(_ & CN & ->)]]; [congruence| |].
        * split; [reflexivity|].
          assert (SHF : shows (show blank_line ((w0 ++ filed e1) ++ fst (print_status (m_len m1) (prefix (o_desc o) ++ s)))) (prefix (o_desc o) ++ s)).
          { rewrite show_app, L1. apply print_shows; [exact Sh1|]. apply plain_status; [exact PD|apply printable_plain; exact Ps]. }
          destruct SHF as [k SHF]. exists ((w0 ++ filed e1) ++ fst (print_status (m_len m1) (prefix (o_desc o) ++ s))), (clock (m_clock m1) - clock 0%nat)%Q, s, k.
          split; [cbn [filed flat_map]; rewrite <- !app_assoc; reflexivity|]. split; [replace (Z.of_nat (length items)) with (m_n m1) by lia; exact Es|].
          split; [right; exists (m_clock m1 - 1)%nat; replace (S (m_clock m1 - 1)) with (m_clock m1) by lia; reflexivity|].
          rewrite app_assoc. exact SHF.
        * split; [reflexivity|]. destruct Sh1 as [k Sh1]. exists (w0 ++ filed e1), t1, s1, k. split; [reflexivity|].
          assert (EN : m_last_n m1 = Z.of_nat (length items)) by lia. rewrite <- EN. split; [exact Es1|].
          split; [|rewrite app_assoc; exact Sh1]. destruct C1 as [[C1 C1']|C1]; [left|right; exact C1]. split; [|exact C1'].
          destruct items; [reflexivity|]. cbn [length] in *. lia.
      + intros PD _ CL. rewrite OE, FE. destruct (SH1 PD) as (t1 & s1 & Es1 & Sh1 & L1 & C1).
        destruct CF as [(_ & ->)|[(CL' & _)|(CL' & _)]]; [|congruence|congruence]. split; [reflexivity|].
        cbn [filed flat_map]. rewrite app_nil_r. rewrite show_app, L1.
        destruct (print_shows (show blank_line (w0 ++ filed e1)) _ [] Sh1) as [k Hk]; [split; intros []|]. exists k. exact Hk.
    - exists (EFile w0 :: e1). split; [reflexivity|]. split; [exact Y1|].
      assert (WE : writes (EFile w0 :: e1) = 1 + writes e1) by (change (EFile w0 :: e1) with ([EFile w0] ++ e1); rewrite !writes_app; reflexivity).
      split; [|split; [|split; [|split]]].
      + intros pre w post E. rewrite <- (app_nil_r e1) in E. destruct (SPL [] pre w post E) as [R|(pre' & F & _)]; [left; exact R|]. destruct pre'; discriminate.
      + intros M. apply RB; [lia|exact M].
      + intros M. apply TB; [lia|exact M].
      + discriminate.
      + discriminate.
  Qed.
End Run.

Lemma run_unsized {T} `{PyNum T} `{PyMeter T} {A} (clock : nat -> T) o (items : list A) ending :
  o_total o = None -> tqdm clock o None items ending = ([], Err TypeError).
Proof. intros E. unfold tqdm. rewrite E. reflexivity. Qed.

Lemma py_range_spec a b step : step <> 0 -> exists l, py_range a b step = Ok l /\
  forall i, nth_error l i = (if if 0 <? step then a + Z.of_nat i * step <? b else b <? a + Z.of_nat i * step then Some (a + Z.of_nat i * step) else None).
Proof.
  intros N. unfold py_range. destruct (Z.eqb_spec step 0) as [E|_]; [contradiction|]. eexists. split; [reflexivity|].
  intros i. rewrite nth_error_map. set (n := if 0 <? step then (b - a + step - 1) / step else (a - b - step - 1) / - step).
  assert (C : (if 0 <? step then a + Z.of_nat i * step <? b else b <? a + Z.of_nat i * step) = (Z.of_nat i <? n)).
  { unfold n. destruct (0 <? step) eqn:P.
    - assert (D := Z.div_mod (b - a + step - 1) step ltac:(lia)). assert (M := Z.mod_pos_bound (b - a + step - 1) step ltac:(lia)).
      set (q := (b - a + step - 1) / step) in *. clearbody q. destruct (Z.ltb_spec (Z.of_nat i) q); [apply Z.ltb_lt|apply Z.ltb_ge]; nia.
    - assert (D := Z.div_mod (a - b - step - 1) (- step) ltac:(lia)). assert (M := Z.mod_pos_bound (a - b - step - 1) (- step) ltac:(lia)).
      set (q := (a - b - step - 1) / - step) in *. clearbody q. destruct (Z.ltb_spec (Z.of_nat i) q); [apply Z.ltb_lt|apply Z.ltb_ge]; nia. }
  rewrite C. clearbody n. destruct (Z.ltb_spec (Z.of_nat i) n) as [L|L].
  - assert (E : nth_error (seq 0 (Z.to_nat n)) i = Some i).
    { rewrite (nth_error_nth' _ 0%nat) by (rewrite seq_length; lia). rewrite seq_nth by lia. reflexivity. }
    rewrite E. reflexivity.
  - assert (E : nth_error (seq 0 (Z.to_nat n)) i = None) by (apply nth_error_None; rewrite seq_length; lia). rewrite E. reflexivity.
Qed.
Lemma trange_items (clock : nat -> Q) o a b step : step <> 0 -> exists ev, trange clock o a b step = (ev, Ok tt) /\
  forall i, nth_error (yields ev) i = (if if 0 <? step then a + Z.of_nat i * step <? b else b <? a + Z.of_nat i * step then Some (a + Z.of_nat i * step) else None).
Proof.
  intros N. destruct (py_range_spec a b step N) as (l & E & H). unfold trange. rewrite E.
  assert (T : exists T0, total_of o (Some (Z.of_nat (length l))) = Some T0) by (unfold total_of; destruct (o_total o); eexists; reflexivity).
  destruct T as [T0 T]. destruct (run_trace clock o _ l (Ok tt) T0 T) as (ev & E1 & E2 & _). exists ev. split; [exact E1|]. rewrite E2. exact H.
Qed.

Lemma meter_over n t (elapsed : Q) : t < n \/ t = 0 -> exists es, clock_text es (q_trunc elapsed) /\
  format_meter n (Some t) elapsed = Ok (str_int n ++ s_elapsed ++ es ++ s_comma ++ (if Qeq_bool elapsed 0 then [63] else q_fixed (inject_Z n / elapsed)) ++ s_iters).
Proof.
  intros H. assert (M : mint elapsed = Ok (q_trunc elapsed)) by reflexivity.
  destruct (format_interval_text elapsed (q_trunc elapsed) M) as (es & E1 & T1). exists es. split; [exact T1|].
  unfold format_meter. rewrite E1. cbn [bind]. assert (C : ((if t <? n then 0 else t) =? 0) = true) by (destruct (Z.ltb_spec t n); [reflexivity|apply Z.eqb_eq; lia]).
  rewrite C. reflexivity.
Qed.
