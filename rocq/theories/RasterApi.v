(** Drawing on canvases: the parts put together. *)
From Coq Require Import Lia Lqa ZifyBool Sorted Permutation.
From Verif Require Import Num PfModel PfProofs RgProofs RoundProofs RasterModel RasterSpec RasterLine RasterCanvas RasterFill RasterScan.
Open Scope Z_scope.

(** ** Painting a list of pixels *)
Section Paint.
  Context {C V R : Type}.
  Variables (set : C -> Z * Z -> V -> res C) (get : C -> Z * Z -> res R) (ok : C -> Prop) (inc : Z * Z -> Prop) (v : V) (r : R).
  Hypothesis set_ok : forall c p, ok c -> inc p -> exists c', set c p v = Ok c' /\ ok c' /\ get c' p = Ok r /\
    forall q, inc q -> q <> p -> get c' q = get c q.
  Lemma paint_ok ps : forall c, ok c -> Forall inc ps -> exists c', paint set ps v c = Ok c' /\ ok c' /\
    forall q, inc q -> (In q ps -> get c' q = Ok r) /\ (~ In q ps -> get c' q = get c q).
  Proof using set_ok.
    induction ps as [|p ps IH]; intros c K F.
    - exists c. split; [reflexivity|]. split; [exact K|]. intros q _. split; [intros []|reflexivity].
    - inversion F as [|? ? Ip F']; subst. destruct (set_ok c p K Ip) as (c1 & S1 & K1 & G1 & O1).
      destruct (IH c1 K1 F') as (c' & P' & K' & G'). exists c'. unfold paint in *. cbn [foldM]. rewrite S1. cbn [bind].
      split; [exact P'|]. split; [exact K'|]. intros q Iq. destruct (G' q Iq) as [G1' G2'].
      assert (D : {q = p} + {q <> p}) by (decide equality; apply Z.eq_dec).
      assert (Dl : {In q ps} + {~ In q ps}) by (apply in_dec; decide equality; apply Z.eq_dec).
      split.
      + intros [<-|I]; [|apply G1'; exact I]. destruct Dl as [I|N]; [apply G1'; exact I|]. rewrite G2' by exact N. exact G1.
      + intros N. rewrite G2' by (intros I; apply N; right; exact I). apply O1; [exact Iq|]. intros ->. apply N. left. reflexivity.
  Qed.
End Paint.
Lemma bw_get_set w h c p v : bw_ok w h c -> in_canvas w h p -> exists c', bw_set c p v = Ok c' /\ bw_ok w h c' /\
  bw_get c' p = Ok v /\ forall q, in_canvas w h q -> q <> p -> bw_get c' q = bw_get c q.
Proof.
  intros K I. destruct (bw_set_ok w h c p v K I) as (c' & S & K' & B). exists c'. split; [exact S|]. split; [exact K'|].
  assert (Pp : forall q, in_canvas w h q -> 0 <= bw_index w q).
  { intros q Iq. pose proof (bw_index_range w h q _ Iq eq_refl) as R. unfold bw_index in *. unfold in_canvas in Iq.
    assert (0 <= (w + 7) / 8) by (apply Z.div_pos; lia). nia. }
  split.
  - rewrite (bw_get_bit w h c' p K' I), B, Z.eqb_refl by (apply Pp; exact I). reflexivity.
  - intros q Iq N. rewrite (bw_get_bit w h c' q K' Iq), (bw_get_bit w h c q K Iq), B by (apply Pp; exact Iq).
    destruct (Z.eqb_spec (bw_index w q) (bw_index w p)) as [E|E]; [|reflexivity].
    exfalso. apply N. apply (bw_index_inj w h); assumption.
Qed.
Lemma g_get_set {T} `{PyNum T} `{PyInt T} w h c p v : g_ok w h c -> in_canvas w h p -> is_byte v ->
  exists c', g_set c p (GInt (T := T) v) = Ok c' /\ g_ok w h c' /\
  g_get c' p = Ok v /\ forall q, in_canvas w h q -> q <> p -> g_get c' q = g_get c q.
Proof.
  intros K I B. destruct (g_get_in w h c p K I) as (bg & G & _). pose proof (g_set_cases w h c p (GInt (T := T) v) bg K I G) as S.
  cbn [g_value bind] in S. rewrite byte_ok in S by exact B. exact S.
Qed.
Lemma g_get_blend {T} `{PyNum T} `{PyInt T} w h c p fg (a : T) bg : g_ok w h c -> in_canvas w h p -> g_get c p = Ok bg ->
  is_byte (blend bg fg a) ->
  exists c', g_set c p (GTup [fg] (Some a)) = Ok c' /\ g_ok w h c' /\
  g_get c' p = Ok (blend bg fg a) /\ forall q, in_canvas w h q -> q <> p -> g_get c' q = g_get c q.
Proof.
  intros K I G B. pose proof (g_set_cases w h c p (GTup [fg] (Some a)) bg K I G) as S.
  cbn [g_value unpack_pair bind] in S. rewrite byte_ok in S by exact B. exact S.
Qed.
Lemma c_get_set {T} `{PyNum T} `{PyInt T} w h c p r g b : c_ok w h c -> in_canvas w h p -> is_byte r -> is_byte g -> is_byte b ->
  exists c', c_set c p ([r; g; b], None (A := T)) = Ok c' /\ c_ok w h c' /\
  c_get c' p = Ok (r, g, b) /\ forall q, in_canvas w h q -> q <> p -> c_get c' q = c_get c q.
Proof.
  intros K I Br Bg Bb. destruct (c_get_ok w h c p K I) as (r0 & g0 & b0 & G & _).
  apply (c_set_three w h c p _ _ r g b K I G); [reflexivity|assumption|assumption|assumption].
Qed.

(** ** Filling *)
Lemma fill_loop_rest width x0 d0 x1 d1 marks xs rest : fill_loop width x0 d0 x1 d1 marks = (xs, Ok rest) ->
  exists pre, marks = pre ++ rest.
Proof.
  revert x0 d0 x1 d1 xs. induction marks as [|[x2 d2] r IH]; intros x0 d0 x1 d1 xs; cbn [fill_loop]; destruct (x1 <? width).
  - intros E. discriminate.
  - intros E. injection E as <- <-. exists []. reflexivity.
  - destruct (fill_loop width _ d1 x2 d2 r) as [ys m] eqn:F. intros E. injection E as <- ->.
    apply IH in F. destruct F as (pre & ->). exists ((x2, d2) :: pre). reflexivity.
  - intros E. injection E as <- <-. exists []. reflexivity.
Qed.
Lemma sorted_suffix a b : sorted (a ++ b) -> sorted b.
Proof. induction a as [|x a IH]; [auto|]. cbn. intros S. inversion S; subst. apply IH. assumption. Qed.
Lemma fill_row_rest width marks xs rest : sorted marks -> fill_row width marks = (xs, Ok rest) -> sorted rest.
Proof.
  intros S. unfold fill_row. pose proof (push_sorted (width, false) marks S) as S1. destruct (heappush _ marks) as [|[x1 d1] r]; [discriminate|].
  intros E. apply fill_loop_rest in E. destruct E as (pre & ->). apply (sorted_suffix ((x1, d1) :: pre)). exact S1.
Qed.
Lemma row_cons m s r : row (m :: s) r = if r <=? 0 then m else row s (r - 1).
Proof.
  unfold row. destruct (Z.leb_spec r 0) as [L|L].
  - destruct r; try lia; reflexivity.
  - replace (Z.to_nat r) with (S (Z.to_nat (r - 1))) by lia. reflexivity.
Qed.
Lemma fill_rows_painted width scans : Forall sorted scans -> forall y,
  exists ps left, fill_rows width y scans = (ps, Ok left) /\ NoDup ps /\ length left = length scans /\ Forall sorted left /\
    Forall (Forall (fun m => width <= fst m)) left /\
    forall p, In p ps <-> y <= snd p < y + Z.of_nat (length scans) /\ painted width (row scans (snd p - y)) (fst p).
Proof.
  induction 1 as [|marks scans S F IH]; intros y.
  - exists [], []. split; [reflexivity|]. split; [constructor|]. split; [reflexivity|]. split; [constructor|]. split; [constructor|].
    intros p. split; [intros []|]. cbn [length]. lia.
  - cbn [fill_rows]. destruct (fill_row_painted width marks S) as (xs & rest & E & Fr & P).
    pose proof (fill_row_once width marks S) as O. rewrite E in O. cbn [fst] in O. rewrite E.
    destruct (IH (y + 1)) as (ps & left & E' & ND & L & Fs & Fl & P'). rewrite E'. cbn [rmap].
    exists (map (fun x => (x, y)) xs ++ ps), (rest :: left). split; [reflexivity|]. split; [|split; [|split; [|split]]].
    + assert (Nx : NoDup (map (fun x => (x, y)) xs)).
      { clear - O. induction O as [|x l S IH F]; cbn; constructor; [|exact IH]. intros I. apply in_map_iff in I.
        destruct I as (z & Ez & Iz). injection Ez as ->. rewrite Forall_forall in F. apply F in Iz. lia. }
      assert (Dj : forall p, In p (map (fun x => (x, y)) xs) -> ~ In p ps).
      { intros p I J. apply in_map_iff in I. destruct I as (z & <- & _). apply P' in J. cbn [snd] in J. lia. }
      clear - Nx ND Dj. induction Nx as [|q l Nq Nl IHl]; [exact ND|]. cbn. constructor.
      * intros I. apply in_app_iff in I. destruct I as [I|I]; [contradiction|]. apply (Dj q); [left; reflexivity|exact I].
      * apply IHl. intros p I. apply Dj. right. exact I.
    + cbn. lia.
    + constructor; [|exact Fs]. apply (fill_row_rest width marks xs); assumption.
    + constructor; assumption.
    + intros [x r]. rewrite in_app_iff, in_map_iff, P'. cbn [fst snd length]. rewrite row_cons. split.
      * intros [(z & Ez & Iz)|[R Q]].
        -- injection Ez as <- <-. rewrite Z.sub_diag. cbn [Z.leb Z.compare]. split; [lia|]. apply P. exact Iz.
        -- replace (r - y <=? 0) with false by lia. replace (r - y - 1) with (r - (y + 1)) by lia. split; [lia|exact Q].
      * intros [R Q]. destruct (Z.leb_spec (r - y) 0) as [L0|L0].
        -- left. exists x. split; [f_equal; lia|]. apply P. exact Q.
        -- right. replace (r - (y + 1)) with (r - y - 1) by lia. split; [lia|exact Q].
Qed.
Lemma fill_twice width scans ps left : Forall sorted scans -> fill_rows width 0 scans = (ps, Ok left) ->
  exists left', fill_rows width 0 left = ([], Ok left').
Proof.
  intros F E. destruct (fill_rows_painted width scans F 0) as (ps0 & l0 & E0 & _ & L & Fs & Fl & _). rewrite E in E0. injection E0 as <- <-.
  destruct (fill_rows_painted width left Fs 0) as (ps' & left' & E' & _ & _ & _ & _ & P'). exists left'. rewrite E'.
  destruct ps' as [|p ps']; [reflexivity|]. exfalso. destruct (proj1 (P' p) (or_introl eq_refl)) as [R [(m & I & B) _]].
  unfold row in I. destruct (nth_in_or_default (Z.to_nat (snd p - 0)) left []) as [J|J]; [|rewrite J in I; contradiction].
  rewrite Forall_forall in Fl. specialize (Fl _ J). rewrite Forall_forall in Fl. specialize (Fl m I). lia.
Qed.
(** Painted pixels are on the canvas when no mark is left of it. *)
Lemma painted_in width marks x : (forall m, In m marks -> 0 <= fst m) -> painted width marks x -> 0 <= x < width.
Proof.
  intros P [(m & I & B) [(n & In_ & L & _)|(Px & _)]]; [|lia]. specialize (P n In_). lia.
Qed.
Lemma row_clear scans r m : clear_left scans -> In m (row scans r) -> 0 <= fst m.
Proof.
  intros F I. unfold row in I. destruct (nth_in_or_default (Z.to_nat r) scans []) as [J|J]; [|rewrite J in I; contradiction].
  unfold clear_left in F. rewrite Forall_forall in F. specialize (F _ J). rewrite Forall_forall in F. apply F. exact I.
Qed.
Lemma fill_canvas {C V R} (set : C -> Z * Z -> V -> res C) (get : C -> Z * Z -> res R) (ok : C -> Prop) w h (v : V) (r : R) c scans :
  (forall c p, ok c -> in_canvas w h p -> exists c', set c p v = Ok c' /\ ok c' /\ get c' p = Ok r /\
    forall q, in_canvas w h q -> q <> p -> get c' q = get c q) ->
  ok c -> Forall sorted scans -> clear_left scans -> Z.of_nat (length scans) <= h ->
  exists ps left c', fill_rows w 0 scans = (ps, Ok left) /\ paint set ps v c = Ok c' /\ ok c' /\
    forall q, in_canvas w h q -> (painted w (row scans (snd q)) (fst q) -> get c' q = Ok r) /\
                                (~ painted w (row scans (snd q)) (fst q) -> get c' q = get c q).
Proof.
  intros SO K F CL L. destruct (fill_rows_painted w scans F 0) as (ps & left & E & _ & _ & _ & _ & P).
  assert (Fp : Forall (in_canvas w h) ps).
  { apply Forall_forall. intros p I. apply P in I. destruct I as [Ry Q]. rewrite Z.sub_0_r in Q. apply painted_in in Q; [|intros m; apply row_clear; exact CL].
    unfold in_canvas. lia. }
  destruct (paint_ok set get ok (in_canvas w h) v r SO ps c K Fp) as (c' & Ep & K' & G). exists ps, left, c'.
  split; [exact E|]. split; [exact Ep|]. split; [exact K'|]. intros q Iq. destruct (G q Iq) as [G1 G2]. split.
  - intros Q. apply G1, P. rewrite Z.sub_0_r. split; [|exact Q]. unfold in_canvas in Iq. split; [lia|].
    destruct Q as [(m & I & _) _]. unfold row in I. destruct (Nat.lt_ge_cases (Z.to_nat (snd q)) (length scans)) as [Lt|Ge]; [lia|].
    rewrite nth_overflow in I by exact Ge. contradiction.
  - intros Q. apply G2. intros I. apply Q. apply P in I. rewrite Z.sub_0_r in I. apply I.
Qed.

(** ** Rows with two marks *)
Lemma painted_perm w a b x : Permutation a b -> (painted w a x <-> painted w b x).
Proof.
  intros P. assert (I : forall m, In m a <-> In m b).
  { intros m. split; apply Permutation_in; [exact P|symmetry; exact P]. }
  unfold painted, last_is. split; intros [(m & Im & R) D]; (split; [exists m; split; [apply I; exact Im|exact R]|]).
  - destruct D as [(n & In_ & L & D & M)|(Px & A & (n & In_ & D & M))].
    + left. exists n. split; [apply I; exact In_|]. split; [exact L|]. split; [exact D|]. intros m' I'. apply M, I, I'.
    + right. split; [exact Px|]. split; [intros m' I'; apply A, I, I'|]. exists n. split; [apply I; exact In_|]. split; [exact D|].
      intros m' I'. apply M, I, I'.
  - destruct D as [(n & In_ & L & D & M)|(Px & A & (n & In_ & D & M))].
    + left. exists n. split; [apply I; exact In_|]. split; [exact L|]. split; [exact D|]. intros m' I'. apply M, I, I'.
    + right. split; [exact Px|]. split; [intros m' I'; apply A, I, I'|]. exists n. split; [apply I; exact In_|]. split; [exact D|].
      intros m' I'. apply M, I, I'.
Qed.
Lemma painted_nil w x : ~ painted w [] x.
Proof. intros [(m & [] & _) _]. Qed.
(** Up on the left, down on the right: the inside. *)
Lemma painted_span w a b x : a <= b -> (painted w [(a, false); (b, true)] x <-> a <= x < b /\ b < w).
Proof.
  intros L. split.
  - intros [(m & I & R) D]. assert (M : x < b /\ (b < w \/ (x < a /\ a < w))).
    { destruct I as [<-|[<-|[]]]; cbn [fst] in R; lia. }
    destruct D as [(n & In_ & Ln & Dn & Mn)|(Px & A & (n & In_ & Dn & Mn))].
    + destruct In_ as [<-|[<-|[]]]; [|discriminate]. cbn [fst] in Ln. lia.
    + exfalso. destruct In_ as [<-|[<-|[]]]; [discriminate|]. specialize (Mn (a, false) (or_introl eq_refl)).
      unfold mark_leb in Mn. cbn in Mn. lia.
  - intros [R B]. split; [exists (b, true); split; [right; left; reflexivity|cbn; lia]|]. left. exists (a, false).
    split; [left; reflexivity|]. cbn [fst snd]. split; [lia|]. split; [reflexivity|].
    intros m' [<-|[<-|[]]] L'; cbn [fst] in L'; [|lia]. unfold mark_leb. cbn. lia.
Qed.
(** Down on the left, up on the right: what lies left of the polygon. *)
Lemma painted_outside w a b x : a < b -> (painted w [(a, true); (b, false)] x <-> 0 <= x < a /\ a < w).
Proof.
  intros L. split.
  - intros [(m & I & R) D].
    destruct D as [(n & In_ & Ln & Dn & Mn)|(Px & A & (n & In_ & Dn & Mn))].
    + exfalso. destruct In_ as [<-|[<-|[]]]; [discriminate|]. cbn [fst] in Ln. destruct I as [<-|[<-|[]]]; cbn [fst] in R; lia.
    + pose proof (A _ (or_introl eq_refl)) as Aa. cbn [fst] in Aa. destruct I as [<-|[<-|[]]]; cbn [fst] in R; lia.
  - intros [R B]. split; [exists (a, true); split; [left; reflexivity|cbn; lia]|]. right. split; [lia|].
    split; [intros m [<-|[<-|[]]]; cbn; lia|]. exists (a, true). split; [left; reflexivity|]. split; [reflexivity|].
    intros m [<-|[<-|[]]]; unfold mark_leb; cbn; lia.
Qed.

(** ** Polygons *)
Lemma meets_range p q y lo hi : lo <= fst p <= hi -> lo <= fst q <= hi ->
  (snd p <= y < snd q \/ snd q <= y < snd p) -> (inject_Z lo <= meets (p, q) y <= inject_Z hi)%Q.
Proof.
  destruct p as [x0 y0], q as [x1 y1]. cbn [fst snd]. intros Hp Hq Hy.
  assert (G : forall x0 y0 x1 y1, lo <= x0 <= hi -> lo <= x1 <= hi -> y0 <= y < y1 ->
    (inject_Z lo <= meets ((x0, y0), (x1, y1)) y <= inject_Z hi)%Q).
  { clear. intros x0 y0 x1 y1 H0 H1 Hy. cbn [meets].
    assert (Yq : (0 < inject_Z (y1 - y0))%Q) by (rewrite <- (Zlt_Qlt 0); lia).
    setoid_replace (inject_Z x0 + inject_Z (y - y0) * inject_Z (x1 - x0) / inject_Z (y1 - y0))%Q
      with ((inject_Z x0 * inject_Z (y1 - y0) + inject_Z (y - y0) * inject_Z (x1 - x0)) / inject_Z (y1 - y0))%Q by (field; lra).
    split; [apply Qle_shift_div_l|apply Qle_shift_div_r]; try exact Yq; rewrite <- !inject_Z_mult, <- inject_Z_plus, <- Zle_Qle; nia. }
  destruct Hy as [Hy|Hy]; [apply G; assumption|].
  rewrite (meets_swap (x0, y0) (x1, y1) y) by (cbn; lia). apply G; assumption.
Qed.
Lemma crossing_range y e lo hi m : lo <= fst (fst e) <= hi -> lo <= fst (snd e) <= hi -> In m (crossing y e) -> lo <= fst m <= hi.
Proof.
  destruct e as [p q]. cbn [fst snd]. intros Hp Hq I. unfold crossing in I.
  assert (G : (snd p <= y < snd q \/ snd q <= y < snd p) -> lo <= q_round (meets (p, q) y) <= hi).
  { intros Hy. apply q_round_range. apply meets_range; assumption. }
  destruct (crosses true y (p, q)) eqn:A; [|destruct (crosses false y (p, q)) eqn:B; [|contradiction]];
    destruct I as [<-|[]]; cbn [fst]; apply G; destruct p, q; cbn in *; lia.
Qed.
Lemma row_marks_range points y lo hi m : Forall (fun p => lo <= fst p <= hi) points -> In m (row_marks points y) -> lo <= fst m <= hi.
Proof.
  intros F I. unfold row_marks in I. apply in_concat in I. destruct I as (l & Il & Im). apply in_map_iff in Il. destruct Il as (e & <- & Ie).
  pose proof (sides_forall _ _ F) as FS. rewrite Forall_forall in FS. destruct (FS e Ie) as [A B]. apply (crossing_range y e lo hi m); assumption.
Qed.
Lemma scans_of height points s' : 0 <= height -> Forall (below height) points -> scanpolygon (T := Q) height points None = (s', Ok tt) ->
  Z.of_nat (length s') = height /\ Forall sorted s' /\ forall y, 0 <= y -> Permutation (row s' y) (row_marks points y).
Proof.
  intros P F E. destruct (scan_rows_ok height points None P F I) as (s0 & E0 & L & R). rewrite E in E0. injection E0 as <-.
  split; [exact L|]. split.
  - apply Forall_forall. intros l Il. apply In_nth with (d := []) in Il. destruct Il as (n & Ln & <-).
    destruct (R (Z.of_nat n) ltac:(lia)) as [_ S]. unfold row in S. rewrite Nat2Z.id in S. apply S. exact I.
  - intros y Py. destruct (R y Py) as [Pm _]. rewrite app_nil_r in Pm. exact Pm.
Qed.
Lemma scans_clear height points s' : 0 <= height -> Forall (below height) points -> Forall (fun p => 0 <= fst p) points ->
  scanpolygon (T := Q) height points None = (s', Ok tt) -> clear_left s'.
Proof.
  intros P F X E. destruct (scans_of height points s' P F E) as (L & _ & R). apply Forall_forall. intros l Il. apply Forall_forall. intros m Im.
  apply In_nth with (d := []) in Il. destruct Il as (n & Ln & <-). specialize (R (Z.of_nat n) ltac:(lia)). unfold row in R. rewrite Nat2Z.id in R.
  apply (Permutation_in _ R) in Im.
  assert (B : exists hi, Forall (fun p : Z * Z => 0 <= fst p <= hi) points).
  { clear - X. induction X as [|p l Hp _ (hi & IH)]; [exists 0; constructor|]. exists (Z.max (fst p) hi). constructor; [lia|].
    eapply Forall_impl; [|exact IH]. cbn. intros. lia. }
  destruct B as (hi & B). pose proof (row_marks_range points (Z.of_nat n) 0 hi m B Im). lia.
Qed.
Lemma filled_ok {C V R} (set : C -> Z * Z -> V -> res C) (get : C -> Z * Z -> res R) (ok : C -> Prop) w h (v : V) (r : R) c points :
  (forall c p, ok c -> in_canvas w h p -> exists c', set c p v = Ok c' /\ ok c' /\ get c' p = Ok r /\
    forall q, in_canvas w h q -> q <> p -> get c' q = get c q) ->
  ok c -> 0 <= h -> Forall (fun p => 0 <= fst p /\ 0 <= snd p <= h) points ->
  exists c', filled set w h points v c = Ok c' /\ ok c' /\
    forall q, in_canvas w h q -> (painted w (row_marks points (snd q)) (fst q) -> get c' q = Ok r) /\
                                (~ painted w (row_marks points (snd q)) (fst q) -> get c' q = get c q).
Proof.
  intros SO K P F. assert (Fb : Forall (below h) points) by (eapply Forall_impl; [|exact F]; unfold below; intros ? [_ ?]; assumption).
  assert (Fx : Forall (fun p => 0 <= fst p) points) by (eapply Forall_impl; [|exact F]; intros ? [? _]; assumption).
  unfold filled. destruct (scan_rows_ok h points None P Fb I) as (s' & E & _ & _). rewrite E.
  destruct (scans_of h points s' P Fb E) as (L & S & Rm). pose proof (scans_clear h points s' P Fb Fx E) as CL.
  destruct (fill_canvas set get ok w h v r c s' SO K S CL ltac:(lia)) as (ps & left & c' & Ef & Ep & K' & G). rewrite Ef, Ep. cbn [bind].
  exists c'. split; [reflexivity|]. split; [exact K'|]. intros q Iq. destruct (G q Iq) as [G1 G2].
  assert (Py : 0 <= snd q) by (unfold in_canvas in Iq; lia). pose proof (painted_perm w _ _ (fst q) (Rm (snd q) Py)) as Pq.
  split; intros Q; [apply G1, Pq, Q|apply G2; intros Q'; apply Q, Pq, Q'].
Qed.

(** ** Rectangles and triangles *)
Lemma crossing_none y p q : (y <? snd p) = (y <? snd q) -> crossing y (p, q) = [].
Proof. destruct p as [x0 y0], q as [x1 y1]. cbn [snd]. intros E. unfold crossing, crosses. replace ((y0 <=? y) && (y <? y1)) with false by lia. replace ((y1 <=? y) && (y <? y0)) with false by lia. reflexivity. Qed.
Lemma crossing_down y p q : (y <? snd p) = false -> (y <? snd q) = true -> crossing y (p, q) = [(q_round (meets (p, q) y), true)].
Proof. destruct p as [x0 y0], q as [x1 y1]. cbn [snd]. intros A B. unfold crossing, crosses. replace ((y0 <=? y) && (y <? y1)) with true by lia. reflexivity. Qed.
Lemma crossing_up y p q : (y <? snd p) = true -> (y <? snd q) = false -> crossing y (p, q) = [(q_round (meets (p, q) y), false)].
Proof. destruct p as [x0 y0], q as [x1 y1]. cbn [snd]. intros A B. unfold crossing, crosses. replace ((y0 <=? y) && (y <? y1)) with false by lia. replace ((y1 <=? y) && (y <? y0)) with true by lia. reflexivity. Qed.
Lemma turn_rot a b c : turn b c a = turn a b c.
Proof. unfold turn. ring. Qed.
Lemma meets_le a b c y : 0 <= turn a b c -> (* up along a-b, down along b-c *)
  snd b <= y -> y < snd a -> y < snd c -> (meets (a, b) y <= meets (b, c) y)%Q.
Proof.
  destruct a as [ax ay], b as [bx by_], c as [cx cy]. unfold turn. cbn [fst snd meets]. intros T B A C.
  assert (Aq : (0 < inject_Z (ay - by_))%Q) by (rewrite <- (Zlt_Qlt 0); lia).
  assert (Cq : (0 < inject_Z (cy - by_))%Q) by (rewrite <- (Zlt_Qlt 0); lia).
  assert (E : (inject_Z ax + inject_Z (y - ay) * inject_Z (bx - ax) / inject_Z (by_ - ay) ==
           inject_Z bx + inject_Z (y - by_) * inject_Z (ax - bx) / inject_Z (ay - by_))%Q).
  { apply (meets_swap (ax, ay) (bx, by_) y). cbn. lia. }
  rewrite E. apply Qplus_le_r. apply Qle_shift_div_l; [exact Cq|].
  setoid_replace (inject_Z (y - by_) * inject_Z (ax - bx) / inject_Z (ay - by_) * inject_Z (cy - by_))%Q
    with (inject_Z (y - by_) * inject_Z (ax - bx) * inject_Z (cy - by_) / inject_Z (ay - by_))%Q by (field; lra).
  apply Qle_shift_div_r; [exact Aq|]. rewrite <- !inject_Z_mult, <- Zle_Qle. nia.
Qed.
Lemma meets_le' a b c y : 0 <= turn a b c -> (* down along a-b, up along b-c *)
  y < snd b -> snd a <= y -> snd c <= y -> (meets (b, c) y <= meets (a, b) y)%Q.
Proof.
  destruct a as [ax ay], b as [bx by_], c as [cx cy]. unfold turn. cbn [fst snd meets]. intros T B A C.
  assert (Aq : (0 < inject_Z (by_ - ay))%Q) by (rewrite <- (Zlt_Qlt 0); lia).
  assert (Cq : (0 < inject_Z (by_ - cy))%Q) by (rewrite <- (Zlt_Qlt 0); lia).
  assert (Ca : ~ (inject_Z by_ - inject_Z ay == 0)%Q) by (unfold Z.sub in Aq; rewrite inject_Z_plus, inject_Z_opp in Aq; lra).
  assert (Cc : ~ (inject_Z by_ - inject_Z cy == 0)%Q) by (unfold Z.sub in Cq; rewrite inject_Z_plus, inject_Z_opp in Cq; lra).
  assert (E1 : (inject_Z bx + inject_Z (y - by_) * inject_Z (cx - bx) / inject_Z (cy - by_) ==
           inject_Z bx - inject_Z (by_ - y) * inject_Z (cx - bx) / inject_Z (cy - by_))%Q).
  { unfold Z.sub. rewrite !inject_Z_plus, !inject_Z_opp. field. lra. }
  assert (E2 : (inject_Z ax + inject_Z (y - ay) * inject_Z (bx - ax) / inject_Z (by_ - ay) ==
           inject_Z bx - inject_Z (by_ - y) * inject_Z (bx - ax) / inject_Z (by_ - ay))%Q).
  { unfold Z.sub. rewrite !inject_Z_plus, !inject_Z_opp. field. lra. }
  assert (E3 : (inject_Z (by_ - y) * inject_Z (cx - bx) / inject_Z (cy - by_) ==
           inject_Z (by_ - y) * inject_Z (bx - cx) / inject_Z (by_ - cy))%Q).
  { unfold Z.sub. rewrite !inject_Z_plus, !inject_Z_opp. field. split; lra. }
  rewrite E1, E2, E3. apply Qplus_le_r. apply Qopp_le_compat. apply Qle_shift_div_l; [exact Cq|].
  setoid_replace (inject_Z (by_ - y) * inject_Z (bx - ax) / inject_Z (by_ - ay) * inject_Z (by_ - cy))%Q
    with (inject_Z (by_ - y) * inject_Z (bx - ax) * inject_Z (by_ - cy) / inject_Z (by_ - ay))%Q by (field; lra).
  apply Qle_shift_div_r; [exact Aq|]. rewrite <- !inject_Z_mult, <- Zle_Qle.
  assert (0 <= (by_ - y)) by lia. replace ((by_ - y) * (bx - ax) * (by_ - cy)) with ((by_ - y) * ((bx - ax) * (by_ - cy))) by ring.
  replace ((by_ - y) * (bx - cx) * (by_ - ay)) with ((by_ - y) * ((bx - cx) * (by_ - ay))) by ring.
  apply Z.mul_le_mono_nonneg_l; [lia|]. nia.
Qed.
(** A clockwise triangle: every row it reaches has an upward mark and, not left
    of it, a downward one, on its sides. *)
Lemma triangle_row a b c y : 0 <= turn a b c ->
  row_marks [a; b; c] y = [] /\ (snd a <= y /\ snd b <= y /\ snd c <= y \/ y < snd a /\ y < snd b /\ y < snd c) \/
  exists u d, In u (sides [a; b; c]) /\ In d (sides [a; b; c]) /\ crosses false y u = true /\ crosses true y d = true /\
    (meets u y <= meets d y)%Q /\ Permutation (row_marks [a; b; c] y) [(q_round (meets u y), false); (q_round (meets d y), true)].
Proof.
  intros T. assert (Cu : forall p q, (y <? snd p) = true -> (y <? snd q) = false -> crosses false y (p, q) = true).
  { intros [? ?] [? ?]; cbn. lia. }
  assert (Cd : forall p q, (y <? snd p) = false -> (y <? snd q) = true -> crosses true y (p, q) = true).
  { intros [? ?] [? ?]; cbn. lia. }
  pose proof (turn_rot a b c) as T1. pose proof (turn_rot b c a) as T2.
  unfold row_marks. change (sides [a; b; c]) with [(a, b); (b, c); (c, a)]. cbn [map concat]. rewrite app_nil_r.
  destruct (y <? snd a) eqn:A, (y <? snd b) eqn:B, (y <? snd c) eqn:C.
  - left. rewrite !crossing_none by congruence. split; [reflexivity|lia].
  - right. exists (b, c), (c, a). rewrite (crossing_none y a b), (crossing_up y b c), (crossing_down y c a) by congruence.
    split; [cbn; auto|]. split; [cbn; auto|]. split; [auto|]. split; [auto|]. split; [apply meets_le; lia|reflexivity].
  - right. exists (a, b), (b, c). rewrite (crossing_none y c a), (crossing_up y a b), (crossing_down y b c) by congruence.
    split; [cbn; auto|]. split; [cbn; auto|]. split; [auto|]. split; [auto|]. split; [apply meets_le; lia|]. reflexivity.
  - right. exists (a, b), (c, a). rewrite (crossing_none y b c), (crossing_up y a b), (crossing_down y c a) by congruence.
    split; [cbn; auto|]. split; [cbn; auto|]. split; [auto|]. split; [auto|]. split; [apply meets_le'; lia|reflexivity].
  - right. exists (c, a), (a, b). rewrite (crossing_none y b c), (crossing_up y c a), (crossing_down y a b) by congruence.
    split; [cbn; auto|]. split; [cbn; auto|]. split; [auto|]. split; [auto|]. split; [apply meets_le; lia|]. apply perm_swap.
  - right. exists (b, c), (a, b). rewrite (crossing_none y c a), (crossing_up y b c), (crossing_down y a b) by congruence.
    split; [cbn; auto|]. split; [cbn; auto|]. split; [auto|]. split; [auto|]. split; [apply meets_le'; lia|]. apply perm_swap.
  - right. exists (c, a), (b, c). rewrite (crossing_none y a b), (crossing_up y c a), (crossing_down y b c) by congruence.
    split; [cbn; auto|]. split; [cbn; auto|]. split; [auto|]. split; [auto|]. split; [apply meets_le'; lia|]. apply perm_swap.
  - left. rewrite !crossing_none by congruence. split; [reflexivity|lia].
Qed.
