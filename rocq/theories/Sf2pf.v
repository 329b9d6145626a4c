(** sf2pf: proofs. *)
From Coq Require Import ZifyBool ZifyNat SpecFloat.
From Verif Require Import Py Num PfModel PfProofs PfSpec PfFinal PfErrModel PfErrSpec PfErrTrip.
From Verif Require Import ShpFile ShpWriterModel ShpReaderModel ShpGeoModel ShpSpec ShpPrograms ShpTableSpec ShpTablePrograms ShpPairs Sf2pfModel.
Open Scope Z_scope.

(** A vertex as a point of a P file *)
Definition place (v : vertex) : f64 * f64 := (f64_of_bits (vx v), f64_of_bits (vy v)).

Lemma sf_parts_from (pre : list (list dbl)) g :
  map (fun ab => py_slice (pre ++ map xy (concat g)) (fst ab) (snd ab))
    (combine (starts_from (Z.of_nat (length pre)) g) (tl (starts_from (Z.of_nat (length pre)) g) ++ [Z.of_nat (length (pre ++ map xy (concat g)))])) = map (map xy) g.
Proof.
  revert pre. induction g as [|p g IH]; intros pre; [reflexivity|]. cbn [starts_from tl concat map].
  specialize (IH (pre ++ map xy p)). rewrite app_length, map_length, Nat2Z.inj_add in IH.
  rewrite map_app, app_assoc.
  assert (HD : exists tl', starts_from (Z.of_nat (length pre) + Z.of_nat (length p)) g ++ [Z.of_nat (length ((pre ++ map xy p) ++ map xy (concat g)))] =
    (Z.of_nat (length pre) + Z.of_nat (length p)) :: tl' /\ tl' = match g with [] => [] | _ => tl (starts_from (Z.of_nat (length pre) + Z.of_nat (length p)) g) ++ [Z.of_nat (length ((pre ++ map xy p) ++ map xy (concat g)))] end).
  { destruct g as [|q g]; [|eexists; split; reflexivity]. exists []. split; [|reflexivity]. cbn. rewrite app_nil_r, app_length, map_length. do 2 f_equal. lia. }
  destruct HD as (tl' & E & Et). rewrite E. cbn [combine map fst snd]. f_equal.
  - rewrite <- Nat2Z.inj_add, slice_nat by (rewrite !app_length, !map_length; lia).
    rewrite <- app_assoc, skipn_app, skipn_all, Nat.sub_diag. cbn [skipn app]. replace (length pre + length p - length pre)%nat with (length (map xy p)) by (rewrite map_length; lia).
    rewrite firstn_app, firstn_all, Nat.sub_diag. cbn [firstn]. apply app_nil_r.
  - rewrite <- IH, Et. destruct g as [|q g]; [reflexivity|]. reflexivity.
Qed.
Lemma sf_parts_geometry g : sf_parts (map xy (vertices g)) (part_starts g) = map (map xy) g.
Proof.
  unfold sf_parts. rewrite removelast_last. pose proof (sf_parts_from [] g) as K. cbn [app length] in K. unfold part_starts, vertices.
  destruct g as [|p g]; [reflexivity|]. cbn [starts_from app tl] in *. exact K.
Qed.
Lemma lonlat_xy p : mapM lonlat (map xy p) = Ok (map place p).
Proof. induction p as [|v p IH]; [reflexivity|]. cbn [map mapM]. rewrite IH. reflexivity. Qed.
Lemma lonlat_parts g : mapM (mapM lonlat) (map (map xy) g) = Ok (map (map place) g).
Proof. induction g as [|p g IH]; [reflexivity|]. cbn [map mapM]. rewrite lonlat_xy, IH. reflexivity. Qed.

Definition has_parts (t : Z) : Prop := t = 3 \/ t = 5 \/ t = 23 \/ t = 25.
Lemma read_parts_attr ms t g s : has_parts t -> read_back ms t g s -> s_parts s = Some (part_starts g) /\ s_points s = map xy (vertices g).
Proof.
  unfold has_parts, read_back. cbv zeta. intros T [H|[H|[H|[H|[H|H]]]]].
  1-4: lia.
  - destruct H as (_ & b & _ & ->). split; reflexivity.
  - destruct H as (_ & b & m & _ & _ & ->). split; reflexivity.
Qed.
Lemma read_no_parts ms t g s : ~ has_parts t -> read_back ms t g s -> s_parts s = None.
Proof.
  unfold has_parts, read_back. cbv zeta. intros T [H|[H|[H|[H|[H|H]]]]].
  1-3: destruct H as (_ & v & _ & ->); reflexivity.
  - destruct H as (_ & b & _ & ->). reflexivity.
  - lia.
  - lia.
Qed.

Section S.
  Context {D : Type}.
  Variable hav : f64 -> f64 -> f64 -> f64 -> res D.
  Variable getname : list cell -> res (list Z).

  (** Converting is writing the shapes one by one under their names. *)
  Lemma sf_loop_writes ms t fuel : has_parts t -> forall gs ss table names (we : dwriter D),
    Forall2 (read_back ms t) gs ss -> Forall2 (fun c n => getname c = Ok n) table names ->
    sf_loop hav getname fuel we (combine ss table) = dw_all hav fuel we (combine names (map (map (map place)) gs)).
  Proof.
    intros T gs. induction gs as [|g gs IH]; intros ss table names we F G; inversion F as [|? s ? ss' F1 F2]; subst.
    - destruct names; reflexivity.
    - destruct table as [|c table]; [inversion G; reflexivity|]. inversion G as [|? n ? names' G1 G2]; subst. cbn [combine sf_loop map dw_all].
      destruct (read_parts_attr _ _ _ _ T F1) as [-> ->]. rewrite G1. cbn [bind]. rewrite sf_parts_geometry, lonlat_parts. cbn [bind].
      destruct (dw_write hav fuel we n (map (map place) g)) as [[we' [[]|e]]|]; [|reflexivity|reflexivity]. apply IH; [exact F2|exact G2].
  Qed.
End S.

Lemma sf_program fr today given steps t fs ns rows w0 w1 : good t -> saved_program fr today given steps t fs ns rows w0 w1 ->
  rows <> [] -> Forall (row_storable fr fs ns) rows -> exists gs ss table, Forall2 adds (shapes_of steps) gs /\
  Forall2 (row_returned fr fs ns) rows table /\ Forall2 (read_back (mixed (flat_map vertices gs)) t) gs ss /\
  forall shx, shx = None \/ shx = Some (fdata (w_shx w1)) -> forall fuel, (length ss < fuel)%nat ->
  exists r0 r', Reader (Some (fdata (w_shp w1))) shx (Some (fdata (w_dbf w1))) = (r0, Ok tt) /\ shapeRecords fuel r0 = (r', Ok (Some (combine ss table))).
Proof.
  intros G S R ST. destruct (pairing fr today given steps t fs ns rows w0 w1 G S R ST) as (gs & ss & table & A & B & C & K).
  exists gs, ss, table. split; [exact A|]. split; [exact C|]. split; [exact B|]. intros shx X fuel L. destruct (K shx X) as (r0 & E & U).
  destruct (U r0 (used_new _ _ _ _) fuel L) as ((r' & P) & _). exists r0, r'. split; assumption.
Qed.

Section End.
  Context {D : Type}.
  Variable hav : f64 -> f64 -> f64 -> f64 -> res D.
  Variable getname : list cell -> res (list Z).

  Lemma converted fr today given steps t fs ns rows w0 w1 : good t -> saved_program fr today given steps t fs ns rows w0 w1 ->
    rows <> [] -> Forall (row_storable fr fs ns) rows -> exists gs table, Forall2 adds (shapes_of steps) gs /\ Forall2 (row_returned fr fs ns) rows table /\
    forall shx fuel size, shx = None \/ shx = Some (fdata (w_shx w1)) -> (length gs < fuel)%nat ->
    let result := sf2pf hav getname fuel (Some (fdata (w_shp w1))) shx (Some (fdata (w_dbf w1))) size in
    (~ In size psizes -> result = Some (Err ValueError)) /\
    forall we0, dw_new size = Ok we0 ->
    (has_parts t ->
      (forall names, Forall2 (fun c n => getname c = Ok n) table names ->
        result = match dw_all hav fuel we0 (combine names (map (map (map place)) gs)) with
                 | None => None
                 | Some (_, Err e) => Some (Err e)
                 | Some (we, Ok _) => Some (dw_close we)
                 end) /\
      (forall names c e k, nth_error table k = Some c -> (k < length gs)%nat -> getname c = Err e ->
        Forall2 (fun c n => getname c = Ok n) (firstn k table) names ->
        forall we, dw_all hav fuel we0 (combine names (map (map (map place)) gs)) = Some (we, Ok tt) -> result = Some (Err e))) /\
    (~ has_parts t -> gs <> [] -> forall c n, hd_error table = Some c -> getname c = Ok n -> result = Some (Err AttributeError)).
  Proof.
    intros G S R ST. destruct (sf_program fr today given steps t fs ns rows w0 w1 G S R ST) as (gs & ss & table & A & C & B & K).
    exists gs, table. split; [exact A|]. split; [exact C|]. intros shx fuel size X FU. pose proof (Forall2_length _ _ _ B) as LB. rewrite LB in FU.
    destruct (K shx X fuel FU) as (r0 & r' & E & P). cbv zeta. unfold sf2pf. rewrite E. split.
    { intros NS. replace (dw_new (D := D) size) with (@Err (dwriter D) ValueError); [reflexivity|]. unfold dw_new, pf_new, getfmt.
      cbn [In psizes] in NS. destruct (Z.eqb_spec size 1); [exfalso; apply NS; auto|]. destruct (Z.eqb_spec size 2); [exfalso; apply NS; auto|].
      destruct (Z.eqb_spec size 4); [exfalso; apply NS; auto 6|]. destruct (Z.eqb_spec size 8); [exfalso; apply NS; auto 6|]. reflexivity. }
    intros we0 NW. rewrite NW, P. split.
    - intros T. split.
      + intros names NM. rewrite (sf_loop_writes hav getname _ t fuel T gs ss table names we0 B NM). reflexivity.
      + intros names c e k Hk Lk Ge NM we W.
        assert (Q : sf_loop hav getname fuel we0 (combine ss table) = Some (we, Err e)); [|rewrite Q; reflexivity].
        clear - T B Hk Lk Ge NM W. revert B. generalize (mixed (flat_map vertices gs)) as ms. intros ms B. revert gs ss table names we0 B Hk Lk NM W. induction k as [|k IH]; intros gs ss table names we0 B Hk Lk NM W.
        * destruct table as [|c' table]; [discriminate|]. injection Hk as ->. inversion NM; subst. destruct gs as [|g gs]; [cbn in Lk; lia|].
          inversion B; subst. cbn [combine sf_loop]. rewrite Ge. cbn [bind]. cbn in W. injection W as ->. reflexivity.
        * destruct table as [|c' table]; [discriminate|]. cbn [firstn] in NM. inversion NM as [|? n ? names' N1 N2]; subst. destruct gs as [|g gs]; [cbn in Lk; lia|].
          inversion B as [|? s ? ss' B1 B2]; subst. cbn [combine sf_loop map dw_all] in *. rewrite N1. cbn [bind]. destruct (read_parts_attr _ _ _ _ T B1) as [-> ->].
          cbn [bind]. rewrite sf_parts_geometry, lonlat_parts. cbn [bind]. destruct (dw_write hav fuel we0 n (map (map place) g)) as [[we' [[]|x]]|]; [|discriminate|discriminate].
          apply (IH gs ss' table names' we' B2 Hk); [cbn in Lk; lia|exact N2|exact W].
    - intros T NG c n Hc Gc. destruct gs as [|g gs]; [contradiction|]. inversion B as [|? s ? ss' B1 B2]; subst. destruct table as [|c' table]; [discriminate|].
      injection Hc as ->. cbn [combine sf_loop]. rewrite Gc. cbn [bind]. rewrite (read_no_parts _ _ _ _ T B1). reflexivity.
  Qed.

  Lemma converted_read fr today given steps t fs ns rows w0 w1 : good t -> has_parts t -> saved_program fr today given steps t fs ns rows w0 w1 ->
    rows <> [] -> Forall (row_storable fr fs ns) rows -> exists gs table, Forall2 adds (shapes_of steps) gs /\ Forall2 (row_returned fr fs ns) rows table /\
    forall names shx fuel size file errs, Forall2 (fun c n => getname c = Ok n) table names ->
    Forall (Forall (fun c => 0 < c < 128)) names -> Forall (Forall (Forall (fun v => in_world64 (place v)))) gs ->
    shx = None \/ shx = Some (fdata (w_shx w1)) -> (length gs < fuel)%nat ->
    sf2pf hav getname fuel (Some (fdata (w_shp w1))) shx (Some (fdata (w_dbf w1))) size = Some (Ok (file, errs)) ->
    forall fuel', (forall n, In n names -> (length n < fuel')%nat) ->
    exists rd ess, pf_open (T := f64) fuel' file = Some (Ok rd) /\ r_names rd = firstn (length gs) names /\ r_size rd = size /\
      errs = concat ess /\ length ess = Nat.min (length gs) (length rows) /\
      forall i g, nth_error gs i = Some g -> (i < length rows)%nat ->
        exists rings out es, Forall2 (ring_by same64) (map (map place) g) rings /\ pf_read rd (Z.of_nat i) = Ok out /\ nth_error ess i = Some es /\
          Forall2 (fun a b => length a = length b) rings out /\ distances hav (concat rings) (concat out) es.
  Proof.
    intros G T S R ST. destruct (converted fr today given steps t fs ns rows w0 w1 G S R ST) as (gs & table & A & C & K).
    exists gs, table. split; [exact A|]. split; [exact C|]. intros names shx fuel size file errs NM AS IW X FU E fuel' L.
    destruct (K shx fuel size X FU) as [BS K1]. cbv zeta in BS, K1. destruct (dw_new (D := D) size) as [we0|x] eqn:NW.
    2:{ assert (In size psizes) as I.
        { destruct (in_dec Z.eq_dec size psizes) as [I|I]; [exact I|]. rewrite (BS I) in E. discriminate. }
        cbn [In psizes] in I. destruct I as [<-|[<-|[<-|[<-|[]]]]]; discriminate. }
    destruct (K1 we0 eq_refl) as [K2 _]. destruct (K2 T) as [K3 _]. rewrite (K3 names NM) in E.
    set (l := combine names (map (map (map place)) gs)) in *.
    destruct (dw_all hav fuel we0 l) as [[we [[]|x]]|] eqn:W; [|discriminate|discriminate]. injection E as E.
    assert (INL : forall x, In x l -> In (fst x) names /\ exists g, In g gs /\ snd x = map (map place) g).
    { intros [n q] I. split; [apply (in_combine_l _ _ _ _ I)|]. apply in_combine_r in I. apply in_map_iff in I. destruct I as (g & <- & I). exists g. auto. }
    assert (LN : length names = length rows) by (pose proof (Forall2_length _ _ _ NM); pose proof (Forall2_length _ _ _ C); lia).
    destruct (dist_doubles hav size we0 fuel l we file errs NW W E) with (fuel' := fuel') as (rd & ess & Op & Nm & Ec & Le & Rd).
    - rewrite Forall_forall in AS |- *. intros x I. apply AS, INL, I.
    - rewrite Forall_forall in IW |- *. intros x I. destruct (INL x I) as (_ & g & Ig & ->). specialize (IW g Ig). clear - IW.
      induction IW as [|p g P _ IH]; [constructor|]. cbn [map]. constructor; [|exact IH]. apply Forall_map. exact P.
    - intros x I. apply L, INL, I.
    - exists rd, ess. split; [exact Op|]. split.
      { rewrite Nm. unfold l. clear. revert gs. induction names as [|n names IH]; intros [|g gs]; cbn; try reflexivity. rewrite IH. reflexivity. }
      split.
      { unfold dw_new in NW. apply bind_ok in NW. destruct NW as (w & NW & EE). injection EE as <-.
        destruct (dist_trip hav size (w, []) fuel l we file errs) with (fuel' := fuel') as (rd2 & ess2 & Op2 & _ & _ & _ & v0 & v & N2 & W2 & C2 & _); try assumption.
        { unfold dw_new. rewrite NW. reflexivity. }
        { rewrite Forall_forall in AS |- *. intros x I. apply AS, INL, I. }
        { intros x I. apply L, INL, I. }
        destruct (shape_trip size v0 fuel l v file N2 W2 C2) with (fuel' := fuel') as (rd3 & Op3 & _ & Sz & _).
        { rewrite Forall_forall in AS |- *. intros x I. apply AS, INL, I. }
        { intros x I. apply L, INL, I. }
        rewrite Op in Op3. injection Op3 as <-. exact Sz. }
      split; [exact Ec|]. split; [rewrite Le; unfold l; rewrite combine_length, map_length, LN; apply Nat.min_comm|].
      intros i g Hg Li. assert (exists n, nth_error names i = Some n) as [n Hn] by (destruct (nth_error names i) eqn:Z; [eauto|apply nth_error_None in Z; lia]).
      apply (Rd i n). unfold l. clear - Hg Hn. revert names gs Hg Hn. induction i as [|i IH]; intros [|n' names] [|g' gs] Hg Hn; try discriminate; cbn in *; [congruence|apply IH; assumption].
  Qed.
End End.
