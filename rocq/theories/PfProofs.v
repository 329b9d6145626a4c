From Coq Require Import ZifyBool ZifyNat.
From Verif Require Import Num BBoxModel VlvModel VlvProofs PfModel.
Open Scope Z_scope.

(** ** Lists *)
Lemma py_get_nth {A} (l : list A) i x : nth_error l i = Some x -> py_get l (Z.of_nat i) = Ok x.
Proof.
  intros H. assert (Hi : (i < length l)%nat) by (apply nth_error_Some; congruence).
  unfold py_get. replace (Z.of_nat i <? 0) with false by lia.
  replace ((0 <=? Z.of_nat i) && (Z.of_nat i <? Z.of_nat (length l))) with true by lia.
  rewrite Nat2Z.id, H. reflexivity.
Qed.
Lemma py_get_neg {A} (l : list A) i x : nth_error l i = Some x ->
  py_get l (Z.of_nat i - Z.of_nat (length l)) = Ok x.
Proof.
  intros H. assert (Hi : (i < length l)%nat) by (apply nth_error_Some; congruence).
  unfold py_get. replace (Z.of_nat i - Z.of_nat (length l) <? 0) with true by lia.
  replace (Z.of_nat i - Z.of_nat (length l) + Z.of_nat (length l)) with (Z.of_nat i) by lia.
  replace ((0 <=? Z.of_nat i) && (Z.of_nat i <? Z.of_nat (length l))) with true by lia.
  rewrite Nat2Z.id, H. reflexivity.
Qed.
Lemma py_get_out {A} (l : list A) i : (length l <= i)%nat -> py_get l (Z.of_nat i) = Err IndexError.
Proof.
  intros H. unfold py_get. replace (Z.of_nat i <? 0) with false by lia.
  replace ((0 <=? Z.of_nat i) && (Z.of_nat i <? Z.of_nat (length l))) with false by lia. reflexivity.
Qed.
Lemma slice_prefix {A} (l : list A) i : (i <= length l)%nat -> py_slice l 0 (Z.of_nat i) = firstn i l.
Proof.
  intros H. unfold py_slice, slice_clamp. cbn [Z.ltb Z.compare].
  replace (Z.of_nat i <? 0) with false by lia. rewrite !Z.min_l by lia.
  destruct (Z.ltb_spec 0 (Z.of_nat i)).
  - rewrite Z.sub_0_r, Nat2Z.id. reflexivity.
  - replace i with 0%nat by lia. reflexivity.
Qed.
Lemma slice_prefix_neg {A} (l : list A) i : (i < length l)%nat ->
  py_slice l 0 (Z.of_nat i - Z.of_nat (length l)) = firstn i l.
Proof.
  intros H. unfold py_slice, slice_clamp. cbn [Z.ltb Z.compare].
  replace (Z.of_nat i - Z.of_nat (length l) <? 0) with true by lia.
  rewrite Z.min_l by lia. rewrite Z.max_r by lia.
  replace (Z.of_nat i - Z.of_nat (length l) + Z.of_nat (length l)) with (Z.of_nat i) by lia.
  destruct (Z.ltb_spec 0 (Z.of_nat i)).
  - rewrite Z.sub_0_r, Nat2Z.id. reflexivity.
  - replace i with 0%nat by lia. reflexivity.
Qed.
Lemma mapM_seq {A B} (f : nat -> res B) (g : A -> res B) es : forall k,
  (forall i e, nth_error es i = Some e -> f (k + i)%nat = g e) ->
  mapM f (seq k (length es)) = mapM g es.
Proof.
  induction es as [|e es IH]; intros k H; [reflexivity|]. cbn [length seq mapM].
  pose proof (H 0%nat e eq_refl) as H0. rewrite Nat.add_0_r in H0. rewrite H0.
  rewrite (IH (S k)); [reflexivity|]. intros i x Hi.
  rewrite <- (H (S i) x Hi). f_equal. lia.
Qed.
Lemma mapM_inv {A B} (f : A -> res B) l ys : mapM f l = Ok ys ->
  Forall2 (fun x y => f x = Ok y) l ys.
Proof.
  revert ys; induction l as [|x l IH]; intros ys H; cbn [mapM] in H.
  - injection H as <-. constructor.
  - apply bind_ok in H. destruct H as (y & Hy & H). apply bind_ok in H. destruct H as (zs & Hz & H).
    injection H as <-. constructor; [exact Hy|]. apply IH. exact Hz.
Qed.
Lemma mapM_Forall2 {A B} (f : A -> res B) l ys : Forall2 (fun x y => f x = Ok y) l ys ->
  mapM f l = Ok ys.
Proof.
  induction 1 as [|x y l ys H _ IH]; [reflexivity|]. cbn [mapM]. rewrite H, IH. reflexivity.
Qed.
Lemma omap_inv {A B} (f : A -> option B) l ys : omap f l = Some ys ->
  Forall2 (fun x y => f x = Some y) l ys.
Proof.
  revert ys; induction l as [|x l IH]; intros ys H; cbn [omap] in H.
  - injection H as <-. constructor.
  - destruct (f x) eqn:E; [|discriminate]. destruct (omap f l) eqn:E2; [|discriminate].
    injection H as <-. constructor; auto.
Qed.
Lemma omap_Forall2 {A B} (f : A -> option B) l ys : Forall2 (fun x y => f x = Some y) l ys ->
  omap f l = Some ys.
Proof.
  induction 1 as [|x y l ys H _ IH]; [reflexivity|]. cbn [omap]. rewrite H, IH. reflexivity.
Qed.
Lemma Forall2_nth_l {A B} (R : A -> B -> Prop) l m i x : Forall2 R l m -> nth_error l i = Some x ->
  exists y, nth_error m i = Some y /\ R x y.
Proof.
  intros H. revert i; induction H as [|a b l m H _ IH]; intros [|i] Hi; cbn in *; try discriminate.
  - injection Hi as <-. eauto.
  - apply IH. exact Hi.
Qed.

Lemma Forall2_length {A B} (R : A -> B -> Prop) l m : Forall2 R l m -> length l = length m.
Proof. induction 1; cbn; auto. Qed.

Lemma firstn_exact {A} n (a b : list A) : length a = n -> firstn n (a ++ b) = a.
Proof. intros <-. rewrite firstn_app, firstn_all, Nat.sub_diag. cbn. apply app_nil_r. Qed.
Lemma skipn_exact {A} n (a b : list A) : length a = n -> skipn n (a ++ b) = b.
Proof. intros <-. rewrite skipn_app, skipn_all, Nat.sub_diag. reflexivity. Qed.

(** ** Entities as stored *)
Record ent : Type := mkent { e_name : list Z; e_box : zbox; e_parts : list (list (Z * Z)) }.
Definition lens (e : ent) : list Z := map (fun p => Z.of_nat (length p)) (e_parts e).
Definition pt_bytes (n : nat) (u : Z * Z) : list Z := be_bytes n (fst u) ++ be_bytes n (snd u).
Definition ent_data (n : nat) (e : ent) : list Z := flat_map (pt_bytes n) (concat (e_parts e)).
Definition code_ok (n : nat) (u : Z * Z) : Prop :=
  0 <= fst u < 256 ^ Z.of_nat n /\ 0 <= snd u < 256 ^ Z.of_nat n.
Definition box_ok (b : zbox) : Prop :=
  let '(x0, x1, y0, y1) := b in
  0 <= x0 < 65536 /\ 0 <= x1 < 65536 /\ 0 <= y0 < 65536 /\ 0 <= y1 < 65536.
Definition box_bytes (b : zbox) : list Z :=
  let '(x0, x1, y0, y1) := b in be_bytes 2 x0 ++ be_bytes 2 x1 ++ be_bytes 2 y0 ++ be_bytes 2 y1.
Definition ser_ent (e : ent) : list Z :=
  e_name e ++ [0] ++ vlv (Z.of_nat (length (e_parts e))) ++ box_bytes (e_box e) ++ flat_map vlv (lens e).

(** The writer holds the entities [es]. *)
Definition winv (w : pwriter) (es : list ent) : Prop :=
  getfmt (w_size w) = Ok (w_n w, w_umax w) /\
  w_names w = map e_name es /\ w_partlens w = map lens es /\ w_bboxes w = map e_box es /\
  concat (w_buffers w) = flat_map (ent_data (w_n w)) es /\
  Forall (fun e => Forall (code_ok (w_n w)) (concat (e_parts e))) es.

(** The same with any data. *)
Definition winvd (w : pwriter) (es : list ent) (data : list Z) : Prop :=
  getfmt (w_size w) = Ok (w_n w, w_umax w) /\
  w_names w = map e_name es /\ w_partlens w = map lens es /\ w_bboxes w = map e_box es /\
  concat (w_buffers w) = data.
Lemma winv_d w es : winv w es -> winvd w es (flat_map (ent_data (w_n w)) es).
Proof. unfold winv, winvd. tauto. Qed.

Lemma getfmt_inv size n umax : getfmt size = Ok (n, umax) ->
  size = Z.of_nat n /\ umax = 256 ^ size - 1 /\ (size = 1 \/ size = 2 \/ size = 4 \/ size = 8).
Proof.
  unfold getfmt.
  destruct (Z.eqb_spec size 1) as [->|]; [intros H; injection H as <- <-; cbn; lia|].
  destruct (Z.eqb_spec size 2) as [->|]; [intros H; injection H as <- <-; cbn; lia|].
  destruct (Z.eqb_spec size 4) as [->|]; [intros H; injection H as <- <-; cbn; lia|].
  destruct (Z.eqb_spec size 8) as [->|]; [intros H; injection H as <- <-; cbn; lia|].
  discriminate.
Qed.
Lemma pf_new_winv size w : pf_new size = Ok w -> winv w [] /\ w_size w = size.
Proof.
  unfold pf_new. intros H. apply bind_ok in H. destruct H as ([n umax] & G & H). injection H as <-.
  split; [|reflexivity]. unfold winv. cbn. repeat split; auto.
Qed.

Section Generic.
  Context {T : Type} `{PyNum T} `{PyRound T}.
  Notation box4 := (T * T * T * T)%type.

  (** *** Writing *)
  Lemma quant_point_inv n umax (box : box4) p d : quant_point n umax box p = Ok d ->
    exists u, code_ok n u /\ d = pt_bytes n u /\
      let '(x0, x1, y0, y1) := box in
      quant_coord umax x0 x1 (fst p) = Ok (fst u) /\ quant_coord umax y0 y1 (snd p) = Ok (snd u).
  Proof.
    unfold quant_point. destruct box as [[[x0 x1] y0] y1]. intros E.
    apply bind_ok in E. destruct E as (a & Ea & E). apply bind_ok in E. destruct E as (b & Eb & E).
    unfold pack2 in E. apply bind_ok in E. destruct E as (x & Ex & E).
    apply bind_ok in E. destruct E as (y & Ey & E). injection E as <-.
    apply pack_be_inv in Ex, Ey. destruct Ex as [Rx ->], Ey as [Ry ->].
    exists (a, b). unfold code_ok, pt_bytes. cbn. auto.
  Qed.
  Definition quantised (umax : Z) (box : box4) (p : T * T) (u : Z * Z) : Prop :=
    let '(x0, x1, y0, y1) := box in
    quant_coord umax x0 x1 (fst p) = Ok (fst u) /\ quant_coord umax y0 y1 (snd p) = Ok (snd u).

  Lemma quant_points_inv n umax (box : box4) ps : forall ds,
    quant_points n umax box ps = (ds, Ok tt) ->
    exists us, Forall2 (quantised umax box) ps us /\ Forall (code_ok n) us /\
      concat ds = flat_map (pt_bytes n) us.
  Proof.
    induction ps as [|p ps IH]; intros ds E; cbn [quant_points] in E.
    - injection E as <-. exists []. repeat split; constructor.
    - destruct (quant_point n umax box p) as [d|e] eqn:Q; [|discriminate].
      destruct (quant_points n umax box ps) as [ds' x] eqn:Qs. injection E as <- ->.
      destruct (IH ds' eq_refl) as (us & F & R & D).
      destruct (quant_point_inv _ _ _ _ _ Q) as (u & Ru & -> & Hu).
      exists (u :: us). repeat split; [constructor|constructor|]; auto.
      cbn. rewrite D. reflexivity.
  Qed.
  (** Regrouping codes like the points. *)
  Lemma regroup {A B} (R : A -> B -> Prop) parts : forall us, Forall2 R (concat parts) us ->
    exists uss, concat uss = us /\ Forall2 (Forall2 R) parts uss.
  Proof.
    induction parts as [|p parts IH]; intros us F; cbn [concat] in F.
    - inversion F; subst. exists []. split; [reflexivity|constructor].
    - apply Forall2_app_inv_l in F. destruct F as (u1 & u2 & F1 & F2 & ->).
      destruct (IH u2 F2) as (uss & <- & G). exists (u1 :: uss). split; [reflexivity|].
      constructor; assumption.
  Qed.
  Lemma Forall2_lens {A B} (R : A -> B -> Prop) (l : list (list A)) (m : list (list B)) :
    Forall2 (Forall2 R) l m ->
    map (fun p => Z.of_nat (length p)) l = map (fun p => Z.of_nat (length p)) m.
  Proof.
    induction 1 as [|x y l m E _ IH]; [reflexivity|]. cbn. rewrite IH.
    apply Forall2_length in E. rewrite E. reflexivity.
  Qed.

  (** How an entity is derived from what was passed to write. *)
  Definition written (fuel : nat) (umax : Z) (name : list Z) (polys : list (list (T * T))) (e : ent) : Prop :=
    e_name e = name /\
    exists parts0 parts bb, omap (omap (norm_point fuel)) polys = Some parts0 /\
      mapM drop_closing parts0 = Ok parts /\ foldM bb_step parts None = Ok (Some bb) /\
      e_box e = quant_box bb /\
      Forall2 (Forall2 (quantised umax (dequant_box (e_box e)))) parts (e_parts e).

  Lemma write_winv fuel w name polys w' es : winv w es ->
    pf_write fuel w name polys = Some (w', Ok tt) ->
    w_size w' = w_size w /\ w_n w' = w_n w /\ w_umax w' = w_umax w /\
    exists e, winv w' (es ++ [e]) /\ written fuel (w_umax w) name polys e.
  Proof.
    intros (G & N & L & B & D & C) E. unfold pf_write in E.
    destruct (omap (omap (norm_point fuel)) polys) as [parts0|] eqn:E0; [|discriminate].
    destruct (mapM drop_closing parts0) as [parts|] eqn:E1; [|discriminate].
    destruct (foldM bb_step parts None) as [[bb|]|] eqn:E2; [|discriminate|discriminate].
    cbn [w_n w_umax w_add_bbox w_add_partlen w_add_name] in E.
    destruct (quant_points (w_n w) (w_umax w) (dequant_box (quant_box bb)) (concat parts)) as [ds x] eqn:Q.
    injection E as <- ->.
    destruct (quant_points_inv _ _ _ _ _ Q) as (us & F & R & Ds).
    destruct (regroup _ _ _ F) as (uss & <- & F2).
    split; [reflexivity|]. split; [reflexivity|]. split; [reflexivity|].
    exists (mkent name (quant_box bb) uss). split.
    - unfold winv. cbn. rewrite !map_app, flat_map_app, concat_app, N, L, B, D, Ds. cbn.
      unfold lens at 2. cbn. rewrite (Forall2_lens _ _ _ F2).
      repeat split; auto.
      + unfold ent_data at 2. cbn. rewrite app_nil_r. reflexivity.
      + apply Forall_app. split; [exact C|]. constructor; [exact R|constructor].
    - split; [reflexivity|]. exists parts0, parts, bb. cbn. auto.
  Qed.

  (** Successive successful calls. *)
  Fixpoint write_all (fuel : nat) (w : pwriter) (l : list (list Z * list (list (T * T)))) : option pwriter :=
    match l with
    | [] => Some w
    | (name, polys) :: r =>
        match pf_write fuel w name polys with
        | Some (w', Ok _) => write_all fuel w' r
        | _ => None
        end
    end.
  Lemma write_all_winv fuel l : forall w w' es, winv w es -> write_all fuel w l = Some w' ->
    w_size w' = w_size w /\ w_n w' = w_n w /\ w_umax w' = w_umax w /\
    exists es', winv w' (es ++ es') /\
      Forall2 (fun x e => written fuel (w_umax w) (fst x) (snd x) e) l es'.
  Proof.
    induction l as [|[name polys] l IH]; intros w w' es I E; cbn [write_all] in E.
    - injection E as <-. repeat split. exists []. rewrite app_nil_r. split; [exact I|constructor].
    - destruct (pf_write fuel w name polys) as [[w1 [[]|]]|] eqn:W; try discriminate.
      destruct (write_winv _ _ _ _ _ _ I W) as (A & B & C & e & I1 & R1).
      destruct (IH w1 w' (es ++ [e]) I1 E) as (A' & B' & C' & es' & I2 & R2).
      rewrite A', B', C'. repeat split; auto.
      exists (e :: es'). rewrite <- app_assoc in I2. split; [exact I2|].
      constructor; [exact R1|]. rewrite C in R2. exact R2.
  Qed.

  (** *** Closing *)
  Definition entry (e : ent) : res (list Z) :=
    a <- writeascii (e_name e) ;;
    b <- writevlv (Z.of_nat (length (lens e))) ;;
    let '(x0, x1, y0, y1) := e_box e in
    c <- mapM (pack_be 2) [x0; x1; y0; y1] ;;
    d <- mapM writevlv (lens e) ;;
    Ok (a ++ b ++ concat c ++ concat d).
  Lemma index_entry w es d i e : winvd w es d -> nth_error es i = Some e ->
    pf_index_entry w i = entry e.
  Proof.
    intros (_ & N & L & B & _) Hi. unfold pf_index_entry, entry.
    rewrite N, L, B. rewrite (py_get_nth _ _ (e_name e)) by (rewrite nth_error_map, Hi; reflexivity).
    rewrite (py_get_nth _ _ (lens e)) by (rewrite nth_error_map, Hi; reflexivity).
    rewrite (py_get_nth _ _ (e_box e)) by (rewrite nth_error_map, Hi; reflexivity).
    cbn [bind]. destruct (writeascii (e_name e)); [|reflexivity]. cbn [bind].
    destruct (writevlv (Z.of_nat (length (lens e)))); [|reflexivity]. cbn [bind].
    destruct (e_box e) as [[[x0 x1] y0] y1]. reflexivity.
  Qed.
  Lemma lens_nonneg e : Forall (fun z => 0 <= z) (lens e).
  Proof. unfold lens. apply Forall_map. apply Forall_forall. intros; lia. Qed.
  Lemma write_lens l : Forall (fun z => 0 <= z) l -> mapM writevlv l = Ok (map vlv l).
  Proof.
    intros F. apply mapM_map_ok. rewrite Forall_forall in F. intros x Hx. apply writevlv_ok. auto.
  Qed.
  Lemma flat_map_concat' {A B} (f : A -> list B) l : concat (map f l) = flat_map f l.
  Proof. symmetry. apply flat_map_concat_map. Qed.

  Lemma entry_ok e : box_ok (e_box e) -> forallb (fun c => c <? 128) (e_name e) = true ->
    entry e = Ok (ser_ent e).
  Proof.
    intros Bo A. unfold entry, writeascii, ascii_encode. rewrite A. cbn [bind].
    rewrite writevlv_ok by lia. cbn [bind]. unfold ser_ent.
    destruct (e_box e) as [[[x0 x1] y0] y1]. destruct Bo as (B0 & B1 & B2 & B3).
    cbn [mapM]. rewrite !pack_be_ok by (change (256 ^ Z.of_nat 2) with 65536; lia). cbn [bind].
    rewrite write_lens by apply lens_nonneg. cbn [bind concat box_bytes].
    rewrite flat_map_concat'. unfold lens at 1. rewrite map_length.
    rewrite !app_nil_r, <- !app_assoc. reflexivity.
  Qed.
  Lemma entry_inv e bs : entry e = Ok bs ->
    box_ok (e_box e) /\ forallb (fun c => c <? 128) (e_name e) = true /\ bs = ser_ent e.
  Proof.
    intros E. assert (K : box_ok (e_box e) /\ forallb (fun c => c <? 128) (e_name e) = true).
    { unfold entry, writeascii, ascii_encode in E.
      destruct (forallb (fun c => c <? 128) (e_name e)); [|discriminate]. split; [|reflexivity].
      cbn [bind] in E. apply bind_ok in E. destruct E as (b & _ & E).
      destruct (e_box e) as [[[x0 x1] y0] y1]. apply bind_ok in E. destruct E as (c & Ec & _).
      apply mapM_inv in Ec.
      inversion Ec as [|? ? ? ? H0' Ec1]; subst. inversion Ec1 as [|? ? ? ? H1' Ec2]; subst.
      inversion Ec2 as [|? ? ? ? H2' Ec3]; subst. inversion Ec3 as [|? ? ? ? H3' Ec4]; subst.
      apply pack_be_inv in H0', H1', H2', H3'. cbn in *. lia. }
    destruct K as [K1 K2]. repeat split; auto. rewrite entry_ok in E by auto. congruence.
  Qed.

  Definition head (w : pwriter) (es : list ent) : list Z :=
    [80; 70; 0] ++ [w_size w] ++ vlv (zsum (map zsum (map lens es))) ++ vlv (Z.of_nat (length es)).

  Lemma zsum_nonneg l : Forall (fun z => 0 <= z) l -> 0 <= zsum l.
  Proof.
    induction 1 as [|z l Hz _ IH]; [unfold zsum; cbn; lia|]. rewrite zsum_cons. lia.
  Qed.
  Lemma total_nonneg es : 0 <= zsum (map zsum (map lens es)).
  Proof.
    apply zsum_nonneg. apply Forall_map, Forall_map, Forall_forall. intros e _.
    apply zsum_nonneg, lens_nonneg.
  Qed.
  Lemma close_eq w es d : winvd w es d -> pf_close w =
    rmap (fun idx => head w es ++ concat idx ++ d) (mapM entry es).
  Proof.
    intros I. assert (I' := I). destruct I' as (G & N & L & B & D). unfold pf_close.
    destruct (getfmt_inv _ _ _ G) as (Gs & _ & Gw).
    rewrite pack_be_ok by (change (256 ^ Z.of_nat 1) with 256; lia). cbn [bind].
    rewrite L, writevlv_ok by apply total_nonneg. cbn [bind].
    rewrite writevlv_ok by lia. cbn [bind]. rewrite N, map_length.
    rewrite (mapM_seq (pf_index_entry w) entry es 0).
    2:{ intros i e Hi. apply (index_entry w es d); assumption. }
    destruct (mapM entry es) as [idx|e]; [|reflexivity]. cbn [bind rmap].
    unfold head. rewrite D. replace (be_bytes 1 (w_size w)) with [w_size w].
    - f_equal. cbn [app]. rewrite <- !app_assoc. reflexivity.
    - cbn [be_bytes]. f_equal. cbn [Z.of_nat Z.pow]. rewrite Z.div_1_r, Z.mod_small by lia. reflexivity.
  Qed.
  Lemma close_inv w es d file : winvd w es d -> pf_close w = Ok file ->
    Forall (fun e => box_ok (e_box e) /\ forallb (fun c => c <? 128) (e_name e) = true) es /\
    file = head w es ++ flat_map ser_ent es ++ d.
  Proof.
    intros I E. rewrite (close_eq w es d I) in E. destruct (mapM entry es) as [idx|e] eqn:M; [|discriminate].
    cbn [rmap] in E. injection E as <-. apply mapM_inv in M.
    assert (K : Forall (fun e => box_ok (e_box e) /\ forallb (fun c => c <? 128) (e_name e) = true) es /\
                idx = map ser_ent es).
    { clear I. induction M as [|e bs es idx Ee _ [IH1 IH2]]; [split; [constructor|reflexivity]|].
      apply entry_inv in Ee. destruct Ee as (E1 & E2 & ->). split; [constructor; auto|].
      cbn. rewrite IH2. reflexivity. }
    destruct K as [K1 ->]. split; [exact K1|]. rewrite flat_map_concat'. reflexivity.
  Qed.
  Lemma close_ok w es d : winvd w es d ->
    Forall (fun e => box_ok (e_box e) /\ forallb (fun c => c <? 128) (e_name e) = true) es ->
    pf_close w = Ok (head w es ++ flat_map ser_ent es ++ d).
  Proof.
    intros I F. rewrite (close_eq w es d I).
    rewrite (mapM_map_ok entry ser_ent).
    - cbn [rmap]. rewrite flat_map_concat'. reflexivity.
    - rewrite Forall_forall in F. intros e He. destruct (F e He). apply entry_ok; auto.
  Qed.

  (** *** Reading *)
  Lemma read_h_ok v r : 0 <= v < 65536 -> read_h (be_bytes 2 v ++ r) = Ok (v, r).
  Proof.
    intros R. unfold read_h, f_read.
    rewrite firstn_exact, skipn_exact by apply be_bytes_length.
    rewrite unpack_be_bytes by exact R. reflexivity.
  Qed.
  Lemma read_vlvs_ok l : forall r, Forall (fun z => 0 <= z) l ->
    read_vlvs (length l) (flat_map vlv l ++ r) = Ok (l, r).
  Proof.
    induction l as [|v l IH]; intros r F; [reflexivity|]. inversion F as [|? ? Hv Fl]; subst.
    cbn [length read_vlvs flat_map]. rewrite <- app_assoc, readvlv_vlv by exact Hv. cbn [bind].
    rewrite IH by exact Fl. reflexivity.
  Qed.
  Lemma read_entry_ok e r : box_ok (e_box e) ->
    read_entry (vlv (Z.of_nat (length (e_parts e))) ++ box_bytes (e_box e) ++ flat_map vlv (lens e) ++ r)
    = Ok (dequant_box (e_box e), lens e, r).
  Proof.
    intros Bo. unfold read_entry. rewrite readvlv_vlv by lia. cbn [bind].
    destruct (e_box e) as [[[x0 x1] y0] y1] eqn:Eb. destruct Bo as (B0 & B1 & B2 & B3).
    cbn [box_bytes]. rewrite <- !app_assoc. rewrite !read_h_ok by lia. cbn [bind].
    rewrite !read_h_ok by lia. cbn [bind]. rewrite !read_h_ok by lia. cbn [bind].
    rewrite !read_h_ok by lia. cbn [bind].
    rewrite Nat2Z.id. replace (length (e_parts e)) with (length (lens e)) by (unfold lens; apply map_length).
    rewrite read_vlvs_ok by apply lens_nonneg. reflexivity.
  Qed.
  Lemma read_index_ok fuel es : forall r,
    Forall (fun e => box_ok (e_box e) /\ ascii_name (e_name e) /\ (length (e_name e) < fuel)%nat) es ->
    read_index fuel (length es) (flat_map ser_ent es ++ r) =
    Some (Ok (map (fun e => (e_name e, dequant_box (e_box e), lens e)) es, r)).
  Proof.
    induction es as [|e es IH]; intros r F; [reflexivity|].
    inversion F as [|? ? (B & A & Lf) F']; subst. cbn [length read_index flat_map].
    unfold ser_ent at 1. rewrite <- !app_assoc.
    replace (e_name e ++ [0] ++ vlv (Z.of_nat (length (e_parts e))) ++ box_bytes (e_box e) ++
       flat_map vlv (lens e) ++ flat_map ser_ent es ++ r)
    with ((e_name e ++ [0]) ++ vlv (Z.of_nat (length (e_parts e))) ++ box_bytes (e_box e) ++
       flat_map vlv (lens e) ++ flat_map ser_ent es ++ r) by (rewrite <- app_assoc; reflexivity).
    rewrite readascii_ok by assumption. rewrite read_entry_ok by exact B.
    rewrite IH by exact F'. reflexivity.
  Qed.

  Definition reader_of (w : pwriter) (es : list ent) (file : list Z) : preader T :=
    mkpr file (Z.of_nat (length (head w es ++ flat_map ser_ent es))) (w_size w)
      (map (fun e => dequant_box (e_box e)) es) (map e_name es) (map lens es) (w_n w) (w_umax w).

  Lemma open_ok w es d fuel file : winvd w es d -> pf_close w = Ok file ->
    Forall (fun e => ascii_name (e_name e) /\ (length (e_name e) < fuel)%nat) es ->
    pf_open fuel file = Some (Ok (reader_of w es file)).
  Proof.
    intros I E F. destruct (close_inv w es d file I E) as (K & Hf).
    destruct I as (G & _). destruct (getfmt_inv _ _ _ G) as (Gs & _ & Gw).
    unfold pf_open.
    assert (Hh : read_head file = Ok (w_size w, Z.of_nat (length es),
              flat_map ser_ent es ++ d)).
    { rewrite Hf. unfold read_head, head, f_read. cbn [app firstn skipn zlist_eqb Z.eqb Pos.eqb andb py_assert bind].
      replace ((w_size w =? 1) || (w_size w =? 2) || (w_size w =? 4) || (w_size w =? 8)) with true by lia.
      cbn [py_assert bind]. rewrite <- !app_assoc. rewrite readvlv_vlv by apply total_nonneg. cbn [bind].
      rewrite readvlv_vlv by lia. reflexivity. }
    rewrite Hh. rewrite Nat2Z.id.
    rewrite read_index_ok.
    2:{ rewrite !Forall_forall in *. intros e He. destruct (K e He), (F e He). auto. }
    rewrite G. cbn [bind]. do 2 f_equal. unfold reader_of. rewrite !map_map. cbn [fst snd].
    f_equal. rewrite Hf. rewrite !app_length, !Nat2Z.inj_add. lia.
  Qed.

  (** The data block. *)
  Lemma pt_bytes_length n u : length (pt_bytes n u) = (n + n)%nat.
  Proof. unfold pt_bytes. rewrite app_length, !be_bytes_length. reflexivity. Qed.
  Lemma unpack2_ok n u : code_ok n u -> unpack2 n (pt_bytes n u) = Ok u.
  Proof.
    intros [R1 R2]. unfold unpack2. rewrite pt_bytes_length.
    replace (Z.of_nat (n + n) =? 2 * Z.of_nat n) with true by lia.
    unfold pt_bytes. rewrite firstn_exact, skipn_exact by apply be_bytes_length.
    rewrite !be_value_bytes, !Z.mod_small by assumption. destruct u; reflexivity.
  Qed.
  Lemma read_points_ok (rd : preader T) n box us : forall r,
    r_size rd = Z.of_nat n -> r_n rd = n -> Forall (code_ok n) us ->
    read_points rd box (length us) (flat_map (pt_bytes n) us ++ r) =
    Ok (map (dequant_point (r_umax rd) box) us, r).
  Proof.
    intros r Rs Rn F. revert r. induction F as [|u us Hu _ IH]; intros r; [reflexivity|].
    cbn [length read_points flat_map map]. unfold f_read.
    replace (Z.to_nat (r_size rd * 2)) with (length (pt_bytes n u)) by (rewrite pt_bytes_length; lia).
    rewrite <- app_assoc. rewrite firstn_exact, skipn_exact by reflexivity. rewrite Rn, unpack2_ok by exact Hu. cbn [bind].
    rewrite IH. reflexivity.
  Qed.
  Lemma read_parts_ok (rd : preader T) n box uss : forall r,
    r_size rd = Z.of_nat n -> r_n rd = n -> Forall (code_ok n) (concat uss) ->
    read_parts rd box (map (fun p => Z.of_nat (length p)) uss) (flat_map (pt_bytes n) (concat uss) ++ r) =
    Ok (map (map (dequant_point (r_umax rd) box)) uss).
  Proof.
    intros r Rs Rn. revert r. induction uss as [|us uss IH]; intros r F; [reflexivity|].
    cbn [concat map read_parts] in *. apply Forall_app in F. destruct F as [F1 F2].
    rewrite Nat2Z.id, flat_map_app, <- app_assoc.
    rewrite (read_points_ok rd n) by assumption. cbn [bind]. rewrite IH by assumption. reflexivity.
  Qed.
  Lemma ent_data_length n e : Z.of_nat (length (ent_data n e)) = zsum (lens e) * Z.of_nat n * 2.
  Proof.
    unfold ent_data, lens. induction (e_parts e) as [|us uss IH]; [reflexivity|].
    cbn [concat map]. rewrite zsum_cons, flat_map_app, app_length, Nat2Z.inj_add, IH.
    assert (E : Z.of_nat (length (flat_map (pt_bytes n) us)) = Z.of_nat (length us) * Z.of_nat n * 2).
    { clear. induction us as [|u us IH]; [reflexivity|]. cbn [flat_map length].
      rewrite app_length, pt_bytes_length, Nat2Z.inj_add, IH. lia. }
    rewrite E. lia.
  Qed.
  Lemma data_length n es : Z.of_nat (length (flat_map (ent_data n) es)) =
    zsum (map (fun l => zsum l * Z.of_nat n * 2) (map lens es)).
  Proof.
    induction es as [|e es IH]; [reflexivity|]. cbn [flat_map map].
    rewrite zsum_cons, app_length, Nat2Z.inj_add, IH, ent_data_length. reflexivity.
  Qed.

  Lemma read_ok_d w es0 es1 rest file i e : let es := es0 ++ es1 in
    winvd w es (flat_map (ent_data (w_n w)) es0 ++ rest) -> pf_close w = Ok file ->
    nth_error es0 i = Some e -> Forall (code_ok (w_n w)) (concat (e_parts e)) ->
    pf_read (reader_of w es file) (Z.of_nat i) =
      Ok (map (map (dequant_point (w_umax w) (dequant_box (e_box e)))) (e_parts e)) /\
    pf_read (reader_of w es file) (Z.of_nat i - Z.of_nat (length es)) =
      Ok (map (map (dequant_point (w_umax w) (dequant_box (e_box e)))) (e_parts e)).
  Proof.
    intros es I E Hi0 Ce. destruct (close_inv w es _ file I E) as (K & Hf).
    destruct I as (G & _). destruct (getfmt_inv _ _ _ G) as (Gs & _ & Gw).
    assert (Li0 : (i < length es0)%nat) by (apply nth_error_Some; congruence).
    assert (Hi : nth_error es i = Some e) by (unfold es; rewrite nth_error_app1 by exact Li0; exact Hi0).
    assert (Li : (i < length es)%nat) by (apply nth_error_Some; congruence).
    assert (Fi : firstn i es = firstn i es0).
    { unfold es. rewrite firstn_app. replace (i - length es0)%nat with 0%nat by lia. cbn. apply app_nil_r. }
    assert (Hd : skipn (Z.to_nat (Z.of_nat (length (head w es ++ flat_map ser_ent es)) +
        zsum (map (fun l => zsum l * w_size w * 2) (firstn i (map lens es))))) file =
        ent_data (w_n w) e ++ flat_map (ent_data (w_n w)) (skipn (S i) es0) ++ rest).
    { rewrite firstn_map, Fi, Gs, <- data_length.
      replace (Z.to_nat (Z.of_nat (length (head w es ++ flat_map ser_ent es)) +
          Z.of_nat (length (flat_map (ent_data (w_n w)) (firstn i es0)))))
        with (length ((head w es ++ flat_map ser_ent es) ++ flat_map (ent_data (w_n w)) (firstn i es0)))
        by (rewrite (app_length (head w es ++ flat_map ser_ent es)); lia).
      rewrite Hf.
      assert (Es : es0 = firstn i es0 ++ e :: skipn (S i) es0).
      { clear - Hi0. revert es0 Hi0; induction i as [|i IH]; intros [|a es] Hi; cbn in *; try discriminate.
        - injection Hi as ->. reflexivity.
        - f_equal. apply IH. exact Hi. }
      assert (Ed : flat_map (ent_data (w_n w)) es0 = flat_map (ent_data (w_n w)) (firstn i es0) ++
        ent_data (w_n w) e ++ flat_map (ent_data (w_n w)) (skipn (S i) es0)).
      { rewrite Es at 1. rewrite flat_map_app. reflexivity. }
      rewrite Ed.
      match goal with |- skipn _ ?l = ?r =>
        replace l with (((head w es ++ flat_map ser_ent es) ++ flat_map (ent_data (w_n w)) (firstn i es0)) ++ r)
          by (rewrite <- !app_assoc; reflexivity) end.
      apply skipn_exact. reflexivity. }
    unfold pf_read, reader_of. cbn [r_bboxes r_partlens r_datapos r_size r_file].
    assert (G1 : nth_error (map (fun e => @dequant_box T _ (e_box e)) es) i = Some (dequant_box (e_box e)))
      by (rewrite nth_error_map, Hi; reflexivity).
    assert (G2 : nth_error (map lens es) i = Some (lens e)) by (rewrite nth_error_map, Hi; reflexivity).
    split.
    - rewrite (py_get_nth _ _ _ G1). cbn [bind].
      rewrite slice_prefix by (rewrite map_length; lia). rewrite Hd.
      rewrite (py_get_nth _ _ _ G2). cbn [bind]. unfold lens.
      exact (read_parts_ok (reader_of w es file) (w_n w) _ (e_parts e) _ Gs eq_refl Ce).
    - pose proof (py_get_neg _ _ _ G1) as N1. rewrite map_length in N1. rewrite N1. cbn [bind].
      pose proof (slice_prefix_neg (map lens es) i) as N2. rewrite map_length in N2.
      rewrite N2 by exact Li. rewrite Hd.
      pose proof (py_get_neg _ _ _ G2) as N3. rewrite map_length in N3. rewrite N3.
      cbn [bind]. unfold lens.
      exact (read_parts_ok (reader_of w es file) (w_n w) _ (e_parts e) _ Gs eq_refl Ce).
  Qed.

  Lemma read_ok w es file i e : winv w es -> pf_close w = Ok file -> nth_error es i = Some e ->
    pf_read (reader_of w es file) (Z.of_nat i) =
      Ok (map (map (dequant_point (w_umax w) (dequant_box (e_box e)))) (e_parts e)) /\
    pf_read (reader_of w es file) (Z.of_nat i - Z.of_nat (length es)) =
      Ok (map (map (dequant_point (w_umax w) (dequant_box (e_box e)))) (e_parts e)).
  Proof.
    intros I E Hi. pose proof (read_ok_d w es [] [] file i e) as K. cbv zeta in K. rewrite !app_nil_r in K.
    apply K; [apply winv_d; exact I|exact E|exact Hi|].
    destruct I as (_ & _ & _ & _ & _ & C). rewrite Forall_forall in C. apply (C e), (nth_error_In _ i), Hi.
  Qed.

  Lemma index_of_spec name l : forall k,
    (forall i, index_of k name l = Ok i <->
       exists j, i = k + Z.of_nat j /\ nth_error l j = Some name /\ ~ In name (firstn j l)) /\
    (index_of k name l = Err ValueError <-> ~ In name l).
  Proof.
    induction l as [|x l IH]; intros k; cbn [index_of].
    - split.
      + intros i. split; [discriminate|]. intros (j & _ & Hj & _). destruct j; discriminate.
      + split; auto.
    - destruct (zlist_eqb x name) eqn:E.
      + apply zlist_eqb_eq in E. subst x. split.
        * intros i. split.
          -- intros Hi. injection Hi as <-. exists 0%nat. cbn. split; [lia|]. auto.
          -- intros (j & -> & Hj & Hn). destruct j as [|j]; [f_equal; lia|].
             exfalso. apply Hn. cbn. auto.
        * split; [discriminate|]. intros Hn. exfalso. apply Hn. left. reflexivity.
      + apply zlist_eqb_neq in E. destruct (IH (k + 1)) as [I1 I2]. split.
        * intros i. rewrite I1. split.
          -- intros (j & -> & Hj & Hn). exists (S j). split; [lia|]. split; [exact Hj|].
             cbn. intros [C|C]; [congruence|auto].
          -- intros (j & -> & Hj & Hn). destruct j as [|j]; [cbn in Hj; congruence|].
             exists j. split; [lia|]. split; [exact Hj|]. intros C. apply Hn. right. exact C.
        * rewrite I2. cbn. split; [intros Hn [C|C]; [congruence|auto]|tauto].
  Qed.
End Generic.
