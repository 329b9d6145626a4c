(** The distances of a P file: proofs. *)
From Coq Require Import ZifyBool ZifyNat SpecFloat.
From Verif Require Import Num BBoxModel VlvModel VlvProofs PfModel PfProofs PfSpec PfExact PfAccept PfHist PfFinal PfFloat PfErrModel PfErrSpec.
Open Scope Z_scope.

Section G.
  Context {T D : Type} `{PyNum T} `{PyRound T}.
  Variable hav : T -> T -> T -> T -> res D.
  Notation box4 := (T * T * T * T)%type.

  Definition dist_to (umax : Z) (box : box4) (p : T * T) (u : Z * Z) (e : D) : Prop :=
    hav (fst p) (snd p) (fst (dequant_point umax box u)) (snd (dequant_point umax box u)) = Ok e.

  Lemma dist_point_ok n umax (box : box4) p d e : dist_point hav n umax box p = Ok (d, e) ->
    quant_point n umax box p = Ok d /\ exists u, code_ok n u /\ d = pt_bytes n u /\ quantised umax box p u /\ dist_to umax box p u e.
  Proof.
    unfold dist_point, quant_point, quantised, dist_to. destruct box as [[[x0 x1] y0] y1]. intros E.
    apply bind_ok in E. destruct E as (a & Ea & E). apply bind_ok in E. destruct E as (b & Eb & E).
    apply bind_ok in E. destruct E as (dd & Ed & E). cbv zeta in E. apply bind_ok in E. destruct E as (er & Eh & E). injection E as -> ->.
    rewrite Ea, Eb. cbn [bind]. split; [exact Ed|]. exists (a, b). unfold pack2 in Ed.
    apply bind_ok in Ed. destruct Ed as (x & Ex & Ed). apply bind_ok in Ed. destruct Ed as (y & Ey & Ed). injection Ed as <-.
    apply pack_be_inv in Ex, Ey. destruct Ex as [Rx ->], Ey as [Ry ->]. unfold code_ok, pt_bytes, dequant_point. cbn. auto.
  Qed.
  Lemma dist_points_ok n umax (box : box4) ps : forall ds es, dist_points hav n umax box ps = (ds, es, Ok tt) ->
    quant_points n umax box ps = (ds, Ok tt) /\ exists us, Forall2 (quantised umax box) ps us /\ Forall (code_ok n) us /\ concat ds = flat_map (pt_bytes n) us /\
      Forall2 (fun pu e => dist_to umax box (fst pu) (snd pu) e) (combine ps us) es.
  Proof.
    induction ps as [|p ps IH]; intros ds es E; cbn [dist_points quant_points] in *.
    - injection E as <- <-. split; [reflexivity|]. exists []. repeat split; constructor.
    - destruct (dist_point hav n umax box p) as [[d e]|x] eqn:P; [|discriminate].
      destruct (dist_points hav n umax box ps) as [[ds' es'] x]. injection E as <- <- ->.
      destruct (IH ds' es' eq_refl) as (Q & us & F & C & Dt & G). apply dist_point_ok in P. destruct P as (P & u & Cu & -> & Qu & Du).
      rewrite P, Q. split; [reflexivity|]. exists (u :: us). split; [constructor; assumption|]. split; [constructor; assumption|].
      split; [cbn; rewrite Dt; reflexivity|]. cbn [combine]. constructor; assumption.
  Qed.
  Lemma combine_concat {A B} (R : A -> B -> Prop) pss : forall uss, Forall2 (Forall2 R) pss uss -> length (concat pss) = length (concat uss).
  Proof. intros uss F. induction F as [|p u pss uss E _ IH]; [reflexivity|]. cbn. rewrite !app_length, IH, (Forall2_length _ _ _ E). reflexivity. Qed.

  (** How an entity and its distances are derived from what was passed to write *)
  Definition dwritten (fuel : nat) (umax : Z) (name : list Z) (polys : list (list (T * T))) (e : ent) (errs : list D) : Prop :=
    e_name e = name /\
    exists parts0 parts bb, omap (omap (norm_point fuel)) polys = Some parts0 /\
      mapM drop_closing parts0 = Ok parts /\ foldM bb_step parts None = Ok (Some bb) /\ e_box e = quant_box bb /\
      Forall2 (Forall2 (quantised umax (dequant_box (e_box e)))) parts (e_parts e) /\
      distances hav (concat parts) (map (dequant_point umax (dequant_box (e_box e))) (concat (e_parts e))) errs.

  Lemma dw_write_ok fuel w errs name polys w' errs' : dw_write hav fuel (w, errs) name polys = Some (w', errs', Ok tt) ->
    pf_write fuel w name polys = Some (w', Ok tt) /\
    forall es, winv w es -> exists e new, errs' = errs ++ new /\ winv w' (es ++ [e]) /\ dwritten fuel (w_umax w) name polys e new.
  Proof.
    unfold dw_write, pf_write. intros E.
    destruct (omap (omap (norm_point fuel)) polys) as [parts0|] eqn:E0; [|discriminate].
    destruct (mapM drop_closing parts0) as [parts|] eqn:E1; [|discriminate].
    destruct (foldM bb_step parts None) as [[bb|]|] eqn:E2; [|discriminate|discriminate].
    cbn [w_n w_umax w_add_bbox w_add_partlen w_add_name] in E |- *.
    destruct (dist_points hav (w_n w) (w_umax w) (dequant_box (quant_box bb)) (concat parts)) as [[ds new] x] eqn:Q.
    injection E as <- <- ->. destruct (dist_points_ok _ _ _ _ _ _ Q) as (Q' & us & F & C & Ds & G). rewrite Q'. split; [reflexivity|].
    intros es (I & N & L & B & Dt & Cd). destruct (regroup _ _ _ F) as (uss & <- & F2).
    exists (mkent name (quant_box bb) uss), new. split; [reflexivity|]. split.
    - unfold winv. cbn. rewrite !map_app, flat_map_app, concat_app, N, L, B, Dt, Ds. cbn. unfold lens at 2. cbn. rewrite (Forall2_lens _ _ _ F2).
      repeat split; auto; [unfold ent_data at 2; cbn; rewrite app_nil_r; reflexivity|]. apply Forall_app. split; [exact Cd|]. constructor; [exact C|constructor].
    - split; [reflexivity|]. exists parts0, parts, bb. cbn [e_box e_parts]. repeat (split; [first [assumption|reflexivity]|]).
      split; [|rewrite map_length; apply (Forall2_length _ _ _ F)].
      clear - F G. revert new G. induction F as [|p u ps us _ _ IH]; intros new G; [inversion G; constructor|].
      cbn [combine] in G. inversion G as [|? e ? new' G1 G2]; subst. cbn [map combine]. constructor; [exact G1|apply IH, G2].
  Qed.
  Lemma dw_all_ok fuel l : forall w errs w' errs', dw_all hav fuel (w, errs) l = Some (w', errs', Ok tt) ->
    write_all fuel w l = Some w' /\
    forall es, winv w es -> exists es' news, errs' = errs ++ concat news /\ winv w' (es ++ es') /\
      Forall2 (fun x en => dwritten fuel (w_umax w) (fst x) (snd x) (fst en) (snd en)) l (combine es' news) /\ length es' = length news.
  Proof.
    induction l as [|[name polys] l IH]; intros w errs w' errs' E; cbn [dw_all write_all] in *.
    - injection E as <- <-. split; [reflexivity|]. intros es I. exists [], []. cbn. rewrite !app_nil_r. repeat split; [apply I| | | | | |constructor]; apply I.
    - destruct (dw_write hav fuel (w, errs) name polys) as [[[w1 errs1] [[]|x]]|] eqn:W; [| discriminate|discriminate].
      destruct (dw_write_ok _ _ _ _ _ _ _ W) as [P K]. rewrite P. destruct (IH _ _ _ _ E) as [P2 K2]. split; [exact P2|].
      intros es I. destruct (K es I) as (e & new & -> & I1 & R1). destruct (K2 _ I1) as (es' & news & -> & I2 & R2 & L).
      destruct (write_winv _ _ _ _ _ _ I P) as (_ & _ & U & _).
      exists (e :: es'), (new :: news). cbn [concat combine length]. rewrite <- !app_assoc in *. cbn [app] in I2.
      split; [reflexivity|]. split; [exact I2|]. split; [|lia]. constructor; [exact R1|]. rewrite <- U. exact R2.
  Qed.
End G.
