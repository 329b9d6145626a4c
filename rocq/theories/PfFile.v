(** The layout of a P file: lemmas. *)
From Coq Require Import QArith.
From Verif Require Import Py Num VlvModel VlvProofs PfModel PfSpec PfHostileSpec PfHostile PfFileSpec.
From Verif Require PfHist PfFinal ShpEditOpen ShpEditor.
Open Scope Z_scope.
Open Scope res_scope.

(** ** Numbers and names *)
Lemma number_nonneg v bs : number v bs -> 0 <= v.
Proof.
  intros [ds [z [_ [F ->]]]]. unfold in_base.
  assert (G : forall l a, Forall (fun d => 0 <= d < 128) l -> 0 <= a -> 0 <= fold_left (fun a d => a * 128 + d) l a).
  { induction l as [|d l IH]; intros a FL A; [exact A|]. inversion FL; subst. cbn [fold_left]. apply IH; [assumption|lia]. }
  apply G; [exact F|lia].
Qed.
Lemma number_read v bs r : number v bs -> readvlv (bs ++ r) = Ok (v, r).
Proof.
  intros [ds [z [-> [F ->]]]]. apply Forall_app in F. destruct F as [F Z]. inversion Z; subst. rewrite <- app_assoc. cbn [app].
  unfold readvlv. rewrite readvlv_loop_digits by assumption. rewrite Z.mul_0_l, Z.add_0_l. reflexivity.
Qed.
Lemma number_inv s v r : Forall is_byte s -> readvlv s = Ok (v, r) -> exists bs, s = bs ++ r /\ number v bs.
Proof.
  intros B H. destruct (readvlv_inv s 0 v r B H) as [ds [z [-> [D [Z ->]]]]]. exists (map (Z.add 128) ds ++ [z]). rewrite <- app_assoc. split; [reflexivity|].
  exists ds, z. split; [reflexivity|]. split; [apply Forall_app; auto|]. rewrite Z.mul_0_l, Z.add_0_l. reflexivity.
Qed.
Lemma short_read v bs r : short v bs -> read_h (bs ++ r) = Ok (v, r).
Proof.
  intros [L ->]. destruct bs as [|a [|b [|c bs]]]; try discriminate L. reflexivity.
Qed.
Lemma short_inv s v r : read_h s = Ok (v, r) -> exists bs, s = bs ++ r /\ short v bs.
Proof.
  unfold read_h, VlvModel.f_read. intros H. destruct s as [|a [|b s]]; try discriminate H. cbn in H. injection H as <- <-.
  exists [a; b]. split; [reflexivity|]. split; reflexivity.
Qed.
Lemma name_read fuel p r : Forall (fun c => 0 < c < 128) p -> (length p < fuel)%nat -> readascii fuel (p ++ 0 :: r) = Some (Ok (p, r)).
Proof.
  intros F L. unfold readascii. rewrite readascii_loop_ok; [|eapply Forall_impl; [|exact F]; cbn; lia|exact L]. cbn [app]. unfold ascii_decode.
  replace (forallb _ p) with true; [reflexivity|]. symmetry. apply forallb_forall. intros x X. rewrite Forall_forall in F. apply F in X. apply Z.ltb_lt. lia.
Qed.
Lemma name_inv fuel s n r : Forall is_byte s -> readascii fuel s = Some (Ok (n, r)) -> s = n ++ 0 :: r /\ Forall (fun c => 0 < c < 128) n.
Proof.
  intros B. unfold readascii. destruct (in_dec Z.eq_dec 0 s) as [I|N]; [|rewrite readascii_loop_nonterm by exact N; discriminate].
  destruct (ascii_split s I) as [p [q [-> F]]]. destruct (readascii_loop fuel [] (p ++ 0 :: q)) as [[bs t]|] eqn:E; [|discriminate].
  pose proof (ascii_mono _ _ _ _ E (S (fuel + length p)) ltac:(lia)) as E'. rewrite readascii_loop_ok in E' by (exact F || lia). injection E' as <- <-.
  unfold ascii_decode. cbn [app]. destruct (forallb _ _) eqn:A; cbn [bind]; intros H; [injection H as <- <-|discriminate H]. split; [reflexivity|].
  apply Forall_app in B. destruct B as [B _]. rewrite Forall_forall in *. rewrite forallb_forall in A. intros x X.
  specialize (F x X). specialize (A x X). apply Z.ltb_lt in A. specialize (B x X). unfold is_byte in B. lia.
Qed.
Lemma vlvs_read lens ls r : Forall2 number lens ls -> read_vlvs (length lens) (concat ls ++ r) = Ok (lens, r).
Proof.
  induction 1 as [|v b lens ls N _ IH]; [reflexivity|]. cbn [length read_vlvs concat]. rewrite <- app_assoc, (number_read v b) by exact N. cbn [bind]. rewrite IH. reflexivity.
Qed.
Lemma vlvs_inv : forall n s lens r, Forall is_byte s -> read_vlvs n s = Ok (lens, r) -> length lens = n /\ exists ls, s = concat ls ++ r /\ Forall2 number lens ls.
Proof.
  induction n as [|n IH]; intros s lens r B H; cbn [read_vlvs] in H.
  - injection H as <- <-. split; [reflexivity|]. exists []. split; [reflexivity|constructor].
  - destruct (readvlv s) as [[v s1]|] eqn:E; cbn [bind] in H; [|discriminate H]. destruct (number_inv s v s1 B E) as [b [-> N]].
    apply Forall_app in B. destruct B as [_ B]. destruct (read_vlvs n s1) as [[vs s2]|] eqn:E2; cbn [bind] in H; [|discriminate H]. injection H as <- <-.
    destruct (IH s1 vs s2 B E2) as [L [ls [-> F]]]. split; [cbn; lia|]. exists (b :: ls). cbn [concat]. rewrite <- app_assoc. split; [reflexivity|constructor; assumption].
Qed.

Lemma seq_shift_k n k : seq k n = map (fun j => k + j)%nat (seq 0 n).
Proof. induction k as [|k IH]; [cbn; rewrite map_id; reflexivity|]. rewrite <- seq_shift, IH, map_map. reflexivity. Qed.

Section PfFile.
  Context {T : Type} `{PyNum T}.
  Definition corners (e : entity) : zbox := (e_west e, e_east e, e_south e, e_north e).
  Definition of_entity (e : entity) : list Z * (T * T * T * T) * list Z := (e_name e, dequant_box (corners e), e_lens e).

  (** ** The index *)
  Lemma index_read fuel es bs r : Forall2 entity_bytes es bs -> (length (concat bs ++ r) < fuel)%nat ->
    read_index (T := T) fuel (length es) (concat bs ++ r) = Some (Ok (map of_entity es, r)).
  Proof.
    intros F. induction F as [|e b es bs E _ IH]; intros L; [reflexivity|]. cbn [length read_index map concat].
    destruct E as [p [w [x [s [n [ls [-> [NM [P [W [X [S [N LS]]]]]]]]]]]]]. cbn [concat] in L. rewrite !app_length in L. cbn [length] in L. rewrite !app_length in IH. rewrite <- !app_assoc. cbn [app].
    rewrite name_read by (exact NM || lia). unfold read_entry. rewrite (number_read _ _ _ P). cbn [bind].
    rewrite (short_read _ _ _ W). cbn [bind]. rewrite (short_read _ _ _ X). cbn [bind]. rewrite (short_read _ _ _ S). cbn [bind]. rewrite (short_read _ _ _ N). cbn [bind].
    rewrite Nat2Z.id, (vlvs_read _ _ _ LS). cbn [bind]. rewrite IH by lia. reflexivity.
  Qed.
  Lemma index_inv fuel : forall n s l r, Forall is_byte s -> read_index (T := T) fuel n s = Some (Ok (l, r)) ->
    exists es bs, length es = n /\ s = concat bs ++ r /\ Forall2 entity_bytes es bs /\ l = map of_entity es.
  Proof.
    induction n as [|n IH]; intros s l r B E; cbn [read_index] in E.
    - injection E as <- <-. exists [], []. repeat split. constructor.
    - destruct (readascii fuel s) as [[[nm s1]|]|] eqn:A; try discriminate E. destruct (name_inv fuel s nm s1 B A) as [-> NM].
      apply Forall_app in B. destruct B as [_ B]. apply Forall_inv_tail in B.
      destruct (read_entry s1) as [[[box lens] s2]|] eqn:R; [|discriminate E].
      destruct (read_index fuel n s2) as [[[l' s3]|]|] eqn:I; try discriminate E. injection E as <- <-.
      unfold read_entry in R. destruct (readvlv s1) as [[np q1]|] eqn:P; cbn [bind] in R; [|discriminate R].
      destruct (number_inv s1 np q1 B P) as [pb [-> NP]]. apply Forall_app in B. destruct B as [_ B]. clear P.
      destruct (read_h q1) as [[w q2]|] eqn:P; cbn [bind] in R; [|discriminate R]. destruct (short_inv _ _ _ P) as [wb [-> W]]. clear P.
      destruct (read_h q2) as [[x q3]|] eqn:P; cbn [bind] in R; [|discriminate R]. destruct (short_inv _ _ _ P) as [xb [-> X]]. clear P.
      destruct (read_h q3) as [[y q4]|] eqn:P; cbn [bind] in R; [|discriminate R]. destruct (short_inv _ _ _ P) as [yb [-> Y]]. clear P.
      destruct (read_h q4) as [[z q5]|] eqn:P; cbn [bind] in R; [|discriminate R]. destruct (short_inv _ _ _ P) as [zb [-> Z]]. clear P.
      rewrite !Forall_app in B. destruct B as [_ [_ [_ [_ B]]]].
      destruct (read_vlvs (Z.to_nat np) q5) as [[lens' q6]|] eqn:P; cbn [bind] in R; [|discriminate R]. injection R as <- <- <-.
      destruct (vlvs_inv _ _ _ _ B P) as [L [ls [-> LS]]]. apply Forall_app in B. destruct B as [_ B].
      destruct (IH q6 l' s3 B I) as [es [bs [LE [-> [F ->]]]]].
      exists (ent nm w x y z lens' :: es), ((nm ++ [0] ++ pb ++ wb ++ xb ++ yb ++ zb ++ concat ls) :: bs).
      split; [cbn; lia|]. split; [cbn [concat]; rewrite <- !app_assoc; reflexivity|]. split; [|reflexivity]. constructor; [|exact F].
      exists pb, wb, xb, yb, zb, ls. cbn [e_name e_west e_east e_south e_north e_lens]. split; [reflexivity|].
      pose proof (number_nonneg _ _ NP). replace (Z.of_nat (length lens')) with np by lia. tauto.
  Qed.

  (** ** The whole file *)
  Definition made (file : list Z) (size : Z) (es : list entity) (data : list Z) : preader T :=
    mkpr file (Z.of_nat (length file) - Z.of_nat (length data)) size (map (fun e => dequant_box (corners e)) es) (map e_name es) (map e_lens es)
      (Z.to_nat size) (max_code size).
  Lemma getfmt_is size : In size psizes -> getfmt size = Ok (Z.to_nat size, max_code size).
  Proof. intros [<-|[<-|[<-|[<-|[]]]]]; reflexivity. Qed.
  Lemma file_read fuel file size es data : layout file size es data -> (length file < fuel)%nat -> pf_open (T := T) fuel file = Some (Ok (made file size es data)).
  Proof.
    intros [rows [r [n [bs [SZ [E [R [N F]]]]]]]] L. unfold pf_open.
    assert (HD : read_head file = Ok (size, Z.of_nat (length es), concat bs ++ data)).
    { rewrite E. unfold read_head, VlvModel.f_read. cbn [app firstn skipn zlist_eqb]. unfold py_assert. cbn [zlist_eqb Z.eqb Pos.eqb andb bind].
      assert (C : (size =? 1) || (size =? 2) || (size =? 4) || (size =? 8) = true) by (destruct SZ as [<-|[<-|[<-|[<-|[]]]]]; reflexivity).
      rewrite C. cbn [bind]. rewrite (number_read _ _ _ R). cbn [bind]. rewrite (number_read _ _ _ N). reflexivity. }
    rewrite HD, Nat2Z.id, index_read; [|exact F|rewrite E in L; cbn [app length] in L; rewrite !app_length in *; lia].
    rewrite getfmt_is by exact SZ. cbn [bind]. unfold made. rewrite !map_map. reflexivity.
  Qed.
  Lemma file_inv fuel file rd : Forall is_byte file -> pf_open (T := T) fuel file = Some (Ok rd) ->
    exists es data, layout file (r_size rd) es data /\ rd = made file (r_size rd) es data.
  Proof.
    intros B E. unfold pf_open in E. destruct (read_head file) as [[[size n] s]|] eqn:HD; [|discriminate E].
    destruct (read_index fuel (Z.to_nat n) s) as [[[l d]|]|] eqn:I; try discriminate E.
    unfold read_head, VlvModel.f_read in HD.
    destruct file as [|a [|b [|c [|z f]]]]; try (unfold py_assert in HD; repeat (destruct (zlist_eqb _ _) in HD; cbn [bind firstn skipn] in HD); discriminate HD).
    cbn [firstn skipn] in HD. unfold py_assert in HD.
    destruct (zlist_eqb [a; b] [80; 70]) eqn:S1; cbn [bind] in HD; [|discriminate HD].
    destruct (zlist_eqb [c] [0]) eqn:S2; cbn [bind] in HD; [|discriminate HD].
    destruct ((z =? 1) || _ || _ || _) eqn:S3; cbn [bind] in HD; [|discriminate HD].
    cbn [zlist_eqb] in S1, S2. rewrite !andb_true_iff, !Z.eqb_eq in S1. rewrite andb_true_iff, Z.eqb_eq in S2. destruct S1 as [-> [-> _]]. destruct S2 as [-> _].
    rewrite !orb_true_iff, !Z.eqb_eq in S3. assert (SZ : In z psizes) by (unfold psizes; cbn [In]; intuition).
    assert (Bf : Forall is_byte f) by (do 4 apply Forall_inv_tail in B; exact B).
    destruct (readvlv f) as [[rows f1]|] eqn:P; cbn [bind] in HD; [|discriminate HD]. destruct (number_inv f rows f1 Bf P) as [rb [-> R]].
    apply Forall_app in Bf. destruct Bf as [_ Bf]. destruct (readvlv f1) as [[n' f2]|] eqn:P2; cbn [bind] in HD; [|discriminate HD].
    injection HD as <- <- <-. destruct (number_inv f1 n' f2 Bf P2) as [nb [-> N]]. apply Forall_app in Bf. destruct Bf as [_ Bf].
    destruct (index_inv fuel _ _ _ _ Bf I) as [es [bs [LE [-> [F ->]]]]].
    rewrite getfmt_is in E by exact SZ. cbn [bind] in E. injection E as <-. cbn [r_size]. exists es, d. split.
    - exists rows, rb, nb, bs. split; [exact SZ|]. split; [reflexivity|]. split; [exact R|]. split; [|exact F].
      pose proof (number_nonneg _ _ N). replace (Z.of_nat (length es)) with n' by lia. exact N.
    - unfold made. rewrite !map_map. reflexivity.
  Qed.
  Lemma file_data file size es data : layout file size es data -> data = skipn (length file - length data) file /\ (length data <= length file)%nat.
  Proof.
    intros [rows [r [n [bs [_ [E _]]]]]]. rewrite !app_assoc in E. rewrite E. rewrite app_length.
    match goal with |- data = skipn ?k (?p ++ data) /\ _ => replace k with (length p) by lia end.
    rewrite skipn_app, skipn_all, Nat.sub_diag. split; [reflexivity|]. lia.
  Qed.
  Lemma entity_lens e b : entity_bytes e b -> Forall (fun v => 0 <= v) (e_lens e).
  Proof.
    intros [p [w [x [s [n [ls [_ [_ [_ [_ [_ [_ [_ F]]]]]]]]]]]]]. induction F; constructor; [eapply number_nonneg; eassumption|assumption].
  Qed.
  Lemma file_lens file size es data : layout file size es data -> Forall (fun e => Forall (fun v => 0 <= v) (e_lens e)) es.
  Proof. intros [rows [r [n [bs [_ [_ [_ [_ F]]]]]]]]. induction F; constructor; [eapply entity_lens; eassumption|assumption]. Qed.

  (** ** The points *)
  Lemma code_skip k m d i : code k (skipn (k * m) d) i = code k d (m + i).
  Proof. unfold code. rewrite PfHist.skipn_skipn. do 3 f_equal. lia. Qed.
  Lemma points_are rd box k : r_n rd = k -> r_size rd = Z.of_nat k -> forall n s ps r, read_points rd box n s = Ok (ps, r) ->
    r = skipn (k * (2 * n)) s /\ (k * (2 * n) <= length s)%nat /\
    ps = map (fun j => dequant_point (r_umax rd) box (code k s (2 * j), code k s (2 * j + 1))) (seq 0 n).
  Proof.
    intros RN RS. induction n as [|n IH]; intros s ps r E; cbn [read_points] in E.
    - injection E as <- <-. rewrite !Nat.mul_0_r. repeat split. lia.
    - unfold VlvModel.f_read in E. replace (Z.to_nat (r_size rd * 2)) with (k * 2)%nat in E by lia. unfold unpack2 in E at 1. rewrite RN in E.
      destruct (_ =? _) eqn:C in E; cbn [bind] in E; [|discriminate E]. apply Z.eqb_eq in C. rewrite firstn_length in C.
      destruct (read_points rd box n (skipn (k * 2) s)) as [[ps' r']|] eqn:E'; cbn [bind] in E; [|discriminate E]. injection E as <- <-.
      destruct (IH _ _ _ E') as [-> [L ->]]. rewrite skipn_length in L. rewrite PfHist.skipn_skipn. split; [f_equal; lia|]. split; [lia|].
      cbn [seq map]. f_equal.
      + f_equal. f_equal; unfold code, in_base, be_value.
        * rewrite Nat.mul_0_r, firstn_firstn. cbn [skipn]. do 2 f_equal. lia.
        * rewrite skipn_firstn_comm. replace (k * 2 - k)%nat with k by lia. do 3 f_equal. lia.
      + rewrite <- seq_shift, map_map. apply map_ext. intros j. rewrite !code_skip. do 3 f_equal; lia.
  Qed.
  Lemma parts_are rd box k : r_n rd = k -> r_size rd = Z.of_nat k -> forall lens s pss, Forall (fun v => 0 <= v) lens -> read_parts rd box lens s = Ok pss ->
    map (fun p => Z.of_nat (length p)) pss = lens /\
    concat pss = map (fun j => dequant_point (r_umax rd) box (code k s (2 * j), code k s (2 * j + 1))) (seq 0 (Z.to_nat (zsum lens))).
  Proof.
    intros RN RS. induction lens as [|n lens IH]; intros s pss F E; cbn [read_parts] in E; [injection E as <-; split; reflexivity|].
    inversion F as [|? ? N F']; subst. destruct (read_points rd box (Z.to_nat n) s) as [[ps r]|] eqn:P; cbn [bind] in E; [|discriminate E].
    destruct (read_parts rd box lens r) as [pss'|] eqn:Q; cbn [bind] in E; [|discriminate E]. injection E as <-.
    destruct (points_are rd box _ eq_refl RS _ _ _ _ P) as [-> [_ ->]]. destruct (IH _ _ F' Q) as [I1 I2].
    assert (ZS : 0 <= zsum lens) by (clear - F'; induction F' as [|x l X _ IH]; [cbn; lia|rewrite zsum_cons; lia]).
    split; [cbn [map]; rewrite map_length, seq_length, I1; f_equal; lia|].
    cbn [concat]. rewrite I2, zsum_cons, Z2Nat.inj_add, seq_app, map_app by lia. f_equal. cbn [plus].
    rewrite (seq_shift_k (Z.to_nat (zsum lens)) (Z.to_nat n)), map_map. apply map_ext. intros j. rewrite !code_skip. do 3 f_equal; lia.
  Qed.
  (** ** Reading an entity *)
  Lemma getP {A} (l : list A) idx x : py_get l idx = Ok x -> nth_error l (place (length l) idx) = Some x /\ - Z.of_nat (length l) <= idx < Z.of_nat (length l).
  Proof.
    unfold py_get, place. rewrite Z.add_comm. cbv zeta. set (j := if idx <? 0 then _ else _). intros E.
    destruct ((0 <=? j) && (j <? Z.of_nat (length l))) eqn:C; [|discriminate E]. apply andb_true_iff in C. rewrite Z.leb_le, Z.ltb_lt in C.
    destruct (nth_error l (Z.to_nat j)) as [y|]; [|discriminate E]. injection E as ->. split; [reflexivity|].
    unfold j in C. destruct (idx <? 0) eqn:D; [apply Z.ltb_lt in D|apply Z.ltb_ge in D]; lia.
  Qed.
  Lemma zsum_nonneg l : Forall (fun v => 0 <= v) l -> 0 <= zsum l.
  Proof. induction 1 as [|x l X _ IH]; [cbn; lia|rewrite zsum_cons; lia]. Qed.
  Lemma before_Z es i : Forall (fun e => Forall (fun v => 0 <= v) (e_lens e)) es -> Z.of_nat (before es i) = zsum (map (fun e => zsum (e_lens e)) (firstn i es)).
  Proof.
    intros F. unfold before. rewrite Z2Nat.id; [reflexivity|]. apply zsum_nonneg. apply Forall_forall. intros x X. apply in_map_iff in X. destruct X as [e [<- E]].
    apply zsum_nonneg. rewrite Forall_forall in F. apply F. eapply firstn_in. exact E.
  Qed.
  Lemma start_is file size es data idx : layout file size es data ->
    start_of (made file size es data) idx = Z.of_nat (length file - length data) + 2 * size * Z.of_nat (before es (place (length es) idx)).
  Proof.
    intros L. rewrite before_Z by (eapply file_lens; exact L). unfold start_of, made. cbn [r_datapos r_size r_partlens].
    rewrite map_length. fold (place (length es) idx). rewrite firstn_map, map_map. destruct (file_data _ _ _ _ L). lia.
  Qed.
  Lemma read_are file size es data idx parts : layout file size es data -> pf_read (made file size es data) idx = Ok parts ->
    exists e, nth_error es (place (length es) idx) = Some e /\ map (fun p => Z.of_nat (length p)) parts = e_lens e /\
      forall j p, nth_error (concat parts) j = Some p ->
        let i := (before es (place (length es) idx) + j)%nat in
        p = dequant_point (max_code size) (dequant_box (corners e)) (code (Z.to_nat size) data (2 * i), code (Z.to_nat size) data (2 * i + 1)).
  Proof.
    intros L E. assert (SZ : In size psizes) by (destruct L as [? [? [? [? [S _]]]]]; exact S).
    assert (S0 : 0 < size) by (destruct SZ as [<-|[<-|[<-|[<-|[]]]]]; lia). pose proof (file_lens _ _ _ _ L) as FL. destruct (file_data _ _ _ _ L) as [DT DL].
    unfold pf_read in E. destruct (py_get (r_bboxes (made file size es data)) idx) as [box|] eqn:B; cbn [bind] in E; [|discriminate E].
    destruct (py_get (r_partlens (made file size es data)) idx) as [lens|] eqn:P; cbn [bind] in E; [|discriminate E].
    apply getP in B. apply getP in P. destruct B as [B R]. destruct P as [P _].
    cbn [made r_bboxes r_partlens] in B, P, R. rewrite map_length in B, P, R. rewrite nth_error_map in B, P.
    destruct (nth_error es (place (length es) idx)) as [e|] eqn:N; cbn [option_map] in B, P; [|discriminate B]. injection B as <-. injection P as <-.
    exists e. split; [reflexivity|]. assert (FE : Forall (fun v => 0 <= v) (e_lens e)) by (rewrite Forall_forall in FL; apply FL; eapply nth_error_In; exact N).
    rewrite zsum_scale, slice_prefix in E by (cbn [made r_partlens]; rewrite map_length; exact R). fold (start_of (made file size es data) idx) in E.
    rewrite (start_is _ _ _ _ _ L) in E. cbn [made r_file] in E.
    replace (skipn _ file) with (skipn (Z.to_nat size * (2 * before es (place (length es) idx))) data) in E by (rewrite DT at 1; rewrite PfHist.skipn_skipn; f_equal; nia).
    destruct (parts_are (made file size es data) _ (Z.to_nat size) eq_refl ltac:(cbn [made r_size]; lia) _ _ _ FE E) as [E1 E2]. split; [exact E1|].
    intros j p J. rewrite E2 in J. rewrite nth_error_map in J. destruct (nth_error (seq 0 _) j) as [j'|] eqn:Q; cbn [option_map] in J; [|discriminate J].
    match type of J with Some ?x = _ => assert (P : x = p) by congruence end. rewrite <- P. clear J P.
    assert (J' : j' = j).
    { assert (LJ : (j < Z.to_nat (zsum (e_lens e)))%nat) by (rewrite <- (seq_length (Z.to_nat (zsum (e_lens e))) 0); apply nth_error_Some; congruence).
      apply nth_error_nth with (d := O) in Q. rewrite seq_nth in Q by exact LJ. lia. }
    subst j'. cbv zeta. rewrite !code_skip. set (b := before es _). replace (2 * b + (2 * j + 1))%nat with (2 * (b + j) + 1)%nat by lia. replace (2 * b + 2 * j)%nat with (2 * (b + j))%nat by lia. reflexivity.
  Qed.
  Lemma read_enough file size es data idx e : Forall is_byte file -> layout file size es data ->
    - Z.of_nat (length es) <= idx < Z.of_nat (length es) -> nth_error es (place (length es) idx) = Some e ->
    (pf_read (made file size es data) idx = Err StructError /\ Z.of_nat (length data) < 2 * size * (Z.of_nat (before es (place (length es) idx)) + zsum (e_lens e))) \/
    exists parts, pf_read (made file size es data) idx = Ok parts /\
      (zsum (e_lens e) = 0 \/ 2 * size * (Z.of_nat (before es (place (length es) idx)) + zsum (e_lens e)) <= Z.of_nat (length data)).
  Proof.
    intros B L R N. pose proof (open_run (T := T) (S (length file)) file B) as O. rewrite (file_read _ _ _ _ _ L) in O by lia.
    pose proof (read_run file _ idx O) as RR. rewrite (start_is _ _ _ _ _ L) in RR. unfold pf_len in RR. cbn [made r_names r_partlens r_size] in RR. rewrite map_length in RR.
    destruct (file_data _ _ _ _ L) as [_ DL].
    assert (G : forall lens, py_get (map e_lens es) idx = Ok lens -> lens = e_lens e).
    { intros lens G. apply getP in G. rewrite map_length, nth_error_map, N in G. destruct G as [G _]. injection G as <-. reflexivity. }
    destruct (pf_read _ idx) as [parts|x].
    - right. exists parts. split; [reflexivity|]. destruct RR as [lens [P [_ C]]]. apply G in P. subst lens. destruct C as [C|C]; [left; exact C|right]. lia.
    - left. destruct RR as [[_ C]|[-> [_ [lens [P C]]]]]; [lia|]. apply G in P. subst lens. split; [reflexivity|]. lia.
  Qed.
End PfFile.
