(** When saving succeeds, and what it raises when it does not. *)
From Verif Require Import Py VlvModel ShpFile ShpWriterModel ShpReaderModel ShpLib ShpSpec ShpWriterProofs ShpSave ShpRead ShpApi ShpCalls ShpRound ShpPrograms.
Open Scope Z_scope.
Open Scope m_scope.

(** ** Running [outputs] *)
Lemma out_ok {A} (m : M file A) r f bs a : outputs m r -> at_end f -> r = Ok (bs, a) -> m f = (append f bs, Ok a).
Proof. intros O E ->. apply (O f E). Qed.
Lemma out_err {A} (m : M file A) (r : wres A) f e : outputs m r -> at_end f -> r = Err e -> exists f', m f = (f', Err e).
Proof. intros O E ->. apply (O f E). Qed.
Lemma wbind_ok {A B} (r : wres A) (k : A -> wres B) bs a cs b : r = Ok (bs, a) -> k a = Ok (cs, b) -> wbind r k = Ok (bs ++ cs, b).
Proof. intros -> H. unfold wbind. rewrite H. reflexivity. Qed.
Lemma wbind_err {A B} (r : wres A) (k : A -> wres B) e : r = Err e -> wbind r k = Err e.
Proof. intros ->. reflexivity. Qed.
Lemma wbind_err2 {A B} (r : wres A) (k : A -> wres B) bs a e : r = Ok (bs, a) -> k a = Err e -> wbind r k = Err e.
Proof. intros -> H. unfold wbind. rewrite H. reflexivity. Qed.
Lemma mbind_err {S A B} (m : M S A) (k : A -> M S B) s s' e : m s = (s', Err e) -> mbind m k s = (s', Err e).
Proof. intros H. unfold mbind. rewrite H. reflexivity. Qed.

(** ** Boxes *)
Lemma mapM_ok_all {A B} (f : A -> res B) l : Forall (fun x => exists y, f x = Ok y) l -> exists ys, mapM f l = Ok ys.
Proof.
  induction 1 as [|x l [y Y] _ [ys IH]]; [exists []; reflexivity|]. exists (y :: ys). cbn. rewrite Y, IH. reflexivity.
Qed.
Lemma columns_shape p xs ys : columns p = Ok (xs, ys) -> xs <> [] /\ ys <> [].
Proof.
  intros H. apply columns_inv in H. destruct H as [N [-> ->]]. destruct p; [congruence|]. split; discriminate.
Qed.
Lemma box_of_ok ss : ss <> [] -> Forall (fun s => s_points s <> [] /\ Forall long_point (s_points s)) ss -> exists b, box_of ss = Ok b.
Proof.
  intros N F. unfold box_of.
  destruct (mapM_ok_all (fun s => columns (s_points s)) ss) as [cs C].
  { eapply Forall_impl; [|exact F]. intros s [P L]. eexists. apply columns_ok; assumption. }
  rewrite C. cbn [bind].
  assert (NN : flat_map fst cs <> [] /\ flat_map snd cs <> []).
  { destruct ss as [|s ss]; [congruence|]. cbn in C. apply bind_ok in C. destruct C as [[xs ys] [C1 C]]. apply bind_ok in C.
    destruct C as [cs' [_ C]]. injection C as <-. apply columns_shape in C1. destruct C1 as [X Y]. cbn.
    destruct xs, ys; try congruence. split; discriminate. }
  destruct NN as [NX NY].
  destruct (dbl_min_ok _ NX) as [x0 ->]. destruct (dbl_min_ok _ NY) as [y0 ->].
  destruct (dbl_max_ok _ NX) as [x1 ->]. destruct (dbl_max_ok _ NY) as [y1 ->]. eexists. reflexivity.
Qed.
Lemma box_of_empty ss s : In s ss -> s_points s = [] -> box_of ss = Err ValueError.
Proof.
  intros I E. unfold box_of.
  assert (M : mapM (fun s => columns (s_points s)) ss = Err ValueError).
  { induction ss as [|x ss IH]; [contradiction|]. cbn. destruct (columns (s_points x)) as [c|e] eqn:C.
    - cbn [bind]. destruct I as [->|I]; [rewrite E in C; discriminate|]. rewrite (IH I). reflexivity.
    - unfold columns in C. destruct (s_points x); [injection C as <-; reflexivity|].
      destruct (forallb _ _); [discriminate|injection C as <-; reflexivity]. }
  rewrite M. reflexivity.
Qed.
Lemma zbox_total ss : exists z, zbox_of ss = Ok z.
Proof.
  unfold zbox_of. cbv zeta. destruct (flat_map (fun s => coords_at 2 (s_points s)) ss) as [|x l]; cbn; eexists; reflexivity.
Qed.
Lemma mbox_total ss : exists z, mbox_of ss = Ok z.
Proof. unfold mbox_of. cbn. eexists. reflexivity. Qed.

(** ** The header *)
Definition header_w (w : writer) (shx : bool) (t : Z) : wres unit :=
  wbind (wput (pack_many pack_bi [9994; 0; 0; 0; 0; 0])) (fun _ =>
  wbind (if shx then wput (pack_bi ((100 + Z.of_nat (length (w_shapes w)) * 8) / 2))
         else wbind (wlift (shp_file_length w)) (fun n => wput (pack_bi n))) (fun _ =>
  wbind (wput (pack_many pack_li_opt [Some 1000; Some t])) (fun _ =>
  wbind (wbind (wlift (box_of (w_shapes w))) (fun b => wwrite (pack_ds b))) (fun _ =>
  wbind (wlift (zbox_of (w_shapes w))) (fun z =>
  wbind (wlift (mbox_of (w_shapes w))) (fun m => wwrite (pack_ds (z ++ m)))))))).
Lemma header_outputs w shx t : w_type w = Some t -> t <> 0 ->
  match header_w w shx t with
  | Ok (bs, _) => shapefile_header w shx new_file = (whole bs, Ok tt)
  | Err e => exists f, shapefile_header w shx new_file = (f, Err e)
  end.
Proof.
  intros T NZ. unfold shapefile_header.
  rewrite (mbind_run _ _ _ new_file tt) by reflexivity.
  rewrite T. replace (type_is (Some t) 0) with false by (cbn; destruct (Z.eqb_spec t 0); [contradiction|reflexivity]).
  match goal with |- context [?m new_file] => assert (O : outputs m (header_w w shx t)) end.
  { unfold header_w. repeat (first [ apply out_bind; [|intros ?] | apply out_put | apply out_lift | apply out_write
                | match goal with |- outputs (if ?c then _ else _) _ => destruct c end ]). }
  specialize (O new_file eq_refl). destruct (header_w w shx t) as [[bs []]|e]; exact O.
Qed.
Lemma header_w_ok w (shx : bool) t n : i32 t ->
  (if shx then (100 + Z.of_nat (length (w_shapes w)) * 8) / 2 = n else shp_file_length w = Ok n) -> i32 n ->
  header_w w shx t = match box_of (w_shapes w) with
                     | Ok b => match header_w w shx t with Ok x => Ok x | Err _ => Ok ([], tt) end
                     | Err e => Err e
                     end.
Proof.
  intros T N I. unfold header_w.
  assert (P1 : exists bs, wput (pack_many pack_bi [9994; 0; 0; 0; 0; 0]) = Ok (bs, tt)) by (eexists; reflexivity).
  destruct P1 as [b1 P1].
  assert (P2 : exists bs, (if shx then wput (pack_bi ((100 + Z.of_nat (length (w_shapes w)) * 8) / 2))
         else wbind (wlift (shp_file_length w)) (fun n => wput (pack_bi n))) = Ok (bs, tt)).
  { destruct shx.
    - rewrite N, (pack_bi_32 n I). eexists. reflexivity.
    - rewrite N. cbn [wlift]. unfold wbind. rewrite (pack_bi_32 n I). eexists. reflexivity. }
  destruct P2 as [b2 P2].
  assert (P3 : exists bs, wput (pack_many pack_li_opt [Some 1000; Some t]) = Ok (bs, tt)).
  { unfold pack_many. cbn [mapM pack_li_opt]. rewrite (pack_li_32 t T). eexists. reflexivity. }
  destruct P3 as [b3 P3].
  rewrite P1, P2, P3. destruct (zbox_total (w_shapes w)) as [z ->]. destruct (mbox_total (w_shapes w)) as [m ->].
  destruct (box_of (w_shapes w)) as [b|e]; reflexivity.
Qed.
Lemma header_run w (shx : bool) t n : w_type w = Some t -> t <> 0 -> i32 t ->
  (if shx then (100 + Z.of_nat (length (w_shapes w)) * 8) / 2 = n else shp_file_length w = Ok n) -> i32 n ->
  match box_of (w_shapes w) with
  | Ok b => exists f, shapefile_header w shx new_file = (f, Ok tt)
  | Err e => exists f, shapefile_header w shx new_file = (f, Err e)
  end.
Proof.
  intros T NZ TI N I. pose proof (header_outputs w shx t T NZ) as O. rewrite (header_w_ok w shx t n TI N I) in O.
  destruct (box_of (w_shapes w)) as [b|e]; [|exact O].
  destruct (header_w w shx t) as [[bs u]|e]; eexists; exact O.
Qed.
Lemma header_length_err w t e : w_type w = Some t -> t <> 0 -> shp_file_length w = Err e ->
  exists f, shapefile_header w false new_file = (f, Err e).
Proof.
  intros T NZ N. pose proof (header_outputs w false t T NZ) as O. unfold header_w in O. rewrite N in O. exact O.
Qed.

(** ** The length *)
Definition has_parts_type (t : Z) : Prop := In t [3; 5; 13; 15; 23; 25; 31].
Lemma has_parts_type_in t : type_in (Some t) [3; 5; 13; 15; 23; 25; 31] = true <-> has_parts_type t.
Proof.
  unfold has_parts_type. cbn [type_in existsb In]. rewrite !orb_true_iff, !Z.eqb_eq. intuition (try discriminate; auto).
Qed.
Definition parts_count (s : shape) : Z := match s_parts s with Some l => Z.of_nat (length l) | None => 0 end.
(** An upper bound of the bytes of a record *)
Definition bulk (k n : Z) : Z := 128 + 8 * k + 32 * n.
Definition points_count (s : shape) : Z := Z.of_nat (length (s_points s)).
Lemma opt_add (c : bool) n k : 0 <= k -> n <= (if c then n + k else n) <= n + k.
Proof. destruct c; lia. Qed.
Lemma shape_size_ok t n np s P : 0 <= P -> (has_parts_type t -> s_parts s <> None \/ np <> None) ->
  parts_count s <= P -> (forall k, np = Some k -> 0 <= k <= P) ->
  exists n' np', shape_size (Some t) (n, np) s = Ok (n', np') /\ n <= n' <= n + bulk P (points_count s) /\
    (forall k, np' = Some k -> 0 <= k <= P) /\ (s_parts s <> None \/ np <> None -> np' <> None).
Proof.
  intros HP H1 H2 H3. unfold shape_size.
  set (np' := match s_parts s with Some l => Some (Z.of_nat (length l)) | None => np end).
  assert (K : forall k, np' = Some k -> 0 <= k <= P).
  { intros k E. unfold np' in E. unfold parts_count in H2. destruct (s_parts s); [injection E as <-; lia|auto]. }
  assert (NN : s_parts s <> None \/ np <> None -> np' <> None).
  { unfold np'. intros [X|X]; destruct (s_parts s); congruence. }
  destruct (type_in (Some t) [3; 5; 13; 15; 23; 25; 31]) eqn:T.
  - apply has_parts_type_in in T. specialize (NN (H1 T)). destruct np' as [k|] eqn:EN; [|congruence].
    specialize (K k eq_refl). cbn [need_parts bind].
    set (N := Z.of_nat (length (s_points s))).
    assert (NP : 0 <= N) by lia.
    assert (B31 : exists x, (if type_is (Some t) 31 then Ok ((if type_in (Some t) [3; 5; 8; 13; 15; 23; 25; 31] then (if type_in (Some t) [3; 5; 8; 13; 15; 18; 23; 25; 28; 31] then n + 12 + 32 else n + 12) + 4 + k * 4 + 4 + 16 * N else (if type_in (Some t) [3; 5; 8; 13; 15; 18; 23; 25; 28; 31] then n + 12 + 32 else n + 12) + 4 + k * 4) + k * 4)
        else Ok (if type_in (Some t) [3; 5; 8; 13; 15; 23; 25; 31] then (if type_in (Some t) [3; 5; 8; 13; 15; 18; 23; 25; 28; 31] then n + 12 + 32 else n + 12) + 4 + k * 4 + 4 + 16 * N else (if type_in (Some t) [3; 5; 8; 13; 15; 18; 23; 25; 28; 31] then n + 12 + 32 else n + 12) + 4 + k * 4)) = Ok x /\
        n <= x <= n + 52 + 16 * N + 8 * k).
    { destruct (type_is (Some t) 31), (type_in (Some t) [3; 5; 8; 13; 15; 23; 25; 31]), (type_in (Some t) [3; 5; 8; 13; 15; 18; 23; 25; 28; 31]); eexists; (split; [reflexivity|lia]). }
    destruct B31 as [x [-> X]]. cbn [bind].
    assert (NT : type_in (Some t) [1; 11; 21] = false /\ type_is (Some t) 11 = false /\ type_in (Some t) [11; 21] = false).
    { unfold has_parts_type in T. cbn [In] in T. repeat (destruct T as [<-|T]; [repeat split; reflexivity|]). contradiction. }
    destruct NT as [-> [-> ->]].
    eexists. exists (Some k). split; [reflexivity|]. split; [|split; [exact (fun k' E => ltac:(injection E as <-; exact K))|discriminate]].
    unfold bulk, points_count. fold N.
    destruct (type_in (Some t) [13; 15; 18; 31]), (type_in (Some t) [23; 25; 31]); lia.
  - assert (T31 : type_is (Some t) 31 = false).
    { cbn. destruct (Z.eqb_spec t 31) as [->|]; [discriminate T|reflexivity]. }
    cbn [bind]. rewrite T31. cbn [bind]. cbv zeta.
    eexists. exists np'. split; [reflexivity|]. split; [|split; [exact K|exact NN]].
    set (N := Z.of_nat (length (s_points s))). unfold bulk, points_count. fold N. assert (NP : 0 <= N) by lia.
    repeat match goal with |- context [if ?c then _ else _] => destruct c end; lia.
Qed.
Definition total (P : Z) (ss : list shape) : Z := fold_right (fun s a => bulk P (points_count s) + a) 0 ss.
Lemma sizes_ok t P ss : 0 <= P -> Forall (fun s => parts_count s <= P) ss -> forall n np,
  (has_parts_type t -> np <> None \/ match ss with s :: _ => s_parts s <> None | [] => True end) ->
  (forall k, np = Some k -> 0 <= k <= P) ->
  exists n' np', foldM (shape_size (Some t)) ss (n, np) = Ok (n', np') /\ n <= n' <= n + total P ss.
Proof.
  intros HP F. induction F as [|s ss Fs _ IH]; intros n np H K.
  - exists n, np. cbn. split; [reflexivity|lia].
  - destruct (shape_size_ok t n np s P HP) as [n1 [np1 [E [B [K1 N1]]]]]; [|exact Fs|exact K|].
    { intros T. destruct (H T); auto. }
    destruct (IH n1 np1) as [n2 [np2 [E2 B2]]].
    + intros T. left. apply N1. destruct (H T); auto.
    + exact K1.
    + exists n2, np2. cbn [foldM]. rewrite E. cbn [bind]. split; [exact E2|]. cbn [total fold_right]. unfold total in B2. lia.
Qed.
Lemma size_unbound t s ss : has_parts_type t -> s_parts s = None ->
  foldM (shape_size (Some t)) (s :: ss) (100, None) = Err UnboundLocalError.
Proof.
  intros T E. cbn [foldM]. unfold shape_size. rewrite E. apply has_parts_type_in in T. rewrite T. reflexivity.
Qed.

(** ** Failures before the records *)
Definition small (t : Z) (ss : list shape) : Prop := exists P, 0 <= P /\ Forall (fun s => parts_count s <= P) ss /\ 100 + total P ss < 4294967296.
Lemma length_small t w : w_type w = Some t -> small t (w_shapes w) ->
  (has_parts_type t -> match w_shapes w with s :: _ => s_parts s <> None | [] => True end) ->
  exists n, shp_file_length w = Ok n /\ i32 n.
Proof.
  intros T [P [HP [F B]]] H. unfold shp_file_length. rewrite T.
  destruct (sizes_ok t P (w_shapes w) HP F 100 None) as [n [np [E X]]].
  - intros HT. right. exact (H HT).
  - discriminate.
  - rewrite E. cbn [bind fst]. eexists. split; [reflexivity|]. unfold i32.
    assert (0 <= n / 2 < 2147483648); [|lia]. split; [apply Z.div_pos; lia|apply Z.div_lt_upper_bound; lia].
Qed.
Lemma save_starts w t : eff_type w t ->
  saveShp new_file w = (on_shp (shapefile_header (w_set_shp new_file (w_set_type (Some t) w)) false) ;;; shp_records)
                       (w_set_shp new_file (w_set_type (Some t) w)).
Proof.
  intros E. unfold saveShp. rewrite (mbind_run _ _ _ _ _ (fix_type_ok w t E)). reflexivity.
Qed.
Lemma save_empty_shape w t s : eff_type w t -> i32 t -> small t (w_shapes w) ->
  (has_parts_type t -> match w_shapes w with s :: _ => s_parts s <> None | [] => True end) ->
  In s (w_shapes w) -> s_points s = [] -> exists w', saveShp new_file w = (w', Err ValueError).
Proof.
  intros E I SM H IN EM. rewrite (save_starts w t E).
  set (w1 := w_set_shp new_file (w_set_type (Some t) w)).
  destruct (length_small t w1 eq_refl SM H) as [n [N NI]].
  pose proof (header_run w1 false t n eq_refl (proj1 E) I N NI) as HR.
  change (w_shapes w1) with (w_shapes w) in HR. rewrite (box_of_empty _ s IN EM) in HR. destruct HR as [f HR].
  eexists. apply mbind_err. unfold on_shp, zoom. change (w_shp w1) with new_file. rewrite HR. reflexivity.
Qed.
Lemma save_unbound w t s : eff_type w t -> has_parts_type t -> hd_error (w_shapes w) = Some s -> s_parts s = None ->
  exists w', saveShp new_file w = (w', Err UnboundLocalError).
Proof.
  intros E T HD EM. rewrite (save_starts w t E).
  set (w1 := w_set_shp new_file (w_set_type (Some t) w)).
  destruct (header_length_err w1 t UnboundLocalError eq_refl (proj1 E)) as [f HR].
  { unfold shp_file_length. change (w_shapes w1) with (w_shapes w). change (w_type w1) with (Some t).
    destruct (w_shapes w) as [|s0 l]; [discriminate|]. injection HD as ->. rewrite (size_unbound t s l T EM). reflexivity. }
  eexists. apply mbind_err. unfold on_shp, zoom. change (w_shp w1) with new_file. rewrite HR. reflexivity.
Qed.

(** ** One record *)
Definition typed (t : Z) (s : shape) : shape := if t =? 31 then s else set_type (Some t) s.
Lemma record_run i t w s : w_type w = Some t -> nth_error (w_shapes w) i = Some s -> at_end (w_shp w) -> i32 (Z.of_nat i + 1) ->
  match put_shape_w (w_default w) (typed t s) with
  | Ok (c, _) => i32 (words c) -> exists w', shp_record i w = (w', Ok tt)
  | Err e => exists w', shp_record i w = (w', Err e)
  end.
Proof.
  intros T N E I.
  assert (PG : py_get (w_shapes w) (Z.of_nat i) = Ok s) by (apply py_get_nat; exact N).
  assert (H : exists f1 wa, shp_record i w =
     (s' <~ on_shp (put_shape (w_default w) (typed t s)) ;;
      modify (fun w => w_set_shapes (set_nth i s' (w_shapes w)) w) ;;;
      finish <~ on_shp f_tell ;;
      let len := (finish - Z.of_nat (fpos f1)) / 2 in
      modify (fun w => w_set_lengths (w_lengths w ++ [len]) w) ;;;
      on_shp (f_seek (Z.of_nat (fpos f1) - 4)) ;;;
      on_shp (f_put (pack_bi len)) ;;;
      on_shp (f_seek finish)) wa /\ w_shp wa = f1 /\ at_end f1 /\ (8 <= fpos f1)%nat).
  { unfold shp_record. unfold mbind at 1, get at 1. unfold mbind at 1, lift at 1. rewrite PG.
    unfold mbind at 1. unfold on_shp at 1, zoom at 1, f_tell at 1. unfold mbind at 1, modify at 1.
    assert (PK : pack_many pack_bi [Z.of_nat i + 1; 0] = Ok (be32 (Z.of_nat i + 1) ++ be32 0)).
    { unfold pack_many. cbn [mapM]. rewrite (pack_bi_32 _ I), (pack_bi_32 0) by lia. cbn [bind rmap concat]. rewrite app_nil_r. reflexivity. }
    rewrite PK. set (hd := be32 (Z.of_nat i + 1) ++ be32 0). assert (LH : length hd = 8%nat) by reflexivity. clearbody hd.
    set (wb := w_set_offsets _ _). assert (WB : w_shp wb = w_shp w) by reflexivity. clearbody wb.
    set (f1 := append (w_shp w) hd).
    rewrite (mbind_run (on_shp (f_put (Ok hd))) _ wb (w_set_shp f1 wb) tt).
    2:{ unfold on_shp, zoom. rewrite WB. unfold f_put. rewrite (mbind_run _ _ (w_shp w) (w_shp w) hd) by reflexivity.
        rewrite (f_write_end _ hd E). reflexivity. }
    unfold mbind at 1. unfold on_shp at 1, zoom at 1, f_tell at 1. cbv zeta.
    change (w_shp (w_set_shp f1 wb)) with f1.
    rewrite T. replace (if type_is (Some t) 31 then s else set_type (Some t) s) with (typed t s).
    2:{ unfold typed. cbn. destruct (t =? 31); reflexivity. }
    match goal with |- context [(modify ?g ;;; _) ?st] => rewrite (mbind_run (modify g) _ st (g st) tt) by reflexivity end.
    eexists f1, _. split; [reflexivity|]. split; [reflexivity|]. split; [apply append_end, E|]. unfold f1, append. cbn [fpos]. lia. }
  destruct H as [f1 [wa [-> [W1 [E1 P1]]]]].
  pose proof (out_put_shape (w_default w) (typed t s) f1 E1) as O.
  destruct (put_shape_w (w_default w) (typed t s)) as [[c s']|e].
  - intros IC. rewrite (mbind_run _ _ wa (w_set_shp (append f1 c) wa) s').
    2:{ unfold on_shp, zoom. rewrite W1, O. reflexivity. }
    set (wb := w_set_shp _ wa). assert (WB : w_shp wb = append f1 c) by reflexivity. clearbody wb.
    match goal with |- context [(modify ?g ;;; _) ?st] => rewrite (mbind_run (modify g) _ st (g st) tt) by reflexivity end.
    cbv beta. set (wc := w_set_shapes _ wb). assert (WC : w_shp wc = append f1 c) by exact WB. clearbody wc.
    unfold mbind at 1, on_shp at 1, zoom at 1, f_tell at 1. rewrite WC. cbn [append fpos]. cbv zeta.
    replace (Z.of_nat (fpos f1 + length c) - Z.of_nat (fpos f1)) with (Z.of_nat (length c)) by lia. fold (words c).
    match goal with |- context [(modify ?g ;;; _) ?st] => rewrite (mbind_run (modify g) _ st (g st) tt) by reflexivity end.
    match goal with |- context [_ ?st = _] => set (wd := st) end. clearbody wd.
    match goal with |- context [on_shp (f_seek ?n)] => rewrite (mbind_run (on_shp (f_seek n)) _ wd (w_set_shp (mkFile (fdata (w_shp wd)) (Z.to_nat n)) wd) tt) end.
    2:{ unfold on_shp, zoom. rewrite seek_to by lia. reflexivity. }
    set (we := w_set_shp _ wd). clearbody we.
    rewrite (pack_bi_32 _ IC). unfold mbind, on_shp at 1, zoom at 1, f_put at 1, mbind, lift, f_write.
    unfold on_shp, zoom. rewrite seek_to by lia. eexists. reflexivity.
  - destruct O as [f' O]. eexists. apply mbind_err. unfold on_shp, zoom. rewrite W1, O. reflexivity.
Qed.

(** ** The content of a record: success *)
Definition okw {A} (r : wres A) : Prop := exists x, r = Ok x.
Lemma okw_bind {A B} (r : wres A) (k : A -> wres B) : okw r -> (forall bs a, r = Ok (bs, a) -> okw (k a)) -> okw (wbind r k).
Proof.
  intros [[bs a] ->] H. destruct (H bs a eq_refl) as [[cs b] K]. exists (bs ++ cs, b). unfold wbind. rewrite K. reflexivity.
Qed.
Lemma okw_ret {A} (a : A) : okw (wret a). Proof. eexists. reflexivity. Qed.
Lemma okw_write b : okw (wwrite b). Proof. eexists. reflexivity. Qed.
Lemma okw_lift {A} (r : res A) : (exists a, r = Ok a) -> okw (wlift r).
Proof. intros [a ->]. eexists. reflexivity. Qed.
Lemma okw_put (r : res (list Z)) : (exists a, r = Ok a) -> okw (wput r).
Proof. intros [a ->]. eexists. reflexivity. Qed.
Lemma okw_when (c : bool) r : (c = true -> okw r) -> okw (wwhen c r).
Proof. destruct c; intros H; [apply H; reflexivity|apply okw_ret]. Qed.
Lemma okw_each {A} (f : A -> wres unit) l : Forall (fun x => okw (f x)) l -> okw (weach f l).
Proof. induction 1 as [|x l H _ IH]; [apply okw_ret|]. cbn [weach]. apply okw_bind; [exact H|]. intros _ _ _. exact IH. Qed.
Lemma ex_li v : i32 v -> exists a, pack_li v = Ok a.
Proof. intros H. eexists. apply pack_li_32, H. Qed.
Lemma long_xy p : long_point p -> exists a, pack_xy p = Ok a.
Proof. intros [L _]. destruct p as [|x [|y p]]; [cbn in L; lia..|]. eexists. reflexivity. Qed.
Lemma long_get p k : long_point p -> 0 <= k < 4 -> exists a, py_get p k = Ok a.
Proof.
  intros [L _] K. exists (nth (Z.to_nat k) p dbl_zero). rewrite <- (py_get_long p (Z.to_nat k)) by lia.
  rewrite Z2Nat.id by lia. reflexivity.
Qed.
Lemma first_ok s : s_points s <> [] -> exists p, first_point s = Ok p.
Proof. intros N. unfold first_point. destruct (s_points s) as [|p l]; [congruence|]. exists p. reflexivity. Qed.
Lemma points_nonempty s g : represents s g -> vertices g <> [] -> s_points s <> [].
Proof. intros R N E. apply N. rewrite <- (rep_points s g R), E. reflexivity. Qed.
Lemma one_box s g : represents s g -> vertices g <> [] -> exists b, box_of [s] = Ok b.
Proof.
  intros R N. apply box_of_ok; [discriminate|]. constructor; [|constructor].
  split; [exact (points_nonempty s g R N)|apply (rep_long s g R)].
Qed.
Lemma each_li l : Forall i32 l -> okw (weach (fun i => wput (pack_li i)) l).
Proof. intros H. apply okw_each. eapply Forall_impl; [|exact H]. intros v V0. apply okw_put, ex_li, V0. Qed.
Lemma each_xy s g : represents s g -> okw (weach (fun p => wput (pack_xy p)) (s_points s)).
Proof. intros R. apply okw_each. eapply Forall_impl; [|apply (rep_long s g R)]. intros p P. apply okw_put, long_xy, P. Qed.
Lemma each_m s g : represents s g ->
  okw (weach (fun p => wbind (wlift (py_get p 3)) (fun v => wwrite (dbl_bytes v))) (s_points s)).
Proof.
  intros R. apply okw_each. eapply Forall_impl; [|apply (rep_long s g R)]. intros p P.
  apply okw_bind; [apply okw_lift, long_get; [exact P|lia]|]. intros _ v _. apply okw_write.
Qed.
Lemma put_z_success s g : represents s g -> vertices g <> [] -> exists bs, put_z_w s = Ok (bs, s).
Proof.
  intros R N. unfold put_z_w. rewrite (rep_z s g R).
  destruct (first_ok s (points_nonempty s g R N)) as [p P].
  destruct (first_point_long s (rep_long s g R) p P) as [_ L].
  rewrite (extend_first_long 3 s p) by (try exact P; try exact L; lia). cbn [wlift wbind]. rewrite P. cbn [bind].
  destruct (long_get p 2 L) as [v V0]; [lia|]. rewrite V0. cbn. eexists. reflexivity.
Qed.
Lemma put_m_success s g : represents s g -> vertices g <> [] -> okw (put_m_w s).
Proof.
  intros R N. unfold put_m_w. rewrite (rep_m s g R).
  destruct (first_ok s (points_nonempty s g R N)) as [p P].
  destruct (first_point_long s (rep_long s g R) p P) as [_ L].
  rewrite (extend_first_long 4 s p) by (try exact P; try exact L; lia). cbn [wlift wbind]. rewrite P. cbn [bind].
  destruct (long_get p 3 L) as [v V0]; [lia|]. rewrite V0. cbn. eexists. reflexivity.
Qed.
Lemma rep_points_length s g : represents s g -> length (s_points s) = length (vertices g).
Proof. intros R. rewrite <- (rep_points s g R), map_length. reflexivity. Qed.
Lemma put_shape_success dflt t s g : good t -> s_type s = Some t -> represents s g -> vertices g <> [] ->
  has_parts t s g -> fits t g -> okw (put_shape_w dflt s).
Proof.
  intros G T R N HP [F1 F2].
  assert (I : i32 t) by (apply good_i32; exact G).
  destruct (one_box s g R N) as [b B]. destruct (zbox_total [s]) as [z Zb]. destruct (mbox_total [s]) as [mb Mb].
  destruct (first_ok s (points_nonempty s g R N)) as [p P].
  destruct (first_point_long s (rep_long s g R) p P) as [_ L].
  destruct (put_z_success s g R N) as [zb PZ].
  pose proof (each_xy s g R) as EX. pose proof (each_m s g R) as EM. pose proof (put_m_success s g R N) as PM.
  unfold put_shape_w. cbv zeta. rewrite T.
  apply okw_bind; [apply okw_put; cbn [pack_li_opt]; apply ex_li, I|intros _ _ _].
  apply okw_bind; [apply okw_when; intros _; rewrite B; apply okw_bind; [apply okw_lift; eauto|intros; apply okw_write]|intros _ _ _].
  apply okw_bind.
  { apply okw_when. intros C. assert (Q : In t [3; 5; 23; 25]).
    { unfold good in G. cbn in G |- *. repeat (destruct G as [<-|G]; [try (vm_compute in C; discriminate); tauto|]). destruct G. }
    rewrite (HP Q). cbn [attr]. apply okw_bind; [apply okw_lift; eauto|intros x y H]. injection H as _ <-.
    apply okw_put, ex_li. unfold part_starts. rewrite starts_length. apply F2, Q. }
  intros _ _ _. apply okw_bind.
  { apply okw_when. intros C. assert (Q : In t [3; 5; 8; 23; 25]).
    { unfold good in G. cbn in G |- *. repeat (destruct G as [<-|G]; [try (vm_compute in C; discriminate); tauto|]). destruct G. }
    apply okw_put, ex_li. rewrite (rep_points_length s g R). apply F1, Q. }
  intros _ _ _. apply okw_bind.
  { apply okw_when. intros C. assert (Q : In t [3; 5; 23; 25]).
    { unfold good in G. cbn in G |- *. repeat (destruct G as [<-|G]; [try (vm_compute in C; discriminate); tauto|]). destruct G. }
    rewrite (HP Q). cbn [attr]. apply okw_bind; [apply okw_lift; eauto|intros x y H]. injection H as _ <-.
    apply each_li. apply F2, Q. }
  intros _ _ _. apply okw_bind.
  { apply okw_when. intros C. exfalso. unfold good in G. cbn in G.
    repeat (destruct G as [<-|G]; [vm_compute in C; discriminate|]). destruct G. }
  intros _ _ _. apply okw_bind; [apply okw_when; intros _; exact EX|intros _ _ _].
  apply okw_bind.
  { apply okw_when. intros C. exfalso. unfold good in G. cbn in G.
    repeat (destruct G as [<-|G]; [vm_compute in C; discriminate|]). destruct G. }
  intros _ _ _. apply okw_bind.
  { apply okw_when. intros _. rewrite Mb. apply okw_bind; [apply okw_lift; eauto|intros _ b0 _].
    apply okw_bind; [apply okw_write|intros _ _ _; exact EM]. }
  intros _ _ _. apply okw_bind.
  { apply okw_when. intros _. rewrite P. apply okw_bind; [apply okw_lift; eauto|intros x y H]. injection H as _ <-.
    apply okw_bind; [apply okw_lift, long_get; [exact L|lia]|intros _ x0 _].
    apply okw_bind; [apply okw_lift, long_get; [exact L|lia]|intros _ y0 _]. apply okw_write. }
  intros _ _ _. apply okw_bind.
  { destruct (type_is (Some t) 11); [rewrite PZ; eexists; reflexivity|apply okw_ret]. }
  intros bs a H. assert (a = s) as ->.
  { destruct (type_is (Some t) 11); [rewrite PZ in H; injection H as _ <-; reflexivity|injection H as _ <-; reflexivity]. }
  destruct (type_in (Some t) [11; 21]); [exact PM|apply okw_ret].
Qed.

(** ** The content of a record: missing attributes *)
Lemma no_parts_error dflt t s g : has_parts_type t -> s_type s = Some t -> represents s g -> vertices g <> [] ->
  s_parts s = None -> put_shape_w dflt s = Err AttributeError.
Proof.
  intros HT T R N E. assert (I : i32 t) by (unfold has_parts_type in HT; cbn in HT; unfold i32; lia).
  destruct (one_box s g R N) as [b B]. apply has_parts_type_in in HT.
  unfold put_shape_w. cbv zeta. rewrite T. cbn [pack_li_opt]. rewrite (pack_li_32 t I), B, HT, E.
  destruct (type_in (Some t) [3; 5; 8; 13; 15; 18; 23; 25; 28; 31]); reflexivity.
Qed.
Lemma no_z_error dflt t s g : z_type t -> s_type s = Some t -> represents s g -> vertices g <> [] ->
  i32 (Z.of_nat (length (vertices g))) -> i32 (Z.of_nat (length g)) -> Forall i32 (part_starts g) ->
  put_shape_w dflt s = Err AttributeError.
Proof.
  intros HT T R N I1 I2 I3.
  destruct (rep_parts s g R) as [P|P].
  2:{ destruct (Z.eq_dec t 18) as [->|NT].
      - destruct (one_box s g R N) as [b B]. destruct (zbox_total [s]) as [z Zb].
        unfold put_shape_w. cbv zeta. rewrite T, B, Zb, (rep_z s g R). reflexivity.
      - apply (no_parts_error dflt t s g); try assumption. unfold z_type in HT. unfold has_parts_type. cbn in HT |- *. lia. }
  destruct (one_box s g R N) as [b B]. destruct (zbox_total [s]) as [z Zb].
  destruct (each_xy s g R) as [[bx []] EX]. destruct (each_li _ I3) as [[bl []] EL].
  assert (E1 : pack_li (Z.of_nat (length (part_starts g))) = Ok (le32 (Z.of_nat (length g)))).
  { unfold part_starts. rewrite starts_length. apply pack_li_32, I2. }
  assert (E2 : pack_li (Z.of_nat (length (s_points s))) = Ok (le32 (Z.of_nat (length (vertices g))))).
  { rewrite (rep_points_length s g R). apply pack_li_32, I1. }
  unfold put_shape_w. cbv zeta. rewrite T, B, P. cbn [attr]. rewrite E2, Zb, (rep_z s g R). cbn [attr wlift].
  unfold z_type in HT. cbn [In] in HT. destruct HT as [<-|[<-|[<-|[]]]]; cbn [type_in type_is existsb Z.eqb Pos.eqb orb wwhen].
  - cbn [wbind]. rewrite E1, EL, EX. reflexivity.
  - cbn [wbind]. rewrite E1, EL, EX. reflexivity.
  - reflexivity.
Qed.

(** ** The loop over the records *)
Definition lacks_parts (t : Z) (s : shape) : bool :=
  match s_parts s with Some _ => false | None => type_in (Some t) [3; 5; 13; 15; 23; 25; 31] end.
Definition numbers_fit (t : Z) (g : geometry) : Prop :=
  vertices g <> [] /\ fits t g /\ i32 (Z.of_nat (content_size t g) / 2).
Lemma lacks_has t s g : represents s g -> lacks_parts t s = false -> has_parts t s g.
Proof.
  intros R L HT. unfold lacks_parts in L. destruct (rep_parts s g R) as [P|P]; [exact P|]. rewrite P in L.
  exfalso. assert (X : has_parts_type t) by (unfold has_parts_type; cbn in HT |- *; tauto). apply has_parts_type_in in X. congruence.
Qed.
Lemma good_not_31 t : good t -> t =? 31 = false.
Proof. intros G. apply Z.eqb_neq. unfold good in G. cbn in G. lia. Qed.
Lemma loop_run t todo : forall gs fin w, good t -> w_type w = Some t -> w_shapes w = fin ++ todo ->
  Forall2 represents todo gs -> at_end (w_shp w) -> Forall (numbers_fit t) gs ->
  i32 (Z.of_nat (length (fin ++ todo)) + 1) ->
  exists w', for_each shp_record (seq (length fin) (length todo)) w =
    (w', if existsb (lacks_parts t) todo then Err AttributeError else Ok tt).
Proof.
  induction todo as [|s todo IH]; intros gs fin w G T S R E NF I.
  - exists w. reflexivity.
  - inversion R as [|s0 g todo0 gs' Rs R' E1 E2]. subst s0 todo0 gs. inversion NF as [|? ? [NV [F IW]] NF']; subst.
    rewrite app_length in I. cbn [length] in I.
    assert (NE : nth_error (w_shapes w) (length fin) = Some s) by (rewrite S, nth_error_app2, Nat.sub_diag by lia; reflexivity).
    assert (I1 : i32 (Z.of_nat (length fin) + 1)) by (unfold i32 in *; lia).
    pose proof (record_run (length fin) t w s T NE E I1) as RR.
    unfold typed in RR. rewrite (good_not_31 t G) in RR.
    cbn [length seq for_each existsb].
    destruct (lacks_parts t s) eqn:L.
    + cbn [orb]. rewrite (no_parts_error (w_default w) t (set_type (Some t) s) g) in RR; [| |reflexivity|apply represents_type, Rs|exact NV|].
      * destruct RR as [w' RR]. exists w'. apply mbind_err, RR.
      * apply has_parts_type_in. unfold lacks_parts in L. destruct (s_parts s); [discriminate|exact L].
      * unfold lacks_parts in L. cbn. destruct (s_parts s); [discriminate|reflexivity].
    + cbn [orb]. assert (HP := lacks_has t s g Rs L).
      destruct (put_shape_success (w_default w) t (set_type (Some t) s) g G eq_refl (represents_type _ s g Rs) NV HP F) as [[c s'] P].
      rewrite P in RR.
      destruct (put_shape_good (w_default w) t (set_type (Some t) s) g c s' (represents_type _ s g Rs) eq_refl G P) as [_ [C _]].
      destruct RR as [w1 RR].
      { unfold words. rewrite (content_length t g c C). exact IW. }
      rewrite (mbind_run _ _ _ _ _ RR).
      destruct (shp_record_ok (length fin) t w s g w1 G T NE Rs E RR) as [c' [_ [_ [_ [_ [_ [_ [_ W1]]]]]]]].
      rewrite S, set_nth_app in W1.
      replace (Datatypes.S (length fin)) with (length (fin ++ [set_type (Some t) s])) by (rewrite app_length; cbn [length]; lia).
      apply (IH gs'); try assumption.
      * rewrite W1. reflexivity.
      * rewrite W1. cbn [w_shapes]. rewrite <- app_assoc. reflexivity.
      * rewrite W1. cbn [w_shp]. apply append_end. exact E.
      * rewrite <- app_assoc. rewrite !app_length in *. cbn [length] in *. unfold i32 in *. lia.
Qed.

(** ** Sizes *)
Lemma parts_count_bound s g P : represents s g -> Z.of_nat (length g) <= P -> parts_count s <= P.
Proof.
  intros R H. unfold parts_count. destruct (rep_parts s g R) as [-> | ->]; [|lia].
  unfold part_starts. rewrite starts_length. exact H.
Qed.
Lemma modest_total ss gs P : Forall2 represents ss gs ->
  total P ss = (128 + 8 * P) * Z.of_nat (length gs) + 32 * Z.of_nat (length (flat_map vertices gs)).
Proof.
  induction 1 as [|s g ss gs R _ IH]; [cbn; lia|]. cbn [total fold_right]. fold (total P ss). rewrite IH.
  cbn [length flat_map]. rewrite app_length, Nat2Z.inj_add, Nat2Z.inj_succ. unfold bulk, points_count. rewrite (rep_points_length s g R). lia.
Qed.
Lemma modest_small t ss gs : Forall2 represents ss gs -> modest gs -> small t ss.
Proof.
  intros R [P [F B]]. exists (Z.max 0 P). split; [lia|].
  destruct gs as [|g0 gs].
  - inversion R; subst. split; [constructor|]. cbn. lia.
  - assert (PP : 0 <= P) by (inversion F; subst; lia). rewrite Z.max_r by lia. split.
    + clear B. induction R as [|s g ss gs' Rs _ IH]; constructor; inversion F; subst; [eapply parts_count_bound; eassumption|apply IH; assumption].
    + rewrite (modest_total ss _ P R). lia.
Qed.
Lemma starts_bound g : forall n, Forall (fun x => n <= x <= n + Z.of_nat (length (vertices g))) (starts_from n g).
Proof.
  induction g as [|p g IH]; intros n; cbn [starts_from]; constructor.
  - lia.
  - eapply Forall_impl; [|apply IH]. intros x X. cbn beta in X. cbn [vertices concat] in *. rewrite app_length. unfold vertices in X. lia.
Qed.
Lemma modest_fits t gs : good t -> modest gs -> Forall (fun g => vertices g <> []) gs -> Forall (numbers_fit t) gs.
Proof.
  intros G [P [F B]] NE. rewrite Forall_forall in *. intros g Hg. pose proof (F g Hg) as Fg.
  assert (V0 : Z.of_nat (length (vertices g)) <= Z.of_nat (length (flat_map vertices gs))).
  { clear - Hg. induction gs as [|h gs IH]; [destruct Hg|]. cbn [flat_map]. rewrite app_length. destruct Hg as [->|Hg]; [lia|specialize (IH Hg); lia]. }
  assert (C0 : 1 <= Z.of_nat (length gs)) by (destruct gs; [destruct Hg|cbn [length]; lia]).
  assert (P0 : 0 <= P) by lia.
  assert (X : 128 + 8 * P <= (128 + 8 * P) * Z.of_nat (length gs)) by nia.
  pose proof (starts_bound g 0) as SB.
  split; [apply NE, Hg|]. split.
  - split.
    + intros _. unfold i32. lia.
    + intros _. split; [unfold i32; lia|]. eapply Forall_impl; [|exact SB]. intros x Hx. cbn beta in Hx. unfold i32. lia.
  - unfold i32. assert (0 <= Z.of_nat (content_size t g) / 2 < 2147483648); [|lia].
    split; [apply Z.div_pos; lia|]. apply Z.div_lt_upper_bound; [lia|]. unfold content_size.
    repeat match goal with |- context [if ?c then _ else _] => destruct c end; lia.
Qed.
Lemma modest_count gs : modest gs -> Forall (fun g => vertices g <> []) gs -> i32 (Z.of_nat (length gs) + 1).
Proof.
  intros [P [F B]] _. destruct gs as [|g gs]; [cbn; unfold i32; lia|].
  assert (0 <= P) by (inversion F; subst; lia). unfold i32. nia.
Qed.

(** ** saveShp, every outcome *)
Definition no_points (s : shape) : bool := match s_points s with [] => true | _ => false end.
Definition outcome (t : Z) (ss : list shape) : res unit :=
  if match ss with s :: _ => lacks_parts t s | [] => false end then Err UnboundLocalError
  else if match ss with [] => true | _ => existsb no_points ss end then Err ValueError
  else if existsb (lacks_parts t) ss then Err AttributeError
  else Ok tt.
Lemma box_outcome ss gs : Forall2 represents ss gs ->
  if match ss with [] => true | _ => existsb no_points ss end
  then box_of ss = Err ValueError else (exists b, box_of ss = Ok b) /\ Forall (fun g => vertices g <> []) gs.
Proof.
  intros R. destruct ss as [|s0 ss0]; [reflexivity|]. set (ss := s0 :: ss0) in *.
  assert (NN : ss <> []) by discriminate. clearbody ss.
  replace (match ss with [] => true | _ => existsb no_points ss end) with (existsb no_points ss) by (destruct ss; congruence).
  destruct (existsb no_points ss) eqn:E.
  - apply existsb_exists in E. destruct E as [s [I N]]. apply (box_of_empty ss s I). unfold no_points in N. destruct (s_points s); congruence.
  - assert (F : Forall (fun s => s_points s <> []) ss).
    { apply Forall_forall. intros s I N. assert (X : existsb no_points ss = true); [|congruence].
      apply existsb_exists. exists s. split; [exact I|]. unfold no_points. rewrite N. reflexivity. }
    split.
    + apply box_of_ok; [exact NN|]. clear E NN. induction R as [|s g ss gs Rs _ IH]; constructor; inversion F; subst;
        [split; [assumption|apply (rep_long s g Rs)]|apply IH; assumption].
    + clear E NN. induction R as [|s g ss gs Rs _ IH]; constructor; inversion F; subst; [|apply IH; assumption].
      rewrite <- (rep_points s g Rs). destruct (s_points s); [congruence|discriminate].
Qed.
Lemma first_has t ss : match ss with s :: _ => lacks_parts t s | [] => false end = false ->
  has_parts_type t -> match ss with s :: _ => s_parts s <> None | [] => True end.
Proof.
  destruct ss as [|s ss]; [auto|]. intros L T E. unfold lacks_parts in L. rewrite E in L. apply has_parts_type_in in T. congruence.
Qed.
Lemma first_lacks t ss : match ss with s :: _ => lacks_parts t s | [] => false end = true ->
  has_parts_type t /\ exists s, hd_error ss = Some s /\ s_parts s = None.
Proof.
  destruct ss as [|s ss]; [discriminate|]. unfold lacks_parts. destruct (s_parts s) eqn:E; [discriminate|].
  intros T. apply has_parts_type_in in T. split; [exact T|]. exists s. auto.
Qed.
Lemma header_shape w shx t f : w_type w = Some t -> t <> 0 -> shapefile_header w shx new_file = (f, Ok tt) ->
  exists bs, f = whole bs /\ length bs = 100%nat.
Proof.
  intros T N H. apply (header_bytes w shx t) in H; [|exact T|exact N]. destruct H as [n [b [z [m [[B1 [B2 B3]] [_ [_ ->]]]]]]].
  eexists. split; [reflexivity|]. apply header_length; [eapply box_of_length|eapply zbox_of_length|eapply mbox_of_length]; eassumption.
Qed.
(** The header is written, and the records follow. *)
Lemma save_header w t gs : eff_type w t -> i32 t -> Forall2 represents (w_shapes w) gs -> modest gs ->
  match w_shapes w with s :: _ => lacks_parts t s | [] => false end = false ->
  match w_shapes w with [] => true | _ => existsb no_points (w_shapes w) end = false ->
  exists w1, w_type w1 = Some t /\ w_shapes w1 = w_shapes w /\ at_end (w_shp w1) /\
    saveShp new_file w = for_each shp_record (seq 0 (length (w_shapes w))) w1.
Proof.
  intros E I R MD L NP. rewrite (save_starts w t E).
  set (w0 := w_set_shp new_file (w_set_type (Some t) w)).
  destruct (length_small t w0 eq_refl (modest_small t _ gs R MD) (first_has t _ L)) as [n [N NI]].
  pose proof (header_run w0 false t n eq_refl (proj1 E) I N NI) as HR.
  pose proof (box_outcome _ _ R) as BO. rewrite NP in BO. destruct BO as [[b B] _].
  change (w_shapes w0) with (w_shapes w) in HR. rewrite B in HR. destruct HR as [f HR].
  destruct (header_shape w0 false t f eq_refl (proj1 E) HR) as [bs [-> LB]].
  exists (w_set_shp (mkFile bs 100) w0). split; [reflexivity|]. split; [reflexivity|]. split.
  { unfold at_end. cbn [w_shp w_set_shp fdata fpos]. lia. }
  rewrite (mbind_run _ _ w0 (w_set_shp (whole bs) w0) tt).
  2:{ unfold on_shp, zoom. change (w_shp w0) with new_file. rewrite HR. reflexivity. }
  unfold shp_records. rewrite (mbind_run _ _ _ (w_set_shp (mkFile bs 100) w0) tt) by reflexivity. reflexivity.
Qed.
Lemma save_outcome w t gs : eff_type w t -> good t -> Forall2 represents (w_shapes w) gs -> modest gs ->
  exists w', saveShp new_file w = (w', outcome t (w_shapes w)).
Proof.
  intros E G R MD. assert (I := good_i32 t G). unfold outcome.
  destruct (match w_shapes w with s :: _ => lacks_parts t s | [] => false end) eqn:L.
  { destruct (first_lacks t _ L) as [HT [s [HS NP]]]. exact (save_unbound w t s E HT HS NP). }
  pose proof (box_outcome _ _ R) as BO.
  destruct (match w_shapes w with [] => true | _ => existsb no_points (w_shapes w) end) eqn:NP.
  - rewrite (save_starts w t E).
    set (w1 := w_set_shp new_file (w_set_type (Some t) w)).
    destruct (length_small t w1 eq_refl (modest_small t _ gs R MD) (first_has t _ L)) as [n [N NI]].
    pose proof (header_run w1 false t n eq_refl (proj1 E) I N NI) as HR.
    change (w_shapes w1) with (w_shapes w) in HR. rewrite BO in HR. destruct HR as [f HR].
    eexists. apply mbind_err. unfold on_shp, zoom. change (w_shp w1) with new_file. rewrite HR. reflexivity.
  - destruct BO as [_ NE]. destruct (save_header w t gs E I R MD L NP) as [w1 [T1 [S1 [E1 ->]]]].
    destruct (loop_run t (w_shapes w) gs [] w1 G T1) as [w' H]; try assumption.
    + exact (modest_fits t gs G MD NE).
    + cbn [app]. rewrite (F2_length R). exact (modest_count gs MD NE).
    + exists w'. exact H.
Qed.
(** The Z types can never be saved. *)
Lemma save_z_outcome w t gs : eff_type w t -> z_type t -> Forall2 represents (w_shapes w) gs -> modest gs ->
  exists w', saveShp new_file w =
    (w', Err (if match w_shapes w with s :: _ => lacks_parts t s | [] => false end then UnboundLocalError
              else if match w_shapes w with [] => true | _ => existsb no_points (w_shapes w) end then ValueError
              else AttributeError)).
Proof.
  intros E G R MD. assert (I : i32 t) by (unfold z_type in G; cbn in G; unfold i32; lia).
  destruct (match w_shapes w with s :: _ => lacks_parts t s | [] => false end) eqn:L.
  { destruct (first_lacks t _ L) as [HT [s [HS NP]]]. exact (save_unbound w t s E HT HS NP). }
  pose proof (box_outcome _ _ R) as BO.
  destruct (match w_shapes w with [] => true | _ => existsb no_points (w_shapes w) end) eqn:NP.
  - rewrite (save_starts w t E).
    set (w1 := w_set_shp new_file (w_set_type (Some t) w)).
    destruct (length_small t w1 eq_refl (modest_small t _ gs R MD) (first_has t _ L)) as [n [N NI]].
    pose proof (header_run w1 false t n eq_refl (proj1 E) I N NI) as HR.
    change (w_shapes w1) with (w_shapes w) in HR. rewrite BO in HR. destruct HR as [f HR].
    eexists. apply mbind_err. unfold on_shp, zoom. change (w_shp w1) with new_file. rewrite HR. reflexivity.
  - destruct BO as [_ NE]. destruct (save_header w t gs E I R MD L NP) as [w1 [T1 [S1 [E1 ->]]]].
    destruct R as [|s g ss gs Rs R]; [discriminate|]. cbn [length seq for_each].
    pose proof (record_run 0 t w1 s T1) as RR. rewrite S1 in RR. specialize (RR eq_refl E1 ltac:(unfold i32; lia)).
    assert (NF := modest_fits 5 (g :: gs) ltac:(unfold good; cbn; tauto) MD NE). inversion NF as [|? ? [NV [[F1 F2] _]] _]; subst.
    rewrite (no_z_error (w_default w1) t (typed t s) g) in RR.
    + destruct RR as [w' RR]. exists w'. apply mbind_err, RR.
    + exact G.
    + unfold typed. destruct (Z.eqb_spec t 31) as [->|]; [unfold z_type in G; cbn in G; lia|reflexivity].
    + unfold typed. destruct (t =? 31); [exact Rs|apply represents_type, Rs].
    + exact NV.
    + apply F1. cbn. tauto.
    + apply F2. cbn. tauto.
    + apply F2. cbn. tauto.
Qed.
