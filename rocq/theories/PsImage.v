(** Running lines of a drawing: images. *)
From Verif Require Import Num BBoxModel StrModel Text VectorModel PsSpec PsProofs VectorSpec PsText.
Open Scope Z_scope.

Definition nib (v : Z) : list Z := [v / 16; v mod 16].
Lemma fmt02x_byte v : is_byte v -> fmt02x v = [hexdigit (v / 16); hexdigit (v mod 16)].
Proof.
  intros B. assert (L : forallb (fun v => zlist_eqb (fmt02x v) [hexdigit (v / 16); hexdigit (v mod 16)]) (map Z.of_nat (seq 0 256)) = true) by (vm_compute; reflexivity).
  rewrite forallb_forall in L. apply zlist_eqb_eq. apply L. apply in_map_iff. exists (Z.to_nat v). unfold is_byte in B. split; [lia|]. apply in_seq. lia.
Qed.
Lemma hexdigit_ok d : 0 <= d < 16 -> ps_white (hexdigit d) = false /\ (hexdigit d =? 62) = false /\ hex_val (hexdigit d) = Some d.
Proof.
  intros B. assert (L : Forall (fun d => ps_white (hexdigit d) = false /\ (hexdigit d =? 62) = false /\ hex_val (hexdigit d) = Some d) (map Z.of_nat (seq 0 16))) by (repeat constructor).
  rewrite Forall_forall in L. apply L. apply in_map_iff. exists (Z.to_nat d). split; [lia|]. apply in_seq. lia.
Qed.
Lemma hex_bytes_nib l : Forall is_byte l -> hex_bytes (flat_map nib l) = l.
Proof.
  induction 1 as [|v l B F IH]; [reflexivity|]. cbn [flat_map nib app hex_bytes]. rewrite IH. f_equal. pose proof (Z.div_mod v 16). lia.
Qed.
Lemma slice_nat {A} (l : list A) (a n : nat) : py_slice l (Z.of_nat a) (Z.of_nat a + Z.of_nat n) = firstn n (skipn a l).
Proof.
  unfold py_slice, slice_clamp. destruct (Z.ltb_spec (Z.of_nat a) 0); [lia|]. destruct (Z.ltb_spec (Z.of_nat a + Z.of_nat n) 0); [lia|].
  destruct (Nat.le_gt_cases a (length l)) as [L|L].
  - rewrite (Z.min_l (Z.of_nat a)) by lia. destruct (Z.ltb_spec (Z.of_nat a) (Z.min (Z.of_nat a + Z.of_nat n) (Z.of_nat (length l)))) as [Q|Q].
    + rewrite Nat2Z.id. destruct (Z.min_spec (Z.of_nat a + Z.of_nat n) (Z.of_nat (length l))) as [[M ->]|[M ->]].
      * f_equal. lia.
      * rewrite !firstn_all2; [reflexivity| |]; rewrite skipn_length; lia.
    + assert (n = O \/ length l = a) as [->|Q2] by lia; [reflexivity|]. rewrite skipn_all2 by lia. destruct n; reflexivity.
  - rewrite !Z.min_r by lia. rewrite Z.ltb_irrefl, skipn_all2 by lia. destruct n; reflexivity.
Qed.
Lemma Forall_firstn_l {A} (P : A -> Prop) n l : Forall P l -> Forall P (firstn n l).
Proof. intros F. revert n. induction F; intros [|n]; cbn; auto. Qed.
Lemma Forall_skipn_l {A} (P : A -> Prop) n l : Forall P l -> Forall P (skipn n l).
Proof. intros F. revert n. induction F as [|x l Px Fl IH]; intros [|n]; cbn; auto. Qed.
Lemma firstn_add {A} n m (l : list A) : firstn (n + m) l = firstn n l ++ firstn m (skipn n l).
Proof. revert l. induction n as [|n IH]; intros l; [reflexivity|]. destruct l as [|x l]; [cbn; destruct m; reflexivity|]. cbn. rewrite IH. reflexivity. Qed.
Lemma skipn_add {A} n m (l : list A) : skipn (n + m) l = skipn m (skipn n l).
Proof. revert l. induction n as [|n IH]; intros l; [reflexivity|]. destruct l as [|x l]; [cbn; destruct m; reflexivity|]. apply IH. Qed.

Section PsI.
  Context {T : Type} `{PyNum T}.
  Variable metric : list Z -> T -> list Z -> T * T.
  Variable advance : list Z -> T -> list Z -> T * T.
  Notation exec := (exec metric advance).
  Notation runs := (runs metric advance).
  Notation line := (list (ch T)) (only parsing).

  Lemma scan_hex1 acc d r : 0 <= d < 16 -> scan (@MHex T acc) (C (hexdigit d) :: r) = scan (@MHex T (acc ++ [d])) r.
  Proof. intros B. destruct (hexdigit_ok d B) as (W & G & V). cbn [scan scan1]. rewrite W, G, V. destruct (scan (MHex (acc ++ [d])) r). reflexivity. Qed.
  Lemma scan_row l : Forall is_byte l -> forall acc r, scan (@MHex T acc) (map C (flat_map fmt02x l) ++ C 10 :: r) = scan (@MHex T (acc ++ flat_map nib l)) r.
  Proof.
    induction 1 as [|v l B F IH]; intros acc r.
    - cbn [flat_map map app scan scan1]. change (ps_white 10) with true. cbv iota. rewrite app_nil_r. destruct (scan (MHex acc) r). reflexivity.
    - cbn [flat_map]. rewrite (fmt02x_byte v B). cbn [app map]. unfold is_byte in B. rewrite !scan_hex1 by (try apply Z.mod_pos_bound; try split; try apply Z.div_pos; try apply Z.div_lt_upper_bound; lia).
      rewrite IH. rewrite <- !app_assoc. reflexivity.
  Qed.
  Lemma scan_rows data cw : Forall is_byte data -> forall n a acc r, scan (@MHex T acc) (body (image_rows n (Z.of_nat cw) data (Z.of_nat a)) ++ r)
    = scan (@MHex T (acc ++ flat_map nib (firstn (n * cw) (skipn a data)))) r.
  Proof.
    intros B. induction n as [|n IH]; intros a acc r.
    - cbn. rewrite app_nil_r. reflexivity.
    - cbn [image_rows body flat_map]. unfold body in IH. rewrite <- !app_assoc. rewrite slice_nat. cbn [app].
      rewrite scan_row by (apply Forall_firstn_l, Forall_skipn_l, B).
      replace (Z.of_nat a + Z.of_nat cw) with (Z.of_nat (a + cw)) by lia. rewrite IH. f_equal. f_equal. rewrite <- app_assoc. f_equal. rewrite <- flat_map_app. f_equal.
      replace (S n * cw)%nat with (cw + n * cw)%nat by lia. rewrite firstn_add, skipn_add. reflexivity.
  Qed.

  Section Lines.
    Hypothesis X : exact_eq T.
    Variables (D : list (list Z * list (token T))) (deps : list (list Z)).
    Hypothesis E : env D deps.
    Variables (stk : list (obj T)) (g : gstate T) (sv : list (gstate T)) (ev : list (event T)).
    Notation st := (mkps stk D g sv ev None).
    Lemma run_data data cw n : Forall is_byte data ->
      runs ([tx "{<"] ++ image_rows n (Z.of_nat cw) data 0 ++ [tx ">}"]) st (mkps (OProc [KHex (firstn (n * cw) data)] :: stk) D g sv ev None).
    Proof.
      intros B. exists [KOpenP; KHex (firstn (n * cw) data); KCloseP]. split; [|reflexivity].
      rewrite !body_app. change (body [tx "{<"]) with (tx "{<" ++ [@C T 10]). rewrite <- app_assoc, scan_app.
      change (scan (@MTop T) (tx "{<")) with (@MHex T [], [@KOpenP T]). cbv iota.
      rewrite scan_app. change (scan (@MHex T []) [C 10]) with (@MHex T [], @nil (token T)). cbv iota.
      rewrite (scan_rows data cw B n O []). cbn [app skipn]. rewrite <- (hex_bytes_nib (firstn (n * cw) data)) at 2 by (apply Forall_firstn_l, B). reflexivity.
    Qed.
    Lemma run_dims w h h' : runs [[N w] ++ sp ++ [N h] ++ tx " 8 [" ++ [N w] ++ tx " 0 0 " ++ [N h'] ++ tx " 0 " ++ [N h] ++ tx "]"] st
      (mkps (OArr [w; nofZ 0; nofZ 0; h'; nofZ 0; h] :: ONum (nofZ 8) :: ONum h :: ONum w :: stk) D g sv ev None).
    Proof. eapply runs_tokens; reflexivity. Qed.
    Lemma run_image m bits h w data : runs [tx "image"] (mkps (OProc [KHex data] :: OArr m :: ONum bits :: ONum h :: ONum w :: stk) D g sv ev None)
      (mkps stk D g sv (ev ++ [ev_of (EImage false w h bits m data) g]) None).
    Proof. eapply runs_tokens; [reflexivity|]. words E. reflexivity. Qed.
    Lemma run_colorimage m bits h w data : runs [tx "false 3 colorimage"] (mkps (OProc [KHex data] :: OArr m :: ONum bits :: ONum h :: ONum w :: stk) D g sv ev None)
      (mkps stk D g sv (ev ++ [ev_of (EImage true w h bits m data) g]) None).
    Proof. eapply runs_tokens; [reflexivity|]. words E. reflexivity. Qed.
  End Lines.
End PsI.
