(** Tables: theorems. *)
From Verif Require Import Py StrModel Utf8Model TableModel TableSpec TableProofs TableFile Text.
Open Scope Z_scope.

(** C52 *)
Theorem C52_join : forall (V : Type) (veqb : V -> V -> bool) (empty : V) t1 t2 pivots keys,
  (forall a b, reflect (a = b) (veqb a b)) ->
  Forall row_ok t1 -> Forall row_ok t2 -> t1 <> [] -> t2 <> [] -> names_ok keys ->
  exists t, join_tables veqb empty t1 t2 pivots keys = Ok t /\
    Forall2 (fun r1 r => r_fields r = keys /\ length (r_values r) = length keys /\
      exists o, first_such (agree empty pivots r1) t2 o /\ forall k v, In k keys -> (cell r k v <-> joined empty r1 o k v)) t1 t.
Proof. exact (fun V veqb empty t1 t2 pivots keys veq => api_join veqb veq empty t1 t2 pivots keys). Qed.
Theorem C52_failures : forall (V : Type) (veqb : V -> V -> bool) (empty : V) t1 t2 pivots keys,
  (t1 = [] \/ t2 = [] -> join_tables veqb empty t1 t2 pivots keys = Err IndexError) /\
  (t1 <> [] -> t2 <> [] -> ~ names_ok keys -> join_tables veqb empty t1 t2 pivots keys = Err ValueError).
Proof. exact @api_join_fail. Qed.
(** The default pivots are a set, listed in any order. *)
Theorem C52_pivot_order : forall (V : Type) (veqb : V -> V -> bool) (empty : V) t1 t2 p q keys,
  (forall a b, reflect (a = b) (veqb a b)) ->
  Forall row_ok t1 -> Forall row_ok t2 -> (forall k, In k p <-> In k q) ->
  join_tables veqb empty t1 t2 p keys = join_tables veqb empty t1 t2 q keys.
Proof. exact (fun V veqb empty t1 t2 p q keys veq => api_join_pivots veqb veq empty t1 t2 p q keys). Qed.
Example C52_case :
  let a := text "a" in let b := text "b" in let c := text "c" in
  let t1 := [mkrow [a; b] [1; 2]; mkrow [a; b] [3; 4]] in
  let t2 := [mkrow [a; c] [3; 30]; mkrow [a; c] [3; 31]; mkrow [a; c] [5; 50]] in
  join_tables Z.eqb 0 t1 t2 [a] [c; b; a] = Ok [mkrow [c; b; a] [0; 2; 1]; mkrow [c; b; a] [30; 4; 3]] /\
  (Forall row_ok t1 /\ Forall row_ok t2 /\ names_ok [c; b; a]) /\ ~ names_ok [a; a].
Proof.
  cbv zeta. split; [reflexivity|]. split; [split; [|split]|].
  - repeat (apply Forall_cons; [split; [apply fields_distinct_ok; reflexivity|reflexivity]|]). constructor.
  - repeat (apply Forall_cons; [split; [apply fields_distinct_ok; reflexivity|reflexivity]|]). constructor.
  - destruct (row_type_spec [text "c"; text "b"; text "a"]) as [[H _]|[_ H]]; [exact H|discriminate].
  - intros H. apply row_type_ok in H. discriminate.
Qed.
Example C52_case_used := C52_join Z Z.eqb 0 [mkrow [text "a"] [1]] [mkrow [text "a"] [1]] [text "a"] [text "a"] Z.eqb_spec.

(** C53 *)
Theorem C53_getall : forall (V : Type) (veqb : V -> V -> bool) t key query,
  (forall a b, reflect (a = b) (veqb a b)) ->
  Forall row_ok t -> Forall (fun r => In key (r_fields r)) t ->
  exists l, getall veqb t key query = (l, Ok tt) /\ selected (fun r => cell r key query) t l.
Proof. exact (fun V veqb t key query veq => api_getall veqb veq t key query). Qed.
Theorem C53_getone : forall (V : Type) (veqb : V -> V -> bool) t key query,
  (forall a b, reflect (a = b) (veqb a b)) ->
  Forall row_ok t -> Forall (fun r => In key (r_fields r)) t ->
  exists o, getone veqb t key query = Ok o /\ first_such (fun r => cell r key query) t o.
Proof. exact (fun V veqb t key query veq => api_getone veqb veq t key query). Qed.
Theorem C53_indexby : forall (V : Type) (veqb : V -> V -> bool) (empty : V) fields key t,
  (forall a b, reflect (a = b) (veqb a b)) ->
  names_ok fields -> uniform fields t -> t <> [] -> In key fields ->
  exists kept d, selected (fun k => k <> key) fields kept /\ indexby veqb t key = Ok d /\ NoDup (map fst d) /\
    forall v n, In (v, n) d <->
      exists before r after, t = before ++ r :: after /\ cell r key v /\ Forall (fun x => ~ cell x key v) after /\
        r_fields n = kept /\ restricted kept r n.
Proof. exact (fun V veqb empty fields key t veq => api_indexby veqb veq empty fields key t). Qed.
Theorem C53_addkey : forall (V : Type) fields key (t : list (row V)) func,
  names_ok (fields ++ [key]) -> uniform fields t -> t <> [] -> (forall r, In r t -> exists v, func r = Ok v) ->
  exists l, addkey t key func = (l, Ok tt) /\
    Forall2 (fun r n => exists v, func r = Ok v /\ n = mkrow (fields ++ [key]) (r_values r ++ [v])) t l.
Proof. exact @api_addkey. Qed.
Theorem C53_addkey_raises : forall (V : Type) fields key before (r : row V) after func e,
  names_ok (fields ++ [key]) -> uniform fields (before ++ r :: after) ->
  (forall r, In r before -> exists v, func r = Ok v) -> func r = Err e ->
  exists l, addkey (before ++ r :: after) key func = (l, Err e) /\
    Forall2 (fun r n => exists v, func r = Ok v /\ n = mkrow (fields ++ [key]) (r_values r ++ [v])) before l.
Proof. exact @api_addkey_raises. Qed.
Theorem C53_delkeys : forall (V : Type) (empty : V) fields (t : list (row V)) del,
  names_ok fields -> uniform fields t -> t <> [] ->
  exists kept l, selected (fun k => ~ In k del) fields kept /\ delkeys t del = (l, Ok tt) /\ Forall2 (restricted kept) t l.
Proof. exact @api_delkeys. Qed.
(** A row without the column: what comes before it is yielded. *)
Theorem C53_unknown_column : forall (V : Type) (veqb : V -> V -> bool) before r after key query,
  (forall a b, reflect (a = b) (veqb a b)) ->
  Forall row_ok (before ++ r :: after) -> Forall (fun r => In key (r_fields r)) before -> ~ In key (r_fields r) ->
  (exists l, getall veqb (before ++ r :: after) key query = (l, Err KeyError) /\ selected (fun r => cell r key query) before l) /\
  (Forall (fun r => In key (r_fields r) /\ ~ cell r key query) before -> getone veqb (before ++ r :: after) key query = Err KeyError).
Proof.
  exact (fun V veqb before r after key query veq O C N => conj (api_getall_unknown veqb veq before r after key query O C N)
    (fun C' => api_getone_unknown veqb veq before r after key query O C' N)).
Qed.
Theorem C53_indexby_unknown : forall (V : Type) (veqb : V -> V -> bool) (empty : V) fields key t,
  names_ok fields -> uniform fields t -> t <> [] -> ~ In key fields -> indexby veqb t key = Err KeyError.
Proof. exact @api_indexby_unknown. Qed.
Theorem C53_failures : forall (V : Type) (veqb : V -> V -> bool) key del func (t : list (row V)),
  addkey [] key func = ([], Err IndexError) /\ delkeys (V := V) [] del = ([], Err IndexError) /\
  indexby veqb [] key = Err IndexError /\
  (forall fields, t <> [] -> uniform fields t -> ~ names_ok (fields ++ [key]) -> addkey t key func = ([], Err ValueError)).
Proof. exact @api_restructure_fail. Qed.
Example C53_case :
  let a := text "a" in let b := text "b" in let c := text "c" in
  let t := [mkrow [a; b] [1; 2]; mkrow [a; b] [3; 4]; mkrow [a; b] [1; 6]] in
  getall Z.eqb t a 1 = ([mkrow [a; b] [1; 2]; mkrow [a; b] [1; 6]], Ok tt) /\ getone Z.eqb t a 3 = Ok (Some (mkrow [a; b] [3; 4])) /\
  getone Z.eqb t b 3 = Ok None /\ getone Z.eqb t c 3 = Err KeyError /\
  indexby Z.eqb t a = Ok [(1, mkrow [b] [6]); (3, mkrow [b] [4])] /\
  addkey t c (fun r => py_get (r_values r) 1) = ([mkrow [a; b; c] [1; 2; 2]; mkrow [a; b; c] [3; 4; 4]; mkrow [a; b; c] [1; 6; 6]], Ok tt) /\
  addkey t a (fun r => py_get (r_values r) 1) = ([], Err ValueError) /\
  delkeys t [a; c] = ([mkrow [b] [2]; mkrow [b] [4]; mkrow [b] [6]], Ok tt) /\
  (uniform [a; b] t /\ names_ok ([a; b] ++ [c])).
Proof.
  cbv zeta. do 8 (split; [reflexivity|]). split.
  - repeat (apply Forall_cons; [split; reflexivity|]). constructor.
  - destruct (row_type_spec ([text "a"; text "b"] ++ [text "c"])) as [[H _]|[_ H]]; [exact H|discriminate].
Qed.

(** C54 *)
Theorem C54_round_trip : forall fields t sep comm,
  names_ok fields -> fields <> [] -> t <> [] -> uniform fields t ->
  scalarb sep = true -> ~ In sep breaks -> sep <> comm -> Forall (Forall (cell_char sep comm)) fields -> Forall (writable sep comm fields) t ->
  exists bytes, writefile t None sep = (Some bytes, Ok tt) /\
    forall fuel, (S (length t) <= fuel)%nat -> readfile fuel bytes None sep comm = Some (Ok t).
Proof. exact api_same. Qed.
(** Some of the columns written, in any order. *)
Theorem C54_columns : forall fields t ks sep comm,
  NoDup fields -> uniform fields t -> names_ok ks -> ks <> [] -> incl ks fields ->
  scalarb sep = true -> ~ In sep breaks -> sep <> comm -> Forall (Forall (cell_char sep comm)) ks -> Forall (writable sep comm ks) t ->
  exists bytes t', writefile t (Some ks) sep = (Some bytes, Ok tt) /\ Forall2 (restricted ks) t t' /\
    forall fuel, (S (length t) <= fuel)%nat -> readfile fuel bytes None sep comm = Some (Ok t').
Proof. exact api_round. Qed.
(** Any file with a header: comments and blank lines are skipped. *)
Theorem C54_read : forall lines (fk : list str) (rows : list (list str)) sep comm,
  Forall file_line lines -> contents comm lines (join sep fk :: map (join sep) rows) -> fk <> [] -> Forall (fun k => ~ In sep k) fk ->
  Forall (fun vs => vs <> [] /\ Forall (fun v => ~ In sep v) vs) rows ->
  forall fuel, (length lines <= fuel)%nat ->
  let r := readfile fuel (flat_map utf8_char (text_of lines)) None sep comm in
  (names_ok fk -> Forall (fun vs => (length fk <= length vs)%nat) rows -> r = Some (Ok (map (fun vs => mkrow fk (firstn (length fk) vs)) rows))) /\
  (names_ok fk -> Exists (fun vs => (length vs < length fk)%nat) rows -> r = Some (Err IndexError)) /\
  (~ names_ok fk -> r = Some (Err ValueError)).
Proof. exact api_read. Qed.
(** Some of the columns read: the names come in the order of the argument,
    the values in the order of the file. *)
Theorem C54_read_keys : forall lines (fk : list str) (rows : list (list str)) (keys kept : list str) sep comm,
  Forall file_line lines -> contents comm lines (join sep fk :: map (join sep) rows) -> fk <> [] -> Forall (fun k => ~ In sep k) fk ->
  Forall (fun vs => vs <> [] /\ Forall (fun v => ~ In sep v) vs) rows ->
  names_ok keys -> NoDup fk -> Forall (fun vs => length vs = length fk) rows -> selected (fun k => In k keys) fk kept ->
  forall fuel, (length lines <= fuel)%nat ->
  let r := readfile fuel (flat_map utf8_char (text_of lines)) (Some keys) sep comm in
  (length kept = length keys -> exists t, r = Some (Ok t) /\
     Forall2 (fun vs n => r_fields n = keys /\ Forall2 (fun k v => cell (mkrow fk vs) k v) kept (r_values n)) rows t) /\
  (length kept <> length keys -> rows <> [] -> r = Some (Err TypeError)).
Proof. exact api_read_keys. Qed.
Theorem C54_no_header : forall lines last keys sep comm,
  Forall file_line (lines ++ [last]) -> Forall (blank comm) (lines ++ [last]) ->
  forall fuel, readfile fuel (flat_map utf8_char (text_of lines ++ last)) keys sep comm = None.
Proof. exact api_no_header. Qed.
Theorem C54_write_failures : forall sep, writefile [] None sep = (None, Err IndexError) /\
  forall fields t ks k, NoDup fields -> uniform fields t -> t <> [] -> In k ks -> ~ In k fields ->
    Forall (fun k => Forall (fun c => scalarb c = true) k) ks -> scalarb sep = true ->
    (exists b, writefile t (Some ks) sep = (Some b, Err KeyError)).
Proof. exact api_write_fail. Qed.
(** Names and values out of step. *)
Theorem C54_keys_order_refuted : exists bytes keys t,
  readfile 9 bytes None 44 35 = Some (Ok [mkrow [text "a"; text "b"] [text "1"; text "2"]]) /\
  readfile 9 bytes (Some keys) 44 35 = Some (Ok t) /\ t = [mkrow [text "b"; text "a"] [text "1"; text "2"]].
Proof. exists (text "a,b" ++ [10] ++ text "1,2" ++ [10]), [text "b"; text "a"]. eexists. vm_compute. auto. Qed.
(** With a tab as separator an empty last cell is lost. *)
Theorem C54_empty_last_cell_refuted : exists t b,
  uniform [text "a"; text "b"] t /\ Forall (fun r => Forall (Forall (cell_char 9 35)) (r_values r)) t /\
  Forall (fun r => exists k v, cell r k v /\ solid v) t /\
  writefile t None 9 = (Some b, Ok tt) /\ readfile 9 b None 9 35 = Some (Err IndexError).
Proof.
  exists [mkrow [text "a"; text "b"] [text "1"; []]], (text "a" ++ [9] ++ text "b" ++ [10] ++ text "1" ++ [9; 10]).
  split; [repeat (apply Forall_cons; [split; reflexivity|]); constructor|]. split.
  { apply Forall_cons; [|constructor]. cbn. apply Forall_cons; [|apply Forall_cons; constructor].
    apply Forall_cons; [|constructor]. split; [reflexivity|]. cbn. lia. }
  split; [|split; reflexivity].
  apply Forall_cons; [|constructor]. exists (text "a"), (text "1"). split; [exists O; split; reflexivity|].
  split; [exists 49, []; split; reflexivity|exists [], 49; split; reflexivity].
Qed.
Example C54_case :
  let t := [mkrow [text "a"; text "b"] [text "x y"; []]; mkrow [text "a"; text "b"] [[]; [960]]] in
  writefile t None 44 = (Some (text "a,b" ++ [10] ++ text "x y," ++ [10] ++ text "," ++ [207; 128; 10]), Ok tt) /\
  (uniform [text "a"; text "b"] t /\ names_ok [text "a"; text "b"] /\ Forall (Forall (cell_char 44 35)) [text "a"; text "b"] /\
   Forall (writable 44 35 [text "a"; text "b"]) t) /\
  contents 35 [text " # c"; []; text " a,b #"; text "1,2"] (join 44 [text "a"; text "b"] :: map (join 44) [[text "1"; text "2"]]).
Proof.
  cbv zeta. split; [vm_compute; reflexivity|].
  assert (CC : forall c, c = 32 \/ 97 <= c <= 122 \/ c = 960 -> cell_char 44 35 c).
  { intros c H. split; [unfold scalarb; lia|]. split; [cbn; lia|lia]. }
  split; [split; [|split; [|split]]|].
  - repeat (apply Forall_cons; [split; reflexivity|]). constructor.
  - destruct (row_type_spec [text "a"; text "b"]) as [[H _]|[_ H]]; [exact H|discriminate].
  - cbn. repeat (apply Forall_cons; [apply Forall_cons; [apply CC; lia|constructor]|]). constructor.
  - apply Forall_cons; [|apply Forall_cons; [|constructor]].
    + exists [text "x y"; []]. split; [|split].
      * constructor; [exists 0%nat; split; reflexivity|]. constructor; [exists 1%nat; split; reflexivity|constructor].
      * apply Forall_cons; [|apply Forall_cons; constructor]. cbn. repeat (apply Forall_cons; [apply CC; lia|]). constructor.
      * split; [exists 120, (text " y,"); split; reflexivity|exists (text "x y"), 44; split; reflexivity].
    + exists [[]; [960]]. split; [|split].
      * constructor; [exists 0%nat; split; reflexivity|]. constructor; [exists 1%nat; split; reflexivity|constructor].
      * apply Forall_cons; [constructor|]. apply Forall_cons; [|constructor]. repeat (apply Forall_cons; [apply CC; lia|]). constructor.
      * split; [exists 44, [960]; split; reflexivity|exists [44], 960; split; reflexivity].
  - apply con_skip; [exists (text " "), (text " c"); split; [repeat constructor|right; reflexivity]|].
    apply con_skip; [exists [], []; split; [constructor|left; reflexivity]|].
    apply con_keep.
    + split; [split; [exists 97, (text ",b"); split; reflexivity|exists (text "a,"), 98; split; reflexivity]|]. split; [cbn; lia|].
      exists [32], [32], []. split; [repeat constructor|]. split; [repeat constructor|]. split; [cbn; lia|]. split; [cbn; lia|]. right. reflexivity.
    + apply con_keep; [|constructor]. apply own_content; [|cbn; lia].
      split; [exists 49, (text ",2"); split; reflexivity|exists (text "1,"), 50; split; reflexivity].
Qed.
Example C54_no_header_case : readfile 100 [] None 44 35 = None /\ readfile 100 (text " " ++ [10] ++ text "# x") None 44 35 = None /\
  Forall file_line ([] ++ [text "# x"]) /\ Forall (blank 35) ([] ++ [text "# x"]).
Proof.
  split; [reflexivity|]. split; [reflexivity|]. split.
  - apply Forall_cons; [|constructor]. repeat (apply Forall_cons; [split; [reflexivity|cbn; lia]|]). constructor.
  - apply Forall_cons; [|constructor]. exists [], (text " x"). split; [constructor|]. right. reflexivity.
Qed.

(** C82 *)
Theorem C82_pprint : forall fields t ks, NoDup fields -> uniform fields t -> incl ks fields -> ks <> [] ->
  exists widths rows head rule lines, Forall2 (fun r vs => Forall2 (cell r) ks vs) t rows /\
    pprint t (Some ks) = Ok (head :: rule :: lines) /\
    (forall j w k, nth_error widths j = Some w -> nth_error ks j = Some k ->
       exists col, Forall2 (fun vs c => nth_error vs j = Some c) rows col /\ fits w (k :: col)) /\
    line_shows widths ks head /\ Forall2 (line_shows widths) rows lines /\
    Forall (fun l => length l = (fold_right Nat.add 0 widths + 3 * (length ks - 1))%nat) (head :: rule :: lines) /\
    (forall p, nth_error rule p = Some 43 <-> exists j, (0 < j < length ks)%nat /\ (p = offset widths j - 2)%nat) /\
    Forall (fun c => c = 43 \/ c = 45) rule.
Proof. exact api_pprint. Qed.
Theorem C82_default : forall fields r t, r_fields r = fields -> pprint (r :: t) None = pprint (r :: t) (Some fields) /\ pprint [] None = Err IndexError.
Proof. exact pprint_default. Qed.
Example C82_case : let t := [mkrow [text "a"; text "long"] [text "xyz"; text "1"]] in
  pprint t None = Ok [text "a   | long"; text "----+-----"; text "xyz | 1   "] /\ uniform [text "a"; text "long"] t.
Proof. split; [reflexivity|]. repeat (apply Forall_cons; [split; reflexivity|]). constructor. Qed.

Print Assumptions C52_join.
Print Assumptions C52_failures.
Print Assumptions C52_pivot_order.
Print Assumptions C53_getall.
Print Assumptions C53_getone.
Print Assumptions C53_indexby.
Print Assumptions C53_addkey.
Print Assumptions C53_addkey_raises.
Print Assumptions C53_delkeys.
Print Assumptions C53_unknown_column.
Print Assumptions C53_indexby_unknown.
Print Assumptions C53_failures.
Print Assumptions C54_round_trip.
Print Assumptions C54_columns.
Print Assumptions C54_read.
Print Assumptions C54_read_keys.
Print Assumptions C54_no_header.
Print Assumptions C54_write_failures.
Print Assumptions C54_keys_order_refuted.
Print Assumptions C54_empty_last_cell_refuted.
Print Assumptions C82_pprint.
Print Assumptions C82_default.
