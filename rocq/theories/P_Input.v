(** C56: reading CSV files. C57: dividing the rows. C61: the accuracy that is printed. *)
From Verif Require Import InputModel InputSpec InputProofs QcBase FixedPointModel DTableModel DTableProofs FloatProofs.
Local Open Scope Z_scope.

(** * C56 *)

(** Reading a stored table with labels succeeds exactly when there is a header row with at least two cells and every
    data row consists of an id, a label and cells that are numbers; every part is returned in the order of the file. *)
Theorem C56_labelled :
  forall (V : Type) (py_float : text -> option V) rows file h ids fs ls, grid rows -> stored rows file ->
    read_with_label py_float file = Ok (h, ids, fs, ls) <->
    exists (i y : text) (recs : list (record V)),
      rows = (i :: y :: h) :: map with_label recs /\ Forall (denotes py_float) recs
      /\ ids = map r_id recs /\ fs = map numbers recs /\ ls = map r_label recs.
Proof. intros V pf rows file h ids fs ls Hg Hs. apply read_with_label_iff; [done|by apply csv_rows_stored]. Qed.
Print Assumptions C56_labelled.

(** The same without labels. *)
Theorem C56_unlabelled :
  forall (V : Type) (py_float : text -> option V) rows file h ids fs, grid rows -> stored rows file ->
    read_without_label py_float file = Ok (h, ids, fs) <->
    exists (i : text) (recs : list (record V)),
      rows = (i :: h) :: map without_label recs /\ Forall (denotes py_float) recs
      /\ ids = map r_id recs /\ fs = map numbers recs.
Proof. intros V pf rows file h ids fs Hg Hs. apply read_without_label_iff; [done|by apply csv_rows_stored]. Qed.
Print Assumptions C56_unlabelled.

(** In every other case IndexError or ValueError; without labels IndexError only for the empty file. *)
Theorem C56_errors :
  forall (V : Type) (py_float : text -> option V) rows file e, grid rows -> stored rows file ->
    (read_with_label py_float file = Err e -> e = IndexError \/ e = ValueError)
    /\ (read_without_label py_float file = Err e -> (rows = [] /\ e = IndexError) \/ e = ValueError).
Proof.
  intros V pf rows file e Hg Hs. split; intros H.
  - eapply read_with_label_err; [exact Hg|by apply csv_rows_stored|exact H].
  - eapply read_without_label_err; [exact Hg|by apply csv_rows_stored|exact H].
Qed.
Print Assumptions C56_errors.

(** Each number sits at the position of its column name when the file is rectangular. *)
Theorem C56_columns :
  forall (V : Type) (py_float : text -> option V) rows file h ids fs ls, grid rows -> stored rows file ->
    read_with_label py_float file = Ok (h, ids, fs, ls) ->
    Forall (fun r => length r = length h + 2)%nat rows ->
    forall i j name, h !! j = Some name -> (i < length ids)%nat ->
    exists row cell v f, rows !! S i = Some row /\ row !! S (S j) = Some cell /\ py_float cell = Some v
      /\ fs !! i = Some f /\ f !! j = Some v /\ (exists r0, rows !! 0%nat = Some r0 /\ r0 !! S (S j) = Some name).
Proof.
  intros V pf rows file h ids fs ls Hg Hs Hread Hrect i j name Hj Hi.
  apply (C56_labelled V pf rows file h ids fs ls Hg Hs) in Hread as (a&b&recs&->&Hd&->&->&->).
  inversion Hrect as [|?? _ Hrect']; subst. rewrite map_length in Hi.
  destruct (lookup_lt_is_Some_2 recs i Hi) as [r Hr].
  rewrite Forall_forall in Hd. specialize (Hd r (elem_of_list_lookup_2 _ _ _ Hr)).
  rewrite Forall_map, Forall_forall in Hrect'. specialize (Hrect' r (elem_of_list_lookup_2 _ _ _ Hr)).
  cbn in Hrect'. rewrite map_length in Hrect'.
  destruct (lookup_lt_is_Some_2 (r_cells r) j) as [[cell v] Hc]; [apply lookup_lt_Some in Hj; lia|].
  exists (with_label r), cell, v, (numbers r). cbn [lookup list_lookup]. split_and!.
  - change (map with_label recs !! i = Some (with_label r)).
    change (@map (record V) (list text)) with (@fmap list list_fmap (record V) (list text)). by rewrite list_lookup_fmap, Hr.
  - change (map fst (r_cells r) !! j = Some cell).
    change (@map (text * V) text) with (@fmap list list_fmap (text * V) text). by rewrite list_lookup_fmap, Hc.
  - unfold denotes in Hd. rewrite Forall_forall in Hd. apply (Hd (cell, v)). by eapply elem_of_list_lookup_2.
  - change (map numbers recs !! i = Some (numbers r)).
    change (@map (record V) (list V)) with (@fmap list list_fmap (record V) (list V)). by rewrite list_lookup_fmap, Hr.
  - unfold numbers. change (@map (text * V) V) with (@fmap list list_fmap (text * V) V). by rewrite list_lookup_fmap, Hc.
  - by exists (a :: b :: h).
Qed.
Print Assumptions C56_columns.

(** With labels a row of fewer than two cells, such as a blank line, makes the reader raise. *)
Theorem C56_short_row :
  forall (V : Type) (py_float : text -> option V) rows file row, grid rows -> stored rows file ->
    row ∈ rows -> (length row < 2)%nat -> exists e, read_with_label py_float file = Err e.
Proof.
  intros V pf rows file row Hg Hs Hin Hlen. destruct (read_with_label pf file) as [[[[h ids] fs] ls]|e] eqn:E; [|by exists e].
  apply (C56_labelled V pf rows file h ids fs ls Hg Hs) in E as (a&b&recs&->&_). exfalso.
  apply elem_of_cons in Hin as [->|Hin]; [cbn in Hlen; lia|].
  apply elem_of_list_In, in_map_iff in Hin as (r&<-&_). cbn in Hlen. lia.
Qed.
Print Assumptions C56_short_row.

(** Every file, whatever its line breaks, is read like a stored table. *)
Theorem C56_every_file :
  forall t, exists rows file, grid rows /\ stored rows file /\
    forall (V : Type) (py_float : text -> option V),
      read_with_label py_float t = read_with_label py_float file
      /\ read_without_label py_float t = read_without_label py_float file.
Proof.
  intros t. destruct (every_file t) as (rows&Hg&E&Hs). exists rows, (universal t). split; [done|]. split; [done|].
  intros V pf. unfold read_with_label, read_without_label.
  by rewrite E, (csv_rows_stored rows (universal t) Hg Hs).
Qed.
Print Assumptions C56_every_file.

(** id,y,a / 1,0,5 without a final line break; the digits are code points. *)
Definition digit (t : text) : option Z := match t with [d] => if (48 <=? d) && (d <=? 57) then Some (d - 48) else None | _ => None end.
Definition ex_rows : list (list text) := [[[105]; [121]; [97]]; [[49]; [48]; [53]]; [[50]; [49]; [54]]].
Definition ex_file : text := file_of [CR; NL] (map line_of (take 2 ex_rows)) (line_of [[50]; [49]; [54]]).
Lemma clean_dec c : forallb (fun x => negb (existsb (Z.eqb x) [COMMA; NL; CR])) c = true -> clean c.
Proof.
  intros H. rewrite forallb_forall in H.
  assert (forall x, x = COMMA \/ x = NL \/ x = CR -> x ∉ c) as Hx.
  { intros x Hx Hin. apply elem_of_list_In in Hin. apply H in Hin. by destruct Hx as [->|[->| ->]]. }
  split; [|split]; apply Hx; auto.
Qed.
Lemma grid_dec rows : forallb (fun r => (match r with [] => false | _ => true end) && forallb (forallb (fun x => negb (existsb (Z.eqb x) [COMMA; NL; CR]))) r) rows = true -> grid rows.
Proof.
  intros H. rewrite forallb_forall in H. apply Forall_forall. intros r Hr. apply elem_of_list_In in Hr. apply H in Hr.
  apply andb_prop in Hr as [H1 H2]. split; [by destruct r|]. rewrite forallb_forall in H2. apply Forall_forall. intros c Hc.
  apply clean_dec, H2. by apply elem_of_list_In.
Qed.
Example C56_ex :
  grid ex_rows /\ stored ex_rows ex_file
  /\ read_with_label digit ex_file = Ok ([[97]], [[49]; [50]], [[5]; [6]], [[48]; [49]])
  /\ Forall (fun r => length r = length [[97]] + 2)%nat ex_rows.
Proof.
  split; [by apply grid_dec|]. split; [|split; [reflexivity|by repeat constructor]].
  apply (stored_open ex_rows [CR; NL] (take 2 ex_rows) [[50]; [49]; [54]]); [right; by left|done|done].
Qed.

(** Without labels a blank line is not rejected: it becomes a row with the empty id and no features. *)
Theorem C56_blank_refuted :
  exists rows file, grid rows /\ stored rows file /\ [[]] ∈ rows
    /\ read_without_label digit file = Ok ([[97]], [[49]; []], [[5]; []]).
Proof.
  exists [[[105]; [97]]; [[49]; [53]]; [[]]], (file_of [NL] [[105; 44; 97]; [49; 44; 53]; []] []).
  split; [by apply grid_dec|]. split; [apply (stored_full [[[105]; [97]]; [[49]; [53]]; [[]]] [NL]); by left|].
  split; [right; right; left|reflexivity].
Qed.
Print Assumptions C56_blank_refuted.

(** Rows with more or fewer cells than the header are accepted, with the values moved to other names. *)
Theorem C56_ragged_refuted :
  exists rows file h ids fs ls, grid rows /\ stored rows file
    /\ read_with_label digit file = Ok (h, ids, fs, ls) /\ exists f g, f ∈ fs /\ g ∈ fs /\ (length f < length h < length g)%nat.
Proof.
  exists [[[105]; [121]; [97]; [98]]; [[49]; [48]; [53]]; [[50]; [48]; [53]; [54]; [55]]],
    (file_of [NL] [[105; 44; 121; 44; 97; 44; 98]; [49; 44; 48; 44; 53]; [50; 44; 48; 44; 53; 44; 54; 44; 55]] []),
    [[97]; [98]], [[49]; [50]], [[5]; [5; 6; 7]], [[48]; [48]].
  split; [by apply grid_dec|].
  split; [apply (stored_full [[[105]; [121]; [97]; [98]]; [[49]; [48]; [53]]; [[50]; [48]; [53]; [54]; [55]]] [NL]); by left|].
  split; [reflexivity|]. exists [5], [5; 6; 7]. split; [left|]. split; [right; left|]. cbn. lia.
Qed.
Print Assumptions C56_ragged_refuted.

(** * C57 *)

(** The two parts make up the input, for every ratio, seed and generator; without shuffling in the same order. *)
Theorem C57_partition :
  forall (G A : Type) (seeded : Z -> G) (below : G -> nat -> nat * G) (l : list A) ratio shuf seed g, in_range below ->
    exists tr te g', data_split seeded below l ratio shuf seed g = Ok (tr, te, g') /\ Permutation (tr ++ te) l
      /\ (shuf = false -> tr ++ te = l).
Proof.
  intros G A seeded below l ratio shuf seed g Hr.
  destruct (data_split_ok seeded below l ratio shuf seed g Hr) as (tr&te&g'&E&Hp&_).
  exists tr, te, g'. split; [done|]. split; [done|]. intros ->. unfold data_split in E. destruct (_ || _).
  - by injection E as <- <- <-.
  - cbn in E. injection E as <- <- <-. apply take_drop.
Qed.
Print Assumptions C57_partition.

(** Size of the first part: n times the ratio cut down to an integer, up to the rounding of one product. *)
Theorem C57_size :
  forall (G A : Type) (seeded : Z -> G) (below : G -> nat -> nat * G) (l : list A) ratio shuf seed g tr te g',
    in_range below -> Z.of_nat (length l) <= 2 ^ 53 -> (zq 0 <= ratio)%Qc -> (ratio <= zq 1)%Qc ->
    data_split seeded below l ratio shuf seed g = Ok (tr, te, g') ->
    let n := zq (Z.of_nat (length l)) in let m := zq (Z.of_nat (length tr)) in
    (m <= n * ratio + p2 (-53) * n)%Qc /\ (n * ratio - zq 1 - p2 (-53) * n < m)%Qc
    /\ (length tr + length te = length l)%nat.
Proof.
  intros G A seeded below l ratio shuf seed g tr te g' Hr Hn H0 H1 E n m.
  destruct (data_split_ok seeded below l ratio shuf seed g Hr) as (tr0&te0&g0&E0&Hp&Hl).
  rewrite E in E0. injection E0 as <- <- <-.
  destruct (offset_bounds (length l) ratio Hn H0 H1) as ([Ht0 Ht1]&Hlo&Hhi).
  assert (m = zq (offset (length l) ratio)) as Em by (unfold m; rewrite Hl; f_equal; lia).
  rewrite <- Em in Hlo, Hhi. fold n in Hlo, Hhi.
  split; [done|]. split; [qlra|]. rewrite <- app_length. by apply Permutation_length.
Qed.
Print Assumptions C57_size.

(** The ends of the scale: nothing for training at ratio 0 or below (and the rows stay in file order), nothing for
    testing at ratio 1 or above. *)
Theorem C57_extremes :
  forall (G A : Type) (seeded : Z -> G) (below : G -> nat -> nat * G) (l : list A) ratio shuf seed g, in_range below ->
    ((ratio <= zq 0)%Qc -> data_split seeded below l ratio shuf seed g = Ok ([], l, g))
    /\ (Z.of_nat (length l) <= 2 ^ 53 -> (zq 1 <= ratio)%Qc ->
        exists tr g', data_split seeded below l ratio shuf seed g = Ok (tr, [], g') /\ Permutation tr l).
Proof.
  intros G A seeded below l ratio shuf seed g Hr.
  assert (zq 0 <= zq (Z.of_nat (length l)))%Qc as Hn0 by (apply zq_le; lia). split.
  - intros H. unfold data_split.
    assert (fround (zq (Z.of_nat (length l)) * ratio) <= zq 0)%Qc as Hf by (apply fround_nonpos; qnra).
    assert (trunc (fround (zq (Z.of_nat (length l)) * ratio)) < 1) as Ht.
    { unfold trunc. destruct (qltb _ (zq 0)) eqn:E.
      - apply qltb_true in E. assert (0 <= qfloor (- fround (zq (Z.of_nat (length l)) * ratio))%Qc); [|lia].
        rewrite <- (qfloor_zq 0). apply floor_mono. rewrite !zq_0 in *. qlra.
      - apply qltb_false in E. assert (fround (zq (Z.of_nat (length l)) * ratio) = zq 0) as -> by (by apply Qcle_antisym).
        rewrite qfloor_zq. lia. }
    apply Z.ltb_lt in Ht. rewrite Ht. by rewrite orb_true_r.
  - intros Hn H1. destruct (data_split_ok seeded below l ratio shuf seed g Hr) as (tr&te&g'&E&Hp&Hl).
    assert (Z.of_nat (length l) <= offset (length l) ratio) as Ho.
    { unfold offset.
      assert (zq (Z.of_nat (length l)) <= fround (zq (Z.of_nat (length l)) * ratio))%Qc as Hf.
      { rewrite <- (fround_zq (Z.of_nat (length l))) at 1 by lia. apply fround_mono. qnra. }
      unfold trunc. destruct (qltb _ (zq 0)) eqn:E0; [apply qltb_true in E0; qlra|].
      rewrite <- (qfloor_zq (Z.of_nat (length l))) at 1. by apply floor_mono. }
    assert (te = []) as ->.
    { apply nil_length_inv. apply Permutation_length in Hp. rewrite app_length in Hp. lia. }
    exists tr, g'. split; [done|]. by rewrite app_nil_r in Hp.
Qed.
Print Assumptions C57_extremes.

(** Two parties with lists of the same length and the same seed divide them in the same way, whatever their
    generators did before: row k of one part goes with row k of the other party's. *)
Theorem C57_aligned :
  forall (G A B : Type) (seeded : Z -> G) (below : G -> nat -> nat * G) (la : list A) (lb : list B) ratio s g g',
    in_range below -> length la = length lb ->
    exists tra tea ga trb teb gb,
      data_split seeded below la ratio true (Some s) g = Ok (tra, tea, ga)
      /\ data_split seeded below lb ratio true (Some s) g' = Ok (trb, teb, gb)
      /\ length tra = length trb /\ length tea = length teb
      /\ Permutation (zip tra trb ++ zip tea teb) (zip la lb).
Proof.
  intros G A B seeded below la lb ratio s g g' Hr Hlen.
  destruct (data_split_seed seeded below (zip la lb) ratio s g g' Hr) as (tr&te&g1&g2&E1&E2&Hp&_).
  exists (map fst tr), (map fst te), g1, (map snd tr), (map snd te), g2.
  assert (map fst (zip la lb) = la) as Ea by (apply fst_zip; lia).
  assert (map snd (zip la lb) = lb) as Eb by (apply snd_zip; lia).
  split_and!.
  - rewrite <- Ea at 1. by rewrite data_split_map, E1.
  - rewrite <- Eb at 1. by rewrite data_split_map, E2.
  - by rewrite !map_length.
  - by rewrite !map_length.
  - assert (forall (x : list (A * B)), zip (map fst x) (map snd x) = x) as Hz.
    { intros x. induction x as [|[a b] x IH]; [done|]. cbn. by rewrite IH. }
    by rewrite !Hz.
Qed.
Print Assumptions C57_aligned.

(** From the files to the tables: the key k of both parties stands for the rows at one position of the two files; if
    the files list the same ids in the same order, for one id. *)
Theorem C57_tables :
  forall (G V W : Type) (seeded : Z -> G) (below : G -> nat -> nat * G) (float_v : text -> option V) (float_w : text -> option W)
    gfile hfile (recs : list (record V)) (recs' : list (record W)) i y h i' h' ratio g g',
    in_range below -> length recs = length recs' -> Forall (denotes float_v) recs -> Forall (denotes float_w) recs' ->
    grid ((i :: y :: h) :: map with_label recs) -> stored ((i :: y :: h) :: map with_label recs) gfile ->
    grid ((i' :: h') :: map without_label recs') -> stored ((i' :: h') :: map without_label recs') hfile ->
    exists train test gtr gte htr hte,
      guest_tables seeded below float_v gfile ratio g = Ok (h, gtr, gte)
      /\ host_tables seeded below float_w hfile ratio g' = Ok (h', htr, hte)
      /\ Permutation (train ++ test) (zip recs recs')
      /\ dt_collect gtr = imap (fun k p => (k, Inst (r_id p.1) (numbers p.1) (Some (r_label p.1)))) train
      /\ dt_collect htr = imap (fun k p => (k, Inst (r_id p.2) (numbers p.2) None)) train
      /\ dt_collect gte = imap (fun k p => (k, Inst (r_id p.1) (numbers p.1) (Some (r_label p.1)))) test
      /\ dt_collect hte = imap (fun k p => (k, Inst (r_id p.2) (numbers p.2) None)) test
      /\ (map r_id recs = map r_id recs' -> Forall (fun p => r_id p.1 = r_id p.2) (train ++ test)).
Proof.
  intros G V W seeded below fv fw gfile hfile recs recs' i y h i' h' ratio g g' Hr Hlen Hd Hd' Hg Hs Hg' Hs'.
  destruct (data_split_seed seeded below (zip recs recs') ratio 2 g g' Hr) as (tr&te&g1&g2&E1&E2&Hp&_).
  assert (map fst (zip recs recs') = recs) as Ea by (apply fst_zip; lia).
  assert (map snd (zip recs recs') = recs') as Eb by (apply snd_zip; lia).
  exists tr, te, (dt_new_unkeyed (map guest_inst (map fst tr))), (dt_new_unkeyed (map guest_inst (map fst te))),
    (dt_new_unkeyed (map host_inst (map snd tr))), (dt_new_unkeyed (map host_inst (map snd te))).
  assert (forall (A B : Type) (f : A -> B) (l : list A), imap (fun k v => (k, v)) (map f l) = imap (fun k p => (k, f p)) l) as Hi.
  { intros A B f l. change (map f l) with (f <$> l). by rewrite imap_fmap. }
  split_and!.
  - rewrite (guest_tables_eq seeded below fv _ gfile i y h recs ratio g Hg Hs eq_refl Hd).
    rewrite <- Ea at 1. by rewrite !data_split_map, E1.
  - rewrite (host_tables_eq seeded below fw _ hfile i' h' recs' ratio g' Hg' Hs' eq_refl Hd').
    rewrite <- Eb at 1. by rewrite !data_split_map, E2.
  - done.
  - unfold dt_collect. by rewrite dt_new_unkeyed_data, map_map, Hi.
  - unfold dt_collect. by rewrite dt_new_unkeyed_data, map_map, Hi.
  - unfold dt_collect. by rewrite dt_new_unkeyed_data, map_map, Hi.
  - unfold dt_collect. by rewrite dt_new_unkeyed_data, map_map, Hi.
  - intros Hids. eapply Permutation_Forall; [symmetry; exact Hp|]. clear -Hids.
    revert recs' Hids. induction recs as [|r recs IH]; intros [|r' recs'] Hids; try constructor; try done.
    + by injection Hids.
    + apply IH. by injection Hids.
Qed.
Print Assumptions C57_tables.

(** A generator that counts. *)
Lemma below_ok : in_range (fun (g : nat) n => (Nat.modulo g n, S g)).
Proof. intros g n Hn. cbn. apply Nat.mod_upper_bound. lia. Qed.
Example C57_ex :
  data_split (fun _ => 1%nat) (fun (g : nat) n => (Nat.modulo g n, S g)) [10; 20; 30; 40; 50] (Q2Qc (7 # 10)) true (Some 2) 9%nat
  = Ok ([50; 40; 10], [30; 20], 5%nat)
  /\ data_split (fun _ => 1%nat) (fun (g : nat) n => (Nat.modulo g n, S g)) [1; 2; 3; 4; 5] (Q2Qc (7 # 10)) true (Some 2) 77%nat
  = Ok ([5; 4; 1], [3; 2], 5%nat).
Proof. split; vm_compute; reflexivity. Qed.

(** Files that list the ids in different orders: both parties succeed and join rows of different ids. *)
Theorem C57_order_refuted :
  exists (G : Type) (seeded : Z -> G) (below : G -> nat -> nat * G) gfile hfile g ratio h gtr gte h' htr hte k a b,
    in_range below
    /\ guest_tables seeded below digit gfile ratio g = Ok (h, gtr, gte)
    /\ host_tables seeded below digit hfile ratio g = Ok (h', htr, hte)
    /\ Permutation (map (fun kv => inst_id kv.2) (dt_collect gtr ++ dt_collect gte))
                   (map (fun kv => inst_id kv.2) (dt_collect htr ++ dt_collect hte))
    /\ dict_get k (dt_collect gtr) = Some a /\ dict_get k (dt_collect htr) = Some b /\ inst_id a <> inst_id b.
Proof.
  exists nat, (fun _ => 1%nat), (fun (g : nat) n => (Nat.modulo g n, S g)),
    (file_of [NL] [[105; 44; 121; 44; 97]; [49; 44; 48; 44; 53]; [50; 44; 49; 44; 54]] []),
    (file_of [NL] [[105; 44; 98]; [50; 44; 55]; [49; 44; 56]] []), 0%nat, (Q2Qc (1 # 2)).
  do 6 eexists. exists 0%nat. do 2 eexists. split; [apply below_ok|]. split; [vm_compute; reflexivity|]. split; [vm_compute; reflexivity|].
  split; [cbn; apply perm_swap|]. split; [vm_compute; reflexivity|]. split; [vm_compute; reflexivity|]. done.
Qed.
Print Assumptions C57_order_refuted.

(** * C61 *)

(** The printed accuracy: the number of rows whose label equals the predicted one, divided by the number of rows, rounded
    once; it is 1 exactly when every row agrees. *)
Theorem C61_accuracy :
  forall (K L : Type) (eqd : EqDecision L) (t : dtable K (L * L)),
    let rows := map snd (dt_data t) in let agree := filter (fun r => r.1 = r.2) rows in
    rows <> [] -> Z.of_nat (length rows) <= 2 ^ 53 ->
    exists a, accuracy t = Ok (Some a)
      /\ a = fround (zq (Z.of_nat (length agree)) / zq (Z.of_nat (length rows)))%Qc
      /\ (qabs (a - zq (Z.of_nat (length agree)) / zq (Z.of_nat (length rows))) <= p2 (-53))%Qc
      /\ (zq 0 <= a)%Qc /\ (a <= zq 1)%Qc
      /\ (a = zq 1 <-> forall l p, (l, p) ∈ rows -> l = p).
Proof.
  intros K L eqd t rows agree Hne Hn.
  assert (length (filter (fun kv : K * (L * L) => kv.2.1 = kv.2.2) (dt_data t)) = length agree) as Ec.
  { apply agree_length. }
  assert (length rows = length (dt_data t)) as El by apply map_length.
  destruct (matches_le (dt_data t)) as [Hle Hall]. unfold dict in Ec. rewrite Ec in Hle, Hall. rewrite <- El in Hle, Hall.
  assert (0 < length rows)%nat as Hpos by (destruct rows; [done|cbn; lia]).
  destruct (fraction_bounds (Z.of_nat (length agree)) (Z.of_nat (length rows))) as (H0&H1&Heq&Herr); [lia|lia|lia|done|].
  eexists. split.
  { rewrite accuracy_eq. unfold dict. rewrite Ec, <- El. rewrite decide_False; [done|]. intros E. unfold rows in Hne. by rewrite E in Hne. }
  split; [done|]. split; [exact Herr|]. split; [done|]. split; [done|].
  rewrite Heq, Nat2Z.inj_iff, Hall, Forall_forall. unfold rows. split.
  - intros H l p Hin. apply elem_of_list_In, in_map_iff in Hin as (kv&E&Hin). apply elem_of_list_In in Hin.
    specialize (H kv Hin). rewrite E in H. exact H.
  - intros H [k [l p]] Hin. cbn. apply H. apply elem_of_list_In, in_map_iff. exists (k, (l, p)). by rewrite <- elem_of_list_In.
Qed.
Print Assumptions C61_accuracy.

(** With an empty test set the script ends in ZeroDivisionError. *)
Theorem C61_empty :
  forall (K L : Type) (eqd : EqDecision L), accuracy (DT [] : dtable K (L * L)) = Err ZeroDivisionError.
Proof. reflexivity. Qed.
Print Assumptions C61_empty.

Example C61_ex :
  accuracy (DT [(0%nat, (1, 1)); (1%nat, (0, 1)); (2%nat, (0, 0))]) = Ok (Some (Q2Qc (6004799503160661 # 9007199254740992))).
Proof. vm_compute. reflexivity. Qed.
