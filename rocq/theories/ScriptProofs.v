(** The tables of the programs: which rows of the files they hold. *)
From Verif Require Export ScriptSpec PipeMain InputProofs.
Local Open Scope nat_scope.

(** *** Tables keyed by position *)
Definition rtab {A B} (f : nat -> A -> B) (l : list A) : dtable nat B := DT (imap (fun i x => (i, f i x)) l).
Lemma rtab_elem {A B} (f : nat -> A -> B) l k v : (k, v) ∈ dt_data (rtab f l) <-> exists x, l !! k = Some x /\ v = f k x.
Proof.
  unfold rtab. cbn [dt_data]. rewrite elem_of_lookup_imap. split.
  - intros (i & x & E & Hx). injection E as -> ->. eauto.
  - intros (x & Hx & ->). eauto.
Qed.
Lemma rtab_keys {A B} (f : nat -> A -> B) l : dt_keys (rtab f l) = seq 0 (length l).
Proof.
  unfold rtab, dt_keys. cbn [dt_data]. apply list_eq. intros i. rewrite list_lookup_fmap, list_lookup_imap. destruct (l !! i) as [x|] eqn:E.
  - cbn. rewrite lookup_seq_lt by (eapply lookup_lt_Some; eauto). reflexivity.
  - cbn. symmetry. apply lookup_seq_ge. now apply lookup_ge_None.
Qed.
Lemma rtab_wf {A B} (f : nat -> A -> B) l : dt_wf (rtab f l).
Proof. change (NoDup (dt_keys (rtab f l))). rewrite rtab_keys. apply NoDup_ListNoDup, seq_NoDup. Qed.
Lemma rtab_key {A B} (f : nat -> A -> B) l k : k ∈ dt_keys (rtab f l) <-> k < length l.
Proof. rewrite rtab_keys, elem_of_seq. lia. Qed.
Lemma rtab_get {A B} (f : nat -> A -> B) l k : dict_get k (dt_data (rtab f l)) = f k <$> l !! k.
Proof.
  change (tget (rtab f l) k = f k <$> l !! k). destruct (l !! k) as [x|] eqn:E.
  - apply tget_elem; [apply rtab_wf|]. apply rtab_elem. exists x. auto.
  - apply tget_None. rewrite rtab_key. apply lookup_ge_None in E. lia.
Qed.
Lemma unkeyed_rtab {A} (l : list A) : dt_new_unkeyed l = rtab (fun _ x => x) l.
Proof.
  assert (X : dt_data (dt_new_unkeyed l) = dt_data (rtab (fun _ x => x) l)) by apply dt_new_unkeyed_data. destruct (dt_new_unkeyed l). cbn in X. now rewrite X.
Qed.
Lemma rtab_values {A B} (f : nat -> A -> B) l : dt_values (rtab f l) = imap f l.
Proof.
  unfold rtab, dt_values. cbn [dt_data]. apply list_eq. intros i. rewrite list_lookup_fmap, !list_lookup_imap. now destruct (l !! i).
Qed.

(** *** Row objects *)
Definition locs {A} (first : nat) (l : list A) : dtable nat loc := rtab (fun i _ => first + i) l.
Definition mem (a b : list (list Qc)) : heap := map FDense (a ++ b).
Lemma inst_locs_eq first (l : list (instance Qc)) : inst_locs first (dt_new_unkeyed l) = locs first l.
Proof.
  rewrite unkeyed_rtab. unfold inst_locs, locs, rtab. cbn [dt_data]. f_equal. apply list_eq. intros i. rewrite !list_lookup_imap. destruct (l !! i); reflexivity.
Qed.
Lemma inst_heap_eq (a b : list (instance Qc)) : inst_heap (dt_new_unkeyed a) (dt_new_unkeyed b) = mem (map inst_features a) (map inst_features b).
Proof.
  unfold inst_heap, mem. rewrite !unkeyed_rtab, !rtab_values. assert (X : forall l : list (instance Qc), imap (fun _ x => x) l = l).
  { intros l. apply list_eq. intros i. rewrite list_lookup_imap. now destruct (l !! i). }
  rewrite !X, <- map_app, map_map. reflexivity.
Qed.
Lemma locs_values {A} first (l : list A) x : x ∈ dt_values (locs first l) <-> first <= x < first + length l.
Proof.
  unfold locs. rewrite rtab_values, elem_of_lookup_imap. split.
  - intros (i & y & -> & Hy). apply lookup_lt_Some in Hy. lia.
  - intros Hx. destruct (lookup_lt_is_Some_2 l (x - first)) as [y Hy]; [lia|]. exists (x - first), y. split; [lia|exact Hy].
Qed.
Lemma locs_nodup {A} first (l : list A) : NoDup (dt_values (locs first l)).
Proof.
  unfold locs. rewrite rtab_values. apply NoDup_alt. intros i j x Hi Hj. rewrite list_lookup_imap in Hi, Hj. destruct (l !! i); [|discriminate]. destruct (l !! j); [|discriminate].
  cbn in Hi, Hj. injection Hi as Hi. injection Hj as Hj. lia.
Qed.

Section Rows.
  Context (h : list text) (a b : list (list Qc)).
  Context (WA : Forall (fun r => length r = length h) a) (WB : Forall (fun r => length r = length h) b).
  Definition train_source : source nat text := Source h (mem a b) (locs 0 a).
  Definition test_source (m : heap) : source nat text := Source h m (locs (length a) b).
  Lemma mem_train k r : a !! k = Some r -> mem a b !! k = Some (FDense r).
  Proof. intros E. unfold mem. rewrite map_lookup, lookup_app_l, E; [reflexivity|]. eapply lookup_lt_Some; eauto. Qed.
  Lemma mem_test k r : b !! k = Some r -> mem a b !! (length a + k) = Some (FDense r).
  Proof. intros E. unfold mem. rewrite map_lookup, lookup_app_r by lia. replace (length a + k - length a) with k by lia. now rewrite E. Qed.

  Lemma train_rows : a <> [] -> rows_ok train_source.
  Proof.
    intros NE. split; [|split; [|split]].
    - cbn. intros X. destruct a; [congruence|discriminate].
    - apply rtab_wf.
    - apply locs_nodup.
    - intros l Hl. apply locs_values in Hl. cbn in Hl. destruct (lookup_lt_is_Some_2 a l) as [r Hr]; [lia|]. exists (FDense r). split; [now apply mem_train|]. cbn. rewrite Forall_forall in WA. apply WA. eapply elem_of_list_lookup_2; eauto.
  Qed.
  Lemma train_value k f : value train_source k f = match a !! k with Some r => raw (FDense r) f | None => zq 0 end.
  Proof. unfold value, train_source. cbn [so_rows so_heap]. unfold locs. rewrite rtab_get. destruct (a !! k) as [r|] eqn:E; [|reflexivity]. cbn [fmap option_fmap option_map]. cbn. now rewrite (mem_train k r E). Qed.

  Context (m : heap) (LEFT : forall l, l ∉ dt_values (locs 0 a) -> m !! l = mem a b !! l).
  Lemma left_test k r : b !! k = Some r -> m !! (length a + k) = Some (FDense r).
  Proof. intros E. rewrite LEFT; [now apply mem_test|]. rewrite locs_values. lia. Qed.
  Lemma test_rows : b <> [] -> rows_ok (test_source m).
  Proof.
    intros NE. split; [|split; [|split]].
    - cbn. intros X. destruct b; [congruence|discriminate].
    - apply rtab_wf.
    - apply locs_nodup.
    - intros l Hl. cbn [so_rows test_source] in Hl. apply locs_values in Hl. destruct (lookup_lt_is_Some_2 b (l - length a)) as [r Hr]; [lia|]. exists (FDense r). cbn [so_heap test_source]. split.
      + replace l with (length a + (l - length a)) by lia. now apply left_test.
      + cbn. rewrite Forall_forall in WB. apply WB. eapply elem_of_list_lookup_2; eauto.
  Qed.
  Lemma test_value k f : value (test_source m) k f = match b !! k with Some r => raw (FDense r) f | None => zq 0 end.
  Proof. unfold value, test_source. cbn [so_rows so_heap]. unfold locs. rewrite rtab_get. destruct (b !! k) as [r|] eqn:E; [|reflexivity]. cbn [fmap option_fmap option_map]. now rewrite (left_test k r E). Qed.
End Rows.

(** *** Positions in the files *)
Definition rec_at (recs : list (record Qc)) (pos : nat) : record Qc := match recs !! pos with Some r => r | None => Rec [] [] [] end.
Lemma rec_at_all recs : map (rec_at recs) (seq 0 (length recs)) = recs.
Proof.
  apply list_eq. intros i. rewrite map_lookup. destruct (recs !! i) as [r|] eqn:E.
  - rewrite lookup_seq_lt by (eapply lookup_lt_Some; eauto). cbn. unfold rec_at. now rewrite E.
  - rewrite lookup_seq_ge; [reflexivity|]. now apply lookup_ge_None.
Qed.
Lemma entry_raw recs pos f : raw (FDense (numbers (rec_at recs pos))) f = entry recs pos f.
Proof. unfold entry, rec_at. destruct (recs !! pos) as [r|]; [|reflexivity]. reflexivity. Qed.
Definition part (recs : list (record Qc)) (order : list nat) : list (list Qc) := map (fun p => numbers (rec_at recs p)) order.
Lemma part_value recs order k f : match part recs order !! k with Some r => raw (FDense r) f | None => zq 0 end = match order !! k with Some pos => entry recs pos f | None => zq 0 end.
Proof. unfold part. rewrite map_lookup. destruct (order !! k) as [pos|]; [|reflexivity]. apply entry_raw. Qed.

Definition place_labels (recs : list (record Qc)) (order : list nat) : dtable nat label := rtab (fun _ p => text_label (r_label (rec_at recs p))) order.
Lemma inst_labels_eq recs order : inst_labels (dt_new_unkeyed (map guest_inst (map (rec_at recs) order))) = Ok (place_labels recs order).
Proof.
  unfold inst_labels. rewrite unkeyed_rtab, (dt_mapValues_ok _ (fun i => text_label (match inst_label i with Some l => l | None => [] end))).
  - f_equal. unfold place_labels, rtab. cbn [dt_data]. f_equal. change (map ?f ?l) with (f <$> l) at 1. apply list_eq. intros i. rewrite list_lookup_fmap, !list_lookup_imap. change (map ?f (map ?g ?l)) with (f <$> (g <$> l)).
    rewrite !list_lookup_fmap. now destruct (order !! i).
  - apply rtab_wf.
  - intros k v Hv. apply rtab_elem in Hv as (x & Hx & ->). change (map ?f (map ?g ?l)) with (f <$> (g <$> l)) in Hx. rewrite !list_lookup_fmap in Hx. destruct (order !! k); [|discriminate]. cbn in Hx. injection Hx as <-. reflexivity.
Qed.
Lemma part_wide (h : list text) recs order : Forall (fun r => length (r_cells r) = length h) recs -> Forall (fun p => p < length recs) order -> Forall (fun r => length r = length h) (part recs order).
Proof.
  intros W O. unfold part. rewrite Forall_map. eapply Forall_impl; [exact O|]. intros p Hp. cbn in Hp. unfold rec_at. destruct (lookup_lt_is_Some_2 recs p Hp) as [r Hr]. rewrite Hr. unfold numbers. rewrite map_length.
  rewrite Forall_forall in W. apply W. eapply elem_of_list_lookup_2; eauto.
Qed.
Lemma labels_hold recs order : Forall (fun p => p < length recs) order -> holds_labels (place_labels recs order) recs order.
Proof.
  intros O k l. unfold place_labels. rewrite rtab_elem. split.
  - intros (p & Hp & ->). rewrite Forall_forall in O. destruct (lookup_lt_is_Some_2 recs p) as [r Hr]; [apply O; eapply elem_of_list_lookup_2; eauto|]. exists p, r. unfold rec_at. rewrite Hr. auto.
  - intros (p & r & Hp & Hr & ->). exists p. unfold rec_at. rewrite Hr. auto.
Qed.

Section Files.
  Context {G : Type} (seeded : Z -> G) (below : G -> nat -> nat * G) (py_float : text -> option Qc) (IR : in_range below).
  Context (nh n m : nat) (ratio : Qc) (bp : bin_params) (gfile : text) (gh : list text) (grecs : list (record Qc)) (hfile : nat -> text) (hh : nat -> list text) (hrecs : nat -> list (record Qc)).
  Context (FO : files_ok py_float bp nh n m ratio gfile gh grecs hfile hh hrecs).

  Lemma offset_eq : offset n ratio = Z.of_nat m.
  Proof.
    destruct (fo_ratio _ _ _ _ _ _ _ _ _ _ _ _ FO) as [A B]. unfold offset. set (y := fround (zq (Z.of_nat n) * ratio)) in *. unfold trunc.
    assert (Y0 : (zq 0 <= y)%Qc). { eapply Qcle_trans; [|exact A]. apply zq_le. lia. }
    destruct (qltb y (zq 0)) eqn:E; [apply qltb_true in E; exfalso; qlra|].
    apply qfloor_spec. rewrite zq_add in B. split; [exact A|]. rewrite zq_add. exact B.
  Qed.
  (** The positions of the training rows and of the test rows, the same for all parties. *)
  Lemma order_at (gen : G) (hgen : nat -> G) tr te g1 : data_split seeded below (seq 0 n) ratio true (Some 2%Z) gen = Ok (tr, te, g1) ->
    guest_tables seeded below py_float gfile ratio gen = Ok (gh, dt_new_unkeyed (map guest_inst (map (rec_at grecs) tr)), dt_new_unkeyed (map guest_inst (map (rec_at grecs) te))) /\
    forall i, i < nh -> host_tables seeded below py_float (hfile i) ratio (hgen i) = Ok (hh i, dt_new_unkeyed (map host_inst (map (rec_at (hrecs i)) tr)), dt_new_unkeyed (map host_inst (map (rec_at (hrecs i)) te))).
  Proof.
    intros E. split.
    - destruct (fo_gfile _ _ _ _ _ _ _ _ _ _ _ _ FO) as (i & y & GR & ST). destruct (fo_guest _ _ _ _ _ _ _ _ _ _ _ _ FO) as [RW _ NU _ _].
      rewrite (guest_tables_eq seeded below py_float _ gfile i y gh grecs ratio gen GR ST eq_refl NU). rewrite <- (rec_at_all grecs) at 1. rewrite RW, !data_split_map, E. reflexivity.
    - intros j Hj. destruct (fo_hfile _ _ _ _ _ _ _ _ _ _ _ _ FO j Hj) as (c & GR & ST). destruct (fo_host _ _ _ _ _ _ _ _ _ _ _ _ FO j Hj) as [RW _ NU _ _].
      rewrite (host_tables_eq seeded below py_float _ (hfile j) c (hh j) (hrecs j) ratio (hgen j) GR ST eq_refl NU). rewrite <- (rec_at_all (hrecs j)) at 1. rewrite RW, !data_split_map.
      destruct (data_split_seed seeded below (seq 0 n) ratio 2 gen (hgen j) IR) as (tr' & te' & a & b & E1 & E2 & _). rewrite E in E1. injection E1 as <- <- <-. rewrite E2. reflexivity.
  Qed.
  Lemma order_split (gen : G) : exists tr te g1, data_split seeded below (seq 0 n) ratio true (Some 2%Z) gen = Ok (tr, te, g1) /\ Permutation (tr ++ te) (seq 0 n) /\ length tr = m.
  Proof.
    destruct (data_split_ok seeded below (seq 0 n) ratio true (Some 2%Z) gen IR) as (tr & te & g1 & E & HP & HL). exists tr, te, g1. split; [exact E|]. split; [exact HP|].
    destruct (fo_parts _ _ _ _ _ _ _ _ _ _ _ _ FO) as (P1 & P2 & P3). rewrite HL, seq_length, offset_eq. lia.
  Qed.
  Lemma order_ok (gen : G) (hgen : nat -> G) : exists tr te, Permutation (tr ++ te) (seq 0 n) /\ length tr = m /\
    guest_tables seeded below py_float gfile ratio gen = Ok (gh, dt_new_unkeyed (map guest_inst (map (rec_at grecs) tr)), dt_new_unkeyed (map guest_inst (map (rec_at grecs) te))) /\
    forall i, i < nh -> host_tables seeded below py_float (hfile i) ratio (hgen i) = Ok (hh i, dt_new_unkeyed (map host_inst (map (rec_at (hrecs i)) tr)), dt_new_unkeyed (map host_inst (map (rec_at (hrecs i)) te))).
  Proof. destruct (order_split gen) as (tr & te & g1 & E & HP & HL). exists tr, te. split; [exact HP|]. split; [exact HL|]. exact (order_at gen hgen tr te g1 E). Qed.
End Files.
