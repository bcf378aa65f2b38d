(** C28-C30: bins, sparse rows, and what fit does to the caller's rows. *)
From Verif Require Import PyBase QcBase FixedPointModel FixedPointSpec FixedPointProofs FloatProofs DTableModel DTableSpec DTableProofs
  TableRel QuantileModel QuantileSpec BinningModel BinningSpec BinningProofs.
From Coq Require Import Lia.
Local Open Scope nat_scope.

Local Ltac qle := apply qleb_true; vm_compute; reflexivity.
Local Ltac qlt := apply qltb_true; vm_compute; reflexivity.
Definition ints (l : list Z) : list Qc := map zq l.
Definition e3 : Qc := fround (Q2Qc (1 # 1000)).

(** ** C28 *)
(** The bin is the one index with everything before it below the value and the entry at it, if any, not below. *)
Theorem C28_bin sp v : is_bin sp v (get_bin_num v sp) /\ forall b, is_bin sp v b -> b = get_bin_num v sp.
Proof. split; [apply bin_is_bin|]. intros b H. eapply is_bin_unique; [exact H|apply bin_is_bin]. Qed.
Print Assumptions C28_bin.

Theorem C28_monotone sp v v' : (v <= v')%Qc -> get_bin_num v sp <= get_bin_num v' sp.
Proof. apply bin_mono. Qed.
Print Assumptions C28_monotone.

(** With increasing split points, comparing bins is comparing the value with the split point. *)
Theorem C28_threshold sp v t x : inc sp -> sp !! t = Some x -> ((v <= x)%Qc <-> get_bin_num v sp <= t).
Proof. intros S H. split; [now apply bin_le_1|now apply bin_le_2]. Qed.
Print Assumptions C28_threshold.

Example C28_ex : inc (ints [1; 3; 7]%Z) /\ map (fun v => get_bin_num (zq v) (ints [1; 3; 7]%Z)) [-2; 1; 2; 3; 4; 7; 8]%Z = [0; 0; 1; 1; 2; 2; 3].
Proof. split; [repeat constructor; qlt|vm_compute; reflexivity]. Qed.

(** A dense row, on the path for rows that are not turned sparse first: every listed column becomes its bin number, every
    other value stays. *)
Theorem C28_dense_row {N} `{EqDecision N} cols (sps : dict N (list Qc)) header l :
  (forall i, i < length l -> i ∈ cols -> exists c sp, header !! i = Some c /\ dict_get c sps = Some sp) ->
  exists l', convert_row false cols sps header (FDense l) = Ok (FDense l') /\ length l' = length l /\
    forall i x, l !! i = Some x -> (i ∉ cols -> l' !! i = Some x) /\
      (i ∈ cols -> forall c sp, header !! i = Some c -> dict_get c sps = Some sp -> exists b, l' !! i = Some (zq (Z.of_nat b)) /\ is_bin sp x b).
Proof.
  intros H. unfold convert_row, convert_dense.
  set (g := fun ix : nat * Qc => if decide (ix.1 ∈ cols) then c ← list_index header ix.1; sp ← dict_index c sps; Ok (zq (Z.of_nat (get_bin_num ix.2 sp))) else Ok ix.2).
  assert (X : forall l k, (forall i, i < length l -> k + i ∈ cols -> exists c sp, header !! (k + i) = Some c /\ dict_get c sps = Some sp) ->
    exists l', mapR g (combine (seq k (length l)) l) = Ok l' /\ length l' = length l /\ forall i x, l !! i = Some x -> (k + i ∉ cols -> l' !! i = Some x) /\
      (k + i ∈ cols -> forall c sp, header !! (k + i) = Some c -> dict_get c sps = Some sp -> exists b, l' !! i = Some (zq (Z.of_nat b)) /\ is_bin sp x b)).
  { clear. intros l. induction l as [|y l IH]; intros k H; [exists []; split; [reflexivity|]; split; [reflexivity|]; intros i x Hi; rewrite lookup_nil in Hi; discriminate|].
    destruct (IH (S k)) as (l' & E & L & D). { intros i Hi Hc. destruct (H (S i)) as (c & sp & H1 & H2); [cbn; lia|replace (k + S i) with (S k + i) by lia; exact Hc|]. exists c, sp. replace (k + S i) with (S k + i) in H1 by lia. auto. }
    cbn [length seq combine mapR]. unfold g at 1. cbn [fst snd]. destruct (decide (k ∈ cols)) as [Hc|Hc].
    - destruct (H 0) as (c & sp & H1 & H2); [cbn; lia|now rewrite Nat.add_0_r|]. rewrite Nat.add_0_r in H1. unfold list_index, dict_index. rewrite H1. cbn [mbind res_bind]. rewrite H2. cbn [mbind res_bind]. rewrite E. cbn [mbind res_bind].
      eexists. split; [reflexivity|]. split; [cbn; lia|]. intros [|i] x; cbn; [intros [= <-]; rewrite Nat.add_0_r; split; [contradiction|]; intros _ c' sp' H1' H2'; assert (c' = c) as -> by congruence; assert (sp' = sp) as -> by congruence; eexists; split; [reflexivity|apply bin_is_bin]|].
      intros Hi. destruct (D i x Hi) as [D1 D2]. replace (k + S i) with (S k + i) by lia. auto.
    - rewrite E. cbn [mbind res_bind]. eexists. split; [reflexivity|]. split; [cbn; lia|]. intros [|i] x; cbn; [intros [= <-]; rewrite Nat.add_0_r; split; [reflexivity|contradiction]|].
      intros Hi. destruct (D i x Hi) as [D1 D2]. replace (k + S i) with (S k + i) by lia. auto. }
  destruct (X l 0) as (l' & -> & L & D); [exact H|]. exists l'. split; [reflexivity|]. split; [exact L|]. exact D.
Qed.
Print Assumptions C28_dense_row.
Example C28_dense_row_ex : match convert_row false [1] [(5, ints [1; 3; 7]%Z)] [4; 5] (FDense (ints [9; 4]%Z)) with Ok (FDense [a; b]) => this a = 9%Q /\ this b = 2%Q | _ => False end.
Proof. vm_compute. split; reflexivity. Qed.

(** The split points that are really fitted on sparse rows need not be increasing, and then the two tests differ on a
    value of the data itself: column -5, 0 x6, 1, 2, 3 with 32 bins, value 1. *)
Definition one_col (l : list Z) : list feats := map (fun z => FSparse (if (z =? 0)%Z then [] else [(0%nat, zq z)]) 1) l.
Theorem C28_fitted_refuted : exists rows p sps sp v t x,
  sparse_rows 1 rows /\ params_ok p (length rows) /\ fit_split_points p [0] rows = Ok sps /\ dict_get 0 sps = Some sp /\
  v ∈ column 0 rows /\ sp !! t = Some x /\ get_bin_num v sp <= t /\ ~ (v <= x)%Qc.
Proof.
  exists (one_col [-5; 0; 0; 0; 0; 0; 0; 1; 2; 3]%Z), (BP 10000 10000 e3 32 []). eexists _, _, (zq 1), 1, (zq 0).
  split. { repeat apply Forall_cons_2; try apply Forall_nil_2; eexists _, _; (split; [reflexivity|split; [apply (bool_decide_unpack _); reflexivity|]]); repeat constructor. }
  split. { split; [split; [apply fround_is_double|split; qle]|]. split; [reflexivity|]. cbn. lia. }
  split; [vm_compute; reflexivity|]. split; [reflexivity|].
  split. { apply elem_of_list_omap. exists (FSparse [(0, zq 1)] 1). split; [|reflexivity]. vm_compute. do 7 right. left. }
  split; [cbn; f_equal; apply Qc_is_canon; reflexivity|]. split; [vm_compute; lia|]. apply Qclt_not_le. qlt.
Qed.
Print Assumptions C28_fitted_refuted.

(** ** C29 *)
(** A dense row becomes the sparse row with exactly its entries of magnitude at least 1e-6, each under its own index;
    no feature value changes except those below 1e-6, which read as 0. A sparse row stays as it is. *)
Theorem C29_sparse l : exists d, data_format_transform (FDense l) = FSparse d (length l) /\ NoDup (map fst d) /\
  (forall i x, dict_get i d = Some x <-> l !! i = Some x /\ (Q2Qc (1 # 1000000) <= qabs x)%Qc) /\
  (forall i, raw (FSparse d (length l)) i = raw (FDense l) i).
Proof.
  eexists. split; [apply transform_dense|]. split; [apply NoDup_filter_fst, combine_seq_NoDup|]. split.
  - intros i x. rewrite transform_get. change (Q2Qc (1 # 1000000)) with FLOAT_ZERO. destruct (l !! i) as [y|]; [|now split; [|intros []]].
    case_decide as D; split; [discriminate|intros [[= <-] H]; now apply Qclt_not_le in D|intros [= <-]; split; [reflexivity|now apply Qcnot_lt_le]|now intros [[= <-] _]].
  - intros i. pose proof (transform_raw (FDense l) i) as E. now rewrite transform_dense in E.
Qed.
Print Assumptions C29_sparse.

Example C29_ex : data_format_transform (FDense [zq 3; zq 0; Q2Qc (1 # 10000000); Q2Qc (-1 # 2)]) = FSparse [(0, zq 3); (3, Q2Qc (-1 # 2))] 4.
Proof. vm_compute. reflexivity. Qed.

Lemma points_lookup {N} `{EqDecision N} (sps : dict N (list Qc)) header i c sp :
  (forall c, c ∈ header -> is_Some (dict_get c sps)) -> header !! i = Some c -> dict_get c sps = Some sp ->
  split_points_result sps header !! i = Some sp.
Proof.
  unfold split_points_result. revert i. induction header as [|h header IH]; intros i HP Hi G; [discriminate|]. cbn.
  destruct (HP h) as [sh Hh]; [left|]. rewrite Hh. destruct i as [|i]; cbn in *; [simplify_eq; congruence|]. apply IH; auto. intros c' Hc'. apply HP. now right.
Qed.

Lemma points_length {N} `{EqDecision N} (sps : dict N (list Qc)) header :
  (forall c, c ∈ header -> is_Some (dict_get c sps)) -> length (split_points_result sps header) = length header.
Proof.
  unfold split_points_result. induction header as [|h header IH]; intros HP; [reflexivity|]. cbn.
  destruct (HP h) as [sh Hh]; [left|]. rewrite Hh. cbn. f_equal. apply IH. intros c' Hc'. apply HP. now right.
Qed.

(** Aligning, fitting and converting a table never fails, and each row then holds, for every feature, the bin of its
    value: the stored bin, or the feature's zero-bin when nothing is stored. *)
Theorem C29_prepare {K N} `{EqDecision K} `{EqDecision N} (p : bin_params) (header : list N) (h : heap) (t : dtable K loc) :
  NoDup header -> table_ok (length header) h t -> params_ok p (dt_count t) ->
  exists h' points zero_bins, prepare p header h t = Ok (h', t, points, zero_bins) /\ length points = length header /\
    forall l : loc, l ∈ dt_values t -> exists (o : feats) d, h !! l = Some o /\ h' !! l = Some (FSparse d (length header)) /\
      forall i, i < length header -> exists sp b b0, points !! i = Some sp /\ NoDup sp /\ length sp <= bp_bin_num p - 1 /\
        dict_get i zero_bins = Some b0 /\ is_bin sp (zq 0) b0 /\
        is_bin sp (raw o i) b /\ sv_get d i (zq (Z.of_nat b0)) = zq (Z.of_nat b).
Proof.
  intros NH TO PO. destruct (prepare_ok p header h t NH TO PO) as (rows & sps & h' & bs & P & _ & _ & FK & FP & _ & _ & HO).
  assert (HP : forall c, c ∈ header -> is_Some (dict_get c sps)).
  { intros c Hc. apply elem_of_list_lookup in Hc as [i Hc]. destruct (FP i c Hc) as (sp & G & _). eauto. }
  exists h', (split_points_result sps header), bs. split; [exact P|]. split; [now apply points_length|].
  intros l Hl. destruct (HO l Hl) as (o & d & E1 & E2 & _ & G). exists o, d. split; [exact E1|]. split; [exact E2|].
  intros i Hi. destruct (lookup_lt_is_Some_2 header i Hi) as [c Hc]. destruct (FP i c Hc) as (sp & S1 & S2 & S3 & S4).
  exists sp, (get_bin_num (raw o i) sp), (get_bin_num (zq 0) sp). split; [now apply (points_lookup sps header i c)|].
  split; [exact S2|]. split; [exact S3|]. split; [exact S4|]. split; [apply bin_is_bin|]. split; [apply bin_is_bin|].
  unfold sv_get. rewrite (G i). rewrite <- (transform_raw o i). destruct TO as (_ & _ & _ & RO). destruct (RO l Hl) as (o' & E1' & R). rewrite E1 in E1'. simplify_eq.
  destruct (transform_ok _ _ R) as (d0 & E & _). rewrite E. unfold raw, bin_entry. cbn [fst snd]. rewrite Hc, S1. now destruct (dict_get i d0).
Qed.
Print Assumptions C29_prepare.

Definition ex_heap : heap := [FDense (ints [4; 0]%Z); FDense (ints [1; 2]%Z); FDense (ints [9; 9]%Z); FDense (ints [2; 0]%Z); FDense (ints [3; 5]%Z)].
Definition ex_table : dtable nat loc := DT [(10, 0); (11, 1); (12, 3); (13, 4)].
Definition show (f : feats) : list (option Q) :=
  match f with FDense l => map (fun x => Some (this x)) l
             | FSparse d sh => map (fun i => option_map this (dict_get i d)) (seq 0 sh) end.
Example C29_prepare_ex : table_ok 2 ex_heap ex_table /\ params_ok (BP 10000 10000 e3 3 []) 4 /\
  exists h' points zb, prepare (BP 10000 10000 e3 3 []) [7; 8] ex_heap ex_table = Ok (h', ex_table, points, zb) /\
    map show h' = [[Some (2 # 1); None]; [Some (0 # 1); Some (1 # 1)]; [Some (9 # 1); Some (9 # 1)]; [Some (0 # 1); None]; [Some (1 # 1); Some (1 # 1)]]%Q /\
    map (map this) points = [[2 # 1; 3 # 1]; [0 # 1; 5 # 1]]%Q /\ zb = [(0, 0); (1, 0)].
Proof.
  split. { split; [discriminate|]. split; [apply (bool_decide_unpack _); reflexivity|]. split; [apply (bool_decide_unpack _); reflexivity|].
    intros l Hl. cbn in Hl. repeat (apply elem_of_cons in Hl as [->|Hl]; [eexists; split; [reflexivity|reflexivity]|]). inversion Hl. }
  split. { split; [split; [apply fround_is_double|split; qle]|]. split; [reflexivity|]. cbn. lia. }
  eexists _, _, _. split; [vm_compute; reflexivity|]. repeat split.
Qed.

(** ** C30 *)
(** After fit has prepared the data, the row objects of the table the caller passed in no longer hold feature values:
    every stored number is a bin number. Other objects are untouched, and the caller's table still refers to the
    overwritten objects. *)
Theorem C30_overwritten {K N} `{EqDecision K} `{EqDecision N} (p : bin_params) (header : list N) (h : heap) (t : dtable K loc) :
  NoDup header -> table_ok (length header) h t -> params_ok p (dt_count t) ->
  exists h' points zero_bins, prepare p header h t = Ok (h', t, points, zero_bins) /\
    (forall l : loc, l ∉ dt_values t -> h' !! l = h !! l) /\
    forall l : loc, l ∈ dt_values t -> exists o o' : feats, h !! l = Some o /\ h' !! l = Some o' /\
      forall i, i < length header -> exists b, b <= bp_bin_num p - 1 /\ raw o' i = zq (Z.of_nat b) /\
        (forall sp, points !! i = Some sp -> (raw o i = zq 0 -> b = 0 \/ is_bin sp (zq 0) b) /\ (raw o i <> zq 0 -> is_bin sp (raw o i) b)).
Proof.
  intros NH TO PO. destruct (prepare_ok p header h t NH TO PO) as (rows & sps & h' & bs & P & _ & _ & FK & FP & _ & HU & HO).
  assert (HP : forall c, c ∈ header -> is_Some (dict_get c sps)).
  { intros c Hc. apply elem_of_list_lookup in Hc as [i Hc]. destruct (FP i c Hc) as (sp & G & _). eauto. }
  exists h', (split_points_result sps header), bs. split; [exact P|]. split; [exact HU|].
  intros l Hl. destruct (HO l Hl) as (o & d & E1 & E2 & _ & G). eexists o, _. split; [exact E1|]. split; [exact E2|].
  intros i Hi. destruct (lookup_lt_is_Some_2 header i Hi) as [c Hc]. destruct (FP i c Hc) as (sp & S1 & S2 & S3 & S4).
  destruct TO as (_ & _ & _ & RO). destruct (RO l Hl) as (o' & E1' & R). rewrite E1 in E1'. injection E1' as <-.
  destruct (transform_ok _ _ R) as (d0 & E & _). pose proof (transform_raw o i) as TR. rewrite E in TR. cbn [raw] in TR.
  specialize (G i). rewrite E in G. cbn [raw]. rewrite G. unfold bin_entry. cbn [fst snd]. rewrite Hc, S1.
  assert (BL : forall v, get_bin_num v sp <= bp_bin_num p - 1).
  { intros v. destruct (bin_is_bin v sp) as [X _]. lia. }
  destruct (dict_get i d0) as [x|] eqn:Gx; cbn.
  - exists (get_bin_num x sp). split; [apply BL|]. split; [reflexivity|]. intros sp' Hsp'. rewrite (points_lookup sps header i c sp HP Hc S1) in Hsp'.
    injection Hsp' as <-. rewrite <- TR. split; [intros ->; right; apply bin_is_bin|intros _; apply bin_is_bin].
  - exists 0. split; [lia|]. split; [reflexivity|]. intros sp' _. split; [auto|]. intros X. now rewrite TR in X.
Qed.
Print Assumptions C30_overwritten.

(** The caller's rows do not keep their feature values: row 10 of the example held 4 in its first feature, now 2. *)
Theorem C30_kept_refuted : exists (p : bin_params) (header : list nat) (h : heap) (t : dtable nat loc) h' points zb l o o' i,
  table_ok (length header) h t /\ params_ok p (dt_count t) /\ prepare p header h t = Ok (h', t, points, zb) /\
  l ∈ dt_values t /\ h !! l = Some o /\ h' !! l = Some o' /\ raw o' i <> raw o i.
Proof.
  exists (BP 10000 10000 e3 3 []), [7; 8], ex_heap, ex_table. eexists _, _, _, 0, _, _, 0.
  split; [apply C29_prepare_ex|]. split; [apply C29_prepare_ex|]. split; [vm_compute; reflexivity|]. split; [left|]. split; [reflexivity|].
  split; [reflexivity|]. intros X. apply (f_equal this) in X. vm_compute in X. discriminate X.
Qed.
Print Assumptions C30_kept_refuted.
