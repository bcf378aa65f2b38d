(** C83. *)
From Verif Require Import SumDictProofs SumDictExact SumDictSparse P_Quantile.
From Verif Require Import PyBase QcBase FixedPointModel FixedPointSpec FixedPointProofs FloatProofs
  DTableModel DTableProofs QuantileModel QuantileSpec QuantileProofs QuantileHist QuantileFit QuantileTable EncNumProofs.
From stdpp Require Import list_numbers.
From Coq Require Import Lia.
Local Open Scope nat_scope.

(** Fitting a dense table of any number of partitions, of any sizes and with any buffer, never raises; every column gets at most bin_num - 1 different
    split points, each a value of that column in some partition. *)
Theorem C83_partitions {N} `{EqDecision N} (p : bin_params) (header : list N) parts :
  NoDup header -> parts <> [] -> Forall (dense_rows (length header)) parts ->
  exists sps, fit_partitions p header parts = Ok sps /\ map fst sps = header /\
    forall i c, header !! i = Some c -> exists sp, dict_get c sps = Some sp /\ NoDup sp /\ length sp <= bp_bin_num p - 1 /\
      forall v, v ∈ sp -> v ∈ kept (bp_abnormal p) (column i (concat parts)) \/ kept (bp_abnormal p) (column i (concat parts)) = [] /\ v = zq 0.
Proof.
  intros ND NE F. destruct (fit_parts p header ND parts NE F) as (h & S & E). destruct (rates_ok (bp_bin_num p)) as (_ & RD & RL).
  assert (QP : forall i, exists sp, query_points qs_query (h i) (percentile_rates (bp_bin_num p)) [] = Ok sp /\ NoDup sp /\
    (forall v, v ∈ sp -> v ∈ kept (bp_abnormal p) (column i (concat parts)) \/ kept (bp_abnormal p) (column i (concat parts)) = [] /\ v = zq 0) /\ length sp <= bp_bin_num p - 1).
  { intros i. destruct (query_points_reach _ (percentile_rates (bp_bin_num p)) (h i) [] (S i) RD) as (sp & Q & A & B & C); [constructor|intros v Hv; inversion Hv|]. exists sp. cbn in C. repeat split; auto. lia. }
  set (g := fun i => match query_points qs_query (h i) (percentile_rates (bp_bin_num p)) [] with Ok sp => sp | Err _ => [] end).
  exists (cols_of g header). split; [|split].
  - rewrite E. apply mapR_cols. intros i c Hi. cbn [fst snd]. unfold g. destruct (QP i) as (sp & -> & _). reflexivity.
  - apply cols_fst.
  - intros i c Hi. exists (g i). split; [now apply cols_get|]. unfold g. destruct (QP i) as (sp & -> & A & B & C). auto.
Qed.
Print Assumptions C83_partitions.

(** The merged summary of a column counts every normal value of every partition, and any legal query gives one of them (0 if there is none). *)
Theorem C83_counts {N} `{EqDecision N} (p : bin_params) (header : list N) parts :
  NoDup header -> parts <> [] -> Forall (dense_rows (length header)) parts ->
  exists sds sd, mapR (approx_dense p header) parts = Ok sds /\ reduce_dicts qs_merge sds = Ok (Some sd) /\ map fst sd = header /\
    forall i c, header !! i = Some c -> exists s, dict_get c sd = Some s /\ (qs_count s + Z.of_nat (length (qs_head s)) = Z.of_nat (length (kept (bp_abnormal p) (column i (concat parts)))))%Z /\
      forall q, (zq 0 <= q)%Qc -> (q <= zq 1)%Qc -> exists v, snd (qs_query s q) = Ok v /\
        (v ∈ kept (bp_abnormal p) (column i (concat parts)) \/ kept (bp_abnormal p) (column i (concat parts)) = [] /\ v = zq 0).
Proof.
  intros ND NE F. rewrite (approx_all p header ND parts F). destruct parts as [|l parts]; [congruence|].
  destruct (reduce_cols p header ND parts (summ p l) l (summ_stands p l)) as (h & E & S). eexists _, (cols_of h header). split; [reflexivity|]. split; [exact E|]. split; [apply cols_fst|].
  intros i c Hi. exists (h i). split; [now apply cols_get|]. pose proof (reach_inv _ _ (S i)) as I. split; [apply I|]. intros q Q0 Q1. exact (query_inv _ _ q I Q0 Q1).
Qed.
Print Assumptions C83_counts.

(** If four times the error times the number of rows is at most 1 and the rows fit into the buffer, dividing the table changes nothing. *)
Theorem C83_same {N} `{EqDecision N} (p : bin_params) (header : list N) parts :
  NoDup header -> concat parts <> [] -> Forall (dense_rows (length header)) parts -> err_ok (bp_error p) ->
  (Z.of_nat (length (concat parts)) <= bp_head p)%Z -> (zq 4 * bp_error p * zq (Z.of_nat (length (concat parts))) <= zq 1)%Qc ->
  fit_partitions p header parts = fit_split_points p header (concat parts).
Proof.
  intros ND NE F (ED & E0 & _) HH HB. apply fit_exactly; auto. split; [exact HH|]. unfold two_err.
  replace (zq 2 * bp_error p)%Qc with (bp_error p * p2 1)%Qc by (change (p2 1) with (zq 2); ring). rewrite fround_scale, (fround_double _ ED).
  eapply Qcle_lt_trans with (y := fround (p2 (-1))).
  - apply fround_mono. change (p2 1) with (Q2Qc (2 # 1)). change (p2 (-1)) with (Q2Qc (1 # 2)). change (zq 4) with (Q2Qc (4 # 1)) in HB. change (zq 1) with (Q2Qc (1 # 1)) in HB. set (x := zq (Z.of_nat _)) in *. clearbody x. clear -HB. qlra.
  - vm_compute. reflexivity.
Qed.
Print Assumptions C83_same.

(** Otherwise the split points depend on the division. *)
Definition sd_rows (l : list Z) : list feats := map (fun z => FDense [zq z]) l.
Theorem C83_same_refuted : exists p l m sps sps', err_ok (bp_error p) /\ (Z.of_nat (length (l ++ m)) <= bp_head p)%Z /\
  fit_split_points p [0] (sd_rows (l ++ m)) = Ok sps /\ fit_partitions p [0] [sd_rows l; sd_rows m] = Ok sps' /\ sps <> sps'.
Proof.
  exists (BP 10000 10000 (fround (Q2Qc (1 # 4))) 4 []), [1; 2; 3; 4; 5; 6]%Z, [7; 8; 9; 10; 11; 12]%Z. eexists _, _. split; [|split; [vm_compute; discriminate|split; [vm_compute; reflexivity|split; [vm_compute; reflexivity|vm_compute; discriminate]]]].
  split; [apply fround_is_double|split; vm_compute; discriminate].
Qed.
Print Assumptions C83_same_refuted.
(** Dictionaries with different columns: a column the second one lacks raises, a column the first one lacks is dropped. *)
Theorem C83_columns_refuted : exists (a b : dict nat qsum) c, dict_get 1 b <> None /\ merge_summary_dict qs_merge (Some a) (Some b) = Ok (Some c) /\ dict_get 1 c = None /\
  merge_summary_dict qs_merge (Some b) (Some a) = Err AttributeError.
Proof.
  exists [(0, insert_all (qs_new 9 9 (zq 0) []) [zq 1])], [(0, insert_all (qs_new 9 9 (zq 0) []) [zq 2]); (1, insert_all (qs_new 9 9 (zq 0) []) [zq 3])]. eexists.
  split; [discriminate|]. split; [vm_compute; reflexivity|]. split; reflexivity.
Qed.
Print Assumptions C83_columns_refuted.

(** Two columns, five rows in three partitions, one of them empty; the error is 1/32. *)
Definition sd_parts : list (list feats) := [[FDense [zq 4; zq 1]; FDense [zq 2; zq 1]]; []; [FDense [zq (-1); zq 1]; FDense [zq 8; zq 1]; FDense [zq 6; zq 1]]].
Example C83_ex : let p := BP 10000 10000 (p2 (-5)) 4 [] in exists sps sp sp', Forall (dense_rows 2) sd_parts /\ err_ok (bp_error p) /\ (zq 4 * bp_error p * zq (Z.of_nat (length (concat sd_parts))) <= zq 1)%Qc /\
  fit_partitions p [7; 9] sd_parts = Ok sps /\ dict_get 7 sps = Some sp /\ map this sp = [2 # 1; 4 # 1; 6 # 1]%Q /\ dict_get 9 sps = Some sp' /\ map this sp' = [1 # 1]%Q.
Proof.
  cbv zeta. eexists _, _, _. split; [repeat constructor; eexists; (split; [reflexivity|reflexivity])|]. split; [split; [|split; vm_compute; discriminate]; exists 1%Z, (-5)%Z; split; [lia|]; cbn [bp_error]; rewrite zq_1; ring|]. split; [vm_compute; discriminate|]. split; [vm_compute; reflexivity|]. repeat split; reflexivity.
Qed.

(** Sparse rows without an abnormal list: the merged summary of a column answers every legal query like the zero band of the whole table demands, with 0
    or a stored value of some partition. *)
Theorem C83_sparse_query {N} `{EqDecision N} (p : bin_params) (header : list N) parts :
  NoDup header -> bp_abnormal p = [] -> concat parts <> [] -> Forall (sparse_rows (length header)) parts -> (Z.of_nat (length (concat parts)) <= 2 ^ 53)%Z ->
  exists sds sd, mapR (approx_sparse p header) parts = Ok sds /\ reduce_dicts sq_merge sds = Ok (Some sd) /\ map fst sd = header /\
    forall i c, header !! i = Some c -> exists s, dict_get c sd = Some s /\
      forall q, is_double q -> (zq 0 <= q)%Qc -> (q <= zq 1)%Qc ->
        let total := Z.of_nat (length (concat parts)) in let xs := column i (concat parts) in
        let zero_band := (fround (zq (count_below xs) / zq total) <= q)%Qc /\ (count_above xs = 0%Z \/ (q <= fround (zq (total - count_above xs) / zq total))%Qc) in
        exists v, snd (sq_query (sq_set_total total s) q) = Ok v /\ (zero_band -> v = zq 0) /\ (~ zero_band -> v ∈ xs).
Proof.
  intros ND AB NE F LB. rewrite (sapprox_all p header ND AB parts F). destruct parts as [|l parts]; [now destruct NE|].
  destruct (sreduce_cols p header ND parts (ssumm p l) l (ssumm_stands p l)) as (h & E & S). eexists _, (cols_of h header). split; [reflexivity|]. split; [exact E|]. split; [apply cols_fst|].
  change (l ++ concat parts) with (concat (l :: parts)) in S. set (rows := concat (l :: parts)) in *.
  intros i c Hi. exists (h i). split; [now apply cols_get|]. intros q Q Q0 Q1. destruct (S i) as (A & B & C & D).
  apply sparse_query_ok; auto; [pose proof (column_length i rows); lia|]. destruct rows; [congruence|cbn [length] in *; lia].
Qed.
Print Assumptions C83_sparse_query.
(** Fitting never raises. The split points of a column are at most bin_num - 1 different numbers: for every rate i / bin_num in doubles one that is 0 if the
    rate is in the zero band of the whole table, a stored value otherwise, and no others. *)
Theorem C83_sparse {N} `{EqDecision N} (p : bin_params) (header : list N) parts :
  NoDup header -> bp_abnormal p = [] -> concat parts <> [] -> Forall (sparse_rows (length header)) parts -> (Z.of_nat (length (concat parts)) <= 2 ^ 53)%Z ->
  exists sps, fit_sparse_partitions p header parts = Ok sps /\ map fst sps = header /\
    forall i c, header !! i = Some c -> exists sp, dict_get c sps = Some sp /\ NoDup sp /\ length sp <= bp_bin_num p - 1 /\
      let total := Z.of_nat (length (concat parts)) in let xs := column i (concat parts) in
      let rate := fun k => fround (zq (Z.of_nat k) * fround (zq 1 / zq (Z.of_nat (bp_bin_num p)))) in
      let zero_band := fun q => (fround (zq (count_below xs) / zq total) <= q)%Qc /\ (count_above xs = 0%Z \/ (q <= fround (zq (total - count_above xs) / zq total))%Qc) in
      let fits := fun k v => (zero_band (rate k) -> v = zq 0) /\ (~ zero_band (rate k) -> v ∈ xs) in
      (forall k, 1 <= k < bp_bin_num p -> exists v, v ∈ sp /\ fits k v) /\ (forall v, v ∈ sp -> exists k, 1 <= k < bp_bin_num p /\ fits k v).
Proof.
  intros ND AB NE F LB. unfold fit_sparse_partitions. rewrite (sapprox_all p header ND AB parts F). destruct parts as [|l parts]; [now destruct NE|].
  destruct (sreduce_cols p header ND parts (ssumm p l) l (ssumm_stands p l)) as (h & E & S). cbn [mbind res_bind]. unfold reduce_dicts. cbn [map foldM]. rewrite E. cbn [mbind res_bind].
  change (l ++ concat parts) with (concat (l :: parts)) in S. set (rows := concat (l :: parts)) in *. destruct (rates_ok (bp_bin_num p)) as (_ & RD & RL).
  assert (TP : (1 <= Z.of_nat (length rows))%Z) by (destruct rows; [congruence|cbn [length]; lia]).
  pose proof (fun i => sq_points (column i rows) (Z.of_nat (length rows)) (sq_set_total (Z.of_nat (length rows)) (h i)) (S i) eq_refl ltac:(pose proof (column_length i rows); lia) ltac:(lia) (percentile_rates (bp_bin_num p)) [] RD (NoDup_nil_2 (A := Qc))) as QP.
  set (g := fun i => match query_points sq_query (sq_set_total (Z.of_nat (length rows)) (h i)) (percentile_rates (bp_bin_num p)) [] with Ok sp => sp | Err _ => [] end).
  exists (cols_of g header). split; [|split].
  - apply mapR_cols. intros i c Hi. cbn [fst snd]. unfold g. destruct (QP i) as (sp & -> & _). reflexivity.
  - apply cols_fst.
  - intros i c Hi. exists (g i). split; [now apply cols_get|]. unfold g. destruct (QP i) as (sp & -> & A & B & _ & C & D). split; [exact A|]. split; [cbn in B; lia|]. cbv zeta. split.
    + intros k Hk. apply C. unfold percentile_rates. cbv zeta. apply elem_of_list_fmap. exists k. split; [reflexivity|]. apply elem_of_seq. lia.
    + intros v Hv. destruct (D v Hv) as [X|(q & Hq & X)]; [inversion X|]. unfold percentile_rates in Hq. cbv zeta in Hq. apply elem_of_list_fmap in Hq as (k & -> & Hk). apply elem_of_seq in Hk. exists k. split; [lia|exact X].
Qed.
Print Assumptions C83_sparse.
(** Ten sparse rows with one column, six of them empty, in two partitions. *)
Definition ss_rows (l : list Z) : list feats := map (fun z => FSparse (if (z =? 0)%Z then [] else [(0, zq z)]) 1) l.
Example C83_sparse_ex : let parts := [ss_rows [-5; 0; 0; 1]; ss_rows [0; 2; 0; 0; 3; 0]]%Z in Forall (sparse_rows 1) parts /\ length (concat parts) = 10 /\
  match fit_sparse_partitions (BP 10000 10000 (fround (Q2Qc (1 # 1000))) 16 []) [7] parts with Ok [(7, sp)] => map this sp = [1 # 1; 0 # 1; 2 # 1; 3 # 1]%Q | _ => False end.
Proof.
  cbv zeta. split; [|split; [reflexivity|vm_compute; reflexivity]].
  repeat (apply Forall_cons; split; [repeat (apply Forall_cons; split; [eexists _, _; split; [reflexivity|]; split; [apply (bool_decide_unpack _); reflexivity|repeat (apply Forall_cons; split; [cbn; lia|]); apply Forall_nil; exact I]|]); apply Forall_nil; exact I|]). apply Forall_nil. exact I.
Qed.
