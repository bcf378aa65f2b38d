(** C23-C27 and C60: quantile summaries and fitted split points. *)
From Verif Require Import PyBase QcBase FixedPointModel FixedPointSpec FixedPointProofs FloatProofs
  QuantileModel QuantileSpec QuantileProofs QuantileHist QuantileFit QuantileTable.
From Coq Require Import Lia.
Local Open Scope Z_scope.

Local Notation vals := (map st_value).
Local Notation e3 := (fround (Q2Qc (1 # 1000))).
Local Notation ints := (map zq).

Local Ltac qle := apply qleb_true; vm_compute; reflexivity.
Local Ltac qlt := apply qltb_true; vm_compute; reflexivity.

(** ** C23 *)
(** After at most head_size kept values and compress(): the count is exact; the running weight at every sample is the
    position of its value in the sorted data; the weights add up to the count; the samples are sorted; minimum and
    maximum are kept. *)
Theorem C23_one_batch thres head_size e abnormal xs :
  err_ok e -> Z.of_nat (length (kept abnormal xs)) <= head_size -> Z.of_nat (length (kept abnormal xs)) <= 2 ^ 50 ->
  let s := qs_compress (insert_all (qs_new thres head_size e abnormal) xs) in
  let data := kept abnormal xs in
  qs_count s = Z.of_nat (length data) /\ qs_head s = [] /\
  weight (qs_sampled s) = Z.of_nat (length data) /\
  (forall pre x post, qs_sampled s = pre ++ x :: post -> 1 <= st_g x /\ at_rank data (weight pre + st_g x) (st_value x)) /\
  StronglySorted Qcle (vals (qs_sampled s)) /\
  (data <> [] -> exists first last, hd_error (vals (qs_sampled s)) = Some first /\ at_rank data 1 first /\
                   List.last (vals (qs_sampled s)) (zq 0) = last /\ at_rank data (Z.of_nat (length data)) last).
Proof.
  intros (E1 & E2 & E3) LH LB s data. destruct (compress_batch thres head_size e abnormal xs LH) as (_ & H & C & B). fold s in H, C, B. fold data in C, B.
  assert (OK : ok_from (sorted data) e 0 (qs_sampled s)).
  { destruct (qs_sampled s); [cbn in B; rewrite sorted_length in B; cbn; now rewrite sorted_length|apply B]. }
  assert (I : qinv data s).
  { unfold s. apply compress_inv. unfold data. clear. 
    assert (A : forall ys, qs_abnormal (insert_all (qs_new thres head_size e abnormal) ys) = abnormal).
    { induction ys as [|y ys IH] using rev_ind; [reflexivity|]. unfold insert_all in *. rewrite fold_left_app. cbn [fold_left].
      set (q := fold_left qs_insert ys _) in *. unfold qs_insert. rewrite IH. destruct (existsb _ _); [exact IH|]. cbv zeta.
      assert (F : forall u, qs_abnormal (qs_flush u) = qs_abnormal u).
      { intros u. unfold qs_flush. destruct (qs_head u); [reflexivity|]. destruct (flush_loop _ _ _ _ _). reflexivity. }
      repeat case_match; cbn [qs_abnormal]; unfold qs_compress; cbn [qs_abnormal]; rewrite ?F; reflexivity. }
    induction xs as [|x xs IH] using rev_ind; [apply reach_inv; constructor|].
    unfold insert_all. rewrite fold_left_app. cbn [fold_left]. unfold kept. rewrite filter_app. pose proof (insert_inv _ _ x IH) as IH'.
    rewrite A in IH'. destruct (decide (x ∈ abnormal)) as [D|D].
    - rewrite filter_cons_False by tauto. rewrite filter_nil, app_nil_r. exact IH'.
    - rewrite filter_cons_True by tauto. rewrite filter_nil. exact IH'. }
  split; [exact C|]. split; [exact H|]. pose proof (ok_from_weight _ _ _ _ OK) as W. rewrite sorted_length in W. split; [lia|].
  assert (P : forall pre x post, qs_sampled s = pre ++ x :: post -> 1 <= st_g x /\ at_rank data (weight pre + st_g x) (st_value x)).
  { intros pre x post E. split.
    - destruct I as (_ & _ & _ & _ & G & _). rewrite Forall_forall in G. apply G. rewrite E. apply elem_of_app. right. now left.
    - apply at_pos_rank. now apply (ok_from_split _ _ _ _ pre x post OK E). }
  split; [exact P|]. split; [apply I|]. intros NE.
  destruct (qs_sampled s) as [|f tl] eqn:ES. { cbn in B. rewrite sorted_length in B. destruct data; [congruence|cbn in B; lia]. }
  eexists _, _. split; [reflexivity|]. destruct B as [G _]. split.
  { destruct (P [] f tl eq_refl) as [_ R]. rewrite G in R. exact R. }
  split; [reflexivity|].
  destruct (exists_last (l := f :: tl)) as (pre & z & Ez); [discriminate|]. rewrite Ez in *.
  assert (LL : List.last (vals (pre ++ [z])) (zq 0) = st_value z) by (rewrite map_app; apply last_last). rewrite LL.
  destruct (P pre z [] eq_refl) as [_ R]. rewrite weight_app, weight_cons in W. change (weight []) with 0 in W. now replace (Z.of_nat (length data)) with (weight pre + st_g z) by lia.
Qed.
Print Assumptions C23_one_batch.

Example C23_ex :
  let xs := ints [5; 3; -9999; 9; 1; 7; 3; 8; 2; 6] in
  let s := qs_compress (insert_all (qs_new 10000 10000 (fround (Q2Qc (3 # 10))) [zq (-9999)]) xs) in
  length (kept [zq (-9999)] xs) = 9%nat /\ map (fun x => (this (st_value x), st_g x)) (qs_sampled s) = [((1 # 1)%Q, 1); ((3 # 1)%Q, 3); ((9 # 1)%Q, 5)].
Proof. vm_compute. repeat split. Qed.

(** After any history of insertions, merges, queries and compressions the summary holds inserted values only, in order,
    with positive weights; the count and the buffer account for every observation; a legal query returns an inserted
    value (0 if there is none). *)
Theorem C23_any_history xs s : reach xs s ->
  (forall v, v ∈ vals (qs_sampled s) -> v ∈ xs) /\ StronglySorted Qcle (vals (qs_sampled s)) /\
  Forall (fun x => 1 <= st_g x) (qs_sampled s) /\
  qs_count s + Z.of_nat (length (qs_head s)) = Z.of_nat (length xs) /\
  forall q, (zq 0 <= q)%Qc -> (q <= zq 1)%Qc -> exists v, snd (qs_query s q) = Ok v /\ (v ∈ xs \/ xs = [] /\ v = zq 0).
Proof.
  intros R. apply reach_inv in R as I. pose proof I as (H1 & H2 & H3 & H4 & H5 & H6 & H7). repeat split; auto.
  intros q Q0 Q1. eapply query_inv; eauto.
Qed.
Print Assumptions C23_any_history.

Example C23_any_history_ex :
  let s := qs_merge (insert_all (qs_new 3 2 e3 []) (ints [4; 1; 3; 2; 9])) (qs_compress (insert_all (qs_new 3 2 e3 []) (ints [7; 5]))) in
  reach (ints [4; 1; 3; 2; 9; 7; 5]) s /\ qs_count s = 7 /\ map this (vals (qs_sampled s)) = [1 # 1; 2 # 1; 3 # 1; 5 # 1; 7 # 1; 9 # 1]%Q.
Proof.
  split; [|vm_compute; repeat split].
  assert (R : forall ys s xs, reach xs s -> qs_abnormal s = [] -> reach (xs ++ ys) (insert_all s ys)).
  { induction ys as [|y ys IH]; intros s xs H A; [rewrite app_nil_r; auto|]. cbn [insert_all fold_left].
    replace (xs ++ y :: ys) with ((xs ++ [y]) ++ ys) by now rewrite <- app_assoc.
    apply IH.
    - pose proof (r_insert xs s y H) as I. rewrite A in I. rewrite decide_False in I by (intros X; inversion X). exact I.
    - unfold qs_insert. rewrite A. cbn [existsb]. cbv zeta.
      assert (F : forall u, qs_abnormal (qs_flush u) = qs_abnormal u).
      { intros u. unfold qs_flush. destruct (qs_head u); [reflexivity|]. destruct (flush_loop _ _ _ _ _). reflexivity. }
      repeat case_match; cbn [qs_abnormal]; unfold qs_compress; cbn [qs_abnormal]; rewrite ?F; auto. }
  apply (r_merge (ints [4; 1; 3; 2; 9]) _ (ints [7; 5])).
  - apply (R (ints [4; 1; 3; 2; 9]) (qs_new 3 2 e3 []) []); [constructor|reflexivity].
  - apply r_compress. apply (R (ints [7; 5]) (qs_new 3 2 e3 []) []); [constructor|reflexivity].
Qed.

(** ** C24 *)
(** rank of the answer of query(q), target rank ceil(fl(q N)), tolerance ceil(fl(error N)) + 1. *)
Theorem C24_rank thres head_size e abnormal xs q :
  err_ok e -> Z.of_nat (length (kept abnormal xs)) <= head_size -> 0 < Z.of_nat (length (kept abnormal xs)) <= 2 ^ 50 ->
  (zq 0 <= q)%Qc -> (q <= zq 1)%Qc ->
  let n := Z.of_nat (length (kept abnormal xs)) in
  exists v j, snd (qs_query (insert_all (qs_new thres head_size e abnormal) xs) q) = Ok v /\ at_rank (kept abnormal xs) j v /\
    Z.abs (j - qceil (fround (q * zq n))) <= qceil (fround (e * zq n)) + 1 /\
    (qabs (zq j - q * zq n) < e * zq n + zq 4)%Qc.
Proof.
  intros (E1 & E2 & E3) LH LB Q0 Q1 n. destruct (batch_query thres head_size e abnormal xs q LH Q0 Q1) as (l & B & HQ).
  set (data := kept abnormal xs) in *.
  destruct (qv_ok (sorted data) e ltac:(rewrite sorted_length; lia) E1 E2 E3 l q B ltac:(rewrite sorted_length; lia) Q0 Q1) as (j & J & R).
  pose proof (rel_err (sorted data) e ltac:(rewrite sorted_length; lia) E2 E3 q Q0 Q1) as [A1 A2].
  pose proof (rel_err (sorted data) e ltac:(rewrite sorted_length; lia) E2 E3 e E2 E3) as [A3 A4].
  unfold rk, te in R. rewrite sorted_length in *. fold n in R, A1, A2, A3, A4.
  exists (qv (sorted data) e l q), j. split; [now apply HQ|]. split; [now apply at_pos_rank|]. split; [exact R|].
  pose proof (qceil_ge (fround (q * zq n))) as C1. pose proof (qceil_lt (fround (q * zq n))) as C2.
  pose proof (qceil_lt (fround (e * zq n))) as C4.
  set (r := qceil (fround (q * zq n))) in *. set (t := qceil (fround (e * zq n))) in *.
  assert (U : (zq j <= zq (r + t + 1))%Qc) by (apply zq_le; lia). assert (L : (zq (r - t - 1) <= zq j)%Qc) by (apply zq_le; lia).
  rewrite !zq_add in U. rewrite !zq_sub in *. rewrite zq_1 in *. change (zq 4) with (Q2Qc (4 # 1)).
  revert A1 A2 A3 A4 C1 C2 C4 U L. generalize (q * zq n)%Qc (e * zq n)%Qc. clear. intros a b. generalize (fround a) (fround b) (zq j) (zq r) (zq t).
  intros. apply qabs_lt. split; qlra.
Qed.
Print Assumptions C24_rank.

(** A larger quantile never gets a smaller answer. *)
Theorem C24_monotone thres head_size e abnormal xs q q' :
  err_ok e -> Z.of_nat (length (kept abnormal xs)) <= head_size -> Z.of_nat (length (kept abnormal xs)) <= 2 ^ 50 ->
  (zq 0 <= q)%Qc -> (q <= q')%Qc -> (q' <= zq 1)%Qc ->
  exists v v', snd (qs_query (insert_all (qs_new thres head_size e abnormal) xs) q) = Ok v /\
    snd (qs_query (insert_all (qs_new thres head_size e abnormal) xs) q') = Ok v' /\ (v <= v')%Qc.
Proof.
  intros (E1 & E2 & E3) LH LB Q0 QQ Q1. destruct (batch_query thres head_size e abnormal xs q LH Q0) as (l & B & HQ); [eapply Qcle_trans; eauto|].
  set (data := kept abnormal xs) in *. eexists _, _. split; [apply HQ; [exact Q0|eapply Qcle_trans; eauto]|].
  split; [apply HQ; [eapply Qcle_trans; eauto|exact Q1]|]. destruct (Z.eq_dec (Z.of_nat (length data)) 0) as [Z|Z].
  - destruct l as [|s l]; [apply Qcle_refl|]. destruct B as [_ (_ & [A _] & _)]. rewrite sorted_length in A. lia.
  - apply (qv_mono _ _ (sorted_ss data)); rewrite ?sorted_length; auto; lia.
Qed.
Print Assumptions C24_monotone.

Example C24_ex :
  let s := insert_all (qs_new 10000 10000 e3 []) (ints [5; 3; 9; 1; 7; 4; 8; 2; 6; 10]) in
  (exists v, snd (qs_query s (Q2Qc (1 # 2))) = Ok v /\ v = zq 5) /\ (exists v, snd (qs_query s (Q2Qc (3 # 4))) = Ok v /\ v = zq 8).
Proof. split; eexists; (split; [vm_compute; reflexivity|apply Qc_is_canon; reflexivity]). Qed.

(** The bound of feature_binning_param.py:49-53, floor((q - 2 error) N) <= rank <= ceil((q + 2 error) N), does not
    hold: ten values, q = 0.05, error = 0.001; the answer is the second value, and only ranks up to 1 are allowed. *)
Theorem C24_documented_refuted : exists xs q e v j,
  err_ok e /\ is_double q /\ (zq 0 <= q)%Qc /\ (q <= zq 1)%Qc /\ length xs = 10%nat /\ NoDup xs /\
  snd (qs_query (insert_all (qs_new 10000 10000 e []) xs) q) = Ok v /\ at_rank xs j v /\
  (forall j', at_rank xs j' v -> j' = j) /\
  qceil ((q + zq 2 * e) * zq 10) < j.
Proof.
  exists (ints [1; 2; 3; 4; 5; 6; 7; 8; 9; 10]), (fround (Q2Qc (1 # 20))), e3.
  eexists. exists 2. split; [split; [apply fround_is_double|split; qle]|]. split; [apply fround_is_double|].
  split; [qle|]. split; [qle|]. split; [reflexivity|].
  assert (ND : NoDup (ints [1; 2; 3; 4; 5; 6; 7; 8; 9; 10])).
  { apply NoDup_fmap_2; [intros a b H; now apply zq_inj|]. apply (bool_decide_unpack _). reflexivity. }
  split; [exact ND|]. split; [vm_compute; reflexivity|].
  assert (AR : at_rank (ints [1; 2; 3; 4; 5; 6; 7; 8; 9; 10]) 2 (zq 2)).
  { split; [lia|]. exists (ints [1; 2; 3; 4; 5; 6; 7; 8; 9; 10]). split; [|split; reflexivity].
    repeat constructor; qle. }
  match goal with |- at_rank _ _ ?v /\ _ => replace v with (zq 2) by (apply Qc_is_canon; reflexivity) end.
  split; [exact AR|]. split; [|vm_compute; reflexivity].
  intros j' H. apply at_rank_pos in H as [R1 L1], AR as [R2 L2].
  assert (ND' : NoDup (sorted (ints [1; 2; 3; 4; 5; 6; 7; 8; 9; 10]))) by (rewrite sorted_perm; exact ND).
  pose proof (NoDup_lookup _ _ _ _ ND' L1 L2). lia.
Qed.
Print Assumptions C24_documented_refuted.

(** ** C25 *)
(** Flushing keeps exactly those stored samples that are not above the largest buffered value, and adds each buffered
    value with weight 1. *)
Theorem C25_flush_keeps xs s : reach xs s -> qs_head s <> [] ->
  map (fun x => (st_value x, st_g x)) (qs_sampled (qs_flush s)) ≡ₚ
    map (fun x => (st_value x, st_g x)) (filter (fun x => Exists (Qcle (st_value x)) (qs_head s)) (qs_sampled s)) ++ map (fun x => (x, 1)) (qs_head s) /\
  qs_count (qs_flush s) = qs_count s + Z.of_nat (length (qs_head s)).
Proof.
  intros R NE. apply reach_inv in R as (H1 & H2 & H3 & H4 & H5 & H6 & H7). unfold qs_flush. destruct (qs_head s) as [|h0 hd] eqn:EH; [congruence|]. rewrite <- EH in *.
  destruct (flush_loop_spec (qs_error s) (sorted (qs_head s)) (qs_sampled s) [] (qs_count s)) as (R1 & R2 & R3);
      [apply sorted_ss|exact H4|constructor|intros ? ? Hx; inversion Hx|intros ? ? Hx; inversion Hx|].
  destruct (flush_loop _ _ _ _ _) as [new count]. cbn [fst snd qs_sampled qs_count] in *. rewrite sorted_length in R1. split; [|exact R1].
  change (fun x => (st_value x, st_g x)) with vg. rewrite R3. cbn [map app]. apply Permutation_app; [|apply Permutation_map, sorted_perm].
  apply Permutation_map. match goal with |- ?a ≡ₚ ?b => cut (a = b); [intros ->; reflexivity|] end. clear. induction (qs_sampled s) as [|x l IH]; [reflexivity|]. cbn [List.filter].
  destruct (below (sorted (qs_head s)) x) eqn:B.
  - apply below_spec in B as (m & Hm & L). rewrite sorted_perm in Hm. rewrite filter_cons_True; [now f_equal|]. apply Exists_exists. eauto.
  - rewrite filter_cons_False; [exact IH|]. intros (m & Hm & L)%Exists_exists. assert (T : below (sorted (qs_head s)) x = true); [|congruence].
    apply below_spec. exists m. rewrite sorted_perm. auto.
Qed.
Print Assumptions C25_flush_keeps.

Example C25_ex : exists s, reach (ints [5; 6; 1]) s /\ qs_head s <> [] /\ length (qs_sampled s) = 2%nat /\ qs_count s = 2.
Proof.
  exists (insert_all (qs_new 10000 2 e3 []) (ints [5; 6; 1])). split; [|vm_compute; repeat split; discriminate].
  pose proof (r_insert _ _ (zq 1) (r_insert _ _ (zq 6) (r_insert _ _ (zq 5) (r_new 10000 2 e3 [])))) as R.
  rewrite !decide_False in R by (vm_compute; intros X; inversion X). exact R.
Qed.

(** Four values inserted with head_size 2: 5 and 6 are gone, the weights add up to 2 instead of 4 and query(1.0), which
    should be the maximum 6, is 2. *)
Theorem C25_no_loss_refuted : exists xs, length xs = 4%nat /\ NoDup xs /\
  let s := qs_compress (insert_all (qs_new 10000 2 e3 []) xs) in
  qs_count s = 4 /\ weight (qs_sampled s) = 2 /\
  exists v m, snd (qs_query s (zq 1)) = Ok v /\ at_rank xs 4 m /\ at_rank xs 2 v /\ (v < m)%Qc.
Proof.
  exists (ints [5; 6; 1; 2]). split; [reflexivity|]. split.
  { apply NoDup_fmap_2; [intros a b H; now apply zq_inj|]. apply (bool_decide_unpack _). reflexivity. }
  split; [vm_compute; reflexivity|]. split; [vm_compute; reflexivity|]. eexists. exists (zq 6). split; [vm_compute; reflexivity|].
  match goal with |- _ /\ at_rank _ _ ?v /\ _ => replace v with (zq 2) by (apply Qc_is_canon; reflexivity) end.
  assert (S : StronglySorted Qcle (ints [1; 2; 5; 6])) by (repeat constructor; qle).
  assert (P : ints [1; 2; 5; 6] ≡ₚ ints [5; 6; 1; 2]) by (apply Permutation_map; apply (Permutation_app_comm [1; 2] [5; 6])).
  split; [split; [lia|]; exists (ints [1; 2; 5; 6]); split; [exact S|split; [exact P|reflexivity]]|].
  split; [split; [lia|]; exists (ints [1; 2; 5; 6]); split; [exact S|split; [exact P|reflexivity]]|]. qlt.
Qed.
Print Assumptions C25_no_loss_refuted.

(** ** C26 *)
(** A sparse summary into which [xs] was inserted (no abnormal list), after compress() and set_total_count. *)
Definition sparse_summary (thres head_size : Z) (e : Qc) (xs : list Qc) (total : Z) : sqsum :=
  let s := sinsert_all (sq_new thres head_size e []) xs in
  sq_set_total total (SQ (qs_compress (sq_base s)) (sq_smaller s) (sq_bigger s) (sq_total s)).

Lemma count_above_eq xs : nbigger xs = count_above xs.
Proof.
  unfold nbigger, count_above. do 2 f_equal. apply list_filter_iff. intros x. split; [apply Qcnot_lt_le|apply Qcle_not_lt].
Qed.

(** Two such summaries merged; the total count is set afterwards. *)
Definition merged_summary (thres head_size : Z) (e : Qc) (xs ys : list Qc) (total : Z) : sqsum :=
  sq_set_total total (sq_merge (sparse_summary thres head_size e xs 0) (sparse_summary thres head_size e ys 0)).

Lemma sparse_inv thres head_size e xs total : let s := sparse_summary thres head_size e xs total in
  qinv xs (sq_base s) /\ qs_head (sq_base s) = [] /\ sq_smaller s = nsmaller xs /\ sq_bigger s = nbigger xs /\ sq_total s = total.
Proof.
  assert (I : qinv xs (insert_all (qs_new thres head_size e []) xs)).
  { assert (A : forall zs ys s, qinv ys s -> qs_abnormal s = [] -> qinv (ys ++ zs) (insert_all s zs)).
    { induction zs as [|z zs IH]; intros ys s I A; [now rewrite app_nil_r|]. cbn [insert_all fold_left].
      replace (ys ++ z :: zs) with ((ys ++ [z]) ++ zs) by now rewrite <- app_assoc. apply IH.
      - pose proof (insert_inv ys s z I) as J. rewrite A in J. rewrite decide_False in J by (intros X; inversion X). exact J.
      - unfold qs_insert. rewrite A. cbn [existsb]. cbv zeta.
        assert (F : forall u, qs_abnormal (qs_flush u) = qs_abnormal u).
        { intros u. unfold qs_flush. destruct (qs_head u); [reflexivity|]. destruct (flush_loop _ _ _ _ _). reflexivity. }
        repeat case_match; cbn [qs_abnormal]; unfold qs_compress; cbn [qs_abnormal]; rewrite ?F; auto. }
    apply (A xs []); [|reflexivity]. apply reach_inv. constructor. }
  apply compress_inv in I as [I HE]. cbv zeta. unfold sparse_summary. rewrite sinsert_all_spec. cbn. auto.
Qed.
Lemma sparse_query_ok s xs total q :
  qinv xs (sq_base s) -> qs_head (sq_base s) = [] -> sq_smaller s = nsmaller xs -> sq_bigger s = nbigger xs -> sq_total s = total ->
  Z.of_nat (length xs) <= total -> 1 <= total <= 2 ^ 53 -> is_double q -> (zq 0 <= q)%Qc -> (q <= zq 1)%Qc ->
  let zb := (fround (zq (count_below xs) / zq total) <= q)%Qc /\ (count_above xs = 0 \/ (q <= fround (zq (total - count_above xs) / zq total))%Qc) in
  exists v, snd (sq_query s q) = Ok v /\ (zb -> v = zq 0) /\ (~ zb -> v ∈ xs).
Proof.
  intros I HE B2 B3 B4 LT TB HD Q0 Q1 zb. pose proof I as (_ & _ & C & _). rewrite HE in C. cbn [length] in C. pose proof (nsum xs) as NS.
  assert (SP : sparse_ok (Z.of_nat (length xs)) total s).
  { unfold sparse_ok. rewrite B2, B3, B4. unfold nsmaller, nbigger in *. repeat split; try lia. }
  assert (ZB : in_band (sq_smaller s) (sq_bigger s) total q <-> zb).
  { unfold in_band, zb, lo, up. rewrite B2, B3, count_above_eq. reflexivity. }
  destruct (sq_query_spec _ _ _ q SP HD Q0 Q1) as [[IB Q]|[IB (q' & R0 & R1 & N0 & _ & Q)]]; rewrite ZB in IB.
  - exists (zq 0). rewrite Q. cbn. tauto.
  - destruct (query_inv _ _ q' I R0 R1) as (v & Ev & Hv). destruct (qs_query _ q') as [b r]. cbn [snd] in Ev. subst r.
    exists v. rewrite Q. cbn [snd]. split; [reflexivity|]. split; [contradiction|]. intros _. destruct Hv as [Hv|[-> _]]; [exact Hv|cbn in N0; lia].
Qed.
Theorem C26_total thres head_size e xs total q :
  Z.of_nat (length xs) <= total -> 1 <= total <= 2 ^ 53 -> is_double q -> (zq 0 <= q)%Qc -> (q <= zq 1)%Qc ->
  let below := count_below xs in
  let above := count_above xs in
  let zero_band := (fround (zq below / zq total) <= q)%Qc /\ (above = 0 \/ (q <= fround (zq (total - above) / zq total))%Qc) in
  exists v, snd (sq_query (sparse_summary thres head_size e xs total) q) = Ok v /\
    (zero_band -> v = zq 0) /\ (~ zero_band -> v ∈ xs).
Proof.
  intros LT TB HD Q0 Q1. destruct (sparse_inv thres head_size e xs total) as (A & B & C & D & E). exact (sparse_query_ok _ xs total q A B C D E LT TB HD Q0 Q1).
Qed.
Print Assumptions C26_total.
(** The same for a merged summary. *)
Theorem C26_merge thres head_size e xs ys total q :
  Z.of_nat (length (xs ++ ys)) <= total -> 1 <= total <= 2 ^ 53 -> is_double q -> (zq 0 <= q)%Qc -> (q <= zq 1)%Qc ->
  let below := count_below (xs ++ ys) in
  let above := count_above (xs ++ ys) in
  let zero_band := (fround (zq below / zq total) <= q)%Qc /\ (above = 0 \/ (q <= fround (zq (total - above) / zq total))%Qc) in
  exists v, snd (sq_query (merged_summary thres head_size e xs ys total) q) = Ok v /\
    (zero_band -> v = zq 0) /\ (~ zero_band -> v ∈ xs ++ ys).
Proof.
  intros LT TB HD Q0 Q1. destruct (sparse_inv thres head_size e xs 0) as (A1 & B1 & C1 & D1 & _), (sparse_inv thres head_size e ys 0) as (A2 & B2 & C2 & D2 & _).
  unfold merged_summary. set (s := sparse_summary thres head_size e xs 0) in *. set (s' := sparse_summary thres head_size e ys 0) in *.
  assert (X : nsmaller (xs ++ ys) = nsmaller xs + nsmaller ys /\ nbigger (xs ++ ys) = nbigger xs + nbigger ys).
  { unfold nsmaller, nbigger. rewrite !filter_app, !app_length, !Nat2Z.inj_add. auto. }
  destruct X as [X1 X2]. apply sparse_query_ok; auto; cbn [sq_set_total sq_merge sq_base sq_smaller sq_bigger].
  - now apply merge_inv.
  - unfold qs_merge. rewrite B1, B2. destruct (qs_count (sq_base s') =? 0); [exact B1|]. destruct (qs_count (sq_base s) =? 0); exact B1.
  - now rewrite X1, C1, C2.
  - now rewrite X2, D1, D2.
Qed.
Print Assumptions C26_merge.
Example C26_merge_ex :
  let s := merged_summary 10000 10000 e3 (ints [-5; 1]) (ints [2; 3]) 10 in
  map (fun q => match snd (sq_query s q) with Ok v => Some (this v) | Err _ => None end)
    [zq 0; Q2Qc (1 # 16); Q2Qc (1 # 4); Q2Qc (1 # 2); Q2Qc (3 # 4); Q2Qc (15 # 16); zq 1]
  = [Some (-5 # 1); Some (1 # 1); Some (0 # 1); Some (0 # 1); Some (1 # 1); Some (3 # 1); Some (3 # 1)]%Q.
Proof. vm_compute. reflexivity. Qed.
(** merge does not add the totals: if they were set before, the query counts the rows of the first summary only. Here each summary
    has seen three rows, two of them absent; merged, the median of the six rows is not zero any more. *)
Theorem C26_merge_total_refuted : exists xs ys t t' q v,
  is_double q /\ (zq 0 <= q)%Qc /\ (q <= zq 1)%Qc /\ Z.of_nat (length xs) <= t /\ Z.of_nat (length ys) <= t' /\
  snd (sq_query (merged_summary 10000 10000 e3 xs ys (t + t')) q) = Ok (zq 0) /\
  snd (sq_query (sq_merge (sparse_summary 10000 10000 e3 xs t) (sparse_summary 10000 10000 e3 ys t')) q) = Ok v /\ v <> zq 0.
Proof.
  exists (ints [1]), (ints [2]), 3, 3, (Q2Qc (1 # 2)). eexists. split; [exists 1, (-1); split; [lia|apply Qc_is_canon; reflexivity]|].
  split; [qle|]. split; [qle|]. split; [cbn; lia|]. split; [cbn; lia|]. split; [vm_compute; reflexivity|]. split; [vm_compute; reflexivity|]. discriminate.
Qed.
Print Assumptions C26_merge_total_refuted.

Example C26_ex :
  let s := sparse_summary 10000 10000 e3 (ints [-5; 1; 2; 3]) 10 in
  map (fun q => match snd (sq_query s q) with Ok v => Some (this v) | Err _ => None end)
    [zq 0; Q2Qc (1 # 16); Q2Qc (1 # 4); Q2Qc (1 # 2); Q2Qc (3 # 4); Q2Qc (15 # 16); zq 1]
  = [Some (-5 # 1); Some (1 # 1); Some (0 # 1); Some (0 # 1); Some (1 # 1); Some (3 # 1); Some (3 # 1)]%Q.
Proof. vm_compute. reflexivity. Qed.

(** Values on the abnormal list are counted on their side of zero although the summary drops them; then a legal query
    can fail: ten rows, eight of them -9999 (abnormal), one 5, one absent; query(0.5). *)
Theorem C26_abnormal_refuted : exists xs q,
  length xs = 9%nat /\ is_double q /\ (zq 0 <= q)%Qc /\ (q <= zq 1)%Qc /\
  let s := sinsert_all (sq_new 10000 10000 e3 [zq (-9999)]) xs in
  snd (sq_query (sq_set_total 10 (SQ (qs_compress (sq_base s)) (sq_smaller s) (sq_bigger s) (sq_total s))) q) = Err ValueError.
Proof.
  exists (zq 5 :: replicate 8 (zq (-9999))), (Q2Qc (1 # 2)). split; [reflexivity|]. split; [exists 1, (-1); split; [lia|apply Qc_is_canon; reflexivity]|].
  split; [qle|]. split; [qle|]. vm_compute. reflexivity.
Qed.
Print Assumptions C26_abnormal_refuted.

(** Without the compress() call the conversion divides by a count of zero. *)
Theorem C26_uncompressed_refuted : exists xs q,
  is_double q /\ (zq 0 <= q)%Qc /\ (q <= zq 1)%Qc /\
  snd (sq_query (sq_set_total 2 (sinsert_all (sq_new 10000 10000 e3 []) xs)) q) = Err ZeroDivisionError.
Proof.
  exists (ints [-5]), (Q2Qc (1 # 4)). split; [exists 1, (-2); split; [lia|apply Qc_is_canon; reflexivity]|].
  split; [qle|]. split; [qle|]. vm_compute. reflexivity.
Qed.
Print Assumptions C26_uncompressed_refuted.

(** ** C27 *)
Definition one_col (l : list Z) : list feats := map (fun z => FSparse (if z =? 0 then [] else [(0%nat, zq z)]) 1) l.

(** Ten sparse rows -5, 0 x6, 1, 2, 3 with 32 bins: the split points are not increasing. *)
Theorem C27_sorted_refuted : exists rows p sps sp,
  sparse_rows 1 rows /\ err_ok (bp_error p) /\ bp_abnormal p = [] /\
  fit_split_points p [0%nat] rows = Ok sps /\ dict_get 0%nat sps = Some sp /\
  exists a b rest, sp = a :: b :: rest /\ (b < a)%Qc.
Proof.
  exists (one_col [-5; 0; 0; 0; 0; 0; 0; 1; 2; 3]), (BP 10000 10000 e3 32 []). eexists _, _.
  split. { repeat apply Forall_cons_2; try apply Forall_nil_2; eexists _, _; (split; [reflexivity|split; [apply (bool_decide_unpack _); reflexivity|]]); repeat constructor. }
  split; [split; [apply fround_is_double|split; qle]|]. split; [reflexivity|].
  split; [vm_compute; reflexivity|]. split; [reflexivity|]. eexists _, _, _. split; [reflexivity|]. qlt.
Qed.
Print Assumptions C27_sorted_refuted.

(** With values on one side of zero only, sparse split points are strictly increasing; in every case they are distinct,
    at most bin_num - 1, and each is zero or a stored value of the column. *)
Theorem C27_one_sided {N} `{EqDecision N} (p : bin_params) (header : list N) rows :
  NoDup header -> rows <> [] -> sparse_rows (length header) rows ->
  err_ok (bp_error p) -> bp_abnormal p = [] -> Z.of_nat (length rows) <= bp_head p -> Z.of_nat (length rows) <= 2 ^ 50 ->
  exists sps, fit_split_points p header rows = Ok sps /\ map fst sps = header /\
    forall i c, header !! i = Some c -> exists sp, dict_get c sps = Some sp /\ NoDup sp /\
      (forall v, v ∈ sp -> v = zq 0 \/ v ∈ column i rows) /\ (length sp <= bp_bin_num p - 1)%nat /\
      (one_sided (column i rows) -> inc sp).
Proof.
  intros H1 H2 H3 H4 H5 H6 H7. destruct (fit_sparse p header rows H1 H2 H3 H4 H5 H6 H7) as (sps & F & K & A).
  exists sps. split; [exact F|]. split; [exact K|]. intros i c Hi. destruct (A i c Hi) as (sp & G & ND & Sub & Len & I). exists sp. repeat split; auto.
  intros v Hv%Sub. now apply elem_of_cons in Hv.
Qed.
Print Assumptions C27_one_sided.

Example C27_ex : exists sps sp, fit_split_points (BP 10000 10000 e3 4 []) [0%nat] (one_col [0; 4; 0; 1; 2; 0; 3; 5]) = Ok sps /\
  dict_get 0%nat sps = Some sp /\ map this sp = [0 # 1; 2 # 1; 3 # 1]%Q.
Proof. eexists _, _. split; [vm_compute; reflexivity|]. split; reflexivity. Qed.

(** ** C60 *)
(** Dense tables with at most head_size rows: fitting succeeds and gives every header name strictly increasing split
    points, each a value of that column (0 when every value is abnormal), at most bin_num - 1 of them. *)
Theorem C60_dense_increasing {N} `{EqDecision N} (p : bin_params) (header : list N) rows :
  NoDup header -> rows <> [] -> dense_rows (length header) rows ->
  err_ok (bp_error p) -> Z.of_nat (length rows) <= bp_head p -> Z.of_nat (length rows) <= 2 ^ 50 ->
  exists sps, fit_split_points p header rows = Ok sps /\ map fst sps = header /\
    forall i c, header !! i = Some c -> exists sp, dict_get c sps = Some sp /\ inc sp /\
      (forall v, v ∈ sp -> v ∈ kept (bp_abnormal p) (column i rows) \/ kept (bp_abnormal p) (column i rows) = [] /\ v = zq 0) /\
      (length sp <= bp_bin_num p - 1)%nat.
Proof.
  intros H1 H2 H3 H4 H5 H6. destruct (fit_dense p header rows H1 H2 H3 H4 H5 H6) as (sps & F & K & A).
  exists sps. split; [exact F|]. split; [exact K|]. intros i c Hi. destruct (A i c Hi) as (sp & G & I & Sub & Len). exists sp. repeat split; auto.
  intros v Hv%Sub. destruct (decide _) as [E|E]; [right; split; [exact E|now apply elem_of_list_singleton in Hv]|now left].
Qed.
Print Assumptions C60_dense_increasing.

Example C60_ex : exists sps sp sp', fit_split_points (BP 10000 10000 e3 4 []) [7%nat; 9%nat]
    (map (fun '(a, b) => FDense [zq a; zq b]) [(4, 1); (2, 1); (-1, 1); (8, 1); (6, 1)]) = Ok sps /\
  dict_get 7%nat sps = Some sp /\ map this sp = [2 # 1; 4 # 1; 6 # 1]%Q /\ dict_get 9%nat sps = Some sp' /\ map this sp' = [1 # 1]%Q.
Proof. eexists _, _, _. split; [vm_compute; reflexivity|]. repeat split; reflexivity. Qed.
