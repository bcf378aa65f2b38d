(** C82. *)
From Verif Require Import MergeProofs MergeCells.
Local Open Scope nat_scope.

(** However the rows are divided into partitions, in whatever order: merging the histograms of the partitions gives the histogram of all rows. *)
Theorem C82_partitions points zero_bins mask node_map (rows : list (hrow Qc)) parts :
  parts <> [] -> Permutation (concat parts) rows -> hist_ok (map (fun r => (r, (hr_bins r, (hr_state r, hr_node r)))) rows) points zero_bins mask node_map ->
  exists h, partitioned_histogram qops points zero_bins (Some mask) node_map parts = Ok h /\ batch_histogram qops points zero_bins (Some mask) node_map rows = Ok h.
Proof.
  intros NE P HO. exists (table points mask node_map (holds_of zero_bins node_map rows)). split; [|now apply batch_table].
  rewrite <- (table_perm points zero_bins mask node_map _ _ P). apply partitioned_table; [exact NE|]. apply (hist_ok_sub points zero_bins mask node_map rows); [|exact HO]. intros r. now rewrite P.
Qed.
Print Assumptions C82_partitions.
(** The same on ciphertexts: the merged histogram of encrypted partitions decrypts, cell by cell, to the nearest doubles of the histogram of all encoded rows, with the same counts; a cell that no row reached may be the plain int 0. *)
Theorem C82_encrypted n sk (parts : list (list (hrow Qc * hrow cell))) points zero_bins mask node_map :
  keypair n sk -> (2 ^ 1000 <= n)%Z -> parts <> [] -> (3 * Z.of_nat (length (concat parts)) <= 2 ^ 53)%Z -> (forall r, r ∈ concat parts -> encrypts n r.1 r.2) ->
  hist_ok (map (fun r => (r.1, (hr_bins r.1, (hr_state r.1, hr_node r.1)))) (concat parts)) points zero_bins mask node_map ->
  exists hc hq, partitioned_histogram pops points zero_bins (Some mask) node_map (map (map snd) parts) = Ok hc /\
    batch_histogram qops points zero_bins (Some mask) node_map (map (fun r => encoded n r.1) (concat parts)) = Ok hq /\
    forall nid fid p b, nid < length node_map -> points !! fid = Some p -> mask !! fid = Some true -> b <= length p ->
      exists t q, hget hc nid fid b = Some t /\ hget hq nid fid b = Some q /\ tc t = tc q /\
        ((exists v w, sk_decrypt sk (tg t) = Ok v /\ sk_decrypt sk (th t) = Ok w /\ FixedPointModel.num v = fround (tg q) /\ FixedPointModel.num w = fround (th q))
         \/ (t = Trip (CNum (PyInt 0)) (CNum (PyInt 0)) 0 /\ q = Trip (zq 0) (zq 0) 0)).
Proof.
  intros KP Hbig NE Hsize ENC HO. destruct (keypair_good n sk KP) as [G <-]. destruct HO as [HN HM HK HZ HR HB].
  set (vg := fun q : hrow Qc => leaf_value (sk_n sk) (hr_g q)). set (vh := fun q : hrow Qc => leaf_value (sk_n sk) (hr_h q)).
  assert (IN : forall r, r ∈ concat parts -> (r.1, (hr_bins r.1, (hr_state r.1, hr_node r.1))) ∈ map (fun r : hrow Qc * hrow cell => (r.1, (hr_bins r.1, (hr_state r.1, hr_node r.1)))) (concat parts)).
  { intros r I. apply elem_of_list_fmap. eauto. }
  destruct (partitioned_hist_of pops (cell_inv sk) (pops_laws sk G Hbig) vg vh points zero_bins mask node_map HK HZ HN HM parts NE) as (hc & Ec & Hc).
  { apply Forall_forall. intros r I. destruct (ENC r I) as (Eb & _ & _ & B1 & B2 & rr & s & x & y & Gr & Gs & Ex & Ey & Eg & Eh).
    destruct (fresh_cell sk G Hbig _ rr B1 Gr) as (x' & Ex' & Ix), (fresh_cell sk G Hbig _ s B2 Gs) as (y' & Ey' & Iy).
    rewrite Ex in Ex'. rewrite Ey in Ey'. injection Ex' as <-. injection Ey' as <-. unfold row_fine. rewrite Eb, Eg, Eh.
    split; [exact (HR _ _ (IN r I))|]. split; [exact Ix|]. split; [exact Iy|]. intros fid b. exact (HB _ _ fid b (IN r I)). }
  set (g := fun r : hrow Qc * hrow cell => (r.1, encoded (sk_n sk) r.1)).
  destruct (batch_hist_of qops (fun c _ q => c = q) qops_laws vg vh points zero_bins mask node_map HK HZ HN HM (map g (concat parts))) as (hq & Eq & Hq).
  { apply Forall_forall. intros r' I. apply elem_of_list_fmap in I as (r & -> & I). unfold row_fine. cbn [g fst snd encoded hr_bins hr_g hr_h].
    split; [exact (HR _ _ (IN r I))|]. split; [reflexivity|]. split; [reflexivity|]. intros fid b. exact (HB _ _ fid b (IN r I)). }
  rewrite map_map in Eq. exists hc, hq. split; [exact Ec|]. split; [exact Eq|]. intros nid fid p b Hn Hp Hm Hb.
  destruct (hist_of_cell _ vg vh points zero_bins mask node_map HK HN hc _ nid fid p b Hc Hn Hp Hm Hb) as (t & Et & T1 & T2 & T3).
  destruct (hist_of_cell _ vg vh points zero_bins mask node_map HK HN hq _ nid fid p b Hq Hn Hp Hm Hb) as (q & Et' & Q1 & Q2 & Q3).
  exists t, q. split; [exact Et|]. split; [exact Et'|].
  assert (PE : forall r, r ∈ concat parts -> (fun r => selected node_map r && in_bin zero_bins node_map nid fid b r) (g r) = (fun r : hrow Qc * hrow cell => selected node_map r && in_bin zero_bins node_map nid fid b r) r).
  { intros r I. destruct (ENC r I) as (Eb & Es & En & _). unfold selected, in_bin, at_node, g. cbn [fst snd encoded hr_bins hr_state hr_node]. now rewrite Eb, Es, En. }
  rewrite (sum_if_map _ _ _ _ _ PE) in Q1. rewrite (sum_if_map _ _ _ _ _ PE) in Q2. rewrite (count_if_map _ _ _ _ PE) in Q3. cbn [g fst] in Q1, Q2.
  rewrite <- Q1 in T1. rewrite <- Q2 in T2. split; [congruence|].
  destruct (weight_bounds points zero_bins mask node_map HK HN nid fid b (concat parts)) as [W1 W2]. rewrite <- T3 in W2.
  destruct (Z.eq_dec (weight zero_bins node_map nid fid b (concat parts)) 0) as [W|W].
  - right. rewrite W in *. destruct t as [ct cs k], q as [qg qh k']. cbn [tg th tc] in *. destruct ct as [v|x]; [|cbn in T1; lia]. destruct cs as [w|y]; [|cbn in T2; lia].
    destruct T1 as (-> & -> & _), T2 as (-> & -> & _). split; f_equal; lia.
  - left. destruct (cell_decrypt sk G Hbig _ _ _ T1) as (v & Dv & Ev); [lia|]. destruct (cell_decrypt sk G Hbig _ _ _ T2) as (w & Dw & Ew); [lia|]. exists v, w. auto.
Qed.
Print Assumptions C82_encrypted.
(** Merging needs the same mask everywhere: with different masks it raises or silently loses a feature, depending on the order. *)
Definition mex_points : list (list Qc) := [[zq 1]; [zq 2; zq 3]].
Definition mex_zero : dict nat nat := [(0, 0); (1, 0)].
Definition mex_rows : list (hrow Qc) := [HRow [(0, 1)] 1 7 (zq 2) (zq 1); HRow [(0, 0); (1, 2)] 1 7 (zq (-3)) (zq 1); HRow [(1, 1)] 1 8 (zq 5) (zq 1)].
Definition mex_part (mask : list bool) (rows : list (hrow Qc)) : res (hist Qc) := batch_histogram qops mex_points mex_zero (Some mask) [(7, 0); (8, 1)] rows.
Theorem C82_masks_refuted : exists h1 h2 h, mex_part [true; true] mex_rows = Ok h1 /\ mex_part [true; false] mex_rows = Ok h2 /\
  aggregate_histogram qops h1 h2 = Err IndexError /\ aggregate_histogram qops h2 h1 = Ok h /\ hget h1 0 1 2 <> None /\ hget h 0 1 2 = None.
Proof. eexists _, _, _. split; [vm_compute; reflexivity|]. split; [vm_compute; reflexivity|]. split; [vm_compute; reflexivity|]. split; [vm_compute; reflexivity|]. split; [vm_compute; discriminate|vm_compute; reflexivity]. Qed.
Print Assumptions C82_masks_refuted.
(** Three rows in two nodes, in two partitions and an empty one. *)
Example C82_ex : hist_ok (map (fun r => (r, (hr_bins r, (hr_state r, hr_node r)))) mex_rows) mex_points mex_zero [true; true] [(7, 0); (8, 1)] /\
  Permutation (concat [drop 1 mex_rows; []; take 1 mex_rows]) mex_rows /\
  match partitioned_histogram qops mex_points mex_zero (Some [true; true]) [(7, 0); (8, 1)] [drop 1 mex_rows; []; take 1 mex_rows] with
  | Ok h => match hget h 0 0 1, hget h 0 1 0, hget h 1 1 1 with Some s, Some t, Some u => (this (tg s), tc s) = (2 # 1, 1%Z)%Q /\ (this (tg t), tc t) = (2 # 1, 1%Z)%Q /\ (this (tg u), tc u) = (5 # 1, 1%Z)%Q | _, _, _ => False end
  | Err _ => False end.
Proof.
  split; [|split].
  - split.
    + cbn. lia.
    + intros nd i. cbn. repeat case_decide; intros [= <-] || intros [=]; lia.
    + reflexivity.
    + intros [|[|fid]] p; cbn; intros [= <-]; eexists; (split; [reflexivity|cbn; lia]).
    + intros k r I. cbn in I. repeat (apply elem_of_cons in I as [E|I]; [injection E as -> ->; cbn; repeat (apply NoDup_cons; split; [rewrite ?elem_of_cons, elem_of_nil; intuition congruence|]); apply NoDup_nil; exact Logic.I|]). now apply elem_of_nil in I.
    + intros k r fid b I. cbn in I. repeat (apply elem_of_cons in I as [E|I]; [injection E as -> ->; cbn; repeat case_decide; subst; first [intros [= <-]; eexists; (split; [reflexivity|cbn; lia])|intros X; discriminate X]|]). now apply elem_of_nil in I.
  - exact (Permutation_app_comm (drop 1 mex_rows) (take 1 mex_rows)).
  - vm_compute. auto.
Qed.

(** The hypotheses of the encrypted version can be met: a key of 2000 bits, rows of two nodes in two partitions. *)
Example C82_encrypted_ex : exists n sk (parts : list (list (hrow Qc * hrow cell))),
  keypair n sk /\ (2 ^ 1000 <= n)%Z /\ map length parts = [1; 2] /\ (3 * Z.of_nat (length (concat parts)) <= 2 ^ 53)%Z /\ (forall r, r ∈ concat parts -> encrypts n r.1 r.2) /\
  hist_ok (map (fun r => (r.1, (hr_bins r.1, (hr_state r.1, hr_node r.1)))) (concat parts)) mex_points mex_zero [true; true] [(7, 0); (8, 1)].
Proof.
  destruct (prime_above_Z (2 ^ 1000)) as (p & Hp & Pp). destruct (prime_above_Z p) as (q & Hq & Pq).
  assert (NE : p <> q) by lia. destruct (mk_privkey_ok p q Pp Pq NE) as (sk & Hsk & _).
  assert (KP : keypair (p * q) sk) by (exists p, q; auto). exists (p * q)%Z, sk.
  assert (BIG : (2 ^ 1000 <= p * q)%Z) by (assert (0 < 2 ^ 1000)%Z by reflexivity; nia).
  destruct (keypair_good _ _ KP) as [G EN]. rewrite <- EN in *.
  assert (B1 : (qabs (Q2Qc (1 # 2)) <= zq 1)%Qc) by (vm_compute; discriminate).
  assert (B2 : (qabs (Q2Qc (-1 # 4)) <= zq 1)%Qc) by (vm_compute; discriminate).
  assert (G1 : Z.gcd 1 (sk_n sk) = 1%Z) by apply Z.gcd_1_l.
  destruct (fresh_cell sk G BIG _ 1 B1 G1) as (x1 & X1 & _), (fresh_cell sk G BIG _ 1 B2 G1) as (x2 & X2 & _).
  exists [[(HRow [(0, 1)] 1 7 (Q2Qc (1 # 2)) (Q2Qc (1 # 2)), HRow [(0, 1)] 1 7 (CEnc x1) (CEnc x1))];
    [(HRow [(0, 0); (1, 2)] 1 7 (Q2Qc (-1 # 4)) (Q2Qc (1 # 2)), HRow [(0, 0); (1, 2)] 1 7 (CEnc x2) (CEnc x1)); (HRow [(1, 1)] 1 8 (Q2Qc (1 # 2)) (Q2Qc (1 # 2)), HRow [(1, 1)] 1 8 (CEnc x1) (CEnc x1))]].
  split; [exact KP|]. split; [exact BIG|]. split; [reflexivity|]. split; [vm_compute; discriminate|]. split.
  { intros r I. cbn [concat app] in I. repeat (apply elem_of_cons in I as [->|I]; [unfold encrypts; cbn [fst snd hr_bins hr_state hr_node hr_g hr_h]; split; [reflexivity|]; split; [reflexivity|]; split; [reflexivity|]; split; [assumption|]; split; [assumption|]; exists 1%Z, 1%Z; eauto 10|]). exfalso. apply elem_of_nil in I. exact I. }
  split.
  - cbn. lia.
  - intros nd i. cbn. repeat case_decide; intros [= <-] || intros [=]; lia.
  - reflexivity.
  - intros [|[|fid]] r; cbn; intros [= <-]; eexists; (split; [reflexivity|cbn; lia]).
  - intros k r H. cbn in H. repeat (apply elem_of_cons in H as [E|H]; [injection E as -> ->; cbn; apply (bool_decide_unpack _); reflexivity|]). inversion H.
  - intros k r fid b H. cbn in H. repeat (apply elem_of_cons in H as [E|H]; [injection E as -> ->; cbn [fst hr_bins dict_get]; repeat (match goal with |- context [decide (fid = ?k)] => destruct (decide (fid = k)) as [->|] end); intros [= <-]; eexists; (split; [reflexivity|cbn; lia])|]). inversion H.
Qed.
