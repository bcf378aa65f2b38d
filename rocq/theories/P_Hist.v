(** C31-C33: histograms. *)
From Verif Require Import HistPaillier.
Local Open Scope Z_scope.

(** C31. Before accumulation: with a feature mask, every cell (node, valid feature, bin) holds the sums of gradient, hessian
    and 1 over exactly the active rows of that node whose bin of the feature (the zero bin if absent) is that bin. *)
Theorem C31_bins points zero_bins mask node_map (rows : list (hrow Qc)) :
  let data := map (fun r => (r, (hr_bins r, (hr_state r, hr_node r)))) rows in
  hist_ok data points zero_bins mask node_map ->
  exists h, batch_histogram qops points zero_bins (Some mask) node_map rows = Ok h /\ length h = length node_map /\
    forall nid fid p b, (nid < length node_map)%nat -> points !! fid = Some p -> mask !! fid = Some true -> (b <= length p)%nat ->
      let P := fun r => in_node node_map nid (hr_bins r, (hr_state r, hr_node r)) && (bin_of zero_bins fid (hr_bins r) =? b)%nat in
      hget h nid fid b = Some (Trip (sum_if P hr_g rows) (sum_if P hr_h rows) (count_if P rows)).
Proof.
  intros data [HN HM HK HZ HR HB].
  assert (IN : forall r, r ∈ rows -> (r, (hr_bins r, (hr_state r, hr_node r))) ∈ data).
  { intros r Hr. apply elem_of_list_fmap. eauto. }
  pose proof (batch_ok_mask qops (fun c _ q => c = q) qops_laws (A := hrow Qc) hr_g hr_h points zero_bins (Some mask) node_map
    HK HZ HN HM mask (map (fun r => (r, r)) rows) eq_refl) as B.
  destruct B as (h & E & [S _] & D).
  { apply Forall_forall. intros [r r'] Hin. apply elem_of_list_fmap in Hin as (x & [= -> ->] & Hin).
    split; [exact (HR _ _ (IN x Hin))|]. split; [reflexivity|]. split; [reflexivity|].
    intros fid b Hb. exact (HB _ _ fid b (IN x Hin) Hb). }
  rewrite map_map, map_id in E. exists h. split; [exact E|]. split; [exact S|].
  intros nid fid p b Hn Hp Hm Hb P. destruct (D nid fid p b Hn Hp Hm Hb) as ([g w c] & Et & T1 & T2 & T3).
  rewrite Et. cbn [tg th tc] in *. rewrite sum_if_map in T1, T2. rewrite count_if_map in T3. cbn [fst] in *.
  assert (EQ : forall x, x ∈ rows -> selected node_map (x, x) && in_bin zero_bins node_map nid fid b (x, x) = P x).
  { intros x _. unfold selected, in_bin, at_node, P, in_node, dict_mem. cbn [fst snd].
    destruct (hr_state x =? 0)%Z; cbn [negb andb]; [reflexivity|].
    destruct (dict_get (hr_node x) node_map); cbn [andb]; [reflexivity|]. now rewrite bool_decide_false. }
  rewrite (sum_if_ext _ P _ rows EQ) in T1. rewrite (sum_if_ext _ P _ rows EQ) in T2. rewrite (count_if_ext _ P rows EQ) in T3. now subst.
Qed.
Print Assumptions C31_bins.

(** After accumulation, on the joined tables: entry b holds the sums over the rows of the node with bin at most b, and the
    last entry of every valid feature holds the totals of the node. *)
Theorem C31_accumulated {K} `{EqDecision K} (vg vh : K -> Qc) data (gh : dtable K (Qc * Qc)) points zero_bins mask node_map :
  dt_wf data -> dt_wf gh -> (forall k, k ∈ dt_keys data -> k ∈ dt_keys gh) ->
  (forall k c, (k, c) ∈ dt_data gh -> c = (vg k, vh k)) -> hist_ok (dt_data data) points zero_bins mask node_map ->
  exists h, get_histograms qops data gh points zero_bins (Some mask) node_map = Ok h /\
    forall nid fid p b, (nid < length node_map)%nat -> points !! fid = Some p -> mask !! fid = Some true -> (b <= length p)%nat ->
      let P := fun kd => below node_map zero_bins nid fid b kd.2 in
      let T := fun kd => in_node node_map nid kd.2 in
      hget h nid fid b = Some (Trip (sum_if P (fun kd => vg kd.1) (dt_data data)) (sum_if P (fun kd => vh kd.1) (dt_data data))
                                    (count_if P (dt_data data))) /\
      hget h nid fid (length p) = Some (Trip (sum_if T (fun kd => vg kd.1) (dt_data data)) (sum_if T (fun kd => vh kd.1) (dt_data data))
                                             (count_if T (dt_data data))).
Proof.
  intros Wd Wg Keys GH HO.
  destruct (get_histograms_ok qops (fun c _ q => c = q) qops_laws vg vh data gh points zero_bins node_map Wd Wg Keys) with (mask := mask)
    as (h & E & _ & D); [|exact HO|].
  { intros k c Hc. rewrite (GH k c Hc). auto. }
  exists h. split; [exact E|]. intros nid fid p b Hn Hp Hm Hb P T. split.
  - destruct (D nid fid p b Hn Hp Hm Hb) as ([g w c] & L & Et & _ & T1 & T2 & T3). rewrite Et. cbn in *. now subst.
  - destruct (D nid fid p (length p) Hn Hp Hm ltac:(lia)) as ([g w c] & L & Et & _ & T1 & T2 & T3). rewrite Et. cbn [tg th tc] in *.
    assert (EQ : forall kd, kd ∈ dt_data data -> below node_map zero_bins nid fid (length p) kd.2 = T kd).
    { intros [k r] Hin. unfold below, T. cbn [snd]. destruct (in_node node_map nid r) eqn:EN; [|reflexivity]. cbn [andb]. apply Nat.leb_le.
      unfold bin_of. destruct (dict_get fid r.1) as [c0|] eqn:Ec.
      - destruct (ho_bin _ _ _ _ _ HO k r fid c0 Hin Ec) as (p' & Hp' & Hc). rewrite Hp in Hp'. now injection Hp' as <-.
      - destruct (ho_zero _ _ _ _ _ HO fid p Hp) as (z & -> & Hz). exact Hz. }
    rewrite (sum_if_ext _ T _ _ EQ) in T1. rewrite (sum_if_ext _ T _ _ EQ) in T2. rewrite (count_if_ext _ T _ EQ) in T3. now subst.
Qed.
Print Assumptions C31_accumulated.

(** C32. Without a mask a cell holds only the rows that store the feature; a row of the node that lacks feature [fid] is in
    no bin of [fid], so the counts of all bins add up to less than the number of rows of the node. *)
Theorem C32_stored_only points zero_bins node_map (rows : list (hrow Qc)) :
  let data := map (fun r => (r, (hr_bins r, (hr_state r, hr_node r)))) rows in
  hist_ok data points zero_bins (map (fun _ => true) points) node_map ->
  exists h, batch_histogram qops points zero_bins None node_map rows = Ok h /\
    forall nid fid p, (nid < length node_map)%nat -> points !! fid = Some p ->
      let T := fun r => in_node node_map nid (hr_bins r, (hr_state r, hr_node r)) in
      (forall b, (b <= length p)%nat ->
        let P := fun r => T r && bool_decide (dict_get fid (hr_bins r) = Some b) in
        hget h nid fid b = Some (Trip (sum_if P hr_g rows) (sum_if P hr_h rows) (count_if P rows))) /\
      exists fh bh, h !! nid = Some fh /\ fh !! fid = Some bh /\
        foldr Z.add 0 (map tc (take (S (length p)) bh)) = count_if (fun r => T r && dict_mem fid (hr_bins r)) rows /\
        (forall r, r ∈ rows -> T r = true -> dict_get fid (hr_bins r) = None ->
           foldr Z.add 0 (map tc (take (S (length p)) bh)) < count_if T rows).
Proof.
  intros data [HN HM _ HZ HR HB].
  assert (IN : forall r, r ∈ rows -> (r, (hr_bins r, (hr_state r, hr_node r))) ∈ data).
  { intros r Hr. apply elem_of_list_fmap. eauto. }
  pose proof (batch_ok_none qops (fun c _ q => c = q) qops_laws (A := hrow Qc) hr_g hr_h points zero_bins None node_map
    I HN HM (map (fun r => (r, r)) rows) eq_refl) as B.
  destruct B as (h & E & D).
  { apply Forall_forall. intros [r r'] Hin. apply elem_of_list_fmap in Hin as (x & [= -> ->] & Hin).
    split; [exact (HR _ _ (IN x Hin))|]. split; [reflexivity|]. split; [reflexivity|].
    intros fid b Hb. exact (HB _ _ fid b (IN x Hin) Hb). }
  rewrite map_map, map_id in E. exists h. split; [exact E|].
  intros nid fid p Hn Hp T.
  assert (CELL : forall b, (b <= length p)%nat ->
     let P := fun r => T r && bool_decide (dict_get fid (hr_bins r) = Some b) in
        hget h nid fid b = Some (Trip (sum_if P hr_g rows) (sum_if P hr_h rows) (count_if P rows))).
  { intros b Hb P. destruct (D nid fid p b Hn Hp Hb) as ([g w c] & Et & T1 & T2 & T3).
    rewrite Et. cbn [tg th tc] in *. rewrite sum_if_map in T1, T2. rewrite count_if_map in T3. cbn [fst] in *.
    assert (EQ : forall x, x ∈ rows -> selected node_map (x, x) && stored_at node_map nid fid b (x, x) = P x).
    { intros x _. unfold selected, stored_at, at_node, P, T, in_node, dict_mem. cbn [fst snd].
      destruct (hr_state x =? 0)%Z; cbn [negb andb]; [reflexivity|].
      destruct (dict_get (hr_node x) node_map); cbn [andb]; [reflexivity|]. now rewrite bool_decide_false. }
    rewrite (sum_if_ext _ P _ rows EQ) in T1. rewrite (sum_if_ext _ P _ rows EQ) in T2. rewrite (count_if_ext _ P rows EQ) in T3. now subst. }
  split; [exact CELL|].
  pose proof (CELL 0%nat ltac:(lia)) as C0. unfold hget in C0. destruct (h !! nid) as [fh|] eqn:E1; [|discriminate].
  destruct (fh !! fid) as [bh|] eqn:E2; [|discriminate]. exists fh, bh. split; [reflexivity|]. split; [exact E2|].
  assert (SUM : forall k, (k <= length p)%nat -> foldr Z.add 0 (map tc (take (S k) bh)) =
     count_if (fun r => T r && match dict_get fid (hr_bins r) with Some c => (c <=? k)%nat | None => false end) rows).
  { assert (LK : forall b, (b <= length p)%nat -> exists t, bh !! b = Some t /\
      tc t = count_if (fun r => T r && bool_decide (dict_get fid (hr_bins r) = Some b)) rows).
    { intros b Hb. pose proof (CELL b Hb) as Cb. cbv zeta in Cb. unfold hget in Cb. rewrite E1, E2 in Cb. eauto. }
    assert (FA : forall l x, foldr Z.add 0 (l ++ [x]) = foldr Z.add 0 l + x).
    { induction l as [|y l IHl]; intros x; cbn; [lia|]. rewrite IHl. lia. }
    induction k as [|k IH]; intros Hk.
    - destruct (LK 0%nat Hk) as (t & Ht & Et). rewrite (take_S_r bh 0 t Ht), map_app. cbn [map]. rewrite FA, Et, take_0. change (foldr Z.add 0 (map tc [])) with 0. rewrite Z.add_0_l.
      apply count_if_ext. intros x _. f_equal. destruct (dict_get fid (hr_bins x)) as [[|c]|]; [now rewrite bool_decide_true|rewrite bool_decide_false; [reflexivity|discriminate]..].
    - destruct (LK (S k) Hk) as (t & Ht & Et). rewrite (take_S_r bh (S k) t Ht), map_app. cbn [map]. rewrite FA, IH, Et by lia. symmetry.
      apply count_if_split. intros x _. destruct (T x); cbn [andb]; [|auto].
      destruct (dict_get fid (hr_bins x)) as [c|]; [|rewrite bool_decide_false by congruence; auto].
      destruct (Nat.leb_spec c (S k)), (Nat.leb_spec c k); try lia.
      + rewrite bool_decide_false by (intros [= ->]; lia). auto.
      + rewrite bool_decide_true by (f_equal; lia). auto.
      + rewrite bool_decide_false by (intros [= ->]; lia). auto. }
  assert (TOT : foldr Z.add 0 (map tc (take (S (length p)) bh)) = count_if (fun r => T r && dict_mem fid (hr_bins r)) rows).
  { rewrite SUM by lia. apply count_if_ext. intros x Hx. f_equal. unfold dict_mem.
    destruct (dict_get fid (hr_bins x)) as [c|] eqn:Ec; [|reflexivity]. apply Nat.leb_le.
    destruct (HB _ _ fid c (IN x Hx) Ec) as (p' & Hp' & Hc). rewrite Hp in Hp'. now injection Hp' as <-. }
  split; [exact TOT|]. intros r Hr Tr Nr. rewrite TOT.
  rewrite (count_if_split T (fun r => T r && dict_mem fid (hr_bins r)) (fun r => T r && negb (dict_mem fid (hr_bins r)))).
  2: { intros x _. destruct (T x), (dict_mem fid (hr_bins x)); auto. }
  assert (POS : forall l, r ∈ l -> 0 < count_if (fun r => T r && negb (dict_mem fid (hr_bins r))) l).
  { induction l as [|y l IHl]; intros Hin; [inversion Hin|]. rewrite count_if_cons.
    pose proof (count_if_bound (fun r => T r && negb (dict_mem fid (hr_bins r))) l).
    apply elem_of_cons in Hin as [<-|Hin]; [|specialize (IHl Hin); destruct (T y && negb (dict_mem fid (hr_bins y))); lia].
    unfold dict_mem at 1. rewrite Tr, Nr. cbn [negb andb]. lia. }
  specialize (POS rows Hr). lia.
Qed.
Print Assumptions C32_stored_only.

(** C33. The histogram of a ciphertext table decrypts, cell by cell, to the nearest doubles of the histogram of the encoded
    plaintexts, with the same counts; a cell that no row reached may be the plain int 0. No exception is raised. *)
Theorem C33_encrypted {K} `{EqDecision K} n sk (vg vh : K -> Qc) data (ghc : dtable K (cell * cell)) points zero_bins mask node_map :
  keypair n sk -> 2 ^ 1000 <= n -> 3 * Z.of_nat (length (dt_data data)) <= 2 ^ 53 ->
  dt_wf data -> dt_wf ghc -> (forall k, k ∈ dt_keys data -> k ∈ dt_keys ghc) ->
  (forall k, k ∈ dt_keys ghc -> (qabs (vg k) <= zq 1)%Qc /\ (qabs (vh k) <= zq 1)%Qc) ->
  (forall k c, (k, c) ∈ dt_data ghc -> exists r s x y, Z.gcd r n = 1 /\ Z.gcd s n = 1 /\
     pk_encrypt n (PyFloat (vg k)) None None r = Ok x /\ pk_encrypt n (PyFloat (vh k)) None None s = Ok y /\ c = (CEnc x, CEnc y)) ->
  hist_ok (dt_data data) points zero_bins mask node_map ->
  let encoded := DT (map (fun kc => (kc.1, (leaf_value n (vg kc.1), leaf_value n (vh kc.1)))) (dt_data ghc)) in
  exists hc hq, get_histograms pops data ghc points zero_bins (Some mask) node_map = Ok hc /\
    get_histograms qops data encoded points zero_bins (Some mask) node_map = Ok hq /\
    forall nid fid p b, (nid < length node_map)%nat -> points !! fid = Some p -> mask !! fid = Some true -> (b <= length p)%nat ->
      exists t q, hget hc nid fid b = Some t /\ hget hq nid fid b = Some q /\ tc t = tc q /\
        ((exists v w, sk_decrypt sk (tg t) = Ok v /\ sk_decrypt sk (th t) = Ok w /\
             FixedPointModel.num v = fround (tg q) /\ FixedPointModel.num w = fround (th q))
         \/ (t = Trip (CNum (PyInt 0)) (CNum (PyInt 0)) 0 /\ q = Trip (zq 0) (zq 0) 0)).
Proof.
  intros KP Hbig Hsize Wd Wg Keys Bnd ENC HO encoded. destruct (keypair_good n sk KP) as [G <-].
  assert (KEQ : (dt_data encoded).*1 = (dt_data ghc).*1).
  { unfold encoded. cbn [dt_data]. generalize (dt_data ghc). clear. intros l. induction l as [|x l IH]; [reflexivity|]. cbn. f_equal. exact IH. }
  assert (We : dt_wf encoded) by (unfold dt_wf; now rewrite KEQ).
  assert (KE : forall k, k ∈ dt_keys encoded <-> k ∈ dt_keys ghc).
  { intros k. unfold dt_keys. change (map fst (dt_data encoded)) with (dt_data encoded).*1. now rewrite KEQ. }
  destruct (get_histograms_ok pops (cell_inv sk) (pops_laws sk G Hbig) (fun k => leaf_value (sk_n sk) (vg k))
    (fun k => leaf_value (sk_n sk) (vh k)) data ghc points zero_bins node_map Wd Wg Keys) with (mask := mask) as (hc & Ec & _ & Dc); [|exact HO|].
  { intros k c Hc. destruct (ENC k c Hc) as (r & s & x & y & Gr & Gs & Ex & Ey & ->).
    destruct (Bnd k) as [B1 B2]. { apply (elem_of_list_fmap_1 fst _ _ Hc). }
    destruct (fresh_cell sk G Hbig (vg k) r B1 Gr) as (x' & Ex' & Ix), (fresh_cell sk G Hbig (vh k) s B2 Gs) as (y' & Ey' & Iy).
    rewrite Ex in Ex'. rewrite Ey in Ey'. injection Ex' as <-. injection Ey' as <-. auto. }
  destruct (get_histograms_ok qops (fun c _ q => c = q) qops_laws (fun k => leaf_value (sk_n sk) (vg k))
    (fun k => leaf_value (sk_n sk) (vh k)) data encoded points zero_bins node_map Wd We) with (mask := mask) as (hq & Eq & _ & Dq); [| |exact HO|].
  { intros k. rewrite KE. apply Keys. }
  { intros k c Hc. unfold encoded in Hc. cbn [dt_data] in Hc. apply elem_of_list_fmap in Hc as ([k' c'] & [= -> ->] & _). auto. }
  exists hc, hq. split; [exact Ec|]. split; [exact Eq|]. intros nid fid p b Hn Hp Hm Hb.
  destruct (Dc nid fid p b Hn Hp Hm Hb) as (t & L & Et & HL & T1 & T2 & T3).
  destruct (Dq nid fid p b Hn Hp Hm Hb) as (q & L' & Eq' & _ & Q1 & Q2 & Q3).
  exists t, q. split; [exact Et|]. split; [exact Eq'|]. split; [congruence|]. cbv beta in *.
  rewrite <- Q1 in T1. rewrite <- Q2 in T2. rewrite <- T3 in HL.
  match type of T3 with _ = ?c => assert (0 <= c) by apply count_if_bound end.
  destruct (Z.eq_dec L 0) as [->|NL].
  - right. assert (C0 : tc t = 0) by lia. destruct t as [ct cs k], q as [qg qh k']. cbn [tg th tc] in *.
    destruct ct as [v|x]; [|cbn in T1; lia]. destruct cs as [w|y]; [|cbn in T2; lia].
    destruct T1 as (-> & -> & _), T2 as (-> & -> & _). split; f_equal; lia.
  - left. destruct (cell_decrypt sk G Hbig _ _ _ T1) as (v & Dv & Ev); [lia|].
    destruct (cell_decrypt sk G Hbig _ _ _ T2) as (w & Dw & Ew); [lia|]. exists v, w. auto.
Qed.
Print Assumptions C33_encrypted.

(** Three rows in one node, feature 0 with two thresholds and zero bin 1, feature 1 masked. *)
Definition ex_points : list (list Qc) := [[zq 1; zq 2]; [zq 5]].
Definition ex_zero : dict nat nat := [(0, 1); (1, 0)]%nat.
Definition ex_rows : list (hrow Qc) :=
  [HRow [(0, 2)]%nat 1 7%nat (zq 3) (zq 1); HRow [(1, 1)]%nat 1 7%nat (zq 5) (zq 1); HRow [(0, 0); (1, 0)]%nat 1 7%nat (zq (-4)) (zq 1);
   HRow [(0, 2)]%nat 1 8%nat (zq 100) (zq 1)].
Definition show {C} (f : C -> Q) (h : res (hist C)) : option (list (list (list (Q * Z)))) :=
  match h with Ok h => Some (map (map (map (fun t => (f (tg t), tc t)))) h) | Err _ => None end.

Example C31_ex :
  hist_ok (map (fun r => (r, (hr_bins r, (hr_state r, hr_node r)))) ex_rows) ex_points ex_zero [true; false] [(7, 0)]%nat /\
  show this (batch_histogram qops ex_points ex_zero (Some [true; false]) [(7, 0)]%nat ex_rows)
    = Some [[[((-4 # 1)%Q, 1); ((5 # 1)%Q, 1); ((3 # 1)%Q, 1)]; []]] /\
  show this (h ← batch_histogram qops ex_points ex_zero (Some [true; false]) [(7, 0)]%nat ex_rows; accumulate_histogram qops h)
    = Some [[[((-4 # 1)%Q, 1); ((1 # 1)%Q, 2); ((4 # 1)%Q, 3)]; []]].
Proof.
  split; [|split; vm_compute; reflexivity]. constructor.
  - cbn. lia.
  - intros nd i. cbn. destruct (decide (nd = 7%nat)); intros [= <-]. lia.
  - reflexivity.
  - intros [|[|fid]] p; cbn; intros [= <-]; eexists; (split; [reflexivity|cbn; lia]).
  - intros k r H. repeat (apply elem_of_cons in H as [[= -> ->]|H]; [cbn; apply (bool_decide_unpack _); reflexivity|]). inversion H.
  - intros k r fid b H. repeat (apply elem_of_cons in H as [[= -> ->]|H];
      [cbn [fst hr_bins dict_get]; repeat (match goal with |- context [decide (fid = ?k)] => destruct (decide (fid = k)) as [->|] end); intros [= <-]; eexists; (split; [reflexivity|cbn; lia])|]). inversion H.
Qed.

(** Without the mask the second row is in no bin of feature 0. *)
Example C32_ex : show this (batch_histogram qops ex_points ex_zero None [(7, 0)]%nat ex_rows)
  = Some [[[((-4 # 1)%Q, 1); ((0 # 1)%Q, 0); ((3 # 1)%Q, 1)]; [((-4 # 1)%Q, 1); ((5 # 1)%Q, 1)]]].
Proof. vm_compute. reflexivity. Qed.

(** The hypotheses of C33 can be met: a key of 2000 bits, two rows in different bins with gradients 1/2 and -1/4. *)
Definition ex_data : dtable nat (dict nat nat * (Z * nat)) := DT [(10%nat, ([(0, 2)]%nat, (1, 7%nat))); (11%nat, ([], (1, 7%nat)))].
Example C33_ex : exists n sk (ghc : dtable nat (cell * cell)),
  let vg := fun k : nat => if (k =? 10)%nat then Q2Qc (1 # 2) else Q2Qc (-1 # 4) in
  let vh := fun _ : nat => Q2Qc (1 # 4) in
  keypair n sk /\ 2 ^ 1000 <= n /\ dt_wf ex_data /\ dt_wf ghc /\ (forall k, k ∈ dt_keys ex_data <-> k ∈ dt_keys ghc) /\
  (forall k, k ∈ dt_keys ex_data -> (qabs (vg k) <= zq 1)%Qc /\ (qabs (vh k) <= zq 1)%Qc) /\
  (forall k c, (k, c) ∈ dt_data ghc -> exists r s x y, Z.gcd r n = 1 /\ Z.gcd s n = 1 /\
     pk_encrypt n (PyFloat (vg k)) None None r = Ok x /\ pk_encrypt n (PyFloat (vh k)) None None s = Ok y /\ c = (CEnc x, CEnc y)) /\
  hist_ok (dt_data ex_data) ex_points ex_zero [true; false] [(7, 0)]%nat.
Proof.
  destruct (prime_above_Z (2 ^ 1000)) as (p & Hp & Pp). destruct (prime_above_Z p) as (q & Hq & Pq).
  assert (NE : p <> q) by lia. destruct (mk_privkey_ok p q Pp Pq NE) as (sk & Hsk & _).
  assert (KP : keypair (p * q) sk) by (exists p, q; auto). exists (p * q), sk.
  assert (BIG : 2 ^ 1000 <= p * q) by (assert (0 < 2 ^ 1000) by reflexivity; nia).
  destruct (keypair_good _ _ KP) as [G EN]. rewrite <- EN in *.
  assert (B1 : (qabs (Q2Qc (1 # 2)) <= zq 1)%Qc) by (vm_compute; discriminate).
  assert (B2 : (qabs (Q2Qc (-1 # 4)) <= zq 1)%Qc) by (vm_compute; discriminate).
  assert (B3 : (qabs (Q2Qc (1 # 4)) <= zq 1)%Qc) by (vm_compute; discriminate).
  assert (G1 : Z.gcd 1 (sk_n sk) = 1) by apply Z.gcd_1_l.
  destruct (fresh_cell sk G BIG _ 1 B1 G1) as (x1 & X1 & _), (fresh_cell sk G BIG _ 1 B2 G1) as (x2 & X2 & _),
    (fresh_cell sk G BIG _ 1 B3 G1) as (x3 & X3 & _).
  exists (DT [(11%nat, (CEnc x2, CEnc x3)); (10%nat, (CEnc x1, CEnc x3))]). intros vg vh.
  split; [exact KP|]. split; [exact BIG|].
  split; [unfold dt_wf; apply (bool_decide_unpack _); reflexivity|]. split; [unfold dt_wf; apply (bool_decide_unpack _); reflexivity|].
  split. { intros k. unfold dt_keys, ex_data. cbn [dt_data map fst]. rewrite !elem_of_cons. tauto. }
  split. { intros k _. split; [|exact B3]. unfold vg. destruct (k =? 10)%nat; assumption. }
  split.
  { intros k c H. exists 1, 1. cbn [dt_data] in H. apply elem_of_cons in H as [[= -> ->]|H].
    - exists x2, x3. auto 6.
    - apply elem_of_cons in H as [[= -> ->]|H]; [exists x1, x3; auto 6|inversion H]. }
  constructor.
  - cbn. lia.
  - intros nd i. cbn. destruct (decide (nd = 7%nat)); intros [= <-]. lia.
  - reflexivity.
  - intros [|[|fid]] r; cbn; intros [= <-]; eexists; (split; [reflexivity|cbn; lia]).
  - intros k r H. repeat (apply elem_of_cons in H as [[= -> ->]|H]; [cbn; apply (bool_decide_unpack _); reflexivity|]). inversion H.
  - intros k r fid b H. repeat (apply elem_of_cons in H as [[= -> ->]|H];
      [cbn [fst hr_bins dict_get]; repeat (match goal with |- context [decide (fid = ?k)] => destruct (decide (fid = k)) as [->|] end); intros [= <-]; eexists; (split; [reflexivity|cbn; lia])|]). inversion H.
Qed.
