(** Properties C54 and C55. *)
From Verif Require Import DTableProofs BoostModel StatModel StatSpec StatProofs ProcModel ProcProofs.
Local Open Scope Qc_scope.

(** ** C54 *)
(** Whatever the rounding: a history raises exactly if it meets a value whose square is no float, and otherwise counts the values it
    has seen and holds their largest and smallest (of those above -2^63 and below 2^63 - 1 respectively). *)
Theorem C54_order rnd abnormal p :
  ((exists s, play rnd abnormal p = Ok s) <-> forall v, v ∈ seen abnormal p -> squarable v) /\
  (forall e, play rnd abnormal p = Err e -> e = OverflowError) /\
  forall s, play rnd abnormal p = Ok s ->
    ss_count s = Z.of_nat (length (seen abnormal p)) /\
    ((exists v, v ∈ seen abnormal p /\ zq (- 2 ^ 63) < v) -> largest (seen abnormal p) (ss_max s)) /\
    ((exists v, v ∈ seen abnormal p /\ v < zq (2 ^ 63 - 1)) -> smallest (seen abnormal p) (ss_min s)).
Proof.
  split; [|split].
  - pose proof (play_cases rnd abnormal p) as [(s & E & _ & H)|(E & v & V & NS)]; split; eauto.
    + intros [s E']. rewrite E in E'. discriminate E'.
    + intros H. exfalso. now apply NS, H.
  - intros e E. pose proof (play_cases rnd abnormal p) as [(s & E' & _)|(E' & _)]; congruence.
  - intros s E. destruct (play_order rnd abnormal p s E) as (C & M1 & M2 & M3 & m1 & m2 & m3). split; [exact C|]. split.
    + intros (v & V & L). split; [|exact M1]. destruct M3 as [M3|M3]; [exact M3|]. exfalso. specialize (M1 v V). rewrite M3 in M1. now apply Qclt_not_le in L.
    + intros (v & V & L). split; [|exact m1]. destruct m3 as [m3|m3]; [exact m3|]. exfalso. specialize (m1 v V). rewrite m3 in m1. now apply Qclt_not_le in L.
Qed.
Print Assumptions C54_order.

(** In exact arithmetic any grouping gives the batch statistics: sum, mean, and as variance the mean squared deviation, shown as 0
    when it is below 1e-6; it is never negative. *)
Theorem C54_exact rnd abnormal p s : (forall x, rnd x = x) -> play rnd abnormal p = Ok s ->
  let l := seen abnormal p in
  ss_sum s = addup l /\ ss_square s = squares l /\
  (l = [] -> ss_mean rnd s = Err ZeroDivisionError /\ ss_variance rnd s = Err ZeroDivisionError) /\
  (l <> [] -> ss_mean rnd s = Ok (average l) /\ 0 <= spread l /\
     ss_variance rnd s = Ok (if qltb (spread l) FLOAT_ZERO then 0 else spread l) /\
     forall sqrt, ss_std rnd sqrt s = Ok (if qltb (spread l) FLOAT_ZERO then 0 else sqrt (spread l))).
Proof.
  intros R E l. destruct (play_exact rnd abnormal p s R E) as [ES EQ]. destruct (play_order rnd abnormal p s E) as (C & _). fold l in ES, EQ, C.
  split; [exact ES|]. split; [exact EQ|]. split.
  - intros El. rewrite El in C. unfold ss_variance, ss_mean. rewrite C. auto.
  - intros NE. assert (M : ss_mean rnd s = Ok (average l)).
    { unfold ss_mean. rewrite C. assert (X : (Z.of_nat (length l) =? 0)%Z = false) by (apply Z.eqb_neq; destruct l; [congruence|cbn; lia]). rewrite X, R, ES. reflexivity. }
    assert (V : ss_variance rnd s = Ok (if qltb (spread l) FLOAT_ZERO then 0 else spread l)).
    { unfold ss_variance. rewrite M. cbn [mbind res_bind]. cbv zeta. rewrite !R, ES, EQ, C, <- (spread_eq l NE), (qabs_pos _ (spread_nonneg l NE)). reflexivity. }
    split; [exact M|]. split; [now apply spread_nonneg|]. split; [exact V|].
    intros sqrt. unfold ss_std. rewrite V. cbn [mbind res_bind]. destruct (qltb (spread l) FLOAT_ZERO) eqn:T.
    + change (qltb (qabs 0) FLOAT_ZERO) with true. reflexivity.
    + rewrite (qabs_pos _ (spread_nonneg l NE)), T. assert (X : qltb (spread l) (zq 0) = false) by (apply qltb_false, spread_nonneg, NE). now rewrite X.
Qed.
Print Assumptions C54_exact.

(** Computed with doubles, after n additions and merges the sum is within ((1 + 2^-53)^n - 1) times the sum of the absolute values,
    and the sum of squares within ((1 + 2^-53)^(n+1) - 1) times itself. *)
Theorem C54_error abnormal p s : play fround abnormal p = Ok s ->
  let l := seen abnormal p in
  qabs (ss_sum s - addup l) <= (Qcpower (1 + p2 (-53)) (ops p) - 1) * addup (map qabs l) /\
  qabs (ss_square s - squares l) <= (Qcpower (1 + p2 (-53)) (S (ops p)) - 1) * squares l.
Proof.
  assert (G : forall n, growth n = Qcpower (1 + p2 (-53)) n). { induction n as [|n IH]; [reflexivity|]. cbn [growth Qcpower]. rewrite IH. unfold unit_err. ring. }
  intros E. cbv zeta. rewrite <- !G. now apply play_error.
Qed.
Print Assumptions C54_error.

(** Integers whose squares add up to at most 2^53 are summed without error; the mean is then the rounded quotient. *)
Theorem C54_integers abnormal p s zs : play fround abnormal p = Ok s -> seen abnormal p = map zq zs -> (foldr Z.add 0 (map (fun z => z * z) zs) <= 2 ^ 53)%Z ->
  ss_sum s = zq (foldr Z.add 0%Z zs) /\ ss_square s = zq (foldr Z.add 0 (map (fun z => z * z) zs))%Z /\
  (zs <> [] -> ss_mean fround s = Ok (fround (zq (foldr Z.add 0%Z zs) / zq (Z.of_nat (length zs))))).
Proof.
  assert (G : foldr Z.add 0%Z (map (fun z => z * z)%Z zs) = zsquares zs). { induction zs as [|z zs IH]; [reflexivity|]. cbn [map foldr]. rewrite IH. reflexivity. }
  rewrite G. intros E S L. destruct (play_integers abnormal p s E zs S L) as [A B]. split; [exact A|]. split; [exact B|].
  intros NE. destruct (play_order fround abnormal p s E) as (C & _). unfold ss_mean. rewrite C, S, map_length, A.
  assert (X : (Z.of_nat (length zs) =? 0)%Z = false) by (apply Z.eqb_neq; destruct zs; [congruence|cbn; lia]). now rewrite X.
Qed.
Print Assumptions C54_integers.

Definition exh : history := HMerge (HAdd (HAdd (HAdd HNew (zq 4)) (zq (-9))) (zq 1)) (HMerge (HAdd HNew (zq 7)) (HAdd (HAdd HNew (zq 2)) (zq (-9)))).
Example C54_ex : exists s, play fround [zq (-9)] exh = Ok s /\ map this (seen [zq (-9)] exh) = [4 # 1; 1 # 1; 7 # 1; 2 # 1]%Q /\ ops exh = 8%nat /\
  this (ss_sum s) = (14 # 1)%Q /\ this (ss_max s) = (7 # 1)%Q /\ this (ss_min s) = (1 # 1)%Q /\ (this <$> ss_mean fround s) = Ok (7 # 2)%Q /\ (this <$> ss_variance fround s) = Ok (21 # 4)%Q.
Proof. eexists. split; [vm_compute; reflexivity|]. repeat split; vm_compute; reflexivity. Qed.

(** The variance of a constant column of three values 100000001 comes out as -4, and the standard deviation raises ValueError. *)
Theorem C54_negative_refuted : exists x s, play fround [] (adds [x; x; x]) = Ok s /\ is_double x /\ spread [x; x; x] = 0 /\
  (exists v, ss_variance fround s = Ok v /\ v < 0) /\ forall sqrt, ss_std fround sqrt s = Err ValueError.
Proof.
  exists (zq 100000001). eexists. split; [vm_compute; reflexivity|]. split; [apply is_double_zq; lia|]. split; [apply Qc_is_canon; vm_compute; reflexivity|].
  split; [eexists; split; [vm_compute; reflexivity|vm_compute; reflexivity]|]. intros sqrt. vm_compute. reflexivity.
Qed.
Print Assumptions C54_negative_refuted.

(** All values below -2^63: the maximum is -2^63, not a value that was added. *)
Theorem C54_maximum_refuted : exists l s, l <> [] /\ play fround [] (adds l) = Ok s /\ forall m, largest l m -> m <> ss_max s.
Proof.
  exists [zq (- 2 ^ 64)]. eexists. split; [discriminate|]. split; [vm_compute; reflexivity|]. intros m [H%elem_of_list_singleton _]. subst m. intros E.
  apply (f_equal this) in E. vm_compute in E. discriminate E.
Qed.
Print Assumptions C54_maximum_refuted.

(** One pass over a table: per column the history of its values; two such dictionaries aggregate to those of the concatenated rows. *)
Theorem C54_columns {N K} `{EqDecision N} (rnd : Qc -> Qc) abnormal (header : list N) (rows : list (K * list Qc)) d :
  NoDup header -> Forall (fun r => length r.2 = length header) rows -> static_in_partition rnd (init_cols header) abnormal rows = Ok d ->
  map fst d = header /\ forall i c, header !! i = Some c -> exists s, dict_get c d = Some s /\ play rnd abnormal (adds (cells i rows)) = Ok s.
Proof.
  intros ND W E. destruct (static_ok rnd abnormal header rows ND W) as [(f & E' & P)|(E' & _)]; rewrite E in E'; [injection E' as ->|discriminate E'].
  split; [apply cols_fst|]. intros i c Hi. exists (f i). split; [now apply cols_get|]. apply P. eapply lookup_lt_Some; eauto.
Qed.
Print Assumptions C54_columns.
Theorem C54_aggregate {N K} `{EqDecision N} abnormal (header : list N) (rows rows' : list (K * list Qc)) d d' :
  let rnd := fun x : Qc => x in
  NoDup header -> Forall (fun r => length r.2 = length header) (rows ++ rows') ->
  static_in_partition rnd (init_cols header) abnormal rows = Ok d -> static_in_partition rnd (init_cols header) abnormal rows' = Ok d' ->
  exists d'', static_in_partition rnd (init_cols header) abnormal (rows ++ rows') = Ok d'' /\ aggregate_statics rnd (Some d) (Some d') = Ok (Some d'').
Proof.
  intros rnd ND W E E'. pose proof W as [W1 W2]%Forall_app.
  destruct (static_ok rnd abnormal header rows ND W1) as [(f & F & P)|(F & _)]; rewrite E in F; [injection F as ->|discriminate F].
  destruct (static_ok rnd abnormal header rows' ND W2) as [(f' & F & P')|(F & _)]; rewrite E' in F; [injection F as ->|discriminate F].
  rewrite (aggregate_ok rnd header f f' ND).
  assert (R : forall x, rnd x = x) by reflexivity.
  assert (SA : forall i, seen abnormal (adds (cells i (rows ++ rows'))) = seen abnormal (HMerge (adds (cells i rows)) (adds (cells i rows')))).
  { intros i. cbn [seen]. rewrite !seen_adds, cells_app. unfold QuantileSpec.kept. apply filter_app. }
  destruct (static_ok rnd abnormal header (rows ++ rows') ND W) as [(g & F & Q)|(F & i & v & LI & V & NA & NS)].
  - eexists. split; [exact F|]. do 2 f_equal. apply cols_ext. intros i LI.
    assert (M : play rnd abnormal (HMerge (adds (cells i rows)) (adds (cells i rows'))) = Ok (ss_merge rnd (f i) (f' i))). { cbn [play]. rewrite (P i LI), (P' i LI). reflexivity. }
    specialize (Q i LI). destruct (play_exact rnd _ _ _ R M) as [A B]. destruct (play_exact rnd _ _ _ R Q) as [A' B']. rewrite (SA i) in A', B'.
    destruct (play_order rnd _ _ _ M) as (C & M1 & M2 & M3 & m1 & m2 & m3). destruct (play_order rnd _ _ _ Q) as (C' & M1' & M2' & M3' & m1' & m2' & m3'). rewrite (SA i) in C', M1', M3', m1', m3'.
    pose proof (play_cases rnd abnormal (HMerge (adds (cells i rows)) (adds (cells i rows')))) as [(s1 & E1 & AB & _)|(E1 & _)]; rewrite M in E1; [injection E1 as <-|discriminate E1].
    pose proof (play_cases rnd abnormal (adds (cells i (rows ++ rows')))) as [(s2 & E2 & AB' & _)|(E2 & _)]; rewrite Q in E2; [injection E2 as <-|discriminate E2].
    assert (MX : ss_max (ss_merge rnd (f i) (f' i)) = ss_max (g i)).
    { apply Qcle_antisym; [destruct M3 as [X| ->]; [now apply M1'|exact M2']|destruct M3' as [X| ->]; [now apply M1|exact M2]]. }
    assert (MN : ss_min (ss_merge rnd (f i) (f' i)) = ss_min (g i)).
    { apply Qcle_antisym; [destruct m3' as [X| ->]; [now apply m1|exact m2]|destruct m3 as [X| ->]; [now apply m1'|exact m2']]. }
    revert A B C AB MX MN. clear M M1 M2 M3 m1 m2 m3. destruct (ss_merge rnd (f i) (f' i)) as [x1 x2 x3 x4 x5 x6], (g i) as [y1 y2 y3 y4 y5 y6]. cbn in *. intros. congruence.
  - exfalso. rewrite cells_app in V. apply elem_of_app in V as [V|V].
    + specialize (P i LI). pose proof (play_cases rnd abnormal (adds (cells i rows))) as [(s & _ & _ & G)|(X & _)]; [|congruence].
      apply NS, G. rewrite seen_adds. unfold QuantileSpec.kept. apply elem_of_list_filter. auto.
    + specialize (P' i LI). pose proof (play_cases rnd abnormal (adds (cells i rows'))) as [(s & _ & _ & G)|(X & _)]; [|congruence].
      apply NS, G. rewrite seen_adds. unfold QuantileSpec.kept. apply elem_of_list_filter. auto.
Qed.
Print Assumptions C54_aggregate.
(** Any number of partitions, folded from None as reduce does: the dictionary of all rows together. *)
Theorem C54_partitions {N K} `{EqDecision N} abnormal (header : list N) (parts : list (list (K * list Qc))) ds :
  let rnd := fun x : Qc => x in
  NoDup header -> parts <> [] -> Forall (fun r => length r.2 = length header) (concat parts) ->
  Forall2 (fun rows d => static_in_partition rnd (init_cols header) abnormal rows = Ok d) parts ds ->
  exists d, static_in_partition rnd (init_cols header) abnormal (concat parts) = Ok d /\ foldM (aggregate_statics rnd) None (map Some ds) = Ok (Some d).
Proof.
  intros rnd ND NE W F. subst rnd. destruct F as [|rows d parts ds E F]; [contradiction|]. cbn [concat map foldM aggregate_statics mbind res_bind] in *. clear NE.
  revert rows d E W. induction F as [|rows' d' parts ds E' F IH]; intros rows d E W.
  - exists d. cbn [concat]. rewrite app_nil_r. split; [exact E|reflexivity].
  - cbn [concat] in W |- *. rewrite app_assoc in W |- *. pose proof W as [W1 _]%Forall_app.
    destruct (C54_aggregate abnormal header rows rows' d d' ND W1 E E') as (d1 & E1 & A1). destruct (IH (rows ++ rows') d1 E1 W) as (d2 & E2 & A2).
    exists d2. split; [exact E2|]. cbn [map foldM]. rewrite A1. exact A2.
Qed.
Print Assumptions C54_partitions.
Example C54_partitions_ex : match foldM (aggregate_statics (fun x => x)) None (map Some (omap (fun rows => match static_in_partition (K := nat) (fun x => x) (init_cols [5%nat]) [] rows with Ok d => Some d | Err _ => None end) [[(0%nat, [zq 1])]; [(1%nat, [zq 4]); (2%nat, [zq 7])]])) with
  | Ok (Some d) => map (fun cs => (cs.1, this (ss_sum cs.2), ss_count cs.2)) d = [(5%nat, (12 # 1)%Q, 3%Z)] | _ => False end.
Proof. vm_compute. reflexivity. Qed.

Example C54_columns_ex : exists d, static_in_partition fround (init_cols [5%nat; 8%nat]) [] [(0%nat, [zq 1; zq 4]); (1%nat, [zq 2; zq 6])] = Ok d /\
  map (fun cs => (cs.1, this (ss_sum cs.2))) d = [(5%nat, (3 # 1)%Q); (8%nat, (10 # 1)%Q)].
Proof. eexists. split; vm_compute; reflexivity. Qed.

(** ** C55 *)
(** Every statistic of a table raises: TypeError because the per-partition function returns a dictionary where a list is needed,
    OverflowError if a value is too large; the median AttributeError. *)
Theorem C55_statistics {N K} `{EqDecision N} `{EqDecision K} rnd pick abnormal (header : list N) (t : dtable K (list Qc)) :
  NoDup header -> Forall (fun r => length r.2 = length header) (dt_data t) ->
  prepare_data rnd pick header abnormal t = Err TypeError \/
  prepare_data rnd pick header abnormal t = Err OverflowError /\ exists i v, v ∈ cells i (dt_data t) /\ v ∉ abnormal /\ ~ squarable v.
Proof.
  intros ND W. unfold prepare_data, static_sums, dt_mapPartitions.
  destruct (static_ok rnd abnormal header (dt_data t) ND W) as [(f & -> & _)|(-> & i & v & _ & A)]; cbn [mbind res_bind]; [now left|right].
  split; [reflexivity|]. exists i, v. exact A.
Qed.
Print Assumptions C55_statistics.
Theorem C55_quantile_point {N K} `{EqDecision N} `{EqDecision K} q abnormal (header : list N) (t : dtable K (list Qc)) :
  NoDup header -> Forall (fun r => length r.2 = length header) (dt_data t) -> get_quantile_point q header abnormal t = Err TypeError.
Proof.
  intros ND W. unfold get_quantile_point, dt_mapPartitions. rewrite (init_cols_spec header ND).
  rewrite (cols_map id (fun ci => (ci.1, qs_new 10000 10000 (fround (Q2Qc (1 # 1000))) abnormal)) (fun _ => qs_new 10000 10000 (fround (Q2Qc (1 # 1000))) abnormal) header) by reflexivity.
  rewrite (dense_fold header); [reflexivity|exact ND|]. unfold dense_rows. apply Forall_map. eapply Forall_impl; [exact W|]. intros [k l] L. exists l. auto.
Qed.
Print Assumptions C55_quantile_point.
Theorem C55_median {N K} `{EqDecision N} `{EqDecision K} abnormal (header : list N) (t : dtable K (list Qc)) :
  NoDup header -> Forall (fun r => length r.2 = length header) (dt_data t) -> get_median header abnormal t = Err AttributeError.
Proof.
  intros ND W. unfold get_median. destruct (dt_data t) as [|kv rows] eqn:E; [unfold dt_values; rewrite E; reflexivity|].
  destruct (fit_dense_any (median_params abnormal) header (map FDense (dt_values t))) as [sps ->]; auto.
  - unfold dt_values. rewrite E. discriminate.
  - unfold dense_rows, dt_values. rewrite E. rewrite map_map. apply Forall_map. eapply Forall_impl; [exact W|]. intros [k l] L. exists l. auto.
Qed.
Print Assumptions C55_median.

Lemma inst_ok {K} `{EqDecision K} (y : dtable K Qc) : dt_wf y -> exists t, dt_mapValues (fun l => Ok [l]) y = Ok t /\ Forall (fun r => length r.2 = 1%nat) (dt_data t) /\
  cells 0 (dt_data t) = map snd (dt_data y).
Proof.
  intros W. rewrite (dt_mapValues_ok (fun l => Ok [l]) (fun l => [l])) by auto. eexists. split; [reflexivity|]. cbn [dt_data]. split.
  - apply Forall_map. apply Forall_forall. intros [k v] _. reflexivity.
  - clear W. destruct y as [l]. cbn [dt_data]. induction l as [|[k v] l IH]; [reflexivity|]. cbn [map snd]. rewrite <- IH. reflexivity.
Qed.

(** The initial score of lse, huber, fair, tweedie and log_cosh raises TypeError, or OverflowError if a label's square is no float;
    that of lae raises AttributeError. *)
Theorem C55_initialize {K} `{EqDecision K} rnd o (y : dtable K Qc) : NoDup (map fst (dt_data y)) ->
  (o = OLae -> initialize rnd o y = Err AttributeError) /\
  (o <> OLae -> (forall v, v ∈ map snd (dt_data y) -> squarable v) -> initialize rnd o y = Err TypeError) /\
  (o <> OLae -> (exists v, v ∈ map snd (dt_data y) /\ ~ squarable v) -> initialize rnd o y = Err OverflowError).
Proof.
  intros W. destruct (inst_ok y W) as (t & ET & WT & EC). unfold initialize. rewrite ET. cbn [mbind res_bind].
  assert (ND : NoDup ["label"%string]) by (constructor; [intros H; inversion H|constructor]).
  assert (P : (forall v, v ∈ map snd (dt_data y) -> squarable v) -> prepare_data rnd (ss_mean rnd) ["label"%string] [] t = Err TypeError).
  { intros G. unfold prepare_data, static_sums, dt_mapPartitions. destruct (static_ok rnd [] ["label"%string] (dt_data t) ND WT) as [(f & -> & _)|(_ & i & v & LI & V & _ & NS)]; [reflexivity|].
    exfalso. apply NS, G. cbn in LI. replace i with 0%nat in V by lia. now rewrite EC in V. }
  assert (P' : (exists v, v ∈ map snd (dt_data y) /\ ~ squarable v) -> prepare_data rnd (ss_mean rnd) ["label"%string] [] t = Err OverflowError).
  { intros (v & V & NS). unfold prepare_data, static_sums, dt_mapPartitions. destruct (static_ok rnd [] ["label"%string] (dt_data t) ND WT) as [(f & _ & G)|(-> & _)]; [|reflexivity].
    exfalso. specialize (G 0%nat ltac:(cbn; lia)). rewrite EC in G. pose proof (play_cases rnd [] (adds (map snd (dt_data y)))) as [(s & _ & _ & X)|(X & _)]; [|congruence].
    apply NS, X. rewrite seen_adds, kept_nil. exact V. }
  split; [|split].
  - intros ->. rewrite (C55_median [] ["label"%string] t ND WT). reflexivity.
  - intros NO G. specialize (P G). destruct o; try congruence; rewrite P; reflexivity.
  - intros NO G. specialize (P' G). destruct o; try congruence; rewrite P'; reflexivity.
Qed.
Print Assumptions C55_initialize.

Example C55_ex : initialize fround OLse (DT [(0%nat, zq 3); (1%nat, zq 5)]) = Err TypeError /\ initialize fround OLae (DT [(0%nat, zq 3); (1%nat, zq 5)]) = Err AttributeError.
Proof. split; vm_compute; reflexivity. Qed.

(** Before that, a label that is no number and missing parameters of the objective are rejected, in this order. *)
Theorem C55_start {K} `{EqDecision K} rnd parse o params (y : dtable K (Qc + string)) : NoDup (map fst (dt_data y)) ->
  ((exists k s, (k, inr s) ∈ dt_data y /\ parse s = None) -> regression_start rnd parse o params y = Err ValueError) /\
  ((forall k s, (k, inr s) ∈ dt_data y -> parse s <> None) ->
    (o = OHuber \/ o = OFair \/ o = OTweedie -> params = None -> regression_start rnd parse o params y = Err TypeError) /\
    (o = OHuber \/ o = OFair \/ o = OTweedie -> params = Some [] -> regression_start rnd parse o params y = Err IndexError) /\
    (forall r, o = OFair -> params = Some (None :: r) -> regression_start rnd parse o params y = Err NameError) /\
    (o = OCrossEntropy -> regression_start rnd parse o params y = Err NotImplementedError)).
Proof.
  intros ND. unfold regression_start. split.
  - intros HB. enough (X : mapR (fun kv : K * (Qc + string) => match (match kv.2 with inl q => Ok q | inr s => match parse s with Some q => Ok q | None => Err ValueError end end) with Ok w => Ok (kv.1, w) | Err e => Err e end) (dt_data y) = Err ValueError).
    { unfold dt_mapValues. rewrite X. reflexivity. }
    induction (dt_data y) as [|[k [q|s]] l IH]; destruct HB as (k' & s' & Hin & Hp); [now apply elem_of_nil in Hin|..].
    + cbn. apply elem_of_cons in Hin as [E|Hin]; [discriminate E|]. rewrite IH; [reflexivity|now inversion ND|eauto].
    + cbn. destruct (parse s) eqn:Es; [|reflexivity]. apply elem_of_cons in Hin as [E|Hin]; [injection E as <- <-; congruence|]. rewrite IH; [reflexivity|now inversion ND|eauto].
  - intros HG. enough (X : exists l', mapR (fun kv : K * (Qc + string) => match (match kv.2 with inl q => Ok q | inr s => match parse s with Some q => Ok q | None => Err ValueError end end) with Ok w => Ok (kv.1, w) | Err e => Err e end) (dt_data y) = Ok l' /\ map fst l' = map fst (dt_data y)).
    { destruct X as (l' & X & Y). unfold dt_mapValues. rewrite X, dt_new_keyed_ok; [|change (NoDup (map fst l')); now rewrite Y]. cbn [mbind res_bind].
      repeat split; [intros [-> | [-> | ->]] ->|intros [-> | [-> | ->]] ->|intros r -> ->|intros ->]; reflexivity. }
    clear ND. induction (dt_data y) as [|[k [q|s]] l IH]; [now exists []|..].
    + destruct IH as (l' & E & F); [intros k0 s0 I; apply (HG k0 s0); now right|]. exists ((k, q) :: l'). cbn. rewrite E. cbn. now rewrite F.
    + destruct IH as (l' & E & F); [intros k0 s0 I; apply (HG k0 s0); now right|]. pose proof (HG k s (elem_of_list_here _ _)) as P. destruct (parse s) as [q|] eqn:Es; [|congruence].
      exists ((k, q) :: l'). cbn. rewrite Es, E. cbn. now rewrite F.
Qed.
Print Assumptions C55_start.
Example C55_start_ex : let y := DT [(0%nat, inl (zq 3)); (1%nat, inr "5"%string)] in let p s := if String.eqb s "5" then Some (zq 5) else None in
  regression_start fround p OHuber None y = Err TypeError /\ regression_start fround p OTweedie (Some []) y = Err IndexError /\
  regression_start fround p OFair (Some [None]) y = Err NameError /\ regression_start fround p OLse None (DT [(0%nat, inr "a"%string)]) = Err ValueError.
Proof. vm_compute. repeat split. Qed.

(** Whatever the objective, its parameters, the labels and float(): the guest's regression run raises before it sends anything, and
    the hosts wait for tree_dim forever. *)
Theorem C55_fit {K C E R S} `{EqDecision K} n rnd parse o params (y : dtable K (Qc + string)) (rest : dtable K (list cell) * list cell -> cps nat (msg K C E) R R)
    (Ops : nat -> numops C) (sn : nat -> site) (P : nat -> bparams) (cfg : nat -> pcfg K) (draw : nat -> nat -> nat -> nat -> list nat) (out : nat * list tree_pb -> proc unit (msg K C E) S) :
  NoDup (map fst (dt_data y)) ->
  let guest := cbind (clift (regression_start rnd parse o params y)) rest Ret in
  let hosts := fun i => host_train (Ops i) (sn i) (P i) (cfg i) (draw i) out in
  (exists e, guest = Fail e) /\ forall m s, nsteps step m (sysof n guest hosts) s -> m = 0%nat /\ s = sysof n guest hosts.
Proof.
  intros W guest hosts.
  assert (G : exists e, guest = Fail e).
  { unfold guest, cbind, clift, regression_start.
    destruct (dt_mapValues _ y) as [y'|e] eqn:EY; cbn [mbind res_bind]; [|eauto]. destruct (set_regression_loss o params); cbn [mbind res_bind]; [|eauto].
    assert (W' : NoDup (map fst (dt_data y'))). { eapply (dt_mapValues_keys' _ _ _ W EY). }
    destruct (C55_initialize rnd o y' W') as (A & B & D).
    assert (EI : exists e, initialize rnd o y' = Err e); [|destruct EI as [e ->]; eauto].
    assert (DO : o = OLae \/ o <> OLae) by (destruct o; (left; congruence) || (right; congruence)).
    destruct DO as [DO|DO]; [eauto|]. destruct (all_squarable (map snd (dt_data y'))) as [H|H]; eauto. }
  split; [exact G|]. destruct G as [e G]. rewrite G.
  assert (NF : forall s : sys (msg K C E) R S, ~ step (sysof n (Fail e) hosts) s).
  { intros s H. unfold sysof in H. inversion H; subst.
    - match goal with L : _ !! _ = Some _ |- _ => rewrite list_lookup_fmap in L; destruct (seq 0 n !! j) as [x|]; [|discriminate L]; cbn in L; discriminate L end.
    - match goal with L : _ !! _ = Some _ |- _ => rewrite list_lookup_fmap in L; destruct (seq 0 n !! j) as [x|]; [|discriminate L]; cbn in L; discriminate L end. }
  intros m s H. destruct H as [|m s1 s2 s3 H _]; [auto|]. now apply NF in H.
Qed.
Print Assumptions C55_fit.
