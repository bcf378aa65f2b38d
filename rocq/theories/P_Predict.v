(** C41-C44, C30: prediction with one tree, saving and loading, and what the parties see. *)
From Verif Require Import PredictSave TreePrivacy P_Tree P_Binning.
Local Open Scope nat_scope.

(** ** C41 *)
Section Predict.
  Context {K : Type} `{EqDecision K} (nh : nat) (sname : nat -> site) (T : list node) (gm : dict nat mval) (hs : list (list node * dict nat mval)).
  Context (gd : dtable K (dict nat Qc)) (hd : nat -> dtable K (dict nat Qc)).

  (** Whatever the interleaving, prediction ends within depth+1 rounds. A row gets a weight exactly when it is at the guest and
      either meets only nodes of the guest or is at every host, and the weight is that of the leaf which the joined row reaches in
      the joined tree. *)
  Theorem C41_predict rounds t : (forall i, i < nh -> sname i <> GuestSite) -> (forall i j, i < nh -> j < nh -> sname i = sname j -> i = j) ->
    NoDup (dt_keys gd) -> (forall i, i < nh -> NoDup (dt_keys (hd i))) -> (forall i, i < nh -> htree hs i = T) ->
    prepr nh sname T gm (hmask hs) 0 t -> pdepth t < rounds ->
    exists res N, NoDup (dt_keys res) /\
      (forall m s, nsteps step m (predict_sys nh sname T gm hs gd hd rounds) s -> m <= N /\ nsteps step (N - m) s (done res (repeat tt nh))) /\
      forall k v, (k, v) ∈ dt_data res <-> k ∈ dt_keys gd /\ (guest_only (jrow gd hd k) t \/ forall i, i < nh -> k ∈ dt_keys (hd i)) /\ pwalk (jrow gd hd k) t = v.
  Proof.
    intros NA IN Wg Wh SA RT HD. destruct (predict_sys_ok nh sname T gm hs NA IN gd hd Wg Wh SA rounds t RT HD) as (res & (N & A) & W & G).
    exists res, N. split; [exact W|]. split; [exact A|]. intros k v. rewrite <- tget_elem by exact W. rewrite G. unfold everywhere. setoid_rewrite tget_is_Some. reflexivity.
  Qed.

  (** If hosts with nodes in the tree do not take part, prediction goes on for ever as soon as one row that everybody has meets
      such a node: every number of rounds is used up. *)
  Theorem C41_absent n rounds t : (forall i, i < n -> sname i <> GuestSite) -> (forall i j, i < n -> j < n -> sname i = sname j -> i = j) -> 0 < nh <= n ->
    NoDup (dt_keys gd) -> (forall i, i < nh -> NoDup (dt_keys (hd i))) -> (forall i, i < nh -> htree hs i = T) -> prepr n sname T gm (hmask hs) 0 t ->
    (exists k, k ∈ dt_keys gd /\ (forall i, i < nh -> k ∈ dt_keys (hd i)) /\ meets_absent nh (jrow gd hd k) t) ->
    exists N, forall m s, nsteps step m (predict_sys nh sname T gm hs gd hd rounds) s -> m <= N /\ nsteps step (N - m) s (sysof nh (Fail OutOfFuel) (fun _ => Fail OutOfFuel)).
  Proof.
    intros NA IN Ln Wg Wh SA RT (k & Kg & Kh & MA). set (hd' := fun i => if decide (i < nh) then hd i else gd).
    assert (Hd' : forall i, i < nh -> hd' i = hd i) by (intros i Hi; unfold hd'; now rewrite decide_True).
    destruct (dt_mapValues_rel (fun _ => Ok (0, 1%Z)) (fun _ (_ : dict nat Qc) s => s = (0, 1%Z)) gd Wg) as (data & Ed & Wd & KD & Gd). { eauto. }
    assert (DK : forall k, is_Some (tget data k) <-> is_Some (tget gd k)).
    { intros k'. rewrite !tget_is_Some. now rewrite KD. }
    assert (MX : forall t, meets_absent nh (jrow gd hd k) t -> meets_absent nh (jrow gd hd' k) t).
    { clear -Hd'. induction t as [w|own f th l IHl r IHr]; [auto|]. cbn. intros [X|X]; [auto|]. destruct own as [i|].
      - destruct (decide (i < nh)) as [L|L]; [|left; lia]. right. unfold jrow in X |- *. rewrite (Hd' i L). destruct (qleb _ _); [apply IHl|apply IHr]; exact X.
      - right. unfold jrow in X |- *. destruct (qleb _ _); [apply IHl|apply IHr]; exact X. }
    assert (L : leads nh (guest_rounds nh T gm gd rounds data None) (fun i => host_predict (sname i) T (hmask hs i) (hd i) rounds)).
    { apply (absent_rounds nh sname T gm gd hd Wg n (hmask hs) NA IN hd' Hd') with (P := fun _ => t); try lia.
      - intros i Hi. unfold hd'. destruct (decide (i < nh)); [now apply Wh|exact Wg].
      - split; [exact Wd|]. intros k' s Hs. split; [apply DK; eauto|]. specialize (Gd k'). rewrite Hs in Gd. destruct (tget gd k'); [subst; exact RT|contradiction].
      - discriminate.
      - exists k. split; [apply DK, tget_is_Some, Kg|]. split; [|apply MX, MA]. intros i Hi. rewrite Hd' by exact Hi. apply tget_is_Some, Kh, Hi. }
    specialize (L Ret (fun _ => Ret)). apply hands_steps, rtc_nsteps in L as [N L]. exists N. unfold predict_sys, guest_predict.
    rewrite (sysof_ext _ _ _ (fun i => host_predict (sname i) T (hmask hs i) (hd i) rounds Ret)) by (intros i Hi; now rewrite SA). unfold cbind. rewrite Ed. cbn [clift].
    apply outcome; [exact L|]. intros [s' ST]. unfold never in ST. inversion ST as [| |g0 j m q hs0 d u LK|g0 j q hs0 m d u LK]; subst;
      apply elem_of_list_lookup_2, elem_of_list_fmap in LK as (x & LK & _); discriminate LK.
  Qed.
End Predict.
Print Assumptions C41_predict.
Print Assumptions C41_absent.

(** Example: two hosts, rows 0, 1, 2; the root belongs to host 1, its right child to the guest, then to host 0. *)
Definition p_nodes : list node :=
  [Node 0 (HostSite 1) (Some 0) (zq 0) false (zq 0) (zq 0) (Some 1) (Some 2); Node 1 GuestSite None (zq 10) true (zq 0) (zq 0) None None;
   Node 2 GuestSite (Some 1) (zq 0) false (zq 0) (zq 0) (Some 3) (Some 4); Node 3 (HostSite 0) (Some 2) (zq 0) false (zq 0) (zq 0) (Some 5) (Some 6);
   Node 4 GuestSite None (zq 20) true (zq 0) (zq 0) None None; Node 5 GuestSite None (zq 30) true (zq 0) (zq 0) None None; Node 6 GuestSite None (zq 40) true (zq 0) (zq 0) None None].
Definition p_tree : ptree := PN (Some 1) 0 (zq 5) (PL (zq 10)) (PN None 1 (zq 3) (PN (Some 0) 2 (zq 7) (PL (zq 30)) (PL (zq 40))) (PL (zq 20))).
Definition p_gm : dict nat mval := [(2, MReal (zq 3))].
Definition p_hs : list (list node * dict nat mval) := [(p_nodes, [(3, MReal (zq 7))]); (p_nodes, [(0, MReal (zq 5))])].
Definition p_gd : dtable nat (dict nat Qc) := DT [(0, [(1, zq 2)]); (1, [(1, zq 4)]); (2, [])].
Definition p_hd (i : nat) : dtable nat (dict nat Qc) := if i =? 0 then DT [(2, [(2, zq 6)]); (0, [(2, zq 8)]); (1, [])] else DT [(1, [(0, zq 6)]); (2, [(0, zq 6)]); (0, [(0, zq 6)])].
Ltac ndk := apply (bool_decide_unpack _); reflexivity.
Lemma p_repr : prepr 2 ex_name p_nodes p_gm (hmask p_hs) 0 p_tree.
Proof.
  unfold p_tree. change (zq 5) with (mnum (MReal (zq 5))). change (zq 3) with (mnum (MReal (zq 3))). change (zq 7) with (mnum (MReal (zq 7))).
  eapply prepr_node; [reflexivity|reflexivity|cbv beta iota; split; [lia|split; reflexivity]|reflexivity..|lia|lia| |].
  { exact (prepr_leaf 2 ex_name p_nodes p_gm (hmask p_hs) 1 _ eq_refl eq_refl eq_refl). }
  eapply prepr_node; [reflexivity|reflexivity|split; reflexivity|reflexivity..|lia|lia| |].
  2: { exact (prepr_leaf 2 ex_name p_nodes p_gm (hmask p_hs) 4 _ eq_refl eq_refl eq_refl). }
  eapply prepr_node; [reflexivity|reflexivity|cbv beta iota; split; [lia|split; reflexivity]|reflexivity..|lia|lia| |].
  - exact (prepr_leaf 2 ex_name p_nodes p_gm (hmask p_hs) 5 _ eq_refl eq_refl eq_refl).
  - exact (prepr_leaf 2 ex_name p_nodes p_gm (hmask p_hs) 6 _ eq_refl eq_refl eq_refl).
Qed.
Definition p_end (s : sys (msg nat Qc Qc) (dtable nat Qc) unit) := match s_guest s with Ret r => Some (map (fun kv => (kv.1, this kv.2)) (dt_data r)) | _ => None end.
Example C41_ex : (forall i, i < 2 -> ex_name i <> GuestSite) /\ (forall i j, i < 2 -> j < 2 -> ex_name i = ex_name j -> i = j) /\ NoDup (dt_keys p_gd) /\
  (forall i, i < 2 -> NoDup (dt_keys (p_hd i))) /\ (forall i, i < 2 -> htree p_hs i = p_nodes) /\ prepr 2 ex_name p_nodes p_gm (hmask p_hs) 0 p_tree /\ pdepth p_tree < 4 /\
  p_end (run 1000 (predict_sys 2 ex_name p_nodes p_gm p_hs p_gd p_hd 4)).2 = Some [(1, 20%Q); (0, 40%Q); (2, 30%Q)].
Proof.
  split; [discriminate|]. split; [intros i j _ _ [= E]; lia|]. split; [ndk|]. split; [intros [|[|i]] Hi; [ndk|ndk|lia]|]. split; [intros [|[|i]] Hi; [reflexivity|reflexivity|lia]|].
  split; [exact p_repr|]. split; [cbn; lia|]. vm_compute. reflexivity.
Qed.

(** A row that one host lacks is dropped without a word, although another host's node would decide it. *)
Theorem C41_dropped_refuted : exists (T : list node) gm hs (gd : dtable nat (dict nat Qc)) hd t k res,
  prepr 2 ex_name T gm (hmask hs) 0 t /\ k ∈ dt_keys gd /\ k ∈ dt_keys (hd 1) /\ always (predict_sys 2 ex_name T gm hs gd hd 4) (done res [tt; tt]) /\ k ∉ dt_keys res.
Proof.
  set (hd := fun i => if i =? 0 then DT [(2, [])] else p_hd i).
  destruct C41_ex as (A & B & C & D & F & G & L & _).
  assert (D' : forall i, i < 2 -> NoDup (dt_keys (hd i))) by (intros [|[|i]] Hi; [ndk|ndk|lia]).
  destruct (C41_predict 2 ex_name p_nodes p_gm p_hs p_gd hd 4 p_tree A B C D' F G L) as (res & N & W & AL & R).
  exists p_nodes, p_gm, p_hs, p_gd, hd, p_tree, 0, res. split; [exact G|]. split; [cbn; left|]. split; [cbn; right; right; left|]. split; [exists N; exact AL|].
  intros X. apply elem_of_list_fmap in X as ([k v] & E & X). cbn in E. subst k. apply R in X as (_ & [X|X] & _); [exact X|]. specialize (X 0 ltac:(lia)). cbn in X. apply elem_of_list_singleton in X. discriminate.
Qed.
Print Assumptions C41_dropped_refuted.
Example C41_absent_ex : (exists k, k ∈ dt_keys p_gd /\ (forall i, i < 1 -> k ∈ dt_keys (p_hd i)) /\ meets_absent 1 (jrow p_gd p_hd k) p_tree) /\ 0 < 1 <= 2.
Proof. split; [|lia]. exists 0. split; [cbn; left|]. split; [intros i Hi; replace i with 0 by lia; cbn; right; left|]. cbn [meets_absent p_tree]. left. lia. Qed.

(** ** C42 *)
Section Learnt.
  Context {K : Type} `{EqDecision K} (U : list K) (nh : nat) (gcfg : pcfg K) (hcfg : nat -> pcfg K) (guest : party K) (hosts : list (party K)) (sname : nat -> site).
  Context (gh : dtable K (Qc * Qc)) (vg vh : K -> Qc) (it : imp_type) (d : nat) (graw : dtable K (dict nat Qc)) (hraw : nat -> dtable K (dict nat Qc)).
  Local Notation lam := (reg_lambda (c_par gcfg)).
  Local Notation mi := (min_impurity (c_par gcfg)).

  Lemma learnt_predict (PA : parties_ok U nh gcfg hcfg guest hosts sname gh vg vh) eg eh rnd rt t st hs rounds :
    learn U lam mi guest hosts vg vh eg eh rnd rt d = Ok t -> learnt U nh gcfg hcfg guest hosts sname it t st hs ->
    raw_of gcfg graw -> (forall i, i < nh -> raw_of (hcfg i) (hraw i)) -> d < rounds ->
    exists w res N, t_weights st = Some w /\ NoDup (dt_keys res) /\
      (forall m s, nsteps step m (predict_sys nh sname (t_nodes st) (t_mask st) hs graw hraw rounds) s -> m <= N /\ nsteps step (N - m) s (done res (repeat tt nh))) /\
      forall k v, (k, v) ∈ dt_data res <-> (k, v) ∈ dt_data w.
  Proof.
    intros Et LT RG RH HD. pose proof (learnt_repr U nh gcfg hcfg guest hosts sname it t st hs LT) as R.
    destruct (grow_consistent _ _ _ _ _ _ _ _ _ _ _ _ _ _ _ _ Et) as [_ DE]. pose proof (grow_tight U guest hosts lam mi vg vh eg eh rnd rt d _ _ _ _ Et) as TI.
    assert (SA : forall i, i < nh -> htree hs i = t_nodes st).
    { intros i Hi. unfold htree. destruct (hs !! i) as [r|] eqn:E; [exact (learnt_trees _ _ _ _ _ _ _ _ t _ _ _ _ LT E)|]. exfalso. apply lookup_ge_None in E. destruct LT as (hm & -> & _). rewrite map_length, seq_length in E. lia. }
    destruct (predict_sys_ok nh sname (t_nodes st) (t_mask st) hs (pa_names _ _ _ _ _ _ _ _ _ _ PA) (pa_inj _ _ _ _ _ _ _ _ _ _ PA) graw hraw (ra_wf _ _ RG) (fun i Hi => ra_wf _ _ (RH i Hi)) SA rounds _
      (repr_prepr nh gcfg hcfg sname _ _ _ _ _ R)) as (res & (N & A) & W & G); [rewrite pt_depth; lia|].
    destruct LT as (hm & -> & FP). destruct (f_weights _ _ _ _ _ _ _ _ _ _ _ FP) as (w & Ew & Ww & GW).
    exists w, res, N. split; [exact Ew|]. split; [exact W|]. split; [exact A|]. intros k v. rewrite <- (tget_elem res), <- (tget_elem w) by assumption. rewrite G, GW.
    assert (LH : length hosts <= nh) by (destruct (pa_hosts _ _ _ _ _ _ _ _ _ _ PA); lia).
    assert (KG : k ∈ dt_keys graw <-> k ∈ U) by (rewrite (ra_keys _ _ RG); apply (po_keys _ _ _ (pa_guest _ _ _ _ _ _ _ _ _ _ PA))). rewrite KG. split.
    - intros (Hk & _ & <-). split; [exact Hk|].
      exact (walk_route U nh gcfg hcfg guest hosts sname (pa_guest _ _ _ _ _ _ _ _ _ _ PA) (pa_host _ _ _ _ _ _ _ _ _ _ PA) LH graw hraw RG RH _ _ _ k Hk t (fun _ => true) 0 R TI eq_refl).
    - intros (Hk & ->). split; [exact Hk|]. split.
      + right. intros i Hi. apply tget_is_Some. apply (ra_keys _ _ (RH i Hi)). destruct (lookup_lt_is_Some_2 hosts i) as [p Hp]; [destruct (pa_hosts _ _ _ _ _ _ _ _ _ _ PA); lia|].
        apply (po_keys _ _ _ (pa_host _ _ _ _ _ _ _ _ _ _ PA i p Hp)), Hk.
      + exact (walk_route U nh gcfg hcfg guest hosts sname (pa_guest _ _ _ _ _ _ _ _ _ _ PA) (pa_host _ _ _ _ _ _ _ _ _ _ PA) LH graw hraw RG RH _ _ _ k Hk t (fun _ => true) 0 R TI eq_refl).
  Qed.

  (** Predicting the raw training rows with the tree that training ended with gives, on every schedule, exactly the table of
      weights that fit recorded. The split points need not be increasing: a split never ends at an empty bin, because the bin
      before it gains as much and comes first. *)
  Theorem C42_plain m st hs rounds : parties_ok U nh gcfg hcfg guest hosts sname gh vg vh -> it <> IOther -> c_depth gcfg = S d -> (0 < lam)%Qc ->
    (forall k, k ∈ U -> (0 <= vh k)%Qc) -> nsteps step m (plain_sys nh gcfg hcfg sname it gh) (done st hs) ->
    raw_of gcfg graw -> (forall i, i < nh -> raw_of (hcfg i) (hraw i)) -> d < rounds ->
    exists w res N, t_weights st = Some w /\ NoDup (dt_keys res) /\
      (forall m s, nsteps step m (predict_sys nh sname (t_nodes st) (t_mask st) hs graw hraw rounds) s -> m <= N /\ nsteps step (N - m) s (done res (repeat tt nh))) /\
      forall k v, (k, v) ∈ dt_data res <-> (k, v) ∈ dt_data w.
  Proof.
    intros PA Hit ED L V2 RUN RG RH HD. destruct (plain_main U nh gcfg hcfg guest hosts sname gh vg vh PA it Hit d ED L V2) as (t & st' & hs' & Et & A & LT).
    destruct (always_done _ _ _ _ _ _ A RUN) as [-> ->]. exact (learnt_predict PA _ _ _ _ t st' hs' rounds Et LT RG RH HD).
  Qed.

  Context (sk : privkey) (rg rh : K -> Z) (rr : nat -> nat -> Z).
  Theorem C42_paillier m st hs rounds : parties_ok U nh gcfg hcfg guest hosts sname gh vg vh -> it <> IOther -> c_depth gcfg = S d ->
    paillier_ok U sk rg rh rr lam mi vg vh d -> nsteps step m (paillier_sys sk rg rh rr nh gcfg hcfg sname it gh) (done st hs) ->
    raw_of gcfg graw -> (forall i, i < nh -> raw_of (hcfg i) (hraw i)) -> d < rounds ->
    exists w res N, t_weights st = Some w /\ NoDup (dt_keys res) /\
      (forall m s, nsteps step m (predict_sys nh sname (t_nodes st) (t_mask st) hs graw hraw rounds) s -> m <= N /\ nsteps step (N - m) s (done res (repeat tt nh))) /\
      forall k v, (k, v) ∈ dt_data res <-> (k, v) ∈ dt_data w.
  Proof.
    intros PA Hit ED PK RUN RG RH HD.
    destruct (paillier_main U nh gcfg hcfg guest hosts sname gh vg vh PA it Hit sk (proj1 (keypair_good _ _ (pk_key _ _ _ _ _ _ _ _ _ _ PK))) (pk_big _ _ _ _ _ _ _ _ _ _ PK) rg rh rr d ED
      (pk_lam _ _ _ _ _ _ _ _ _ _ PK) (pk_rg _ _ _ _ _ _ _ _ _ _ PK) (pk_rh _ _ _ _ _ _ _ _ _ _ PK) (pk_rr _ _ _ _ _ _ _ _ _ _ PK) (pk_v _ _ _ _ _ _ _ _ _ _ PK)
      (pk_rows _ _ _ _ _ _ _ _ _ _ PK) (pk_levels _ _ _ _ _ _ _ _ _ _ PK) (pk_depth _ _ _ _ _ _ _ _ _ _ PK) (pk_mi _ _ _ _ _ _ _ _ _ _ PK)) as (t & st' & hs' & Et & _ & A & LT).
    destruct (always_done _ _ _ _ _ _ A RUN) as [-> ->]. exact (learnt_predict PA _ _ _ _ t st' hs' rounds Et LT RG RH HD).
  Qed.

  (** ** C44, the leak *)
  (** With Paillier, too, every host ends up with the exact sums of all gradients and hessians at the root of the tree it
      receives (and with all leaf weights: C38). *)
  Theorem C44_leak m st hs i r : parties_ok U nh gcfg hcfg guest hosts sname gh vg vh -> it <> IOther -> c_depth gcfg = S d ->
    paillier_ok U sk rg rh rr lam mi vg vh d -> nsteps step m (paillier_sys sk rg rh rr nh gcfg hcfg sname it gh) (done st hs) -> hs !! i = Some r ->
    exists nd, r.1 !! 0 = Some nd /\ n_grad nd = sum_if (fun _ => true) vg U /\ n_hess nd = sum_if (fun _ => true) vh U.
  Proof.
    intros PA Hit ED PK RUN Hr.
    destruct (paillier_main U nh gcfg hcfg guest hosts sname gh vg vh PA it Hit sk (proj1 (keypair_good _ _ (pk_key _ _ _ _ _ _ _ _ _ _ PK))) (pk_big _ _ _ _ _ _ _ _ _ _ PK) rg rh rr d ED
      (pk_lam _ _ _ _ _ _ _ _ _ _ PK) (pk_rg _ _ _ _ _ _ _ _ _ _ PK) (pk_rh _ _ _ _ _ _ _ _ _ _ PK) (pk_rr _ _ _ _ _ _ _ _ _ _ PK) (pk_v _ _ _ _ _ _ _ _ _ _ PK)
      (pk_rows _ _ _ _ _ _ _ _ _ _ PK) (pk_levels _ _ _ _ _ _ _ _ _ _ PK) (pk_depth _ _ _ _ _ _ _ _ _ _ PK) (pk_mi _ _ _ _ _ _ _ _ _ _ PK)) as (t & st' & hs' & Et & _ & A & LT).
    destruct (always_done _ _ _ _ _ _ A RUN) as [-> ->]. rewrite (learnt_trees _ _ _ _ _ _ _ _ t _ _ _ _ LT Hr).
    destruct (repr_node _ _ _ _ _ (learnt_repr U nh gcfg hcfg guest hosts sname it t st' hs' LT)) as (nd & E & Eg & Eh & _).
    destruct (grow_root _ _ _ _ _ _ _ _ _ _ _ _ _ _ _ _ Et) as [GG HH]. exists nd. split; [exact E|]. split; congruence.
  Qed.
End Learnt.
Print Assumptions C42_plain.
Print Assumptions C42_paillier.
Print Assumptions C44_leak.

(** Raw rows for the example of P_Tree; bin 0 is the value 0, bin 1 the value 2, bin 2 the value 3. *)
Definition ex_raw (bins : list nat) : dtable nat (dict nat Qc) :=
  DT (map (fun kb => (kb.1, match kb.2 with 0 => [] | 1 => [(0, zq 2)] | _ => [(0, zq 3)] end)) (combine (seq 0 (length bins)) bins)).
Lemma ex_raw_of depth step bins : length bins = 4 -> Forall (fun b => b <= 2) bins -> raw_of (ex_cfg depth step bins) (ex_raw bins).
Proof.
  intros L F. destruct bins as [|b0 [|b1 [|b2 [|b3 [|]]]]]; try discriminate. repeat rewrite Forall_cons in F. destruct F as (F0 & F1 & F2 & F3 & _).
  split; [ndk|reflexivity|]. intros k row brow [|f] pts H1 H2 H; [|discriminate]. cbn in H. injection H as <-.
  assert (X : exists b, b <= 2 /\ row = match b with 0 => [] | 1 => [(0, zq 2)] | _ => [(0, zq 3)] end /\ brow = if b =? 0 then [] else [(0, b)]).
  { cbn in H1, H2. repeat rewrite elem_of_cons in H1. repeat rewrite elem_of_cons in H2.
    destruct H1 as [[= -> ->]|[[= -> ->]|[[= -> ->]|[[= -> ->]|X]]]]; [..|now apply elem_of_nil in X];
      destruct H2 as [[= ->]|[[= ->]|[[= ->]|[[= ->]|X]]]]; try discriminate; try (now apply elem_of_nil in X); eauto. }
  destruct X as (b & Hb & -> & ->). destruct b as [|[|[|b]]]; [| | |lia].
  - change (is_bin [zq 1; zq 2] (zq 0) 0). split; [cbn; lia|]. split; [intros i x Hi; lia|intros x E; cbn in E; injection E as <-; now apply zq_le].
  - change (is_bin [zq 1; zq 2] (zq 2) 1). split; [cbn; lia|]. split; [intros [|i] x Hi E; [cbn in E; injection E as <-; now apply zq_lt|lia]|intros x E; cbn in E; injection E as <-; now apply zq_le].
  - change (is_bin [zq 1; zq 2] (zq 3) 2). split; [cbn; lia|]. split; [|intros x E; discriminate E]. intros [|[|i]] x Hi E; [cbn in E; injection E as <-; now apply zq_lt..|lia].
Qed.
Example C42_ex : raw_of ex_guest (ex_raw ex_gbins) /\ (forall i, i < 1 -> raw_of (ex_host i) (ex_raw ex_hbins)) /\ 2 < 3.
Proof. split; [apply ex_raw_of; [reflexivity|repeat constructor]|]. split; [intros; apply ex_raw_of; [reflexivity|repeat constructor]|lia]. Qed.
Example C42_run : exists st hs, s_guest (run 1000 (ex_sys 3 1)).2 = Ret st /\ map (fun h => h.1.1) (s_hosts (run 1000 (ex_sys 3 1)).2) = map Ret hs /\
  p_end (run 1000 (predict_sys 1 ex_name (t_nodes st) (t_mask st) hs (ex_raw ex_gbins) (fun _ => ex_raw ex_hbins) 3)).2 = Some [(0, (-10 # 11)%Q); (1, (-5 # 11)%Q); (2, (10 # 11)%Q); (3, (5 # 11)%Q)].
Proof.
  destruct (s_guest (run 1000 (ex_sys 3 1)).2) as [st| | |] eqn:E1; [|vm_compute in E1; discriminate E1..].
  destruct (map (fun h => h.1.1) (s_hosts (run 1000 (ex_sys 3 1)).2)) as [|[r| | |] [|]] eqn:E2; try (vm_compute in E2; discriminate E2).
  exists st, [r]. split; [reflexivity|]. split; [reflexivity|]. vm_compute in E1. vm_compute in E2. injection E1 as <-. injection E2 as <-. vm_compute. reflexivity.
Qed.

(** ** C43 *)
Section Save.
  Context {K : Type} `{EqDecision K} (nh : nat) (sname : nat -> site) (T : list node) (gm : dict nat mval) (hs : list (list node * dict nat mval)).
  Context (gd : dtable K (dict nat Qc)) (hd : nat -> dtable K (dict nat Qc)).

  (** What a saved and loaded tree holds: everything but the sums (and a missing feature id has become 0). *)
  Theorem C43_fields : tree_fits T gm -> exists p, save_tree T gm = Ok p /\ length (load_tree p).1 = length T /\
    (forall id nd, T !! id = Some nd -> exists nd', (load_tree p).1 !! id = Some nd' /\ n_id nd' = n_id nd /\ n_site nd' = n_site nd /\ n_weight nd' = n_weight nd /\
      n_leaf nd' = n_leaf nd /\ n_left nd' = n_left nd /\ n_right nd' = n_right nd /\ (forall f, n_fid nd = Some f -> n_fid nd' = Some f)) /\
    (forall id, option_map mnum (dict_get id (load_tree p).2) = option_map mnum (dict_get id gm)).
  Proof.
    intros F. destruct (save_load_tree T gm F) as (p & E & LG). exists p. rewrite LG. cbn [fst snd]. split; [exact E|]. split; [apply map_length|]. split.
    - intros id nd Hn. exists (reloaded nd). split; [now rewrite map_lookup, Hn|]. repeat (split; [reflexivity|]). intros f Hf. cbn. now rewrite Hf.
    - intros id. rewrite real_get. now destruct (dict_get id gm).
  Qed.

  (** When all parties save and load their trees, prediction gives every row what it gave before. *)
  Theorem C43_predictions rounds t gp hps : (forall i, i < nh -> sname i <> GuestSite) -> (forall i j, i < nh -> j < nh -> sname i = sname j -> i = j) ->
    NoDup (dt_keys gd) -> (forall i, i < nh -> NoDup (dt_keys (hd i))) -> length hs = nh -> (forall i, i < nh -> htree hs i = T) ->
    prepr nh sname T gm (hmask hs) 0 t -> pdepth t < rounds -> tree_fits T gm -> (forall h, h ∈ hs -> tree_fits h.1 h.2) ->
    save_tree T gm = Ok gp -> mapR (fun h => save_tree h.1 h.2) hs = Ok hps ->
    exists res res', always (predict_sys nh sname T gm hs gd hd rounds) (done res (repeat tt nh)) /\
      always (predict_sys nh sname (load_tree gp).1 (load_tree gp).2 (map load_tree hps) gd hd rounds) (done res' (repeat tt nh)) /\
      NoDup (dt_keys res) /\ NoDup (dt_keys res') /\ forall k v, (k, v) ∈ dt_data res <-> (k, v) ∈ dt_data res'.
  Proof.
    intros NA IN Wg Wh LH SA RT HD FG FH SG SH.
    destruct (C41_predict nh sname T gm hs gd hd rounds t NA IN Wg Wh SA RT HD) as (res & N & W & A & G).
    destruct (save_load_tree T gm FG) as (p & E & LG). rewrite SG in E. injection E as <-. rewrite LG. cbn [fst snd].
    set (rl := fun h : list node * dict nat mval => (map reloaded h.1, map (fun kv => (kv.1, real kv.2)) h.2) : list node * dict nat mval).
    assert (LL : map load_tree hps = map rl hs).
    { clear -FH SH. revert hps SH. induction hs as [|h l IH]; intros hps SH; [injection SH as <-; reflexivity|]. cbn in SH.
      destruct (save_load_tree h.1 h.2) as (p & E & LG); [apply FH; left|]. rewrite E in SH. cbn in SH. destruct (mapR _ l) as [ps|] eqn:El; [|discriminate]. cbn in SH. injection SH as <-.
      cbn [map]. rewrite LG. f_equal. apply IH; [intros h' Hh; apply FH; now right|reflexivity]. }
    rewrite LL.
    assert (HL : forall i, i < nh -> exists h, hs !! i = Some h /\ map rl hs !! i = Some (rl h)).
    { intros i Hi. destruct (lookup_lt_is_Some_2 hs i) as [h Hh]; [lia|]. exists h. split; [exact Hh|]. now rewrite map_lookup, Hh. }
    destruct (C41_predict nh sname (map reloaded T) (map (fun kv => (kv.1, real kv.2)) gm) (map rl hs) gd hd rounds t NA IN Wg Wh) as (res' & N' & W' & A' & G'); [..|exact HD|].
    - intros i Hi. destruct (HL i Hi) as (h & E1 & E2). specialize (SA i Hi). unfold htree in *. rewrite E1 in SA. rewrite E2. cbn. now rewrite SA.
    - eapply reload_prepr; [exact RT| |].
      + intros k v E. now rewrite real_get, E.
      + intros i k v Hi E. destruct (HL i Hi) as (h & E1 & E2). unfold hmask in *. rewrite E1 in E. rewrite E2. cbn [rl snd]. now rewrite real_get, E.
    - exists res, res'. split; [exists N; exact A|]. split; [exists N'; exact A'|]. split; [exact W|]. split; [exact W'|]. intros k v. now rewrite G, G'.
  Qed.
End Save.
Print Assumptions C43_fields.
Print Assumptions C43_predictions.
Example C43_ex : tree_fits p_nodes p_gm /\ (forall h, h ∈ p_hs -> tree_fits h.1 h.2) /\ (exists gp, save_tree p_nodes p_gm = Ok gp) /\ (exists hps, mapR (fun h => save_tree h.1 h.2) p_hs = Ok hps).
Proof.
  assert (N : forall nd, nd ∈ p_nodes -> node_fits nd).
  { intros nd H. unfold p_nodes in H. repeat rewrite elem_of_cons in H. destruct H as [->|[->|[->|[->|[->|[->|[->|H]]]]]]]; [..|now apply elem_of_nil in H];
      (split; [vm_compute; reflexivity|split; [|split]; intros c [= <-]; vm_compute; reflexivity] || (split; [vm_compute; reflexivity|split; [|split]; intros c X; try discriminate X; injection X as <-; vm_compute; reflexivity])). }
  assert (M : forall (id n : nat) (v : mval), id ∈ map fst [(n, v)] -> n = id) by (intros id n v H; cbn in H; apply (elem_of_list_singleton (A := nat)) in H; auto).
  split; [split; [exact N|intros id H; apply M in H as <-; vm_compute; reflexivity]|]. split.
  - intros h H. unfold p_hs in H. repeat rewrite elem_of_cons in H. destruct H as [->|[->|H]]; [..|now apply elem_of_nil in H]; (split; [exact N|intros id H; apply M in H as <-; vm_compute; reflexivity]).
  - split; eexists; vm_compute; reflexivity.
Qed.

(** A feature id of 2^31 or more cannot be saved. *)
Theorem C43_overflow T gm nd f : nd ∈ T -> n_fid nd = Some f -> (2 ^ 31 <= Z.of_nat f)%Z -> exists e, save_tree T gm = Err e.
Proof.
  intros H F B. unfold save_tree. enough (X : exists e, mapR save_node T = Err e) by (destruct X as [e ->]; now exists e).
  assert (S : exists e, save_node nd = Err e).
  { unfold save_node. destruct (int32 (Z.of_nat (n_id nd))); [|now eexists]. cbn [mbind res_bind]. rewrite F. unfold int32. apply Z.ltb_ge in B. rewrite B, andb_false_r. now eexists. }
  clear F B. induction T as [|a T IH]; [now apply elem_of_nil in H|]. apply elem_of_cons in H as [<-|H]; cbn.
  - destruct S as [e ->]. now exists e.
  - destruct (save_node a); [|now eexists]. cbn. destruct (IH H) as [e ->]. now exists e.
Qed.
Print Assumptions C43_overflow.
Theorem C43_always_saves_refuted : exists (T : list node) (gm : dict nat mval), save_tree T gm = Err ValueError.
Proof.
  exists [Node 0 GuestSite (Some (Z.to_nat (2 ^ 31))) (zq 0) false (zq 0) (zq 0) (Some 1) (Some 2)], []. unfold save_tree. cbn [mapR]. unfold save_node. cbn [n_id n_fid]. rewrite Z2Nat.id by (vm_compute; discriminate).
  reflexivity.
Qed.
Print Assumptions C43_always_saves_refuted.

(** ** C44 *)
Section Privacy.
  Context {K : Type} `{EqDecision K} (sk : privkey) (rg rh : K -> Z) (rr : nat -> nat -> Z) (nh : nat) (hcfg : nat -> pcfg K) (sname : nat -> site) (it : imp_type) (gh : dtable K (Qc * Qc)).

  (** The values of the guest's split points never reach a host: for every run there is one of the same length with any other
      values, after which all hosts and all channels are in the same state. *)
  Theorem C44_guest_thresholds gcfg gcfg' m s : same_but_points gcfg gcfg' -> nsteps step m (paillier_sys sk rg rh rr nh gcfg hcfg sname it gh) s ->
    exists s', nsteps step m (paillier_sys sk rg rh rr nh gcfg' hcfg sname it gh) s' /\ s_hosts s' = s_hosts s.
  Proof.
    intros SP RUN. unfold paillier_sys, sysof in *. destruct (talk_guest _ _ _ _ _ (guest_quiet gcfg gcfg' SP nh it gh _ _ _ _) RUN) as (q & RUN' & _).
    eexists. split; [exact RUN'|reflexivity].
  Qed.

  (** Nor do those of a host reach the guest or another host: the guest, the other hosts and all channels are the same. *)
  Theorem C44_host_thresholds gcfg hcfg' j m s : j < nh -> same_but_points (hcfg j) (hcfg' j) -> (forall i, i <> j -> hcfg' i = hcfg i) ->
    nsteps step m (paillier_sys sk rg rh rr nh gcfg hcfg sname it gh) s ->
    exists s', nsteps step m (paillier_sys sk rg rh rr nh gcfg hcfg' sname it gh) s' /\ s_guest s' = s_guest s /\ (forall i, i <> j -> s_hosts s' !! i = s_hosts s !! i) /\
      option_map (fun h => (h.1.2, h.2)) (s_hosts s' !! j) = option_map (fun h => (h.1.2, h.2)) (s_hosts s !! j).
  Proof.
    intros Hj SP EQ RUN. unfold paillier_sys in *. set (g := guest_fit _ _ _ _ _ _ _ _ _) in *. unfold sysof in RUN.
    set (p := fun i => (host_fit (E := enum) (R := list node * dict nat mval) pops (sname i) (hcfg i) Ret, [] : list (msg K cell enum), [] : list (msg K cell enum))) in *.
    assert (L : map p (seq 0 nh) !! j = Some (p j)) by (rewrite map_lookup, lookup_seq_lt by lia; reflexivity).
    destruct (talk_host j _ _ g _ _ _ m s L (host_quiet (hcfg j) (hcfg' j) SP pops (sname j)) RUN) as (r & q & d' & u' & E & _ & RUN').
    exists (Sys (s_guest s) (with_host j q (s_hosts s))). split; [|split; [|split]].
    - refine (eq_rect _ (fun x => nsteps step m x _) RUN' _ _). unfold sysof. f_equal. apply list_eq. intros i. destruct (decide (i = j)) as [->|N].
      + erewrite with_host_same by exact L. rewrite map_lookup, lookup_seq_lt by lia. reflexivity.
      + rewrite with_host_other by exact N. rewrite !map_lookup. destruct (seq 0 nh !! i) as [x|] eqn:Ex; [|reflexivity]. cbn. apply lookup_seq in Ex as [-> _]. cbn. unfold p. now rewrite EQ.
    - reflexivity.
    - intros i N. cbn [s_hosts]. now rewrite with_host_other.
    - cbn [s_hosts]. erewrite with_host_same by exact E. now rewrite E.
  Qed.
End Privacy.
Print Assumptions C44_guest_thresholds.
Print Assumptions C44_host_thresholds.
Example C44_ex : same_but_points ex_guest (PCfg ex_par 3 1 [[zq (-5); zq 100]] [(0, 0)] [true] (ex_data ex_gbins)).
Proof. split; reflexivity. Qed.

(** Two training sets that differ only in one gradient, that is, in one label: the host can tell them apart at the end, with
    encryption on. *)
Definition ex_vg' (k : nat) : Qc := nth k [zq 1; Q2Qc (1 # 2); zq 1; Q2Qc (-1 # 2)] (zq 0).
Definition ex_gh' : dtable nat (Qc * Qc) := DT (map (fun k => (k, (ex_vg' k, ex_vh k))) (seq 0 4)).
Theorem C44_labels_hidden_refuted : exists sk (st st' : @gstate nat) r r' N,
  always (paillier_sys sk (fun _ => 1%Z) (fun _ => 1%Z) (fun _ _ => 1%Z) 1 ex_guest ex_host ex_name IGain ex_gh) (done st [r]) /\
  nsteps step N (paillier_sys sk (fun _ => 1%Z) (fun _ => 1%Z) (fun _ _ => 1%Z) 1 ex_guest ex_host ex_name IGain ex_gh') (done st' [r']) /\ r <> r'.
Proof.
  destruct ex_paillier as [sk PK].
  assert (PK' : paillier_ok (seq 0 4) sk (fun _ => 1%Z) (fun _ => 1%Z) (fun _ _ => 1%Z) (reg_lambda (c_par ex_guest)) (min_impurity (c_par ex_guest)) ex_vg' ex_vh 2).
  { destruct PK as [A B C D F G V X Y Z W]. split; try assumption.
    intros k Hk. apply elem_of_list_In, in_seq in Hk. destruct k as [|[|[|[|k]]]]; [split; [|split]; vm_compute; discriminate..|lia]. }
  assert (PA' : parties_ok (seq 0 4) 1 ex_guest ex_host (ex_party ex_gbins) [ex_party ex_hbins] ex_name ex_gh' ex_vg' ex_vh).
  { destruct ex_ok as [A B C D F G V X Y Z W]. split; try assumption.
    split; [exact (proj2 (NoDup_ListNoDup _) (seq_NoDup 4 0))|]. split; [reflexivity|]. intros k c Hc. cbn in Hc. repeat rewrite elem_of_cons in Hc.
    destruct Hc as [[= -> ->]|[[= -> ->]|[[= -> ->]|[[= -> ->]|Hc]]]]; [reflexivity..|]. now apply elem_of_nil in Hc. }
  assert (NI : IGain <> IOther) by discriminate.
  destruct (C47_paillier (seq 0 4) 1 ex_guest ex_host (ex_party ex_gbins) [ex_party ex_hbins] ex_name ex_gh ex_vg ex_vh IGain 2 sk _ _ _ ex_ok NI eq_refl PK) as (st & hs & N & LH & A).
  destruct (C47_paillier (seq 0 4) 1 ex_guest ex_host (ex_party ex_gbins) [ex_party ex_hbins] ex_name ex_gh' ex_vg' ex_vh IGain 2 sk _ _ _ PA' NI eq_refl PK') as (st' & hs' & N' & LH' & A').
  destruct hs as [|r [|]]; try discriminate LH. destruct hs' as [|r' [|]]; try discriminate LH'.
  destruct (A 0 _ (nsteps_O _ _)) as [_ R]. destruct (A' 0 _ (nsteps_O _ _)) as [_ R']. rewrite Nat.sub_0_r in R, R'.
  exists sk, st, st', r, r', N'. split; [exists N; exact A|]. split; [exact R'|]. intros ->.
  destruct (C44_leak (seq 0 4) 1 ex_guest ex_host (ex_party ex_gbins) [ex_party ex_hbins] ex_name ex_gh ex_vg ex_vh IGain 2 sk _ _ _ N st [r'] 0 r' ex_ok NI eq_refl PK R eq_refl) as (nd & E & EG & _).
  destruct (C44_leak (seq 0 4) 1 ex_guest ex_host (ex_party ex_gbins) [ex_party ex_hbins] ex_name ex_gh' ex_vg' ex_vh IGain 2 sk _ _ _ N' st' [r'] 0 r' PA' NI eq_refl PK' R' eq_refl) as (nd' & E' & EG' & _).
  rewrite E in E'. injection E' as <-. rewrite EG in EG'. apply (f_equal this) in EG'. vm_compute in EG'. discriminate EG'.
Qed.
Print Assumptions C44_labels_hidden_refuted.

(** ** C30 *)
(** After fit a row of the caller's table can be predicted differently: with a threshold among the fitted split points, the row
    goes to another leaf than before. *)
Theorem C30_prediction_refuted : exists (p : bin_params) (header : list nat) (h : heap) (t : dtable nat loc) h' points zb l o o' sp th i w w',
  table_ok (length header) h t /\ params_ok p (dt_count t) /\ prepare p header h t = Ok (h', t, points, zb) /\
  l ∈ dt_values t /\ h !! l = Some o /\ h' !! l = Some o' /\ points !! i = Some sp /\ th ∈ sp /\ w <> w' /\
  pwalk (fun _ f => raw o f) (PN None i th (PL w) (PL w')) = w' /\ pwalk (fun _ f => raw o' f) (PN None i th (PL w) (PL w')) = w.
Proof.
  exists (BP 10000 10000 e3 3 []), [7; 8], ex_heap, ex_table. eexists _, _, _, 0, _, _, _, _, 0, (zq 1), (zq 2).
  split; [apply C29_prepare_ex|]. split; [apply C29_prepare_ex|]. split; [vm_compute; reflexivity|]. split; [left|]. split; [reflexivity|]. split; [reflexivity|]. split; [reflexivity|]. split; [left|].
  split. { intros X. apply (f_equal this) in X. vm_compute in X. discriminate X. }
  split; vm_compute; reflexivity.
Qed.
Print Assumptions C30_prediction_refuted.
