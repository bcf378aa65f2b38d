(** The histogram of a node, seen as sums over the rows of the node; the candidates of a party. *)
From Verif Require Export ProcProofs.
From Verif Require Export PyBase HistModel TreeModel TreeSpec SplitProofs HistProofs TableRel.
From Verif Require Import DTableModel DTableSpec DTableProofs.
Local Open Scope nat_scope.

(** ** Tables, key by key *)
Section Tables.
  Context {K V : Type} `{EqDecision K}.

  Lemma dict_get_filter_keys (p : K * V -> bool) (l : list (K * V)) k : NoDup l.*1 ->
    dict_get k (List.filter p l) = match dict_get k l with Some v => if p (k, v) then Some v else None | None => None end.
  Proof.
    intros ND. destruct (dict_get k l) as [v|] eqn:E.
    - apply dict_get_elem in E. destruct (p (k, v)) eqn:Ep.
      + apply dict_get_nodup; [now apply filter_keys_NoDup|]. apply elem_of_list_In, filter_In. split; [now apply elem_of_list_In|exact Ep].
      + apply dict_get_None. intros H. apply elem_of_list_fmap in H as ([k' v'] & -> & H). apply elem_of_list_In, filter_In in H as [H1 H2].
        apply elem_of_list_In in H1. apply (dict_get_nodup _ _ _ ND) in H1. apply (dict_get_nodup _ _ _ ND) in E. cbn in *. congruence.
    - apply dict_get_None in E. apply dict_get_None. intros H. apply E. apply elem_of_list_fmap in H as ([k' v'] & -> & H).
      apply elem_of_list_In, filter_In in H as [H1 _]. apply elem_of_list_In in H1. apply elem_of_list_fmap. now exists (k', v').
  Qed.

  Lemma dt_filter_rel (f : K -> V -> bool) (t : dtable K V) : dt_wf t -> exists t', dt_filter f t = Ok t' /\ dt_wf t' /\
    forall k, tget t' k = match tget t k with Some v => if f k v then Some v else None | None => None end.
  Proof.
    intros W. rewrite dt_filter_ok by exact W. eexists. split; [reflexivity|]. split; [now apply filter_keys_NoDup|].
    intros k. apply (dict_get_filter_keys (fun kv => f kv.1 kv.2)). exact W.
  Qed.
  Lemma dt_subtract_rel {X} (t : dtable K V) (o : dtable K X) : dt_wf t -> exists t', dt_subtractByKey t o = Ok t' /\ dt_wf t' /\
    forall k, tget t' k = match tget o k with Some _ => None | None => tget t k end.
  Proof.
    intros W. rewrite dt_subtractByKey_ok by exact W. eexists. split; [reflexivity|]. split; [now apply filter_keys_NoDup|].
    intros k. unfold tget. cbn [dt_data]. rewrite (dict_get_filter_keys (fun kv => negb (dict_mem kv.1 (dt_data o)))) by exact W. cbn. unfold dict_mem.
    destruct (dict_get k (dt_data o)), (dict_get k (dt_data t)); reflexivity.
  Qed.
  Lemma dt_union_rel (t o : dtable K V) : dt_wf t -> dt_wf o -> exists t', dt_union (fun a _ => a) t o = Ok t' /\ dt_wf t' /\
    forall k, tget t' k = match tget t k with Some v => Some v | None => tget o k end.
  Proof.
    intros W Wo. rewrite dt_union_ok by exact W. eexists. split; [reflexivity|]. split; [now apply union_fold_NoDup|].
    intros k. unfold tget. cbn [dt_data]. rewrite union_fold_get by exact Wo.
    destruct (dict_get k (dt_data o)), (dict_get k (dt_data t)); reflexivity.
  Qed.
End Tables.

(** ** A party's data *)
Record party_ok {K} `{EqDecision K} (U : list K) (cfg : pcfg K) (p : party K) : Prop := {
  po_wf : dt_wf (c_data cfg);
  po_keys : forall k, k ∈ dt_keys (c_data cfg) <-> k ∈ U;
  po_row : forall k r, (k, r) ∈ dt_data (c_data cfg) -> NoDup r.*1;
  po_bin : forall k r f, (k, r) ∈ dt_data (c_data cfg) -> f < length (c_points cfg) -> p_bin p k f = bin_of (c_zero cfg) f r;
  po_range : forall k r f b, (k, r) ∈ dt_data (c_data cfg) -> dict_get f r = Some b -> exists pts, c_points cfg !! f = Some pts /\ b <= length pts;
  po_zero : forall f pts, c_points cfg !! f = Some pts -> exists z, dict_get f (c_zero cfg) = Some z /\ z <= length pts;
  po_nb : p_nb p = map length (c_points cfg);
  po_valid : p_valid p = c_valid cfg;
  po_len : length (c_valid cfg) = length (c_points cfg);
  po_ms : p_min_sample p = min_sample (c_par cfg);
  po_ml : p_min_leaf p = min_leaf (c_par cfg) }.

(** The positions table puts exactly the rows of every open node at its id. *)
Record pos_ok {K} `{EqDecision K} (U : list K) (pos : dtable K disp) (q : list (nat * (K -> bool))) : Prop := {
  ps_wf : dt_wf pos;
  ps_ids : NoDup q.*1;
  ps_pos : forall k d, tget pos k = Some d -> k ∈ U /\ exists id S, (id, S) ∈ q /\ d = DGo 1 id /\ S k = true;
  ps_set : forall id S k, (id, S) ∈ q -> k ∈ U -> S k = true -> tget pos k = Some (DGo 1 id) }.

Lemma pos_ok_node {K} `{EqDecision K} (U : list K) pos q id S k s nid : pos_ok U pos q -> (id, S) ∈ q ->
  tget pos k = Some (DGo s nid) -> s = 1%Z /\ bool_decide (nid = id) = S k.
Proof.
  intros PO Hq Hk. destruct (ps_pos _ _ _ PO k _ Hk) as (Ku & id' & S' & H1 & [= -> ->] & H2). split; [reflexivity|].
  destruct (S k) eqn:E.
  - apply bool_decide_eq_true. pose proof (ps_set _ _ _ PO id S k Hq Ku E) as X. congruence.
  - apply bool_decide_eq_false. intros ->.
    pose proof (dict_get_nodup _ _ _ (ps_ids _ _ _ PO) Hq) as X1. pose proof (dict_get_nodup _ _ _ (ps_ids _ _ _ PO) H1) as X2. congruence.
Qed.

(** ** Sums over a table as sums over all rows *)
Section Transfer.
  Context {K X : Type} `{EqDecision K} (U : list K) (NDU : NoDup U) (l : list (K * X)) (P : K * X -> bool) (Q : K -> bool).
  Hypothesis NDl : NoDup l.*1.
  Hypothesis H1 : forall k x, (k, x) ∈ l -> k ∈ U /\ P (k, x) = Q k.
  Hypothesis H2 : forall k, k ∈ U -> Q k = true -> k ∈ l.*1.

  Lemma transfer_perm : Permutation (map fst (List.filter P l)) (List.filter Q U).
  Proof.
    apply NoDup_Permutation.
    - change (NoDup (List.filter P l).*1). now apply filter_keys_NoDup.
    - now apply NoDup_List_filter.
    - intros k. split.
      + intros H. apply elem_of_list_fmap in H as ([k' x] & -> & H). apply elem_of_list_In, filter_In in H as [H Hp].
        apply elem_of_list_In in H. destruct (H1 k' x H) as [A B]. apply elem_of_list_In, filter_In. split; [now apply elem_of_list_In|]. cbn. congruence.
      + intros H. apply elem_of_list_In, filter_In in H as [H Hq]. apply elem_of_list_In in H.
        pose proof (H2 k H Hq) as Hl. apply elem_of_list_fmap in Hl as ([k' x] & -> & Hl). destruct (H1 k' x Hl) as [A B].
        apply elem_of_list_fmap. exists (k', x). split; [reflexivity|]. apply elem_of_list_In, filter_In. split; [now apply elem_of_list_In|]. cbn in *. congruence.
  Qed.
  Lemma sum_transfer (f : K -> Qc) : sum_if P (fun kx => f kx.1) l = sum_if Q f U.
  Proof.
    assert (QP : forall a b : list K, Permutation a b -> qsum (map f a) = qsum (map f b)).
    { intros a b HP. pose proof (sum_if_perm (fun _ => true) f a b HP) as X0.
      assert (TT : forall l : list K, List.filter (fun _ => true) l = l) by (induction l0; cbn; congruence).
      unfold sum_if in X0. now rewrite !TT in X0. }
    unfold sum_if. rewrite <- (QP _ _ transfer_perm). now rewrite map_map.
  Qed.
  Lemma count_transfer : count_if P l = count_if Q U.
  Proof. unfold count_if. rewrite <- (Permutation_length transfer_perm). now rewrite map_length. Qed.
End Transfer.

(** ** The node map *)
Lemma node_map_keys (ids : list nat) : fst <$> combine ids (seq 0 (length ids)) = ids.
Proof. generalize 0. induction ids as [|a ids IH]; intros n; cbn; [reflexivity|]. f_equal. apply IH. Qed.
Lemma node_map_spec ids : NoDup ids -> node_map_of ids = combine ids (seq 0 (length ids)).
Proof.
  intros ND. unfold node_map_of.
  assert (G : forall (l d : dict nat nat), NoDup (d ++ l).*1 -> fold_left (fun d ni => dict_set ni.1 ni.2 d) l d = d ++ l).
  { induction l as [|[k v] l IH]; intros d N; cbn; [now rewrite app_nil_r|].
    rewrite dict_set_fresh. 2:{ rewrite fmap_app in N. apply NoDup_app in N as (_ & N & _). intros X. apply (N k X). left. }
    rewrite IH; rewrite <- app_assoc; [reflexivity|exact N]. }
  apply (G _ []). cbn [app]. rewrite node_map_keys. exact ND.
Qed.
Lemma node_map_elem (ids : list nat) n x i : (x, i) ∈ combine ids (seq n (length ids)) <-> n <= i /\ ids !! (i - n) = Some x.
Proof.
  revert n. induction ids as [|a l IH]; intros n; cbn.
  - split; [intros H; inversion H|intros [_ H]; now rewrite lookup_nil in H].
  - rewrite elem_of_cons, IH. split.
    + intros [[= -> ->]|[H1 H2]]; [rewrite Nat.sub_diag; auto|]. split; [lia|]. now replace (i - n) with (S (i - S n)) by lia.
    + intros [H1 H2]. destruct (decide (i = n)) as [->|Hn].
      * rewrite Nat.sub_diag in H2. cbn in H2. injection H2 as ->. now left.
      * right. split; [lia|]. replace (i - n) with (S (i - S n)) in H2 by lia. exact H2.
Qed.
Lemma node_map_get (ids : list nat) i x : NoDup ids -> (dict_get x (node_map_of ids) = Some i <-> ids !! i = Some x).
Proof.
  intros ND. rewrite node_map_spec by exact ND. split.
  - intros H. apply dict_get_elem, node_map_elem in H as [_ H]. now rewrite Nat.sub_0_r in H.
  - intros H. apply dict_get_nodup; [now rewrite node_map_keys|]. apply node_map_elem. rewrite Nat.sub_0_r. auto with lia.
Qed.
Lemma node_map_length ids : NoDup ids -> length (node_map_of ids) = length ids.
Proof. intros ND. rewrite node_map_spec, combine_length, seq_length by exact ND. lia. Qed.

Section Party.
  Context {K : Type} `{EqDecision K} (U : list K) (NDU : NoDup U) (cfg : pcfg K) (p : party K) (PK : party_ok U cfg p).

  Lemma with_positions_ok pos q : pos_ok U pos q -> exists dbn, with_positions (c_data cfg) pos = Ok dbn /\ dt_wf dbn /\
    forall k x, tget dbn k = Some x <-> exists row id, tget (c_data cfg) k = Some row /\ tget pos k = Some (DGo 1 id) /\ x = (row, (1%Z, id)).
  Proof.
    intros PO. unfold with_positions.
    destruct (dt_join_rel (fun (f : dict nat nat) d => p0 ← pos_of d; Ok (f, p0)) (fun k f d x => exists id, d = DGo 1 id /\ x = (f, (1%Z, id))) (c_data cfg) pos (ps_wf _ _ _ PO))
      as (dbn & E & W & _ & G).
    { intros k v w Hv Hw. destruct (ps_pos _ _ _ PO k w Hw) as (_ & id & S & _ & -> & _). cbn. eexists. split; [reflexivity|]. eauto. }
    exists dbn. split; [exact E|]. split; [exact W|]. intros k x. specialize (G k). split.
    - intros Hx. rewrite Hx in G. destruct (tget (c_data cfg) k) as [row|]; [|destruct (tget pos k); easy].
      destruct (tget pos k) as [d|]; [|easy]. destruct G as (id & -> & ->). eauto.
    - intros (row & id & Hr & Hd & ->). rewrite Hr, Hd in G. destruct (tget dbn k) as [x|]; [|easy]. destruct G as (id' & [= <-] & ->). reflexivity.
  Qed.

  Context {C : Type} (O : numops C) (rep : C -> Z -> Qc -> Prop) (NL : numlaws O rep) (ev eh : K -> Qc) (ghc : dtable K (C * C)).
  Hypothesis Wg : dt_wf ghc.
  Hypothesis Kg : forall k, k ∈ U -> k ∈ dt_keys ghc.
  Hypothesis Rg : forall k c, (k, c) ∈ dt_data ghc -> rep c.1 1 (ev k) /\ rep c.2 1 (eh k).

  (** Cell [t] holds the sums over the rows [Q]. *)
  Definition cell_ok (t : trip C) (Q : K -> bool) : Prop :=
    tc t = count_if Q U /\ exists L, (tc t <= L <= 3 * Z.of_nat (length U))%Z /\ rep (tg t) L (sum_if Q ev U) /\ rep (th t) L (sum_if Q eh U).
  Definition node_hist (hj : list (list (trip C))) (S : K -> bool) : Prop :=
    length hj = length (c_points cfg) /\
    forall f pts bh, c_points cfg !! f = Some pts -> hj !! f = Some bh -> c_valid cfg !! f = Some true ->
      length bh = Datatypes.S (length pts) /\ forall b, b <= length pts -> exists t, bh !! b = Some t /\ cell_ok t (left_of p S f b).

  Lemma node_hists pos q cur dbn : pos_ok U pos q -> (forall x, x ∈ cur -> x ∈ q) -> NoDup cur.*1 -> cur <> [] ->
    with_positions (c_data cfg) pos = Ok dbn ->
    exists h, get_histograms O dbn ghc (c_points cfg) (c_zero cfg) (Some (c_valid cfg)) (node_map_of cur.*1) = Ok h /\
      Forall2 node_hist h (map snd cur).
  Proof.
    intros PO Sub ND NE E. destruct (with_positions_ok pos q PO) as (dbn' & E' & Wd & G). rewrite E in E'. injection E' as <-.
    assert (GE : forall k x, (k, x) ∈ dt_data dbn <-> exists row id, (k, row) ∈ dt_data (c_data cfg) /\ tget pos k = Some (DGo 1 id) /\ x = (row, (1%Z, id))).
    { intros k x. rewrite <- tget_elem by exact Wd. rewrite G. split; intros (row & id & Hr & X); exists row, id;
      [rewrite <- (tget_elem (c_data cfg)) by apply PK; auto|rewrite <- (tget_elem (c_data cfg)) in Hr by apply PK; auto]. }
    set (nm := node_map_of cur.*1).
    assert (NL0 : length nm = length cur) by (unfold nm; now rewrite node_map_length, fmap_length).
    destruct (get_histograms_ok O rep NL ev eh dbn ghc (c_points cfg) (c_zero cfg) nm Wd Wg) with (mask := c_valid cfg) as (h & Eh & Sh & D).
    - intros k Hk. apply tget_is_Some in Hk as [x Hx]. apply G in Hx as (row & id & Hr & _). apply Kg. apply PK. eapply tget_key; exact Hr.
    - exact Rg.
    - constructor.
      + rewrite NL0. destruct cur; [easy|cbn; lia].
      + intros nd i Hi. unfold nm in Hi. apply node_map_get in Hi; [|exact ND]. apply lookup_lt_Some in Hi. rewrite fmap_length in Hi. lia.
      + apply PK.
      + apply PK.
      + intros k r Hr. apply GE in Hr as (row & id & Hr & _ & ->). cbn. exact (po_row _ _ _ PK k row Hr).
      + intros k r f b Hr Hb. apply GE in Hr as (row & id & Hr & _ & ->). exact (po_range _ _ _ PK k row f b Hr Hb).
    - exists h. split; [exact Eh|]. destruct Sh as [SL Sh].
      assert (LD : length (dt_data dbn) <= length U).
      { rewrite <- (fmap_length fst (dt_data dbn)). apply submseteq_length. apply NoDup_submseteq; [exact Wd|].
        intros k Hk. apply elem_of_list_fmap in Hk as ([k' x] & -> & Hx). apply GE in Hx as (row & id & Hr & _). apply PK. apply (elem_of_list_fmap_1 fst _ _ Hr). }
      apply Forall2_same_length_lookup. split; [rewrite SL, map_length; exact NL0|].
      intros j hj S Hj HS. assert (exists id, cur !! j = Some (id, S)) as (id & Hc).
      { destruct (cur !! j) as [[id S']|] eqn:Ec.
        - exists id. f_equal. f_equal. apply (f_equal (fmap snd)) in Ec. cbn in Ec. rewrite <- list_lookup_fmap in Ec. change (map snd cur) with (snd <$> cur) in HS. congruence.
        - apply lookup_ge_None in Ec. apply lookup_lt_Some in HS. rewrite map_length in HS. lia. }
      assert (Hq : (id, S) ∈ q) by (apply Sub; eapply elem_of_list_lookup_2; exact Hc).
      destruct (Sh j hj Hj) as [SF SB]. split; [exact SF|].
      intros f pts bh Hp Hb Hv. destruct (SB f pts bh Hp Hb) as [SB1 _]. split; [apply SB1; exact Hv|].
      intros b Lb. assert (Lj : j < length nm) by (rewrite NL0; eapply lookup_lt_Some; exact Hc).
      destruct (D j f pts b Lj Hp Hv Lb) as (t & L & Ht & HL & R1 & R2 & R3).
      unfold hget in Ht. rewrite Hj, Hb in Ht. exists t. split; [exact Ht|].
      assert (Lf : f < length (c_points cfg)) by (eapply lookup_lt_Some; exact Hp).
      assert (T1 : forall k x, (k, x) ∈ dt_data dbn -> k ∈ U /\ below nm (c_zero cfg) j f b x = left_of p S f b k).
      { intros k x Hx. apply GE in Hx as (row & nid & Hr & Hd & ->). split; [apply PK; apply (elem_of_list_fmap_1 fst _ _ Hr)|].
        destruct (pos_ok_node U pos q id S k 1 nid PO Hq Hd) as [_ ES].
        unfold below, left_of, in_node. cbn [fst snd]. rewrite (po_bin _ _ _ PK k row f Hr Lf).
        change (negb (1 =? 0)%Z) with true. cbn [andb]. f_equal. rewrite <- ES. apply bool_decide_ext.
        unfold nm. rewrite node_map_get by exact ND. rewrite list_lookup_fmap. split.
        - destruct (cur !! j) as [[i' S']|] eqn:Ej; [|discriminate]. cbn. intros [= ->]. congruence.
        - intros ->. now rewrite Hc. }
      assert (T2 : forall k, k ∈ U -> left_of p S f b k = true -> k ∈ (dt_data dbn).*1).
      { intros k Ku Hl. unfold left_of in Hl. apply andb_prop in Hl as [Hl _]. pose proof (ps_set _ _ _ PO id S k Hq Ku Hl) as Hd.
        apply (po_keys _ _ _ PK) in Ku. apply tget_is_Some in Ku as [row Hr].
        assert (X : tget dbn k = Some (row, (1%Z, id))) by (apply G; eauto). apply tget_elem in X; [|exact Wd]. apply (elem_of_list_fmap_1 fst _ _ X). }
      pose proof (fun g => sum_transfer U NDU (dt_data dbn) (fun kd => below nm (c_zero cfg) j f b kd.2) (left_of p S f b) Wd T1 T2 g) as TS.
      pose proof (count_transfer U NDU (dt_data dbn) (fun kd => below nm (c_zero cfg) j f b kd.2) (left_of p S f b) Wd T1 T2) as TC.
      cbv beta in *. rewrite TS in R1. rewrite TS in R2. rewrite TC in R3, HL. split; [exact R3|]. exists L. split; [lia|]. auto.
  Qed.

  (** ** The candidates of the histogram are those of the party. *)
  Lemma filter_combine_seq {X} (pr : X -> bool) (bins : list X) : forall n (g : nat -> bool),
    (forall i t, bins !! i = Some t -> pr t = g (n + i)) ->
    map fst (List.filter (fun bt => pr bt.2) (combine (seq n (length bins)) bins)) = List.filter g (seq n (length bins)).
  Proof.
    induction bins as [|a bins IH]; intros n g Hg; [reflexivity|]. cbn [length seq combine List.filter snd].
    pose proof (Hg 0 a eq_refl) as H0. rewrite Nat.add_0_r in H0. rewrite H0.
    assert (IH' : map fst (List.filter (fun bt => pr bt.2) (combine (seq (S n) (length bins)) bins)) = List.filter g (seq (S n) (length bins))).
    { apply IH. intros i t Hi. rewrite (Hg (S i) t Hi). f_equal. lia. }
    destruct (g n); cbn [map fst]; now rewrite IH'.
  Qed.

  Lemma cand_list_spec S (feats : list (list (trip C))) : forall fid nbs, length feats = length nbs ->
    (forall i bh nb, feats !! i = Some bh -> nbs !! i = Some nb -> p_valid p !! (fid + i) = Some true ->
       length bh = Datatypes.S nb /\ (forall b t, bh !! b = Some t -> tc t = count_if (left_of p S (fid + i) b) U) /\
       count_if (left_of p S (fid + i) nb) U = count_if S U) ->
    map fst (cand_list (c_par cfg) (c_valid cfg) fid feats) =
    if (count_if S U <? p_min_sample p)%Z then []
    else flat_map (fun fn => match p_valid p !! fn.1 with
                             | Some true => map (fun b => (fn.1, b)) (List.filter (allowed U p S fn.1) (seq 0 (Datatypes.S fn.2)))
                             | _ => []
                             end) (combine (seq fid (length nbs)) nbs).
  Proof.
    induction feats as [|bh feats IH]; intros fid nbs HL HF.
    - destruct nbs; [|discriminate]. cbn. now destruct (_ <? _)%Z.
    - destruct nbs as [|nb nbs]; [discriminate|]. cbn [cand_list length]. change (seq fid (Datatypes.S (length nbs))) with (fid :: seq (Datatypes.S fid) (length nbs)).
      cbn [combine flat_map fst snd].
      assert (IH' := IH (Datatypes.S fid) nbs ltac:(cbn in HL; lia)).
      specialize (IH' ltac:(intros i bh' nb' H1 H2 H3; specialize (HF (Datatypes.S i) bh' nb' H1 H2); rewrite <- !plus_n_Sm in HF; exact (HF H3))).
      rewrite <- (po_valid _ _ _ PK) in *. destruct (p_valid p !! fid) as [[|]|] eqn:EV; [|exact IH'..].
      destruct (HF 0 bh nb eq_refl eq_refl) as (L1 & TC & TT); [now rewrite Nat.add_0_r|]. rewrite Nat.add_0_r in TC, TT.
      destruct (last bh) as [tot|] eqn:EL.
      2:{ apply last_None in EL. subst bh. discriminate L1. }
      rewrite last_lookup, L1 in EL. cbn [Init.Nat.pred] in EL. pose proof (TC nb tot EL) as ET. rewrite TT in ET. rewrite ET.
      rewrite <- (po_ms _ _ _ PK). destruct (count_if S U <? p_min_sample p)%Z; [reflexivity|].
      rewrite map_app, IH'. f_equal. unfold bin_cands. rewrite map_map. cbn [fst].
      pose proof (filter_combine_seq (fun t : trip C => (min_leaf (c_par cfg) <=? tc t)%Z && (min_leaf (c_par cfg) <=? tc tot - tc t)%Z) bh 0 (allowed U p S fid)) as FC.
      rewrite L1 in FC. rewrite L1. rewrite <- FC.
      + now rewrite map_map.
      + intros i t Hi. rewrite (TC i t Hi), ET. unfold allowed. now rewrite (po_ml _ _ _ PK).
  Qed.

  Definition cand_ok (S : K -> bool) (c : nat * nat * (trip C * trip C)) : Prop :=
    cell_ok c.2.1 (left_of p S c.1.1 c.1.2) /\ cell_ok c.2.2 S /\ (p_min_leaf p <= tc c.2.1)%Z.

  Lemma bin_bound k f pts : k ∈ U -> c_points cfg !! f = Some pts -> p_bin p k f <= length pts.
  Proof.
    intros Ku Hp. apply (po_keys _ _ _ PK) in Ku. apply tget_is_Some in Ku as [row Hr]. apply tget_elem in Hr; [|apply PK].
    rewrite (po_bin _ _ _ PK k row f Hr) by (eapply lookup_lt_Some; exact Hp). unfold bin_of.
    destruct (dict_get f row) as [b|] eqn:E.
    - destruct (po_range _ _ _ PK k row f b Hr E) as (pts' & Hp' & L). rewrite Hp in Hp'. now injection Hp' as <-.
    - destruct (po_zero _ _ _ PK f pts Hp) as (z & -> & L). exact L.
  Qed.
  Lemma left_all S f pts k : k ∈ U -> c_points cfg !! f = Some pts -> left_of p S f (length pts) k = S k.
  Proof.
    intros Ku Hp. unfold left_of. rewrite (proj2 (Nat.leb_le _ _) (bin_bound k f pts Ku Hp)). apply andb_true_r.
  Qed.

  Lemma node_cands S hj : node_hist hj S ->
    map fst (cand_list (c_par cfg) (c_valid cfg) 0 hj) = cands U p S /\
    forall c, c ∈ cand_list (c_par cfg) (c_valid cfg) 0 hj -> cand_ok S c.
  Proof.
    intros [HL HN]. split.
    - unfold cands. apply cand_list_spec; [now rewrite (po_nb _ _ _ PK), map_length|].
      intros i bh nb Hb Hn Hv. cbn [Nat.add] in *. rewrite (po_nb _ _ _ PK) in Hn.
      destruct (c_points cfg !! i) as [pts|] eqn:Hp.
      2:{ apply lookup_ge_None in Hp. apply lookup_lt_Some in Hb. lia. }
      change (map length (c_points cfg)) with (length <$> c_points cfg) in Hn. rewrite list_lookup_fmap, Hp in Hn. cbn in Hn. injection Hn as <-.
      rewrite (po_valid _ _ _ PK) in Hv. destruct (HN i pts bh Hp Hb Hv) as [L1 D]. split; [exact L1|]. split.
      + intros b t Ht. destruct (D b) as (t' & Ht' & TC & _). { apply lookup_lt_Some in Ht. lia. } congruence.
      + apply count_if_ext. intros k Hk. now apply left_all.
    - intros [[f b] [t T]] Hc. apply cand_list_elem in Hc as (_ & (Hv & bh & Hb & Hl) & (bh' & Hb' & Ht) & _ & M1 & _).
      rewrite drop_0, Nat.sub_0_r in *. rewrite Hb in Hb'. injection Hb' as <-.
      destruct (c_points cfg !! f) as [pts|] eqn:Hp.
      2:{ apply lookup_ge_None in Hp. apply lookup_lt_Some in Hb. lia. }
      destruct (HN f pts bh Hp Hb Hv) as [L1 D]. split; [|split]; cbn [fst snd].
      + destruct (D b) as (t' & Ht' & X). { apply lookup_lt_Some in Ht. lia. } congruence.
      + rewrite last_lookup, L1 in Hl. cbn [Init.Nat.pred] in Hl. destruct (D (length pts) ltac:(lia)) as (t' & Ht' & TC & L & LL & R1 & R2).
        rewrite Hl in Ht'. injection Ht' as <-. assert (EX : forall k, k ∈ U -> left_of p S f (length pts) k = S k) by (intros; now apply left_all).
        rewrite (count_if_ext _ S _ EX) in TC. rewrite (sum_if_ext _ S _ _ EX) in R1. rewrite (sum_if_ext _ S _ _ EX) in R2. split; [exact TC|]. eauto.
      + rewrite (po_ml _ _ _ PK). exact M1.
  Qed.
End Party.
