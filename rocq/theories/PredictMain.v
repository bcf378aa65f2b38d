(** Prediction with a learnt tree, with an absent host, and after saving and loading. *)
From Verif Require Export PredictProofs TreeMain BinningSpec.
Local Open Scope nat_scope.

(** ** Split bins are not empty *)
(** In every split of a tree for the rows [S], the bin of the split holds a row, unless it is the first bin. *)
Section Tight.
  Context {K : Type} (U : list K) (guest : party K) (hosts : list (party K)).
  Fixpoint tight (t : dtree) (S : K -> bool) : Prop :=
    match t with
    | TLeaf _ _ _ => True
    | TSplit _ _ _ c _ l r =>
        (exists p, owner guest hosts (ch_own c) = Some p /\ (ch_bin c = 0 \/ exists k, k ∈ U /\ S k = true /\ p_bin p k (ch_fid c) = ch_bin c)) /\
        tight l (goes guest hosts left_of S c) /\ tight r (goes guest hosts right_of S c)
    end.

  Lemma NoDup_combine_seq {X} (l : list X) n : NoDup (map fst (combine (seq n (length l)) l)).
  Proof.
    assert (map fst (combine (seq n (length l)) l) = seq n (length l)) as ->; [|apply NoDup_ListNoDup, seq_NoDup].
    revert n. induction l as [|x l IH]; intros n; cbn; [reflexivity|]. now rewrite IH.
  Qed.

  Lemma cands_order p S f b : (f, b) ∈ cands U p S -> exists l1 l2, cands U p S = l1 ++ l2 /\ (f, b) ∈ l1 /\ (f, Datatypes.S b) ∉ l1.
  Proof.
    unfold cands. destruct (_ <? _)%Z; [intros H; now apply elem_of_nil in H|]. intros H. apply elem_of_list_In, in_flat_map in H as ([f' n] & Hin & Hb).
    pose proof (NoDup_combine_seq (p_nb p) 0) as ND. apply in_split in Hin as (pre & post & E). rewrite E in *. rewrite map_app in ND. cbn [map fst] in ND.
    rewrite flat_map_app. cbn [flat_map fst snd] in Hb |- *. destruct (p_valid p !! f') as [[|]|]; [|easy..].
    apply in_map_iff in Hb as (b' & [= -> ->] & Hb). apply filter_In in Hb as [Hb Al]. apply in_seq in Hb.
    set (blk := fun l => map (fun b => (f, b)) (List.filter (allowed U p S f) l)).
    assert (EB : map (fun b => (f, b)) (List.filter (allowed U p S f) (seq 0 (Datatypes.S n))) = blk (seq 0 (Datatypes.S b)) ++ blk (seq (Datatypes.S b) (n - b))).
    { unfold blk. rewrite <- map_app, <- List.filter_app, <- seq_app. do 3 f_equal. lia. }
    rewrite EB. rewrite <- (app_assoc (blk _)), app_assoc. eexists _, _. split; [reflexivity|]. split.
    - apply elem_of_app. right. apply elem_of_list_In, in_map_iff. exists b. split; [reflexivity|]. apply filter_In. split; [apply in_seq; lia|exact Al].
    - intros X. apply elem_of_app in X as [X|X].
      + apply elem_of_list_In, in_flat_map in X as ([f2 n2] & I2 & X). cbn [fst snd] in X. destruct (p_valid p !! f2) as [[|]|]; [|easy..].
        apply in_map_iff in X as (b2 & [= -> _] & _). apply NoDup_app in ND as (_ & D & _). apply (D f); [|left]. apply elem_of_list_In, in_map_iff. exists (f, n2). auto.
      + apply elem_of_list_In, in_map_iff in X as (b2 & [= ->] & X). apply filter_In in X as [X _]. apply in_seq in X. lia.
  Qed.

  Lemma propose_tight lam mi own p S G H sg sh c x (Xg : forall L L', (forall k, k ∈ U -> L k = L' k) -> sg L = sg L') (Xh : forall L L', (forall k, k ∈ U -> L k = L' k) -> sh L = sh L') :
    propose U lam mi own p S G H sg sh = Ok (Some (c, x)) -> ch_bin c = 0 \/ exists k, k ∈ U /\ S k = true /\ p_bin p k (ch_fid c) = ch_bin c.
  Proof.
    intros E. destruct (propose_choice U lam mi _ _ _ _ _ _ _ _ _ E) as (_ & Hc & Eg & Eh & Ex & _). destruct (ch_bin c) as [|b] eqn:Eb; [now left|right].
    destruct (List.existsb (fun k => S k && (p_bin p k (ch_fid c) =? Datatypes.S b)) U) eqn:EX.
    { apply existsb_exists in EX as (k & Hk & A). apply andb_true_iff in A as [A1 A2]. exists k. split; [now apply elem_of_list_In|]. split; [exact A1|]. now apply Nat.eqb_eq. }
    exfalso. assert (SAME : forall k, k ∈ U -> left_of p S (ch_fid c) b k = left_of p S (ch_fid c) (Datatypes.S b) k).
    { intros k Hk. unfold left_of. destruct (S k) eqn:ES; [|reflexivity]. cbn [andb]. destruct (Nat.leb_spec (p_bin p k (ch_fid c)) b), (Nat.leb_spec (p_bin p k (ch_fid c)) (Datatypes.S b)); try reflexivity; try lia.
      assert (Y : existsb (fun k => S k && (p_bin p k (ch_fid c) =? Datatypes.S b)) U = true); [|congruence]. apply existsb_exists. exists k. split; [now apply elem_of_list_In|]. rewrite ES. apply Nat.eqb_eq. lia. }
    assert (Hb : (ch_fid c, b) ∈ cands U p S).
    { revert Hc. unfold cands. destruct (_ <? _)%Z; [intros Y; now apply elem_of_nil in Y|]. intros Y. apply elem_of_list_In, in_flat_map in Y as ([f n] & I & X).
      apply elem_of_list_In, in_flat_map. exists (f, n). split; [exact I|]. cbn [fst snd] in *.
      destruct (p_valid p !! f) as [[|]|]; [|easy..]. apply in_map_iff in X as (b2 & [= -> ->] & X). apply filter_In in X as [X A]. apply in_seq in X. apply in_map_iff. exists b. split; [reflexivity|].
      apply filter_In. split; [apply in_seq; lia|]. unfold allowed in *. rewrite (count_if_ext _ _ _ SAME). exact A. }
    destruct (cands_order p S _ _ Hb) as (l1 & l2 & EC & I1 & N1).
    unfold propose in E. cbv zeta in E. destruct (mapR _ _) as [l|e] eqn:El in E; [|discriminate]. cbn [mbind res_bind] in E. injection E as E.
    apply mapR_inv in El as [Ll Dl]. pose proof (first_best_spec mi l) as FB. rewrite E in FB. destruct FB as (_ & i & Hi & D).
    destruct (lookup_lt_is_Some_2 (cands U p S) i) as [[f2 b2] Hfb]; [rewrite <- Ll; eapply lookup_lt_Some; eauto|].
    destruct (Dl i _ Hfb) as (y & Hy & Ey). rewrite Hi in Hy. injection Hy as <-. destruct (sgain _ _ _ _ _) as [y|] eqn:Es in Ey; [|discriminate]. cbn [mbind res_bind] in Ey. injection Ey as Ec _.
    assert (F2 : f2 = ch_fid c /\ b2 = Datatypes.S b) by (rewrite <- Eb, <- Ec; auto). destruct F2 as [-> ->].
    apply elem_of_list_lookup in I1 as (j & Hj).
    assert (JI : j < i).
    { destruct (decide (j < i)) as [L|L]; [exact L|]. exfalso. apply N1. apply (elem_of_list_lookup_2 _ i). rewrite EC in Hfb. rewrite lookup_app_l in Hfb; [exact Hfb|]. apply lookup_lt_Some in Hj. lia. }
    assert (Hj' : cands U p S !! j = Some (ch_fid c, b)) by (rewrite EC; now apply lookup_app_l_Some).
    destruct (Dl j _ Hj') as (z & Hz & Ez). cbn [fst snd ch_g ch_h] in Ez. destruct (sgain _ _ _ (sg (left_of p S (ch_fid c) b)) _) as [z'|] eqn:Es' in Ez; [|discriminate]. cbn [mbind res_bind] in Ez. injection Ez as <-.
    apply sgain_inv in Es' as [_ Ez']. destruct (D j _ _ Hz) as [_ LT]. specialize (LT JI). rewrite Eg, Eh in Ex. rewrite (Xg _ _ SAME), (Xh _ _ SAME) in Ez'.
    subst z' x. revert LT. apply Qcle_not_lt, Qcle_refl.
  Qed.

  Context (lam mi : Qc) (vg vh eg eh : K -> Qc) (rnd : Qc -> Qc) (rt : Qc -> res Qc).
  Local Notation best_split := (best_split U lam mi guest hosts vg vh eg eh rnd rt).

  Lemma best_tight S G H c x : best_split S G H = Ok (Some (c, x)) -> exists p, owner guest hosts (ch_own c) = Some p /\
    (ch_bin c = 0 \/ exists k, k ∈ U /\ S k = true /\ p_bin p k (ch_fid c) = ch_bin c).
  Proof.
    unfold TreeSpec.best_split. intros Hox.
    destruct (guest_best U lam mi guest vg vh S) as [g0|e] eqn:Eg; [|discriminate]. cbn [mbind res_bind] in Hox.
    destruct (mapR _ _) as [hs|e] eqn:Ehs in Hox; [|discriminate]. cbn [mbind res_bind] in Hox. cbv zeta in Hox. injection Hox as Hox.
    destruct (mapR_inv _ _ _ Ehs) as [Lh Dh]. destruct (first_best _ (omap id hs)) as [[c' y']|] eqn:Ef.
    - injection Hox as -> ->. apply first_best_elem, elem_of_list_omap in Ef as (o' & Ho' & Eo). cbn in Eo. subst o'.
      apply elem_of_list_lookup in Ho' as (i' & Hi'). destruct (lookup_lt_is_Some_2 hosts i') as [p' Hp'].
      { apply lookup_lt_Some in Hi'. rewrite combine_length, seq_length, Nat.min_id in Lh. lia. }
      destruct (Dh i' (i', p')) as (o' & Ho' & Eo'); [exact (combine_seq_at hosts 0 i' p' Hp')|]. rewrite Hi' in Ho'. injection Ho' as <-.
      unfold TreeSpec.host_best in Eo'. destruct (propose _ _ _ _ _ _ _ _ _ _) as [[[c' x']|]|e] eqn:Epr in Eo'; cbn [mbind res_bind fst snd] in Eo'; [| |discriminate].
      + destruct (rt x') as [y|] eqn:Er; [|discriminate]. cbn in Eo'. injection Eo' as -> ->. destruct (propose_choice _ _ _ _ _ _ _ _ _ _ _ _ Epr) as (Po & _).
        cbn [fst snd] in *. exists p'. rewrite Po. split; [exact Hp'|]. apply (propose_tight _ _ _ _ _ _ _ _ _ _ _) in Epr; [exact Epr| |]; intros L L' E; f_equal; now apply sum_if_ext.
      + destruct (rt _) in Eo'; discriminate.
    - subst g0. unfold TreeSpec.guest_best in Eg. destruct (propose_choice _ _ _ _ _ _ _ _ _ _ _ _ Eg) as (Po & _).
      exists guest. rewrite Po. split; [reflexivity|]. apply propose_tight in Eg; [exact Eg| |]; intros L L' E; now apply sum_if_ext.
  Qed.
  Lemma grow_tight d : forall S G H t, grow U lam mi guest hosts vg vh eg eh rnd rt d S G H = Ok t -> tight t S.
  Proof.
    induction d as [|d IH]; intros S G H t E; destruct (grow_inv U lam mi guest hosts vg vh eg eh rnd rt _ _ _ _ _ E) as (w & o & _ & Eo & [(-> & _)|(d' & c & x & l & r & Ed & -> & _ & El & Er & ->)]); try exact I; [discriminate|].
    injection Ed as <-. cbn [tight]. split; [exact (best_tight _ _ _ _ _ Eo)|]. split; eapply IH; eauto.
  Qed.
End Tight.

(** Comparing the raw value with the threshold is comparing bins, for the rows of the node. *)
Lemma bin_thr pts b x v c v' : pts !! b = Some x -> is_bin pts v c -> (b = 0 \/ is_bin pts v' b) -> qleb v x = (c <=? b).
Proof.
  intros Hx (Lc & Bc & Tc) W. destruct (Nat.leb_spec c b) as [L|L].
  - apply qleb_true. destruct (decide (c = b)) as [->|NE]; [exact (Tc x Hx)|]. destruct W as [->|(_ & B & T)]; [lia|].
    destruct (lookup_lt_is_Some_2 pts c) as [y Hy]; [apply lookup_lt_Some in Hx; lia|]. specialize (Tc y Hy). specialize (B c y ltac:(lia) Hy). specialize (T x Hx). qlra.
  - apply qleb_false. exact (Bc b x L Hx).
Qed.

(** ** The learnt tree as a prediction tree *)
Section Learnt.
  Context {K : Type} `{EqDecision K} (U : list K) (nh : nat) (gcfg : pcfg K) (hcfg : nat -> pcfg K) (guest : party K) (hosts : list (party K)) (sname : nat -> site).

  Definition thr (own : option nat) (f b : nat) : Qc :=
    match c_points (cfg_of gcfg hcfg own) !! f with Some pts => match pts !! b with Some x => x | None => zq 0 end | None => zq 0 end.
  Fixpoint pt_of (t : dtree) : ptree :=
    match t with TLeaf w _ _ => PL w | TSplit _ _ _ c _ l r => PN (ch_own c) (ch_fid c) (thr (ch_own c) (ch_fid c) (ch_bin c)) (pt_of l) (pt_of r) end.
  Lemma pt_depth t : pdepth (pt_of t) = tdepth t.
  Proof. induction t; cbn; congruence. Qed.

  Lemma repr_prepr T gm hm id t : repr (own_site sname) T (Mr nh gcfg hcfg gm hm) id t -> prepr nh sname T gm hm id (pt_of t).
  Proof.
    induction 1 as [id w G H E|id w G H c g l r li ri E (pts & x & Hp & Hx & HM) L1 L2 Rl IHl Rr IHr]; cbn [pt_of].
    - exact (prepr_leaf nh sname T gm hm id _ E eq_refl eq_refl).
    - unfold thr. rewrite Hp, Hx. change x with (mnum (MReal x)). eapply prepr_node; [exact E|reflexivity| |reflexivity..|exact L1|exact L2|exact IHl|exact IHr].
      cbn [n_site]. destruct (ch_own c) as [i|]; cbn [own_site]; [|auto]. destruct HM. auto.
  Qed.

  (** The raw rows that the bins of a party come from. *)
  Record raw_of (cfg : pcfg K) (raw : dtable K (dict nat Qc)) : Prop := {
    ra_wf : dt_wf raw;
    ra_keys : forall k, k ∈ dt_keys raw <-> k ∈ dt_keys (c_data cfg);
    ra_bin : forall k row brow f pts, (k, row) ∈ dt_data raw -> (k, brow) ∈ dt_data (c_data cfg) -> c_points cfg !! f = Some pts ->
      is_bin pts (sv_get row f (zq 0)) (bin_of (c_zero cfg) f brow) }.

  Context (PG : party_ok U gcfg guest) (PH : forall i p, hosts !! i = Some p -> party_ok U (hcfg i) p) (LH : length hosts <= nh).
  Context (graw : dtable K (dict nat Qc)) (hraw : nat -> dtable K (dict nat Qc)) (RG : raw_of gcfg graw) (RH : forall i, i < nh -> raw_of (hcfg i) (hraw i)).

  Lemma cfg_facts own p : owner guest hosts own = Some p -> party_ok U (cfg_of gcfg hcfg own) p /\ raw_of (cfg_of gcfg hcfg own) (match own with None => graw | Some i => hraw i end).
  Proof.
    destruct own as [i|]; cbn [owner cfg_of]; [|intros [= <-]; auto]. intros Hp. split; [now apply PH|]. apply RH. apply lookup_lt_Some in Hp. lia.
  Qed.
  Lemma raw_bin own p k f pts : owner guest hosts own = Some p -> k ∈ U -> c_points (cfg_of gcfg hcfg own) !! f = Some pts -> is_bin pts (jrow graw hraw k own f) (p_bin p k f).
  Proof.
    intros Ho Hk Hp. destruct (cfg_facts own p Ho) as [PO RO]. pose proof Hk as Hk2. apply (po_keys _ _ _ PO) in Hk. pose proof Hk as Hk1. apply (ra_keys _ _ RO) in Hk.
    unfold dt_keys in Hk, Hk1. apply elem_of_list_fmap in Hk as ([k' row] & -> & Hrow). apply elem_of_list_fmap in Hk1 as ([k'' brow] & E & Hb). cbn [fst] in *. subst k''.
    rewrite (po_bin _ _ _ PO _ brow f Hb) by (eapply lookup_lt_Some; eauto). unfold jrow.
    pose proof Hrow as Hrow'. apply tget_elem in Hrow'; [|exact (ra_wf _ _ RO)]. destruct own as [i|]; rewrite Hrow'; exact (ra_bin _ _ RO _ _ _ _ _ Hrow Hb Hp).
  Qed.

  Lemma walk_route T gm hm k : k ∈ U -> forall t S id, repr (own_site sname) T (Mr nh gcfg hcfg gm hm) id t -> tight U guest hosts t S -> S k = true ->
    pwalk (jrow graw hraw k) (pt_of t) = route guest hosts t k.
  Proof.
    intros Hk. induction t as [w G H|w G H c g l IHl r IHr]; intros S id R TI HS; [reflexivity|].
    inversion R as [|id' w' G' H' c' g' l' r' li ri E HM L1 L2 Rl Rr]; subst. destruct HM as (pts & x & Hp & Hx & HM).
    destruct TI as ((p & Ho & W) & Tl & Tr). cbn [pt_of pwalk route].
    assert (CMP : qleb (jrow graw hraw k (ch_own c) (ch_fid c)) (thr (ch_own c) (ch_fid c) (ch_bin c)) = (p_bin p k (ch_fid c) <=? ch_bin c)).
    { unfold thr. rewrite Hp, Hx. destruct W as [W|(k' & Hk' & _ & W)].
      - apply (bin_thr pts _ x _ _ (zq 0) Hx (raw_bin _ _ _ _ _ Ho Hk Hp)). now left.
      - apply (bin_thr pts _ x _ _ (jrow graw hraw k' (ch_own c) (ch_fid c)) Hx (raw_bin _ _ _ _ _ Ho Hk Hp)). right. rewrite <- W. exact (raw_bin _ _ _ _ _ Ho Hk' Hp). }
    rewrite CMP. unfold goes at 1. rewrite Ho. unfold left_of. cbn [andb]. unfold goes in Tl, Tr. rewrite Ho in Tl, Tr. destruct (_ <=? _) eqn:EL.
    - eapply IHl; [exact Rl|exact Tl|]. unfold left_of. now rewrite HS, EL.
    - eapply IHr; [exact Rr|exact Tr|]. unfold right_of. now rewrite HS, EL.
  Qed.
End Learnt.

(** ** Prediction as a system of parties *)
(** Every host works with its own copy of the tree. *)
Definition htree (hs : list (list node * dict nat mval)) (i : nat) : list node := match hs !! i with Some r => r.1 | None => [] end.
Section System.
  Context {K : Type} `{EqDecision K}.
  Definition predict_sys (nh : nat) (sname : nat -> site) (T : list node) (gm : dict nat mval) (hs : list (list node * dict nat mval))
      (graw : dtable K (dict nat Qc)) (hraw : nat -> dtable K (dict nat Qc)) (rounds : nat) : sys (msg K Qc Qc) (dtable K Qc) unit :=
    sysof nh (guest_predict nh T gm graw rounds Ret) (fun i => host_predict (sname i) (htree hs i) (hmask hs i) (hraw i) rounds Ret).

  Context (nh : nat) (sname : nat -> site) (T : list node) (gm : dict nat mval) (hs : list (list node * dict nat mval)).
  Context (names : forall i, i < nh -> sname i <> GuestSite) (inj : forall i j, i < nh -> j < nh -> sname i = sname j -> i = j).
  Context (gd : dtable K (dict nat Qc)) (hd : nat -> dtable K (dict nat Qc)) (Wg : dt_wf gd) (Wh : forall i, i < nh -> dt_wf (hd i)).
  Context (same : forall i, i < nh -> htree hs i = T).

  Lemma predict_sys_ok rounds t : prepr nh sname T gm (hmask hs) 0 t -> pdepth t < rounds -> exists res, always (predict_sys nh sname T gm hs gd hd rounds) (done res (repeat tt nh)) /\
    dt_wf res /\ forall k v, tget res k = Some v <-> k ∈ dt_keys gd /\ (guest_only (jrow gd hd k) t \/ everywhere nh hd k) /\ pwalk (jrow gd hd k) t = v.
  Proof.
    intros RT HD. destruct (predict_ok (C := Qc) (E := Qc) (R := dtable K Qc) (S := unit) nh sname T gm (hmask hs) names inj gd hd Wg Wh rounds t RT HD) as (res & RU & W & G).
    exists res. split; [|auto]. destruct (runs_done _ _ _ _ _ RU) as (N & A). exists N. unfold predict_sys.
    replace (repeat tt nh) with (map (fun _ : nat => tt) (seq 0 nh)) by (clear; generalize 0; induction nh as [|n IH]; intros m; cbn; [reflexivity|now rewrite IH]).
    rewrite (sysof_ext _ _ _ (fun i => host_predict (sname i) T (hmask hs i) (hd i) rounds Ret)) by (intros i Hi; now rewrite same). exact A.
  Qed.

  (** ** An absent host *)
  (** The row meets a node of a host with number [n] or more. *)
  Fixpoint meets_absent (n : nat) (x : option nat -> nat -> Qc) (t : ptree) : Prop :=
    match t with
    | PL _ => False
    | PN own f th l r => match own with Some i => n <= i | None => False end \/ (if qleb (x own f) th then meets_absent n x l else meets_absent n x r)
    end.
  Lemma gdown_absent n x t : meets_absent n x (gdown x t) <-> meets_absent n x t.
  Proof. induction t as [w|[j|] f th l IHl r IHr]; cbn; [tauto..|]. destruct (qleb _ _); tauto. Qed.
  Lemma hdown_absent n i x t : i < n -> meets_absent n x (hdown i x t) <-> meets_absent n x t.
  Proof.
    intros L. induction t as [w|[j|] f th l IHl r IHr]; cbn; [tauto| |tauto]. destruct (decide (j = i)) as [->|]; [|cbn; tauto].
    destruct (qleb _ _); [rewrite IHl|rewrite IHr]; (split; [auto|]); intros [A|A]; auto; lia.
  Qed.

  Local Notation msg := (msg K Qc Qc).
  Definition never : sys msg (dtable K Qc) unit := sysof nh (Fail OutOfFuel) (fun _ => Fail OutOfFuel).
  Definition leads {A B} (gp : cps nat msg (dtable K Qc) A) (hp : nat -> cps unit msg unit B) : Prop := forall kg kh, rtc hand (sysof nh (gp kg) (fun i => hp i (kh i))) never.
  Lemma leads_seq {A B A' B'} (g1 : cps nat msg _ A) (g2 : A -> cps nat msg _ A') (h1 : nat -> cps unit msg unit B) (h2 : nat -> B -> cps unit msg unit B') a b :
    runs nh g1 h1 a b -> leads (g2 a) (fun i => h2 i (b i)) -> leads (cbind g1 g2) (fun i => cbind (h1 i) (h2 i)).
  Proof. intros H1 H2 kg kh. eapply rtc_transitive; [exact (H1 (fun x => g2 x kg) (fun i x => h2 i x (kh i)))|exact (H2 kg kh)]. Qed.
  Lemma leads_glift {A B A'} (r : res A') x (g : A' -> cps nat msg _ A) (h : nat -> cps unit msg unit B) : r = Ok x -> leads (g x) h -> leads (cbind (clift r) g) h.
  Proof. intros -> H'. exact H'. Qed.
  Lemma leads_hlift {A B B'} (r : nat -> res B') x (g : cps nat msg _ A) (h : nat -> B' -> cps unit msg unit B) :
    (forall i, i < nh -> r i = Ok (x i)) -> leads g (fun i => h i (x i)) -> leads g (fun i => cbind (clift (r i)) (h i)).
  Proof.
    intros E H' kg kh. rewrite (sysof_ext _ _ _ (fun i => h i (x i) (kh i))); [exact (H' kg kh)|]. intros i Hi. unfold cbind, clift. now rewrite E.
  Qed.
  Lemma leads_bcast {X A B} (p : msg -> res X) (m : msg) (x : X) (k : cps nat msg _ A) (h : nat -> X -> cps unit msg unit B) :
    p m = Ok x -> leads k (fun i => h i x) -> leads (cbind (bcast nh m) (fun _ => k)) (fun i => cbind (recv_as p) (h i)).
  Proof.
    intros Hp Hk. refine (leads_seq (bcast nh m) (fun _ => k) (fun i => crecv tt) (fun i y => cbind (clift (p y)) (h i)) _ _ (runs_bcast nh m) _).
    cbv beta. apply (leads_hlift (fun _ => p m) (fun _ => x)); [auto|exact Hk].
  Qed.
  Lemma leads_gather {X A B} (p : msg -> res X) (m : nat -> msg) (a : nat -> X) (k : list X -> cps nat msg _ A) (h : nat -> cps unit msg unit B) :
    (forall i, i < nh -> p (m i) = Ok (a i)) -> leads (k (map a (seq 0 nh))) h -> leads (cbind (gather_as nh p) k) (fun i => cbind (csend tt (m i)) (fun _ => h i)).
  Proof.
    intros Hp Hk. refine (leads_seq (gather nh) (fun ms => cbind (clift (mapR p ms)) k) (fun i => csend tt (m i)) (fun i _ => h i) _ _ (runs_gather nh m) _).
    eapply leads_glift; [|exact Hk]. rewrite mapR_map. apply mapR_ok_fn. intros i Hi. apply elem_of_list_In, in_seq in Hi. apply Hp. lia.
  Qed.

  (** [n] hosts own nodes of the tree, only the first [nh] take part. *)
  Lemma absent_rounds n hm (names' : forall i, i < n -> sname i <> GuestSite) (inj' : forall i j, i < n -> j < n -> sname i = sname j -> i = j)
      (hd' : nat -> dtable K (dict nat Qc)) (Hd' : forall i, i < nh -> hd' i = hd i) (Wh' : forall i, i < n -> dt_wf (hd' i)) (Ln : nh <= n) (NZ : 0 < nh) :
    forall rounds data P result, at_tree n sname T gm hm gd data P -> (forall r, result = Some r -> dt_wf r) ->
      (exists k, is_Some (tget data k) /\ everywhere nh hd' k /\ meets_absent nh (jrow gd hd' k) (P k)) ->
      leads (guest_rounds nh T gm gd rounds data result) (fun i => host_predict (sname i) T (hm i) (hd i) rounds).
  Proof.
    induction rounds as [|rounds IH]; intros data P result AT Wr (k0 & D0 & V0 & M0); [intros kg kh; apply rtc_refl|].
    destruct (predict_local_ok n sname T gm hm names' gd hd' Wg data P result AT Wr) as (res & rest & El & Wres & Wrest & Gres & Grest & Gnone).
    set (P1 := fun k => gdown (jrow gd hd' k) (P k)).
    assert (HR1 : forall k s, tget rest k = Some s -> s.2 = 1%Z /\ prepr n sname T gm hm s.1 (P1 k) /\ exists j f th l r, P1 k = PN (Some j) f th l r).
    { intros k s Hs. apply Grest in Hs. tauto. }
    assert (HR2 : forall k s, tget rest k = Some s -> s.2 = 1%Z /\ prepr n sname T gm hm s.1 (P1 k) /\ exists j f th l r, P1 k = PN (Some j) f th l r /\ j < n).
    { intros k s Hs. destruct (HR1 k s Hs) as (A & B & j & f & th & l & r & EP). split; [exact A|]. split; [exact B|]. exists j, f, th, l, r. split; [exact EP|].
      rewrite EP in B. inversion B; subst. tauto. }
    assert (R0 : is_Some (tget rest k0)).
    { destruct (tget rest k0) eqn:E; [eauto|]. destruct (Gnone k0 D0 E) as (v & Ev). apply gdown_absent in M0. rewrite Ev in M0. destruct M0. }
    assert (EC : dt_count rest =? 0 = false).
    { apply Nat.eqb_neq. unfold dt_count. destruct R0 as [s Hs]. unfold tget in Hs. destruct (dt_data rest); [discriminate|]. cbn. lia. }
    destruct (fin_choice nh (fun i ans => dt_join (host_walk (Datatypes.S (length T)) (sname i) T (hm i)) rest (hd i) = Ok ans /\ reply n sname T gm hm gd hd' i rest ans P1)) as (ans & Hans); [exact NZ| |].
    { intros i Hi. rewrite <- (Hd' i Hi). apply host_reply; auto. lia. }
    assert (XA : exists ans', forall i, i < n -> reply n sname T gm hm gd hd' i rest (ans' i) P1 /\ (i < nh -> ans' i = ans i)).
    { apply (fin_choice n (fun i a => reply n sname T gm hm gd hd' i rest a P1 /\ (i < nh -> a = ans i))); [lia|]. intros i Hi. destruct (decide (i < nh)) as [L|L]; [exists (ans i); split; [apply Hans, L|auto]|].
      destruct (host_reply n sname T gm hm names' inj' gd hd' Wh' i rest P1 Hi Wrest HR1) as (a & _ & A). exists a. split; [exact A|]. lia. }
    destruct XA as (ans' & Hans').
    destruct (replies_merge n sname T gm hm gd hd' rest P1 ans' Wrest HR2 (fun i Hi => proj1 (Hans' i Hi)) nh Ln) as (data' & Ed' & Wd' & Kd' & Gd').
    assert (EM : map ans' (seq 0 nh) = map ans (seq 0 nh)).
    { apply map_ext_in. intros i Hi. apply in_seq in Hi. apply Hans'; lia. }
    rewrite EM in Ed'.
    set (P2 := fun k => match P1 k with PN (Some j) _ _ _ _ => if decide (j < nh) then moved gd hd' k (P1 k) else P1 k | _ => P1 k end).
    cbn [guest_rounds host_predict]. eapply leads_glift; [exact El|]. cbn [fst snd]. rewrite EC.
    refine (leads_bcast as_tag (MTag false) false _ _ eq_refl _). cbv beta iota.
    refine (leads_bcast as_pred (MPred rest) rest _ _ eq_refl _).
    apply (leads_hlift (fun i => dt_join (host_walk (Datatypes.S (length T)) (sname i) T (hm i)) rest (hd i)) ans); [intros i Hi; apply Hans, Hi|].
    refine (leads_gather as_predr (fun i => MPredR (ans i)) ans _ _ (fun i _ => eq_refl) _). cbv beta.
    eapply leads_glift; [exact Ed'|]. apply (IH data' P2).
    - split; [exact Wd'|]. intros k s Hs. assert (B : is_Some (tget rest k)) by (apply (Kd' k); eauto). destruct B as [s1 Hs1]. split.
      + destruct (Grest k s1 Hs1) as ([s2 Hs2] & _). exact (proj1 (proj2 AT k s2 Hs2)).
      + specialize (Gd' k s Hs). destruct (HR2 k s1 Hs1) as (_ & _ & j & f & th & l & r & EP & Hj). unfold P2. rewrite EP in *. destruct (decide (j < nh)); tauto.
    - intros r [= <-]. exact Wres.
    - exists k0. split; [apply Kd'; split; [exact R0|exact V0]|]. split; [exact V0|]. apply gdown_absent in M0. fold (P1 k0) in M0. unfold P2. destruct (P1 k0) as [w|[j|] f th l r]; try exact M0.
      destruct (decide (j < nh)) as [L|L]; [|exact M0]. cbn [moved]. now apply hdown_absent.
  Qed.
End System.
