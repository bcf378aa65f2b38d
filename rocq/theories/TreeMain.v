(** Training one tree, from the start of the protocol to the end, and what can be read off the result. *)
From Verif Require Export TreePaillier TreeRun.
Local Open Scope nat_scope.

(** A path of child links downwards from entry [id]. *)
Fixpoint chain (T : list node) (id : nat) (p : list nat) : Prop :=
  match p with [] => True | c :: p' => exists nd, T !! id = Some nd /\ c ∈ children nd /\ chain T c p' end.

(** The mask of host [i] in the list of the hosts' results. *)
Definition hmask (hs : list (list node * dict nat mval)) (i : nat) : dict nat mval := match hs !! i with Some r => r.2 | None => [] end.

(** The party that owns a site name. *)
Definition site_party {K} (nh : nat) (sname : nat -> site) (gcfg : pcfg K) (hcfg : nat -> pcfg K) (gm : dict nat mval) (hm : nat -> dict nat mval)
    (s : site) (cfg : pcfg K) (mask : dict nat mval) : Prop :=
  (s = GuestSite /\ cfg = gcfg /\ mask = gm) \/ exists i, i < nh /\ s = sname i /\ cfg = hcfg i /\ mask = hm i.

(** Row [k] reaches a leaf of weight [w] from entry [id]: at an inner node the owning party compares the bin of the row with
    the number of the split point that it remembers as the threshold of the node. *)
Inductive reaches {K} (owns : site -> pcfg K -> dict nat mval -> Prop) (T : list node) (k : K) : nat -> Qc -> Prop :=
| reach_leaf id nd : T !! id = Some nd -> n_leaf nd = true -> reaches owns T k id (n_weight nd)
| reach_inner id nd cfg mask f row pts b x c w :
    T !! id = Some nd -> n_leaf nd = false -> owns (n_site nd) cfg mask -> n_fid nd = Some f -> (k, row) ∈ dt_data (c_data cfg) ->
    c_points cfg !! f = Some pts -> pts !! b = Some x -> dict_get id mask = Some (MReal x) ->
    (if bin_of (c_zero cfg) f row <=? b then n_left nd else n_right nd) = Some c -> reaches owns T k c w -> reaches owns T k id w.

(** Every split of a tree for the rows [S] is the best of the allowed splits of all parties up to FLOAT_ZERO, with its exact
    gain; where the tree stops, [d] levels are used up or no allowed split gains more than the least gain (up to twice
    FLOAT_ZERO). *)
Section Greedy.
  Context {K : Type} (U : list K) (lam mi : Qc) (guest : party K) (hosts : list (party K)) (vg vh : K -> Qc).
  Definition gain_at (S : K -> bool) (p : party K) (f b : nat) : Qc :=
    gain_of lam (sum_if S vg U) (sum_if S vh U) (sum_if (left_of p S f b) vg U) (sum_if (left_of p S f b) vh U).
  Definition no_better (S : K -> bool) (x : Qc) : Prop :=
    forall own p f b, owner guest hosts own = Some p -> (f, b) ∈ cands U p S -> (gain_at S p f b <= x)%Qc.
  Fixpoint greedy (d : nat) (t : dtree) (S : K -> bool) : Prop :=
    tG t = sum_if S vg U /\ tH t = sum_if S vh U /\
    match t with
    | TLeaf _ _ _ => d = 0 \/ no_better S (mi + FLOAT_ZERO + FLOAT_ZERO)%Qc
    | TSplit _ _ _ c x l r => exists d' p, d = Datatypes.S d' /\ owner guest hosts (ch_own c) = Some p /\ (ch_fid c, ch_bin c) ∈ cands U p S /\
        x = gain_at S p (ch_fid c) (ch_bin c) /\ (mi + FLOAT_ZERO < x)%Qc /\ no_better S (x + FLOAT_ZERO)%Qc /\
        greedy d' l (left_of p S (ch_fid c) (ch_bin c)) /\ greedy d' r (right_of p S (ch_fid c) (ch_bin c))
    end.
End Greedy.

Lemma repr_chain name T (M : option nat -> nat -> nat -> nat -> Prop) p : forall id t, repr name T M id t -> chain T id p -> length p <= tdepth t.
Proof.
  induction p as [|c p IH]; intros id t R C; cbn [length]; [lia|]. destruct C as (nd & Hn & Hc & C).
  inversion R as [id' w G H E|id' w G H ch g l r li ri E HM L1 L2 Rl Rr]; subst; rewrite Hn in E; injection E as ->; cbn in Hc.
  - now apply elem_of_nil in Hc.
  - cbn [tdepth]. apply elem_of_cons in Hc as [->|Hc]; [specialize (IH _ _ Rl C); lia|]. apply elem_of_list_singleton in Hc as ->. specialize (IH _ _ Rr C). lia.
Qed.

Section Read.
  Context {K : Type} `{EqDecision K} (U : list K) (nh : nat) (gcfg : pcfg K) (hcfg : nat -> pcfg K) (guest : party K) (hosts : list (party K)) (sname : nat -> site).
  Context (PG : party_ok U gcfg guest) (PH : forall i p, hosts !! i = Some p -> party_ok U (hcfg i) p) (LH : length hosts = nh).

  Lemma tree_reaches T gm hm k t id : k ∈ U -> repr (own_site sname) T (Mr nh gcfg hcfg gm hm) id t ->
    reaches (site_party nh sname gcfg hcfg gm hm) T k id (route guest hosts t k).
  Proof.
    intros Hk R. induction R as [id w G H E|id w G H c g l r li ri E (pts & x & Hp & Hx & HM) L1 L2 Rl IHl Rr IHr].
    - cbn [route]. change w with (n_weight (Node id GuestSite None w true G H None None)). now eapply reach_leaf; [exact E|].
    - cbn [route]. set (cfg := cfg_of gcfg hcfg (ch_own c)) in *.
      assert (exists p mask, owner guest hosts (ch_own c) = Some p /\ party_ok U cfg p /\ site_party nh sname gcfg hcfg gm hm (own_site sname (ch_own c)) cfg mask /\ dict_get id mask = Some (MReal x))
        as (p & mask & Ho & PO & OW & DG).
      { destruct (ch_own c) as [i|]; cbn [owner own_site].
        - destruct HM as [Hi HM]. destruct (lookup_lt_is_Some_2 hosts i) as [p Ep]; [lia|]. exists p, (hm i). split; [exact Ep|]. split; [exact (PH i p Ep)|]. split; [|exact HM]. right. eauto 6.
        - exists guest, gm. split; [reflexivity|]. split; [exact PG|]. split; [|exact HM]. left. auto. }
      assert (exists row, (k, row) ∈ dt_data (c_data cfg)) as (row & Hrow).
      { apply (po_keys _ _ _ PO) in Hk. unfold dt_keys in Hk. apply elem_of_list_fmap in Hk as ([k' row] & -> & Hr). eauto. }
      pose proof (po_bin _ _ _ PO k row (ch_fid c) Hrow (lookup_lt_Some _ _ _ Hp)) as B.
      unfold goes. rewrite Ho. unfold left_of. rewrite B. cbn [andb].
      eapply (reach_inner _ _ _ id _ cfg mask (ch_fid c) row pts (ch_bin c) x (if bin_of (c_zero cfg) (ch_fid c) row <=? ch_bin c then li else ri)).
      + exact E.
      + reflexivity.
      + exact OW.
      + reflexivity.
      + exact Hrow.
      + exact Hp.
      + exact Hx.
      + exact DG.
      + cbn [n_left n_right]. now destruct (_ <=? _).
      + destruct (_ <=? _); assumption.
  Qed.
End Read.

Section Greedy.
  Context {K : Type} (U : list K) (lam mi : Qc) (guest : party K) (hosts : list (party K)) (vg vh : K -> Qc).
  Local Notation grow := (grow U lam mi guest hosts vg vh vg vh (fun x => x) Ok).

  Lemma grow_greedy d : forall S t, grow d S (sum_if S vg U) (sum_if S vh U) = Ok t -> greedy U lam mi guest hosts vg vh d t S.
  Proof.
    pose proof FLOAT_ZERO_pos as FZ. rewrite zq_0 in FZ.
    induction d as [|d IH]; intros S t Eg; destruct (grow_root _ _ _ _ _ _ _ _ _ _ _ _ _ _ _ _ Eg) as [TG TH];
      destruct (grow_inv _ _ _ _ _ _ _ _ _ _ _ _ _ _ _ _ Eg) as (w & o & _ & Eo & [[-> Hs]|(d' & c & x & l & r & Ed & -> & Hx & El & Er & ->)]); try discriminate.
    - cbn. auto.
    - cbn. split; [reflexivity|]. split; [reflexivity|]. right. destruct Hs as [Hs|Hs]; [discriminate|]. intros own p f b Ho Hfb.
      pose proof (best_optimal _ _ _ _ _ _ _ _ _ Eo own p f b Ho Hfb) as B. unfold gain_at. set (v := gain_of _ _ _ _ _) in *. clearbody v.
      destruct o as [[c x]|]; [apply qleb_true in Hs|]; qlra.
    - injection Ed as <-. destruct (best_choice _ _ _ _ _ _ _ _ _ _ _ _ _ _ _ _ Eo) as (p & Ho & Hfb & Hc).
      assert (X : ch_g c = sum_if (left_of p S (ch_fid c) (ch_bin c)) vg U /\ ch_h c = sum_if (left_of p S (ch_fid c) (ch_bin c)) vh U /\ x = gain_at U lam vg vh S p (ch_fid c) (ch_bin c)).
      { unfold gain_at. revert Hc. unfold goes. rewrite Ho. destruct (ch_own c) as [i|]; intros Hc; intuition congruence. }
      destruct X as (Xg & Xh & Xx). apply qleb_false in Hx.
      assert (SP : forall v, sum_if S v U = (sum_if (left_of p S (ch_fid c) (ch_bin c)) v U + sum_if (right_of p S (ch_fid c) (ch_bin c)) v U)%Qc).
      { intros v. apply sum_if_split. intros k _. unfold left_of, right_of. destruct (S k), (_ <=? _); auto. }
      cbn [greedy tG tH]. split; [reflexivity|]. split; [reflexivity|]. exists d, p. split; [reflexivity|]. split; [exact Ho|]. split; [exact Hfb|]. split; [exact Xx|]. split; [qlra|].
      split. { intros own p' f b Ho' Hfb'. exact (best_optimal _ _ _ _ _ _ _ _ _ Eo own p' f b Ho' Hfb'). }
      unfold goes in El, Er. rewrite Ho in El, Er. rewrite Xg, Xh in El, Er. split; [exact (IH _ _ El)|]. apply IH.
      replace (sum_if S vg U - sum_if (left_of p S (ch_fid c) (ch_bin c)) vg U)%Qc with (sum_if (right_of p S (ch_fid c) (ch_bin c)) vg U) in Er by (rewrite (SP vg); ring).
      replace (sum_if S vh U - sum_if (left_of p S (ch_fid c) (ch_bin c)) vh U)%Qc with (sum_if (right_of p S (ch_fid c) (ch_bin c)) vh U) in Er by (rewrite (SP vh); ring).
      exact Er.
  Qed.
End Greedy.

(** ** The whole protocol *)
Section Main.
  Context {K : Type} `{EqDecision K}.
  Local Notation result := (list node * dict nat mval)%type.

  (** The parties at the start of fit: with the plain numbers in place of ciphertexts, and with Paillier. *)
  Definition plain_sys (nh : nat) (gcfg : pcfg K) (hcfg : nat -> pcfg K) (sname : nat -> site) (it : imp_type) (gh : dtable K (Qc * Qc)) : sys (msg K Qc Qc) (@gstate K) result :=
    sysof nh (guest_fit nh gcfg it gh Ok Ok Ok (fun _ _ x => Ok x) Ret) (fun i => host_fit qops (sname i) (hcfg i) Ret).
  Definition paillier_sys (sk : privkey) (rg rh : K -> Z) (rr : nat -> nat -> Z) (nh : nat) (gcfg : pcfg K) (hcfg : nat -> pcfg K) (sname : nat -> site) (it : imp_type)
      (gh : dtable K (Qc * Qc)) : sys (msg K cell enum) (@gstate K) result :=
    sysof nh (guest_fit nh gcfg it gh (enc_table (sk_n sk) rg rh) (pdec sk) (fun e => pdec sk (CEnc e)) (pgenc (sk_n sk) rr) Ret) (fun i => host_fit pops (sname i) (hcfg i) Ret).

  Context (U : list K) (nh : nat) (gcfg : pcfg K) (hcfg : nat -> pcfg K) (guest : party K) (hosts : list (party K)) (sname : nat -> site).
  Context (gh : dtable K (Qc * Qc)) (vg vh : K -> Qc) (PA : parties_ok U nh gcfg hcfg guest hosts sname gh vg vh) (it : imp_type) (Hit : it <> IOther).
  Local Notation lam := (reg_lambda (c_par gcfg)).
  Local Notation mi := (min_impurity (c_par gcfg)).

  (** A tree [t] was learnt and this is the state of the parties. *)
  Definition learnt (t : dtree) (st : @gstate K) (hs : list result) : Prop :=
    exists hm, hs = map (fun i => (t_nodes st, hm i)) (seq 0 nh) /\ fit_post U nh gcfg hcfg guest hosts sname it t st hm.

  Lemma plain_main d : c_depth gcfg = S d -> (0 < lam)%Qc -> (forall k, k ∈ U -> (0 <= vh k)%Qc) -> exists t st hs,
    learn U lam mi guest hosts vg vh vg vh (fun x => x) Ok d = Ok t /\ always (plain_sys nh gcfg hcfg sname it gh) (done st hs) /\ learnt t st hs.
  Proof.
    intros ED L V2. destruct (plain_total U guest hosts vg vh lam mi d L V2) as (t & Et). destruct (pa_rows _ _ _ _ _ _ _ _ _ _ PA) as [ND NE]. destruct (pa_hosts _ _ _ _ _ _ _ _ _ _ PA) as [_ SOME].
    destruct (fit_ok (R := @gstate K) (S := result) U ND nh gcfg hcfg guest hosts sname gh gh vg vh vg vh qops _ qops_laws Ok Ok (fun _ _ x => Ok x) (fun x => x) Ok it Hit
      (plain_train U nh gcfg hcfg guest hosts sname gh vg vh PA) Ok d t SOME NE eq_refl ED Et) as (st & hm & RU & FP).
    exists t, st, (map (fun i => (t_nodes st, hm i)) (seq 0 nh)). split; [exact Et|]. split; [exact (runs_done _ _ _ _ _ RU)|]. exists hm. auto.
  Qed.

  Lemma paillier_main sk (G : good_sk sk) (Hbig : (2 ^ 1000 <= sk_n sk)%Z) rg rh rr d : c_depth gcfg = S d -> (0 < lam)%Qc ->
    (forall k, Z.gcd (rg k) (sk_n sk) = 1%Z) -> (forall k, Z.gcd (rh k) (sk_n sk) = 1%Z) -> (forall i nid, Z.gcd (rr i nid) (sk_n sk) = 1%Z) ->
    (forall k, k ∈ U -> (qabs (vg k) <= 1)%Qc /\ (0 <= vh k)%Qc /\ (vh k <= 1)%Qc) ->
    let N := zq (Z.of_nat (length U)) in
    (zq 16 * (N * N) <= lam * zq (2 ^ 29))%Qc -> (zq (Z.of_nat d + 1) * N <= lam * zq (2 ^ 47))%Qc -> (Z.of_nat d + 1 <= 2 ^ 48)%Z -> (qabs (mi - FLOAT_ZERO) <= zq (2 ^ 29))%Qc ->
    exists t st hs, learn U lam mi guest hosts vg vh (fun k => leaf_value (sk_n sk) (vg k)) (fun k => leaf_value (sk_n sk) (vh k)) fround (prt (sk_n sk)) d = Ok t /\
      near U guest hosts vg vh (zq (Z.of_nat d + 1) * N * p2 (-48))%Qc t (fun _ => true) /\
      always (paillier_sys sk rg rh rr nh gcfg hcfg sname it gh) (done st hs) /\ learnt t st hs.
  Proof.
    intros ED L Rg Rh Rr VV N HN HD Hd HM.
    assert (V : forall k, k ∈ U -> (qabs (vg k) <= 1)%Qc /\ (qabs (vh k) <= 1)%Qc).
    { intros k Hk. destruct (VV k Hk) as (A & B & D). split; [exact A|]. apply qabs_le. split; qlra. }
    destruct (paillier_total sk G Hbig U guest hosts vg vh V lam mi d L (fun k Hk => proj1 (proj2 (VV k Hk))) HN HD Hd HM) as (t & Et & NR).
    destruct (enc_table_ok sk G Hbig U nh gcfg hcfg guest hosts sname gh vg vh PA rg rh Rg Rh V) as (ghc & Ee & W & KS & CI).
    destruct (pa_rows _ _ _ _ _ _ _ _ _ _ PA) as [ND NE]. destruct (pa_hosts _ _ _ _ _ _ _ _ _ _ PA) as [_ SOME].
    destruct (fit_ok (R := @gstate K) (S := result) U ND nh gcfg hcfg guest hosts sname gh ghc vg vh _ _ pops _ (pops_laws sk G Hbig) (pdec sk) (fun e => pdec sk (CEnc e)) (pgenc (sk_n sk) rr) fround
      (prt (sk_n sk)) it Hit (paillier_train sk G Hbig U nh gcfg hcfg guest hosts sname gh vg vh PA rr Rr ghc W KS CI) (enc_table (sk_n sk) rg rh) d t SOME NE Ee ED Et) as (st & hm & RU & FP).
    exists t, st, (map (fun i => (t_nodes st, hm i)) (seq 0 nh)). split; [exact Et|]. split; [exact NR|]. split; [exact (runs_done _ _ _ _ _ RU)|]. exists hm. auto.
  Qed.

  (** ** Reading the result *)
  Lemma learnt_trees t st hs i r : learnt t st hs -> hs !! i = Some r -> r.1 = t_nodes st.
  Proof. intros (hm & -> & _) Hi. rewrite map_lookup in Hi. destruct (seq 0 nh !! i); [injection Hi as <-; reflexivity|discriminate]. Qed.
  Lemma learnt_mask (st : @gstate K) hm i : i < nh -> hmask (map (fun i => (t_nodes st, hm i) : result) (seq 0 nh)) i = hm i.
  Proof. intros Hi. unfold hmask. rewrite map_lookup, lookup_seq_lt by exact Hi. reflexivity. Qed.
  Lemma learnt_repr t st hs : learnt t st hs -> repr (own_site sname) (t_nodes st) (Mr nh gcfg hcfg (t_mask st) (hmask hs)) 0 t.
  Proof.
    intros (hm & Ehs & FP). pose proof (f_repr _ _ _ _ _ _ _ _ _ _ _ FP) as R. clear FP. revert R. generalize 0. induction t as [w G H|w G H c g l IHl r IHr]; intros id R.
    - inversion R; subst. now constructor.
    - inversion R as [|id' w' G' H' c' g' l' r' li ri E HM L1 L2 Rl Rr]; subst. econstructor; eauto.
      destruct HM as (pts & x & Hp & Hx & HM). exists pts, x. split; [exact Hp|]. split; [exact Hx|]. destruct (ch_own c) as [i|]; [|exact HM]. destruct HM as [Hi HM].
      split; [exact Hi|]. rewrite learnt_mask by exact Hi. exact HM.
  Qed.
  Lemma learnt_wf t st hs d : learnt t st hs -> consistent lam t -> tdepth t <= d ->
    well_formed lam (t_nodes st) /\ 1 <= length (t_nodes st) <= 2 ^ (d + 1) - 1 /\ (forall p, chain (t_nodes st) 0 p -> length p <= d).
  Proof.
    intros LT CO DE. pose proof (learnt_repr _ _ _ LT) as R. destruct LT as (hm & -> & FP). split.
    - exact (repr_wf _ _ _ _ _ R CO (f_children _ _ _ _ _ _ _ _ _ _ _ FP) (f_ids _ _ _ _ _ _ _ _ _ _ _ FP) (f_later _ _ _ _ _ _ _ _ _ _ _ FP)).
    - split; [|intros p Hp; pose proof (repr_chain _ _ _ _ _ _ R Hp); lia].
      rewrite (f_size _ _ _ _ _ _ _ _ _ _ _ FP). pose proof (tsize_bound t) as TB. pose proof (Nat.pow_le_mono_r 2 (tdepth t + 1) (d + 1) ltac:(lia) ltac:(lia)).
      destruct t; cbn [tsize] in *; lia.
  Qed.
  Lemma learnt_weights t st hs : learnt t st hs -> exists w, t_weights st = Some w /\ dt_wf w /\ (forall k, k ∈ dt_keys w <-> k ∈ U) /\
    forall k v, (k, v) ∈ dt_data w -> reaches (site_party nh sname gcfg hcfg (t_mask st) (hmask hs)) (t_nodes st) k 0 v.
  Proof.
    intros LT. pose proof (learnt_repr _ _ _ LT) as R. destruct LT as (hm & -> & FP). destruct (f_weights _ _ _ _ _ _ _ _ _ _ _ FP) as (w & Ew & W & GW).
    exists w. split; [exact Ew|]. split; [exact W|]. split.
    - intros k. rewrite <- tget_is_Some. split; [intros [v Hv]; now apply GW in Hv as [Hv _]|]. intros Hk. exists (route guest hosts t k). now apply GW.
    - intros k v Hv. apply tget_elem in Hv; [|exact W]. apply GW in Hv as [Hk ->].
      apply (tree_reaches U nh gcfg hcfg guest hosts sname (pa_guest _ _ _ _ _ _ _ _ _ _ PA) (pa_host _ _ _ _ _ _ _ _ _ _ PA) (proj1 (pa_hosts _ _ _ _ _ _ _ _ _ _ PA))); assumption.
  Qed.
  Lemma learnt_masks t st hs i id : learnt t st hs -> i < nh ->
    (is_Some (dict_get id (hmask hs i)) <-> exists nd, t_nodes st !! id = Some nd /\ n_leaf nd = false /\ n_site nd = sname i).
  Proof. intros (hm & -> & FP) Hi. rewrite learnt_mask by exact Hi. exact (f_masks _ _ _ _ _ _ _ _ _ _ _ FP i id Hi). Qed.
End Main.

Lemma done_inj {M R S} r rs r' rs' : @done M R S r rs = done r' rs' -> r = r' /\ rs = rs'.
Proof.
  unfold done. intros [= -> E]. split; [reflexivity|]. revert rs' E. induction rs as [|x rs IH]; intros [|y rs'] E; try discriminate; [reflexivity|].
  cbn in E. injection E as -> E. f_equal. now apply IH.
Qed.
Lemma always_done {M R S} (s : sys M R S) r rs m r' rs' : always s (done r rs) -> nsteps step m s (done r' rs') -> r' = r /\ rs' = rs.
Proof. intros A H. apply (done_inj (M := M)). exact (always_unique _ _ _ _ A (done_nf _ _) H). Qed.
