(** Boosting with the tree training of TreeMain, prediction with all trees, labels, feature subsampling. *)
From Verif Require Export BoostProofs.
From Verif Require Import QuantileProofs FloatProofs.
Local Open Scope nat_scope.

(** ** Feature subsampling *)
(** What random.choice without replacement returns. *)
Definition draws (draw : nat -> nat -> list nat) : Prop := forall n size, size <= n -> NoDup (draw n size) /\ length (draw n size) = size /\ forall f, f ∈ draw n size -> f < n.

Lemma sample_fold l : forall v, (forall f, f ∈ l -> f < length v) ->
  exists v', foldM (fun v fid => match v !! fid with Some _ => Ok (<[fid := true]> v) | None => Err IndexError end) v l = Ok v' /\ length v' = length v /\
    forall f, v' !! f = if decide (f ∈ l) then Some true else v !! f.
Proof.
  induction l as [|x l IH]; intros v H; [exists v; cbn; auto|]. cbn [foldM]. destruct (lookup_lt_is_Some_2 v x) as [b Hb]; [apply H; left|]. rewrite Hb. cbn [mbind res_bind].
  destruct (IH (<[x := true]> v)) as (v' & E & L & G); [intros f Hf; rewrite insert_length; apply H; now right|]. exists v'. split; [exact E|]. rewrite insert_length in L. split; [exact L|].
  intros f. rewrite G. destruct (decide (f ∈ l)) as [Hf|Hf]; [rewrite decide_True by (now right); reflexivity|]. destruct (decide (f = x)) as [->|NE].
  - rewrite decide_True by left. apply list_lookup_insert. apply H. left.
  - rewrite list_lookup_insert_ne by congruence. rewrite decide_False; [reflexivity|]. intros X. apply elem_of_cons in X as [X|X]; contradiction.
Qed.

Lemma sample_size_ok n rate : 1 <= n -> (Z.of_nat n <= 2 ^ 53)%Z -> (0 < rate)%Qc -> (rate <= 1)%Qc ->
  1 <= sample_size n rate <= n /\ Z.of_nat (sample_size n rate) = Z.max 1 (qfloor (fround (rate * zq (Z.of_nat n)))).
Proof.
  intros Hn H53 R0 R1. unfold sample_size. set (x := fround _).
  assert (B : (qfloor x <= Z.of_nat n)%Z).
  { rewrite <- (qfloor_zq (Z.of_nat n)). apply (qfloor_mono []). apply (Qcle_trans _ (fround (zq (Z.of_nat n)))); [|rewrite fround_zq by lia; apply Qcle_refl]. apply fround_mono. assert (zq 0 <= zq (Z.of_nat n))%Qc by (apply zq_le; lia). rewrite zq_0 in *. qnra. }
  split; [|lia]. split; lia.
Qed.

Lemma trues_length v l : NoDup l -> (forall f, v !! f = Some true <-> f ∈ l) -> length (List.filter (fun b : bool => b) v) = length l.
Proof.
  intros ND H. assert (P : Permutation l (List.filter (fun f => match v !! f with Some true => true | _ => false end) (seq 0 (length v)))).
  { apply NoDup_Permutation; [exact ND|apply NoDup_ListNoDup, List.NoDup_filter, seq_NoDup|]. intros f. rewrite elem_of_list_In, <- elem_of_list_In. rewrite (elem_of_list_In (List.filter _ _)), filter_In, in_seq.
    rewrite <- H. split; [intros E; split; [apply lookup_lt_Some in E; lia|now rewrite E]|]. intros [_ E]. destruct (v !! f) as [[|]|]; congruence. }
  rewrite (Permutation_length P). clear. transitivity (length (List.filter (fun f => match v !! (f - 0) with Some true => true | _ => false end) (seq 0 (length v)))).
  2: { f_equal. apply List.filter_ext. intros f. now rewrite Nat.sub_0_r. }
  generalize 0 as s. induction v as [|b v IH]; intros s; [reflexivity|]. cbn [length seq List.filter]. rewrite Nat.sub_diag. cbn [lookup list_lookup].
  assert (X : List.filter (fun f => match (b :: v) !! (f - s) with Some true => true | _ => false end) (seq (S s) (length v)) =
              List.filter (fun f => match v !! (f - S s) with Some true => true | _ => false end) (seq (S s) (length v))).
  { apply filter_ext_in. intros f Hf. apply in_seq in Hf. replace (f - s) with (S (f - S s)) by lia. reflexivity. }
  rewrite X. destruct b; cbn [length]; now rewrite (IH (S s)).
Qed.

Lemma sample_ok n rate draw : 1 <= n -> (Z.of_nat n <= 2 ^ 53)%Z -> (0 < rate)%Qc -> (rate <= 1)%Qc -> draws draw ->
  exists v, sample_valid_features n rate draw = Ok v /\ length v = n /\ length (List.filter (fun b : bool => b) v) = sample_size n rate /\ forall f, v !! f = Some true <-> f ∈ draw n (sample_size n rate).
Proof.
  intros Hn H53 R0 R1 D. destruct (sample_size_ok n rate Hn H53 R0 R1) as [B _]. destruct (D n (sample_size n rate) (proj2 B)) as (ND & LD & RD).
  unfold sample_valid_features. destruct (Nat.ltb_spec n (sample_size n rate)); [lia|].
  destruct (sample_fold (draw n (sample_size n rate)) (repeat false n)) as (v & E & L & G); [now rewrite repeat_length|]. rewrite repeat_length in L. exists v. split; [exact E|]. split; [exact L|].
  assert (X : forall f, v !! f = Some true <-> f ∈ draw n (sample_size n rate)).
  { intros f. rewrite G. destruct (decide _) as [Y|Y]; [tauto|]. split; [|contradiction]. intros Z. exfalso. clear -Z. revert f Z. induction n as [|n IH]; intros [|f]; cbn; try discriminate. apply IH. }
  split; [|exact X]. rewrite (trues_length v _ ND X). exact LD.
Qed.

(** ** Parties with a choice of features *)
Section Valid.
  Context {K : Type} `{EqDecision K} (U : list K) (nh : nat) (gcfg : pcfg K) (hcfg : nat -> pcfg K) (guest : party K) (hosts : list (party K)) (sname : nat -> site).
  Definition hosts_with (hosts : list (party K)) (v : nat -> list bool) : list (party K) := imap (fun i p => with_valid p (v i)) hosts.
  Context (gv : list bool) (hv : nat -> list bool).
  Local Notation guest' := (with_valid guest gv).
  Local Notation hosts' := (hosts_with hosts hv).

  Lemma owner_with own : owner guest' hosts' own = match owner guest hosts own with Some p => Some (with_valid p (match own with None => gv | Some i => hv i end)) | None => None end.
  Proof. destruct own as [i|]; cbn; [|reflexivity]. unfold hosts_with. rewrite list_lookup_imap. now destruct (hosts !! i). Qed.
  Lemma goes_with S c k : goes guest' hosts' left_of S c k = goes guest hosts left_of S c k.
  Proof. unfold goes. rewrite owner_with. now destruct (owner guest hosts (ch_own c)). Qed.
  Lemma route_with t k : route guest' hosts' t k = route guest hosts t k.
  Proof. induction t as [w G H|w G H c g l IHl r IHr]; [reflexivity|]. cbn [route]. rewrite goes_with, IHl, IHr. reflexivity. Qed.
  Lemma pt_with (gc : pcfg K) (hc : nat -> pcfg K) t : (forall own, c_points (cfg_of gc hc own) = c_points (cfg_of gcfg hcfg own)) -> pt_of gc hc t = pt_of gcfg hcfg t.
  Proof. intros X. induction t as [w G H|w G H c g l IHl r IHr]; [reflexivity|]. cbn [pt_of]. unfold thr. rewrite X, IHl, IHr. reflexivity. Qed.

  Lemma party_with (cfg : pcfg K) p v : party_ok U cfg p -> length v = length (c_points cfg) -> party_ok U (set_valid cfg v) (with_valid p v).
  Proof. intros [A1 A2 A3 A4 A5 A6 A7 A8 A9 A10 A11] L. split; assumption || reflexivity. Qed.
  Lemma raw_with (cfg : pcfg K) v raw : raw_of cfg raw -> raw_of (set_valid cfg v) raw.
  Proof. intros [A B D]. split; assumption. Qed.

  Lemma parties_with gh0 vg0 vh0 gh vg vh : parties_ok U nh gcfg hcfg guest hosts sname gh0 vg0 vh0 ->
    length gv = length (c_points gcfg) -> (forall i, i < nh -> length (hv i) = length (c_points (hcfg i))) ->
    dt_wf gh -> (forall k, k ∈ dt_keys gh <-> k ∈ U) -> (forall k c, (k, c) ∈ dt_data gh -> c = (vg k, vh k)) ->
    parties_ok U nh (set_valid gcfg gv) (fun i => set_valid (hcfg i) (hv i)) guest' hosts' sname gh vg vh.
  Proof.
    intros [P1 [P2 P2'] P3 P4 [P5 P5'] P6 P7 P8 P9 P10 P11] Lg Lh W KS V.
    assert (HL : forall i p, hosts' !! i = Some p -> exists q, hosts !! i = Some q /\ p = with_valid q (hv i) /\ i < nh).
    { intros i p Hp. unfold hosts_with in Hp. rewrite list_lookup_imap in Hp. destruct (hosts !! i) as [q|] eqn:E; [|discriminate]. cbn in Hp. injection Hp as <-. exists q. split; [reflexivity|]. split; [reflexivity|].
      apply lookup_lt_Some in E. lia. }
    split; auto.
    - unfold hosts_with. rewrite imap_length. auto.
    - now apply party_with.
    - intros i p Hp. destruct (HL i p Hp) as (q & Hq & -> & Li). apply party_with; [now apply P4|now apply Lh].
    - split; [exact P5|]. intros i p Hp. destruct (HL i p Hp) as (q & Hq & -> & Li). cbn. eapply P5'; eauto.
  Qed.
End Valid.

(** Owners of splits are parties. *)
Fixpoint owners_in (nh : nat) (t : dtree) : Prop :=
  match t with TLeaf _ _ _ => True | TSplit _ _ _ c _ l r => match ch_own c with None => True | Some i => i < nh end /\ owners_in nh l /\ owners_in nh r end.
Lemma tight_owners {K} U (guest : party K) hosts nh t : length hosts = nh -> forall S, tight U guest hosts t S -> owners_in nh t.
Proof.
  intros L. induction t as [|w G H c g l IHl r IHr]; intros S; cbn; [auto|]. intros ((p & Ho & _) & Tl & Tr). split; [|eauto]. destruct (ch_own c); [|exact I]. cbn in Ho. apply lookup_lt_Some in Ho. lia.
Qed.
Lemma boosted_mono {K} U guest hosts lab kind dim rnd lr pred (grown grown' : nat -> (K -> Qc) -> (K -> Qc) -> dtree -> Prop) T :
  (forall j vg vh t, grown j vg vh t -> grown' j vg vh t) -> boosted U guest hosts lab kind dim rnd lr pred grown T -> boosted U guest hosts lab kind dim rnd lr pred grown' T.
Proof. intros H B r c t Hc Ht. destruct (B r c t Hc Ht) as (vg & vh & G & V). exists vg, vh. auto. Qed.

(** ** Prediction with all trees *)
Section Score.
  Context {K : Type} `{EqDecision K} {C E : Type} {R S : Type} (rnd : Qc -> Qc) (nh : nat) (sname : nat -> site) (lr : Qc) (dim : nat).
  Context (names : forall i, i < nh -> sname i <> GuestSite) (inj : forall i j, i < nh -> j < nh -> sname i = sname j -> i = j).
  Context (gd : dtable K (dict nat Qc)) (hd : nat -> dtable K (dict nat Qc)) (Wg : dt_wf gd) (Wh : forall i, i < nh -> dt_wf (hd i)).
  Context (n : nat) (gt : list tree_pb) (ht : nat -> list tree_pb) (pt : nat -> ptree) (fuel : nat).
  Local Notation msg := (msg K C E).
  (** The stored trees of the parties together stand for [pt j]. *)
  Definition stands (j : nat) : Prop := exists g h, gt !! j = Some g /\ (forall i, i < nh -> ht i !! j = Some (h i) /\ (load_tree (h i)).1 = (load_tree g).1) /\
    prepr nh sname (load_tree g).1 (load_tree g).2 (fun i => (load_tree (h i)).2) 0 (pt j) /\ pdepth (pt j) < fuel.
  Context (Hdim : 0 < dim) (Lg : length gt = n * dim) (Lh : forall i, i < nh -> length (ht i) = n * dim) (ST : forall j, j < n * dim -> stands j).
  Local Notation W := (fun j k => pwalk (jrow gd hd k) (pt j)).
  (** Row [k] keeps its score in tree [j]. *)
  Definition kept (k : K) (j : nat) : Prop := guest_only (jrow gd hd k) (pt j) \/ everywhere nh hd k.
  Definition F_at (r c : nat) (F : dtable K (list Qc)) : Prop :=
    dt_wf F /\ forall k v, tget F k = Some v <-> k ∈ dt_keys gd /\ (forall j, j < r * dim + c -> kept k j) /\ v = mids rnd lr dim W r c k.

  Lemma score_tree r c F : r < n -> c < dim -> F_at r c F -> exists F',
    @runs msg R S nh _ _
      (p <- clift (list_index gt (r * dim + c)%nat); let t := load_tree p in w <- guest_predict nh t.1 t.2 gd fuel; clift (update_f rnd lr c F w))%cps
      (fun i => (p <- clift (list_index (ht i) (r * dim + c)%nat); let t := load_tree p in host_predict (sname i) t.1 t.2 (hd i) fuel)%cps) F' (fun _ => tt) /\ F_at r (Datatypes.S c) F'.
  Proof.
    intros Hr Hc [WF GF]. assert (Hj : r * dim + c < n * dim) by nia. destruct (ST _ Hj) as (g & h & Eg & Eh & PR & PD).
    destruct (predict_ok (C := C) (E := E) (R := R) (S := S) nh sname (load_tree g).1 (load_tree g).2 (fun i => (load_tree (h i)).2) names inj gd hd Wg Wh fuel (pt (r * dim + c)) PR PD) as (w & RU & Ww & Gw).
    destruct (dt_join_rel (fun f x => old ← list_index f c; Ok (<[c := rnd (old + rnd (lr * x))%Qc]> f))
      (fun k _ _ v => v = mids rnd lr dim W r (Datatypes.S c) k) F w Ww) as (F' & EF & WF' & KF' & GF').
    { intros k f x Hf Hx. apply GF in Hf as (Hk & _ & ->). apply Gw in Hx as (_ & _ & <-).
      assert (X : mids rnd lr dim W r c k !! c = Some (score rnd lr dim W r c k)) by (rewrite mids_lookup, Nat.ltb_irrefl by exact Hc; reflexivity).
      rewrite (list_index_ok _ _ _ X). cbn [mbind res_bind]. eexists. split; [reflexivity|]. rewrite (mids_S rnd lr dim W W); [reflexivity|exact Hc|reflexivity]. }
    exists F'. split.
    - eapply runs_glift; [exact (list_index_ok _ _ _ Eg)|]. eapply (runs_hlift nh _ h); [intros i Hi; exact (list_index_ok _ _ _ (proj1 (Eh i Hi)))|]. cbv zeta.
      assert (RU2 : @runs msg R S nh _ _ (cbind (guest_predict nh (load_tree g).1 (load_tree g).2 gd fuel) (fun w => clift (update_f rnd lr c F w)))
        (fun i => cbind (host_predict (sname i) (load_tree g).1 (load_tree (h i)).2 (hd i) fuel) (fun x => cret x)) F' (fun _ => tt)).
      { refine (runs_seq nh _ _ _ _ _ _ _ _ RU _). unfold update_f. rewrite EF. apply runs_ret. }
      eapply runs_ext; [reflexivity| |reflexivity|exact RU2]. intros i k Hi. rewrite (proj2 (Eh i Hi)). reflexivity.
    - split; [exact WF'|]. intros k v. specialize (GF' k). split.
      + intros Hv. rewrite Hv in GF'. destruct (tget F k) as [f|] eqn:Ef; [|contradiction]. destruct (tget w k) as [x|] eqn:Ex; [|contradiction]. apply GF in Ef as (Hk & KE & _). apply Gw in Ex as (_ & KX & _).
        split; [exact Hk|]. split; [|exact GF']. intros j L. destruct (decide (j = r * dim + c)) as [->|NE]; [exact KX|]. apply KE. lia.
      + intros (Hk & KE & ->). assert (A : tget F k = Some (mids rnd lr dim W r c k)) by (apply GF; split; [exact Hk|split; [intros j L; apply KE; lia|reflexivity]]).
        assert (B : tget w k = Some (W (r * dim + c) k)) by (apply Gw; split; [exact Hk|split; [apply KE; lia|reflexivity]]).
        rewrite A, B in GF'. destruct (tget F' k); [now subst|contradiction].
  Qed.

  Lemma F_next r F : F_at r dim F -> F_at (Datatypes.S r) 0 F.
  Proof. intros [A B]. split; [exact A|]. intros k v. rewrite B, mids_dim, mids_0. replace (r * dim + dim) with (Datatypes.S r * dim + 0) by lia. reflexivity. Qed.

  Lemma score_ok : exists F, @runs msg R S nh _ _ (guest_score rnd nh lr dim gt gd fuel) (fun i => host_score dim (ht i) (hd i) fuel (sname i)) F (fun _ => tt) /\
    dt_wf F /\ forall k v, tget F k = Some v <-> k ∈ dt_keys gd /\ (forall j, j < n * dim -> kept k j) /\ v = scores rnd lr dim W n k.
  Proof.
    destruct (dt_mapValues_rel (fun _ => Ok (repeat (zq 0) dim)) (fun _ (_ : dict nat Qc) f => f = repeat (zq 0) dim) gd Wg) as (F0 & EF & WF & KF & GF). { eauto. }
    assert (Z0 : forall k, mids rnd lr dim W 0 0 k = repeat (zq 0) dim).
    { intros k. transitivity (map (fun _ : nat => zq 0) (seq 0 dim)).
      - unfold mids. apply map_ext. intros c. reflexivity.
      - clear. generalize 0 as c0. induction dim as [|m IHm]; intros c0; [reflexivity|]. cbn [seq map repeat]. now rewrite IHm. }
    assert (I0 : F_at 0 0 F0).
    { split; [exact WF|]. intros k v. specialize (GF k). rewrite Z0. split.
      - intros Hv. rewrite Hv in GF. destruct (tget gd k) eqn:Ey; [|contradiction]. split; [eapply tget_key; eauto|]. split; [intros j Hj; cbn in Hj; lia|exact GF].
      - intros (Hk & _ & ->). apply tget_is_Some in Hk as [v Hv]. rewrite Hv in GF. destruct (tget F0 k); [now subst|contradiction]. }
    assert (DV : forall l : list tree_pb, length l = n * dim -> length l / dim = n) by (intros l ->; apply Nat.div_mul; lia).
    destruct (runs_fold (M := msg) (R := R) (S := S) nh (fun x : nat => x) (seq 0 n)
      (fun F i => cfold (fun F tidx => (p <- clift (list_index gt (i * dim + tidx)%nat); let t := load_tree p in w <- guest_predict nh t.1 t.2 gd fuel; clift (update_f rnd lr tidx F w))%cps) F (seq 0 dim))
      (fun h (_ : unit) i => cfold (fun (_ : unit) tidx => (p <- clift (list_index (ht h) (i * dim + tidx)%nat); let t := load_tree p in host_predict (sname h) t.1 t.2 (hd h) fuel)%cps) tt (seq 0 dim))
      (fun done F (b : nat -> unit) => F_at (length done) 0 F)) with (a := F0) (b := fun _ : nat => tt) as (F & b & RU & [WF' GF']).
    - intros done r rest F b Es FA.
      assert (Er : r = length done /\ length done < n).
      { assert (X : seq 0 n !! length done = Some r) by (rewrite Es; now apply list_lookup_middle). apply lookup_seq in X. lia. }
      destruct Er as [-> Lr].
      destruct (runs_fold (M := msg) (R := R) (S := S) nh (fun x : nat => x) (seq 0 dim)
        (fun F tidx => (p <- clift (list_index gt (length done * dim + tidx)%nat); let t := load_tree p in w <- guest_predict nh t.1 t.2 gd fuel; clift (update_f rnd lr tidx F w))%cps)
        (fun h (_ : unit) tidx => (p <- clift (list_index (ht h) (length done * dim + tidx)%nat); let t := load_tree p in host_predict (sname h) t.1 t.2 (hd h) fuel)%cps)
        (fun dn F (b : nat -> unit) => F_at (length done) (length dn) F)) with (a := F) (b := fun _ : nat => tt) as (F' & b' & RU & FA').
      + intros dn c rst F1 b1 Ec FA1.
        assert (Ec' : c = length dn /\ length dn < dim).
        { assert (X : seq 0 dim !! length dn = Some c) by (rewrite Ec; now apply list_lookup_middle). apply lookup_seq in X. lia. }
        destruct Ec' as [-> Lc]. destruct (score_tree (length done) (length dn) F1 Lr Lc FA1) as (F2 & RU & FA2). exists F2, (fun _ => tt). split; [exact RU|]. rewrite app_length, Nat.add_1_r. exact FA2.
      + exact FA.
      + exists F', b'. split.
        * eapply runs_ext; [reflexivity| |reflexivity|exact RU]. intros i c Hi. now rewrite map_id.
        * rewrite app_length, Nat.add_1_r. apply F_next. rewrite seq_length in FA'. exact FA'.
    - exact I0.
    - rewrite seq_length in GF'. exists F. split; [|split; [exact WF'|]].
      + unfold guest_score, host_score. eapply runs_glift; [exact EF|]. rewrite (DV _ Lg). eapply runs_ext; [reflexivity| | |exact RU].
        * intros i c Hi. cbn beta. rewrite (DV _ (Lh i Hi)), map_id. reflexivity.
        * intros i Hi. now destruct (b i).
      + intros k v. rewrite GF', Nat.add_0_r, mids_0. reflexivity.
  Qed.
End Score.

(** ** Training with trees *)
Section Train.
  Context {K : Type} `{EqDecision K} (rnd : Qc -> Qc) (pred : loss_kind -> list Qc -> list Qc) (lossf : loss_kind -> dtable K nat -> dtable K (list Qc) -> Qc).
  Context (U : list K) (nh : nat) (gcfg : pcfg K) (hcfg : nat -> pcfg K) (guest : party K) (hosts : list (party K)) (sname : nat -> site) (it : imp_type) (Hit : it <> IOther).
  Context (P : bparams) (kind : loss_kind) (dim : nat) (y : dtable K nat) (lab : K -> nat).
  Context (gdraw : nat -> nat -> nat -> list nat) (hdraw : nat -> nat -> nat -> nat -> list nat) (d : nat).
  Local Notation lam := (reg_lambda (c_par gcfg)).
  Local Notation mi := (min_impurity (c_par gcfg)).
  Local Notation per_split := (match it with ISplit => true | _ => false end).

  (** The features that a party draws for tree [j]. *)
  Definition gvalid (j : nat) : list bool := match sample_valid_features (length (c_points gcfg)) (b_rate P) (gdraw j) with Ok v => v | Err _ => [] end.
  Definition hvalid (j i : nat) : list bool := match sample_valid_features (length (c_points (hcfg i))) (b_rate P) (hdraw i j) with Ok v => v | Err _ => [] end.
  Local Notation guestj j := (with_valid guest (gvalid j)).
  Local Notation hostsj j := (hosts_with hosts (hvalid j)).

  (** What the parties agree on before training. *)
  Record ready : Prop := {
    rd_parties : exists gh vg vh, parties_ok U nh gcfg hcfg guest hosts sname gh vg vh;
    rd_features : (1 <= length (c_points gcfg)) /\ (Z.of_nat (length (c_points gcfg)) <= 2 ^ 31)%Z /\ forall i, i < nh -> (1 <= length (c_points (hcfg i))) /\ (Z.of_nat (length (c_points (hcfg i))) <= 2 ^ 31)%Z;
    rd_rate : (0 < b_rate P)%Qc /\ (b_rate P <= 1)%Qc;
    rd_draws : (forall j, draws (gdraw j)) /\ forall i j, i < nh -> draws (hdraw i j);
    rd_depth : c_depth gcfg = Datatypes.S d /\ d <= 30;
    rd_lambda : (0 < lam)%Qc;
    rd_dim : 0 < dim;
    rd_labels : forall k, k ∈ U -> match kind with Sigmoid => dim = 1 /\ lab k <= 1 | Softmax => lab k < dim end;
    rd_y : dt_wf y /\ (forall k, k ∈ dt_keys y <-> k ∈ U) /\ forall k v, (k, v) ∈ dt_data y -> v = lab k;
    rd_pred : forall f, length f = dim -> length (pred kind f) = dim /\ forall x, x ∈ pred kind f -> (0 <= x)%Qc /\ (x <= 1)%Qc;
    rd_rnd : rnd_ok rnd }.
  Context (RD : ready).

  Lemma gvalid_ok j : sample_valid_features (length (c_points gcfg)) (b_rate P) (gdraw j) = Ok (gvalid j) /\ length (gvalid j) = length (c_points gcfg).
  Proof.
    destruct RD as [_ (F1 & F2 & _) [R0 R1] [D1 _] _ _ _ _ _ _ _]. destruct (sample_ok (length (c_points gcfg)) (b_rate P) (gdraw j)) as (v & Ev & Lv & _); auto; [lia|]. unfold gvalid. now rewrite Ev.
  Qed.
  Lemma hvalid_ok i j : i < nh -> sample_valid_features (length (c_points (hcfg i))) (b_rate P) (hdraw i j) = Ok (hvalid j i) /\ length (hvalid j i) = length (c_points (hcfg i)).
  Proof.
    intros Hi. destruct RD as [_ (_ & _ & F) [R0 R1] [_ D] _ _ _ _ _ _ _]. destruct (F i Hi). destruct (sample_ok (length (c_points (hcfg i))) (b_rate P) (hdraw i j)) as (v & Ev & Lv & _); auto; [lia|]. unfold hvalid. now rewrite Ev.
  Qed.

  (** Tree [t] as number [j]: it comes out of the learner, and the raw rows walk down it to the same leaves. *)
  Definition walks (t : dtree) : Prop := forall graw hraw, raw_of gcfg graw -> (forall i, i < nh -> raw_of (hcfg i) (hraw i)) -> forall k, k ∈ U -> pwalk (jrow graw hraw k) (pt_of gcfg hcfg t) = route guest hosts t k.
  Definition good_tree (lrn : nat -> (K -> Qc) -> (K -> Qc) -> dtree -> Prop) (j : nat) (vg vh : K -> Qc) (t : dtree) : Prop :=
    lrn j vg vh t /\ walks t /\ owners_in nh t /\ tdepth t <= d.
  (** Tree [j] is learnt from gradients whose values on the hosts are [eg], [eh] of those of the guest. *)
  Definition by_values (eg eh : (K -> Qc) -> K -> Qc) (rn : Qc -> Qc) (rt : Qc -> res Qc) (j : nat) (vg vh : K -> Qc) (t : dtree) : Prop :=
    learn U lam mi (guestj j) (hostsj j) vg vh (eg vg) (eh vh) rn rt d = Ok t.

  Lemma fit_base (lrn : nat -> (K -> Qc) -> (K -> Qc) -> dtree -> Prop) ug uh rn rt j gs vg vh t st hm :
    parties_ok U nh (set_valid gcfg (gvalid j)) (fun i => set_valid (hcfg i) (hvalid j i)) (guestj j) (hostsj j) sname gs vg vh ->
    learn U lam mi (guestj j) (hostsj j) vg vh ug uh rn rt d = Ok t -> lrn j vg vh t ->
    fit_post U nh (set_valid gcfg (gvalid j)) (fun i => set_valid (hcfg i) (hvalid j i)) (guestj j) (hostsj j) sname it t st hm ->
    exists g h w, good_tree lrn j vg vh t /\
      save_tree (t_nodes st) (t_mask st) = Ok g /\ (forall i, i < nh -> save_tree (t_nodes st) (hm i) = Ok (h i)) /\ stored nh sname gcfg hcfg g h t /\
      t_weights st = Some w /\ dt_wf w /\ (forall k v, tget w k = Some v <-> k ∈ U /\ v = route guest hosts t k) /\
      NoDup (t_imp st).*1 /\ forall key, dict_get key (t_imp st) = add_all None (gains (own_site sname) per_split key t).
  Proof.
    intros PA Et Lt FP. destruct (grow_consistent _ _ _ _ _ _ _ _ _ _ _ _ _ _ _ _ Et) as [_ DE]. pose proof (grow_tight U _ _ lam mi vg vh _ _ rn rt d _ _ _ _ Et) as TI.
    destruct (rd_features RD) as (F1 & F2 & F3). destruct (rd_depth RD) as [_ D30]. destruct (pa_hosts _ _ _ _ _ _ _ _ _ _ PA) as [LH NH].
    assert (PX : forall own, c_points (cfg_of (set_valid gcfg (gvalid j)) (fun i => set_valid (hcfg i) (hvalid j i)) own) = c_points (cfg_of gcfg hcfg own)) by (intros [i|]; reflexivity).
    destruct (fit_stored U nh _ _ _ _ sname it t st hm d FP DE D30) as (g & h & Eg & Eh & ST & ST').
    { intros own Ho. rewrite PX. destruct own as [i|]; cbn [cfg_of]; [apply (F3 i Ho)|exact F2]. }
    destruct (f_weights _ _ _ _ _ _ _ _ _ _ _ FP) as (w & Ew & Ww & GW).
    exists g, h, w. split.
    { split; [exact Lt|]. split; [|split; [exact (tight_owners _ _ _ _ _ LH _ TI)|exact DE]]. intros graw hraw RG RH k Hk. rewrite <- (pt_with gcfg hcfg _ _ t PX), <- (route_with guest hosts (gvalid j) (hvalid j)).
      apply (walk_route U nh _ _ (guestj j) (hostsj j) sname (pa_guest _ _ _ _ _ _ _ _ _ _ PA) (pa_host _ _ _ _ _ _ _ _ _ _ PA) ltac:(lia) graw hraw) with (T := t_nodes st) (gm := t_mask st) (hm := hm) (S := fun _ => true) (id := 0).
      - now apply raw_with.
      - intros i Hi. apply raw_with. now apply RH.
      - exact Hk.
      - exact (f_repr _ _ _ _ _ _ _ _ _ _ _ FP).
      - exact TI.
      - reflexivity. }
    split; [exact Eg|]. split; [exact Eh|]. split; [split; [rewrite <- (pt_with gcfg hcfg _ _ t PX); exact ST|exact ST']|]. split; [exact Ew|]. split; [exact Ww|]. split; [|split].
    - intros k v. rewrite GW, route_with. reflexivity.
    - exact (f_impnd _ _ _ _ _ _ _ _ _ _ _ FP).
    - exact (f_imp _ _ _ _ _ _ _ _ _ _ _ FP).
  Qed.

  Local Notation result := (nat * list tree_pb)%type.
  (** The parties at the start of training: with plain numbers, and with Paillier. [rg], [rh], [rr] are the random numbers of
      encryption. *)
  Definition plain_train_sys : sys (msg K Qc Qc) (@bstate K) result :=
    sysof nh (guest_train rnd pred lossf nh P gcfg it kind dim y gdraw (fun _ => Ok) Ok Ok (fun _ _ _ x => Ok x) Ret) (fun i => host_train qops (sname i) P (hcfg i) (hdraw i) Ret).
  Definition paillier_train_sys (sk : privkey) (rg rh : nat -> K -> Z) (rr : nat -> nat -> nat -> Z) : sys (msg K cell enum) (@bstate K) result :=
    sysof nh (guest_train rnd pred lossf nh P gcfg it kind dim y gdraw (fun j => enc_table (sk_n sk) (rg j) (rh j)) (pdec sk) (fun e => pdec sk (CEnc e)) (fun j => pgenc (sk_n sk) (rr j)) Ret)
      (fun i => host_train pops (sname i) P (hcfg i) (hdraw i) Ret).

  (** The parties after training. *)
  Record trained (lrn : nat -> (K -> Qc) -> (K -> Qc) -> dtree -> Prop) (T : list dtree) (st : @bstate K) (hs : list result) : Prop := {
    tr_hosts : exists ht, hs = map (fun i => (dim, ht i)) (seq 0 nh) /\
      binv rnd pred U nh gcfg hcfg guest hosts sname it P kind dim lab (good_tree lrn) T (length (bs_hist st)) 0 st ht;
    tr_losses : losses rnd pred lossf U guest hosts P kind dim y T (bs_hist st);
    tr_stops : stops rnd (b_early P) (b_tol P) (b_rounds P) (bs_hist st) }.

  Lemma plain_trained_runs {R S} : exists T st ht,
    @runs (msg K Qc Qc) R S nh _ _ (guest_train rnd pred lossf nh P gcfg it kind dim y gdraw (fun _ => Ok) Ok Ok (fun _ _ _ x => Ok x)) (fun i => host_train qops (sname i) P (hcfg i) (hdraw i)) st (fun i => (dim, ht i)) /\
    trained (by_values (fun v => v) (fun v => v) (fun x => x) Ok) T st (map (fun i => (dim, ht i)) (seq 0 nh)).
  Proof.
    destruct (rd_parties RD) as (gh0 & vg0 & vh0 & PA0).
    destruct (train_from_ok (R := R) (S := S) rnd pred lossf U nh gcfg hcfg guest hosts sname it P kind dim y lab gdraw hdraw (fun _ _ gs => t ← Ok gs; Ok (tt, t)) Ok Ok (fun _ _ _ x => Ok x) qops (fun _ _ => True) gvalid (fun i j => hvalid j i)
      (good_tree (by_values (fun v => v) (fun v => v) (fun x => x) Ok)) (rd_dim RD) (rd_labels RD) (rd_y RD) (rd_pred RD) (rd_rnd RD) (fun j => proj1 (gvalid_ok j)) (fun i j Hi => proj1 (hvalid_ok i j Hi))) with (x0 := tt) as (T & st & ht & RU & I & LO & ST); [|exact Logic.I|].
    { intros j [] gs vg vh _ _ W KS V B.
      pose proof (parties_with U nh gcfg hcfg guest hosts sname (gvalid j) (hvalid j) _ _ _ gs vg vh PA0 (proj2 (gvalid_ok j)) (fun i Hi => proj2 (hvalid_ok i j Hi)) W KS V) as PA.
      destruct (plain_total U (guestj j) (hostsj j) vg vh lam mi d (rd_lambda RD) (fun k Hk => proj1 (proj2 (B k Hk)))) as (t & Et). destruct (pa_rows _ _ _ _ _ _ _ _ _ _ PA) as [ND NE].
      destruct (fit_ok (R := R) (S := S) U ND nh _ _ (guestj j) (hostsj j) sname gs gs vg vh vg vh qops _ qops_laws Ok Ok (fun _ _ x => Ok x) (fun x => x) Ok it Hit
        (plain_train U nh _ _ (guestj j) (hostsj j) sname gs vg vh PA) (fun _ => Ok gs) d t (proj2 (pa_hosts _ _ _ _ _ _ _ _ _ _ PA)) NE eq_refl (proj1 (rd_depth RD)) Et) as (ts & hm & RU & FP).
      destruct (fit_base (by_values (fun v => v) (fun v => v) (fun x => x) Ok) vg vh (fun x => x) Ok j gs vg vh t ts hm PA Et Et FP) as (g & h & w & GT & X). exists tt, gs, t, ts, hm, g, h, w. split; [reflexivity|]. split; [exact Logic.I|]. split; [exact GT|]. split; [exact RU|]. exact X. }
    exists T, st, ht. split; [exact RU|]. split; [exists ht; auto|exact LO|exact ST].
  Qed.
  Lemma plain_trained : exists T st hs, always plain_train_sys (done st hs) /\ trained (by_values (fun v => v) (fun v => v) (fun x => x) Ok) T st hs.
  Proof. destruct (@plain_trained_runs (@bstate K) result) as (T & st & ht & RU & TR). exists T, st, (map (fun i => (dim, ht i)) (seq 0 nh)). split; [exact (runs_done _ _ _ _ _ RU)|exact TR]. Qed.

  Lemma paillier_trained_runs {R S} sk (G : good_sk sk) (Hbig : (2 ^ 1000 <= sk_n sk)%Z) rg rh rr :
    (forall j k, Z.gcd (rg j k) (sk_n sk) = 1%Z) -> (forall j k, Z.gcd (rh j k) (sk_n sk) = 1%Z) -> (forall j i nid, Z.gcd (rr j i nid) (sk_n sk) = 1%Z) ->
    let N := zq (Z.of_nat (length U)) in
    (zq 16 * (N * N) <= lam * zq (2 ^ 29))%Qc -> (zq (Z.of_nat d + 1) * N <= lam * zq (2 ^ 47))%Qc -> (qabs (mi - FLOAT_ZERO) <= zq (2 ^ 29))%Qc ->
    exists T st ht,
      @runs (msg K cell enum) R S nh _ _ (guest_train rnd pred lossf nh P gcfg it kind dim y gdraw (fun j => enc_table (sk_n sk) (rg j) (rh j)) (pdec sk) (fun e => pdec sk (CEnc e)) (fun j => pgenc (sk_n sk) (rr j)))
        (fun i => host_train pops (sname i) P (hcfg i) (hdraw i)) st (fun i => (dim, ht i)) /\
      trained (by_values (fun v k => leaf_value (sk_n sk) (v k)) (fun v k => leaf_value (sk_n sk) (v k)) fround (prt (sk_n sk))) T st (map (fun i => (dim, ht i)) (seq 0 nh)).
  Proof.
    intros Rg Rh Rr N HN HD HM. destruct (rd_parties RD) as (gh0 & vg0 & vh0 & PA0). destruct (rd_depth RD) as [ED D30].
    destruct (train_from_ok (R := R) (S := S) rnd pred lossf U nh gcfg hcfg guest hosts sname it P kind dim y lab gdraw hdraw (fun j _ gs => t ← enc_table (sk_n sk) (rg j) (rh j) gs; Ok (tt, t)) (pdec sk) (fun e => pdec sk (CEnc e))
      (fun j => pgenc (sk_n sk) (rr j)) pops (fun _ _ => True) gvalid (fun i j => hvalid j i)
      (good_tree (by_values (fun v k => leaf_value (sk_n sk) (v k)) (fun v k => leaf_value (sk_n sk) (v k)) fround (prt (sk_n sk)))) (rd_dim RD) (rd_labels RD) (rd_y RD) (rd_pred RD) (rd_rnd RD)
      (fun j => proj1 (gvalid_ok j)) (fun i j Hi => proj1 (hvalid_ok i j Hi))) with (x0 := tt) as (T & st & ht & RU & I & LO & ST); [|exact Logic.I|].
    { intros j [] gs vg vh _ _ W KS V B.
      pose proof (parties_with U nh gcfg hcfg guest hosts sname (gvalid j) (hvalid j) _ _ _ gs vg vh PA0 (proj2 (gvalid_ok j)) (fun i Hi => proj2 (hvalid_ok i j Hi)) W KS V) as PA.
      assert (VB : forall k, k ∈ U -> (qabs (vg k) <= 1)%Qc /\ (qabs (vh k) <= 1)%Qc).
      { intros k Hk. destruct (B k Hk) as (A & B' & D). split; [exact A|]. apply qabs_le. split; qlra. }
      destruct (paillier_total sk G Hbig U (guestj j) (hostsj j) vg vh VB lam mi d (rd_lambda RD) (fun k Hk => proj1 (proj2 (B k Hk))) HN HD ltac:(lia) HM) as (t & Et & NR).
      destruct (enc_table_ok sk G Hbig U nh _ _ (guestj j) (hostsj j) sname gs vg vh PA (rg j) (rh j) (Rg j) (Rh j) VB) as (ghc & Ee & W' & KS' & CI).
      destruct (pa_rows _ _ _ _ _ _ _ _ _ _ PA) as [ND NE].
      destruct (fit_ok (R := R) (S := S) U ND nh _ _ (guestj j) (hostsj j) sname gs ghc vg vh _ _ pops _ (pops_laws sk G Hbig) (pdec sk) (fun e => pdec sk (CEnc e)) (pgenc (sk_n sk) (rr j)) fround
        (prt (sk_n sk)) it Hit (paillier_train sk G Hbig U nh _ _ (guestj j) (hostsj j) sname gs vg vh PA (rr j) (Rr j) ghc W' KS' CI) (fun _ => Ok ghc) d t (proj2 (pa_hosts _ _ _ _ _ _ _ _ _ _ PA)) NE eq_refl ED Et) as (ts & hm & RU & FP).
      destruct (fit_base (by_values (fun v k => leaf_value (sk_n sk) (v k)) (fun v k => leaf_value (sk_n sk) (v k)) fround (prt (sk_n sk))) (fun k => leaf_value (sk_n sk) (vg k)) (fun k => leaf_value (sk_n sk) (vh k)) fround (prt (sk_n sk)) j gs vg vh t ts hm PA Et Et FP) as (g & h & w & GT & X). exists tt, ghc, t, ts, hm, g, h, w.
      split; [now rewrite Ee|]. split; [exact Logic.I|]. split; [exact GT|]. split; [exact RU|]. exact X. }
    exists T, st, ht. split; [exact RU|]. split; [exists ht; auto|exact LO|exact ST].
  Qed.
  Lemma paillier_trained sk (G : good_sk sk) (Hbig : (2 ^ 1000 <= sk_n sk)%Z) rg rh rr :
    (forall j k, Z.gcd (rg j k) (sk_n sk) = 1%Z) -> (forall j k, Z.gcd (rh j k) (sk_n sk) = 1%Z) -> (forall j i nid, Z.gcd (rr j i nid) (sk_n sk) = 1%Z) ->
    let N := zq (Z.of_nat (length U)) in
    (zq 16 * (N * N) <= lam * zq (2 ^ 29))%Qc -> (zq (Z.of_nat d + 1) * N <= lam * zq (2 ^ 47))%Qc -> (qabs (mi - FLOAT_ZERO) <= zq (2 ^ 29))%Qc ->
    exists T st hs, always (paillier_train_sys sk rg rh rr) (done st hs) /\ trained (by_values (fun v k => leaf_value (sk_n sk) (v k)) (fun v k => leaf_value (sk_n sk) (v k)) fround (prt (sk_n sk))) T st hs.
  Proof.
    intros Rg Rh Rr N HN HD HM. destruct (@paillier_trained_runs (@bstate K) result sk G Hbig rg rh rr Rg Rh Rr HN HD HM) as (T & st & ht & RU & TR).
    exists T, st, (map (fun i => (dim, ht i)) (seq 0 nh)). split; [exact (runs_done _ _ _ _ _ RU)|exact TR].
  Qed.

  (** ** Reading the result *)
  Definition htrees (hs : list result) (i : nat) : list tree_pb := match hs !! i with Some r => r.2 | None => [] end.
  Lemma htrees_map ht i : i < nh -> htrees (map (fun i => (dim, ht i)) (seq 0 nh)) i = ht i.
  Proof. intros Hi. unfold htrees. rewrite map_lookup, lookup_seq_lt by exact Hi. reflexivity. Qed.

  Context (lrn : nat -> (K -> Qc) -> (K -> Qc) -> dtree -> Prop) (T : list dtree) (st : @bstate K) (hs : list result) (TR : trained lrn T st hs).
  Local Notation wt := (wt guest hosts).

  Lemma trained_counts : length T = length (bs_hist st) * dim /\ length (bs_trees st) = length T /\ length hs = nh /\
    (forall i r, hs !! i = Some r -> r.1 = dim /\ length r.2 = length T).
  Proof.
    destruct (tr_hosts _ _ _ _ TR) as (ht & -> & I). destruct (bi_trees _ _ _ _ _ _ _ _ _ _ _ _ _ _ _ _ _ _ _ _ I) as [L1 L2].
    split; [rewrite (bi_len _ _ _ _ _ _ _ _ _ _ _ _ _ _ _ _ _ _ _ _ I); lia|]. split; [exact L1|]. split; [now rewrite map_length, seq_length|].
    intros i r Hi. rewrite map_lookup in Hi. destruct (seq 0 nh !! i) as [i'|] eqn:E; [|discriminate]. cbn in Hi. injection Hi as <-. apply lookup_seq in E as [-> L]. cbn. split; [reflexivity|]. now apply L2.
  Qed.
  Lemma trained_scores : NoDup (dt_keys (bs_F st)) /\ forall k v, (k, v) ∈ dt_data (bs_F st) <-> k ∈ U /\ v = scores rnd (b_lr P) dim (wt T) (length (bs_hist st)) k.
  Proof.
    destruct (tr_hosts _ _ _ _ TR) as (ht & -> & I). destruct (bi_F _ _ _ _ _ _ _ _ _ _ _ _ _ _ _ _ _ _ _ _ I) as [W G]. split; [exact W|].
    intros k v. rewrite <- tget_elem by exact W. rewrite G, mids_0. reflexivity.
  Qed.
  Lemma trained_boosted : boosted U guest hosts lab kind dim rnd (b_lr P) pred lrn T.
  Proof.
    destruct (tr_hosts _ _ _ _ TR) as (ht & -> & I). eapply boosted_mono; [|exact (bi_boosted _ _ _ _ _ _ _ _ _ _ _ _ _ _ _ _ _ _ _ _ I)]. intros j vg vh t GT. apply GT.
  Qed.
  Lemma trained_good j t : T !! j = Some t -> walks t /\ owners_in nh t /\ tdepth t <= d.
  Proof.
    intros Ht. destruct (tr_hosts _ _ _ _ TR) as (ht & -> & I). pose proof (bi_boosted _ _ _ _ _ _ _ _ _ _ _ _ _ _ _ _ _ _ _ _ I) as B.
    pose proof (rd_dim RD) as D0. rewrite (Nat.div_mod j dim) in Ht by lia. rewrite Nat.mul_comm in Ht.
    destruct (B (j / dim) (j mod dim) t) as (vg & vh & (_ & W) & _); [apply Nat.mod_upper_bound; lia|exact Ht|exact W].
  Qed.
  Lemma trained_stored j t : T !! j = Some t -> exists g h, bs_trees st !! j = Some g /\ (forall i, i < nh -> htrees hs i !! j = Some (h i)) /\ stored nh sname gcfg hcfg g h t.
  Proof.
    intros Ht. destruct (tr_hosts _ _ _ _ TR) as (ht & -> & I). destruct (bi_stored _ _ _ _ _ _ _ _ _ _ _ _ _ _ _ _ _ _ _ _ I j t Ht) as (g & h & A & B & D). exists g, h. split; [exact A|]. split; [|exact D].
    intros i Hi. rewrite htrees_map by exact Hi. now apply B.
  Qed.

  (** Prediction of the raw training rows. *)
  Lemma trained_predict {C E R S : Type} graw hraw fuel : raw_of gcfg graw -> (forall i, i < nh -> raw_of (hcfg i) (hraw i)) -> d < fuel ->
    exists F, @runs (msg K C E) R S nh _ _ (guest_score rnd nh (b_lr P) dim (bs_trees st) graw fuel) (fun i => host_score dim (htrees hs i) (hraw i) fuel (sname i)) F (fun _ => tt) /\
      dt_wf F /\ forall k v, tget F k = Some v <-> tget (bs_F st) k = Some v.
  Proof.
    intros RG RH HF. destruct (rd_parties RD) as (gh0 & vg0 & vh0 & PA0). destruct trained_counts as (LT & LB & LS & LR).
    set (pt := fun j => match T !! j with Some t => pt_of gcfg hcfg t | None => PL (zq 0) end).
    destruct (score_ok (C := C) (E := E) (R := R) (S := S) rnd nh sname (b_lr P) dim (pa_names _ _ _ _ _ _ _ _ _ _ PA0) (pa_inj _ _ _ _ _ _ _ _ _ _ PA0) graw hraw (ra_wf _ _ RG) (fun i Hi => ra_wf _ _ (RH i Hi))
      (length (bs_hist st)) (bs_trees st) (htrees hs) pt fuel (rd_dim RD)) as (F & RU & W & GF).
    - congruence.
    - intros i Hi. unfold htrees. destruct (lookup_lt_is_Some_2 hs i) as [r Hr]; [lia|]. rewrite Hr. destruct (LR i r Hr). lia.
    - intros j Hj. destruct (lookup_lt_is_Some_2 T j) as [t Ht]; [lia|]. destruct (trained_stored j t Ht) as (g & h & Eg & Eh & S1 & S2). exists g, h. split; [exact Eg|]. split; [intros i Hi; auto|].
      unfold pt. rewrite Ht. split; [exact S1|]. rewrite pt_depth. destruct (trained_good j t Ht) as (_ & _ & DT). lia.
    - exists F. split; [exact RU|]. split; [exact W|]. destruct trained_scores as [WF TS]. intros k v. rewrite GF, (tget_elem (bs_F st)) by exact WF. rewrite TS.
      assert (KG : k ∈ dt_keys graw <-> k ∈ U) by (rewrite (ra_keys _ _ RG); apply (po_keys _ _ _ (pa_guest _ _ _ _ _ _ _ _ _ _ PA0))). rewrite KG.
      assert (SX : k ∈ U -> scores rnd (b_lr P) dim (fun j k => pwalk (jrow graw hraw k) (pt j)) (length (bs_hist st)) k = scores rnd (b_lr P) dim (wt T) (length (bs_hist st)) k).
      { intros Hk. apply scores_ext. intros j Hj. unfold BoostSpec.wt, pt. destruct (lookup_lt_is_Some_2 T j) as [t Ht]; [lia|]. rewrite Ht. destruct (trained_good j t Ht) as (WK & _ & _). exact (WK graw hraw RG RH k Hk). }
      split.
      + intros (Hk & _ & ->). split; [exact Hk|]. now apply SX.
      + intros (Hk & ->). split; [exact Hk|]. split; [|symmetry; now apply SX]. intros j Hj. right. intros i Hi. apply tget_is_Some. apply (ra_keys _ _ (RH i Hi)).
        destruct (lookup_lt_is_Some_2 hosts i) as [p Hp]; [destruct (pa_hosts _ _ _ _ _ _ _ _ _ _ PA0); lia|]. apply (po_keys _ _ _ (pa_host _ _ _ _ _ _ _ _ _ _ PA0 i p Hp)), Hk.
  Qed.

  (** Feature importance. *)
  Lemma gains_splits own f t : match own with None => True | Some i => i < nh end -> owners_in nh t ->
    gains (own_site sname) per_split (own_site sname own, Some f) t = if per_split then map (fun _ => zq 1) (splits_on own f t) else splits_on own f t.
  Proof.
    intros Ho. destruct (rd_parties RD) as (gh0 & vg0 & vh0 & PA0).
    assert (INJ : forall o, match o with None => True | Some i => i < nh end -> own_site sname o = own_site sname own -> o = own).
    { intros o Hoo E. destruct o as [i|], own as [i'|]; cbn in E.
      - f_equal. now apply (pa_inj _ _ _ _ _ _ _ _ _ _ PA0).
      - exfalso. exact (pa_names _ _ _ _ _ _ _ _ _ _ PA0 i Hoo E).
      - exfalso. exact (pa_names _ _ _ _ _ _ _ _ _ _ PA0 i' Ho (eq_sym E)).
      - reflexivity. }
    induction t as [w G H|w G H c g l IHl r IHr]; cbn [gains splits_on owners_in]; [now destruct per_split|]. intros (Oc & Ol & Or). rewrite IHl, IHr by assumption.
    assert (X : (own_site sname (ch_own c), Some (ch_fid c)) = (own_site sname own, Some f) <-> ch_own c = own /\ ch_fid c = f).
    { split; [intros [= A B]; split; [now apply INJ|exact B]|intros [-> ->]; reflexivity]. }
    destruct (decide (_ = _)) as [D|D], (decide (_ /\ _)) as [D'|D']; try tauto; destruct per_split; rewrite ?map_app; reflexivity.
  Qed.
  Lemma trained_importance own f : match own with None => True | Some i => i < nh end ->
    dict_get (own_site sname own, Some f) (bs_imp st) = let l := flat_map (splits_on own f) T in
      if bool_decide (l = []) then None else Some (if per_split then zq (Z.of_nat (length l)) else HistSpec.qsum l).
  Proof.
    intros Ho. destruct (tr_hosts _ _ _ _ TR) as (ht & Eh & I). rewrite (bi_imp _ _ _ _ _ _ _ _ _ _ _ _ _ _ _ _ _ _ _ _ I).
    assert (X : flat_map (gains (own_site sname) per_split (own_site sname own, Some f)) T = if per_split then map (fun _ => zq 1) (flat_map (splits_on own f) T) else flat_map (splits_on own f) T).
    { assert (OI : forall t, t ∈ T -> owners_in nh t) by (intros t Ht; apply elem_of_list_lookup in Ht as (j & Hj); apply (trained_good j t Hj)).
      clear -OI RD Ho. induction T as [|t T' IHT]; [now destruct per_split|]. cbn [flat_map]. rewrite gains_splits by (exact Ho || (apply OI; left)).
      rewrite IHT by (intros t' Ht'; apply OI; now right). destruct per_split; rewrite ?map_app; reflexivity. }
    rewrite X. cbv zeta. generalize (flat_map (splits_on own f) T). intros l. destruct l as [|x l]; [rewrite bool_decide_eq_true_2 by reflexivity; now destruct per_split|].
    rewrite bool_decide_eq_false_2 by discriminate. destruct per_split; cbn [map add_all]; f_equal.
    - rewrite zq_0. rewrite Qcplus_0_l. clear. change (zq 1 :: map (fun _ => zq 1) l) with (map (fun _ : Qc => zq 1) (x :: l)). generalize (x :: l). intros m. induction m as [|a m IH]; [reflexivity|].
      cbn [map length]. unfold HistSpec.qsum in *. cbn [foldr]. rewrite IH, <- zq_add. f_equal. lia.
    - rewrite zq_0. now rewrite Qcplus_0_l.
  Qed.
End Train.
