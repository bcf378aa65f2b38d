(** C69: what the encryption modes fast and balance give away to the hosts. *)
From Verif Require Import LeakMain EncryptModeSpec P_Tree P_Boost P_Mode FloatProofs FixedPointModel PaillierModel PaillierSpec PaillierProofs EncNumProofs.
Local Open Scope nat_scope.

(** The differences. In a call that does not encrypt anew, whoever has the tables of this call and of the one before can compute,
    from public data only, by how much the gradient and the Hessian of every row have changed. *)
Theorem C69_difference {K} `{EqDecision K} (U : list K) sk (fresh : nat -> K -> nat -> Z) mode rate u (gss : list (dtable K (Qc * Qc))) :
  keypair (sk_n sk) sk -> (2 ^ 1000 <= sk_n sk)%Z -> (forall j k i, Z.gcd (fresh j k i) (sk_n sk) = 1%Z) -> (Z.of_nat (length gss) <= 2 ^ 40)%Z ->
  (forall gs, gs ∈ gss -> NoDup (dt_keys gs) /\ (forall k, k ∈ dt_keys gs <-> k ∈ U) /\ forall k g h, (k, (g, h)) ∈ dt_data gs -> (qabs g <= 1)%Qc /\ (qabs h <= 1)%Qc) ->
  exists outs, calls (gh_calc (sk_n sk) fresh mode rate u) 0 None gss = Ok outs /\ length outs = length gss /\
    forall j gs gs' out out' k g h g' h', gss !! j = Some gs -> gss !! S j = Some gs' -> outs !! j = Some out -> outs !! S j = Some out' -> ~ em_full mode rate (u (S j)) ->
    (k, (g, h)) ∈ dt_data gs -> (k, (g', h')) ∈ dt_data gs' ->
    exists a b a' b' v w, (k, (CEnc a, CEnc b)) ∈ dt_data out /\ (k, (CEnc a', CEnc b')) ∈ dt_data out' /\
      read_diff a a' = Ok v /\ read_diff b b' = Ok w /\ (qabs (v - (g' - g)) <= p2 (-48))%Qc /\ (qabs (w - (h' - h)) <= p2 (-48))%Qc.
Proof.
  intros KP BG FR LN TB. destruct (keypair_good _ _ KP) as [G _].
  assert (TO : Forall (table_ok U) gss).
  { apply Forall_forall. intros gs Hg. destruct (TB gs Hg) as (A & B & C). split; [exact A|]. split; [exact B|]. intros k g h Hk. apply (C k). apply tget_elem; [exact A|exact Hk]. }
  destruct (calls_ok sk fresh mode rate u G BG U FR gss 0 None None Logic.I LN TO) as (outs & EO & F2 & _ & HR). exists outs. split; [exact EO|]. split; [symmetry; eapply Forall2_length; eauto|].
  intros j gs gs' out out' k g h g' h' L1 L2 L3 L4 NF M1 M2.
  destruct (TB gs (elem_of_list_lookup_2 _ _ _ L1)) as (W1 & K1 & _). destruct (TB gs' (elem_of_list_lookup_2 _ _ _ L2)) as (W2 & _ & _).
  destruct (Forall2_lookup_lr _ _ _ _ _ _ F2 L1 L3) as (W3 & K3 & _). destruct (Forall2_lookup_lr _ _ _ _ _ _ F2 L2 L4) as (W4 & K4 & _).
  apply tget_elem in M1; [|exact W1]. apply tget_elem in M2; [|exact W2]. assert (HU : k ∈ U) by (apply K1; eapply tget_key; eauto).
  pose proof (proj2 (K3 k) HU) as X3. pose proof (proj2 (K4 k) HU) as X4. apply tget_is_Some in X3 as [c Hc]. apply tget_is_Some in X4 as [c' Hc'].
  destruct (HR j gs gs' out out' L1 L2 L3 L4 NF k g h g' h' c c' M1 M2 Hc Hc') as (a & b & a' & b' & v & w & -> & -> & R1 & R2 & R3 & R4).
  exists a, b, a', b', v, w. split; [apply tget_elem; assumption|]. split; [apply tget_elem; assumption|]. auto.
Qed.
Print Assumptions C69_difference.

(** In between, the plain number. *)
Lemma down_reads {K} `{EqDecision K} (k : K) (gs gs' : dtable K (Qc * Qc)) out out' g h g' h' c c' : readable gs gs' out out' ->
  tget gs k = Some (g, h) -> tget gs' k = Some (g', h') -> tget out k = Some c -> tget out' k = Some c' ->
  ((g' - g <= - p2 (-10))%Qc -> went_down k out out' = true) /\ ((0 <= g' - g)%Qc -> went_down k out out' = false).
Proof.
  intros RD H1 H2 H3 H4. destruct (RD k g h g' h' c c' H1 H2 H3 H4) as (a & b & a' & b' & v & w & -> & -> & R1 & _ & N & _).
  unfold went_down. rewrite H3, H4, R1. apply qabs_le in N as [N1 N2]. change (p2 (-48)) with (Q2Qc (1 # 281474976710656)) in *. change (p2 (-10)) with (Q2Qc (1 # 1024)). change (p2 (-20)) with (Q2Qc (1 # 1048576)).
  split; intros D; [apply qltb_true|apply qltb_false]; qlra.
Qed.
Lemma first_down_at {K} `{EqDecision K} (k : K) y l : forall t c, (forall a t1 t2, (t :: l) !! a = Some t1 -> (t :: l) !! S a = Some t2 -> went_down k t1 t2 = bool_decide (y = c + a)) ->
  first_down k c t l = if decide (c <= y < c + length l) then y else 0.
Proof.
  induction l as [|t' l IH]; intros t c HW; cbn [first_down length]; [rewrite decide_False by lia; reflexivity|].
  rewrite (HW 0 t t' eq_refl eq_refl). destruct (decide (y = c + 0)) as [EQ|NE].
  - rewrite bool_decide_true by exact EQ. rewrite decide_True by lia. lia.
  - rewrite bool_decide_false by exact NE. rewrite IH.
    + destruct (decide (S c <= y < S c + length l)); [rewrite decide_True by lia; reflexivity|rewrite decide_False by lia; reflexivity].
    + intros a t1 t2 A B. rewrite (HW (S a) t1 t2 A B). apply bool_decide_ext. lia.
Qed.

Lemma lookup_repeat {A} (x : A) n i : i < n -> repeat x n !! i = Some x.
Proof. revert i. induction n as [|n IH]; intros [|i] Hi; cbn; [lia|lia|reflexivity|apply IH; lia]. Qed.

Section Labels.
  Context {K : Type} `{EqDecision K} (pred : loss_kind -> list Qc -> list Qc) (lossf : loss_kind -> dtable K nat -> dtable K (list Qc) -> Qc).
  Context (U : list K) (nh : nat) (gcfg : pcfg K) (hcfg : nat -> pcfg K) (guest : party K) (hosts : list (party K)) (sname : nat -> site) (it : imp_type).
  Context (P : bparams) (dim : nat) (y : dtable K nat) (lab : K -> nat).
  Context (gdraw : nat -> nat -> nat -> list nat) (hdraw : nat -> nat -> nat -> nat -> list nat) (d : nat).
  Context (sk : privkey) (fresh : nat -> K -> nat -> Z) (rr : nat -> nat -> nat -> Z) (mode : em_mode) (rate : Qc) (u : nat -> Qc).
  Local Notation ready := (ready fround pred U nh gcfg hcfg guest hosts sname P Softmax dim y lab gdraw hdraw d).
  Local Notation mok := (mode_ok U sk fresh rr (reg_lambda (c_par gcfg)) (min_impurity (c_par gcfg)) d (b_rounds P * dim)).
  Local Notation train := (mode_train_sys fround pred lossf nh gcfg hcfg sname it P Softmax dim y gdraw hdraw sk fresh rr mode rate u).
  Local Notation grads p k c := (gradient fround Softmax (lab k) (repeat p dim) c, hessian fround (repeat p dim) c).

  (** The tables of the first round. *)
  Lemma first_round p (RD : ready) : pred Softmax (repeat (zq 0) dim) = repeat p dim -> exists F gh gss, dt_mapValues (fun _ => Ok (repeat (zq 0) dim)) y = Ok F /\ grad_and_hess fround pred Softmax y F = Ok gh /\
    Forall2 (fun c gs => class_grad gh c = Ok gs) (seq 0 dim) gss /\ Forall (table_ok U) gss /\ forall c gs k, gss !! c = Some gs -> k ∈ U -> tget gs k = Some (grads p k c).
  Proof.
    intros EP. destruct (rd_y _ _ _ _ _ _ _ _ _ _ _ _ _ _ _ _ _ RD) as (Wy & Ky & Vy). pose proof (rd_labels _ _ _ _ _ _ _ _ _ _ _ _ _ _ _ _ _ RD) as HL. cbn beta iota in HL.
    pose proof (rd_dim _ _ _ _ _ _ _ _ _ _ _ _ _ _ _ _ _ RD) as HD. destruct (rd_pred _ _ _ _ _ _ _ _ _ _ _ _ _ _ _ _ _ RD (repeat (zq 0) dim) (repeat_length _ _)) as [LP BP]. rewrite EP in LP, BP.
    destruct (dt_mapValues_rel (fun _ : nat => Ok (repeat (zq 0) dim)) (fun k _ f => f = repeat (zq 0) dim) y Wy) as (F & EF & WF & KF & GF); [intros; eexists; split; reflexivity|].
    assert (GF' : forall k f, tget F k = Some f -> f = repeat (zq 0) dim) by (intros k f Hf; specialize (GF k); rewrite Hf in GF; destruct (tget y k); [exact GF|contradiction]).
    destruct (dt_join_rel (fun c f => g ← grad fround Softmax c (pred Softmax f); Ok (g, hess fround (pred Softmax f)))
      (fun k _ _ v => forall c, c < dim -> v.1 !! c = Some (gradient fround Softmax (lab k) (repeat p dim) c) /\ v.2 !! c = Some (hessian fround (repeat p dim) c)) y F WF) as (gh & Eg & Wg & Kg & Gg).
    { intros k c f Hc Hf. rewrite (GF' k f Hf), EP. pose proof Hc as Hc'. apply tget_elem in Hc; [|exact Wy]. apply Vy in Hc as ->. apply tget_key, Ky in Hc'.
      destruct (grad_ok' fround Softmax (lab k) (repeat p dim) dim LP HD (HL k Hc')) as (g & E1 & E2). rewrite E1. cbn [mbind res_bind]. eexists. split; [reflexivity|]. intros c Hc. split; [now apply E2|now apply (hess_ok fround _ c dim)]. }
    assert (KG : forall k, k ∈ dt_keys gh <-> k ∈ U).
    { intros k. rewrite Kg, KF, elem_of_list_In, filter_In, <- elem_of_list_In, Ky. split; [tauto|]. intros Hk. split; [exact Hk|]. apply Ky, tget_is_Some in Hk as [v Hv]. unfold dict_mem. unfold tget in Hv. now rewrite Hv. }
    assert (CL : forall c, c < dim -> exists gs, class_grad gh c = Ok gs /\ table_ok U gs /\ forall k, k ∈ U -> tget gs k = Some (grads p k c)).
    { intros c Hc. destruct (dt_mapValues_rel (fun v : list Qc * list Qc => g ← list_index v.1 c; h ← list_index v.2 c; Ok (g, h)) (fun k _ v => v = grads p k c) gh Wg) as (gs & Es & Ws & Ks & Gs).
      { intros k v Hv. specialize (Gg k). rewrite Hv in Gg. destruct (tget y k), (tget F k); try contradiction. destruct (Gg c Hc) as [A B]. rewrite (list_index_ok _ _ _ A), (list_index_ok _ _ _ B). cbn [mbind res_bind]. eauto. }
      assert (GG : forall k, k ∈ U -> tget gs k = Some (grads p k c)).
      { intros k Hk. apply KG in Hk. rewrite <- Ks in Hk. apply tget_is_Some in Hk as [v Hv]. specialize (Gs k). rewrite Hv in Gs. destruct (tget gh k); [|contradiction]. now subst v. }
      assert (KS : forall k, k ∈ dt_keys gs <-> k ∈ U) by (intros k; rewrite Ks; apply KG).
      exists gs. split; [exact Es|]. split; [|exact GG]. split; [exact Ws|]. split; [exact KS|]. intros k g h Hk. pose proof Hk as Hk'. apply tget_key, KS in Hk'. rewrite (GG k Hk') in Hk. injection Hk as <- <-.
      destruct (gradient_bound fround Softmax (lab k) (repeat p dim) c (rd_rnd _ _ _ _ _ _ _ _ _ _ _ _ _ _ _ _ _ RD) BP Logic.I) as (A & B & C). split; [exact A|]. apply qabs_le. split; [qlra|exact C]. }
    assert (LS : forall l, Forall (fun c => c < dim) l -> exists gss, Forall2 (fun c gs => class_grad gh c = Ok gs /\ table_ok U gs /\ forall k, k ∈ U -> tget gs k = Some (grads p k c)) l gss).
    { induction l as [|c l IH]; intros FA; [exists []; constructor|]. apply Forall_cons in FA as [H1 H2]. destruct (IH H2) as (gss & F2). destruct (CL c H1) as (gs & X). exists (gs :: gss). now constructor. }
    destruct (LS (seq 0 dim)) as (gss & F2); [apply Forall_forall; intros c Hc; apply elem_of_list_In, in_seq in Hc; lia|].
    exists F, gh, gss. split; [exact EF|]. split; [exact Eg|]. split; [eapply Forall2_impl; [exact F2|]; cbn; tauto|]. split.
    - apply Forall_forall. intros gs Hg. apply elem_of_list_lookup in Hg as [c Hc]. destruct (Forall2_lookup_r _ _ _ _ _ F2 Hc) as (c' & _ & _ & T & _). exact T.
    - intros c gs k Hc Hk. destruct (Forall2_lookup_r _ _ _ _ _ F2 Hc) as (c' & Lc & _ & _ & T). apply lookup_seq in Lc as [-> _]. now apply T.
  Qed.

  (** The labels. With more than two classes and a first round without new encryptions after its first tree (always in mode fast),
      every host that takes part as programmed and writes down what it receives ends training with the label of every row. *)
  Theorem C69_labels p : ready -> it <> IOther -> mok -> 1 <= b_rounds P -> pred Softmax (repeat (zq 0) dim) = repeat p dim -> (p2 (-10) <= p)%Qc ->
    (forall j, 1 <= j < dim -> ~ em_full mode rate (u j)) ->
    exists st hs logs N, nsteps step N train (done st hs) /\ length hs = nh /\ length logs = nh /\
      (forall m s, nsteps step m (with_diaries train) s -> m <= N /\ nsteps step (N - m) s (done st (zip hs logs))) /\
      forall i log k, logs !! i = Some log -> k ∈ U -> guess dim log k = lab k.
  Proof.
    intros RD Hit MK HR EP Hp NF. destruct (C68_finishes fround pred lossf U nh gcfg hcfg guest hosts sname it P Softmax dim y lab gdraw hdraw d sk fresh rr mode rate u RD Hit MK) as (st & hs & N & LH & A).
    assert (A' : always train (done st hs)) by (exists N; exact A). destruct (A 0 train (nsteps_O _ _)) as [_ RUN]. rewrite Nat.sub_0_r in RUN.
    destruct (kept_steps _ _ _ _ RUN (kept_start train)) as (t' & N' & K'). destruct (kept_done _ _ _ K') as (logs & LL & ->).
    exists st, hs, logs, N. split; [exact RUN|]. split; [exact LH|]. split; [lia|]. split; [apply outcome; [exact N'|apply done_nf]|].
    intros i log k HL Hk. assert (Hi : i < nh) by (apply lookup_lt_Some in HL; lia).
    destruct (first_round p RD EP) as (F & gh & gss & EF & EG & F2 & TO & GV). destruct (b_rounds P) as [|r] eqn:ER; [lia|].
    destruct (keypair_good _ _ (mo_key _ _ _ _ _ _ _ _ MK)) as [G _].
    assert (LG : length gss = dim) by (rewrite <- (Forall2_length _ _ _ F2); apply seq_length).
    destruct (calls_ok sk fresh mode rate u G (mo_big _ _ _ _ _ _ _ _ MK) U (mo_fresh _ _ _ _ _ _ _ _ MK) gss 0 None None Logic.I) as (outs & EO & FO & _ & RE); [|exact TO|].
    { rewrite LG. pose proof (mo_trees _ _ _ _ _ _ _ _ MK) as MT. nia. }
    assert (LO : length outs = dim) by (rewrite <- LG; symmetry; eapply Forall2_length; eauto).
    assert (PF : outs `prefix_of` tables log).
    { eapply (log_starts i outs train st hs logs N log); [|..|exact N'|exact LL|exact HL].
      - cbn. rewrite map_length, seq_length. exact Hi.
      - intros h Hh. cbn in Hh. apply elem_of_list_In, in_map_iff in Hh as (j & <- & _). reflexivity.
      - cbn [mode_train_sys sysof s_guest]. eapply train_opens; eauto. }
    destruct PF as [rest PF]. unfold guess. rewrite PF, take_app_alt by (now symmetry). destruct outs as [|t l]; [cbn in LO; pose proof (rd_dim _ _ _ _ _ _ _ _ _ _ _ _ _ _ _ _ _ RD); lia|].
    rewrite (first_down_at k (lab k)).
    - pose proof (rd_labels _ _ _ _ _ _ _ _ _ _ _ _ _ _ _ _ _ RD k Hk) as HLab. cbn in HLab, LO. destruct (decide (1 <= lab k < 1 + length l)); [reflexivity|lia].
    - intros a t1 t2 L1 L2. destruct (lookup_lt_is_Some_2 gss a) as [gs Hg]; [apply lookup_lt_Some in L1; lia|]. destruct (lookup_lt_is_Some_2 gss (S a)) as [gs' Hg']; [apply lookup_lt_Some in L2; lia|].
      destruct (Forall2_lookup_lr _ _ _ _ _ _ FO Hg L1) as (_ & K1 & _). destruct (Forall2_lookup_lr _ _ _ _ _ _ FO Hg' L2) as (_ & K2 & _).
      pose proof (proj2 (K1 k) Hk) as X1. pose proof (proj2 (K2 k) Hk) as X2. apply tget_is_Some in X1 as [c Hc]. apply tget_is_Some in X2 as [c' Hc'].
      assert (HA : S a < dim) by (apply lookup_lt_Some in L2; lia).
      assert (R : readable gs gs' t1 t2) by (eapply (RE a); eauto; apply NF; lia).
      destruct (down_reads k gs gs' t1 t2 _ _ _ _ c c' R (GV a gs k Hg Hk) (GV (S a) gs' k Hg' Hk) Hc Hc') as [D1 D2].
      destruct (rd_pred _ _ _ _ _ _ _ _ _ _ _ _ _ _ _ _ _ RD (repeat (zq 0) dim) (repeat_length _ _)) as [_ BP]. rewrite EP in BP.
      assert (P1 : (p <= 1)%Qc) by (apply (BP p); apply elem_of_list_In; destruct dim; [lia|now left]).
      assert (NE : forall c, c < dim -> nth c (repeat p dim) (zq 0) = p) by (intros c0 H0; now apply nth_lookup_Some, lookup_repeat).
      assert (LOW : (fround (p - zq 1) <= 0)%Qc).
      { rewrite <- zq_0. rewrite <- (fround_zq 0) by (vm_compute; discriminate). apply fround_mono. rewrite zq_0, zq_1. qlra. }
      pose proof (p2_pos (-10)) as PP. unfold gradient in D1, D2. rewrite !NE in D1, D2 by lia. destruct (decide (lab k = 1 + a)) as [E|E].
      + rewrite bool_decide_true by exact E. apply D1. rewrite decide_True by lia. rewrite decide_False by lia. qlra.
      + rewrite bool_decide_false by exact E. apply D2. rewrite decide_False by lia. destruct (decide (a = lab k)); [|qlra]. qlra.
  Qed.
End Labels.
Print Assumptions C69_labels.

(** Five encrypted with a random number of its own; seven less is added without one. The quotient of the two says -7, whatever the
    random number; two separate encryptions give nothing of the kind. *)
Example C69_read_ex : match pk_encrypt (1999 * 2003) (PyInt 5) None None 77, pk_encrypt (1999 * 2003) (PyInt (-2)) None None 78 with
  | Ok x, Ok x' => match cell_add (CEnc x) (CNum (PyInt (-7))) with
      | Ok (CEnc y) => match read_diff x y, read_diff x x' with Ok v, Ok v' => qeqb v (zq (-7)) && negb (qeqb v' (zq (-7))) | _, _ => false end
      | _ => false end
  | _, _ => false end = true.
Proof. vm_compute. reflexivity. Qed.
Example C69_difference_ex : exists sk, keypair (sk_n sk) sk /\ (2 ^ 1000 <= sk_n sk)%Z /\ (forall j k i : nat, Z.gcd ((fun _ _ _ => 1%Z) j k i) (sk_n sk) = 1%Z) /\
  forall gs, gs ∈ [DT [(7, (Q2Qc (1 # 2), Q2Qc (1 # 4))); (9, (Q2Qc (-1 # 2), Q2Qc (1 # 4)))]; DT [(9, (Q2Qc (1 # 3), Q2Qc (1 # 8))); (7, (Q2Qc (-1 # 1), zq 0))]] ->
    NoDup (dt_keys gs) /\ (forall k, k ∈ dt_keys gs <-> k ∈ [7; 9]) /\ forall k g h, (k, (g, h)) ∈ dt_data gs -> (qabs g <= 1)%Qc /\ (qabs h <= 1)%Qc.
Proof.
  destruct ex_paillier as (sk & [A B C D E F G H I J L]). exists sk. split; [exact A|]. split; [exact B|]. split; [intros; apply Z.gcd_1_l|].
  intros gs Hg. repeat rewrite elem_of_cons in Hg. destruct Hg as [->|[->|Hg]]; [..|now apply elem_of_nil in Hg]; (split; [repeat (constructor; [set_solver|]); constructor|split; [intros k; cbn; set_solver|]]);
    intros k g h Hk; cbn in Hk; repeat rewrite elem_of_cons in Hk; destruct Hk as [[= -> -> ->]|[[= -> -> ->]|Hk]]; try (now apply elem_of_nil in Hk); split; vm_compute; discriminate.
Qed.

(** The rounding of the floats is one that the theorems allow. *)
Lemma rounding_ok : rnd_ok fround.
Proof.
  split; [exact fround_nonneg|]. intros x H. apply qabs_le in H as [A B]. apply qabs_le. assert (E : (- (1))%Qc = zq (-1)) by (apply Qc_is_canon; reflexivity). rewrite E in A |- *. change (1%Qc) with (zq 1) in B |- *.
  split; [rewrite <- (fround_zq (-1)) by (vm_compute; discriminate)|rewrite <- (fround_zq 1) by (vm_compute; discriminate)]; now apply fround_mono.
Qed.
(** Four rows with three classes and a guest and a host that meet every hypothesis. *)
Definition kex_y : dtable nat nat := DT [(0, 0); (1, 1); (2, 2); (3, 0)].
Definition kex_lab (k : nat) : nat := match k with 1 => 1 | 2 => 2 | _ => 0 end.
Example C69_ex : exists sk,
  ready fround bex_pred (seq 0 4) 1 ex_guest ex_host (ex_party ex_gbins) [ex_party ex_hbins] ex_name (bex_par 2 false) Softmax 3 kex_y kex_lab (fun _ _ => bex_draw) (fun _ _ _ => bex_draw) 2 /\
  mode_ok (seq 0 4) sk (fun _ _ _ => 1%Z) (fun _ _ _ => 1%Z) (reg_lambda (c_par ex_guest)) (min_impurity (c_par ex_guest)) 2 (b_rounds (bex_par 2 false) * 3) /\
  bex_pred Softmax (repeat (zq 0) 3) = repeat (Q2Qc (1 # 2)) 3 /\ (p2 (-10) <= Q2Qc (1 # 2))%Qc /\ forall j, 1 <= j < 3 -> ~ em_full MFast (Q2Qc (1 # 2)) (zq 0).
Proof.
  destruct ex_paillier as (sk & [A B C D E F G H I J L]). exists sk. split; [|split; [|split; [|split; [vm_compute; discriminate|]]]].
  - assert (DR : draws (fun _ => bex_draw)) by (exact (proj1 C49_ex)). split.
    + exists ex_gh, ex_vg, ex_vh. exact ex_ok.
    + split; [cbn; lia|]. split; [cbn; lia|]. intros i _. split; cbn; lia.
    + split; vm_compute; [reflexivity|discriminate].
    + split; [intros _; exact DR|intros _ _ _; exact DR].
    + split; [reflexivity|lia].
    + reflexivity.
    + lia.
    + intros k _. destruct k as [|[|[|k]]]; cbn; lia.
    + split; [repeat (constructor; [set_solver|]); constructor|]. split; [intros k; reflexivity|]. intros k v Hv. cbn in Hv. repeat rewrite elem_of_cons in Hv. destruct Hv as [[= -> ->]|[[= -> ->]|[[= -> ->]|[[= -> ->]|Hv]]]]; [reflexivity..|now apply elem_of_nil in Hv].
    + intros f LF. unfold bex_pred. split; [now rewrite map_length|]. intros x Hx. apply elem_of_list_In, in_map_iff in Hx as (z & <- & _). cbv zeta.
      destruct (qltb _ 0) eqn:E1; [split; vm_compute; discriminate|]. destruct (qltb 1 _) eqn:E2; [split; vm_compute; discriminate|]. apply qltb_false in E1, E2. auto.
    + exact rounding_ok.
  - split; [exact A|exact B|intros; apply Z.gcd_1_l|intros; apply Z.gcd_1_l|split; [exact H|cbn; lia]| |vm_compute; discriminate|exact L]. vm_compute. discriminate.
  - cbn [repeat bex_pred map]. vm_compute. repeat f_equal; apply Qc_is_canon; reflexivity.
  - intros j _ X. exact X.
Qed.
