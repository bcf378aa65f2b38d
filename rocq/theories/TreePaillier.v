(** Training over plain numbers and over Paillier ciphertexts. *)
From Verif Require Export TreeFit TreeFacts SplitPaillier.
Local Open Scope nat_scope.

(** What the parties agree on before training a tree; nothing here is about encryption. *)
Record parties_ok {K} `{EqDecision K} (U : list K) (nh : nat) (gcfg : pcfg K) (hcfg : nat -> pcfg K) (guest : party K) (hosts : list (party K))
    (sname : nat -> site) (gh : dtable K (Qc * Qc)) (vg vh : K -> Qc) : Prop := {
  pa_rows : NoDup U /\ U <> [];
  pa_hosts : length hosts = nh /\ 0 < nh;
  pa_guest : party_ok U gcfg guest;
  pa_host : forall i p, hosts !! i = Some p -> party_ok U (hcfg i) p;
  pa_leaf : (1 <= p_min_leaf guest)%Z /\ forall i p, hosts !! i = Some p -> (1 <= p_min_leaf p)%Z;
  pa_names : forall i, i < nh -> sname i <> GuestSite;
  pa_inj : forall i j, i < nh -> j < nh -> sname i = sname j -> i = j;
  pa_step : c_step gcfg <> 0 /\ forall i, i < nh -> c_step (hcfg i) = c_step gcfg;
  pa_depth : forall i, i < nh -> c_depth (hcfg i) = c_depth gcfg;
  pa_size : (3 * Z.of_nat (length U) <= 2 ^ 53)%Z;
  pa_gh : dt_wf gh /\ (forall k, k ∈ dt_keys gh <-> k ∈ U) /\ forall k c, (k, c) ∈ dt_data gh -> c = (vg k, vh k) }.

(** ** Plain numbers *)
Section Plain.
  Context {K : Type} `{EqDecision K} (U : list K) (nh : nat) (gcfg : pcfg K) (hcfg : nat -> pcfg K) (guest : party K) (hosts : list (party K)) (sname : nat -> site).
  Context (gh : dtable K (Qc * Qc)) (vg vh : K -> Qc) (PA : parties_ok U nh gcfg hcfg guest hosts sname gh vg vh).

  Lemma plain_train : train_ok (C := Qc) (E := Qc) U nh gcfg hcfg guest hosts sname gh gh vg vh vg vh (fun c _ q => c = q) Ok Ok (fun _ _ x => Ok x) (fun x => x) Ok.
  Proof.
    destruct PA as [[P1 P1'] [P2 P2'] P3 P4 [P5 P5'] P6 P7 P8 P9 P10 P11]. split; auto.
    - destruct P11 as (A & B & D). split; [exact A|]. split; [exact B|]. intros k c Hc. now rewrite (D k c Hc).
    - intros c L q -> _. reflexivity.
    - intros i nid x y [= ->]. eauto.
    - intros x y [= ->]. pose proof FLOAT_ZERO_pos as FZ. rewrite zq_0 in FZ. qlra.
  Qed.

  Lemma plain_total lam mi d : (0 < lam)%Qc -> (forall k, k ∈ U -> (0 <= vh k)%Qc) ->
    exists t, learn U lam mi guest hosts vg vh vg vh (fun x => x) Ok d = Ok t.
  Proof.
    intros L V2. unfold learn.
    assert (Z : forall x : Qc, (qabs (x - x) <= 0)%Qc) by (intros x; apply qabs_le; split; qlra).
    assert (exists B, forall S : K -> bool, (qabs (sum_if S vg U) <= B)%Qc) as (B & HB).
    { clear. induction U as [|k l (B & IH)]; [exists 0%Qc; intros S; rewrite sum_if_nil, qabs_zq, <- zq_0; apply zq_le; reflexivity|].
      exists (qabs (vg k) + B)%Qc. intros S. rewrite sum_if_cons. eapply Qcle_trans; [apply qabs_triangle|]. specialize (IH S). pose proof (qabs_nonneg (vg k)).
      destruct (S k); [qlra|]. rewrite qabs_zq. change (zq (Z.abs 0)) with (zq 0). rewrite zq_0. qlra. }
    apply (grow_total U lam mi guest hosts vg vh vg vh (fun x => x) Ok 0%Qc 0%Qc) with (e := 0%Qc) (B := B); try (intros; apply Z); try assumption; try qlra.
    - intros x _. eauto.
    - eauto.
  Qed.
End Plain.

(** ** Paillier ciphertexts *)
(** The encrypted table of (g, h), one fresh nonce for each number (strict mode). *)
Definition enc_table {K} `{EqDecision K} (n : Z) (rg rh : K -> Z) (gh : dtable K (Qc * Qc)) : res (dtable K (cell * cell)) :=
  dt_map (fun k c => x ← pk_encrypt n (PyFloat c.1) None None (rg k); y ← pk_encrypt n (PyFloat c.2) None None (rh k); Ok (CEnc x, CEnc y)) gh.
Definition pdec (sk : privkey) (c : cell) : res Qc := v ← sk_decrypt sk c; Ok (FixedPointModel.num v).
Definition pgenc (n : Z) (r : nat -> nat -> Z) (i nid : nat) (x : Qc) : res enum := pk_encrypt n (PyFloat x) None None (r i nid).
(** What an encrypted gain comes back as; outside the range of a safe encoding nothing is claimed. *)
Definition prt (n : Z) (x : Qc) : res Qc := if qleb (qabs x) (zq (2 ^ 29)) then Ok (leaf_value n x) else Err ValueError.

Section sk.
Local Open Scope Z_scope.
Variable sk : privkey.
Hypothesis G : good_sk sk.
Local Notation n := (sk_n sk).
Hypothesis Hbig : 2 ^ 1000 <= n.

Lemma leaf_near x : (qabs x <= 1)%Qc -> (qabs (leaf_value n x - x) <= p2 (-49))%Qc.
Proof.
  intros Hx. destruct (encode_float_me sk G Hbig x None) as (f & w & F1 & (m & Hm & Ew) & F3 & F4); [|exact I|].
  { eapply Qcle_trans; [exact Hx|]. rewrite <- zq_1. apply zq_le. lia. }
  pose proof tiny_small as TS. change (p2 (-60)) with (Q2Qc (1 # 1152921504606846976)) in TS. change (p2 (-50)) with (Q2Qc (1 # 1125899906842624)) in F4.
  assert (AB : (qabs w <= 1 + 1)%Qc).
  { replace w with ((w - x) + x)%Qc by ring. eapply Qcle_trans; [apply qabs_triangle|]. qlra. }
  assert (exists v, fp_decode f = Ok v /\ (FixedPointModel.num v = w \/ FixedPointModel.num v = fround w)) as (v & Hv & Nv).
  { rewrite (fp_decode_mant f m Hm). destruct (decode_value m (fp_exp f) w Ew) as [D1 D2].
    destruct (Z_le_gt_dec (fp_exp f) 0) as [L|L].
    - destruct (D1 L) as (z & -> & Hz). eexists. split; [reflexivity|]. left. exact Hz.
    - rewrite (D2 ltac:(lia)). destruct (Z.leb_spec float_limit (Z.abs m)) as [C|C]; [exfalso|eexists; split; [reflexivity|]; right; reflexivity].
      assert (C2 : (qabs w <= zq (2 ^ 30))%Qc) by (eapply Qcle_trans; [exact AB|]; change (zq (2 ^ 30)) with (Q2Qc (1073741824 # 1)); qlra). rewrite Ew, qabs_mul, qabs_zq, qabs_p2 in C2.
      assert (C3 : (zq (Z.abs m) <= zq (2 ^ 30) * p2 (4 * fp_exp f))%Qc).
      { replace (zq (Z.abs m)) with (zq (Z.abs m) * p2 (- (4 * fp_exp f)) * p2 (4 * fp_exp f))%Qc.
        - pose proof (p2_pos (4 * fp_exp f)). qnra.
        - rewrite <- Qcmult_assoc, p2_sub_add. replace (- (4 * fp_exp f) + 4 * fp_exp f) with 0 by lia. rewrite p2_0. ring. }
      assert (C4 : (zq (Z.abs m) <= zq (2 ^ 30 * 2 ^ 716))%Qc).
      { eapply Qcle_trans; [exact C3|]. rewrite zq_mul. assert (P : (p2 (4 * fp_exp f) <= zq (2 ^ 716))%Qc).
        { change (2 ^ 716) with (2 ^ 716)%Z; rewrite <- (p2_nonneg 716) by lia. apply p2_le. lia. }
        assert (PP : (zq 0 <= zq (2 ^ 30))%Qc) by (vm_compute; discriminate). rewrite zq_0 in PP. qnra. }
      rewrite zq_le in C4. assert (2 ^ 30 * 2 ^ 716 < float_limit) by reflexivity. apply (Z.lt_irrefl float_limit). eapply Z.le_lt_trans; [exact C|]. eapply Z.le_lt_trans; [exact C4|assumption]. }
  unfold leaf_value. rewrite F1, Hv. change (p2 (-49)) with (Q2Qc (1 # 562949953421312)).
  destruct Nv as [->| ->]; [qlra|]. pose proof (fround_err w) as FE. change (p2 (-53)) with (Q2Qc (1 # 9007199254740992)) in FE.
  apply qabs_le in FE, F4, AB, Hx. pose proof (qabs_nonneg w). pose proof (qabs_nonneg x).
  assert ((qabs w <= 1 + 1)%Qc) by (apply qabs_le; exact AB). assert ((qabs x <= 1)%Qc) by (apply qabs_le; exact Hx). apply qabs_le. split; qlra.
Qed.

Lemma sum_near {K} (U : list K) (v : K -> Qc) (L : K -> bool) : (forall k, k ∈ U -> (qabs (v k) <= 1)%Qc) ->
  (qabs (fround (sum_if L (fun k => leaf_value n (v k)) U) - sum_if L v U) <= zq (Z.of_nat (length U)) * p2 (-48))%Qc.
Proof.
  intros V. set (s := sum_if L (fun k => leaf_value n (v k)) U).
  assert (E : (qabs (s - sum_if L v U) <= zq (Z.of_nat (length U)) * p2 (-49))%Qc).
  { unfold s. clear s. induction U as [|x U IH].
    - rewrite !sum_if_nil, zq_0. change (zq (Z.of_nat (length (@nil K)))) with (zq 0). rewrite zq_0. apply qabs_le. split; qlra.
    - rewrite !sum_if_cons. cbn [length]. rewrite Nat2Z.inj_succ, <- Z.add_1_l, zq_add, zq_1.
      specialize (IH (fun k Hk => V k (elem_of_list_further _ _ _ Hk))).
      assert (X : (qabs ((if L x then leaf_value n (v x) else zq 0) - (if L x then v x else zq 0)) <= p2 (-49))%Qc).
      { destruct (L x); [apply leaf_near, V; left|]. pose proof (p2_pos (-49)). apply qabs_le. rewrite zq_0. split; qlra. }
      apply qabs_le in IH, X. apply qabs_le. split; qlra. }
  pose proof (sum_if_abs L v U V) as AB. pose proof (fround_err s) as FE.
  change (p2 (-53)) with (Q2Qc (1 # 9007199254740992)) in FE. change (p2 (-49)) with (Q2Qc (1 # 562949953421312)) in E. change (p2 (-48)) with (Q2Qc (1 # 281474976710656)).
  assert (AS : (qabs s <= zq (Z.of_nat (length U)) * (1 + 1))%Qc).
  { replace s with ((s - sum_if L v U) + sum_if L v U)%Qc by ring. eapply Qcle_trans; [apply qabs_triangle|].
    assert ((0 <= zq (Z.of_nat (length U)))%Qc) by (rewrite <- zq_0; apply zq_le; lia). qlra. }
  apply qabs_le in FE, E. apply qabs_le. pose proof (qabs_nonneg s).
  assert ((0 <= zq (Z.of_nat (length U)))%Qc) by (rewrite <- zq_0; apply zq_le; lia). split; qlra.
Qed.

Context {K : Type} `{EqDecision K} (U : list K) (nh : nat) (gcfg : pcfg K) (hcfg : nat -> pcfg K) (guest : party K) (hosts : list (party K)) (sname : nat -> site).
Context (gh : dtable K (Qc * Qc)) (vg vh : K -> Qc) (PA : parties_ok U nh gcfg hcfg guest hosts sname gh vg vh).
Context (rg rh : K -> Z) (rr : nat -> nat -> Z) (Rg : forall k, Z.gcd (rg k) n = 1) (Rh : forall k, Z.gcd (rh k) n = 1) (Rr : forall i nid, Z.gcd (rr i nid) n = 1).
Context (V : forall k, k ∈ U -> (qabs (vg k) <= 1)%Qc /\ (qabs (vh k) <= 1)%Qc).

Lemma enc_table_ok : exists ghc, enc_table n rg rh gh = Ok ghc /\ dt_wf ghc /\ (forall k, k ∈ dt_keys ghc <-> k ∈ U) /\
  forall k c, (k, c) ∈ dt_data ghc -> cell_inv sk c.1 1 (leaf_value n (vg k)) /\ cell_inv sk c.2 1 (leaf_value n (vh k)).
Proof.
  destruct (pa_gh _ _ _ _ _ _ _ _ _ _ PA) as (W & KS & GH).
  destruct (dt_map_rel (fun k c => x ← pk_encrypt n (PyFloat c.1) None None (rg k); y ← pk_encrypt n (PyFloat c.2) None None (rh k); Ok (CEnc x, CEnc y))
    (fun k _ c => cell_inv sk c.1 1 (leaf_value n (vg k)) /\ cell_inv sk c.2 1 (leaf_value n (vh k))) gh W) as (t & Et & Wt & Kt & Gt).
  { intros k c Hc. assert (Hk : k ∈ U) by (apply KS; eapply tget_key; eauto). apply tget_elem in Hc; [|exact W]. rewrite (GH k c Hc). cbn [fst snd].
    destruct (V k Hk) as [Vg Vh]. rewrite <- zq_1 in Vg, Vh. destruct (fresh_cell sk G Hbig (vg k) (rg k) Vg (Rg k)) as (x & -> & Ix). destruct (fresh_cell sk G Hbig (vh k) (rh k) Vh (Rh k)) as (y & -> & Iy).
    cbn [mbind]. eexists. split; [reflexivity|]. auto. }
  exists t. split; [exact Et|]. split; [exact Wt|]. split; [intros k; rewrite Kt; apply KS|].
  intros k c Hc. apply tget_elem in Hc; [|exact Wt]. specialize (Gt k). rewrite Hc in Gt. destruct (tget gh k); [exact Gt|easy].
Qed.

(** Hosts whose cells stand for [ug], [uh]: [rep] is what is kept about the cells, and sums of rows decrypt. *)
Lemma enc_train (rep : cell -> Z -> Qc -> Prop) (ug uh : K -> Qc) ghc :
  (forall c L q, rep c L q -> 1 <= L <= 3 * Z.of_nat (length U) -> exists v, sk_decrypt sk c = Ok v /\ FixedPointModel.num v = fround q) ->
  dt_wf ghc -> (forall k, k ∈ dt_keys ghc <-> k ∈ U) ->
  (forall k c, (k, c) ∈ dt_data ghc -> rep c.1 1 (ug k) /\ rep c.2 1 (uh k)) ->
  train_ok (C := cell) (E := enum) U nh gcfg hcfg guest hosts sname gh ghc vg vh ug uh rep
    (pdec sk) (fun e => pdec sk (CEnc e)) (pgenc n rr) fround (prt n).
Proof.
  intros DC W KS GH. destruct PA as [[P1 P1'] [P2 P2'] P3 P4 [P5 P5'] P6 P7 P8 P9 P10 P11]. split; auto.
  - intros c L q Ic HL. destruct (DC c L q Ic HL) as (v & Ev & Nv). unfold pdec. rewrite Ev. cbn. now rewrite Nv.
  - intros i nid x y. unfold prt. destruct (qleb _ _) eqn:Ex; [|discriminate]. intros [= <-]. apply qleb_true in Ex.
    destruct (gain_roundtrip sk G Hbig x (rr i nid) Ex (Rr i nid)) as (e & v & Ee & Ev & Nv & _). exists e. split; [exact Ee|]. unfold pdec. rewrite Ev. cbn. now rewrite Nv.
  - intros x y. unfold prt. destruct (qleb _ _) eqn:Ex; [|discriminate]. intros [= <-]. apply qleb_true in Ex.
    destruct (gain_roundtrip sk G Hbig x (rr 0%nat 0%nat) Ex (Rr 0%nat 0%nat)) as (e & v & _ & _ & Nv & Er). rewrite Nv in Er. apply qabs_le in Er. qlra.
Qed.

Lemma paillier_train ghc : dt_wf ghc -> (forall k, k ∈ dt_keys ghc <-> k ∈ U) ->
  (forall k c, (k, c) ∈ dt_data ghc -> cell_inv sk c.1 1 (leaf_value n (vg k)) /\ cell_inv sk c.2 1 (leaf_value n (vh k))) ->
  train_ok (C := cell) (E := enum) U nh gcfg hcfg guest hosts sname gh ghc vg vh (fun k => leaf_value n (vg k)) (fun k => leaf_value n (vh k)) (cell_inv sk)
    (pdec sk) (fun e => pdec sk (CEnc e)) (pgenc n rr) fround (prt n).
Proof.
  apply enc_train. intros c L q Ic HL. pose proof (pa_size _ _ _ _ _ _ _ _ _ _ PA). exact (cell_decrypt sk G Hbig c L q Ic ltac:(lia)).
Qed.

(** The learner succeeds if the sums of the hosts' values come back within [eta] of those of the guest's. *)
Lemma enc_total (ug uh : K -> Qc) eta lam mi d : (0 < lam)%Qc -> (forall k, k ∈ U -> (0 <= vh k)%Qc) -> (0 <= eta)%Qc ->
  (forall L : K -> bool, (qabs (fround (sum_if L ug U) - sum_if L vg U) <= eta)%Qc) -> (forall L : K -> bool, (qabs (fround (sum_if L uh U) - sum_if L vh U) <= eta)%Qc) ->
  let N := zq (Z.of_nat (length U)) in let D := (zq (Z.of_nat d + 1) * eta)%Qc in
  (zq 16 * (N * N) <= lam * zq (2 ^ 29))%Qc -> (D + D <= lam)%Qc -> (D <= N)%Qc -> (qabs (mi - FLOAT_ZERO) <= zq (2 ^ 29))%Qc ->
  exists t, learn U lam mi guest hosts vg vh ug uh fround (prt n) d = Ok t /\ near U guest hosts vg vh D t (fun _ => true).
Proof.
  intros L V2 ETA HGs HHs N D HN D1 D2 HM.
  assert (N0 : (0 <= N)%Qc) by (unfold N; rewrite <- zq_0; apply zq_le; lia).
  assert (d0 : (0 <= zq (Z.of_nat d + 1))%Qc) by (rewrite <- zq_0; apply zq_le; lia).
  assert (D0 : (0 <= D)%Qc) by (unfold D; qnra).
  assert (RT : forall x, (qabs x <= (1 + 1) * ((N + D) * (N + D) / (lam - D)))%Qc -> exists y, prt n x = Ok y).
  { intros x Hx. unfold prt. assert (Y : (qabs x <= zq (2 ^ 29))%Qc); [|apply qleb_true in Y; rewrite Y; eauto].
    eapply Qcle_trans; [exact Hx|]. assert (LD : (0 < lam - D)%Qc) by qlra. set (q := ((N + D) * (N + D) / (lam - D))%Qc).
    assert (Q : (q * (lam - D) = (N + D) * (N + D))%Qc) by (unfold q; field; intros X; rewrite X in LD; qlra). clearbody q. clearbody D.
    change (zq (2 ^ 29)) with (Q2Qc (536870912 # 1)) in *. change (zq 16) with (Q2Qc (16 # 1)) in HN.
    destruct (Qclt_le_dec (Q2Qc (536870912 # 1)) ((1 + 1) * q)) as [X|X]; [exfalso|exact X].
    assert (S1 : ((N + D) * (N + D) <= Q2Qc (4 # 1) * (N * N))%Qc) by qnra.
    assert (S2 : (Q2Qc (268435456 # 1) < q)%Qc) by qlra. assert (S3 : (Q2Qc (1 # 2) * lam <= lam - D)%Qc) by qlra.
    assert (S4 : (Q2Qc (268435456 # 1) * (lam - D) < q * (lam - D))%Qc) by qnra.
    rewrite Q in S4. qlra. }
  assert (RM : exists y, prt n (mi - FLOAT_ZERO)%Qc = Ok y) by (unfold prt; apply qleb_true in HM; rewrite HM; eauto).
  assert (Z0 : forall x : Qc, (qabs (x - x) <= 0)%Qc) by (intros x; apply qabs_le; split; qlra).
  assert (V1 : forall L0 : K -> bool, (qabs (sum_if L0 vg U) <= N)%Qc) by (intros L0; apply sum_if_abs; intros k Hk; apply V, Hk).
  assert (LD : (D < lam)%Qc) by qlra.
  destruct (grow_total U lam mi guest hosts vg vh ug uh fround (prt n) eta D ETA D0 HGs HHs N V1 V2 LD RT RM d
    (fun _ => true) (sum_if (fun _ => true) vg U) (sum_if (fun _ => true) vh U) 0%Qc (Z0 _) (Z0 _)) as (t & Et).
  { unfold D. rewrite zq_add, zq_1. qlra. }
  exists t. split; [exact Et|]. apply (grow_near U lam mi guest hosts vg vh ug uh fround (prt n) eta D ETA HGs HHs d _ _ _ _ 0%Qc Et (Z0 _) (Z0 _)).
  unfold D. rewrite zq_add, zq_1. qlra.
Qed.

Lemma paillier_total lam mi d : (0 < lam)%Qc -> (forall k, k ∈ U -> (0 <= vh k)%Qc) ->
  let N := zq (Z.of_nat (length U)) in
  (zq 16 * (N * N) <= lam * zq (2 ^ 29))%Qc -> (zq (Z.of_nat d + 1) * N <= lam * zq (2 ^ 47))%Qc -> Z.of_nat d + 1 <= 2 ^ 48 -> (qabs (mi - FLOAT_ZERO) <= zq (2 ^ 29))%Qc ->
  exists t, learn U lam mi guest hosts vg vh (fun k => leaf_value n (vg k)) (fun k => leaf_value n (vh k)) fround (prt n) d = Ok t /\
    near U guest hosts vg vh (zq (Z.of_nat d + 1) * N * p2 (-48))%Qc t (fun _ => true).
Proof.
  intros L V2 N HN HD Hd HM.
  assert (N0 : (0 <= N)%Qc) by (unfold N; rewrite <- zq_0; apply zq_le; lia).
  assert (P48 : (p2 (-48) = Q2Qc (1 # 281474976710656))%Qc) by reflexivity.
  assert (ETA : (0 <= N * p2 (-48))%Qc) by (rewrite P48; qlra).
  destruct (enc_total (fun k => leaf_value n (vg k)) (fun k => leaf_value n (vh k)) (N * p2 (-48))%Qc lam mi d L V2 ETA) as (t & Et & NR); [..|exact HM|].
  - intros L0. apply sum_near. intros k Hk. apply V, Hk.
  - intros L0. apply sum_near. intros k Hk. apply V, Hk.
  - exact HN.
  - rewrite P48. change (zq (2 ^ 47)) with (Q2Qc (140737488355328 # 1)) in HD. qlra.
  - fold N. rewrite P48. assert (X : (zq (Z.of_nat d + 1) <= zq (2 ^ 48))%Qc) by (apply zq_le; exact Hd). change (zq (2 ^ 48)) with (Q2Qc (281474976710656 # 1)) in X.
    assert ((zq (Z.of_nat d + 1) * N <= Q2Qc (281474976710656 # 1) * N)%Qc) by qnra. qlra.
  - exists t. split; [exact Et|]. now rewrite <- Qcmult_assoc.
Qed.
End sk.
