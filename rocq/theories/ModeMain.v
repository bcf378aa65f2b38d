(** Boosting with the encryption calculator in any mode. *)
From Verif Require Export BoostMain ModeModel.
From Verif Require Import EncryptModeProofs EncryptModeSpec.
Local Open Scope nat_scope.

(** ** How long ago the gradients were encrypted anew *)
(** [age mode rate u j s]: before tree [j], the last tree whose gradients were encrypted anew is [j - s]. *)
Inductive age (mode : em_mode) (rate : Qc) (u : nat -> Qc) : nat -> nat -> Prop :=
| age_first : age mode rate u 0 0
| age_full j : em_full mode rate (u (S j)) -> age mode rate u (S j) 0
| age_diff j s : age mode rate u j s -> ~ em_full mode rate (u (S j)) -> age mode rate u (S j) (S s).

Lemma age_le mode rate u j s : age mode rate u j s -> s <= j.
Proof. induction 1; lia. Qed.

Lemma choose {K} `{EqDecision K} (U : list K) (P : K -> Qc -> Prop) : (forall k, k ∈ U -> exists w, P k w) -> exists f, forall k, k ∈ U -> P k (f k).
Proof.
  induction U as [|k U IH]; intros H; [exists (fun _ => 0%Qc); intros k Hk; apply elem_of_nil in Hk as []|].
  destruct IH as (f & Hf); [intros k' Hk; apply H; now right|]. destruct (H k) as (w & Hw); [left|].
  exists (fun k' => if decide (k' = k) then w else f k'). intros k' Hk. destruct (decide (k' = k)) as [->|NE]; [exact Hw|].
  apply Hf. apply elem_of_cons in Hk as [?|?]; [contradiction|assumption].
Qed.

Section sk.
Local Open Scope Z_scope.
Variable sk : privkey.
Hypothesis G : good_sk sk.
Local Notation n := (sk_n sk).
Hypothesis Hbig : 2 ^ 1000 <= n.

(** Cells of numbers that may have drifted above 1. *)
Definition loose_inv (c : cell) (L : Z) (q : Qc) : Prop := cell_inv sk c (2 * L) q.

Lemma loose_laws : numlaws pops loose_inv.
Proof.
  destruct (pops_laws sk G Hbig) as [Z A S]. constructor.
  - exact Z.
  - intros x y L L' a b Hx Hy. unfold loose_inv. rewrite Z.mul_add_distr_l. exact (A x y _ _ a b Hx Hy).
  - intros x y L L' a b Hx Hy. unfold loose_inv. rewrite Z.mul_add_distr_l. exact (S x y _ _ a b Hx Hy).
Qed.

Lemma drift_1 s : drift 1 s = (zq (Z.of_nat s + 1) * p2 (-47))%Qc.
Proof. unfold drift. rewrite zq_1. ring. Qed.

Lemma loose_cell s c q : Z.of_nat s <= 2 ^ 40 -> (qabs q <= 1)%Qc -> float_D sk 1 s c q ->
  exists w, loose_inv (CEnc c) 1 w /\ (qabs (w - q) <= zq (Z.of_nat s + 1) * p2 (-47))%Qc.
Proof.
  intros Hs Hq (He & w & (M & _ & HM & Ew) & HD). rewrite drift_1 in HD. exists w. split; [|exact HD]. split; [exact He|]. split; [lia|].
  exists M. split; [exact HM|]. split; [|exact Ew].
  assert (X : (zq (Z.of_nat s + 1) <= zq (2 ^ 41))%Qc) by (apply zq_le; lia). change (zq (2 ^ 41)) with (Q2Qc (2199023255552 # 1)) in X. rewrite p2_m47 in HD.
  assert (W : (qabs w <= zq 2)%Qc).
  { replace w with ((w - q) + q)%Qc by ring. eapply Qcle_trans; [apply qabs_triangle|]. change (zq 2) with (Q2Qc (2 # 1)). qlra. }
  rewrite Ew, qabs_mul, qabs_zq, qabs_p2 in W. apply zq_le. rewrite Z.mul_1_r, zq_mul.
  assert (P16 : zq (16 ^ en_exp c) = p2 (4 * en_exp c)) by (rewrite p2_nonneg by lia; f_equal; rewrite Z.pow_mul_r by lia; reflexivity).
  rewrite P16. replace (zq (Z.abs M)) with (zq (Z.abs M) * p2 (- (4 * en_exp c)) * p2 (4 * en_exp c))%Qc.
  - pose proof (p2_pos (4 * en_exp c)). qnra.
  - rewrite <- Qcmult_assoc, p2_sub_add. replace (- (4 * en_exp c) + 4 * en_exp c) with 0 by lia. rewrite p2_0. ring.
Qed.

(** Sums of drifted values. *)
Lemma drift_sum {K} (U : list K) (v w : K -> Qc) (J : Z) (L : K -> bool) : 1 <= J <= 2 ^ 40 -> (forall k, k ∈ U -> (qabs (v k) <= 1)%Qc /\ (qabs (w k - v k) <= zq J * p2 (-47))%Qc) ->
  (qabs (fround (sum_if L w U) - sum_if L v U) <= zq (Z.of_nat (length U)) * (zq (J + 1) * p2 (-47)))%Qc.
Proof.
  intros HJ V. set (s := sum_if L w U). set (e := (zq J * p2 (-47))%Qc).
  assert (J1 : (zq 1 <= zq J)%Qc) by (apply zq_le; lia). assert (J2 : (zq J <= zq (2 ^ 40))%Qc) by (apply zq_le; lia).
  change (zq 1) with (Q2Qc (1 # 1)) in J1. change (zq (2 ^ 40)) with (Q2Qc (1099511627776 # 1)) in J2.
  assert (e0 : (0 <= e)%Qc) by (unfold e; rewrite p2_m47; qlra). assert (e1 : (e <= 1)%Qc) by (unfold e; rewrite p2_m47; qlra).
  assert (E : (qabs (s - sum_if L v U) <= zq (Z.of_nat (length U)) * e)%Qc).
  { unfold s. clear s. induction U as [|x U IH].
    - rewrite !sum_if_nil, zq_0. change (zq (Z.of_nat (length (@nil K)))) with (zq 0). rewrite zq_0. apply qabs_le. split; qlra.
    - rewrite !sum_if_cons. cbn [length]. rewrite Nat2Z.inj_succ, <- Z.add_1_l, zq_add, zq_1.
      specialize (IH (fun k Hk => V k (elem_of_list_further _ _ _ Hk))).
      assert (X : (qabs ((if L x then w x else zq 0) - (if L x then v x else zq 0)) <= e)%Qc).
      { destruct (L x); [apply V; left|]. apply qabs_le. rewrite zq_0. split; qlra. }
      apply qabs_le in IH, X. apply qabs_le. split; qlra. }
  pose proof (sum_if_abs L v U (fun k Hk => proj1 (V k Hk))) as AB. pose proof (fround_err s) as FE.
  assert (N0 : (0 <= zq (Z.of_nat (length U)))%Qc) by (rewrite <- zq_0; apply zq_le; lia).
  assert (AS : (qabs s <= zq (Z.of_nat (length U)) * (1 + 1))%Qc).
  { replace s with ((s - sum_if L v U) + sum_if L v U)%Qc by ring. eapply Qcle_trans; [apply qabs_triangle|].
    assert ((zq (Z.of_nat (length U)) * e <= zq (Z.of_nat (length U)) * 1)%Qc) by (clear -N0 e1; qnra). qlra. }
  change (p2 (-53)) with (Q2Qc (1 # 9007199254740992)) in FE.
  assert (EQ : (zq (Z.of_nat (length U)) * (zq (J + 1) * p2 (-47)) = zq (Z.of_nat (length U)) * e + zq (Z.of_nat (length U)) * p2 (-47))%Qc) by (unfold e; rewrite zq_add, zq_1; ring).
  rewrite EQ. rewrite p2_m47. clearbody e s. apply qabs_le in FE, E. apply qabs_le. pose proof (qabs_nonneg s).
  set (Ne := (zq (Z.of_nat (length U)) * e)%Qc) in *. split; qlra.
Qed.
End sk.

(** ** Training *)
Section Train.
  Context {K : Type} `{EqDecision K} (rnd : Qc -> Qc) (pred : loss_kind -> list Qc -> list Qc) (lossf : loss_kind -> dtable K nat -> dtable K (list Qc) -> Qc).
  Context (U : list K) (nh : nat) (gcfg : pcfg K) (hcfg : nat -> pcfg K) (guest : party K) (hosts : list (party K)) (sname : nat -> site) (it : imp_type) (Hit : it <> IOther).
  Context (P : bparams) (kind : loss_kind) (dim : nat) (y : dtable K nat) (lab : K -> nat).
  Context (gdraw : nat -> nat -> nat -> list nat) (hdraw : nat -> nat -> nat -> nat -> list nat) (d : nat).
  Context (RD : ready rnd pred U nh gcfg hcfg guest hosts sname P kind dim y lab gdraw hdraw d).
  Context (sk : privkey) (fresh : nat -> K -> nat -> Z) (rr : nat -> nat -> nat -> Z) (mode : em_mode) (rate : Qc) (u : nat -> Qc).
  Local Notation lam := (reg_lambda (c_par gcfg)).
  Local Notation mi := (min_impurity (c_par gcfg)).
  Local Notation n := (sk_n sk).
  Local Notation guestj j := (with_valid guest (gvalid gcfg P gdraw j)).
  Local Notation hostsj j := (hosts_with hosts (hvalid hcfg P hdraw j)).
  Local Notation result := (nat * list tree_pb)%type.
  Local Notation trees := (b_rounds P * dim).
  Local Notation calc := (gh_calc n fresh mode rate u).

  (** The parties at the start of training with a calculator in the given mode. *)
  Definition mode_train_sys : sys (msg K cell enum) (@bstate K) result :=
    sysof nh (guest_train_from rnd pred lossf nh P gcfg it kind dim y gdraw calc (pdec sk) (fun e => pdec sk (CEnc e)) (fun j => pgenc n (rr j)) None Ret)
      (fun i => host_train pops (sname i) P (hcfg i) (hdraw i) Ret).

  (** Tree [j] is learnt from gradients whose values on the hosts are off by what [s] additions of differences may bring. *)
  Definition by_drift (j : nat) (vg vh : K -> Qc) (t : dtree) : Prop :=
    exists s ug uh, age mode rate u j s /\
      (forall k, k ∈ U -> (qabs (ug k - vg k) <= zq (Z.of_nat s + 1) * p2 (-47))%Qc /\ (qabs (uh k - vh k) <= zq (Z.of_nat s + 1) * p2 (-47))%Qc) /\
      learn U lam mi (guestj j) (hostsj j) vg vh ug uh fround (prt n) d = Ok t.

  Context (G : good_sk sk) (Hbig : (2 ^ 1000 <= n)%Z) (Hf : forall a b c, Z.gcd (fresh a b c) n = 1%Z) (Rr : forall j i nid, Z.gcd (rr j i nid) n = 1%Z).
  Local Notation N := (zq (Z.of_nat (length U))).
  Context (HN : (zq 16 * (N * N) <= lam * zq (2 ^ 29))%Qc) (HD : (zq ((Z.of_nat d + 1) * (Z.of_nat trees + 1)) * N <= lam * zq (2 ^ 46))%Qc)
    (HJ : ((Z.of_nat d + 1) * (Z.of_nat trees + 1) <= 2 ^ 40)%Z) (HU : (6 * Z.of_nat (length U) <= 2 ^ 53)%Z) (HM : (qabs (mi - FLOAT_ZERO) <= zq (2 ^ 29))%Qc).

  Local Notation sok D := (st_ok (float_valid 1) D (fun _ : K => Some 2)).
  Lemma calc_step (D : nat -> enum -> Qc -> Prop) (M j : nat) x e gs vg vh :
    (forall call (k : K) i p, float_valid 1 p -> exists c, pe_enc_float n fresh call k i p = Ok c /\ D 0 c p) ->
    (forall s c p q, s < M -> float_valid 1 p -> float_valid 1 q -> D s c q -> exists c', pe_add_float (float_sub p q) c = Ok c' /\ D (S s) c' p) ->
    sok D x e -> (~ em_full mode rate (u j) -> match e with Some (s, _) => S s | None => 0 end <= M) ->
    dt_wf gs -> (forall k, k ∈ dt_keys gs <-> k ∈ U) -> (forall k c, (k, c) ∈ dt_data gs -> c = (vg k, vh k)) ->
    (forall k, k ∈ U -> (qabs (vg k) <= 1)%Qc /\ (qabs (vh k) <= 1)%Qc) ->
    exists x' ghc s Q, calc j x gs = Ok (x', ghc) /\ sok D x' (Some (s, Q)) /\
      ((e = None \/ em_full mode rate (u j)) /\ s = 0 /\ (forall k, Q k <-> k ∈ U) \/ exists s0 Q0, e = Some (s0, Q0) /\ ~ em_full mode rate (u j) /\ s = S s0 /\ forall k, Q k <-> k ∈ U /\ Q0 k) /\
      dt_wf ghc /\ (forall k, k ∈ dt_keys ghc <-> Q k) /\
      forall k c, tget ghc k = Some c -> k ∈ U /\ exists g h, c = (CEnc g, CEnc h) /\ D s g (vg k) /\ D s h (vh k).
  Proof.
    intros EK AK SO LE W KS V B.
    destruct (dt_mapValues_rel (fun c => Ok (gh_row c)) (fun k c r => r = RSeq [vg k; vh k]) gs W) as (t & Et & Wt & Kt & Gt).
    { intros k c Hc. eexists. split; [reflexivity|]. apply tget_elem in Hc; [|exact W]. now rewrite (V k c Hc). }
    assert (GT : forall k r, tget t k = Some r -> k ∈ U /\ r = RSeq [vg k; vh k]).
    { intros k r Hr. specialize (Gt k). rewrite Hr in Gt. destruct (tget gs k) as [c|] eqn:Ec; [|contradiction]. split; [|exact Gt]. apply KS. eapply tget_key; eauto. }
    assert (KT : forall k, k ∈ dt_keys t <-> k ∈ U) by (intros k; rewrite Kt; apply KS).
    destruct (em_step (pe_enc_float n fresh) float_sub pe_add_float (float_valid 1) D M (fun _ : K => Some 2) EK AK mode rate j (u j) x e t SO Wt) as ([s Q] & out & x' & Eo & Wo & SO' & [KO RO] & CH & _); [|exact LE|].
    { intros k r Hr. destruct (GT k r Hr) as [Hk ->]. split; [reflexivity|]. cbn. unfold float_valid. rewrite zq_1. destruct (B k Hk). auto. }
    cbn [fst snd] in KO, RO.
    assert (RW : forall k r, tget out k = Some r -> k ∈ U /\ exists g h, r = RSeq [g; h] /\ D s g (vg k) /\ D s h (vh k)).
    { intros k r Hr. destruct (RO k r Hr) as (p & Hp & [SH F2]). destruct (GT k p Hp) as [Hk ->]. split; [exact Hk|]. destruct r as [l|v]; [|discriminate].
      cbn in F2. inversion F2 as [|g ? l1 ? D1 F3]; subst. inversion F3 as [|h ? l2 ? D2 F4]; subst. inversion F4; subst. eauto. }
    destruct (dt_mapValues_rel gh_cells (fun k r c => exists g h, c = (CEnc g, CEnc h) /\ D s g (vg k) /\ D s h (vh k)) out Wo) as (ghc & Eg & Wg & Kg & Gg).
    { intros k r Hr. destruct (RW k r Hr) as (_ & g & h & -> & D1 & D2). eexists. split; [reflexivity|]. exists g, h. auto. }
    exists x', ghc, s, Q. split; [unfold gh_calc; rewrite Et; cbn [mbind res_bind]; rewrite Eo; cbn [mbind res_bind fst snd]; now rewrite Eg|].
    split; [exact SO'|]. split; [|split; [exact Wg|split; [intros k; rewrite Kg; apply KO|]]].
    - destruct CH as [[C1 [= -> ->]]|(s0 & Q0 & -> & NF & [= -> ->])]; [left; auto|right]. exists s0, Q0. split; [reflexivity|]. split; [exact NF|]. split; [reflexivity|]. intros k. now rewrite KT.
    - intros k c Hc. specialize (Gg k). rewrite Hc in Gg. destruct (tget out k) as [r|] eqn:Er; [|contradiction]. split; [apply (RW k r Er)|exact Gg].
  Qed.

  Definition calc_inv (j : nat) (x : @em_state K Qc enum) : Prop :=
    match j with O => x = None | S i => exists s Q, age mode rate u i s /\ sok (float_D sk 1) x (Some (s, Q)) /\ forall k, Q k <-> k ∈ U end.

  Lemma calc_ok j x gs vg vh : j < trees -> calc_inv j x -> dt_wf gs -> (forall k, k ∈ dt_keys gs <-> k ∈ U) -> (forall k c, (k, c) ∈ dt_data gs -> c = (vg k, vh k)) ->
    (forall k, k ∈ U -> (qabs (vg k) <= 1)%Qc /\ (qabs (vh k) <= 1)%Qc) ->
    exists x' ghc s ug uh, calc j x gs = Ok (x', ghc) /\ calc_inv (S j) x' /\ age mode rate u j s /\ dt_wf ghc /\ (forall k, k ∈ dt_keys ghc <-> k ∈ U) /\
      (forall k c, (k, c) ∈ dt_data ghc -> loose_inv sk c.1 1 (ug k) /\ loose_inv sk c.2 1 (uh k)) /\
      forall k, k ∈ U -> (qabs (ug k - vg k) <= zq (Z.of_nat s + 1) * p2 (-47))%Qc /\ (qabs (uh k - vh k) <= zq (Z.of_nat s + 1) * p2 (-47))%Qc.
  Proof.
    intros Hj Ix W KS V B.
    assert (TJ : (Z.of_nat trees <= 2 ^ 40)%Z) by nia.
    assert (exists e, sok (float_D sk 1) x e /\ (match e with Some (s, _) => S s | None => 0 end) <= trees /\
      (e = None /\ j = 0 \/ exists i s Q, e = Some (s, Q) /\ j = S i /\ age mode rate u i s /\ forall k, Q k <-> k ∈ U)) as (e & SO & LE & SE).
    { destruct j as [|i]; cbn [calc_inv] in Ix.
      - subst x. exists None. split; [exact Logic.I|]. split; [lia|]. now left.
      - destruct Ix as (s & Q & A & SO & HQ). exists (Some (s, Q)). split; [exact SO|]. pose proof (age_le _ _ _ _ _ A). split; [lia|]. right. exists i, s, Q. auto. }
    destruct (calc_step (float_D sk 1) trees j x e gs vg vh (fun call k i p Hp => float_enc_ok sk G 1 ltac:(lia) Hbig fresh call k i p Hf Hp)
      (fun s c p q Hs Hp Hq Hc => float_add_ok sk G 1 ltac:(lia) Hbig s c p q ltac:(lia) Hp Hq Hc) SO (fun _ => LE) W KS V B) as (x' & ghc & s & Q & EC & SO' & CH & Wg & KO & CELL).
    assert (AG : age mode rate u j s /\ forall k, Q k <-> k ∈ U).
    { destruct CH as [(C1 & -> & KQ)|(s0 & Q0 & -> & NF & -> & KQ)].
      - split; [|exact KQ]. destruct SE as [[_ ->]|(i & s0 & Q0 & -> & -> & A & _)]; [constructor|]. destruct C1 as [C1|C1]; [discriminate|]. now constructor.
      - destruct SE as [[X _]|(i & s1 & Q1 & [= <- <-] & -> & A & HQ)]; [discriminate|]. split; [now constructor|]. intros k. rewrite KQ, HQ. tauto. }
    destruct AG as [AG KQ]. pose proof (age_le _ _ _ _ _ AG) as AL.
    assert (HK : forall k, k ∈ dt_keys ghc <-> k ∈ U) by (intros k; rewrite KO; apply KQ).
    assert (BD : forall (pr : cell * cell -> cell) (v : K -> Qc), (forall k c, tget ghc k = Some c -> exists g, pr c = CEnc g /\ float_D sk 1 s g (v k)) -> (forall k, k ∈ U -> (qabs (v k) <= 1)%Qc) ->
      exists w, forall k, k ∈ U -> (forall c, tget ghc k = Some c -> loose_inv sk (pr c) 1 (w k)) /\ (qabs (w k - v k) <= zq (Z.of_nat s + 1) * p2 (-47))%Qc).
    { intros pr v HC HB. apply (choose U (fun k w => (forall c, tget ghc k = Some c -> loose_inv sk (pr c) 1 w) /\ (qabs (w - v k) <= zq (Z.of_nat s + 1) * p2 (-47))%Qc)).
      intros k Hk. pose proof (proj2 (HK k) Hk) as HS. apply tget_is_Some in HS as (c & Hc). destruct (HC k c Hc) as (g & Eg' & Dg).
      destruct (loose_cell sk s g (v k) ltac:(lia) (HB k Hk) Dg) as (w & LW & NW). exists w. split; [|exact NW]. intros c' Hc'. assert (c' = c) as -> by congruence. now rewrite Eg'. }
    destruct (BD fst vg) as (ug & Hg); [intros k c Hc; destruct (CELL k c Hc) as (_ & g & h & -> & D1 & D2); eauto|apply B|].
    destruct (BD snd vh) as (uh & Hh); [intros k c Hc; destruct (CELL k c Hc) as (_ & g & h & -> & D1 & D2); eauto|apply B|].
    exists x', ghc, s, ug, uh. split; [exact EC|].
    split; [exists s, Q; auto|]. split; [exact AG|]. split; [exact Wg|]. split; [exact HK|]. split.
    - intros k c Hc. apply tget_elem in Hc; [|exact Wg]. destruct (CELL k c Hc) as [Hk _]. split; [now apply (Hg k Hk)|now apply (Hh k Hk)].
    - intros k Hk. split; [apply (Hg k Hk)|apply (Hh k Hk)].
  Qed.

  (** Strict mode: the gradients of every tree are encrypted anew, so the hosts work on the encoded values themselves. *)
  Lemma strict_ok j x gs vg vh : mode = MStrict -> (exists e, sok (fun _ c q => cell_inv sk (CEnc c) 1 (leaf_value n q)) x e) -> dt_wf gs -> (forall k, k ∈ dt_keys gs <-> k ∈ U) ->
    (forall k c, (k, c) ∈ dt_data gs -> c = (vg k, vh k)) -> (forall k, k ∈ U -> (qabs (vg k) <= 1)%Qc /\ (qabs (vh k) <= 1)%Qc) ->
    exists x' ghc, calc j x gs = Ok (x', ghc) /\ (exists e, sok (fun _ c q => cell_inv sk (CEnc c) 1 (leaf_value n q)) x' e) /\ dt_wf ghc /\ (forall k, k ∈ dt_keys ghc <-> k ∈ U) /\
      forall k c, (k, c) ∈ dt_data ghc -> cell_inv sk c.1 1 (leaf_value n (vg k)) /\ cell_inv sk c.2 1 (leaf_value n (vh k)).
  Proof.
    intros EM (e & SO) W KS V B.
    destruct (calc_step (fun _ c q => cell_inv sk (CEnc c) 1 (leaf_value n q)) 0 j x e gs vg vh) as (x' & ghc & s & Q & EC & SO' & CH & Wg & KO & CELL); auto.
    - intros call k i p Hp. destruct (fresh_cell sk G Hbig p (fresh call k i) Hp (Hf call k i)) as (c & Ec & Ic). exists c. auto.
    - intros s c p q Hs. lia.
    - rewrite EM. intros X. now destruct X.
    - exists x', ghc. split; [exact EC|]. split; [eauto|]. split; [exact Wg|]. split.
      + intros k. rewrite KO. destruct CH as [(_ & _ & KQ)|(s0 & Q0 & _ & NF & _)]; [apply KQ|]. rewrite EM in NF. now destruct NF.
      + intros k c Hc. apply tget_elem in Hc; [|exact Wg]. destruct (CELL k c Hc) as (_ & g & h & -> & D1 & D2). auto.
  Qed.

  Lemma mode_trained_runs {R S} : exists T st ht,
    @runs (msg K cell enum) R S nh _ _ (guest_train_from rnd pred lossf nh P gcfg it kind dim y gdraw calc (pdec sk) (fun e => pdec sk (CEnc e)) (fun j => pgenc n (rr j)) None)
      (fun i => host_train pops (sname i) P (hcfg i) (hdraw i)) st (fun i => (dim, ht i)) /\
    trained rnd pred lossf U nh gcfg hcfg guest hosts sname it P kind dim y lab d by_drift T st (map (fun i => (dim, ht i)) (seq 0 nh)).
  Proof.
    destruct (rd_parties _ _ _ _ _ _ _ _ _ _ _ _ _ _ _ _ _ RD) as (gh0 & vg0 & vh0 & PA0). destruct (rd_depth _ _ _ _ _ _ _ _ _ _ _ _ _ _ _ _ _ RD) as [ED D30].
    pose proof (gvalid_ok _ _ _ _ _ _ _ _ _ _ _ _ _ _ _ _ _ RD) as GV. pose proof (hvalid_ok _ _ _ _ _ _ _ _ _ _ _ _ _ _ _ _ _ RD) as HV.
    destruct (train_from_ok (R := R) (S := S) rnd pred lossf U nh gcfg hcfg guest hosts sname it P kind dim y lab gdraw hdraw calc (pdec sk) (fun e => pdec sk (CEnc e))
      (fun j => pgenc n (rr j)) pops calc_inv (gvalid gcfg P gdraw) (fun i j => hvalid hcfg P hdraw j i)
      (good_tree U nh gcfg hcfg guest hosts d by_drift) (rd_dim _ _ _ _ _ _ _ _ _ _ _ _ _ _ _ _ _ RD) (rd_labels _ _ _ _ _ _ _ _ _ _ _ _ _ _ _ _ _ RD) (rd_y _ _ _ _ _ _ _ _ _ _ _ _ _ _ _ _ _ RD)
      (rd_pred _ _ _ _ _ _ _ _ _ _ _ _ _ _ _ _ _ RD) (rd_rnd _ _ _ _ _ _ _ _ _ _ _ _ _ _ _ _ _ RD)
      (fun j => proj1 (GV j)) (fun i j Hi => proj1 (HV i j Hi))) with (x0 := @None (dtable K (row Qc) * dtable K (row enum))) as (T & st & ht & RU & I & LO & ST); [|reflexivity|].
    { intros j x gs vg vh Hj Ix W KS V B.
      pose proof (parties_with U nh gcfg hcfg guest hosts sname (gvalid gcfg P gdraw j) (hvalid hcfg P hdraw j) _ _ _ gs vg vh PA0 (proj2 (GV j)) (fun i Hi => proj2 (HV i j Hi)) W KS V) as PA.
      assert (VB : forall k, k ∈ U -> (qabs (vg k) <= 1)%Qc /\ (qabs (vh k) <= 1)%Qc).
      { intros k Hk. destruct (B k Hk) as (A & B' & D). split; [exact A|]. apply qabs_le. split; qlra. }
      destruct (calc_ok j x gs vg vh Hj Ix W KS V VB) as (x' & ghc & s & ug & uh & EC & Ix' & AG & Wg & Kg & CI & NE1). pose proof (age_le _ _ _ _ _ AG) as AL.
      assert (P47 : (p2 (-47) = Q2Qc (1 # 140737488355328))%Qc) by reflexivity.
      set (J := Z.of_nat trees). assert (J1 : (1 <= J <= 2 ^ 40)%Z) by (unfold J; nia).
      assert (SJ : (zq (Z.of_nat s + 1) * p2 (-47) <= zq J * p2 (-47))%Qc).
      { assert (X : (zq (Z.of_nat s + 1) <= zq J)%Qc) by (apply zq_le; unfold J; lia). rewrite P47. qlra. }
      assert (N0 : (0 <= N)%Qc) by (rewrite <- zq_0; apply zq_le; lia). set (eta := (N * (zq (J + 1) * p2 (-47)))%Qc).
      assert (Jp : (0 <= zq (J + 1))%Qc) by (rewrite <- zq_0; apply zq_le; lia).
      assert (ETA : (0 <= eta)%Qc) by (unfold eta; rewrite P47; assert ((0 <= N * zq (J + 1))%Qc) by qnra; qlra).
      assert (DE : (zq (Z.of_nat d + 1) * eta = zq ((Z.of_nat d + 1) * (J + 1)) * N * p2 (-47))%Qc) by (unfold eta; rewrite zq_mul; ring).
      destruct (enc_total sk U (guestj j) (hostsj j) vg vh VB ug uh eta lam mi d (rd_lambda _ _ _ _ _ _ _ _ _ _ _ _ _ _ _ _ _ RD) (fun k Hk => proj1 (proj2 (B k Hk))) ETA) as (t & Et & _); [..|exact HM|].
      { intros L. apply (drift_sum U vg ug J L J1). intros k Hk. split; [apply VB, Hk|]. eapply Qcle_trans; [apply (NE1 k Hk)|exact SJ]. }
      { intros L. apply (drift_sum U vh uh J L J1). intros k Hk. split; [apply VB, Hk|]. eapply Qcle_trans; [apply (NE1 k Hk)|exact SJ]. }
      { exact HN. }
      { rewrite DE, P47. change (zq (2 ^ 46)) with (Q2Qc (70368744177664 # 1)) in HD. fold J in HD. qlra. }
      { rewrite DE, P47. assert (X : (zq ((Z.of_nat d + 1) * (J + 1)) <= zq (2 ^ 40))%Qc) by (apply zq_le; exact HJ). change (zq (2 ^ 40)) with (Q2Qc (1099511627776 # 1)) in X.
        assert ((zq ((Z.of_nat d + 1) * (J + 1)) * N <= Q2Qc (1099511627776 # 1) * N)%Qc) by qnra. qlra. }
      destruct (pa_rows _ _ _ _ _ _ _ _ _ _ PA) as [ND NE].
      assert (DC : forall c L q, loose_inv sk c L q -> (1 <= L <= 3 * Z.of_nat (length U))%Z -> exists v, sk_decrypt sk c = Ok v /\ FixedPointModel.num v = fround q).
      { intros c L q Ic HL. exact (cell_decrypt sk G Hbig c (2 * L) q Ic ltac:(lia)). }
      destruct (fit_ok (R := R) (S := S) U ND nh _ _ (guestj j) (hostsj j) sname gs ghc vg vh _ _ pops _ (loose_laws sk G Hbig) (pdec sk) (fun e => pdec sk (CEnc e)) (pgenc n (rr j)) fround
        (prt n) it Hit (enc_train sk G Hbig U nh _ _ (guestj j) (hostsj j) sname gs vg vh PA (rr j) (Rr j) (loose_inv sk) ug uh ghc DC Wg Kg CI) (fun _ => Ok ghc) d t (proj2 (pa_hosts _ _ _ _ _ _ _ _ _ _ PA)) NE eq_refl ED Et) as (ts & hm & RU & FP).
      assert (BY : by_drift j vg vh t) by (exists s, ug, uh; auto).
      destruct (fit_base rnd pred U nh gcfg hcfg guest hosts sname it P kind dim y lab gdraw hdraw d RD by_drift ug uh fround (prt n) j gs vg vh t ts hm PA Et BY FP) as (g & h & w & GT & X). exists x', ghc, t, ts, hm, g, h, w.
      split; [exact EC|]. split; [exact Ix'|]. split; [exact GT|]. split; [exact RU|]. exact X. }
    exists T, st, ht. split; [exact RU|]. split; [exists ht; auto|exact LO|exact ST].
  Qed.
  Local Notation encoded := (fun (v : K -> Qc) k => leaf_value n (v k)).
  Lemma strict_trained : mode = MStrict -> exists T st hs, always mode_train_sys (done st hs) /\
    trained rnd pred lossf U nh gcfg hcfg guest hosts sname it P kind dim y lab d (by_values U gcfg hcfg guest hosts P gdraw hdraw d encoded encoded fround (prt n)) T st hs.
  Proof.
    intros EM. set (lrn := by_values U gcfg hcfg guest hosts P gdraw hdraw d encoded encoded fround (prt n)).
    destruct (rd_parties _ _ _ _ _ _ _ _ _ _ _ _ _ _ _ _ _ RD) as (gh0 & vg0 & vh0 & PA0). destruct (rd_depth _ _ _ _ _ _ _ _ _ _ _ _ _ _ _ _ _ RD) as [ED D30].
    pose proof (gvalid_ok _ _ _ _ _ _ _ _ _ _ _ _ _ _ _ _ _ RD) as GV. pose proof (hvalid_ok _ _ _ _ _ _ _ _ _ _ _ _ _ _ _ _ _ RD) as HV.
    destruct (train_from_ok (R := @bstate K) (S := result) rnd pred lossf U nh gcfg hcfg guest hosts sname it P kind dim y lab gdraw hdraw calc (pdec sk) (fun e => pdec sk (CEnc e))
      (fun j => pgenc n (rr j)) pops (fun _ x => exists e, sok (fun _ c q => cell_inv sk (CEnc c) 1 (leaf_value n q)) x e) (gvalid gcfg P gdraw) (fun i j => hvalid hcfg P hdraw j i)
      (good_tree U nh gcfg hcfg guest hosts d lrn) (rd_dim _ _ _ _ _ _ _ _ _ _ _ _ _ _ _ _ _ RD) (rd_labels _ _ _ _ _ _ _ _ _ _ _ _ _ _ _ _ _ RD) (rd_y _ _ _ _ _ _ _ _ _ _ _ _ _ _ _ _ _ RD)
      (rd_pred _ _ _ _ _ _ _ _ _ _ _ _ _ _ _ _ _ RD) (rd_rnd _ _ _ _ _ _ _ _ _ _ _ _ _ _ _ _ _ RD)
      (fun j => proj1 (GV j)) (fun i j Hi => proj1 (HV i j Hi))) with (x0 := @None (dtable K (row Qc) * dtable K (row enum))) as (T & st & ht & RU & I & LO & ST); [|exists None; exact Logic.I|].
    { intros j x gs vg vh Hj Ix W KS V B.
      pose proof (parties_with U nh gcfg hcfg guest hosts sname (gvalid gcfg P gdraw j) (hvalid hcfg P hdraw j) _ _ _ gs vg vh PA0 (proj2 (GV j)) (fun i Hi => proj2 (HV i j Hi)) W KS V) as PA.
      assert (VB : forall k, k ∈ U -> (qabs (vg k) <= 1)%Qc /\ (qabs (vh k) <= 1)%Qc).
      { intros k Hk. destruct (B k Hk) as (A & B' & D). split; [exact A|]. apply qabs_le. split; qlra. }
      destruct (strict_ok j x gs vg vh EM Ix W KS V VB) as (x' & ghc & EC & Ix' & Wg & Kg & CI).
      assert (HD' : (zq (Z.of_nat d + 1) * N <= lam * zq (2 ^ 47))%Qc).
      { assert (X : (zq (Z.of_nat d + 1) <= zq ((Z.of_nat d + 1) * (Z.of_nat trees + 1)))%Qc) by (apply zq_le; nia). assert (N0 : (0 <= N)%Qc) by (rewrite <- zq_0; apply zq_le; lia).
        pose proof (rd_lambda _ _ _ _ _ _ _ _ _ _ _ _ _ _ _ _ _ RD) as RL. eapply Qcle_trans; [|eapply Qcle_trans; [exact HD|]].
        - clear -X N0. qnra.
        - change (zq (2 ^ 46)) with (Q2Qc (70368744177664 # 1)). change (zq (2 ^ 47)) with (Q2Qc (140737488355328 # 1)). qlra. }
      destruct (paillier_total sk G Hbig U (guestj j) (hostsj j) vg vh VB lam mi d (rd_lambda _ _ _ _ _ _ _ _ _ _ _ _ _ _ _ _ _ RD) (fun k Hk => proj1 (proj2 (B k Hk))) HN HD' ltac:(lia) HM) as (t & Et & NR).
      destruct (pa_rows _ _ _ _ _ _ _ _ _ _ PA) as [ND NE].
      destruct (fit_ok (R := @bstate K) (S := result) U ND nh _ _ (guestj j) (hostsj j) sname gs ghc vg vh _ _ pops _ (pops_laws sk G Hbig) (pdec sk) (fun e => pdec sk (CEnc e)) (pgenc n (rr j)) fround
        (prt n) it Hit (paillier_train sk G Hbig U nh _ _ (guestj j) (hostsj j) sname gs vg vh PA (rr j) (Rr j) ghc Wg Kg CI) (fun _ => Ok ghc) d t (proj2 (pa_hosts _ _ _ _ _ _ _ _ _ _ PA)) NE eq_refl ED Et) as (ts & hm & RU & FP).
      destruct (fit_base rnd pred U nh gcfg hcfg guest hosts sname it P kind dim y lab gdraw hdraw d RD lrn _ _ fround (prt n) j gs vg vh t ts hm PA Et Et FP) as (g & h & w & GT & X). exists x', ghc, t, ts, hm, g, h, w.
      split; [exact EC|]. split; [exact Ix'|]. split; [exact GT|]. split; [exact RU|]. exact X. }
    exists T, st, (map (fun i => (dim, ht i)) (seq 0 nh)). split; [exact (runs_done _ _ _ _ _ RU)|]. split; [exists ht; auto|exact LO|exact ST].
  Qed.
  Lemma mode_trained : exists T st hs, always mode_train_sys (done st hs) /\ trained rnd pred lossf U nh gcfg hcfg guest hosts sname it P kind dim y lab d by_drift T st hs.
  Proof.
    destruct (@mode_trained_runs (@bstate K) result) as (T & st & ht & RU & TR). exists T, st, (map (fun i => (dim, ht i)) (seq 0 nh)). split; [exact (runs_done _ _ _ _ _ RU)|exact TR].
  Qed.
End Train.
