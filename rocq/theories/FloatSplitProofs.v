(** Proofs about sums and gains in doubles. *)
From Verif Require Export FloatSplitModel HistSpec HistProofs SplitSpec SplitProofs FixedPointSpec FixedPointProofs FloatProofs HistPaillier.
Local Open Scope Qc_scope.

Lemma qabs_le x b : qabs x <= b <-> - b <= x /\ x <= b.
Proof. destruct (qabs_spec x) as [[H E]|[H E]]; rewrite E; split; [intros; split|intros []|intros; split|intros []]; qlra. Qed.
Lemma qabs_nn x : 0 <= qabs x.
Proof. destruct (qabs_spec x) as [[H E]|[H E]]; rewrite E; qlra. Qed.

Definition ulp : Qc := p2 (-52).
Lemma ulp_pos : 0 < ulp. Proof. apply qltb_true. vm_compute. reflexivity. Qed.
Lemma ulp_small : ulp * zq (2 ^ 51) <= Q2Qc (1 # 2). Proof. apply qleb_true. vm_compute. reflexivity. Qed.
Lemma half_ulp : p2 (-53) = ulp * Q2Qc (1 # 2). Proof. apply Qc_is_canon. vm_compute. reflexivity. Qed.

(** [c] is a double near [q], a sum of [L] numbers between -1 and 1. *)
Definition near (c : Qc) (L : Z) (q : Qc) : Prop :=
  (0 <= L)%Z /\ fround c = c /\ ((L <= 2 ^ 51)%Z -> qabs (c - q) <= ulp * (zq L * zq L) /\ qabs q <= zq L).

Lemma near_step x y a b L L' s q : near x L a -> near y L' b -> (s = x + y /\ q = a + b) \/ (s = x - y /\ q = a - b) -> near (fround s) (L + L') q.
Proof.
  intros (P1 & D1 & N1) (P2 & D2 & N2) S. split; [lia|]. split; [apply fround_idem|]. intros HL.
  destruct N1 as [E1 B1]; [lia|]. destruct N2 as [E2 B2]; [lia|].
  pose proof (fround_err s) as F. rewrite half_ulp in F. rewrite zq_add.
  assert (Z1 : 0 <= zq L) by (rewrite <- zq_0; now apply zq_le). assert (Z2 : 0 <= zq L') by (rewrite <- zq_0; now apply zq_le).
  assert (Z3 : zq L + zq L' <= zq (2 ^ 51)) by (rewrite <- zq_add; now apply zq_le).
  pose proof ulp_pos as U. pose proof ulp_small as US.
  destruct (decide (L = 0)%Z) as [->|NL].
  { change (zq 0) with 0 in *. replace (ulp * (0 * 0)) with 0 in E1 by ring. apply qabs_le in E1 as [E1 E1'], B1 as [B1 B1'].
    assert (a = 0) as -> by (apply Qcle_antisym; qlra). assert (x = 0) as -> by (apply Qcle_antisym; qlra). clear F.
    replace ((0 + zq L') * (0 + zq L')) with (zq L' * zq L') by ring. replace (0 + zq L') with (zq L') by ring.
    destruct S as [[-> ->]|[-> ->]].
    - replace (0 + y) with y by ring. rewrite D2. replace (0 + b) with b by ring. auto.
    - replace (0 - y) with (- y) by ring. rewrite fround_opp, D2. apply qabs_le in E2 as [], B2 as []. split; apply qabs_le; split; qlra. }
  destruct (decide (L' = 0)%Z) as [->|NL'].
  { change (zq 0) with 0 in *. replace (ulp * (0 * 0)) with 0 in E2 by ring. apply qabs_le in E2 as [E2 E2'], B2 as [B2 B2'].
    assert (b = 0) as -> by (apply Qcle_antisym; qlra). assert (y = 0) as -> by (apply Qcle_antisym; qlra). clear F.
    replace ((zq L + 0) * (zq L + 0)) with (zq L * zq L) by ring. replace (zq L + 0) with (zq L) by ring.
    destruct S as [[-> ->]|[-> ->]].
    - replace (x + 0) with x by ring. rewrite D1. replace (a + 0) with a by ring. auto.
    - replace (x - 0) with x by ring. rewrite D1. replace (a - 0) with a by ring. auto. }
  assert (O1 : 1 <= zq L) by (apply (zq_le 1); lia). assert (O2 : 1 <= zq L') by (apply (zq_le 1); lia).
  set (l := zq L) in *. set (l' := zq L') in *. set (M := zq (2 ^ 51)) in *.
  assert (C1 : qabs (s - q) <= ulp * (l * l) + ulp * (l' * l')).
  { apply qabs_le in E1 as [], E2 as []. apply qabs_le. destruct S as [[-> ->]|[-> ->]]; split; qlra. }
  assert (C2 : qabs q <= l + l').
  { apply qabs_le in B1 as [], B2 as []. apply qabs_le. destruct S as [[_ ->]|[_ ->]]; split; qlra. }
  split; [|exact C2]. clear S E1 E2 B1 B2.
  assert (C3 : ulp * (l * l) <= l). { assert (ulp * l <= 1) by qnra. clear - H O1 U. generalize dependent ulp. intros. qnra. }
  assert (C4 : ulp * (l' * l') <= l'). { assert (ulp * l' <= 1) by qnra. clear - H O2 U. generalize dependent ulp. intros. qnra. }
  assert (C5 : qabs s <= (l + l') + (l + l')). { apply qabs_le in C1 as [], C2 as []. apply qabs_le. split; qlra. }
  assert (C6 : qabs (fround s - s) <= ulp * (l + l')).
  { eapply Qcle_trans; [exact F|]. pose proof (qabs_nn s). clear - C5 U. generalize dependent (qabs s). intros. qnra. }
  assert (C7 : l + l' <= l * l' + l * l') by qnra.
  assert (C8 : ulp * (l + l') <= ulp * (l * l' + l * l')) by qnra.
  clear - C1 C6 C8. apply qabs_le in C1 as [], C6 as []. apply qabs_le. split; qlra.
Qed.

Lemma near_laws : numlaws fops near.
Proof.
  constructor.
  - split; [lia|]. split; [exact fround_0|]. intros _. change (nzero fops) with (zq 0). split; apply qleb_true; vm_compute; reflexivity.
  - intros x y L L' a b X Y. exists (fround (x + y)). split; [reflexivity|]. eapply near_step; eauto.
  - intros x y L L' a b X Y. exists (fround (x - y)). split; [reflexivity|]. eapply near_step; eauto.
Qed.

(** Multiples of 2^t stay exact while they are small enough. *)
Definition on_grid (t K : Z) (c : Qc) (L : Z) (q : Qc) : Prop :=
  (0 <= L)%Z /\ ((L * K <= 2 ^ 53)%Z -> c = q /\ exists k, (Z.abs k <= L * K)%Z /\ q = zq k * p2 t).
Lemma grid_laws t K : (0 <= K)%Z -> numlaws fops (on_grid t K).
Proof.
  intros HK. constructor.
  - split; [lia|]. intros _. split; [reflexivity|]. exists 0%Z. split; [lia|]. change (zq 0) with 0. ring.
  - intros x y L L' a b (P1 & N1) (P2 & N2). eexists. split; [reflexivity|]. split; [lia|]. intros H.
    destruct N1 as (-> & k & B & ->); [nia|]. destruct N2 as (-> & k' & B' & ->); [nia|].
    replace (zq k * p2 t + zq k' * p2 t) with (zq (k + k') * p2 t) by (rewrite zq_add; ring).
    split; [apply fround_exact; lia|]. exists (k + k')%Z. split; [lia|reflexivity].
  - intros x y L L' a b (P1 & N1) (P2 & N2). eexists. split; [reflexivity|]. split; [lia|]. intros H.
    destruct N1 as (-> & k & B & ->); [nia|]. destruct N2 as (-> & k' & B' & ->); [nia|].
    replace (zq k * p2 t - zq k' * p2 t) with (zq (k - k') * p2 t) by (rewrite zq_sub; ring).
    split; [apply fround_exact; lia|]. exists (k - k')%Z. split; [lia|reflexivity].
Qed.

(** ** Gains. *)
Definition uu : Qc := p2 (-53).
Lemma uu_pos : 0 < uu. Proof. apply qltb_true. vm_compute. reflexivity. Qed.
Lemma uu_small : uu <= Q2Qc (1 # 1000). Proof. apply qleb_true. vm_compute. reflexivity. Qed.
Lemma err_rel s m : qabs s <= m -> qabs (fround s - s) <= uu * m.
Proof. intros H. eapply Qcle_trans; [apply fround_err|]. fold uu. pose proof uu_pos. pose proof (qabs_nn s). generalize dependent (qabs s). intros. qnra. Qed.

Lemma qabs_mul_le x y a b : qabs x <= a -> qabs y <= b -> qabs (x * y) <= a * b.
Proof.
  intros H1 H2. pose proof (qabs_nn x). pose proof (qabs_nn y). assert (qabs x * qabs y <= a * b) by (generalize dependent (qabs x); generalize dependent (qabs y); intros; qnra).
  eapply Qcle_trans; [|exact H3]. destruct (qabs_spec x) as [[X Ex]|[X Ex]], (qabs_spec y) as [[Y Ey]|[Y Ey]]; rewrite Ex, Ey; apply qabs_le; split; qnra.
Qed.

Lemma mul_le_l q a b : 0 <= q -> a <= b -> q * a <= q * b.
Proof. intros. qnra. Qed.

Lemma div_le q a lam i : q * lam <= a -> lam * i = 1 -> 0 < i -> q <= a * i.
Proof. intros H I2 I1. replace q with (i * (q * lam)) by (replace (i * (q * lam)) with (q * (lam * i)) by ring; rewrite I2; ring). rewrite (Qcmult_comm a). apply mul_le_l; [now apply Qclt_le_weak|exact H]. Qed.

Section gain.
  Context (N e lam : Qc) (HN : 1 <= N) (He : uu <= e) (HeN : e <= N) (Hlam : 0 < lam) (Hel : zq 8 * e <= lam).
  Let i : Qc := / lam.
  Let D1 : Qc := zq 32 * (N * N * e * (i + i * i)).

  Lemma i_pos : 0 < i /\ lam * i = 1.
  Proof.
    assert (E : lam * i = 1) by (unfold i; apply Qcmult_inv_r; intros ->; apply (Qclt_not_eq 0 0); [assumption|reflexivity]). split; [|exact E].
    destruct (Qclt_le_dec 0 i) as [|G]; [assumption|]. exfalso. generalize dependent i. clear - Hlam. intros i. intros. qnra.
  Qed.

  Lemma score_bound g h : qabs g <= N -> 0 <= h -> 0 <= score lam g h /\ score lam g h <= N * N * i /\ score lam g h * (h + lam) = g * g.
  Proof.
    intros Hg Hh. destruct i_pos as [I1 I2].
    assert (E : score lam g h * (h + lam) = g * g). { unfold score. field. intros X. clear - X Hlam Hh. qlra. }
    generalize dependent (score lam g h). intros G E.
    assert (GG : g * g <= N * N). { apply qabs_le in Hg as []. clear - H H0. qnra. }
    assert (G0 : 0 <= G). { destruct (Qclt_le_dec G 0) as [X|]; [|assumption]. exfalso. assert (0 <= g * g) by (destruct (Qclt_le_dec g 0); qnra). clear - X E H Hlam Hh. qnra. }
    split; [exact G0|]. split; [|exact E].
    assert (G * lam <= N * N) by (clear - G0 E GG Hh; qnra). replace G with (G * lam * i) by (rewrite <- Qcmult_assoc, I2; ring).
    clear - H I1. generalize dependent (G * lam). generalize dependent i. intros. qnra.
  Qed.

  Lemma node_gain_near g h g' h' : qabs g <= N -> 0 <= h -> qabs (g' - g) <= e -> qabs (h' - h) <= e ->
    exists v, f_node_gain lam g' h' = Ok v /\ qabs (v - score lam g h) <= D1.
  Proof.
    intros Hg Hh Eg Eh. destruct (score_bound g h Hg Hh) as (G0 & G1 & G2). destruct i_pos as [I1 I2]. pose proof uu_pos as U0. pose proof uu_small as U1.
    unfold f_node_gain. set (d' := fround (h' + lam)). set (G := score lam g h) in *. set (d := h + lam) in *.
    assert (d0 : lam <= d) by (unfold d; qlra).
    assert (E8 : zq 8 * e <= lam) by exact Hel. change (zq 8) with (Q2Qc (8 # 1)) in E8.
    assert (Ed : qabs (d' - d) <= e + uu * (d + e)).
    { assert (A : qabs (h' + lam) <= d + e) by (apply qabs_le in Eh as []; apply qabs_le; unfold d in *; split; qlra).
      apply err_rel in A. fold d' in A. apply qabs_le in A as [A1 A2], Eh as []. apply qabs_le. unfold d in *. split; qlra. }
    assert (UD : uu * (d + e) <= Q2Qc (2 # 1000) * d) by (clear - U0 U1 d0 E8 He; qnra).
    assert (D0 : Q2Qc (1 # 2) * d <= d') by (apply qabs_le in Ed as [? _]; clear - H UD E8 d0 He U0; qlra).
    destruct (decide (d' = zq 0)) as [Z|NZ]; [exfalso; rewrite Z in D0; change (zq 0) with 0 in D0; clear - D0 d0 Hlam; qlra|].
    eexists. split; [reflexivity|]. set (x := fround (g' * g')). set (y := x / d').
    assert (Ey : y * d' = x). { unfold y. field. intros X. apply NZ. rewrite X. reflexivity. }
    assert (Hg' : qabs g' <= zq 2 * N). { change (zq 2) with (Q2Qc (2 # 1)). apply qabs_le in Hg as [], Eg as []. apply qabs_le. clear - H H0 H1 H2 HeN HN. split; qlra. }
    assert (Ex : qabs (x - g * g) <= zq 7 * (N * N * e)).
    { pose proof (err_rel _ _ (qabs_mul_le _ _ _ _ Hg' Hg')) as A. fold x in A.
      assert (B : qabs ((g' - g) * (g' + g)) <= e * (zq 3 * N)).
      { apply qabs_mul_le; [exact Eg|]. change (zq 3) with (Q2Qc (3 # 1)). change (zq 2) with (Q2Qc (2 # 1)) in Hg'. apply qabs_le in Hg as [], Hg' as []. apply qabs_le. clear - H H0 H1 H2. split; qlra. }
      replace ((g' - g) * (g' + g)) with (g' * g' - g * g) in B by ring.
      assert (C0 : 0 <= e * N) by (clear - HN He U0; qnra). assert (C1 : e * N <= N * N * e) by (replace (N * N * e) with (e * N * N) by ring; clear - HN C0; generalize dependent (e * N); intros; qnra).
      assert (C2 : uu * (N * N) <= N * N * e) by (assert (X : 0 <= N * N) by (clear - HN; qnra); clear - X He; generalize dependent (N * N); intros; qnra).
      change (zq 2) with (Q2Qc (2 # 1)) in A. change (zq 3) with (Q2Qc (3 # 1)) in B. change (zq 7) with (Q2Qc (7 # 1)).
      apply qabs_le in A as [A1 A2], B as [B1 B2]. clear - A1 A2 B1 B2 C1 C2. apply qabs_le. split; qlra. }
    (* the quotient before rounding *)
    set (T := N * N * e * i). set (S := N * N * e * (i * i)).
    assert (NNe : 0 < N * N * e) by (assert (0 < N * N) by (clear - HN; qnra); clear - H U0 He; qnra).
    assert (T0 : 0 < T) by (unfold T; clear - NNe I1; generalize dependent (N * N * e); intros; qnra).
    assert (S0 : 0 < S) by (unfold S; replace (N * N * e * (i * i)) with (T * i) by (unfold T; ring); clear - T0 I1; qnra).
    assert (EG : qabs (G * (d' - d)) <= N * N * e + zq 2 * T).
    { assert (A : qabs (G * (d' - d)) <= G * (e + uu * (d + e))) by (apply qabs_mul_le; [destruct (qabs_spec G) as [[_ ->]|[X _]]; [apply Qcle_refl|exfalso; clear - X G0; qlra]|exact Ed]).
      eapply Qcle_trans; [exact A|]. replace (G * (e + uu * (d + e))) with (G * e + uu * (G * d) + uu * (G * e)) by ring. rewrite G2.
      assert (B1 : G * e <= T) by (unfold T; replace (N * N * e * i) with (N * N * i * e) by ring; clear - G1 He U0; generalize dependent (N * N * i); intros; qnra).
      assert (B2 : g * g <= N * N) by (apply qabs_le in Hg as []; clear - H H0; qnra).
      assert (B3 : uu * (g * g) <= N * N * e). { assert (0 <= g * g) by (destruct (Qclt_le_dec g 0); qnra). assert (uu * (g * g) <= uu * (N * N)) by (clear - B2 U0; qnra). assert (uu * (N * N) <= e * (N * N)) by (clear - He HN; assert (0 <= N * N) by qnra; qnra). clear - H0 H1. qlra. }
      assert (B4 : uu * (G * e) <= T). { assert (0 <= G * e) by (clear - G0 He U0; qnra). clear - H B1 U0 U1. qnra. }
      change (zq 2) with (Q2Qc (2 # 1)). clear - B1 B3 B4. qlra. }
    set (R := zq 8 * (N * N * e) + zq 2 * T).
    assert (EY : qabs ((y - G) * d') <= R).
    { replace ((y - G) * d') with ((x - g * g) - G * (d' - d)) by (rewrite <- G2, <- Ey; ring). unfold R.
      change (zq 7) with (Q2Qc (7 # 1)) in Ex. change (zq 2) with (Q2Qc (2 # 1)) in *. change (zq 8) with (Q2Qc (8 # 1)).
      apply qabs_le in Ex as [], EG as []. clear - H H0 H1 H2. apply qabs_le. split; qlra. }
    assert (EYG : qabs (y - G) <= zq 2 * (R * i)).
    { assert (A : qabs (y - G) * lam <= zq 2 * R).
      { change (zq 2) with (Q2Qc (2 # 1)). pose proof (qabs_nn (y - G)) as Q0. assert (qabs (y - G) * d' <= R).
        { destruct (qabs_spec (y - G)) as [[_ ->]|[_ ->]]; apply qabs_le in EY as []; [assumption|]. replace (- (y - G) * d') with (- ((y - G) * d')) by ring. clear - H. qlra. }
        assert (D2 : Q2Qc (1 # 2) * lam <= d') by (clear - D0 d0; qlra). pose proof (mul_le_l _ _ _ Q0 D2) as M. clear - M H. generalize dependent (qabs (y - G)). intros. qlra. }
      rewrite Qcmult_assoc. exact (div_le _ _ _ _ A I2 I1). }
    replace (zq 2 * (R * i)) with (Q2Qc (16 # 1) * T + Q2Qc (4 # 1) * S) in EYG
      by (unfold R, S, T; change (zq 2) with (Q2Qc (2 # 1)); change (zq 8) with (Q2Qc (8 # 1)); clear; clearbody i; generalize (N * N * e); intros; qlra).
    assert (UG : uu * G <= T). { unfold T. replace (N * N * e * i) with (e * (N * N * i)) by ring. clear - G0 G1 U0 He. generalize dependent (N * N * i). intros. qnra. }
    assert (Ay : qabs y <= G + (Q2Qc (16 # 1) * T + Q2Qc (4 # 1) * S)) by (apply qabs_le in EYG as []; clear - H H0 G0; apply qabs_le; split; qlra).
    apply err_rel in Ay.
    assert (UTS : uu * (Q2Qc (16 # 1) * T + Q2Qc (4 # 1) * S) <= T + S) by (clear - T0 S0 U0 U1; qnra).
    assert (ED : D1 = Q2Qc (32 # 1) * T + Q2Qc (32 # 1) * S) by (unfold D1, S, T; change (zq 32) with (Q2Qc (32 # 1)); ring).
    rewrite ED. apply qabs_le in Ay as [A1 A2], EYG as [B1 B2].
    assert (X : uu * (G + (Q2Qc (16 # 1) * T + Q2Qc (4 # 1) * S)) <= T + (T + S)) by (clear - UG UTS; qlra).
    clear - A1 A2 B1 B2 X T0 S0. apply qabs_le. split; qlra.
  Qed.

  Lemma split_gain_near g h gl hl gr hr g' h' gl' hl' gr' hr' :
    qabs g <= N -> 0 <= h -> qabs gl <= N -> 0 <= hl -> qabs gr <= N -> 0 <= hr ->
    qabs (g' - g) <= e -> qabs (h' - h) <= e -> qabs (gl' - gl) <= e -> qabs (hl' - hl) <= e -> qabs (gr' - gr) <= e -> qabs (hr' - hr) <= e ->
    exists v, f_split_gain lam g' h' gl' hl' gr' hr' = Ok v /\ qabs (v - (score lam gl hl + score lam gr hr - score lam g h)) <= zq 4 * D1.
  Proof.
    intros Hg Hh Hgl Hhl Hgr Hhr E1 E2 E3 E4 E5 E6. unfold f_split_gain.
    destruct (node_gain_near gl hl gl' hl' Hgl Hhl E3 E4) as (a & -> & A). destruct (node_gain_near gr hr gr' hr' Hgr Hhr E5 E6) as (b & -> & B).
    destruct (node_gain_near g h g' h' Hg Hh E1 E2) as (c & -> & C). cbn [mbind res_bind]. eexists. split; [reflexivity|].
    destruct (score_bound gl hl Hgl Hhl) as (A0 & A1 & _). destruct (score_bound gr hr Hgr Hhr) as (B0 & B1 & _). destruct (score_bound g h Hg Hh) as (C0 & C1 & _).
    destruct i_pos as [I1 _]. pose proof uu_pos as U0. pose proof uu_small as U1.
    set (m := N * N * i) in *.
    assert (NN : 0 < N * N) by (clear - HN; qnra). assert (m0 : 0 < m) by (unfold m; clear - NN I1; qnra).
    assert (Dm : Q2Qc (32 # 1) * (uu * m) <= D1).
    { assert (X : uu * m <= N * N * e * i) by (unfold m; replace (N * N * e * i) with (e * (N * N * i)) by ring; fold m; clear - m0 He; generalize dependent m; intros; qnra).
      assert (Y : 0 <= N * N * e * (i * i)) by (assert (0 <= N * N * e) by (clear - NN He U0; qnra); assert (0 <= i * i) by (clear - I1; qnra); clear - H H0; qnra).
      unfold D1. change (zq 32) with (Q2Qc (32 # 1)). clear - X Y. qlra. }
    set (a0 := score lam gl hl) in *. set (b0 := score lam gr hr) in *. set (c0 := score lam g h) in *. clearbody a0 b0 c0 m. clearbody D1.
    assert (D0 : 0 <= D1) by (clear - Dm m0 U0; qnra).
    assert (UD : Q2Qc (1000 # 1) * (uu * D1) <= D1) by (clear - D0 U1 U0; qnra).
    apply qabs_le in A as [], B as [], C as [].
    assert (S1 : qabs (a + b) <= Q2Qc (2 # 1) * m + Q2Qc (2 # 1) * D1) by (apply qabs_le; clear - H H0 H1 H2 A0 A1 B0 B1 m0; split; qlra).
    apply err_rel in S1. replace (uu * (Q2Qc (2 # 1) * m + Q2Qc (2 # 1) * D1)) with (Q2Qc (2 # 1) * (uu * m) + Q2Qc (2 # 1) * (uu * D1)) in S1 by ring.
    set (r := fround (a + b)) in *. apply qabs_le in S1 as [S1 S2].
    assert (um : uu * m <= m) by (clear - U0 U1 m0; qnra). assert (ud : uu * D1 <= D1) by (clear - U0 U1 D0; qnra).
    assert (S3 : qabs (r - c) <= Q2Qc (6 # 1) * m + Q2Qc (6 # 1) * D1) by (apply qabs_le; clear - S1 S2 H H0 H1 H2 H3 H4 A0 A1 B0 B1 C0 C1 m0 D0 um ud; split; qlra).
    apply err_rel in S3. replace (uu * (Q2Qc (6 # 1) * m + Q2Qc (6 # 1) * D1)) with (Q2Qc (6 # 1) * (uu * m) + Q2Qc (6 # 1) * (uu * D1)) in S3 by ring.
    apply qabs_le in S3 as [S3 S4]. change (zq 4) with (Q2Qc (4 # 1)). clear - S1 S2 S3 S4 H H0 H1 H2 H3 H4 Dm UD D0. apply qabs_le. split; qlra.
  Qed.
End gain.
