(** Growing a tree in doubles: one node. *)
From Verif Require Import HistPaillier.
From Verif Require Export FloatTreeModel FloatTreeSpec FloatSplitMain LocalProofs.
From Verif Require Import FloatSplitProofs.
Local Open Scope nat_scope.

(** ** Weights *)
Section weight.
  Local Open Scope Qc_scope.
  Context (N e lam : Qc) (HN : 1 <= N) (He : uu <= e) (HeN : e <= N) (Hlam : 0 < lam) (Hel : zq 8 * e <= lam).
  Let i : Qc := / lam.

  Lemma weight_near g h g' h' : qabs g <= N -> 0 <= h -> qabs (g' - g) <= e -> qabs (h' - h) <= e ->
    exists v, f_node_weight lam g' h' = Ok v /\ qabs (v - (- g / (h + lam))) <= zq 8 * (N * e * (i + i * i)).
  Proof.
    intros Hg Hh Eg Eh. assert (II : 0 < i /\ lam * i = 1) by (apply (i_pos N e); assumption). destruct II as [I1 I2]. clearbody i. pose proof uu_pos as U0. pose proof uu_small as U1.
    assert (e0 : 0 < e) by (clear - U0 He; qlra).
    assert (G2 : (- g / (h + lam)) * (h + lam) = - g). { field. intros X. clear - X Hlam Hh. qlra. }
    unfold f_node_weight. set (d' := fround (lam + h')). set (d := h + lam) in *. generalize dependent (- g / d). intros G G2.
    assert (d0 : lam <= d) by (unfold d; qlra).
    assert (E8 : zq 8 * e <= lam) by exact Hel. change (zq 8) with (Q2Qc (8 # 1)) in E8.
    assert (Ed : qabs (d' - d) <= e + uu * (d + e)).
    { assert (A : qabs (lam + h') <= d + e) by (apply qabs_le in Eh as []; apply qabs_le; unfold d in *; split; qlra).
      apply err_rel in A. fold d' in A. apply qabs_le in A as [A1 A2], Eh as []. apply qabs_le. unfold d in *. split; qlra. }
    assert (UD : uu * (d + e) <= Q2Qc (2 # 1000) * d) by (clear - U0 U1 d0 E8 He; qnra).
    assert (D0 : Q2Qc (1 # 2) * d <= d') by (apply qabs_le in Ed as [? _]; clear - H UD E8 d0 He U0; qlra).
    clearbody d d'.
    destruct (decide (d' = zq 0)) as [Z|NZ]; [exfalso; rewrite Z in D0; change (zq 0) with 0 in D0; clear - D0 d0 Hlam; qlra|].
    eexists. split; [reflexivity|]. set (y := - g' / d').
    assert (Ey : y * d' = - g'). { unfold y. field. intros X. apply NZ. rewrite X. reflexivity. }
    clearbody y.
    assert (AG : qabs G <= N * i).
    { apply (div_le _ _ lam); [|exact I2|exact I1]. assert (X : qabs G * d <= N).
      { apply qabs_le in Hg as []. destruct (qabs_spec G) as [[_ ->]|[_ ->]]; [rewrite G2; clear - H; qlra|]. replace (- G * d) with (- (G * d)) by ring. rewrite G2. clear - H0. qlra. }
      pose proof (mul_le_l _ _ _ (qabs_nn G) d0). eapply Qcle_trans; eassumption. }
    assert (T0 : 0 <= N * i) by (clear - HN I1; qnra).
    assert (AGd : qabs (G * d) <= N). { rewrite G2. apply qabs_le in Hg as []. apply qabs_le. clear - H H0. split; qlra. }
    set (T := N * e). set (R := N * e * i).
    assert (T1 : 0 < T) by (unfold T; clear - HN e0; qnra). assert (R0 : 0 < R) by (unfold R; fold T; clear - T1 I1; qnra).
    assert (eT : e <= T) by (unfold T; clear - HN e0; qnra).
    assert (EG : qabs (G * (d' - d)) <= T + zq 2 * R).
    { assert (A : qabs (G * (d' - d)) <= qabs G * (e + uu * (d + e))) by (apply qabs_mul_le; [apply Qcle_refl|exact Ed]).
      eapply Qcle_trans; [exact A|]. replace (qabs G * (e + uu * (d + e))) with (qabs G * e + uu * (qabs G * d) + uu * (qabs G * e)) by ring.
      assert (B1 : qabs G * e <= R) by (unfold R; replace (N * e * i) with (N * i * e) by ring; clear - AG e0; generalize dependent (N * i); intros; qnra).
      assert (B0 : 0 <= qabs G * e) by (pose proof (qabs_nn G) as X; clear - X e0; qnra).
      assert (B2 : uu * (qabs G * d) <= T). { assert (X : qabs G * d <= N) by (destruct (qabs_spec G) as [[_ X]|[_ X]]; rewrite X in *; apply qabs_le in AGd as []; [exact H0|replace (- G * d) with (- (G * d)) by ring; clear - H; qlra]).
        unfold T. rewrite (Qcmult_comm N). eapply Qcle_trans; [apply mul_le_l; [clear - U0; qlra|exact X]|]. clear - He HN. qnra. }
      assert (B4 : uu * (qabs G * e) <= R) by (clear - B0 B1 U0 U1; generalize dependent (qabs G * e); intros; qnra).
      change (zq 2) with (Q2Qc (2 # 1)). clear - B1 B2 B4. generalize dependent (uu * (qabs G * d)). generalize dependent (qabs G * e). intros. qlra. }
    assert (EY : qabs ((y - G) * d') <= zq 2 * T + zq 2 * R).
    { replace ((y - G) * d') with ((g - g') - G * (d' - d)) by (replace ((y - G) * d') with (y * d' - G * d - G * (d' - d)) by ring; rewrite Ey, G2; ring).
      change (zq 2) with (Q2Qc (2 # 1)) in *. apply qabs_le in Eg as [], EG as []. clear - H H0 H1 H2 eT. apply qabs_le. split; qlra. }
    assert (EYG : qabs (y - G) <= zq 4 * (T + R) * i).
    { apply (div_le _ _ lam); [|exact I2|exact I1]. change (zq 2) with (Q2Qc (2 # 1)) in *. change (zq 4) with (Q2Qc (4 # 1)). pose proof (qabs_nn (y - G)) as Q0.
      assert (qabs (y - G) * d' <= Q2Qc (2 # 1) * T + Q2Qc (2 # 1) * R).
      { destruct (qabs_spec (y - G)) as [[_ ->]|[_ ->]]; apply qabs_le in EY as []; [assumption|]. replace (- (y - G) * d') with (- ((y - G) * d')) by ring. clear - H. qlra. }
      assert (D2 : Q2Qc (1 # 2) * lam <= d') by (clear - D0 d0; qlra). pose proof (mul_le_l _ _ _ Q0 D2) as M. clear - M H. generalize dependent (qabs (y - G)). intros. qlra. }
    set (S := T * (i + i * i)). assert (ES : (T + R) * i = S) by (unfold S, R; fold T; ring).
    replace (zq 4 * (T + R) * i) with (zq 4 * S) in EYG by (rewrite <- ES; ring). fold S. change (zq 4) with (Q2Qc (4 # 1)) in EYG. change (zq 8) with (Q2Qc (8 # 1)).
    assert (RS : R <= S). { rewrite <- ES. unfold R at 1. fold T. assert (0 <= R * i) by (clear - R0 I1; qnra). clear - H. replace ((T + R) * i) with (T * i + R * i) by ring. qlra. }
    assert (Ay : qabs y <= N * i + Q2Qc (4 # 1) * S) by (apply qabs_le in EYG as [], AG as []; clear - H H0 H1 H2; apply qabs_le; split; qlra).
    apply err_rel in Ay. assert (X1 : uu * (N * i) <= R) by (unfold R; replace (N * e * i) with (e * (N * i)) by ring; clear - T0 He; generalize dependent (N * i); intros; qnra).
    assert (S0 : 0 < S) by (clear - R0 RS; qlra). assert (X2 : uu * (Q2Qc (4 # 1) * S) <= S) by (clear - S0 U0 U1; qnra).
    replace (uu * (N * i + Q2Qc (4 # 1) * S)) with (uu * (N * i) + uu * (Q2Qc (4 # 1) * S)) in Ay by ring.
    apply qabs_le in Ay as [A1 A2], EYG as [B1 B2]. clear - A1 A2 B1 B2 X1 X2 RS S0. apply qabs_le. split; qlra.
  Qed.
End weight.

Lemma near_mono c L L' q : near c L q -> (L <= L')%Z -> near c L' q.
Proof.
  intros (L0 & R & B) HL. split; [lia|]. split; [exact R|]. intros H. destruct B as [B1 B2]; [lia|].
  assert (X1 : (zq L <= zq L')%Qc) by (apply zq_le; lia). assert (X2 : (0 <= zq L)%Qc) by (apply (zq_le 0); lia).
  split; [|eapply Qcle_trans; eassumption]. eapply Qcle_trans; [exact B1|]. apply mul_le_l; [apply Qclt_le_weak, ulp_pos|]. clear - X1 X2. generalize dependent (zq L'). intros. qnra.
Qed.
Lemma near_double v : is_double v -> (qabs v <= 1)%Qc -> near v 1 v.
Proof.
  intros D A. split; [lia|]. split; [now apply fround_double|]. intros _. split; [|exact A]. replace (v - v)%Qc with 0%Qc by ring. apply qleb_true. vm_compute. reflexivity.
Qed.

(** ** Bounds *)
Lemma gain_facts (n : Z) (lam : Qc) : let i := (/ lam)%Qc in let e0 := (ulp * (zq (3 * n) * zq (3 * n)))%Qc in let e := (Q2Qc (3 # 1) * e0)%Qc in
  (1 <= n <= 2 ^ 47)%Z -> (0 < lam)%Qc -> (p2 (-44) * (zq n * zq n) <= lam)%Qc ->
  (uu <= e)%Qc /\ (e <= zq 2 * zq n)%Qc /\ (zq 8 * e <= lam)%Qc /\ (uu * (zq 2 * zq n + zq 2 * e0) <= e0)%Qc /\ (0 <= e0)%Qc /\
  (zq 4 * (zq 32 * (zq 2 * zq n * (zq 2 * zq n) * e * (i + i * i))) <= p2 (-38) * (zq n * zq n * (zq n * zq n)) * (i + i * i))%Qc.
Proof.
  cbv zeta. intros Hn lam0 lamn'. set (i := (/ lam)%Qc).
  assert (E0 : (ulp * (zq (3 * n) * zq (3 * n)) = Q2Qc (9 # 1) * (ulp * (zq n * zq n)))%Qc) by (rewrite zq_mul; change (zq 3) with (Q2Qc (3 # 1)); clear; generalize (zq n) ulp; intros; qlra).
  rewrite E0. clear E0. unfold uu. rewrite half_ulp.
  assert (R1 : p2 (-38) = Q2Qc (16384 # 4503599627370496)) by (apply Qc_is_canon; vm_compute; reflexivity). rewrite R1. clear R1.
  assert (R1 : p2 (-44) = Q2Qc (256 # 4503599627370496)) by (apply Qc_is_canon; vm_compute; reflexivity). rewrite R1 in lamn'. clear R1.
  assert (R1 : ulp = Q2Qc (1 # 4503599627370496)) by (apply Qc_is_canon; vm_compute; reflexivity). rewrite R1. clear R1.
  change (zq 2) with (Q2Qc (2 # 1)). change (zq 8) with (Q2Qc (8 # 1)). change (zq 4) with (Q2Qc (4 # 1)). change (zq 32) with (Q2Qc (32 # 1)).
  assert (N1 : (1 <= zq n)%Qc) by (apply (zq_le 1); lia). assert (N2 : (zq n <= Q2Qc (140737488355328 # 1))%Qc) by (apply (zq_le n 140737488355328); lia).
  assert (I0 : (0 < i)%Qc) by (refine (proj1 (i_pos 1%Qc 0%Qc lam lam0 _)); clear - lam0; qlra).
  assert (I1 : (0 < i + i * i)%Qc) by (clear - I0; clearbody i; qnra). generalize dependent (i + i * i)%Qc. generalize dependent (zq n). intros m. intros.
  assert (M : (m <= m * m)%Qc) by (clear - N1; qnra). assert (M4 : (0 <= m * m * (m * m))%Qc) by (assert (0 <= m * m)%Qc by (clear - N1; qnra); clear - H; qnra).
  assert (M5 : (0 <= m * m * (m * m) * q)%Qc) by (clear - M4 I1; generalize dependent (m * m * (m * m))%Qc; intros; qnra).
  assert (M6 : (m * m <= Q2Qc (140737488355328 # 1) * m)%Qc) by (clear - N1 N2; qnra).
  repeat split; clear - N1 N2 M M4 M5 M6 lamn'; try qlra.
Qed.
Lemma weight_facts (m : Z) (lam : Qc) : let i := (/ lam)%Qc in let e := (ulp * (zq (3 * m) * zq (3 * m)))%Qc in
  (1 <= m <= 2 ^ 47)%Z -> (0 < lam)%Qc -> (p2 (-44) * (zq m * zq m) <= lam)%Qc ->
  (uu <= e)%Qc /\ (e <= zq m)%Qc /\ (zq 8 * e <= lam)%Qc /\ (zq 8 * (zq m * e * (i + i * i)) <= p2 (-45) * (zq m * zq m * zq m) * (i + i * i))%Qc.
Proof.
  cbv zeta. intros Hn lam0 lamn'. set (i := (/ lam)%Qc).
  assert (E0 : (ulp * (zq (3 * m) * zq (3 * m)) = Q2Qc (9 # 1) * (ulp * (zq m * zq m)))%Qc) by (rewrite zq_mul; change (zq 3) with (Q2Qc (3 # 1)); clear; generalize (zq m) ulp; intros; qlra).
  rewrite E0. clear E0. unfold uu. rewrite half_ulp.
  assert (R1 : p2 (-45) = Q2Qc (128 # 4503599627370496)) by (apply Qc_is_canon; vm_compute; reflexivity). rewrite R1. clear R1.
  assert (R1 : p2 (-44) = Q2Qc (256 # 4503599627370496)) by (apply Qc_is_canon; vm_compute; reflexivity). rewrite R1 in lamn'. clear R1.
  assert (R1 : ulp = Q2Qc (1 # 4503599627370496)) by (apply Qc_is_canon; vm_compute; reflexivity). rewrite R1. clear R1.
  change (zq 8) with (Q2Qc (8 # 1)).
  assert (N1 : (1 <= zq m)%Qc) by (apply (zq_le 1); lia). assert (N2 : (zq m <= Q2Qc (140737488355328 # 1))%Qc) by (apply (zq_le m 140737488355328); lia).
  assert (I0 : (0 < i)%Qc) by (refine (proj1 (i_pos 1%Qc 0%Qc lam lam0 _)); clear - lam0; qlra).
  assert (I1 : (0 < i + i * i)%Qc) by (clear - I0; clearbody i; qnra). generalize dependent (i + i * i)%Qc. generalize dependent (zq m). clear m Hn. intros m. intros.
  assert (M : (m <= m * m)%Qc) by (clear - N1; qnra). assert (M3 : (0 <= m * m * m)%Qc) by (assert (0 <= m * m)%Qc by (clear - N1; qnra); clear - H N1; qnra).
  assert (M5 : (0 <= m * m * m * q)%Qc) by (clear - M3 I1; generalize dependent (m * m * m)%Qc; intros; qnra).
  assert (M6 : (m * m <= Q2Qc (140737488355328 # 1) * m)%Qc) by (clear - N1 N2; qnra).
  repeat split; clear - N1 N2 M M3 M5 M6 lamn'; try qlra.
Qed.

Lemma f_find_site P valid h s : f_find_split_guest P valid h = Ok s -> si_site s = GuestSite.
Proof. unfold f_find_split_guest. destruct (f_guest_features _ _ _ _ _) as [b|]; [|discriminate]. cbn [mbind res_bind]. intros [= <-]. destruct (b_at b) as [[[? ?] [? ?]]|]; reflexivity. Qed.

(** ** The split of one node *)
Section Node.
  Context {K : Type} `{EqDecision K} (U : list K) (ND : NoDup U) (cfg : pcfg K) (me : party K) (PO : party_ok U cfg me) (vg vh : K -> Qc).
  Context (V : forall k, k ∈ U -> is_double (vg k) /\ is_double (vh k) /\ (qabs (vg k) <= 1)%Qc /\ (0 <= vh k)%Qc /\ (vh k <= 1)%Qc).
  Local Notation P := (c_par cfg).
  Local Notation lam := (reg_lambda (c_par cfg)).
  Local Notation mi := (min_impurity (c_par cfg)).
  Local Notation gain := (rows_gain U me vg vh lam).
  Let n : Z := Z.of_nat (length U).
  Let i : Qc := (/ lam)%Qc.
  Let D : Qc := (p2 (-38) * (zq n * zq n * (zq n * zq n)) * (i + i * i))%Qc.
  Context (MD : fround mi = mi) (n1 : (1 <= n <= 2 ^ 47)%Z) (lam0 : (0 < lam)%Qc) (lamn : (p2 (-44) * (zq n * zq n) <= lam)%Qc).

  Definition near_info (S : K -> bool) (s : splitinfo Qc Qc) : Prop :=
    si_site s = GuestSite /\
    match si_fid s, si_bid s, si_gain s with
    | Some f, Some b, Some x => (f, b) ∈ cands U me S /\ (qabs (x - gain S (f, b)) <= D)%Qc /\ (forall c, c ∈ cands U me S -> (gain S c <= gain S (f, b) + zq 2 * D)%Qc) /\
        exists g h, si_grad s = Some g /\ si_hess s = Some h /\ near g (3 * n) (sum_if (left_of me S f b) vg U) /\ near h (3 * n) (sum_if (left_of me S f b) vh U)
    | None, None, Some x => (x <= mi)%Qc /\ forall c, c ∈ cands U me S -> (gain S c <= mi + D)%Qc
    | _, _, _ => False
    end.

  Lemma abs_sum S : (qabs (sum_if S vg U) <= zq n)%Qc /\ (qabs (sum_if S vh U) <= zq n)%Qc /\ (0 <= sum_if S vh U)%Qc.
  Proof.
    split; [|split].
    - apply sum_if_abs. intros k Hk. apply (V k Hk).
    - apply sum_if_abs. intros k Hk. destruct (V k Hk) as (_ & _ & _ & A & B). apply qabs_le. split; qlra.
    - apply sum_if_nonneg. intros k Hk. apply (V k Hk).
  Qed.

  Lemma near_search S hj : node_hist U cfg me near vg vh hj S -> exists s, f_find_split_guest P (c_valid cfg) hj = Ok s /\ near_info S s.
  Proof.
    intros NH. destruct (node_cands U cfg me PO near vg vh S hj NH) as [MC CO].
    assert (MEM : forall f b t T, (f, b, (t, T)) ∈ cand_list P (c_valid cfg) 0 hj <-> candidate P (c_valid cfg) hj f b t T).
    { intros f b t T. rewrite cand_list_elem, drop_0, Nat.sub_0_r. split; [tauto|]. intros; split; [lia|assumption]. }
    assert (IN : forall f b t T, candidate P (c_valid cfg) hj f b t T -> (f, b) ∈ cands U me S).
    { intros f b t T HC. rewrite <- MC. apply elem_of_list_fmap. exists (f, b, (t, T)). split; [reflexivity|]. now apply MEM. }
    assert (NI : forall f b, (f, b) ∈ cands U me S -> exists t T, candidate P (c_valid cfg) hj f b t T).
    { intros f b HC. rewrite <- MC in HC. apply elem_of_list_fmap in HC as ([[f' b'] [t T]] & [= -> ->] & HC). exists t, T. now apply MEM. }
    set (e0 := (ulp * (zq (3 * n) * zq (3 * n)))%Qc).
    assert (CELL : forall t Q, cell_ok U near vg vh t Q -> near (tg t) (3 * n) (sum_if Q vg U) /\ near (th t) (3 * n) (sum_if Q vh U) /\
      (qabs (tg t - sum_if Q vg U) <= e0)%Qc /\ (qabs (th t - sum_if Q vh U) <= e0)%Qc).
    { intros t Q (_ & L & HL & A & B). fold n in HL. apply (near_mono _ _ (3 * n)) in A; [|lia]. apply (near_mono _ _ (3 * n)) in B; [|lia].
      assert (X : (3 * n <= 2 ^ 51)%Z) by (clear - n1; lia). split; [exact A|]. split; [exact B|]. split; [apply A, X|apply B, X]. }
    destruct (f_search P (c_valid cfg) hj D (fun f b => gain S (f, b))) as (s & Es & R).
    - destruct NH as [-> _]. rewrite (po_len _ _ _ PO). lia.
    - exact MD.
    - intros f b t T0 HC. pose proof (CO _ (proj2 (MEM _ _ _ _) HC)) as (C1 & C2 & _). cbn [fst snd] in C1, C2.
      destruct (CELL _ _ C1) as (_ & _ & Ct1 & Ct2). destruct (CELL _ _ C2) as (_ & _ & T1 & T2). clear C1 C2 CELL.
      unfold f_cgain, rows_gain. cbn [fst snd].
      destruct (gain_facts n lam n1 lam0 lamn) as (F1 & F2 & F3 & F4 & F5 & F6). cbv zeta in *. fold e0 in F1, F2, F3, F4, F5, F6. fold i in F6. fold D in F6. set (e := (Q2Qc (3 # 1) * e0)%Qc) in *.
      assert (NN : (1 <= zq n)%Qc) by (apply (zq_le 1); lia).
      destruct (abs_sum S) as (G1 & H1 & P1). destruct (abs_sum (left_of me S f b)) as (G2 & H2 & P2).
      assert (KM : (sum_if (left_of me S f b) vh U <= sum_if S vh U)%Qc).
      { apply sum_if_mono; [intros k Hk; apply (V k Hk)|]. intros k _. unfold left_of. intros X%andb_true_iff. apply X. }
      generalize dependent (sum_if S vg U). generalize dependent (sum_if S vh U). generalize dependent (sum_if (left_of me S f b) vg U). generalize dependent (sum_if (left_of me S f b) vh U).
      intros wl Ct2 H2 P2 gl Ct1 G2 w T2 H1 P1 KM g T1 G1. unfold gain_of.
      assert (RG : forall a a' c c', (qabs (a' - a) <= e0 -> qabs (c' - c) <= e0 -> qabs a <= zq n -> qabs c <= zq n -> qabs (fround (a' - c') - (a - c)) <= e)%Qc).
      { intros a a' c c' Q1 Q2 Q3 Q4. assert (X : (qabs (a' - c') <= zq 2 * zq n + zq 2 * e0)%Qc).
        { change (zq 2) with (Q2Qc (2 # 1)). apply qabs_le in Q1 as [], Q2 as [], Q3 as [], Q4 as []. apply qabs_le. clear - H H0 H3 H4 H5 H6 H7 H8. split; qlra. }
        apply err_rel in X. assert (Y : (qabs (fround (a' - c') - (a' - c')) <= e0)%Qc) by (eapply Qcle_trans; [exact X|exact F4]).
        unfold e. apply qabs_le in Y as [], Q1 as [], Q2 as []. apply qabs_le. clear - H H0 H3 H4 H5 H6. split; qlra. }
      assert (E3 : (e0 <= e)%Qc) by (unfold e; clear - F5; qlra).
      assert (W2 : forall q, (qabs q <= zq n)%Qc -> (qabs q <= zq 2 * zq n)%Qc) by (intros q Hq; eapply Qcle_trans; [exact Hq|]; change (zq 2) with (Q2Qc (2 # 1)); clear - NN; qlra).
      destruct (split_gain_near (zq 2 * zq n)%Qc e lam) with (g := g) (h := w) (gl := gl) (hl := wl) (gr := (g - gl)%Qc) (hr := (w - wl)%Qc) (g' := tg T0) (h' := th T0) (gl' := tg t) (hl' := th t) (gr' := fround (tg T0 - tg t)%Qc) (hr' := fround (th T0 - th t)%Qc)
        as (v & Ev & Bv); auto.
      + change (zq 2) with (Q2Qc (2 # 1)). clear - NN. qlra.
      + change (zq 2) with (Q2Qc (2 # 1)). apply qabs_le in G1 as [], G2 as []. apply qabs_le. clear - H H0 H3 H4. split; qlra.
      + clear - KM. qlra.
      + eapply Qcle_trans; [exact T1|exact E3].
      + eapply Qcle_trans; [exact T2|exact E3].
      + eapply Qcle_trans; [exact Ct1|exact E3].
      + eapply Qcle_trans; [exact Ct2|exact E3].
      + exists v. split; [exact Ev|]. eapply Qcle_trans; [exact Bv|exact F6].
    - exists s. split; [exact Es|]. split; [exact (f_find_site _ _ _ _ Es)|]. destruct (si_fid s) as [f|], (si_bid s) as [b|], (si_gain s) as [x|]; try exact R.
      + destruct R as ((t & T0 & HC & E1 & E2) & R1 & R2 & R3). split; [exact (IN _ _ _ _ HC)|]. split; [exact R1|]. split.
        * intros [f' b'] H'. destruct (NI f' b' H') as (t' & T0' & HC'). eauto.
        * exists (tg t), (th t). pose proof (CO _ (proj2 (MEM _ _ _ _) HC)) as (C1 & _ & _). cbn [fst snd] in C1. destruct (CELL _ _ C1) as (Ct1 & Ct2 & _). auto.
      + destruct R as (R1 & R2). split; [exact R1|]. intros [f' b'] H'. destruct (NI f' b' H') as (t' & T0' & HC'). eauto.
  Qed.
End Node.
