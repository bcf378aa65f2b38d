(** Rounding to doubles is monotone and odd. *)
From Verif Require Import PyBase QcBase FixedPointModel FixedPointSpec FixedPointProofs EncNumProofs.
From Coq Require Import Lia.
Local Open Scope Z_scope.

Lemma round_he_mono x y : (x <= y)%Qc -> round_he x <= round_he y.
Proof.
  intros H. destruct (Z_le_gt_dec (round_he x) (round_he y)) as [L|L]; [exact L|exfalso].
  pose proof (round_he_err x) as Ex. pose proof (round_he_err y) as Ey. apply qabs_le in Ex as [_ Ex], Ey as [Ey _].
  assert (G : (zq (round_he y + 1) <= zq (round_he x))%Qc) by (apply zq_le; lia). rewrite zq_add in G.
  change (p2 (-1)) with (Q2Qc (1 # 2)) in *. change (zq 1) with (Q2Qc (1 # 1)) in G.
  assert (E : x = y) by (apply Qcle_antisym; [exact H|]; qlra). subst. lia.
Qed.

Lemma round_he_le x z : (x <= zq z)%Qc -> round_he x <= z.
Proof. intros H. apply round_he_mono in H. now rewrite round_he_zq in H. Qed.
Lemma round_he_ge x z : (zq z <= x)%Qc -> z <= round_he x.
Proof. intros H. apply round_he_mono in H. now rewrite round_he_zq in H. Qed.

Lemma fround_nonneg q : (zq 0 <= q)%Qc -> (zq 0 <= fround q)%Qc.
Proof.
  intros H. unfold fround. set (s := 53 - frexp_e q). pose proof (p2_pos s). pose proof (p2_pos (- s)).
  assert (0 <= round_he (q * p2 s)). { apply round_he_ge. rewrite zq_0 in *. qnra. }
  assert (Z1 : (zq 0 <= zq (round_he (q * p2 s)))%Qc) by now apply zq_le. rewrite zq_0 in *. qnra.
Qed.
Lemma fround_nonpos q : (q <= zq 0)%Qc -> (fround q <= zq 0)%Qc.
Proof.
  intros H. unfold fround. set (s := 53 - frexp_e q). pose proof (p2_pos s). pose proof (p2_pos (- s)).
  assert (round_he (q * p2 s) <= 0). { apply round_he_le. rewrite zq_0 in *. qnra. }
  assert (Z1 : (zq (round_he (q * p2 s)) <= zq 0)%Qc) by now apply zq_le. rewrite zq_0 in *. qnra.
Qed.

Lemma p2_cancel s : (p2 s * p2 (- s))%Qc = zq 1.
Proof. rewrite p2_sub_add. replace (s + - s) with 0 by lia. reflexivity. Qed.

Lemma fround_binade_pos q : (zq 0 < q)%Qc -> (p2 (frexp_e q - 1) <= fround q)%Qc /\ (fround q <= p2 (frexp_e q))%Qc.
Proof.
  intros H. assert (Hq : q <> zq 0) by (intros ->; revert H; apply Qcle_not_lt, Qcle_refl).
  destruct (frexp_spec q Hq) as [H1 H2]. unfold fround. set (e := frexp_e q) in *.
  assert (A : qabs q = q) by (destruct (qabs_spec q) as [[_ A]|[A _]]; [exact A|rewrite zq_0 in H; exfalso; qlra]).
  rewrite A in *. pose proof (p2_pos (53 - e)) as P. pose proof (p2_pos (- (53 - e))) as P'.
  assert (L : 2 ^ 52 <= round_he (q * p2 (53 - e))).
  { apply round_he_ge. rewrite <- p2_nonneg by lia. replace 52 with ((e - 1) + (53 - e)) by lia. rewrite p2_add. qnra. }
  assert (U : round_he (q * p2 (53 - e)) <= 2 ^ 53).
  { apply round_he_le. rewrite <- p2_nonneg by lia. replace 53 with (e + (53 - e)) at 2 by lia. rewrite p2_add. qnra. }
  set (r := round_he _) in *. apply zq_le in L, U. rewrite <- p2_nonneg in L, U by lia.
  split.
  - replace (e - 1) with (52 + - (53 - e)) by lia. rewrite p2_add. qnra.
  - replace e with (53 + - (53 - e)) at 2 by lia. rewrite p2_add. qnra.
Qed.

Lemma fround_mono_pos x y : (zq 0 < x)%Qc -> (x <= y)%Qc -> (fround x <= fround y)%Qc.
Proof.
  intros Hx Hxy. assert (Hy : (zq 0 < y)%Qc) by (eapply Qclt_le_trans; eauto).
  assert (Nx : x <> zq 0) by (intros ->; revert Hx; apply Qcle_not_lt, Qcle_refl).
  assert (Ny : y <> zq 0) by (intros ->; revert Hy; apply Qcle_not_lt, Qcle_refl).
  assert (Ax : qabs x = x) by (destruct (qabs_spec x) as [[_ A]|[A _]]; [exact A|rewrite zq_0 in Hx; exfalso; qlra]).
  assert (Ay : qabs y = y) by (destruct (qabs_spec y) as [[_ A]|[A _]]; [exact A|rewrite zq_0 in Hy; exfalso; qlra]).
  destruct (frexp_spec x Nx) as [X1 X2]. destruct (frexp_spec y Ny) as [Y1 Y2]. rewrite Ax in *. rewrite Ay in *.
  assert (LE : frexp_e x <= frexp_e y).
  { assert (L : (p2 (frexp_e x - 1) < p2 (frexp_e y))%Qc) by qlra. apply p2_lt_inv in L. lia. }
  destruct (Z.eq_dec (frexp_e x) (frexp_e y)) as [E|E].
  - unfold fround. rewrite E. set (s := 53 - frexp_e y). pose proof (p2_pos s). pose proof (p2_pos (- s)).
    assert (R : round_he (x * p2 s) <= round_he (y * p2 s)) by (apply round_he_mono; qnra).
    apply zq_le in R. qnra.
  - destruct (fround_binade_pos x Hx) as [_ U]. destruct (fround_binade_pos y Hy) as [L _].
    assert (M : (p2 (frexp_e x) <= p2 (frexp_e y - 1))%Qc) by (apply p2_le; lia). qlra.
Qed.

Lemma qfloor_unique q z : (zq z <= q)%Qc -> (q < zq (z + 1))%Qc -> qfloor q = z.
Proof. intros. now apply qfloor_spec. Qed.

Lemma round_he_opp q : round_he (- q)%Qc = - round_he q.
Proof.
  pose proof (qfloor_le q) as L. pose proof (qfloor_lt q) as U. rewrite zq_add in U.
  set (f := qfloor q) in *. change (zq 1) with (Q2Qc (1 # 1)) in U.
  destruct (Qc_eq_dec q (zq f)) as [E|E].
  { rewrite E, <- zq_opp, !round_he_zq. reflexivity. }
  assert (L' : (zq f < q)%Qc) by (destruct (Qcle_lt_or_eq _ _ L) as [?|L2]; [assumption|now symmetry in L2]).
  assert (F' : qfloor (- q) = - f - 1).
  { apply qfloor_unique; rewrite ?zq_sub, ?zq_opp, ?zq_add, ?zq_sub, ?zq_opp; change (zq 1) with (Q2Qc (1 # 1)); qlra. }
  unfold round_he. rewrite F'. fold f. rewrite !zq_sub, !zq_opp. change (zq 1) with (Q2Qc (1 # 1)). change (p2 (-1)) with (Q2Qc (1 # 2)).
  destruct (qltb (- q - (- zq f - Q2Qc (1 # 1))) (Q2Qc (1 # 2))) eqn:A1, (qltb (Q2Qc (1 # 2)) (- q - (- zq f - Q2Qc (1 # 1)))) eqn:A2,
    (qltb (q - zq f) (Q2Qc (1 # 2))) eqn:B1, (qltb (Q2Qc (1 # 2)) (q - zq f)) eqn:B2; try lia; try (exfalso; qlra).
  replace (- f - 1) with (- (f + 1)) by lia. rewrite Z.even_opp. replace (f + 1) with (Z.succ f) by lia. rewrite Z.even_succ, <- Z.negb_even.
  destruct (Z.even f); cbn [negb]; lia.
Qed.

Lemma frexp_opp q : frexp_e (- q)%Qc = frexp_e q.
Proof.
  destruct (Qc_eq_dec q (zq 0)) as [->|Hq]; [reflexivity|].
  destruct (frexp_spec q Hq). apply frexp_unique; now rewrite qabs_opp.
Qed.

Lemma fround_opp q : fround (- q)%Qc = (- fround q)%Qc.
Proof.
  unfold fround. rewrite frexp_opp. set (s := 53 - frexp_e q). replace (- q * p2 s)%Qc with (- (q * p2 s))%Qc by ring.
  rewrite round_he_opp, zq_opp. ring.
Qed.

Lemma fround_mono x y : (x <= y)%Qc -> (fround x <= fround y)%Qc.
Proof.
  intros H. destruct (Qclt_le_dec (zq 0) x) as [Hx|Hx]; [now apply fround_mono_pos|].
  destruct (Qclt_le_dec y (zq 0)) as [Hy|Hy].
  - assert (M : (fround (- y) <= fround (- x))%Qc) by (apply fround_mono_pos; rewrite zq_0 in *; qlra).
    rewrite !fround_opp in M. qlra.
  - eapply Qcle_trans; [now apply fround_nonpos|now apply fround_nonneg].
Qed.

Lemma fround_double q : is_double q -> fround q = q.
Proof. intros (k & t & Hk & ->). apply fround_exact. lia. Qed.
Lemma is_double_zq z : Z.abs z < 2 ^ 53 -> is_double (zq z).
Proof. intros H. exists z, 0. split; [exact H|]. rewrite p2_0. ring. Qed.
Lemma fround_zq z : Z.abs z <= 2 ^ 53 -> fround (zq z) = zq z.
Proof. intros H. pose proof (fround_exact z 0 H) as E. rewrite p2_0 in E. now rewrite !Qcmult_1_r in E. Qed.

(** A double below the rounding of y is below y. *)
Lemma double_lt_fround q y : is_double q -> (q < fround y)%Qc -> (q < y)%Qc.
Proof.
  intros Hd H. destruct (Qclt_le_dec q y) as [L|L]; [exact L|exfalso]. apply fround_mono in L.
  rewrite (fround_double q Hd) in L. now apply (Qcle_not_lt _ _ L).
Qed.
Lemma double_gt_fround q y : is_double q -> (fround y < q)%Qc -> (y < q)%Qc.
Proof.
  intros Hd H. destruct (Qclt_le_dec y q) as [L|L]; [exact L|exfalso]. apply fround_mono in L.
  rewrite (fround_double q Hd) in L. now apply (Qcle_not_lt _ _ L).
Qed.
Lemma fround_le_double q y : is_double q -> (y <= q)%Qc -> (fround y <= q)%Qc.
Proof. intros Hd H. apply fround_mono in H. now rewrite (fround_double q Hd) in H. Qed.
Lemma fround_ge_double q y : is_double q -> (q <= y)%Qc -> (q <= fround y)%Qc.
Proof. intros Hd H. apply fround_mono in H. now rewrite (fround_double q Hd) in H. Qed.

Lemma fround_is_double q : is_double (fround q).
Proof.
  destruct (Qc_eq_dec q (zq 0)) as [->|Hq]. { rewrite fround_0. apply is_double_zq. reflexivity. }
  destruct (frexp_spec q Hq) as [H1 H2]. unfold fround. set (e := frexp_e q) in *.
  set (r := round_he _).
  assert (B : Z.abs r <= 2 ^ 53).
  { apply round_he_bound. rewrite qabs_mul, qabs_p2, <- p2_nonneg by lia. replace 53 with (e + (53 - e)) at 2 by lia. rewrite p2_add.
    pose proof (p2_pos (53 - e)). qnra. }
  destruct (Z.eq_dec (Z.abs r) (2 ^ 53)) as [E|E].
  - exists (r / 2), (1 + - (53 - e)). assert (D : r = 2 * (r / 2)).
    { pose proof (Z.div_mod r 2). assert (r mod 2 = 0); [|lia].
      destruct (Z_le_gt_dec 0 r); [replace r with (2 ^ 53) by lia|replace r with (- 2 ^ 53) by lia]; reflexivity. }
    split; [lia|]. rewrite D at 1. rewrite zq_mul, p2_add. change (p2 1) with (zq 2). ring.
  - exists r, (- (53 - e)). split; [lia|reflexivity].
Qed.

Lemma fround_idem q : fround (fround q) = fround q.
Proof. apply fround_double, fround_is_double. Qed.
