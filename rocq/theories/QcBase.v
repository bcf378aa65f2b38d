(** Exact rationals [Qc] as the model of Python floats: comparisons as booleans, integers and powers of
    two as rationals, and a linear-arithmetic tactic. *)
From Coq Require Export ZArith QArith Qcanon Qround Qpower Lqa Lia.
From Coq Require Import Psatz Bool.
Local Open Scope Qc_scope.

(** [a <= b], [a < b], [a == b] on numbers. *)
Definition qleb (a b : Qc) : bool := Qle_bool (this a) (this b).
Definition qltb (a b : Qc) : bool := negb (Qle_bool (this b) (this a)).
Definition qeqb (a b : Qc) : bool := Qeq_bool (this a) (this b).
(** [abs(a)], [max(a, b)] *)
Definition qabs (a : Qc) : Qc := if qleb 0 a then a else - a.
Definition qmax (a b : Qc) : Qc := if qltb a b then b else a.
(** int to number *)
Definition zq (z : Z) : Qc := Q2Qc (inject_Z z).
(** 2^e for any integer e *)
Definition p2 (e : Z) : Qc := Q2Qc (Qpower (2#1) e).
(** floor and ceiling *)
Definition qfloor (a : Qc) : Z := Qfloor (this a).
Definition qceil (a : Qc) : Z := Qceiling (this a).

Lemma Qc_eq_this (a b : Qc) : a = b <-> this a == this b.
Proof. split; [intros ->; reflexivity|apply Qc_is_canon]. Qed.

Lemma this_add a b : this (a + b) == this a + this b. Proof. apply Qred_correct. Qed.
Lemma this_mul a b : this (a * b) == this a * this b. Proof. apply Qred_correct. Qed.
Lemma this_opp a : this (- a) == - this a. Proof. apply Qred_correct. Qed.
Lemma this_sub a b : this (a - b) == this a - this b.
Proof. unfold Qcminus. rewrite this_add, this_opp. reflexivity. Qed.
Lemma this_inv a : this (/ a) == / this a. Proof. apply Qred_correct. Qed.
Lemma this_Q2Qc q : this (Q2Qc q) == q. Proof. apply Qred_correct. Qed.
Lemma this_zq z : this (zq z) == inject_Z z. Proof. apply Qred_correct. Qed.
Lemma this_div a b : this (a / b) == this a / this b.
Proof. unfold Qcdiv, Qdiv. rewrite this_mul, this_inv. reflexivity. Qed.

Lemma qleb_true a b : qleb a b = true <-> a <= b.
Proof. unfold qleb. apply Qle_bool_iff. Qed.
Lemma qleb_false a b : qleb a b = false <-> b < a.
Proof.
  unfold qleb, Qclt. rewrite <- not_true_iff_false, Qle_bool_iff. split.
  - apply Qnot_le_lt.
  - apply Qlt_not_le.
Qed.
Lemma qltb_true a b : qltb a b = true <-> a < b.
Proof. unfold qltb. rewrite negb_true_iff. apply (qleb_false b a). Qed.
Lemma qltb_false a b : qltb a b = false <-> b <= a.
Proof. unfold qltb. rewrite negb_false_iff. apply (qleb_true b a). Qed.
Lemma qeqb_true a b : qeqb a b = true <-> a = b.
Proof. unfold qeqb. rewrite Qeq_bool_iff. symmetry. apply Qc_eq_this. Qed.
Lemma qeqb_false a b : qeqb a b = false <-> a <> b.
Proof. rewrite <- not_true_iff_false, qeqb_true. reflexivity. Qed.

(** Turn goals and hypotheses about [Qc] into goals about [Q] with variables [this x]. *)
Ltac qc_push :=
  repeat match goal with
  | H : @eq Qc _ _ |- _ => apply (proj1 (Qc_eq_this _ _)) in H
  | H : not (@eq Qc _ _) |- _ => rewrite Qc_eq_this in H
  | H : qleb _ _ = true |- _ => apply qleb_true in H
  | H : qleb _ _ = false |- _ => apply qleb_false in H
  | H : qltb _ _ = true |- _ => apply qltb_true in H
  | H : qltb _ _ = false |- _ => apply qltb_false in H
  | H : Qclt _ _ |- _ => unfold Qclt in H
  | H : Qcle _ _ |- _ => unfold Qcle in H
  | |- @eq Qc _ _ => apply (proj2 (Qc_eq_this _ _))
  end;
  unfold Qclt, Qcle in *;
  repeat match goal with
  | |- context [this (Qcplus ?a ?b)] => rewrite (this_add a b)
  | |- context [this (Qcminus ?a ?b)] => rewrite (this_sub a b)
  | |- context [this (Qcopp ?a)] => rewrite (this_opp a)
  | |- context [this (Qcmult ?a ?b)] => rewrite (this_mul a b)
  | |- context [this (Qcdiv ?a ?b)] => rewrite (this_div a b)
  | |- context [this (Qcinv ?a)] => rewrite (this_inv a)
  | |- context [this (zq ?a)] => rewrite (this_zq a)
  | |- context [this (Q2Qc ?a)] => rewrite (this_Q2Qc a)
  | H : context [this (Qcplus ?a ?b)] |- _ => rewrite (this_add a b) in H
  | H : context [this (Qcminus ?a ?b)] |- _ => rewrite (this_sub a b) in H
  | H : context [this (Qcopp ?a)] |- _ => rewrite (this_opp a) in H
  | H : context [this (Qcmult ?a ?b)] |- _ => rewrite (this_mul a b) in H
  | H : context [this (Qcdiv ?a ?b)] |- _ => rewrite (this_div a b) in H
  | H : context [this (Qcinv ?a)] |- _ => rewrite (this_inv a) in H
  | H : context [this (zq ?a)] |- _ => rewrite (this_zq a) in H
  | H : context [this (Q2Qc ?a)] |- _ => rewrite (this_Q2Qc a) in H
  end;
  repeat match goal with
  | |- context [inject_Z ?z] =>
      match isZcst z with true => change (inject_Z z) with (Qmake z 1) end
  | H : context [inject_Z ?z] |- _ =>
      match isZcst z with true => change (inject_Z z) with (Qmake z 1) in H end
  end.
Ltac qlra := qc_push; lra.
Ltac qnra := qc_push; nra.

Example qlra_test (a b c : Qc) : a <= b -> b + 1 < c -> a - c < 0.
Proof. intros. qlra. Qed.
Example qlra_test2 (a b c : Qc) : a <= b -> a + b = c + c -> a <= c /\ zq 2 * a <= c + b.
Proof. intros. split; qlra. Qed.

Lemma zq_add a b : zq (a + b) = zq a + zq b.
Proof. qc_push. now rewrite inject_Z_plus. Qed.
Lemma zq_mul a b : zq (a * b) = zq a * zq b.
Proof. qc_push. now rewrite inject_Z_mult. Qed.
Lemma zq_opp a : zq (- a) = - zq a.
Proof. qc_push. now rewrite inject_Z_opp. Qed.
Lemma zq_sub a b : zq (a - b) = zq a - zq b.
Proof. unfold Z.sub, Qcminus. rewrite zq_add, zq_opp. reflexivity. Qed.
Lemma zq_le a b : zq a <= zq b <-> (a <= b)%Z.
Proof. unfold Qcle. rewrite !this_zq. now rewrite <- Zle_Qle. Qed.
Lemma zq_lt a b : zq a < zq b <-> (a < b)%Z.
Proof. unfold Qclt. rewrite !this_zq. now rewrite <- Zlt_Qlt. Qed.
Lemma zq_inj a b : zq a = zq b <-> a = b.
Proof.
  split; [|intros ->; reflexivity]. rewrite Qc_eq_this, !this_zq. apply inject_Z_injective.
Qed.
Lemma zq_0 : zq 0 = 0. Proof. reflexivity. Qed.
Lemma zq_1 : zq 1 = 1. Proof. reflexivity. Qed.

Lemma p2_0 : p2 0 = 1. Proof. reflexivity. Qed.
Lemma p2_pos e : 0 < p2 e.
Proof. unfold p2, Qclt. rewrite (this_Q2Qc (Qpower _ _)). apply Qpower_0_lt. reflexivity. Qed.
Lemma p2_nz e : p2 e <> 0.
Proof. pose proof (p2_pos e) as H. intros E. rewrite E in H. revert H. apply Qlt_irrefl. Qed.
Lemma p2_add a b : p2 (a + b) = p2 a * p2 b.
Proof.
  apply Qc_eq_this. rewrite this_mul. unfold p2. rewrite !this_Q2Qc.
  apply Qpower_plus. discriminate.
Qed.
Lemma p2_opp a : p2 (- a) = / p2 a.
Proof.
  assert (H : p2 a * p2 (- a) = 1) by (rewrite <- p2_add, Z.add_opp_diag_r; reflexivity).
  rewrite <- (Qcmult_1_l (p2 (- a))).
  rewrite <- (Qcmult_inv_l (p2 a)) by apply p2_nz.
  rewrite <- Qcmult_assoc, H. ring.
Qed.
Lemma p2_nonneg e : (0 <= e)%Z -> p2 e = zq (2 ^ e).
Proof.
  intros He. apply Qc_eq_this. unfold p2. rewrite this_Q2Qc, this_zq.
  symmetry. now apply Zpower_Qpower.
Qed.
Lemma p2_le a b : (a <= b)%Z -> p2 a <= p2 b.
Proof.
  intros H. replace b with (a + (b - a))%Z by lia. rewrite p2_add.
  assert (H1 : 1 <= p2 (b - a)).
  { rewrite p2_nonneg by lia. rewrite <- zq_1. apply zq_le.
    pose proof (Z.pow_pos_nonneg 2 (b - a)). lia. }
  pose proof (p2_pos a). qc_push. nra.
Qed.
Lemma p2_lt a b : (a < b)%Z -> p2 a < p2 b.
Proof.
  intros H. assert (H1 : p2 (a + 1) <= p2 b) by (apply p2_le; lia).
  rewrite p2_add in H1. assert (H2 : p2 1 = zq 2) by reflexivity. rewrite H2 in H1.
  pose proof (p2_pos a). qc_push. change (inject_Z 2) with (2#1) in *. lra.
Qed.
Lemma p2_lt_inv a b : p2 a < p2 b -> (a < b)%Z.
Proof.
  intros H. destruct (Z_lt_le_dec a b) as [Hlt|Hle]; [exact Hlt|].
  apply p2_le in Hle. exfalso. qlra.
Qed.

Lemma qabs_spec a : (0 <= a /\ qabs a = a) \/ (a < 0 /\ qabs a = - a).
Proof.
  unfold qabs. destruct (qleb 0 a) eqn:E.
  - left. now apply qleb_true in E.
  - right. now apply qleb_false in E.
Qed.
Lemma qabs_nonneg a : 0 <= qabs a.
Proof. destruct (qabs_spec a) as [[H ->]|[H ->]]; qlra. Qed.
Lemma qabs_le a b : qabs a <= b <-> - b <= a /\ a <= b.
Proof. destruct (qabs_spec a) as [[H ->]|[H ->]]; split; intros; repeat split; qlra. Qed.
Lemma qabs_lt a b : qabs a < b <-> - b < a /\ a < b.
Proof. destruct (qabs_spec a) as [[H ->]|[H ->]]; split; intros; repeat split; qlra. Qed.
Lemma qabs_opp a : qabs (- a) = qabs a.
Proof.
  destruct (qabs_spec a) as [[H E]|[H E]], (qabs_spec (- a)) as [[H' E']|[H' E']]; rewrite E, E'; qlra.
Qed.
Lemma qabs_mul a b : qabs (a * b) = qabs a * qabs b.
Proof.
  destruct (qabs_spec a) as [[H E]|[H E]], (qabs_spec b) as [[H2 E2]|[H2 E2]],
    (qabs_spec (a * b)) as [[H' E']|[H' E']]; rewrite E, E2, E'; qc_push; nra.
Qed.
Lemma qabs_zq z : qabs (zq z) = zq (Z.abs z).
Proof.
  destruct (qabs_spec (zq z)) as [[H E]|[H E]]; rewrite E.
  - rewrite <- zq_0, zq_le in H. now rewrite Z.abs_eq.
  - rewrite <- zq_0 in H. rewrite zq_lt in H. rewrite <- zq_opp, Z.abs_neq by lia. reflexivity.
Qed.
Lemma qabs_triangle a b : qabs (a + b) <= qabs a + qabs b.
Proof.
  destruct (qabs_spec a) as [[H E]|[H E]], (qabs_spec b) as [[H2 E2]|[H2 E2]],
    (qabs_spec (a + b)) as [[H' E']|[H' E']]; rewrite E, E2, E'; qlra.
Qed.

Lemma qfloor_spec a z : qfloor a = z <-> zq z <= a /\ a < zq (z + 1).
Proof.
  unfold qfloor, Qcle, Qclt. rewrite !this_zq. split.
  - intros <-. split; [apply Qfloor_le|apply Qlt_floor].
  - intros [H1 H2]. pose proof (Qfloor_le (this a)) as H3. pose proof (Qlt_floor (this a)) as H4.
    assert (H5 : (inject_Z z < inject_Z (Qfloor (this a) + 1))%Q) by (eapply Qle_lt_trans; eassumption).
    assert (H6 : (inject_Z (Qfloor (this a)) < inject_Z (z + 1))%Q) by (eapply Qle_lt_trans; eassumption).
    rewrite <- Zlt_Qlt in H5, H6. lia.
Qed.
Lemma qfloor_le a : zq (qfloor a) <= a.
Proof. now apply (qfloor_spec a (qfloor a)). Qed.
Lemma qfloor_lt a : a < zq (qfloor a + 1).
Proof. now apply (qfloor_spec a (qfloor a)). Qed.
Lemma qfloor_zq z : qfloor (zq z) = z.
Proof. apply qfloor_spec. split; [apply zq_le; lia|apply zq_lt; lia]. Qed.
Lemma qceil_spec a z : qceil a = z <-> zq (z - 1) < a /\ a <= zq z.
Proof.
  unfold qceil, Qceiling.
  transitivity (qfloor (- a) = (- z)%Z).
  - unfold qfloor. rewrite (Qfloor_comp _ _ (this_opp a)). lia.
  - rewrite qfloor_spec. replace (- z + 1)%Z with (- (z - 1))%Z by lia. rewrite !zq_opp.
    split; intros [H1 H2]; split; qlra.
Qed.
Lemma qceil_ge a : a <= zq (qceil a).
Proof. now apply (qceil_spec a (qceil a)). Qed.
Lemma qceil_lt a : zq (qceil a - 1) < a.
Proof. now apply (qceil_spec a (qceil a)). Qed.
