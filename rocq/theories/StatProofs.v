(** Proofs about the running statistics. *)
From Verif Require Export DTableSpec DTableProofs StatSpec FixedPointSpec FixedPointProofs FloatProofs QuantileSpec QuantileProofs QuantileHist QuantileFit QuantileTable.
Local Open Scope Qc_scope.

Lemma addup_app a b : addup (a ++ b) = addup a + addup b.
Proof. induction a as [|x a IH]; [change (addup b = 0 + addup b); ring|]. change (x + addup (a ++ b) = x + addup a + addup b). rewrite IH. ring. Qed.
Lemma squares_app a b : squares (a ++ b) = squares a + squares b.
Proof. unfold squares. rewrite map_app. apply addup_app. Qed.
Lemma addup_one x : addup [x] = x. Proof. change (x + 0 = x). ring. Qed.
Lemma squares_one x : squares [x] = x * x. Proof. change (x * x + 0 = x * x). ring. Qed.
Lemma addup_cons x l : addup (x :: l) = x + addup l. Proof. reflexivity. Qed.

Lemma abnormal_test l v : existsb (qeqb v) l = true <-> v ∈ l.
Proof.
  rewrite existsb_exists. split.
  - intros (x & I & E%qeqb_true). subst. now apply elem_of_list_In.
  - intros I. exists v. split; [now apply elem_of_list_In|now apply qeqb_true].
Qed.
Lemma abnormal_dec l v : existsb (qeqb v) l = bool_decide (v ∈ l).
Proof.
  destruct (existsb _ _) eqn:E; symmetry.
  - apply bool_decide_eq_true. now apply abnormal_test.
  - apply bool_decide_eq_false. intros I%abnormal_test. congruence.
Qed.

Section Rnd.
  Context (rnd : Qc -> Qc) (abn : list Qc).

  Lemma add_value_eq s v : ss_abnormal s = abn -> (v ∈ abn \/ squarable v) ->
    add_value rnd s v = Ok (if decide (v ∈ abn) then s else
      SStat abn (rnd (ss_sum s + v)) (rnd (ss_square s + rnd (v * v))) (if qltb (ss_max s) v then v else ss_max s) (if qltb v (ss_min s) then v else ss_min s) (ss_count s + 1)).
  Proof.
    intros A H. unfold add_value. rewrite A, abnormal_dec. destruct (decide (v ∈ abn)) as [D|D].
    - now rewrite bool_decide_eq_true_2.
    - rewrite bool_decide_eq_false_2 by exact D. unfold py_square. destruct H as [H|H]; [contradiction|]. apply qleb_false in H. rewrite H. reflexivity.
  Qed.
  Lemma add_value_big s v : ss_abnormal s = abn -> v ∉ abn -> ~ squarable v -> add_value rnd s v = Err OverflowError.
  Proof.
    intros A N H. unfold add_value. rewrite A, abnormal_dec, bool_decide_eq_false_2 by exact N. unfold py_square.
    destruct (qleb _ _) eqn:E; [reflexivity|]. apply qleb_false in E. contradiction.
  Qed.

  (** A history raises exactly if it sees a value that is too large, and then OverflowError. *)
  Lemma play_cases p : (exists s, play rnd abn p = Ok s /\ ss_abnormal s = abn /\ forall v, v ∈ seen abn p -> squarable v) \/
    play rnd abn p = Err OverflowError /\ exists v, v ∈ seen abn p /\ ~ squarable v.
  Proof.
    induction p as [|p IH v|p IH q IH']; cbn [play seen].
    - left. eexists. split; [reflexivity|]. split; [reflexivity|]. intros v H. now apply elem_of_nil in H.
    - destruct IH as [(s & -> & A & H)|(-> & w & W & NS)]; cbn [mbind res_bind].
      + destruct (decide (v ∈ abn)) as [D|D].
        * left. exists s. rewrite add_value_eq by auto. rewrite decide_True by exact D. auto.
        * destruct (Qclt_le_dec (v * v) (zq float_limit)) as [L|L].
          -- left. rewrite add_value_eq by auto. rewrite decide_False by exact D. eexists. split; [reflexivity|]. split; [reflexivity|].
             intros w [W|W%elem_of_list_singleton]%elem_of_app; [now apply H|now subst].
          -- right. apply Qcle_not_lt in L. split; [now apply add_value_big|]. exists v. split; [apply elem_of_app; right; now left|exact L].
      + right. split; [reflexivity|]. exists w. split; [|exact NS]. destruct (decide _); [exact W|apply elem_of_app; now left].
    - destruct IH as [(s & -> & A & H)|(-> & w & W & NS)]; cbn [mbind res_bind]; [destruct IH' as [(o & -> & A' & H')|(-> & w & W & NS)]; cbn [mbind res_bind]|].
      + left. eexists. split; [reflexivity|]. split; [exact A|]. intros w [W|W]%elem_of_app; auto.
      + right. split; [reflexivity|]. exists w. split; [apply elem_of_app; now right|exact NS].
      + right. split; [reflexivity|]. exists w. split; [apply elem_of_app; now left|exact NS].
  Qed.
  (** What an induction over histories needs. *)
  Lemma play_ind (P : list Qc -> nat -> sstat -> Prop) :
    P [] 0%nat (ss_new abn) ->
    (forall l n s v, ss_abnormal s = abn -> v ∉ abn -> squarable v -> P l n s -> P (l ++ [v]) (S n)
       (SStat abn (rnd (ss_sum s + v)) (rnd (ss_square s + rnd (v * v))) (if qltb (ss_max s) v then v else ss_max s) (if qltb v (ss_min s) then v else ss_min s) (ss_count s + 1))) ->
    (forall l n s, P l n s -> P l (S n) s) ->
    (forall l n s l' n' s', P l n s -> P l' n' s' -> P (l ++ l') (S (n + n')) (ss_merge rnd s s')) ->
    forall p s, play rnd abn p = Ok s -> P (seen abn p) (ops p) s.
  Proof.
    intros H0 HA HS HM. assert (G : forall p s, play rnd abn p = Ok s -> ss_abnormal s = abn /\ P (seen abn p) (ops p) s).
    2: { intros p s E. now apply G. }
    induction p as [|p IH v|p IH q IH']; intros s E; cbn [play seen ops] in *.
    - injection E as <-. now split.
    - destruct (play rnd abn p) as [s'|e]; cbn [mbind res_bind] in E; [|discriminate E]. destruct (IH s' eq_refl) as [A I].
      destruct (decide (v ∈ abn)) as [D|D].
      + rewrite add_value_eq in E by auto. rewrite decide_True in E by exact D. injection E as <-. split; [exact A|]. now apply HS.
      + destruct (Qclt_le_dec (v * v) (zq float_limit)) as [L|L].
        * rewrite add_value_eq in E by auto. rewrite decide_False in E by exact D. injection E as <-. split; [reflexivity|]. now apply HA.
        * apply Qcle_not_lt in L. rewrite add_value_big in E by auto. discriminate E.
    - destruct (play rnd abn p) as [s1|e]; cbn [mbind res_bind] in E; [|discriminate E].
      destruct (play rnd abn q) as [s2|e]; cbn [mbind res_bind] in E; [|discriminate E]. injection E as <-.
      destruct (IH s1 eq_refl) as [A I]. destruct (IH' s2 eq_refl) as [A' I']. split; [exact A|]. now apply HM.
  Qed.

  (** Count, maximum and minimum do not depend on rounding. *)
  Lemma play_order p s : play rnd abn p = Ok s ->
    ss_count s = Z.of_nat (length (seen abn p)) /\
    (forall x, x ∈ seen abn p -> x <= ss_max s) /\ zq (- (2 ^ 63)) <= ss_max s /\ (ss_max s ∈ seen abn p \/ ss_max s = zq (- (2 ^ 63))) /\
    (forall x, x ∈ seen abn p -> ss_min s <= x) /\ ss_min s <= zq (2 ^ 63 - 1) /\ (ss_min s ∈ seen abn p \/ ss_min s = zq (2 ^ 63 - 1)).
  Proof.
    revert p s. apply (play_ind (fun l _ s => ss_count s = Z.of_nat (length l) /\
      (forall x, x ∈ l -> x <= ss_max s) /\ zq (- (2 ^ 63)) <= ss_max s /\ (ss_max s ∈ l \/ ss_max s = zq (- (2 ^ 63))) /\
      (forall x, x ∈ l -> ss_min s <= x) /\ ss_min s <= zq (2 ^ 63 - 1) /\ (ss_min s ∈ l \/ ss_min s = zq (2 ^ 63 - 1)))); auto.
    - cbn [ss_count ss_max ss_min ss_new]. repeat split; try apply Qcle_refl; auto; intros x H; now apply elem_of_nil in H.
    - intros l n s v _ _ _ (C & M1 & M2 & M3 & m1 & m2 & m3). cbn [ss_count ss_max ss_min].
      split. { rewrite app_length. cbn [length]. lia. }
      assert (X : (if qltb (ss_max s) v then v else ss_max s) = v /\ ss_max s <= v \/ (if qltb (ss_max s) v then v else ss_max s) = ss_max s /\ v <= ss_max s).
      { destruct (qltb _ _) eqn:E; [left|right]; split; auto. - apply qltb_true in E. now apply Qclt_le_weak. - now apply qltb_false in E. }
      assert (Y : (if qltb v (ss_min s) then v else ss_min s) = v /\ v <= ss_min s \/ (if qltb v (ss_min s) then v else ss_min s) = ss_min s /\ ss_min s <= v).
      { destruct (qltb v (ss_min s)) eqn:E; [left|right]; split; auto. - apply qltb_true in E. now apply Qclt_le_weak. - now apply qltb_false in E. }
      assert (EL : forall x, x ∈ l ++ [v] <-> x ∈ l \/ x = v) by (intros x; rewrite elem_of_app; now rewrite elem_of_list_singleton).
      setoid_rewrite EL. split; [|split; [|split; [|split; [|split]]]].
      + intros x [I| ->]; destruct X as [[-> L]|[-> L]]; [eapply Qcle_trans; [apply M1, I|exact L]|now apply M1|apply Qcle_refl|exact L].
      + destruct X as [[-> L]|[-> L]]; [|exact M2]. eapply Qcle_trans; [exact M2|exact L].
      + destruct X as [[-> L]|[-> L]]; [left; now right|tauto].
      + intros x [I| ->]; destruct Y as [[-> L]|[-> L]]; [eapply Qcle_trans; [exact L|apply m1, I]|now apply m1|apply Qcle_refl|exact L].
      + destruct Y as [[-> L]|[-> L]]; [|exact m2]. eapply Qcle_trans; [exact L|exact m2].
      + destruct Y as [[-> L]|[-> L]]; [left; now right|tauto].
    - intros l n s l' n' s' (C & M1 & M2 & M3 & m1 & m2 & m3) (C' & M1' & M2' & M3' & m1' & m2' & m3'). cbn [ss_count ss_max ss_min ss_merge].
      split. { rewrite app_length. lia. }
      assert (X : (if qltb (ss_max s) (ss_max s') then ss_max s' else ss_max s) = ss_max s' /\ ss_max s <= ss_max s' \/ (if qltb (ss_max s) (ss_max s') then ss_max s' else ss_max s) = ss_max s /\ ss_max s' <= ss_max s).
      { destruct (qltb _ _) eqn:E; [left|right]; split; auto. - apply qltb_true in E. now apply Qclt_le_weak. - now apply qltb_false in E. }
      assert (Y : (if qltb (ss_min s') (ss_min s) then ss_min s' else ss_min s) = ss_min s' /\ ss_min s' <= ss_min s \/ (if qltb (ss_min s') (ss_min s) then ss_min s' else ss_min s) = ss_min s /\ ss_min s <= ss_min s').
      { destruct (qltb (ss_min s') _) eqn:E; [left|right]; split; auto. - apply qltb_true in E. now apply Qclt_le_weak. - now apply qltb_false in E. }
      setoid_rewrite elem_of_app. split; [|split; [|split; [|split; [|split]]]].
      + intros x [I|I]; destruct X as [[-> L]|[-> L]]; auto; (eapply Qcle_trans; [|exact L]; auto).
      + destruct X as [[-> L]|[-> L]]; auto.
      + destruct X as [[-> L]|[-> L]]; tauto.
      + intros x [I|I]; destruct Y as [[-> L]|[-> L]]; auto; (eapply Qcle_trans; [exact L|]; auto).
      + destruct Y as [[-> L]|[-> L]]; auto.
      + destruct Y as [[-> L]|[-> L]]; tauto.
  Qed.
End Rnd.

(** Without rounding. *)
Lemma play_exact rnd abn p s : (forall x, rnd x = x) -> play rnd abn p = Ok s -> ss_sum s = addup (seen abn p) /\ ss_square s = squares (seen abn p).
Proof.
  intros R. revert p s. apply (play_ind rnd abn (fun l _ s => ss_sum s = addup l /\ ss_square s = squares l)); auto.
  - intros l n s v _ _ _ [-> ->]. cbn [ss_sum ss_square]. rewrite !R, addup_app, squares_app, addup_one, squares_one. auto.
  - intros l n s l' n' s' [A B] [C D]. cbn [ss_sum ss_square ss_merge]. rewrite !R, A, B, C, D, addup_app, squares_app. auto.
Qed.

Lemma addup_map_linear (l : list Qc) a b c : addup (map (fun x => a * (x * x) + b * x + c) l) = a * squares l + b * addup l + c * zq (Z.of_nat (length l)).
Proof.
  induction l as [|x l IH].
  - change (0 = a * 0 + b * 0 + c * 0). ring.
  - cbn [map length]. rewrite !addup_cons, IH. unfold squares. cbn [map]. rewrite addup_cons.
    replace (Z.of_nat (S (length l))) with (Z.of_nat (length l) + 1)%Z by lia. rewrite zq_add, zq_1. ring.
Qed.
Lemma len_nz (l : list Qc) : l <> [] -> zq (Z.of_nat (length l)) <> 0.
Proof. intros H E. rewrite <- zq_0 in E. apply zq_inj in E. destruct l; [congruence|cbn in E; lia]. Qed.
Lemma spread_eq (l : list Qc) : l <> [] ->
  spread l = squares l / zq (Z.of_nat (length l)) - zq 2 * addup l * average l / zq (Z.of_nat (length l)) + average l * average l.
Proof.
  intros NE. pose proof (len_nz l NE) as NZ. unfold spread, average at 1. rewrite map_length.
  rewrite (map_ext _ (fun x => 1 * (x * x) + (- (zq 2 * average l)) * x + average l * average l)).
  2: { intros x. change (zq 2) with (1 + 1). ring. }
  rewrite addup_map_linear. set (n := zq (Z.of_nat (length l))) in *. field. exact NZ.
Qed.
Lemma addup_nonneg l : (forall x, x ∈ l -> 0 <= x) -> 0 <= addup l.
Proof.
  induction l as [|x l IH]; intros H; [apply Qcle_refl|]. rewrite addup_cons.
  assert (0 <= x) by (apply H; now left). assert (0 <= addup l) by (apply IH; intros y Y; apply H; now right). qlra.
Qed.
Lemma spread_nonneg l : l <> [] -> 0 <= spread l.
Proof.
  intros NE. unfold spread, average at 1. rewrite map_length.
  assert (T : 0 <= addup (map (fun x => (x - average l) * (x - average l)) l)).
  { apply addup_nonneg. intros y (x & -> & _)%elem_of_list_fmap. generalize (x - average l). intros d. destruct (Qclt_le_dec d 0); qnra. }
  assert (P : 0 < zq (Z.of_nat (length l))). { rewrite <- zq_0. apply zq_lt. destruct l; [congruence|cbn; lia]. }
  assert (I : 0 < / zq (Z.of_nat (length l))).
  { destruct (Qclt_le_dec 0 (/ zq (Z.of_nat (length l)))) as [L|L]; [exact L|].
    assert (E : zq (Z.of_nat (length l)) * / zq (Z.of_nat (length l)) = 1) by (apply Qcmult_inv_r; now apply len_nz). exfalso. clear T. qnra. }
  unfold Qcdiv. generalize dependent (/ zq (Z.of_nat (length l))). intros q Q. qnra.
Qed.

(** ** With rounding to doubles *)
Definition unit_err : Qc := p2 (-53).
Definition magnitudes (l : list Qc) : Qc := addup (map qabs l).
Fixpoint growth (n : nat) : Qc := match n with O => 1 | S n => growth n * (1 + unit_err) end.
Lemma unit_pos : 0 < unit_err. Proof. apply p2_pos. Qed.
Lemma growth_ge n : 1 <= growth n.
Proof. induction n as [|n IH]; cbn [growth]; [apply Qcle_refl|]. pose proof unit_pos. qnra. Qed.
Lemma growth_add a b : growth (a + b) = growth a * growth b.
Proof. induction a as [|a IH]; cbn [growth plus]; [ring|]. rewrite IH. ring. Qed.
Lemma magnitudes_app a b : magnitudes (a ++ b) = magnitudes a + magnitudes b.
Proof. unfold magnitudes. rewrite map_app. apply addup_app. Qed.
Lemma magnitudes_nonneg l : 0 <= magnitudes l.
Proof. apply addup_nonneg. intros y (x & -> & _)%elem_of_list_fmap. apply qabs_nonneg. Qed.
Lemma addup_le_magnitudes l : qabs (addup l) <= magnitudes l.
Proof.
  induction l as [|x l IH]; [apply Qcle_refl|]. rewrite addup_cons. unfold magnitudes in *. cbn [map]. rewrite addup_cons.
  pose proof (qabs_triangle x (addup l)). qlra.
Qed.
(** One rounded addition. *)
Lemma round_step a A x X m M e : qabs (a - A) <= e * m -> qabs (x - X) <= e * M -> 0 <= e -> qabs A <= m -> qabs X <= M ->
  qabs (fround (a + x) - (A + X)) <= ((1 + e) * (1 + unit_err) - 1) * (m + M).
Proof.
  intros H1 H2 E HA HX. pose proof (fround_err (a + x)) as F. fold unit_err in F. pose proof unit_pos as U.
  pose proof (qabs_triangle (a - A) (x - X)) as T3.
  assert (T : qabs (a + x) <= (1 + e) * (m + M)).
  { pose proof (qabs_triangle (A + X) ((a - A) + (x - X))) as T1. replace (A + X + (a - A + (x - X))) with (a + x) in T1 by ring.
    pose proof (qabs_triangle A X) as T2. replace ((1 + e) * (m + M)) with (m + M + (e * m + e * M)) by ring. qlra. }
  pose proof (qabs_triangle (fround (a + x) - (a + x)) ((a - A) + (x - X))) as T1. replace (fround (a + x) - (a + x) + (a - A + (x - X))) with (fround (a + x) - (A + X)) in T1 by ring.
  assert (unit_err * qabs (a + x) <= unit_err * ((1 + e) * (m + M))) by (generalize dependent (qabs (a + x)); intros; clear - U T; qnra).
  replace (((1 + e) * (1 + unit_err) - 1) * (m + M)) with (unit_err * ((1 + e) * (m + M)) + (e * m + e * M)) by ring. qlra.
Qed.
Lemma growth_le a b : (a <= b)%nat -> growth a <= growth b.
Proof. intros H. replace b with (a + (b - a))%nat by lia. rewrite growth_add. pose proof (growth_ge a). pose proof (growth_ge (b - a)). qnra. Qed.
Lemma err_le a b m x : (a <= b)%nat -> 0 <= m -> x <= (growth a - 1) * m -> x <= (growth b - 1) * m.
Proof. intros H M L. pose proof (growth_le a b H) as G. generalize dependent (growth a). generalize dependent (growth b). intros. qnra. Qed.
Lemma squares_nonneg l : 0 <= squares l.
Proof. apply addup_nonneg. intros y (x & -> & _)%elem_of_list_fmap. destruct (Qclt_le_dec x 0); qnra. Qed.
Lemma qabs_pos x : 0 <= x -> qabs x = x.
Proof. intros H. destruct (qabs_spec x) as [[_ E]|[L E]]; [exact E|]. exfalso. qlra. Qed.

Lemma play_error abn p s : play fround abn p = Ok s ->
  qabs (ss_sum s - addup (seen abn p)) <= (growth (ops p) - 1) * magnitudes (seen abn p) /\
  qabs (ss_square s - squares (seen abn p)) <= (growth (S (ops p)) - 1) * squares (seen abn p).
Proof.
  revert p s. apply (play_ind fround abn (fun l n s => qabs (ss_sum s - addup l) <= (growth n - 1) * magnitudes l /\ qabs (ss_square s - squares l) <= (growth (S n) - 1) * squares l)).
  - split.
    + change (qabs (0 - 0) <= (1 - 1) * 0). apply qabs_le; split; qlra.
    + change (qabs (0 - 0) <= (growth 1 - 1) * 0). replace ((growth 1 - 1) * 0) with 0 by ring. apply qabs_le; split; qlra.
  - intros l n s v _ _ _ [A B]. cbn [ss_sum ss_square]. rewrite addup_app, addup_one, squares_app, squares_one, magnitudes_app. unfold magnitudes at 2. cbn [map]. rewrite addup_one. split.
    + replace (growth (S n) - 1) with ((1 + (growth n - 1)) * (1 + unit_err) - 1) by (cbn [growth]; ring). apply round_step; auto.
      * replace (v - v) with 0 by ring. change (0 <= (growth n - 1) * qabs v). pose proof (growth_ge n). pose proof (qabs_nonneg v). qnra.
      * pose proof (growth_ge n). qlra.
      * apply addup_le_magnitudes.
    + replace (growth (S (S n)) - 1) with ((1 + (growth (S n) - 1)) * (1 + unit_err) - 1) by (cbn [growth]; ring).
      assert (V : 0 <= v * v) by (destruct (Qclt_le_dec v 0); qnra). apply round_step; auto.
      * pose proof (fround_err (v * v)) as F. rewrite (qabs_pos (v * v) V) in F. apply (err_le 1); [lia|exact V|]. cbn [growth]. fold unit_err in F.
        replace (1 * (1 + unit_err) - 1) with unit_err by ring. exact F.
      * pose proof (growth_ge (S n)). qlra.
      * rewrite qabs_pos; [apply Qcle_refl|apply squares_nonneg].
      * rewrite qabs_pos by exact V. apply Qcle_refl.
  - intros l n s [A B]. split; [apply (err_le n); auto using magnitudes_nonneg|apply (err_le (S n)); auto using squares_nonneg].
  - intros l n s l' n' s' [A B] [A' B']. cbn [ss_sum ss_square ss_merge]. rewrite addup_app, squares_app, magnitudes_app. split.
    + replace (growth (S (n + n')) - 1) with ((1 + (growth (n + n') - 1)) * (1 + unit_err) - 1) by (cbn [growth]; ring). apply round_step; auto using addup_le_magnitudes.
      * apply (err_le n); [lia|apply magnitudes_nonneg|exact A].
      * apply (err_le n'); [lia|apply magnitudes_nonneg|exact A'].
      * pose proof (growth_ge (n + n')). qlra.
    + replace (growth (S (S (n + n'))) - 1) with ((1 + (growth (S (n + n')) - 1)) * (1 + unit_err) - 1) by (cbn [growth]; ring). apply round_step.
      * apply (err_le (S n)); [lia|apply squares_nonneg|exact B].
      * apply (err_le (S n')); [lia|apply squares_nonneg|exact B'].
      * pose proof (growth_ge (S (n + n'))). qlra.
      * rewrite qabs_pos; [apply Qcle_refl|apply squares_nonneg].
      * rewrite qabs_pos; [apply Qcle_refl|apply squares_nonneg].
Qed.

(** Integers: no rounding error while the squares add up to at most 2^53. *)
Definition zsquares (l : list Z) : Z := foldr (fun z a => (z * z + a)%Z) 0%Z l.
Definition zaddup (l : list Z) : Z := foldr Z.add 0%Z l.
Lemma zsquares_app a b : zsquares (a ++ b) = (zsquares a + zsquares b)%Z.
Proof. induction a as [|x a IH]; [reflexivity|]. change (x * x + zsquares (a ++ b) = x * x + zsquares a + zsquares b)%Z. lia. Qed.
Lemma zaddup_app a b : zaddup (a ++ b) = (zaddup a + zaddup b)%Z.
Proof. induction a as [|x a IH]; [reflexivity|]. change (x + zaddup (a ++ b) = x + zaddup a + zaddup b)%Z. lia. Qed.
Lemma zsquares_nonneg a : (0 <= zsquares a)%Z.
Proof. induction a as [|x a IH]; [reflexivity|]. change (0 <= x * x + zsquares a)%Z. nia. Qed.
Lemma zaddup_le a : (Z.abs (zaddup a) <= zsquares a)%Z.
Proof. induction a as [|x a IH]; [reflexivity|]. change (Z.abs (x + zaddup a) <= x * x + zsquares a)%Z. nia. Qed.
Lemma addup_zq a : addup (map zq a) = zq (zaddup a).
Proof. induction a as [|x a IH]; [reflexivity|]. cbn [map]. rewrite addup_cons, IH. change (zaddup (x :: a)) with (x + zaddup a)%Z. now rewrite zq_add. Qed.
Lemma squares_zq a : squares (map zq a) = zq (zsquares a).
Proof. induction a as [|x a IH]; [reflexivity|]. unfold squares in *. cbn [map]. rewrite addup_cons, IH. change (zsquares (x :: a)) with (x * x + zsquares a)%Z. now rewrite zq_add, zq_mul. Qed.
Lemma play_integers abn p s : play fround abn p = Ok s -> forall zs, seen abn p = map zq zs -> (zsquares zs <= 2 ^ 53)%Z ->
  ss_sum s = zq (zaddup zs) /\ ss_square s = zq (zsquares zs).
Proof.
  revert p s. apply (play_ind fround abn (fun l _ s => forall zs, l = map zq zs -> (zsquares zs <= 2 ^ 53)%Z -> ss_sum s = zq (zaddup zs) /\ ss_square s = zq (zsquares zs))); auto.
  - intros [|z zs] E; [|discriminate E]. auto.
  - intros l n s v _ _ _ IH zs E L. symmetry in E. apply map_eq_app in E as (z1 & z2 & -> & <- & E2).
    destruct z2 as [|z [|z' z2]]; cbn [map] in E2; try discriminate E2. injection E2 as <-.
    pose proof L as L'. rewrite zsquares_app in L'. change (zsquares [z]) with (z * z + 0)%Z in L'. pose proof (zsquares_nonneg z1). destruct (IH z1 eq_refl ltac:(nia)) as [A B].
    pose proof (zaddup_le z1). cbn [ss_sum ss_square]. rewrite A, B, <- zq_mul, (fround_zq (z * z)) by nia. rewrite <- !zq_add, !fround_zq by nia.
    rewrite zsquares_app, zaddup_app. change (zsquares [z]) with (z * z + 0)%Z. change (zaddup [z]) with (z + 0)%Z. now rewrite !Z.add_0_r.
  - intros l n s l' n' s' IH IH' zs E L. symmetry in E. apply map_eq_app in E as (z1 & z2 & -> & <- & <-).
    pose proof L as L'. rewrite zsquares_app in L'. pose proof (zsquares_nonneg z1). pose proof (zsquares_nonneg z2).
    destruct (IH z1 eq_refl ltac:(lia)) as [A B]. destruct (IH' z2 eq_refl ltac:(lia)) as [A' B']. cbn [ss_sum ss_square ss_merge].
    rewrite A, B, A', B', <- !zq_add. pose proof (zaddup_le z1). pose proof (zaddup_le z2). rewrite !fround_zq by lia. now rewrite zsquares_app, zaddup_app.
Qed.

(** ** Columns of a table *)
Definition adds (l : list Qc) : history := fold_left HAdd l HNew.
(** The values of column [i]. *)
Definition cells {K} (i : nat) (rows : list (K * list Qc)) : list Qc := omap (fun kv => kv.2 !! i) rows.
Definition as_wide {K} (w : nat) (rows : list (K * list Qc)) : Prop := Forall (fun kv => length kv.2 = w) rows.
Lemma seen_adds abn l : seen abn (adds l) = kept abn l.
Proof.
  unfold adds. induction l as [|x l IH] using rev_ind; [reflexivity|]. rewrite fold_left_app. cbn [fold_left seen]. rewrite IH. unfold kept. rewrite filter_app. destruct (decide (x ∈ abn)) as [D|D].
  - rewrite filter_cons_False by tauto. now rewrite filter_nil, app_nil_r.
  - rewrite filter_cons_True by tauto. now rewrite filter_nil.
Qed.

Section Tab.
  Context {N K : Type} `{EqDecision N} `{EqDecision K} (rnd : Qc -> Qc) (abn : list Qc).

  Lemma mapR_cols_err {V W} (f : nat -> V) (g : N * V -> res (N * W)) (h : nat -> W) e (header : list N) :
    (forall i c, header !! i = Some c -> g (c, f i) = Ok (c, h i) \/ g (c, f i) = Err e) ->
    (exists i c, header !! i = Some c /\ g (c, f i) = Err e) -> mapR g (cols_of f header) = Err e.
  Proof.
    unfold cols_of. revert f h. induction header as [|c header IH]; intros f h H (i & c' & Hi & E); [discriminate Hi|]. cbn [imap mapR].
    destruct (H 0%nat c eq_refl) as [E0|E0]; [|now rewrite E0]. rewrite E0. destruct i as [|i].
    - cbn in Hi. injection Hi as <-. rewrite E0 in E. discriminate E.
    - assert (X : mapR g (imap ((fun i c => (c, f i)) ∘ S) header) = Err e); [|now rewrite X]. apply (IH (f ∘ S) (h ∘ S)).
      + intros j d Hj. apply (H (S j) d Hj).
      + exists i, c'. auto.
  Qed.

  (** The row loop, from any histories: it ends with the statistics of each column's history, or it raises OverflowError because a
      value is too large. *)
  Lemma static_loop (header : list N) rows : NoDup header -> as_wide (K := K) (length header) rows -> forall (f : nat -> sstat) (h : nat -> history),
    (forall i, (i < length header)%nat -> play rnd abn (h i) = Ok (f i)) ->
    let go := foldM (fun d kv => mapR (fun cs => i ← dict_index cs.1 (cols_of id header); v ← list_index kv.2 i; s ← add_value rnd cs.2 v; Ok (cs.1, s)) d) (cols_of f header) rows in
    (exists f', go = Ok (cols_of f' header) /\ forall i, (i < length header)%nat -> play rnd abn (fold_left HAdd (cells i rows) (h i)) = Ok (f' i)) \/
    go = Err OverflowError /\ exists i v, (i < length header)%nat /\ v ∈ cells i rows /\ v ∉ abn /\ ~ squarable v.
  Proof.
    intros ND F. induction F as [|[k l] rows Hl F IH]; intros f h P; cbn [foldM].
    - left. exists f. auto.
    - cbn [snd] in Hl.
      set (g := fun cs : N * sstat => i ← dict_index cs.1 (cols_of id header); v ← list_index (k, l).2 i; s ← add_value rnd cs.2 v; Ok (cs.1, s)).
      set (val := fun i => default (zq 0) (l !! i)).
      assert (VL : forall i, (i < length header)%nat -> l !! i = Some (val i)). { intros i Hi. unfold val. destruct (lookup_lt_is_Some_2 l i) as [x ->]; [lia|reflexivity]. }
      assert (G : forall i c, header !! i = Some c -> g (c, f i) = (s ← play rnd abn (HAdd (h i) (val i)); Ok (c, s))).
      { intros i c Hi. pose proof (lookup_lt_Some _ _ _ Hi) as LI. unfold g. cbn [fst snd]. unfold dict_index. rewrite (cols_get id header i c ND Hi). unfold list_index, id. cbn [mbind res_bind].
        rewrite (VL i LI). cbn [play]. rewrite (P i LI). reflexivity. }
      set (f1 := fun i => match play rnd abn (HAdd (h i) (val i)) with Ok s => s | Err _ => f i end).
      assert (C : forall i, (i < length header)%nat -> play rnd abn (HAdd (h i) (val i)) = Ok (f1 i) \/
        play rnd abn (HAdd (h i) (val i)) = Err OverflowError /\ val i ∉ abn /\ ~ squarable (val i)).
      { intros i LI. unfold f1. pose proof (play_cases rnd abn (HAdd (h i) (val i))) as [(s & -> & _)|(E & _)]; [now left|right]. split; [exact E|].
        cbn [play] in E. rewrite (P i LI) in E. cbn [mbind res_bind] in E.
        destruct (play_cases rnd abn (h i)) as [(s & E' & A & _)|[E' _]]; rewrite (P i LI) in E'; [injection E' as <-|discriminate E'].
        destruct (decide (val i ∈ abn)) as [D|D]. { rewrite (add_value_eq _ abn) in E by auto. discriminate E. }
        split; [exact D|]. intros SQ. rewrite (add_value_eq _ abn) in E by auto. discriminate E. }
      assert (D : (exists i, (i < length header)%nat /\ play rnd abn (HAdd (h i) (val i)) = Err OverflowError) \/ ~ exists i, (i < length header)%nat /\ play rnd abn (HAdd (h i) (val i)) = Err OverflowError).
      { destruct (existsb (fun i => match play rnd abn (HAdd (h i) (val i)) with Ok _ => false | Err _ => true end) (seq 0 (length header))) eqn:E.
        - left. apply existsb_exists in E as (i & I & E). apply in_seq in I. exists i. split; [lia|]. destruct (C i ltac:(lia)) as [X|(X & _)]; [rewrite X in E; discriminate E|exact X].
        - right. intros (i & LI & X). apply not_true_iff_false in E. apply E. apply existsb_exists. exists i. split; [apply in_seq; lia|]. now rewrite X. }
      destruct D as [(i & LI & E)|NE].
      + right. destruct (lookup_lt_is_Some_2 header i LI) as [c Hc]. rewrite (mapR_cols_err f g f1 OverflowError header).
        * split; [reflexivity|]. exists i, (val i). destruct (C i LI) as [C'|(_ & A & B)]; [congruence|]. split; [exact LI|]. split; [|auto].
          unfold cells. cbn [omap list_omap snd]. rewrite (VL i LI). now left.
        * intros j d Hj. rewrite (G j d Hj). destruct (C j (lookup_lt_Some _ _ _ Hj)) as [->|(-> & _)]; [now left|now right].
        * exists i, c. split; [exact Hc|]. rewrite (G i c Hc), E. reflexivity.
      + assert (P1 : forall i, (i < length header)%nat -> play rnd abn (HAdd (h i) (val i)) = Ok (f1 i)). { intros i LI. destruct (C i LI) as [E|(E & _)]; [exact E|]. exfalso. apply NE. eauto. }
        rewrite (mapR_cols f g f1 header). 2: { intros i c Hi. rewrite (G i c Hi), (P1 i (lookup_lt_Some _ _ _ Hi)). reflexivity. }
        destruct (IH f1 (fun i => HAdd (h i) (val i)) P1) as [(f' & E & Q)|(E & i & v & LI & V & R)].
        * left. exists f'. split; [exact E|]. intros i LI. rewrite <- (Q i LI). unfold cells. cbn [omap list_omap snd]. rewrite (VL i LI). reflexivity.
        * right. split; [exact E|]. exists i, v. split; [exact LI|]. split; [|exact R]. unfold cells in *. cbn [omap list_omap snd]. rewrite (VL i LI). now right.
  Qed.
  Lemma static_ok (header : list N) (rows : list (K * list Qc)) : NoDup header -> as_wide (length header) rows ->
    (exists f, static_in_partition rnd (init_cols header) abn rows = Ok (cols_of f header) /\ forall i, (i < length header)%nat -> play rnd abn (adds (cells i rows)) = Ok (f i)) \/
    static_in_partition rnd (init_cols header) abn rows = Err OverflowError /\ exists i v, (i < length header)%nat /\ v ∈ cells i rows /\ v ∉ abn /\ ~ squarable v.
  Proof.
    intros ND W. unfold static_in_partition. rewrite (init_cols_spec header ND).
    rewrite (cols_map id (fun c => (c.1, ss_new abn)) (fun _ => ss_new abn) header) by reflexivity.
    destruct (static_loop header rows ND W (fun _ => ss_new abn) (fun _ => HNew) (fun _ _ => eq_refl)) as [A|A]; [left|right]; exact A.
  Qed.
  Lemma cells_app i (a b : list (K * list Qc)) : cells i (a ++ b) = cells i a ++ cells i b.
  Proof. apply omap_app. Qed.
  Lemma aggregate_ok (header : list N) (f f' : nat -> sstat) : NoDup header ->
    aggregate_statics rnd (Some (cols_of f header)) (Some (cols_of f' header)) = Ok (Some (cols_of (fun i => ss_merge rnd (f i) (f' i)) header)).
  Proof.
    intros ND. cbn [aggregate_statics]. rewrite (mapR_cols f _ (fun i => ss_merge rnd (f i) (f' i)) header); [reflexivity|].
    intros i c Hi. cbn [fst snd]. unfold dict_index. now rewrite (cols_get f' header i c ND Hi).
  Qed.
End Tab.

(** ** Dense tables of any length *)
Lemma insert_all_inv t h e a xs : qinv (kept a xs) (insert_all (qs_new t h e a) xs) /\ qs_abnormal (insert_all (qs_new t h e a) xs) = a.
Proof.
  induction xs as [|x xs [IH A]] using rev_ind; [split; [apply reach_inv; constructor|reflexivity]|].
  unfold insert_all. rewrite fold_left_app. cbn [fold_left]. fold (insert_all (qs_new t h e a) xs). split.
  - unfold kept. rewrite filter_app. pose proof (insert_inv _ _ x IH) as IH'. rewrite A in IH'. destruct (decide (x ∈ a)) as [D|D].
    + rewrite filter_cons_False by tauto. rewrite filter_nil, app_nil_r. exact IH'.
    + rewrite filter_cons_True by tauto. rewrite filter_nil. exact IH'.
  - revert A. generalize (insert_all (qs_new t h e a) xs). intros s A. unfold qs_insert. destruct (existsb _ _); [exact A|]. cbv zeta.
    assert (F : forall u, qs_abnormal (qs_flush u) = qs_abnormal u).
    { intros u. unfold qs_flush. destruct (qs_head u); [reflexivity|]. destruct (flush_loop _ _ _ _ _). reflexivity. }
    repeat case_match; cbn [qs_abnormal]; unfold qs_compress; cbn [qs_abnormal]; rewrite ?F; auto.
Qed.
Lemma query_points_ok xs rates : Forall (fun q => zq 0 <= q /\ q <= zq 1) rates -> forall s acc, qinv xs s -> exists l, query_points qs_query s rates acc = Ok l.
Proof.
  induction 1 as [|q rates [Q0 Q1] F IH]; intros s acc I; cbn [query_points]; [eauto|].
  destruct (query_inv xs s q I Q0 Q1) as (v & E & _). destruct (qs_query s q) as [s' r] eqn:EQ. cbn [snd] in E. subst r. cbn [mbind res_bind]. apply IH.
  replace s' with (fst (qs_query s q)) by (now rewrite EQ). unfold qs_query. cbn [fst]. now apply pre_inv.
Qed.
Lemma fit_dense_any {N} `{EqDecision N} p (header : list N) rows : NoDup header -> rows <> [] -> dense_rows (length header) rows -> exists sps, fit_split_points p header rows = Ok sps.
Proof.
  intros ND NE DR. destruct (rates_ok (bp_bin_num p)) as (RS & RD & RL).
  unfold fit_split_points. pose proof DR as DR'. destruct rows as [|r rows0] eqn:ER; [congruence|].
  apply Forall_cons in DR' as [(l0 & -> & _) _]. rewrite <- ER in *. clear ER. unfold approx_dense.
  rewrite (init_cols_spec header ND).
  rewrite (cols_map id (fun ci => (ci.1, qs_new (bp_thres p) (bp_head p) (bp_error p) (bp_abnormal p))) (fun _ => qs_new (bp_thres p) (bp_head p) (bp_error p) (bp_abnormal p)) header) by reflexivity.
  rewrite (dense_fold header rows ND DR). cbn [mbind res_bind].
  set (S := fun i => qs_compress (insert_all (qs_new (bp_thres p) (bp_head p) (bp_error p) (bp_abnormal p)) (column i rows))).
  rewrite (cols_map _ (fun cs => (cs.1, qs_compress cs.2)) S header) by reflexivity.
  assert (Q : forall i, exists sp, query_points qs_query (S i) (percentile_rates (bp_bin_num p)) [] = Ok sp).
  { intros i. apply (query_points_ok (kept (bp_abnormal p) (column i rows))).
    - eapply Forall_impl; [exact RD|]. intros q (_ & A & B). auto.
    - apply compress_inv. apply insert_all_inv. }
  exists (cols_of (fun i => match query_points qs_query (S i) (percentile_rates (bp_bin_num p)) [] with Ok sp => sp | Err _ => [] end) header).
  apply mapR_cols. intros i c Hi. cbn [fst snd]. destruct (Q i) as [sp ->]. reflexivity.
Qed.

Lemma all_squarable (l : list Qc) : (forall v, v ∈ l -> squarable v) \/ exists v, v ∈ l /\ ~ squarable v.
Proof.
  induction l as [|x l [IH|(v & V & N)]].
  - left. intros v H. now apply elem_of_nil in H.
  - destruct (Qclt_le_dec (x * x) (zq float_limit)) as [L|L].
    + left. intros v [->|H]%elem_of_cons; [exact L|auto].
    + right. exists x. split; [now left|]. now apply Qcle_not_lt.
  - right. exists v. split; [now right|exact N].
Qed.
Lemma dt_mapValues_keys' {K V W} `{EqDecision K} (f : V -> res W) (t : dtable K V) t' : NoDup (map fst (dt_data t)) -> dt_mapValues f t = Ok t' -> NoDup (map fst (dt_data t')).
Proof.
  intros ND E. unfold dt_mapValues in E. destruct (mapR _ _) as [l|e] eqn:EM; [|discriminate E].
  assert (K0 : map fst l = map fst (dt_data t)).
  { clear E ND. revert l EM. induction (dt_data t) as [|[k v] d IH]; intros l EM; cbn in EM; [injection EM as <-; reflexivity|].
    destruct (f v); [|discriminate EM]. destruct (mapR _ d) as [l'|]; [|discriminate EM]. injection EM as <-. cbn. f_equal. now apply IH. }
  rewrite dt_new_keyed_ok in E; [|change (NoDup (map fst l)); now rewrite K0]. injection E as <-. cbn [dt_data]. now rewrite K0.
Qed.
