(** Proofs about quantile summaries. *)
From Verif Require Import PyBase QcBase FixedPointModel FixedPointSpec FixedPointProofs EncNumProofs FloatProofs
  QuantileModel QuantileSpec.
From Coq Require Import Lia.
Local Open Scope Z_scope.

(** ** Sorting *)
Global Instance Qcle_total : Total Qcle.
Proof. intros x y. destruct (Qclt_le_dec x y) as [H|H]; [left; now apply Qclt_le_weak|right; exact H]. Qed.
Global Instance Qcle_trans' : Transitive Qcle.
Proof. intros x y z. apply Qcle_trans. Qed.

Lemma sorted_perm l : sorted l ≡ₚ l.
Proof. apply merge_sort_Permutation. Qed.
Lemma sorted_ss l : StronglySorted Qcle (sorted l).
Proof. apply StronglySorted_merge_sort; apply _. Qed.
Lemma sorted_length l : length (sorted l) = length l.
Proof. now rewrite sorted_perm. Qed.

Lemma ss_app {A} (R : A -> A -> Prop) l k :
  StronglySorted R (l ++ k) <-> StronglySorted R l /\ StronglySorted R k /\ (forall x y, x ∈ l -> y ∈ k -> R x y).
Proof.
  induction l as [|a l IH]; simpl.
  - split; [intros H; repeat split; [constructor|exact H|intros x y Hx; inversion Hx]|intros (_ & H & _); exact H].
  - split.
    + intros H. apply StronglySorted_inv in H as [H F]. apply IH in H as (H1 & H2 & H3). rewrite Forall_app in F. destruct F as [F1 F2].
      repeat split; [now constructor|exact H2|]. intros x y [->|Hx]%elem_of_cons Hy; [|auto]. rewrite Forall_forall in F2. auto.
    + intros (H1 & H2 & H3). apply StronglySorted_inv in H1 as [H1 F]. constructor.
      * apply IH. repeat split; auto. intros x y Hx Hy. apply H3; [now right|exact Hy].
      * apply Forall_app. split; [exact F|]. apply Forall_forall. intros y Hy. apply H3; [now left|exact Hy].
Qed.

Lemma ss_lookup (l : list Qc) i j v w : StronglySorted Qcle l -> (i <= j)%nat -> l !! i = Some v -> l !! j = Some w -> (v <= w)%Qc.
Proof.
  intros H. revert i j. induction H as [|a l H IH F]; intros i j Hij Hi Hj; [discriminate|].
  destruct i as [|i], j as [|j]; simpl in *; simplify_eq; try lia; [apply Qcle_refl| |].
  - rewrite Forall_forall in F. apply F. eapply elem_of_list_lookup_2; eauto.
  - apply (IH i j); auto; lia.
Qed.

Lemma abnormal_mem x l : existsb (qeqb x) l = true <-> x ∈ l.
Proof.
  rewrite existsb_exists. split.
  - intros (y & Hy & E). apply qeqb_true in E. subst. now apply elem_of_list_In.
  - intros H. exists x. split; [now apply elem_of_list_In|now apply qeqb_true].
Qed.

(** ** One batch *)
Definition delta (e : Qc) (N w : Z) : Z := if (w =? 1) || (w =? N) then 0 else qfloor (two_err e w).

Section batch.
Variables (S : list Qc) (e : Qc).
Hypothesis SS : StronglySorted Qcle S.
Local Notation N := (Z.of_nat (length S)).
Hypothesis NB : N <= 2 ^ 50.
Hypothesis ED : is_double e.
Hypothesis E0 : (zq 0 <= e)%Qc.
Hypothesis E1 : (e <= zq 1)%Qc.

Definition at_pos (w : Z) (v : Qc) : Prop := 1 <= w <= N /\ S !! Z.to_nat (w - 1) = Some v.

Local Notation thr := (two_err e N).

Fixpoint ok_from (p : Z) (l : list stats) : Prop :=
  match l with
  | [] => p = N
  | s :: r => 1 <= st_g s /\ at_pos (p + st_g s) (st_value s) /\ st_delta s = delta e N (p + st_g s) /\
              (st_g s = 1 \/ (zq (st_g s + st_delta s) < thr)%Qc) /\ ok_from (p + st_g s) r
  end.

Lemma at_pos_mono w w' v v' : at_pos w v -> at_pos w' v' -> w <= w' -> (v <= v')%Qc.
Proof. intros [H1 H2] [H3 H4] H. eapply (ss_lookup S _ _ _ _ SS); [|exact H2|exact H4]. lia. Qed.
Lemma at_pos_fun w v v' : at_pos w v -> at_pos w v' -> v = v'.
Proof. intros [_ H] [_ H']. congruence. Qed.

(** *** Flushing into an empty summary *)
Lemma flush_empty hd : forall pre new, S = pre ++ hd -> length new = length pre ->
  exists l, flush_loop e hd [] new (Z.of_nat (length pre)) = (new ++ l, N) /\ ok_from (Z.of_nat (length pre)) l /\
    length l = length hd /\ Forall (fun s => st_g s = 1) l.
Proof.
  induction hd as [|x hd IH]; intros pre new HS Hn; cbn [flush_loop].
  - exists []. rewrite app_nil_r in *. subst pre. repeat split; constructor.
  - cbn [take_le]. rewrite app_nil_r.
    set (d := if _ || _ then _ else _).
    assert (LN : N = Z.of_nat (length pre) + 1 + Z.of_nat (length hd)) by (rewrite HS, app_length; simpl; lia).
    assert (Hd : d = delta e N (Z.of_nat (length pre) + 1)).
    { assert (B1 : (match new with [] => true | _ => false end) = (Z.of_nat (length pre) + 1 =? 1)).
      { destruct new; destruct pre; simpl in Hn; try discriminate; [reflexivity|]. symmetry. apply Z.eqb_neq. simpl. lia. }
      assert (B2 : (match hd with [] => true | _ => false end) = (Z.of_nat (length pre) + 1 =? N)).
      { destruct hd; symmetry; [apply Z.eqb_eq|apply Z.eqb_neq]; simpl in LN; lia. }
      unfold d, delta. now rewrite B1, B2. }
    destruct (IH (pre ++ [x]) (new ++ [ST x 1 d])) as (l & El & Ol & Ll & Gl).
    { now rewrite <- app_assoc. } { rewrite !app_length. simpl. lia. }
    rewrite app_length in El, Ol. cbn [length] in El, Ol.
    replace (Z.of_nat (length pre + 1)) with (Z.of_nat (length pre) + 1) in El, Ol by lia.
    exists (ST x 1 d :: l). split; [rewrite El, <- app_assoc; reflexivity|].
    split; [|split; [simpl; lia|constructor; [reflexivity|exact Gl]]].
    cbn [ok_from st_g st_value st_delta]. split; [lia|]. split.
    { split; [lia|]. rewrite HS. replace (Z.to_nat (Z.of_nat (length pre) + 1 - 1)) with (length pre) by lia.
      apply list_lookup_middle. reflexivity. }
    split; [exact Hd|]. split; [now left|exact Ol].
Qed.

(** *** Compressing *)
Lemma ok_from_app p l k : ok_from p (l ++ k) <->
  (forall k', ok_from (p + weight l) k' -> ok_from p (l ++ k')) /\ ok_from (p + weight l) k.
Proof.
  revert p. induction l as [|s l IH]; intros p; simpl.
  - rewrite Z.add_0_r. split; [intros H; split; auto|tauto].
  - rewrite IH. replace (p + (st_g s + weight l)) with (p + st_g s + weight l) by lia. split.
    + intros (A & B & C & D & E & F). split; [|exact F]. intros k' Hk. repeat (split; [assumption|]). apply E, Hk.
    + intros [A B]. destruct (A k B) as (A1 & A2 & A3 & A4 & A5). repeat (split; [assumption|]). split; [|exact B].
      intros k' Hk. destruct (A k' Hk) as (_ & _ & _ & _ & H). exact H.
Qed.

Lemma compress_loop_ok pre : forall p h acc, ok_from p (pre ++ h :: acc) ->
  exists h' acc', compress_loop thr h (rev pre) acc = h' :: acc' /\ ok_from p (h' :: acc').
Proof.
  induction pre as [|t pre IH] using rev_ind; intros p h acc H.
  - exists h, acc. split; [reflexivity|exact H].
  - rewrite rev_app_distr. cbn [rev app compress_loop].
    rewrite <- app_assoc in H. cbn [app] in H. pose proof H as H0. apply ok_from_app in H0 as [HA HB].
    destruct (qltb _ _) eqn:Q.
    + apply qltb_true in Q. apply IH. apply HA. cbn [ok_from st_g st_value st_delta] in *.
      destruct HB as (A1 & A2 & A3 & A4 & B1 & B2 & B3 & B4 & B5).
      replace (p + weight pre + (st_g h + st_g t)) with (p + weight pre + st_g t + st_g h) by lia.
      split; [lia|]. split; [exact B2|]. split; [exact B3|]. split; [right|exact B5].
      now replace (st_g h + st_g t + st_delta h) with (st_g t + st_g h + st_delta h) by lia.
    + apply (IH p t (h :: acc)). exact H.
Qed.

(** The state of a one-batch summary. *)
Definition batch_ok (l : list stats) : Prop :=
  match l with [] => N = 0 | s :: r => st_g s = 1 /\ ok_from 0 (s :: r) end.

Lemma ok_from_ge p l v s r : ok_from p l -> at_pos p v -> l = s :: r -> (v <= st_value s)%Qc.
Proof. intros H Hv ->. destruct H as (G & A & _). eapply at_pos_mono; [exact Hv|exact A|]. lia. Qed.

Lemma compress_ok l : batch_ok l -> batch_ok (compress_immut thr l).
Proof.
  destruct l as [|f tl]; [auto|]. intros [G OK]. cbn [compress_immut].
  destruct (rev tl) as [|last mids] eqn:R.
  - apply (f_equal (@rev stats)) in R. rewrite rev_involutive in R. subst tl. split; assumption.
  - apply (f_equal (@rev stats)) in R. rewrite rev_involutive in R. simpl in R. subst tl.
    cbn [ok_from] in OK. destruct OK as (A1 & A2 & A3 & A4 & A5).
    destruct (compress_loop_ok (rev mids) _ last [] A5) as (h & acc & E & Oh). rewrite rev_involutive in E. rewrite E.
    assert (L : (st_value f <= st_value h)%Qc) by (eapply ok_from_ge; [exact Oh|exact A2|reflexivity]).
    apply qleb_true in L. rewrite L. split; [exact G|]. cbn [ok_from]. auto.
Qed.

(** *** The error terms *)
Definition te : Z := qceil (fround (e * zq N)).
Definition rk (q : Qc) : Z := qceil (fround (q * zq N)).

Lemma two_err_eq w : two_err e w = (fround (e * zq w) * zq 2)%Qc.
Proof.
  unfold two_err. replace (zq 2 * e)%Qc with (e * p2 1)%Qc by (change (p2 1) with (zq 2); ring).
  rewrite fround_scale, (fround_double e ED).
  replace (e * p2 1 * zq w)%Qc with (e * zq w * p2 1)%Qc by ring. rewrite fround_scale. reflexivity.
Qed.

Lemma fr_te : (fround (e * zq N) <= zq te)%Qc.
Proof. apply qceil_ge. Qed.
Lemma thr_te : (thr <= zq (2 * te))%Qc.
Proof. rewrite two_err_eq, zq_mul. pose proof fr_te. change (zq 2) with (Q2Qc (2 # 1)). qlra. Qed.

Lemma zN0 : (zq 0 <= zq N)%Qc. Proof. apply zq_le. lia. Qed.
Lemma zN50 : (zq N <= zq (2 ^ 50))%Qc. Proof. now apply zq_le. Qed.

Lemma qceil_le_iff q z : qceil q <= z <-> (q <= zq z)%Qc.
Proof.
  split.
  - intros H. eapply Qcle_trans; [apply qceil_ge|]. now apply zq_le.
  - intros H. pose proof (qceil_lt q) as L. assert (A : (zq (qceil q - 1) < zq z)%Qc) by (eapply Qclt_le_trans; eauto).
    rewrite zq_lt in A. lia.
Qed.
Lemma qceil_mono a b : (a <= b)%Qc -> qceil a <= qceil b.
Proof. intros H. apply qceil_le_iff. eapply Qcle_trans; [exact H|apply qceil_ge]. Qed.
Lemma qfloor_mono a b : (a <= b)%Qc -> qfloor a <= qfloor b.
Proof.
  intros H. pose proof (qfloor_le a). pose proof (qfloor_lt b). assert (A : (zq (qfloor a) < zq (qfloor b + 1))%Qc) by qlra.
  rewrite zq_lt in A. lia.
Qed.

Lemma te_nonneg : 0 <= te.
Proof.
  assert (F : (zq 0 <= fround (e * zq N))%Qc) by (apply fround_nonneg; pose proof zN0; rewrite zq_0 in *; qnra).
  pose proof fr_te as L. assert (A : (zq 0 <= zq te)%Qc) by (eapply Qcle_trans; eauto). now rewrite zq_le in A.
Qed.

Lemma delta_bounds w : 1 <= w <= N -> 0 <= delta e N w <= 2 * te.
Proof.
  intros Hw. unfold delta. pose proof te_nonneg. destruct (_ || _); [lia|].
  rewrite two_err_eq. split.
  - apply Z.le_trans with (qfloor (zq 0)); [rewrite qfloor_zq; lia|]. apply qfloor_mono.
    assert (F : (zq 0 <= fround (e * zq w))%Qc).
    { apply fround_nonneg. assert (W : (zq 0 <= zq w)%Qc) by (apply zq_le; lia). rewrite zq_0 in *. qnra. }
    rewrite zq_0 in *. change (zq 2) with (Q2Qc (2 # 1)). qlra.
  - apply Z.le_trans with (qfloor (zq (2 * te))); [|rewrite qfloor_zq; lia]. apply qfloor_mono.
    assert (M : (fround (e * zq w) <= fround (e * zq N))%Qc).
    { apply fround_mono. assert (W : (zq w <= zq N)%Qc) by (apply zq_le; lia). rewrite zq_0 in *. qnra. }
    pose proof fr_te. rewrite zq_mul. change (zq 2) with (Q2Qc (2 # 1)). qlra.
Qed.

Lemma gap g d : (g = 1 \/ (zq (g + d) < thr)%Qc) -> g = 1 \/ g + d <= 2 * te - 1.
Proof.
  intros [H|H]; [now left|right]. assert (A : (zq (g + d) < zq (2 * te))%Qc) by (eapply Qclt_le_trans; [exact H|exact thr_te]).
  rewrite zq_lt in A. lia.
Qed.

Lemma rel_err q : (zq 0 <= q)%Qc -> (q <= zq 1)%Qc ->
  (q * zq N - Q2Qc (1 # 8) <= fround (q * zq N))%Qc /\ (fround (q * zq N) <= q * zq N + Q2Qc (1 # 8))%Qc.
Proof.
  intros H0 H1. pose proof (fround_err (q * zq N)) as F. pose proof zN0 as Z0. pose proof zN50 as Z1.
  assert (A : qabs (q * zq N) = (q * zq N)%Qc).
  { destruct (qabs_spec (q * zq N)) as [[_ A]|[A _]]; [exact A|]. exfalso. rewrite zq_0 in *. qnra. }
  rewrite A in F. apply qabs_le in F as [F1 F2].
  change (p2 (-53)) with (Q2Qc (1 # 9007199254740992)) in *. change (zq (2 ^ 50)) with (Q2Qc (1125899906842624 # 1)) in Z1.
  assert (B : (q * zq N <= Q2Qc (1125899906842624 # 1))%Qc) by (rewrite zq_0, zq_1 in *; qnra).
  split; qlra.
Qed.

Lemma delta2 : 3 <= N -> 1 <= te -> delta e N 2 <= 2 * te - 1.
Proof.
  intros H3 HT. unfold delta. destruct (_ || _); [lia|].
  assert (EP : (zq 0 < e)%Qc).
  { destruct (Qcle_lt_or_eq _ _ E0) as [?|E]; [assumption|exfalso]. unfold te in HT. rewrite <- E in HT.
    replace (zq 0 * zq N)%Qc with (zq 0) in HT by (rewrite zq_0; ring). rewrite fround_0 in HT.
    assert (qceil (zq 0) <= 0) by (apply qceil_le_iff, Qcle_refl). lia. }
  assert (E2 : fround (e * zq 2)%Qc = (e * zq 2)%Qc).
  { change (zq 2) with (p2 1). now rewrite fround_scale, (fround_double e ED). }
  assert (L : (fround (e * zq N) >= e * zq 3 - Q2Qc (1 # 9007199254740992) * (e * zq 3))%Qc).
  { assert (M : (fround (e * zq 3) <= fround (e * zq N))%Qc).
    { apply fround_mono. assert (W : (zq 3 <= zq N)%Qc) by (apply zq_le; lia). rewrite zq_0 in *. qnra. }
    pose proof (fround_err (e * zq 3)) as F. apply qabs_le in F as [F _]. change (p2 (-53)) with (Q2Qc (1 # 9007199254740992)) in F.
    assert (A : qabs (e * zq 3) = (e * zq 3)%Qc).
    { destruct (qabs_spec (e * zq 3)) as [[_ A]|[A _]]; [exact A|]. exfalso. change (zq 3) with (Q2Qc (3 # 1)) in *. rewrite zq_0 in *. qlra. }
    rewrite A in F. qlra. }
  rewrite two_err_eq, E2. pose proof fr_te as FT.
  assert (Q : (e * zq 2 * zq 2 < zq (2 * te))%Qc).
  { rewrite zq_mul. change (zq 2) with (Q2Qc (2 # 1)) in *. change (zq 3) with (Q2Qc (3 # 1)) in *. rewrite zq_0 in *. qlra. }
  pose proof (qfloor_le (e * zq 2 * zq 2)). assert (A : (zq (qfloor (e * zq 2 * zq 2)) < zq (2 * te))%Qc) by qlra.
  rewrite zq_lt in A. lia.
Qed.

(** *** Scanning *)
Definition started (p r : Z) : Prop := p + te <= r \/ (p = 1 /\ r = te /\ 1 <= te).

Lemma scan_step p s r0 rest r : 1 <= p -> ok_from p (s :: r0 :: rest) -> started p r ->
  r <= p + st_g s - 1 + te -> p + st_g s - 1 + st_delta s - te <= r.
Proof.
  intros Hp (G & A & D & GP & O & AO & _) Hs Hle. apply gap in GP.
  destruct (A) as [PA _]. destruct AO as [PO _]. rewrite D in *. pose proof (delta_bounds (p + st_g s) ltac:(lia)) as DB.
  destruct Hs as [Hs|(-> & -> & T)].
  - destruct GP as [GP|GP]; lia.
  - destruct GP as [GP|GP]; [|lia]. rewrite GP in *. change (1 + 1) with 2 in *. pose proof (delta2 ltac:(lia) T). lia.
Qed.

Lemma last_pos l : forall p x vx, ok_from p l -> at_pos p vx -> st_value x = vx -> at_pos N (st_value (List.last l x)).
Proof.
  induction l as [|s l IH]; intros p x vx Ho Hp Hx.
  - simpl in Ho. subst p. cbn. now rewrite Hx.
  - destruct Ho as (G & A & _ & _ & O). destruct l as [|s' l].
    + simpl in O. cbn. now rewrite <- O.
    + change (List.last (s :: s' :: l) x) with (List.last (s' :: l) x).
      assert (LL : forall t a b, List.last (t :: l) a = List.last (t :: l) b).
      { clear. induction l as [|u l IH]; intros t a b; [reflexivity|]. apply (IH u). }
      rewrite (LL s' x s). exact (IH (p + st_g s) s (st_value s) O A eq_refl).
Qed.

Lemma scan_ok l : forall p r last vp, 1 <= p -> ok_from p l -> at_pos p vp -> started p r -> r <= N -> at_pos N last ->
  exists j, at_pos j (scan r te (p - 1) l last) /\ p <= j /\ Z.abs (j - r) <= te + 1.
Proof.
  pose proof te_nonneg as T0.
  induction l as [|s l IH]; intros p r last vp Hp Ho Hv Hs Hr HL; cbn [scan].
  - simpl in Ho. exists N. split; [exact HL|]. destruct Hs as [Hs|(-> & -> & ?)]; lia.
  - destruct l as [|s' l].
    + destruct Ho as (G & A & D & GP & O). simpl in O. apply gap in GP. exists N. split; [exact HL|]. split; [lia|].
      pose proof (delta_bounds (p + st_g s) ltac:(destruct A; lia)) as DB. rewrite <- D in DB.
      destruct Hs as [Hs|(-> & -> & ?)]; destruct GP; lia.
    + cbv zeta. pose proof (scan_step p s s' l r Hp Ho Hs) as ST. destruct Ho as (G & A & D & GP & O).
      destruct (Z.leb_spec (p - 1 + st_g s + st_delta s - te) r) as [L1|L1], (Z.leb_spec r (p - 1 + st_g s + te)) as [L2|L2]; cbn [andb].
      * exists (p + st_g s). split; [exact A|]. split; [lia|]. 
        pose proof (delta_bounds (p + st_g s) ltac:(destruct A; lia)) as DB. rewrite <- D in DB. lia.
      * replace (p - 1 + st_g s) with (p + st_g s - 1) by lia.
        destruct (IH (p + st_g s) r last (st_value s)) as (j & J1 & J2 & J3); auto; [lia|left; lia|]. exists j. split; [exact J1|]. lia.
      * lia.
      * replace (p - 1 + st_g s) with (p + st_g s - 1) by lia.
        destruct (IH (p + st_g s) r last (st_value s)) as (j & J1 & J2 & J3); auto; [lia|left; lia|]. exists j. split; [exact J1|]. lia.
Qed.

Lemma scan_mono l : forall p r r' last vp, 1 <= p -> ok_from p l -> at_pos p vp -> started p r -> r <= r' -> r' <= N -> at_pos N last ->
  (scan r te (p - 1) l last <= scan r' te (p - 1) l last)%Qc.
Proof.
  pose proof te_nonneg as T0.
  induction l as [|s l IH]; intros p r r' last vp Hp Ho Hv Hs Hr Hr' HL; cbn [scan]; [apply Qcle_refl|].
  destruct l as [|s' l]; [apply Qcle_refl|]. cbv zeta.
  pose proof (scan_step p s s' l r Hp Ho Hs) as ST1. destruct Ho as (G & A & D & GP & O).
  replace (p - 1 + st_g s) with (p + st_g s - 1) by lia.
  assert (GE : forall x, started (p + st_g s) x -> x <= N -> (st_value s <= scan x te (p + st_g s - 1) (s' :: l) last)%Qc).
  { intros x Hx HxN. destruct (scan_ok (s' :: l) (p + st_g s) x last (st_value s)) as (j & J1 & J2 & _); auto; [lia|].
    eapply at_pos_mono; [exact A|exact J1|lia]. }
  assert (S' : started p r') by (destruct Hs as [?|(-> & -> & ?)]; [left; lia|]; destruct (Z.eq_dec r' te); [right; auto|left; lia]).
  destruct (Z.leb_spec (p + st_g s - 1 + st_delta s - te) r) as [L1|L1], (Z.leb_spec r (p + st_g s - 1 + te)) as [L2|L2]; cbn [andb]; try lia.
  - destruct (Z.leb_spec (p + st_g s - 1 + st_delta s - te) r') as [L3|L3], (Z.leb_spec r' (p + st_g s - 1 + te)) as [L4|L4]; cbn [andb]; try lia.
    + apply Qcle_refl. + apply GE; [left; lia|exact Hr'].
  - rewrite (proj2 (Z.leb_gt r' (p + st_g s - 1 + te))) by lia. rewrite andb_false_r.
    apply (IH (p + st_g s) r r' last (st_value s)); auto; [lia|left; lia].
  - rewrite (proj2 (Z.leb_gt r' (p + st_g s - 1 + te))) by lia. rewrite andb_false_r.
    apply (IH (p + st_g s) r r' last (st_value s)); auto; [lia|left; lia].
Qed.

(** *** Queries *)
Lemma rk_bounds q : (zq 0 <= q)%Qc -> (q <= zq 1)%Qc -> 0 <= rk q <= N.
Proof.
  intros H0 H1. pose proof zN0 as Z0. unfold rk. split.
  - assert (F : (zq 0 <= fround (q * zq N))%Qc) by (apply fround_nonneg; rewrite zq_0 in *; qnra).
    pose proof (qceil_ge (fround (q * zq N))) as C. assert (A : (zq 0 <= zq (qceil (fround (q * zq N))))%Qc) by (eapply Qcle_trans; eauto).
    now rewrite zq_le in A.
  - apply qceil_le_iff. rewrite <- (fround_zq N) at 2 by lia. apply fround_mono. rewrite zq_0, zq_1 in *. qnra.
Qed.

Lemma rk_mono q q' : (q <= q')%Qc -> rk q <= rk q'.
Proof. intros H. apply qceil_mono, fround_mono. pose proof zN0. rewrite zq_0 in *. qnra. Qed.

Lemma started_1 q : (e < q)%Qc -> 0 < N -> started 1 (rk q).
Proof.
  intros H HN. assert (L : te <= rk q).
  { apply qceil_mono, fround_mono. pose proof zN0. rewrite zq_0 in *. qnra. }
  destruct (Z.eq_dec (rk q) te) as [E|E]; [|left; lia]. destruct (Z_le_gt_dec 1 te) as [T|T]; [right; auto|].
  exfalso. pose proof te_nonneg. assert (rk q <= 0) as R by lia. unfold rk in R. apply qceil_le_iff in R.
  assert (P : (zq 0 < q * zq N)%Qc).
  { assert (PN : (zq 0 < zq N)%Qc) by (apply zq_lt; lia). rewrite zq_0 in *. assert (0 < q)%Qc by qlra. qnra. }
  destruct (fround_binade_pos _ P) as [B _]. pose proof (p2_pos (frexp_e (q * zq N) - 1)). rewrite zq_0 in *. qlra.
Qed.

Lemma edge_hi q : (fround (zq 1 - e) <= q)%Qc -> (q <= zq 1)%Qc -> (zq 0 <= q)%Qc -> N - rk q <= te.
Proof.
  intros H H1 H0. pose proof (rel_err q H0 H1) as [R1 _]. pose proof (rel_err e E0 E1) as [R2 _].
  pose proof (fround_err (zq 1 - e)) as F. apply qabs_le in F as [F _].
  assert (A : qabs (zq 1 - e) = (zq 1 - e)%Qc).
  { destruct (qabs_spec (zq 1 - e)) as [[_ A]|[A _]]; [exact A|]. exfalso. rewrite zq_1 in *. qlra. }
  rewrite A in F. change (p2 (-53)) with (Q2Qc (1 # 9007199254740992)) in F.
  pose proof (qceil_ge (fround (q * zq N))) as C. fold (rk q) in C. pose proof fr_te as FT.
  pose proof zN0 as Z0. pose proof zN50 as Z1. change (zq (2 ^ 50)) with (Q2Qc (1125899906842624 # 1)) in Z1.
  assert (QN : ((zq 1 - e) * zq N - Q2Qc (1 # 8) <= q * zq N)%Qc).
  { assert (QE : (zq 1 - e - Q2Qc (1 # 9007199254740992) <= q)%Qc) by (rewrite zq_0, zq_1 in *; qlra).
    rewrite zq_0, zq_1 in *. 
    assert (QM : ((1 - e - Q2Qc (1 # 9007199254740992)) * zq N <= q * zq N)%Qc) by qnra. qlra. }
  assert (L : (zq (N - rk q) < zq (te + 1))%Qc).
  { rewrite zq_sub, zq_add. rewrite zq_1 in *. change (zq 1) with 1%Qc. 
    assert (EX : ((1 - e) * zq N = zq N - e * zq N)%Qc) by ring. rewrite EX in QN. qlra. }
  rewrite zq_lt in L. lia.
Qed.

Definition qv (l : list stats) (q : Qc) : Qc :=
  match l with
  | [] => zq 0
  | first :: tl =>
      let last := st_value (List.last tl first) in
      if qleb q e then st_value first
      else if qleb (fround (zq 1 - e)) q then last
      else scan (rk q) te 0 tl last
  end.

Lemma qv_ok l q : batch_ok l -> 0 < N -> (zq 0 <= q)%Qc -> (q <= zq 1)%Qc ->
  exists j, at_pos j (qv l q) /\ Z.abs (j - rk q) <= te + 1.
Proof.
  intros Hl HN H0 H1. destruct l as [|f tl]; [simpl in Hl; lia|]. destruct Hl as [G (G1 & A & D & GP & O)].
  rewrite G in *. change (0 + 1) with 1 in *. pose proof (rk_bounds q H0 H1) as RB. pose proof te_nonneg.
  pose proof (last_pos tl 1 f (st_value f) O A eq_refl) as LP. cbn [qv]. cbv zeta.
  destruct (qleb q e) eqn:Q1.
  - apply qleb_true in Q1. exists 1. split; [exact A|].
    assert (rk q <= te) by (apply qceil_mono, fround_mono; pose proof zN0; rewrite zq_0 in *; qnra). lia.
  - apply qleb_false in Q1. destruct (qleb _ q) eqn:Q2.
    + apply qleb_true in Q2. exists N. split; [exact LP|]. pose proof (edge_hi q Q2 H1 H0). lia.
    + destruct (scan_ok tl 1 (rk q) _ (st_value f) ltac:(lia) O A (started_1 q Q1 HN) ltac:(lia) LP) as (j & J1 & _ & J3).
      exists j. split; [exact J1|exact J3].
Qed.

Lemma qv_mono l q q' : batch_ok l -> 0 < N -> (zq 0 <= q)%Qc -> (q' <= zq 1)%Qc -> (q <= q')%Qc -> (qv l q <= qv l q')%Qc.
Proof.
  intros Hl HN H0 H1 Hq.
  destruct (qv_ok l q' Hl HN) as (j & J1 & _); [eapply Qcle_trans; eauto|exact H1|].
  destruct (qv_ok l q Hl HN H0) as (i & I1 & _); [eapply Qcle_trans; eauto|].
  destruct l as [|f tl]; [simpl in Hl; lia|]. destruct Hl as [G (G1 & A & D & GP & O)].
  rewrite G in *. change (0 + 1) with 1 in *. 
  pose proof (last_pos tl 1 f (st_value f) O A eq_refl) as LP.
  cbn [qv] in *. cbv zeta in *. destruct (qleb q e) eqn:Q1.
  - eapply at_pos_mono; [exact A|exact J1|]. destruct J1. lia.
  - apply qleb_false in Q1. assert (Q1' : qleb q' e = false) by (apply qleb_false; eapply Qclt_le_trans; eauto). rewrite Q1' in *.
    destruct (qleb _ q') eqn:Q2'.
    + eapply at_pos_mono; [exact I1|exact LP|]. destruct I1. lia.
    + assert (Q2 : qleb (fround (zq 1 - e)) q = false) by (apply qleb_false in Q2'; apply qleb_false; eapply Qcle_lt_trans; eauto).
      rewrite Q2 in *. apply qleb_false in Q1'.
      apply (scan_mono tl 1 (rk q) (rk q') _ (st_value f)); [lia|exact O|exact A|now apply started_1|now apply rk_mono| |exact LP].
      apply rk_bounds; [eapply Qcle_trans; eauto|exact H1].
Qed.
End batch.
