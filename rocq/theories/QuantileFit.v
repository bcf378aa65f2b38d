(** One batch of insertions, sparse queries, and the fitted split points. *)
From Verif Require Import PyBase QcBase FixedPointModel FixedPointSpec FixedPointProofs EncNumProofs FloatProofs
  DTableModel DTableProofs QuantileModel QuantileSpec QuantileProofs QuantileHist.
From Coq Require Import Lia.
Local Open Scope Z_scope.

(** ** One batch *)
Definition settled (e : Qc) (L : list Qc) (s : qsum) : Prop :=
  qs_error s = e /\ qs_head s = [] /\ qs_count s = Z.of_nat (length L) /\ batch_ok (sorted L) e (qs_sampled s).
Definition pending (e : Qc) (L : list Qc) (s : qsum) : Prop :=
  qs_error s = e /\ qs_head s = L /\ qs_count s = 0 /\ qs_sampled s = [].

Lemma flush_pending e L s : pending e L s -> settled e L (qs_flush s).
Proof.
  intros (E & H & C & S). unfold qs_flush. rewrite H. destruct L as [|x L'] eqn:EL.
  - unfold settled. rewrite C, S, H. repeat split; auto.
  - rewrite <- EL in *. rewrite S, C, E. clear H.
    destruct (flush_empty (sorted L) e (sorted L) [] [] eq_refl eq_refl) as (l & F & O & Ln & G).
    cbn [length app] in F. rewrite sorted_length in F. change (Z.of_nat 0) with 0 in F. rewrite F. cbn [app].
    unfold settled. cbn [qs_error qs_head qs_count qs_sampled]. repeat split; auto.
    destruct l as [|s0 l]; [rewrite sorted_length, EL in Ln; discriminate|]. split; [now apply Forall_inv in G|exact O].
Qed.

Lemma compress_settled e L s : settled e L s -> settled e L (qs_compress s).
Proof.
  intros (E & H & C & B). unfold qs_compress, qs_flush. rewrite H. unfold settled. cbn [qs_error qs_head qs_count qs_sampled].
  split; [exact E|]. split; [exact H|]. split; [exact C|]. rewrite E, C. rewrite <- (sorted_length L). apply compress_ok; [apply sorted_ss|exact B].
Qed.
Lemma compress_pending e L s : pending e L s -> settled e L (qs_compress s).
Proof.
  intros P. apply flush_pending in P as (E & H & C & B). unfold qs_compress. unfold settled. cbn [qs_error qs_head qs_count qs_sampled].
  split; [exact E|]. split; [exact H|]. split; [exact C|]. rewrite E, C. rewrite <- (sorted_length L). apply compress_ok; [apply sorted_ss|exact B].
Qed.

Lemma insert_batch t h e a xs : Z.of_nat (length (kept a xs)) <= h ->
  let s := insert_all (qs_new t h e a) xs in
  qs_abnormal s = a /\ qs_head_size s = h /\
  (pending e (kept a xs) s \/ settled e (kept a xs) s /\ (kept a xs = [] \/ h <= Z.of_nat (length (kept a xs)))).
Proof.
  induction xs as [|x xs IH] using rev_ind; intros HL; cbv zeta.
  - cbn. split; [reflexivity|split; [reflexivity|left]]. repeat split.
  - unfold insert_all. rewrite fold_left_app. cbn [fold_left]. fold (insert_all (qs_new t h e a) xs).
    set (s := insert_all _ _) in *. unfold kept in *. rewrite filter_app in *. rewrite app_length in HL.
    destruct IH as (A & B & IH); [lia|].
    unfold qs_insert. rewrite A. destruct (existsb (qeqb x) a) eqn:Q.
    + apply abnormal_mem in Q. rewrite filter_cons_False by tauto. rewrite filter_nil, app_nil_r. auto.
    + assert (Q' : x ∉ a) by (rewrite <- abnormal_mem; congruence).
      rewrite filter_cons_True in * by exact Q'. rewrite filter_nil in *. cbv zeta.
      cbn [qs_abnormal qs_head_size qs_head]. cbn [length] in HL. set (L := filter (fun y => y ∉ a) xs) in *.
      set (s1 := QS _ _ _ _ _ _ _).
      assert (P : pending e (L ++ [x]) s1).
      { destruct IH as [(P1 & P2 & P3 & P4)|[(P1 & P2 & P3 & P4) [E|E]]]; [| |lia].
        - unfold pending, s1. cbn [qs_error qs_head qs_count qs_sampled]. rewrite P2. auto.
        - unfold pending, s1. cbn [qs_error qs_head qs_count qs_sampled]. rewrite P2, E in *. rewrite P1. repeat split; [rewrite P3; reflexivity|].
          destruct (qs_sampled s); [reflexivity|]. destruct P4 as [_ (_ & [A1 _] & _)]. cbn in A1. lia. }
      rewrite B. assert (Hs : qs_head s1 = L ++ [x]) by apply P. 
      assert (HH : qs_head s ++ [x] = L ++ [x]) by exact Hs. rewrite HH.
      destruct (Z.leb_spec h (Z.of_nat (length (L ++ [x])))) as [G|G].
      * assert (AB : qs_abnormal (qs_flush s1) = a /\ qs_head_size (qs_flush s1) = h).
        { unfold qs_flush. rewrite Hs. destruct (L ++ [x]); [auto|]. destruct (flush_loop _ _ _ _ _). auto. }
        pose proof (flush_pending _ _ _ P) as F.
        destruct (qs_thres (qs_flush s1) <=? _).
        -- assert (AB2 : qs_abnormal (qs_compress (qs_flush s1)) = a /\ qs_head_size (qs_compress (qs_flush s1)) = h).
           { assert (FF : qs_flush (qs_flush s1) = qs_flush s1) by (unfold qs_flush at 1; destruct F as (_ & F & _); now rewrite F).
             unfold qs_compress. rewrite FF. exact AB. }
           destruct AB2. split; [assumption|]. split; [assumption|]. right. split; [now apply compress_settled|right; exact G].
        -- destruct AB. split; [assumption|]. split; [assumption|]. right. split; [exact F|right; exact G].
      * split; [reflexivity|]. split; [exact B|]. left. exact P.
Qed.

Lemma compress_batch t h e a xs : Z.of_nat (length (kept a xs)) <= h ->
  settled e (kept a xs) (qs_compress (insert_all (qs_new t h e a) xs)).
Proof.
  intros H. destruct (insert_batch t h e a xs H) as (_ & _ & [P|[S _]]); [now apply compress_pending|now apply compress_settled].
Qed.

Lemma settled_query e L s q : settled e L s -> (zq 0 <= q)%Qc -> (q <= zq 1)%Qc ->
  qs_query s q = (s, Ok (qv (sorted L) e (qs_sampled s) q)).
Proof.
  intros (E & H & C & B) H0 H1. unfold qs_query. rewrite H. apply qltb_false in H0, H1. rewrite H0, H1. cbn [orb].
  rewrite C, E. f_equal. destruct (qs_sampled s) as [|f tl] eqn:ES.
  - cbn in B. rewrite sorted_length in B. rewrite B. reflexivity.
  - destruct B as [G (G1 & [A1 A2] & _)]. rewrite sorted_length in A1. destruct (Z.eqb_spec (Z.of_nat (length L)) 0); [lia|].
    cbn [qv]. unfold rk, te. rewrite sorted_length. destruct (qleb q e); [reflexivity|]. destruct (qleb _ q); reflexivity.
Qed.

(** A query on a summary that still has buffered values compresses it first. *)
Lemma batch_query t h e a xs q : Z.of_nat (length (kept a xs)) <= h -> (zq 0 <= q)%Qc -> (q <= zq 1)%Qc ->
  exists l, batch_ok (sorted (kept a xs)) e l /\
    forall q, (zq 0 <= q)%Qc -> (q <= zq 1)%Qc -> snd (qs_query (insert_all (qs_new t h e a) xs) q) = Ok (qv (sorted (kept a xs)) e l q).
Proof.
  intros H _ _. set (s := insert_all _ _). destruct (insert_batch t h e a xs H) as (_ & _ & [P|[S _]]).
  - fold s in P. pose proof (compress_pending _ _ _ P) as S. exists (qs_sampled (qs_compress s)). split; [apply S|].
    intros q' H0' H1'. destruct (kept a xs) as [|y L] eqn:EL.
    + destruct P as (P1 & P2 & P3 & P4). unfold qs_query. rewrite P2, P3. apply qltb_false in H0', H1'. rewrite H0', H1'. cbn.
      unfold qs_compress, qs_flush. rewrite P2. cbn [qs_sampled]. rewrite P4. reflexivity.
    + rewrite <- EL in *. pose proof (settled_query e _ _ q' S H0' H1') as Q. rewrite <- (f_equal snd Q : _ = Ok _).
      unfold qs_query. assert (Hs : qs_head s = kept a xs) by apply P. rewrite Hs, EL.
      assert (Hc : qs_head (qs_compress s) = []) by apply S. rewrite Hc. reflexivity.
  - fold s in S. exists (qs_sampled s). split; [apply S|]. intros q' H0' H1'. now rewrite (settled_query e _ _ q' S H0' H1').
Qed.

(** ** Bookkeeping facts of a settled summary *)
Lemma ok_from_split S e l : forall p pre x post, ok_from S e p l -> l = pre ++ x :: post -> at_pos S (p + weight pre + st_g x) (st_value x).
Proof.
  induction l as [|s l IH]; intros p pre x post H E; [destruct pre; discriminate|].
  destruct H as (G & A & _ & _ & O). destruct pre as [|y pre]; cbn [app] in E; simplify_eq.
  - change (weight []) with 0. now replace (p + 0 + st_g x) with (p + st_g x) by lia.
  - rewrite weight_cons. replace (p + (st_g y + weight pre) + st_g x) with (p + st_g y + weight pre + st_g x) by lia. now apply (IH _ pre x post).
Qed.
Lemma ok_from_weight S e l : forall p, ok_from S e p l -> p + weight l = Z.of_nat (length S).
Proof.
  induction l as [|s l IH]; intros p H; [cbn in H; change (weight []) with 0; lia|]. destruct H as (_ & _ & _ & _ & O).
  apply IH in O. rewrite weight_cons. lia.
Qed.
Lemma at_pos_rank xs j v : at_pos (sorted xs) j v -> at_rank xs j v.
Proof. intros [H1 H2]. split; [lia|]. exists (sorted xs). split; [apply sorted_ss|]. split; [apply sorted_perm|exact H2]. Qed.

(** Two sorted permutations are equal, so ranks have one value. *)
Lemma at_rank_pos xs j v : at_rank xs j v -> at_pos (sorted xs) j v.
Proof.
  intros (H & l & S & P & L). assert (E : l = sorted xs).
  { assert (AntiSymm eq Qcle) by (intros x y; apply Qcle_antisym).
    apply (StronglySorted_unique Qcle); [exact S|apply sorted_ss|now rewrite P, sorted_perm]. }
  subst l. split; [|exact L]. apply lookup_lt_Some in L. lia.
Qed.

(** ** Sparse queries *)
Lemma fround_small_over : fround (1 + p2 (-53))%Qc = 1%Qc.
Proof. apply Qc_is_canon. reflexivity. Qed.

Definition nsmaller (xs : list Qc) : Z := Z.of_nat (length (filter (fun x => (x < FLOAT_ZERO)%Qc) xs)).
Definition nbigger (xs : list Qc) : Z := Z.of_nat (length (filter (fun x => ~ (x < FLOAT_ZERO)%Qc) xs)).

Lemma sinsert_all_spec xs : forall s,
  sinsert_all s xs = SQ (insert_all (sq_base s) xs) (sq_smaller s + nsmaller xs) (sq_bigger s + nbigger xs) (sq_total s).
Proof.
  unfold nsmaller, nbigger. induction xs as [|x xs IH]; intros s; cbn [sinsert_all insert_all fold_left].
  - rewrite !filter_nil. cbn. destruct s. cbn. f_equal; lia.
  - unfold sinsert_all, insert_all in IH. rewrite IH. unfold sq_insert. destruct (qltb x FLOAT_ZERO) eqn:Q; cbn [sq_base sq_smaller sq_bigger sq_total].
    + apply qltb_true in Q. rewrite filter_cons_True by exact Q. rewrite (filter_cons_False (fun x => ~ _)) by tauto. cbn [length]. f_equal; lia.
    + apply qltb_false in Q. apply Qcle_not_lt in Q. rewrite filter_cons_False by exact Q. rewrite (filter_cons_True (fun x => ~ _)) by tauto. cbn [length]. f_equal; lia.
Qed.
Lemma nsum xs : nsmaller xs + nbigger xs = Z.of_nat (length xs).
Proof.
  unfold nsmaller, nbigger. induction xs as [|x xs IH]; [reflexivity|]. destruct (decide (x < FLOAT_ZERO)%Qc) as [H|H].
  - rewrite filter_cons_True, (filter_cons_False (fun x => ~ _)) by tauto. cbn [length]. lia.
  - rewrite filter_cons_False, (filter_cons_True (fun x => ~ _)) by tauto. cbn [length]. lia.
Qed.

Section sparse.
Variables (n s b t : Z).
Hypothesis SB : 0 <= s /\ 0 <= b /\ s + b = n.
Hypothesis NT : n <= t.
Hypothesis T1 : 1 <= t <= 2 ^ 53.

Definition lo : Qc := fround (zq s / zq t).
Definition up : Qc := fround (zq (t - b) / zq t).

Lemma tpos : (0 < zq t)%Qc. Proof. rewrite <- zq_0. apply zq_lt. lia. Qed.
Lemma tnz : zq t <> 0%Qc. Proof. pose proof tpos as H. intros E. rewrite E in H. revert H. apply Qclt_not_eq || (intros H; now apply Qclt_not_eq in H). Qed.

Lemma div_le a c : (a <= c * zq t)%Qc -> (a / zq t <= c)%Qc.
Proof.
  intros H. pose proof tpos. assert (E : (a / zq t * zq t = a)%Qc) by (field; apply tnz). rewrite <- E in H.
  apply (Qcmult_lt_0_le_reg_r _ _ (zq t)); assumption.
Qed.
Lemma div_ge a c : (c * zq t <= a)%Qc -> (c <= a / zq t)%Qc.
Proof.
  intros H. pose proof tpos. assert (E : (a / zq t * zq t = a)%Qc) by (field; apply tnz). rewrite <- E in H.
  apply (Qcmult_lt_0_le_reg_r _ _ (zq t)); assumption.
Qed.

Lemma lo_nonneg : (zq 0 <= lo)%Qc.
Proof. apply fround_nonneg. apply div_ge. rewrite zq_0. replace (0 * zq t)%Qc with (zq 0) by (rewrite zq_0; ring). apply zq_le. lia. Qed.

Lemma p53_double : is_double (1 - p2 (-53))%Qc.
Proof. exists (2 ^ 53 - 1), (-53). split; [lia|]. apply Qc_is_canon. reflexivity. Qed.

Lemma up_lt : 0 < b -> (up < 1)%Qc.
Proof.
  intros Hb. apply Qcle_lt_trans with (1 - p2 (-53))%Qc.
  - apply fround_le_double; [exact p53_double|]. apply div_le.
    change (p2 (-53)) with (Q2Qc (1 # 9007199254740992)).
    assert (B : (zq (t - b) <= zq t - 1)%Qc) by (rewrite <- zq_1, <- zq_sub; apply zq_le; lia).
    assert (TT : (zq t <= Q2Qc (9007199254740992 # 1))%Qc) by (change (Q2Qc (9007199254740992 # 1)) with (zq (2 ^ 53)); apply zq_le; lia).
    qlra.
  - pose proof (p2_pos (-53)). qlra.
Qed.

Lemma cq_low q : (zq 0 <= q)%Qc -> is_double q -> (q < lo)%Qc -> (zq 0 <= fround (fround (zq t / zq n) * q))%Qc /\ (fround (fround (zq t / zq n) * q) <= zq 1)%Qc.
Proof.
  intros H0 HD HL. assert (SP : 0 < s).
  { destruct (Z.eq_dec s 0) as [E|E]; [|lia]. exfalso. unfold lo in HL. rewrite E in HL. replace (zq 0 / zq t)%Qc with (zq 0) in HL by (rewrite zq_0; field; apply tnz).
    rewrite fround_0 in HL. revert HL. now apply Qcle_not_lt. }
  pose proof (double_lt_fround _ _ HD HL) as QL.
  assert (NP : (0 < zq n)%Qc) by (rewrite <- zq_0; apply zq_lt; lia).
  assert (NZ : zq n <> 0%Qc) by (intros E; rewrite E in NP; now apply Qclt_not_eq in NP).
  assert (TN : (0 < zq t / zq n)%Qc).
  { assert (E : (zq t / zq n * zq n = zq t)%Qc) by (field; exact NZ). pose proof tpos as TP. rewrite <- E in TP.
    destruct (Qclt_le_dec 0 (zq t / zq n)) as [L|L]; [exact L|]. exfalso. revert TP. generalize dependent (zq t / zq n)%Qc. intros u _ L TP. qnra. }
  assert (FP : (zq 0 <= fround (zq t / zq n))%Qc) by (apply fround_nonneg; now apply Qclt_le_weak).
  split; [apply fround_nonneg; rewrite zq_0 in *; qnra|].
  rewrite zq_1, <- fround_small_over. apply fround_mono.
  pose proof (fround_err (zq t / zq n)) as F. apply qabs_le in F as [_ F].
  assert (A : qabs (zq t / zq n) = (zq t / zq n)%Qc).
  { destruct (qabs_spec (zq t / zq n)) as [[_ A]|[A _]]; [exact A|]. exfalso. clear -A TN. qlra. }
  rewrite A in F.
  (* q < s/t, and (t/n) q <= s/n <= 1 *)
  assert (M : (zq t / zq n * q <= 1)%Qc).
  { assert (M1 : (q * zq t <= zq s)%Qc).
    { assert (E : (zq s / zq t * zq t = zq s)%Qc) by (field; apply tnz). rewrite <- E. apply Qcmult_le_compat_r; [now apply Qclt_le_weak|apply Qclt_le_weak, tpos]. }
    assert (SN : (zq s <= zq n)%Qc) by (apply zq_le; lia).
    apply (Qcmult_lt_0_le_reg_r _ _ (zq n)); [exact NP|]. replace (zq t / zq n * q * zq n)%Qc with (q * zq t)%Qc by (field; exact NZ). clear -M1 SN. qlra. }
  revert F M FP H0. generalize (fround (zq t / zq n)). generalize (zq t / zq n)%Qc. rewrite zq_0. change (p2 (-53)) with (Q2Qc (1 # 9007199254740992)).
  intros u w F M FP H0.
  assert (W : (w <= u + Q2Qc (1 # 9007199254740992) * u)%Qc) by (clear -F; qlra).
  assert (WQ : (w * q <= (u + Q2Qc (1 # 9007199254740992) * u) * q)%Qc) by (apply Qcmult_le_compat_r; assumption).
  clear -WQ M. replace ((u + Q2Qc (1 # 9007199254740992) * u) * q)%Qc with (u * q + Q2Qc (1 # 9007199254740992) * (u * q))%Qc in WQ by ring.
  revert WQ M. generalize (w * q)%Qc (u * q)%Qc. intros x y A B. qlra.
Qed.

Lemma d_pos : 0 < b -> (0 < fround (fround (zq 1 - up) + lo))%Qc.
Proof.
  intros Hb. pose proof (up_lt Hb) as U. pose proof lo_nonneg as L. rewrite zq_0 in L.
  assert (P1 : (0 < zq 1 - up)%Qc) by (rewrite zq_1; clear -U; qlra).
  assert (P : forall x, (0 < x)%Qc -> (0 < fround x)%Qc).
  { intros x Hx. assert (Hx' : (zq 0 < x)%Qc) by now rewrite zq_0. destruct (fround_binade_pos x Hx') as [B _]. eapply Qclt_le_trans; [apply p2_pos|exact B]. }
  apply P. specialize (P _ P1). clear -P L. qlra.
Qed.

Lemma div_mono_pos a c d : (0 < d)%Qc -> (a <= c)%Qc -> (a / d <= c / d)%Qc.
Proof.
  intros H L. assert (NZ : d <> 0%Qc) by (intros E; rewrite E in H; now apply Qclt_not_eq in H).
  apply (Qcmult_lt_0_le_reg_r _ _ d); [exact H|]. replace (a / d * d)%Qc with a by (field; exact NZ). now replace (c / d * d)%Qc with c by (field; exact NZ).
Qed.

Definition cq_hi (q : Qc) : Qc := fround (fround (fround (q - up) + lo) / fround (fround (zq 1 - up) + lo)).
Lemma cq_hi_mono q q' : 0 < b -> (q <= q')%Qc -> (cq_hi q <= cq_hi q')%Qc.
Proof.
  intros Hb H. apply fround_mono, div_mono_pos; [now apply d_pos|]. apply fround_mono.
  assert (F : (fround (q - up) <= fround (q' - up))%Qc) by (apply fround_mono; clear -H; qlra). clear -F. qlra.
Qed.
Lemma cq_hi_range q : 0 < b -> (up <= q)%Qc -> (q <= zq 1)%Qc -> (zq 0 <= cq_hi q)%Qc /\ (cq_hi q <= zq 1)%Qc.
Proof.
  intros Hb HU H1. pose proof (d_pos Hb) as D. pose proof (cq_hi_mono q (zq 1) Hb H1) as M. unfold cq_hi in *.
  set (d := fround (fround (zq 1 - up) + lo)) in *. clearbody d.
  assert (NZ : d <> 0%Qc) by (intros E; rewrite E in D; now apply Qclt_not_eq in D). split.
  - apply fround_nonneg. replace (zq 0) with (zq 0 / d)%Qc by (rewrite zq_0; field; exact NZ).
    apply div_mono_pos; [exact D|]. apply fround_nonneg. pose proof lo_nonneg as L.
    assert (F : (zq 0 <= fround (q - up))%Qc) by (apply fround_nonneg; rewrite zq_0; clear -HU; qlra). rewrite zq_0 in *. clear -F L. qlra.
  - eapply Qcle_trans; [exact M|]. replace (d / d)%Qc with (zq 1) by (rewrite zq_1; field; exact NZ).
    rewrite fround_zq by lia. apply Qcle_refl.
Qed.
End sparse.

Definition sparse_ok (n : Z) (t : Z) (s : sqsum) : Prop :=
  0 <= sq_smaller s /\ 0 <= sq_bigger s /\ sq_smaller s + sq_bigger s = n /\ qs_count (sq_base s) = n /\ sq_total s = t /\ n <= t /\ 1 <= t <= 2 ^ 53.

Definition in_band (s b t : Z) (q : Qc) : Prop := (lo s t <= q)%Qc /\ (b = 0 \/ (q <= up b t)%Qc).

(** What a sparse query does. *)
Lemma sq_query_spec n t s q : sparse_ok n t s -> is_double q -> (zq 0 <= q)%Qc -> (q <= zq 1)%Qc ->
  (in_band (sq_smaller s) (sq_bigger s) t q /\ sq_query s q = (s, Ok (zq 0))) \/
  (~ in_band (sq_smaller s) (sq_bigger s) t q /\ exists q', (zq 0 <= q')%Qc /\ (q' <= zq 1)%Qc /\ 0 < n /\
     q' = (if t - n =? 0 then q else if qltb q (lo (sq_smaller s) t) then fround (fround (zq t / zq n) * q) else cq_hi (sq_smaller s) (sq_bigger s) t q) /\
     sq_query s q = (let '(b, r) := qs_query (sq_base s) q' in (SQ b (sq_smaller s) (sq_bigger s) (sq_total s), r))).
Proof.
  intros (S0 & B0 & SB & C & T & NT & T1) HD H0 H1.
  assert (ZL : zero_lower s = Ok (lo (sq_smaller s) t)).
  { unfold zero_lower. rewrite T. destruct (Z.eqb_spec (sq_smaller s) 0) as [E|E].
    - rewrite E. unfold lo. replace (zq 0 / zq t)%Qc with (zq 0) by (rewrite zq_0; field; now apply tnz). now rewrite fround_0.
    - unfold truediv. destruct (Z.eqb_spec t 0); [lia|reflexivity]. }
  assert (ZU : zero_upper s = Ok (if sq_bigger s =? 0 then zq t else up (sq_bigger s) t)).
  { unfold zero_upper. rewrite T. destruct (Z.eqb_spec (sq_bigger s) 0) as [E|E]; [reflexivity|].
    unfold truediv. destruct (Z.eqb_spec t 0); [lia|]. unfold up. do 5 f_equal. lia. }
  unfold sq_query. rewrite ZL, ZU.
  destruct (qleb (lo (sq_smaller s) t) q && qleb q (if sq_bigger s =? 0 then zq t else up (sq_bigger s) t)) eqn:Q.
  - left. apply andb_true_iff in Q as [Q1 Q2]. apply qleb_true in Q1, Q2. split; [split; [exact Q1|]|reflexivity].
    destruct (Z.eqb_spec (sq_bigger s) 0); auto.
  - right.
    assert (NB : ~ in_band (sq_smaller s) (sq_bigger s) t q).
    { intros [I1 I2]. apply qleb_true in I1. rewrite I1 in Q. cbn [andb] in Q. apply qleb_false in Q. destruct (Z.eqb_spec (sq_bigger s) 0) as [E|E].
      - revert Q. apply Qcle_not_lt. eapply Qcle_trans; [exact H1|]. apply zq_le. lia.
      - destruct I2 as [I2|I2]; [lia|]. revert Q. now apply Qcle_not_lt. }
    split; [exact NB|]. unfold sq_convert. rewrite C, T, ZL, ZU.
    assert (NP : 0 < n).
    { destruct (Z.eq_dec n 0) as [E|E]; [|lia]. exfalso. apply NB. assert (sq_smaller s = 0) as E1 by lia. assert (sq_bigger s = 0) as E2 by lia.
      split; [|now left]. rewrite E1. unfold lo. replace (zq 0 / zq t)%Qc with (zq 0) by (rewrite zq_0; field; now apply tnz). now rewrite fround_0. }
    destruct (Z.eqb_spec (t - n) 0) as [E|E].
    + exists q. repeat split; auto.
    + cbn [mbind res_bind]. destruct (qltb q (lo (sq_smaller s) t)) eqn:QL.
      * apply qltb_true in QL. destruct (cq_low n (sq_smaller s) (sq_bigger s) t ltac:(lia) T1 q H0 HD QL) as [R0 R1].
        unfold truediv. destruct (Z.eqb_spec n 0); [lia|]. exists (fround (fround (zq t / zq n) * q)). repeat split; auto.
      * apply qltb_false in QL. assert (BP : 0 < sq_bigger s).
        { destruct (Z.eq_dec (sq_bigger s) 0) as [E2|E2]; [|lia]. exfalso. apply NB. split; [exact QL|now left]. }
        assert (QU : (up (sq_bigger s) t <= q)%Qc).
        { destruct (Qclt_le_dec q (up (sq_bigger s) t)) as [L|L]; [|exact L]. exfalso. apply NB. split; [exact QL|right; now apply Qclt_le_weak]. }
        destruct (Z.eqb_spec (sq_bigger s) 0) as [E2|E2]; [lia|].
        pose proof (d_pos n (sq_smaller s) (sq_bigger s) t ltac:(lia) T1 BP) as D.
        assert (QD : qeqb (fround (fround (zq 1 - up (sq_bigger s) t) + lo (sq_smaller s) t)) (zq 0) = false).
        { apply qeqb_false. intros E3. rewrite E3, zq_0 in D. now apply Qclt_not_eq in D. }
        rewrite QD. exists (cq_hi (sq_smaller s) (sq_bigger s) t q).
        destruct (cq_hi_range n (sq_smaller s) (sq_bigger s) t ltac:(lia) T1 q BP QU H1) as [R0 R1]. repeat split; auto.
Qed.

(** ** Sparse values from a settled summary *)
Section settled.
Variables (e : Qc) (xs : list Qc) (t : Z) (s : sqsum).
Hypothesis EO : err_ok e.
Hypothesis ST : settled e xs (sq_base s).
Hypothesis SP : sparse_ok (Z.of_nat (length xs)) t s.
Hypothesis LB : Z.of_nat (length xs) <= 2 ^ 50.
Hypothesis SM : sq_smaller s = nsmaller xs.
Hypothesis BG : sq_bigger s = nbigger xs.
Local Notation n := (Z.of_nat (length xs)).

Definition bv (q : Qc) : Qc := qv (sorted xs) e (qs_sampled (sq_base s)) q.

Lemma bv_in q : 0 < n -> (zq 0 <= q)%Qc -> (q <= zq 1)%Qc -> bv q ∈ xs.
Proof.
  intros N0 H0 H1. destruct EO as (E1 & E2 & E3). destruct ST as (_ & _ & _ & B).
  destruct (qv_ok (sorted xs) e ltac:(rewrite sorted_length; lia) E1 E2 E3 _ q B ltac:(rewrite sorted_length; lia) H0 H1) as (j & [_ J] & _).
  rewrite <- (sorted_perm xs). eapply elem_of_list_lookup_2. exact J.
Qed.
Lemma bv_mono q q' : 0 < n -> (zq 0 <= q)%Qc -> (q' <= zq 1)%Qc -> (q <= q')%Qc -> (bv q <= bv q')%Qc.
Proof.
  intros N0 H0 H1 H. destruct EO as (E1 & E2 & E3). destruct ST as (_ & _ & _ & B).
  apply (qv_mono (sorted xs) e (sorted_ss xs) ltac:(rewrite sorted_length; lia) E1 E2 E3); auto. rewrite sorted_length. lia.
Qed.

Definition conv (q : Qc) : Qc := if t - n =? 0 then q else if qltb q (lo (sq_smaller s) t) then fround (fround (zq t / zq n) * q) else cq_hi (sq_smaller s) (sq_bigger s) t q.
Definition bandb (q : Qc) : bool := qleb (lo (sq_smaller s) t) q && ((sq_bigger s =? 0) || qleb q (up (sq_bigger s) t)).
Definition sv (q : Qc) : Qc := if bandb q then zq 0 else bv (conv q).

Lemma bandb_spec q : bandb q = true <-> in_band (sq_smaller s) (sq_bigger s) t q.
Proof. unfold bandb, in_band. rewrite andb_true_iff, orb_true_iff, !qleb_true, Z.eqb_eq. reflexivity. Qed.

Lemma sq_sv q : is_double q -> (zq 0 <= q)%Qc -> (q <= zq 1)%Qc -> sq_query s q = (s, Ok (sv q)) /\
  (bandb q = false -> (zq 0 <= conv q)%Qc /\ (conv q <= zq 1)%Qc /\ 0 < n).
Proof.
  intros HD H0 H1. destruct (sq_query_spec _ _ _ q SP HD H0 H1) as [[B Q]|[B (q' & R0 & R1 & N0 & E & Q)]].
  - apply bandb_spec in B. unfold sv. rewrite B. split; [exact Q|discriminate].
  - assert (BF : bandb q = false) by (destruct (bandb q) eqn:Z; [apply bandb_spec in Z; contradiction|reflexivity]).
    unfold sv. rewrite BF. fold (conv q) in E. subst q'. rewrite Q, (settled_query e xs _ _ ST R0 R1).
    split; [f_equal; destruct s; reflexivity|]. auto.
Qed.

Lemma sv_in q : is_double q -> (zq 0 <= q)%Qc -> (q <= zq 1)%Qc -> sv q = zq 0 \/ sv q ∈ xs.
Proof.
  intros HD H0 H1. destruct (sq_sv q HD H0 H1) as [_ R]. unfold sv. destruct (bandb q); [now left|right].
  destruct (R eq_refl) as (A & B & C). now apply bv_in.
Qed.

(** With no value below FLOAT_ZERO, or none above zero, the answers grow with the quantile. *)
Lemma fz_pos : (zq 0 < FLOAT_ZERO)%Qc. Proof. reflexivity. Qed.

Lemma lo_zero : nsmaller xs = 0 -> lo (sq_smaller s) t = zq 0.
Proof.
  intros E. destruct SP as (_ & _ & _ & _ & _ & _ & T1). rewrite SM, E. unfold lo.
  replace (zq 0 / zq t)%Qc with (zq 0); [apply fround_0|]. rewrite zq_0. field. now apply tnz.
Qed.

Lemma sv_mono q q' : one_sided xs -> is_double q -> is_double q' -> (zq 0 <= q)%Qc -> (q' <= zq 1)%Qc -> (q <= q')%Qc -> (sv q <= sv q')%Qc.
Proof.
  intros OS HD HD' H0 H1 H. assert (H0' : (zq 0 <= q')%Qc) by (eapply Qcle_trans; eauto). assert (H1' : (q <= zq 1)%Qc) by (eapply Qcle_trans; eauto).
  destruct (sq_sv q HD H0 H1') as [_ R]. destruct (sq_sv q' HD' H0' H1) as [_ R'].
  pose proof SP as (S0 & B0 & SB & _ & _ & NT & T1).
  destruct OS as [OS|OS].
  - assert (NS : nsmaller xs = 0).
    { unfold nsmaller. replace (filter _ xs) with (@nil Qc); [reflexivity|]. symmetry. clear -OS. induction OS as [|x xs Hx F IH]; [apply filter_nil|].
      rewrite filter_cons_False; [exact IH|]. now apply Qcle_not_lt. }
    pose proof (lo_zero NS) as L0. unfold sv. destruct (bandb q) eqn:Bq.
    + destruct (bandb q') eqn:Bq'; [apply Qcle_refl|]. destruct (R' eq_refl) as (A & B & C).
      rewrite Forall_forall in OS. eapply Qcle_trans; [apply Qclt_le_weak, fz_pos|]. apply OS. now apply bv_in.
    + destruct (R eq_refl) as (A & B & C). unfold bandb in Bq. rewrite L0 in Bq.
      assert (Z0 : qleb (zq 0) q = true) by now apply qleb_true. rewrite Z0 in Bq. cbn [andb] in Bq. apply orb_false_iff in Bq as [Bq1 Bq2].
      apply qleb_false in Bq2. apply Z.eqb_neq in Bq1.
      assert (Bq' : bandb q' = false).
      { unfold bandb. apply andb_false_iff. right. apply orb_false_iff. split; [now apply Z.eqb_neq|]. apply qleb_false. eapply Qclt_le_trans; eauto. }
      rewrite Bq'. destruct (R' Bq') as (A' & B' & C'). apply bv_mono; auto. unfold conv. rewrite L0.
      destruct (t - n =? 0); [exact H|].
      assert (F1 : qltb q (zq 0) = false) by now apply qltb_false. assert (F2 : qltb q' (zq 0) = false) by now apply qltb_false. rewrite F1, F2.
      apply (cq_hi_mono n); auto; lia.
  - assert (NB : nbigger xs = 0).
    { unfold nbigger. replace (filter _ xs) with (@nil Qc); [reflexivity|]. symmetry. clear -OS. induction OS as [|x xs Hx F IH]; [apply filter_nil|].
      rewrite filter_cons_False; [exact IH|]. intros D. apply D. eapply Qcle_lt_trans; [exact Hx|apply fz_pos]. }
    unfold sv. destruct (bandb q) eqn:Bq.
    + assert (Bq' : bandb q' = true).
      { unfold bandb in *. rewrite BG, NB in *. cbn [Z.eqb orb] in *. rewrite andb_true_r in *. apply qleb_true in Bq. apply qleb_true. eapply Qcle_trans; eauto. }
      rewrite Bq'. apply Qcle_refl.
    + destruct (R eq_refl) as (A & B & C). destruct (bandb q') eqn:Bq'.
      * rewrite Forall_forall in OS. apply OS. now apply bv_in.
      * destruct (R' eq_refl) as (A' & B' & C'). apply bv_mono; auto. unfold conv. destruct (t - n =? 0); [exact H|].
        unfold bandb in Bq, Bq'. rewrite BG, NB in Bq, Bq'. cbn [Z.eqb orb] in Bq, Bq'. rewrite andb_true_r in Bq, Bq'. apply qleb_false in Bq, Bq'.
        apply qltb_true in Bq, Bq'. rewrite Bq, Bq'. apply fround_mono.
        assert (F : (zq 0 <= fround (zq t / zq n))%Qc).
        { apply fround_nonneg. assert (NP : (0 < zq n)%Qc) by (rewrite <- zq_0; apply zq_lt; lia).
          assert (TP : (0 < zq t)%Qc) by (rewrite <- zq_0; apply zq_lt; lia).
          replace (zq 0) with (zq 0 / zq n)%Qc; [apply div_mono_pos; [exact NP|rewrite zq_0; now apply Qclt_le_weak]|].
          rewrite zq_0. field. intros E. rewrite E in NP. now apply Qclt_not_eq in NP. }
        rewrite (Qcmult_comm _ q), (Qcmult_comm _ q'). apply Qcmult_le_compat_r; [exact H|now rewrite <- zq_0].
Qed.
End settled.

(** ** Split points *)
Lemma inc_snoc l x : inc l -> (forall y, y ∈ l -> (y < x)%Qc) -> inc (l ++ [x]).
Proof. intros H F. apply ss_app. split; [exact H|]. split; [repeat constructor|]. intros a b Ha Hb. apply elem_of_list_singleton in Hb as ->. auto. Qed.

Lemma query_points_inc {S} (query : S -> Qc -> S * res Qc) (s : S) (f : Qc -> Qc) (dom : Qc -> Prop) rates :
  (forall q, dom q -> query s q = (s, Ok (f q))) -> (forall q q', dom q -> dom q' -> (q <= q')%Qc -> (f q <= f q')%Qc) ->
  Forall dom rates -> StronglySorted Qcle rates ->
  forall acc, inc acc -> (forall y q, y ∈ acc -> q ∈ rates -> (y <= f q)%Qc) ->
  exists sp, query_points query s rates acc = Ok sp /\ inc sp /\ sp ⊆ acc ++ map f rates /\ (length sp <= length acc + length rates)%nat /\ acc ++ map f rates ⊆ sp.
Proof.
  intros HQ HM HD HS. induction HS as [|q rates HS IH F]; intros acc HI HA; cbn [query_points].
  - exists acc. cbn. rewrite app_nil_r. repeat split; auto; try lia.
  - apply Forall_cons in HD as [Dq HD]. rewrite (HQ q Dq). cbn [mbind res_bind].
    rewrite Forall_forall in F. pose proof HD as HD'. rewrite Forall_forall in HD'.
    destruct (existsb (qeqb (f q)) acc) eqn:E.
    + apply abnormal_mem in E. destruct (IH HD acc HI) as (sp & Q & I & Sub & Len & Sup).
      { intros y q' Hy Hq'. apply HA; [exact Hy|now right]. }
      exists sp. split; [exact Q|]. split; [exact I|]. split; [|split; [cbn [length]; lia|]].
      * intros y Hy%Sub. cbn [map]. apply elem_of_app in Hy as [Hy|Hy]; apply elem_of_app; [now left|right; now right].
      * intros y Hy. apply Sup. cbn [map] in Hy. apply elem_of_app in Hy as [Hy|[->|Hy]%elem_of_cons]; apply elem_of_app; auto.
    + assert (E' : f q ∉ acc) by (rewrite <- abnormal_mem; congruence).
      destruct (IH HD (acc ++ [f q])) as (sp & Q & I & Sub & Len & Sup).
      * apply inc_snoc; [exact HI|]. intros y Hy. assert (L : (y <= f q)%Qc) by (apply HA; [exact Hy|now left]).
        destruct (Qcle_lt_or_eq _ _ L) as [?| ->]; [assumption|contradiction].
      * intros y q' Hy Hq'. apply elem_of_app in Hy as [Hy|Hy]; [apply HA; [exact Hy|now right]|].
        apply elem_of_list_singleton in Hy as ->. apply HM; auto.
      * exists sp. split; [exact Q|]. split; [exact I|]. rewrite app_length in Len. cbn [length] in *. split; [|split; [lia|]].
        -- intros y Hy%Sub. rewrite <- app_assoc in Hy. exact Hy.
        -- intros y Hy. apply Sup. rewrite <- app_assoc. exact Hy.
Qed.

Definition qdom (q : Qc) : Prop := is_double q /\ (zq 0 <= q)%Qc /\ (q <= zq 1)%Qc.

Lemma rates_ok bn : StronglySorted Qcle (percentile_rates bn) /\ Forall qdom (percentile_rates bn) /\ length (percentile_rates bn) = (bn - 1)%nat.
Proof.
  unfold percentile_rates. set (pv := fround (zq 1 / zq (Z.of_nat bn))).
  assert (P0 : (0 <= pv)%Qc).
  { rewrite <- zq_0. apply fround_nonneg. destruct bn as [|bn]; [cbv; discriminate|].
    assert (NP : (0 < zq (Z.of_nat (S bn)))%Qc) by (rewrite <- zq_0; apply zq_lt; lia).
    replace (zq 0) with (zq 0 / zq (Z.of_nat (S bn)))%Qc; [apply div_mono_pos; [exact NP|apply zq_le; lia]|].
    rewrite zq_0. field. intros E. rewrite E in NP. now apply Qclt_not_eq in NP. }
  split; [|split; [|now rewrite map_length, seq_length]].
  - generalize (bn - 1)%nat as m. generalize 1%nat as a0. intros a0 m. revert a0. induction m as [|k IH]; intros a; cbn [seq map]; [constructor|]. constructor; [apply IH|].
    apply Forall_forall. intros y (i & -> & Hi)%elem_of_list_fmap. apply elem_of_list_In, in_seq in Hi. apply fround_mono.
    apply Qcmult_le_compat_r; [apply zq_le; lia|exact P0].
  - apply Forall_forall. intros y (i & -> & Hi)%elem_of_list_fmap. apply elem_of_list_In, in_seq in Hi. split; [apply fround_is_double|]. split.
    + apply fround_nonneg. rewrite zq_0. replace 0%Qc with (0 * pv)%Qc by ring. apply Qcmult_le_compat_r; [rewrite <- zq_0; apply zq_le; lia|exact P0].
    + rewrite zq_1, <- fround_small_over. apply fround_mono.
      assert (NP : (0 < zq (Z.of_nat bn))%Qc) by (rewrite <- zq_0; apply zq_lt; lia).
      assert (NZ : zq (Z.of_nat bn) <> 0%Qc) by (intros E; rewrite E in NP; now apply Qclt_not_eq in NP).
      assert (U : (0 <= zq 1 / zq (Z.of_nat bn))%Qc).
      { rewrite <- zq_0. replace (zq 0) with (zq 0 / zq (Z.of_nat bn))%Qc by (rewrite zq_0; field; exact NZ). apply div_mono_pos; [exact NP|apply zq_le; lia]. }
      pose proof (fround_err (zq 1 / zq (Z.of_nat bn))) as F. fold pv in F. apply qabs_le in F as [_ F].
      assert (A : qabs (zq 1 / zq (Z.of_nat bn)) = (zq 1 / zq (Z.of_nat bn))%Qc).
      { destruct (qabs_spec (zq 1 / zq (Z.of_nat bn))) as [[_ A]|[A _]]; [exact A|]. exfalso. clear -A U. qlra. }
      rewrite A in F.
      assert (IU : (zq (Z.of_nat i) * (zq 1 / zq (Z.of_nat bn)) <= 1)%Qc).
      { apply (Qcmult_lt_0_le_reg_r _ _ (zq (Z.of_nat bn))); [exact NP|].
        replace (zq (Z.of_nat i) * (zq 1 / zq (Z.of_nat bn)) * zq (Z.of_nat bn))%Qc with (zq (Z.of_nat i)) by (rewrite zq_1; field; exact NZ).
        rewrite Qcmult_1_l. apply zq_le. lia. }
      assert (I0 : (0 <= zq (Z.of_nat i))%Qc) by (rewrite <- zq_0; apply zq_le; lia).
      revert F IU U I0. generalize (zq 1 / zq (Z.of_nat bn))%Qc (zq (Z.of_nat i)) pv. change (p2 (-53)) with (Q2Qc (1 # 9007199254740992)).
      intros u j v F IU U I0.
      assert (V : (v <= u + Q2Qc (1 # 9007199254740992) * u)%Qc) by (clear -F; qlra).
      assert (W : (v * j <= (u + Q2Qc (1 # 9007199254740992) * u) * j)%Qc) by (apply Qcmult_le_compat_r; assumption).
      replace ((u + Q2Qc (1 # 9007199254740992) * u) * j)%Qc with (j * u + Q2Qc (1 # 9007199254740992) * (j * u))%Qc in W by ring.
      replace (v * j)%Qc with (j * v)%Qc in W by ring. revert W IU. generalize (j * v)%Qc (j * u)%Qc. clear. intros a b W IU. qlra.
Qed.
