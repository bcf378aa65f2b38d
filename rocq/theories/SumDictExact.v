(** Summaries with so small an error that nothing is compressed. *)
From Verif Require Export SumDictProofs.
From Verif Require Import PyBase QcBase FixedPointModel FixedPointSpec FixedPointProofs FloatProofs
  DTableModel DTableProofs QuantileModel QuantileSpec QuantileProofs QuantileHist QuantileFit QuantileTable.
From Coq Require Import Lia.
Local Open Scope Z_scope.

Local Notation vals := (map st_value).
Definition one (v : Qc) : stats := ST v 1 0.
Lemma vals_one l : vals (map one l) = l.
Proof. induction l as [|x l IH]; [reflexivity|]. cbn. f_equal. exact IH. Qed.
Lemma two_err_nonneg e w : (zq 0 <= e)%Qc -> 0 <= w -> (zq 0 <= two_err e w)%Qc.
Proof.
  intros He Hw. unfold two_err. assert (A : (zq 0 <= fround (zq 2 * e))%Qc) by (apply fround_nonneg; change (zq 2) with (Q2Qc (2 # 1)); rewrite zq_0 in *; qlra).
  assert (B : (zq 0 <= zq w)%Qc) by now apply zq_le. apply fround_nonneg. rewrite zq_0 in *. qnra.
Qed.
Lemma two_err_mono e w w' : (zq 0 <= e)%Qc -> w <= w' -> (two_err e w <= two_err e w')%Qc.
Proof.
  intros He Hw. unfold two_err. assert (A : (zq 0 <= fround (zq 2 * e))%Qc) by (apply fround_nonneg; change (zq 2) with (Q2Qc (2 # 1)); rewrite zq_0 in *; qlra).
  assert (B : (zq w <= zq w')%Qc) by now apply zq_le. apply fround_mono. rewrite zq_0 in *. qnra.
Qed.
Lemma delta_zero e N w : (zq 0 <= e)%Qc -> (two_err e N < zq 1)%Qc -> 0 <= w <= N -> delta e N w = 0.
Proof.
  intros He HT Hw. unfold delta. destruct (_ || _); [reflexivity|]. apply qfloor_spec. split; [apply two_err_nonneg; [exact He|lia]|].
  eapply Qcle_lt_trans; [apply (two_err_mono e w N He); lia|exact HT].
Qed.
Lemma ok_plain S e : (zq 0 <= e)%Qc -> (two_err e (Z.of_nat (length S)) < zq 1)%Qc -> forall l p, 0 <= p -> ok_from S e p l -> l = map one (drop (Z.to_nat p) S).
Proof.
  intros He HT. induction l as [|s l IH]; intros p Hp OK; cbn [ok_from] in OK.
  - subst p. now rewrite Nat2Z.id, drop_all.
  - destruct OK as (G & [P1 P2] & D & X & R). rewrite (delta_zero e _ _ He HT) in D by lia. rewrite D in X.
    assert (G1 : st_g s = 1). { destruct X as [X|X]; [exact X|]. assert (Y : (zq (st_g s + 0) < zq 1)%Qc) by (eapply Qclt_trans; eauto). rewrite zq_lt in Y. lia. }
    rewrite G1 in *. replace (Z.to_nat (p + 1 - 1)) with (Z.to_nat p) in P2 by lia. rewrite (drop_S S (st_value s) (Z.to_nat p) P2). cbn [map].
    rewrite (IH (p + 1)) by (lia || exact R). replace (Z.to_nat (p + 1)) with (Datatypes.S (Z.to_nat p)) by lia. f_equal. destruct s as [v g d]. cbn in *. now subst.
Qed.

(** A summary that keeps every value. *)
Definition plain (e : Qc) (L : list Qc) (s : qsum) : Prop := qs_error s = e /\ qs_head s = [] /\ qs_count s = Z.of_nat (length L) /\ qs_sampled s = map one (sorted L).
Lemma settled_plain e L s : (zq 0 <= e)%Qc -> (two_err e (Z.of_nat (length L)) < zq 1)%Qc -> settled e L s -> plain e L s.
Proof.
  intros He HT (E & H & C & B). split; [exact E|]. split; [exact H|]. split; [exact C|]. unfold batch_ok in B. destruct (qs_sampled s) as [|f l] eqn:ES.
  - rewrite sorted_length in B. destruct L; [reflexivity|cbn in B; lia].
  - destruct B as [_ B]. rewrite (ok_plain (sorted L) e He) with (p := 0) (l := f :: l); [now rewrite drop_0|now rewrite sorted_length|lia|exact B].
Qed.
Lemma compress_loop_plain thr : (thr < zq 2)%Qc -> forall mids h res, compress_loop thr (one h) (map one mids) res = map one (rev mids) ++ one h :: res.
Proof.
  intros HT. induction mids as [|t mids IH]; intros h res; cbn [map compress_loop]; [reflexivity|].
  assert (Q : qltb (zq (st_g (one t) + st_g (one h) + st_delta (one h))) thr = false) by (apply qltb_false, Qclt_le_weak; exact HT).
  rewrite Q, IH. cbn [rev]. rewrite map_app, <- app_assoc. reflexivity.
Qed.
Lemma compress_plain thr c : (thr < zq 2)%Qc -> StronglySorted Qcle c -> compress_immut thr (map one c) = map one c.
Proof.
  intros HT SS. destruct c as [|x c]; [reflexivity|]. cbn [map compress_immut]. rewrite <- map_rev. destruct (rev c) as [|l mids] eqn:R.
  - apply (f_equal (@rev Qc)) in R. rewrite rev_involutive in R. subst c. reflexivity.
  - apply (f_equal (@rev Qc)) in R. rewrite rev_involutive in R. cbn [rev] in R. cbn [map]. rewrite (compress_loop_plain thr HT).
    change (map one (rev mids) ++ [one l]) with (map one (rev mids) ++ map one [l]). rewrite <- map_app, <- R. apply StronglySorted_inv in SS as [_ F].
    destruct c as [|y c]; [destruct (rev mids); discriminate|]. cbn [map]. apply Forall_cons in F as [F _]. apply qleb_true in F. cbn [st_value one]. now rewrite F.
Qed.
Lemma sorted_unique a b : StronglySorted Qcle a -> a ≡ₚ b -> a = sorted b.
Proof.
  intros SA P. assert (AS : AntiSymm (=) Qcle) by (intros x y H1 H2; now apply Qcle_antisym).
  apply (StronglySorted_unique Qcle); [exact SA|apply sorted_ss|]. now rewrite sorted_perm.
Qed.
Lemma merge_plain a b : merge_stats (map one (sorted a)) (map one (sorted b)) = map one (sorted (a ++ b)).
Proof.
  destruct (merge_stats_spec (map one (sorted a)) (map one (sorted b))) as [P S]; [rewrite vals_one; apply sorted_ss..|].
  set (m := merge_stats _ _) in *. rewrite <- map_app in P.
  assert (E : m = map one (vals m)).
  { assert (F : Forall (fun s => s = one (st_value s)) m). { rewrite P. apply Forall_forall. intros s I. apply elem_of_list_fmap in I as (v & -> & _). reflexivity. }
    clear P S. induction F as [|s l Hs F IH]; [reflexivity|]. cbn. f_equal; assumption. }
  rewrite E. f_equal. apply sorted_unique; [exact S|]. transitivity (vals (map one (sorted a ++ sorted b))); [now rewrite P|]. rewrite vals_one. now rewrite !sorted_perm.
Qed.
Lemma qs_merge_plain e A B s o : (two_err e (Z.of_nat (length (A ++ B))) < zq 1)%Qc -> plain e A s -> plain e B o -> plain e (A ++ B) (qs_merge s o).
Proof.
  intros HT (E1 & H1 & C1 & S1) (E2 & H2 & C2 & S2). unfold qs_merge. rewrite H1, H2. rewrite app_length in HT. destruct (Z.eqb_spec (qs_count o) 0) as [Z0|Z0].
  - assert (B = []) as -> by (destruct B; [reflexivity|cbn in C2; lia]). rewrite app_nil_r. repeat split; auto.
  - destruct (Z.eqb_spec (qs_count s) 0) as [Z1|Z1].
    + assert (A = []) as -> by (destruct A; [reflexivity|cbn in C1; lia]). repeat split; auto.
    + cbv zeta. repeat split; cbn [qs_error qs_head qs_count qs_sampled]; auto.
      * rewrite app_length. lia.
      * rewrite S1, S2, merge_plain, E1, C1, C2, <- Nat2Z.inj_add. apply compress_plain; [|apply sorted_ss]. eapply Qclt_trans; [exact HT|reflexivity].
Qed.
Lemma query_plain e L s s' : plain e L s -> plain e L s' -> forall rates acc, query_points qs_query s rates acc = query_points qs_query s' rates acc.
Proof.
  intros (E1 & H1 & C1 & S1) (E2 & H2 & C2 & S2). induction rates as [|q rates IH]; intros acc; [reflexivity|]. cbn [query_points]. unfold qs_query. rewrite H1, H2, C1, C2, S1, S2, E1, E2.
  match goal with |- context [mbind _ ?x] => destruct x; [|reflexivity] end. cbn [mbind res_bind]. apply IH.
Qed.

Section Dicts.
Context {N : Type} `{EqDecision N} (p : bin_params) (header : list N) (ND : NoDup header) (He : (zq 0 <= bp_error p)%Qc).
Notation K i rows := (kept (bp_abnormal p) (column i rows)).
Definition small (rows : list feats) : Prop := Z.of_nat (length rows) <= bp_head p /\ (two_err (bp_error p) (Z.of_nat (length rows)) < zq 1)%Qc.
Definition exactly (f : nat -> qsum) (rows : list feats) : Prop := forall i, plain (bp_error p) (K i rows) (f i).
Lemma kept_bound i rows : Z.of_nat (length (K i rows)) <= Z.of_nat (length rows).
Proof. pose proof (column_length i rows). pose proof (kept_length (bp_abnormal p) (column i rows)). lia. Qed.
Lemma kept_small i rows : small rows -> (two_err (bp_error p) (Z.of_nat (length (K i rows))) < zq 1)%Qc.
Proof. intros [_ T]. eapply Qcle_lt_trans; [apply two_err_mono; [exact He|apply kept_bound]|exact T]. Qed.
Lemma small_part a b c : small (a ++ b ++ c) -> small b /\ small (a ++ b).
Proof.
  intros [H T]. rewrite !app_length in H, T. split; (split; [rewrite ?app_length; lia|eapply Qcle_lt_trans; [apply two_err_mono with (w' := Z.of_nat (length a + (length b + length c))); [exact He|rewrite ?app_length; lia]|exact T]]).
Qed.
Lemma summ_exactly rows : small rows -> exactly (summ p rows) rows.
Proof. intros S i. apply settled_plain; [exact He|now apply kept_small|]. apply compress_batch. pose proof (kept_bound i rows). destruct S. lia. Qed.
Lemma reduce_exactly : forall parts f rows, small (rows ++ concat parts) -> exactly f rows ->
  exists h, foldM (fun acc d => match acc with None => Ok (Some d) | Some a => merge_summary_dict qs_merge (Some a) (Some d) end) (Some (cols_of f header)) (map (fun l => cols_of (summ p l) header) parts) = Ok (Some (cols_of h header)) /\ exactly h (rows ++ concat parts).
Proof.
  induction parts as [|l parts IH]; intros f rows S X; cbn [map foldM concat] in *; [exists f; rewrite app_nil_r; auto|]. rewrite (merge_cols header ND).
  destruct (small_part _ _ _ S) as [S1 S2]. destruct (IH (fun i => qs_merge (f i) (summ p l i)) (rows ++ l)) as (h & E & Sh).
  - now rewrite <- app_assoc.
  - intros i. pose proof (kept_small i (rows ++ l) S2) as KS. rewrite column_app, kept_app in *. apply qs_merge_plain; [exact KS|apply X|now apply summ_exactly].
  - exists h. split; [exact E|]. now rewrite app_assoc.
Qed.
Lemma fit_exactly parts : concat parts <> [] -> Forall (dense_rows (length header)) parts -> small (concat parts) -> fit_partitions p header parts = fit_split_points p header (concat parts).
Proof.
  intros NE F S. unfold fit_partitions. rewrite (approx_all p header ND parts F). cbn [mbind res_bind]. unfold reduce_dicts. destruct parts as [|l parts]; [now destruct NE|]. cbn [map foldM].
  destruct (small_part [] l (concat parts) S) as [S1 _]. destruct (reduce_exactly parts (summ p l) l S (summ_exactly l S1)) as (h & E & X). rewrite E. cbn [mbind res_bind]. change (l ++ concat parts) with (concat (l :: parts)) in X. set (rows := concat (l :: parts)) in *.
  assert (DR : dense_rows (length header) rows). { unfold dense_rows, rows. apply Forall_concat. exact F. }
  unfold fit_split_points. destruct rows as [|r rows0] eqn:ER; [congruence|]. pose proof DR as DR'. apply Forall_cons in DR' as [(l0 & -> & _) _]. rewrite (approx_cols p header ND _ DR). cbn [mbind res_bind].
  pose proof (summ_exactly _ S) as Y. assert (QE : forall i, query_points qs_query (h i) (percentile_rates (bp_bin_num p)) [] = query_points qs_query (summ p (FDense l0 :: rows0) i) (percentile_rates (bp_bin_num p)) []) by (intros i; eapply query_plain; eauto).
  assert (G : forall f g : nat -> qsum, (forall i, query_points qs_query (f i) (percentile_rates (bp_bin_num p)) [] = query_points qs_query (g i) (percentile_rates (bp_bin_num p)) []) ->
    mapR (fun cs : N * qsum => sp ← query_points qs_query cs.2 (percentile_rates (bp_bin_num p)) []; Ok (cs.1, sp)) (cols_of f header) = mapR (fun cs : N * qsum => sp ← query_points qs_query cs.2 (percentile_rates (bp_bin_num p)) []; Ok (cs.1, sp)) (cols_of g header)).
  { clear. unfold cols_of. induction header as [|c hd IH]; intros f g Q; [reflexivity|]. cbn [imap mapR fst snd]. rewrite (Q O). specialize (IH (f ∘ Datatypes.S) (g ∘ Datatypes.S) (fun i => Q (Datatypes.S i))).
    destruct (query_points _ (g O) _ _); [|reflexivity]. cbn [mbind res_bind]. unfold compose in *. now rewrite IH. }
  now apply G.
Qed.
End Dicts.
