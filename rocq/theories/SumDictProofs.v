(** Proofs about the summaries of partitions. *)
From Verif Require Export SumDictModel.
From Verif Require Import PyBase QcBase FixedPointModel FixedPointSpec FixedPointProofs FloatProofs
  DTableModel DTableProofs QuantileModel QuantileSpec QuantileProofs QuantileHist QuantileFit QuantileTable.
From Coq Require Import Lia.
Local Open Scope nat_scope.

Lemma flush_abnormal u : qs_abnormal (qs_flush u) = qs_abnormal u.
Proof. unfold qs_flush. destruct (qs_head u); [reflexivity|]. destruct (flush_loop _ _ _ _ _). reflexivity. Qed.
Lemma compress_abnormal u : qs_abnormal (qs_compress u) = qs_abnormal u.
Proof. unfold qs_compress. cbn [qs_abnormal]. apply flush_abnormal. Qed.
Lemma insert_abnormal u x : qs_abnormal (qs_insert u x) = qs_abnormal u.
Proof. unfold qs_insert. cbv zeta. repeat case_match; cbn [qs_abnormal]; rewrite ?compress_abnormal, ?flush_abnormal; reflexivity. Qed.
Lemma reach_insert_all a : forall ys s xs, reach xs s -> qs_abnormal s = a -> reach (xs ++ kept a ys) (insert_all s ys).
Proof.
  induction ys as [|y ys IH]; intros s xs H A; [now rewrite app_nil_r|]. cbn [insert_all fold_left]. pose proof (r_insert xs s y H) as R. rewrite A in R.
  unfold kept. destruct (decide (y ∈ a)) as [E|E].
  - rewrite filter_cons_False by (intros X; exact (X E)). apply IH; [exact R|now rewrite insert_abnormal].
  - rewrite filter_cons_True by exact E. replace (xs ++ y :: filter (fun x => x ∉ a) ys) with ((xs ++ [y]) ++ filter (fun x => x ∉ a) ys) by now rewrite <- app_assoc.
    apply IH; [exact R|now rewrite insert_abnormal].
Qed.
Lemma column_app i a b : column i (a ++ b) = column i a ++ column i b.
Proof. apply omap_app. Qed.
Lemma kept_app a l m : kept a (l ++ m) = kept a l ++ kept a m.
Proof. apply filter_app. Qed.

Lemma query_points_reach xs : forall rates s acc, reach xs s -> Forall qdom rates -> NoDup acc -> (forall v, v ∈ acc -> v ∈ xs \/ xs = [] /\ v = zq 0) ->
  exists sp, query_points qs_query s rates acc = Ok sp /\ NoDup sp /\ (forall v, v ∈ sp -> v ∈ xs \/ xs = [] /\ v = zq 0) /\ length sp <= length acc + length rates.
Proof.
  induction rates as [|q rates IH]; intros s acc R F Na Sa; cbn [query_points]; [exists acc; repeat split; auto; lia|].
  apply Forall_cons in F as [(D & Q0 & Q1) F]. pose proof (r_query xs s q R) as R'. destruct (query_inv xs s q (reach_inv _ _ R) Q0 Q1) as (v & Ev & Hv).
  destruct (qs_query s q) as [s' rv]. cbn [fst snd] in *. subst rv. cbn [mbind res_bind]. destruct (existsb (qeqb v) acc) eqn:E.
  - destruct (IH s' acc R' F Na Sa) as (sp & Q & A & B & C). exists sp. cbn [length]. repeat split; auto. lia.
  - assert (E' : v ∉ acc) by (rewrite <- abnormal_mem; congruence). destruct (IH s' (acc ++ [v]) R' F) as (sp & Q & A & B & C).
    + apply NoDup_app. split; [exact Na|]. split; [|apply NoDup_singleton]. intros x Hx Hx'. apply elem_of_list_singleton in Hx' as ->. contradiction.
    + intros w [Hw|Hw]%elem_of_app; [auto|]. apply elem_of_list_singleton in Hw as ->. exact Hv.
    + exists sp. rewrite app_length in C. cbn [length] in *. repeat split; auto. lia.
Qed.

Section Dicts.
Context {N : Type} `{EqDecision N} (p : bin_params) (header : list N) (ND : NoDup header).
Definition summ (rows : list feats) (i : nat) : qsum := qs_compress (insert_all (qs_new (bp_thres p) (bp_head p) (bp_error p) (bp_abnormal p)) (column i rows)).
Definition stands (f : nat -> qsum) (rows : list feats) : Prop := forall i, reach (kept (bp_abnormal p) (column i rows)) (f i).
Lemma summ_stands rows : stands (summ rows) rows.
Proof. intros i. apply r_compress. apply (reach_insert_all (bp_abnormal p) (column i rows) _ []); [constructor|reflexivity]. Qed.
Lemma approx_cols rows : dense_rows (length header) rows -> approx_dense p header rows = Ok (cols_of (summ rows) header).
Proof.
  intros DR. unfold approx_dense. rewrite (init_cols_spec header ND).
  rewrite (cols_map id (fun ci => (ci.1, qs_new (bp_thres p) (bp_head p) (bp_error p) (bp_abnormal p))) (fun _ => qs_new (bp_thres p) (bp_head p) (bp_error p) (bp_abnormal p)) header) by reflexivity.
  rewrite (dense_fold header rows ND DR). cbn [mbind res_bind]. now rewrite (cols_map _ (fun cs => (cs.1, qs_compress cs.2)) (summ rows) header) by reflexivity.
Qed.
Lemma merge_cols f g : merge_summary_dict qs_merge (Some (cols_of f header)) (Some (cols_of g header)) = Ok (Some (cols_of (fun i => qs_merge (f i) (g i)) header)).
Proof. unfold merge_summary_dict. rewrite (mapR_cols _ _ (fun i => qs_merge (f i) (g i))); [reflexivity|]. intros i c Hi. cbn [fst snd]. now rewrite (cols_get g header i c ND Hi). Qed.
Lemma reduce_cols : forall parts f rows, stands f rows -> exists h, foldM (fun acc d => match acc with None => Ok (Some d) | Some a => merge_summary_dict qs_merge (Some a) (Some d) end) (Some (cols_of f header)) (map (fun l => cols_of (summ l) header) parts) = Ok (Some (cols_of h header)) /\ stands h (rows ++ concat parts).
Proof.
  induction parts as [|l parts IH]; intros f rows S; cbn [map foldM concat]; [exists f; rewrite app_nil_r; auto|]. rewrite merge_cols.
  destruct (IH (fun i => qs_merge (f i) (summ l i)) (rows ++ l)) as (h & E & Sh).
  - intros i. rewrite column_app, kept_app. apply r_merge; [apply S|apply summ_stands].
  - exists h. split; [exact E|]. now rewrite app_assoc.
Qed.
Lemma approx_all parts : Forall (dense_rows (length header)) parts -> mapR (approx_dense p header) parts = Ok (map (fun l => cols_of (summ l) header) parts).
Proof. intros F. induction F as [|l parts DR F IH]; [reflexivity|]. cbn [mapR map]. now rewrite approx_cols, IH. Qed.
Lemma fit_parts parts : parts <> [] -> Forall (dense_rows (length header)) parts -> exists h, stands h (concat parts) /\
  fit_partitions p header parts = mapR (fun cs => sp ← query_points qs_query cs.2 (percentile_rates (bp_bin_num p)) []; Ok (cs.1, sp)) (cols_of h header).
Proof.
  intros NE F. unfold fit_partitions. rewrite (approx_all parts F). cbn [mbind res_bind]. unfold reduce_dicts. destruct parts as [|l parts]; [congruence|]. cbn [map foldM].
  destruct (reduce_cols parts (summ l) l (summ_stands l)) as (h & E & S). exists h. split; [exact S|]. now rewrite E.
Qed.
End Dicts.
