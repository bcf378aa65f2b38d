(** Summaries of partitions of sparse rows. *)
From Verif Require Export SumDictProofs.
From Verif Require Import PyBase QcBase FixedPointModel FixedPointSpec FixedPointProofs FloatProofs
  DTableModel DTableProofs QuantileModel QuantileSpec QuantileProofs QuantileHist QuantileFit QuantileTable P_Quantile.
From Coq Require Import Lia.
Local Open Scope Z_scope.

(** A sparse summary of the stored values [xs], without buffered ones. *)
Definition sinv (xs : list Qc) (s : sqsum) : Prop := qinv xs (sq_base s) /\ qs_head (sq_base s) = [] /\ sq_smaller s = nsmaller xs /\ sq_bigger s = nbigger xs.
Lemma sinv_merge xs ys s o : sinv xs s -> sinv ys o -> sinv (xs ++ ys) (sq_merge s o).
Proof.
  intros (A1 & B1 & C1 & D1) (A2 & B2 & C2 & D2). assert (X : nsmaller (xs ++ ys) = nsmaller xs + nsmaller ys /\ nbigger (xs ++ ys) = nbigger xs + nbigger ys).
  { unfold nsmaller, nbigger. rewrite !filter_app, !app_length, !Nat2Z.inj_add. auto. }
  destruct X as [X1 X2]. unfold sinv. cbn [sq_merge sq_base sq_smaller sq_bigger]. rewrite X1, X2, C1, C2, D1, D2. split; [now apply merge_inv|]. split; [|auto].
  unfold qs_merge. rewrite B1, B2. destruct (qs_count (sq_base o) =? 0); [exact B1|]. destruct (qs_count (sq_base s) =? 0); exact B1.
Qed.
Lemma sq_query_same s q : qs_head (sq_base s) = [] -> fst (sq_query s q) = s.
Proof.
  intros H. unfold sq_query. destruct (zero_lower s); [|reflexivity]. destruct (zero_upper s); [|reflexivity]. destruct (_ && _); [reflexivity|]. destruct (sq_convert s q); [|reflexivity].
  unfold qs_query. rewrite H. destruct s. reflexivity.
Qed.
(** The rates for which the whole table demands 0. *)
Definition band (xs : list Qc) (t : Z) (q : Qc) : Prop := (fround (zq (count_below xs) / zq t) <= q)%Qc /\ (count_above xs = 0 \/ (q <= fround (zq (t - count_above xs) / zq t))%Qc).
Lemma sq_points xs t s : sinv xs s -> sq_total s = t -> Z.of_nat (length xs) <= t -> 1 <= t <= 2 ^ 53 -> forall rates acc, Forall qdom rates -> NoDup acc ->
  exists sp, query_points sq_query s rates acc = Ok sp /\ NoDup sp /\ (length sp <= length acc + length rates)%nat /\ acc ⊆ sp /\
    (forall q, q ∈ rates -> exists v, v ∈ sp /\ (band xs t q -> v = zq 0) /\ (~ band xs t q -> v ∈ xs)) /\
    (forall v, v ∈ sp -> v ∈ acc \/ exists q, q ∈ rates /\ (band xs t q -> v = zq 0) /\ (~ band xs t q -> v ∈ xs)).
Proof.
  intros (A & B & C & D) T L1 L2. induction rates as [|q rates IH]; intros acc F Na; cbn [query_points].
  { exists acc. repeat split; auto; [lia|]. intros q Hq. inversion Hq. }
  apply Forall_cons in F as [(Q & Q0 & Q1) F]. destruct (sparse_query_ok s xs t q A B C D T L1 L2 Q Q0 Q1) as (v & Ev & Z1 & Z2). pose proof (sq_query_same s q B) as Es.
  destruct (sq_query s q) as [s' rv]. cbn [fst snd] in *. subst s' rv. cbn [mbind res_bind]. destruct (existsb (qeqb v) acc) eqn:E.
  - apply abnormal_mem in E. destruct (IH acc F Na) as (sp & P1 & P2 & P3 & P4 & P5 & P6). exists sp. split; [exact P1|]. split; [exact P2|]. split; [cbn [length]; lia|]. split; [exact P4|]. split.
    + intros r [->|Hr]%elem_of_cons; [exists v; split; [now apply P4|split; assumption]|now apply P5].
    + intros w Hw. destruct (P6 w Hw) as [?|(r & Hr & X)]; [now left|right]. exists r. split; [now right|exact X].
  - assert (E' : v ∉ acc) by (rewrite <- abnormal_mem; congruence). destruct (IH (acc ++ [v]) F) as (sp & P1 & P2 & P3 & P4 & P5 & P6).
    { apply NoDup_app. split; [exact Na|]. split; [|apply NoDup_singleton]. intros x Hx Hx'. apply elem_of_list_singleton in Hx' as ->. contradiction. }
    exists sp. split; [exact P1|]. split; [exact P2|]. rewrite app_length in P3. cbn [length] in *. split; [lia|]. split; [intros x Hx; apply P4, elem_of_app; now left|]. split.
    + intros r [->|Hr]%elem_of_cons; [|now apply P5]. exists v. split; [apply P4, elem_of_app; right; now apply elem_of_list_singleton|split; assumption].
    + intros w Hw. destruct (P6 w Hw) as [[H|H]%elem_of_app|(r & Hr & X)]; [now left| |].
      * apply elem_of_list_singleton in H as ->. right. exists q. split; [now left|split; assumption].
      * right. exists r. split; [now right|exact X].
Qed.

Section Dicts.
Context {N : Type} `{EqDecision N} (p : bin_params) (header : list N) (ND : NoDup header) (AB : bp_abnormal p = []).
Definition ssumm (rows : list feats) (i : nat) : sqsum := sparse_summary (bp_thres p) (bp_head p) (bp_error p) (column i rows) 0.
Definition sstands (f : nat -> sqsum) (rows : list feats) : Prop := forall i, sinv (column i rows) (f i).
Lemma ssumm_stands rows : sstands (ssumm rows) rows.
Proof. intros i. destruct (sparse_inv (bp_thres p) (bp_head p) (bp_error p) (column i rows) 0) as (A & B & C & D & _). split; [exact A|auto]. Qed.
Lemma sapprox_cols rows : sparse_rows (length header) rows -> approx_sparse p header rows = Ok (cols_of (ssumm rows) header).
Proof.
  intros DR. unfold approx_sparse. rewrite AB, (init_cols_spec header ND).
  rewrite (cols_map id (fun ci => (ci.1, sq_new (bp_thres p) (bp_head p) (bp_error p) [])) (fun _ => sq_new (bp_thres p) (bp_head p) (bp_error p) []) header) by reflexivity.
  rewrite (sparse_fold header rows ND DR). cbn [mbind res_bind]. f_equal. apply cols_map. intros i c _. cbn [fst snd]. f_equal. unfold ssumm, sparse_summary, sq_set_total. cbn [sq_base sq_smaller sq_bigger sq_total]. f_equal; now rewrite sinsert_all_spec.
Qed.
Lemma smerge_cols f g : merge_summary_dict sq_merge (Some (cols_of f header)) (Some (cols_of g header)) = Ok (Some (cols_of (fun i => sq_merge (f i) (g i)) header)).
Proof. unfold merge_summary_dict. rewrite (mapR_cols _ _ (fun i => sq_merge (f i) (g i))); [reflexivity|]. intros i c Hi. cbn [fst snd]. now rewrite (cols_get g header i c ND Hi). Qed.
Lemma sreduce_cols : forall parts f rows, sstands f rows -> exists h, foldM (fun acc d => match acc with None => Ok (Some d) | Some a => merge_summary_dict sq_merge (Some a) (Some d) end) (Some (cols_of f header)) (map (fun l => cols_of (ssumm l) header) parts) = Ok (Some (cols_of h header)) /\ sstands h (rows ++ concat parts).
Proof.
  induction parts as [|l parts IH]; intros f rows S; cbn [map foldM concat]; [exists f; rewrite app_nil_r; auto|]. rewrite smerge_cols.
  destruct (IH (fun i => sq_merge (f i) (ssumm l i)) (rows ++ l)) as (h & E & Sh).
  - intros i. rewrite column_app. apply sinv_merge; [apply S|apply ssumm_stands].
  - exists h. split; [exact E|]. now rewrite app_assoc.
Qed.
Lemma sapprox_all parts : Forall (sparse_rows (length header)) parts -> mapR (approx_sparse p header) parts = Ok (map (fun l => cols_of (ssumm l) header) parts).
Proof. intros F. induction F as [|l parts DR F IH]; [reflexivity|]. cbn [mapR map]. now rewrite sapprox_cols, IH. Qed.
End Dicts.
