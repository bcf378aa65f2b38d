(** The fitted split points of a whole table. *)
From Verif Require Import PyBase QcBase FixedPointModel FixedPointSpec FixedPointProofs FloatProofs
  DTableModel DTableProofs QuantileModel QuantileSpec QuantileProofs QuantileHist QuantileFit.
From Coq Require Import Lia.
Local Open Scope nat_scope.

Section tab.
Context {N : Type} `{EqDecision N}.
Implicit Types header : list N.

Lemma index_of_spec header i c : NoDup header -> header !! i = Some c -> index_of c header = Some i.
Proof.
  revert i. induction header as [|h header IH]; intros i ND Hi; [discriminate|]. apply NoDup_cons in ND as [N1 N2]. cbn [index_of].
  destruct i as [|i]; cbn in Hi; simplify_eq.
  - now rewrite decide_True.
  - rewrite decide_False. { now rewrite (IH i N2 Hi). } intros ->. apply N1. eapply elem_of_list_lookup_2; eauto.
Qed.

Lemma dict_set_new {V} (k : N) (v : V) (d : dict N V) : k ∉ map fst d -> dict_set k v d = d ++ [(k, v)].
Proof.
  induction d as [|[k' v'] d IH]; intros H; [reflexivity|]. cbn in *. apply not_elem_of_cons in H as [H1 H2].
  rewrite decide_False by exact H1. now rewrite IH.
Qed.

Definition cols_of {V} (f : nat -> V) header : dict N V := imap (fun i c => (c, f i)) header.

Lemma cols_fst {V} (f : nat -> V) header : map fst (cols_of f header) = header.
Proof. unfold cols_of. revert f. induction header as [|h header IH]; intros f; [reflexivity|]. cbn. f_equal. apply (IH (f ∘ S)). Qed.

Lemma cols_elem {V} (f : nat -> V) header x : x ∈ cols_of f header -> exists i, header !! i = Some x.1 /\ x.2 = f i.
Proof.
  intros H. apply elem_of_list_lookup in H as [i H]. unfold cols_of in H. rewrite list_lookup_imap in H.
  destruct (header !! i) as [c|] eqn:E; [|discriminate]. cbn in H. simplify_eq. exists i. auto.
Qed.

Lemma init_cols_spec header : NoDup header -> init_cols header = cols_of id header.
Proof.
  intros ND. unfold init_cols.
  assert (G : forall suf pre, header = pre ++ suf ->
    fold_left (fun d c => match index_of c header with Some i => dict_set c i d | None => d end) suf (cols_of id pre) = cols_of id header).
  { induction suf as [|c suf IH]; intros pre E; cbn [fold_left].
    - now rewrite E, app_nil_r.
    - assert (L : header !! length pre = Some c) by (rewrite E; now apply list_lookup_middle).
      rewrite (index_of_spec _ _ _ ND L), dict_set_new.
      + rewrite <- (IH (pre ++ [c])); [|now rewrite <- app_assoc]. f_equal. unfold cols_of. rewrite imap_app. cbn. now rewrite Nat.add_0_r.
      + rewrite cols_fst. rewrite E in ND. apply NoDup_app in ND as (_ & ND & _). intros H. apply (ND c H). now left. }
  apply (G header []). reflexivity.
Qed.

Lemma cols_get {V} (f : nat -> V) header i c : NoDup header -> header !! i = Some c -> dict_get c (cols_of f header) = Some (f i).
Proof.
  unfold cols_of. revert f i. induction header as [|h header IH]; intros f i ND Hi; [discriminate|]. apply NoDup_cons in ND as [N1 N2]. cbn.
  destruct i as [|i]; cbn in Hi; simplify_eq.
  - now rewrite decide_True.
  - rewrite decide_False. { apply (IH (f ∘ S) i N2 Hi). } intros ->. apply N1. eapply elem_of_list_lookup_2; eauto.
Qed.

Lemma cols_set {V} (f : nat -> V) header i c v : NoDup header -> header !! i = Some c ->
  dict_set c v (cols_of f header) = cols_of (fun j => if decide (j = i) then v else f j) header.
Proof.
  unfold cols_of. revert f i. induction header as [|h header IH]; intros f i ND Hi; [discriminate|]. apply NoDup_cons in ND as [N1 N2]. cbn.
  destruct i as [|i]; cbn in Hi; simplify_eq.
  - rewrite decide_True by reflexivity. f_equal.
  - rewrite decide_False by (intros ->; apply N1; eapply elem_of_list_lookup_2; eauto).
    f_equal. etransitivity; [apply (IH (f ∘ S) i N2 Hi)|]. apply imap_ext. intros j x _. cbn. f_equal.
    destruct (decide (j = i)), (decide (S j = S i)); congruence.
Qed.

Lemma cols_map {V W} (f : nat -> V) (g : N * V -> N * W) (h : nat -> W) header :
  (forall i c, header !! i = Some c -> g (c, f i) = (c, h i)) -> map g (cols_of f header) = cols_of h header.
Proof.
  unfold cols_of. revert f h. induction header as [|c header IH]; intros f h H; [reflexivity|]. cbn. f_equal; [apply (H 0 c); reflexivity|].
  apply (IH (f ∘ S) (h ∘ S)). intros i c' Hi. apply (H (S i) c' Hi).
Qed.

Lemma cols_ext {V} (f g : nat -> V) header : (forall i, i < length header -> f i = g i) -> cols_of f header = cols_of g header.
Proof. intros H. apply imap_ext. intros i x Hi. f_equal. apply H. eapply lookup_lt_Some; eauto. Qed.

Lemma mapR_cols {V W} (f : nat -> V) (g : N * V -> res (N * W)) (h : nat -> W) header :
  (forall i c, header !! i = Some c -> g (c, f i) = Ok (c, h i)) -> mapR g (cols_of f header) = Ok (cols_of h header).
Proof.
  unfold cols_of. revert f h. induction header as [|c header IH]; intros f h H; [reflexivity|]. cbn.
  rewrite (H 0 c eq_refl). assert (E : mapR g (imap ((fun i c => (c, f i)) ∘ S) header) = Ok (imap ((fun i c => (c, h i)) ∘ S) header)); [apply (IH (f ∘ S) (h ∘ S))|now rewrite E]. intros i c' Hi. apply (H (S i) c' Hi).
Qed.

(** ** Dense *)
Lemma insert_dense_spec header (f : nat -> qsum) l : NoDup header -> length l = length header ->
  insert_dense (cols_of id header) (cols_of f header) (FDense l) = Ok (cols_of (fun i => insert_all (f i) (option_list (l !! i))) header).
Proof.
  intros ND L. cbn [insert_dense]. apply mapR_cols. intros i c Hi. cbn [fst snd]. unfold dict_index. rewrite (cols_get id header i c ND Hi). cbn.
  destruct (l !! i) as [x|] eqn:E.
  - unfold list_index, id. rewrite E. reflexivity.
  - apply lookup_lt_Some in Hi. apply lookup_ge_None in E. lia.
Qed.

Lemma dense_fold header rows : NoDup header -> dense_rows (length header) rows -> forall f : nat -> qsum,
  foldM (insert_dense (cols_of id header)) (cols_of f header) rows = Ok (cols_of (fun i => insert_all (f i) (column i rows)) header).
Proof.
  intros ND H. induction H as [|r rows (l & -> & L) F IH]; intros f; cbn [foldM]; [reflexivity|].
  rewrite insert_dense_spec by assumption. rewrite IH. f_equal. apply cols_ext. intros i _. unfold column. cbn [omap list_omap].
  destruct (l !! i); cbn; reflexivity.
Qed.

(** ** Sparse *)
Lemma sparse_row header (d : dict nat Qc) : NoDup header -> Forall (fun kv => kv.1 < length header) d -> forall f : nat -> sqsum,
  foldM (fun sd ix => c ← list_index header ix.1; s ← dict_index c sd; Ok (dict_set c (sq_insert s ix.2) sd)) (cols_of f header) d
  = Ok (cols_of (fun i => sinsert_all (f i) (omap (fun kv => if decide (kv.1 = i) then Some kv.2 else None) d)) header).
Proof.
  intros ND F. induction F as [|[k x] d Hk F IH]; intros f; cbn [foldM]; [reflexivity|]. cbn [fst snd] in *.
  destruct (lookup_lt_is_Some_2 header k Hk) as [c Hc]. unfold list_index. rewrite Hc. cbn [mbind res_bind].
  unfold dict_index. rewrite (cols_get f header k c ND Hc). cbn [mbind res_bind]. rewrite (cols_set f header k c _ ND Hc).
  rewrite IH. f_equal. apply cols_ext. intros i Hi. cbn [omap list_omap fst snd]. destruct (decide (i = k)) as [->|E].
  - rewrite decide_True by reflexivity. reflexivity.
  - rewrite decide_False by congruence. reflexivity.
Qed.

Lemma omap_get (d : dict nat Qc) i : NoDup (map fst d) -> omap (fun kv => if decide (kv.1 = i) then Some kv.2 else None) d = option_list (dict_get i d).
Proof.
  induction d as [|[k x] d IH]; intros ND; [reflexivity|]. cbn in *. apply NoDup_cons in ND as [N1 N2]. destruct (decide (i = k)) as [->|E].
  - rewrite decide_True by reflexivity. cbn. f_equal. clear IH N2. induction d as [|[k' x'] d IH]; [reflexivity|]. cbn in *.
    apply not_elem_of_cons in N1 as [N1 N3]. rewrite decide_False by congruence. auto.
  - rewrite decide_False by congruence. auto.
Qed.

Lemma sparse_fold header rows : NoDup header -> sparse_rows (length header) rows -> forall f : nat -> sqsum,
  foldM (insert_sparse header) (cols_of f header) rows = Ok (cols_of (fun i => sinsert_all (f i) (column i rows)) header).
Proof.
  intros ND H. induction H as [|r rows (d & sh & -> & Nd & Fd) F IH]; intros f; cbn [foldM]; [reflexivity|].
  cbn [insert_sparse]. rewrite (sparse_row header d ND Fd). rewrite IH. f_equal. apply cols_ext. intros i _.
  rewrite (omap_get d i Nd). unfold column. cbn [omap list_omap]. destruct (dict_get i d); reflexivity.
Qed.

(** ** Fitting *)
Lemma omap_length {A B} (f : A -> option B) l : length (omap f l) <= length l.
Proof. induction l as [|x l IH]; cbn; [lia|]. destruct (f x); cbn; lia. Qed.
Lemma column_length i rows : length (column i rows) <= length rows.
Proof. apply omap_length. Qed.
Lemma kept_nil xs : kept [] xs = xs.
Proof. unfold kept. induction xs as [|x xs IH]; [reflexivity|]. rewrite filter_cons_True by (intros H; inversion H). now rewrite IH. Qed.
Lemma kept_length a xs : length (kept a xs) <= length xs.
Proof. apply filter_length. Qed.

Lemma dense_column rows w i : dense_rows w rows -> rows <> [] -> i < w -> column i rows <> [].
Proof.
  intros H NE Hi. destruct H as [|r rows (l & -> & L) F]; [congruence|]. unfold column. cbn [omap list_omap].
  destruct (l !! i) eqn:E; [discriminate|]. apply lookup_ge_None in E. lia.
Qed.

Lemma fit_dense p header rows : NoDup header -> rows <> [] -> dense_rows (length header) rows ->
  err_ok (bp_error p) -> (Z.of_nat (length rows) <= bp_head p)%Z -> (Z.of_nat (length rows) <= 2 ^ 50)%Z ->
  exists sps, fit_split_points p header rows = Ok sps /\ map fst sps = header /\
    forall i c, header !! i = Some c -> exists sp, dict_get c sps = Some sp /\ inc sp /\
      sp ⊆ (if decide (kept (bp_abnormal p) (column i rows) = []) then [zq 0] else kept (bp_abnormal p) (column i rows)) /\ length sp <= bp_bin_num p - 1.
Proof.
  intros ND NE DR (E1 & E2 & E3) HH LB. destruct (rates_ok (bp_bin_num p)) as (RS & RD & RL).
  unfold fit_split_points. pose proof DR as DR'. destruct rows as [|r rows0] eqn:ER; [congruence|].
  apply Forall_cons in DR' as [(l0 & -> & _) _]. rewrite <- ER in *. clear ER. unfold approx_dense.
  rewrite (init_cols_spec header ND).
  rewrite (cols_map id (fun ci => (ci.1, qs_new (bp_thres p) (bp_head p) (bp_error p) (bp_abnormal p))) (fun _ => qs_new (bp_thres p) (bp_head p) (bp_error p) (bp_abnormal p)) header) by reflexivity.
  rewrite (dense_fold header rows ND DR). cbn [mbind res_bind].
  set (S := fun i => qs_compress (insert_all (qs_new (bp_thres p) (bp_head p) (bp_error p) (bp_abnormal p)) (column i rows))).
  rewrite (cols_map _ (fun cs => (cs.1, qs_compress cs.2)) S header) by reflexivity.
  set (K := fun i => kept (bp_abnormal p) (column i rows)).
  assert (KL : forall i, (Z.of_nat (length (K i)) <= Z.of_nat (length rows))%Z).
  { intros i. pose proof (column_length i rows). pose proof (kept_length (bp_abnormal p) (column i rows)). unfold K. lia. }
  assert (ST : forall i, settled (bp_error p) (K i) (S i)) by (intros i; apply compress_batch; fold (K i); specialize (KL i); lia).
  assert (QP : forall i, exists sp, query_points qs_query (S i) (percentile_rates (bp_bin_num p)) [] = Ok sp /\ inc sp /\
     sp ⊆ (if decide (K i = []) then [zq 0] else K i) /\ length sp <= bp_bin_num p - 1).
  { intros i. pose proof (ST i) as Si. pose proof (KL i) as Li.
    destruct (query_points_inc qs_query (S i) (qv (sorted (K i)) (bp_error p) (qs_sampled (S i))) qdom (percentile_rates (bp_bin_num p))) with (acc := @nil Qc)
      as (sp & Q & I & Sub & Len & _); auto.
    - intros q (D & Q0 & Q1). now apply settled_query.
    - intros q q' (D & Q0 & Q1) (D' & Q0' & Q1') Hq. destruct Si as (_ & _ & _ & B). destruct (decide (K i = [])) as [E|E].
      + rewrite E in *. destruct (qs_sampled (S i)); [apply Qcle_refl|]. destruct B as [_ (_ & [A _] & _)]. cbn in A. lia.
      + apply (qv_mono _ _ (sorted_ss _)); rewrite ?sorted_length; auto; [lia|]. destruct (K i); [congruence|cbn; lia].
    - constructor.
    - intros y q Hy. inversion Hy.
    - exists sp. split; [exact Q|]. split; [exact I|]. split; [|cbn in Len; lia]. intros y Hy%Sub. cbn [app] in Hy.
      apply elem_of_list_fmap in Hy as (q & -> & Hq). rewrite Forall_forall in RD. destruct (RD q Hq) as (D & Q0 & Q1).
      destruct Si as (_ & _ & _ & B). destruct (decide (K i = [])) as [E|E].
      + rewrite E in *. destruct (qs_sampled (S i)); [now left|]. destruct B as [_ (_ & [A _] & _)]. cbn in A. lia.
      + destruct (qv_ok (sorted (K i)) (bp_error p) ltac:(rewrite sorted_length; lia) E1 E2 E3 _ q B) as (j & [_ J] & _); auto.
        { rewrite sorted_length. destruct (K i); [congruence|cbn; lia]. }
        apply elem_of_list_lookup_2 in J. now rewrite (sorted_perm (K i)) in J at 2. }
  assert (QF : exists h : nat -> list Qc, forall i, query_points qs_query (S i) (percentile_rates (bp_bin_num p)) [] = Ok (h i)).
  { exists (fun i => match query_points qs_query (S i) (percentile_rates (bp_bin_num p)) [] with Ok sp => sp | Err _ => [] end).
    intros i. destruct (QP i) as (sp & -> & _). reflexivity. }
  destruct QF as [h Hh]. exists (cols_of h header). split.
  { apply mapR_cols. intros i c Hi. cbn [fst snd]. now rewrite Hh. }
  split; [apply cols_fst|]. intros i c Hi. exists (h i). split; [now apply cols_get|].
  destruct (QP i) as (sp & Q & I & Sub & Len). rewrite Hh in Q. simplify_eq. auto.
Qed.

Lemma fit_sparse p header rows : NoDup header -> rows <> [] -> sparse_rows (length header) rows ->
  err_ok (bp_error p) -> bp_abnormal p = [] -> (Z.of_nat (length rows) <= bp_head p)%Z -> (Z.of_nat (length rows) <= 2 ^ 50)%Z ->
  exists sps, fit_split_points p header rows = Ok sps /\ map fst sps = header /\
    forall i c, header !! i = Some c -> exists sp, dict_get c sps = Some sp /\ NoDup sp /\ sp ⊆ zq 0 :: column i rows /\ length sp <= bp_bin_num p - 1 /\
      (one_sided (column i rows) -> inc sp).
Proof.
  intros ND NE DR EO AB HH LB. pose proof EO as (E1 & E2 & E3). destruct (rates_ok (bp_bin_num p)) as (RS & RD & RL).
  unfold fit_split_points. pose proof DR as DR'. destruct rows as [|r rows0] eqn:ER; [congruence|].
  apply Forall_cons in DR' as [(d0 & sh0 & -> & _) _]. rewrite <- ER in *. 
  assert (RP : (1 <= Z.of_nat (length rows))%Z) by (rewrite ER; cbn; lia). clear ER. unfold approx_sparse. rewrite AB.
  rewrite (init_cols_spec header ND).
  rewrite (cols_map id (fun ci => (ci.1, sq_new (bp_thres p) (bp_head p) (bp_error p) [])) (fun _ => sq_new (bp_thres p) (bp_head p) (bp_error p) []) header) by reflexivity.
  rewrite (sparse_fold header rows ND DR). cbn [mbind res_bind].
  set (S0 := fun i => sinsert_all (sq_new (bp_thres p) (bp_head p) (bp_error p) []) (column i rows)).
  set (S1 := fun i => SQ (qs_compress (sq_base (S0 i))) (sq_smaller (S0 i)) (sq_bigger (S0 i)) (sq_total (S0 i))).
  rewrite (cols_map _ (fun cs => (cs.1, SQ (qs_compress (sq_base cs.2)) (sq_smaller cs.2) (sq_bigger cs.2) (sq_total cs.2))) S1 header) by reflexivity.
  set (t := Z.of_nat (length rows)) in *.
  set (S := fun i => sq_set_total t (S1 i)).
  assert (KL : forall i, (Z.of_nat (length (column i rows)) <= t)%Z) by (intros i; pose proof (column_length i rows); unfold t; lia).
  assert (SE : forall i, sq_base (S i) = qs_compress (insert_all (qs_new (bp_thres p) (bp_head p) (bp_error p) []) (column i rows)) /\
                         sq_smaller (S i) = nsmaller (column i rows) /\ sq_bigger (S i) = nbigger (column i rows) /\ sq_total (S i) = t).
  { intros i. unfold S, S1, S0. rewrite sinsert_all_spec. cbn. repeat split. }
  assert (ST : forall i, settled (bp_error p) (column i rows) (sq_base (S i))).
  { intros i. destruct (SE i) as (-> & _). rewrite <- (kept_nil (column i rows)) at 1. apply compress_batch. rewrite kept_nil. specialize (KL i). lia. }
  assert (SP : forall i, sparse_ok (Z.of_nat (length (column i rows))) t (S i)).
  { intros i. unfold sparse_ok. destruct (SE i) as (_ & E4 & E5 & E6). rewrite E4, E5, E6.
    pose proof (nsum (column i rows)). destruct (ST i) as (_ & _ & C & _). specialize (KL i). unfold nsmaller, nbigger in *. repeat split; try lia. }
  assert (HQ : forall i q, qdom q -> sq_query (S i) q = (S i, Ok (sv (bp_error p) (column i rows) t (S i) q))).
  { intros i q (D & Q0 & Q1). destruct (SE i) as (_ & E4 & E5 & _). eapply sq_sv; eauto. }
  assert (QP : forall i, exists sp, query_points sq_query (S i) (percentile_rates (bp_bin_num p)) [] = Ok sp /\ NoDup sp /\
     sp ⊆ zq 0 :: column i rows /\ length sp <= bp_bin_num p - 1 /\ (one_sided (column i rows) -> inc sp)).
  { intros i.
    assert (G : forall rates acc, Forall qdom rates -> NoDup acc -> acc ⊆ zq 0 :: column i rows -> exists sp, query_points sq_query (S i) rates acc = Ok sp /\ NoDup sp /\
       sp ⊆ zq 0 :: column i rows /\ length sp <= length acc + length rates).
    { induction rates as [|q rates IH]; intros acc F Na Sa; cbn [query_points]. { exists acc. repeat split; auto. lia. }
      apply Forall_cons in F as [Dq F]. rewrite (HQ i q Dq). cbn [mbind res_bind].
      destruct (existsb _ acc) eqn:E.
      - destruct (IH acc F Na Sa) as (sp & Q & A & B & C). exists sp. cbn [length]. repeat split; auto. lia.
      - assert (E' : sv (bp_error p) (column i rows) t (S i) q ∉ acc) by (rewrite <- abnormal_mem; congruence).
        destruct (IH (acc ++ [sv (bp_error p) (column i rows) t (S i) q]) F) as (sp & Q & A & B & C).
        + apply NoDup_app. split; [exact Na|]. split; [|apply NoDup_singleton]. intros x Hx Hx'. apply elem_of_list_singleton in Hx' as ->. contradiction.
        + intros x [Hx|Hx]%elem_of_app; [auto|]. apply elem_of_list_singleton in Hx as ->. destruct Dq as (D & Q0 & Q1).
          destruct (SE i) as (_ & E4 & E5 & _).
          assert (L50 : (Z.of_nat (length (column i rows)) <= 2 ^ 50)%Z) by (specialize (KL i); lia).
          destruct (sv_in (bp_error p) (column i rows) t (S i) EO (ST i) (SP i) L50 E4 E5 q D Q0 Q1) as [-> |Hin]; [now left|now right].
        + exists sp. rewrite app_length in C. cbn [length] in *. repeat split; auto. lia. }
    destruct (G (percentile_rates (bp_bin_num p)) [] RD) as (sp & Q & A & B & C); [constructor|intros x Hx; inversion Hx|].
    exists sp. split; [exact Q|]. split; [exact A|]. split; [exact B|]. split; [cbn in C; lia|]. intros OS.
    assert (MO : forall q q', qdom q -> qdom q' -> (q <= q')%Qc ->
        (sv (bp_error p) (column i rows) t (S i) q <= sv (bp_error p) (column i rows) t (S i) q')%Qc).
    { intros q q' (D & Q0 & Q1) (D' & Q0' & Q1') Hq. destruct (SE i) as (_ & E4 & E5 & _).
      assert (L50 : (Z.of_nat (length (column i rows)) <= 2 ^ 50)%Z) by (specialize (KL i); lia).
      exact (sv_mono (bp_error p) (column i rows) t (S i) EO (ST i) (SP i) L50 E4 E5 q q' OS D D' Q0 Q1' Hq). }
    destruct (query_points_inc sq_query (S i) (sv (bp_error p) (column i rows) t (S i)) qdom (percentile_rates (bp_bin_num p)) (HQ i) MO RD RS [])
      as (sp' & Q' & I & _); [constructor|intros y q Hy; inversion Hy|]. congruence. }
  assert (QF : exists h : nat -> list Qc, forall i, query_points sq_query (S i) (percentile_rates (bp_bin_num p)) [] = Ok (h i)).
  { exists (fun i => match query_points sq_query (S i) (percentile_rates (bp_bin_num p)) [] with Ok sp => sp | Err _ => [] end).
    intros i. destruct (QP i) as (sp & -> & _). reflexivity. }
  destruct QF as [h Hh]. exists (cols_of h header). split.
  { apply mapR_cols. intros i c Hi. cbn [fst snd]. fold (S i). now rewrite Hh. }
  split; [apply cols_fst|]. intros i c Hi. exists (h i). split; [now apply cols_get|].
  destruct (QP i) as (sp & Q & A & B & C & D). rewrite Hh in Q. simplify_eq. auto.
Qed.
End tab.
