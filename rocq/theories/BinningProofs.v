(** Binning, conversion to sparse rows, and the effect on the caller's row objects. *)
From Verif Require Import PyBase QcBase FixedPointModel FixedPointSpec FixedPointProofs FloatProofs
  DTableModel DTableSpec DTableProofs TableRel QuantileModel QuantileSpec QuantileProofs QuantileHist QuantileFit QuantileTable BinningModel BinningSpec.
From Coq Require Import Lia.
Local Open Scope nat_scope.

(** ** Bins *)
Lemma bin_scan_spec v sp n : bin_scan v n sp (n + length sp) - n <= length sp /\ n <= bin_scan v n sp (n + length sp) /\
  is_bin sp v (bin_scan v n sp (n + length sp) - n).
Proof.
  revert n. induction sp as [|p sp IH]; intros n; cbn [bin_scan length].
  - rewrite Nat.add_0_r, Nat.sub_diag. split; [lia|]. split; [lia|]. split; [cbn; lia|]. split; [intros i x Hi; lia|intros x Hx; discriminate].
  - destruct (qleb v p) eqn:E.
    + rewrite Nat.sub_diag. split; [lia|]. split; [lia|]. split; [lia|]. split; [intros i x Hi; lia|].
      intros x [= <-]. now apply qleb_true.
    + specialize (IH (S n)). replace (S n + length sp) with (n + S (length sp)) in IH by lia.
      set (b := bin_scan v (S n) sp (n + S (length sp))) in *. destruct IH as (A & B & _ & C & D). split; [lia|]. split; [lia|]. split; [cbn; lia|].
      replace (b - n) with (S (b - S n)) by lia. split.
      * intros [|i] x Hi Hx; cbn in Hx; [simplify_eq; now apply qleb_false|]. apply (C i); [lia|exact Hx].
      * intros x Hx. cbn in Hx. now apply D.
Qed.

Lemma bin_is_bin v sp : is_bin sp v (get_bin_num v sp).
Proof. destruct (bin_scan_spec v sp 0) as (_ & _ & H). now rewrite Nat.sub_0_r in H. Qed.

Lemma is_bin_unique sp v b b' : is_bin sp v b -> is_bin sp v b' -> b = b'.
Proof.
  assert (A : forall b b', is_bin sp v b -> is_bin sp v b' -> b < b' -> False).
  { clear. intros b b' (L & A & B) (L' & A' & B') Hlt. destruct (lookup_lt_is_Some_2 sp b) as [x Hx]; [lia|].
    apply B in Hx as H1. apply (A' b x Hlt) in Hx. now apply Qcle_not_lt in H1. }
  intros H H'. destruct (lt_eq_lt_dec b b') as [[X|X]|X]; [exfalso; eauto|exact X|exfalso; eauto].
Qed.

Lemma bin_mono sp v v' : (v <= v')%Qc -> get_bin_num v sp <= get_bin_num v' sp.
Proof.
  intros L. destruct (le_lt_dec (get_bin_num v sp) (get_bin_num v' sp)) as [H|H]; [exact H|exfalso].
  destruct (bin_is_bin v sp) as (A1 & A2 & A3), (bin_is_bin v' sp) as (B1 & B2 & B3).
  destruct (lookup_lt_is_Some_2 sp (get_bin_num v' sp)) as [x Hx]; [lia|]. apply B3 in Hx as H1. apply (A2 _ x H) in Hx.
  apply (Qcle_not_lt _ _ (Qcle_trans _ _ _ L H1) Hx).
Qed.

Lemma bin_le_1 sp v i x : sp !! i = Some x -> (v <= x)%Qc -> get_bin_num v sp <= i.
Proof.
  intros Hx L. destruct (le_lt_dec (get_bin_num v sp) i) as [H|H]; [exact H|exfalso].
  destruct (bin_is_bin v sp) as (_ & A & _). apply (Qcle_not_lt _ _ L). now apply (A i).
Qed.

Lemma inc_lookup sp i j a b : inc sp -> i < j -> sp !! i = Some a -> sp !! j = Some b -> (a < b)%Qc.
Proof.
  intros S. revert i j. induction S as [|x l S IH F]; intros i j L Hi Hj; [discriminate|].
  destruct i as [|i], j as [|j]; cbn in *; try lia.
  - simplify_eq. rewrite Forall_forall in F. apply F. eapply elem_of_list_lookup_2; eauto.
  - apply (IH i j); auto. lia.
Qed.

Lemma bin_le_2 sp v i x : inc sp -> sp !! i = Some x -> get_bin_num v sp <= i -> (v <= x)%Qc.
Proof.
  intros S Hx L. destruct (bin_is_bin v sp) as (_ & _ & B). assert (i < length sp) by (apply lookup_lt_is_Some_1; eauto).
  destruct (lookup_lt_is_Some_2 sp (get_bin_num v sp)) as [y Hy]; [lia|]. apply B in Hy as H1.
  apply Nat.le_lteq in L as [L|E].
  - eapply Qcle_trans; [exact H1|]. apply Qclt_le_weak. now apply (inc_lookup sp _ _ _ _ S L Hy).
  - rewrite E in Hy. rewrite Hx in Hy. simplify_eq. exact H1.
Qed.

(** ** Sparse vectors *)
Lemma sv_new_fold {V} (l acc : list (nat * V)) : NoDup (map fst (acc ++ l)) ->
  fold_left (fun d kv => dict_set kv.1 kv.2 d) l acc = acc ++ l.
Proof.
  revert acc. induction l as [|[i v] l IH]; intros acc ND; cbn [fold_left]; [now rewrite app_nil_r|].
  rewrite dict_set_fresh.
  - cbn [fst snd]. rewrite IH; rewrite <- app_assoc; [reflexivity|exact ND].
  - cbn. rewrite map_app in ND. apply NoDup_app in ND as (_ & ND & _). intros H. apply (ND i H). now left.
Qed.

Lemma sv_new_pairs {V} (l : list (nat * V)) : NoDup (map fst l) -> sv_new (map fst l) (map snd l) = l.
Proof.
  intros ND. unfold sv_new. replace (combine (map fst l) (map snd l)) with l by (clear ND; induction l as [|[] l IH]; cbn; [reflexivity|now rewrite <- IH]).
  now apply (sv_new_fold l []).
Qed.

Lemma combine_seq_lookup {A} (l : list A) n i x : (i, x) ∈ combine (seq n (length l)) l <-> n <= i /\ l !! (i - n) = Some x.
Proof.
  revert n. induction l as [|a l IH]; intros n; cbn [length seq combine].
  - split; [intros H; inversion H|intros [_ H]; discriminate].
  - rewrite elem_of_cons, IH. split.
    + intros [[= -> ->]|[L H]]; [rewrite Nat.sub_diag; auto|]. split; [lia|]. replace (i - n) with (S (i - S n)) by lia. exact H.
    + intros [L H]. destruct (decide (i = n)) as [->|E]; [rewrite Nat.sub_diag in H; cbn in H; simplify_eq; auto|].
      right. split; [lia|]. replace (i - n) with (S (i - S n)) in H by lia. exact H.
Qed.

Lemma combine_seq_NoDup {A} (l : list A) n : NoDup (map fst (combine (seq n (length l)) l)).
Proof.
  revert n. induction l as [|a l IH]; intros n; cbn; [constructor|]. apply NoDup_cons. split; [|apply IH].
  intros H. apply elem_of_list_fmap in H as ([i x] & E & H). apply combine_seq_lookup in H as [L _]. cbn in E. lia.
Qed.

Lemma NoDup_filter_fst {A} (p : nat * A -> bool) (l : list (nat * A)) : NoDup (map fst l) -> NoDup (map fst (List.filter p l)).
Proof.
  induction l as [|[i x] l IH]; intros ND; [constructor|]. cbn in *. apply NoDup_cons in ND as [N1 N2]. destruct (p (i, x)); cbn; [|auto].
  apply NoDup_cons. split; [|auto]. intros H. apply N1. apply elem_of_list_fmap in H as (y & -> & H). apply elem_of_list_fmap. exists y. split; [reflexivity|].
  apply elem_of_list_In, filter_In in H as [H _]. now apply elem_of_list_In.
Qed.

Definition nonneg (ix : nat * Qc) : bool := negb (qltb (qabs ix.2) FLOAT_ZERO).
Lemma transform_dense l : data_format_transform (FDense l) = FSparse (List.filter nonneg (combine (seq 0 (length l)) l)) (length l).
Proof.
  unfold data_format_transform. f_equal.
  set (L := combine (seq 0 (length l)) l).
  assert (E : forall m a b, fold_left (fun acc ix => if qltb (qabs ix.2) FLOAT_ZERO then acc else (acc.1 ++ [ix.1], acc.2 ++ [ix.2])) m (a, b)
     = (a ++ map fst (List.filter nonneg m), b ++ map snd (List.filter nonneg m))).
  { induction m as [|[i x] m IH]; intros a b; cbn [fold_left List.filter]; [now rewrite !app_nil_r|]. change (nonneg (i, x)) with (negb (qltb (qabs x) FLOAT_ZERO)). cbn [fst snd].
    destruct (qltb (qabs x) FLOAT_ZERO); cbn [negb]; rewrite IH; [reflexivity|]. cbn [map fst snd]. now rewrite <- !app_assoc. }
  rewrite E. cbn [fst snd app]. apply sv_new_pairs. apply NoDup_filter_fst, combine_seq_NoDup.
Qed.

Lemma transform_get l i : dict_get i (List.filter nonneg (combine (seq 0 (length l)) l)) =
  match l !! i with Some x => if decide (qabs x < FLOAT_ZERO)%Qc then None else Some x | None => None end.
Proof.
  set (L := List.filter nonneg (combine (seq 0 (length l)) l)).
  assert (ND : NoDup (map fst L)) by (apply NoDup_filter_fst, combine_seq_NoDup).
  assert (EL : forall x, (i, x) ∈ L <-> l !! i = Some x /\ ~ (qabs x < FLOAT_ZERO)%Qc).
  { intros x. unfold L. rewrite elem_of_list_In, filter_In, <- elem_of_list_In, combine_seq_lookup, Nat.sub_0_r.
    unfold nonneg. cbn [snd]. rewrite negb_true_iff, qltb_false. split; [intros [[_ H] H']; split; [exact H|now apply Qcle_not_lt]|].
    intros [H H']. split; [split; [lia|exact H]|now apply Qcnot_lt_le]. }
  destruct (dict_get i L) as [y|] eqn:G.
  - apply dict_get_elem, EL in G as [-> N]. now rewrite decide_False.
  - destruct (l !! i) as [x|] eqn:E; [|reflexivity]. case_decide as D; [reflexivity|]. exfalso.
    assert ((i, x) ∈ L) as H by now apply EL. apply dict_get_nodup in H; [congruence|exact ND].
Qed.

Lemma transform_raw f i : raw (data_format_transform f) i = raw f i.
Proof.
  destruct f as [l|d sh]; [|reflexivity]. rewrite transform_dense. unfold raw. rewrite transform_get. destruct (l !! i) as [x|]; [|reflexivity].
  change (Q2Qc (1 # 1000000)) with FLOAT_ZERO. now case_decide.
Qed.

Lemma transform_ok w f : row_ok w f -> exists d, data_format_transform f = FSparse d w /\ row_ok w (FSparse d w).
Proof.
  destruct f as [l|d sh]; cbn [row_ok].
  - intros <-. rewrite transform_dense. eexists. split; [reflexivity|]. split; [reflexivity|]. split; [apply NoDup_filter_fst, combine_seq_NoDup|].
    apply Forall_forall. intros [i x] H. apply elem_of_list_In, filter_In in H as [H _]. apply elem_of_list_In, combine_seq_lookup in H as [_ H].
    rewrite Nat.sub_0_r in H. cbn. now apply lookup_lt_Some in H.
  - intros (-> & A & B). exists d. auto.
Qed.

Section conv.
Context {N : Type} `{EqDecision N}.

(** The new value of entry [ix] when its column is among the header columns. *)
Definition bin_entry (sps : dict N (list Qc)) (header : list N) (ix : nat * Qc) : nat * Qc :=
  (ix.1, match header !! ix.1 with
         | Some c => match dict_get c sps with Some sp => zq (Z.of_nat (get_bin_num ix.2 sp)) | None => ix.2 end
         | None => ix.2 end).

Definition has_points (sps : dict N (list Qc)) (header : list N) : Prop := forall c, c ∈ header -> is_Some (dict_get c sps).

Lemma convert_sparse_ok sps header d : has_points sps header -> NoDup (map fst d) ->
  convert_sparse (seq 0 (length header)) sps header d = Ok (map (bin_entry sps header) d).
Proof.
  intros HP ND. unfold convert_sparse.
  assert (E : forall m a b, foldM (fun acc ix => if decide (ix.1 ∈ seq 0 (length header)) then
               c ← list_index header ix.1; sp ← dict_index c sps;
               Ok (acc.1 ++ [ix.1], acc.2 ++ [zq (Z.of_nat (get_bin_num ix.2 sp))])
             else Ok (acc.1 ++ [ix.1], acc.2 ++ [ix.2])) (a, b) m
     = Ok (a ++ map fst (map (bin_entry sps header) m), b ++ map snd (map (bin_entry sps header) m))).
  { induction m as [|[i x] m IH]; intros a b; cbn [foldM map]; [now rewrite !app_nil_r|].
    destruct (header !! i) as [c|] eqn:Hc.
    - rewrite decide_True by (apply elem_of_list_In, in_seq; apply lookup_lt_Some in Hc; cbn [fst]; lia).
      unfold list_index, dict_index. cbn [fst]. rewrite Hc. cbn [mbind res_bind].
      destruct (HP c) as [sp Hsp]; [eapply elem_of_list_lookup_2; eauto|]. cbn [fst snd]. rewrite Hsp. cbn [mbind res_bind]. rewrite IH, <- !app_assoc.
      replace (bin_entry sps header (i, x)) with (i, zq (Z.of_nat (get_bin_num x sp))); [reflexivity|]. unfold bin_entry. cbn [fst snd]. now rewrite Hc, Hsp.
    - rewrite decide_False.
      { rewrite IH, <- !app_assoc. replace (bin_entry sps header (i, x)) with (i, x); [reflexivity|]. unfold bin_entry. cbn [fst snd]. now rewrite Hc. }
      cbn [fst]. rewrite elem_of_list_In, in_seq. apply lookup_ge_None in Hc. lia. }
  rewrite E. cbn [mbind res_bind fst snd app]. f_equal. apply sv_new_pairs. rewrite map_map. exact ND.
Qed.

Lemma bin_entry_get sps header d i : dict_get i (map (bin_entry sps header) d) = (fun x => (bin_entry sps header (i, x)).2) <$> dict_get i d.
Proof. induction d as [|[j x] d IH]; [reflexivity|]. cbn. case_decide; [now subst|exact IH]. Qed.

Lemma get_sparse_bin_ok sps header : has_points sps header ->
  exists bs, get_sparse_bin (seq 0 (length header)) sps header = Ok bs /\
    forall i c sp, header !! i = Some c -> dict_get c sps = Some sp -> dict_get i bs = Some (get_bin_num (zq 0) sp).
Proof.
  intros HP. unfold get_sparse_bin.
  assert (E : forall k n acc, n + k = length header ->
     exists bs, foldM (fun r i => c ← list_index header i; sp ← dict_index c sps; Ok (dict_set i (get_bin_num (zq 0) sp) r)) acc (seq n k) = Ok bs /\
       forall i, if decide (n <= i < n + k) then forall c sp, header !! i = Some c -> dict_get c sps = Some sp -> dict_get i bs = Some (get_bin_num (zq 0) sp)
                 else dict_get i bs = dict_get i acc).
  { induction k as [|k IH]; intros n acc L; cbn [seq foldM].
    - exists acc. split; [reflexivity|]. intros i. rewrite decide_False by lia. reflexivity.
    - destruct (lookup_lt_is_Some_2 header n) as [c Hc]; [lia|]. destruct (HP c) as [sp Hsp]; [eapply elem_of_list_lookup_2; eauto|].
      unfold list_index, dict_index at 1. rewrite Hc. cbn [mbind res_bind]. rewrite Hsp. cbn [mbind res_bind].
      destruct (IH (S n) (dict_set n (get_bin_num (zq 0) sp) acc)) as (bs & E & P); [lia|]. unfold list_index in E. exists bs. split; [exact E|].
      intros i. specialize (P i). destruct (decide (n <= i < n + S k)) as [D|D].
      + intros c' sp' H1 H2. destruct (decide (i = n)) as [->|NE].
        * rewrite decide_False in P by lia. rewrite P. rewrite dict_get_set_eq. congruence.
        * rewrite decide_True in P by lia. eauto.
      + rewrite decide_False in P by lia. rewrite P. apply dict_get_set_ne. lia. }
  destruct (E (length header) 0 []) as (bs & F & P); [lia|]. exists bs. split; [exact F|]. intros i c sp H1 H2.
  specialize (P i). rewrite decide_True in P; [eauto|]. apply lookup_lt_Some in H1. lia.
Qed.
End conv.

(** ** The heap *)
Section heap.
Context {K N : Type} `{EqDecision K} `{EqDecision N}.
Implicit Types t : dtable K loc.

Lemma heap_map_ok (f : feats -> res feats) (P : feats -> feats -> Prop) h t :
  NoDup (dt_keys t) -> NoDup (dt_values t) ->
  (forall l, l ∈ dt_values t -> exists o o', h !! l = Some o /\ f o = Ok o' /\ P o o') ->
  exists h', heap_mapValues f h t = Ok (h', t) /\ length h' = length h /\
    (forall l, l ∉ dt_values t -> h' !! l = h !! l) /\
    (forall l, l ∈ dt_values t -> exists o o', h !! l = Some o /\ h' !! l = Some o' /\ P o o').
Proof.
  intros NK NV H. unfold heap_mapValues, dt_values in *.
  assert (E : forall (d : list (K * loc)) h0, NoDup (map snd d) -> (forall l, l ∈ map snd d -> exists o o', h0 !! l = Some o /\ f o = Ok o' /\ P o o') ->
     exists h', foldM (fun h kl => match h !! kl.2 with
                            | Some o => match f o with Ok o' => Ok (<[kl.2 := o']> h) | Err e => Err e end
                            | None => Err AttributeError
                            end) h0 d = Ok h' /\ length h' = length h0 /\ (forall l, l ∉ map snd d -> h' !! l = h0 !! l) /\
       (forall l, l ∈ map snd d -> exists o o', h0 !! l = Some o /\ h' !! l = Some o' /\ P o o')).
  { induction d as [|[k l] d IH]; intros h0 ND HH; cbn [foldM map].
    - exists h0. repeat split; auto. intros l Hl; inversion Hl.
    - cbn in ND. apply NoDup_cons in ND as [N1 N2]. destruct (HH l) as (o & o' & E1 & E2 & E3); [cbn; left|]. cbn [snd]. rewrite E1, E2.
      destruct (IH (<[l := o']> h0) N2) as (h' & F & L & G1 & G2).
      { intros m Hm. destruct (HH m) as (u & u' & A); [cbn; now right|]. exists u, u'. rewrite list_lookup_insert_ne; [exact A|]. intros ->. contradiction. }
      exists h'. split; [exact F|]. split; [now rewrite insert_length in L|]. split.
      + intros m Hm. cbn in Hm. apply not_elem_of_cons in Hm as [M1 M2]. rewrite (G1 m M2). apply list_lookup_insert_ne. congruence.
      + intros m Hm. cbn in Hm. apply elem_of_cons in Hm as [->|Hm].
        * exists o, o'. split; [exact E1|]. split; [|exact E3]. rewrite (G1 l N1). apply list_lookup_insert. apply lookup_lt_is_Some_1; eauto.
        * destruct (G2 m Hm) as (u & u' & A & B). exists u, u'. rewrite list_lookup_insert_ne in A; [auto|]. intros ->. contradiction. }
  destruct (E (dt_data t) h NV H) as (h' & F & L & G1 & G2).
  match goal with |- context [foldM ?g ?a ?d] => replace (foldM g a d) with (@Ok heap h') by (symmetry; exact F) end.
  cbn [mbind res_bind]. rewrite dt_new_keyed_ok by exact NK. cbn [mbind res_bind].
  exists h'. destruct t. auto.
Qed.

Lemma rows_of_ok h t (Q : feats -> Prop) : (forall l, l ∈ dt_values t -> exists o, h !! l = Some o /\ Q o) ->
  exists rows, rows_of h t = Ok rows /\ length rows = dt_count t /\ Forall Q rows /\
    forall l, l ∈ dt_values t -> exists o, h !! l = Some o /\ o ∈ rows.
Proof.
  intros H. unfold rows_of, dt_values, dt_count in *. revert H. induction (dt_data t) as [|[k l] d IH]; intros H; cbn [mapR].
  - exists []. repeat split; auto. intros l Hl; inversion Hl.
  - destruct (H l) as (o & E & HQ); [cbn; left|]. cbn [snd]. rewrite E. destruct IH as (rows & F & L & A & B).
    { intros m Hm. apply H. cbn. now right. }
    rewrite F. exists (o :: rows). split; [reflexivity|]. split; [cbn; now f_equal|]. split; [now constructor|].
    intros m Hm. cbn in Hm. apply elem_of_cons in Hm as [->|Hm]; [exists o; split; [exact E|left]|]. destruct (B m Hm) as (u & U1 & U2). exists u. split; [exact U1|now right].
Qed.

Lemma prepare_ok (p : bin_params) (header : list N) h t :
  NoDup header -> table_ok (length header) h t -> params_ok p (dt_count t) ->
  exists rows sps h' bs,
    prepare p header h t = Ok (h', t, split_points_result sps header, bs) /\
    rows_of h t = Ok rows /\
    fit_split_points p header (map data_format_transform rows) = Ok sps /\
    map fst sps = header /\
    (forall i c, header !! i = Some c -> exists sp, dict_get c sps = Some sp /\ NoDup sp /\
        length sp <= bp_bin_num p - 1 /\ dict_get i bs = Some (get_bin_num (zq 0) sp)) /\
    length h' = length h /\
    (forall l, l ∉ dt_values t -> h' !! l = h !! l) /\
    (forall l, l ∈ dt_values t -> exists o d, h !! l = Some o /\ h' !! l = Some (FSparse d (length header)) /\
       NoDup (map fst d) /\
       forall i, dict_get i d = (fun x => (bin_entry sps header (i, x)).2) <$>
          (match data_format_transform o with FSparse d0 _ => dict_get i d0 | FDense _ => None end)).
Proof.
  intros NH (NE & NK & NV & HO) (EO & AB & HD & HB).
  set (w := length header) in *.
  destruct (heap_map_ok (fun o => Ok (data_format_transform o)) (fun o o' => o' = data_format_transform o /\ row_ok w o) h t NK NV) as (h1 & A1 & A2 & A3 & A4).
  { intros l Hl. destruct (HO l Hl) as (o & E & R). exists o, (data_format_transform o). auto. }
  assert (SP : forall l, l ∈ dt_values t -> exists o, h1 !! l = Some o /\ exists d, o = FSparse d w /\ NoDup (map fst d) /\ Forall (fun kv => kv.1 < w) d).
  { intros l Hl. destruct (A4 l Hl) as (o & o' & E1 & E2 & -> & R). apply transform_ok in R as (d & E & R). rewrite E in E2. exists (FSparse d w).
    split; [exact E2|]. exists d. split; [reflexivity|]. apply R. }
  destruct (rows_of_ok h1 t _ SP) as (rows1 & B1 & B2 & B3 & B4).
  assert (RR : exists rows, rows_of h t = Ok rows /\ rows1 = map data_format_transform rows).
  { clear -B1 A4. unfold rows_of, dt_values in *. revert rows1 B1 A4. induction (dt_data t) as [|[k l] d IH]; intros rows1 B1 A4; cbn [mapR snd] in *.
    - injection B1 as <-. exists []. auto.
    - destruct (A4 l) as (o & o' & E1 & E2 & -> & R); [cbn; left|]. rewrite E1. rewrite E2 in B1. destruct (mapR _ d) as [ys|] eqn:M in B1; [|discriminate].
      injection B1 as <-. destruct (IH ys M) as (rows & -> & ->); [intros m Hm; apply A4; cbn; now right|]. exists (o :: rows). auto. }
  destruct RR as (rows & R1 & R2). subst rows1.
  assert (NE' : map data_format_transform rows <> []).
  { intros E. rewrite E in B2. unfold dt_count in B2. destruct (dt_data t); [congruence|discriminate]. }
  assert (SR : sparse_rows w (map data_format_transform rows)).
  { eapply Forall_impl; [exact B3|]. intros o (d & -> & F1 & F2). exists d, w. auto. }
  destruct (fit_sparse p header (map data_format_transform rows) NH NE' SR EO AB) as (sps & F & FK & FP); [rewrite B2; exact HD|rewrite B2; exact HB|].
  assert (HP : has_points sps header).
  { intros c Hc. apply elem_of_list_lookup in Hc as [i Hc]. destruct (FP i c Hc) as (sp & G & _). rewrite G. eauto. }
  destruct (get_sparse_bin_ok sps header HP) as (bs & G1 & G2).
  destruct (heap_map_ok (convert_row true (seq 0 w) sps header)
     (fun o o' => exists d d', o = FSparse d w /\ o' = FSparse d' w /\ d' = map (bin_entry sps header) d /\ NoDup (map fst d)) h1 t NK NV) as (h2 & C1 & C2 & C3 & C4).
  { intros l Hl. destruct (SP l Hl) as (o & E & d & -> & D1 & D2). exists (FSparse d w), (FSparse (map (bin_entry sps header) d) w).
    split; [exact E|]. cbn [convert_row]. pose proof (convert_sparse_ok sps header d HP D1) as CS. fold w in CS. rewrite CS. split; [reflexivity|]. eauto 10. }
  exists rows, sps, h2, bs. split.
  { unfold prepare, data_alignment. rewrite decide_False. 2:{ unfold dt_count. intros E. apply NE. now apply nil_length_inv. }
    rewrite A1. cbn [mbind res_bind fst snd]. rewrite B1. cbn [mbind res_bind]. rewrite F. cbn [mbind res_bind].
    unfold convert_feature_to_bin. rewrite B1. cbn [mbind res_bind].
    destruct (map data_format_transform rows) as [|r0 rr] eqn:ER; [congruence|]. apply Forall_inv in B3 as (d0 & -> & _). cbn [mbind res_bind]. fold w.
    rewrite C1. cbn [mbind res_bind]. fold w in G1. rewrite G1. reflexivity. }
  split; [exact R1|]. split; [exact F|]. split; [exact FK|]. split.
  { intros i c Hc. destruct (FP i c Hc) as (sp & S1 & S2 & S3 & S4 & S5). exists sp. repeat split; auto. eapply G2; eauto. }
  split; [lia|]. split.
  { intros l Hl. rewrite (C3 l Hl). now apply A3. }
  intros l Hl. destruct (A4 l Hl) as (o & o' & E1 & E2 & -> & R). destruct (C4 l Hl) as (u & u' & U1 & U2 & d & d' & -> & -> & -> & DN).
  rewrite U1 in E2. injection E2 as E2. exists o, (map (bin_entry sps header) d). split; [exact E1|]. split; [exact U2|].
  split; [rewrite map_map; exact DN|]. intros i. rewrite bin_entry_get. now rewrite <- E2.
Qed.
End heap.
