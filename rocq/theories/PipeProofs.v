(** Reading the row objects gives what training and prediction work on. *)
From Verif Require Export PipeSpec BinningProofs.
From Verif Require Import QuantileTable QuantileFit.
Local Open Scope nat_scope.

Section Load.
  Context {K N : Type} `{EqDecision K} `{EqDecision N}.
  Implicit Types s : source K N.

  Lemma points_lookup' (sps : dict N (list Qc)) header i c sp : has_points sps header -> header !! i = Some c -> dict_get c sps = Some sp -> split_points_result sps header !! i = Some sp.
  Proof.
    unfold split_points_result. revert i. induction header as [|h header IH]; intros i HP Hi G; [discriminate|]. cbn.
    destruct (HP h) as [sh Hh]; [left|]. rewrite Hh. destruct i as [|i]; cbn in *; [simplify_eq; congruence|]. apply IH; auto. intros c' Hc'. apply HP. now right.
  Qed.
  Lemma points_length' (sps : dict N (list Qc)) header : has_points sps header -> length (split_points_result sps header) = length header.
  Proof.
    unfold split_points_result. induction header as [|h header IH]; intros HP; [reflexivity|]. cbn.
    destruct (HP h) as [sh Hh]; [left|]. rewrite Hh. cbn. f_equal. apply IH. intros c' Hc'. apply HP. now right.
  Qed.

  Lemma row_at s k l o : rows_ok s -> (k, l) ∈ dt_data (so_rows s) -> so_heap s !! l = Some o -> forall f, value s k f = raw o f.
  Proof.
    intros (_ & NK & _) Hk Ho f. unfold value. rewrite (dict_get_nodup _ _ _ NK Hk), Ho. reflexivity.
  Qed.
  Lemma in_values s k l : (k, l) ∈ dt_data (so_rows s) -> l ∈ dt_values (so_rows s).
  Proof. intros Hk. unfold dt_values. apply elem_of_list_fmap. exists (k, l). auto. Qed.

  Lemma view_ok {A} (g : feats -> A) h (t : dtable K loc) : dt_wf t -> (forall l, l ∈ dt_values t -> is_Some (h !! l)) ->
    exists t', view g h t = Ok t' /\ dt_wf t' /\ dt_keys t' = dt_keys t /\
      forall k a, (k, a) ∈ dt_data t' <-> exists l o, (k, l) ∈ dt_data t /\ h !! l = Some o /\ a = g o.
  Proof.
    intros W HS. unfold view.
    destruct (dt_mapValues_rel (fun l => match h !! l with Some o => Ok (g o) | None => Err AttributeError end) (fun _ l a => exists o, h !! l = Some o /\ a = g o) t W) as (t' & E & W' & KS & G).
    { intros k l Hl. apply tget_elem in Hl; [|exact W]. destruct (HS l) as [o Ho]; [apply elem_of_list_fmap; exists (k, l); auto|]. rewrite Ho. eauto. }
    exists t'. split; [exact E|]. split; [exact W'|]. split; [exact KS|]. intros k a. rewrite <- tget_elem by exact W'. specialize (G k). split.
    - intros Ha. rewrite Ha in G. destruct (tget t k) as [l|] eqn:El; [|contradiction]. destruct G as (o & Ho & ->). exists l, o. split; [now apply tget_elem in El|auto].
    - intros (l & o & Hl & Ho & ->). apply tget_elem in Hl; [|exact W]. rewrite Hl in G. destruct (tget t' k) as [a|]; [|contradiction]. destruct G as (o' & Ho' & ->). congruence.
  Qed.

  (** The party read from [s]. *)
  Definition party_of (par : sparams) (points : list (list Qc)) s : party K :=
    Party (fun k f => match points !! f with Some pts => get_bin_num (value s k f) pts | None => 0 end) (map length points) (repeat true (length points)) (min_sample par) (min_leaf par).
  (** A table of rows that holds the values of [s]. *)
  Definition values_of s (r : dtable K (dict nat Qc)) : Prop :=
    dt_wf r /\ dt_keys r = dt_keys (so_rows s) /\ forall k row f, (k, row) ∈ dt_data r -> sv_get row f (zq 0) = value s k f.

  (** The split points of a column are the quantiles of the column. *)
  Lemma mapR_each {A B} (f : A -> res B) l ys : mapR f l = Ok ys -> forall x, x ∈ l -> exists y, f x = Ok y.
  Proof.
    revert ys. induction l as [|a l IH]; intros ys E x Hx; [inversion Hx|]. cbn [mapR] in E. destruct (f a) as [b|] eqn:Ea; [|discriminate]. cbn [mbind res_bind] in E. destruct (mapR f l) as [bs|] eqn:El; [|discriminate].
    apply elem_of_cons in Hx as [->|Hx]; [eauto|]. exact (IH bs eq_refl x Hx).
  Qed.
  Lemma fit_columns bp (header : list N) rows sps i c sp : NoDup header -> rows <> [] -> sparse_rows (length header) rows -> bp_abnormal bp = [] ->
    fit_split_points bp header rows = Ok sps -> header !! i = Some c -> dict_get c sps = Some sp -> quantiles bp (length rows) (column i rows) = Ok sp.
  Proof.
    intros ND NE SR AB E Hc Hs. unfold fit_split_points in E. pose proof SR as SR'. destruct rows as [|r rows0] eqn:ER; [congruence|]. apply Forall_cons in SR' as [(d0 & sh0 & -> & _) _]. rewrite <- ER in *. clear ER. unfold approx_sparse in E. rewrite AB in E.
    rewrite (init_cols_spec header ND) in E.
    rewrite (cols_map id (fun ci => (ci.1, sq_new (bp_thres bp) (bp_head bp) (bp_error bp) [])) (fun _ => sq_new (bp_thres bp) (bp_head bp) (bp_error bp) []) header) in E by reflexivity.
    rewrite (sparse_fold header rows ND SR) in E. cbn [mbind res_bind] in E.
    set (S0 := fun i => sinsert_all (sq_new (bp_thres bp) (bp_head bp) (bp_error bp) []) (column i rows)) in E.
    set (S1 := fun i => SQ (qs_compress (sq_base (S0 i))) (sq_smaller (S0 i)) (sq_bigger (S0 i)) (sq_total (S0 i))).
    rewrite (cols_map _ (fun cs => (cs.1, SQ (qs_compress (sq_base cs.2)) (sq_smaller cs.2) (sq_bigger cs.2) (sq_total cs.2))) S1 header) in E by reflexivity.
    assert (SE : forall j, sq_set_total (Z.of_nat (length rows)) (S1 j) = SQ (qs_compress (insert_all (qs_new (bp_thres bp) (bp_head bp) (bp_error bp) []) (column j rows)))
       (Z.of_nat (length (filter (fun x => (x < FLOAT_ZERO)%Qc) (column j rows)))) (Z.of_nat (length (filter (fun x => ~ (x < FLOAT_ZERO)%Qc) (column j rows)))) (Z.of_nat (length rows))).
    { intros j. unfold S1, S0. rewrite sinsert_all_spec. reflexivity. }
    set (h := fun j => match quantiles bp (length rows) (column j rows) with Ok q => q | Err _ => [] end).
    assert (QF : forall j a, header !! j = Some a -> quantiles bp (length rows) (column j rows) = Ok (h j)).
    { intros j a Hj. destruct (mapR_each _ _ _ E (a, S1 j)) as [y Ey].
      { unfold cols_of. apply elem_of_lookup_imap. exists j, a. auto. }
      cbn [fst snd] in Ey. rewrite SE in Ey. fold (quantiles bp (length rows) (column j rows)) in Ey. unfold h. destruct (quantiles bp (length rows) (column j rows)); [reflexivity|discriminate]. }
    rewrite (mapR_cols S1 _ h header) in E.
    - injection E as <-. rewrite (cols_get h header i c ND Hc) in Hs. injection Hs as <-. exact (QF i c Hc).
    - intros j a Hj. cbn [fst snd]. rewrite SE. fold (quantiles bp (length rows) (column j rows)). now rewrite (QF j a Hj).
  Qed.
  Lemma entry_transform o f : match data_format_transform o with FDense l => l !! f | FSparse d _ => dict_get f d end = stored_entry o f.
  Proof. destruct o as [l|d sh]; [|reflexivity]. rewrite transform_dense, transform_get. reflexivity. Qed.
  Lemma rows_cells s rows f : rows_of (so_heap s) (so_rows s) = Ok rows -> column f (map data_format_transform rows) = cells s f /\ length (map data_format_transform rows) = dt_count (so_rows s).
  Proof.
    unfold rows_of, cells, dt_count, column. revert rows. induction (dt_data (so_rows s)) as [|[k l] d IH]; intros rows E; cbn [mapR snd] in E.
    - injection E as <-. auto.
    - cbn [omap list_omap snd]. destruct (so_heap s !! l) as [o|]; [|discriminate]. cbn [mbind res_bind] in E. destruct (mapR _ d) as [ys|]; [|discriminate]. injection E as <-.
      destruct (IH ys eq_refl) as [I1 I2]. cbn [map omap list_omap length]. rewrite entry_transform, I1. split; [reflexivity|]. now rewrite I2.
  Qed.

  Lemma load_ok bp par depth stp s : source_ok bp s -> exists h' points zeros data,
    load bp par depth stp (so_header s) (so_heap s) (so_rows s) = Ok (h', PCfg par depth stp points zeros [] data) /\
    sees bp par s points (party_of par points s) /\ overwritten s (party_of par points s) h' /\
    let cfg := PCfg par depth stp points zeros (repeat true (length points)) data in
    party_ok (dt_keys (so_rows s)) cfg (party_of par points s) /\
    forall r, values_of s r -> raw_of cfg r.
  Proof.
    intros (NH & L1 & _ & TO & PO). pose proof TO as (NE & NK & NV & RO).
    destruct (prepare_ok bp (so_header s) (so_heap s) (so_rows s) NH TO PO) as (rows & sps & h' & bs & E & RW & FS & _ & FP & LH & SAME & HO).
    set (points := split_points_result sps (so_header s)) in *.
    assert (HP : has_points sps (so_header s)).
    { intros c Hc. apply elem_of_list_lookup in Hc as [i Hc]. destruct (FP i c Hc) as (sp & G & _). rewrite G. eauto. }
    pose proof (points_length' sps (so_header s) HP) as LP. fold points in LP.
    assert (PT : forall f pts, points !! f = Some pts -> exists c, so_header s !! f = Some c /\ dict_get c sps = Some pts).
    { intros f pts Hf. destruct (lookup_lt_is_Some_2 (so_header s) f) as [c Hc]; [rewrite <- LP; eapply lookup_lt_Some; eauto|].
      destruct (FP f c Hc) as (sp & G & _). exists c. split; [exact Hc|]. pose proof (points_lookup' sps (so_header s) f c sp HP Hc G) as X. fold points in X. congruence. }
    (* the converted rows *)
    assert (ROW : forall k l, (k, l) ∈ dt_data (so_rows s) -> exists d, h' !! l = Some (FSparse d (length (so_header s))) /\ NoDup d.*1 /\
       forall f, match dict_get f d with
                 | Some x => exists pts, points !! f = Some pts /\ x = zq (Z.of_nat (get_bin_num (value s k f) pts))
                 | None => value s k f = zq 0 end).
    { intros k l Hk. destruct (HO l (in_values s k l Hk)) as (o & d & Ho & Hd & ND & G). exists d. split; [exact Hd|]. split; [exact ND|]. intros f.
      destruct (RO l (in_values s k l Hk)) as (o' & Ho' & R). rewrite Ho in Ho'. injection Ho' as <-. rewrite (row_at s k l o TO Hk Ho), <- (transform_raw o f).
      destruct (transform_ok _ _ R) as (d0 & ED & _ & _ & LT). specialize (G f). rewrite ED in G |- *. rewrite G. cbn [raw]. destruct (dict_get f d0) as [x|] eqn:EX; [|reflexivity].
      cbn. unfold bin_entry. cbn. assert (Lf : f < length (so_header s)).
      { rewrite Forall_forall in LT. apply dict_get_elem in EX. exact (LT _ EX). }
      destruct (lookup_lt_is_Some_2 _ _ Lf) as [c Hc]. rewrite Hc. destruct (FP f c Hc) as (sp & S1 & _). rewrite S1. exists sp. split; [|reflexivity]. exact (points_lookup' sps _ f c sp HP Hc S1). }
    destruct (view_ok row_bins h' (so_rows s) NK) as (data & ED & WD & KD & GD).
    { intros l Hl. apply elem_of_list_fmap in Hl as ([k l'] & -> & Hk). cbn. destruct (ROW k l' Hk) as (d & Hd & _). eauto. }
    assert (DAT : forall k r, (k, r) ∈ dt_data data -> NoDup r.*1 /\ forall f,
       match dict_get f r with
       | Some b => exists pts, points !! f = Some pts /\ b = get_bin_num (value s k f) pts
       | None => value s k f = zq 0 end).
    { intros k r Hr. apply GD in Hr as (l & o & Hl & Ho & ->). destruct (ROW k l Hl) as (d & Hd & ND & G). rewrite Ho in Hd. injection Hd as ->. cbn [row_bins]. split.
      - rewrite <- list_fmap_compose. exact ND.
      - intros f. specialize (G f). assert (X : dict_get f (map (fun ix : nat * Qc => (ix.1, Z.to_nat (qfloor ix.2))) d) = (fun x => Z.to_nat (qfloor x)) <$> dict_get f d).
        { clear. induction d as [|[i x] d IH]; [reflexivity|]. cbn. case_decide; [reflexivity|exact IH]. }
        rewrite X. destruct (dict_get f d) as [x|]; cbn; [|exact G]. destruct G as (pts & Hp & ->). exists pts. split; [exact Hp|]. rewrite qfloor_zq. apply Nat2Z.id. }
    assert (BIN : forall k r f pts, (k, r) ∈ dt_data data -> points !! f = Some pts -> bin_of bs f r = get_bin_num (value s k f) pts).
    { intros k r f pts Hr Hf. destruct (DAT k r Hr) as [_ G]. specialize (G f). unfold bin_of, sv_get. destruct (dict_get f r) as [b|].
      - destruct G as (pts' & Hp & ->). congruence.
      - rewrite G. destruct (PT f pts Hf) as (c & Hc & G1). destruct (FP f c Hc) as (sp & S1 & _ & _ & S4). rewrite S4. congruence. }
    exists h', points, bs, data. split.
    { unfold load. rewrite E. cbn [mbind res_bind fst snd]. rewrite ED. reflexivity. }
    split.
    { split; [exact LP|]. split.
      { intros pts Hp. apply elem_of_list_lookup in Hp as [f Hf]. destruct (PT f pts Hf) as (c & Hc & G). destruct (FP f c Hc) as (sp & S1 & S2 & S3 & _). assert (pts = sp) as -> by congruence. auto. }
      split.
      { intros f pts Hf. destruct (PT f pts Hf) as (c & Hc & G). destruct (rows_cells s rows f RW) as [RC RL]. rewrite <- RC, <- RL.
        eapply (fit_columns bp (so_header s) (map data_format_transform rows) sps f c pts NH); [| |apply PO|exact FS|exact Hc|exact G].
        - intros X. rewrite X in RL. apply NE. unfold dt_count in RL. destruct (dt_data (so_rows s)); [reflexivity|discriminate].
        - unfold rows_of in RW. clear - RO RW. unfold dt_values in RO. revert rows RW RO. induction (dt_data (so_rows s)) as [|[k l] d IH]; intros rows RW RO; cbn [mapR snd] in RW.
          + injection RW as <-. constructor.
          + destruct (RO l) as (o & Ho & R); [left|]. rewrite Ho in RW. cbn [mbind res_bind] in RW. destruct (mapR _ d) as [ys|] eqn:EY; [|discriminate]. injection RW as <-. cbn [map]. constructor.
            * destruct (transform_ok _ _ R) as (d0 & -> & _ & A & B). exists d0, (length (so_header s)). auto.
            * apply IH; [reflexivity|]. intros l' Hl'. apply RO. now right. }
      split; [reflexivity|]. split; [reflexivity|]. split; [reflexivity|]. intros k f pts Hk Hf. cbn. rewrite Hf. apply bin_is_bin. }
    split.
    { split; [exact LH|]. split; [exact SAME|]. intros k l Hk. destruct (ROW k l Hk) as (d & Hd & ND & G). exists d. split; [exact Hd|]. split.
      - split; [reflexivity|]. split; [exact ND|]. apply Forall_forall. intros [f x] Hx. cbn. specialize (G f). apply (dict_get_nodup _ _ _ ND) in Hx. rewrite Hx in G. destruct G as (pts & Hp & _).
        rewrite <- LP. eapply lookup_lt_Some; eauto.
      - intros f. specialize (G f). destruct (dict_get f d) as [x|]; [|exact G]. destruct G as (pts & Hp & ->). cbn. now rewrite Hp. }
    cbv zeta. split.
    - split; cbn [c_data c_points c_zero c_valid c_par p_bin p_nb p_valid p_min_sample p_min_leaf party_of]; try reflexivity.
      + exact WD.
      + intros k. now rewrite KD.
      + intros k r Hr. apply (DAT k r Hr).
      + intros k r f Hr Hf. destruct (lookup_lt_is_Some_2 points f Hf) as [pts Hp]. rewrite Hp. symmetry. now apply BIN.
      + intros k r f b Hr Hb. destruct (DAT k r Hr) as [_ G]. specialize (G f). rewrite Hb in G. destruct G as (pts & Hp & ->). exists pts. split; [exact Hp|]. apply bin_is_bin.
      + intros f pts Hf. destruct (PT f pts Hf) as (c & Hc & G). destruct (FP f c Hc) as (sp & S1 & _ & _ & S4). assert (pts = sp) as -> by congruence. exists (get_bin_num (zq 0) sp). split; [exact S4|]. apply bin_is_bin.
      + apply repeat_length.
    - intros r (W & KS & G). split; [exact W|intros k; cbn [c_data]; rewrite KS, KD; reflexivity|]. cbn [c_data c_points c_zero]. intros k row brow f pts Hr Hb Hf.
      rewrite (G k row f Hr), (BIN k brow f pts Hb Hf). apply bin_is_bin.
  Qed.

  (** Before prediction the rows are aligned only. *)
  Lemma align_ok s : rows_ok s -> exists h' r, data_alignment (so_heap s) (so_rows s) = Ok (h', so_rows s) /\ view row_values h' (so_rows s) = Ok r /\ values_of s r /\ realigned s h'.
  Proof.
    intros TO. pose proof TO as (NE & NK & NV & RO).
    destruct (heap_map_ok (fun o => Ok (data_format_transform o)) (fun o o' => o' = data_format_transform o /\ row_ok (length (so_header s)) o) (so_heap s) (so_rows s) NK NV) as (h' & A1 & A2 & A3 & A4).
    { intros l Hl. destruct (RO l Hl) as (o & E & R). exists o, (data_format_transform o). auto. }
    assert (ROW : forall k l, (k, l) ∈ dt_data (so_rows s) -> exists d, h' !! l = Some (FSparse d (length (so_header s))) /\ forall f, raw (FSparse d (length (so_header s))) f = value s k f).
    { intros k l Hk. destruct (A4 l (in_values s k l Hk)) as (o & o' & Ho & Ho' & -> & R). destruct (transform_ok _ _ R) as (d & ED & _). exists d. rewrite <- ED. split; [exact Ho'|]. intros f.
      rewrite transform_raw. symmetry. now apply (row_at s k l). }
    destruct (view_ok row_values h' (so_rows s) NK) as (r & ER & WR & KR & GR).
    { intros l Hl. apply elem_of_list_fmap in Hl as ([k l'] & -> & Hk). cbn. destruct (ROW k l' Hk) as (d & Hd & _). eauto. }
    exists h', r. split.
    { unfold data_alignment. rewrite decide_False; [exact A1|]. unfold dt_count. intros E. apply NE. now apply nil_length_inv. }
    split; [exact ER|]. split; [|split; [exact A2|split; [exact A3|exact ROW]]]. split; [exact WR|]. split; [exact KR|]. intros k row f Hr. apply GR in Hr as (l & o & Hl & Ho & ->).
    destruct (ROW k l Hl) as (d & Hd & G). rewrite Ho in Hd. injection Hd as ->. exact (G f).
  Qed.
  Lemma left_rows s p h' : rows_ok s -> overwritten s p h' -> rows_ok (left_in s h').
  Proof.
    intros (NE & NK & NV & RO) (_ & _ & OV). split; [exact NE|]. split; [exact NK|]. split; [exact NV|]. cbn [so_rows so_heap so_header left_in]. intros l Hl.
    apply elem_of_list_fmap in Hl as ([k l'] & -> & Hk). cbn. destruct (OV k l' Hk) as (d & Hd & R & _). eauto.
  Qed.
  Lemma left_value s p h' k f : rows_ok s -> overwritten s p h' -> k ∈ dt_keys (so_rows s) ->
    value (left_in s h') k f = zq (Z.of_nat (p_bin p k f)) \/ value (left_in s h') k f = zq 0 /\ value s k f = zq 0.
  Proof.
    intros (NE & NK & NV & RO) (_ & _ & OV) Hk. unfold dt_keys in Hk. apply elem_of_list_fmap in Hk as ([k' l] & -> & Hk). cbn [fst]. destruct (OV k' l Hk) as (d & Hd & _ & G). specialize (G f).
    unfold value at 1 2. cbn [so_rows so_heap left_in]. rewrite (dict_get_nodup _ _ _ NK Hk), Hd. cbn [raw]. destruct (dict_get f d) as [x|]; [now left|right; auto].
  Qed.
End Load.
