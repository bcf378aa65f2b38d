(** Model of ml/feature/sparse_vector.py, ml/feature/binning/base_binning.py (conversion part) and
    ml/tree/boosting_tree.py (data alignment), including the in-place mutation of the row objects. *)
From Verif Require Export QuantileModel DTableModel.
Local Open Scope nat_scope.

(** ml/feature/sparse_vector.py:39-40 — [dict(zip(indices, data))]. *)
Definition sv_new {V} (indices : list nat) (data : list V) : dict nat V :=
  fold_left (fun d kv => dict_set kv.1 kv.2 d) (combine indices data) [].

(** ml/feature/sparse_vector.py:43-44 — [get_data(pos, default)]. *)
Definition sv_get {V} (d : dict nat V) (pos : nat) (default : V) : V :=
  match dict_get pos d with Some v => v | None => default end.

(** ml/feature/binning/base_binning.py:153-160 *)
Fixpoint bin_scan (value : Qc) (bin_num : nat) (split_points : list Qc) (default : nat) : nat :=
  match split_points with
  | [] => default
  | p :: l => if qleb value p then bin_num else bin_scan value (S bin_num) l default
  end.
Definition get_bin_num (value : Qc) (split_points : list Qc) : nat :=
  bin_scan value 0 split_points (length split_points).

(** ml/tree/boosting_tree.py:51-67 data_format_transform: the new value of [row.features]. *)
Definition data_format_transform (f : feats) : feats :=
  match f with
  | FSparse _ _ => f
  | FDense l =>
      let kept := fold_left (fun acc ix => if qltb (qabs ix.2) FLOAT_ZERO then acc else (acc.1 ++ [ix.1], acc.2 ++ [ix.2]))
                    (combine (seq 0 (length l)) l) ([], []) in
      FSparse (sv_new kept.1 kept.2) (length l)
  end.

Section Convert.
  Context {N : Type} `{EqDecision N}.

  (** base_binning.py:116-138 _convert_sparse_data: the new features of one row. Bin numbers and raw values are
      both kept as numbers; [cols] is transform_cols_idx. *)
  Definition convert_sparse (cols : list nat) (sps : dict N (list Qc)) (header : list N) (d : dict nat Qc) : res (dict nat Qc) :=
    acc ← foldM (fun acc ix =>
             if decide (ix.1 ∈ cols) then
               c ← list_index header ix.1; sp ← dict_index c sps;
               Ok (acc.1 ++ [ix.1], acc.2 ++ [zq (Z.of_nat (get_bin_num ix.2 sp))])
             else Ok (acc.1 ++ [ix.1], acc.2 ++ [ix.2])) ([], []) d;
    Ok (sv_new acc.1 acc.2).

  (** base_binning.py:140-151 _convert_dense_data *)
  Definition convert_dense (cols : list nat) (sps : dict N (list Qc)) (header : list N) (l : list Qc) : res (list Qc) :=
    mapR (fun ix => if decide (ix.1 ∈ cols) then
                      c ← list_index header ix.1; sp ← dict_index c sps; Ok (zq (Z.of_nat (get_bin_num ix.2 sp)))
                    else Ok ix.2) (combine (seq 0 (length l)) l).

  (** The function passed to mapValues in base_binning.py:93-104; is_sparse was decided on the first row, so a row of
      the other kind raises AttributeError or TypeError. *)
  Definition convert_row (is_sparse : bool) (cols : list nat) (sps : dict N (list Qc)) (header : list N) (f : feats) : res feats :=
    match is_sparse, f with
    | true, FSparse d sh => d' ← convert_sparse cols sps header d; Ok (FSparse d' sh)
    | false, FDense l => l' ← convert_dense cols sps header l; Ok (FDense l')
    | true, FDense _ => Err AttributeError
    | false, FSparse _ _ => Err TypeError
    end.

  (** base_binning.py:162-172 get_sparse_bin *)
  Definition get_sparse_bin (cols : list nat) (sps : dict N (list Qc)) (header : list N) : res (dict nat nat) :=
    foldM (fun r i => c ← list_index header i; sp ← dict_index c sps; Ok (dict_set i (get_bin_num (zq 0) sp) r)) [] cols.

  (** base_binning.py:107-113: the split points in header order; columns without split points are skipped. *)
  Definition split_points_result (sps : dict N (list Qc)) (header : list N) : list (list Qc) :=
    omap (fun c => dict_get c sps) header.
End Convert.

(** Row objects live in a heap; a table holds references. [mapValues] with a function that replaces the features of
    its argument and returns the argument (computing/d_table.py:70-74). *)
Notation loc := nat (only parsing).
Notation heap := (list feats) (only parsing).
Section Heap.
  Context {K N : Type} `{EqDecision K} `{EqDecision N}.

  Definition heap_mapValues (f : feats -> res feats) (h : heap) (t : dtable K loc) : res (heap * dtable K loc) :=
    h' ← foldM (fun h kl => match h !! kl.2 with
                            | Some o => match f o with Ok o' => Ok (<[kl.2 := o']> h) | Err e => Err e end
                            | None => Err AttributeError
                            end) h (dt_data t);
    t' ← dt_new_keyed (dt_data t);
    Ok (h', t').

  (** boosting_tree.py:69-79 data_alignment; utils/abnormal_detection.py:23-26 *)
  Definition data_alignment (h : heap) (t : dtable K loc) : res (heap * dtable K loc) :=
    if decide (dt_count t = 0) then Err ValueError
    else heap_mapValues (fun o => Ok (data_format_transform o)) h t.

  (** The rows of a table. *)
  Definition rows_of (h : heap) (t : dtable K loc) : res (list feats) :=
    mapR (fun kl => match h !! kl.2 with Some o => Ok o | None => Err AttributeError end) (dt_data t).

  (** base_binning.py:73-113 convert_feature_to_bin with the default arguments, after [fit_split_points]. *)
  Definition convert_feature_to_bin (sps : dict N (list Qc)) (header : list N) (h : heap) (t : dtable K loc)
    : res (heap * dtable K loc * list (list Qc) * dict nat nat) :=
    rows ← rows_of h t;
    is_sparse ← match rows with FSparse _ _ :: _ => Ok true | FDense _ :: _ => Ok false | [] => Err AttributeError end;
    let cols := seq 0 (length header) in
    ht ← heap_mapValues (convert_row is_sparse cols sps header) h t;
    bin_sparse ← get_sparse_bin cols sps header;
    Ok (ht.1, ht.2, split_points_result sps header, bin_sparse).

  (** Start of fit at both parties: hetero_secureboosting_tree_guest.py:243-249 (and 82-87),
      hetero_secureboosting_tree_host.py:79-84 (and 30-35): align, fit the split points, convert. *)
  Definition prepare (p : bin_params) (header : list N) (h : heap) (t : dtable K loc)
    : res (heap * dtable K loc * list (list Qc) * dict nat nat) :=
    ht ← data_alignment h t;
    rows ← rows_of ht.1 ht.2;
    sps ← fit_split_points p header rows;
    convert_feature_to_bin sps header ht.1 ht.2.
End Heap.
