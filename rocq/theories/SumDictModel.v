(** Model of merging the quantile summaries of partitions. *)
From Verif Require Export QuantileModel.

Section SumDict.
  Context {N : Type} `{EqDecision N}.
  (** quantile_binning.py:152-165 merge_summary_dict; [merge] is the summaries' method (dense or sparse). summary1.merge(None) raises, as None
      has no attributes. The summaries of the first dictionary are changed in place; here only the result is kept. *)
  Definition merge_summary_dict {S} (merge : S -> S -> S) (d1 d2 : option (dict N S)) : res (option (dict N S)) :=
    match d1, d2 with
    | None, None => Ok None
    | None, Some d => Ok (Some d)
    | Some d, None => Ok (Some d)
    | Some a, Some b =>
        r ← mapR (fun cs => match dict_get cs.1 b with Some s => Ok (cs.1, merge cs.2 s) | None => Err AttributeError end) a;
        Ok (Some r)
    end.
  (** computing/d_table.py:90-97 reduce with this function. *)
  Definition reduce_dicts {S} (merge : S -> S -> S) (ds : list (dict N S)) : res (option (dict N S)) :=
    foldM (fun acc d => match acc with None => Ok (Some d) | Some a => merge_summary_dict merge (Some a) (Some d) end) None ds.
  (** quantile_binning.py:16-69 fit_split_points for dense rows on a table of several partitions, as the interface
      computing/_computing.py:76-85 allows. The repository's own table has one partition (d_table.py:76-78). *)
  Definition fit_partitions (p : bin_params) (header : list N) (parts : list (list feats)) : res (dict N (list Qc)) :=
    sds ← mapR (approx_dense p header) parts;
    d ← reduce_dicts qs_merge sds;
    match d with
    | None => Err AttributeError
    | Some sd => mapR (fun cs => sp ← query_points qs_query cs.2 (percentile_rates (bp_bin_num p)) []; Ok (cs.1, sp)) sd
    end.
  (** The same lines for sparse rows; the total count is set on the merged summaries. *)
  Definition fit_sparse_partitions (p : bin_params) (header : list N) (parts : list (list feats)) : res (dict N (list Qc)) :=
    sds ← mapR (approx_sparse p header) parts;
    d ← reduce_dicts sq_merge sds;
    match d with
    | None => Err AttributeError
    | Some sd => mapR (fun cs => sp ← query_points sq_query (sq_set_total (Z.of_nat (length (concat parts))) cs.2) (percentile_rates (bp_bin_num p)) []; Ok (cs.1, sp)) sd
    end.
End SumDict.
