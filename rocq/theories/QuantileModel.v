(** Model of ml/feature/quantile_summaries.py and of ml/feature/binning/quantile_binning.py.
    Observations are finite floats (exact rationals); every float product, quotient, sum and difference is rounded
    with [fround]; counters are assumed below 2^53 where they are converted to float. *)
From Verif Require Export PyBase QcBase DTableModel FixedPointModel EncryptModeModel.
From stdpp Require Export sorting.
Local Open Scope Z_scope.

Global Instance Qcle_dec : RelDecision Qcle.
Proof.
  intros x y. destruct (Qclt_le_dec y x) as [H|H].
  - right. now apply Qclt_not_le.
  - left. exact H.
Defined.

(** Built-in [sorted] on floats. *)
Definition sorted (l : list Qc) : list Qc := merge_sort Qcle l.

(** quantile_summaries.py:25-29 *)
Record stats := ST { st_value : Qc; st_g : Z; st_delta : Z }.

(** quantile_summaries.py:32-46 *)
Record qsum := QS { qs_thres : Z; qs_head_size : Z; qs_error : Qc; qs_abnormal : list Qc;
                    qs_head : list Qc; qs_sampled : list stats; qs_count : Z }.
Definition qs_new (thres head_size : Z) (error : Qc) (abnormal : list Qc) : qsum :=
  QS thres head_size error abnormal [] [] 0.

(** The value [2 * self.error * c] (two float products). *)
Definition two_err (e : Qc) (c : Z) : Qc := fround (fround (zq 2 * e) * zq c)%Qc.

(** quantile_summaries.py:82-84 the inner while loop: the stored samples not above the current one move over. *)
Fixpoint take_le (cur : Qc) (samp : list stats) : list stats * list stats :=
  match samp with
  | s :: r => if qleb (st_value s) cur then let '(a, b) := take_le cur r in (s :: a, b) else ([], samp)
  | [] => ([], [])
  end.

(** quantile_summaries.py:80-99 the outer while loop. [new] is new_sampled; stored samples that are left when the
    sorted buffer is used up are not copied. *)
Fixpoint flush_loop (e : Qc) (head : list Qc) (samp new : list stats) (count : Z) : list stats * Z :=
  match head with
  | [] => (new, count)
  | cur :: head' =>
      let '(moved, rest) := take_le cur samp in
      let new := new ++ moved in
      let count := count + 1 in
      let first := match new with [] => true | _ => false end in
      let last := match rest, head' with [], [] => true | _, _ => false end in
      let delta := if first || last then 0 else qfloor (two_err e count) in
      flush_loop e head' rest (new ++ [ST cur 1 delta]) count
  end.

(** quantile_summaries.py:73-102 _insert_head_buffer *)
Definition qs_flush (s : qsum) : qsum :=
  match qs_head s with
  | [] => s
  | _ => let '(new, count) := flush_loop (qs_error s) (sorted (qs_head s)) (qs_sampled s) [] (qs_count s) in
         QS (qs_thres s) (qs_head_size s) (qs_error s) (qs_abnormal s) [] new count
  end.

(** quantile_summaries.py:206-214 the loop from the last sample down to index 1; [mids] in that order, [res]
    already reversed. *)
Fixpoint compress_loop (thr : Qc) (head : stats) (mids res : list stats) : list stats :=
  match mids with
  | [] => head :: res
  | t :: mids' =>
      if qltb (zq (st_g t + st_g head + st_delta head)) thr
      then compress_loop thr (ST (st_value head) (st_g head + st_g t) (st_delta head)) mids' res
      else compress_loop thr t mids' (head :: res)
  end.

(** quantile_summaries.py:196-224 _compress_immut. The samples are changed in place; the old list is dropped by all
    callers. *)
Definition compress_immut (thr : Qc) (samp : list stats) : list stats :=
  match samp with
  | [] => []
  | first :: tl =>
      match rev tl with
      | [] => [first]
      | last :: mids =>
          let r := compress_loop thr last mids [] in
          match r with
          | h :: _ => if qleb (st_value first) (st_value h) then first :: r else r
          | [] => r
          end
      end
  end.

(** quantile_summaries.py:104-109 compress *)
Definition qs_compress (s : qsum) : qsum :=
  let s := qs_flush s in
  QS (qs_thres s) (qs_head_size s) (qs_error s) (qs_abnormal s) (qs_head s)
     (compress_immut (two_err (qs_error s) (qs_count s)) (qs_sampled s)) (qs_count s).

(** quantile_summaries.py:49-71 insert. The argument is a number (the conversion float(x) cannot fail). *)
Definition qs_insert (s : qsum) (x : Qc) : qsum :=
  if existsb (qeqb x) (qs_abnormal s) then s
  else
    let s := QS (qs_thres s) (qs_head_size s) (qs_error s) (qs_abnormal s) (qs_head s ++ [x]) (qs_sampled s) (qs_count s) in
    if qs_head_size s <=? Z.of_nat (length (qs_head s))
    then let s := qs_flush s in
         if qs_thres s <=? Z.of_nat (length (qs_sampled s)) then qs_compress s else s
    else s.

(** quantile_summaries.py:135-145 merging two sampled lists. *)
Fixpoint merge_stats (a : list stats) : list stats -> list stats :=
  match a with
  | [] => fun b => b
  | x :: a' =>
      fix go (b : list stats) : list stats :=
        match b with
        | [] => x :: a'
        | y :: b' => if qltb (st_value x) (st_value y) then x :: merge_stats a' (y :: b') else y :: go b'
        end
  end.

(** quantile_summaries.py:111-153 merge (the argument is not used again by the callers). *)
Definition qs_merge (s other : qsum) : qsum :=
  let other := match qs_head other with [] => other | _ => qs_compress other end in
  let s := match qs_head s with [] => s | _ => qs_compress s end in
  if qs_count other =? 0 then s
  else if qs_count s =? 0 then
    QS (qs_thres s) (qs_head_size s) (qs_error s) (qs_abnormal s) (qs_head s) (qs_sampled other) (qs_count other)
  else
    let count := qs_count s + qs_count other in
    QS (qs_thres s) (qs_head_size s) (qs_error s) (qs_abnormal s) (qs_head s)
       (compress_immut (two_err (qs_error s) count) (merge_stats (qs_sampled s) (qs_sampled other))) count.

(** quantile_summaries.py:184-194 the loop over the inner samples; the last sample is the answer if none fits. *)
Fixpoint scan (rank te min_rank : Z) (samp : list stats) (last : Qc) : Qc :=
  match samp with
  | [] => last
  | s :: r =>
      match r with
      | [] => last
      | _ => let min_rank := min_rank + st_g s in
             let max_rank := min_rank + st_delta s in
             if (max_rank - te <=? rank) && (rank <=? min_rank + te) then st_value s
             else scan rank te min_rank r last
      end
  end.

(** quantile_summaries.py:155-194 query: the summary after the call and the answer. *)
Definition qs_query (s : qsum) (q : Qc) : qsum * res Qc :=
  let s := match qs_head s with [] => s | _ => qs_compress s end in
  (s,
   if qltb q (zq 0) || qltb (zq 1) q then Err ValueError
   else if qs_count s =? 0 then Ok (zq 0)
   else match qs_sampled s with
        | [] => Err IndexError
        | first :: tl =>
            let last := st_value (List.last tl first) in
            if qleb q (qs_error s) then Ok (st_value first)
            else if qleb (fround (zq 1 - qs_error s)) q then Ok last
            else Ok (scan (qceil (fround (q * zq (qs_count s)))) (qceil (fround (qs_error s * zq (qs_count s)))) 0 tl last)
        end).

(** quantile_summaries.py:227-237 SparseQuantileSummaries *)
Record sqsum := SQ { sq_base : qsum; sq_smaller : Z; sq_bigger : Z; sq_total : Z }.
Definition sq_new (thres head_size : Z) (error : Qc) (abnormal : list Qc) : sqsum :=
  SQ (qs_new thres head_size error abnormal) 0 0 0.

(** quantile_summaries.py:239-240 *)
Definition sq_set_total (t : Z) (s : sqsum) : sqsum := SQ (sq_base s) (sq_smaller s) (sq_bigger s) t.

(** quantile_summaries.py:242-247 insert *)
Definition sq_insert (s : sqsum) (x : Qc) : sqsum :=
  let '(a, b) := if qltb x FLOAT_ZERO then (sq_smaller s + 1, sq_bigger s) else (sq_smaller s, sq_bigger s + 1) in
  SQ (qs_insert (sq_base s) x) a b (sq_total s).

(** quantile_summaries.py:257-260 merge *)
Definition sq_merge (s other : sqsum) : sqsum :=
  SQ (qs_merge (sq_base s) (sq_base other)) (sq_smaller s + sq_smaller other) (sq_bigger s + sq_bigger other) (sq_total s).

(** Python's int / int. *)
Definition truediv (a b : Z) : res Qc := if b =? 0 then Err ZeroDivisionError else Ok (fround (zq a / zq b))%Qc.

(** quantile_summaries.py:273-277 zero_lower_bound, 279-284 zero_upper_bound *)
Definition zero_lower (s : sqsum) : res Qc :=
  if sq_smaller s =? 0 then Ok (zq 0) else truediv (sq_smaller s) (sq_total s).
Definition zero_upper (s : sqsum) : res Qc :=
  if sq_bigger s =? 0 then Ok (zq (sq_total s))
  else truediv (sq_smaller s + (sq_total s - sq_smaller s - sq_bigger s)) (sq_total s).

(** quantile_summaries.py:262-271 _convert_query_percentile *)
Definition sq_convert (s : sqsum) (q : Qc) : res Qc :=
  if sq_total s - qs_count (sq_base s) =? 0 then Ok q
  else lo ← zero_lower s;
       if qltb q lo then r ← truediv (sq_total s) (qs_count (sq_base s)); Ok (fround (r * q))%Qc
       else up ← zero_upper s;
            let d := fround (fround (zq 1 - up) + lo)%Qc in
            if qeqb d (zq 0) then Err ZeroDivisionError
            else Ok (fround (fround (fround (q - up) + lo) / d))%Qc.

(** quantile_summaries.py:249-255 query *)
Definition sq_query (s : sqsum) (q : Qc) : sqsum * res Qc :=
  match zero_lower s, zero_upper s with
  | Ok lo, Ok up =>
      if qleb lo q && qleb q up then (s, Ok (zq 0))
      else match sq_convert s q with
           | Ok q' => let '(b, r) := qs_query (sq_base s) q' in (SQ b (sq_smaller s) (sq_bigger s) (sq_total s), r)
           | Err e => (s, Err e)
           end
  | Err e, _ | _, Err e => (s, Err e)
  end.

(** quantile_binning.py:37-40 percentile_rates *)
Definition percentile_rates (bin_num : nat) : list Qc :=
  let pv := fround (zq 1 / zq (Z.of_nat bin_num)) in
  map (fun i => fround (zq (Z.of_nat i) * pv)) (seq 1 (bin_num - 1)).

(** quantile_binning.py:62-67 the split points of one column. *)
Fixpoint query_points {S} (query : S -> Qc -> S * res Qc) (s : S) (rates : list Qc) (acc : list Qc) : res (list Qc) :=
  match rates with
  | [] => Ok acc
  | r :: rates' =>
      let '(s', v) := query s r in
      v ← v;
      query_points query s' rates' (if existsb (qeqb v) acc then acc else acc ++ [v])
  end.

(** Features of a row: an ndarray or a SparseVector (ml/feature/sparse_vector.py:40-42). *)
Inductive feats := FDense (l : list Qc) | FSparse (d : dict nat Qc) (shape : nat).

Section Fit.
  Context {N : Type} `{EqDecision N}.

  (** Parameters of FeatureBinningParam used here. *)
  Record bin_params := BP { bp_thres : Z; bp_head : Z; bp_error : Qc; bp_bin_num : nat; bp_abnormal : list Qc }.

  Fixpoint index_of (x : N) (l : list N) : option nat :=
    match l with [] => None | y :: l' => if decide (x = y) then Some O else option_map S (index_of x l') end.

  (** base_binning.py:43-71 _init_cols for cols = -1 (the only value in use): column name -> header.index(name). *)
  Definition init_cols (header : list N) : dict N nat :=
    fold_left (fun d c => match index_of c header with Some i => dict_set c i d | None => d end) header [].

  (** quantile_binning.py:136-143 dense rows: one insertion per column. *)
  Definition insert_dense (cols : dict N nat) (sd : dict N qsum) (f : feats) : res (dict N qsum) :=
    match f with
    | FDense l => mapR (fun cs => i ← dict_index cs.1 cols; x ← list_index l i; Ok (cs.1, qs_insert cs.2 x)) sd
    | FSparse _ _ => Err TypeError
    end.

  (** quantile_binning.py:144-149 sparse rows: one insertion per stored entry. *)
  Definition insert_sparse (header : list N) (sd : dict N sqsum) (f : feats) : res (dict N sqsum) :=
    match f with
    | FSparse d _ => foldM (fun sd ix => c ← list_index header ix.1; s ← dict_index c sd; Ok (dict_set c (sq_insert s ix.2) sd)) sd d
    | FDense _ => Err AttributeError
    end.

  (** quantile_binning.py:71-129 approxiQuantile: the whole table is one partition. *)
  Definition approx_dense (p : bin_params) (header : list N) (rows : list feats) : res (dict N qsum) :=
    let cols := init_cols header in
    sd ← foldM (insert_dense cols)
           (map (fun ci => (ci.1, qs_new (bp_thres p) (bp_head p) (bp_error p) (bp_abnormal p))) cols) rows;
    Ok (map (fun cs => (cs.1, qs_compress cs.2)) sd).
  Definition approx_sparse (p : bin_params) (header : list N) (rows : list feats) : res (dict N sqsum) :=
    let cols := init_cols header in
    sd ← foldM (insert_sparse header)
           (map (fun ci => (ci.1, sq_new (bp_thres p) (bp_head p) (bp_error p) (bp_abnormal p))) cols) rows;
    Ok (map (fun cs => (cs.1, SQ (qs_compress (sq_base cs.2)) (sq_smaller cs.2) (sq_bigger cs.2) (sq_total cs.2))) sd).

  (** quantile_binning.py:16-69 fit_split_points on a new object. [rows] are the rows of the table; is_sparse is
      decided by the first row (data_overview.py:17-26). The table has one partition, so reduce returns its
      dictionary unchanged (merge_summary_dict is not reached). An empty table is not considered. *)
  Definition fit_split_points (p : bin_params) (header : list N) (rows : list feats) : res (dict N (list Qc)) :=
    let rates := percentile_rates (bp_bin_num p) in
    match rows with
    | FSparse _ _ :: _ =>
        sd ← approx_sparse p header rows;
        mapR (fun cs => sp ← query_points sq_query (sq_set_total (Z.of_nat (length rows)) cs.2) rates []; Ok (cs.1, sp)) sd
    | FDense _ :: _ =>
        sd ← approx_dense p header rows;
        mapR (fun cs => sp ← query_points qs_query cs.2 rates []; Ok (cs.1, sp)) sd
    | [] => Err AttributeError
    end.
End Fit.
