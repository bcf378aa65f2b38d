(** Model of ml/statistic/statics.py and of the initial scores of ml/loss/regression_loss.py. Values are finite floats (exact
    rationals); [rnd] rounds the result of a float operation. *)
From Verif Require Export QuantileModel.
From stdpp Require Export strings.
Local Open Scope Z_scope.

(** statics.py:31-42 SummaryStatistics and its constructor; sys.maxsize is 2^63 - 1. *)
Record sstat : Type := SStat { ss_abnormal : list Qc; ss_sum : Qc; ss_square : Qc; ss_max : Qc; ss_min : Qc; ss_count : Z }.
Definition ss_new (abnormal : list Qc) : sstat := SStat abnormal (zq 0) (zq 0) (zq (- (2 ^ 63))) (zq (2 ^ 63 - 1)) 0.

Section Stat.
  Context (rnd : Qc -> Qc).

  (** [value ** 2] of a Python float: too large a result raises. *)
  Definition py_square (v : Qc) : res Qc := if qleb (zq float_limit) (v * v)%Qc then Err OverflowError else Ok (rnd (v * v)%Qc).
  (** statics.py:44-60 add_value; the argument is a number, so float() does not raise. An overflow of the sums to inf is left
      out. *)
  Definition add_value (s : sstat) (v : Qc) : res sstat :=
    if existsb (qeqb v) (ss_abnormal s) then Ok s
    else
      sq ← py_square v;
      Ok (SStat (ss_abnormal s) (rnd (ss_sum s + v)%Qc) (rnd (ss_square s + sq)%Qc) (if qltb (ss_max s) v then v else ss_max s)
            (if qltb v (ss_min s) then v else ss_min s) (ss_count s + 1)).
  (** statics.py:62-70 merge *)
  Definition ss_merge (s o : sstat) : sstat :=
    SStat (ss_abnormal s) (rnd (ss_sum s + ss_sum o)%Qc) (rnd (ss_square s + ss_square o)%Qc) (if qltb (ss_max s) (ss_max o) then ss_max o else ss_max s)
      (if qltb (ss_min o) (ss_min s) then ss_min o else ss_min s) (ss_count s + ss_count o).
  (** statics.py:72-74 mean *)
  Definition ss_mean (s : sstat) : res Qc := if ss_count s =? 0 then Err ZeroDivisionError else Ok (rnd (ss_sum s / zq (ss_count s))%Qc).
  (** statics.py:76-82 variance *)
  Definition ss_variance (s : sstat) : res Qc :=
    mean ← ss_mean s;
    let n := zq (ss_count s) in
    let v := rnd (rnd (rnd (ss_square s / n) - rnd (rnd (rnd (zq 2 * ss_sum s) * mean) / n)) + rnd (mean * mean))%Qc in
    Ok (if qltb (qabs v) FLOAT_ZERO then zq 0 else v).
  (** statics.py:84-88 std_variance; math.sqrt raises on a negative argument. *)
  Definition ss_std (sqrt : Qc -> Qc) (s : sstat) : res Qc :=
    v ← ss_variance s;
    if qltb (qabs v) FLOAT_ZERO then Ok (zq 0) else if qltb v (zq 0) then Err ValueError else Ok (sqrt v).

  Section Columns.
    Context {N K : Type} `{EqDecision N} `{EqDecision K}.
    (** statics.py:167-203 static_in_partition over rows of feature arrays; [cols] maps names to positions. *)
    Definition static_in_partition (cols : dict N nat) (abnormal : list Qc) (rows : list (K * list Qc)) : res (dict N sstat) :=
      foldM (fun d kv => mapR (fun cs => i ← dict_index cs.1 cols; v ← list_index kv.2 i; s ← add_value cs.2 v; Ok (cs.1, s)) d)
        (map (fun c => (c.1, ss_new abnormal)) cols) rows.
    (** statics.py:243-256 aggregate_statics; None stands for a missing dictionary. *)
    Definition aggregate_statics (a b : option (dict N sstat)) : res (option (dict N sstat)) :=
      match a, b with
      | None, _ => Ok b
      | _, None => Ok a
      | Some a, Some b => r ← mapR (fun cs => o ← dict_index cs.1 b; Ok (cs.1, ss_merge cs.2 o)) a; Ok (Some r)
      end.
    (** statics.py:141-151 _static_sums: the partition function returns a dictionary, not a list. *)
    Definition static_sums (header : list N) (abnormal : list Qc) (t : dtable K (list Qc)) : res (option (dict N sstat)) :=
      d ← dt_mapPartitions (fun kvs => _ ← static_in_partition (init_cols header) abnormal kvs; Ok (PNotList (V := option (dict N sstat)))) t;
      foldM (fun acc x => aggregate_statics acc x) None (dt_values d).
    (** statics.py:356-398 _prepare_data for all columns (get_mean, get_variance, get_std_variance, get_max, get_min). *)
    Definition prepare_data (pick : sstat -> res Qc) (header : list N) (abnormal : list Qc) (t : dtable K (list Qc)) : res (dict N Qc) :=
      d ← static_sums header abnormal t;
      match d with
      | None => Err TypeError
      | Some d => mapR (fun ci => s ← dict_index ci.1 d; x ← pick s; Ok (ci.1, x)) (init_cols header)
      end.
    (** ml/utils/consts.py: the default parameters of a quantile summary; statics.py:329 asks for two bins. *)
    Definition median_params (abnormal : list Qc) : bin_params := BP 10000 10000 (fround (Q2Qc (1 # 1000))) 2 abnormal.
    (** statics.py:327-335 _get_quantile_median (274-290 get_median): fit_split_points stores the split points and returns None,
        and None has no items(). *)
    Definition get_median (header : list N) (abnormal : list Qc) (t : dtable K (list Qc)) : res (dict N Qc) :=
      _ ← fit_split_points (median_params abnormal) header (map FDense (dt_values t)); Err AttributeError.
    (** statics.py:153-165, 205-241 and 292-325 get_quantile_point, for all columns: again a dictionary instead of a list. *)
    Definition get_quantile_point (q : Qc) (header : list N) (abnormal : list Qc) (t : dtable K (list Qc)) : res (dict N Qc) :=
      d ← dt_mapPartitions (fun kvs =>
        _ ← foldM (insert_dense (init_cols header)) (map (fun ci => (ci.1, qs_new 10000 10000 (fround (Q2Qc (1 # 1000))) abnormal)) (init_cols header))
              (map (fun kv => FDense kv.2) kvs);
        Ok (PNotList (V := dict N qsum))) t;
      match dt_first d with
      | None => Err TypeError
      | Some d => mapR (fun ci => s ← dict_index ci.1 d; x ← snd (qs_query s q); Ok (ci.1, x)) (init_cols header)
      end.
  End Columns.

  (** ** Initial scores of the regression objectives *)
  Inductive objective : Type := OLse | OLae | OHuber | OFair | OTweedie | OLogCosh | OCrossEntropy.
  (** What an array cell may hold. *)
  Inductive cell : Type := CNum (q : Qc) | CDict (d : dict string Qc).

  Section Start.
    Context {K : Type} `{EqDecision K}.
    Definition const_score (y : dtable K Qc) (c : cell) : res (dtable K (list cell) * list cell) := F ← dt_mapValues (fun _ => Ok [c]) y; Ok (F, [c]).
    (** regression_loss.py:24-30 (lse), 56-62 (lae), 102-108 (huber), 139-145 (fair), 177-183 (log_cosh, which keeps the whole
        dictionary), 206-212 (tweedie): initialize. Labels are numbers; text labels become numbers at statics.py:49 and
        quantile_summaries.py:64 as they did in the label check. *)
    Definition initialize (o : objective) (y : dtable K Qc) : res (dtable K (list cell) * list cell) :=
      inst ← dt_mapValues (fun l => Ok [l]) y;
      match o with
      | OLae => d ← get_median ["label"%string] [] inst; m ← dict_index "label"%string d; const_score y (CNum m)
      | OLogCosh => d ← prepare_data ss_mean ["label"%string] [] inst; const_score y (CDict d)
      | _ => d ← prepare_data ss_mean ["label"%string] [] inst; m ← dict_index "label"%string d; const_score y (CNum m)
      end.

    (** hetero_secureboosting_tree_guest.py:62-77 set_loss for a regression task, with the constructors of HuberLoss, FairLoss
        (regression_loss.py:147-154, which names an unknown module when c is None) and TweedieLoss. *)
    Definition set_regression_loss (o : objective) (params : option (list (option Qc))) : res unit :=
      match o with
      | OHuber | OFair | OTweedie =>
          match params with
          | None => Err TypeError
          | Some [] => Err IndexError
          | Some (p :: _) => match o, p with OFair, None => Err NameError | _, _ => Ok tt end
          end
      | OLse | OLae | OLogCosh => Ok tt
      | OCrossEntropy => Err NotImplementedError
      end.
    (** hetero_secureboosting_tree_guest.py:93-96 and 152-155 (set_y for a regression task; ml/utils/classfiy_label_checker.py:78-98)
        and 230-235 (update_f_value). [parse] is float() of a text label; a label is a number or a text. *)
    Definition regression_start (parse : string -> option Qc) (o : objective) (params : option (list (option Qc))) (y : dtable K (Qc + string))
        : res (dtable K (list cell) * list cell) :=
      y ← dt_mapValues (fun l => match l with inl q => Ok q | inr s => match parse s with Some q => Ok q | None => Err ValueError end end) y;
      _ ← set_regression_loss o params;
      initialize o y.
  End Start.
End Stat.
