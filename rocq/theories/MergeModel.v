(** Model of merging the histograms of partitions. *)
From Verif Require Export HistModel.
Local Open Scope nat_scope.

Section Merge.
  Context {C : Type} (O : numops C).
  (** [for i in range(len(l1)): l1[i] = f(l1[i], l2[i])]. *)
  Definition each {A} (f : A -> A -> res A) (l1 l2 : list A) : res (list A) :=
    mapR (fun ix => y ← list_index l2 ix.1; f ix.2 y) (combine (seq 0 (length l1)) l1).
  (** feateur_histogram.py:75-83 aggregate_histogram. The first argument is changed and returned; here only the result is kept, as
      neither argument is used afterwards. *)
  Definition aggregate_histogram (h1 h2 : hist C) : res (hist C) := each (each (each (trip_add O))) h1 h2.
  (** feateur_histogram.py:63-73 calculate_histogram on a table of several partitions, as the interface computing/_computing.py:76-85 allows:
      batch_calculate_histogram on each, then reduce (d_table.py:90-97). The repository's own table has one partition (d_table.py:76-78),
      for which this is batch_histogram alone. The rows are those after the join, as in HistModel. A table has at least one partition; reduce of nothing gives None, which accumulate_histogram cannot use. *)
  Definition partitioned_histogram (points : list (list Qc)) (zero_bins : dict nat nat) (valid : option (list bool)) (node_map : dict nat nat)
      (partitions : list (list (hrow C))) : res (hist C) :=
    hs ← mapR (batch_histogram O points zero_bins valid node_map) partitions;
    match hs with [] => Err TypeError | h :: hs' => foldM aggregate_histogram h hs' end.
End Merge.
