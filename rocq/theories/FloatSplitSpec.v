(** What a search over the rows of a node should find, from the rows' own gradients in exact arithmetic. *)
From Verif Require Export HistSpec SplitSpec.
Local Open Scope nat_scope.

Section Rows.
  Context {K : Type} (vg vh : K -> Qc) (rows : list (K * (dict nat nat * (Z * nat)))) (points : list (list Qc)) (zero_bins : dict nat nat)
          (mask : list bool) (node_map : dict nat nat) (P : sparams) (nid : nat).

  (** Number of rows, and sum of [v] over the rows, of the node and of its part whose bin of [f] is at most [b]. *)
  Definition node_rows : Z := count_if (fun kd => in_node node_map nid kd.2) rows.
  Definition left_rows (f b : nat) : Z := count_if (fun kd => below node_map zero_bins nid f b kd.2) rows.
  Definition node_sum (v : K -> Qc) : Qc := sum_if (fun kd => in_node node_map nid kd.2) (fun kd => v kd.1) rows.
  Definition left_sum (v : K -> Qc) (f b : nat) : Qc := sum_if (fun kd => below node_map zero_bins nid f b kd.2) (fun kd => v kd.1) rows.

  (** Splitting the node at bin [b] of feature [f] is allowed. *)
  Definition allowed (f b : nat) : Prop :=
    mask !! f = Some true /\ (exists p, points !! f = Some p /\ b <= length p) /\ (min_sample P <= node_rows)%Z /\
    (min_leaf P <= left_rows f b)%Z /\ (min_leaf P <= node_rows - left_rows f b)%Z.
  (** What it gains. *)
  Definition true_gain (f b : nat) : Qc := gain_of (reg_lambda P) (node_sum vg) (node_sum vh) (left_sum vg f b) (left_sum vh f b).
End Rows.
