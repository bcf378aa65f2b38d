(** What a histogram should contain, in terms of the rows and their true gradients. *)
From Verif Require Export HistModel.
Local Open Scope nat_scope.

Definition qsum (l : list Qc) : Qc := foldr Qcplus (zq 0) l.

(** Sum of [f] over, and number of, the elements of [l] that satisfy [P]. *)
Definition sum_if {A} (P : A -> bool) (f : A -> Qc) (l : list A) : Qc := qsum (map f (List.filter P l)).
Definition count_if {A} (P : A -> bool) (l : list A) : Z := Z.of_nat (length (List.filter P l)).

(** The bin of feature [fid] in a converted row: the stored one, or the feature's zero bin. *)
Definition bin_of (zero_bins : dict nat nat) (fid : nat) (bins : dict nat nat) : nat :=
  match dict_get fid bins with
  | Some b => b
  | None => match dict_get fid zero_bins with Some z => z | None => 0 end
  end.

(** The row (bins, (state, node id)) is active and sits in the node numbered [nid] of the batch. *)
Definition in_node (node_map : dict nat nat) (nid : nat) (r : dict nat nat * (Z * nat)) : bool :=
  negb (Z.eqb r.2.1 0) && bool_decide (dict_get r.2.2 node_map = Some nid).

(** The row is in node [nid] and its bin of [fid] is at most [b]. *)
Definition below (node_map : dict nat nat) (zero_bins : dict nat nat) (nid fid b : nat) (r : dict nat nat * (Z * nat)) : bool :=
  in_node node_map nid r && (bin_of zero_bins fid r.1 <=? b).

(** Well-formed inputs of a histogram computation: the node map numbers its nodes, the mask and the zero bins cover
    the features, and every stored feature of a row is known and its bin within range. *)
Record hist_ok {K} (data : list (K * (dict nat nat * (Z * nat)))) (points : list (list Qc)) (zero_bins : dict nat nat)
    (mask : list bool) (node_map : dict nat nat) : Prop := {
  ho_nodes : 0 < length node_map;
  ho_map : forall nd i, dict_get nd node_map = Some i -> i < length node_map;
  ho_mask : length mask = length points;
  ho_zero : forall fid p, points !! fid = Some p -> exists z, dict_get fid zero_bins = Some z /\ z <= length p;
  ho_row : forall k r, (k, r) ∈ data -> NoDup r.1.*1;
  ho_bin : forall k r fid b, (k, r) ∈ data -> dict_get fid r.1 = Some b ->
             exists p, points !! fid = Some p /\ b <= length p
}.

Definition hget {C} (h : hist C) (nid fid b : nat) : option (trip C) :=
  match h !! nid with
  | Some fh => match fh !! fid with Some bh => bh !! b | None => None end
  | None => None
  end.

(** [rep c L q]: the number [c] stands for the rational [q] and was built from [L] basic numbers. *)
Record numlaws {C} (O : numops C) (rep : C -> Z -> Qc -> Prop) : Prop := {
  nl_zero : rep (nzero O) 0%Z (zq 0);
  nl_add : forall x y L L' a b, rep x L a -> rep y L' b -> exists r, nadd O x y = Ok r /\ rep r (L + L')%Z (a + b)%Qc;
  nl_sub : forall x y L L' a b, rep x L a -> rep y L' b -> exists r, nsub O x y = Ok r /\ rep r (L + L')%Z (a - b)%Qc
}.
