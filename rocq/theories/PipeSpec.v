(** What fit and predict should do, from the tables of row objects on. *)
From Verif Require Export PipeModel BoostMain LabelProofs BinningSpec TreeSpec PredictSpec.
Local Open Scope nat_scope.

(** What a party brings: the names of its features, the row objects in memory, and the table of its rows. *)
Record source (K N : Type) : Type := Source { so_header : list N; so_heap : heap; so_rows : dtable K loc }.
Arguments Source {K N}. Arguments so_header {K N}. Arguments so_heap {K N}. Arguments so_rows {K N}.

Section Pipe.
  Context {K N : Type} `{EqDecision K} `{EqDecision N}.
  Implicit Types s g : source K N.

  Definition rows_ok s : Prop := table_ok (length (so_header s)) (so_heap s) (so_rows s).
  Definition source_ok (bp : bin_params) s : Prop :=
    NoDup (so_header s) /\ 1 <= length (so_header s) /\ (Z.of_nat (length (so_header s)) <= 2 ^ 31)%Z /\ rows_ok s /\ params_ok bp (dt_count (so_rows s)).
  (** The value of feature [f] of row [k]. *)
  Definition value s (k : K) (f : nat) : Qc :=
    match dict_get k (dt_data (so_rows s)) with
    | Some l => match so_heap s !! l with Some o => raw o f | None => zq 0 end
    | None => zq 0
    end.
  (** The row of [k] over all parties. *)
  Definition joined g (hs : nat -> source K N) (k : K) (own : option nat) (f : nat) : Qc := value (match own with None => g | Some i => hs i end) k f.

  (** What is stored of feature [f] of a row: a dense row leaves out the numbers next to zero. *)
  Definition stored_entry (o : feats) (f : nat) : option Qc :=
    match o with
    | FDense l => match l !! f with Some x => if decide (qabs x < Q2Qc (1 # 1000000))%Qc then None else Some x | None => None end
    | FSparse d _ => dict_get f d
    end.
  (** The stored numbers of feature [f], in the order of the rows. *)
  Definition cells s (f : nat) : list Qc :=
    omap (fun kl => match so_heap s !! kl.2 with Some o => stored_entry o f | None => None end) (dt_data (so_rows s)).
  (** The quantiles (C23 to C27) of a column of [total] rows with the stored numbers [col]. *)
  Definition quantiles (bp : bin_params) (total : nat) (col : list Qc) : res (list Qc) :=
    query_points sq_query
      (SQ (qs_compress (insert_all (qs_new (bp_thres bp) (bp_head bp) (bp_error bp) []) col))
          (Z.of_nat (length (filter (fun x => (x < FLOAT_ZERO)%Qc) col))) (Z.of_nat (length (filter (fun x => ~ (x < FLOAT_ZERO)%Qc) col))) (Z.of_nat total))
      (percentile_rates (bp_bin_num bp)) [].
  (** The party that learns from [s] with split points [points]. *)
  Definition sees (bp : bin_params) (par : sparams) s (points : list (list Qc)) (p : party K) : Prop :=
    length points = length (so_header s) /\ (forall pts, pts ∈ points -> NoDup pts /\ length pts <= bp_bin_num bp - 1) /\
    (forall f pts, points !! f = Some pts -> quantiles bp (dt_count (so_rows s)) (cells s f) = Ok pts) /\
    p_nb p = map length points /\ p_min_sample p = min_sample par /\ p_min_leaf p = min_leaf par /\
    forall k f pts, k ∈ dt_keys (so_rows s) -> points !! f = Some pts -> is_bin pts (value s k f) (p_bin p k f).
  (** Every row object has become a sparse row of its bins; nothing else in memory has changed. *)
  Definition overwritten s (p : party K) (h' : heap) : Prop :=
    length h' = length (so_heap s) /\ (forall l, l ∉ dt_values (so_rows s) -> h' !! l = so_heap s !! l) /\
    forall k l, (k, l) ∈ dt_data (so_rows s) -> exists d, h' !! l = Some (FSparse d (length (so_header s))) /\ row_ok (length (so_header s)) (FSparse d (length (so_header s))) /\
      forall f, match dict_get f d with Some x => x = zq (Z.of_nat (p_bin p k f)) | None => value s k f = zq 0 end.
  (** Every row object has become a sparse row of the same values; nothing else in memory has changed. *)
  Definition realigned s (h' : heap) : Prop :=
    length h' = length (so_heap s) /\ (forall l, l ∉ dt_values (so_rows s) -> h' !! l = so_heap s !! l) /\
    forall k l, (k, l) ∈ dt_data (so_rows s) -> exists d, h' !! l = Some (FSparse d (length (so_header s))) /\
      forall f, raw (FSparse d (length (so_header s))) f = value s k f.

  (** The same rows in new objects. *)
  Definition copy s s' : Prop := (forall k, k ∈ dt_keys (so_rows s') <-> k ∈ dt_keys (so_rows s)) /\ forall k f, k ∈ dt_keys (so_rows s) -> value s' k f = value s k f.
  (** The same objects, as fit has left them in memory [h']. *)
  Definition left_in s (h' : heap) : source K N := Source (so_header s) h' (so_rows s).

  (** A tree with bins, as a tree with values: the split points of the owner at the chosen bins. *)
  Fixpoint cut (points : option nat -> list (list Qc)) (t : dtree) : ptree :=
    match t with
    | TLeaf w _ _ => PL w
    | TSplit _ _ _ c _ l r =>
        PN (ch_own c) (ch_fid c) (match points (ch_own c) !! ch_fid c with Some pts => match pts !! ch_bin c with Some x => x | None => zq 0 end | None => zq 0 end) (cut points l) (cut points r)
    end.
  Definition all_points (gpts : list (list Qc)) (hpts : nat -> list (list Qc)) (own : option nat) : list (list Qc) := match own with None => gpts | Some i => hpts i end.

  (** Inputs and parameters as the scripts give them. [ls] are the distinct labels. *)
  Record legal (rnd : Qc -> Qc) (pred : loss_kind -> list Qc -> list Qc) (nh : nat) (g : source K N) (hs : nat -> source K N) (sname : nat -> site)
      (P : bparams) (bp : bin_params) (par : sparams) (depth stp d : nat) (labels : dtable K label) (ls : list label)
      (gdraw : nat -> nat -> nat -> list nat) (hdraw : nat -> nat -> nat -> nat -> list nat) : Prop := {
    le_some : 0 < nh;
    le_guest : source_ok bp g;
    le_hosts : forall i, i < nh -> source_ok bp (hs i);
    le_same : forall i k, i < nh -> k ∈ dt_keys (so_rows (hs i)) <-> k ∈ dt_keys (so_rows g);
    le_size : (3 * Z.of_nat (dt_count (so_rows g)) <= 2 ^ 53)%Z;
    le_names : forall i, i < nh -> sname i <> GuestSite;
    le_inj : forall i j, i < nh -> j < nh -> sname i = sname j -> i = j;
    le_params : depth = S d /\ d <= 30 /\ stp <> 0 /\ (0 < reg_lambda par)%Qc /\ (1 <= min_leaf par)%Z;
    le_rate : (0 < b_rate P)%Qc /\ (b_rate P <= 1)%Qc;
    le_draws : (forall j, draws (gdraw j)) /\ forall i j, i < nh -> draws (hdraw i j);
    le_keys : NoDup (dt_keys labels) /\ forall k, k ∈ dt_keys labels <-> k ∈ dt_keys (so_rows g);
    le_labels : distinct (dt_values labels) ls /\ alike ls /\ length ls <= 1000;
    le_probs : forall kind f, length (pred kind f) = length f /\ forall x, x ∈ pred kind f -> (0 <= x)%Qc /\ (x <= 1)%Qc;
    le_rnd : rnd_ok rnd }.

  (** The answer for a row with probabilities [p]: class and probability. *)
  Definition answer (classes : list label) (threshold : Qc) (p : list Qc) (c : label) (x : Qc) : Prop :=
    exists i, classes !! i = Some c /\
      if decide (length classes = 2) then p = [x] /\ (i = 1 <-> (threshold < x)%Qc) /\ i < 2
      else p !! i = Some x /\ (forall j z, p !! j = Some z -> (z <= x)%Qc) /\ forall j z, j < i -> p !! j = Some z -> (z < x)%Qc.
End Pipe.
