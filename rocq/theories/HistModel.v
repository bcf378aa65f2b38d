(** Model of ml/tree/feateur_histogram.py (class FeatureHistogram). *)
From Verif Require Export BinningModel.
Local Open Scope nat_scope.

(** Numbers that can be added and subtracted with [+] and [-]; either may raise. The guest uses exact rationals
    (floats without rounding), a host uses ciphertexts, and both start from the int 0. *)
Record numops (C : Type) : Type := NumOps { nzero : C; nadd : C -> C -> res C; nsub : C -> C -> res C }.
Arguments NumOps {C}. Arguments nzero {C}. Arguments nadd {C}. Arguments nsub {C}.

(** The 3-element lists [grad, hess, count]. *)
Record trip (C : Type) : Type := Trip { tg : C; th : C; tc : Z }.
Arguments Trip {C}. Arguments tg {C}. Arguments th {C}. Arguments tc {C}.

(** One row of the joined table: feateur_histogram.py:96-105, the binned features (all values are bin numbers), the pair
    (unleaf_state, nodeid), and (grad, hess). *)
Record hrow (C : Type) : Type := HRow { hr_bins : dict nat nat; hr_state : Z; hr_node : nat; hr_g : C; hr_h : C }.
Arguments HRow {C}. Arguments hr_bins {C}. Arguments hr_state {C}. Arguments hr_node {C}. Arguments hr_g {C}. Arguments hr_h {C}.

(** [l[i] = f(l[i])], IndexError outside the list. *)
Definition lupd {A} (l : list A) (i : nat) (f : A -> res A) : res (list A) :=
  match l !! i with
  | Some x => match f x with Ok y => Ok (<[i := y]> l) | Err e => Err e end
  | None => Err IndexError
  end.

(** Histograms: node, feature, bin. *)
Notation hist C := (list (list (list (trip C)))).

Section Hist.
  Context {C : Type} (O : numops C).

  Definition trip0 : trip C := Trip (nzero O) (nzero O) 0.

  (** feateur_histogram.py:134-136, 141-143, 145-147: [t[0] += g; t[1] += h; t[2] += 1]. *)
  Definition bump (g h : C) (t : trip C) : res (trip C) :=
    g' ← nadd O (tg t) g; h' ← nadd O (th t) h; Ok (Trip g' h' (tc t + 1)).

  (** [t1 += t2] component by component. *)
  Definition trip_add (t1 t2 : trip C) : res (trip C) :=
    g ← nadd O (tg t1) (tg t2); h ← nadd O (th t1) (th t2); Ok (Trip g h (tc t1 + tc t2)).
  Definition trip_sub (t1 t2 : trip C) : res (trip C) :=
    g ← nsub O (tg t1) (tg t2); h ← nsub O (th t1) (th t2); Ok (Trip g h (tc t1 - tc t2)).

  (** feateur_histogram.py:121,138: [valid_features is not None and valid_features[fid] is False]. *)
  Definition masked (valid : option (list bool)) (fid : nat) : res bool :=
    match valid with None => Ok false | Some v => b ← list_index v fid; Ok (negb b) end.

  (** feateur_histogram.py:117-128: zeroed accumulators; [points] is bin_split_points, masked features get an empty list. *)
  Definition new_hist (points : list (list Qc)) (valid : option (list bool)) (node_num : nat) : res (hist C) :=
    template ← mapR (fun fs => m ← masked valid fs.1;
                               if (m : bool) then Ok [] else Ok (replicate (length fs.2 + 1) trip0))
                    (combine (seq 0 (length points)) points);
    Ok (replicate node_num template).

  (** The three accumulators of the loop: zero_opt_node_sum, zero_optim, node_histograms. *)
  Record hstate : Type := HS { hs_sum : list (trip C); hs_opt : list (list (trip C)); hs_hist : hist C }.

  (** feateur_histogram.py:137-147: one stored feature of one row. *)
  Definition feature_step (valid : option (list bool)) (nid : nat) (g h : C) (st : hstate) (fv : nat * nat) : res hstate :=
    m ← masked valid fv.1;
    if (m : bool) then Ok st
    else
      hist' ← lupd (hs_hist st) nid (fun fh => lupd fh fv.1 (fun bh => lupd bh fv.2 (bump g h)));
      opt' ← lupd (hs_opt st) nid (fun z => lupd z fv.1 (bump g h));
      Ok (HS (hs_sum st) opt' hist').

  (** feateur_histogram.py:132-147: one selected row. *)
  Definition row_step (valid : option (list bool)) (node_map : dict nat nat) (st : hstate) (r : hrow C) : res hstate :=
    match dict_get (hr_node r) node_map with
    | None => Err TypeError
    | Some nid =>
        sum' ← lupd (hs_sum st) nid (bump (hr_g r) (hr_h r));
        foldM (feature_step valid nid (hr_g r) (hr_h r)) (HS sum' (hs_opt st) (hs_hist st)) (hr_bins r)
    end.

  (** feateur_histogram.py:149-155: rows whose feature is not stored go to the zero bin. *)
  Definition zero_step (valid : option (list bool)) (zero_bins : dict nat nat) (st : hstate) (h : hist C) (nf : nat * nat) : res (hist C) :=
    match valid with
    | None => Ok h
    | Some v =>
        b ← list_index v nf.2;
        if negb b then Ok h
        else
          sp ← dict_index nf.2 zero_bins;
          total ← list_index (hs_sum st) nf.1;
          optl ← list_index (hs_opt st) nf.1;
          stored ← list_index optl nf.2;
          rest ← trip_sub total stored;
          lupd h nf.1 (fun fh => lupd fh nf.2 (fun bh => lupd bh sp (fun t => trip_add t rest)))
    end.

  (** feateur_histogram.py:85-157 batch_calculate_histogram. Lines 96-107 select the rows; line 130 reads a variable that
      is unbound when node_map is empty. *)
  Definition batch_histogram (points : list (list Qc)) (zero_bins : dict nat nat) (valid : option (list bool))
      (node_map : dict nat nat) (rows : list (hrow C)) : res (hist C) :=
    let selected := List.filter (fun r => negb (Z.eqb (hr_state r) 0) && dict_mem (hr_node r) node_map) rows in
    let node_num := length node_map in
    let nfeat := length points in
    if decide (node_num = 0) then Err NameError else
    h0 ← new_hist points valid node_num;
    st ← foldM (row_step valid node_map)
           (HS (replicate node_num trip0) (replicate node_num (replicate nfeat trip0)) h0) selected;
    foldM (zero_step valid zero_bins st) (hs_hist st) (list_prod (seq 0 node_num) (seq 0 nfeat)).

  (** feateur_histogram.py:41-48 accumulate_histogram: within one feature, entry k += entry k-1 from left to right. *)
  Fixpoint accumulate_from (prev : trip C) (l : list (trip C)) : res (list (trip C)) :=
    match l with
    | [] => Ok []
    | t :: l' => t' ← trip_add t prev; r ← accumulate_from t' l'; Ok (t' :: r)
    end.
  Definition accumulate_feature (l : list (trip C)) : res (list (trip C)) :=
    match l with [] => Ok [] | t :: l' => r ← accumulate_from t l'; Ok (t :: r) end.
  Definition accumulate_histogram (h : hist C) : res (hist C) := mapR (mapR accumulate_feature) h.

  (** feateur_histogram.py:51-73 calculate_histogram on the joined table: the join keeps the order of [gh]; the result
      table has one entry, so the final reduce returns it without calling aggregate_histogram (lines 76-83). Followed by
      accumulate_histogram: hetero_decision_tree_guest.py:139-146, hetero_decision_tree_host.py:109-118 get_histograms. *)
  Definition get_histograms {K} `{EqDecision K} (data : dtable K (dict nat nat * (Z * nat))) (gh : dtable K (C * C))
      (points : list (list Qc)) (zero_bins : dict nat nat) (valid : option (list bool)) (node_map : dict nat nat) : res (hist C) :=
    joined ← dt_join (fun d g => Ok (HRow d.1 d.2.1 d.2.2 g.1 g.2)) data gh;
    h ← batch_histogram points zero_bins valid node_map (dt_values joined);
    accumulate_histogram h.
End Hist.

(** Exact numbers. *)
Definition qops : numops Qc := NumOps (zq 0) (fun a b => Ok (a + b)%Qc) (fun a b => Ok (a - b)%Qc).
