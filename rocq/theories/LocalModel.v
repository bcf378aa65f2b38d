(** Model of xgboost/hetero_decision_tree_guest.py and xgboost/hetero_secureboosting_tree_guest.py: the guest's program with the
    federation taken out, run by one party that holds all columns and the labels. Functions whose text is that of the federated
    guest (ml/tree) are the ones of TreeModel, PredictModel and BoostModel; what differs is written out here. *)
From Verif Require Export BoostModel.
Local Open Scope nat_scope.

Section Local.
  Context {K : Type} `{EqDecision K} {C : Type}.

  (** xgboost/hetero_decision_tree_guest.py:374-394: the first of the list. *)
  Definition local_best (l : list (splitinfo Qc Qc)) : res (splitinfo Qc Qc) := list_index l 0.
  (** xgboost/hetero_decision_tree_guest.py:396-410 merge_splitinfo; 208-216: no host sends anything. *)
  Definition local_merge (own : list (splitinfo Qc Qc)) : res (list (splitinfo Qc Qc)) := mapR local_best (map (fun o => [o]) own).

  Section Fit.
    Context (cfg : pcfg K) (it : imp_type) (gh : dtable K (Qc * Qc)) (enc_gh : dtable K (Qc * Qc) -> res (dtable K (C * C))).

    (** xgboost/hetero_decision_tree_guest.py:440-460. federated_find_split (195-206) has no host to go through. *)
    Definition local_batch (dbn : dtable K (dict nat nat * (Z * nat))) (acc : list (splitinfo Qc Qc)) (cur : list node) : res (list (splitinfo Qc Qc)) :=
      h ← get_histograms qops dbn gh (c_points cfg) (c_zero cfg) (Some (c_valid cfg)) (node_map_of (map n_id cur));
      own ← find_split (c_par cfg) (c_valid cfg) h;
      best ← local_merge own;
      Ok (acc ++ best).

    (** xgboost/hetero_decision_tree_guest.py:425-465; redispatch_node (329-367) keeps the guest's own answers, as no host gives
        any. *)
    Fixpoint local_levels (left : nat) (st : @gstate K) (queue : list node) (pos : dtable K disp) : res (@gstate K) :=
      match left with
      | 0 => Ok st
      | S left' =>
          match queue with
          | [] => Ok st
          | _ :: _ =>
              dbn ← with_positions (c_data cfg) pos;
              bs ← batches (c_step cfg) queue;
              splits ← foldM (local_batch dbn) [] bs;
              sq ← update_queue (c_par cfg) it (match left' with 0 => true | _ => false end) splits st queue;
              tr ← redispatch_local (c_zero cfg) sq.1 dbn;
              pos' ← redispatch_merge [] tr.1.2;
              local_levels left' tr.2 sq.2 pos'
          end
      end.

    (** xgboost/hetero_decision_tree_guest.py:412-469 fit. The gradients are encrypted and the result is dropped (231-233). *)
    Definition local_fit : res (@gstate K) :=
      _ ← enc_gh gh;
      s ← grad_hess_sum gh;
      w ← node_weight (reg_lambda (c_par cfg)) s.1 s.2;
      pos ← dt_mapValues (fun _ => Ok (DGo 1 0)) (c_data cfg);
      st ← local_levels (c_depth cfg) (GState [] [] 0 None []) [Node 0 GuestSite None w false s.1 s.2 None None] pos;
      mask ← guest_convert (c_points cfg) (t_nodes st) (t_mask st);
      Ok (GState (t_nodes st) mask (t_num st) (t_weights st) (t_imp st)).
  End Fit.

  (** xgboost/hetero_decision_tree_guest.py:556-594 predict. A row that waits for a host makes the program call
      sync_data_predicted_by_host (585), which this class does not have. *)
  Definition local_predict (tree : list node) (mask : dict nat mval) (insts : dtable K (dict nat Qc)) : res (dtable K Qc) :=
    data ← dt_mapValues (fun _ => Ok (0, 1%Z)) insts;
    l ← predict_local tree mask insts data None;
    if dt_count l.2 =? 0 then Ok l.1 else Err AttributeError.

  Section Boost.
    Context (rnd : Qc -> Qc) (pred : loss_kind -> list Qc -> list Qc) (lossf : loss_kind -> dtable K nat -> dtable K (list Qc) -> Qc).
    Context (P : bparams) (cfg : pcfg K) (it : imp_type) (kind : loss_kind) (dim : nat) (y : dtable K nat).
    Context (draw : nat -> nat -> nat -> list nat) (enc : nat -> dtable K (Qc * Qc) -> res (dtable K (C * C))).

    (** xgboost/hetero_secureboosting_tree_guest.py:254-275 *)
    Definition local_tree (gh : dtable K (list Qc * list Qc)) (st : @bstate K) (tidx : nat) : res (@bstate K) :=
      let num := length (bs_trees st) in
      gs ← class_grad gh tidx;
      v ← sample_valid_features (length (c_points cfg)) (b_rate P) (draw num);
      ts ← local_fit (set_valid cfg v) it gs (enc num);
      p ← save_tree (t_nodes ts) (t_mask ts);
      w ← the_val (t_weights ts);
      F ← update_f rnd (b_lr P) tidx (bs_F st) w;
      Ok (BState F (bs_trees st ++ [p]) (add_importance (bs_imp st) (t_imp ts)) (bs_hist st) (bs_pre st)).

    (** xgboost/hetero_secureboosting_tree_guest.py:250-289 *)
    Fixpoint local_boost (rounds : nat) (st : @bstate K) : res (@bstate K) :=
      match rounds with
      | 0 => Ok st
      | S rounds' =>
          gh ← grad_and_hess rnd pred kind y (bs_F st);
          st ← foldM (local_tree gh) st (seq 0 dim);
          yp ← dt_mapValues (fun f => Ok (pred kind f)) (bs_F st);
          let loss := lossf kind y yp in
          let st := BState (bs_F st) (bs_trees st) (bs_imp st) (bs_hist st ++ [loss]) (bs_pre st) in
          if b_early P then
            let c := is_converge rnd (b_tol P) (bs_pre st) loss in
            let st := BState (bs_F st) (bs_trees st) (bs_imp st) (bs_hist st) (Some loss) in
            if c then Ok st else local_boost rounds' st
          else local_boost rounds' st
      end.

    (** xgboost/hetero_secureboosting_tree_guest.py:235-289 fit, after alignment and binning (BinningModel.prepare). *)
    Definition local_train : res (@bstate K) :=
      F ← dt_mapValues (fun _ => Ok (repeat (zq 0) dim)) y;
      local_boost (b_rounds P) (BState F [] [] [] None).
  End Boost.

  (** xgboost/hetero_secureboosting_tree_guest.py:291-305 predict_f_value *)
  Definition local_score (rnd : Qc -> Qc) (lr : Qc) (dim : nat) (trees : list tree_pb) (insts : dtable K (dict nat Qc)) : res (dtable K (list Qc)) :=
    F ← dt_mapValues (fun _ => Ok (repeat (zq 0) dim)) insts;
    foldM (fun F i => foldM (fun F tidx =>
      p ← list_index trees (i * dim + tidx);
      let t := load_tree p in
      w ← local_predict t.1 t.2 insts;
      update_f rnd lr tidx F w) F (seq 0 dim)) F (seq 0 (length trees / dim)).
End Local.
