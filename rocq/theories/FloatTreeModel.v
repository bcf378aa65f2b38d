(** Growing one tree without a federation (xgboost/hetero_decision_tree_guest.py) in doubles: the arithmetic of FloatSplitModel,
    and sums, differences, weights and the comparison with the least gain rounded to the nearest double. Functions without
    arithmetic are those of TreeModel and LocalModel. The encryption of the gradients, whose result the program drops, and the
    feature importances are left out (C63 and C50). *)
From Verif Require Export FloatSplitModel LocalModel.
Local Open Scope nat_scope.

(** creterion.py:53-54 *)
Definition f_node_weight (lam g h : Qc) : res Qc :=
  let d := fround (lam + h)%Qc in if decide (d = zq 0) then Err ZeroDivisionError else Ok (fround (- g / d)%Qc).

Section FTree.
  Context {K : Type} `{EqDecision K}.

  (** xgboost/hetero_decision_tree_guest.py:91-133, one node of the queue, as [update_node]; every split is the guest's own. *)
  Definition f_update_node (P : sparams) (last_level : bool) (splits : list (splitinfo Qc Qc))
      (acc : @gstate K * list node) (iq : nat * node) : res (@gstate K * list node) :=
    let st := acc.1 in
    let nd := iq.2 in
    let finish := fun nd' m num => GState (t_nodes st ++ [nd']) m num (t_weights st) (t_imp st) in
    let as_leaf := finish (Node (n_id nd) (n_site nd) (n_fid nd) (n_weight nd) true (n_grad nd) (n_hess nd) (n_left nd) (n_right nd)) (t_mask st) (t_num st) in
    if last_level then Ok (as_leaf, acc.2)
    else
      s ← list_index splits iq.1;
      gain ← the_val (si_gain s);
      if qleb gain (fround (min_impurity P + fround FLOAT_ZERO)%Qc) then Ok (as_leaf, acc.2)
      else
        let l := t_num st + 1 in
        let r := t_num st + 2 in
        gl ← the_val (si_grad s);
        hl ← the_val (si_hess s);
        let gr := fround (n_grad nd - gl)%Qc in
        let hr := fround (n_hess nd - hl)%Qc in
        wl ← f_node_weight (reg_lambda P) gl hl;
        wr ← f_node_weight (reg_lambda P) gr hr;
        b ← the_val (si_bid s);
        Ok (finish (Node (n_id nd) (si_site s) (si_fid s) (n_weight nd) (n_leaf nd) (n_grad nd) (n_hess nd) (Some l) (Some r))
              (dict_set (n_id nd) (MBin b) (t_mask st)) (t_num st + 2),
            acc.2 ++ [Node l GuestSite None wl false gl hl None None; Node r GuestSite None wr false gr hr None None]).

  (** xgboost/hetero_decision_tree_guest.py:91-135 update_tree_node_queue *)
  Definition f_update_queue (P : sparams) (last_level : bool) (splits : list (splitinfo Qc Qc)) (st : @gstate K) (queue : list node) : res (@gstate K * list node) :=
    foldM (f_update_node P last_level splits) (st, []) (combine (seq 0 (length queue)) queue).

  Section FFit.
    Context (cfg : pcfg K) (gh : dtable K (Qc * Qc)).

    (** xgboost/hetero_decision_tree_guest.py:440-460, as [local_batch]. *)
    Definition f_local_batch (dbn : dtable K (dict nat nat * (Z * nat))) (acc : list (splitinfo Qc Qc)) (cur : list node) : res (list (splitinfo Qc Qc)) :=
      h ← get_histograms fops dbn gh (c_points cfg) (c_zero cfg) (Some (c_valid cfg)) (node_map_of (map n_id cur));
      own ← mapR (f_find_split_guest (c_par cfg) (c_valid cfg)) h;
      best ← local_merge own;
      Ok (acc ++ best).

    (** xgboost/hetero_decision_tree_guest.py:425-465, as [local_levels]. *)
    Fixpoint f_local_levels (left : nat) (st : @gstate K) (queue : list node) (pos : dtable K disp) : res (@gstate K) :=
      match left with
      | 0 => Ok st
      | S left' =>
          match queue with
          | [] => Ok st
          | _ :: _ =>
              dbn ← with_positions (c_data cfg) pos;
              bs ← batches (c_step cfg) queue;
              splits ← foldM (f_local_batch dbn) [] bs;
              sq ← f_update_queue (c_par cfg) (match left' with 0 => true | _ => false end) splits st queue;
              tr ← redispatch_local (c_zero cfg) sq.1 dbn;
              pos' ← redispatch_merge [] tr.1.2;
              f_local_levels left' tr.2 sq.2 pos'
          end
      end.

    (** xgboost/hetero_decision_tree_guest.py:65-69 get_grad_hess_sum, as [grad_hess_sum]. *)
    Definition f_grad_hess_sum : res (Qc * Qc) :=
      match dt_reduce (fun a b => match a, b with Some x, Some y => Some (fround (x.1 + y.1)%Qc, fround (x.2 + y.2)%Qc) | _, _ => None end)
              (DT (map (fun kv => (kv.1, Some kv.2)) (dt_data gh))) with
      | Some s => Ok s
      | None => Err TypeError
      end.

    (** xgboost/hetero_decision_tree_guest.py:412-469 fit *)
    Definition f_local_fit : res (@gstate K) :=
      s ← f_grad_hess_sum;
      w ← f_node_weight (reg_lambda (c_par cfg)) s.1 s.2;
      pos ← dt_mapValues (fun _ => Ok (DGo 1 0)) (c_data cfg);
      st ← f_local_levels (c_depth cfg) (GState [] [] 0 None []) [Node 0 GuestSite None w false s.1 s.2 None None] pos;
      mask ← guest_convert (c_points cfg) (t_nodes st) (t_mask st);
      Ok (GState (t_nodes st) mask (t_num st) (t_weights st) (t_imp st)).
  End FFit.
End FTree.
