(** Model of prediction with one tree: ml/tree/hetero_decision_tree_guest.py and hetero_decision_tree_host.py, predict; and of
    saving and loading a tree. *)
From Verif Require Export TreeModel.
Local Open Scope nat_scope.

(** What traverse_tree returns on the guest: a leaf weight or (node id, tag). *)
Inductive pval : Type := PWeight (w : Qc) | PState (nid : nat) (tag : Z).
Definition is_weight (v : pval) : bool := match v with PWeight _ => true | PState _ _ => false end.
(** Values of the tables after the filter; a projection only because the model's tables are typed. *)
Definition weight_of (v : pval) : res Qc := match v with PWeight w => Ok w | PState _ _ => Err TypeError end.
Definition state_of (v : pval) : res (nat * Z) := match v with PState n t => Ok (n, t) | PWeight _ => Err TypeError end.

(** The comparison of one node, hetero_decision_tree_guest.py:594-600 and hetero_decision_tree_host.py:258-264. *)
Definition next_node (tree : list node) (mask : dict nat mval) (row : dict nat Qc) (nid : nat) : res nat :=
  nd ← list_index tree nid;
  fid ← the_fid (n_fid nd);
  bid ← decode_val nid mask;
  the_child (if qleb (sv_get row fid (zq 0)) (mnum bid) then n_left nd else n_right nd).

(** hetero_decision_tree_guest.py:587-603 traverse_tree. [fuel] bounds the while loop; running out stands for a loop that goes
    on. *)
Fixpoint guest_walk (fuel : nat) (tree : list node) (mask : dict nat mval) (row : dict nat Qc) (nid : nat) : res pval :=
  match fuel with
  | 0 => Err OutOfFuel
  | S fuel' =>
      nd ← list_index tree nid;
      match n_site nd with
      | GuestSite => if n_leaf nd then Ok (PWeight (n_weight nd)) else c ← next_node tree mask row nid; guest_walk fuel' tree mask row c
      | HostSite _ => Ok (PState nid 1)
      end
  end.

(** hetero_decision_tree_host.py:258-267: the while loop. *)
Fixpoint host_loop (fuel : nat) (sn : site) (tree : list node) (mask : dict nat mval) (row : dict nat Qc) (nid : nat) : res nat :=
  match fuel with
  | 0 => Err OutOfFuel
  | S fuel' =>
      nd ← list_index tree nid;
      if decide (n_site nd = sn) then c ← next_node tree mask row nid; host_loop fuel' sn tree mask row c else Ok nid
  end.
(** hetero_decision_tree_host.py:251-267 traverse_tree *)
Definition host_walk (fuel : nat) (sn : site) (tree : list node) (mask : dict nat mval) (s : nat * Z) (row : dict nat Qc) : res (nat * Z) :=
  nd ← list_index tree s.1;
  if decide (n_site nd = sn) then n ← host_loop fuel sn tree mask row s.1; Ok (n, 0%Z) else Ok s.

Section Predict.
  Context {K : Type} `{EqDecision K} {C E : Type}.
  Local Notation msg := (msg K C E).

  (** hetero_decision_tree_guest.py:612-624: one pass of the guest: the weights so far, and the rows that wait for a host. *)
  Definition predict_local (tree : list node) (mask : dict nat mval) (insts : dtable K (dict nat Qc)) (data : dtable K (nat * Z)) (result : option (dtable K Qc))
      : res (dtable K Qc * dtable K (nat * Z)) :=
    v ← dt_join (fun s row => guest_walk (S (length tree)) tree mask row s.1) data insts;
    leaf ← dt_filter (fun _ x => is_weight x) v;
    leafw ← dt_mapValues weight_of leaf;
    result' ← match result with None => Ok leafw | Some r => dt_union (fun a _ => a) r leafw end;
    rest ← dt_subtractByKey v leaf;
    rest' ← dt_mapValues state_of rest;
    Ok (result', rest').
  (** hetero_decision_tree_guest.py:634-638 *)
  Definition pick_state (a b : nat * Z) : res (nat * Z) := Ok (if (a.2 =? 0)%Z then a else b).
  Definition predict_merge (rest : dtable K (nat * Z)) (answers : list (dtable K (nat * Z))) : res (dtable K (nat * Z)) := foldM (dt_join pick_state) rest answers.

  Section Guest.
    Context {R : Type} (nh : nat) (tree : list node) (mask : dict nat mval) (insts : dtable K (dict nat Qc)).
    Local Notation prog := (cps nat msg R).

    (** hetero_decision_tree_guest.py:611-641; [rounds] bounds the [while True]. *)
    Fixpoint guest_rounds (rounds : nat) (data : dtable K (nat * Z)) (result : option (dtable K Qc)) : prog (dtable K Qc) :=
      match rounds with
      | 0 => clift (Err OutOfFuel)
      | S rounds' =>
          (l <- clift (predict_local tree mask insts data result);
           if dt_count l.2 =? 0 then _ <- bcast nh (MTag true); cret l.1
           else
             _ <- bcast nh (MTag false);
             _ <- bcast nh (MPred l.2);
             answers <- gather_as nh as_predr;
             data' <- clift (predict_merge l.2 answers);
             guest_rounds rounds' data' (Some l.1))%cps
      end.
    (** hetero_decision_tree_guest.py:605-644 predict *)
    Definition guest_predict (rounds : nat) : prog (dtable K Qc) :=
      (data <- clift (dt_mapValues (fun _ => Ok (0, 1%Z)) insts); guest_rounds rounds data None)%cps.
  End Guest.

  Section Host.
    Context {R : Type} (sn : site) (tree : list node) (mask : dict nat mval) (insts : dtable K (dict nat Qc)).
    Local Notation prog := (cps unit msg R).
    (** hetero_decision_tree_host.py:346-367 predict *)
    Fixpoint host_predict (rounds : nat) : prog unit :=
      match rounds with
      | 0 => clift (Err OutOfFuel)
      | S rounds' =>
          (tag <- recv_as as_tag;
           if (tag : bool) then cret tt
           else
             data <- recv_as as_pred;
             r <- clift (dt_join (host_walk (S (length tree)) sn tree mask) data insts);
             _ <- csend tt (MPredR r);
             host_predict rounds')%cps
      end.
  End Host.
End Predict.

(** ** Saving and loading *)
(** arch/api/boosting_tree_model_param_pb2.py:29-91 NodeParam without bid, which is None on every node and comes back as 0. An
    unset child is -1. *)
Record node_pb : Type := NodePB { b_id : Z; b_site : site; b_fid : Z; b_weight : Qc; b_leaf : bool; b_left : Z; b_right : Z }.
(** An int32 field; a larger number raises ValueError. None leaves the field at its default 0. *)
Definition int32 (z : Z) : res Z := if ((- 2 ^ 31 <=? z) && (z <? 2 ^ 31))%Z then Ok z else Err ValueError.
Definition child_num (c : option nat) : Z := match c with Some c => Z.of_nat c | None => (-1)%Z end.
Definition num_child (z : Z) : option nat := if (z =? -1)%Z then None else Some (Z.to_nat z).
(** hetero_decision_tree_guest.py:529-538, hetero_decision_tree_host.py:388-397 *)
Definition save_node (nd : node) : res node_pb :=
  i ← int32 (Z.of_nat (n_id nd));
  f ← int32 (match n_fid nd with Some f => Z.of_nat f | None => 0%Z end);
  l ← int32 (child_num (n_left nd));
  r ← int32 (child_num (n_right nd));
  Ok (NodePB i (n_site nd) f (n_weight nd) (n_leaf nd) l r).
(** hetero_decision_tree_guest.py:562-569, hetero_decision_tree_host.py:408-415. The sums are not saved; node.py:31-44 sets
    them to None, which the model writes as 0. *)
Definition load_node (b : node_pb) : node :=
  Node (Z.to_nat (b_id b)) (b_site b) (Some (Z.to_nat (b_fid b))) (b_weight b) (b_leaf b) (zq 0) (zq 0) (num_child (b_left b)) (num_child (b_right b)).
(** The map<int32, double> split_maskdict. *)
Definition save_mask (mask : dict nat mval) : res (dict Z Qc) := mapR (fun kv => k ← int32 (Z.of_nat kv.1); Ok (k, mnum kv.2)) mask.
Definition load_mask (m : dict Z Qc) : dict nat mval := map (fun kv => (Z.to_nat kv.1, MReal kv.2)) m.
(** hetero_decision_tree_guest.py:527-542 get_model_param and 559-573 set_model_param; the host's are the same (386-401,
    405-420). The meta part holds parameters that prediction does not use. *)
Definition save_tree (tree : list node) (mask : dict nat mval) : res (list node_pb * dict Z Qc) :=
  t ← mapR save_node tree; m ← save_mask mask; Ok (t, m).
Definition load_tree (p : list node_pb * dict Z Qc) : list node * dict nat mval := (map load_node p.1, load_mask p.2).
