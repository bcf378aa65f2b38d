(** Model of ml/tree/hetero_decision_tree_guest.py and hetero_decision_tree_host.py: one tree, trained by the guest and the
    hosts together. Attributes of the two objects that change during fit are threaded through as arguments. Logging is left
    out. The sums and weights on the guest are exact rationals, as in SplitModel. *)
From Verif Require Export ProcModel SplitModel.
Local Open Scope nat_scope.

(** ml/tree/node.py:31-44. [None] children stand for -1. The attribute bid is left out: it is None wherever it is assigned
    (encode("feature_val", ...) returns None), and the bin lives in split_maskdict. *)
Record node : Type := Node {
  n_id : nat; n_site : site; n_fid : option nat; n_weight : Qc; n_leaf : bool; n_grad : Qc; n_hess : Qc;
  n_left : option nat; n_right : option nat }.

(** Values of split_maskdict: a bin number during training, the real split value after convert_bin_to_real. *)
Inductive mval : Type := MBin (b : nat) | MReal (q : Qc).
Definition mnum (v : mval) : Qc := match v with MBin b => zq (Z.of_nat b) | MReal q => q end.

(** hetero_decision_tree_guest.py:154-162, hetero_decision_tree_host.py:59-67 encode("feature_val", ...) is [dict_set]. *)
(** hetero_decision_tree_guest.py:164-173, hetero_decision_tree_host.py:69-78 decode("feature_val", ...). *)
Definition decode_val (nid : nat) (mask : dict nat mval) : res mval :=
  match dict_get nid mask with Some v => Ok v | None => Err ValueError end.
(** A feature id used as an index; None raises. *)
Definition the_fid (f : option nat) : res nat := match f with Some f => Ok f | None => Err TypeError end.
(** A child id; -1 would index from the end of the tree, which the model reports as IndexError. *)
Definition the_child (c : option nat) : res nat := match c with Some c => Ok c | None => Err IndexError end.

(** What dispatch_node returns (hetero_decision_tree_guest.py:351-367): a leaf weight, (1, node id), or the 7-tuple
    (1, fid, bid, sitename, node id, left id, right id) without the bid. *)
Inductive disp : Type :=
| DLeaf (w : Qc)
| DGo (state : Z) (nid : nat)
| DHost (state : Z) (fid : option nat) (sn : site) (nid : nat) (l r : option nat).
(** Unpacking [unleaf_state, nodeid = value]. *)
Definition pos_of (d : disp) : res (Z * nat) :=
  match d with DGo s i => Ok (s, i) | DHost _ _ _ _ _ _ => Err ValueError | DLeaf _ => Err TypeError end.

(** The messages, one constructor per kind of payload. [Fit]: hetero_decision_tree_guest.py:263 (gradients), 249 (node
    queue: only the ids are set), 273 (positions), host 121 (candidates), guest 190 (best), host 145 (final), guest 283 and
    host 197 (dispatch), guest 306 (tree). [Predict]: guest 317, 329, host 284. *)
Inductive msg (K C E : Type) : Type :=
| MGH (t : dtable K (C * C))
| MQueue (ids : list nat)
| MPos (t : dtable K disp)
| MCand (l : list (list (option C * option C)))
| MBest (l : list (option nat * E))
| MFinal (l : list (splitinfo C E))
| MDisp (t : dtable K disp)
| MDispR (t : dtable K disp)
| MTree (l : list node)
| MTag (finish : bool)
| MPred (t : dtable K (nat * Z))
| MPredR (t : dtable K (nat * Z))
| MDim (d : nat)
| MStop (stop : bool).
Arguments MGH {K C E}. Arguments MQueue {K C E}. Arguments MPos {K C E}. Arguments MCand {K C E}. Arguments MBest {K C E}.
Arguments MFinal {K C E}. Arguments MDisp {K C E}. Arguments MDispR {K C E}. Arguments MTree {K C E}. Arguments MTag {K C E}.
Arguments MPred {K C E}. Arguments MPredR {K C E}. Arguments MDim {K C E}. Arguments MStop {K C E}.

(** Payload projections: a party that gets an object of another kind raises. *)
Section Payload.
  Context {K C E : Type}.
  Local Notation msg := (msg K C E).
  Definition as_gh (m : msg) := match m with MGH t => Ok t | _ => Err TypeError end.
  Definition as_queue (m : msg) := match m with MQueue l => Ok l | _ => Err TypeError end.
  Definition as_pos (m : msg) := match m with MPos t => Ok t | _ => Err TypeError end.
  Definition as_cand (m : msg) := match m with MCand l => Ok l | _ => Err TypeError end.
  Definition as_best (m : msg) := match m with MBest l => Ok l | _ => Err TypeError end.
  Definition as_final (m : msg) := match m with MFinal l => Ok l | _ => Err TypeError end.
  Definition as_disp (m : msg) := match m with MDisp t => Ok t | _ => Err TypeError end.
  Definition as_dispr (m : msg) := match m with MDispR t => Ok t | _ => Err TypeError end.
  Definition as_tree (m : msg) := match m with MTree l => Ok l | _ => Err TypeError end.
  Definition as_tag (m : msg) := match m with MTag b => Ok b | _ => Err TypeError end.
  Definition as_pred (m : msg) := match m with MPred t => Ok t | _ => Err TypeError end.
  Definition as_predr (m : msg) := match m with MPredR t => Ok t | _ => Err TypeError end.
  Definition as_dim (m : msg) := match m with MDim d => Ok d | _ => Err TypeError end.
  Definition as_stop (m : msg) := match m with MStop b => Ok b | _ => Err TypeError end.
End Payload.

(** [for i in range(0, len(queue), step): queue[i: i + step]] (hetero_decision_tree_guest.py:477-478, host 315-316); range
    raises for step 0. The recursion is on the length of the queue. *)
Fixpoint chunks {A} (fuel : nat) (step : nat) (l : list A) : list (list A) :=
  match fuel, l with
  | S fuel', _ :: _ => take step l :: chunks fuel' step (drop step l)
  | _, _ => []
  end.
Definition batches {A} (step : nat) (l : list A) : res (list (list A)) :=
  match step with 0 => Err ValueError | _ => Ok (chunks (length l) step l) end.

(** hetero_decision_tree_guest.py:480-484, hetero_decision_tree_host.py:317-321. *)
Definition node_map_of (ids : list nat) : dict nat nat :=
  fold_left (fun d ni => dict_set ni.1 ni.2 d) (combine ids (seq 0 (length ids))) [].

(** What both sides know about their features: the real split points, zero bins and the mask (set_inputinfo,
    set_valid_features), the binned rows, and decision_tree.py:29-36. *)
Record pcfg (K : Type) : Type := PCfg {
  c_par : sparams; c_depth : nat; c_step : nat; c_points : list (list Qc); c_zero : dict nat nat; c_valid : list bool;
  c_data : dtable K (dict nat nat) }.
Arguments PCfg {K}. Arguments c_par {K}. Arguments c_depth {K}. Arguments c_step {K}. Arguments c_points {K}.
Arguments c_zero {K}. Arguments c_valid {K}. Arguments c_data {K}.

(** feature_importance_type: "split" or "gain" (hetero_decision_tree_guest.py:79-84); other strings raise. *)
Inductive imp_type : Type := ISplit | IGain | IOther.

Section Tree.
  Context {K : Type} `{EqDecision K} {C E : Type}.
  Local Notation msg := (msg K C E).

  (** hetero_decision_tree_guest.py:475-477, host 310: data_bin joined with the positions. The unpacking of the position
      happens when the histogram is computed (feateur_histogram.py:99), with the same exceptions. *)
  Definition with_positions (data : dtable K (dict nat nat)) (pos : dtable K disp) : res (dtable K (dict nat nat * (Z * nat))) :=
    dt_join (fun f d => p ← pos_of d; Ok (f, p)) data pos.

  (** The left test of dispatch_node (hetero_decision_tree_guest.py:358-361, hetero_decision_tree_host.py:190-192). *)
  Definition goes_left (fid : nat) (bid : mval) (zero_bins : dict nat nat) (f : dict nat nat) : res bool :=
    z ← dict_index fid zero_bins; Ok (qleb (zq (Z.of_nat (sv_get f fid z))) (mnum bid)).

  (** ** The guest *)
  (** Attributes of the guest's tree that fit changes: tree_, split_maskdict, tree_node_num, predict_weights,
      feature_importances_. *)
  Record gstate : Type := GState {
    t_nodes : list node; t_mask : dict nat mval; t_num : nat; t_weights : option (dtable K Qc);
    t_imp : dict (site * option nat) Qc }.

  (** hetero_decision_tree_guest.py:78-92 update_feature_importance *)
  Definition update_importance (it : imp_type) (s : splitinfo Qc Qc) (imp : dict (site * option nat) Qc) : res (dict (site * option nat) Qc) :=
    inc ← match it with
          | ISplit => Ok (zq 1)
          | IGain => match si_gain s with Some x => Ok x | None => Err TypeError end
          | IOther => Err ValueError
          end;
    let key := (si_site s, si_fid s) in
    let old := match dict_get key imp with Some x => x | None => zq 0 end in
    Ok (dict_set key (old + inc)%Qc imp).

  Definition the_val {A} (x : option A) : res A := match x with Some a => Ok a | None => Err TypeError end.

  (** hetero_decision_tree_guest.py:98-135, one node of the queue; the accumulator is the state and the new queue. *)
  Definition update_node (P : sparams) (it : imp_type) (last_level : bool) (splits : list (splitinfo Qc Qc))
      (acc : gstate * list node) (iq : nat * node) : res (gstate * list node) :=
    let st := acc.1 in
    let nd := iq.2 in
    let as_leaf := Node (n_id nd) (n_site nd) (n_fid nd) (n_weight nd) true (n_grad nd) (n_hess nd) (n_left nd) (n_right nd) in
    let finish := fun nd' st' => GState (t_nodes st' ++ [nd']) (t_mask st') (t_num st') (t_weights st') (t_imp st') in
    if last_level then Ok (finish as_leaf st, acc.2)
    else
      s ← list_index splits iq.1;
      gain ← the_val (si_gain s);
      if qleb gain (min_impurity P + FLOAT_ZERO)%Qc then Ok (finish as_leaf st, acc.2)
      else
        let l := t_num st + 1 in
        let r := t_num st + 2 in
        gl ← the_val (si_grad s);
        hl ← the_val (si_hess s);
        let gr := (n_grad nd - gl)%Qc in
        let hr := (n_hess nd - hl)%Qc in
        wl ← node_weight (reg_lambda P) gl hl;
        wr ← node_weight (reg_lambda P) gr hr;
        let left := Node l GuestSite None wl false gl hl None None in
        let right := Node r GuestSite None wr false gr hr None None in
        mask' ← match si_site s with
                | GuestSite => b ← the_val (si_bid s); Ok (dict_set (n_id nd) (MBin b) (t_mask st))
                | HostSite _ => Ok (t_mask st)
                end;
        imp' ← update_importance it s (t_imp st);
        let nd' := Node (n_id nd) (si_site s) (si_fid s) (n_weight nd) (n_leaf nd) (n_grad nd) (n_hess nd) (Some l) (Some r) in
        Ok (finish nd' (GState (t_nodes st) mask' (t_num st + 2) (t_weights st) imp'), acc.2 ++ [left; right]).

  (** hetero_decision_tree_guest.py:94-137 update_tree_node_queue *)
  Definition update_queue (P : sparams) (it : imp_type) (last_level : bool) (splits : list (splitinfo Qc Qc)) (st : gstate) (queue : list node)
      : res (gstate * list node) :=
    foldM (update_node P it last_level splits) (st, []) (combine (seq 0 (length queue)) queue).

  (** hetero_decision_tree_guest.py:351-367 dispatch_node *)
  Definition guest_dispatch (tree : list node) (mask : dict nat mval) (zero_bins : dict nat nat) (v : dict nat nat * (Z * nat)) : res disp :=
    nd ← list_index tree v.2.2;
    if n_leaf nd then Ok (DLeaf (n_weight nd))
    else match n_site nd with
         | GuestSite =>
             fid ← the_fid (n_fid nd);
             bid ← decode_val v.2.2 mask;
             left ← goes_left fid bid zero_bins v.1;
             c ← the_child (if (left : bool) then n_left nd else n_right nd);
             Ok (DGo 1 c)
         | HostSite _ => Ok (DHost 1 (n_fid nd) (n_site nd) v.2.2 (n_left nd) (n_right nd))
         end.

  Definition is_host_disp (d : disp) : bool := match d with DHost _ _ _ _ _ _ => true | _ => false end.
  Definition is_leaf_disp (d : disp) : bool := match d with DLeaf _ => true | _ => false end.
  Definition leaf_value_of (d : disp) : res Qc := match d with DLeaf w => Ok w | _ => Err TypeError end.

  (** hetero_decision_tree_guest.py:389-395: the guest's part of redispatch_node up to the message: what goes to the hosts,
      what the guest decided, and the new predict_weights. *)
  Definition redispatch_local (zero_bins : dict nat nat) (st : gstate) (dbn : dtable K (dict nat nat * (Z * nat)))
      : res (dtable K disp * dtable K disp * gstate) :=
    r ← dt_mapValues (guest_dispatch (t_nodes st) (t_mask st) zero_bins) dbn;
    to_host ← dt_filter (fun _ d => is_host_disp d) r;
    r1 ← dt_subtractByKey r to_host;
    leaf ← dt_filter (fun _ d => is_leaf_disp d) r1;
    leafw ← dt_mapValues leaf_value_of leaf;
    w ← match t_weights st with
        | None => Ok leafw
        | Some w0 => dt_union (fun a _ => a) w0 leafw
        end;
    r2 ← dt_subtractByKey r1 leaf;
    Ok (to_host, r2, GState (t_nodes st) (t_mask st) (t_num st) (Some w) (t_imp st)).

  (** hetero_decision_tree_guest.py:399-403: the result that is a pair (len 2) wins, else the other one. *)
  Definition pick_disp (a b : disp) : res disp := match a with DGo _ _ => Ok a | _ => Ok b end.
  (** hetero_decision_tree_guest.py:394-407: the answers of the hosts, then the guest's own. *)
  Definition redispatch_merge (answers : list (dtable K disp)) (own : dtable K disp) : res (dtable K disp) :=
    match answers with
    | [] => Ok own
    | a :: rest => nd ← foldM (dt_join pick_disp) a rest; dt_union (fun x _ => x) nd own
    end.

  (** hetero_decision_tree_guest.py:339-348 convert_bin_to_real *)
  Definition convert_node (points : list (list Qc)) (mask : dict nat mval) (nd : node) : res (dict nat mval) :=
    fid ← the_fid (n_fid nd);
    v ← decode_val (n_id nd) mask;
    p ← list_index points fid;
    match v with
    | MBin b => x ← list_index p b; Ok (dict_set (n_id nd) (MReal x) mask)
    | MReal _ => Err IndexError
    end.
  Definition guest_convert (points : list (list Qc)) (tree : list node) (mask : dict nat mval) : res (dict nat mval) :=
    foldM (fun m nd => if n_leaf nd then Ok m else match n_site nd with GuestSite => convert_node points m nd | _ => Ok m end) mask tree.

  Section Guest.
    Context {R : Type} (nh : nat) (cfg : pcfg K) (it : imp_type) (gh : dtable K (Qc * Qc)).
    (** The encrypter: encrypt_mode_calculator.encrypt on the table of gradients, decrypt, and the encryption of the best
        gain for host i and node id, whose nonce may differ from call to call. *)
    Context (enc_gh : dtable K (Qc * Qc) -> res (dtable K (C * C))) (dec : C -> res Qc) (gdec : E -> res Qc) (genc : nat -> nat -> Qc -> res E).
    Local Notation prog := (cps nat msg R).

    Definition gather_as {A} (p : msg -> res A) : prog (list A) := (ms <- gather nh; clift (mapR p ms))%cps.

    (** hetero_decision_tree_guest.py:201-235: the answer to host i for the current nodes. *)
    Definition best_for_host (cur : list node) (i : nat) (cands : list (list (option C * option C))) : res (list (option nat * E)) :=
      mapR (fun nc => find_host_split (c_par cfg) dec (genc i (n_id nc.1)) (n_grad nc.1) (n_hess nc.1) nc.2) (combine cur cands).

    (** hetero_decision_tree_guest.py:478-494: one batch of nodes. *)
    Definition guest_batch (dbn : dtable K (dict nat nat * (Z * nat))) (acc : list (splitinfo Qc Qc)) (cur : list node) : prog (list (splitinfo Qc Qc)) :=
      (h <- clift (get_histograms qops dbn gh (c_points cfg) (c_zero cfg) (Some (c_valid cfg)) (node_map_of (map n_id cur)));
       own <- clift (find_split (c_par cfg) (c_valid cfg) h);
       cands <- gather_as as_cand;
       _ <- cfold (fun _ i => (b <- clift (l ← list_index cands i; b ← best_for_host cur i l; Ok (MBest b)); csend i b)) tt (seq 0 nh);
       fin <- gather_as as_final;
       best <- clift (merge_splitinfo dec gdec own fin);
       cret (acc ++ best))%cps.

    (** hetero_decision_tree_guest.py:463-500: the levels still to do; [pos] is node_dispatch. *)
    Fixpoint guest_levels (left : nat) (st : gstate) (queue : list node) (pos : dtable K disp) : prog gstate :=
      match left with
      | 0 => cret st
      | S left' =>
          (_ <- bcast nh (MQueue (map n_id queue));
           match queue with
           | [] => cret st
           | _ :: _ =>
               _ <- bcast nh (MPos pos);
               dbn <- clift (with_positions (c_data cfg) pos);
               bs <- clift (batches (c_step cfg) queue);
               splits <- cfold (guest_batch dbn) [] bs;
               sq <- clift (update_queue (c_par cfg) it (match left' with 0 => true | _ => false end) splits st queue);
               tr <- clift (redispatch_local (c_zero cfg) sq.1 dbn);
               _ <- bcast nh (MDisp tr.1.1);
               answers <- gather_as as_dispr;
               pos' <- clift (redispatch_merge answers tr.1.2);
               guest_levels left' tr.2 sq.2 pos'
           end)%cps
      end.

    (** hetero_decision_tree_guest.py:68-72 get_grad_hess_sum: reduce of an empty table is None, which cannot be unpacked. *)
    Definition grad_hess_sum : res (Qc * Qc) :=
      match dt_reduce (fun a b => match a, b with Some x, Some y => Some ((x.1 + y.1)%Qc, (x.2 + y.2)%Qc) | _, _ => None end)
              (DT (map (fun kv => (kv.1, Some kv.2)) (dt_data gh))) with
      | Some s => Ok s
      | None => Err TypeError
      end.

    (** hetero_decision_tree_guest.py:449-507 fit; the result also carries the real split values. *)
    Definition guest_fit : prog gstate :=
      (t <- clift (enc_gh gh);
       _ <- bcast nh (MGH t);
       s <- clift grad_hess_sum;
       w <- clift (node_weight (reg_lambda (c_par cfg)) s.1 s.2);
       let root := Node 0 GuestSite None w false s.1 s.2 None None in
       pos <- clift (dt_mapValues (fun _ => Ok (DGo 1 0)) (c_data cfg));
       st <- guest_levels (c_depth cfg) (GState [] [] 0 None []) [root] pos;
       _ <- bcast nh (MTree (t_nodes st));
       mask <- clift (guest_convert (c_points cfg) (t_nodes st) (t_mask st));
       cret (GState (t_nodes st) mask (t_num st) (t_weights st) (t_imp st)))%cps.
  End Guest.

  (** ** A host *)
  (** hetero_decision_tree_host.py:183-195 dispatch_node: rows of other sites are returned as they came. *)
  Definition host_dispatch (sn : site) (mask : dict nat mval) (zero_bins : dict nat nat) (v : disp) (f : dict nat nat) : res disp :=
    match v with
    | DHost s fid sn' nid l r =>
        if decide (sn' = sn) then
          fid ← the_fid fid;
          bid ← decode_val nid mask;
          left ← goes_left fid bid zero_bins f;
          c ← the_child (if (left : bool) then l else r);
          Ok (DGo s c)
        else Ok v
    | _ => Err ValueError
    end.

  (** hetero_decision_tree_host.py:145-160, all nodes of the batch. *)
  Definition final_splits (sn : site) (ids : list nat) (cands : list (list (splitinfo C E))) (best : list (option nat * E))
      : res (list (splitinfo C E * option (nat * nat))) :=
    mapR (fun ic => bg ← list_index best ic.1; nid ← list_index ids ic.1; final_split sn nid ic.2 bg)
      (combine (seq 0 (length cands)) cands).
  Definition add_mask (mask : dict nat mval) (o : option (nat * nat)) : dict nat mval :=
    match o with Some (nid, b) => dict_set nid (MBin b) mask | None => mask end.

  (** hetero_decision_tree_host.py:227-248 convert_bin_to_real and remove_duplicated_split_nodes. *)
  Definition host_convert (sn : site) (points : list (list Qc)) (tree : list node) (mask : dict nat mval) : res (dict nat mval) :=
    mask' ← foldM (fun m nd => if n_leaf nd then Ok m else if decide (n_site nd = sn) then convert_node points m nd else Ok m) mask tree;
    let used := map n_id (List.filter (fun nd => negb (n_leaf nd) && bool_decide (n_site nd = sn)) tree) in
    Ok (List.filter (fun nv => bool_decide (nv.1 ∈ used)) mask').

  Section Host.
    Context {R : Type} (O : numops C) (sn : site) (cfg : pcfg K).
    Local Notation prog := (cps unit msg R).

    Definition recv_as {A} (p : msg -> res A) : prog A := (m <- crecv tt; clift (p m))%cps.

    (** hetero_decision_tree_host.py:316-332 *)
    Definition host_batch (ghc : dtable K (C * C)) (dbn : dtable K (dict nat nat * (Z * nat))) (mask : dict nat mval) (ids : list nat) : prog (dict nat mval) :=
      (h <- clift (get_histograms O dbn ghc (c_points cfg) (c_zero cfg) (Some (c_valid cfg)) (node_map_of ids));
       cs <- clift (find_split_host (E := E) (c_par cfg) (c_valid cfg) sn h);
       _ <- csend tt (MCand (map snd cs));
       best <- recv_as as_best;
       fs <- clift (final_splits sn ids (map fst cs) best);
       _ <- csend tt (MFinal (map fst fs));
       cret (fold_left add_mask (map snd fs) mask))%cps.

    (** hetero_decision_tree_host.py:307-338 *)
    Fixpoint host_levels (left : nat) (ghc : dtable K (C * C)) (mask : dict nat mval) : prog (dict nat mval) :=
      match left with
      | 0 => cret mask
      | S left' =>
          (ids <- recv_as as_queue;
           match ids with
           | [] => cret mask
           | _ :: _ =>
               pos <- recv_as as_pos;
               dbn <- clift (with_positions (c_data cfg) pos);
               bs <- clift (batches (c_step cfg) ids);
               mask' <- cfold (host_batch ghc dbn) mask bs;
               todo <- recv_as as_disp;
               r <- clift (dt_join (host_dispatch sn mask' (c_zero cfg)) todo (c_data cfg));
               _ <- csend tt (MDispR r);
               host_levels left' ghc mask'
           end)%cps
      end.

    (** hetero_decision_tree_host.py:304-344 fit: the tree as received, and the real split values of the own nodes. *)
    Definition host_fit : prog (list node * dict nat mval) :=
      (ghc <- recv_as as_gh;
       mask <- host_levels (c_depth cfg) ghc [];
       tree <- recv_as as_tree;
       mask' <- clift (host_convert sn (c_points cfg) tree mask);
       cret (tree, mask'))%cps.
  End Host.
End Tree.
