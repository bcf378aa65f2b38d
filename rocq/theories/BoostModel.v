(** Model of ml/tree/hetero_secureboosting_tree_guest.py and hetero_secureboosting_tree_host.py for classification (P_Statistics
    shows that the regression objectives raise before training starts), after the data has been aligned and converted to bins
    (BinningModel.prepare). *)
From Verif Require Export TreeModel PredictModel.
Local Open Scope nat_scope.

(** ** Labels *)
(** Labels read from a file are strings (i_o/utils.py:48); callers may pass ints. Floats are left out. *)
Inductive label : Type := LInt (z : Z) | LStr (s : list N).
Global Instance label_eq_dec : EqDecision label. Proof. solve_decision. Defined.
(** [a < b]: strings lexicographically by code point; a mixed comparison raises. *)
Fixpoint str_lt (a b : list N) : bool :=
  match a, b with
  | _, [] => false
  | [], _ :: _ => true
  | x :: a', y :: b' => if (x <? y)%N then true else if (y <? x)%N then false else str_lt a' b'
  end.
Definition label_lt (a b : label) : res bool :=
  match a, b with
  | LInt x, LInt y => Ok (x <? y)%Z
  | LStr x, LStr y => Ok (str_lt x y)
  | _, _ => Err TypeError
  end.
(** The builtin sorted on distinct labels. *)
Fixpoint sort_insert (x : label) (l : list label) : res (list label) :=
  match l with
  | [] => Ok [x]
  | y :: l' => lt ← label_lt x y; if (lt : bool) then Ok (x :: y :: l') else r ← sort_insert x l'; Ok (y :: r)
  end.
Definition sort_labels (l : list label) : res (list label) := foldM (fun acc x => sort_insert x acc) [] l.

(** ml/utils/consts.py:32 *)
Definition MAX_CLASSNUM : nat := 1000.
(** ml/utils/classfiy_label_checker.py:34-76 validate_y and get_all_class: the distinct labels in order of appearance. *)
Definition validate_y {K} (y : dtable K label) : res (list label) :=
  let d := fold_left (fun d kv => dict_set kv.2 true d) (dt_data y) ([] : dict label bool) in
  if MAX_CLASSNUM <? length d then Err ValueError else Ok (map fst d).
(** hetero_secureboosting_tree_guest.py:135-145: [_class < range_from_zero] compares with the boolean itself. Comparing a string
    with 0 raises and is caught, and the loop goes on. *)
Fixpoint range_from_zero (rfz : bool) (l : list label) : bool :=
  match l with
  | [] => rfz
  | LInt z :: l' => if ((0 <=? z) && (z <? if rfz then 1 else 0))%Z then range_from_zero rfz l' else false
  | LStr _ :: l' => range_from_zero false l'
  end.
(** ml/loss/cross_entropy.py: the two classification losses. *)
Inductive loss_kind : Type := Sigmoid | Softmax.
(** A label that was left as it is; only 0 can be. *)
Definition raw_label (c : label) : res nat := match c with LInt z => Ok (Z.to_nat z) | LStr _ => Err TypeError end.
(** hetero_secureboosting_tree_guest.py:128-155 check_label and 50-57 set_loss: classes, tree_dim, loss, internal labels. *)
Definition check_label {K} `{EqDecision K} (y : dtable K label) : res (list label * nat * loss_kind * dtable K nat) :=
  cs ← validate_y y;
  let num := length cs in
  let dim := if 2 <? num then num else 1 in
  classes ← sort_labels cs;
  y' ← (if range_from_zero true cs then dt_mapValues raw_label y
        else dt_mapValues (fun c => dict_index c (combine classes (seq 0 num))) y);
  Ok (classes, dim, if num =? 2 then Sigmoid else Softmax, y').

(** ** Feature subsampling *)
(** hetero_secureboosting_tree_guest.py:115-126, hetero_secureboosting_tree_host.py:37-48. [draw] is what random.choice returns
    (distinct numbers below n); it raises when asked for more than n. [rate * n] is a float product. *)
Definition sample_size (n : nat) (rate : Qc) : nat := Nat.max 1 (Z.to_nat (qfloor (fround (rate * zq (Z.of_nat n))))).
Definition sample_valid_features (n : nat) (rate : Qc) (draw : nat -> nat -> list nat) : res (list bool) :=
  let size := sample_size n rate in
  if n <? size then Err ValueError
  else foldM (fun v fid => match v !! fid with Some _ => Ok (<[fid := true]> v) | None => Err IndexError end) (repeat false n) (draw n size).
(** set_valid_features *)
Definition set_valid {K} (cfg : pcfg K) (v : list bool) : pcfg K :=
  PCfg (c_par cfg) (c_depth cfg) (c_step cfg) (c_points cfg) (c_zero cfg) v (c_data cfg).

(** ** Convergence *)
(** ml/optim/convergence.py:42-53 DiffConverge.is_converge; pre_loss becomes the new loss. [rnd] rounds float results. *)
Definition is_converge (rnd : Qc -> Qc) (eps : Qc) (pre : option Qc) (loss : Qc) : bool :=
  match pre with None => false | Some p => qltb (qabs (rnd (p - loss)%Qc)) eps end.

(** Parameters of boosting (boosting_tree.py:34-48): num_trees, learning_rate, subsample_feature_rate, n_iter_no_change, tol. *)
Record bparams : Type := BParams { b_rounds : nat; b_lr : Qc; b_rate : Qc; b_early : bool; b_tol : Qc }.

Definition tree_pb : Type := (list node_pb * dict Z Qc)%type.

Section Boost.
  Context {K : Type} `{EqDecision K} {C E : Type}.
  (** Float operations round through [rnd]; [pred] is the sigmoid or softmax of a score, [lossf] the loss of the predicted
      table. *)
  Context (rnd : Qc -> Qc) (pred : loss_kind -> list Qc -> list Qc) (lossf : loss_kind -> dtable K nat -> dtable K (list Qc) -> Qc).
  Local Notation msg := (msg K C E).
  Local Open Scope Qc_scope.

  (** ml/loss/cross_entropy.py:81-98 and 180-198 compute_grad; for the binary loss numpy subtracts y from the one-element array. *)
  Definition grad (k : loss_kind) (y : nat) (p : list Qc) : res (list Qc) :=
    match k with
    | Sigmoid => Ok (map (fun x => rnd (x - zq (Z.of_nat y))) p)
    | Softmax => x ← list_index p y; Ok (<[y := rnd (x - zq 1)]> p)
    end.
  (** ml/loss/cross_entropy.py:100-117 and 200-217 compute_hess *)
  Definition hess (p : list Qc) : list Qc := map (fun x => rnd (x * rnd (zq 1 - x))) p.

  (** hetero_secureboosting_tree_guest.py:174-181 compute_grad_and_hess *)
  Definition grad_and_hess (k : loss_kind) (y : dtable K nat) (F : dtable K (list Qc)) : res (dtable K (list Qc * list Qc)) :=
    dt_join (fun c f => g ← grad k c (pred k f); Ok (g, hess (pred k f))) y F.
  (** hetero_secureboosting_tree_guest.py:211-215 get_grad_and_hess *)
  Definition class_grad (gh : dtable K (list Qc * list Qc)) (tidx : nat) : res (dtable K (Qc * Qc)) :=
    dt_mapValues (fun v => g ← list_index v.1 tidx; h ← list_index v.2 tidx; Ok (g, h)) gh.
  (** hetero_secureboosting_tree_guest.py:217-220 accumulate_f and 236-241 update_f_value. The array is updated in place; F is
      its only owner (initialize and predict_f_value make one per row). *)
  Definition update_f (lr : Qc) (tidx : nat) (F : dtable K (list Qc)) (w : dtable K Qc) : res (dtable K (list Qc)) :=
    dt_join (fun f x => old ← list_index f tidx; Ok (<[tidx := rnd (old + rnd (lr * x))]> f)) F w.
  (** hetero_secureboosting_tree_guest.py:222-227 update_feature_importance *)
  Definition add_importance (total new : dict (site * option nat) Qc) : dict (site * option nat) Qc :=
    fold_left (fun d kv => dict_set kv.1 (match dict_get kv.1 d with Some x => x | None => zq 0 end + kv.2) d) new total.

  (** What fit changes on the guest: F, trees_, feature_importances_, history_loss, the convergence object's pre_loss. *)
  Record bstate : Type := BState {
    bs_F : dtable K (list Qc); bs_trees : list tree_pb; bs_imp : dict (site * option nat) Qc; bs_hist : list Qc; bs_pre : option Qc }.

  Section Guest.
    Context {R X : Type} (nh : nat) (P : bparams) (gcfg : pcfg K) (it : imp_type) (kind : loss_kind) (dim : nat) (y : dtable K nat).
    (** Random draws per tree; the encryption calculator (one object for all trees, hetero_secureboosting_tree_guest.py:106):
        [calc num x gs] is its call for tree number [num] in state [x], which gives the new state and the encrypted table;
        decryption; encryption of gains. *)
    Context (draw : nat -> nat -> nat -> list nat) (calc : nat -> X -> dtable K (Qc * Qc) -> res (X * dtable K (C * C))) (dec : C -> res Qc) (gdec : E -> res Qc)
      (genc : nat -> nat -> nat -> Qc -> res E).
    Local Notation prog := (cps nat msg R).

    (** hetero_secureboosting_tree_guest.py:258-279, the body of the loop over tidx. The calculator is called by the first
        statement of the tree's fit (hetero_decision_tree_guest.py:449-451, 407-414). *)
    Definition guest_tree (gh : dtable K (list Qc * list Qc)) (sx : bstate * X) (tidx : nat) : prog (bstate * X) :=
      (let st := sx.1 in
       let num := length (bs_trees st) in
       gs <- clift (class_grad gh tidx);
       v <- clift (sample_valid_features (length (c_points gcfg)) (b_rate P) (draw num));
       xt <- clift (calc num sx.2 gs);
       ts <- guest_fit nh (set_valid gcfg v) it gs (fun _ => Ok xt.2) dec gdec (genc num);
       p <- clift (save_tree (t_nodes ts) (t_mask ts));
       w <- clift (the_val (t_weights ts));
       F <- clift (update_f (b_lr P) tidx (bs_F st) w);
       cret (BState F (bs_trees st ++ [p]) (add_importance (bs_imp st) (t_imp ts)) (bs_hist st) (bs_pre st), xt.1))%cps.

    (** hetero_secureboosting_tree_guest.py:255-292, the loop over the rounds; compute_loss: 157-161. *)
    Fixpoint guest_boost (rounds : nat) (sx : bstate * X) : prog (bstate * X) :=
      match rounds with
      | O => cret sx
      | S rounds' =>
          (gh <- clift (grad_and_hess kind y (bs_F sx.1));
           sx <- cfold (guest_tree gh) sx (seq 0 dim);
           let st := sx.1 in
           yp <- clift (dt_mapValues (fun f => Ok (pred kind f)) (bs_F st));
           let loss := lossf kind y yp in
           let st := BState (bs_F st) (bs_trees st) (bs_imp st) (bs_hist st ++ [loss]) (bs_pre st) in
           if b_early P then
             let c := is_converge rnd (b_tol P) (bs_pre st) loss in
             let st := BState (bs_F st) (bs_trees st) (bs_imp st) (bs_hist st) (Some loss) in
             _ <- bcast nh (MStop c);
             if c then cret (st, sx.2) else guest_boost rounds' (st, sx.2)
           else guest_boost rounds' (st, sx.2))%cps
      end.

    (** hetero_secureboosting_tree_guest.py:250-253: initialize (ml/loss/cross_entropy.py:38 and 138), sync_tree_dim, the loop. *)
    Definition guest_train_from (x0 : X) : prog bstate :=
      (F <- clift (dt_mapValues (fun _ => Ok (repeat (zq 0) dim)) y);
       _ <- bcast nh (MDim dim);
       sx <- guest_boost (b_rounds P) (BState F [] [] [] None, x0);
       cret sx.1)%cps.
  End Guest.

  (** The same with a calculator that keeps no state: mode 'strict' (encrypt_mode.py:73-75) encrypts every table anew. *)
  Definition guest_train {R} (nh : nat) (P : bparams) (gcfg : pcfg K) (it : imp_type) (kind : loss_kind) (dim : nat) (y : dtable K nat)
      (draw : nat -> nat -> nat -> list nat) (enc : nat -> dtable K (Qc * Qc) -> res (dtable K (C * C))) (dec : C -> res Qc) (gdec : E -> res Qc)
      (genc : nat -> nat -> nat -> Qc -> res E) : cps nat msg R bstate :=
    guest_train_from nh P gcfg it kind dim y draw (fun num _ gs => t ← enc num gs; Ok (tt, t)) dec gdec genc tt.

  Section Host.
    Context {R : Type} (Ops : numops C) (sn : site) (P : bparams) (hcfg : pcfg K) (draw : nat -> nat -> nat -> list nat).
    Local Notation prog := (cps unit msg R).
    (** hetero_secureboosting_tree_host.py:88-103 *)
    Definition host_tree (trees : list tree_pb) : prog (list tree_pb) :=
      (v <- clift (sample_valid_features (length (c_points hcfg)) (b_rate P) (draw (length trees)));
       r <- host_fit Ops sn (set_valid hcfg v);
       p <- clift (save_tree r.1 r.2);
       cret (trees ++ [p]))%cps.
    (** hetero_secureboosting_tree_host.py:86-113 *)
    Fixpoint host_boost (dim rounds : nat) (trees : list tree_pb) : prog (list tree_pb) :=
      match rounds with
      | O => cret trees
      | S rounds' =>
          (trees <- cfold (fun ts _ => host_tree ts) trees (seq 0 dim);
           if b_early P then
             stop <- recv_as as_stop;
             if (stop : bool) then cret trees else host_boost dim rounds' trees
           else host_boost dim rounds' trees)%cps
      end.
    (** hetero_secureboosting_tree_host.py:84-113; the number of rounds and trees. *)
    Definition host_train : prog (nat * list tree_pb) :=
      (dim <- recv_as as_dim; trees <- host_boost dim (b_rounds P) []; cret (dim, trees))%cps.
  End Host.

  (** ** Prediction *)
  (** [fuel] bounds the rounds of each tree's [while True] (PredictModel). *)
  Section Predict.
    Context {R : Type} (nh : nat) (lr : Qc) (dim : nat) (trees : list tree_pb) (insts : dtable K (dict nat Qc)) (fuel : nat).
    (** hetero_secureboosting_tree_guest.py:298-313 predict_f_value *)
    Definition guest_score : cps nat msg R (dtable K (list Qc)) :=
      (F <- clift (dt_mapValues (fun _ => Ok (repeat (zq 0) dim)) insts);
       cfold (fun F i => cfold (fun F tidx =>
         (p <- clift (list_index trees (i * dim + tidx)%nat);
          let t := load_tree p in
          w <- guest_predict nh t.1 t.2 insts fuel;
          clift (update_f lr tidx F w))) F (seq 0 dim)) F (seq 0 (length trees / dim)%nat))%cps.
    (** hetero_secureboosting_tree_host.py:117-133 predict *)
    Definition host_score (sn : site) : cps unit msg R unit :=
      (cfold (fun _ i => cfold (fun _ tidx =>
         (p <- clift (list_index trees (i * dim + tidx)%nat);
          let t := load_tree p in
          host_predict sn t.1 t.2 insts fuel)) tt (seq 0 dim)) tt (seq 0 (length trees / dim)%nat))%cps.
  End Predict.
End Boost.

(** np.argmax: the first position of the largest entry. *)
Fixpoint argmax_from (best : nat) (x : Qc) (i : nat) (l : list Qc) : nat :=
  match l with [] => best | y :: l' => if qltb x y then argmax_from i y (S i) l' else argmax_from best x (S i) l' end.
Definition argmax (l : list Qc) : res nat := match l with [] => Err ValueError | x :: l' => Ok (argmax_from 0 x 1 l') end.

(** hetero_secureboosting_tree_guest.py:319-328: the predicted class and its score. The probabilities of all classes are
    left out. *)
Definition predict_class (classes : list label) (threshold : Qc) (p : list Qc) : res (label * Qc) :=
  if length classes =? 2 then
    x ← list_index p 0; c ← list_index classes (if qltb threshold x then 1 else 0); Ok (c, x)
  else i ← argmax p; c ← list_index classes i; x ← list_index p i; Ok (c, x).
Definition predict_result {K} `{EqDecision K} (classes : list label) (threshold : Qc) (pred : list Qc -> list Qc) (labels : dtable K label) (F : dtable K (list Qc))
    : res (dtable K (label * label * Qc)) :=
  ps ← dt_mapValues (fun f => Ok (pred f)) F;
  dt_join (fun l p => r ← predict_class classes threshold p; Ok (l, r.1, r.2)) labels ps.
