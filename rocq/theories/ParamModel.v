(** Model of ml/param: the parameter objects and their check methods. *)
From Verif Require Export PyBase QcBase.
From stdpp Require Export strings.
Local Open Scope string_scope.
Local Open Scope Z_scope.

(** A float: finite, an infinity or not a number. *)
Inductive pyfl := Fin (q : Qc) | PInf | NInf | NaN.

(** A class that is not built in, by its name; no such class is called like a built-in one (or long). *)
Inductive other_class := RepeatedScalarContainer | Class_bin_num | OtherClass.

(** A parameter value as the user may set it. Ordering a [VOther] against a number is taken to raise TypeError. *)
Inductive pyval :=
| VNone | VBool (b : bool) | VInt (z : Z) | VFloat (f : pyfl) | VStr (s : string) | VList (l : list pyval)
| VOther (class : other_class).

(** [type(v).__name__] *)
Definition type_name (v : pyval) : string :=
  match v with
  | VNone => "NoneType" | VBool _ => "bool" | VInt _ => "int" | VFloat _ => "float" | VStr _ => "str" | VList _ => "list"
  | VOther RepeatedScalarContainer => "RepeatedScalarContainer" | VOther Class_bin_num => "bin_num" | VOther OtherClass => "object"
  end.
Definition type_in (v : pyval) (names : list string) : bool := bool_decide (type_name v ∈ names).

(** [v < c] and [v > c] with an int on the right. *)
Definition v_lt (v : pyval) (c : Z) : res bool :=
  match v with
  | VBool b => Ok ((if b then 1 else 0) <? c)
  | VInt z => Ok (z <? c)
  | VFloat (Fin q) => Ok (qltb q (zq c)) | VFloat NInf => Ok true | VFloat _ => Ok false
  | _ => Err TypeError
  end.
Definition v_gt (v : pyval) (c : Z) : res bool :=
  match v with
  | VBool b => Ok (c <? (if b then 1 else 0))
  | VInt z => Ok (c <? z)
  | VFloat (Fin q) => Ok (qltb (zq c) q) | VFloat PInf => Ok true | VFloat _ => Ok false
  | _ => Err TypeError
  end.
(** [v <= c] and [v >= c]. *)
Definition v_le (v : pyval) (c : Z) : res bool :=
  match v with
  | VBool b => Ok ((if b then 1 else 0) <=? c)
  | VInt z => Ok (z <=? c)
  | VFloat (Fin q) => Ok (qleb q (zq c)) | VFloat NInf => Ok true | VFloat _ => Ok false
  | _ => Err TypeError
  end.
Definition v_ge (v : pyval) (c : Z) : res bool :=
  match v with
  | VBool b => Ok (c <=? (if b then 1 else 0))
  | VInt z => Ok (c <=? z)
  | VFloat (Fin q) => Ok (qleb (zq c) q) | VFloat PInf => Ok true | VFloat _ => Ok false
  | _ => Err TypeError
  end.

(** [str.lower()] on ASCII letters; other characters are kept (none of their lower-case forms is a letter of the accepted
    words). *)
Definition lower_char (c : Ascii.ascii) : Ascii.ascii :=
  let n := Ascii.nat_of_ascii c in
  if ((65 <=? n) && (n <=? 90))%nat then Ascii.ascii_of_nat (n + 32) else c.
Fixpoint lower (s : string) : string :=
  match s with EmptyString => EmptyString | String c s' => String (lower_char c) (lower s') end.

(** [v == s] for a str constant s. *)
Definition is_str (v : pyval) (s : string) : bool := match v with VStr x => bool_decide (x = s) | _ => false end.

(** [a or b] where b is evaluated only if a is false. *)
Definition or_else (a : bool) (b : res bool) : res bool := if a then Ok true else b.
(** [if c: raise ValueError] *)
Definition reject (c : res bool) : res unit := b ← c; if b : bool then Err ValueError else Ok tt.
Definition NUMERIC : list string := ["float"; "int"; "long"].
Definition INTEGER : list string := ["int"; "long"].

(** ml/param/base_param.py:86-88 *)
Definition check_string (v : pyval) : res unit := reject (Ok (negb (type_in v ["str"]))).
(** base_param.py:91-93 *)
Definition check_positive_integer (v : pyval) : res unit := reject (or_else (negb (type_in v INTEGER)) (v_le v 0)).
(** base_param.py:101-103 *)
Definition check_decimal_float (v : pyval) : res unit :=
  reject (or_else (negb (type_in v ["float"])) (a ← v_lt v 0; or_else a (v_gt v 1))).
(** base_param.py:106-108 *)
Definition check_boolean (v : pyval) : res unit := reject (Ok (negb (type_in v ["bool"]))).
(** base_param.py:111-113 *)
Definition check_open_unit_interval (v : pyval) : res unit :=
  reject (or_else (negb (type_in v ["float"])) (a ← v_le v 0; or_else a (v_ge v 1))).
(** base_param.py:116-118; the valid values are all str *)
Definition check_valid_value (v : pyval) (valid : list string) : res unit := reject (Ok (negb (existsb (is_str v) valid))).
(** base_param.py:121-123 *)
Definition check_defined_type (v : pyval) (types : list string) : res unit := reject (Ok (negb (type_in v types))).
(** base_param.py:126-134 *)
Definition check_and_change_lower (v : pyval) (valid : list string) : res pyval :=
  match v with
  | VStr s => if bool_decide (lower s ∈ valid) then Ok (VStr (lower s)) else Err ValueError
  | _ => Err ValueError
  end.

Definition CLASSIFICATION := "classification".
Definition REGRESSION := "regression".

(** ml/param/boosting_tree_param.py:26-28 *)
Record objective_param := OP { op_objective : pyval; op_params : pyval }.

(** boosting_tree_param.py:51-67 — the part about params; the test of line 64 is always true. *)
Definition check_loss_params (objective params : pyval) : res unit :=
  if existsb (is_str objective) ["huber"; "fair"; "tweedie"] then
    match params with
    | VList (x :: _) =>
        _ ← reject (Ok (negb (type_in x NUMERIC)));
        _ ← (if is_str objective "tweedie" then reject (a ← v_lt x 1; or_else a (v_ge x 2)) else Ok tt);
        reject (v_le x 0)
    | _ => Err ValueError
    end
  else Ok tt.

(** boosting_tree_param.py:30-68 ObjectiveParam.check *)
Definition objective_check (p : objective_param) (task : pyval) : res objective_param :=
  match op_objective p with
  | VNone => Ok p
  | o =>
      o ← (if negb (existsb (is_str task) [CLASSIFICATION; REGRESSION]) then
             check_and_change_lower o ["cross_entropy"; "lse"; "lae"; "huber"; "fair"; "log_cosh"; "tweedie"]
           else Ok o);
      if is_str task CLASSIFICATION then
        _ ← reject (Ok (negb (is_str o "cross_entropy"))); Ok (OP o (op_params p))
      else if is_str task REGRESSION then
        o ← check_and_change_lower o ["lse"; "lae"; "huber"; "fair"; "log_cosh"; "tweedie"];
        _ ← check_loss_params o (op_params p);
        Ok (OP o (op_params p))
      else Ok (OP o (op_params p))
  end.

(** boosting_tree_param.py:103-116 DecisionTreeParam *)
Record tree_param := TP {
  tp_criterion_method : pyval; tp_criterion_params : pyval; tp_max_depth : pyval; tp_min_sample_split : pyval;
  tp_min_impurity_split : pyval; tp_min_leaf_node : pyval; tp_max_split_nodes : pyval; tp_importance : pyval;
  tp_n_iter_no_change : pyval; tp_tol : pyval }.

(** boosting_tree_param.py:118-170 *)
Definition tree_check (p : tree_param) : res tree_param :=
  m ← check_and_change_lower (tp_criterion_method p) ["xgboost"];
  _ ← match tp_criterion_params p with
      | VList (x :: _) => reject (Ok (negb (type_in x NUMERIC)))
      | _ => Err ValueError
      end;
  _ ← reject (Ok (negb (type_in (tp_max_depth p) INTEGER)));
  _ ← reject (v_lt (tp_max_depth p) 1);
  _ ← reject (Ok (negb (type_in (tp_min_sample_split p) INTEGER)));
  _ ← reject (Ok (negb (type_in (tp_min_impurity_split p) NUMERIC)));
  _ ← reject (Ok (negb (type_in (tp_min_leaf_node p) INTEGER)));
  _ ← reject (or_else (negb (type_in (tp_max_split_nodes p) INTEGER)) (v_lt (tp_max_split_nodes p) 1));
  _ ← reject (Ok (negb (type_in (tp_n_iter_no_change p) ["bool"])));
  _ ← reject (Ok (negb (type_in (tp_tol p) NUMERIC)));
  i ← check_and_change_lower (tp_importance p) ["split"; "gain"];
  Ok (TP m (tp_criterion_params p) (tp_max_depth p) (tp_min_sample_split p) (tp_min_impurity_split p)
         (tp_min_leaf_node p) (tp_max_split_nodes p) i (tp_n_iter_no_change p) (tp_tol p)).

(** ml/param/encrypt_param.py:41-64 *)
Record encrypt_param := EP { ep_method : pyval; ep_key_length : pyval }.
Definition encrypt_check (p : encrypt_param) : res encrypt_param :=
  m ← match ep_method p with
      | VStr s => Ok (VStr (if bool_decide (lower s = "paillier") then "Paillier" else s))
      | VNone => Err AttributeError
      | _ => Err ValueError
      end;
  _ ← reject (Ok (negb (type_in (ep_key_length p) ["int"])));
  _ ← reject (v_le (ep_key_length p) 0);
  Ok (EP m (ep_key_length p)).

(** ml/param/encrypted_mode_calculation_param.py:34-48 *)
Record mode_param := MP { mp_mode : pyval; mp_rate : pyval }.
Definition mode_check (p : mode_param) : res mode_param :=
  m ← check_and_change_lower (mp_mode p) ["strict"; "fast"; "balance"];
  _ ← (if is_str m "balance" then reject (Ok (negb (type_in (mp_rate p) NUMERIC))) else Ok tt);
  Ok (MP m (mp_rate p)).

(** ml/param/predict_param.py:36-50 *)
Record predict_param := PP { pp_with_proba : pyval; pp_threshold : pyval }.
Definition predict_check (p : predict_param) : res unit :=
  _ ← reject (Ok (negb (type_in (pp_with_proba p) ["bool"])));
  reject (Ok (negb (type_in (pp_threshold p) ["float"; "int"]))).

(** ml/param/evaluation_param.py:36-51; eval_type becomes the lower-case word *)
Record evaluate_param := EVP { vp_type : pyval; vp_pos_label : pyval }.
Definition evaluate_check (p : evaluate_param) : res evaluate_param :=
  t ← check_and_change_lower (vp_type p) ["binary"; "multi"; "regression"];
  _ ← reject (Ok (negb (type_in (vp_pos_label p) ["str"; "float"; "int"])));
  Ok (EVP t (vp_pos_label p)).

(** ml/param/cross_validation_param.py:49-66; evaluate_param and need_cv are never checked *)
Record cv_param := CP { cp_n_splits : pyval; cp_mode : pyval; cp_role : pyval; cp_shuffle : pyval; cp_seed : pyval }.
Definition cv_check (p : cv_param) : res unit :=
  _ ← check_positive_integer (cp_n_splits p);
  _ ← check_valid_value (cp_mode p) ["homo"; "hetero"];
  _ ← check_valid_value (cp_role p) ["host"; "guest"; "arbiter"];
  _ ← check_boolean (cp_shuffle p);
  check_positive_integer (cp_seed p).

(** boosting_tree_param.py:202-221 BoostingTreeParam *)
Record boosting_param := BP {
  bp_tree : tree_param; bp_task : pyval; bp_objective : objective_param; bp_learning_rate : pyval; bp_num_trees : pyval;
  bp_subsample : pyval; bp_n_iter_no_change : pyval; bp_tol : pyval; bp_encrypt : encrypt_param; bp_bin_num : pyval;
  bp_mode : mode_param; bp_predict : predict_param; bp_cv : cv_param }.

(** boosting_tree_param.py:223-260 *)
Definition boosting_check (p : boosting_param) : res boosting_param :=
  t ← tree_check (bp_tree p);
  _ ← reject (Ok (negb (existsb (is_str (bp_task p)) [CLASSIFICATION; REGRESSION])));
  o ← objective_check (bp_objective p) (bp_task p);
  _ ← reject (Ok (negb (type_in (bp_learning_rate p) NUMERIC)));
  _ ← reject (or_else (negb (type_in (bp_num_trees p) INTEGER)) (v_lt (bp_num_trees p) 1));
  _ ← reject (or_else (negb (type_in (bp_subsample p) NUMERIC)) (a ← v_lt (bp_subsample p) 0; or_else a (v_gt (bp_subsample p) 1)));
  _ ← reject (Ok (negb (type_in (bp_n_iter_no_change p) ["bool"])));
  _ ← reject (Ok (negb (type_in (bp_tol p) NUMERIC)));
  e ← encrypt_check (bp_encrypt p);
  _ ← reject (or_else (negb (type_in (bp_bin_num p) INTEGER)) (v_lt (bp_bin_num p) 2));
  Ok (BP t (bp_task p) o (bp_learning_rate p) (bp_num_trees p) (bp_subsample p) (bp_n_iter_no_change p) (bp_tol p) e
         (bp_bin_num p) (bp_mode p) (bp_predict p) (bp_cv p)).

(** ml/param/feature_binning_param.py:21-30 TransformParam.check; -1 is compared by value *)
Definition transform_check (cols type : pyval) : res unit :=
  _ ← (match cols with
       | VNone => Ok tt
       | VInt z => if z =? -1 then Ok tt else check_defined_type cols ["list"]
       | VFloat (Fin q) => if qeqb q (zq (-1)) then Ok tt else check_defined_type cols ["list"]
       | _ => check_defined_type cols ["list"]
       end);
  check_defined_type type ["bin_num"].

(** feature_binning_param.py:74-104 FeatureBinningParam.check; the transform parameter is not looked at *)
Record binning_param := FP { fp_method : pyval; fp_compress : pyval; fp_head : pyval; fp_error : pyval; fp_bin_num : pyval;
                             fp_cols : pyval; fp_adjustment : pyval }.
Definition binning_check (p : binning_param) : res binning_param :=
  _ ← check_string (fp_method p);
  let m := match fp_method p with VStr s => VStr (lower s) | v => v end in
  _ ← check_valid_value m ["quantile"];
  _ ← check_positive_integer (fp_compress p);
  _ ← check_positive_integer (fp_head p);
  _ ← check_decimal_float (fp_error p);
  _ ← check_positive_integer (fp_bin_num p);
  _ ← check_defined_type (fp_cols p) ["list"; "int"; "RepeatedScalarContainer"];
  _ ← check_open_unit_interval (fp_adjustment p);
  Ok (FP m (fp_compress p) (fp_head p) (fp_error p) (fp_bin_num p) (fp_cols p) (fp_adjustment p)).
