(** The documented parameter values (doc strings of ml/param), written without the check functions. *)
From Verif Require Import ParamModel.
Local Open Scope string_scope.
Local Open Scope Z_scope.

(** Numbers. *)
Inductive numeric : pyval -> Prop := num_int z : numeric (VInt z) | num_float f : numeric (VFloat f).
Definition int_from (lo : Z) (v : pyval) : Prop := exists z, v = VInt z /\ lo <= z.
Definition boolean (v : pyval) : Prop := exists b, v = VBool b.

(** A set of numbers, to which NaN belongs as well because it fails every comparison. *)
Definition num_where (P : Qc -> Prop) (above : bool) (v : pyval) : Prop :=
  (exists z, v = VInt z /\ P (zq z)) \/ (exists q, v = VFloat (Fin q) /\ P q) \/ (v = VFloat PInf /\ above = true)
  \/ v = VFloat NaN.
Definition float_where (P : Qc -> Prop) (v : pyval) : Prop := (exists q, v = VFloat (Fin q) /\ P q) \/ v = VFloat NaN.

(** Equality of words up to the case of ASCII letters. *)
Inductive same_letter : Ascii.ascii -> Ascii.ascii -> Prop :=
| same_char c : same_letter c c
| same_upper c d : (65 <= Ascii.nat_of_ascii c <= 90)%nat -> Ascii.nat_of_ascii d = (Ascii.nat_of_ascii c + 32)%nat -> same_letter c d.
Inductive same_word : string -> string -> Prop :=
| same_nil : same_word EmptyString EmptyString
| same_cons c d s t : same_letter c d -> same_word s t -> same_word (String c s) (String d t).
(** The value is one of the words in any capitalisation, and [v'] is that word. *)
Definition spelled (words : list string) (v v' : pyval) : Prop :=
  exists s w, v = VStr s /\ w ∈ words /\ same_word s w /\ v' = VStr w.

Definition doc_tree (p p' : tree_param) : Prop :=
  spelled ["xgboost"] (tp_criterion_method p) (tp_criterion_method p')
  /\ (exists x l, tp_criterion_params p = VList (x :: l) /\ numeric x)
  /\ int_from 1 (tp_max_depth p) /\ (exists z, tp_min_sample_split p = VInt z) /\ numeric (tp_min_impurity_split p)
  /\ (exists z, tp_min_leaf_node p = VInt z) /\ int_from 1 (tp_max_split_nodes p) /\ boolean (tp_n_iter_no_change p)
  /\ numeric (tp_tol p) /\ spelled ["split"; "gain"] (tp_importance p) (tp_importance p')
  /\ (tp_criterion_params p', tp_max_depth p', tp_min_sample_split p', tp_min_impurity_split p', tp_min_leaf_node p')
     = (tp_criterion_params p, tp_max_depth p, tp_min_sample_split p, tp_min_impurity_split p, tp_min_leaf_node p)
  /\ (tp_max_split_nodes p', tp_n_iter_no_change p', tp_tol p') = (tp_max_split_nodes p, tp_n_iter_no_change p, tp_tol p).

(** The objective: none on a host; cross_entropy for classification (in this spelling); for regression one of six, with a
    first loss parameter above 0 for huber and fair and in [1, 2) for tweedie. *)
Definition loss_number (P : Qc -> Prop) (above : bool) (v : pyval) : Prop := exists x l, v = VList (x :: l) /\ num_where P above x.
Definition doc_objective (task : pyval) (p p' : objective_param) : Prop :=
  op_params p' = op_params p /\
  ((op_objective p = VNone /\ op_objective p' = VNone)
   \/ (task = VStr "classification" /\ op_objective p = VStr "cross_entropy" /\ op_objective p' = VStr "cross_entropy")
   \/ (task = VStr "regression" /\
       (spelled ["lse"; "lae"; "log_cosh"] (op_objective p) (op_objective p')
        \/ (spelled ["huber"; "fair"] (op_objective p) (op_objective p') /\ loss_number (fun q => zq 0 < q)%Qc true (op_params p))
        \/ (spelled ["tweedie"] (op_objective p) (op_objective p') /\ loss_number (fun q => zq 1 <= q /\ q < zq 2)%Qc false (op_params p))))).

(** Any str for the encryption; the name Paillier is brought into this spelling. *)
Definition doc_encrypt (p p' : encrypt_param) : Prop :=
  int_from 1 (ep_key_length p) /\ ep_key_length p' = ep_key_length p /\
  exists s, ep_method p = VStr s /\
    ((same_word s "paillier" /\ ep_method p' = VStr "Paillier") \/ (~ same_word s "paillier" /\ ep_method p' = VStr s)).

Definition doc_boosting (p p' : boosting_param) : Prop :=
  doc_tree (bp_tree p) (bp_tree p')
  /\ (bp_task p = VStr "classification" \/ bp_task p = VStr "regression")
  /\ doc_objective (bp_task p) (bp_objective p) (bp_objective p')
  /\ numeric (bp_learning_rate p) /\ int_from 1 (bp_num_trees p)
  /\ num_where (fun q => zq 0 <= q /\ q <= zq 1)%Qc false (bp_subsample p)
  /\ boolean (bp_n_iter_no_change p) /\ numeric (bp_tol p)
  /\ doc_encrypt (bp_encrypt p) (bp_encrypt p') /\ int_from 2 (bp_bin_num p)
  /\ (bp_task p', bp_learning_rate p', bp_num_trees p', bp_subsample p', bp_n_iter_no_change p', bp_tol p', bp_bin_num p')
     = (bp_task p, bp_learning_rate p, bp_num_trees p, bp_subsample p, bp_n_iter_no_change p, bp_tol p, bp_bin_num p)
  /\ (bp_mode p', bp_predict p', bp_cv p') = (bp_mode p, bp_predict p, bp_cv p).

Definition doc_mode (p p' : mode_param) : Prop :=
  mp_rate p' = mp_rate p /\
  (spelled ["strict"; "fast"] (mp_mode p) (mp_mode p') \/ (spelled ["balance"] (mp_mode p) (mp_mode p') /\ numeric (mp_rate p))).

Definition doc_binning (p p' : binning_param) : Prop :=
  spelled ["quantile"] (fp_method p) (fp_method p') /\ int_from 1 (fp_compress p) /\ int_from 1 (fp_head p)
  /\ float_where (fun q => zq 0 <= q /\ q <= zq 1)%Qc (fp_error p) /\ int_from 1 (fp_bin_num p)
  /\ ((exists l, fp_cols p = VList l) \/ (exists z, fp_cols p = VInt z) \/ fp_cols p = VOther RepeatedScalarContainer)
  /\ float_where (fun q => zq 0 < q /\ q < zq 1)%Qc (fp_adjustment p)
  /\ (fp_compress p', fp_head p', fp_error p', fp_bin_num p', fp_cols p', fp_adjustment p')
     = (fp_compress p, fp_head p, fp_error p, fp_bin_num p, fp_cols p, fp_adjustment p).

Definition doc_cv (p : cv_param) : Prop :=
  int_from 1 (cp_n_splits p) /\ (cp_mode p = VStr "homo" \/ cp_mode p = VStr "hetero")
  /\ (cp_role p = VStr "host" \/ cp_role p = VStr "guest" \/ cp_role p = VStr "arbiter")
  /\ boolean (cp_shuffle p) /\ int_from 1 (cp_seed p).
