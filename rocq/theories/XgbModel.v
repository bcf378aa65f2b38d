(** Model of test_xgboost.py: the program without a federation (LocalModel) on the columns of two files, from the files to the
    accuracy that is printed. *)
From Verif Require Export LocalModel ScriptModel.
Local Open Scope nat_scope.

Section Job.
  Context {K N : Type} `{EqDecision K} `{EqDecision N} {C : Type}.
  Context (rnd : Qc -> Qc) (pred : loss_kind -> list Qc -> list Qc) (lossf : loss_kind -> dtable K nat -> dtable K (list Qc) -> Qc).
  Context (P : bparams) (bp : bin_params) (par : sparams) (depth stp : nat).

  (** xgboost/hetero_secureboosting_tree_guest.py:235-289 fit (80-96 convert_feature_to_bin and set_y, 128-155 check_label). *)
  Definition local_job (it : imp_type) (draw : nat -> nat -> nat -> list nat) (enc : nat -> dtable K (Qc * Qc) -> res (dtable K (C * C)))
      (header : list N) (h : heap) (t : dtable K loc) (labels : dtable K label) : res (heap * (list label * nat * loss_kind) * @bstate K) :=
    r ← load bp par depth stp header h t;
    c ← check_label labels;
    st ← local_train rnd pred lossf P r.2 it c.1.2 c.1.1.2 c.2 draw enc;
    Ok (r.1, c.1, st).

  (** xgboost/hetero_secureboosting_tree_guest.py:307-337 predict; [m] are classes_, tree_dim and loss. *)
  Definition local_predict_job (m : list label * nat * loss_kind) (trees : list tree_pb) (threshold : Qc) (h : heap) (t : dtable K loc)
      (labels : dtable K label) : res (heap * dtable K (label * label * Qc)) :=
    ht ← data_alignment h t;
    rows ← view row_values ht.1 ht.2;
    F ← local_score rnd (b_lr P) m.1.2 trees rows;
    r ← predict_result m.1.1 threshold (pred m.2) labels F;
    Ok (ht.1, r).
End Job.

Section Script.
  Context {C G : Type}.
  Context (rnd : Qc -> Qc) (pred : loss_kind -> list Qc -> list Qc) (lossf : loss_kind -> dtable nat nat -> dtable nat (list Qc) -> Qc).
  Context (P : bparams) (bp : bin_params) (par : sparams) (depth stp : nat).
  Context (seeded : Z -> G) (below : G -> nat -> nat * G) (py_float : text -> option Qc).

  (** test_xgboost.py:14-32 — the files are read, the rows at the same position put side by side ([np.hstack]), the names of the
      second file appended to those of the first, the rows divided (53-71 data_split, the same as guest.py:84-102). *)
  Definition xgb_tables (gfile hfile : text) (ratio : Qc) (g : G) : res (list text * dtable nat (instance Qc) * dtable nat (instance Qc)) :=
    '(header, ids, features, labels) ← read_with_label py_float gfile;
    '(header2, ids2, features2) ← read_without_label py_float hfile;
    instances ← mapR (fun '(i, f) => a ← list_index ids i; f2 ← list_index features2 i; l ← list_index labels i; Ok (Inst a (f ++ f2) (Some l)))
                  (imap (fun i f => (i, f)) features);
    '(train, test, _) ← data_split seeded below instances ratio true (Some 2%Z) g;
    Ok (header ++ header2, dt_new_unkeyed train, dt_new_unkeyed test).

  (** test_xgboost.py:10-51 test; the result is what is printed. *)
  Definition xgb_script (it : imp_type) (draw : nat -> nat -> nat -> list nat) (enc : nat -> dtable nat (Qc * Qc) -> res (dtable nat (C * C)))
      (threshold : Qc) (gfile hfile : text) (ratio : Qc) (gen : G) : res (option Qc) :=
    t ← xgb_tables gfile hfile ratio gen;
    let train := t.1.2 in let test := t.2 in
    labels ← inst_labels train;
    r ← local_job rnd pred lossf P bp par depth stp it draw enc t.1.1 (inst_heap train test) (inst_locs 0 train) labels;
    labels' ← inst_labels test;
    out ← local_predict_job rnd pred P r.1.2 (bs_trees r.2) threshold r.1.1 (inst_locs (dt_count train) test) labels';
    accuracy (DT (map (fun kv => (kv.1, kv.2.1)) (dt_data out.2))).
End Script.
