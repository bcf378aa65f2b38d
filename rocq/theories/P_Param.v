(** C58: the parameter checks. *)
From Verif Require Import ParamModel ParamSpec ParamProofs.
Local Open Scope string_scope.
Local Open Scope Z_scope.

(** The check of the whole parameter object succeeds exactly on the documented values, and normalises only the names. *)
Theorem C58_accepts : forall p p', boosting_check p = Ok p' <-> doc_boosting p p'.
Proof. exact boosting_check_ok. Qed.
Print Assumptions C58_accepts.

(** On every other value ValueError, or AttributeError when the encryption method is None. *)
Theorem C58_rejects : forall p, ~ (exists p', doc_boosting p p') ->
  boosting_check p = Err ValueError \/ (boosting_check p = Err AttributeError /\ ep_method (bp_encrypt p) = VNone).
Proof.
  intros p Hn. destruct (boosting_check p) as [p'|e] eqn:E.
  - exfalso. apply Hn. exists p'. by apply boosting_check_ok.
  - apply boosting_check_err in E as [->|[-> H]]; [by left|by right].
Qed.
Print Assumptions C58_rejects.

(** Checking twice is checking once. *)
Lemma same_word_refl s : same_word s s.
Proof. induction s; constructor; [constructor|done]. Qed.
Lemma spelled_again l v v' : spelled l v v' -> spelled l v' v'.
Proof. intros (s&w&->&Hin&_&->). exists w, w. split; [done|]. split; [done|]. split; [apply same_word_refl|done]. Qed.
Lemma doc_encrypt_again p p' : doc_encrypt p p' -> doc_encrypt p' p'.
Proof.
  intros (Hk&E&s&Em&H). split; [by rewrite E|]. split; [done|]. destruct H as [[H ->]|[H ->]].
  - exists "Paillier". split; [done|]. left. split; [|done]. constructor; [|apply same_word_refl].
    apply same_upper; vm_compute; lia.
  - exists s. split; [done|]. by right.
Qed.
Lemma doc_objective_again t p p' : doc_objective t p p' -> doc_objective t p' p'.
Proof.
  intros [E H]. split; [done|]. destruct H as [[_ H]|[(Ht&_&H)|(Ht&H)]]; [by left|by right; left|right; right].
  split; [done|]. rewrite E.
  destruct H as [H|[[H Hl]|[H Hl]]]; [left|right; left|right; right]; try split; try done; by eapply spelled_again.
Qed.
Theorem C58_idempotent : forall p p', boosting_check p = Ok p' -> boosting_check p' = Ok p'.
Proof.
  intros p p' H. apply boosting_check_ok in H. apply boosting_check_ok.
  destruct H as (Ht&Htask&Ho&Hlr&Hnt&Hss&Hit&Htol&He&Hb&E1&E2). injection E1 as E1 E3 E4 E5 E6 E7 E8.
  unfold doc_boosting. rewrite E1, E3, E4, E5, E6, E7, E8. split_and!; try done.
  - destruct Ht as (Hm&Hcp&Hd&Hs&Hi&Hlf&Hsn&Hn&Hto&Him&F1&F2). injection F1 as F1 F3 F4 F5 F6. injection F2 as F7 F8 F9.
    unfold doc_tree. rewrite F1, F3, F4, F5, F6, F7, F8, F9. split_and!; try done; by eapply spelled_again.
  - by eapply doc_objective_again.
  - by eapply doc_encrypt_again.
Qed.
Print Assumptions C58_idempotent.

(** (Defect) Mode, prediction and cross-validation parameters have no influence on the outcome. *)
Theorem C58_unchecked : forall p m r c,
  boosting_check (BP (bp_tree p) (bp_task p) (bp_objective p) (bp_learning_rate p) (bp_num_trees p) (bp_subsample p)
                     (bp_n_iter_no_change p) (bp_tol p) (bp_encrypt p) (bp_bin_num p) m r c) =
  match boosting_check p with
  | Ok p' => Ok (BP (bp_tree p') (bp_task p') (bp_objective p') (bp_learning_rate p') (bp_num_trees p') (bp_subsample p')
                    (bp_n_iter_no_change p') (bp_tol p') (bp_encrypt p') (bp_bin_num p') m r c)
  | Err e => Err e
  end.
Proof.
  intros p m r c. destruct (boosting_check p) as [p'|e] eqn:E.
  - apply boosting_check_ok in E. apply boosting_check_ok.
    destruct E as (H1&H2&H3&H4&H5&H6&H7&H8&H9&H10&H11&H12). by split_and!.
  - revert E. unfold boosting_check. cbn [bp_tree bp_task bp_objective bp_learning_rate bp_num_trees bp_subsample
      bp_n_iter_no_change bp_tol bp_encrypt bp_bin_num].
    repeat match goal with |- (x ← ?a; _) = Err e -> _ => destruct a; cbn [mbind res_bind]; [|by intros [= ->]] end.
    done.
Qed.
Print Assumptions C58_unchecked.

(** The default parameters of the constructors, with one name in another capitalisation. *)
Definition ex_tree : tree_param :=
  TP (VStr "XGBoost") (VList [VFloat (Fin (Q2Qc (1 # 10)))]) (VInt 5) (VInt 2) (VFloat (Fin (Q2Qc (1 # 1000)))) (VInt 1)
     (VInt 65536) (VStr "split") (VBool true) (VFloat (Fin (Q2Qc (1 # 1000)))).
Definition ex_mode := MP (VStr "strict") (VInt 1).
Definition ex_predict := PP (VBool true) (VFloat (Fin (Q2Qc (1 # 2)))).
Definition ex_cv := CP (VInt 5) (VStr "hetero") (VStr "guest") (VBool true) (VInt 1).
Definition ex_boosting (rate : pyval) (e : encrypt_param) (m : mode_param) : boosting_param :=
  BP ex_tree (VStr "classification") (OP (VStr "cross_entropy") VNone) (VFloat (Fin (Q2Qc (3 # 10)))) (VInt 5) rate (VBool true)
     (VFloat (Fin (Q2Qc (1 # 10000)))) e (VInt 32) m ex_predict ex_cv.
Definition rate08 := VFloat (Fin (Q2Qc (4 # 5))).
Example C58_ex :
  (exists p', boosting_check (ex_boosting rate08 (EP (VStr "PAILLIER") (VInt 1024)) ex_mode) = Ok p'
     /\ tp_criterion_method (bp_tree p') = VStr "xgboost" /\ ep_method (bp_encrypt p') = VStr "Paillier")
  /\ boosting_check (ex_boosting (VInt 2) (EP (VStr "PAILLIER") (VInt 1024)) ex_mode) = Err ValueError
  /\ boosting_check (ex_boosting (VBool true) (EP (VStr "PAILLIER") (VInt 1024)) ex_mode) = Err ValueError.
Proof. split; [eexists; split; [vm_compute; reflexivity|done]|done]. Qed.

(** (Defect) NaN lies in no interval and passes the range test of the feature rate. *)
Theorem C58_nan_refuted : exists p p',
  bp_subsample p = VFloat NaN /\ boosting_check p = Ok p' /\ bp_subsample p' = VFloat NaN.
Proof.
  exists (ex_boosting (VFloat NaN) (EP (VStr "Paillier") (VInt 1024)) ex_mode). eexists.
  split; [done|]. split; [vm_compute; reflexivity|done].
Qed.
Print Assumptions C58_nan_refuted.

(** (Defect) A mode that the encryption calculator does not know is accepted. *)
Theorem C58_mode_refuted : exists p p',
  boosting_check p = Ok p' /\ mp_mode (bp_mode p') = VStr "nonsense" /\ mode_check (bp_mode p') = Err ValueError.
Proof.
  exists (ex_boosting rate08 (EP (VStr "Paillier") (VInt 1024)) (MP (VStr "nonsense") VNone)). eexists.
  split; [vm_compute; reflexivity|done].
Qed.
Print Assumptions C58_mode_refuted.

(** (Defect) method=None is let through by the type test and raises AttributeError whatever the key length. *)
Theorem C58_none : forall p, ep_method p = VNone <-> encrypt_check p = Err AttributeError.
Proof.
  intros p. split; [destruct p; cbn; by intros ->|]. intros H. apply encrypt_check_err in H as [H|[_ H]]; [discriminate H|exact H].
Qed.
Print Assumptions C58_none.
Example C58_none_ex : boosting_check (ex_boosting rate08 (EP VNone (VInt 1024)) ex_mode) = Err AttributeError.
Proof. reflexivity. Qed.

(** The mode parameters, when checked. *)
Theorem C58_mode : forall p p', mode_check p = Ok p' <-> doc_mode p p'.
Proof. exact mode_check_ok. Qed.
Print Assumptions C58_mode.
Example C58_mode_ex :
  mode_check (MP (VStr "Balance") (VFloat (Fin (Q2Qc (1 # 2))))) = Ok (MP (VStr "balance") (VFloat (Fin (Q2Qc (1 # 2)))))
  /\ mode_check (MP (VStr "balance") VNone) = Err ValueError /\ mode_check (MP (VStr "strict") VNone) = Ok (MP (VStr "strict") VNone).
Proof. done. Qed.

(** The prediction parameters. *)
Theorem C58_predict : forall p, predict_check p = Ok tt <-> boolean (pp_with_proba p) /\ numeric (pp_threshold p).
Proof.
  intros [w t]. unfold predict_check. rewrite bind_ok. cbn [pp_with_proba pp_threshold]. split.
  - intros ([]&H1&H2). split; [by apply boolean_ok|]. destruct t as [| | | | | |[]]; try discriminate H2; constructor.
  - intros [H1 H2]. exists tt. split; [by apply boolean_ok|]. by destruct H2.
Qed.
Print Assumptions C58_predict.
Example C58_predict_ex : predict_check ex_predict = Ok tt /\ predict_check (PP (VInt 1) (VInt 0)) = Err ValueError.
Proof. done. Qed.

(** The evaluation parameters: every other value is a ValueError. *)
Theorem C58_evaluate : forall p, (exists p', evaluate_check p = Ok p') \/ evaluate_check p = Err ValueError.
Proof.
  intros [t l]. unfold evaluate_check. cbn [vp_type vp_pos_label]. destruct (check_and_change_lower _ _) as [t'|e] eqn:E; cbn [mbind res_bind]; [|right; f_equal; exact (change_lower_err _ _ _ E)].
  unfold reject. destruct (negb _); cbn [mbind res_bind]; eauto.
Qed.
Theorem C58_evaluate_accepts : forall p p', evaluate_check p = Ok p' <->
  spelled ["binary"; "multi"; "regression"] (vp_type p) (vp_type p') /\ (numeric (vp_pos_label p) \/ exists s, vp_pos_label p = VStr s) /\ vp_pos_label p' = vp_pos_label p.
Proof.
  intros [t l] [t' l']. unfold evaluate_check. rewrite bind_ok. cbn [vp_type vp_pos_label]. split.
  - intros (t'' & H1 & H2). apply bind_ok in H2 as ([] & H2 & [= <- <-]). split; [by apply change_lower_ok|]. split; [|reflexivity]. destruct l as [| | | | | |[]]; try discriminate H2; eauto; left; constructor.
  - intros (H1 & H2 & ->). exists t'. split; [by apply change_lower_ok|]. destruct H2 as [[] | [s ->]]; reflexivity.
Qed.
Print Assumptions C58_evaluate.
Print Assumptions C58_evaluate_accepts.
Example C58_evaluate_ex : evaluate_check (EVP (VStr "Binary") (VInt 1)) = Ok (EVP (VStr "binary") (VInt 1)) /\ evaluate_check (EVP (VStr "multi") (VBool true)) = Err ValueError.
Proof. done. Qed.

(** The cross-validation parameters. *)
Theorem C58_cv : forall p, cv_check p = Ok tt <-> doc_cv p.
Proof. exact cv_check_ok. Qed.
Print Assumptions C58_cv.
Example C58_cv_ex : cv_check ex_cv = Ok tt /\ cv_check (CP (VInt 0) (VStr "hetero") (VStr "guest") (VBool true) (VInt 1)) = Err ValueError.
Proof. done. Qed.

(** The binning parameters; an error of 1 and an adjustment factor strictly between 0 and 1. *)
Theorem C58_binning : forall p p', binning_check p = Ok p' <-> doc_binning p p'.
Proof. exact binning_check_ok. Qed.
Print Assumptions C58_binning.
Example C58_binning_ex :
  binning_check (FP (VStr "Quantile") (VInt 10000) (VInt 10000) (VFloat (Fin (Q2Qc (1 # 1000)))) (VInt 10) (VInt (-1)) (VFloat (Fin (Q2Qc (1 # 2)))))
  = Ok (FP (VStr "quantile") (VInt 10000) (VInt 10000) (VFloat (Fin (Q2Qc (1 # 1000)))) (VInt 10) (VInt (-1)) (VFloat (Fin (Q2Qc (1 # 2)))))
  /\ binning_check (FP (VStr "quantile") (VInt 10000) (VInt 10000) (VInt 0) (VInt 10) (VInt (-1)) (VFloat (Fin (Q2Qc (1 # 2))))) = Err ValueError.
Proof. done. Qed.

(** (Defect) The transform type is compared with type names: both documented values, 'bin_num' and None, raise. *)
Theorem C58_transform : forall cols t,
  transform_check cols t = Ok tt <->
  t = VOther Class_bin_num
  /\ (cols = VNone \/ cols = VInt (-1) \/ cols = VFloat (Fin (zq (-1))) \/ exists l, cols = VList l).
Proof.
  intros cols t. unfold transform_check. rewrite bind_ok.
  assert (check_defined_type t ["bin_num"] = Ok tt <-> t = VOther Class_bin_num) as Ht.
  { destruct t as [| | | | | |[]]; (split; [intros H; try discriminate H; done|intros H; try discriminate H; done]). }
  split.
  - intros ([]&H&Hb). split; [by apply Ht|]. destruct cols as [| |z|[q| | |]| |l|[]]; try discriminate H; eauto.
    + destruct (z =? -1) eqn:E; [|discriminate H]. apply Z.eqb_eq in E as ->. eauto.
    + destruct (qeqb q (zq (-1))) eqn:E; [|discriminate H]. apply qeqb_true in E as ->. eauto.
  - intros [Hb H]. exists tt. split; [|by apply Ht]. destruct H as [->|[->|[->|[l ->]]]]; done.
Qed.
Print Assumptions C58_transform.
Example C58_transform_refuted : transform_check (VInt (-1)) (VStr "bin_num") = Err ValueError /\ transform_check (VInt (-1)) VNone = Err ValueError.
Proof. done. Qed.
