(** C79. *)
From Verif Require Import RuleProofs.
Local Open Scope string_scope.

(** What passes: every attribute whose own name is a key at the top of the rule file has a section with rules, one of which it meets. *)
Theorem C79_accepts json x : validate (Some json) x = Ok tt -> obeys json x.
Proof. apply validate_sound. Qed.
Print Assumptions C79_accepts.
Theorem C79_exactly file x : (forall json, file = Some json -> fits json x) -> (validate file x = Ok tt <-> forall json, file = Some json -> obeys json x).
Proof.
  intros F. destruct file as [json|]; cbn [validate].
  - split; [intros H json' [= <-]; now apply validate_sound|]. intros H. apply validate_complete; [now apply F|now apply H].
  - split; [intros _ json [=]|reflexivity].
Qed.
Print Assumptions C79_exactly.
(** A file that has only sections, named after classes: no value is ever rejected, whatever the rules are. *)
Theorem C79_sections_ignored json class fields : (forall name x, (name, x) ∈ fields -> ~ key json name) -> validate (Some json) (PSub class fields) = Ok tt.
Proof. intros H. apply field_cases. intros name x I K. now destruct (H _ _ I). Qed.
Print Assumptions C79_sections_ignored.
(** What is not let pass gives a ValueError, if the file has rules for all attributes it has keys for; a KeyError is possible otherwise. *)
Theorem C79_errors json x : fits json x -> (exists e, validate (Some json) x = Err e) -> (validate (Some json) x = Err ValueError \/ validate (Some json) x = Err KeyError) /\ (complete json x -> validate (Some json) x = Err ValueError).
Proof. intros F [e E]. cbn [validate] in *. destruct (validate_error json x e F E) as [O C]. rewrite E. split; [destruct O as [->| ->]; auto|]. intros K. now rewrite (C K). Qed.
Print Assumptions C79_errors.

(** Examples. *)
Definition rex_param (trees : Z) (task : string) : pattr :=
  PSub "BoostingTreeParam" [("num_trees", PVal (RNum (zq trees))); ("task_type", PVal (RStr task)); ("tree_param", PSub "DecisionTreeParam" [("max_depth", PVal (RNum (zq 5)))]); ("learning_rate", PVal (RNum (Q2Qc (3 # 10))))].
Definition rex_sections : rule_file :=
  [("BoostingTreeParam", [("num_trees", [("ge", ANum (zq 1)); ("le", ANum (zq 100))]); ("task_type", [("in", AList [RStr "classification"; RStr "regression"])])]); ("DecisionTreeParam", [("max_depth", [("range", ARanges [(zq 1, zq 3); (zq 5, zq 9)])])])].
Definition rex_keys : rule_file := (rex_sections ++ [("num_trees", []); ("task_type", []); ("tree_param", []); ("max_depth", [])])%list.
Lemma rex_fits json trees task : (forall class, class = "BoostingTreeParam" \/ class = "DecisionTreeParam" -> get class json = get class rex_sections) -> fits json (rex_param trees task).
Proof.
  intros G. assert (T : fits json (PSub "DecisionTreeParam" [("max_depth", PVal (RNum (zq 5)))])).
  { constructor.
    - intros name v s rs op a I E1 E2 J. apply elem_of_list_singleton in I as [= -> ->]. rewrite G in E1 by auto. vm_compute in E1. injection E1 as <-. vm_compute in E2. injection E2 as <-. apply elem_of_list_singleton in J as [= -> ->]. split; [reflexivity|eauto].
    - intros name c fs I. apply elem_of_list_singleton in I as [=]. }
  constructor.
  - intros name v s rs op a I E1 E2 J. rewrite G in E1 by auto. vm_compute in E1. injection E1 as <-.
    repeat (apply elem_of_cons in I as [[=]|I]); try (now apply elem_of_nil in I); subst; vm_compute in E2; try discriminate; injection E2 as <-; repeat (apply elem_of_cons in J as [[=]|J]); try (now apply elem_of_nil in J); subst; cbn; eauto.
  - intros name c fs I. repeat (apply elem_of_cons in I as [[=]|I]); try (now apply elem_of_nil in I); subst. exact T.
Qed.
Example C79_ex : fits rex_keys (rex_param 10 "regression") /\ validate (Some rex_keys) (rex_param 10 "regression") = Ok tt /\ validate (Some rex_keys) (rex_param 10 "clustering") = Err ValueError.
Proof. split; [apply rex_fits; intros class [-> | ->]; reflexivity|]. split; vm_compute; reflexivity. Qed.
(** A key without a section, and a limit that is missed by less than the tolerance. *)
Example C79_missing_ex : validate (Some [("num_trees", [])]) (rex_param 10 "regression") = Err KeyError /\
  validate (Some [("num_trees", []); ("BoostingTreeParam", [("num_trees", [("ge", ANum (Q2Qc (100000001 # 10000000)))])])]) (rex_param 10 "regression") = Ok tt.
Proof. split; vm_compute; reflexivity. Qed.
(** The rules of a file that only has sections are not looked at: an unknown task passes. *)
Theorem C79_sections_refuted : exists task, fits rex_sections (rex_param 10 task) /\ validate (Some rex_sections) (rex_param 10 task) = Ok tt /\
  exists s rs, get "BoostingTreeParam" rex_sections = Some s /\ get "task_type" s = Some rs /\ forall op a, (op, a) ∈ rs -> ~ meets (RStr task) op a.
Proof.
  exists "clustering". split; [|split; [vm_compute; reflexivity|]].
  - apply rex_fits. reflexivity.
  - eexists _, _. split; [reflexivity|]. split; [reflexivity|]. intros op a I M. apply elem_of_list_singleton in I as [= -> ->].
    match type of M with meets ?v ?o ?b => assert (E : apply_rule o v b = Ok false) by (vm_compute; reflexivity) end. apply apply_meets in E. apply E in M. discriminate.
Qed.
Print Assumptions C79_sections_refuted.
(** With keys: one rule is enough, so that a lower and an upper limit reject nothing: 1000 trees pass though the file allows at most 100. *)
Theorem C79_all_rules_refuted : exists v op a, fits rex_keys (rex_param v "regression") /\ validate (Some rex_keys) (rex_param v "regression") = Ok tt /\ (op, a) ∈ [("ge", ANum (zq 1)); ("le", ANum (zq 100))] /\
  (exists s, get "BoostingTreeParam" rex_keys = Some s /\ get "num_trees" s = Some [("ge", ANum (zq 1)); ("le", ANum (zq 100))]) /\ ~ meets (RNum (zq v)) op a.
Proof.
  exists 1000%Z, "le", (ANum (zq 100)). split; [|split; [vm_compute; reflexivity|split; [right; left|split; [eexists; split; reflexivity|]]]].
  - apply rex_fits. intros class [-> | ->]; reflexivity.
  - intros M. assert (E : apply_rule "le" (RNum (zq 1000)) (ANum (zq 100)) = Ok false) by (vm_compute; reflexivity). apply apply_meets in E. apply E in M. discriminate.
Qed.
Print Assumptions C79_all_rules_refuted.
