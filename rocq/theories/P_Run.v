(** C59: component runs. C62: configurations. *)
From Verif Require Import RunModel RunSpec RunProofs.
Local Open Scope string_scope.
Local Open Scope list_scope.

(** The output of a run, in every case. *)
Theorem C59_runs :
  forall (K I V Sid M : Type) (eqd : EqDecision K) (vstr : string -> V) (ms : methods K I V Sid M) need_run sets stage old m o m',
    sound ms -> run_data vstr ms need_run sets stage old m = Ok (o, m') <-> runs vstr ms need_run sets stage old m o m'.
Proof. intros. by apply run_data_ok. Qed.
Print Assumptions C59_runs.

(** (Defect) With training and evaluation data given together the output has exactly the keys of the training predictions and
    no row ends with the mark of an evaluation row. *)
Theorem C59_lost :
  forall (K I V Sid M : Type) (eqd : EqDecision K) (vstr : string -> V) (ms : methods K I V Sid M) sets tr ev old m o m' m1 p m2,
    sound ms -> (forall a b, vstr a = vstr b -> a = b) ->
    given ds_train sets (Some tr) -> given ds_eval sets (Some ev) ->
    fit_as ms tr m m1 -> predict_as ms "predict" tr m1 (Some p) m2 ->
    run_data vstr ms true sets "fit" old m = Ok (o, m') ->
    exists t, o = Some t /\ map fst (dt_data (t_rows t)) = map fst (dt_data (t_rows p))
      /\ (exists q, predict_as ms "validate" ev m2 q m')
      /\ forall k l, (k, Pred (l ++ [vstr "validation"])) ∉ dt_data (t_rows t).
Proof.
  intros K I V Sid M eqd vstr ms sets tr ev old m o m' m1 p m2 Hs Hinj Ht He Hf Hp H.
  apply run_data_ok in H; [|done]. apply given_fun in Ht, He.
  inversion H as [| | | |tr' ev' ? ? _ _ _ Ht' He' Hl|? ? ? _ _ Ht'|? ? ? _ Hst]; subst; try done.
  - apply given_fun in Ht', He'. rewrite <- Ht in Ht'. rewrite <- He in He'. subst.
    inversion Hl as [|? ? ? ? m1' m2' ? p' q ? Hf' Hp' Hq Hct Hrep _|]; subst.
    destruct Hf as [a Hf], Hf' as [b Hf']. rewrite Hf in Hf'. injection Hf' as _ <-.
    unfold predict_as in Hp, Hp'. rewrite Hp in Hp'. injection Hp' as <- <-.
    destruct (Hrep ltac:(done)) as [[? _]|(t&rows&[= <-]&->&Hm)]; [done|].
    eexists. split; [done|]. cbn. split; [by eapply marks_keys|]. split; [by exists q|].
    intros k l Hin. apply elem_of_list_lookup in Hin as [i Hi].
    destruct (Forall2_lookup_r _ _ _ _ _ Hm Hi) as (x&_&_&l0&_&E). cbn in E. injection E as E.
    apply app_inj_tail in E as [_ E]. apply Hinj in E. discriminate E.
  - apply given_fun in Ht'. by rewrite <- Ht in Ht'.
Qed.
Print Assumptions C59_lost.

(** Evaluation data alone: every prediction is in the output, in order, with the mark "test". *)
Theorem C59_test :
  forall (K I V Sid M : Type) (eqd : EqDecision K) (vstr : string -> V) (ms : methods K I V Sid M) sets ev old m o m' stage,
    sound ms -> stage = "fit" \/ stage = "transform" -> given ds_train sets None -> given ds_eval sets (Some ev) ->
    run_data vstr ms true sets stage old m = Ok (o, m') <->
    exists p, predict_as ms "predict" ev m p m' /\ reported vstr "test" ev p o.
Proof.
  intros K I V Sid M eqd vstr ms sets ev old m o m' stage Hs Hst Ht He. rewrite run_data_ok by done. split.
  - intros H. pose proof Ht as Ht0. pose proof He as He0. apply given_fun in Ht, He.
    inversion H as [| | | |tr' ev' ? ? _ _ _ Ht' He' Hl|? ? ? _ _ _ He'|? ? ? _ ? ? ? _ He']; subst; try (by destruct Hst); try done.
    + apply given_fun in Ht', He'. rewrite <- Ht in Ht'. rewrite <- He in He'. subst. inversion Hl; subst. by eexists.
    + apply given_fun in He'. by rewrite <- He in He'.
    + apply given_fun in He'. by rewrite <- He in He'.
  - intros (p&Hp&Hr). eapply runs_learn; [done|by destruct Hst as [->| ->]|by destruct Hst as [->| ->]|done|done|].
    by eapply learned_test.
Qed.
Print Assumptions C59_test.

(** A component switched off hands its data on without calling any method. *)
Theorem C59_off :
  forall (K I V Sid M : Type) (eqd : EqDecision K) (vstr : string -> V) (ms : methods K I V Sid M) sets stage old m,
    exists o, given ds_data sets o /\ run_data vstr ms false sets stage old m = Ok (o, m).
Proof. intros. exists (pick ds_data sets). split; [apply pick_given|done]. Qed.
Print Assumptions C59_off.

(** The stage of a run: cross validation first, then one-versus-rest, then a loaded model, which is not fitted again; without
    data nothing is run. *)
Theorem C59_stage :
  forall (K I V Sid M : Type) (eqd : EqDecision K) (vstr : string -> V) (ms : methods K I V Sid M)
    need_run need_cv need_rest has_model has_iso sets old m o m',
    run vstr ms need_run need_cv need_rest has_model has_iso sets old m = Ok (o, m') <->
    exists stage m1,
      ((need_cv = true /\ stage = "cross_validation" /\ m1 = m)
       \/ (need_cv = false /\ need_rest = true /\ stage = "one_vs_rest" /\ (if has_model then m_load ms m = Ok m1 else m1 = m))
       \/ (need_cv = false /\ need_rest = false /\ has_model = true /\ stage = "transform" /\ m_load ms m = Ok m1)
       \/ (need_cv = false /\ need_rest = false /\ has_model = false /\ stage = "fit"
           /\ (if has_iso then m_load ms m = Ok m1 else m1 = m)))
      /\ match sets with None => o = old /\ m' = m1 | Some s => run_data vstr ms need_run s stage old m1 = Ok (o, m') end.
Proof.
  intros K I V Sid M eqd vstr ms need_run need_cv need_rest has_model has_iso sets old m o m'.
  assert (forall st m1, match sets with None => Ok (old, m1) | Some s => run_data vstr ms need_run s st old m1 end = Ok (o, m') <->
            match sets with None => o = old /\ m' = m1 | Some s => run_data vstr ms need_run s st old m1 = Ok (o, m') end) as Hend.
  { intros st m1. destruct sets; [done|]. split; [by intros [= <- <-]|by intros [-> ->]]. }
  unfold run. rewrite bind_inv. split.
  - intros ([st m1]&H&H2). exists st, m1. split; [|by apply Hend].
    destruct need_cv; [injection H as <- <-; by left|]. right.
    destruct need_rest; [left|right].
    { apply bind_inv in H as (m2&H&[= <- <-]). split_and!; try done. destruct has_model; [done|]. by injection H as <-. }
    destruct has_model; [left|right].
    { apply bind_inv in H as (m2&H&[= <- <-]). done. }
    destruct has_iso; [apply bind_inv in H as (m2&H&[= <- <-]); done|]. by injection H as <- <-.
  - intros (st&m1&H&H2). exists (st, m1). split; [|by apply Hend].
    destruct H as [(->&->&->)|[(->&->&->&H)|[(->&->&->&->&H)|(->&->&->&->&H)]]]; [done| |by rewrite H|].
    + destruct has_model; [by rewrite H|by subst].
    + destruct has_iso; [by rewrite H|by subst].
Qed.
Print Assumptions C59_stage.

(** A model that predicts one value per row and counts its calls. *)
Definition ex_predict (t : table nat Z string unit) (m : nat) : res (option (table nat Z string unit) * nat) :=
  Ok (Some (Tab (DT (map (fun kv : nat * row Z string => (kv.1, Pred ["1"])) (dt_data (t_rows t)))) None None), S m).
Definition ex_methods : methods nat Z string unit nat :=
  Methods (fun _ m => m) (fun m => Ok m) (fun _ m => Ok (None, S m)) ex_predict (fun t m => Ok (t, m)) (fun _ m => Ok m) (fun _ m => Ok m)
    ex_predict.
Definition ex_train : table nat Z string unit := Tab (DT [(1%nat, Inst 5%Z); (2%nat, Inst 6%Z)]) None (Some tt).
Definition ex_eval : table nat Z string unit := Tab (DT [(7%nat, Inst 8%Z)]) None None.
Example C59_ex :
  run_data id ex_methods true [DS (Some ex_train) None None; DS None (Some ex_eval) None] "fit" None 0%nat
  = Ok (Some (Tab (DT [(1%nat, Pred ["1"; "train"]); (2%nat, Pred ["1"; "train"])])
                  (Some ["label"; "predict_result"; "predict_score"; "predict_detail"; "type"]) (Some tt)), 3%nat)
  /\ run_data id ex_methods true [DS None (Some ex_eval) None] "transform" None 0%nat
  = Ok (Some (Tab (DT [(7%nat, Pred ["1"; "test"])])
                  (Some ["label"; "predict_result"; "predict_score"; "predict_detail"; "type"]) None), 1%nat)
  /\ run id ex_methods true false false true false (Some [DS (Some ex_train) (Some ex_eval) None]) None 0%nat
     = run_data id ex_methods true [DS (Some ex_train) (Some ex_eval) None] "transform" None 0%nat.
Proof. done. Qed.

(** The wanted property, every evaluation row predicted is in the output, fails. *)
Theorem C59_output_refuted :
  exists (ms : methods nat Z string unit nat) sets ev m o m' q m2 m3 k,
    given ds_eval sets (Some ev) /\ run_data id ms true sets "fit" None m = Ok (Some o, m')
    /\ predict_as ms "validate" ev m2 (Some q) m3 /\ k ∈ map fst (dt_data (t_rows q)) /\ k ∉ map fst (dt_data (t_rows o)).
Proof.
  exists ex_methods, [DS (Some ex_train) (Some ex_eval) None], ex_eval, 0%nat. do 2 eexists. do 2 eexists. exists 3%nat, 7%nat.
  split; [apply given_fun; reflexivity|]. split; [reflexivity|]. split; [reflexivity|]. cbn.
  split; [left|]. apply (bool_decide_unpack _). reflexivity.
Qed.
Print Assumptions C59_output_refuted.

(** * C62 *)

(** Reading a configuration changes exactly the parameters it names: each parameter has the configured value if there is one
    and its former value otherwise, and no parameter appears or disappears. *)
Theorem C62_override :
  forall (V : Type) (value_in : V -> string -> option bool) class a entries c a' path v,
    named a -> NoDup (map fst entries) -> (class, c) ∈ entries -> conf_named c ->
    parse_param value_in class a (Some entries) = Ok a' ->
    holds a' path v <->
    (exists v0, holds a path v0) /\ (gives c path v \/ ((forall v', ~ gives c path v') /\ holds a path v)).
Proof.
  intros V value_in class a entries c a' path v Hn Hnd Hin Hc H. unfold parse_param in H.
  apply entry_in in Hin; [|done]. rewrite Hin in H. by eapply parse_holds.
Qed.
Print Assumptions C62_override.

(** A configuration without a section for the class changes nothing. *)
Theorem C62_no_section :
  forall (V : Type) (value_in : V -> string -> option bool) class a entries,
    (forall c, (class, c) ∉ entries) -> parse_param value_in class a (Some entries) = Ok a.
Proof. intros V value_in class a entries H. unfold parse_param. by rewrite (proj2 (entry_none class entries) H). Qed.
Print Assumptions C62_no_section.

(** It succeeds when the configuration has the nesting of the parameters and these are nested at most six deep. *)
Theorem C62_succeeds :
  forall (V : Type) (value_in : V -> string -> option bool) class a entries c,
    NoDup (map fst entries) -> (class, c) ∈ entries -> conf_named c -> fits 6 a c ->
    exists a', parse_param value_in class a (Some entries) = Ok a'.
Proof.
  intros V value_in class a entries c Hnd Hin Hc Hf. unfold parse_param. apply entry_in in Hin; [|done]. rewrite Hin.
  by eapply parse_fits.
Qed.
Print Assumptions C62_succeeds.

(** Objects nested in each other, with a configuration that goes as deep: six are read, seven are too many. *)
Fixpoint deep_attr (v : Z) (n : nat) : attr Z := match n with O => ALeaf (CValue v) | S n => AObj [("a", deep_attr v n)] end.
Fixpoint deep_conf (v : Z) (n : nat) : config Z := match n with O => CValue v | S n => CDict [("a", deep_conf v n)] end.
Theorem C62_deep :
  forall value_in n v w,
    ((n <= 6)%nat -> parse_param value_in "P" (deep_attr v n) (Some [("P", deep_conf w n)]) = Ok (deep_attr w n))
    /\ ((6 < n)%nat -> parse_param value_in "P" (deep_attr v n) (Some [("P", deep_conf w n)]) = Err ValueError).
Proof.
  intros value_in n v w. do 7 (destruct n as [|n]; [split; [reflexivity|lia]|]). split; [lia|reflexivity].
Qed.
Print Assumptions C62_deep.

(** (Defect) A misspelt parameter is ignored without a word, and so is a section given as a text that names none. *)
Definition ex_param : attr Z := AObj [("learning_rate", ALeaf (CValue 3%Z)); ("tree_param", AObj [("max_depth", ALeaf (CValue 5%Z))])].
Theorem C62_misspelt_refuted :
  exists (value_in : Z -> string -> option bool) c c',
    parse_param value_in "P" ex_param (Some [("P", c)]) = Ok ex_param /\ parse_param value_in "P" ex_param (Some [("P", c')]) = Ok ex_param
    /\ gives c ["learning_rat"] (CValue 9%Z) /\ gives c' ["tree_param"] (CValue 2%Z).
Proof.
  exists (fun _ _ => Some false), (CDict [("learning_rat", CValue 9%Z)]), (CDict [("tree_param", CValue 2%Z)]).
  split; [reflexivity|]. split; [reflexivity|].
  split; (eapply gives_entry; [left|constructor]).
Qed.
Print Assumptions C62_misspelt_refuted.
Example C62_ex :
  parse_param (fun _ _ => None) "P" ex_param
    (Some [("Q", CValue 0%Z); ("P", CDict [("tree_param", CDict [("max_depth", CValue 3%Z)]); ("other", CValue 1%Z)])])
  = Ok (AObj [("learning_rate", ALeaf (CValue 3%Z)); ("tree_param", AObj [("max_depth", ALeaf (CValue 3%Z))])])
  /\ parse_param (fun _ _ => None) "P" ex_param (Some [("P", CDict [("tree_param", CValue 3%Z)])]) = Err TypeError
  /\ parse_param (fun _ _ => Some true) "P" ex_param (Some [("P", CDict [("tree_param", CValue 3%Z)])]) = Err TypeError
  /\ parse_param (fun _ _ => Some true) "P" (AObj [("x", ex_param)]) (Some [("P", CValue 3%Z)]) = Err AttributeError
  /\ parse_param (fun _ _ => None) "P" ex_param None = Err ValueError.
Proof. done. Qed.
