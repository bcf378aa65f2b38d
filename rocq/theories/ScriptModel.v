(** Model of the two programs guest.py and host.py from the files to the accuracy that is printed: reading and dividing (InputModel),
    fit and predict (PipeModel). *)
From Verif Require Export PipeModel InputModel.
Local Open Scope nat_scope.

(** Labels are strings (i_o/utils.py:48); a code point is not negative. *)
Definition text_label (t : text) : label := LStr (map Z.to_N t).
(** guest.py:53-54, host.py:45-46 — every row of a table is an object of its own, its features an array. The training rows come
    first in memory, then the test rows; the places are not observable. *)
Definition inst_heap (train test : dtable nat (instance Qc)) : heap := map (fun i => FDense (inst_features i)) (dt_values train ++ dt_values test).
Definition inst_locs (first : nat) (t : dtable nat (instance Qc)) : dtable nat loc := DT (imap (fun i kv => (kv.1, first + i)) (dt_data t)).
(** [instance.label]: the guest has set one for every row (guest.py:53). *)
Definition inst_labels (t : dtable nat (instance Qc)) : res (dtable nat label) :=
  dt_mapValues (fun i => match inst_label i with Some l => Ok (text_label l) | None => Err AttributeError end) t.

Section Script.
  Context {C E G : Type}.
  Context (rnd : Qc -> Qc) (pred : loss_kind -> list Qc -> list Qc) (lossf : loss_kind -> dtable nat nat -> dtable nat (list Qc) -> Qc).
  Context (P : bparams) (bp : bin_params) (par : sparams) (depth stp : nat).
  (** The module random and built-in float; every cell is a finite number. *)
  Context (seeded : Z -> G) (below : G -> nat -> nat * G) (py_float : text -> option Qc).
  Local Notation msg := (msg nat C E).

  (** guest.py:26-82 from line 48 on; the result is what is printed. [gen] is the state of the random generator before. *)
  Definition guest_script {R} (nh fuel : nat) (it : imp_type) (draw : nat -> nat -> nat -> list nat) (enc : nat -> dtable nat (Qc * Qc) -> res (dtable nat (C * C)))
      (dec : C -> res Qc) (gdec : E -> res Qc) (genc : nat -> nat -> nat -> Qc -> res E) (threshold : Qc) (file : text) (ratio : Qc) (gen : G) : cps nat msg R (option Qc) :=
    (t <- clift (guest_tables seeded below py_float file ratio gen);
     let train := t.1.2 in let test := t.2 in
     labels <- clift (inst_labels train);
     r <- guest_job rnd pred lossf P bp par depth stp nh it draw enc dec gdec genc t.1.1 (inst_heap train test) (inst_locs 0 train) labels;
     labels' <- clift (inst_labels test);
     out <- guest_predict_job rnd pred P nh fuel r.1.2 (bs_trees r.2) threshold r.1.1 (inst_locs (dt_count train) test) labels';
     clift (accuracy (DT (map (fun kv => (kv.1, kv.2.1)) (dt_data out.2)))))%cps.
  (** host.py:22-61 from line 40 on; nothing is printed. *)
  Definition host_script {R} (fuel : nat) (Ops : numops C) (sn : site) (draw : nat -> nat -> nat -> list nat) (file : text) (ratio : Qc) (gen : G) : cps unit msg R unit :=
    (t <- clift (host_tables seeded below py_float file ratio gen);
     let train := t.1.2 in let test := t.2 in
     r <- host_job P bp par depth stp Ops sn draw t.1.1 (inst_heap train test) (inst_locs 0 train);
     _ <- host_predict_job fuel sn r.2 r.1 (inst_locs (dt_count train) test);
     cret tt)%cps.
End Script.
