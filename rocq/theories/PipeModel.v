(** Model of fit and predict as the scripts call them: ml/tree/hetero_secureboosting_tree_guest.py and
    hetero_secureboosting_tree_host.py from the tables of row objects to the model, and from a model and tables of row objects to
    the predictions. The parts are BinningModel and BoostModel. *)
From Verif Require Export BoostModel.
Local Open Scope nat_scope.

(** The entries of a converted row (ints in Python; BinningModel keeps all entries as rationals), and of an aligned row. *)
Definition row_bins (f : feats) : dict nat nat :=
  match f with FSparse d _ => map (fun ix => (ix.1, Z.to_nat (qfloor ix.2))) d | FDense _ => [] end.
Definition row_values (f : feats) : dict nat Qc := match f with FSparse d _ => d | FDense _ => [] end.
(** A table of row objects as a table of what is read from them. *)
Definition view {K A} `{EqDecision K} (g : feats -> A) (h : heap) (t : dtable K loc) : res (dtable K A) :=
  dt_mapValues (fun l => match h !! l with Some o => Ok (g o) | None => Err AttributeError end) t.

Section Pipe.
  Context {K N : Type} `{EqDecision K} `{EqDecision N} {C E : Type}.
  Context (rnd : Qc -> Qc) (pred : loss_kind -> list Qc -> list Qc) (lossf : loss_kind -> dtable K nat -> dtable K (list Qc) -> Qc).
  (** Parameters: of boosting, of binning, of a tree (decision_tree.py:29-36). *)
  Context (P : bparams) (bp : bin_params) (par : sparams) (depth stp : nat).
  Local Notation msg := (msg K C E).

  (** hetero_secureboosting_tree_guest.py:244-249 (80-87) and hetero_secureboosting_tree_host.py:79-84 (30-35): align, find the
      split points, convert; then what set_inputinfo hands to every tree. The mask is set per tree. *)
  Definition load (header : list N) (h : heap) (t : dtable K loc) : res (heap * pcfg K) :=
    r ← prepare bp header h t;
    data ← view row_bins r.1.1.1 r.1.1.2;
    Ok (r.1.1.1, PCfg par depth stp r.1.2 r.2 [] data).

  (** hetero_secureboosting_tree_guest.py:243-296 fit; [labels] are the labels of the row objects (93-96 set_y). *)
  Definition guest_job {R} (nh : nat) (it : imp_type) (draw : nat -> nat -> nat -> list nat) (enc : nat -> dtable K (Qc * Qc) -> res (dtable K (C * C)))
      (dec : C -> res Qc) (gdec : E -> res Qc) (genc : nat -> nat -> nat -> Qc -> res E) (header : list N) (h : heap) (t : dtable K loc) (labels : dtable K label)
      : cps nat msg R (heap * (list label * nat * loss_kind) * bstate) :=
    (r <- clift (load header h t);
     c <- clift (check_label labels);
     st <- guest_train rnd pred lossf nh P r.2 it c.1.2 c.1.1.2 c.2 draw enc dec gdec genc;
     cret (r.1, c.1, st))%cps.
  (** hetero_secureboosting_tree_host.py:79-115 fit *)
  Definition host_job {R} (Ops : numops C) (sn : site) (draw : nat -> nat -> nat -> list nat) (header : list N) (h : heap) (t : dtable K loc)
      : cps unit msg R (heap * (nat * list tree_pb)) :=
    (r <- clift (load header h t);
     m <- host_train Ops sn P r.2 draw;
     cret (r.1, m))%cps.

  (** hetero_secureboosting_tree_guest.py:315-328 predict; [m] are classes_, tree_dim and loss. *)
  Definition guest_predict_job {R} (nh fuel : nat) (m : list label * nat * loss_kind) (trees : list tree_pb) (threshold : Qc) (h : heap) (t : dtable K loc)
      (labels : dtable K label) : cps nat msg R (heap * dtable K (label * label * Qc)) :=
    (ht <- clift (data_alignment h t);
     rows <- clift (view row_values ht.1 ht.2);
     F <- guest_score rnd nh (b_lr P) m.1.2 trees rows fuel;
     r <- clift (predict_result m.1.1 threshold (pred m.2) labels F);
     cret (ht.1, r))%cps.
  (** hetero_secureboosting_tree_host.py:117-133 predict *)
  Definition host_predict_job {R} (fuel : nat) (sn : site) (m : nat * list tree_pb) (h : heap) (t : dtable K loc) : cps unit msg R heap :=
    (ht <- clift (data_alignment h t);
     rows <- clift (view row_values ht.1 ht.2);
     _ <- host_score m.1 m.2 rows fuel sn;
     cret ht.1)%cps.
End Pipe.
